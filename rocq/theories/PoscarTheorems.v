(** Consequences of the reader and writer lemmas, in the form the statements need. *)
From Coq Require Import Ascii String List NArith ZArith QArith Qabs Bool Lia Arith Permutation Sorting.Sorted.
From Verif Require Import PyBase PyNum PyStrLemmas PyNumLemmas PyFmtLemmas PyLines PyToken UtilsModel KpointsModel KpointsSpec KpointsCodes
  PoscarModel ArithModel PoscarGroup PoscarSpec PoscarRead PoscarRoundTrip.
Import ListNotations.
Local Open Scope list_scope.
Local Open Scope bool_scope.
Local Open Scope nat_scope.

Lemma capitalize_lower_capitalize s : capitalize (lower (capitalize s)) = capitalize s.
Proof.
  destruct s as [|c s]; auto. cbn [capitalize lower map]. f_equal.
  - assert (aeqb (upper1 (lower1 (upper1 c))) (upper1 c) = true) as H by (revert c; apply forall_ascii; vm_compute; reflexivity). apply aeqb_eq in H. exact H.
  - fold (lower s). fold (lower (lower s)). fold (lower (lower (lower s))). rewrite !lower_idem. reflexivity.
Qed.
Lemma Ok_inj {T} (a b : T) : Ok a = Ok b -> a = b.
Proof. intros H. congruence. Qed.
Section T.
Variable A : arith.

Lemma wsites_inv l ws : mapM (wsite_of A) l = Ok ws ->
  exists ss, l = map (SSite A) ss /\ ws = map (view A) ss /\ Forall (fun s => si_direct A s = true) ss.
Proof.
  revert ws. induction l as [|v l IH]; intros ws H; cbn [mapM] in H.
  - inversion H. exists []. auto.
  - apply bind_ok in H as [w [H1 H]]. apply bind_ok in H as [ws' [H2 H]]. inversion H; subst. destruct (IH _ H2) as (ss & -> & -> & F).
    destruct v as [s| |]; try discriminate. cbn [wsite_of] in H1. destruct (si_direct A s) eqn:D; [|discriminate]. inversion H1.
    exists (s :: ss). auto.
Qed.
Lemma order_of_group c ws out gs : group_sites A c ws = (out, gs) -> order_written A c ws out.
Proof.
  intros G. destruct c; cbn [order_written].
  - apply group_conserve in G. tauto.
  - apply group_default in G as (P & N & _ & E & F & _). split; auto. split; auto. exists gs. auto.
Qed.

Lemma comment_line_nobreak gs co c : comment_text A gs co = Ok c -> Forall (fun g => is_token (fst g) = true) gs ->
  match co with PStr _ t => nobreak t = true | _ => True end -> nobreak c = true.
Proof.
  intros H G N.
  assert (nobreak (compound gs) = true) as NC.
  { unfold compound. rewrite !nobreak_app. change (nobreak (lit "Compound: ")) with true. change (nobreak (lit ".")) with true.
    cbn [andb]. rewrite andb_true_r. clear H. induction G as [|g gs T G IH]; auto. cbn [flat_map]. rewrite nobreak_app, IH, andb_true_r.
    rewrite nobreak_app, token_nobreak by (rewrite capitalize_token; auto). cbn [andb]. destruct (snd g =? 1); auto.
    apply token_nobreak. apply str_of_Z_token. }
  destruct co; cbn [comment_text] in H; try discriminate.
  - apply Ok_inj in H. rewrite <- H. rewrite nobreak_app, NC. reflexivity.
  - destruct (substrb (compound gs) s); apply Ok_inj in H; rewrite <- H; rewrite !nobreak_app, N, ?NC; reflexivity.
Qed.

(** the text of a written object, and what every channel reads from it *)
Theorem written_read prec rr conserve wd es txt ch cell ss : fmt_ok A prec rr -> unit_ok A ->
  get_string A prec conserve wd es = Ok txt -> pholds es "unitcell" (PMat A cell) -> pholds es "sites" (PSites A (map (SSite A) ss)) ->
  species_readable A ss -> comment_plain A es -> invertible A rr wd cell ->
  exists es' out ss' gs c co, pread A ch txt = Ok es' /\
    pholds es "comment" co /\ comment_text A gs co = Ok c /\ (exists r, write_lines A prec conserve wd es = Ok (c :: r)) /\
    group_sites A conserve (map (view A) ss) = (out, gs) /\
    es' = [(lit "comment", PStr A (comment_read_back c)); (lit "unitcell", PMat A (map (map rr) cell)); (lit "sites", PSites A (map (SSite A) ss'))] /\
    Forall2 (site_back A rr wd cell) out ss'.
Proof.
  intros FO UO G HU HL [TS NN] CP I. unfold get_string in G. apply bind_ok in G as [ls [W G]]. inversion G as [Etxt]. clear G. change (concat _) with (unlines ls) in Etxt.
  destruct (write_lines_inv A prec conserve wd es ls W) as (co & cell2 & l2 & sites & out & gs & c & pos & vel & pre & HC & HU2 & SQ & HL2 & HW & HG & CT & _ & _ & _ & E).
  unfold pholds in *. rewrite HU in HU2. inversion HU2. subst cell2. rewrite HL in HL2. inversion HL2. subst l2. clear HU2 HL2.
  destruct (wsites_inv _ _ HW) as (ss2 & Es & -> & DS).
  assert (ss2 = ss) as ->. { clear -Es. revert ss2 Es. induction ss as [|s ss IH]; intros [|s2 ss2] H; try discriminate; auto. inversion H. f_equal. apply IH; auto. }
  assert (Forall (fun w => is_token (ws_specie A w) = true) (map (view A) ss)) as TW.
  { clear -TS. induction TS; constructor; auto. cbn [view ws_specie]. unfold get_specie. rewrite capitalize_token. auto. }
  assert (map (view A) ss = [] \/ Exists (fun w => is_number (capitalize (ws_specie A w)) = false) (map (view A) ss)) as NW.
  { destruct NN as [-> |NN]; [left; reflexivity|right]. apply Exists_exists in NN as [s [Hs Ns]]. apply Exists_exists. exists (view A s). split; [apply in_map; auto|].
    cbn [view ws_specie]. unfold get_specie in *. rewrite capitalize_idem. exact Ns. }
  assert (nobreak (hd [] ls) = true) as NC.
  { rewrite E. cbn [app hd]. eapply comment_line_nobreak; [exact CT|eapply groups_tokens; eauto|]. destruct co; auto. }
  destruct (read_written A prec rr FO UO conserve wd es ls cell (map (SSite A) ss) _ out gs W HU HL HW HG TW NW NC I) as (ss' & NB & FL & SB).
  set (es' := [(lit "comment", PStr A (comment_read_back c)); (lit "unitcell", PMat A (map (map rr) cell)); (lit "sites", PSites A (map (SSite A) ss'))]).
  exists es', out, ss', gs, c, co. split.
  - apply pread_ok. subst txt.
    assert (plines ch (concat (map (fun l : list ascii => l ++ [nl]) ls)) = map nls ls) as -> by (apply (plines_unlines ch ls); auto). rewrite FL.
    assert (hd [] ls = c) as -> by (rewrite E; reflexivity). split; [reflexivity|].
    unfold validate, check_comment, check_unitcell, check_sites, arg_or, pkey. cbn [dget].
    change (seqb (lit "comment") (lit "comment")) with true. change (seqb (lit "unitcell") (lit "comment")) with false. change (seqb (lit "unitcell") (lit "unitcell")) with true.
    change (seqb (lit "sites") (lit "comment")) with false. change (seqb (lit "sites") (lit "unitcell")) with false. change (seqb (lit "sites") (lit "sites")) with true.
    cbv iota. cbn [of_option bind]. destruct (square3_shape A cell SQ) as (a1 & a2 & a3 & b1 & b2 & b3 & c1 & c2 & c3 & ->). reflexivity.
  - split; auto. split; auto. split; [exists (tl ls); rewrite W, E; reflexivity|]. split; auto.
Qed.

(** what reading says of the sites *)
Lemma built_sites raw vel pre : exists ss, build_sites A raw vel pre = map (SSite A) ss /\
  ss = map (fun ir => let '(i, (specie, q, f)) := ir in Site A specie q (Some f) (opt_nth A vel i) (opt_nth A pre i) true) (combine (seq 0 (length raw)) raw).
Proof. eexists. split; [|reflexivity]. unfold build_sites. rewrite map_map. apply map_ext. intros [i [[s q] f]]. reflexivity. Qed.
Lemma built_species raw vel pre ss : build_sites A raw vel pre = map (SSite A) ss -> map (si_specie A) ss = map (fun r => lower (fst (fst r))) raw.
Proof.
  intros H. destruct (built_sites raw vel pre) as (ss2 & E & ->). rewrite E in H.
  assert (ss = map (fun ir => let '(i, (specie, q, f)) := ir in Site A specie q (Some f) (opt_nth A vel i) (opt_nth A pre i) true) (combine (seq 0 (length raw)) raw)) as ->.
  { clear -H. symmetry in H. revert H. generalize (map (fun ir => let '(i, (specie, q, f)) := ir in Site A specie q (Some f) (opt_nth A vel i) (opt_nth A pre i) true) (combine (seq 0 (length raw)) raw)).
    intros m. revert m. induction ss as [|s ss IH]; intros [|s2 m] H; try discriminate; auto. inversion H. f_equal. auto. }
  clear. generalize 0. induction raw as [|[[s q] f] raw IH]; intros i; auto. cbn [length seq combine map]. rewrite IH. reflexivity.
Qed.
Lemma built_site_nth raw vel pre ss i s : build_sites A raw vel pre = map (SSite A) ss -> nth_error ss i = Some s ->
  exists r, nth_error raw i = Some r /\ s = Site A (fst (fst r)) (snd (fst r)) (Some (snd r)) (opt_nth A vel i) (opt_nth A pre i) true.
Proof.
  intros H N. pose proof (build_sites_nth A raw vel pre i) as B. rewrite H, nth_error_map, N in B. cbn [option_map] in B.
  destruct (nth_error raw i) as [r|]; [|discriminate]. exists r. split; auto. cbn in B. inversion B. reflexivity.
Qed.
Lemma pread_reading ch txt es : pread A ch txt = Ok es ->
  exists l0 l1 l2 l3 l4 scaling r2 r3 r4 spec atoms selective direct first raw hasv vdirect predictor vel pre ss,
    reading A (plines ch txt) es l0 l1 l2 l3 l4 scaling r2 r3 r4 spec atoms selective direct first raw hasv vdirect predictor vel pre /\
    build_sites A raw vel pre = map (SSite A) ss /\ pholds es "sites" (PSites A (map (SSite A) ss)) /\
    pholds es "unitcell" (PMat A (map (map (nmul A scaling)) [r2; r3; r4])) /\
    cell_ok A (PMat A (map (map (nmul A scaling)) [r2; r3; r4])) = true.
Proof.
  intros H. apply pread_ok in H as [H V].
  destruct (from_list_ok A _ _ H) as (l0 & l1 & l2 & l3 & l4 & sc & r2 & r3 & r4 & spec & atoms & sel & dir & first & raw & hasv & vd & pred & vel & pre & R).
  destruct (built_sites raw vel pre) as (ss & E & _).
  exists l0, l1, l2, l3, l4, sc, r2, r3, r4, spec, atoms, sel, dir, first, raw, hasv, vd, pred, vel, pre, ss.
  split; [exact R|]. split; auto.
  pose proof (rd_es A _ _ _ _ _ _ _ _ _ _ _ _ _ _ _ _ _ _ _ _ _ _ R) as Ees. subst es. unfold pholds. cbn [dget].
  change (seqb (lit "sites") (lit "comment")) with false. change (seqb (lit "sites") (lit "unitcell")) with false. change (seqb (lit "sites") (lit "sites")) with true.
  change (seqb (lit "unitcell") (lit "comment")) with false. change (seqb (lit "unitcell") (lit "unitcell")) with true. cbv iota. rewrite E. split; auto. split; auto.
  unfold validate in V. apply bind_ok in V as [[] [_ V]]. apply bind_ok in V as [[] [V _]]. unfold check_unitcell, arg_or, pkey in V. cbn [dget] in V.
  change (seqb (lit "unitcell") (lit "comment")) with false in V. change (seqb (lit "unitcell") (lit "unitcell")) with true in V. cbv iota in V. cbn [of_option bind] in V.
  destruct (cell_ok A (PMat A (map (map (nmul A sc)) [r2; r3; r4]))); [auto|discriminate].
Qed.

(** ** Regrouping *)
Lemma count_perm x a b : Permutation a b -> count x a = count x b.
Proof. intros P. induction P; rewrite ?count_cons in *; lia. Qed.
Lemma count_expand k n gs : NoDup (map fst gs) -> In (k, n) gs -> count k (expand gs) = n.
Proof.
  induction gs as [|[k' n'] gs IH]; intros N H; [destruct H|]. cbn [map fst] in N. inversion N; subst. cbn [expand flat_map fst snd]. rewrite count_app. fold (expand gs).
  assert (forall m x y, count x (repeat y m) = if seqb x y then m else 0) as CR.
  { clear. intros m x y. induction m; cbn [repeat]; [destruct (seqb x y); reflexivity|]. rewrite count_cons, IHm. destruct (seqb x y); reflexivity. }
  rewrite CR. destruct H as [H|H].
  - inversion H; subst. rewrite seqb_refl. assert (count k (expand gs) = 0) as ->; [|lia].
    destruct (count k (expand gs)) eqn:C; auto. exfalso. assert (In k (expand gs)) as K by (apply count_In; lia).
    unfold expand in K. apply in_flat_map in K as [g [Hg K]]. apply repeat_spec in K. apply H2. subst k. apply in_map. auto.
  - assert (seqb k k' = false) as ->. { apply seqb_neq. intros ->. apply H2. apply in_map_iff. exists (k', n). auto. }
    apply IH; auto.
Qed.
Lemma uniq_expand gs : forall seen, NoDup (map fst gs) -> Forall (fun g => 0 < snd g) gs -> (forall k, In k (map fst gs) -> ~ In k seen) ->
  uniq seen (expand gs) = map fst gs.
Proof.
  induction gs as [|[k n] gs IH]; intros seen N P D; auto. cbn [map fst] in *. inversion N; subst. inversion P; subst. cbn [snd] in *.
  destruct n as [|n]; [lia|]. cbn [expand flat_map fst snd repeat app uniq].
  assert (smem k seen = false) as ->. { destruct (smem k seen) eqn:E; auto. apply smem_In in E. exfalso. apply (D k); auto. left; auto. }
  f_equal. assert (forall m r, uniq (k :: seen) (repeat k m ++ r) = uniq (k :: seen) r) as UR.
  { clear. induction m; intros r; auto. cbn [repeat app uniq]. assert (smem k (k :: seen) = true) as -> by (apply smem_In; left; auto). auto. }
  rewrite UR. apply IH; auto. intros k' Hk [<-|Hs]; [contradiction|]. apply (D k'); auto. right; auto.
Qed.
Lemma insert_by_first f x l : Forall (fun y => f x <= f y) l -> insert_by f x l = x :: l.
Proof. intros F. destruct l as [|y l]; auto. inversion F; subst. cbn [insert_by]. assert (f x <=? f y = true) as -> by (apply Nat.leb_le; auto). reflexivity. Qed.
Lemma sort_by_id f l : StronglySorted (fun a b => f a <= f b) l -> sort_by f l = l.
Proof. intros S. induction S as [|x l S IH F]; auto. cbn [sort_by]. rewrite IH. apply insert_by_first. exact F. Qed.
Theorem regroup c ws out gs : group_sites A c ws = (out, gs) -> group_sites A c out = (out, gs).
Proof.
  destruct c; intros G; [pose proof (group_conserve A _ _ _ G) as [-> _]; exact G|].
  pose proof (group_default A _ _ _ G) as (P & N & C & E & F & S).
  unfold group_sites in *.
  set (sp1 := map (ws_specie A) ws) in *. set (sp2 := map (ws_specie A) out).
  assert (Permutation sp2 sp1) as PS by (apply Permutation_map; auto).
  assert (Forall (fun g => 0 < snd g) gs) as GP.
  { apply Forall_forall. intros [k n] Hg. apply C in Hg. cbn. tauto. }
  assert (uniq [] sp2 = map fst gs) as U. { unfold sp2. rewrite E. apply uniq_expand; auto. }
  assert (forall k n, In (k, n) gs -> count k sp2 = n) as CE. { intros k n H. unfold sp2. rewrite E. apply count_expand; auto. }
  assert (sort_by (fun k => count k sp2) (uniq [] sp2) = map fst gs) as K.
  { rewrite U. apply sort_by_id. clear -S CE. induction S as [|[k n] gs S IH F]; cbn [map fst]; constructor.
    - apply IH. intros k' n' H. apply CE. right; auto.
    - rewrite Forall_forall in *. intros k' H. apply in_map_iff in H as [[k2 n2] [<- H]]. cbn [fst].
      rewrite (CE k n) by (left; auto). rewrite (CE k2 n2) by (right; auto). apply (F _ H). }
  injection G as G1 G2. rewrite K.
  assert (sort_by (fun k => count k sp1) (uniq [] sp1) = map fst gs) as K1. { rewrite <- G2, map_map. cbn [fst]. rewrite map_id. reflexivity. }
  rewrite K1 in G1. f_equal.
  - transitivity (flat_map (fun k => filter (of_specie A k) ws) (map fst gs)); [|exact G1]. rewrite !flat_map_concat_map. f_equal. apply map_ext. intros k. apply F.
  - clear -CE. induction gs as [|[k n] gs IH]; auto. cbn [map fst]. rewrite (CE k n) by (left; auto). f_equal. apply IH. intros. apply CE. right; auto.
Qed.
(** grouping looks at the species only *)
Lemma group_species_only c ws ws' out gs out' gs' : map (ws_specie A) ws = map (ws_specie A) ws' ->
  group_sites A c ws = (out, gs) -> group_sites A c ws' = (out', gs') -> gs = gs'.
Proof. intros E G G'. unfold group_sites in *. destruct c; inversion G; inversion G'; subst; rewrite E; reflexivity. Qed.

Lemma strip_keeps a m b : m <> [] -> head_ns m = true -> last_ns m = true -> exists a' b', strip (a ++ m ++ b) = a' ++ m ++ b'.
Proof.
  intros N H L. unfold strip.
  assert (exists a', lstrip (a ++ m ++ b) = a' ++ m ++ b) as [a' E].
  { clear L. induction a as [|c a IH]; cbn [app lstrip].
    - exists []. destruct m as [|c m]; [congruence|]. cbn in *. destruct (is_space c); [discriminate|reflexivity].
    - destruct (is_space c); [exact IH|]. exists (c :: a). reflexivity. }
  rewrite E. exists a'. unfold rstrip. rewrite !rev_app_distr, <- app_assoc.
  assert (exists b', lstrip (rev b ++ rev m ++ rev a') = rev b' ++ rev m ++ rev a') as [b' E2].
  { clear E. induction (rev b) as [|c r IH]; cbn [app lstrip].
    - exists []. unfold last_ns in L. destruct (rev m) as [|c r] eqn:R; [apply (f_equal (@rev _)) in R; rewrite rev_involutive in R; cbn in R; congruence|].
      cbn in *. destruct (is_space c); [discriminate|reflexivity].
    - destruct (is_space c); [exact IH|]. exists (rev (c :: r)). rewrite rev_involutive. reflexivity. }
  rewrite E2. exists b'. rewrite !rev_app_distr, !rev_involutive, <- app_assoc. reflexivity.
Qed.
End T.
