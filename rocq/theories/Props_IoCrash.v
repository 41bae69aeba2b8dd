(** Properties of interrupted writes (C85): statements, with examples. *)
From Coq Require Import Ascii String List NArith ZArith QArith Qabs Bool Lia Arith Permutation Sorted.
From Verif Require Import PyBase PyNum PyStrLemmas PyNumLemmas PyFmtLemmas PyLines UtilsModel KpointsModel KpointsSpec
  KpointsProofs KpointsRoundTrip KpointsModes KpointsLine KpointsEdits KpointsCodes KpointsHistory IoModel IoProofs Props_Io Props_Kpoints.
Import ListNotations.
Local Open Scope list_scope.
Local Open Scope bool_scope.
Local Open Scope nat_scope.

(** a prefix of a text of lines: some of its lines, and a piece of the next one *)
Lemma prefix_unlines : forall ls d s, d ++ s = unlines ls ->
  exists k p, d = unlines (firstn k ls) ++ p /\ (p = [] \/ exists l q, nth_error ls k = Some l /\ l = p ++ q).
Proof.
  induction ls as [|l ls IH]; intros d s H.
  - exists 0, []. destruct d; [auto|discriminate].
  - rewrite unlines_cons in H. destruct (Nat.le_gt_cases (length d) (length l)) as [L|L].
    + exists 0, d. split; [reflexivity|]. right. exists l, (skipn (length d) l). split; [reflexivity|].
      assert (firstn (length d) (l ++ nl :: unlines ls) = d) as E by (rewrite <- H, firstn_app, Nat.sub_diag, firstn_O, app_nil_r; apply firstn_all).
      rewrite firstn_app in E. replace (length d - length l) with 0 in E by lia. rewrite firstn_O, app_nil_r in E. rewrite <- E at 1. symmetry. apply firstn_skipn.
    + assert (d = l ++ nl :: skipn (S (length l)) d) as E.
      { assert (firstn (S (length l)) d = l ++ [nl]) as F.
        { assert (firstn (S (length l)) (d ++ s) = firstn (S (length l)) d) as G by (rewrite firstn_app; replace (S (length l) - length d) with 0 by lia; rewrite firstn_O, app_nil_r; reflexivity).
          rewrite <- G, H. rewrite firstn_app, firstn_all2 by lia. replace (S (length l) - length l) with 1 by lia. reflexivity. }
        rewrite <- (firstn_skipn (S (length l)) d) at 1. rewrite F, <- app_assoc. reflexivity. }
      set (d' := skipn (S (length l)) d) in *. rewrite E in H. rewrite <- app_assoc in H. cbn [app] in H. apply app_inv_head in H. inversion H as [H'].
      destruct (IH _ _ H') as (k & p & E' & P). exists (S k), p. split; [|exact P]. cbn [firstn]. rewrite unlines_cons, <- app_assoc. cbn [app]. rewrite <- E'. exact E.
Qed.
Lemma nobreak_firstn k ls : forallb nobreak ls = true -> forallb nobreak (firstn k ls) = true.
Proof. rewrite !forallb_forall. intros H l Hl. apply H. rewrite <- (firstn_skipn k ls). apply in_or_app. auto. Qed.
Lemma klines_piece ls p ch : forallb nobreak ls = true -> nobreak p = true ->
  (forall c, letter_line (ls ++ (if seqb p [] then [] else [p])) 2 c -> lower1 c <> "l"%char) ->
  from_list (klines ch (unlines ls ++ p)) = from_list (ls ++ (if seqb p [] then [] else [p])).
Proof.
  intros N P L. destruct p as [|a p'].
  - change (seqb [] []) with true in *. cbn [seqb] in *. rewrite app_nil_r in *. rewrite app_nil_r. apply klines_from_list; auto.
  - change (seqb (a :: p') []) with false in *. cbv iota in *. set (p := a :: p') in *. assert (p <> []) as NE by discriminate. clearbody p.
    assert (from_list (map (fun l => l ++ [nl]) ls ++ [p]) = from_list (ls ++ [p])) as F.
    { symmetry. apply from_list_same; [|left; auto]. apply Forall2_app; [|constructor; [reflexivity|constructor]].
      clear. induction ls; cbn [map]; constructor; auto. unfold lsame. rewrite strip_nl. reflexivity. }
    destruct ch; cbn [klines].
    + rewrite splitlines_unlines_last; auto.
    + rewrite translate_nochange. 2:{ rewrite nochar_app, unlines_nocr by auto. rewrite nobreak_nocr by auto. reflexivity. }
      rewrite readlines_unlines_last; auto using forallb_nobreak_nonl. apply forallb_nobreak_nonl with (ls := [p]) in P || idtac.
      assert (forallb (nochar nl) [p] = true) as K by (apply forallb_nobreak_nonl; cbn; rewrite P; reflexivity). cbn in K. rewrite andb_true_r in K. exact K.
    + rewrite readlines_unlines_last; auto using forallb_nobreak_nonl.
      assert (forallb (nochar nl) [p] = true) as K by (apply forallb_nobreak_nonl; cbn; rewrite P; reflexivity). cbn in K. rewrite andb_true_r in K. exact K.
Qed.
Lemma nth_error_ext' {A} : forall (a b : list A), (forall i, nth_error a i = nth_error b i) -> a = b.
Proof.
  induction a as [|x a IH]; intros [|y b] H; auto; try (specialize (H 0); discriminate).
  pose proof (H 0) as H0. cbn in H0. inversion H0. f_equal. apply IH. intros i. apply (H (S i)).
Qed.
Lemma nth_error_firstn' {A} : forall (l : list A) n i, i < n -> nth_error (firstn n l) i = nth_error l i.
Proof. induction l as [|x l IH]; intros [|n] [|i] H; auto; try lia. cbn. apply IH. lia. Qed.
Lemma nth_error_skipn' {A} : forall (l : list A) n i, nth_error (skipn n l) i = nth_error l (n + i).
Proof. induction l as [|x l IH]; intros [|n] i; auto; [destruct i; reflexivity|cbn; apply IH]. Qed.
Lemma rstrip_cons c p : is_space c = false -> exists r, rstrip (c :: p) = c :: r.
Proof.
  intros H. destruct (rstrip_spec (c :: p)) as (q & B & E). destruct (rstrip (c :: p)) as [|a r]; [|inversion E; eauto].
  cbn in E. subst q. cbn in B. rewrite H in B. discriminate.
Qed.
(** nth_error of the lines read *)
Lemma firstn_app_nth {A} (ls : list A) k t i : i < k -> i < length ls -> nth_error (firstn k ls ++ t) i = nth_error ls i.
Proof.
  intros H L. rewrite nth_error_app1 by (rewrite firstn_length; lia). rewrite <- (firstn_skipn k ls) at 2. symmetry. apply nth_error_app1. rewrite firstn_length. lia.
Qed.
Lemma nobreak_prefix p q : nobreak (p ++ q) = true -> nobreak p = true.
Proof. rewrite nobreak_app. intros H. apply andb_true_iff in H. tauto. Qed.
Lemma removelast_firstn' {A} : forall n (l : list A), length l = S n -> removelast l = firstn n l.
Proof. intros n l H. replace l with (firstn (S n) l) at 1 by (rewrite <- H; apply firstn_all). apply removelast_firstn. lia. Qed.

Lemma explicit_cut prec co ps te vol k p l es' : let ls := elines prec co ps (Z.of_nat (length ps)) te vol in
  ps <> [] -> Forall three ps -> k <= length ls ->
  (p = [] \/ exists m q, nth_error ls k = Some m /\ m = p ++ q) ->
  l = firstn k ls ++ (if seqb p [] then [] else [p]) ->
  from_list l = Ok es' ->
  (forall c, letter_line l 2 c -> c = "D"%char) /\
  exists pts, holds es' "points" (KList pts) /\ length pts = length ps /\
    removelast pts = removelast (map (fun p => KPt (point_image prec p)) ps).
Proof.
  intros ls NE F3 KL P -> FL. set (tail := if seqb p [] then [] else [p]) in *. change (from_list (firstn k ls ++ tail) = Ok es') in FL.
  assert (length (firstn k ls ++ tail) <= S k) as LEN. { rewrite app_length, firstn_length. unfold tail. destruct (seqb p []); cbn; lia. }
  assert (length ls >= 3) as L3 by (unfold ls, elines; cbn [length]; lia).
  assert (forall c, letter_line (firstn k ls ++ tail) 2 c -> c = "D"%char) as LD.
  { intros c (x & r & H1 & H2). destruct (Nat.lt_ge_cases 2 k) as [K|K].
    - rewrite firstn_app_nth in H1 by lia. unfold ls in H1. cbn in H1. inversion H1. subst x. cbn in H2. inversion H2. reflexivity.
    - assert (length (firstn k ls) = k) as LK by (rewrite firstn_length; lia).
      assert (2 < length (firstn k ls ++ tail)) as B by (apply nth_error_Some; congruence).
      assert (k = 2) by lia. subst k. rewrite nth_error_app2 in H1 by lia. rewrite LK in H1. cbn [Nat.sub] in H1.
      unfold tail in H1. destruct (seqb p []) eqn:E; [discriminate|]. cbn in H1. inversion H1. subst x.
      destruct P as [->|(m & q & M1 & M2)]; [discriminate|]. change (nth_error ls 2) with (Some (lit "Direct")) in M1. assert (p ++ q = lit "Direct") as M3 by congruence.
      destruct p as [|a p']; [discriminate|]. cbn in M3. inversion M3. subst a. clear -H2.
      rewrite <- (app_nil_l ("D"%char :: p')) in H2. unfold strip in H2. rewrite app_nil_l in H2.
      assert (lstrip ("D"%char :: p') = "D"%char :: p') as E by reflexivity. rewrite E in H2. clear E.
      destruct (rstrip_cons "D"%char p' eq_refl) as [r' E]. rewrite E in H2. inversion H2. reflexivity. }
  split; [exact LD|].
  destruct (from_list_ok_head (firstn k ls ++ tail) es' FL) as (n & c & CN & LC).
  pose proof (LD c LC) as ->.
  assert (k >= 2) as K2. { destruct LC as (x & r & H1 & _). assert (2 < length (firstn k ls ++ tail)) by (apply nth_error_Some; intros HN; rewrite HN in H1; discriminate). lia. }
  assert (n = Z.of_nat (length ps)) as ->.
  { destruct CN as (x & t & r & H1 & H2 & H3). rewrite firstn_app_nth in H1 by lia. change (nth_error ls 1) with (Some (fmtd6 (Z.of_nat (length ps)))) in H1. injection H1 as <-.
    unfold fmtd6 in H2. rewrite split_ws_fmtd in H2. inversion H2. subst t. pose proof (get_int_str (Z.of_nat (length ps))) as G. unfold get_int in G. rewrite H3 in G. cbn [of_option] in G. apply Ok_inj in G. exact G. }
  rewrite (from_list_body _ _ _ CN LC) in FL. rewrite body_explicit in FL; [|destruct ps; [congruence|cbn [length]; lia]|discriminate|discriminate|discriminate].
  rewrite Nat2Z.id in FL. destruct (read_range (firstn k ls ++ tail) 3 (length ps) read_point) as [pts|] eqn:R; [|discriminate]. cbn [bind] in FL.
  destruct (read_tetra _ _) as [[te' v']|]; [|discriminate]. cbn [bind] in FL. inversion FL. subst es'. clear FL.
  exists pts. split; [reflexivity|].
  destruct (read_range_ok _ _ _ _ _ R) as [RL|RL]; [|destruct ps; [congruence|discriminate]].
  rewrite read_range_eq in R by auto. pose proof (mapM_length _ _ _ R) as ML. rewrite firstn_length, skipn_length in ML.
  assert (length pts = length ps) as LP by lia. split; [exact LP|].
  assert (exists m, length ps = S m) as [m Hm] by (destruct ps; [congruence|cbn; eauto]).
  rewrite (removelast_firstn' m) by lia. rewrite (removelast_firstn' m) by (rewrite map_length; lia).
  assert (mapM read_point (firstn m (firstn (length ps) (skipn 3 (firstn k ls ++ tail)))) = Ok (firstn m pts)) as RM.
  { clear -R. revert R. generalize (firstn (length ps) (skipn 3 (firstn k ls ++ tail))). intros u R. rewrite <- (firstn_skipn m u) in R at 1.
    revert R. revert pts. revert u. induction m as [|m IH]; intros u pts R; [reflexivity|]. destruct u as [|a u]; [cbn in *; inversion R; reflexivity|].
    cbn [firstn skipn app mapM] in *. apply bind_ok in R as [v [R1 R]]. apply bind_ok in R as [vs [R2 R]]. inversion R. subst pts.
    rewrite R1. cbn [bind]. rewrite (IH u vs R2). reflexivity. }
  rewrite firstn_firstn, Nat.min_l in RM by lia.
  assert (firstn m (skipn 3 (firstn k ls ++ tail)) = firstn m (map (pline prec) ps)) as E.
  { apply nth_error_ext'. intros i. destruct (Nat.lt_ge_cases i m) as [Hi|Hi].
    - rewrite !nth_error_firstn' by lia. rewrite nth_error_skipn'. assert (length ls >= 3 + length ps) as LL by (unfold ls, elines; cbn [length]; rewrite app_length, map_length; idtac; lia).
      rewrite firstn_app_nth by lia.
      unfold ls, elines. cbn [Nat.add nth_error]. rewrite nth_error_app1 by (rewrite map_length; lia). reflexivity.
    - transitivity (@None str); [|symmetry]; apply nth_error_None; rewrite firstn_length; lia. }
  rewrite E, firstn_map, mapM_map in RM. rewrite (mapM_ok _ (fun p => KPt (point_image prec p))) in RM.
  - inversion RM. rewrite firstn_map. reflexivity.
  - intros q Hq. apply pline_read. rewrite Forall_forall in F3. apply F3. rewrite <- (firstn_skipn m ps). apply in_or_app. auto.
Qed.

(** ** C85: what is read from a file whose writing was interrupted *)
(** KPOINTS, explicit points: a crash leaves a file that is refused, or the old content, or one whose
    points are those written, all but the last one unchanged *)
Theorem C85_kpoints_points_partial : forall prec es txt ch co ps old d es',
  get_string prec es = Ok txt -> holds es "mode" KExplicit -> holds es "comment" co -> comment_ok co ->
  holds es "points" (KList (map KPt ps)) -> ps <> [] -> holds es "num_kpoints" (KInt (Z.of_nat (length ps))) ->
  crash_content (kpoints_w prec es) old d -> kread ch d = Ok es' ->
  d = old \/
  exists full pts pts', kread ch txt = Ok full /\ holds full "points" (KList pts) /\ holds es' "points" (KList pts') /\
    length pts' = length ps /\ removelast pts' = removelast pts.
Proof.
  intros prec es txt ch co ps old d es' W M C OC P NE N CC R.
  apply (C82_kpoints_crash prec es txt old d W) in CC as [->|CC]; [auto|]. right.
  assert (exists rest, d ++ rest = txt) as [s Hs].
  { destruct CC as [H|[L _]]; auto. unfold mode_is in L. unfold holds in M. rewrite M in L. discriminate. }
  destruct (write_explicit_inv prec es txt W M) as (co2 & ps2 & nz & te & vo & vol & C2 & P2 & (nu & N2 & _ & I2) & T2 & V2 & OC2 & OT & F & TV & E).
  unfold holds in *. rewrite C in C2. inversion C2. subst co2. rewrite N in N2. inversion N2. subst nu. cbn [int_value] in I2. subst nz.
  assert (ps2 = ps) as ->. { rewrite P in P2. inversion P2 as [E2]. clear -E2. revert ps2 E2. induction ps as [|p ps IH]; intros [|q qs] E; try discriminate; auto. inversion E. f_equal. auto. }
  set (ls := elines prec co ps (Z.of_nat (length ps)) te vol) in *.
  pose proof (elines_nobreak prec co ps (Z.of_nat (length ps)) te vol OC) as NB. fold ls in NB.
  exists (eimage prec co ps te vol), (map (fun p => KPt (point_image prec p)) ps).
  assert (kread ch txt = Ok (eimage prec co ps te vol)) as RF.
  { assert (reads_back (unlines ls) (eimage prec co ps te vol)) as RB.
    { apply unlines_channels; auto.
      - apply read_elines; auto.
      - apply validate_make_ok; [reflexivity|]. cbn [ok_comment ok_points ok_centering ok_divisions ok_gv ok_shifts is_int andb].
        change (ok_mode KExplicit) with true. rewrite tetra_image_ok by auto. destruct te; auto.
      - intros c. apply elines_letter. }
    rewrite E. destruct RB as [R1 [R2 R3]]. destruct ch; auto. }
  rewrite E in Hs. destruct (prefix_unlines ls d s Hs) as (k & p & D & PP).
  assert (exists k', k' <= length ls /\ d = unlines (firstn k' ls) ++ p /\ (p = [] \/ exists m q, nth_error ls k' = Some m /\ m = p ++ q)) as (k' & K & D' & PP').
  { destruct (Nat.le_gt_cases k (length ls)) as [K|K]; [exists k; auto|]. exists (length ls). split; auto.
    rewrite firstn_all2 in D by lia. rewrite firstn_all. split; auto. destruct PP as [->|(m & q & H & _)]; [auto|].
    assert (nth_error ls k = None) by (apply nth_error_None; lia). congruence. }
  assert (nobreak p = true) as NP.
  { destruct PP' as [->|(m & q & H & ->)]; [reflexivity|]. apply nth_error_In in H. rewrite forallb_forall in NB. apply NB in H. apply nobreak_prefix in H. exact H. }
  apply kread_ok in R as [R _].
  assert (forall c, letter_line (firstn k' ls ++ (if seqb p [] then [] else [p])) 2 c -> lower1 c <> "l"%char) as LL.
  { intros c H. assert (c = "D"%char) as ->; [|discriminate]. clear R RF.
    destruct H as (x & r & H1 & H2). assert (length ls >= 3) as L3 by (unfold ls, elines; cbn [length]; lia). destruct (Nat.lt_ge_cases 2 k') as [K2|K2].
    - rewrite firstn_app_nth in H1 by lia. change (nth_error ls 2) with (Some (lit "Direct")) in H1. injection H1 as <-. cbn in H2. inversion H2. reflexivity.
    - assert (length (firstn k' ls) = k') as LK by (rewrite firstn_length; lia).
      destruct (seqb p []) eqn:Sp.
      + rewrite app_nil_r in H1. assert (nth_error (firstn k' ls) 2 = None) as HN by (apply nth_error_None; lia). rewrite HN in H1. discriminate.
      + rewrite nth_error_app2 in H1 by lia. rewrite LK in H1. destruct (2 - k') as [|j] eqn:J; [|destruct j; discriminate]. injection H1 as <-.
        assert (k' = 2) by lia. subst k'. destruct PP' as [->|(m & q & M1 & M2)]; [discriminate|].
        change (nth_error ls 2) with (Some (lit "Direct")) in M1. assert (p ++ q = lit "Direct") as M3 by congruence.
        destruct p as [|a p']; [discriminate|]. cbn in M3. inversion M3. subst a. clear -H2. unfold strip in H2.
        assert (lstrip ("D"%char :: p') = "D"%char :: p') as E by reflexivity. rewrite E in H2. clear E.
        destruct (rstrip_cons "D"%char p' eq_refl) as [r' E]. rewrite E in H2. inversion H2. reflexivity. }
  rewrite D', (klines_piece (firstn k' ls) p ch (nobreak_firstn k' ls NB) NP LL) in R.
  destruct (explicit_cut prec co ps te vol k' p _ es' NE F K PP' eq_refl R) as (_ & pts & H1 & H2 & H3).
  exists pts. split; [exact RF|]. split; [reflexivity|]. split; [exact H1|]. split; [exact H2|exact H3].
Qed.
Print Assumptions C85_kpoints_points_partial.

(** false: an accepted file has the points that were written (a weight of 25 is read as 2) *)
Definition weighted_text : str := unlines (map lit ["# w"; "1"; "Direct"; "0.5 0 0 25"]%string).
Definition weighted_obj : kentries := match kpoints_of_file weighted_text with Ok x => x | Exn _ => [] end.
Theorem C85_kpoints_values_refuted : exists prec es txt d es' p p', get_string prec es = Ok txt /\ crash_content (kpoints_w prec es) [] d /\
  kpoints_of_file txt = Ok es /\ kpoints_of_file d = Ok es' /\
  holds es "points" (KList [KPt p]) /\ holds es' "points" (KList [KPt p']) /\ kp_weight p = Some (dec "25") /\ kp_weight p' = Some (dec "2").
Proof.
  exists 3, weighted_obj. eexists. exists (unlines (map lit ["# w"; "     1"; "Direct"]%string) ++ lit "  0.500   0.000   0.000  2"). eexists _, _, _.
  split; [vm_compute; reflexivity|]. split; [apply (C82_kpoints_crash 3 weighted_obj _ [] _ ltac:(vm_compute; reflexivity)); right; left; exists (lit "5.000" ++ [nl]); vm_compute; reflexivity|].
  split; [vm_compute; reflexivity|]. split; [vm_compute; reflexivity|]. split; [vm_compute; reflexivity|]. split; [vm_compute; reflexivity|]. split; vm_compute; reflexivity.
Qed.
Print Assumptions C85_kpoints_values_refuted.
(** false: an accepted file has the tetrahedra that were written *)
Theorem C85_kpoints_tetra_refuted : exists prec es txt d es', get_string prec es = Ok txt /\ crash_content (kpoints_w prec es) [] d /\
  kpoints_of_file d = Ok es' /\ (exists l, holds es "tetra" (KList l) /\ l <> []) /\ holds es' "tetra" KNone.
Proof.
  exists 3, explicit_obj. eexists.
  exists (unlines (map lit ["# a mesh"; "     3"; "Direct"; "  0.000   0.250  -0.500   1.000"; "  0.100   0.200   0.300   2.000"; "  0.001   0.000   0.000   1.000"]%string)).
  eexists. split; [vm_compute; reflexivity|]. split.
  { apply (C82_kpoints_crash 3 explicit_obj _ [] _ ltac:(vm_compute; reflexivity)). right. left.
    exists (unlines (map lit ["Tetrahedra"; "     2   0.500"; "     1      1      2      3      1"; "     4      1      2      3      2"]%string)). vm_compute. reflexivity. }
  split; [vm_compute; reflexivity|]. split; [eexists; split; [vm_compute; reflexivity|discriminate]|vm_compute; reflexivity].
Qed.
Print Assumptions C85_kpoints_tetra_refuted.
Example C85_kpoints_case : exists txt co ps, get_string 3 weighted_obj = Ok txt /\ holds weighted_obj "mode" KExplicit /\ holds weighted_obj "comment" co /\ comment_ok co /\
  holds weighted_obj "points" (KList (map KPt ps)) /\ ps <> [] /\ holds weighted_obj "num_kpoints" (KInt (Z.of_nat (length ps))) /\
  exists d es', crash_content (kpoints_w 3 weighted_obj) [] d /\ kread FromFile d = Ok es'.
Proof.
  eexists. exists (KStr (lit "w")), [Kpoint [dec "0.5"; dec "0"; dec "0"] (Some (dec "25")) true].
  split; [vm_compute; reflexivity|]. split; [vm_compute; reflexivity|]. split; [vm_compute; reflexivity|]. split.
  { split; [reflexivity|]. split; [intros H; repeat destruct H as [H|H]; try discriminate; destruct H|].
    intros a H. repeat (destruct H as [<-|H]; [reflexivity|]). destruct H. }
  split; [vm_compute; reflexivity|]. split; [discriminate|]. split; [vm_compute; reflexivity|].
  eexists (unlines (map lit ["# w"; "     1"; "Direct"]%string) ++ lit "  0.500   0.000   0.000  2"), _. split; [|vm_compute; reflexivity].
  apply (C82_kpoints_crash 3 weighted_obj _ [] _ ltac:(vm_compute; reflexivity)); right; left; exists (lit "5.000" ++ [nl]); vm_compute; reflexivity.
Qed.
