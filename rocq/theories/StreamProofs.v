(** Lemmas about the stream model. *)
From Coq Require Import Ascii String List NArith ZArith Bool Lia Arith Permutation.
From Verif Require Import PyBase PyStrLemmas UtilsModel StreamModel.
Import ListNotations.
Local Open Scope list_scope.
Local Open Scope bool_scope.
Local Open Scope nat_scope.

Lemma foldM_app {A S} (f : S -> A -> res S) l l' s : foldM f (l ++ l') s = let* s' := foldM f l s in foldM f l' s'.
Proof. revert s. induction l as [|a l IH]; intros s; cbn [foldM app]; [reflexivity|]. destruct (f s a); cbn [bind]; auto. Qed.

Section P.
Variable R : Type.
Variable search : R -> str -> bool.
Notation vstream := (vstream R).
Notation sval := (sval R).

(** the pattern of [t] is found in the line *)
Definition found (line : str) (t : vstream) : bool :=
  match vs_regex R t with SRegex _ r => search r line | _ => false end.
Definition noninv (t : vstream) : bool := negb (vs_inverse R t).
Definition configured (o : stream R) : list vstream := flat_map snd (configured_streams R o).

(** *** the scan, history on *)
Notation scan := (scan R).
Lemma scan_items_on line key its st st' : foldM (scan_trigger R search true line key) its st = Ok st' ->
  (exists g, dget key (sc_ignore R st) = Some g /\ forall i, existsb (Nat.eqb i) g = false) ->
  let hits := filter (fun it : nat * vstream => found line (snd it)) its in
  sc_streams R st' = sc_streams R st ++ filter noninv (map snd hits) /\
  sc_inverse R st' = sc_inverse R st ++ map (vs_short R) (filter (vs_inverse R) (map snd hits)) /\ sc_ignore R st' = sc_ignore R st.
Proof.
  revert st. induction its as [|[i t] its IH]; intros st H [g [G N]].
  - cbn in H. inversion H. subst. cbn. rewrite !app_nil_r. auto.
  - cbn [foldM] in H. unfold scan_trigger in H at 1. rewrite G in H. cbn [of_option bind fst snd] in H. rewrite N in H. unfold check_line in H.
    destruct (vs_regex R t) as [|b|s|r|] eqn:ER; try discriminate. cbn [bind] in H.
    assert (found line t = search r line) as FT by (unfold found; rewrite ER; auto). cbv zeta. cbn [filter snd]. rewrite FT.
    destruct (search r line).
    + cbn [bind] in H. cbn [map snd filter]. assert (noninv t = negb (vs_inverse R t)) as -> by reflexivity. destruct (vs_inverse R t) eqn:E; cbn [negb];
        (apply IH in H; [|exists g; auto]); cbn [sc_streams sc_inverse sc_ignore] in H; destruct H as (H1 & H2 & H3); rewrite H1, H2; cbn [map]; rewrite <- ?app_assoc; auto.
    + cbn [bind] in H. apply IH in H; [|exists g; auto]. auto.
Qed.
Lemma snd_enumerate {T} (l : list T) : map snd (enumerate l) = l.
Proof.
  unfold enumerate. generalize 0. induction l as [|a l IH]; intros n; cbn; auto. f_equal. apply IH.
Qed.
Lemma filter_snd {T} (f : T -> bool) (l : list (nat * T)) : map snd (filter (fun it => f (snd it)) l) = filter f (map snd l).
Proof. induction l as [|a l IH]; cbn; auto. destruct (f (snd a)); cbn; rewrite IH; auto. Qed.
Lemma filter_flat {T U} (f : U -> bool) (g : T -> list U) l : filter f (flat_map g l) = flat_map (fun x => filter f (g x)) l.
Proof. induction l as [|a l IH]; cbn; auto. rewrite filter_app, IH. auto. Qed.
Lemma filter_comm {T} (f g : T -> bool) l : filter f (filter g l) = filter g (filter f l).
Proof. induction l as [|a l IH]; cbn; auto. destruct (g a) eqn:G, (f a) eqn:F; cbn; rewrite ?F, ?G, IH; auto. Qed.

Lemma scan_line_on trs line st st' : scan_line R search true trs st line = Ok st' ->
  (forall kt, In kt trs -> dget (fst kt) (sc_ignore R st) = Some []) ->
  let hits := filter (found line) (flat_map snd trs) in
  sc_streams R st' = sc_streams R st ++ filter noninv hits /\
  sc_inverse R st' = sc_inverse R st ++ map (vs_short R) (filter (vs_inverse R) hits) /\ sc_ignore R st' = sc_ignore R st.
Proof.
  unfold scan_line. revert st. induction trs as [|[k ts] trs IH]; intros st H N.
  - cbn in H. inversion H. subst. cbn. rewrite !app_nil_r. auto.
  - cbn [foldM] in H. apply bind_ok in H as [st1 [H1 H]]. cbn [fst snd] in H1.
    apply scan_items_on in H1; [|exists []; split; [apply (N (k, ts)); left; auto|auto]].
    destruct H1 as (S1 & I1 & G1). apply IH in H; [|intros kt Hk; rewrite G1; apply N; right; auto].
    destruct H as (S2 & I2 & G2). cbn [flat_map snd]. rewrite !filter_app, map_app. rewrite S2, S1, I2, I1, G2, G1.
    rewrite (filter_snd (found line)), snd_enumerate, <- !app_assoc. auto.
Qed.
Lemma from_list_on trs ls st : from_list R search true trs ls = Ok st -> 
  (forall kt, In kt trs -> dget (fst kt) (map (fun kt : str * list vstream => (fst kt, @nil nat)) trs) = Some []) ->
  sc_streams R st = flat_map (fun l => filter noninv (filter (found l) (flat_map snd trs))) ls /\
  sc_inverse R st = flat_map (fun l => map (vs_short R) (filter (vs_inverse R) (filter (found l) (flat_map snd trs)))) ls.
Proof.
  unfold from_list. intros H N. set (s0 := Scan R [] [] _) in H.
  assert (forall ls st0 st, foldM (scan_line R search true trs) ls st0 = Ok st -> (forall kt, In kt trs -> dget (fst kt) (sc_ignore R st0) = Some []) ->
    sc_streams R st = sc_streams R st0 ++ flat_map (fun l => filter noninv (filter (found l) (flat_map snd trs))) ls /\
    sc_inverse R st = sc_inverse R st0 ++ flat_map (fun l => map (vs_short R) (filter (vs_inverse R) (filter (found l) (flat_map snd trs)))) ls) as K.
  { clear. induction ls as [|l ls IH]; intros st0 st H N; cbn [foldM] in H; [inversion H; subst; cbn; rewrite !app_nil_r; auto|].
    apply bind_ok in H as [st1 [H1 H]]. apply scan_line_on in H1; auto. destruct H1 as (S1 & I1 & G1). apply IH in H; [|rewrite G1; auto].
    destruct H as [H H']. cbn [flat_map]. rewrite H, H', S1, I1, <- !app_assoc. auto. }
  apply (K ls s0 st H). exact N.
Qed.

(** *** the scan, history off *)
Definition skip (g : list nat) (it : nat * vstream) : bool := existsb (Nat.eqb (fst it)) g.
Lemma scan_items_off line key its st st' g : foldM (scan_trigger R search false line key) its st = Ok st' ->
  dget key (sc_ignore R st) = Some g -> NoDup (map fst its) ->
  let hits := filter (fun it => negb (skip g it) && found line (snd it)) its in
  sc_streams R st' = sc_streams R st ++ filter noninv (map snd hits) /\
  sc_inverse R st' = sc_inverse R st ++ map (vs_short R) (filter (vs_inverse R) (map snd hits)) /\
  dget key (sc_ignore R st') = Some (g ++ map fst hits) /\ (forall k, k <> key -> dget k (sc_ignore R st') = dget k (sc_ignore R st)).
Proof.
  revert st g. induction its as [|[i t] its IH]; intros st g H G ND.
  - cbn in H. inversion H. subst. cbn. rewrite !app_nil_r. auto.
  - cbn [map fst] in ND. inversion ND as [|? ? NI ND']. subst. cbn [foldM] in H. unfold scan_trigger in H at 1. rewrite G in H. cbn [of_option bind fst snd] in H.
    cbv zeta. cbn [filter]. assert (skip g (i, t) = existsb (Nat.eqb i) g) as -> by reflexivity. destruct (existsb (Nat.eqb i) g) eqn:E; cbn [bind negb andb] in *; [apply IH; auto|].
    unfold check_line in H. cbn [snd]. destruct (vs_regex R t) as [|b|s|r|] eqn:ER; try discriminate. cbn [bind] in H.
    assert (found line t = search r line) as FT by (unfold found; rewrite ER; auto). rewrite FT.
    destruct (search r line); cbn [bind] in H; [|apply IH; auto].
    assert (filter (fun it => negb (skip g it) && found line (snd it)) its = filter (fun it => negb (skip (g ++ [i]) it) && found line (snd it)) its) as EQ.
    { apply filter_ext_in. intros [j u] Hj. unfold skip. cbn [fst snd]. rewrite existsb_app. cbn [existsb].
      assert ((j =? i) = false) as ->. { apply Nat.eqb_neq. intros ->. apply NI. apply in_map_iff. exists (i, u). auto. } rewrite !orb_false_r. auto. }
    eapply IH in H; [|cbn [sc_ignore]; apply dget_dset_same|auto]. destruct H as (H1 & H2 & H3 & H4). rewrite EQ.
    cbn [sc_streams sc_inverse sc_ignore] in *. cbn [map snd filter fst]. assert (noninv t = negb (vs_inverse R t)) as -> by reflexivity.
    destruct (vs_inverse R t); cbn [negb map]; rewrite H1, H2, H3, <- ?app_assoc; (split; [auto|]; split; [auto|]; split; [auto|]);
      intros k Hk; rewrite (H4 k Hk); apply dget_dset_other; auto.
Qed.
Lemma fst_enumerate {T} (l : list T) : map fst (enumerate l) = seq 0 (length l).
Proof. unfold enumerate. generalize 0. induction l as [|a l IH]; intros n; cbn; auto. f_equal. apply IH. Qed.
Lemma enumerate_In {T} (l : list T) i t : In (i, t) (enumerate l) <-> nth_error l i = Some t.
Proof.
  unfold enumerate. assert (forall l n, In (i, t) (combine (seq n (length l)) l) <-> n <= i /\ nth_error l (i - n) = Some t) as K.
  { clear. induction l as [|a l IH]; intros n; cbn [length seq combine In]; [split; [intros []|]; intros [_ H]; destruct (i - n); discriminate|].
    rewrite IH. split.
    - intros [H|[H1 H2]]; [inversion H; subst; split; [lia|]; rewrite Nat.sub_diag; auto|]. split; [lia|]. replace (i - n) with (S (i - S n)) by lia. auto.
    - intros [H1 H2]. destruct (Nat.eq_dec n i) as [->|NE]; [rewrite Nat.sub_diag in H2; inversion H2; auto|]. right. split; [lia|]. replace (i - n) with (S (i - S n)) in H2 by lia. auto. }
  rewrite K. rewrite Nat.sub_0_r. split; [intros [_ H]; auto|intros H; split; auto with arith; lia].
Qed.

(** indices to skip: those of the triggers found in the lines seen *)
Definition seen_ok (trs : triggers R) (seen : list str) (ign : dict (list nat)) : Prop :=
  forall k ts, In (k, ts) trs -> exists g, dget k ign = Some g /\ forall i t, nth_error ts i = Some t -> existsb (Nat.eqb i) g = existsb (fun l => found l t) seen.
Definition fresh (seen : list str) (line : str) (t : vstream) : bool := negb (existsb (fun l => found l t) seen) && found line t.
Lemma scan_line_off trs seen line st st' : NoDup (dkeys trs) -> scan_line R search false trs st line = Ok st' ->
  seen_ok trs seen (sc_ignore R st) ->
  sc_streams R st' = sc_streams R st ++ filter noninv (filter (fresh seen line) (flat_map snd trs)) /\
  sc_inverse R st' = sc_inverse R st ++ map (vs_short R) (filter (vs_inverse R) (filter (fresh seen line) (flat_map snd trs))) /\
  seen_ok trs (seen ++ [line]) (sc_ignore R st').
Proof.
  unfold scan_line. intros ND. revert st. 
  assert (forall st, foldM (fun st0 kt => foldM (scan_trigger R search false line (fst kt)) (enumerate (snd kt)) st0) trs st = Ok st' ->
    seen_ok trs seen (sc_ignore R st) ->
    (sc_streams R st' = sc_streams R st ++ filter noninv (filter (fresh seen line) (flat_map snd trs)) /\
    sc_inverse R st' = sc_inverse R st ++ map (vs_short R) (filter (vs_inverse R) (filter (fresh seen line) (flat_map snd trs))) /\
    seen_ok trs (seen ++ [line]) (sc_ignore R st')) /\ forall k, ~ In k (dkeys trs) -> dget k (sc_ignore R st') = dget k (sc_ignore R st)) as K;
  [|intros st H S; apply (K st H S)].
  induction trs as [|[k ts] trs IH]; intros st H SK.
  - cbn in H. inversion H. subst. cbn. rewrite !app_nil_r. split; [|auto]. split; [auto|]. split; [auto|]. intros k ts [].
  - cbn [foldM] in H. apply bind_ok in H as [st1 [H1 H]]. cbn [fst snd] in H1. inversion ND as [|? ? NI ND']. subst.
    destruct (SK k ts (or_introl eq_refl)) as (g & G & GS).
    eapply scan_items_off in H1; [|exact G|rewrite fst_enumerate; apply seq_NoDup].
    destruct H1 as (S1 & I1 & G1 & O1).
    assert (map snd (filter (fun it : nat * vstream => negb (skip g it) && found line (snd it)) (enumerate ts)) = filter (fresh seen line) ts) as EH.
    { erewrite filter_ext_in; [rewrite (filter_snd (fresh seen line)), snd_enumerate; auto|].
      intros [i t] Hi. apply enumerate_In in Hi. unfold skip, fresh. cbn [fst snd]. rewrite (GS i t Hi). auto. }
    destruct (IH ND' st1 H) as [(S2 & I2 & K2) O2].
    { intros k' ts' Hk. assert (k' <> k) as NE. { intros ->. apply NI. apply in_map_iff. exists (k, ts'). auto. }
      destruct (SK k' ts' (or_intror Hk)) as (g' & G' & GS'). exists g'. rewrite (O1 k' NE). auto. }
    split.
    + cbn [flat_map snd]. rewrite !filter_app, map_app, S2, S1, I2, I1, EH, <- !app_assoc. split; [auto|]. split; [auto|].
      intros k' ts' [Hk|Hk]; [|apply K2; auto]. inversion Hk. subst k' ts'. eexists. split; [rewrite (O2 k NI); exact G1|].
      intros i t Hi. rewrite !existsb_app, (GS i t Hi). cbn [existsb]. rewrite orb_false_r.
      destruct (existsb (fun l => found l t) seen) eqn:ES; [auto|]. cbn [orb].
      apply eq_true_iff_eq. rewrite existsb_exists. split.
      * intros (j & Hj & E). apply Nat.eqb_eq in E. subst j. apply in_map_iff in Hj as [[j u] [E Hj]]. cbn in E. subst j. apply filter_In in Hj as [Hj F]. apply enumerate_In in Hj. rewrite Hi in Hj. inversion Hj. subst u.
        apply andb_true_iff in F. tauto.
      * intros F. exists i. split; [|apply Nat.eqb_refl]. apply in_map_iff. exists (i, t). split; auto. apply filter_In. split; [apply enumerate_In; auto|].
        unfold skip. cbn [fst snd]. rewrite (GS i t Hi), ES, F. auto.
    + intros k' N. rewrite (O2 k'), (O1 k'); auto. * intros ->. apply N. left. auto. * intros HI. apply N. right. auto.
Qed.
(** first occurrences, line by line *)
Fixpoint first_found (seen ls : list str) (ts : list vstream) : list vstream :=
  match ls with [] => [] | l :: r => filter (fresh seen l) ts ++ first_found (seen ++ [l]) r ts end.
Lemma from_list_off trs ls st : NoDup (dkeys trs) -> from_list R search false trs ls = Ok st ->
  sc_streams R st = filter noninv (first_found [] ls (flat_map snd trs)) /\
  sc_inverse R st = map (vs_short R) (filter (vs_inverse R) (first_found [] ls (flat_map snd trs))).
Proof.
  unfold from_list. intros ND H. set (s0 := Scan R [] [] _) in H.
  assert (forall ls seen st0, foldM (scan_line R search false trs) ls st0 = Ok st -> seen_ok trs seen (sc_ignore R st0) ->
    sc_streams R st = sc_streams R st0 ++ filter noninv (first_found seen ls (flat_map snd trs)) /\
    sc_inverse R st = sc_inverse R st0 ++ map (vs_short R) (filter (vs_inverse R) (first_found seen ls (flat_map snd trs)))) as K.
  { clear -ND. induction ls as [|l ls IH]; intros seen st0 H N; cbn [foldM] in H; [inversion H; subst; cbn; rewrite !app_nil_r; auto|].
    apply bind_ok in H as [st1 [H1 H]]. eapply scan_line_off in H1; eauto. destruct H1 as (S1 & I1 & G1). apply (IH (seen ++ [l])) in H; auto.
    destruct H as [H H']. cbn [first_found]. rewrite !filter_app, map_app, H, H', S1, I1, <- !app_assoc. auto. }
  apply (K ls [] s0 H). intros k ts Hk. exists []. split; [|auto]. unfold s0. cbn [sc_ignore].
  clear -ND Hk. induction trs as [|[k' ts'] trs IH]; [destruct Hk|]. inversion ND as [|? ? NI ND']. subst. cbn [map fst dget].
  destruct Hk as [Hk|Hk]; [inversion Hk; subst; rewrite seqb_refl; auto|]. destruct (seqb k k') eqn:E; auto.
Qed.
Lemma first_found_In seen ls ts t : In t (first_found seen ls ts) <-> In t ts /\ existsb (fun l => found l t) seen = false /\ existsb (fun l => found l t) ls = true.
Proof.
  revert seen. induction ls as [|l ls IH]; intros seen; cbn [first_found existsb]; [split; [intros []|intros (_ & _ & H); discriminate]|].
  rewrite in_app_iff, filter_In, IH, existsb_app. unfold fresh. cbn [existsb].
  destruct (existsb (fun l0 => found l0 t) seen), (found l t), (existsb (fun l0 => found l0 t) ls); cbn; intuition (auto; discriminate).
Qed.
Lemma first_found_NoDup {K} (f : vstream -> K) seen ls ts : NoDup (map f ts) -> NoDup (map f (first_found seen ls ts)).
Proof.
  intros ND. revert seen. induction ls as [|l ls IH]; intros seen; cbn [first_found]; [constructor|].
  assert (forall a b : list vstream, incl (a ++ b) ts -> NoDup (map f a) -> NoDup (map f b) -> (forall x, In x a -> ~ In x b) -> NoDup (map f (a ++ b))) as K0.
  { clear -ND. intros a b I Na Nb D. rewrite map_app. induction a as [|x a IHa]; auto. cbn [map app] in *. inversion Na. subst. constructor.
    - intros H. apply in_app_iff in H as [H|H]; [contradiction|]. apply in_map_iff in H as [y [E Hy]].
      assert (x = y) as ->. { assert (In x ts) as X by (apply I; left; auto). assert (In y ts) as Y by (apply I; right; apply in_app_iff; auto).
        clear -ND E X Y. induction ts as [|z zs IHz]; [destruct X|]. inversion ND. subst. destruct X as [->|X], Y as [->|Y]; auto; exfalso; apply H1; apply in_map_iff; eauto. }
      apply (D y); [left|]; auto.
    - apply IHa; auto. intros z Hz. apply I. right. auto. intros z Hz. apply D. right. auto. }
  apply K0.
  - intros x Hx. apply in_app_iff in Hx as [H|H]; [apply filter_In in H; tauto|apply first_found_In in H; tauto].
  - clear -ND. induction ts as [|a ts IHt]; cbn; [constructor|]. inversion ND. subst. destruct (fresh seen l a); cbn; auto. constructor; auto.
    intros H. apply H1. apply in_map_iff in H as [y [E Hy]]. apply filter_In in Hy. apply in_map_iff. exists y. tauto.
  - apply IH.
  - intros x Hx Hy. apply filter_In in Hx as [_ Hx]. unfold fresh in Hx. apply andb_true_iff in Hx as [_ Hx].
    apply first_found_In in Hy as (_ & Hy & _). rewrite existsb_app in Hy. cbn in Hy. rewrite Hx in Hy. cbn in Hy. rewrite orb_true_r in Hy. discriminate.
Qed.
End P.
