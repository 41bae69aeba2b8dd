(** Properties of interrupted POSCAR writes (C85): statements, with examples. *)
From Coq Require Import Ascii String List NArith ZArith QArith Qabs Bool Lia Arith Permutation.
From Verif Require Import PyBase PyNum PyStrLemmas PyNumLemmas PyFmtLemmas PyLines PyToken UtilsModel KpointsModel KpointsSpec KpointsEdits KpointsCodes
  PoscarModel ArithModel PoscarGroup PoscarSpec PoscarRead PoscarRoundTrip PoscarTheorems PoscarErrors Props_Kpoints Props_Poscar Props_PoscarWrite IoModel.
From Verif Require Props_Io Props_IoCrash.
Import ListNotations.
Local Open Scope list_scope.
Local Open Scope bool_scope.
Local Open Scope nat_scope.

Lemma mapM_seq_nth {B} (g : nat -> res B) n : forall s bs, mapM g (seq s n) = Ok bs ->
  length bs = n /\ forall i, i < n -> exists b, nth_error bs i = Some b /\ g (s + i) = Ok b.
Proof.
  induction n as [|n IH]; intros s bs H; cbn [seq mapM] in H.
  - inversion H. split; auto. intros i Hi. lia.
  - apply bind_ok in H as [b [H1 H]]. apply bind_ok in H as [bs' [H2 H]]. inversion H; subst. apply IH in H2 as [L H2].
    split; [cbn; congruence|]. intros [|i] Hi; cbn [nth_error].
    + exists b. rewrite Nat.add_0_r. auto.
    + destruct (H2 i) as (b' & E1 & E2); [lia|]. exists b'. split; auto. rewrite <- E2. f_equal. lia.
Qed.
Lemma zat_nat (l : list str) n : zat l (Z.of_nat n) = py_nth l n.
Proof.
  unfold zat, list_index. destruct (Z.leb_spec 0 (Z.of_nat n)); [|lia]. destruct (Z.ltb_spec (Z.of_nat n) (Z.of_nat (length l))).
  - rewrite Nat2Z.id. reflexivity.
  - unfold py_nth. assert (nth_error l n = None) as -> by (apply nth_error_None; lia). reflexivity.
Qed.
(** ** Two lists of lines that agree below [c] *)
Section Agree.
Variable A : arith.
Variables (ls ls' : list str) (c : nat).
Hypothesis agree : forall m, m < c -> nth_error ls m = nth_error ls' m.
Hypothesis short : length ls' <= S c.
Hypothesis shorter : length ls' <= length ls.

Lemma agree_py m : m < c -> py_nth ls m = py_nth ls' m.
Proof. intros H. unfold py_nth. rewrite agree by auto. reflexivity. Qed.
Lemma there m l : nth_error ls' m = Some l -> m <= c.
Proof. intros H. assert (m < length ls') by (apply nth_error_Some; congruence). lia. Qed.
Lemma block_agree {B} (f : str -> res B) s n bs bs' :
  mapM (fun i => let* l := py_nth ls i in f l) (seq s n) = Ok bs -> mapM (fun i => let* l := py_nth ls' i in f l) (seq s n) = Ok bs' ->
  forall i, S i < n -> nth_error bs i = nth_error bs' i.
Proof.
  intros H H' i Hi. apply mapM_seq_nth in H as [L H]. apply mapM_seq_nth in H' as [L' H'].
  destruct (H i) as (b & E1 & E2); [lia|]. destruct (H' i) as (b' & E1' & E2'); [lia|].
  destruct (H' (S i)) as (b2 & _ & E3); [lia|]. cbn beta in *. apply bind_ok in E3 as [l [E3 _]]. apply py_nth_ok in E3. apply there in E3.
  rewrite agree_py in E2 by lia. rewrite E1, E1'. congruence.
Qed.
Lemma sites_agree spec atoms direct selective scaling cell k : forall i st raw raw',
  read_sites A ls spec atoms direct selective scaling cell i k st = Ok raw ->
  read_sites A ls' spec atoms direct selective scaling cell i k st = Ok raw' ->
  map (fun r => fst (fst r)) raw = map (fun r => fst (fst r)) raw' /\ forall j, S j < k -> nth_error raw j = nth_error raw' j.
Proof.
  induction k as [|k IH]; intros i st raw raw' H H'; cbn [read_sites] in H, H'.
  - inversion H. inversion H'. split; auto.
  - apply bind_ok in H as [[s st'] [H1 H]]. apply bind_ok in H as [l [H2 H]]. apply bind_ok in H as [p [H3 H]].
    apply bind_ok in H as [q [H4 H]]. apply bind_ok in H as [f [H5 H]]. apply bind_ok in H as [r [H6 H]]. inversion H; subst. clear H.
    apply bind_ok in H' as [[s2 st2] [G1 H']]. apply bind_ok in H' as [l2 [G2 H']]. apply bind_ok in H' as [p2 [G3 H']].
    apply bind_ok in H' as [q2 [G4 H']]. apply bind_ok in H' as [f2 [G5 H']]. apply bind_ok in H' as [r2 [G6 H']]. inversion H'; subst. clear H'.
    rewrite H1 in G1. inversion G1. subst s2 st2. destruct (IH _ _ _ _ H6 G6) as [E1 E2]. split; [cbn [map fst]; rewrite E1; reflexivity|].
    intros [|j] Hj; [|cbn [nth_error]; apply E2; lia]. cbn [nth_error].
    destruct k as [|k]; [lia|]. cbn [read_sites] in G6. apply bind_ok in G6 as [[s3 st3] [_ G6]]. apply bind_ok in G6 as [l3 [G7 _]].
    apply py_nth_ok in G7. apply there in G7. rewrite agree_py in H2 by lia. rewrite H2 in G2. inversion G2. subst l2. rewrite H3 in G3. inversion G3. subst p2.
    rewrite H4 in G4. inversion G4. subst q2. rewrite H5 in G5. inversion G5. subst f2. reflexivity.
Qed.
(** after the positions: nothing more, or the same kind of block *)
Lemma tail_agree p direct r r' : read_tail_mode ls (Z.of_nat p) direct = Ok r -> read_tail_mode ls' (Z.of_nat p) direct = Ok r' ->
  (S p < length ls' -> r = r') /\ (length ls' <= p -> r' = (false, direct, false)) /\ (length ls' = S p -> snd r' = false).
Proof.
  intros H H'. unfold read_tail_mode in H, H'. replace (Z.of_nat p + 1)%Z with (Z.of_nat (S p)) in H, H' by lia. rewrite !zat_nat in H, H'. split; [|split].
  - intros L. assert (p < c) as P by lia. apply bind_ok in H' as [[[v d] pr] [H1 H2]]. apply bind_ok in H as [[[v0 d0] pr0] [H3 H4]].
    destruct (Z.ltb_spec (Z.of_nat p) (Z.of_nat (length ls'))); [|lia].
    destruct (Z.ltb_spec (Z.of_nat p) (Z.of_nat (length ls))); [|lia]. rewrite agree_py in H3 by auto. rewrite H1 in H3. inversion H3. subst v0 d0 pr0.
    destruct (Z.ltb_spec (Z.of_nat (S p)) (Z.of_nat (length ls'))); [|lia]. destruct (Z.ltb_spec (Z.of_nat (S p)) (Z.of_nat (length ls))); [|lia].
    apply bind_ok in H2 as [l [_ H2]]. apply bind_ok in H2 as [t [_ H2]]. apply bind_ok in H4 as [l4 [_ H4]]. apply bind_ok in H4 as [t4 [_ H4]].
    destruct (is_number t); [|discriminate]. destruct (is_number t4); [|discriminate]. congruence.
  - intros L. destruct (Z.ltb_spec (Z.of_nat p) (Z.of_nat (length ls'))); [lia|]. destruct (Z.ltb_spec (Z.of_nat (S p)) (Z.of_nat (length ls'))); [lia|].
    cbn [bind] in H'. congruence.
  - intros L. apply bind_ok in H' as [[[v d] pr] [H1 H2]]. destruct (Z.ltb_spec (Z.of_nat (S p)) (Z.of_nat (length ls'))); [lia|]. inversion H2. reflexivity.
Qed.
(** predictors after velocities: none, or the same but the last *)
Lemma predictors_agree q n pre pre' : n > 0 -> read_predictors A ls (Z.of_nat q) n = Ok pre -> read_predictors A ls' (Z.of_nat q) n = Ok pre' ->
  pre' = None \/ forall i, S i < n -> opt_nth A pre i = opt_nth A pre' i.
Proof.
  intros NP H H'. unfold read_predictors in H, H'. replace (Z.of_nat q + 1)%Z with (Z.of_nat (S q)) in H, H' by lia. rewrite !zat_nat in H, H'.
  destruct (Z.ltb_spec (Z.of_nat q) (Z.of_nat (length ls'))); [|left; congruence]. destruct (Z.ltb_spec (Z.of_nat q) (Z.of_nat (length ls))); [|lia].
  apply bind_ok in H' as [l' [L' H']]. destruct (blank_line l') eqn:B'; [|left; congruence].
  apply bind_ok in H' as [m' [M' H']]. apply bind_ok in H' as [t' [T' H']]. destruct (is_number t') eqn:N'; [|left; congruence]. apply bind_ok in H' as [b' [B1 H']].
  assert (q < c) as Q by (apply py_nth_ok in M'; apply there in M'; lia).
  apply bind_ok in H as [l [L H]]. rewrite agree_py in L by auto. rewrite L in L'. inversion L'. subst l'. rewrite B' in H.
  apply bind_ok in H as [m [M H]]. apply bind_ok in H as [t [T H]]. rewrite Nat2Z.id in B1, H. unfold read_block in B1, H. right.
  destruct n as [|[|n]]; [lia|intros i Hi; lia|].
  assert (S q < c) as C.
  { apply mapM_seq_nth in B1 as [_ B1]. destruct (B1 1) as (b & _ & E); [lia|]. apply bind_ok in E as [x [E _]]. apply py_nth_ok in E. apply there in E. lia. }
  rewrite agree_py in M by auto. rewrite M in M'. inversion M'. subst m'. rewrite T in T'. inversion T'. subst t'. rewrite N' in H.
  apply bind_ok in H as [b [B2 H]]. inversion H. inversion H'. subst pre pre'. cbn [opt_nth].
  exact (block_agree (fun l => num3 A l (fun x => x)) (S q) _ b b' B2 B1).
Qed.
End Agree.

(** ** The lines of a cut file *)
Lemma splitlines_keep_last w : nobreak w = true -> w <> [] -> splitlines_keep w = [w].
Proof.
  induction w as [|c w IH]; [congruence|]. intros N _. cbn [nobreak forallb] in N. apply andb_true_iff in N as [N1 N2]. apply negb_true_iff in N1. fold (nobreak w) in N2.
  cbn [splitlines_keep]. rewrite N1. destruct w as [|c' w]; [reflexivity|]. rewrite IH; [reflexivity|auto|discriminate].
Qed.
Lemma splitlines_keep_unlines_last ls p : forallb nobreak ls = true -> nobreak p = true -> p <> [] ->
  splitlines_keep (unlines ls ++ p) = map (fun x => x ++ [nl]) ls ++ [p].
Proof.
  intros H H1 H2. induction ls as [|x ls IH]; [apply splitlines_keep_last; auto|].
  cbn [forallb] in H. apply andb_true_iff in H as [Hx H].
  rewrite unlines_cons, <- app_assoc. cbn [app map]. rewrite splitlines_keep_app, IH; auto.
Qed.
Lemma plines_piece ch ls p : forallb nobreak ls = true -> nobreak p = true ->
  plines ch (unlines ls ++ p) = map (fun l => l ++ [nl]) ls ++ (if seqb p [] then [] else [p]).
Proof.
  intros N P. destruct p as [|a p'].
  - change (seqb [] []) with true. cbv iota. rewrite !app_nil_r. apply plines_unlines; auto.
  - change (seqb (a :: p') []) with false. cbv iota. set (p := a :: p') in *. assert (p <> []) as NE by discriminate. clearbody p.
    destruct ch; cbn [plines].
    + apply splitlines_keep_unlines_last; auto.
    + rewrite translate_nochange. { apply readlines_unlines_last; auto. apply forallb_nobreak_nonl; auto. apply nobreak_nonl; auto. }
      rewrite nochar_app. rewrite unlines_nocr by auto. rewrite nobreak_nocr; auto.
    + apply readlines_unlines_last; auto. apply forallb_nobreak_nonl; auto. apply nobreak_nonl; auto.
Qed.
(** a prefix of a text: the lines of the two agree below the last of the prefix *)
Lemma cut_lines ch ls d s : forallb nobreak ls = true -> d ++ s = unlines ls ->
  exists c, (forall m, m < c -> nth_error (plines ch (unlines ls)) m = nth_error (plines ch d) m) /\ length (plines ch d) <= S c /\
    length (plines ch d) <= length (plines ch (unlines ls)).
Proof.
  intros NB H. destruct (Props_IoCrash.prefix_unlines ls d s H) as (k & p & D & PP).
  assert (nobreak p = true) as NP.
  { destruct PP as [->|(m & q & Hm & ->)]; [reflexivity|]. apply nth_error_In in Hm. rewrite forallb_forall in NB. apply NB in Hm. apply Props_IoCrash.nobreak_prefix in Hm. exact Hm. }
  assert (forallb nobreak (firstn k ls) = true) as NF by (apply Props_IoCrash.nobreak_firstn; auto).
  rewrite D. rewrite plines_piece, plines_unlines by auto. exists (length (firstn k ls)).
  split; [|split].
  - intros m Hm. rewrite nth_error_app1 by (rewrite map_length; auto). rewrite !nth_error_map. f_equal.
    rewrite <- (firstn_skipn k ls) at 1. apply nth_error_app1. auto.
  - rewrite app_length, map_length. destruct (seqb p []); cbn [length]; unfold str in *; lia.
  - rewrite app_length, !map_length, firstn_length. destruct PP as [->|(m & q & Hm & _)].
    + change (seqb [] []) with true. cbn [length]. unfold str in *. lia.
    + assert (k < length ls) by (apply nth_error_Some; congruence). destruct (seqb p []); cbn [length]; unfold str in *; lia.
Qed.

(** ** The claim *)
Section Cut.
Variable A : arith.
(** what a reader of a cut file learns about one site: [s] of the whole file, [s'] of the cut one *)
Definition same_place (s s' : site A) : Prop :=
  si_specie A s' = si_specie A s /\ si_position A s' = si_position A s /\ si_selective A s' = si_selective A s /\ si_direct A s' = si_direct A s.
Lemma nth_tot (raw : list (str * vec A * list bool)) (n : nat) : length raw = n -> forall i, i < n -> exists r, nth_error raw i = Some r.
Proof. intros L i Hi. destruct (nth_error raw i) eqn:E; eauto. apply nth_error_None in E. lia. Qed.

Lemma from_list_cut ls ls' c es es' : (forall m, m < c -> nth_error ls m = nth_error ls' m) -> length ls' <= S c -> length ls' <= length ls ->
  from_list A ls = Ok es -> from_list A ls' = Ok es' ->
  exists co cell raw raw' vel pre vel' pre',
    es = [(lit "comment", PStr A co); (lit "unitcell", PMat A cell); (lit "sites", PSites A (build_sites A raw vel pre))] /\
    es' = [(lit "comment", PStr A co); (lit "unitcell", PMat A cell); (lit "sites", PSites A (build_sites A raw' vel' pre'))] /\
    map (fun r => fst (fst r)) raw = map (fun r => fst (fst r)) raw' /\
    (forall i, S i < length raw -> nth_error raw i = nth_error raw' i) /\
    (vel' = None \/ forall i, S i < length raw -> opt_nth A vel i = opt_nth A vel' i) /\
    (pre' = None \/ forall i, S i < length raw -> opt_nth A pre i = opt_nth A pre' i).
Proof.
  intros AG SH LE H H'. unfold from_list in H, H'.
  apply bind_ok in H as [l0 [H0 H]]. apply bind_ok in H as [l5 [H5 H]]. apply bind_ok in H as [l1 [H1 H]].
  apply bind_ok in H as [t [Ht H]]. apply bind_ok in H as [sc [Hs H]].
  apply bind_ok in H' as [l0' [H0' H']]. apply bind_ok in H' as [l5' [H5' H']]. apply bind_ok in H' as [l1' [H1' H']].
  apply bind_ok in H' as [t' [Ht' H']]. apply bind_ok in H' as [sc' [Hs' H']].
  destruct (nneg A sc) eqn:NS; [discriminate|]. destruct (is_numbers l5) eqn:N5; [discriminate|].
  destruct (nneg A sc') eqn:NS'; [discriminate|]. destruct (is_numbers l5') eqn:N5'; [discriminate|].
  apply bind_ok in H as [l2 [H2 H]]. apply bind_ok in H as [r2 [R2 H]].
  apply bind_ok in H as [l3 [H3 H]]. apply bind_ok in H as [r3 [R3 H]].
  apply bind_ok in H as [l4 [H4 H]]. apply bind_ok in H as [r4 [R4 H]].
  apply bind_ok in H as [cell [HC H]].
  apply bind_ok in H as [l6 [H6 H]]. apply bind_ok in H as [atoms [HA H]].
  apply bind_ok in H as [[[selective direct] first] [HM H]]. apply bind_ok in H as [raw [HR H]].
  apply bind_ok in H as [[[hasv vdirect] predictor] [HT H]]. apply bind_ok in H as [[vel pre] [HV H]]. apply Ok_inj in H.
  apply bind_ok in H' as [l2' [H2' H']]. apply bind_ok in H' as [r2' [R2' H']].
  apply bind_ok in H' as [l3' [H3' H']]. apply bind_ok in H' as [r3' [R3' H']].
  apply bind_ok in H' as [l4' [H4' H']]. apply bind_ok in H' as [r4' [R4' H']].
  apply bind_ok in H' as [cell' [HC' H']].
  apply bind_ok in H' as [l6' [H6' H']]. apply bind_ok in H' as [atoms' [HA' H']].
  apply bind_ok in H' as [[[selective' direct'] first'] [HM' H']]. apply bind_ok in H' as [raw' [HR' H']].
  apply bind_ok in H' as [[[hasv' vdirect'] predictor'] [HT' H']]. apply bind_ok in H' as [[vel' pre'] [HV' H']]. apply Ok_inj in H'.
  assert (7 <= c) as C7.
  { unfold read_mode in HM'. apply bind_ok in HM' as [l7 [E _]]. apply py_nth_ok in E. assert (7 < length ls') by (apply nth_error_Some; congruence). lia. }
  rewrite !(agree_py ls ls' c AG) in H0, H1, H2, H3, H4, H5, H6 by lia.
  rewrite H0 in H0'. apply Ok_inj in H0'. subst l0'. rewrite H1 in H1'. apply Ok_inj in H1'. subst l1'. rewrite H2 in H2'. apply Ok_inj in H2'. subst l2'.
  rewrite H3 in H3'. apply Ok_inj in H3'. subst l3'. rewrite H4 in H4'. apply Ok_inj in H4'. subst l4'. rewrite H5 in H5'. apply Ok_inj in H5'. subst l5'.
  rewrite H6 in H6'. apply Ok_inj in H6'. subst l6'. rewrite Ht in Ht'. apply Ok_inj in Ht'. subst t'. rewrite Hs in Hs'. apply Ok_inj in Hs'. subst sc'.
  rewrite R2 in R2'. apply Ok_inj in R2'. subst r2'. rewrite R3 in R3'. apply Ok_inj in R3'. subst r3'. rewrite R4 in R4'. apply Ok_inj in R4'. subst r4'.
  rewrite HC in HC'. apply Ok_inj in HC'. subst cell'. rewrite HA in HA'. apply Ok_inj in HA'. subst atoms'.
  set (nions := fold_left Z.add atoms 0%Z) in *. set (n := Z.to_nat nions) in *.
  assert (length raw = n) as LR by (apply read_sites_ok in HR; apply HR).
  exists (strip (filter (fun c => negb (aeqb c "#")) l0)), (map (map (nmul A sc)) cell), raw, raw', vel, pre, vel', pre'.
  split; [auto|]. split; [auto|]. rewrite LR.
  destruct n as [|n0] eqn:EN.
  { (* no sites *)
    cbn [read_sites] in HR, HR'. apply Ok_inj in HR, HR'. subst raw raw'. split; [auto|]. split; [auto|]. split; right; intros i Hi; lia. }
  rewrite <- EN in *. assert (n > 0) as NP by lia. clear n0 EN. assert (n = Z.to_nat nions) as En by reflexivity. clearbody n. clearbody nions. assert (nions = Z.of_nat n) as E2 by lia. subst nions. clear En.
  assert (first' + n <= S c) as FC.
  { assert (exists l, nth_error ls' (first' + (n - 1)) = Some l) as [l E].
    { apply read_sites_ok in HR' as (_ & L & _). rewrite firstn_length, skipn_length in L.
      destruct (nth_error ls' (first' + (n - 1))) eqn:E; eauto. apply nth_error_None in E. lia. }
    assert (first' + (n - 1) < length ls') by (apply nth_error_Some; congruence). lia. }
  assert (read_mode ls = read_mode ls') as EM.
  { unfold read_mode in *. assert (8 <= first') as F8.
    { apply bind_ok in HM' as [l7 [_ HM']]. apply bind_ok in HM' as [c7 [_ HM']]. destruct (aeqb (lower1 c7) "s"); [|inversion HM'; lia].
      apply bind_ok in HM' as [l8 [_ HM']]. apply bind_ok in HM' as [c8 [_ HM']]. inversion HM'. lia. }
    rewrite (agree_py ls ls' c AG) by lia. destruct (py_nth ls' 7) as [l7|]; [|reflexivity]. cbn [bind] in *. destruct (py_nth l7 0) as [c7|]; [|reflexivity]. cbn [bind] in *.
    destruct (aeqb (lower1 c7) "s"); [|reflexivity]. rewrite (agree_py ls ls' c AG); [reflexivity|].
    apply bind_ok in HM' as [l8 [_ HM']]. apply bind_ok in HM' as [c8 [_ HM']]. inversion HM'. lia. }
  rewrite EM, HM' in HM. apply Ok_inj in HM. assert (selective' = selective /\ direct' = direct /\ first' = first) as (-> & -> & ->) by (inversion HM; auto). clear HM.
  destruct (sites_agree A ls ls' c AG SH LE _ _ _ _ _ _ _ _ _ _ _ HR HR') as [S1 S2]. split; [exact S1|]. split; [exact S2|].
  replace (Z.of_nat n + Z.of_nat first)%Z with (Z.of_nat (n + first)) in * by lia. set (p := n + first) in *.
  replace (Z.to_nat (Z.of_nat p + 1)) with (S p) in * by lia. replace (Z.of_nat n + (Z.of_nat p + 1))%Z with (Z.of_nat (n + S p)) in * by lia.
  destruct (tail_agree ls ls' c AG SH LE p direct _ _ HT HT') as (T1 & T2 & T3).
  assert (vel' = None /\ pre' = None \/ S p < length ls' /\ (hasv, vdirect, predictor) = (hasv', vdirect', predictor')) as [[-> ->]|[LP E]].
  { destruct (Nat.lt_ge_cases (S p) (length ls')) as [L|L]; [right; split; auto|]. left.
    destruct hasv'.
    - exfalso. apply bind_ok in HV' as [v [V _]]. unfold read_velocities in V. apply mapM_seq_nth in V as [_ V]. destruct (V 0) as (b & _ & V1); [lia|].
      rewrite Nat.add_0_r in V1. apply bind_ok in V1 as [x [V1 _]]. apply py_nth_ok in V1. assert (S p < length ls') by (apply nth_error_Some; congruence). lia.
    - assert (predictor' = false) as ->.
      { destruct (Nat.eq_dec (length ls') (S p)) as [Q|Q]; [exact (T3 Q)|]. assert (length ls' <= p) as Q2 by lia. specialize (T2 Q2). inversion T2; auto. }
      apply Ok_inj in HV'. inversion HV'. auto. }
  { split; left; reflexivity. }
  inversion E. subst hasv' vdirect' predictor'. clear E.
  destruct hasv.
  - apply bind_ok in HV as [v [V HV]]. apply bind_ok in HV as [q [Q HV]]. apply bind_ok in HV' as [v' [V' HV']]. apply bind_ok in HV' as [q' [Q' HV']].
    apply Ok_inj in HV, HV'. injection HV as <- <-. injection HV' as <- <-. split.
    + right. cbn [opt_nth]. unfold read_velocities in V, V'.
      exact (block_agree ls ls' c AG SH LE (fun l => let* v := num3 A l (fun x => x) in if vdirect then Ok v else to_direct A v (map (map (nmul A sc)) cell)) (S p) n v v' V V').
    + exact (predictors_agree A ls ls' c AG SH LE _ n _ _ NP Q Q').
  - destruct predictor.
    + apply bind_ok in HV as [b [B HV]]. apply bind_ok in HV' as [b' [B' HV']]. apply Ok_inj in HV, HV'. injection HV as <- <-. injection HV' as <- <-. split; [left; reflexivity|].
      right. cbn [opt_nth]. unfold read_block in B, B'. exact (block_agree ls ls' c AG SH LE (fun l => num3 A l (fun x => x)) (S p) n b b' B B').
    + apply Ok_inj in HV'. inversion HV'. split; left; reflexivity.
Qed.
End Cut.

(** What [es'], read from a cut file, has of [es], read from the whole: the comment, the
    unitcell, and the number and species of the sites; every site but the last has its
    position and its flags; the velocities (and the predictors) of the sites are there for
    none of them, or right for every site but the last. *)
Definition partly (A : arith) (es es' : pentries A) : Prop :=
  exists co cell ss ss', 
    es = [(lit "comment", PStr A co); (lit "unitcell", PMat A cell); (lit "sites", PSites A (map (SSite A) ss))] /\
    es' = [(lit "comment", PStr A co); (lit "unitcell", PMat A cell); (lit "sites", PSites A (map (SSite A) ss'))] /\
    map (si_specie A) ss' = map (si_specie A) ss /\
    (forall i s s', S i < length ss -> nth_error ss i = Some s -> nth_error ss' i = Some s' -> same_place A s s') /\
    ((forall s', In s' ss' -> si_velocities A s' = None) \/
     forall i s s', S i < length ss -> nth_error ss i = Some s -> nth_error ss' i = Some s' -> si_velocities A s' = si_velocities A s) /\
    ((forall s', In s' ss' -> si_predictors A s' = None) \/
     forall i s s', S i < length ss -> nth_error ss i = Some s -> nth_error ss' i = Some s' -> si_predictors A s' = si_predictors A s).
(** Any text of lines that reads as a POSCAR, and any prefix of it that still does. *)
Theorem C85_poscar_cut : forall A ch lines d rest es es', forallb nobreak lines = true -> d ++ rest = unlines lines ->
  pread A ch (unlines lines) = Ok es -> pread A ch d = Ok es' -> partly A es es'.
Proof.
  intros A ch lines d rest es es' NB D R R'. apply pread_ok in R as [R _]. apply pread_ok in R' as [R' _].
  destruct (cut_lines ch lines d rest NB D) as (c & AG & SH & LE).
  destruct (from_list_cut A _ _ c es es' AG SH LE R R') as (co & cell & raw & raw' & vel & pre & vel' & pre' & E & E' & SP & PO & VE & PR).
  destruct (built_sites A raw vel pre) as (ss & B & _). destruct (built_sites A raw' vel' pre') as (ss' & B' & _).
  assert (length ss = length raw) as L.
  { pose proof (built_species A raw vel pre ss B) as Q. apply (f_equal (@length _)) in Q. rewrite !map_length in Q. exact Q. }
  exists co, cell, ss, ss'. rewrite <- B, <- B'. split; [exact E|]. split; [exact E'|].
  split.
  { rewrite (built_species A raw vel pre ss B), (built_species A raw' vel' pre' ss' B'). rewrite <- (map_map (fun r => fst (fst r)) lower raw), <- (map_map (fun r => fst (fst r)) lower raw'), SP. reflexivity. }
  rewrite L. split; [|split].
  - intros i s s' Hi Hs Hs'. destruct (built_site_nth A raw vel pre ss i s B Hs) as (r & Hr & ->). destruct (built_site_nth A raw' vel' pre' ss' i s' B' Hs') as (r' & Hr' & ->).
    rewrite (PO i Hi) in Hr. rewrite Hr in Hr'. inversion Hr'. subst r'. repeat split.
  - destruct VE as [-> |VE]; [left|right].
    + intros s' Hs. apply In_nth_error in Hs as [i Hs]. destruct (built_site_nth A raw' None pre' ss' i s' B' Hs) as (r & _ & ->). reflexivity.
    + intros i s s' Hi Hs Hs'. destruct (built_site_nth A raw vel pre ss i s B Hs) as (r & Hr & ->). destruct (built_site_nth A raw' vel' pre' ss' i s' B' Hs') as (r' & Hr' & ->).
      symmetry. exact (VE i Hi).
  - destruct PR as [-> |PR]; [left|right].
    + intros s' Hs. apply In_nth_error in Hs as [i Hs]. destruct (built_site_nth A raw' vel' None ss' i s' B' Hs) as (r & _ & ->). reflexivity.
    + intros i s s' Hi Hs Hs'. destruct (built_site_nth A raw vel pre ss i s B Hs) as (r & Hr & ->). destruct (built_site_nth A raw' vel' pre' ss' i s' B' Hs') as (r' & Hr' & ->).
      symmetry. exact (PR i Hi).
Qed.
Print Assumptions C85_poscar_cut.
(** A write of a POSCAR object over a file that is interrupted: what is left is the old
    content or reads, when it reads at all, as part of what the complete file reads as. *)
Theorem C85_poscar_crash_partial : forall A prec conserve wd es ss txt old d ch es1 es', number_system A ->
  get_string A prec conserve wd es = Ok txt -> pholds es "sites" (PSites A (map (SSite A) ss)) ->
  Forall (fun s => is_token (si_specie A s) = true) ss -> comment_plain A es ->
  crash_content (poscar_w A prec conserve wd es) old d -> d <> old ->
  pread A ch txt = Ok es1 -> pread A ch d = Ok es' -> partly A es1 es'.
Proof.
  intros A prec conserve wd es ss txt old d ch es1 es' HA G HS TS CP CR NO R R'.
  apply (Props_Io.C82_poscar_crash A prec conserve wd es txt old d G) in CR as [->|[rest D]]; [congruence|].
  destruct (system_fmt A prec HA) as (rr & FO & UO).
  unfold get_string in G. apply bind_ok in G as [ls [W G]]. apply Ok_inj in G as Etxt. clear G. change (concat _) with (unlines ls) in Etxt. rewrite <- Etxt in D, R. clear txt Etxt.
  apply (C85_poscar_cut A ch ls d rest); auto.
  destruct (write_lines_inv A prec conserve wd es ls W) as (co & cell2 & l2 & sites & out & gs & c & pos & vel & pre & HC & _ & SQ & HL2 & HW & GR & CT & HP & HV & HR & Els).
  assert (HS' := HS). unfold pholds in HS, HL2. rewrite HS in HL2. inversion HL2. subst l2. clear HL2.
  destruct (wsites_inv A _ _ HW) as (ss2 & Es & -> & DS).
  assert (forall ss2, map (SSite A) ss2 = map (SSite A) ss -> ss2 = ss) as INJ.
  { clear. induction ss as [|s ss0 IH]; intros [|s2 ss2] H; try discriminate; auto. inversion H. f_equal. apply IH; auto. }
  assert (ss2 = ss) as -> by (apply INJ; auto).
  assert (Forall (fun w => is_token (ws_specie A w) = true) (map (view A) ss)) as TW.
  { clear -TS. induction TS; constructor; auto. cbn [view ws_specie]. unfold get_specie. rewrite capitalize_token. auto. }
  pose proof (groups_tokens A _ _ _ _ GR TW) as GT.
  assert (nobreak c = true) as NC. { eapply comment_line_nobreak; [exact CT|exact GT|]. destruct co; auto. }
  destruct ls as [|c0 ls0]; [discriminate|]. assert (c0 = c) as -> by (inversion Els; auto).
  apply (written_nobreak A prec rr FO conserve wd es (c :: ls0) c ls0 W eq_refl NC). intros ss2 H2. unfold pholds in H2. rewrite HS in H2. inversion H2 as [E2]. rewrite (INJ ss2 (eq_sym E2)). exact TS.
Qed.
Print Assumptions C85_poscar_crash_partial.
(** The last site cannot be relied on, and velocities are lost without an error. *)
Definition moving_sites : list (site exact) :=
  [Site exact (lit "h") [0; 0; 0]%Q None (Some [1; 2; 3]%Q) None true; Site exact (lit "h") [1 # 2; 1 # 4; 1 # 8]%Q None (Some [4; 5; 6]%Q) None true].
Definition moving : pentries exact := [(lit "comment", PStr exact (lit "ice")); (lit "unitcell", PMat exact cell_two);
  (lit "sites", PSites exact (map (SSite exact) moving_sites))].
Definition moving_text : list string :=
  ["# Compound: H2. Old comment: ice"; "  1.000"; "  2.000   0.000   0.000"; "  0.000   4.000   0.000"; "  1.000   0.000   8.000";
   "H"; "    2"; "Direct"; "  0.000   0.000   0.000"; "  0.500   0.250   0.125"; "Direct"; "  1.000   2.000   3.000"; "  4.000   5.000   6.000"]%string.
Definition cut_of (k : nat) (p : string) : str := unlines (map lit (firstn k moving_text)) ++ lit p.
Definition site_of (r : res (pentries exact)) (i : nat) : option (site exact) :=
  match r with
  | Ok es => match dget (lit "sites") es with Some (PSites _ l) => match nth_error l i with Some (SSite _ s) => Some s | _ => None end | _ => None end
  | Exn _ => None
  end.
(** the numbers of a site *)
Definition position_of (r : res (pentries exact)) (i : nat) : option (list Q) := option_map (fun s => si_position exact s) (site_of r i).
Definition velocities_of (r : res (pentries exact)) (i : nat) : option (option (list Q)) := option_map (fun s => si_velocities exact s) (site_of r i).
Lemma moving_written : get_string exact 3 false true moving = Ok (unlines (map lit moving_text)).
Proof. assert (written 3 false true moving moving_text = true) as H by (vm_compute; reflexivity). apply written_ok. exact H. Qed.
Lemma moving_crash old k p rest : cut_of k p ++ lit rest ++ unlines (map lit (skipn (S k) moving_text)) = unlines (map lit moving_text) ->
  crash_content (poscar_w exact 3 false true moving) old (cut_of k p).
Proof. intros H. apply (Props_Io.C82_poscar_crash exact 3 false true moving _ old _ moving_written). right. eexists. exact H. Qed.
(** a cut inside the last number of the last position: read without an error as another position *)
Theorem C85_poscar_values_refuted : exists prec es txt d x y z x' y' z', get_string exact prec false true es = Ok txt /\
  crash_content (poscar_w exact prec false true es) [] d /\
  position_of (pread exact FromFile txt) 1 = Some [x; y; z] /\ position_of (pread exact FromFile d) 1 = Some [x'; y'; z'] /\ ~ (z' == z)%Q.
Proof.
  exists 3, moving, (unlines (map lit moving_text)), (cut_of 9 "  0.500   0.250   0.1"). do 6 eexists.
  split; [apply moving_written|]. split.
  { apply (moving_crash [] 9 _ (String "2" (String "5" (String nl EmptyString)))). vm_compute. reflexivity. }
  split; [vm_compute; reflexivity|]. split; [vm_compute; reflexivity|]. vm_compute. discriminate.
Qed.
Print Assumptions C85_poscar_values_refuted.
(** a cut before the velocities: read without an error as a structure without velocities *)
Theorem C85_poscar_velocities_refuted : exists prec es txt d v, get_string exact prec false true es = Ok txt /\
  crash_content (poscar_w exact prec false true es) [] d /\
  velocities_of (pread exact FromFile txt) 0 = Some (Some v) /\ velocities_of (pread exact FromFile d) 0 = Some None.
Proof.
  exists 3, moving, (unlines (map lit moving_text)), (cut_of 9 "  0.500   0.250   0.125"). eexists.
  split; [apply moving_written|]. split.
  { apply (moving_crash [] 9 _ (String nl EmptyString)). vm_compute. reflexivity. }
  split; [vm_compute; reflexivity|]. vm_compute; reflexivity.
Qed.
Print Assumptions C85_poscar_velocities_refuted.
(** the hypotheses are met, and by cuts that read *)
Example C85_poscar_case : number_system exact /\ get_string exact 3 false true moving = Ok (unlines (map lit moving_text)) /\
  pholds moving "sites" (PSites exact (map (SSite exact) moving_sites)) /\ Forall (fun s => is_token (si_specie exact s) = true) moving_sites /\ comment_plain exact moving /\
  crash_content (poscar_w exact 3 false true moving) (lit "old") (cut_of 12 "  4.000   5.000   6.0") /\ cut_of 12 "  4.000   5.000   6.0" <> lit "old" /\
  forallb (fun ch => match pread exact ch (unlines (map lit moving_text)), pread exact ch (cut_of 12 "  4.000   5.000   6.0") with Ok _, Ok _ => true | _, _ => false end) [FromFile; FromString; FromHandler] = true.
Proof.
  split; [right; reflexivity|]. split; [apply moving_written|]. split; [reflexivity|]. split; [repeat constructor|]. split.
  { intros t H. unfold pholds in H. apply (f_equal (fun o => match o with Some (PStr _ x) => x | _ => t end)) in H. rewrite <- H. vm_compute. reflexivity. }
  split; [apply (moving_crash _ 12 _ (String "0" (String "0" (String nl EmptyString)))); vm_compute; reflexivity|]. split; [vm_compute; discriminate|vm_compute; reflexivity].
Qed.
