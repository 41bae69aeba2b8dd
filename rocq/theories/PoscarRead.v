(** Inversion of the POSCAR reader. *)
From Coq Require Import Ascii String List NArith ZArith QArith Bool Lia Arith.
From Verif Require Import PyBase PyNum PyStrLemmas PyLines UtilsModel KpointsModel KpointsSpec PoscarModel ArithModel PoscarGroup PoscarSpec.
Import ListNotations.
Local Open Scope list_scope.
Local Open Scope bool_scope.
Local Open Scope nat_scope.

Lemma py_nth_ok {A} (l : list A) i a : py_nth l i = Ok a <-> nth_error l i = Some a.
Proof. unfold py_nth. destruct (nth_error l i); cbn; split; congruence. Qed.
Lemma of_option_ok {A} e (o : option A) a : of_option e o = Ok a <-> o = Some a.
Proof. destruct o; cbn; split; congruence. Qed.

Lemma Forall2_impl' {A B} (P Q : A -> B -> Prop) : (forall a b, P a b -> Q a b) -> forall l m, Forall2 P l m -> Forall2 Q l m.
Proof. intros H l m F. induction F; constructor; auto. Qed.

(** ** The species loop *)
Fixpoint species_run (spec : list str) (atoms : list Z) (k : nat) (st : nat * Z) : res (list str * (nat * Z)) :=
  match k with
  | O => Ok ([], st)
  | S k' => let* (s, st') := next_specie spec atoms st in
            let* (l, st2) := species_run spec atoms k' st' in Ok (s :: l, st2)
  end.
Lemma species_run_length spec atoms k : forall st l st', species_run spec atoms k st = Ok (l, st') -> length l = k.
Proof.
  induction k as [|k IH]; intros st l st' H; cbn in H; [inversion H; auto|].
  apply bind_ok in H as [[s st1] [H1 H]]. apply bind_ok in H as [[l' st2] [H2 H]]. inversion H; subst. cbn. f_equal. eapply IH; eauto.
Qed.
Lemma species_run_app spec atoms a : forall b st l st', species_run spec atoms (a + b) st = Ok (l, st') ->
  exists l1 l2 st1, species_run spec atoms a st = Ok (l1, st1) /\ species_run spec atoms b st1 = Ok (l2, st') /\ l = l1 ++ l2.
Proof.
  induction a as [|a IH]; intros b st l st' H.
  - exists [], l, st. auto.
  - cbn in H. apply bind_ok in H as [[s st1] [H1 H]]. apply bind_ok in H as [[l' st2] [H2 H]]. inversion H; subst.
    apply IH in H2 as (l1 & l2 & st2 & R1 & R2 & ->). exists (s :: l1), l2, st2. cbn [species_run]. rewrite H1. cbn [bind]. rewrite R1. auto.
Qed.
(** one species: from index [i] to its count *)
Lemma species_run_slot spec atoms slot a s k : forall i, nth_error atoms slot = Some a -> nth_error spec slot = Some s ->
  (1 <= i)%Z -> (Z.of_nat k <= a - i + 1)%Z ->
  species_run spec atoms k (slot, i) = Ok (repeat s k, (slot, (i + Z.of_nat k)%Z)).
Proof.
  induction k as [|k IH]; intros i Ha Hs Hi Hk.
  - cbn. do 3 f_equal. lia.
  - cbn [species_run]. unfold next_specie. cbn [fst snd]. unfold py_nth at 1. rewrite Ha. cbn [of_option bind].
    assert ((a <? i)%Z = false) as -> by (apply Z.ltb_ge; lia). cbn [fst snd].
    unfold py_nth. rewrite Hs. cbn [of_option bind]. rewrite IH by (auto; lia). cbn [bind repeat]. do 3 f_equal. lia.
Qed.
Lemma nth_error_skipn {A} (l : list A) n x r : skipn n l = x :: r -> nth_error l n = Some x /\ skipn (S n) l = r.
Proof.
  revert n. induction l as [|y l IH]; intros [|n] H; cbn in *; try discriminate; [inversion H; auto|apply IH; auto].
Qed.
Lemma skipn_nth {A} (l : list A) n x : nth_error l n = Some x -> skipn n l = x :: skipn (S n) l.
Proof.
  revert n. induction l as [|y l IH]; intros [|n] H; cbn in *; try discriminate; [congruence|]. apply IH in H. exact H.
Qed.
(** entering the next slot *)
Lemma next_specie_enter spec atoms slot a s st' i : nth_error atoms slot = Some a -> (a < i)%Z ->
  next_specie spec atoms (slot, i) = Ok (s, st') -> nth_error spec (S slot) = Some s /\ st' = (S slot, 2%Z).
Proof.
  intros Ha Hi H. unfold next_specie in H. cbn [fst snd] in H. unfold py_nth at 1 in H. rewrite Ha in H. cbn [of_option bind] in H.
  assert ((a <? i)%Z = true) as E by (apply Z.ltb_lt; auto). rewrite E in H. cbn [fst snd] in H.
  apply bind_ok in H as [s' [H1 H]]. inversion H; subst. apply py_nth_ok in H1. auto.
Qed.
Lemma fold_add l : forall z, fold_left Z.add l z = (z + fold_left Z.add l 0)%Z.
Proof.
  induction l as [|a l IH]; intros z; cbn [fold_left]; [lia|]. rewrite (IH (z + a)%Z), (IH (0 + a)%Z). lia.
Qed.
Lemma total_cons a l : total (a :: l) = (a + total l)%Z.
Proof. unfold total. cbn [fold_left]. rewrite fold_add. lia. Qed.
Lemma total_nonneg l : Forall (fun a => 0 < a)%Z l -> (0 <= total l)%Z.
Proof. induction 1; [cbn; lia|]. rewrite total_cons. lia. Qed.
Lemma total_pos a l : Forall (fun a => 0 < a)%Z (a :: l) -> (0 < total (a :: l))%Z.
Proof. intros H. inversion H; subst. rewrite total_cons. pose proof (total_nonneg l H3). lia. Qed.

(** after the slot [slot] is exhausted, the positive counts [pos] that follow are
    all used in order *)
Lemma species_run_next spec atoms pos : forall slot a rest k st l st',
  skipn slot atoms = a :: pos ++ rest -> Forall (fun a => 0 < a)%Z pos -> st = (slot, (a + 1)%Z) ->
  Z.of_nat k = total pos -> species_run spec atoms k st = Ok (l, st') ->
  l = announced (skipn (S slot) spec) pos /\ (pos = [] \/ length pos < length (skipn slot spec)) /\
  exists b, nth_error atoms (slot + length pos) = Some b /\ st' = (slot + length pos, (b + 1)%Z).
Proof.
  induction pos as [|p pos IH]; intros slot a rest k st l st' Sk F Est Hk R; subst st.
  - cbn in Hk. assert (k = 0) by lia. subst k. cbn in R. inversion R; subst. split; [unfold announced; destruct (skipn (S slot) spec); reflexivity|].
    split; auto. exists a. rewrite Nat.add_0_r. split; auto. apply nth_error_skipn in Sk. tauto.
  - inversion F; subst. rewrite total_cons in Hk. pose proof (total_nonneg pos H2) as TP.
    apply nth_error_skipn in Sk as [Na Sk]. cbn [app] in Sk.
    replace k with (S (Z.to_nat (p - 1) + Z.to_nat (total pos))) in R by lia.
    cbn [species_run] in R. apply bind_ok in R as [[s st1] [R1 R]]. apply bind_ok in R as [[l' st2] [R2 R]]. inversion R; subst. clear R.
    apply (next_specie_enter spec atoms slot a) in R1 as [Ns ->]; auto; [|lia].
    apply species_run_app in R2 as (l1 & l2 & st1 & R1 & R2 & ->).
    pose proof Sk as Sk2. apply nth_error_skipn in Sk2 as [Np Sk2].
    rewrite (species_run_slot spec atoms (S slot) p s) in R1 by (auto; lia). inversion R1; subst. clear R1.
    eapply IH in R2; [|exact Sk|auto|f_equal; lia|lia]. destruct R2 as [-> [L [b [B ->]]]].
    split; [|split].
    + rewrite (skipn_nth spec (S slot) s Ns). unfold announced. cbn [combine flat_map fst snd].
      replace (Z.to_nat p) with (S (Z.to_nat (p - 1))) by lia. reflexivity.
    + right. assert (slot < length spec) as LS. { assert (S slot < length spec) by (apply nth_error_Some; congruence). lia. }
      destruct L as [-> |L]; rewrite skipn_length in *.
      * cbn [length]. assert (S slot < length spec) by (apply nth_error_Some; congruence). lia.
      * cbn [length] in *. lia.
    + exists b. cbn [length]. replace (slot + S (length pos)) with (S slot + length pos) by lia. auto.
Qed.
Lemma total_app a b : total (a ++ b) = (total a + total b)%Z.
Proof. induction a; cbn [app]; rewrite ?total_cons; [reflexivity|]. rewrite IHa. lia. Qed.
Lemma species_run_start spec p pos rest k l st' :
  Forall (fun a => 0 < a)%Z (p :: pos) -> Z.of_nat k = total (p :: pos) ->
  species_run spec (p :: pos ++ rest) k (0, 1%Z) = Ok (l, st') ->
  l = announced spec (p :: pos) /\ length (p :: pos) <= length spec /\
  exists b, nth_error (p :: pos ++ rest) (length pos) = Some b /\ st' = (length pos, (b + 1)%Z).
Proof.
  intros F Hk R. inversion F; subst. rewrite total_cons in Hk. pose proof (total_nonneg pos H2) as TP.
  replace k with (Z.to_nat p + Z.to_nat (total pos)) in R by lia.
  apply species_run_app in R as (l1 & l2 & st1 & R1 & R2 & ->).
  assert (exists s spec', spec = s :: spec') as [s [spec' ->]].
  { destruct spec as [|s spec']; [|eauto]. replace (Z.to_nat p) with (S (Z.to_nat (p - 1))) in R1 by lia. cbn [species_run] in R1.
    unfold next_specie in R1. cbn [fst snd] in R1. unfold py_nth at 1 in R1. cbn [nth_error of_option bind] in R1.
    assert ((p <? 1)%Z = false) as E by (apply Z.ltb_ge; lia). rewrite E in R1. cbn in R1. discriminate. }
  rewrite (species_run_slot (s :: spec') (p :: pos ++ rest) 0 p s) in R1 by (auto; lia). inversion R1; subst. clear R1.
  eapply (species_run_next _ _ pos 0 p rest) in R2; [|reflexivity|auto|f_equal; lia|lia].
  destruct R2 as [-> [L B]]. split; [reflexivity|]. split; [|exact B]. cbn [skipn] in L. destruct L as [-> |L]; cbn [length] in *; lia.
Qed.
Lemma announced_zeros spec pos z : announced spec (pos ++ repeat 0%Z z) = announced spec pos.
Proof.
  revert spec. induction pos as [|p pos IH]; intros spec.
  - cbn [app]. assert (announced spec [] = []) as -> by (destruct spec; reflexivity).
    revert spec. induction z as [|z IH]; intros [|s spec]; auto. unfold announced. cbn [repeat combine flat_map fst snd]. apply (IH spec).
  - destruct spec as [|s spec]; auto. unfold announced in *. cbn [app combine flat_map]. f_equal. apply IH.
Qed.
Theorem species_positive spec pos z k l st' : Forall (fun a => 0 < a)%Z pos -> Z.of_nat k = total (pos ++ repeat 0%Z z) ->
  species_run spec (pos ++ repeat 0%Z z) k (0, 1%Z) = Ok (l, st') -> l = announced spec (pos ++ repeat 0%Z z).
Proof.
  intros F Hk R. rewrite announced_zeros. assert (total (repeat 0%Z z) = 0%Z) as TZ.
  { clear. induction z; [reflexivity|]. cbn [repeat]. rewrite total_cons, IHz. reflexivity. }
  rewrite total_app, TZ, Z.add_0_r in Hk. destruct pos as [|p pos].
  - cbn in Hk. assert (k = 0) by lia. subst. cbn in R. inversion R. destruct spec; reflexivity.
  - cbn [app] in *. apply (species_run_start spec p pos (repeat 0%Z z) k l st' F Hk) in R. tauto.
Qed.
(** a zero count in the middle: the species that has no site gets one *)
Theorem species_zero spec p pos rest k l st' : Forall (fun a => 0 < a)%Z (p :: pos) -> (total (p :: pos) < Z.of_nat k)%Z ->
  species_run spec (p :: pos ++ 0%Z :: rest) k (0, 1%Z) = Ok (l, st') ->
  nth_error l (Z.to_nat (total (p :: pos))) = nth_error spec (length (p :: pos)) /\ nth_error l (Z.to_nat (total (p :: pos))) <> None.
Proof.
  intros F Hk R. pose proof (total_pos p pos F) as TP. set (n := Z.to_nat (total (p :: pos))) in *.
  replace k with (n + S (k - n - 1)) in R by lia.
  apply species_run_app in R as (l1 & l2 & st1 & R1 & R2 & ->).
  pose proof (species_run_length _ _ _ _ _ _ R1) as L1.
  apply (species_run_start spec p pos (0%Z :: rest) n) in R1 as [_ [_ [b [B ->]]]]; auto; [|lia].
  cbn [species_run] in R2. apply bind_ok in R2 as [[s st2] [R2 R3]]. apply bind_ok in R3 as [[l' st3] [R3 R4]]. inversion R4; subst.
  apply (next_specie_enter _ _ _ b) in R2 as [Ns _]; auto; [|lia].
  rewrite nth_error_app2 by lia. rewrite L1, Nat.sub_diag. split; [|discriminate]. symmetry. exact Ns.
Qed.

(** ** Blocks of lines *)
Lemma skipn_cons_nth {A} (l : list A) n x : nth_error l n = Some x -> skipn n l = x :: skipn (S n) l.
Proof. apply skipn_nth. Qed.
Lemma range_ok {A B} (f : A -> res B) ls n : forall s bs,
  mapM (fun i => let* l := py_nth ls i in f l) (seq s n) = Ok bs ->
  mapM f (firstn n (skipn s ls)) = Ok bs /\ length (firstn n (skipn s ls)) = n.
Proof.
  induction n as [|n IH]; intros s bs H; cbn [seq mapM] in H.
  - inversion H. cbn. auto.
  - apply bind_ok in H as [b [H1 H]]. apply bind_ok in H1 as [l [H1 H2]]. apply bind_ok in H as [bs' [H3 H]]. inversion H; subst.
    apply py_nth_ok in H1. rewrite (skipn_nth ls s l H1). cbn [firstn mapM]. rewrite H2. cbn [bind].
    apply IH in H3 as [-> L]. split; auto. cbn [length]. congruence.
Qed.
Lemma range_eq {A B} (f : A -> res B) ls n : forall s, length (firstn n (skipn s ls)) = n ->
  mapM (fun i => let* l := py_nth ls i in f l) (seq s n) = mapM f (firstn n (skipn s ls)).
Proof.
  induction n as [|n IH]; intros s H; [reflexivity|].
  destruct (skipn s ls) as [|l r] eqn:E; [cbn in H; discriminate|].
  apply nth_error_skipn in E as [E1 E2]. cbn [firstn seq mapM length] in *. unfold py_nth at 1. rewrite E1. cbn [of_option bind].
  destruct (f l); auto. cbn [bind]. rewrite IH by (rewrite E2; congruence). rewrite E2. reflexivity.
Qed.

Section Read.
Variable A : arith.
Notation num := (num A).
Notation vec := (vec A).
Notation mat := (mat A).

Lemma num3_ok l f v : num3 A l f = Ok v <-> exists x y z, three_numbers A l x y z /\ v = [f x; f y; f z].
Proof.
  unfold num3, num_tok, three_numbers. split.
  - intros H. apply bind_ok in H as [a [Ha H]]. apply bind_ok in H as [x [Hx H]]. apply bind_ok in H as [b [Hb H]].
    apply bind_ok in H as [y [Hy H]]. apply bind_ok in H as [c [Hc H]]. apply bind_ok in H as [z [Hz H]]. inversion H.
    rewrite py_nth_ok in *. apply of_option_ok in Hx. apply of_option_ok in Hy. apply of_option_ok in Hz.
    destruct (split_ws l) as [|a' [|b' [|c' r]]]; cbn in *; try discriminate. inversion Ha. inversion Hb. inversion Hc. subst.
    exists x, y, z. split; auto. exists a, b, c, r. auto.
  - intros (x & y & z & (a & b & c & r & E & Hx & Hy & Hz) & ->). rewrite E. cbn. rewrite Hx. cbn. rewrite Hy. cbn. rewrite Hz. reflexivity.
Qed.
Lemma three_numbers_fun l x y z x' y' z' : three_numbers A l x y z -> three_numbers A l x' y' z' -> x = x' /\ y = y' /\ z = z'.
Proof.
  intros (a & b & c & r & E & Hx & Hy & Hz) (a' & b' & c' & r' & E' & Hx' & Hy' & Hz'). rewrite E in E'. inversion E'; subst.
  rewrite Hx in Hx'. rewrite Hy in Hy'. rewrite Hz in Hz'. inversion Hx'. inversion Hy'. inversion Hz'. auto.
Qed.

(** what the line of a site says *)
Definition site_line (direct selective : bool) (scaling : num) (cell : mat) (l : str) (r : str * vec * list bool) : Prop :=
  exists x y z, three_numbers A l x y z /\
    (if direct then snd (fst r) = [nmul A x (n1 A); nmul A y (n1 A); nmul A z (n1 A)]
     else to_direct A [nmul A x scaling; nmul A y scaling; nmul A z scaling] cell = Ok (snd (fst r))) /\
    (if selective then flags3 l = Ok (snd r) else snd r = [true; true; true]).
Lemma read_sites_ok ls spec atoms direct selective scaling cell k : forall i st raw,
  read_sites A ls spec atoms direct selective scaling cell i k st = Ok raw ->
  length raw = k /\ length (firstn k (skipn i ls)) = k /\
  Forall2 (site_line direct selective scaling cell) (firstn k (skipn i ls)) raw /\
  exists st', species_run spec atoms k st = Ok (map (fun r => fst (fst r)) raw, st').
Proof.
  induction k as [|k IH]; intros i st raw H; cbn [read_sites] in H.
  - inversion H. cbn. repeat split; auto. exists st. reflexivity.
  - apply bind_ok in H as [[s st'] [H1 H]]. apply bind_ok in H as [l [H2 H]]. apply bind_ok in H as [p [H3 H]].
    apply bind_ok in H as [q [H4 H]]. apply bind_ok in H as [f [H5 H]]. apply bind_ok in H as [r [H6 H]]. inversion H; subst. clear H.
    apply IH in H6 as (L & L2 & F & st2 & R). apply py_nth_ok in H2. rewrite (skipn_nth ls i l H2). cbn [firstn length map species_run fst].
    split; [congruence|]. split; [congruence|]. split.
    + constructor; auto. apply num3_ok in H3 as (x & y & z & T & ->). exists x, y, z. split; auto. cbn [fst snd]. destruct direct.
      * inversion H4. split; auto. destruct selective; [auto|inversion H5; auto].
      * split; auto. destruct selective; [auto|inversion H5; auto].
    + rewrite H1. cbn [bind]. rewrite R. eexists. reflexivity.
Qed.

(** the sites built from what was read *)
Lemma build_sites_nth raw vel pre i : nth_error (build_sites A raw vel pre) i =
  option_map (fun r => SSite A (Site A (fst (fst r)) (snd (fst r)) (Some (snd r)) (opt_nth A vel i) (opt_nth A pre i) true)) (nth_error raw i).
Proof.
  unfold build_sites. assert (forall j, nth_error (combine (seq j (length raw)) raw) i = option_map (fun r => (j + i, r)) (nth_error raw i)) as E.
  { revert i. induction raw as [|r raw IH]; intros i j; [destruct i; reflexivity|]. destruct i as [|i]; cbn [length seq combine nth_error].
    - cbn. rewrite Nat.add_0_r. reflexivity.
    - rewrite IH. destruct (nth_error raw i); cbn; auto. do 3 f_equal. lia. }
  rewrite nth_error_map, E. destruct (nth_error raw i) as [[[s p] f]|]; reflexivity.
Qed.
Lemma build_sites_length raw vel pre : length (build_sites A raw vel pre) = length raw.
Proof. unfold build_sites. rewrite map_length, combine_length, seq_length. lia. Qed.

Lemma read_mode_ok ls selective direct first : read_mode ls = Ok (selective, direct, first) <-> layout ls selective direct first.
Proof.
  unfold read_mode, layout, starts. split.
  - intros H. apply bind_ok in H as [l7 [H1 H]]. apply bind_ok in H as [c7 [H2 H]]. apply py_nth_ok in H1. apply py_nth_ok in H2.
    destruct l7 as [|c l7]; [discriminate|]. inversion H2. subst c7. exists c. split; [eauto|].
    destruct (aeqb (lower1 c) "s") eqn:E.
    + apply bind_ok in H as [l8 [H3 H]]. apply bind_ok in H as [c8 [H4 H]]. apply py_nth_ok in H3. apply py_nth_ok in H4.
      destruct l8 as [|c' l8]; [discriminate|]. inversion H4. subst c8. inversion H; subst. apply aeqb_eq in E. split; auto. split; auto. exists c'. eauto.
    + inversion H; subst. apply aeqb_neq in E. auto.
  - intros [c [[r E] H]]. unfold py_nth at 1. rewrite E. cbn [of_option bind].
    unfold py_nth at 1. change (nth_error (c :: r) 0) with (Some c). cbn [of_option bind]. destruct selective.
    + destruct H as [H1 [-> [c' [[r' E'] ->]]]]. rewrite H1, aeqb_refl. unfold py_nth at 1. rewrite E'. reflexivity.
    + destruct H as [N [-> ->]]. apply aeqb_neq in N. rewrite N. reflexivity.
Qed.

Lemma asarray_ok (a b c : vec) m : asarray A [a; b; c] = Ok m -> m = [a; b; c] /\ length b = length a /\ length c = length a.
Proof.
  unfold asarray. cbn [forallb]. rewrite Nat.eqb_refl. cbn. destruct (Nat.eqb_spec (length b) (length a)); destruct (Nat.eqb_spec (length c) (length a)); cbn; try discriminate.
  intros H. inversion H. auto.
Qed.

(** Everything a successful reading says about the lines *)
Record reading (ls : list str) (es : pentries A) (l0 l1 l2 l3 l4 : str) (scaling : num) (r2 r3 r4 : vec) (spec : list str) (atoms : list Z)
  (selective direct : bool) (first : nat) (raw : list (str * vec * list bool)) (hasv vdirect predictor : bool) (vel pre : option (list vec)) : Prop := {
  rd_0 : nth_error ls 0 = Some l0;
  rd_1 : nth_error ls 1 = Some l1;
  rd_scaling : exists t r, split_ws l1 = t :: r /\ nparse A t = Some scaling;
  rd_positive : nneg A scaling = false;
  rd_2 : nth_error ls 2 = Some l2 /\ number_line A l2 r2;
  rd_3 : nth_error ls 3 = Some l3 /\ number_line A l3 r3;
  rd_4 : nth_error ls 4 = Some l4 /\ number_line A l4 r4;
  rd_shape : length r3 = length r2 /\ length r4 = length r2;
  rd_spec : exists l5, nth_error ls 5 = Some l5 /\ is_numbers l5 = false /\ split_ws l5 = spec;
  rd_atoms : exists l6, nth_error ls 6 = Some l6 /\ Forall2 (fun t z => parse_int t = Some z) (split_ws l6) atoms;
  rd_mode : layout ls selective direct first;
  rd_sites : read_sites A ls spec atoms direct selective scaling (map (map (nmul A scaling)) [r2; r3; r4]) first (Z.to_nat (total atoms)) (0, 1%Z) = Ok raw;
  rd_tail : read_tail_mode ls (total atoms + Z.of_nat first) direct = Ok (hasv, vdirect, predictor);
  rd_vel : if hasv then exists v, vel = Some v /\
             read_velocities A ls (Z.to_nat (total atoms + Z.of_nat first + 1)) (Z.to_nat (total atoms)) vdirect (map (map (nmul A scaling)) [r2; r3; r4]) = Ok v /\
             read_predictors A ls (total atoms + (total atoms + Z.of_nat first + 1)) (Z.to_nat (total atoms)) = Ok pre
           else vel = None /\ if predictor then exists b, pre = Some b /\ read_block A ls (Z.to_nat (total atoms + Z.of_nat first + 1)) (Z.to_nat (total atoms)) = Ok b
                              else pre = None;
  rd_es : es = [(lit "comment", PStr A (strip (filter (fun c => negb (aeqb c "#")) l0)));
                (lit "unitcell", PMat A (map (map (nmul A scaling)) [r2; r3; r4]));
                (lit "sites", PSites A (build_sites A raw vel pre))] }.
Lemma from_list_ok ls es : from_list A ls = Ok es ->
  exists l0 l1 l2 l3 l4 scaling r2 r3 r4 spec atoms selective direct first raw hasv vdirect predictor vel pre,
    reading ls es l0 l1 l2 l3 l4 scaling r2 r3 r4 spec atoms selective direct first raw hasv vdirect predictor vel pre.
Proof.
  unfold from_list. intros H.
  apply bind_ok in H as [l0 [H0 H]]. apply bind_ok in H as [l5 [H5 H]]. apply bind_ok in H as [l1 [H1 H]].
  apply bind_ok in H as [t [Ht H]]. apply bind_ok in H as [sc [Hs H]].
  destruct (nneg A sc) eqn:NS; [discriminate|]. destruct (is_numbers l5) eqn:N5; [discriminate|].
  apply bind_ok in H as [l2 [H2 H]]. apply bind_ok in H as [r2 [R2 H]].
  apply bind_ok in H as [l3 [H3 H]]. apply bind_ok in H as [r3 [R3 H]].
  apply bind_ok in H as [l4 [H4 H]]. apply bind_ok in H as [r4 [R4 H]].
  apply bind_ok in H as [cell [HC H]]. apply asarray_ok in HC as [-> [L3 L4]].
  apply bind_ok in H as [l6 [H6 H]]. apply bind_ok in H as [atoms [HA H]].
  apply bind_ok in H as [[[selective direct] first] [HM H]]. apply bind_ok in H as [raw [HR H]].
  apply bind_ok in H as [[[hasv vdirect] predictor] [HT H]]. apply bind_ok in H as [[vel pre] [HV H]]. inversion H. clear H. subst es.
  fold (total atoms) in *. rewrite py_nth_ok in *.
  exists l0, l1, l2, l3, l4, sc, r2, r3, r4, (split_ws l5), atoms, selective, direct, first, raw, hasv, vdirect, predictor, vel, pre.
  assert (forall l r, mapM (num_tok A) (split_ws l) = Ok r -> number_line A l r) as NL.
  { intros l r K. apply mapM_ok_Forall2 in K. unfold number_line. eapply Forall2_impl'; [|exact K]. intros a b Q. apply of_option_ok in Q. exact Q. }
  constructor; auto.
  - apply of_option_ok in Hs. destruct (split_ws l1) as [|t' r]; [discriminate|]. inversion Ht. subst. eauto.
  - eauto.
  - exists l6. split; auto. apply mapM_ok_Forall2 in HA. eapply Forall2_impl'; [|exact HA]. intros a b Q. apply of_option_ok in Q. exact Q.
  - apply read_mode_ok. auto.
  - destruct hasv.
    + apply bind_ok in HV as [v [V1 V]]. apply bind_ok in V as [q [V2 V]]. inversion V; subst. eauto.
    + destruct predictor.
      * apply bind_ok in HV as [b [V1 V]]. inversion V; subst. eauto.
      * inversion HV; auto.
Qed.

(** through each channel *)
Lemma from_dict_built c m l : Forall (fun v => exists s, v = SSite A s /\ si_direct A s = true) l ->
  from_dict A [(lit "comment", c); (lit "unitcell", m); (lit "sites", PSites A l)] =
  Ok [(lit "comment", c); (lit "unitcell", m); (lit "sites", PSites A l)].
Proof.
  intros F. unfold from_dict, pkey. cbn [dget]. change (seqb (lit "sites") (lit "comment")) with false. change (seqb (lit "sites") (lit "unitcell")) with false.
  change (seqb (lit "sites") (lit "sites")) with true. cbv iota. cbn [of_option bind].
  match goal with |- context [mapM (from_dict_site A ?c)] => set (cc := c); clearbody cc end.
  assert (mapM (from_dict_site A cc) l = Ok l) as ->.
  { clear -F. induction F as [|v l [s [-> D]] F IH]; auto. cbn [mapM from_dict_site]. rewrite D. cbn [bind]. rewrite IH. reflexivity. }
  reflexivity.
Qed.
Lemma build_direct raw vel pre : Forall (fun v => exists s, v = SSite A s /\ si_direct A s = true) (build_sites A raw vel pre).
Proof.
  apply Forall_forall. intros v H. apply In_nth_error in H as [i H]. rewrite build_sites_nth in H. destruct (nth_error raw i) as [r|]; [|discriminate].
  inversion H. eexists. split; reflexivity.
Qed.
Lemma pread_eq ch txt : pread A ch txt =
  (let* es := from_list A (plines ch txt) in let* es := from_dict A es in let* _ := validate A es in Ok es).
Proof.
  destruct ch; unfold pread, poscar_of_string, poscar_of_file, poscar_of_handler, poscar_init; cbn [is_some pa_string pa_dict pa_path pa_handler orb andb negb];
  unfold read_from_file; cbn [file_data bind filter_lines plines]; match goal with |- context [from_list A ?l] => destruct (from_list A l) end; reflexivity.
Qed.
Lemma pread_ok ch txt es : pread A ch txt = Ok es <-> from_list A (plines ch txt) = Ok es /\ validate A es = Ok tt.
Proof.
  rewrite pread_eq. split.
  - intros H. apply bind_ok in H as [e1 [H1 H]].
    destruct (from_list_ok _ _ H1) as (l0 & l1 & l2 & l3 & l4 & sc & r2 & r3 & r4 & spec & atoms & sel & dir & first & raw & hasv & vd & pred & vel & pre & R).
    rewrite (rd_es _ _ _ _ _ _ _ _ _ _ _ _ _ _ _ _ _ _ _ _ _ _ R) in *. rewrite from_dict_built in H by apply build_direct. cbn [bind] in H.
    apply bind_ok in H as [[] [V H]]. inversion H; subst. auto.
  - intros [H1 V]. rewrite H1. cbn [bind].
    destruct (from_list_ok _ _ H1) as (l0 & l1 & l2 & l3 & l4 & sc & r2 & r3 & r4 & spec & atoms & sel & dir & first & raw & hasv & vd & pred & vel & pre & R).
    rewrite (rd_es _ _ _ _ _ _ _ _ _ _ _ _ _ _ _ _ _ _ _ _ _ _ R) in *. rewrite from_dict_built by apply build_direct. cbn [bind]. rewrite V. reflexivity.
Qed.
End Read.
