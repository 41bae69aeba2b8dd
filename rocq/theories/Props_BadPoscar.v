(** Property C90, continued: POSCAR. *)
From Coq Require Import Ascii String List NArith ZArith QArith Bool Lia Arith.
From Verif Require Import PyBase PyNum PyStrLemmas PyNumLemmas PyLines PyToken UtilsModel KpointsModel KpointsSpec ArithModel PoscarModel PoscarSpec PoscarRead PoscarRoundTrip.
From Verif Require StreamConfig.
From Verif Require Import Props_Poscar Props_Blanks Props_BadNumbers.
Import ListNotations.
Local Open Scope list_scope.
Local Open Scope bool_scope.
Local Open Scope nat_scope.

(** one of the first [n] words, one of the words is not a number *)
Definition bad_number (A : arith) (n : nat) (l : str) : Prop := exists w, In w (firstn n (split_ws l)) /\ nparse A w = None.
Definition any_bad_number (A : arith) (l : str) : Prop := exists w, In w (split_ws l) /\ nparse A w = None.
(** the line holds a number other than three of words, all of them numbers *)
Definition not_three (A : arith) (l : str) : Prop := length (split_ws l) <> 3 /\ forall w, In w (split_ws l) -> nparse A w <> None.

Section Arith.
Variable A : arith.
Lemma nums_bad l : any_bad_number A l -> mapM (num_tok A) (split_ws l) = Exn ValueError.
Proof. intros (w & I & B). apply (mapM_In_exn _ _ _ w); auto; unfold num_tok; [rewrite B; auto|]. intros y e'. destruct (nparse A y); cbn; congruence. Qed.
Lemma nums_good l : (forall w, In w l -> nparse A w <> None) -> exists r, mapM (num_tok A) l = Ok r /\ length r = length l.
Proof.
  induction l as [|w l IH]; intros H; [exists []; auto|]. destruct IH as [r [E L]]; [intros x X; apply H; right; auto|]. cbn [mapM]. unfold num_tok at 1. destruct (nparse A w) as [x|] eqn:P; [|destruct (H w); auto; left; auto].
  cbn [of_option bind]. rewrite E. exists (x :: r). cbn. auto.
Qed.
Lemma num3_bad l f : bad_number A 3 l -> num3 A l f = Exn ValueError.
Proof.
  intros (w & I & B). unfold num3, num_tok.
  destruct (split_ws l) as [|a [|b [|c r]]]; cbn [firstn] in I; [destruct I| | |]; cbn [py_nth nth_error of_option bind].
  - destruct I as [->|[]]. rewrite B. reflexivity.
  - destruct (nparse A a) eqn:E; [|reflexivity]. cbn [of_option bind]. destruct I as [->|[->|[]]]; [congruence|]. rewrite B. reflexivity.
  - destruct (nparse A a) eqn:E; [|reflexivity]. cbn [of_option bind]. destruct (nparse A b) eqn:Eb; [|reflexivity]. cbn [of_option bind].
    destruct I as [->|[->|[->|I]]]; try congruence; [rewrite B; reflexivity|]. destruct I.
Qed.
Lemma sites_bad ls ls' i l' spec atoms direct selective scaling cell : replaced ls ls' i l' -> bad_number A 3 l' ->
  forall k j st raw, read_sites A ls spec atoms direct selective scaling cell j k st = Ok raw -> j <= i < j + k -> read_sites A ls' spec atoms direct selective scaling cell j k st = Exn ValueError.
Proof.
  intros R B. destruct (replaced_at _ _ _ _ R) as (R1 & _ & R2 & _).
  induction k as [|k IH]; intros j st raw H L; [lia|]. cbn [read_sites] in *. apply bind_ok in H as [[sp' st'] [H1 H]]. rewrite H1. cbn [bind].
  apply bind_ok in H as [line [H2 H]]. destruct (Nat.eq_dec j i) as [->|N].
  - rewrite (proj2 (py_nth_ok _ _ _) R1). cbn [bind]. rewrite num3_bad by auto. reflexivity.
  - unfold py_nth in *. rewrite (R2 j) by auto. rewrite H2. cbn [bind]. apply bind_ok in H as [p [H3 H]]. rewrite H3. cbn [bind]. apply bind_ok in H as [p2 [H4 H]]. rewrite H4. cbn [bind]. apply bind_ok in H as [f [H5 H]]. rewrite H5. cbn [bind].
    apply bind_ok in H as [r [H6 _]]. rewrite (IH (S j) st' r H6) by lia. reflexivity.
Qed.
Lemma ints_tok_bad l : any_bad_int l -> mapM int_tok (split_ws l) = Exn ValueError.
Proof. intros (w & I & B). apply (mapM_In_exn _ _ _ w); auto; unfold int_tok; [rewrite B; auto|]. intros y e'. destruct (parse_int y); cbn; congruence. Qed.
Lemma cell_rows es : validate A es = Ok tt -> forall m, pholds es "unitcell" (PMat A m) -> exists a b c, m = [a; b; c] /\ length a = 3 /\ length b = 3 /\ length c = 3.
Proof.
  unfold validate. intros H m M. apply bind_ok in H as [u [_ H]]. apply bind_ok in H as [u2 [H _]]. unfold check_unitcell, arg_or, pkey in H. unfold pholds in M. rewrite M in H. cbn [of_option bind cell_ok] in H.
  destruct m as [|[|? [|? [|? [|]]]] [|[|? [|? [|? [|]]]] [|[|? [|? [|? [|]]]] [|]]]]; try discriminate. do 3 eexists. split; [reflexivity|]. auto.
Qed.
Lemma poscar_bad ls ls' i l' es atoms selective direct first : from_list A ls = Ok es -> validate A es = Ok tt -> replaced ls ls' i l' -> counts_at ls 6 atoms -> layout ls selective direct first ->
  i = 1 /\ bad_number A 1 l' \/ 2 <= i <= 4 /\ (any_bad_number A l' \/ not_three A l') \/ i = 6 /\ any_bad_int l' \/ first <= i < first + Z.to_nat (total atoms) /\ bad_number A 3 l' ->
  from_list A ls' = Exn ValueError.
Proof.
  intros H V R CT LY K. destruct (replaced_at _ _ _ _ R) as (R1 & _ & R2' & _). assert (forall j, j <> i -> py_nth ls' j = py_nth ls j) as R2 by (intros j J; unfold py_nth; rewrite R2' by auto; reflexivity). apply (proj2 (py_nth_ok _ _ _)) in R1.
  assert (8 <= first) as F8. { destruct LY as (c & _ & X). destruct selective; [destruct X as (_ & -> & _)|destruct X as (_ & -> & _)]; lia. }
  assert (i <> 0 /\ i <> 5) as [I0 I5]. { destruct K as [[-> _]|[[L _]|[[-> _]|[L _]]]]; lia. }
  destruct CT as (l6' & A6 & C6). apply (proj2 (py_nth_ok _ _ _)) in A6.
  assert (exists m, pholds es "unitcell" (PMat A m) /\ exists a b c, m = [a; b; c] /\ length a = 3 /\ length b = 3 /\ length c = 3) as CR.
  { destruct (from_list_ok A _ _ H) as (l0 & l1 & l2 & l3 & l4 & sc & r2 & r3 & r4 & spec & at' & sel & dir & fi & raw & hasv & vd & pred & vel & pre & RD). eexists. split.
    - rewrite (rd_es _ _ _ _ _ _ _ _ _ _ _ _ _ _ _ _ _ _ _ _ _ _ _ RD). reflexivity.
    - apply (cell_rows _ V). rewrite (rd_es _ _ _ _ _ _ _ _ _ _ _ _ _ _ _ _ _ _ _ _ _ _ _ RD). reflexivity. }
  unfold from_list in *. apply bind_ok in H as [l0 [H0 H]]. rewrite (R2 0), H0 by auto. cbn [bind]. apply bind_ok in H as [l5 [H5 H]]. rewrite (R2 5), H5 by auto. cbn [bind]. apply bind_ok in H as [l1 [H1 H]].
  destruct (Nat.eq_dec i 1) as [->|I1].
  { rewrite R1. cbn [bind]. assert (bad_number A 1 l') as (w & I & B) by (destruct K as [[_ K]|[[L _]|[[L _]|[L _]]]]; auto; lia).
    destruct (split_ws l') as [|t q]; [destruct I|]. cbn [firstn In] in I. destruct I as [->|[]]. cbn [py_nth nth_error of_option bind]. unfold num_tok at 1. rewrite B. reflexivity. }
  rewrite (R2 1), H1 by auto. cbn [bind]. apply bind_ok in H as [t [E1 H]]. rewrite E1. cbn [bind]. apply bind_ok in H as [sc [E2 H]]. rewrite E2. cbn [bind].
  destruct (nneg A sc); [discriminate H|]. destruct (is_numbers l5); [discriminate H|].
  apply bind_ok in H as [l2 [H2 H]]. apply bind_ok in H as [r2 [E3 H]]. apply bind_ok in H as [l3 [H3 H]]. apply bind_ok in H as [r3 [E4 H]]. apply bind_ok in H as [l4 [H4 H]]. apply bind_ok in H as [r4 [E5 H]]. apply bind_ok in H as [cell [E6 H]].
  assert (length r2 = 3 /\ length r3 = 3 /\ length r4 = 3) as (L2 & L3 & L4).
  { assert (cell = [r2; r3; r4]) as EC by (unfold asarray in E6; destruct (forallb _ _); [injection E6 as <-; auto|discriminate E6]).
    destruct CR as (m & M & a & b & c & -> & LA & LB & LC). apply bind_ok in H as [? [_ H]]. apply bind_ok in H as [? [_ H]]. apply bind_ok in H as [[[? ?] ?] [_ H]]. apply bind_ok in H as [? [_ H]]. apply bind_ok in H as [[[? ?] ?] [_ H]]. apply bind_ok in H as [[? ?] [_ H]].
    apply StreamConfig.Ok_inj' in H. rewrite <- H in M. unfold pholds in M. rewrite EC in M. change (Some (PMat A (map (map (nmul A sc)) [r2; r3; r4])) = Some (PMat A [a; b; c])) in M. injection M as <- <- <-. rewrite !map_length in *. auto. }
  assert (forall a b c, length a = 3 -> length b = 3 -> length c = 3 -> asarray A [a; b; c] = Ok [a; b; c]) as AS by (intros a b c X Y Z0; unfold asarray; cbn [forallb]; rewrite X, Y, Z0; reflexivity).
  destruct K as [[-> _]|[[L K]|K]]; [congruence| |].
  - clear H. assert (forall (T : Type) (f : list (num A) -> res T), (forall r, length r <> 3 -> f r = Exn ValueError) -> (let* r := mapM (num_tok A) (split_ws l') in f r) = Exn ValueError) as G.
    { intros T f F. destruct K as [K|[K1 K2]]; [rewrite nums_bad by auto; reflexivity|]. destruct (nums_good _ K2) as [r [-> LR]]. cbn [bind]. apply F. congruence. }
    assert (i = 2 \/ i = 3 \/ i = 4) as [->|[->| ->]] by lia.
    + rewrite R1. cbn [bind]. apply G. intros r N. rewrite (R2 3), H3, (R2 4), H4 by lia. cbn [bind]. rewrite E4. cbn [bind]. rewrite E5. cbn [bind]. unfold asarray. cbn [forallb]. rewrite L3, Nat.eqb_refl. assert (Nat.eqb 3 (length r) = false) as -> by (apply Nat.eqb_neq; congruence). reflexivity.
    + rewrite (R2 2), H2 by lia. cbn [bind]. rewrite E3. cbn [bind]. rewrite R1. cbn [bind]. apply G. intros r N. rewrite (R2 4), H4 by lia. cbn [bind]. rewrite E5. cbn [bind]. unfold asarray. cbn [forallb]. rewrite L2, Nat.eqb_refl. assert (Nat.eqb (length r) 3 = false) as -> by (apply Nat.eqb_neq; congruence). reflexivity.
    + rewrite (R2 2), H2 by lia. cbn [bind]. rewrite E3. cbn [bind]. rewrite (R2 3), H3 by lia. cbn [bind]. rewrite E4. cbn [bind]. rewrite R1. cbn [bind]. apply G. intros r N. unfold asarray. cbn [forallb]. rewrite L2, L3, Nat.eqb_refl. assert (Nat.eqb (length r) 3 = false) as -> by (apply Nat.eqb_neq; congruence). reflexivity.
  - assert (5 < i) as I6 by lia. rewrite (R2 2), H2 by lia. cbn [bind]. rewrite E3. cbn [bind]. rewrite (R2 3), H3 by lia. cbn [bind]. rewrite E4. cbn [bind]. rewrite (R2 4), H4 by lia. cbn [bind]. rewrite E5. cbn [bind]. rewrite E6. cbn [bind].
    apply bind_ok in H as [l6 [H6 H]]. destruct K as [[-> B]|[L B]].
    + rewrite R1. cbn [bind]. rewrite ints_tok_bad by auto. reflexivity.
    + rewrite (R2 6), H6 by lia. cbn [bind]. apply bind_ok in H as [at' [E7 H]]. rewrite E7. cbn [bind]. apply bind_ok in H as [[[se di] fi] [E8 H]].
      assert (read_mode ls' = Ok (se, di, fi)) as ->.
      { rewrite <- E8. pose proof (proj2 (read_mode_ok _ _ _ _) LY) as E8'. rewrite E8 in E8'. unfold read_mode in *. rewrite (R2 7) by lia. destruct (py_nth ls 7) as [l7|]; auto. cbn [bind] in *. destruct (py_nth l7 0) as [c7|]; auto. cbn [bind] in *.
        destruct (aeqb (lower1 c7) "s") eqn:ES; auto. rewrite (R2 8); auto. apply bind_ok in E8 as [? [_ E8]]. apply bind_ok in E8 as [? [_ E8]]. injection E8 as <- <- <-. injection E8' as E8'. lia. }
      pose proof (proj2 (read_mode_ok _ _ _ _) LY) as E8'. rewrite E8 in E8'. injection E8' as -> -> ->. cbn [bind].
      assert (at' = atoms) as ->. { assert (l6' = l6) as -> by congruence. apply mapM_ok_Forall2 in E7. eapply counts_fun; [|exact C6]. eapply Forall2_impl'; [|exact E7]. intros a b X. unfold int_tok in X. apply of_option_ok in X. auto. }
      apply bind_ok in H as [raw [H _]]. rewrite (sites_bad _ _ i l' _ _ _ _ _ _ R B _ _ _ _ H); auto.
Qed.
End Arith.
(** the scaling factor, a component of the lattice or a lattice vector of another length,
    the number of atoms of a species, a coordinate *)
Theorem C90_poscar : forall A ch ls ls' es i l' atoms selective direct first, forallb nobreak ls = true -> nobreak l' = true ->
  pread A ch (unlines ls) = Ok es -> replaced ls ls' i l' -> counts_at ls 6 atoms -> layout ls selective direct first ->
  i = 1 /\ bad_number A 1 l' \/
  2 <= i <= 4 /\ (any_bad_number A l' \/ not_three A l') \/
  i = 6 /\ any_bad_int l' \/
  first <= i < first + Z.to_nat (total atoms) /\ bad_number A 3 l' ->
  pread A ch (unlines ls') = Exn ValueError.
Proof.
  intros A ch ls ls' es i l' atoms selective direct first N N' H R C L K.
  assert (forallb nobreak ls' = true) as N2.
  { destruct R as (a & l & b & -> & -> & _). rewrite forallb_app in *. cbn [forallb] in *. apply andb_prop in N as [-> X]. apply andb_prop in X as [_ ->]. rewrite N'. reflexivity. }
  apply pread_ok in H as [H V]. rewrite plines_unlines in H by auto. rewrite pread_eq, plines_unlines by auto.
  enough (from_list A (map (fun l => l ++ [nl]) ls') = Exn ValueError) as -> by reflexivity.
  apply (poscar_bad A (map (fun l => l ++ [nl]) ls) _ i (l' ++ [nl]) es atoms selective direct first); auto.
  - apply (replaced_map (fun l => l ++ [nl])). auto.
  - destruct C as (l & C1 & C2). exists (l ++ [nl]). rewrite nth_error_map. split; [exact (f_equal (option_map (fun l : str => l ++ [nl])) C1)|]. rewrite split_ws_nl. auto.
  - assert (forall j c, starts ls j c -> starts (map (fun l => l ++ [nl]) ls) j c) as SS by (intros j c (r & X); exists (r ++ [nl]); rewrite nth_error_map; exact (f_equal (option_map (fun l : str => l ++ [nl])) X)).
    destruct L as (c & L1 & L2). exists c. split; auto. destruct selective; auto. destruct L2 as (X & Y & c' & Z1 & Z2). split; auto. split; auto. exists c'. auto.
  - unfold bad_number, any_bad_number, not_three, any_bad_int. rewrite split_ws_nl. auto.
Qed.
Print Assumptions C90_poscar.
Definition spoiled_lines (i : nat) (l : string) : list str := firstn i sample_lines ++ lit l :: skipn (S i) sample_lines.
Example C90_poscar_case : reads (pread exact FromFile sample) = true /\ counts_at sample_lines 6 [1; 2]%Z /\ layout sample_lines true false 9 /\
  replaced sample_lines (spoiled_lines 10 "0.5 0.5 O.5 F F F") 10 (lit "0.5 0.5 O.5 F F F") /\ bad_number exact 3 (lit "0.5 0.5 O.5 F F F") /\
  code (pread exact FromFile (unlines (spoiled_lines 10 "0.5 0.5 O.5 F F F"))) = Some ValueError.
Proof.
  split; [vm_compute; reflexivity|]. split; [eexists; split; [vm_compute; reflexivity|]; vm_compute; repeat constructor|].
  split; [exists "S"%char; split; [eexists; vm_compute; reflexivity|]; split; [vm_compute; reflexivity|]; split; [reflexivity|]; exists "C"%char; split; [eexists; vm_compute; reflexivity|vm_compute; reflexivity]|].
  split; [exists (firstn 10 sample_lines), (nth 10 sample_lines []), (skipn 11 sample_lines); vm_compute; auto|].
  split; [exists (lit "O.5"); vm_compute; auto|vm_compute; reflexivity].
Qed.
