(** Property C90, continued: DOSCAR and EIGENVAL. *)
From Coq Require Import Ascii String List NArith ZArith QArith Bool Lia Arith.
From Verif Require Import PyBase PyNum PyStrLemmas PyNumLemmas PyLines PyToken UtilsModel LineModel DoscarModel EigenvalModel EigenvalSpec DoscarProofs EigenvalProofs.
From Verif Require PoscarRead StreamConfig.
From Verif Require Import Props_Stream Props_Eigenval KpointsSpec Props_Blanks Props_BadNumbers.
Import ListNotations.
Local Open Scope list_scope.
Local Open Scope bool_scope.
Local Open Scope nat_scope.

Lemma line_floats_bad l : any_bad_float l -> line_to_type LineModel.to_float l = Exn ValueError.
Proof. intros (w & I & B). unfold line_to_type. rewrite (mapM_In_exn _ ValueError _ w); auto; unfold LineModel.to_float; [rewrite B; auto|]. intros y e'. destruct (parse_float y); cbn; congruence. Qed.
Lemma line_ints_bad l : any_bad_int l -> line_to_type LineModel.to_int l = Exn ValueError.
Proof. intros (w & I & B). unfold line_to_type. rewrite (mapM_In_exn _ ValueError _ w); auto; unfold LineModel.to_int; [rewrite B; auto|]. intros y e'. destruct (parse_int y); cbn; congruence. Qed.
Definition ended (l : str) : str := l ++ [nl].
Lemma float_ended l : any_bad_float l -> any_bad_float (ended l).
Proof. unfold any_bad_float, ended. rewrite split_ws_nl. auto. Qed.
Lemma int_ended l : any_bad_int l -> any_bad_int (ended l).
Proof. unfold any_bad_int, ended. rewrite split_ws_nl. auto. Qed.
Lemma replaced_nobreak ls ls' i l' : forallb nobreak ls = true -> nobreak l' = true -> replaced ls ls' i l' -> forallb nobreak ls' = true.
Proof.
  intros N N' (a & l & b & -> & -> & _). rewrite forallb_app in *. cbn [forallb] in *. apply andb_prop in N as [-> H]. apply andb_prop in H as [_ ->]. rewrite N'. reflexivity.
Qed.

(** ** DOSCAR *)
Lemma doscar_lines ch ls nc : forallb nobreak ls = true -> doscar_of ch (unlines ls) nc = DoscarModel.from_list nc (map ended ls).
Proof.
  intros N. unfold doscar_of, doscar_init, read_from_file; destruct ch; cbn [is_some negb andb file_data bind filter_lines]; rewrite ?translate_nochange by (apply unlines_nocr; auto); rewrite !readlines_unlines by (auto using forallb_nobreak_nonl); reflexivity.
Qed.
Ltac same R := match goal with |- context [py_nth ?ls' ?i] => rewrite (R i) by lia end.
Lemma doscar_bad nc ls ls' i l' d : DoscarModel.from_list nc ls = Ok d -> replaced ls ls' i l' ->
  i = 0 /\ any_bad_int l' \/ 5 <= i /\ any_bad_float l' -> DoscarModel.from_list nc ls' = Exn ValueError.
Proof.
  intros H R K. destruct (replaced_at _ _ _ _ R) as (R1 & _ & R2' & _). assert (forall j, j <> i -> py_nth ls' j = py_nth ls j) as R2 by (intros j J; unfold py_nth; rewrite R2' by auto; reflexivity). unfold DoscarModel.from_list in *. destruct K as [[-> B]|[L B]].
  - rewrite (proj2 (PoscarRead.py_nth_ok _ _ _) R1). cbn [bind]. rewrite line_ints_bad by auto. reflexivity.
  - apply bind_ok in H as [l0 [H0 H]]. rewrite (R2 0), H0 by lia. cbn [bind]. apply bind_ok in H as [h [E1 H]]. rewrite E1. cbn [bind]. apply bind_ok in H as [h2 [E2 H]]. rewrite E2. cbn [bind].
    apply bind_ok in H as [l3 [H3 H]]. rewrite (R2 3), H3 by lia. cbn [bind]. apply bind_ok in H as [co [E3 H]]. rewrite E3. cbn [bind]. apply bind_ok in H as [l4 [H4 H]]. rewrite (R2 4), H4 by lia. cbn [bind].
    apply bind_ok in H as [l5 [H5 H]]. destruct (Nat.eq_dec i 5) as [->|N].
    + rewrite (proj2 (PoscarRead.py_nth_ok _ _ _) R1). cbn [bind]. rewrite line_floats_bad by auto. reflexivity.
    + rewrite (R2 5), H5 by lia. cbn [bind]. apply bind_ok in H as [v2 [E5 H]]. rewrite E5. cbn [bind]. apply bind_ok in H as [li [E6 H]]. rewrite E6. cbn [bind]. apply bind_ok in H as [nd [E7 H]]. rewrite E7. cbn [bind].
      apply bind_ok in H as [data [E8 _]]. rewrite (mapM_replaced _ _ (skipn 6 ls') (i - 6) l' _ ValueError E8); auto using line_floats_bad.
      apply replaced_skipn. replace (6 + (i - 6)) with i by lia. auto.
Qed.
(** the numbers of ions, the line of the energy range, every number of every table *)
Theorem C90_doscar : forall ch nc ls ls' d i l', forallb nobreak ls = true -> nobreak l' = true ->
  doscar_of ch (unlines ls) nc = Ok d -> replaced ls ls' i l' ->
  i = 0 /\ any_bad_int l' \/ 5 <= i /\ any_bad_float l' ->
  doscar_of ch (unlines ls') nc = Exn ValueError.
Proof.
  intros ch nc ls ls' d i l' N N' H R K. rewrite doscar_lines in * by (eauto using replaced_nobreak). apply (doscar_bad nc _ _ i (ended l') _ H).
  - apply (replaced_map ended). auto.
  - destruct K as [[-> K]|[L K]]; auto using int_ended, float_ended.
Qed.
Print Assumptions C90_doscar.

(** ** EIGENVAL *)
Definition eigenval_of (ch : channel) (txt : str) : res eigenval :=
  match ch with FromFile => eigenval_init (Some (Some txt)) None | _ => eigenval_init None (Some txt) end.
Lemma eigenval_lines ch ls : forallb nobreak ls = true -> eigenval_of ch (unlines ls) = EigenvalModel.from_list (map ended ls).
Proof.
  intros N. unfold eigenval_of, eigenval_init, read_from_file; destruct ch; cbn [is_some negb andb file_data bind filter_lines]; rewrite ?translate_nochange by (apply unlines_nocr; auto); rewrite !readlines_unlines by (auto using forallb_nobreak_nonl); reflexivity.
Qed.
Lemma eigenval_header_bad ls ls' i l' e : EigenvalModel.from_list ls = Ok e -> replaced ls ls' i l' ->
  (i = 0 \/ i = 5) /\ any_bad_int l' \/ (i = 1 \/ i = 2) /\ any_bad_float l' -> EigenvalModel.from_list ls' = Exn ValueError.
Proof.
  intros H R K. destruct (replaced_at _ _ _ _ R) as (R1 & _ & R2' & _). assert (forall j, j <> i -> py_nth ls' j = py_nth ls j) as R2 by (intros j J; unfold py_nth; rewrite R2' by auto; reflexivity). apply (proj2 (PoscarRead.py_nth_ok _ _ _)) in R1.
  unfold EigenvalModel.from_list in *. apply bind_ok in H as [l0 [H0 H]]. apply bind_ok in H as [v0 [E0 H]].
  destruct K as [[[->| ->] B]|[[->| ->] B]]; [rewrite R1; cbn [bind]; rewrite line_ints_bad by auto; reflexivity| | |];
    rewrite (R2 0), H0 by lia; cbn [bind]; rewrite E0; cbn [bind]; apply bind_ok in H as [l1 [H1 H]]; apply bind_ok in H as [v1 [E1 H]];
    [|rewrite R1; cbn [bind]; rewrite line_floats_bad by auto; reflexivity|];
    rewrite (R2 1), H1 by lia; cbn [bind]; rewrite E1; cbn [bind]; apply bind_ok in H as [l2 [H2 H]]; apply bind_ok in H as [v2 [E2 H]];
    [|rewrite R1; cbn [bind]; rewrite line_floats_bad by auto; reflexivity].
  rewrite (R2 2), H2 by lia; cbn [bind]; rewrite E2; cbn [bind]. apply bind_ok in H as [l3 [H3 H]]; apply bind_ok in H as [v3 [E3 H]]. rewrite (R2 3), H3 by lia; cbn [bind]; rewrite E3; cbn [bind].
  apply bind_ok in H as [l4 [H4 H]]. rewrite (R2 4), H4 by lia; cbn [bind]. rewrite R1; cbn [bind]; rewrite line_ints_bad by auto; reflexivity.
Qed.
Theorem C90_eigenval_header : forall ch ls ls' e i l', forallb nobreak ls = true -> nobreak l' = true ->
  eigenval_of ch (unlines ls) = Ok e -> replaced ls ls' i l' ->
  (i = 0 \/ i = 5) /\ any_bad_int l' \/ (i = 1 \/ i = 2) /\ any_bad_float l' ->
  eigenval_of ch (unlines ls') = Exn ValueError.
Proof.
  intros ch ls ls' e i l' N N' H R K. rewrite eigenval_lines in * by (eauto using replaced_nobreak). apply (eigenval_header_bad _ _ i (ended l') _ H).
  - apply (replaced_map ended). auto.
  - destruct K as [[L K]|[L K]]; auto using int_ended, float_ended.
Qed.
Print Assumptions C90_eigenval_header.

Lemma groups_replaced a l l' b : split_ws l <> [] -> split_ws l' <> [] -> forall s, exists g1 r1 r2 g2,
  groups s (a ++ l :: b) = g1 ++ (r1 ++ split_ws l :: r2) :: g2 /\ groups s (a ++ l' :: b) = g1 ++ (r1 ++ split_ws l' :: r2) :: g2.
Proof.
  intros L L'. assert (forall x, split_ws x <> [] -> separator x = false /\ words1 x = [split_ws x]) as W.
  { intros x X. unfold separator, blankb, words1. destruct (split_ws x); [congruence|]. auto. }
  destruct (W l L) as [S1 W1]. destruct (W l' L') as [S2 W2]. induction a as [|x a IH]; intros s.
  - cbn [app groups]. rewrite S1, S2, W1, W2, !andb_false_r. destruct (next_separates b).
    + exists [], [], [], (groups true b). auto.
    + destruct (groups false b) as [|g gs]; [exists [], [], [], []; auto|exists [], [], g, gs; auto].
  - cbn [app groups]. destruct (s && separator x) eqn:E.
    + apply IH.
    + assert (next_separates (a ++ l :: b) = next_separates (a ++ l' :: b)) as -> by (destruct a; cbn; congruence). destruct (next_separates (a ++ l' :: b)).
      * destruct (IH true) as (g1 & r1 & r2 & g2 & -> & ->). exists (words1 x :: g1), r1, r2, g2. auto.
      * destruct (IH false) as (g1 & r1 & r2 & g2 & -> & ->). destruct g1 as [|g g1]; cbn [app].
        -- exists [], (words1 x ++ r1), r2, g2. cbn [app]. rewrite <- !app_assoc. auto.
        -- exists ((words1 x ++ g) :: g1), r1, r2, g2. auto.
Qed.
(** a row of the tables with a spoiled number: the first word is none, or the first word is
    that of the row and one of the following words, one for each spin, is none *)
Definition spoiled_row (ns : nat) (ws ws' : list str) : Prop :=
  exists v vs, ws' = v :: vs /\ (parse_int v = None /\ parse_float v = None \/ (exists us, ws = v :: us) /\ exists w, In w (firstn ns vs) /\ parse_float w = None).
Lemma read_blocks_app ns nk nb a : forall k t b, read_blocks ns nk nb k t (a ++ b) = bind (read_blocks ns nk nb k t a) (fun t' => read_blocks ns nk nb (k + length a) t' b).
Proof.
  induction a as [|x a IH]; intros k t b; cbn [app read_blocks length bind]; [rewrite Nat.add_0_r; auto|]. destruct (read_block ns nk nb k t x); cbn [bind]; auto. rewrite IH. replace (S k + length a) with (k + S (length a)) by lia. reflexivity.
Qed.
Lemma floats_in w l : In w l -> parse_float w = None -> mapM LineModel.to_float l = Exn ValueError.
Proof. intros I B. apply (mapM_In_exn _ _ _ w); auto; unfold LineModel.to_float; [rewrite B; auto|]. intros y e'. destruct (parse_float y); cbn; congruence. Qed.
Lemma block_bad ns nk nb k t r1 ws ws' r2 t' : read_block ns nk nb k t (r1 ++ ws :: r2) = Ok t' -> spoiled_row ns ws ws' -> read_block ns nk nb k t (r1 ++ ws' :: r2) = Exn ValueError.
Proof.
  intros H (v & vs & -> & K). destruct r1 as [|f r1]; cbn [app read_block] in *.
  - destruct K as [[_ B]|[_ (w & I & B)]]; [rewrite (floats_in v)|rewrite (floats_in w)]; auto; [left; auto|]. right. rewrite <- (firstn_skipn ns vs). apply in_or_app. auto.
  - apply bind_ok in H as [kp [H1 H]]. rewrite H1. cbn [bind]. destruct (nk <=? k); [discriminate|]. apply bind_ok in H as [kq [H2 H]]. rewrite H2. cbn [bind]. apply bind_ok in H as [eig [H3 _]].
    rewrite foldM_app in H3 |- *. apply bind_ok in H3 as [e1 [H3 H4]]. rewrite H3. cbn [bind foldM] in *. apply bind_ok in H4 as [e2 [H4 _]].
    enough (set_band ns k nb e1 (v :: vs) = Exn ValueError) as -> by reflexivity. unfold set_band in *. cbn [py_nth nth_error of_option bind tl] in *. unfold LineModel.to_int in *.
    destruct K as [[B _]|[(us & ->) (w & I & B)]]; [rewrite B; reflexivity|]. cbn [py_nth nth_error of_option bind tl] in H4. destruct (parse_int v) as [z|]; [|reflexivity]. cbn [of_option bind] in *.
    cbv zeta in *. match type of H4 with (if ?c then _ else _) = _ => destruct c; [discriminate H4|] end. rewrite (floats_in w) by auto. reflexivity.
Qed.
Lemma eigenval_row_bad a l l' b e : shaped (a ++ l :: b) -> shaped (a ++ l' :: b) -> newlines_only (skipn 6 (a ++ l :: b)) -> newlines_only (skipn 6 (a ++ l' :: b)) -> 6 <= length a ->
  EigenvalModel.from_list (a ++ l :: b) = Ok e -> split_ws l <> [] -> spoiled_row (n_spins e) (split_ws l) (split_ws l') -> EigenvalModel.from_list (a ++ l' :: b) = Exn ValueError.
Proof.
  intros S S' N N' L H W K. pose proof (from_list_ok _ _ H) as RD.
  assert (split_ws l' <> []) as W' by (destruct K as (v & vs & -> & _); discriminate).
  assert (forall x, skipn 6 (a ++ x :: b) = skipn 6 a ++ x :: b) as SK by (intros x; rewrite skipn_app; replace (6 - length a) with 0 by lia; reflexivity).
  pose proof (rd_blocks _ _ RD) as B. rewrite groups_ok in B by (split; auto; apply shaped_skipn; auto).
  rewrite SK in B. destruct (groups_replaced (skipn 6 a) l l' b W W' false) as (g1 & r1 & r2 & g2 & G & G'). rewrite G in B.
  rewrite read_blocks_app in B. apply bind_ok in B as [t1 [B1 B]]. cbn [read_blocks Nat.add] in B. apply bind_ok in B as [t2 [B2 _]]. pose proof (block_bad _ _ _ _ _ _ _ _ _ _ B2 K) as B3.
  assert (forall j, j < 6 -> py_nth (a ++ l' :: b) j = py_nth (a ++ l :: b) j) as R2 by (intros j J; unfold py_nth; rewrite !nth_error_app1 by lia; reflexivity).
  unfold EigenvalModel.from_list in *. rewrite !R2 by lia.
  apply bind_ok in H as [l0 [H0 H]]. rewrite H0. cbn [bind]. apply bind_ok in H as [v0 [E0 H]]. rewrite E0. cbn [bind].
  apply bind_ok in H as [l1 [H1 H]]. rewrite H1. cbn [bind]. apply bind_ok in H as [v1 [E1 H]]. rewrite E1. cbn [bind].
  apply bind_ok in H as [l2 [H2 H]]. rewrite H2. cbn [bind]. apply bind_ok in H as [v2 [E2 H]]. rewrite E2. cbn [bind].
  apply bind_ok in H as [l3 [H3 H]]. rewrite H3. cbn [bind]. apply bind_ok in H as [v3 [E3 H]]. rewrite E3. cbn [bind].
  apply bind_ok in H as [l4 [H4 H]]. rewrite H4. cbn [bind]. apply bind_ok in H as [l5 [H5 H]]. rewrite H5. cbn [bind]. apply bind_ok in H as [v5 [E5 H]]. rewrite E5. cbn [bind].
  apply bind_ok in H as [h5 [F5 H]]. rewrite F5. cbn [bind]. apply bind_ok in H as [h0 [F0 H]]. rewrite F0. cbn [bind].
  destruct ((nth 1 h5 0 <? 0) || (nth 2 h5 0 <? 0) || (nth 3 h0 0 <? 0))%Z%bool; [discriminate H|].
  apply bind_ok in H as [t [T H]]. apply bind_ok in H as [cart [_ H]]. apply StreamConfig.Ok_inj' in H. subst e. unfold n_spins, n_kpoints, n_bands in *. cbn [eg_meta em_nspin em_kp em_bands] in *.
  rewrite groups_ok by (split; auto; apply shaped_skipn; auto). rewrite SK, G', read_blocks_app, B1. cbn [bind Nat.add read_blocks]. rewrite B3. reflexivity.
Qed.

(** a number of a row of the tables *)
Theorem C90_eigenval_rows : forall ch ls ls' e i l l', forallb nobreak ls = true -> nobreak l' = true ->
  eigenval_of ch (unlines ls) = Ok e -> nth_error ls i = Some l -> replaced ls ls' i l' -> 6 <= i -> split_ws l <> [] -> spoiled_row (n_spins e) (split_ws l) (split_ws l') ->
  eigenval_of ch (unlines ls') = Exn ValueError.
Proof.
  intros ch ls ls' e i l l' N N' H E R L W K. pose proof (replaced_nobreak _ _ _ _ N N' R) as N2. destruct R as (a & l0 & b & -> & -> & <-).
  rewrite nth_error_app2, Nat.sub_diag in E by lia. injection E as ->. rewrite eigenval_lines in * by auto. rewrite !map_app in *. cbn [map] in *.
  assert (forall x, forallb nobreak x = true -> shaped (map ended x) /\ forall k, newlines_only (skipn k (map ended x))) as SH.
  { intros x X. split.
    - induction x as [|y x IH]; cbn [map]; [constructor|]. cbn [forallb] in X. apply andb_prop in X as [X1 X2]. apply sh_line; auto. apply (f_equal (fun q => q)) in X1. pose proof (forallb_nobreak_nonl [y]) as Q. cbn [forallb] in Q. rewrite !andb_true_r in Q. auto.
    - intros k y c Y C B. assert (In y (map ended x)) as Y' by (rewrite <- (firstn_skipn k (map ended x)); apply in_or_app; auto). apply in_map_iff in Y' as (z & <- & Z). unfold ended in C. apply in_app_or in C as [C|[<-|[]]]; auto.
      rewrite forallb_forall in X. specialize (X _ Z). unfold nobreak in X. rewrite forallb_forall in X. specialize (X _ C). rewrite B in X. discriminate. }
  destruct (SH _ N) as [S1 S2]. destruct (SH _ N2) as [S3 S4]. rewrite !map_app in *. cbn [map] in *.
  apply (eigenval_row_bad (map ended a) (ended l) (ended l') (map ended b) e); auto; unfold ended; rewrite ?map_length, ?split_ws_nl; auto.
Qed.
Print Assumptions C90_eigenval_rows.

(** the sample of the layout theorem, with its third row (a band of the first k-point) spoiled *)
Definition text_of (ls : list string) : str := unlines (map lit ls).
Definition good_eigenval : list str := map lit (head_lines ++ body_lines).
Definition bad_eigenval (i : nat) (l : string) : list str := firstn i good_eigenval ++ lit l :: skipn (S i) good_eigenval.
Example C90_eigenval_case :
  forallb nobreak good_eigenval = true /\ (exists e, eigenval_of FromFile (unlines good_eigenval) = Ok e /\ n_spins e = 2) /\
  replaced good_eigenval (bad_eigenval 9 " 2  3.0 ****  0.0 0.0") 9 (lit " 2  3.0 ****  0.0 0.0") /\
  spoiled_row 2 (split_ws (nth 9 good_eigenval [])) (split_ws (lit " 2  3.0 ****  0.0 0.0")) /\
  eigenval_of FromFile (unlines (bad_eigenval 9 " 2  3.0 ****  0.0 0.0")) = Exn ValueError.
Proof.
  split; [vm_compute; reflexivity|]. split.
  { destruct (eigenval_of FromFile (unlines good_eigenval)) as [e|] eqn:E; [|vm_compute in E; discriminate]. exists e. split; auto.
    assert (match eigenval_of FromFile (unlines good_eigenval) with Ok e => n_spins e | _ => 0 end = 2) as X by (vm_compute; reflexivity). rewrite E in X. exact X. }
  split; [exists (firstn 9 good_eigenval), (nth 9 good_eigenval []), (skipn 10 good_eigenval); vm_compute; auto|]. split; [|vm_compute; reflexivity].
  exists (lit "2"), (split_ws (lit "3.0 ****  0.0 0.0")). split; [vm_compute; reflexivity|]. right. split; [eexists; vm_compute; reflexivity|]. exists (lit "****"). vm_compute. auto.
Qed.
Definition good_doscar : list string := ["  1  1  1  1"; "  0.16E+02"; "  1.0E-004"; "  CAR "; " my system"; "  10.0  -5.0  2  3.5  1.0"; "  -5.0  0.5 1.5"; " 10.0  2.5 3.5"]%string.
Example C90_doscar_case : (exists d, doscar_of FromFile (unlines (map lit good_doscar)) false = Ok d) /\
  replaced (map lit good_doscar) (with_line good_doscar 7 " 10.0  2.5****** 3.5") 7 (lit " 10.0  2.5****** 3.5") /\ any_bad_float (lit " 10.0  2.5****** 3.5") /\
  doscar_of FromFile (unlines (with_line good_doscar 7 " 10.0  2.5****** 3.5")) false = Exn ValueError.
Proof.
  split; [eexists; vm_compute; reflexivity|]. split; [exists (map lit (firstn 7 good_doscar)), (lit " 10.0  2.5 3.5"), []; vm_compute; auto|]. split; [exists (lit "2.5******"); vm_compute; auto|vm_compute; reflexivity].
Qed.
