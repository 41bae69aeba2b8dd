(** Proofs about the DOSCAR reader. *)
From Coq Require Import Ascii String List NArith ZArith Bool Lia.
From Verif Require Import PyBase PyStrLemmas PyNum UtilsModel LineModel DoscarModel DoscarSpec StreamConfig.
Import ListNotations.
Local Open Scope list_scope.

Lemma py_nth_ok {A} (l : list A) i x : py_nth l i = Ok x -> nth_error l i = Some x.
Proof. unfold py_nth. destruct (nth_error l i); intros H; inversion H; auto. Qed.
Lemma to_float_ok t x : to_float t = Ok x -> parse_float t = Some x.
Proof. unfold to_float. destruct (parse_float t); intros H; [apply Ok_inj' in H; congruence|discriminate]. Qed.
Lemma to_int_ok t x : to_int t = Ok x -> parse_int t = Some x.
Proof. unfold to_int. destruct (parse_int t); intros H; inversion H; auto. Qed.
Lemma mapM_float ws l : mapM to_float ws = Ok l -> map parse_float ws = map Some l.
Proof. intros H. apply mapM_ok_Forall2 in H. induction H; cbn; auto. f_equal; auto. apply to_float_ok. auto. Qed.
Lemma mapM_int ws l : mapM to_int ws = Ok l -> map parse_int ws = map Some l.
Proof. intros H. apply mapM_ok_Forall2 in H. induction H; cbn; auto. f_equal; auto. apply to_int_ok. auto. Qed.
Lemma Forall2_length {A B} (R : A -> B -> Prop) l l' : Forall2 R l l' -> length l = length l'.
Proof. induction 1; cbn; auto. Qed.
Definition items {A} (v : line_value A) : list A := match v with One a => [a] | Many l => l end.
Lemma line_ok {A} (conv : str -> res A) l v : line_to_type conv l = Ok v -> mapM conv (split_ws l) = Ok (items v).
Proof. unfold line_to_type. intros H. apply bind_ok in H as [x [H1 H2]]. apply Ok_inj' in H2. rewrite H1. subst v. destruct x as [|a [|b x]]; auto. Qed.
Lemma unpack_ok {A} n (v : line_value A) l : unpack n v = Ok l -> items v = l /\ length l = n.
Proof. destruct v; cbn; [discriminate|]. destruct (Nat.eqb_spec (length l0) n); intros H; [|discriminate]. apply Ok_inj' in H. subst. auto. Qed.
Lemma len_ok {A} (v : line_value A) n : len v = Ok n -> v = Many (items v) /\ length (items v) = n.
Proof. destruct v; cbn; intros H; [discriminate|]. apply Ok_inj' in H. auto. Qed.
Lemma rows_at lines data i v : mapM (line_to_type to_float) (skipn 6 lines) = Ok data -> nth_error data i = Some v -> row_at lines (6 + i) (items v).
Proof.
  intros H N. apply mapM_ok_Forall2 in H. assert (exists l, nth_error (skipn 6 lines) i = Some l /\ line_to_type to_float l = Ok v) as [l [L1 L2]].
  { revert i N. induction H; intros [|i] N; cbn in *; try discriminate; [inversion N; subst; eauto|auto]. }
  exists l. split; [|apply mapM_float, line_ok, L2]. clear -L1. revert L1. generalize 6 as k. intros k. revert lines. induction k as [|k IH]; intros lines; cbn; auto. destruct lines; auto. destruct i; discriminate.
Qed.
Lemma rectangular_ok count rows tab : rectangular count rows = Ok tab -> rows = map Many tab /\ Forall (fun r => length r = count) tab.
Proof.
  unfold rectangular. intros H. apply mapM_ok_Forall2 in H. induction H as [|v l rows tab H H' IH]; [auto|]. destruct IH as [-> IH]. destruct v as [|w]; [discriminate|].
  destruct (Nat.eqb_spec (length w) count); [|discriminate]. apply Ok_inj' in H. subst. auto.
Qed.

(** ** One row *)
Lemma fields_cons name names ns row : fields (name :: names) ns row = (name, firstn ns (skipn 1 row)) :: fields names ns (tl row).
Proof.
  unfold fields. cbn [length seq combine map fst snd]. f_equal. rewrite <- seq_shift. generalize (seq 0 (length names)) as s. induction names as [|m names IH]; intros [|i s]; cbn [map combine]; auto.
  f_equal; auto. cbn [fst snd]. f_equal. f_equal. cbn [Nat.add skipn]. destruct row; auto. cbn [tl]. destruct (i + 1); auto.
Qed.
Lemma fields_names names ns row : map fst (fields names ns row) = names.
Proof. revert row. induction names as [|n names IH]; intros row; auto. rewrite fields_cons. cbn [map fst]. f_equal. auto. Qed.
Lemma fields_single names row : length row = S (length names) ->
  Forall (fun f : str * list float => length (snd f) = 1) (fields names 1 row) /\ tl row = concat (map snd (fields names 1 row)).
Proof.
  revert row. induction names as [|n names IH]; intros row L; rewrite ?fields_cons.
  - cbn in L. destruct row as [|a [|]]; try discriminate. split; [constructor|reflexivity].
  - cbn [length] in L. destruct row as [|a [|b row]]; try discriminate. destruct (IH (b :: row)) as [A B]; [cbn in *; lia|]. cbn [tl skipn firstn map snd concat app] in *. split; [constructor; auto|].
    f_equal. auto.
Qed.
Lemma fields_nth names ns row j name cols : nth_error (fields names ns row) j = Some (name, cols) -> cols = firstn ns (skipn (j + 1) row).
Proof.
  revert row j. induction names as [|n names IH]; intros row j; [destruct j; discriminate|]. rewrite fields_cons. destruct j as [|j]; cbn [nth_error]; intros H; [inversion H; auto|].
  rewrite (IH _ _ H). f_equal. cbn [Nat.add skipn]. destruct row as [|a row]; auto. cbn [tl]. destruct (j + 1); auto.
Qed.
Lemma to_row_ok names ns row r : to_row names ns row = Ok r -> length row = 1 + length names * ns ->
  (ns = 1 -> documented names ns row (row_energy r) (row_fields r)) /\ (1 <= ns -> overlapping names ns row (row_energy r) (row_fields r)).
Proof.
  unfold to_row. intros H L. apply bind_ok in H as [e [E H]]. apply Ok_inj' in H. subst r. cbn [row_energy row_fields]. apply py_nth_ok in E. destruct row as [|e' rest]; [discriminate|]. cbn in E. injection E as ->. split.
  - intros ->. rewrite Nat.mul_1_r in L. destruct (fields_single names (e :: rest)) as [A B]; [auto|]. split; [apply fields_names|]. split; auto. f_equal. exact B.
  - intros N. split; [apply fields_names|]. split; [eauto|]. intros j name cols J. pose proof (fields_nth _ _ _ _ _ _ J) as C.
    assert (j < length names) as JL. { assert (j < length (fields names ns (e :: rest))) by (apply nth_error_Some; congruence). rewrite <- (map_length fst), fields_names in H. auto. }
    assert (j + 1 + ns <= length (e :: rest)) as BIG. { rewrite L. assert ((j + 1) * ns <= length names * ns) by (apply Nat.mul_le_mono_r; lia). nia. }
    split; [subst cols; rewrite firstn_length, skipn_length; lia|]. exists (firstn (j + 1) (e :: rest)), (skipn ns (skipn (j + 1) (e :: rest))).
    split; [subst cols; rewrite firstn_skipn, firstn_skipn; auto|rewrite firstn_length; lia].
Qed.

(** ** The tables of columns *)
Lemma dtype_dos_ok count names ns : dtype_dos count = Some (names, ns) -> names = names_dos /\ count = 1 + length names * ns /\ (ns = 1 \/ ns = 2).
Proof. unfold dtype_dos. intros H. do 6 (destruct count as [|count]; [solve [discriminate | inversion H; subst; vm_compute; intuition]|]). discriminate. Qed.
Lemma collinear_ok count names ns : dtype_collinear count = Some (names, ns) -> In (names, ns) collinear_layouts /\ count = columns (names, ns).
Proof.
  unfold dtype_collinear. intros H. do 34 (destruct count as [|count]; [solve [discriminate | inversion H; subst; vm_compute; intuition]|]). discriminate.
Qed.
Definition bad_name : list str := firstn 8 lm_to_d ++ [lit "x2-y2"].
Lemma noncollinear_ok count names ns : dtype_noncollinear count = Some (names, ns) ->
  ns = 4 /\ count = columns (names, ns) /\ (In (names, ns) noncollinear_layouts \/ names = bad_name).
Proof.
  unfold dtype_noncollinear. intros H. do 66 (destruct count as [|count]; [solve [discriminate | inversion H; subst; vm_compute; intuition]|]). discriminate.
Qed.

(** ** The whole file *)
Lemma row_at_fun lines i a b : row_at lines i a -> row_at lines i b -> a = b.
Proof.
  intros [l [L A]] [l' [L' B]]. rewrite L in L'. inversion L'. subst l'. rewrite A in B. clear -B. revert b B. induction a as [|x a IH]; intros [|y b] B; try discriminate; auto. cbn [map] in B.
  assert (Some x = Some y) as E1 by congruence. assert (map Some a = map Some b) as E2 by congruence. f_equal; [congruence|auto].
Qed.
Lemma mapM_nth {A B} (f : A -> res B) l l' i b : mapM f l = Ok l' -> nth_error l' i = Some b -> exists a, nth_error l i = Some a /\ f a = Ok b.
Proof. intros H. apply mapM_ok_Forall2 in H. revert i. induction H; intros [|i] N; cbn in *; try discriminate; [inversion N; subst; eauto|auto]. Qed.
Lemma mapM_length {A B} (f : A -> res B) l l' : mapM f l = Ok l' -> length l' = length l.
Proof. intros H. apply mapM_ok_Forall2 in H. symmetry. eapply Forall2_length; eauto. Qed.
Lemma floats_eq_same a b : floats_eq a b = true <-> same_row a b float_eq.
Proof.
  revert b. induction a as [|x a IH]; intros [|y b]; cbn [floats_eq]; split; intros H; try discriminate; try (inversion H; fail); [constructor|auto| |].
  - apply andb_true_iff in H as [H1 H2]. constructor; auto. apply IH. auto.
  - inversion H. subst. apply andb_true_iff. split; auto. apply IH. auto.
Qed.
Lemma find_row_ok hdr data s : length hdr = 5 -> (find_row hdr data = Some s <-> (exists v, nth_error data s = Some v /\ same_row (items v) hdr float_eq) /\ forall s' v, s' < s -> nth_error data s' = Some v -> ~ same_row (items v) hdr float_eq).
Proof.
  intros L. assert (forall v, match v with Many l => floats_eq l hdr | One _ => false end = true <-> same_row (items v) hdr float_eq) as T.
  { intros [x|l]; cbn [items]; [|apply floats_eq_same]. split; [discriminate|]. intros H. apply Forall2_length in H. cbn in H. lia. }
  revert s. induction data as [|v data IH]; intros s; cbn [find_row].
  - split; [discriminate|]. intros [[v [H _]] _]. destruct s; discriminate.
  - pose proof (T v) as Tv. destruct (match v with Many l => floats_eq l hdr | One _ => false end).
    + split.
      * intros H. assert (s = 0) by congruence. subst s. split; [exists v; split; auto; apply Tv; auto|intros; lia].
      * intros [_ H]. destruct s as [|s]; auto. exfalso. apply (H 0 v); auto with arith. apply Tv. auto.
    + assert (~ same_row (items v) hdr float_eq) as NV by (intros X; apply Tv in X; discriminate). destruct s as [|s].
      * split; [destruct (find_row hdr data); discriminate|]. intros [[w [W1 W2]] _]. cbn in W1. assert (v = w) by congruence. subst w. contradiction.
      * rewrite (iff_trans (A := option_map S (find_row hdr data) = Some (S s)) (B := find_row hdr data = Some s)); [|destruct (find_row hdr data); cbn; split; congruence|apply IH].
        split; intros [H1 H2]; (split; [exact H1|]).
        -- intros [|s'] w LT W; [cbn in W; assert (v = w) by congruence; subst w; auto|]. apply (H2 s'); auto. lia.
        -- intros s' w LT W. apply (H2 (S s')); auto. lia.
Qed.
Lemma find_row_none hdr data : length hdr = 5 -> find_row hdr data = None -> forall s v, nth_error data s = Some v -> ~ same_row (items v) hdr float_eq.
Proof.
  intros L. induction data as [|v data IH]; intros H s w W; [destruct s; discriminate|]. cbn [find_row] in H.
  destruct (match v with Many l => floats_eq l hdr | One _ => false end) eqn:E; [discriminate|]. destruct (find_row hdr data); [discriminate|]. destruct s as [|s]; [|apply (IH eq_refl s); auto].
  cbn in W. assert (v = w) by congruence. subst w. destruct v as [x|l]; cbn [items]; intros X; [apply Forall2_length in X; cbn in X; lia|]. apply floats_eq_same in X. congruence.
Qed.
Lemma py_slice_nat {A} (l : list A) a n : (0 <= n)%Z -> py_slice l (Z.of_nat a) (Z.of_nat a + n) = firstn (Z.to_nat n) (skipn a l).
Proof.
  intros N. unfold py_slice, from_end. destruct (Z.ltb_spec (Z.of_nat a) 0); [lia|]. destruct (Z.ltb_spec (Z.of_nat a + n) 0); [lia|]. f_equal; [lia|]. rewrite Nat2Z.id. auto.
Qed.
Lemma pdos_items_nth data n ndos a k it : (0 <= ndos)%Z -> nth_error (pdos_items data n ndos (Z.of_nat a)) k = Some it -> k < n /\ it = firstn (Z.to_nat ndos) (skipn (a + k * (Z.to_nat ndos + 1)) data).
Proof.
  intros ND. revert a k. induction n as [|n IH]; intros a k H; [destruct k; discriminate|]. cbn [pdos_items] in H. rewrite py_slice_nat in H by auto.
  destruct k as [|k]; cbn [nth_error] in H; [inversion H; split; [lia|]; rewrite Nat.add_0_r; auto|].
  replace (Z.of_nat a + (ndos + 1))%Z with (Z.of_nat (a + (Z.to_nat ndos + 1))) in H by lia. apply IH in H as [A B]. split; [lia|]. rewrite B. f_equal. f_equal. lia.
Qed.
Lemma pdos_items_length data n ndos a : length (pdos_items data n ndos a) = n.
Proof. revert a. induction n; intros a; cbn; auto. Qed.
Lemma py_get_last {A} (l : list A) x : py_get l (-1) = Ok x -> exists l', l = l' ++ [x].
Proof.
  unfold py_get, from_end. cbn [Z.ltb Z.compare]. destruct l as [|a l] using rev_ind; [discriminate|]. clear IHl. rewrite app_length. cbn [length]. destruct (Z.ltb_spec (Z.of_nat (length l + 1) + -1) 0); [lia|].
  replace (Z.to_nat (Z.of_nat (length l + 1) + -1)) with (length l) by lia. rewrite nth_error_app2, Nat.sub_diag by lia. cbn. intros E. apply Ok_inj' in E. subst. eauto.
Qed.
Lemma parse_pdos_ok nc its p : parse_pdos nc its = Ok p ->
  exists names ns it, nth_error its (length its - 1) = Some it /\ it <> [] /\ 1 <= length its /\ length p = length its /\ (1 <= ns) /\
    (if nc then In (names, ns) noncollinear_layouts \/ names = bad_name /\ ns = 4 else In (names, ns) collinear_layouts) /\
    (forall k item, nth_error its k = Some item -> length item = length it) /\
    forall k rows, nth_error p k = Some rows -> exists item, nth_error its k = Some item /\ length rows = length item /\
      forall i r, nth_error rows i = Some r -> exists row, nth_error item i = Some (Many row) /\ length row = columns (names, ns) /\
        (ns = 1 -> documented names ns row (row_energy r) (row_fields r)) /\ overlapping names ns row (row_energy r) (row_fields r).
Proof.
  unfold parse_pdos. intros H. apply bind_ok in H as [it [G1 H]]. apply bind_ok in H as [v [G2 H]]. apply bind_ok in H as [count [G3 H]]. apply bind_ok in H as [tabs [G4 H]].
  apply bind_ok in H as [[x ns] [G5 H]]. apply bind_ok in H as [[names y] [G6 H]]. rewrite G5 in G6. apply Ok_inj' in G6. inversion G6. subst x y. clear G6.
  destruct (forallb (fun t => length t =? length it) its) eqn:EF; [|discriminate].
  destruct (if nc then dtype_noncollinear count else dtype_collinear count) as [[nm s]|] eqn:ED; [|discriminate]. cbn in G5. apply Ok_inj' in G5. inversion G5. subst nm s. clear G5.
  assert (1 <= ns /\ count = columns (names, ns) /\ if nc then In (names, ns) noncollinear_layouts \/ names = bad_name /\ ns = 4 else In (names, ns) collinear_layouts) as [NS [CO LA]].
  { destruct nc. - apply noncollinear_ok in ED as [-> [ED [X|X]]]; auto with arith. - apply collinear_ok in ED as [X ->]. split; auto. cbn in X. repeat (destruct X as [X|X]; [inversion X; lia|]). destruct X. }
  exists names, ns, it. apply py_get_last in G1 as [its' E1]. apply py_get_last in G2 as [it' E2].
  split; [rewrite E1, app_length; cbn [length]; rewrite Nat.add_sub, nth_error_app2, Nat.sub_diag by lia; auto|]. split; [rewrite E2; destruct it'; discriminate|].
  split; [rewrite E1, app_length; cbn [length]; lia|]. split; [rewrite (mapM_length _ _ _ H); apply (mapM_length _ _ _ G4)|]. split; auto. split; auto.
  split. { intros k item K. apply nth_error_In in K. rewrite forallb_forall in EF. apply EF in K. apply Nat.eqb_eq. auto. }
  intros k rows K. destruct (mapM_nth _ _ _ _ _ H K) as [tab [T1 T2]]. destruct (mapM_nth _ _ _ _ _ G4 T1) as [item [I1 I2]]. apply rectangular_ok in I2 as [I2 I3]. exists item. split; auto.
  split; [rewrite I2, map_length; apply (mapM_length _ _ _ T2)|]. intros i r R. destruct (mapM_nth _ _ _ _ _ T2 R) as [row [R1 R2]]. exists row.
  split; [rewrite I2; rewrite nth_error_map, R1; auto|]. rewrite Forall_forall in I3. pose proof (I3 row (nth_error_In _ _ R1)) as LR. rewrite CO in LR. split; auto.
  apply to_row_ok in R2; auto. destruct R2; auto.
Qed.
