(** C97: exactly which DOSCARs are accepted.  The other DOSCAR theorems say what an accepted
    file is read as; this one says which files are accepted, by conditions on their lines. *)
From Coq Require Import Ascii String List NArith ZArith Bool Lia.
From Verif Require Import PyBase PyStrLemmas PyNum UtilsModel LineModel DoscarModel DoscarSpec DoscarProofs Props_Stream StreamConfig Props_Doscar.
Import ListNotations.
Local Open Scope list_scope.

(** ** Specification *)
(** line [i] has numbers only, as many as [width] *)
Definition row_of (lines : list str) (width i : nat) : Prop := exists row, row_at lines i row /\ length row = width.
Definition layouts (non_collinear : bool) : list (list str * nat) := if non_collinear then noncollinear_layouts else collinear_layouts.
(** the projected tables behind the first repeated header, line [6 + s]: one per ion, each
    after a line that is skipped, all rows in one of VASP's layouts.  Every table has the
    [n] rows of the total one, except that the table of the only ion may end early with
    the file, when it has begun *)
Definition tables (nc : bool) (lines : list str) (ions : Z) (n s : nat) : Prop :=
  (1 <= ions)%Z /\ exists layout h, In layout (layouts nc) /\ (h = n \/ ions = 1%Z /\ 1 <= h <= n /\ 7 + s + h = length lines) /\
    forall k i, (Z.of_nat k < ions)%Z -> i < h -> row_of lines (columns layout) (7 + s + k * (n + 1) + i).
(** [n] energies are announced *)
Definition acceptable (nc : bool) (lines : list str) (n : nat) : Prop :=
  exists ions atoms coordinates name emax emin nedos efermi weight,
    header lines ions atoms coordinates name emax emin nedos efermi weight /\ truncated nedos (Z.of_nat n) /\ 1 <= n /\
    (forall i, 6 <= i < length lines -> exists row, row_at lines i row) /\
    (exists spins, (spins = 1 \/ spins = 2) /\ forall i, i < n -> row_of lines (1 + 2 * spins) (6 + i)) /\
    (forall s, first_repeat float_eq lines s -> tables nc lines ions n s).

(** ** Proofs *)
Lemma truncated_int x z : truncated x z -> int_of_float x = Ok z.
Proof.
  intros T. assert (exists z', int_of_float x = Ok z') as [z' Z'] by (destruct x; cbn in T |- *; [eauto|tauto|tauto]). rewrite Z'. f_equal. apply int_of_float_ok in Z'.
  destruct x as [neg m e| |]; cbn [truncated] in T, Z'; try tauto. destruct T as [B1 S1], Z' as [B2 S2].
  pose proof (Z.pow_pos_nonneg 2 (Z.max (- e) 0)) as P. set (d := (2 ^ Z.max (- e) 0)%Z) in *. set (N := (Z.of_N m * 2 ^ Z.max e 0)%Z) in *.
  assert (Z.abs z = Z.abs z') as E by nia. destruct (Z.eq_dec z 0), (Z.eq_dec z' 0); lia.
Qed.
Lemma mapM_ex {A B} (f : A -> res B) l : (forall x, In x l -> exists y, f x = Ok y) -> exists l', mapM f l = Ok l'.
Proof.
  induction l as [|x l IH]; intros H; cbn [mapM]; [eauto|]. destruct (H x (or_introl eq_refl)) as [y ->]. destruct IH as [l' ->]; [intros; apply H; right; auto|]. cbn. eauto.
Qed.
Lemma int_mapM ws l : map parse_int ws = map Some l -> mapM to_int ws = Ok l.
Proof. revert l. induction ws as [|w ws IH]; intros [|x l] H; try discriminate; auto. cbn in H. inversion H as [[H1 H2]]. cbn [mapM]. unfold to_int at 1. rewrite H1. cbn. rewrite (IH _ H2). auto. Qed.
Lemma float_mapM ws l : map parse_float ws = map Some l -> mapM to_float ws = Ok l.
Proof. revert l. induction ws as [|w ws IH]; intros [|x l] H; try discriminate; auto. cbn in H. inversion H as [[H1 H2]]. cbn [mapM]. unfold to_float at 1. rewrite H1. cbn. rewrite (IH _ H2). auto. Qed.
Lemma data_ex lines : (forall i, 6 <= i < length lines -> exists row, row_at lines i row) -> exists data, mapM (line_to_type to_float) (skipn 6 lines) = Ok data.
Proof.
  intros H. apply mapM_ex. intros l L. apply In_nth_error in L as [i L].
  assert (nth_error lines (6 + i) = Some l) as L'. { clear -L. revert L. generalize 6 as k. intros k. revert lines. induction k as [|k IH]; intros [|x ls] L; auto; [destruct i; discriminate|apply IH; exact L]. }
  destruct (H (6 + i)) as [row [l' [A B]]]. { split; [lia|]. apply nth_error_Some. congruence. }
  rewrite L' in A. inversion A. subst l'. unfold line_to_type. rewrite (float_mapM _ _ B). cbn. eauto.
Qed.
Lemma data_length lines data : mapM (line_to_type to_float) (skipn 6 lines) = Ok data -> length data = length lines - 6.
Proof. intros H. rewrite (mapM_length _ _ _ H), skipn_length. auto. Qed.
Lemma data_row lines data i w : mapM (line_to_type to_float) (skipn 6 lines) = Ok data -> w <> 1 -> row_of lines w (6 + i) -> exists row, nth_error data i = Some (Many row) /\ length row = w.
Proof.
  intros H W [row [R L]]. destruct (nth_error data i) as [v|] eqn:E.
  - pose proof (rows_at _ _ _ _ H E) as R'. rewrite (row_at_fun _ _ _ _ R R') in L. destruct v as [a|r]; cbn [items] in L; [cbn in L; lia|eauto].
  - exfalso. apply nth_error_None in E. rewrite (data_length _ _ H) in E. destruct R as [l [R _]]. assert (6 + i < length lines) by (apply nth_error_Some; congruence). lia.
Qed.
Lemma find_row_iff lines data hdr s : mapM (line_to_type to_float) (skipn 6 lines) = Ok data -> row_at lines 5 hdr -> length hdr = 5 ->
  (find_row hdr data = Some s <-> first_repeat float_eq lines s).
Proof.
  intros DA R5 L5. rewrite find_row_ok by auto. split.
  - intros [[v [V1 V2]] V3]. exists hdr, (items v). split; auto. split; [apply (rows_at _ data); auto|]. split; auto. intros s' row' LT RA SR.
    destruct (nth_error data s') as [w|] eqn:W; [|apply nth_error_None in W; assert (s < length data) by (apply nth_error_Some; congruence); lia].
    pose proof (rows_at _ _ _ _ DA W) as RW. rewrite (row_at_fun _ _ _ _ RA RW) in SR. apply (V3 _ _ LT W SR).
  - intros (hdr' & row & A & B & C & D). rewrite (row_at_fun _ _ _ _ A R5) in *. assert (exists v, nth_error data s = Some v) as [v V].
    { destruct (nth_error data s) eqn:E; eauto. exfalso. apply nth_error_None in E. rewrite (data_length _ _ DA) in E. destruct B as [l [B _]]. assert (6 + s < length lines) by (apply nth_error_Some; congruence). lia. }
    split; [exists v; split; auto; rewrite <- (row_at_fun _ _ _ _ B (rows_at _ _ _ _ DA V)); auto|]. intros s' w LT W. apply (D s'); auto. apply (rows_at _ data); auto.
Qed.
Lemma nth_skipn {A} (l : list A) k i : nth_error (skipn k l) i = nth_error l (k + i).
Proof. revert l. induction k as [|k IH]; intros [|x l]; auto; [destruct i; auto|apply IH]. Qed.
Lemma rectangular_ex count rows : (forall v, In v rows -> exists r, v = Many r /\ length r = count) -> exists tab, rectangular count rows = Ok tab.
Proof. intros H. apply mapM_ex. intros v V. destruct (H v V) as [r [-> L]]. rewrite L, Nat.eqb_refl. eauto. Qed.
Lemma to_rows_ex names ns count tab : Forall (fun r : list float => length r = count) tab -> 1 <= count -> exists rows, mapM (to_row names ns) tab = Ok rows.
Proof. intros F C. rewrite Forall_forall in F. apply mapM_ex. intros r R. apply F in R. destruct r; [cbn in R; lia|]. unfold to_row. cbn. eauto. Qed.
Lemma dtype_ex nc layout : In layout (layouts nc) -> exists names ns, (if nc then dtype_noncollinear (columns layout) else dtype_collinear (columns layout)) = Some (names, ns).
Proof. destruct nc; intros L; cbn in L; repeat (destruct L as [L|L]; [subst layout; vm_compute; eauto|]); destruct L. Qed.
Lemma columns_big nc layout : In layout (layouts nc) -> 2 <= columns layout.
Proof. destruct nc; intros L; cbn in L; repeat (destruct L as [L|L]; [subst layout; vm_compute; lia|]); destruct L. Qed.
Lemma py_get_last_ex {A} (l : list A) : l <> [] -> exists x, py_get l (-1) = Ok x /\ In x l.
Proof.
  intros N. destruct l as [|a l _] using rev_ind; [congruence|]. exists a. split; [|apply in_or_app; right; left; auto].
  unfold py_get, from_end. cbv zeta. change (-1 <? 0)%Z with true. cbv iota. rewrite app_length. cbn [length]. destruct (Z.ltb_spec (Z.of_nat (length l + 1) + -1) 0); [lia|].
  replace (Z.to_nat (Z.of_nat (length l + 1) + -1)) with (length l) by lia. rewrite nth_error_app2, Nat.sub_diag by lia. auto.
Qed.
Lemma parse_pdos_ex nc its layout h : its <> [] -> 1 <= h -> In layout (layouts nc) ->
  (forall it, In it its -> length it = h /\ forall v, In v it -> exists r, v = Many r /\ length r = columns layout) -> exists p, parse_pdos nc its = Ok p.
Proof.
  intros NE H1 LA H. unfold parse_pdos. destruct (py_get_last_ex its NE) as [it [-> IT]]. cbn [bind]. destruct (H it IT) as [LI VI].
  destruct (py_get_last_ex it) as [v [-> V]]; [destruct it; cbn in LI; [lia|discriminate]|]. cbn [bind]. destruct (VI v V) as [r [-> LR]]. cbn [len bind]. rewrite LR.
  destruct (mapM_ex (rectangular (columns layout)) its) as [tabs T]. { intros t TI. apply rectangular_ex. apply H. auto. } rewrite T. cbn [bind].
  destruct (dtype_ex nc layout LA) as [names [ns D]]. rewrite D. cbn [of_option bind].
  assert (forallb (fun t => length t =? length it) its = true) as -> by (apply forallb_forall; intros t TI; apply Nat.eqb_eq; rewrite LI; apply H; auto).
  apply mapM_ex. intros tab TT. apply In_nth_error in TT as [k K]. destruct (mapM_nth _ _ _ _ _ T K) as [t [_ RT]]. apply rectangular_ok in RT as [_ RT]. apply (to_rows_ex _ _ _ _ RT). pose proof (columns_big _ _ LA). lia.
Qed.
Lemma dtype_dos_ex ns : ns = 1 \/ ns = 2 -> exists names, dtype_dos (1 + 2 * ns) = Some (names, ns).
Proof. intros [->| ->]; vm_compute; eauto. Qed.

Lemma accepts nc lines n : acceptable nc lines n -> exists d, from_list nc lines = Ok d /\ dm_ndos (ds_meta d) = Z.of_nat n.
Proof.
  intros (ions & atoms & co & name & emax & emin & nedos & ef & we & HD & TR & N1 & NUM & [spins [SP TOT]] & TAB). destruct HD as [[l0 [a [b [L0 C0]]]] [l3 [L3 C3]] [l4 [L4 _]] HE]. pose proof HE as [l5 [L5 C5]].
  unfold from_list, py_nth. rewrite L0, L3, L4, L5. cbn [of_option bind]. unfold line_to_type at 1. rewrite (int_mapM _ _ C0). cbn [bind unpack length Nat.eqb].
  unfold line_to_type at 1. rewrite C3. cbn [mapM to_str bind]. unfold line_to_type at 1. rewrite (float_mapM _ _ C5). cbn [bind unpack length Nat.eqb nth].
  rewrite (truncated_int _ _ TR). cbn [bind]. destruct (data_ex _ NUM) as [data DA]. rewrite DA. cbn [bind].
  assert (forall i, i < n -> exists row, nth_error data i = Some (Many row) /\ length row = 1 + 2 * spins) as DT. { intros i IN. apply (data_row lines); auto; lia. }
  destruct (DT (n - 1) ltac:(lia)) as [last [LA LL]]. unfold py_get at 1, from_end. destruct (Z.ltb_spec (Z.of_nat n - 1) 0) as [|_]; [lia|]. destruct (Z.ltb_spec (Z.of_nat n - 1) 0) as [|_]; [lia|].
  replace (Z.to_nat (Z.of_nat n - 1)) with (n - 1) by lia. rewrite LA. cbn [of_option bind len]. rewrite LL. cbv zeta. rewrite upto_nat, Nat2Z.id by lia.
  destruct (rectangular_ex (1 + 2 * spins) (firstn n data)) as [tab T].
  { intros v V. apply In_nth_error in V as [i V]. assert (i < n) as IN. { assert (i < length (firstn n data)) by (apply nth_error_Some; congruence). rewrite firstn_length in H. lia. }
    rewrite nth_error_firstn in V by auto. destruct (DT i IN) as [row [R LR]]. exists row. split; auto. congruence. }
  rewrite T. cbn [bind]. destruct (dtype_dos_ex spins SP) as [names ->]. cbn [of_option bind]. apply rectangular_ok in T as [T T'].
  destruct tab as [|r0 tab]. { exfalso. apply (f_equal (@length _)) in T. rewrite firstn_length in T. assert (n - 1 < length data) by (apply nth_error_Some; congruence). cbn in T. lia. }
  cbn [bind]. destruct (to_rows_ex names spins _ _ T' ltac:(lia)) as [rows ->]. cbn [bind].
  assert (exists p, match find_row [emax; emin; nedos; ef; we] data with None => Ok [] | Some i => parse_pdos nc (pdos_items data (Z.to_nat ions) (Z.of_nat n) (Z.of_nat i + 1)) end = Ok p) as [p P].
  { destruct (find_row [emax; emin; nedos; ef; we] data) as [s|] eqn:FR; [|eauto]. apply (find_row_iff lines) in FR; auto. destruct (TAB s FR) as [IO (layout & h & LY & HH & RO)].
    assert (forall k i, (Z.of_nat k < ions)%Z -> i < h -> exists row, nth_error data (s + 1 + k * (n + 1) + i) = Some (Many row) /\ length row = columns layout) as RD.
    { intros k i K I'. apply (data_row lines); auto; [pose proof (columns_big _ _ LY); lia|]. replace (6 + (s + 1 + k * (n + 1) + i)) with (7 + s + k * (n + 1) + i) by lia. apply RO; auto. }
    replace (Z.of_nat s + 1)%Z with (Z.of_nat (s + 1)) by lia.
    apply (parse_pdos_ex nc _ layout h); auto.
    - intros E. apply (f_equal (@length _)) in E. rewrite pdos_items_length in E. cbn in E. lia.
    - lia.
    - intros it IT. apply In_nth_error in IT as [k IT]. apply pdos_items_nth in IT as [K ->]; [|lia]. rewrite Nat2Z.id. assert (Z.of_nat k < ions)%Z as K' by lia.
      assert (length (firstn n (skipn (s + 1 + k * (n + 1)) data)) = h) as LH.
      { rewrite firstn_length, skipn_length. destruct (RD k (h - 1) K' ltac:(lia)) as [row [R _]]. assert (s + 1 + k * (n + 1) + (h - 1) < length data) by (apply nth_error_Some; congruence).
        destruct HH as [->|[-> [HH LE]]]; [lia|]. assert (k = 0) by lia. subst k. rewrite (data_length _ _ DA). lia. }
      split; auto. intros v V. apply In_nth_error in V as [i V]. assert (i < h) as IH by (rewrite <- LH; apply nth_error_Some; congruence). rewrite nth_error_firstn, nth_skipn in V by lia.
      destruct (RD k i K' IH) as [row [R LR]]. exists row. split; auto. congruence. }
  cbn [nth]. rewrite P. cbn [bind]. destruct co as [|c co]; cbn [starts_with_c bind]; eexists; (split; [reflexivity|reflexivity]).
Qed.
Lemma refuses nc lines d : from_list nc lines = Ok d -> (0 <= dm_ndos (ds_meta d))%Z -> acceptable nc lines (Z.to_nat (dm_ndos (ds_meta d))).
Proof.
  intros H N. apply from_list_ok in H as [hdr [data R]]. destruct (rd_meta _ _ _ _ _ R) as [co [HD [_ TR]]]. destruct (rd_dos _ _ _ _ _ R) as (count & names & ns & tab & T1 & T2 & T3 & T4). destruct (rd_last _ _ _ _ _ R) as [vl VL].
  pose proof (rd_data _ _ _ _ _ R) as DA. pose proof (rd_pdos _ _ _ _ _ R) as PD. rewrite upto_nat in T1 by auto. apply rectangular_ok in T1 as [T1 T5]. apply dtype_dos_ok in T2 as [-> [-> NS]].
  set (m := ds_meta d) in *. set (z := dm_ndos m) in *. assert (1 <= z)%Z as N1. { destruct (Z.eq_dec z 0) as [E|]; [|lia]. rewrite E in T1. cbn in T1. destruct tab; [congruence|discriminate]. }
  pose proof (enough _ _ _ N1 VL) as EN. set (n := Z.to_nat z) in *. assert (z = Z.of_nat n) as ZN by lia. rewrite ZN in *. clearbody n. clear N vl VL.
  exists (dm_ions m), (dm_atoms m), co, (dm_name m), (dm_emax m), (dm_emin m), (nth 2 hdr FNan), (dm_efermi m), (dm_weight m). split; auto. split; auto. split; [lia|]. split; [|split].
  - intros i IL. assert (exists v, nth_error data (i - 6) = Some v) as [v V]. { destruct (nth_error data (i - 6)) eqn:E; eauto. apply nth_error_None in E. rewrite (data_length _ _ DA) in E. lia. }
    exists (items v). replace i with (6 + (i - 6)) by lia. apply (rows_at _ data); auto.
  - exists ns. split; auto. intros i IN. assert (exists v, nth_error data i = Some v) as [v V]. { destruct (nth_error data i) eqn:E; eauto. apply nth_error_None in E. lia. }
    exists (items v). split; [apply (rows_at _ data); auto|]. rewrite <- (nth_error_firstn _ n) in V by auto. rewrite T1, nth_error_map in V. destruct (nth_error tab i) as [r|] eqn:RI; [|discriminate]. inversion V. cbn [items].
    rewrite Forall_forall in T5. rewrite (T5 _ (nth_error_In _ _ RI)). cbn. lia.
  - intros s FR. apply (find_row_iff lines data hdr) in FR; auto; [|apply R|apply R]. rewrite FR in PD. apply parse_pdos_ok in PD as (nm & nsp & it & P1 & P2 & P3 & P4 & P5 & P6 & P7 & P8).
    replace (Z.of_nat s + 1)%Z with (Z.of_nat (s + 1)) in * by lia. rewrite pdos_items_length in P1, P3, P4.
    assert (1 <= dm_ions m)%Z as IO by lia. split; auto.
    assert (exists layout, In layout (layouts nc) /\ columns layout = columns (nm, nsp)) as [layout [LY CO]].
    { unfold layouts. destruct nc; [destruct P6 as [P6|[-> ->]]|]; [eauto| |eauto]. exists (lm_to_d, 4). split; [cbn; auto 10|vm_compute; auto]. }
    exists layout, (length it). split; auto.
    set (its := pdos_items data (Z.to_nat (dm_ions m)) (Z.of_nat n) (Z.of_nat (s + 1))) in *.
    assert (forall k, (Z.of_nat k < dm_ions m)%Z -> nth_error its k = Some (firstn n (skipn (s + 1 + k * (n + 1)) data))) as IT.
    { intros k K. destruct (nth_error its k) as [t|] eqn:E; [|apply nth_error_None in E; unfold its in E; rewrite pdos_items_length in E; lia]. apply pdos_items_nth in E as [_ E]; [|lia]. rewrite Nat2Z.id in E. congruence. }
    assert (forall k, (Z.of_nat k < dm_ions m)%Z -> Nat.min n (length data - (s + 1 + k * (n + 1))) = length it) as LI. { intros k K. rewrite <- (P7 k _ (IT k K)), firstn_length, skipn_length. auto. }
    assert (1 <= length it) as H1 by (destruct it; [congruence|cbn; lia]).
    split.
    + pose proof (LI 0 ltac:(lia)) as Z0. pose proof (data_length _ _ DA). destruct (Z.eq_dec (dm_ions m) 1) as [E1|E1]; [lia|]. left. pose proof (LI 1 ltac:(lia)) as Z1. lia.
    + intros k i K IL. destruct (nth_error (ds_pdos d) k) as [rows|] eqn:PK; [|apply nth_error_None in PK; lia]. destruct (P8 k rows PK) as [item [I1 [I2 I3]]].
      assert (length rows = length it) as LR by (rewrite I2; apply (P7 k); auto). destruct (nth_error rows i) as [r|] eqn:RI; [|apply nth_error_None in RI; lia].
      destruct (I3 i r RI) as [row [W1 [W2 _]]]. exists row. split; [|congruence]. rewrite (IT k K) in I1. inversion I1. subst item. pose proof (LI k K). rewrite nth_error_firstn, nth_skipn in W1 by lia.
      apply (rows_at _ _ _ _ DA) in W1. cbn [items] in W1. replace (7 + s + k * (n + 1) + i) with (6 + (s + 1 + k * (n + 1) + i)) by lia. auto.
Qed.

(** A file is read, with [n] energies, if and only if it is as described: whatever its
    other lines, every file VASP writes is read, and a file cut inside the total table, or
    between or inside the projected tables of several ions, is not *)
Theorem C97_accepted path handler nc n :
  (exists d, doscar_init path handler nc = Ok d /\ dm_ndos (ds_meta d) = Z.of_nat n) <-> acceptable nc (scanned path handler) n.
Proof.
  split.
  - intros [d [H E]]. apply from_ok in H. replace n with (Z.to_nat (dm_ndos (ds_meta d))) by lia. apply refuses; auto. lia.
  - intros A. destruct (accepts _ _ _ A) as [d [D E]]. exists d. split; auto. destruct A as (? & ? & ? & ? & ? & ? & ? & ? & ? & HD & _). destruct HD as [[l0 [? [? [L0 _]]]] _ _ _].
    unfold doscar_init. destruct handler as [h|]; [destruct path; exact D|]. destruct path as [[txt|]|]; [exact D|discriminate|discriminate].
Qed.
(** without a repeated header there are no projected tables to read: any rows of numbers
    may follow the total table *)
Theorem C97_total_only path handler nc ions atoms coordinates name emax emin nedos efermi weight n spins :
  header (scanned path handler) ions atoms coordinates name emax emin nedos efermi weight -> truncated nedos (Z.of_nat n) -> 1 <= n ->
  spins = 1 \/ spins = 2 -> (forall i, i < n -> row_of (scanned path handler) (1 + 2 * spins) (6 + i)) ->
  length (scanned path handler) = 6 + n -> (forall s, ~ first_repeat float_eq (scanned path handler) s) ->
  exists d, doscar_init path handler nc = Ok d /\ length (ds_dos d) = n /\ ds_pdos d = [].
Proof.
  intros HD TR N1 SP TOT LE NR. destruct (proj2 (C97_accepted path handler nc n)) as [d [D E]].
  - exists ions, atoms, coordinates, name, emax, emin, nedos, efermi, weight. split; auto. split; auto. split; auto. split; [|split; [eauto|intros s F; destruct (NR s F)]].
    intros i IL. destruct (TOT (i - 6) ltac:(lia)) as [row [R _]]. exists row. replace i with (6 + (i - 6)) by lia. auto.
  - exists d. split; auto. destruct (C50_total _ _ _ _ D ltac:(lia)) as [T _]. split; [lia|]. destruct (ds_pdos d) eqn:P; auto. exfalso.
    destruct (proj1 (C63_projected_present _ _ _ _ D)) as [s F]; [congruence|]. apply (NR s F).
Qed.

(** ** Examples *)
Definition is_read (r : res doscar) (n : Z) : bool := match r with Ok d => Z.eqb (dm_ndos (ds_meta d)) n | Exn _ => false end.
Lemma read_accepted path handler nc n : is_read (doscar_init path handler nc) (Z.of_nat n) = true -> acceptable nc (scanned path handler) n.
Proof. unfold is_read. intros H. apply C97_accepted. destruct (doscar_init path handler nc) as [d|]; [|discriminate]. apply Z.eqb_eq in H. eauto. Qed.
Lemma not_read_refused path handler nc n : is_read (doscar_init path handler nc) (Z.of_nat n) = false -> ~ acceptable nc (scanned path handler) n.
Proof. unfold is_read. intros H A. apply C97_accepted in A as [d [D E]]. rewrite D, E, Z.eqb_refl in H. discriminate. Qed.
(** two ions, two energies, s, p and d *)
Definition two_ions : list string := head_lines ++
  ["  10.0  -5.0  2  3.5  1.0"; "  -5.0  0.5 0.25"; " 10.0  2.5 2.25";
   "  10.0  -5.0  2  3.5  1.0"; " -5.0  1 2 3"; " 10.0  4 5 6"; "  10.0  -5.0  2  3.5  1.0"; " -5.0  1 2 3"; " 10.0  4 5 6"]%string.
Example C97_case : acceptable false (scanned None (file two_ions)) 2.
Proof. apply read_accepted. vm_compute. reflexivity. Qed.
(** cut inside the total table, after it, inside and between the projected tables: only
    the one without projected tables is read *)
Example C97_cut : map (fun k => is_read (doscar_init None (file (firstn k two_ions)) false) 2) [6; 7; 8; 9; 10; 11; 12; 13; 14] =
  [false; false; true; false; false; false; false; false; true].
Proof. vm_compute. reflexivity. Qed.
Example C97_cut_inside : ~ acceptable false (scanned None (file (firstn 13 two_ions))) 2.
Proof. apply not_read_refused. vm_compute. reflexivity. Qed.
(** the file cut after the total table meets what the second theorem asks *)
Definition total_file : source_handler := file (firstn 8 two_ions).
Definition numbers_of (l : str) : list float := match mapM to_float (split_ws l) with Ok xs => xs | _ => [] end.
Definition row_n (i : nat) : list float := numbers_of (nth i (scanned None total_file) []).
Example C97_total_case :
  (exists ions atoms coordinates name emax emin nedos efermi weight, header (scanned None total_file) ions atoms coordinates name emax emin nedos efermi weight /\ truncated nedos 2) /\
  (forall i, i < 2 -> row_of (scanned None total_file) 3 (6 + i)) /\ length (scanned None total_file) = 8 /\ forall s, ~ first_repeat float_eq (scanned None total_file) s.
Proof.
  assert (acceptable false (scanned None total_file) 2) as A by (apply read_accepted; vm_compute; reflexivity).
  split. { destruct A as (a & b & c & d & e & f & g & h & i & H & T & _). exists a, b, c, d, e, f, g, h, i. auto. }
  split. { intros i I2. exists (row_n (6 + i)). destruct i as [|[|i]]; [| |lia]; (split; [eexists; split; vm_compute; reflexivity|vm_compute; reflexivity]). }
  split; [vm_compute; reflexivity|]. intros s (hdr & row & RH & R & C & _). assert (row_at (scanned None total_file) 5 (row_n 5)) as R5 by (eexists; split; vm_compute; reflexivity).
  assert (s < 2) as S2. { destruct R as [l [L _]]. assert (6 + s < length (scanned None total_file)) as X by (apply nth_error_Some; congruence). change (length (scanned None total_file)) with 8 in X. lia. }
  apply Forall2_length in C. rewrite (row_at_fun _ _ _ _ RH R5) in C. change (length (row_n 5)) with 5 in C.
  assert (row_at (scanned None total_file) (6 + s) (row_n (6 + s))) as R6 by (destruct s as [|[|s]]; [| |lia]; (eexists; split; vm_compute; reflexivity)).
  rewrite (row_at_fun _ _ _ _ R R6) in C. destruct s as [|[|s]]; [| |lia]; vm_compute in C; discriminate.
Qed.
