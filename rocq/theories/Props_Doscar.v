(** Properties of the DOSCAR reader (C50, C63, C64). *)
From Coq Require Import Ascii String List NArith ZArith Bool Lia.
From Verif Require Import PyBase PyStrLemmas PyNum UtilsModel LineModel DoscarModel DoscarSpec DoscarProofs Props_Stream Props_Outcar StreamConfig.
Import ListNotations.
Local Open Scope list_scope.

Lemma int_of_float_ok x z : int_of_float x = Ok z -> truncated x z.
Proof.
  destruct x as [neg m e| |]; cbn [int_of_float truncated]; try discriminate. intros H. apply Ok_inj' in H.
  set (n := if (0 <=? e)%Z then (m * pow2 e)%N else (m / pow2 (- e))%N) in H.
  assert (Z.of_N n * 2 ^ Z.max (- e) 0 <= Z.of_N m * 2 ^ Z.max e 0 < 2 ^ Z.max (- e) 0 * (Z.of_N n + 1))%Z as B.
  { unfold n, pow2. destruct (Z.leb_spec 0 e).
    - rewrite N2Z.inj_mul, N2Z.inj_pow, Z2N.id by lia. replace (Z.max e 0) with e by lia. replace (Z.max (- e) 0) with 0%Z by lia. cbn [Z.of_N]. lia.
    - replace (Z.max e 0) with 0%Z by lia. replace (Z.max (- e) 0) with (- e)%Z by lia. rewrite N2Z.inj_div, N2Z.inj_pow, Z2N.id by lia. change (Z.of_N 2) with 2%Z.
      pose proof (Z.pow_pos_nonneg 2 (- e)) as P. pose proof (Z.mul_div_le (Z.of_N m) (2 ^ - e)). pose proof (Z.mul_succ_div_gt (Z.of_N m) (2 ^ - e)). lia. }
  subst z. unfold zsigned. destruct neg.
  - rewrite Z.abs_opp, Z.abs_eq by lia. split; [lia|]. intros NZ. split; auto. intros _. lia.
  - rewrite Z.abs_eq by lia. split; [lia|]. intros NZ. split; [lia|discriminate].
Qed.
Lemma from_ok path handler nc d : doscar_init path handler nc = Ok d -> from_list nc (scanned path handler) = Ok d.
Proof.
  unfold doscar_init. destruct (negb (is_some path) && negb (is_some handler)); [discriminate|]. intros H. apply bind_ok in H as [ls [H1 H2]]. apply scanned_ok in H1. subst ls. auto.
Qed.
Record read (nc : bool) (lines : list str) (d : doscar) (hdr : list float) (data : list (line_value float)) : Prop := Read {
  rd_header : row_at lines 5 hdr;
  rd_five : length hdr = 5;
  rd_meta : exists coord, header lines (dm_ions (ds_meta d)) (dm_atoms (ds_meta d)) coord (dm_name (ds_meta d)) (dm_emax (ds_meta d)) (dm_emin (ds_meta d)) (nth 2 hdr FNan) (dm_efermi (ds_meta d)) (dm_weight (ds_meta d)) /\
      (dm_cartesian (ds_meta d) = true <-> first_is coord ["c"; "C"]%char) /\ truncated (nth 2 hdr FNan) (dm_ndos (ds_meta d));
  rd_data : mapM (line_to_type to_float) (skipn 6 lines) = Ok data;
  rd_dos : exists count names ns tab, rectangular count (py_upto data (dm_ndos (ds_meta d))) = Ok tab /\ dtype_dos count = Some (names, ns) /\ tab <> [] /\ mapM (to_row names ns) tab = Ok (ds_dos d);
  rd_last : exists v, py_get data (dm_ndos (ds_meta d) - 1) = Ok v;
  rd_pdos : match find_row hdr data with
            | None => ds_pdos d = []
            | Some i => parse_pdos nc (pdos_items data (Z.to_nat (dm_ions (ds_meta d))) (dm_ndos (ds_meta d)) (Z.of_nat i + 1)) = Ok (ds_pdos d)
            end }.
Lemma from_list_ok nc lines d : from_list nc lines = Ok d -> exists hdr data, read nc lines d hdr data.
Proof.
  unfold from_list. intros H. apply bind_ok in H as [l0 [L0 H]]. apply bind_ok in H as [h0 [H0 H]]. apply bind_ok in H as [h [H0' H]]. apply bind_ok in H as [l3 [L3 H]]. apply bind_ok in H as [co [CO H]].
  apply bind_ok in H as [l4 [L4 H]]. apply bind_ok in H as [l5 [L5 H]]. apply bind_ok in H as [v2 [V2 H]]. apply bind_ok in H as [hdr [HD H]]. apply bind_ok in H as [ndos [ND H]]. apply bind_ok in H as [data [DA H]].
  apply bind_ok in H as [last [LA H]]. apply bind_ok in H as [count [CT H]]. apply bind_ok in H as [tab [TA H]]. apply bind_ok in H as [[names ns] [DT H]]. apply bind_ok in H as [[] [NE H]].
  apply bind_ok in H as [dos [DO H]]. apply bind_ok in H as [pdos [PD H]]. apply bind_ok in H as [cart [CA H]]. apply Ok_inj' in H. subst d.
  apply py_nth_ok in L0, L3, L4, L5. apply line_ok in H0, CO, V2. apply unpack_ok in H0' as [E0 F0]. apply unpack_ok in HD as [E5 F5].
  rewrite E0 in H0. rewrite E5 in V2. apply mapM_int in H0. apply mapM_float in V2.
  exists hdr, data. constructor; cbn [ds_meta ds_dos ds_pdos dm_ions dm_atoms dm_cartesian dm_name dm_emax dm_emin dm_ndos dm_efermi dm_weight]; auto.
  - exists l5. auto.
  - destruct co as [w|ws]; cbn [starts_with_c] in CA; [|discriminate]. exists w. split; [|split].
    + destruct h as [|a [|b [|c [|e [|]]]]]; try discriminate. destruct hdr as [|x [|y [|z [|t [|u [|]]]]]]; try discriminate. cbn [nth]. constructor; [exists l0, c, e; auto| |exists l4; auto|exists l5; auto].
      exists l3. split; auto. cbn [items] in CO. clear -CO. change (mapM to_str (split_ws l3) = Ok [w]) in CO. destruct (split_ws l3) as [|u [|v r]]; cbn [mapM bind to_str] in CO; [discriminate| |]; [apply Ok_inj' in CO; congruence|].
        unfold to_str in CO. destruct (mapM _ r); cbn in CO; [apply Ok_inj' in CO|]; discriminate.
    + destruct w as [|c w]; cbn [first_is]; apply Ok_inj' in CA; subst cart; [split; [discriminate|intros []]|]. rewrite orb_true_iff. cbn [In]. rewrite !aeqb_eq. split; intuition.
    + apply int_of_float_ok. auto.
  - exists count, names, ns, tab. repeat split; auto. + destruct (dtype_dos count); [|discriminate]. cbn in DT. apply Ok_inj' in DT. congruence. + destruct tab; discriminate.
  - eauto.
  - destruct (find_row hdr data); auto. apply Ok_inj' in PD. auto.
Qed.
Lemma nth_error_firstn {A} (l : list A) n i : i < n -> nth_error (firstn n l) i = nth_error l i.
Proof. revert l i. induction n as [|n IH]; intros [|x l] [|i] H; try lia; cbn; auto. apply IH. lia. Qed.
Lemma upto_nat {A} (data : list A) n : (0 <= n)%Z -> py_upto data n = firstn (Z.to_nat n) data.
Proof. intros N. unfold py_upto, from_end. destruct (Z.ltb_spec n 0); [lia|]. auto. Qed.
Lemma enough {A} (data : list A) n v : (1 <= n)%Z -> py_get data (n - 1) = Ok v -> Z.to_nat n <= length data.
Proof. intros N. unfold py_get, from_end. destruct (Z.ltb_spec (n - 1) 0); [lia|]. destruct (Z.ltb_spec (n - 1) 0); [lia|]. destruct (nth_error data (Z.to_nat (n - 1))) eqn:E; [|discriminate]. intros _. assert (Z.to_nat (n - 1) < length data) by (apply nth_error_Some; congruence). lia. Qed.

(** ** C50: columns.  The total table of every file: one row per energy, with the energy in
    the first column.  Without spin polarisation the columns are as documented; with it,
    the second quantity starts one column after the first *)
Theorem C50_total path handler nc d : doscar_init path handler nc = Ok d -> (0 <= dm_ndos (ds_meta d))%Z ->
  Z.of_nat (length (ds_dos d)) = dm_ndos (ds_meta d) /\ exists ns, (ns = 1 \/ ns = 2) /\
  forall i r, nth_error (ds_dos d) i = Some r -> exists row, row_at (scanned path handler) (6 + i) row /\ length row = 1 + 2 * ns /\
    (ns = 1 -> documented names_dos ns row (row_energy r) (row_fields r)) /\ overlapping names_dos ns row (row_energy r) (row_fields r).
Proof.
  intros H N. apply from_ok, from_list_ok in H as [hdr [data R]]. destruct (rd_dos _ _ _ _ _ R) as (count & names & ns & tab & T1 & T2 & T3 & T4). destruct (rd_last _ _ _ _ _ R) as [v V].
  rewrite upto_nat in T1 by auto. apply rectangular_ok in T1 as [T1 T5]. apply dtype_dos_ok in T2 as [-> [-> NS]].
  set (n := dm_ndos (ds_meta d)) in *. assert (1 <= n)%Z as N1. { destruct (Z.eq_dec n 0) as [E|]; [|lia]. rewrite E in T1. cbn in T1. destruct tab; [congruence|discriminate]. }
  pose proof (enough _ _ _ N1 V) as EN. split; [rewrite (mapM_length _ _ _ T4), <- (map_length Many), <- T1, firstn_length; lia|]. exists ns. split; auto.
  intros i r I1. destruct (mapM_nth _ _ _ _ _ T4 I1) as [row [R1 R2]]. exists row.
  assert (length row = 1 + length names_dos * ns) as LR by (rewrite Forall_forall in T5; apply T5; eapply nth_error_In; eauto).
  split. { change row with (items (Many row)). apply (rows_at _ data); [apply R|]. assert (nth_error (map Many tab) i = Some (Many row)) as M by (rewrite nth_error_map, R1; auto). rewrite <- T1 in M.
    assert (i < Z.to_nat n). { assert (i < length (firstn (Z.to_nat n) data)) as X by (apply nth_error_Some; congruence). rewrite firstn_length in X. lia. }
    rewrite nth_error_firstn in M by auto. auto. }
  split; [exact LR|]. apply to_row_ok in R2 as [A B]; auto. split; auto. apply B. destruct NS; lia.
Qed.
(** The projected tables: one per ion, in order; [s] is where the repeated header is *)
Theorem C50_projected path handler nc d : doscar_init path handler nc = Ok d -> (0 <= dm_ndos (ds_meta d))%Z -> ds_pdos d <> [] ->
  exists s names ns, first_repeat float_eq (scanned path handler) s /\ Z.of_nat (length (ds_pdos d)) = dm_ions (ds_meta d) /\
    (if nc then In (names, ns) noncollinear_layouts \/ names = bad_name /\ ns = 4 else In (names, ns) collinear_layouts) /\
    forall ion rows i r, nth_error (ds_pdos d) ion = Some rows -> nth_error rows i = Some r ->
      exists row, row_at (scanned path handler) (6 + (s + 1 + ion * (Z.to_nat (dm_ndos (ds_meta d)) + 1) + i)) row /\ length row = columns (names, ns) /\
        (ns = 1 -> documented names ns row (row_energy r) (row_fields r)) /\ overlapping names ns row (row_energy r) (row_fields r).
Proof.
  intros H N NE. apply from_ok, from_list_ok in H as [hdr [data R]]. pose proof (rd_pdos _ _ _ _ _ R) as P. pose proof (rd_five _ _ _ _ _ R) as F5. destruct (find_row hdr data) as [s|] eqn:FR; [|contradiction].
  apply parse_pdos_ok in P as (names & ns & it & P1 & P2 & P3 & P4 & P5 & P6 & P7 & P8). rewrite pdos_items_length in P3, P4. exists s, names, ns.
  apply find_row_ok in FR as [[v [V1 V2]] V3]; auto. split.
  { exists hdr, (items v). split; [apply R|]. split; [apply (rows_at _ data); auto; apply R|]. split; auto. intros s' row' LT RA SR. pose proof (rd_data _ _ _ _ _ R) as DA.
    destruct (nth_error data s') as [w|] eqn:W; [|apply nth_error_None in W; assert (s < length data) by (apply nth_error_Some; congruence); lia].
    pose proof (rows_at _ _ _ _ DA W) as RW. rewrite (row_at_fun _ _ _ _ RA RW) in SR. apply (V3 _ _ LT W SR). }
  split; [rewrite P4; lia|]. split; auto. intros ion rows i r RI RR. destruct (P8 _ _ RI) as [item [IT [LI RO]]]. destruct (RO _ _ RR) as [row [RW [LR DO]]]. exists row. split; auto.
  replace (Z.of_nat s + 1)%Z with (Z.of_nat (s + 1)) in IT by lia. apply pdos_items_nth in IT as [_ IT]; auto. subst item. change row with (items (Many row)). apply (rows_at _ data); [apply R|].
  set (n := Z.to_nat (dm_ndos (ds_meta d))) in *.
  assert (i < n). { assert (i < length (firstn n (skipn (s + 1 + ion * (n + 1)) data))) as X by (apply nth_error_Some; congruence). rewrite firstn_length in X. lia. }
  rewrite nth_error_firstn in RW by auto. rewrite <- RW. clear. generalize (s + 1 + ion * (n + 1)) as k. intros k. revert data. induction k as [|k IH]; intros data; auto. destruct data as [|x data]; cbn [skipn Nat.add nth_error]; auto. destruct i; auto.
Qed.
(** With more than one component per quantity, a row whose numbers are all different is
    never attributed as documented: from the second quantity on, columns belong to others *)
Theorem C50_polarised_refuted names ns row e fs : 2 <= ns -> 2 <= length names -> NoDup row -> overlapping names ns row e fs -> ~ documented names ns row e fs.
Proof.
  intros NS NL ND [O1 [_ O3]] [D1 [D2 D3]]. destruct fs as [|[n0 c0] [|[n1 c1] fs]]; [subst names; cbn in NL; lia|subst names; cbn in NL; lia|].
  destruct (O3 1 n1 c1 eq_refl) as [L1 [a [b [E LA]]]]. destruct c1 as [|x c1]; [cbn in L1; lia|]. inversion D3 as [|? ? L0 D4]. subst. cbn [snd] in L0.
  cbn [map snd concat] in E, ND. assert (nth_error (e :: c0 ++ (x :: c1) ++ concat (map snd fs)) (1 + length c0) = Some x) as A.
  { cbn [Nat.add nth_error]. rewrite nth_error_app2, Nat.sub_diag by lia. auto. }
  assert (nth_error (e :: c0 ++ (x :: c1) ++ concat (map snd fs)) 2 = Some x) as B.
  { rewrite E, nth_error_app2 by lia. rewrite LA. auto. }
  rewrite NoDup_nth_error in ND. specialize (ND (1 + length c0) 2). rewrite A, B in ND. specialize (ND ltac:(apply nth_error_Some; congruence) eq_refl). lia.
Qed.
(** and the 37 columns of a non-collinear file name an orbital differently from the others *)
Theorem C50_name_refuted : ~ In (lit "dx2-y2") bad_name /\ In (lit "x2-y2") bad_name /\ length bad_name = length lm_to_d.
Proof. split; [|vm_compute; auto 20]. vm_compute. intros H. repeat (destruct H as [H|H]; [discriminate|]). exact H. Qed.

(** ** C63: metadata and presence of the projected tables *)
Theorem C63_metadata path handler nc d : doscar_init path handler nc = Ok d ->
  let m := ds_meta d in exists coord n, header (scanned path handler) (dm_ions m) (dm_atoms m) coord (dm_name m) (dm_emax m) (dm_emin m) n (dm_efermi m) (dm_weight m) /\
    (dm_cartesian m = true <-> first_is coord ["c"; "C"]%char) /\ truncated n (dm_ndos m).
Proof. intros H. apply from_ok, from_list_ok in H as [hdr [data R]]. destruct (rd_meta _ _ _ _ _ R) as [coord M]. exists coord, (nth 2 hdr FNan). exact M. Qed.
Theorem C63_projected_present path handler nc d : doscar_init path handler nc = Ok d ->
  (ds_pdos d <> [] <-> exists s, first_repeat float_eq (scanned path handler) s).
Proof.
  intros H. apply from_ok, from_list_ok in H as [hdr [data R]]. pose proof (rd_pdos _ _ _ _ _ R) as P. pose proof (rd_five _ _ _ _ _ R) as F5. pose proof (rd_data _ _ _ _ _ R) as DA. destruct (find_row hdr data) as [s|] eqn:FR.
  - apply parse_pdos_ok in P as (names & ns & it & P1 & P2 & P3 & P4 & _). split; [intros _|intros _ E; rewrite E in P4; cbn in P4; lia]. exists s.
    apply find_row_ok in FR as [[v [V1 V2]] V3]; auto. exists hdr, (items v). split; [apply R|]. split; [apply (rows_at _ data); auto|]. split; auto. intros s' row' LT RA SR.
    destruct (nth_error data s') as [w|] eqn:W; [|apply nth_error_None in W; assert (s < length data) by (apply nth_error_Some; congruence); lia].
    pose proof (rows_at _ _ _ _ DA W) as RW. rewrite (row_at_fun _ _ _ _ RA RW) in SR. apply (V3 _ _ LT W SR).
  - split; [rewrite P; congruence|]. intros [s (hdr' & row & A & B & C & _)]. exfalso. rewrite (row_at_fun _ _ _ _ A (rd_header _ _ _ _ _ R)) in C.
    assert (exists v, nth_error data s = Some v) as [v V]. { destruct (nth_error data s) eqn:E; eauto. exfalso. apply nth_error_None in E. rewrite (mapM_length _ _ _ DA), skipn_length in E. destruct B as [l [B _]]. assert (6 + s < length (scanned path handler)) by (apply nth_error_Some; congruence). lia. }
    pose proof (rows_at _ _ _ _ DA V) as RV. rewrite (row_at_fun _ _ _ _ B RV) in C. apply (find_row_none _ _ F5 FR _ _ V C).
Qed.

(** ** C64: files cut short *)
(** a file that ends inside the total table is refused, and with two ions or more every
    projected table is complete *)
Theorem C64_complete path handler nc d : doscar_init path handler nc = Ok d -> (0 <= dm_ndos (ds_meta d))%Z ->
  6 + Z.to_nat (dm_ndos (ds_meta d)) <= length (scanned path handler) /\
  ((2 <= dm_ions (ds_meta d))%Z -> forall rows, In rows (ds_pdos d) -> Z.of_nat (length rows) = dm_ndos (ds_meta d)).
Proof.
  intros H N. destruct (C50_total _ _ _ _ H N) as [T1 [ns [_ T2]]]. split.
  { destruct (ds_dos d) as [|r0 rs] eqn:E.
    - exfalso. pose proof H as H'. apply from_ok, from_list_ok in H' as [hdr [data R]]. destruct (rd_dos _ _ _ _ _ R) as (count & names & ns' & tab & _ & _ & NE & M). rewrite E in M. apply mapM_length in M. destruct tab; [congruence|discriminate].
    - destruct (nth_error (r0 :: rs) (length rs)) as [r|] eqn:X; [|apply nth_error_None in X; cbn in X; lia]. destruct (T2 _ _ X) as [row [[l [L _]] _]].
      assert (6 + length rs < length (scanned path handler)) by (apply nth_error_Some; congruence). cbn [length] in T1. lia. }
  intros IO rows RI. apply from_ok, from_list_ok in H as [hdr [data R]]. pose proof (rd_pdos _ _ _ _ _ R) as P. destruct (find_row hdr data) as [s|] eqn:FR; [|rewrite P in RI; destruct RI].
  apply parse_pdos_ok in P as (names & nsp & it & P1 & P2 & P3 & P4 & P5 & P6 & P7 & P8). apply In_nth_error in RI as [k K]. destruct (P8 _ _ K) as [item [IT [LI _]]].
  rewrite LI, (P7 _ _ IT). replace (Z.of_nat s + 1)%Z with (Z.of_nat (s + 1)) in * by lia. rewrite pdos_items_length in P1, P3.
  set (its := pdos_items data (Z.to_nat (dm_ions (ds_meta d))) (dm_ndos (ds_meta d)) (Z.of_nat (s + 1))) in *. destruct (nth_error its 0) as [it0|] eqn:I0.
  2:{ exfalso. apply nth_error_None in I0. unfold its in I0. rewrite pdos_items_length in I0. lia. }
  rewrite <- (P7 _ _ I0). apply pdos_items_nth in I0 as [_ I0]; auto. apply pdos_items_nth in P1 as [_ P1]; auto. set (n := Z.to_nat (dm_ndos (ds_meta d))) in *.
  assert (s + 1 + (Z.to_nat (dm_ions (ds_meta d)) - 1) * (n + 1) < length data) as BIG.
  { destruct (Nat.ltb_spec (s + 1 + (Z.to_nat (dm_ions (ds_meta d)) - 1) * (n + 1)) (length data)) as [|G]; auto. exfalso. apply P2. rewrite P1, skipn_all2 by auto. apply firstn_nil. }
  rewrite I0, firstn_length, skipn_length. assert (1 * (n + 1) <= (Z.to_nat (dm_ions (ds_meta d)) - 1) * (n + 1)) by (apply Nat.mul_le_mono_r; lia). lia.
Qed.
Theorem C64_exit_codes path handler nc c : doscar_init path handler nc = Exn (SysExit c) ->
  (c = 10%Z /\ path = None /\ handler = None) \/ (c = 14%Z /\ path = Some None /\ handler = None).
Proof.
  assert (forall ls, noexits (from_list nc ls)) as NE.
  { clear c. intros ls. unfold from_list, parse_pdos, line_to_type, unpack, len, starts_with_c, py_nth, py_get, to_int, to_float, to_str, int_of_float, rectangular, to_row. cbv zeta. repeat noexits_step. }
  unfold doscar_init. destruct handler as [h|].
  - destruct path; cbn [is_some negb andb read_from_file file_data bind filter_lines scanned]; intros H; apply NE in H; destruct H.
  - destruct path as [[txt|]|]; cbn [is_some negb andb read_from_file file_data bind filter_lines scanned]; intros H; [apply NE in H; destruct H| |]; inversion H; auto.
Qed.

(** ** Examples *)
Definition file (ls : list string) : source_handler := Some (flat_map (fun l => lit l ++ [nl]) ls).
Definition head_lines : list string := ["  2  2  1  1"; "  0.16E+02"; "  1.0E-004"; "  CAR "; " my system"]%string.
(** two ions, two energies, spin-polarised: accepted, with the columns mixed up *)
Definition polarised : source_handler := file (head_lines ++
  ["  10.0  -5.0  2  3.5  1.0"; "  -5.0  0.5 0.25  1.5 1.25"; " 10.0  2.5 2.25 3.5 3.25";
   "  10.0  -5.0  2  3.5  1.0"; " -5.0  1 2 3 4 5 6"; " 10.0  7 8 9 10 11 12"; "  10.0  -5.0  2  3.5  1.0"; " -5.0  1 2 3 4 5 6"; " 10.0  7 8 9 10 11 12"]%string).
Definition plain_view (r : dos_row) : list (str * list (option Z)) := map (fun f => (fst f, map (fun x => match int_of_float x with Ok z => Some z | _ => None end) (snd f))) (row_fields r).
Example polarised_read : match doscar_init None polarised false with
  | Ok d => dm_ndos (ds_meta d) = 2%Z /\ dm_ions (ds_meta d) = 2%Z /\ dm_cartesian (ds_meta d) = true /\ dm_name (ds_meta d) = lit "my system" /\ length (ds_dos d) = 2%nat /\ map (@length _) (ds_pdos d) = [2%nat; 2%nat] /\
            map (map plain_view) (ds_pdos d) = repeat [[(lit "s", [Some 1; Some 2]); (lit "p", [Some 2; Some 3]); (lit "d", [Some 3; Some 4])]; [(lit "s", [Some 7; Some 8]); (lit "p", [Some 8; Some 9]); (lit "d", [Some 9; Some 10])]] 2%nat
  | _ => False end%Z.
Proof. vm_compute. repeat split. Qed.
(** so the property fails *)
Theorem C50_columns_refuted : ~ (forall path handler nc d, doscar_init path handler nc = Ok d ->
  forall i r row, nth_error (ds_dos d) i = Some r -> row_at (scanned path handler) (6 + i) row -> exists ns, documented names_dos ns row (row_energy r) (row_fields r)).
Proof.
  intros H. pose proof polarised_read as P. destruct (doscar_init None polarised false) as [d|e] eqn:E; [|exact P]. specialize (H _ _ _ _ E 0). pose proof (C50_total _ _ _ _ E) as T.
  destruct P as [P1 [_ [_ [_ [P2 _]]]]]. rewrite P1 in T. specialize (T ltac:(lia)). destruct T as [_ [ns [NS T]]].
  assert (exists r, nth_error (ds_dos d) 0 = Some r) as [r R] by (clear -P2; destruct (ds_dos d) as [|r0 rs]; [discriminate|exists r0; reflexivity]). destruct (T 0 r R) as [row [RA [LR [_ OV]]]]. destruct (H r row R RA) as [ns' D]. clear H T E.
  assert (map parse_float (split_ws (lit "  -5.0  0.5 0.25  1.5 1.25" ++ [nl])) = map Some row) as ROW. { destruct RA as [l [L M]]. assert (l = lit "  -5.0  0.5 0.25  1.5 1.25" ++ [nl]) as EL. { assert (nth_error (scanned None polarised) 6 = Some (lit "  -5.0  0.5 0.25  1.5 1.25" ++ [nl])) as L' by (vm_compute; reflexivity). change (6 + 0) with 6 in L. rewrite L in L'. injection L' as L'. exact L'. } rewrite EL in M. exact M. }
  destruct row as [|a [|b [|c [|x [|y [|]]]]]]; try (apply (f_equal (@length _)) in ROW; rewrite !map_length in ROW; vm_compute in ROW; discriminate). assert (ns = 2) by (destruct NS as [->| ->]; [cbn in LR; lia|auto]). subst ns.
  assert (ns' = 2) as ->.
  { clear -D. destruct D as [D1 [D2 D3]]. destruct (row_fields r) as [|[n0 c0] [|[n1 c1] [|]]]; try (vm_compute in D1; discriminate). inversion D3 as [|? ? X1 D4]. inversion D4 as [|? ? X2 D5]. subst. cbn [snd map concat] in *. apply (f_equal (@length float)) in D2. cbn [length] in D2. rewrite !app_length in D2. cbn [length] in D2. lia. }
  revert D. apply C50_polarised_refuted with (ns := 2); auto.
  assert (NoDup (map (@Some float) [a; b; c; x; y])) as ND. { rewrite <- ROW. vm_compute. repeat (constructor; [cbn; intuition discriminate|]). constructor. }
  apply NoDup_map_inv in ND. exact ND.
Qed.
(** one ion, cut inside its projected table: accepted with a row missing *)
Definition cut_short : source_handler := file (["  1  1  1  1"; "  0.16E+02"; "  1.0E-004"; "  CAR "; " my system"; "  10.0  -5.0  2  3.5  1.0"; "  -5.0  0.5 1.5"; " 10.0  2.5 3.5"; "  10.0  -5.0  2  3.5  1.0"; " -5.0  1 2 3"]%string).
Theorem C64_single_ion_refuted : ~ (forall path handler nc d, doscar_init path handler nc = Ok d -> (0 <= dm_ndos (ds_meta d))%Z -> forall rows, In rows (ds_pdos d) -> Z.of_nat (length rows) = dm_ndos (ds_meta d)).
Proof.
  intros H. specialize (H None cut_short false). assert (match doscar_init None cut_short false with Ok d => dm_ndos (ds_meta d) = 2%Z /\ map (@length _) (ds_pdos d) = [1] | _ => False end) as E by (vm_compute; auto).
  destruct (doscar_init None cut_short false) as [d|e]; [|exact E]. destruct E as [E1 E2]. specialize (H d eq_refl ltac:(lia)). destruct (ds_pdos d) as [|rows [|]]; try discriminate. specialize (H rows (or_introl eq_refl)). cbn in E2. inversion E2 as [L]. rewrite L in H. lia.
Qed.
