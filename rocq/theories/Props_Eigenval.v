(** Properties of the EIGENVAL reader (C51, C65). *)
From Coq Require Import Ascii String List NArith ZArith Bool Lia.
From Verif Require Import PyBase PyStrLemmas PyNum UtilsModel LineModel EigenvalModel EigenvalSpec DoscarProofs EigenvalProofs Props_Stream Props_Outcar StreamConfig.
Import ListNotations.
Local Open Scope list_scope.

Definition n_spins (e : eigenval) : nat := Z.to_nat (em_nspin (eg_meta e)).
Definition n_kpoints (e : eigenval) : nat := Z.to_nat (em_kp (eg_meta e)).
Definition n_bands (e : eigenval) : nat := Z.to_nat (em_bands (eg_meta e)).
Lemma from_ok path handler e : eigenval_init path handler = Ok e -> from_list (scanned path handler) = Ok e.
Proof.
  unfold eigenval_init. destruct (negb (is_some path) && negb (is_some handler))%bool; [discriminate|]. intros H. apply bind_ok in H as [ls [H1 H2]]. apply scanned_ok in H1. subst ls. auto.
Qed.
Lemma scanned_shaped path handler : shaped (scanned path handler).
Proof. destruct handler; cbn [scanned]; [apply readlines_shaped|]. destruct path as [[t|]|]; cbn; try apply readlines_shaped; constructor. Qed.
Record read (lines : list str) (e : eigenval) : Prop := Read {
  rd_header : exists coord, header lines (em_ions (eg_meta e)) (em_atoms (eg_meta e)) (em_p00 (eg_meta e)) (em_nspin (eg_meta e)) (em_some (eg_meta e)) (em_kp (eg_meta e)) (em_bands (eg_meta e)) coord (em_name (eg_meta e)) /\
      (em_cartesian (eg_meta e) = true <-> exists c r, coord = c :: r /\ (c = "c" \/ c = "C")%char);
  rd_lines : floats_at lines 1 (items (em_line_1 (eg_meta e))) /\ floats_at lines 2 (items (em_line_2 (eg_meta e))) /\ em_line_0 (eg_meta e) = [em_ions (eg_meta e); em_atoms (eg_meta e); em_p00 (eg_meta e); em_nspin (eg_meta e)];
  rd_sizes : (0 <= em_kp (eg_meta e) /\ 0 <= em_bands (eg_meta e) /\ 0 <= em_nspin (eg_meta e))%Z;
  rd_blocks : read_blocks (n_spins e) (n_kpoints e) (n_bands e) 0 (Tables (repeat (repeat zero 4) (n_kpoints e)) (repeat (repeat (repeat zero (n_bands e)) (n_kpoints e)) (n_spins e)))
      (map block_words (split_empty 0 (concat (skipn 6 lines)))) = Ok (Tables (eg_kpoints e) (eg_eigenvalues e)) }.
Lemma to_str_words ws l : mapM to_str ws = Ok l -> ws = l.
Proof. intros H. apply mapM_ok_Forall2 in H. induction H as [|a b ws l X]; auto. unfold to_str in X. apply Ok_inj' in X. congruence. Qed.
Lemma from_list_ok lines e : from_list lines = Ok e -> read lines e.
Proof.
  unfold from_list. intros H. apply bind_ok in H as [l0 [L0 H]]. apply bind_ok in H as [v0 [V0 H]]. apply bind_ok in H as [l1 [L1 H]]. apply bind_ok in H as [v1 [V1 H]]. apply bind_ok in H as [l2 [L2 H]]. apply bind_ok in H as [v2 [V2 H]].
  apply bind_ok in H as [l3 [L3 H]]. apply bind_ok in H as [co [CO H]]. apply bind_ok in H as [l4 [L4 H]]. apply bind_ok in H as [l5 [L5 H]]. apply bind_ok in H as [v5 [V5 H]]. apply bind_ok in H as [h5 [H5 H]]. apply bind_ok in H as [h0 [H0 H]].
  set (nk := nth 1 h5 0%Z) in *. set (nb := nth 2 h5 0%Z) in *. set (ns := nth 3 h0 0%Z) in *. destruct ((nk <? 0) || (nb <? 0) || (ns <? 0))%Z%bool eqn:RG; [discriminate|].
  apply orb_false_iff in RG as [RG R3]. apply orb_false_iff in RG as [R1 R2]. apply Z.ltb_ge in R1, R2, R3.
  apply bind_ok in H as [t [T H]]. apply bind_ok in H as [cart [CA H]]. apply Ok_inj' in H. subst e.
  apply py_nth_ok in L0, L1, L2, L3, L4, L5. apply line_ok in V0, V1, V2, CO, V5. apply unpack_ok in H0 as [E0 F0]. apply unpack_ok in H5 as [E5 F5]. rewrite E0 in V0. rewrite E5 in V5. apply mapM_int in V0, V5. apply mapM_float in V1, V2. apply to_str_words in CO.
  destruct h0 as [|a0 [|b0 [|c0 [|d0 [|]]]]]; try discriminate. destruct h5 as [|a5 [|b5 [|c5 [|]]]]; try discriminate. cbn [nth] in nk, nb, ns. subst nk nb ns.
  constructor; cbn [eg_meta eg_kpoints eg_eigenvalues em_line_0 em_line_1 em_line_2 em_ions em_atoms em_p00 em_nspin em_cartesian em_name em_some em_bands em_kp n_spins n_kpoints n_bands nth].
  - destruct co as [w|ws]; cbn [starts_with_c] in CA; [|discriminate]. exists w. split.
    + constructor; [exists l0; auto|exists l3; auto|exists l4; auto|exists l5; auto].
    + destruct w as [|c w]; apply Ok_inj' in CA; subst cart; [split; [discriminate|intros (c & r & X & _); discriminate]|]. rewrite orb_true_iff, !aeqb_eq. split; [intros X; exists c, w; auto|]. intros (c' & r & X & Y). injection X as -> _. auto.
  - split; [exists l1; auto|]. split; [exists l2; auto|auto].
  - auto.
  - unfold n_spins, n_kpoints, n_bands. cbn [eg_meta em_nspin em_kp em_bands]. destruct t. auto.
Qed.
Lemma full_blocks ns nk nb k t t' blocks : read_blocks ns nk nb k t blocks = Ok t' -> full blocks.
Proof. revert k t. induction blocks as [|b blocks IH]; intros k t H; [constructor|]. cbn [read_blocks] in H. apply bind_ok in H as [t1 [H1 H2]]. constructor; [destruct b; [discriminate|discriminate]|]. eapply IH; eauto. Qed.
Lemma shape_zero n1 n2 n3 : shape3 (repeat (repeat (repeat zero n3) n2) n1) n1 n2 n3.
Proof. split; [apply repeat_length|]. intros p P. apply repeat_spec in P. subst p. split; [apply repeat_length|]. intros q Q. apply repeat_spec in Q. subst q. apply repeat_length. Qed.
Lemma at_zero n1 n2 n3 s k b x : at3 (repeat (repeat (repeat zero n3) n2) n1) s k b x -> x = zero.
Proof. intros (p & q & P & Q & X). apply nth_error_In, repeat_spec in P. subst p. apply nth_error_In, repeat_spec in Q. subst q. apply nth_error_In, repeat_spec in X. auto. Qed.
Lemma map_split {A B} (f : A -> B) l b x a : map f l = b ++ x :: a -> exists lb y la, l = lb ++ y :: la /\ map f lb = b /\ f y = x /\ map f la = a.
Proof.
  revert b. induction l as [|y l IH]; intros [|b0 b] H; try discriminate; cbn [map app] in H.
  - injection H as <- <-. exists [], y, l. auto.
  - injection H as <- H. destruct (IH _ H) as (lb & z & la & -> & <- & <- & <-). exists (y :: lb), z, la. auto.
Qed.
(** everything the tables hold, for the paragraphs of the file *)
Lemma layout lines e : shaped lines -> read lines e -> newlines_only (skipn 6 lines) ->
  shape3 (eg_eigenvalues e) (n_spins e) (n_kpoints e) (n_bands e) /\ length (eg_kpoints e) = n_kpoints e /\
  exists ps, paragraphs (skipn 6 lines) ps /\ 1 <= length ps <= n_kpoints e /\
    (forall k p, nth_error ps k = Some p -> exists first rows kp, p = first :: rows /\ nth_error (eg_kpoints e) k = Some kp /\ length kp = 4 /\
      (forall j x, nth_error kp j = Some x -> given 4 (split_ws first) j x) /\
      forall s b x, at3 (eg_eigenvalues e) s k b x -> band_energy (n_spins e) (n_bands e) rows s b x) /\
    (forall s k b x, length ps <= k -> at3 (eg_eigenvalues e) s k b x -> x = zero) /\
    (forall k kp, length ps <= k -> nth_error (eg_kpoints e) k = Some kp -> kp = repeat zero 4).
Proof.
  intros SH R NO. assert (clean (skipn 6 lines)) as C by (split; auto; apply shaped_skipn; auto). pose proof (rd_blocks _ _ R) as B. rewrite groups_ok in B by auto. pose proof (full_blocks _ _ _ _ _ _ _ B) as F.
  destruct (first_groups _ C F) as [ps [P G]]. rewrite G in B. apply read_blocks_ok in B; cbn [tb_eigenvalues tb_kpoints]; [|apply shape_zero|apply repeat_length|intros; eapply at_zero; eauto].
  destruct B as (B1 & B2 & B3 & B4 & B5 & B6). cbn [tb_eigenvalues tb_kpoints Nat.add] in *. rewrite map_length in *.
  assert (ps <> []) as NE. { intros ->. pose proof (groups_nonempty false (skipn 6 lines)) as X. rewrite G in X. apply X. auto. }
  split; auto. split; auto. exists ps. split; auto. split; [split; [destruct ps; [congruence|cbn; lia]|apply B3; destruct ps; [congruence|discriminate]]|]. split; [|split].
  - intros k p K. destruct (B6 k (map split_ws p)) as [kp [K1 (first & rows & E & LK & GK & VK)]]; [rewrite nth_error_map, K; auto|]. destruct p as [|f r]; [discriminate|]. cbn [map] in E. injection E as <- <-.
    exists f, r, kp. split; [auto|]. split; [auto|]. split; [auto|]. split; [auto|]. intros s b x X. destruct (VK _ _ _ X) as [(bf & row & af & E & N1 & N2 & N3)|[N1 N2]].
    + left. destruct (map_split _ _ _ _ _ E) as (lb & y & la & -> & <- & <- & <-). exists lb, y, la. split; [auto|]. split; [auto|]. split; [auto|]. intros z Z1. apply (N3 (split_ws z)). apply in_map. auto.
    + right. split; auto. intros z Z1. apply (N1 (split_ws z)). apply in_map. auto.
  - intros s k b x LE X. apply B4 in X; [|auto]. eapply at_zero; eauto.
  - intros k kp LE X. rewrite B5 in X by auto. apply nth_error_In, repeat_spec in X. auto.
Qed.

(** ** C51: the layout *)
Theorem C51_layout path handler e : eigenval_init path handler = Ok e -> let body := skipn 6 (scanned path handler) in newlines_only body ->
  shape3 (eg_eigenvalues e) (n_spins e) (n_kpoints e) (n_bands e) /\ length (eg_kpoints e) = n_kpoints e /\
  exists ps, paragraphs body ps /\ 1 <= length ps <= n_kpoints e /\
    forall k p, nth_error ps k = Some p -> exists first rows kp, p = first :: rows /\ nth_error (eg_kpoints e) k = Some kp /\ length kp = 4 /\
      (forall j x, nth_error kp j = Some x -> given 4 (split_ws first) j x) /\
      forall s b x, at3 (eg_eigenvalues e) s k b x -> band_energy (n_spins e) (n_bands e) rows s b x.
Proof.
  intros H body NO. apply from_ok, from_list_ok in H. destruct (layout _ _ (scanned_shaped path handler) H NO) as (A & B & ps & P & L & K & _). split; auto. split; auto. exists ps. auto.
Qed.
Theorem C51_metadata path handler e : eigenval_init path handler = Ok e -> let m := eg_meta e in let ls := scanned path handler in
  (exists coord, header ls (em_ions m) (em_atoms m) (em_p00 m) (em_nspin m) (em_some m) (em_kp m) (em_bands m) coord (em_name m) /\
     (em_cartesian m = true <-> exists c r, coord = c :: r /\ (c = "c" \/ c = "C")%char)) /\
  floats_at ls 1 (items (em_line_1 m)) /\ floats_at ls 2 (items (em_line_2 m)) /\ em_line_0 m = [em_ions m; em_atoms m; em_p00 m; em_nspin m].
Proof. intros H m ls. apply from_ok, from_list_ok in H. split; [apply (rd_header _ _ H)|apply (rd_lines _ _ H)]. Qed.
(** the paragraphs of a text, the number of a band and the numbers given are unambiguous *)
Theorem C51_unambiguous ls ps ps' nb l b b' n ws j x y :
  (paragraphs ls ps -> paragraphs ls ps' -> ps = ps') /\ (b < nb -> b' < nb -> names_band nb l b -> names_band nb l b' -> b = b') /\ (given n ws j x -> given n ws j y -> x = y).
Proof. split; [apply paragraphs_fun|]. split; [apply names_w_fun|apply given_fun]. Qed.
(** every file in the format of VASP is accepted *)
Theorem C51_accepts path handler ions atoms p00 ns some nk nb coord name xs ys ps : let ls := scanned path handler in let body := skipn 6 ls in
  header ls ions atoms p00 (Z.of_nat ns) some (Z.of_nat nk) (Z.of_nat nb) coord name -> floats_at ls 1 xs -> floats_at ls 2 ys ->
  newlines_only body -> well_spaced body -> paragraphs body ps -> length ps <= nk -> Forall (readable_block ns nb) ps ->
  exists e, eigenval_init path handler = Ok e.
Proof.
  intros ls body [(l0 & A0 & B0) (l3 & A3 & B3) (l4 & A4 & B4) (l5 & A5 & B5)] (l1 & A1 & B1) (l2 & A2 & B2) NO WS P L F.
  assert (exists e, from_list ls = Ok e) as [e E].
  { assert (clean body) as C by (split; auto; apply shaped_skipn, scanned_shaped). pose proof (groups_well_spaced _ C WS) as G. destruct (first_groups _ C G) as [ps' [P' G']]. rewrite (paragraphs_fun _ _ _ P' P) in G'. clear ps' P'.
    assert (forall l zs, map parse_int (split_ws l) = map Some zs -> mapM to_int (split_ws l) = Ok zs) as MI.
    { intros l. generalize (split_ws l). clear. intros wl. induction wl as [|w ws IH]; intros [|z zs] H; try discriminate; auto. cbn [map] in H. injection H as H1 H2. cbn [mapM]. unfold to_int at 1. rewrite H1. cbn [of_option bind]. rewrite (IH _ H2). auto. }
    assert (forall l zs, map parse_float (split_ws l) = map Some zs -> mapM to_float (split_ws l) = Ok zs) as MF.
    { intros l. generalize (split_ws l). clear. intros wl. induction wl as [|w ws IH]; intros [|z zs] H; try discriminate; auto. cbn [map] in H. assert (parse_float w = Some z) as H1 by congruence. assert (map parse_float ws = map Some zs) as H2 by congruence. cbn [mapM]. unfold to_float at 1. rewrite H1. cbn [of_option bind]. rewrite (IH _ H2). auto. }
    unfold from_list, py_nth. fold ls. rewrite A0, A1, A2, A3, A4, A5. cbn [of_option bind]. unfold line_to_type. rewrite (MI _ _ B0), (MI _ _ B5), (MF _ _ B1), (MF _ _ B2), B3. cbn [bind mapM to_str unpack length Nat.eqb nth].
    assert (((Z.of_nat nk <? 0) || (Z.of_nat nb <? 0) || (Z.of_nat ns <? 0))%Z%bool = false) as -> by (rewrite !orb_false_iff; repeat split; apply Z.ltb_ge; lia).
    fold body. rewrite groups_ok, G' by auto. rewrite !Nat2Z.id. match goal with |- exists e, bind (read_blocks _ _ _ _ ?t _) _ = _ => destruct (read_blocks_accepts ns nk nb ps 0 t L F) as [t' T] end. rewrite T. cbn [bind starts_with_c]. destruct coord; cbn [bind]; eauto. }
  exists e. unfold eigenval_init. revert E. unfold ls. destruct handler as [h|]; [destruct path; cbn; auto|]. destruct path as [[t|]|]; cbn; auto; discriminate.
Qed.

(** ** C65: files cut short *)
(** A file with fewer k-points than announced is accepted, and the missing ones are
    reported as zeros: every value of every missing k-point is invented *)
Theorem C65_missing_refuted path handler e ps : eigenval_init path handler = Ok e -> let body := skipn 6 (scanned path handler) in newlines_only body -> paragraphs body ps ->
  forall k, length ps <= k < n_kpoints e -> nth_error (eg_kpoints e) k = Some (repeat zero 4) /\
    forall s b, s < n_spins e -> b < n_bands e -> at3 (eg_eigenvalues e) s k b zero.
Proof.
  intros H body NO P k K. apply from_ok, from_list_ok in H. destruct (layout _ _ (scanned_shaped path handler) H NO) as (A & B & ps' & P' & _ & _ & Z1 & Z2). rewrite (paragraphs_fun _ _ _ P' P) in *. split.
  - destruct (nth_error (eg_kpoints e) k) as [kp|] eqn:X; [|apply nth_error_None in X; lia]. rewrite (Z2 _ _ (proj1 K) X). auto.
  - intros s b S1 B1. destruct (at3_shape _ _ _ _ s k b A S1 (proj2 K) B1) as [x X]. rewrite <- (Z1 _ _ _ _ (proj1 K) X). auto.
Qed.
(** more k-points than announced are refused *)
Theorem C65_too_many path handler e ps : eigenval_init path handler = Ok e -> let body := skipn 6 (scanned path handler) in newlines_only body -> paragraphs body ps -> length ps <= n_kpoints e.
Proof. intros H body NO P. destruct (C51_layout _ _ _ H NO) as (_ & _ & ps' & P' & L & _). rewrite (paragraphs_fun _ _ _ P P'). lia. Qed.
Theorem C65_exit_codes path handler c : eigenval_init path handler = Exn (SysExit c) ->
  (c = 10%Z /\ path = None /\ handler = None) \/ (c = 14%Z /\ path = Some None /\ handler = None).
Proof.
  assert (forall ls, noexits (from_list ls)) as NE.
  { clear c. intros ls. unfold from_list. cbv zeta. assert (forall blocks ns nk nb k t, noexits (read_blocks ns nk nb k t blocks)) as NB.
    { induction blocks as [|b blocks IH]; intros; cbn [read_blocks]; [intros c; discriminate|]. unfold read_block, set_band, broadcast, py_nth, to_int, to_float. cbv zeta. repeat first [apply IH | noexits_step]. }
    unfold line_to_type, unpack, starts_with_c, py_nth, to_int, to_float, to_str. repeat first [apply NB | noexits_step]. }
  unfold eigenval_init. destruct handler as [h|].
  - destruct path; cbn [is_some negb andb read_from_file file_data bind filter_lines scanned]; intros H; apply NE in H; destruct H.
  - destruct path as [[txt|]|]; cbn [is_some negb andb read_from_file file_data bind filter_lines scanned]; intros H; [apply NE in H; destruct H| |]; inversion H; auto.
Qed.

(** ** Examples *)
Definition head_lines : list string := ["  4  4  1  2"; "  0.16E+02 0.4E-09"; "  1.0E-004"; "  CAR "; " my system"; "   12  2  3"]%string.
Definition body_lines : list string := [""; " 0.0 0.0 0.0 0.5"; " 1  -1.0 -2.0  1.0 1.0"; " 2  3.0 4.0  0.0 0.0"; " 3  5.0 6.0  0.0 0.0"; ""; " 0.5 0.0 0.25 0.5"; " 1  7.0 8.0  1.0 1.0"; " 2  9.0 10.0  0.0 0.0"; " 3  11.0 12.0  0.0 0.0"]%string.
Definition file (ls : list string) : source_handler := Some (flat_map (fun l => lit l ++ [nl]) ls).
Definition ints (x : float) : option Z := match int_of_float x with Ok z => Some z | _ => None end.
Example sample_read : match eigenval_init None (file (head_lines ++ body_lines)) with
  | Ok e => map (map (map ints)) (eg_eigenvalues e) = [[[Some (-1); Some 3; Some 5]; [Some 7; Some 9; Some 11]]; [[Some (-2); Some 4; Some 6]; [Some 8; Some 10; Some 12]]]%Z /\
            map (map ints) (eg_kpoints e) = [[Some 0; Some 0; Some 0; Some 0]; [Some 0; Some 0; Some 0; Some 0]]%Z /\ em_nspin (eg_meta e) = 2%Z /\ em_cartesian (eg_meta e) = true
  | _ => False end.
Proof. vm_compute. repeat split. Qed.
(** cut after the first k-point: accepted *)
Example cut_read : match eigenval_init None (file (head_lines ++ firstn 5 body_lines)) with
  | Ok e => map (map (map ints)) (eg_eigenvalues e) = [[[Some (-1); Some 3; Some 5]; [Some 0; Some 0; Some 0]]; [[Some (-2); Some 4; Some 6]; [Some 0; Some 0; Some 0]]]%Z
  | _ => False end.
Proof. vm_compute. repeat split. Qed.
(** a final empty line is not accepted *)
Example trailing_line : eigenval_init None (file (head_lines ++ body_lines ++ [""]%string)) = Exn IndexError.
Proof. vm_compute. reflexivity. Qed.
(** the hypotheses of C51_accepts are met by the sample *)
Definition sample_body : list str := Eval vm_compute in skipn 6 (scanned None (file (head_lines ++ body_lines))).
Example sample_meets : paragraphs sample_body [firstn 4 (skipn 1 sample_body); skipn 6 sample_body] /\ well_spaced sample_body /\ Forall (readable_block 2 3) [firstn 4 (skipn 1 sample_body); skipn 6 sample_body] /\ newlines_only sample_body.
Proof.
  assert (forall l, is_nil (split_ws l) = false -> ~ blank l) as NB by (unfold blank; intros l H E; rewrite E in H; discriminate).
  split; [|split; [|split]].
  - apply (par_next (firstn 1 sample_body) (firstn 4 (skipn 1 sample_body)) (skipn 5 sample_body) [skipn 6 sample_body]); [repeat constructor|discriminate|repeat (constructor; [apply NB; reflexivity|]); constructor|reflexivity|].
    apply (par_next (firstn 1 (skipn 5 sample_body)) (skipn 6 sample_body) [] []); [repeat constructor|discriminate|repeat (constructor; [apply NB; reflexivity|]); constructor|exact Logic.I|constructor; constructor].
  - split; [apply NB; reflexivity|]. intros [_ X]. revert X. apply NB. reflexivity.
  - assert (forall ws, forallb (fun t => is_some (parse_float t)) ws = true -> Forall (fun t => parse_float t <> None) ws) as FF. { intros ws H. apply Forall_forall. intros t T X. rewrite forallb_forall in H. specialize (H t T). rewrite X in H. discriminate. }
    assert (forall row b, match split_ws row with w :: _ => match parse_int w with Some z => Z.eqb z (Z.of_nat b + 1) | None => false end | [] => false end = true -> names_band 3 row b) as NM.
    { intros row b H. unfold names_band. destruct (split_ws row) as [|w ws]; [discriminate|]. destruct (parse_int w) as [z|] eqn:Z1; [|discriminate]. exists w, ws, z. apply Z.eqb_eq in H. auto. }
    constructor; [|constructor; [|constructor]]; eexists _, _; (split; [reflexivity|]); (split; [split; [left; reflexivity|apply FF; vm_compute; reflexivity]|]); intros row R; cbn [In] in R; repeat (destruct R as [<-|R]; [split; [|split; [left; reflexivity|apply FF; vm_compute; reflexivity]]|]); try (destruct R).
    + exists 0. split; [lia|]. apply NM. vm_compute. reflexivity.
    + exists 1. split; [lia|]. apply NM. vm_compute. reflexivity.
    + exists 2. split; [lia|]. apply NM. vm_compute. reflexivity.
    + exists 0. split; [lia|]. apply NM. vm_compute. reflexivity.
    + exists 1. split; [lia|]. apply NM. vm_compute. reflexivity.
    + exists 2. split; [lia|]. apply NM. vm_compute. reflexivity.
  - intros l c L C B. assert (forallb (forallb (fun c => if is_break c then aeqb c nl else true)) sample_body = true) as X by (vm_compute; reflexivity). rewrite forallb_forall in X. specialize (X l L). rewrite forallb_forall in X. specialize (X c C). rewrite B in X. apply aeqb_eq. auto.
Qed.
