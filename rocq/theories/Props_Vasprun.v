(** Properties C54, C56, C57, C58: the regular parser of vasprun.xml, the accessors, and the
    constructor. *)
From Coq Require Import Ascii String List NArith ZArith Bool Lia.
From Verif Require Import PyBase PyStrLemmas PyNum UtilsModel LineModel KpointsCodes OutcarModel DoscarProofs StreamConfig ChgcarModel ChgcarSpec ChgcarProofs VasprunTypes VasprunXml VasprunModel VasprunEvents VasprunSpec VasprunTables VasprunTree VasprunSteps VasprunEnergies.
Import ListNotations.
Local Open Scope list_scope.

(** ** C54: initial, last and all *)
(** the regular parser with extract_all has read a document with the steps [steps] of the atoms [sp] *)
Definition steps_run (x : xml) (kbb : bool) (p : parsed) (sp : list Z) (steps : list ion_step) : Prop :=
  parsew x kbb true = Ok p /\ p_species p = Some sp /\ 0 < length sp /\ Forall2 (step_holds (length sp)) (calculations x) steps.
Lemma c54_data x kbb p sp steps : steps_run x kbb p sp steps -> steps <> [] ->
  p_cell p = Some (step_dict 3 (map st_cell steps)) /\ p_pos p = Some (step_dict (length sp) (map st_pos steps)) /\
  p_force p = Some (step_dict (length sp) (map st_force steps)) /\ p_stress p = Some (step_dict 3 (map st_stress steps)).
Proof.
  intros (parsed_ok & species_ok & atoms & steps_ok) NE. destruct (tr_upfs _ _ _ _ (parsew_run _ _ _ _ parsed_ok)) as (u & U & C & P & F & S). rewrite species_ok in U.
  rewrite (fetch_upfs_ok x sp (length sp) steps eq_refl atoms NE steps_ok) in U. apply Ok_inj' in U. subst u. auto.
Qed.
Lemma numbered_steps {A} (l : list A) : steps_dict l (numbered l).
Proof.
  unfold steps_dict. split; [unfold numbered; rewrite combine_length, seq_length, map_length; lia|]. induction l as [|y l IH] using rev_ind; intros i v H; [destruct i; discriminate|].
  rewrite numbered_snoc. destruct (Nat.eq_dec i (length l)) as [->|D].
  - rewrite nth_error_app2, Nat.sub_diag in H by lia. injection H as ->. assert (length (numbered l) = length l) as E by (unfold numbered; rewrite combine_length, seq_length, map_length; lia). rewrite nth_error_app2 by lia. rewrite E, Nat.sub_diag. auto.
  - rewrite nth_error_app1 in H by (apply nth_error_Some_lt in H; rewrite app_length in H; cbn in H; lia). specialize (IH _ _ H). rewrite nth_error_app1; auto. apply nth_error_Some_lt in IH. auto.
Qed.
Lemma step_dict_more w l : 2 <= length l -> ~ (w = 1 /\ length l = 2) -> step_dict w l = numbered l.
Proof. intros L N. destruct l as [|a [|b [|c l]]]; cbn in L; try lia; auto. unfold step_dict. destruct (Nat.eqb_spec w 1); auto. exfalso. auto. Qed.
(** All ionic steps, in order, for every number of steps and atoms but one *)
Theorem C54_vasprun_all_steps : forall x kbb p sp steps, steps_run x kbb p sp steps -> 2 <= length steps -> ~ (length sp = 1 /\ length steps = 2) ->
  exists c q f s, get_unitcell p (lit "all") = Ok (AllSteps c) /\ get_positions p (lit "all") = Ok (AllSteps q) /\ get_forces p (lit "all") = Ok (AllSteps f) /\ get_stress p (lit "all") = Ok (AllSteps s) /\
    steps_dict (map st_cell steps) c /\ steps_dict (map st_pos steps) q /\ steps_dict (map st_force steps) f /\ steps_dict (map st_stress steps) s.
Proof.
  intros x kbb p sp steps H L N. destruct (c54_data _ _ _ _ _ H) as (C & P & F & S); [intros ->; cbn in L; lia|]. unfold get_unitcell, get_positions, get_forces, get_stress. rewrite C, P, F, S.
  rewrite !step_dict_more by (rewrite map_length; auto; lia). do 4 eexists. do 4 (split; [reflexivity|]). repeat split; intros; try (unfold numbered; rewrite combine_length, seq_length, map_length; lia); apply numbered_steps; auto.
Qed.
Lemma initial_dict w l m : hd_error l = Some m -> ndget 1 (step_dict w l) = Some (Some m).
Proof.
  intros H. destruct l as [|a l]; [discriminate|]. injection H as ->. assert (ndget 1 (numbered (m :: l)) = Some (Some m)) as E by (apply (ndget_numbered (m :: l) 0 m); auto).
  destruct l as [|b [|c l]]; cbn [step_dict]; auto. destruct (Nat.eqb w 1); auto.
Qed.
Lemma get_initial w l m : hd_error l = Some m -> get_steps (Some (step_dict w l)) (lit "initial") = Ok (StepValue (Some m)).
Proof. intros H. unfold get_steps. change (check_status (lit "initial")) with (Ok tt). cbn [bind]. change (seqb (lit "initial") (lit "initial")) with true. cbn iota. rewrite (initial_dict w l m H). auto. Qed.
(** 'initial' is the first ionic step *)
Theorem C54_vasprun_initial_step : forall x kbb p sp steps s0, steps_run x kbb p sp steps -> nth_error steps 0 = Some s0 ->
  get_unitcell p (lit "initial") = Ok (StepValue (Some (st_cell s0))) /\ get_positions p (lit "initial") = Ok (StepValue (Some (st_pos s0))) /\
  get_forces p (lit "initial") = Ok (StepValue (Some (st_force s0))) /\ get_stress p (lit "initial") = Ok (StepValue (Some (st_stress s0))).
Proof.
  intros x kbb p sp steps s0 R H. destruct (c54_data _ _ _ _ _ R) as (C & P & F & S); [intros ->; discriminate|]. unfold get_unitcell, get_positions, get_forces, get_stress. rewrite C, P, F, S. destruct steps as [|s ss]; [discriminate|]. injection H as ->.
  repeat split; apply get_initial; auto.
Qed.
Lemma get_last w l pre m : l = pre ++ [m] -> ~ (w = 1 /\ length l = 2) -> get_steps (Some (step_dict w l)) (lit "last") = Ok (StepValue (Some m)).
Proof.
  intros E N. unfold get_steps. change (check_status (lit "last")) with (Ok tt). cbn [bind]. change (seqb (lit "last") (lit "initial")) with false. change (seqb (lit "last") (lit "last")) with true. cbn iota.
  destruct (Nat.leb_spec 2 (length l)) as [L|L].
  - rewrite step_dict_more by auto. rewrite max_numbered by (intros Z; rewrite Z in L; cbn in L; lia). cbn [of_option bind]. rewrite E, app_length. cbn [length]. rewrite Nat.add_1_r.
    rewrite (ndget_numbered _ (length pre) m) by (rewrite nth_error_app2, Nat.sub_diag by lia; auto). auto.
  - destruct pre as [|b pre]; [|rewrite E in L; cbn in L; rewrite app_length in L; cbn in L; lia]. rewrite E. cbn. auto.
Qed.
(** 'last' is the last ionic step, with the same exception *)
Theorem C54_vasprun_last_step : forall x kbb p sp steps pre s1, steps_run x kbb p sp steps -> steps = pre ++ [s1] -> ~ (length sp = 1 /\ length steps = 2) ->
  get_unitcell p (lit "last") = Ok (StepValue (Some (st_cell s1))) /\ get_positions p (lit "last") = Ok (StepValue (Some (st_pos s1))) /\
  get_forces p (lit "last") = Ok (StepValue (Some (st_force s1))) /\ get_stress p (lit "last") = Ok (StepValue (Some (st_stress s1))).
Proof.
  intros x kbb p sp steps pre s1 R E N. destruct (c54_data _ _ _ _ _ R) as (C & P & F & S); [intros ->; destruct pre; discriminate|]. unfold get_unitcell, get_positions, get_forces, get_stress. rewrite C, P, F, S.
  repeat split; (eapply get_last; [rewrite E, map_app; reflexivity|rewrite map_length; first [exact N|intros [D _]; discriminate]]).
Qed.
(** The exception: one atom and two steps.  'last' is then the first step *)
Theorem C68_vasprun_one_atom_two_steps_refuted : forall x kbb p sp steps s0 s1, steps_run x kbb p sp steps -> steps = [s0; s1] -> length sp = 1 ->
  get_unitcell p (lit "last") = Ok (StepValue (Some (st_cell s1))) /\ get_positions p (lit "last") = Ok (StepValue (Some (st_pos s0))) /\
  get_forces p (lit "last") = Ok (StepValue (Some (st_force s0))) /\ get_stress p (lit "last") = Ok (StepValue (Some (st_stress s1))).
Proof.
  intros x kbb p sp steps s0 s1 R E L. destruct (c54_data _ _ _ _ _ R) as (C & P & F & S); [intros Z; rewrite Z in E; discriminate|]. unfold get_unitcell, get_positions, get_forces, get_stress. rewrite C, P, F, S, E, L. cbn. auto.
Qed.
(** With one step 'all' has two entries *)
Theorem C68_vasprun_single_step_twice_refuted : forall x kbb p sp steps s0, steps_run x kbb p sp steps -> steps = [s0] -> get_positions p (lit "all") = Ok (AllSteps [(1, Some (st_pos s0)); (2, Some (st_pos s0))]).
Proof. intros x kbb p sp steps s0 R E. destruct (c54_data _ _ _ _ _ R) as (_ & P & _); [intros Z; rewrite Z in E; discriminate|]. unfold get_positions. rewrite P, E. auto. Qed.
(** Any other status is refused as soon as there are data; without data the answer is None *)
Theorem C54_vasprun_status : forall A (d : option (ndict A)) status,
  (d = None -> get_steps d status = Ok NoData) /\
  (d <> None -> ~ In status [lit "initial"; lit "last"; lit "all"] -> get_steps d status = Exn (SysExit 507)).
Proof.
  intros A d status. split; [intros ->; auto|]. intros D N. destruct d as [d|]; [|congruence]. unfold get_steps, check_status.
  destruct (smem status _) eqn:E; auto. exfalso. apply N. unfold smem in E. apply existsb_exists in E as [t [I T]]. apply seqb_eq in T. subst t. auto.
Qed.

(** Without extract_all: the structures initialpos and finalpos of the document, and the forces
    and stresses of the first and of the last calculation *)
Definition two_structures (x : xml) (n : nat) (c1 c2 q1 q2 : matrix) : Prop :=
  let at_ (s : string) (path : list pstep) := findall_deep (TagAt "structure" "name" s :: path) x in
  let cell := [Tag "crystal"; TagAt "varray" "name" "basis"; Tag "v"] in
  let pos := [TagAt "varray" "name" "positions"; Tag "v"] in
  rows_hold 3 (at_ "initialpos"%string cell) c1 /\ rows_hold 3 (at_ "finalpos"%string cell) c2 /\
  rows_hold n (at_ "initialpos"%string pos) q1 /\ rows_hold n (at_ "finalpos"%string pos) q2.
Definition forces_hold (n : nat) (c : xml) (fs : matrix * matrix) : Prop :=
  rows_hold n (findall_child (varray_path "forces") c) (fst fs) /\ rows_hold 3 (findall_child (varray_path "stress") c) (snd fs).
Lemma rows_some n es m : 0 < n -> rows_hold n es m -> opt_map_res (convert2D 3) (some_list es) = Ok (Some m).
Proof.
  intros N [F [L R]]. rewrite some_list_some by (intros ->; apply F2_len in F; cbn in F; lia). cbn [opt_map_res]. rewrite (convert2D_holds 3 es m F R). auto.
Qed.
Theorem C54_vasprun_without_extract_all : forall x kbb p sp c1 c2 q1 q2 pre f1 fs, parsew x kbb false = Ok p -> p_species p = Some sp -> 0 < length sp ->
  two_structures x (length sp) c1 c2 q1 q2 -> Forall2 (forces_hold (length sp)) (calculations x) (f1 :: fs) -> forall fn, f1 :: fs = pre ++ [fn] ->
  get_unitcell p (lit "initial") = Ok (StepValue (Some c1)) /\ get_unitcell p (lit "last") = Ok (StepValue (Some c2)) /\
  get_positions p (lit "initial") = Ok (StepValue (Some q1)) /\ get_positions p (lit "last") = Ok (StepValue (Some q2)) /\
  get_forces p (lit "initial") = Ok (StepValue (Some (fst f1))) /\ get_forces p (lit "last") = Ok (StepValue (Some (fst fn))) /\
  get_stress p (lit "initial") = Ok (StepValue (Some (snd f1))) /\ get_stress p (lit "last") = Ok (StepValue (Some (snd fn))).
Proof.
  intros x kbb p sp c1 c2 q1 q2 pre f1 fs H S A T F fn E. destruct (tr_upfs _ _ _ _ (parsew_run _ _ _ _ H)) as (u & U & C & P & Fo & St). rewrite S in U.
  unfold fetch_upfs in U. cbv zeta in U. cbn [negb] in U. rewrite !findall_calc in U. change [vrr "forces"; Tag "v"] with (varray_path "forces") in U. change [vrr "stress"; Tag "v"] with (varray_path "stress") in U.
  destruct T as (T1 & T2 & T3 & T4).
  assert (entries_hold (length sp) (flat_map (findall_child (varray_path "forces")) (calculations x)) (map fst (f1 :: fs))) as EF by (apply entries_flat, Forall2_map_r; eapply Forall2_impl; [|exact F]; unfold forces_hold, rows_hold; tauto).
  assert (entries_hold 3 (flat_map (findall_child (varray_path "stress")) (calculations x)) (map snd (f1 :: fs))) as ES by (apply entries_flat, Forall2_map_r; eapply Forall2_impl; [|exact F]; unfold forces_hold, rows_hold; tauto).
  cbn [app] in U.
  unfold findall, vrr in U.
  rewrite (rows_some 3 _ _ ltac:(lia) T2), (rows_some 3 _ _ ltac:(lia) T1), (rows_some _ _ _ A T4), (rows_some _ _ _ A T3) in U. cbn [bind] in U.
  pose proof (entries_length _ _ _ EF) as LF. pose proof (entries_length _ _ _ ES) as LS. rewrite !map_length in LF, LS. cbn [length] in LF, LS.
  rewrite !some_list_some in U by (intros Z; rewrite Z in *; cbn [length] in *; nia).
  rewrite (entries_first _ _ _ _ ES), (entries_first _ _ _ _ EF) in U. cbn [bind map] in U.
  assert (convert2D 3 (lastn 3 (flat_map (findall_child (varray_path "stress")) (calculations x))) = Ok (snd fn)) as L1 by (eapply entries_last; [lia|]; rewrite E, map_app in ES; exact ES).
  assert (convert2D 3 (lastn (length sp) (flat_map (findall_child (varray_path "forces")) (calculations x))) = Ok (fst fn)) as L2 by (eapply entries_last; [lia|]; rewrite E, map_app in EF; exact EF).
  rewrite L1, L2 in U. cbn [bind] in U. apply Ok_inj' in U. subst u. unfold get_unitcell, get_positions, get_forces, get_stress. rewrite C, P, Fo, St. cbn. repeat split; auto.
Qed.

(** ** C56: layout of eigenvalues, occupancies, velocities and projectors *)
(** the row elements of one spin, in document order *)
Definition spin_path (path : list pstep) (spin : string) : list pstep := Tag "calculation" :: path ++ [Tag "array"; Tag "set"; TagAt "set" "comment" spin; Tag "set"; Tag "r"].
(** {'total': ...} if there is no second spin, else {'up': ..., 'down': ...} *)
Definition for_spins {A} (P : matrix -> A -> Prop) (rows1 rows2 : matrix) (d : spins A) : Prop :=
  match d with Total a => rows2 = [] /\ P rows1 a | UpDown a b => rows2 <> [] /\ P rows1 a /\ P rows2 b end.
Lemma spins_pair {A} (P : matrix -> A -> Prop) (f : matrix -> A) rs1 rs2 : P rs1 (f rs1) -> (rs2 <> [] -> P rs2 (f rs2)) ->
  for_spins P rs1 rs2 (pair_of (f rs1) (option_map f (some_list rs2))).
Proof. intros H1 H2. destruct rs2 as [|r rs2]; cbn; split; auto; try discriminate. split; auto. apply H2. discriminate. Qed.
Lemma second_ok (n : nat) es rs (Q : matrix -> Prop) : Forall2 holds es rs -> (es <> [] -> Q rs) ->
  match some_list es, some_list rs with None, None => True | Some s2, Some rs2 => Forall2 holds s2 rs2 /\ Q rs2 | _, _ => False end.
Proof. intros F H. destruct F as [|e r es rs Hd F]; cbn; auto. split; [constructor; auto|apply H; discriminate]. Qed.
Lemma second_count es nb nk rs b : Forall2 holds es rs -> nb = Z.of_nat b -> wrong_count (length es) nb nk = false -> length rs = nk * b.
Proof. intros F -> W. rewrite <- (F2_len F). unfold wrong_count in W. apply negb_false_iff in W. apply Z.eqb_eq in W. nia. Qed.
Lemma count_of_success {A} (o : option Z) nb n k (c : Z -> res A) v : (match o with None => Exn (SysExit 502) | Some _ => match nb with None => Exn (SysExit 503) | Some nb => if wrong_count n nb k then Exn (SysExit 505) else c nb end end) = Ok v ->
  exists i b, o = Some i /\ nb = Some b /\ wrong_count n b k = false.
Proof. intros H. destruct o as [i|]; [|discriminate]. destruct nb as [b|]; [|discriminate]. destruct (wrong_count n b k) eqn:W; [discriminate|]. eauto. Qed.
Theorem C56_vasprun_eigenvalues : forall x kbb all p m rs1 rs2, parsew x kbb all = Ok p ->
  let rows (spin : string) := findall_deep (spin_path [Tag "eigenvalues"] spin) x in
  Forall2 holds (rows "spin 1"%string) rs1 -> Forall2 holds (rows "spin 2"%string) rs2 -> rs1 <> [] -> 1 <= m -> (forall r, In r (rs1 ++ rs2) -> length r = m) ->
  exists kp nb d, p_kpoints p = Some kp /\ p_nbands p = Some (Z.of_nat nb) /\ length rs1 = length kp * nb /\ (rs2 <> [] -> length rs2 = length kp * nb) /\
    p_eigenvalues p = Some d /\ for_spins (fun rs e => by_band kbb nb (length kp) (fun i v => cell_at rs i 0 v) e) rs1 rs2 d /\
    (m = 1 -> p_occupancies p = None) /\
    (2 <= m -> exists o, p_occupancies p = Some o /\ for_spins (fun rs e => by_band kbb nb (length kp) (fun i v => cell_at rs i 1 v) e) rs1 rs2 o).
Proof.
  intros x kbb all p m rs1 rs2 H rows F1 F2 NE M R. pose proof (tr_eigenvalues _ _ _ _ (parsew_run _ _ _ _ H)) as E. unfold fetch_eigenvalues, spin_rows, findall in E.
  change (Tag "calculation" :: [Tag "eigenvalues"] ++ [Tag "array"; Tag "set"; spin_set "spin 1"; Tag "set"; Tag "r"]) with (spin_path [Tag "eigenvalues"] "spin 1") in E.
  change (Tag "calculation" :: [Tag "eigenvalues"] ++ [Tag "array"; Tag "set"; spin_set "spin 2"; Tag "set"; Tag "r"]) with (spin_path [Tag "eigenvalues"] "spin 2") in E.
  fold (rows "spin 1"%string) in E. fold (rows "spin 2"%string) in E.
  rewrite (some_list_some (rows "spin 1"%string)) in E by (intros Z; rewrite Z in F1; inversion F1; congruence).
  destruct (p_kpoints p) as [kp|]; [|discriminate]. cbn [olen bind] in E. apply bind_ok in E as [[e o] [X E]]. apply Ok_inj' in E. symmetry in E. pose proof (f_equal fst E) as E1. pose proof (f_equal snd E) as E2. cbn [fst snd] in E1, E2. clear E.
  pose proof X as X'. unfold extract_eigenvalues in X'. apply count_of_success in X' as (i & nb & I & NB & W). rewrite I, NB in X.
  assert (0 < length (rows "spin 1"%string)) as P1 by (rewrite (F2_len F1); destruct rs1; [congruence|cbn; lia]).
  destruct (wrong_count_ok _ _ _ P1 W) as (b & -> & L1 & K & B). rewrite (F2_len F1) in L1.
  assert (rs2 <> [] -> length rs2 = length kp * b) as L2.
  { intros NE2. unfold extract_eigenvalues in X. rewrite W in X. apply bind_ok in X as [e0 [_ X]]. apply bind_ok in X as [t0 [_ X]]. apply bind_ok in X as [a [_ X]].
    rewrite (some_list_some (rows "spin 2"%string)) in X by (intros Z; rewrite Z in F2; inversion F2; congruence).
    destruct (wrong_count (length (rows "spin 2"%string)) (Z.of_nat b) (length kp)) eqn:W2; [discriminate|]. eapply second_count; eauto. }
  assert (rect rs1 m) as R1 by (intros r I1; apply R, in_or_app; auto). assert (rect rs2 m) as R2 by (intros r I1; apply R, in_or_app; auto).
  rewrite (extract_eigenvalues_ok kbb i b (length kp) m _ rs1 _ (some_list rs2) K B M F1 R1 L1) in X.
  2:{ apply (second_ok 0 _ _ (fun rs => rect rs m /\ length rs = length kp * b) F2). intros NE2. split; auto. apply L2. intros ->. inversion F2; congruence. }
  apply Ok_inj' in X. symmetry in X. pose proof (f_equal fst X) as X1. pose proof (f_equal snd X) as X2. cbn [fst snd] in X1, X2. rewrite X1 in E1. rewrite X2 in E2. clear X1 X2. exists kp, b. eexists. split; [auto|]. split; [auto|]. split; [auto|]. split; [auto|].
  assert (forall c rs, c < m -> rect rs m -> length rs = length kp * b -> by_band kbb b (length kp) (fun i v => cell_at rs i c v) (rows_of kbb b (length kp) (pick rs c))) as BB.
  { intros c rs C Rr Lr. apply rows_of_by_band. intros j J. eapply pick_cell; eauto. lia. }
  split; [exact E1|]. split; [|split].
  - apply (spins_pair _ (fun rs => rows_of kbb b (length kp) (pick rs 0))); auto.
  - intros ->. exact E2.
  - intros M2. rewrite E2. destruct (Nat.ltb_spec 1 m); [|lia]. eexists. split; [reflexivity|]. apply (spins_pair _ (fun rs => rows_of kbb b (length kp) (pick rs 1))); auto.
Qed.
Theorem C56_vasprun_projectors : forall x kbb all p rs1 rs2, parsew x kbb all = Ok p ->
  let rows (spin : string) := findall_deep [Tag "calculation"; Tag "projected"; Tag "array"; Tag "set"; TagAt "set" "comment" spin; Tag "set"; Tag "set"; Tag "r"] x in
  Forall2 holds (rows "spin1"%string) rs1 -> Forall2 holds (rows "spin2"%string) rs2 -> rs1 <> [] -> (forall r, In r (rs1 ++ rs2) -> length r = 9) ->
  exists kp nb sp d, p_kpoints p = Some kp /\ p_nbands p = Some (Z.of_nat nb) /\ p_species p = Some sp /\ length rs1 = length kp * nb * length sp /\
    p_projectors p = Some d /\ for_spins (fun rs m => by_ion_band kbb (length sp) nb (length kp) (fun i v => nth_error rs i = Some v) m) rs1 rs2 d.
Proof.
  intros x kbb all p rs1 rs2 H rows F1 F2 NE R. pose proof (tr_projectors _ _ _ _ (parsew_run _ _ _ _ H)) as E. unfold fetch_projectors, projector_rows, findall in E.
  unfold spin_set in E. fold (rows "spin1"%string) in E. fold (rows "spin2"%string) in E.
  rewrite (some_list_some (rows "spin1"%string)) in E by (intros Z; rewrite Z in F1; inversion F1; congruence). apply bind_ok in E as [d [X E]]. apply Ok_inj' in E.
  pose proof X as X'. unfold extract_projectors in X'. destruct (p_kpoints p) as [kp|]; [|discriminate]. destruct (p_ispin p) as [i|]; [|discriminate]. destruct (p_nbands p) as [nb|]; [|discriminate]. destruct (p_species p) as [sp|]; [|discriminate].
  apply bind_ok in X' as [a [A X']]. destruct (negb _) eqn:W in A; [discriminate|]. apply negb_false_iff, Z.eqb_eq in W. clear A.
  assert (0 < length (rows "spin1"%string)) as P1 by (rewrite (F2_len F1); destruct rs1; [congruence|cbn; lia]).
  assert (exists b, nb = Z.of_nat b /\ length rs1 = length kp * b * length sp /\ 0 < length kp /\ 0 < b /\ 0 < length sp) as (b & -> & L1 & K & B & S).
  { exists (Z.to_nat nb). assert (0 < nb)%Z as NB by nia. rewrite Z2Nat.id by lia. split; auto. rewrite <- (F2_len F1).
    assert (Z.of_nat (length (rows "spin1"%string)) = Z.of_nat (length kp * Z.to_nat nb * length sp)) as Q by (rewrite !Nat2Z.inj_mul, Z2Nat.id by lia; nia). apply Nat2Z.inj in Q. repeat split; nia. }
  assert (rs2 <> [] -> length rs2 = length kp * b * length sp) as L2.
  { intros NE2. rewrite (some_list_some (rows "spin2"%string)) in X' by (intros Z; rewrite Z in F2; inversion F2; congruence). apply bind_ok in X' as [q [Q X']]. apply bind_ok in Q as [a2 [A2 _]].
    destruct (negb _) eqn:W2 in A2; [discriminate|]. apply negb_false_iff, Z.eqb_eq in W2. rewrite (F2_len F2) in W2. nia. }
  assert (rect rs1 9) as R1 by (intros r I1; apply R, in_or_app; auto). assert (rect rs2 9) as R2 by (intros r I1; apply R, in_or_app; auto).
  rewrite (extract_projectors_ok kbb kp i b (length sp) sp (length kp) _ rs1 _ (some_list rs2) eq_refl eq_refl K B S F1 R1 L1) in X.
  2:{ apply (second_ok 0 _ _ (fun rs => rect rs 9 /\ length rs = length kp * b * length sp) F2). intros NE2. split; auto. apply L2. intros ->. inversion F2; congruence. }
  apply Ok_inj' in X. subst d. exists kp, b, sp. eexists. do 4 (split; [auto|]). split; [symmetry; exact E|].
  apply (spins_pair _ (ions_of kbb (length sp) b (length kp))); [apply ions_by; auto|intros; apply ions_by; auto].
Qed.
(** The band velocities: each row of the file is one entry of length four *)
Theorem C56_vasprun_velocities : forall x kbb all p rs1 rs2, parsew x kbb all = Ok p ->
  let rows (spin : string) := findall_deep (spin_path [Tag "eigenvelocities"; Tag "eigenvalues"] spin) x in
  Forall2 holds (rows "spin 1"%string) rs1 -> Forall2 holds (rows "spin 2"%string) rs2 -> rs1 <> [] -> (forall r, In r (rs1 ++ rs2) -> length r = 4) ->
  exists kp nb d, p_kpoints_specific p = Some kp /\ p_nbands p = Some (Z.of_nat nb) /\ length rs1 = length kp * nb /\
    p_velocities p = Some d /\ for_spins (fun rs m => by_band kbb nb (length kp) (fun i v => nth_error rs i = Some v) m) rs1 rs2 d.
Proof.
  intros x kbb all p rs1 rs2 H rows F1 F2 NE R. destruct (tr_specific _ _ _ _ (parsew_run _ _ _ _ H)) as (spec & vel & _ & E & _ & V & KP & _). unfold fetch_eigenvelocities, spin_rows, findall in E.
  change (Tag "calculation" :: [Tag "eigenvelocities"; Tag "eigenvalues"] ++ [Tag "array"; Tag "set"; spin_set "spin 1"; Tag "set"; Tag "r"]) with (spin_path [Tag "eigenvelocities"; Tag "eigenvalues"] "spin 1") in E.
  change (Tag "calculation" :: [Tag "eigenvelocities"; Tag "eigenvalues"] ++ [Tag "array"; Tag "set"; spin_set "spin 2"; Tag "set"; Tag "r"]) with (spin_path [Tag "eigenvelocities"; Tag "eigenvalues"] "spin 2") in E.
  fold (rows "spin 1"%string) in E. fold (rows "spin 2"%string) in E.
  rewrite (some_list_some (rows "spin 1"%string)) in E by (intros Z; rewrite Z in F1; inversion F1; congruence).
  apply bind_ok in E as [kpo [KP0 E]]. apply bind_ok in E as [w [_ E]]. destruct kpo as [kp|]; [|discriminate]. cbn [olen bind] in E. apply bind_ok in E as [d [X E]]. apply Ok_inj' in E. subst vel. cbn [option_map fst snd] in *.
  pose proof X as X'. unfold extract_eigenvelocities in X'. destruct (p_ispin p) as [i|]; [|discriminate]. destruct (p_nbands p) as [nb|]; [|discriminate]. apply bind_ok in X' as [a [A X']].
  destruct (wrong_count (length (rows "spin 1"%string)) nb (length kp)) eqn:W; [discriminate|].
  assert (0 < length (rows "spin 1"%string)) as P1 by (rewrite (F2_len F1); destruct rs1; [congruence|cbn; lia]).
  destruct (wrong_count_ok _ _ _ P1 W) as (b & -> & L1 & K & B). rewrite (F2_len F1) in L1.
  assert (rs2 <> [] -> length rs2 = length kp * b) as L2.
  { intros NE2. rewrite (some_list_some (rows "spin 2"%string)) in X' by (intros Z; rewrite Z in F2; inversion F2; congruence). apply bind_ok in X' as [q [Q X']].
    destruct (wrong_count (length (rows "spin 2"%string)) (Z.of_nat b) (length kp)) eqn:W2; [discriminate|]. eapply second_count; eauto. }
  assert (rect rs1 4) as R1 by (intros r I1; apply R, in_or_app; auto). assert (rect rs2 4) as R2 by (intros r I1; apply R, in_or_app; auto).
  rewrite (extract_eigenvelocities_ok kbb i b (length kp) _ rs1 _ (some_list rs2) K B F1 R1 L1) in X.
  2:{ apply (second_ok 0 _ _ (fun rs => rect rs 4 /\ length rs = length kp * b) F2). intros NE2. split; auto. apply L2. intros ->. inversion F2; congruence. }
  apply Ok_inj' in X. subst d. exists kp, b. eexists. split; [exact KP|]. split; [auto|]. split; [auto|]. split; [exact V|].
  assert (forall rs, length rs = length kp * b -> by_band kbb b (length kp) (fun i v => nth_error rs i = Some v) (rows_of kbb b (length kp) (pickr rs))) as BB.
  { intros rs L. apply rows_of_by_band. intros j J. unfold pickr. apply nth_error_nth'. lia. }
  apply (spins_pair _ (fun rs => rows_of kbb b (length kp) (pickr rs))); auto.
Qed.
(** What is refused, in the order of the checks *)
Theorem C56_vasprun_eigenvalue_checks : forall x kbb ispin nbands kpoints,
  findall_deep (spin_path [Tag "eigenvalues"] "spin 1") x <> [] ->
  (kpoints = None -> fetch_eigenvalues x kbb ispin nbands kpoints = Exn TypeError) /\
  (forall kp, kpoints = Some kp -> ispin = None -> fetch_eigenvalues x kbb ispin nbands kpoints = Exn (SysExit 502)) /\
  (forall kp i, kpoints = Some kp -> ispin = Some i -> nbands = None -> fetch_eigenvalues x kbb ispin nbands kpoints = Exn (SysExit 503)) /\
  (forall kp i nb, kpoints = Some kp -> ispin = Some i -> nbands = Some nb ->
     Z.of_nat (length (findall_deep (spin_path [Tag "eigenvalues"] "spin 1") x)) <> (nb * Z.of_nat (length kp))%Z -> fetch_eigenvalues x kbb ispin nbands kpoints = Exn (SysExit 505)).
Proof.
  intros x kbb ispin nbands kpoints NE. unfold fetch_eigenvalues, spin_rows, findall.
  change (Tag "calculation" :: [Tag "eigenvalues"] ++ [Tag "array"; Tag "set"; spin_set "spin 1"; Tag "set"; Tag "r"]) with (spin_path [Tag "eigenvalues"] "spin 1").
  rewrite some_list_some by auto. repeat split; intros; subst; auto. cbn [olen bind]. unfold extract_eigenvalues, wrong_count. destruct (Z.eqb_spec (Z.of_nat (length (findall_deep (spin_path [Tag "eigenvalues"] "spin 1") x))) (nb * Z.of_nat (length kp))); [congruence|]. auto.
Qed.
Theorem C56_vasprun_projector_checks : forall x kbb ispin nbands kpoints species,
  let rows := findall_deep [Tag "calculation"; Tag "projected"; Tag "array"; Tag "set"; TagAt "set" "comment" "spin1"; Tag "set"; Tag "set"; Tag "r"] x in
  rows <> [] ->
  (kpoints = None -> fetch_projectors x kbb kpoints ispin nbands species = Exn (SysExit 504)) /\
  (forall kp, kpoints = Some kp -> ispin = None -> fetch_projectors x kbb kpoints ispin nbands species = Exn (SysExit 502)) /\
  (forall kp i, kpoints = Some kp -> ispin = Some i -> nbands = None \/ species = None -> fetch_projectors x kbb kpoints ispin nbands species = Exn (SysExit 503)) /\
  (forall kp i nb sp, kpoints = Some kp -> ispin = Some i -> nbands = Some nb -> species = Some sp ->
     Z.of_nat (length rows) <> (nb * Z.of_nat (length kp) * Z.of_nat (length sp))%Z -> fetch_projectors x kbb kpoints ispin nbands species = Exn (SysExit 505)).
Proof.
  intros x kbb ispin nbands kpoints species rows NE. unfold fetch_projectors, projector_rows, findall, spin_set. fold rows. rewrite some_list_some by auto.
  repeat split; intros; subst; auto.
  - destruct H1 as [->| ->]; auto. destruct nbands; auto.
  - cbn [bind]. unfold extract_projectors. destruct (Z.eqb_spec (Z.of_nat (length rows)) (nb * Z.of_nat (length kp) * Z.of_nat (length sp))); [congruence|]. auto.
Qed.
