(** Properties C78 and C79: vibrational data and Born charges, get_lattice and get_dict. *)
From Coq Require Import Ascii String List NArith ZArith Bool Lia.
From Verif Require Import PyBase PyStrLemmas PyNum UtilsModel LineModel KpointsCodes OutcarModel DoscarProofs StreamConfig ChgcarModel ChgcarSpec ChgcarProofs VasprunTypes VasprunXml VasprunModel VasprunEvents VasprunSpec VasprunTables VasprunTree VasprunSteps VasprunEnergies VasprunAccess Props_Vasprun Props_VasprunSample Props_VasprunData.
Import ListNotations.
Local Open Scope list_scope.

(** ** C78: hessian, dynamical matrix, Born charges *)
Definition dynmat_path (s : pstep) : list pstep := [Tag "calculation"; Tag "dynmat"; s].
Theorem C78_vasprun_hessian : forall x kbb all p sp rows, parsew x kbb all = Ok p -> get_species p = Some sp ->
  Forall2 holds (findall_deep [Tag "calculation"; Tag "dynmat"; TagAt "varray" "name" "hessian"; Tag "v"] x) rows -> (forall r, In r rows -> length r = 3 * length sp) -> get_hessian p = some_list rows.
Proof.
  intros x kbb all p sp rows H S F R. apply parsew_run in H. pose proof (tr_hessian _ _ _ _ H) as E. unfold get_species in S. rewrite S in E. unfold fetch_hessian, findall, vrr in E. unfold get_hessian.
  destruct rows as [|r rows]; [rewrite (F2_nil F) in E; apply Ok_inj' in E; auto|]. rewrite some_list_some in E by (intros Z; rewrite Z in F; inversion F). rewrite (convert2D_holds (length sp * 3) _ _ F) in E by (intros q Q; rewrite (R q Q); lia). apply Ok_inj' in E. auto.
Qed.
(** eigenvalues and eigenvectors; without eigenvectors the eigenvalues are not returned either *)
Theorem C78_vasprun_dynmat : forall x kbb all p sp e rest xs, parsew x kbb all = Ok p -> get_species p = Some sp ->
  findall_deep (dynmat_path (TagAt "v" "name" "eigenvalues")) x = e :: rest -> holds e xs ->
  (forall m rest' rows, findall_deep (dynmat_path (TagAt "varray" "name" "eigenvectors")) x = m :: rest' -> Forall2 holds (kids m) rows -> (forall r, In r rows -> length r = 3 * length sp) -> get_dynmat p = Some (Dynm (Some xs) (Some rows))) /\
  (findall_deep (dynmat_path (TagAt "varray" "name" "eigenvectors")) x = [] -> get_dynmat p = None).
Proof.
  intros x kbb all p sp e rest xs H S F E. apply parsew_run in H. pose proof (tr_dynmat _ _ _ _ H) as D. unfold get_species in S. rewrite S in D. unfold fetch_dynmat, find, vrr in D. unfold dynmat_path in *. rewrite F in D. cbn [hd_error] in D. unfold convert_array_f in D. rewrite (numbers_holds _ _ E) in D. cbn [bind] in D. unfold get_dynmat. split.
  - intros m rest' rows M K R. rewrite M in D. cbn [hd_error] in D. rewrite (convert2D_holds (length sp * 3) _ _ K) in D by (intros q Q; rewrite (R q Q); lia). apply Ok_inj' in D. auto.
  - intros M. rewrite M in D. apply Ok_inj' in D. auto.
Qed.
(** Born charges: [a] has one table per ion *)
Definition born_path : list pstep := [Tag "calculation"; TagAt "array" "name" "born_charges"; Tag "set"; Tag "v"].
Definition tensors_are (n h : nat) (rows : matrix) (a : list matrix) : Prop := shape3 a n h 3 /\ forall ion i j, ion < n -> i < h -> j < 3 -> exists v, at3 a ion i j v /\ cell_at rows (ion * h + i) j v.
Lemma born_ok x kbb all p sp rows h : parsew x kbb all = Ok p -> get_species p = Some sp -> Forall2 holds (findall_deep born_path x) rows -> (forall r, In r rows -> length r = 3) -> rows <> [] ->
  length rows = length sp * h -> exists a, get_born p = BornArray a /\ tensors_are (length sp) h rows a.
Proof.
  intros H S F R NE L. apply parsew_run in H. unfold get_species in S. pose proof (tr_species _ _ _ _ H) as SP. rewrite S in SP. apply species_some in SP. pose proof (tr_born _ _ _ _ H) as E. rewrite S in E. unfold fetch_born, findall in E. fold born_path in E.
  rewrite some_list_some in E by (intros Z; rewrite Z in F; inversion F; congruence). rewrite (convert2D_holds 3 _ _ F R) in E. cbn [bind] in E. rewrite (list_tab [] rows) in E at 1. rewrite L, split_even_tab in E by auto. cbn [bind] in E. apply Ok_inj' in E.
  eexists. split; [symmetry; exact E|]. split.
  - split; [apply tab_length|]. intros q Q. apply tab_In in Q as (i & I & ->). split; [apply tab_length|]. intros r T. apply tab_In in T as (j & J & ->). apply (nth_rect rows 3); auto. nia.
  - intros ion i j I1 I2 J. assert (ion * h + i < length rows) as B by nia. pose proof (nth_rect rows 3 (ion * h + i) R B) as W. exists (nth j (nth (ion * h + i) rows []) fzero).
    assert (nth_error (nth (ion * h + i) rows []) j = Some (nth j (nth (ion * h + i) rows []) fzero)) as Q by (apply nth_error_nth'; lia). split.
    + unfold at3, at2, cell_at. rewrite tab_nth by auto. eexists. split; [reflexivity|]. rewrite tab_nth by auto. eexists. split; [reflexivity|exact Q].
    + eexists. split; [apply nth_error_nth'; auto|exact Q].
Qed.
Theorem C78_vasprun_born : forall x kbb all p sp rows, parsew x kbb all = Ok p -> get_species p = Some sp -> Forall2 holds (findall_deep born_path x) rows -> (forall r, In r rows -> length r = 3) -> rows <> [] ->
  length rows = length sp * 3 -> exists a, get_born p = BornArray a /\ tensors_are (length sp) 3 rows a.
Proof. intros. eapply born_ok; eauto. Qed.
(** With Born charges in two ionic steps the 'tensor' of an ion has six rows: those of two ions
    of one step *)
Theorem C78_vasprun_born_twice_refuted : forall x kbb all p sp rows1 rows2, parsew x kbb all = Ok p -> get_species p = Some sp -> Forall2 holds (findall_deep born_path x) (rows1 ++ rows2) -> (forall r, In r (rows1 ++ rows2) -> length r = 3) ->
  length rows1 = length sp * 3 -> length rows2 = length sp * 3 -> 2 <= length sp ->
  exists a, get_born p = BornArray a /\ shape3 a (length sp) 6 3 /\ forall i j, i < 6 -> j < 3 -> exists v, at3 a 0 i j v /\ cell_at rows1 i j v.
Proof.
  intros x kbb all p sp rows1 rows2 H S F R L1 L2 N. assert (rows1 ++ rows2 <> []) as NE by (destruct rows1; [cbn in L1; lia|discriminate]).
  destruct (born_ok x kbb all p sp (rows1 ++ rows2) 6 H S F R NE) as (a & A & SH & T); [rewrite app_length; lia|]. exists a. split; auto. split; auto. intros i j I J. destruct (T 0 i j) as (v & V & C); [lia|auto|auto|]. exists v. split; auto.
  destruct C as (r & Q & W). exists r. split; auto. rewrite nth_error_app1 in Q by lia. exact Q.
Qed.
Local Open Scope string_scope.
Local Open Scope list_scope.
Definition phonons : xml := sample_document [sample_step "0.5" [(" -1.0", " -2.0", " -3.0")]
  [box "dynmat" [named_ "varray" "hessian" (vs (repeat " 1 2 3 4 5 6 " 6)); Elem "v" [("name", "eigenvalues")] (Some (lit " -1 -2 -3 -4 -5 -6 ")) []; named_ "varray" "eigenvectors" (vs (repeat " 0 1 0 1 0 1 " 6))];
   named_ "array" "born_charges" [leaf "dimension" "ion"; box "set" (vs [" 1 0 0 "; " 0 1 0 "; " 0 0 1 "]); box "set" (vs [" -1 0 0 "; " 0 -1 0 "; " 0 0 -1 "])]]].
Definition phonons_twice : xml := let c z := sample_step z [(" -1.0", " -2.0", " -3.0")] [named_ "array" "born_charges" [leaf "dimension" "ion"; box "set" (vs [" 1 0 0 "; " 0 1 0 "; " 0 0 1 "]); box "set" (vs [" -1 0 0 "; " 0 -1 0 "; " 0 0 -1 "])]] in sample_document [c "0.5"; c "0.6"].
Local Close Scope string_scope.
Ltac rows_of_width := apply (proj1 (Forall_forall (fun w => length w = _) _)); vm_compute; repeat constructor.
Example c78_phonons : (exists p, parsew phonons false true = Ok p /\ get_species p = Some [11; 17]%Z) /\
  (exists rows, length rows = 6 /\ Forall2 holds (findall_deep [Tag "calculation"; Tag "dynmat"; TagAt "varray" "name" "hessian"; Tag "v"] phonons) rows /\ forall r, In r rows -> length r = 6) /\
  (exists e xs m rows, findall_deep (dynmat_path (TagAt "v" "name" "eigenvalues")) phonons = [e] /\ holds e xs /\ findall_deep (dynmat_path (TagAt "varray" "name" "eigenvectors")) phonons = [m] /\ Forall2 holds (kids m) rows /\ forall r, In r rows -> length r = 6) /\
  (exists rows, length rows = 6 /\ Forall2 holds (findall_deep born_path phonons) rows /\ forall r, In r rows -> length r = 3).
Proof.
  split; [eexists; split; vm_compute; reflexivity|]. split; [|split].
  - eexists [_; _; _; _; _; _]. split; [reflexivity|]. split; [apply rows_holds; vm_compute; reflexivity|rows_of_width].
  - eexists _, _, _, _. split; [vm_compute; reflexivity|]. split; [apply row_holds; vm_compute; reflexivity|]. split; [vm_compute; reflexivity|]. split; [apply rows_holds; vm_compute; reflexivity|rows_of_width].
  - eexists [_; _; _; _; _; _]. split; [reflexivity|]. split; [apply rows_holds; vm_compute; reflexivity|rows_of_width].
Qed.
Example c78_twice : (exists p, parsew phonons_twice false true = Ok p /\ get_species p = Some [11; 17]%Z) /\ exists r1 r2, length r1 = 6 /\ length r2 = 6 /\ Forall2 holds (findall_deep born_path phonons_twice) (r1 ++ r2) /\ forall r, In r (r1 ++ r2) -> length r = 3.
Proof. split; [eexists; split; vm_compute; reflexivity|]. eexists [_; _; _; _; _; _], [_; _; _; _; _; _]. split; [reflexivity|]. split; [reflexivity|]. split; [apply rows_holds; vm_compute; reflexivity|rows_of_width]. Qed.

(** ** C79: get_lattice and get_dict *)
(** The cell and the positions that get_lattice returns belong to the same ionic step *)
Theorem C79_vasprun_lattice : forall x kbb p sp steps s0 sn pre post, steps_run x kbb p sp steps -> steps = s0 :: post -> steps = pre ++ [sn] ->
  get_lattice p (lit "initial") = Ok (Lattice (StepValue (Some (st_cell s0))) (StepValue (Some (st_pos s0))) (Some sp)) /\
  (~ (length sp = 1 /\ length steps = 2) -> get_lattice p (lit "last") = Ok (Lattice (StepValue (Some (st_cell sn))) (StepValue (Some (st_pos sn))) (Some sp))).
Proof.
  intros x kbb p sp steps s0 sn pre post R E1 E2. pose proof R as (_ & S & _). unfold get_lattice. rewrite S. split.
  - destruct (C54_vasprun_initial_step x kbb p sp steps s0 R) as (C & P & _); [rewrite E1; auto|]. rewrite C, P. auto.
  - intros N. destruct (C54_vasprun_last_step x kbb p sp steps pre sn R E2 N) as (C & P & _). rewrite C, P. auto.
Qed.
(** One atom and two steps: the cell of the second step with the positions of the first *)
Theorem C79_vasprun_lattice_mixed_refuted : forall x kbb p sp s0 s1, steps_run x kbb p sp [s0; s1] -> length sp = 1 -> get_lattice p (lit "last") = Ok (Lattice (StepValue (Some (st_cell s1))) (StepValue (Some (st_pos s0))) (Some sp)).
Proof. intros x kbb p sp s0 s1 R L. pose proof R as (_ & S & _). destruct (C68_vasprun_one_atom_two_steps_refuted x kbb p sp [s0; s1] s0 s1 R eq_refl L) as (C & P & _). unfold get_lattice. rewrite C, P, S. auto. Qed.
(** A status that is not 'initial', 'last' or 'all' is refused with exit code 507 when there is
    a cell or there are positions *)
Theorem C79_vasprun_lattice_status : forall p status, ~ In status [lit "initial"; lit "last"; lit "all"] ->
  (p_cell p <> None \/ p_pos p <> None -> get_lattice p status = Exn (SysExit 507)) /\ (p_cell p = None -> p_pos p = None -> get_lattice p status = Ok (Lattice NoData NoData (get_species p))).
Proof.
  intros p status N. unfold get_lattice, get_unitcell, get_positions. split.
  - intros O. destruct (p_cell p) as [c|] eqn:C.
    + rewrite (proj2 (C54_vasprun_status _ (Some c) status)) by (auto; discriminate). auto.
    + rewrite (proj1 (C54_vasprun_status _ None status)) by auto. cbn [bind]. destruct O as [O|O]; [congruence|]. rewrite (proj2 (C54_vasprun_status _ (p_pos p) status)) by auto. auto.
  - intros -> ->. auto.
Qed.
(** get_dict determines everything that was parsed but the version *)
Theorem C79_vasprun_dict : forall p q, get_dict p = get_dict q <-> exists v, q = set_p_version v p.
Proof.
  intros p q. split.
  - intros H. unfold get_dict, get_parameters, lattice_dict, data_dict in H. exists (p_version q). destruct p, q. cbn in H |- *. injection H. intros. subst. reflexivity.
  - intros [v ->]. reflexivity.
Qed.
Theorem C79_vasprun_dict_version_refuted : forall p, exists q, get_dict p = get_dict q /\ p_version p <> p_version q.
Proof. intros p. exists (set_p_version (match p_version p with None => Some [] | Some _ => None end) p). split; [reflexivity|]. destruct p as [v]. cbn. destruct v; discriminate. Qed.
(** Under each key get_dict has what the accessor of that name gives, or the dictionary from which
    the accessor with a status takes its step *)
Definition under (p : parsed) (group key : string) : option entry := match assoc group (get_dict p) with Some d => assoc key d | None => None end.
Theorem C79_vasprun_dict_entries : forall p,
  under p "lattice" "species" = Some (Ints_ (get_species p)) /\ under p "lattice" "kpoints" = Some (Table_ (get_kpoints p)) /\ under p "lattice" "kpointsw" = Some (Row_ (get_kpointsw p)) /\
  under p "data" "eigenvalues" = Some (Bands_ (get_eigenvalues p)) /\ under p "data" "occupancies" = Some (Bands_ (get_occupancies p)) /\ under p "data" "eigenvalues_specific" = Some (Bands_ (get_eigenvalues_specific p)) /\
  under p "data" "eigenvelocities" = Some (Velocities_ (get_eigenvelocities p)) /\ under p "data" "kpoints" = Some (Table_ (get_kpoints_specific p)) /\ under p "data" "kpointsw" = Some (Row_ (get_kpointsw_specific p)) /\
  under p "data" "dos" = Some (Dos_ (get_dos p)) /\ under p "data" "dos_specific" = Some (Dos_ (get_dos_specific p)) /\ under p "data" "dielectrics" = Some (Diel_ (get_dielectrics p)) /\ under p "data" "projectors" = Some (Projectors_ (get_projectors p)) /\
  under p "data" "hessian" = Some (Table_ (get_hessian p)) /\ under p "data" "dynmat" = Some (Dynmat_ (get_dynmat p)) /\ under p "data" "born" = Some (Born_ (get_born p)) /\
  (forall f, In f [("lattice", "unitcell", get_unitcell p); ("lattice", "positions", get_positions p); ("data", "forces", get_forces p); ("data", "stress", get_stress p)]%string ->
     exists d, under p (fst (fst f)) (snd (fst f)) = Some (Steps_ d) /\ snd f (lit "all") = Ok (match d with None => NoData | Some d => AllSteps d end)) /\
  under p "data" "totens" = Some (Energies_ (p_totens p)).
Proof.
  intros p. repeat (split; [reflexivity|]). split; [|reflexivity].
  intros f [<-|[<-|[<-|[<-|[]]]]]; cbn [fst snd]; eexists; (split; [reflexivity|]); unfold get_unitcell, get_positions, get_forces, get_stress; [destruct (p_cell p)|destruct (p_pos p)|destruct (p_force p)|destruct (p_stress p)]; reflexivity.
Qed.
