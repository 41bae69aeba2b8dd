(** Properties C71 and C72: where the event driven parser of vasprun.xml differs from the tree
    based one, and how far it depends on the pieces in which its source is read. *)
From Coq Require Import Ascii String List NArith ZArith Bool Lia.
From Verif Require Import PyBase PyStrLemmas PyNum UtilsModel LineModel OutcarModel ChgcarModel StreamConfig VasprunTypes VasprunXml VasprunModel VasprunEvents VasprunSpec VasprunTables VasprunTree VasprunSteps VasprunEnergies VasprunDoc VasprunAccess VasprunAgree3 Props_Vasprun Props_VasprunSample Props_VasprunAgree Props_VasprunAgreeSample.
Import ListNotations.
Local Open Scope string_scope.
Local Open Scope list_scope.

(** ** C71: do they agree on every document and every accessor? *)
(** No.  get_epsilon and get_epsilon_ion: a value (None without the tables) after the regular
    parser; after the event parser a TypeError without a dielectric function, a KeyError with one,
    also when the document has the tables *)
Theorem C71_vasprun_epsilon_refuted : forall x n steps energies kbb all p p', vasp_run x n steps energies -> parsew x kbb all = Ok p -> parsee kbb (events None x) = Ok p' ->
  (exists m m', get_epsilon p = Ok m /\ get_epsilon_ion p = Ok m') /\
  forall d, get_dielectrics p = Some d ->
    (di_energy d = None -> get_epsilon p' = Exn TypeError /\ get_epsilon_ion p' = Exn TypeError) /\
    (di_energy d <> None -> get_epsilon p' = Exn KeyError /\ get_epsilon_ion p' = Exn KeyError).
Proof.
  intros x n steps energies kbb all p p' R P P'. split.
  - apply parsew_run in P. destruct (tr_diel _ _ _ _ P) as (d & D & E). unfold get_epsilon, get_epsilon_ion. rewrite E. clear -D. unfold fetch_diel in D.
    repeat match type of D with bind _ _ = Ok _ => let v := fresh "v" in let E := fresh "E" in apply bind_ok in D as [v [E D]] end.
    apply Ok_inj' in D. subst d. eexists _, _. split; reflexivity.
  - intros d D. unfold get_dielectrics in D. rewrite (agree_run _ _ _ _ _ _ _ _ R P P'). unfold get_epsilon, get_epsilon_ion, event_result. cbn [p_diel set_p_diel]. unfold event_diel. rewrite D. destruct d as [[e|] i r a b]; cbn [di_energy]; split; intros N; try discriminate N; try congruence; split; reflexivity.
Qed.
(** A run of one ionic step has two steps after the regular parser, one after the event parser *)
Theorem C71_vasprun_single_step_refuted : forall x n s0 energies kbb p p' sp, vasp_run x n [s0] energies -> parsew x kbb true = Ok p -> parsee kbb (events None x) = Ok p' -> p_species p = Some sp -> length sp = n -> 0 < n ->
  get_positions p (lit "all") = Ok (AllSteps [(1, Some (st_pos s0)); (2, Some (st_pos s0))]) /\ get_positions p' (lit "all") = Ok (AllSteps [(1, Some (st_pos s0))]).
Proof.
  intros x n s0 energies kbb p p' sp R P P' SP L N. destruct (run_calcs _ _ _ _ R) as [C NE].
  assert (steps_run x kbb p sp [s0]) as SR by (unfold steps_run; rewrite L; auto). split; [apply (C68_vasprun_single_step_twice_refuted _ _ _ _ _ _ SR eq_refl)|].
  rewrite (agree_run _ _ _ _ _ _ _ _ R P P'). reflexivity.
Qed.
Example c71_sample_one : exists s0 energies p p', vasp_run sample_one 2 [s0] energies /\ parsew sample_one false true = Ok p /\ parsee false (events None sample_one) = Ok p' /\ p_species p = Some [11; 17]%Z.
Proof. destruct c55_sample_one as (steps & en & p & p' & R & L & A & B & C & D). destruct steps as [|s0 [|]]; try discriminate L. exists s0, en, p, p'. repeat (split; [assumption|]). exact C. Qed.
(** Two ionic steps of one atom: the positions at the end are the first ones after the regular
    parser, the second ones after the event parser *)
Theorem C71_vasprun_one_atom_refuted : exists x p p' m m', parsew x false true = Ok p /\ parsee false (events None x) = Ok p' /\
  get_positions p (lit "last") = Ok (StepValue (Some m)) /\ get_positions p' (lit "last") = Ok (StepValue (Some m')) /\ m <> m' /\ get_positions p' (lit "initial") = Ok (StepValue (Some m)).
Proof. exists (tiny [tiny_step "0.5"; tiny_step "0.75"]). do 4 eexists. split; [vm_compute; reflexivity|]. split; [vm_compute; reflexivity|]. split; [vm_compute; reflexivity|]. split; [vm_compute; reflexivity|]. split; [vm_compute; discriminate|vm_compute; reflexivity]. Qed.
(** A density of states of an interpolated mesh beside the density of states: the regular parser
    puts both in one table, the event parser keeps them apart *)
Definition dos_rows_of (energies : list string) : list xml := [i_ "efermi" " 2.125 "; box "total" [box "array" [leaf "field" "energy"; box "set" [dset "spin 1" (map (fun e => (e ++ " 0.5 0.0 ")%string) energies)]]]].
Definition mesh_document : xml := sample_document [sample_step "0.5" [(" -1.0", " -2.0", " -3.0")] [box "dos" (dos_rows_of [" -8.0 "; " 8.0 "]); comment_ "dos" "interpolated" (dos_rows_of [" -8.0 "; " 1.0 "; " 8.0 "])]].
Definition dos_energies (o : option ddict) : option (list float) := match o with Some d => match dd_all d with Some a => dp_energy a | None => None end | None => None end.
Theorem C71_vasprun_dos_mesh_refuted : exists p p' a b, parsew mesh_document false true = Ok p /\ parsee false (events None mesh_document) = Ok p' /\
  length a = 2 /\ length b = 3 /\ dos_energies (p_dos p) = Some (a ++ b) /\ dos_energies (p_dos p') = Some a.
Proof. eexists _, _, [_; _], [_; _; _]. split; [vm_compute; reflexivity|]. split; [vm_compute; reflexivity|]. split; [reflexivity|]. split; [reflexivity|]. split; vm_compute; reflexivity. Qed.
(** Eigenvalues in two ionic steps: the regular parser exits, the event parser keeps the last *)
Theorem C71_vasprun_eigenvalues_twice_refuted : let c z := sample_step z [(" -1.0", " -2.0", " -3.0")] [sample_eigenvalues] in
  parsew (sample_document [c "0.5"; c "0.6"]) false true = Exn (SysExit 505) /\ exists p', parsee false (events None (sample_document [c "0.5"; c "0.6"])) = Ok p' /\ p_eigenvalues p' <> None.
Proof. split; [vm_compute; reflexivity|]. eexists. split; [vm_compute; reflexivity|discriminate]. Qed.

(** ** C72: the pieces in which the source is read *)
(** [evs] are events of the document: each start event of an element may come before its text *)
Definition same_event (a b : event) : Prop :=
  match a, b with Start _ par e, Start _ par' e' => par = par' /\ e = e' | End e, End e' => e = e' | _, _ => False end.
Definition events_of (x : xml) (evs : list event) : Prop := Forall2 same_event evs (events None x).
(** elements whose text is used at their start event, by their name *)
Definition early : list string :=
  ["version"; "SYMPREC"; "ISPIN"; "ISMEAR"; "SIGMA"; "NBANDS"; "NELECT"; "SYSTEM"; "NELM"; "NSW"; "e_0_energy"; "e_fr_energy"; "e_wo_entrp"; "divisions"; "eigenvalues"].
Definition not_early (e : xml) : Prop := text e = None \/ forall n, attr e "name" = Some n -> ~ In n early.
Lemma not_early_name e n : (forall m, attr e "name" = Some m -> ~ In m early) -> In n early -> match attr e "name" with None => False | Some v => String.eqb n v = true end -> False.
Proof. intros H I E. destruct (attr e "name") as [v|] eqn:A; [|exact E]. apply String.eqb_eq in E. subst v. apply (H n); auto. Qed.
Lemma step_seen kbb seen par e s : not_early e -> step kbb true seen par e s = step kbb true true par e s.
Proof.
  intros [T|N].
  - assert (start_text seen e = start_text true e) as E by (unfold start_text; rewrite T; destruct seen; reflexivity).
    assert (forall f, pf seen e f = pf true e f) as E1 by (intros f; unfold pf; rewrite E; reflexivity).
    assert (forall f, pi seen e f = pi true e f) as E2 by (intros f; unfold pi; rewrite E; reflexivity).
    assert (parameters_block true seen par e = parameters_block true true par e) as E3 by (unfold parameters_block, nelm_block; rewrite !E1, !E2, E; reflexivity).
    assert (energies_block true seen e = energies_block true true e) as E4 by (unfold energies_block, final_energy; rewrite E; reflexivity).
    assert (dynmat_block true seen e = dynmat_block true true e) as E5 by (unfold dynmat_block; rewrite E; reflexivity).
    assert (kpoints_block true seen e = kpoints_block true true e) as E6 by (unfold kpoints_block; rewrite E; reflexivity).
    unfold step, calculation_block. rewrite E, E3, E4, E5, E6. reflexivity.
  - assert (forall n, In n early -> name_is e n = false) as F.
    { intros n I. unfold name_is, opt_is. destruct (attr e "name") as [v|] eqn:A; auto. destruct (String.eqb_spec n v) as [<-|]; auto. exfalso. apply (N n); auto. }
    assert (forall n, In n early -> forall f g, named e n f = named e n g) as G.
    { intros n I f g. unfold named. specialize (F n I). unfold name_is, opt_is in F. destruct (attr e "name") as [v|]; auto. destruct (String.eqb n v); [discriminate|auto]. }
    assert (forall n, In n early -> forall f g, param_block true e n f = param_block true e n g) as Q by (intros n I f g; unfold param_block; rewrite (F n I); reflexivity).
    assert (parameters_block true seen par e = parameters_block true true par e) as E1 by (unfold parameters_block; repeat (f_equal; try (apply Q; cbn; tauto))).
    assert (param_block true e "version" (do_ (out_ (set_p_version (start_text seen e)))) = param_block true e "version" (do_ (out_ (set_p_version (start_text true e))))) as E2 by (apply Q; cbn; tauto).
    assert (forall n f, In n early -> final_energy true seen e n f = final_energy true true e n f) as E3 by (intros n f I; unfold final_energy; f_equal; apply G; auto).
    assert (energies_block true seen e = energies_block true true e) as E4 by (unfold energies_block; rewrite !E3 by (cbn; tauto); reflexivity).
    assert (dynmat_block true seen e = dynmat_block true true e) as E5 by (unfold dynmat_block; rewrite !(F "eigenvalues") by (cbn; tauto); reflexivity).
    assert (kpoints_block true seen e = kpoints_block true true e) as E6 by (unfold kpoints_block; rewrite !(F "divisions") by (cbn; tauto); rewrite andb_false_r; reflexivity).
    unfold step, calculation_block. rewrite E1, E2, E4, E5, E6. reflexivity.
Qed.
Fixpoint seen_events (x : xml) : forall par0 par e, ~ In (Start false par e) (events par0 x).
Proof.
  destruct x as [t a tx ks]. intros par0 par e I. cbn [events] in I. destruct I as [I|I]; [discriminate|]. apply in_app_or in I as [I|[I|[]]]; [|discriminate].
  revert I. induction ks as [|k ks IH]; [intros []|]. cbn [flat_map]. intros I. apply in_app_or in I as [I|I]; [apply (seen_events k _ _ _ I)|apply IH; auto].
Qed.
(** The result does not depend on the pieces as long as they do not end between the start and the
    text of an element of [early] *)
Theorem C72_vasprun_event_pieces : forall kbb x evs, events_of x evs -> (forall par e, In (Start false par e) evs -> not_early e) -> parsee kbb evs = parsee kbb (events None x).
Proof.
  intros kbb x evs F N. unfold parsee. f_equal. unfold run_events, events_of in *. pose proof (seen_events x None) as C.
  revert N C. generalize start_state. induction F as [|a b l l' H F IH]; intros s N C; [reflexivity|]. cbn [foldM].
  assert (handle kbb a s = handle kbb b s) as ->.
  { destruct a as [seen par e|e], b as [seen' par' e'|e']; cbn in H; try contradiction; [|subst; auto]. destruct H as [-> ->]. destruct seen'; [|exfalso; apply (C par' e'); left; auto].
    destruct seen; auto. cbn [handle]. apply step_seen. apply (N par' e'). left. auto. }
  destruct (handle kbb b s); cbn [bind]; auto. apply IH; intros par e I; [apply (N par)|apply (C par e)]; right; auto.
Qed.
(** such pieces exist: every row of every table comes before its text *)
Definition late (f : xml -> bool) (evs : list event) : list event := map (fun ev => match ev with Start seen par e => Start (seen && negb (f e)) par e | End e => End e end) evs.
Lemma late_events f x : events_of x (late f (events None x)).
Proof. unfold events_of, late. induction (events None x) as [|[seen par e|e] l IH]; cbn; constructor; auto; cbn; auto. Qed.
Example c72_sample : exists evs, events_of sample evs /\ (forall par e, In (Start false par e) evs -> not_early e) /\ In (Start false (Some [("name", "positions")]) (leaf "v" "  0.0 0.0 0.0 ")) evs /\ exists p, parsee true evs = Ok p.
Proof.
  pose (f := fun e => mem (tag e) ["v"; "r"; "c"] && match attr e "name" with None => true | Some _ => false end).
  exists (late f (events None sample)). split; [apply late_events|]. split.
  - intros par e I. apply in_map_iff in I as ([seen par' e'|e'] & E & I); [|discriminate]. injection E as E -> ->. destruct seen; [|destruct (seen_events sample None par e I)]. cbn [andb] in E. apply negb_false_iff in E. unfold f in E. apply andb_true_iff in E as [_ E].
    right. intros n A. rewrite A in E. discriminate.
  - split; [|eexists; vm_compute; reflexivity]. apply (nth_error_In _ 123). vm_compute. reflexivity.
Qed.
(** but at an element of [early] the result does depend on them: a parameter is lost, *)
Theorem C72_vasprun_late_parameter_refuted : exists evs p p', events_of sample evs /\ parsee true (events None sample) = Ok p /\ parsee true evs = Ok p' /\ p_nelm p = Some 60%Z /\ p_nelm p' = None.
Proof. exists (late (fun e => opt_is "NELM" (attr e "name")) (events None sample)). do 2 eexists. split; [apply late_events|]. split; [vm_compute; reflexivity|]. split; [vm_compute; reflexivity|]. split; reflexivity. Qed.
(** or the parser fails *)
Theorem C72_vasprun_late_energy_refuted : exists evs p, events_of sample evs /\ parsee true (events None sample) = Ok p /\ parsee true evs = Exn TypeError.
Proof. exists (late (fun e => opt_is "e_0_energy" (attr e "name")) (events None sample)). eexists. split; [apply late_events|]. split; vm_compute; reflexivity. Qed.
