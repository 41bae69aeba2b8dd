(** The sample documents are runs in the sense of VasprunDoc.v. *)
From Coq Require Import Ascii String List NArith ZArith Bool Lia.
From Verif Require Import PyBase PyStrLemmas PyNum UtilsModel LineModel OutcarModel ChgcarModel StreamConfig VasprunTypes VasprunXml VasprunModel VasprunEvents VasprunSpec VasprunTables VasprunTree VasprunSteps VasprunEnergies VasprunDoc VasprunAccess VasprunAgree2 Props_Vasprun Props_VasprunSample Props_VasprunAgree.
Import ListNotations.
Local Open Scope string_scope.
Local Open Scope list_scope.

(** ** The grammar by computation *)
Definition mem (s : string) (l : list string) : bool := existsb (String.eqb s) l.
Lemma mem_in s l : mem s l = true <-> In s l.
Proof. unfold mem. rewrite existsb_exists. split; [intros (t & I & E); apply String.eqb_eq in E; subst; auto|intros I; exists s; split; auto; apply String.eqb_refl]. Qed.
Lemma mem_not s l : mem s l = false -> ~ In s l. Proof. intros H I. apply mem_in in I. congruence. Qed.
Definition everywhere (f : xml -> bool) (l : list xml) : bool := forallb (fun k => forallb f (within k)) l.
Lemma everywhere_quiet f (P : xml -> Prop) l : (forall d, f d = true -> P d) -> everywhere f l = true -> quiet P l.
Proof. intros H E k d K D. apply H. unfold everywhere in E. rewrite forallb_forall in E. specialize (E k K). rewrite forallb_forall in E. auto. Qed.
Definition top_b (d : xml) : bool := negb (mem (tag d) ["generator"; "parameters"; "calculation"; "kpoints"; "projected"; "atominfo"]) && negb (String.eqb "array" (tag d) && opt_is "atoms" (attr d "name")).
Lemma top_b_ok d : top_b d = true -> other_top d.
Proof.
  unfold top_b, other_top. intros H. apply andb_true_iff in H as [A B]. apply negb_true_iff in A, B. split; [apply mem_not; auto|]. intros [T N]. rewrite T, N in B. discriminate.
Qed.
Definition calc_b (d : xml) : bool :=
  negb (mem (tag d) ["generator"; "parameters"; "calculation"; "atominfo"; "projected"; "dos"; "structure"; "scstep"; "energy"; "eigenvalues"; "eigenvelocities"; "dielectricfunction"; "dynmat"]) &&
  negb (String.eqb "array" (tag d) && (opt_is "atoms" (attr d "name") || opt_is "born_charges" (attr d "name"))) &&
  (negb (String.eqb "varray" (tag d)) || match attr d "name" with Some n => negb (mem n ["forces"; "stress"]) | None => false end).
Lemma calc_b_ok d : calc_b d = true -> other_calc d.
Proof.
  unfold calc_b, other_calc. intros H. apply andb_true_iff in H as [H C]. apply andb_true_iff in H as [A B]. apply negb_true_iff in A, B. split; [apply mem_not; auto|]. split; [intros [T [N|N]]; rewrite T, N in B; discriminate|].
  intros T. rewrite T in C. destruct (attr d "name") as [n|]; [|discriminate C]. cbn [String.eqb Ascii.eqb Bool.eqb negb orb] in C. apply negb_true_iff, mem_not in C. exists n. split; auto. cbn in C. intuition congruence.
Qed.
Lemma forall_in {A} (P : A -> Prop) (f : A -> bool) l : (forall a, f a = true -> P a) -> forallb f l = true -> Forall P l.
Proof. intros H E. rewrite forallb_forall in E. apply Forall_forall. auto. Qed.
Definition row_b (t : string) (e : xml) : bool := match e with Elem t' [] _ [] => String.eqb t t' | _ => false end.
Lemma row_b_ok t e : row_b t e = true -> is_row t e.
Proof. destruct e as [t' [|] x [|]]; cbn; try discriminate. intros H. apply String.eqb_eq in H. subst. exists x. auto. Qed.
Ltac rows_ := eapply forall_in; [apply row_b_ok|vm_compute; reflexivity].
Lemma vs_rows l : Forall (is_row "v") (vs l). Proof. apply Forall_forall. intros e I. apply in_map_iff in I as (t & <- & _). eexists. reflexivity. Qed.
Lemma rs_rows l : Forall (is_row "r") (rs l). Proof. apply Forall_forall. intros e I. apply in_map_iff in I as (t & <- & _). eexists. reflexivity. Qed.

(** ** The parts *)
Lemma generator_ok : is_generator (box "generator" [i_ "program" "vasp"; i_ "version" "5.4.4.18Apr17"]).
Proof. eexists. split; [eexists; reflexivity|]. split; [repeat constructor; eexists _, _; reflexivity|]. vm_compute. lia. Qed.
Lemma kpoints_ok : is_kpoints sample_kpoints.
Proof.
  eexists [_], _, _, [], _, _. split; [eexists; reflexivity|]. split; [right; eexists; split; [reflexivity|]; eexists _, _, _; split; [reflexivity|]; split; [repeat constructor; eexists _, _; right; reflexivity|vm_compute; lia]|].
  split; [split; [eexists; reflexivity|apply vs_rows]|]. split; [split; [eexists; reflexivity|apply vs_rows]|]. split; [discriminate|]. split; [discriminate|]. intros k d [].
Qed.
Lemma parameters_ok : is_parameters sample_parameters.
Proof.
  split; [eexists; eexists; reflexivity|]. split; [|split].
  - assert (Forall (fun d => In (tag d) ["separator"; "i"; "v"]) (descendants sample_parameters)) as F. { apply (forall_in _ (fun d => mem (tag d) ["separator"; "i"; "v"])); [intros a; apply mem_in|vm_compute; reflexivity]. } rewrite Forall_forall in F. auto.
  - assert (Forall (fun np => findall_child (snd np) sample_parameters = filter (fun d => opt_is (fst np) (attr d "name")) (descendants sample_parameters) /\ length (findall_child (snd np) sample_parameters) <= 1) parameter_paths) as F.
    { repeat constructor. } rewrite Forall_forall in F. intros n path I. apply (F (n, path) I).
  - assert (Forall (fun v => attr (snd v) "name" = Some "NELM" -> assoc "name" (fst v) = Some "electronic convergence") (flat_map (visits []) (kids sample_parameters))) as F.
    { apply (forall_in _ (fun v => negb (opt_is "NELM" (attr (snd v) "name")) || opt_is "electronic convergence" (assoc "name" (fst v)))); [|vm_compute; reflexivity].
      intros [a d] H N. cbn [fst snd] in *. rewrite N in H. cbn in H. destruct (assoc "name" a) as [w|]; [|discriminate]. apply String.eqb_eq in H. congruence. }
    rewrite Forall_forall in F. intros a d I. apply (F (a, d) I).
Qed.
Lemma atoms_ok : is_atominfo sample_atoms.
Proof.
  eexists [_], [_], _, [_; _], _, [_; _], [[_; _]; [_; _]], _. split; [eexists; reflexivity|]. split; [apply (everywhere_quiet top_b); [apply top_b_ok|vm_compute; reflexivity]|].
  split; [reflexivity|]. split; [repeat constructor; eexists _, _; [left|right]; reflexivity|]. split; [eexists; reflexivity|]. split; [|discriminate].
  repeat (constructor; [split; [eexists; reflexivity|rows_]|]). constructor.
Qed.
Lemma structure_ok z : is_structure (sample_structure [] z).
Proof.
  eexists _, _, _, [_; _], [], _, _. split; [eexists; reflexivity|]. split; [eexists; reflexivity|]. split; [split; [eexists; reflexivity|apply vs_rows]|]. split; [split; [eexists; reflexivity|apply vs_rows]|].
  intros k d [<-|[<-|[]]] D.
  - destruct D as [<-|[]]. left. reflexivity.
  - destruct D as [<-|D]; [right; right; split; [reflexivity|]; exists "rec_basis"; split; [reflexivity|]; cbn; intuition discriminate|]. right; left. cbn in D. repeat (destruct D as [<-|D]; [reflexivity|]). destruct D.
Qed.
Lemma scstep_ok a b c : is_scstep (box "scstep" [el "time" [("name", "dav")] " 0.1 0.1 " []; box "energy" (sample_energies a b c)]).
Proof.
  split; [eexists; eexists; reflexivity|]. split.
  - intros d D. cbn in D. destruct D as [<-|[<-|[<-|[<-|[<-|[<-|[]]]]]]]. all: split; [cbn; auto|]. all: intros T; cbn in T; try discriminate T. all: split; [cbn; discriminate|reflexivity].
  - intros n I. repeat (destruct I as [<-|I]; [reflexivity|]). destruct I.
Qed.
Lemma energy_ok a b c : is_energy (box "energy" (sample_energies a b c)).
Proof.
  eexists. split; [eexists; reflexivity|]. split; [repeat constructor; eexists _, _; (split; [reflexivity|discriminate])|]. intros n I. repeat (destruct I as [<-|I]; [reflexivity|]). destruct I.
Qed.
Ltac heads_ := repeat constructor; eexists _, _; first [left; reflexivity|right; reflexivity].
Lemma kset_ok rows : is_kset (rs rows) (kset rows).
Proof. split; [eexists _, _; split; [reflexivity|]; intros c I; repeat (destruct I as [<-|I]; [discriminate|]); destruct I|apply rs_rows]. Qed.
Lemma eigenvalues_ok : exists r1 r2, is_eigenvalues r1 r2 sample_eigenvalues.
Proof.
  eexists _, _, _, _, _, _, _, _, _. split; [eexists; reflexivity|]. split; [eexists [_; _]; split; [|eexists; reflexivity]; heads_|]. split; [eexists; reflexivity|].
  split; [eapply two_spins; [eexists; reflexivity|eexists; reflexivity|discriminate]|]. split; [constructor; [apply kset_ok|constructor; [apply kset_ok|constructor]]|]. split; [constructor; [apply kset_ok|constructor; [apply kset_ok|constructor]]|].
  split; [reflexivity|]. split; [reflexivity|]. discriminate.
Qed.
Lemma pset_ok x : exists rows, is_kbset rows (pset x).
Proof.
  eexists _, _, _. split; [eexists _, _; split; [reflexivity|]; intros c I; repeat (destruct I as [<-|I]; [discriminate|]); destruct I|]. split; [|reflexivity].
  cbn [map]. constructor; [|constructor; [|constructor]]; (split; [eexists _, _; split; [reflexivity|]; intros c I; repeat (destruct I as [<-|I]; [discriminate|]); destruct I|apply rs_rows]).
Qed.
Lemma projected_ok : exists r1 r2, is_projected sample_eigenvalues r1 r2 sample_projected.
Proof.
  destruct (pset_ok " 1.") as [a A], (pset_ok " 2.") as [b B], (pset_ok " 3.") as [c C], (pset_ok " 4.") as [d D]. eexists _, _, _, _, _, _, _, [a; b], [c; d]. split; [eexists; reflexivity|]. split; [eexists [_; _]; split; [|eexists; reflexivity]; heads_|]. split; [eexists; reflexivity|].
  split; [eapply two_spins; [eexists; reflexivity|eexists; reflexivity|discriminate]|]. split; [repeat constructor; auto|]. split; [repeat constructor; auto|]. split; [reflexivity|]. split; [reflexivity|].
  intros Z. apply app_eq_nil in Z as [Z _]. subst a. destruct A as (bs & rss & (x & y & E & _) & F & E0). unfold pset, comment_ in E. injection E as _ _ <-. inversion F as [|rows ? ? ? ((u & v & E1 & _) & FR) F']; subst. unfold comment_ in E1. injection E1 as _ _ <-. discriminate.
Qed.
Lemma ion_ok n a b : b <> [] -> In n ["ion 1"; "ion 2"] -> is_ion (rs a, rs b) (comment_ "set" n [dset "spin 1" a; dset "spin 2" b]).
Proof.
  intros B N. eexists. split; [eexists _, _; split; [reflexivity|]; intros c I; cbn; destruct N as [<-|[<-|[]]]; repeat (destruct I as [<-|I]; [discriminate|]); destruct I|].
  split; [eapply two_spins; [eexists; reflexivity|eexists; reflexivity|cbn; destruct b; [congruence|discriminate]]|]. cbn [fst snd]. apply Forall_app; split; apply rs_rows.
Qed.
Lemma dos_ok : is_dos sample_dos.
Proof.
  eexists [("name", "efermi")], _, _, _, [_], _, _, _, _. split; [reflexivity|]. split; [reflexivity|]. split; [|split; [eexists; reflexivity|]].
  - eexists _, _, _. split; [eexists; reflexivity|]. split; [eexists [_]; split; [|eexists; reflexivity]; heads_|]. split; [eexists; reflexivity|]. split; [eapply two_spins; [eexists; reflexivity|eexists; reflexivity|discriminate]|]. split; [apply Forall_app; split; apply rs_rows|discriminate].
  - right. eexists. split; [reflexivity|]. split; [|discriminate]. eexists _, _, _, [(_, _); (_, _)]. split; [eexists; reflexivity|]. split; [eexists [_]; split; [|eexists; reflexivity]; heads_|]. split; [eexists; reflexivity|].
    split.
    { constructor; [apply ion_ok; [discriminate|cbn; auto]|]. constructor; [apply ion_ok; [discriminate|cbn; auto]|]. constructor. }
    split; [reflexivity|]. split; [reflexivity|]. cbn. discriminate.
Qed.
(** ** Linear response *)
Definition sample_part (n : string) (r1 r2 : string) : xml := box n [box "array" [leaf "dimension" "gridpoints"; leaf "field" "energy"; box "set" (rs [r1; r2])]].
Definition sample_dielectric : xml := Elem "dielectricfunction" [("comment", "density-density")] (Some (lit " ")) [sample_part "imag" " 0.0 1 1 1 0 0 0 " " 0.5 2 2 2 0 0 0 "; sample_part "real" " 0.0 3 3 3 0 0 0 " " 0.5 4 4 4 0 0 0 "].
Definition sample_born : xml := named_ "array" "born_charges" [leaf "dimension" "ion"; box "set" (vs [" 1.0 0 0 "; " 0 1.0 0 "; " 0 0 1.5 "]); box "set" (vs [" -1.0 0 0 "; " 0 -1.0 0 "; " 0 0 -1.5 "])].
Definition six : string := " 1 2 3 4 5 6 ".
Definition sample_dynmat : xml := box "dynmat" [named_ "varray" "hessian" (vs [six; six; six; six; six; six]); el "v" [("name", "eigenvalues")] six []; named_ "varray" "eigenvectors" (vs [six; six; six; six; six; six]); i_ "unit" " THz "].
Lemma dielectric_ok : exists im re, is_dielectric im re sample_dielectric.
Proof.
  eexists _, _, _, _, _, _. split; [reflexivity|].
  split; [eexists _, _; split; [eexists; reflexivity|]; split; [eexists [_; _]; split; [|eexists; reflexivity]; heads_|]; split; [eexists; reflexivity|apply rs_rows]|].
  split; [eexists _, _; split; [eexists; reflexivity|]; split; [eexists [_; _]; split; [|eexists; reflexivity]; heads_|]; split; [eexists; reflexivity|apply rs_rows]|]. split; [discriminate|reflexivity].
Qed.
Lemma born_ok : exists rows, is_born rows sample_born.
Proof.
  eexists _, _, [_], [_; _], [_; _]. split; [reflexivity|]. split; [heads_|]. split; [repeat (constructor; [split; [eexists; reflexivity|apply vs_rows]|]); constructor|]. split; [reflexivity|discriminate].
Qed.
Lemma dynmat_ok : exists h t v, is_dynmat h t v sample_dynmat.
Proof.
  eexists _, _, _, _, _, [_]. split; [eexists; reflexivity|]. split; [split; [eexists; reflexivity|apply vs_rows]|]. split; [split; [eexists; reflexivity|apply vs_rows]|]. split; [discriminate|].
  intros k d [<-|[]] [<-|[]]. split; [apply calc_b_ok; reflexivity|cbn; intuition discriminate].
Qed.
(** velocities of two spins *)
Definition velocities2 : xml := comment_ "eigenvelocities" "interpolated" [box "kpoints" [named_ "varray" "kpointlist" (vs [" 0.0 0.0 0.0 "; " 0.25 0.0 0.0 "]); named_ "varray" "weights" (vs [" 0.5 "; " 0.5 "])];
  box "eigenvalues" [box "array" [leaf "dimension" "band"; leaf "field" "eigene"; box "set" [comment_ "set" "spin 1" [kset [" -5.1 1 2 3 "; "  2.5 4 5 6 "]; kset [" -5.3 7 8 9 "; "  2.75 1 1 1 "]];
    comment_ "set" "spin 2" [kset [" -6.1 1 2 3 "; "  3.5 4 5 6 "]; kset [" -6.3 7 8 9 "; "  3.75 1 1 1 "]]]]]].
Lemma velocities_ok : exists ks ws r1 r2, is_velocities ks ws r1 r2 velocities2.
Proof.
  eexists _, _, _, _, _, _, _, _, _, _. split; [reflexivity|]. split; [eexists; reflexivity|]. split; [split; [eexists; reflexivity|apply vs_rows]|]. split; [split; [eexists; reflexivity|apply vs_rows]|]. split; [discriminate|]. split; [discriminate|].
  eexists _, _, _, _, _, _, _. split; [eexists; reflexivity|]. split; [eexists [_; _]; split; [|eexists; reflexivity]; heads_|]. split; [eexists; reflexivity|].
  split; [eapply two_spins; [eexists; reflexivity|eexists; reflexivity|discriminate]|]. split; [constructor; [apply kset_ok|constructor; [apply kset_ok|constructor]]|]. split; [constructor; [apply kset_ok|constructor; [apply kset_ok|constructor]]|].
  split; [reflexivity|]. split; [reflexivity|]. discriminate.
Qed.
Ltac child_ := first [apply child_scstep; apply scstep_ok | apply child_structure; apply structure_ok | eapply child_forces; split; [eexists; reflexivity|apply vs_rows] | eapply child_stress; split; [eexists; reflexivity|apply vs_rows] | apply child_energy; apply energy_ok
  | destruct eigenvalues_ok as (? & ? & ?H); eapply child_eigenvalues; exact H | apply child_dos; apply dos_ok | destruct projected_ok as (? & ? & ?H); eapply child_projected; [reflexivity|exact H]
  | destruct dielectric_ok as (? & ? & ?H); eapply child_dielectric; exact H | destruct born_ok as (? & ?H); eapply child_born; exact H | destruct dynmat_ok as (? & ? & ? & ?H); eapply child_dynmat; exact H | destruct velocities_ok as (? & ? & ? & ? & ?H); eapply child_velocities; exact H
  | apply child_other; apply (everywhere_quiet calc_b); [apply calc_b_ok|vm_compute; reflexivity] ].
Definition once_b (ks : list xml) : bool := forallb (fun s => Nat.eqb (length (filter (matches s) ks)) 1) once_each_step && forallb (fun k => forallb (fun d => negb (String.eqb (tag d) "scstep")) (descendants k)) ks.
Lemma calculation_ok eigs ks : Forall (calc_child eigs) ks -> once_b ks = true -> is_calculation eigs (box "calculation" ks).
Proof.
  intros F O. apply andb_true_iff in O as [O N]. rewrite forallb_forall in O, N. exists ks. split; [eexists; reflexivity|]. split; auto. split; [intros s I; apply Nat.eqb_eq; auto|].
  intros k d K D. specialize (N k K). rewrite forallb_forall in N. specialize (N d D). apply negb_true_iff, String.eqb_neq in N. auto.
Qed.
Definition above : list string := ["generator"; "parameters"; "atominfo"; "calculation"].
Definition document_b (calcs : list xml) : bool :=
  forallb (fun s => Nat.leb (length (filter (matches s) (flat_map kids calcs))) 1) once_in_all && everywhere (fun d => negb (mem (tag d) above)) (flat_map kids calcs).
Lemma document_ok calcs : calcs <> [] -> Forall (is_calculation (filter (matches (Tag "eigenvalues")) (flat_map kids calcs))) calcs -> document_b calcs = true -> is_run (sample_document calcs) calcs.
Proof.
  intros NE F B. apply andb_true_iff in B as [B1 B2]. exists (box "generator" [i_ "program" "vasp"; i_ "version" "5.4.4.18Apr17"]), sample_kpoints, sample_parameters, sample_atoms, [], [box "incar" [i_ "NBANDS" "  9"]], [], [], [sample_structure [("name", "initialpos")] "0.5"], [sample_structure [("name", "finalpos")] "0.7"].
  split; [eexists; reflexivity|]. split; [apply generator_ok|]. split; [apply kpoints_ok|]. split; [apply parameters_ok|]. split; [apply atoms_ok|].
  split; [apply (everywhere_quiet top_b); [apply top_b_ok|vm_compute; reflexivity]|]. split; auto. split; auto. split; [rewrite forallb_forall in B1; intros s I; apply Nat.leb_le; auto|].
  intros k d K D. assert (exists k', In k' (kids k) /\ In d (within k')) as (k' & K' & D') by (destruct k as [t a x ks]; cbn [descendants] in D; apply in_flat_map in D as (k' & K' & D'); exists k'; split; auto).
  assert (everywhere (fun d => negb (mem (tag d) above)) (flat_map kids (kids (sample_document calcs))) = true) as E.
  { cbn [kids sample_document box]. rewrite !flat_map_app. unfold everywhere. rewrite !forallb_app. apply andb_true_iff. split; [vm_compute; reflexivity|]. apply andb_true_iff. split; [exact B2|vm_compute; reflexivity]. }
  eapply (everywhere_quiet _ (fun d => ~ In (tag d) above)); [|exact E| |exact D']; [|apply in_flat_map; eauto]. intros e Z. apply negb_true_iff in Z. apply mem_not. auto.
Qed.
Ltac run_ := apply document_ok; [discriminate| |vm_compute; reflexivity];
  repeat (constructor; [apply calculation_ok; [repeat (constructor; [child_|]); constructor|vm_compute; reflexivity]|]); constructor.
Definition sample_calcs : list xml :=
  [sample_step "0.5" [(" -1.0", " -2.0", " -3.0"); (" -1.5", " -2.5", " -3.5")] []; sample_step "0.6" [(" -1.25", " -2.25", " -3.25")] [];
   sample_step "0.7" [(" -4.25", " -5.25", " -6.25"); (" -4.5", " -5.5", " -6.5"); (" -7.5", " -8.5", " -9.5")] [sample_eigenvalues; sample_dos; sample_projected]].
Lemma sample_is_run : is_run sample sample_calcs.
Proof. change sample with (sample_document sample_calcs). run_. Qed.
(** C55: three steps, two atoms, two spins *)
Example c55_sample : exists energies p p', vasp_run sample 2 sample_steps energies /\ parsew sample true true = Ok p /\ parsee true (events None sample) = Ok p' /\ length sample_steps = 3 /\
  p_species p = Some [11; 17]%Z /\ p_eigenvalues p <> None /\ p_dos p <> None /\ p_projectors p <> None.
Proof.
  destruct c57_sample as (l & _ & E). exists l. eexists _, _. split; [exists sample_calcs; split; [exact sample_is_run|]; split; [apply (proj2 (proj2 (proj2 (proj1 c54_sample))))|exact E]|].
  split; [vm_compute; reflexivity|]. split; [vm_compute; reflexivity|]. split; [exact (proj2 c54_sample)|]. split; [vm_compute; reflexivity|]. split; [discriminate|]. split; discriminate.
Qed.
Lemma sample_is calcs : is_run (sample_document calcs) calcs -> calculations (sample_document calcs) = calcs.
Proof. intros R. destruct (VasprunAgree2.run_is _ _ R) as (ge & kp & pa & ai & q1 & q2 & q3 & q4 & q5 & q6 & Q). apply (VasprunAgree2.calcs_are Q). Qed.
(** one step *)
Definition sample_one : xml := sample_document [sample_step "0.5" [(" -1.0", " -2.0", " -3.0")] [sample_eigenvalues]].
Example c55_sample_one : exists steps energies p p', vasp_run sample_one 2 steps energies /\ length steps = 1 /\ parsew sample_one false true = Ok p /\ parsee false (events None sample_one) = Ok p' /\ p_species p = Some [11; 17]%Z /\ get_dielectrics p' = None.
Proof.
  assert (exists l, all_some (map (step_of 2) (calculations sample_one)) = Some l /\ length l = 1) as (steps & S & LS) by (eexists; split; [vm_compute; reflexivity|reflexivity]).
  assert (exists l, all_some (map pairs_of (calculations sample_one)) = Some l) as (en & E) by (eexists; vm_compute; reflexivity).
  exists steps, en. eexists _, _. split; [|split; [exact LS|split; [vm_compute; reflexivity|split; [vm_compute; reflexivity|split; vm_compute; reflexivity]]]].
  exists [sample_step "0.5" [(" -1.0", " -2.0", " -3.0")] [sample_eigenvalues]]. split; [|split; [apply steps_of_hold; exact S|apply all_pairs_hold; exact E]]. run_.
Qed.
(** linear response: the dielectric function before the energy, Born charges and force constants
    in the second step, electronic steps and k-points after the energy *)
Definition sc_ (a b c : string) : xml := box "scstep" [el "time" [("name", "dav")] " 0.1 0.1 " []; box "energy" (sample_energies a b c)].
Definition forces_ (z : string) : xml := named_ "varray" "forces" (vs [" 0.0 0.0 -0.1 "; (" 0 0 " ++ z)%string]).
Definition stress_ (z : string) : xml := named_ "varray" "stress" (vs [" 1.0 0 0 "; " 0 1.0 0 "; (" 0 0 " ++ z)%string]).
Definition response_calcs : list xml :=
  [box "calculation" [sc_ " -1.0" " -2.0" " -3.0"; sample_structure [] "0.5"; sample_dielectric; forces_ "0.5"; stress_ "0.5"; box "energy" (sample_energies " -1.5" " -2.5" " -3.5"); sc_ " -1.25" " -2.25" " -3.25"; sample_eigenvalues];
   box "calculation" [box "energy" (sample_energies " -4.5" " -5.5" " -6.5"); stress_ "0.6"; sample_structure [] "0.6"; sample_projected; forces_ "0.6"; named_ "varray" "epsilon" (vs [" 2.0 0 0 "; " 0 2.0 0 "; " 0 0 2.5 "]);
     sample_born; sc_ " -4.25" " -5.25" " -6.25"; sample_kpoints; sample_dynmat; sample_dos]].
Definition sample_response : xml := sample_document response_calcs.
Example c55_sample_response : exists steps energies p p', vasp_run sample_response 2 steps energies /\ length steps = 2 /\ parsew sample_response false true = Ok p /\ parsee false (events None sample_response) = Ok p' /\ p_species p = Some [11; 17]%Z /\
  p_eigenvalues p <> None /\ p_dos p <> None /\ p_projectors p <> None /\ p_hessian p <> None /\ p_dynmat p <> None /\ p_born p <> BornNone /\ exists d, get_dielectrics p' = Some d /\ di_energy d <> None.
Proof.
  assert (exists l, all_some (map (step_of 2) (calculations sample_response)) = Some l /\ length l = 2) as (steps & S & LS) by (eexists; split; [vm_compute; reflexivity|reflexivity]).
  assert (exists l, all_some (map pairs_of (calculations sample_response)) = Some l) as (en & E) by (eexists; vm_compute; reflexivity).
  assert (is_run sample_response response_calcs) as R by (unfold sample_response; run_).
  exists steps, en. eexists _, _. split; [exists response_calcs; split; [exact R|]; rewrite <- (sample_is response_calcs R); split; [apply steps_of_hold; exact S|apply all_pairs_hold; exact E]|].
  split; [exact LS|]. split; [vm_compute; reflexivity|]. split; [vm_compute; reflexivity|]. split; [vm_compute; reflexivity|]. do 6 (split; [discriminate|]). eexists. split; [vm_compute; reflexivity|discriminate].
Qed.
(** band velocities in the first of two steps *)
Definition velocity_calcs : list xml := [sample_step "0.5" [(" -1.0", " -2.0", " -3.0")] [velocities2; sample_dos]; sample_step "0.6" [(" -1.25", " -2.25", " -3.25")] [sample_eigenvalues]].
Definition sample_velocity : xml := sample_document velocity_calcs.
Example c55_sample_velocity : exists steps energies p p', vasp_run sample_velocity 2 steps energies /\ length steps = 2 /\ parsew sample_velocity false true = Ok p /\ parsee false (events None sample_velocity) = Ok p' /\
  (exists v k, p_velocities p = Some v /\ p_kpoints_specific p = Some k /\ length k = 2) /\ p_kpointsw_specific p <> None /\ p_eigenvalues p <> None.
Proof.
  assert (exists l, all_some (map (step_of 2) (calculations sample_velocity)) = Some l /\ length l = 2) as (steps & S & LS) by (eexists; split; [vm_compute; reflexivity|reflexivity]).
  assert (exists l, all_some (map pairs_of (calculations sample_velocity)) = Some l) as (en & E) by (eexists; vm_compute; reflexivity).
  assert (is_run sample_velocity velocity_calcs) as R by (unfold sample_velocity; run_).
  exists steps, en. eexists _, _. split; [exists velocity_calcs; split; [exact R|]; rewrite <- (sample_is velocity_calcs R); split; [apply steps_of_hold; exact S|apply all_pairs_hold; exact E]|].
  split; [exact LS|]. split; [vm_compute; reflexivity|]. split; [vm_compute; reflexivity|]. split; [eexists _, _; split; [vm_compute; reflexivity|split; [vm_compute; reflexivity|reflexivity]]|]. split; discriminate.
Qed.
