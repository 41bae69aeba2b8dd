(** The two parsers agree. *)
From Coq Require Import Ascii String List NArith ZArith Bool Lia.
From Verif Require Import PyBase PyStrLemmas PyLines PyNum UtilsModel LineModel OutcarModel DoscarProofs ChgcarModel ChgcarProofs StreamConfig VasprunTypes VasprunXml VasprunModel VasprunEvents VasprunSpec VasprunTables VasprunTree VasprunSteps VasprunEnergies VasprunDoc VasprunRun VasprunElems VasprunElems2 VasprunElems3 VasprunElems4 VasprunElems5 VasprunElems6 VasprunElems7 VasprunElems8 VasprunPaths VasprunCalc VasprunResults VasprunHead VasprunHead2 VasprunHead3 VasprunAgree VasprunAgree2.
Import ListNotations.
Local Open Scope string_scope.
Local Open Scope list_scope.

Lemma modeling_step kbb st p t ks s : s_flags s = 0%N -> step kbb st true p (Elem "modeling" [] t ks) s = Ok s.
Proof. intros E. at_flags s E. destruct st; ev; reflexivity. Qed.
(** the attributes before the ionic steps *)
Definition head_of (p : parsed) : parsed :=
  set_p_species (p_species p) (set_params p (set_p_kdiv (p_kdiv p) (set_p_kpointsw (p_kpointsw p) (set_p_kpoints (p_kpoints p) (set_p_version (p_version p) nothing))))).
Section Run.
Context {x : xml} {calcs : list xml} {ge kp pa ai : xml} {q1 q2 q3 q4 q5 q6 : list xml} (P : run_parts x calcs ge kp pa ai q1 q2 q3 q4 q5 q6).
Context {kbb all : bool} {p : parsed} (T : tree_run x kbb all p).
Lemma param_is (path : list pstep) : find (Tag "parameters" :: path) x = hd_error (findall_child path pa).
Proof. unfold find. rewrite (parameters_path P). auto. Qed.
Lemma params_are : param_values pa p.
Proof.
  assert (forall path r, param_f x path = Ok r -> pval convert_f path pa = Ok r) as F by (intros path r H; unfold param_f, param in H; rewrite param_is in H; unfold pval; destruct (hd_error _); auto).
  assert (forall path r, param_i x path = Ok r -> pval convert_i path pa = Ok r) as I by (intros path r H; unfold param_i, param in H; rewrite param_is in H; unfold pval; destruct (hd_error _); auto).
  destruct T. repeat split; try (apply F; assumption); try (apply I; assumption).
  rewrite tr_system. unfold fetch_system, param. rewrite param_is. unfold pval. change [sep "general"; item "SYSTEM"] with (the_path "SYSTEM"). destruct (hd_error _); auto.
Qed.
Lemma head_run : exists s, run_events kbb (flat_map (events (Some [])) (q1 ++ [ge] ++ q2 ++ [kp] ++ q3 ++ [pa] ++ q4 ++ [ai] ++ q5)) start_state = Ok (set_s_out (head_of p) s) /\ s = start_state /\ exists spe, p_species p = Some spe.
Proof.
  exists start_state. pose proof params_are as PV. destruct P as [_ GE KP PA AI Q1 Q2 Q3 Q4 Q5 _ _ _ _ _].
  assert (ready 0 start_state) as R0 by (repeat split).
  destruct (ev_generator kbb (Some []) ge start_state GE R0) as (l & L & LL & RUN1).
  assert (run_events kbb (events (Some []) ge) start_state = Ok (out_ (set_p_version (p_version p)) start_state)) as E1.
  { rewrite RUN1. destruct T. rewrite tr_version. unfold fetch_version, find. rewrite (generator_path P), L. destruct l as [|k l]; reflexivity. }
  set (s1 := out_ (set_p_version (p_version p)) start_state) in *. assert (ready 0 s1) as R1 by (repeat split).
  destruct (ev_kpoints kbb (Some []) kp s1 KP R1) as (r1 & r2 & ld & H1 & H2 & N1 & N2 & H3 & RUN2).
  assert (exists m w, p_kpoints p = Some m /\ p_kpointsw p = Some w /\ convert2D 3 r1 = Ok m /\ convert1D r2 = Ok w) as (m & w & KM & KW & M & W).
  { destruct T. unfold fetch_kpoints, vrr in tr_kpoints. unfold fetch_kpointsw, vrr in tr_kpointsw. rewrite (kpoints_path P) in tr_kpoints, tr_kpointsw. rewrite H1, some_list_some in tr_kpoints by auto. rewrite H2, some_list_some in tr_kpointsw by auto.
    cbn [opt_map_res] in *. apply bind_ok in tr_kpoints as (m & M & E). apply bind_ok in tr_kpointsw as (w & W & E'). apply Ok_inj' in E. apply Ok_inj' in E'. exists m, w. auto. }
  assert (opt_map_res (fun e => convert_array_i (text e)) (hd_error ld) = Ok (p_kdiv p)) as KD by (destruct T; unfold fetch_kdiv in tr_kdiv; rewrite (kpoints_path P), H3 in tr_kdiv; auto).
  specialize (RUN2 m w (p_kdiv p) M W KD eq_refl). set (s2 := out_ _ s1) in RUN2. assert (ready 0 s2) as R2 by (repeat split).
  assert (run_events kbb (events (Some []) pa) s2 = Ok (out_ (set_params p) s2)) as E3 by (apply ev_parameters; auto; repeat split).
  set (s3 := out_ (set_params p) s2) in *. assert (ready 0 s3) as R3 by (repeat split).
  destruct (ev_atominfo kbb (Some []) ai s3 AI R3) as (cs & C & CN & RUN4).
  assert (exists spe, p_species p = Some spe /\ convert_species (every_other cs) = Ok spe) as (spe & SP & CS).
  { destruct T. unfold fetch_species, findall in tr_species. rewrite (atominfo_path P), C, some_list_some in tr_species by auto. cbn [opt_map_res] in tr_species. apply bind_ok in tr_species as (spe & S & E). apply Ok_inj' in E. exists spe. auto. }
  specialize (RUN4 spe CS). split; [|split; [auto|exists spe; auto]].
  rewrite run_flat_app, calm_top by (auto; apply R0). cbn [bind]. rewrite run_flat_app, run_flat_one, E1. cbn [bind].
  rewrite run_flat_app, calm_top by (auto; apply R1). cbn [bind]. rewrite run_flat_app, run_flat_one, RUN2. cbn [bind].
  rewrite run_flat_app, calm_top by (auto; apply R2). cbn [bind]. rewrite run_flat_app, run_flat_one, E3. cbn [bind].
  rewrite run_flat_app, calm_top by (auto; apply R3). cbn [bind]. rewrite run_flat_app, run_flat_one, RUN4. cbn [bind].
  rewrite calm_top by (auto; apply R3). unfold head_of. rewrite SP, KM, KW. unfold s3, s2, s1, out_. cbn [s_out set_s_out]. unfold start_state. cbn [s_out]. cbv [set_s_out s_flags s_calc s_data s_data2 s_data3 s_data4 s_data5 s_data6 s_cell s_pos s_force s_stress s_totens s_dos s_part1 s_part2 s_dynmat s_specific s_has_dynmat s_out]. reflexivity.
Qed.

(** the results in the tree *)
Lemma eig_is : eig_of kbb (p_ispin p) (p_nbands p) (p_kpoints p) (path_in (children calcs) (Tag "eigenvalues") (eig_path "spin 1")) (path_in (children calcs) (Tag "eigenvalues") (eig_path "spin 2")) = Ok (p_eigenvalues p, p_occupancies p).
Proof. destruct T. clear - P tr_eigenvalues. unfold fetch_eigenvalues, spin_rows in tr_eigenvalues. cbn [app] in tr_eigenvalues. rewrite !(calc_path P) in tr_eigenvalues. exact tr_eigenvalues. Qed.
Lemma proj_is : pr_of kbb (p_kpoints p) (p_ispin p) (p_nbands p) (p_species p) (path_in (children calcs) (Tag "projected") (proj_path "spin1")) (path_in (children calcs) (Tag "projected") (proj_path "spin2")) = Ok (p_projectors p).
Proof. destruct T. clear - P tr_projectors. unfold fetch_projectors, projector_rows in tr_projectors. rewrite !(calc_path P) in tr_projectors. exact tr_projectors. Qed.
Lemma dos_is : dos_of (p_species p) (path_in (children calcs) (Tag "dos") [item "efermi"]) (path_in (children calcs) (Tag "dos") (total_path "spin 1")) (path_in (children calcs) (Tag "dos") (total_path "spin 2")) (path_in (children calcs) (Tag "dos") (partial_path "spin 1")) (path_in (children calcs) (Tag "dos") (partial_path "spin 2")) = Ok (p_dos p).
Proof.
  destruct T. clear - P tr_dos. unfold fetch_dos in tr_dos. apply bind_ok in tr_dos as (d & D & E). assert (d = p_dos p) as -> by (destruct d; [apply bind_ok in E as (i & _ & E)|]; apply Ok_inj' in E; apply (f_equal fst) in E; exact E). clear E.
  unfold dos_parts in D. cbv zeta in D. rewrite !(calc_path P), (calc_find P) in D. exact D.
Qed.
Lemma hessian_is spe : p_species p = Some spe -> hessian_of spe (path_in (children calcs) (Tag "dynmat") [vrr "hessian"; Tag "v"]) = Ok (p_hessian p).
Proof. intros S. destruct T. clear - P S tr_hessian. unfold fetch_hessian in tr_hessian. rewrite (calc_path P), S in tr_hessian. unfold hessian_of. destruct (some_list _); exact tr_hessian. Qed.
Lemma dynmat_is spe : p_species p = Some spe -> dynmat_of spe (path_in (children calcs) (Tag "dynmat") [TagAt "v" "name" "eigenvalues"]) (path_in (children calcs) (Tag "dynmat") [vrr "eigenvectors"]) = Ok (p_dynmat p).
Proof. intros S. destruct T. clear - P S tr_dynmat. unfold fetch_dynmat in tr_dynmat. rewrite !(calc_find P), S in tr_dynmat. unfold dynmat_of. destruct (hd_error (path_in (children calcs) (Tag "dynmat") [TagAt "v" "name" "eigenvalues"])); exact tr_dynmat. Qed.
Lemma born_is spe : p_species p = Some spe -> born_of spe (path_in (children calcs) born_ [Tag "set"; Tag "v"]) = Ok (p_born p).
Proof. intros S. destruct T. clear - P S tr_born. unfold fetch_born in tr_born. rewrite (calc_path P), S in tr_born. unfold born_of, born_. destruct (some_list _); exact tr_born. Qed.
Lemma no_interpolated r : path_in (children calcs) (TagAt "dos" "comment" "interpolated") r = [].
Proof.
  unfold path_in. rewrite filter_quiet; auto. intros k K. destruct (matches (TagAt "dos" "comment" "interpolated") k) eqn:M; auto. exfalso.
  assert (matches (Tag "dos") k = true) as M' by (apply tag_matches; apply matches_tag in M; exact M).
  destruct (dos_child _ _ (child_in P _ K) M') as (a & t & ef & total & partial & t1 & t2 & p1 & p2 & _ & _ & _ & (y & ->) & _). cbn in M. discriminate.
Qed.
Lemma no_inner r : path_in (children calcs) (Tag "eigenvalues") (Tag "eigenvalues" :: r) = [].
Proof.
  unfold path_in. assert (forall k, In k (filter (matches (Tag "eigenvalues")) (children calcs)) -> findall_child (Tag "eigenvalues" :: r) k = []) as A.
  { intros k K. apply filter_In in K as [K M]. destruct (eig_child _ _ (child_in P _ K) M) as (r1 & r2 & arr & st & spins & k1 & k2 & y1 & y2 & (y & ->) & (h & _ & (z & ->)) & _). rewrite child_cons. reflexivity. }
  induction (filter _ _) as [|k l IH]; auto. cbn [flat_map]. rewrite A, IH by (try (left; auto; fail); intros; apply A; right; auto). auto.
Qed.
(** what the tree parser finds nowhere *)
Lemma no_specific : fetch_eigenvalues_specific x kbb (p_ispin p) (p_nbands p) = Ok None.
Proof. unfold fetch_eigenvalues_specific, spin_rows. cbn [app]. rewrite (calc_path P), no_inner. reflexivity. Qed.
Lemma nothing_else : p_eigenvalues_specific p = None /\ p_dos_specific p = None.
Proof.
  destruct T. clear - P tr_specific tr_dos. split.
  - destruct tr_specific as (spec & vel & SP & VE & E1 & E2 & E3 & E4). unfold fetch_eigenvalues_specific, spin_rows in SP. cbn [app] in SP. rewrite (calc_path P), no_inner in SP. apply Ok_inj' in SP. subst spec. exact E1.
  - unfold fetch_dos in tr_dos. apply bind_ok in tr_dos as (d & _ & E). destruct d as [d|]; [|apply Ok_inj' in E; apply (f_equal snd) in E; auto]. unfold dos_parts in E. cbv zeta in E. rewrite !(calc_path P), !no_interpolated in E. apply bind_ok in E as (i & DI & E). apply bind_ok in DI as (fe & _ & DI). apply Ok_inj' in DI. subst i. apply Ok_inj' in E. apply (f_equal snd) in E. auto.
Qed.
Lemma vel_is : exists vel, vel_of kbb (p_ispin p) (p_nbands p) (path_in (children calcs) (Tag "eigenvelocities") (vel_path "spin 1")) (path_in (children calcs) (Tag "eigenvelocities") (vel_path "spin 2")) (path_in (children calcs) (Tag "eigenvelocities") (vk_path "kpointlist")) (path_in (children calcs) (Tag "eigenvelocities") (vk_path "weights")) = Ok vel /\
  p_velocities p = option_map (fun s => fst (fst s)) vel /\ p_kpoints_specific p = (match vel with Some (_, k, _) => k | None => None end) /\ p_kpointsw_specific p = (match vel with Some (_, _, w) => w | None => None end).
Proof.
  pose proof no_specific as NS. destruct T. clear - P tr_specific NS. destruct tr_specific as (spec & vel & SP & VE & _ & E2 & E3 & E4). rewrite NS in SP. apply Ok_inj' in SP. subst spec.
  exists vel. split; [|split; [exact E2|split; [rewrite E3; destruct vel as [[[? ?] ?]|]; reflexivity|rewrite E4; destruct vel as [[[? ?] ?]|]; reflexivity]]].
  rewrite <- VE. unfold fetch_eigenvelocities, spin_rows, specific_kpoints, specific_kpointsw. cbn [app]. rewrite !(calc_path P). reflexivity.
Qed.
Lemma children_target spe dv : p_species p = Some spe -> diel_of (path_in (children calcs) (Tag "dielectricfunction") (part_path "imag")) (path_in (children calcs) (Tag "dielectricfunction") (part_path "real")) = Ok dv ->
  target kbb (children calcs) (head_of p) spe dv p.
Proof.
  intros S D. constructor; auto; try exact S.
  - exact eig_is.
  - rewrite <- S. exact dos_is.
  - rewrite <- S. exact proj_is.
  - apply hessian_is; auto.
  - apply dynmat_is; auto.
  - apply born_is; auto.
  - exact vel_is.
  - apply Forall_forall. intros k K. apply (child_in P). auto.
  - apply (rp_once _ _ _ _ _ _ _ _ _ _ _ _ P).
Qed.
(** the dielectric function in the attributes of the event parser *)
Definition event_diel (p : parsed) : option diel :=
  match p_diel p with Some (Diel (Some e) i r _ _) => Some (Diel (Some e) i r None None) | _ => None end.
Lemma split_two {A} (a b : list A) : length b = length a -> split_even 2 (a ++ b) = Ok [a; b].
Proof.
  intros L. unfold split_even. rewrite app_length, L. replace (length a + length a) with (length a * 2) by lia. rewrite Nat.mod_mul, Nat.div_mul by lia. cbn [Nat.eqb chunks].
  rewrite firstn_app, Nat.sub_diag, firstn_all, firstn_O, app_nil_r, skipn_app, Nat.sub_diag, skipn_all, skipn_O. cbn [app]. rewrite <- L, firstn_all. reflexivity.
Qed.
Lemma diel_is : diel_of (path_in (children calcs) (Tag "dielectricfunction") (part_path "imag")) (path_in (children calcs) (Tag "dielectricfunction") (part_path "real")) = Ok (event_diel p).
Proof.
  assert (exists d, fetch_diel x = Ok d /\ p_diel p = Some d) as (d & D & PD) by (destruct T; auto). unfold event_diel. rewrite PD. clear PD.
  unfold fetch_diel in D. cbv zeta in D. rewrite !(calc_path P) in D. fold (part_path "imag") in D. fold (part_path "real") in D.
  destruct (existsb (matches (Tag "dielectricfunction")) (children calcs)) eqn:E.
  - apply existsb_exists in E as (k & K & M). destruct (diel_child _ _ (child_in P _ K) M) as (im & re & H). destruct (diel_paths _ _ _ H) as (PI & PR & NI & L).
    rewrite !(path_in_unique _ _ _ k) by (auto; apply (rp_once _ _ _ _ _ _ _ _ _ _ _ _ P); cbn; tauto).
    rewrite !(path_in_unique _ (Tag "dielectricfunction") _ k) in D by (auto; apply (rp_once _ _ _ _ _ _ _ _ _ _ _ _ P); cbn; tauto). rewrite PI, PR in *.
    assert (re <> []) as NR by (intros ->; destruct im; [congruence|discriminate L]). rewrite (some_nonempty im), (some_nonempty re) in D by auto. cbn [opt_map_res] in D.
    apply bind_ok in D as (o1 & D1 & D). apply bind_ok in D1 as (mi & MI & E1). apply Ok_inj' in E1. subst o1. apply bind_ok in D as (o2 & D2 & D). apply bind_ok in D2 as (mr & MR & E2). apply Ok_inj' in E2. subst o2.
    apply bind_ok in D as (ep & _ & D). apply bind_ok in D as (ei & _ & D). apply Ok_inj' in D. subst d. cbn [option_map].
    unfold diel_of. rewrite (some_nonempty im) by auto. unfold convert2D in *. rewrite mapM_app, MI. cbn [bind]. rewrite MR. cbn [bind]. rewrite split_two by (apply mapM_length in MI; apply mapM_length in MR; congruence). reflexivity.
  - rewrite !path_in_absent by auto. rewrite !(path_in_absent _ (Tag "dielectricfunction")) in D by auto. cbn [some_list opt_map_res bind] in D.
    apply bind_ok in D as (ep & _ & D). apply bind_ok in D as (ei & _ & D). apply Ok_inj' in D. subst d. reflexivity.
Qed.
Lemma diel_parts : exists d, p_diel p = Some d /\ (di_energy d = None /\ di_imag d = None /\ di_real d = None \/ exists e i r, di_energy d = Some e /\ di_imag d = Some i /\ di_real d = Some r).
Proof.
  assert (exists d, fetch_diel x = Ok d /\ p_diel p = Some d) as (d & D & PD) by (destruct T; auto). exists d. split; auto. clear PD.
  unfold fetch_diel in D. cbv zeta in D. rewrite !(calc_path P) in D. fold (part_path "imag") in D. fold (part_path "real") in D.
  apply bind_ok in D as (oi & DI & D). apply bind_ok in D as (orr & DR & D). apply bind_ok in D as (ep & _ & D). apply bind_ok in D as (ei & _ & D). apply Ok_inj' in D. subst d. cbn [di_energy di_imag di_real].
  destruct (existsb (matches (Tag "dielectricfunction")) (children calcs)) eqn:E.
  - right. apply existsb_exists in E as (k & K & M). destruct (diel_child _ _ (child_in P _ K) M) as (im & re & H). destruct (diel_paths _ _ _ H) as (PI & PR & NI & L).
    rewrite (path_in_unique _ (Tag "dielectricfunction") _ k) in DI by (auto; apply (rp_once _ _ _ _ _ _ _ _ _ _ _ _ P); cbn; tauto). rewrite (path_in_unique _ (Tag "dielectricfunction") _ k) in DR by (auto; apply (rp_once _ _ _ _ _ _ _ _ _ _ _ _ P); cbn; tauto). rewrite PI in DI. rewrite PR in DR.
    assert (re <> []) as NR by (intros ->; destruct im; [congruence|discriminate L]). rewrite (some_nonempty im) in DI by auto. rewrite (some_nonempty re) in DR by auto. cbn [opt_map_res] in *.
    apply bind_ok in DI as (mi & _ & DI). apply bind_ok in DR as (mr & _ & DR). apply Ok_inj' in DI. apply Ok_inj' in DR. subst. do 3 eexists. split; [reflexivity|]. split; reflexivity.
  - left. rewrite !(path_in_absent _ (Tag "dielectricfunction")) in DI, DR by auto. apply Ok_inj' in DI. apply Ok_inj' in DR. subst. auto.
Qed.
End Run.
(** the attributes after a run of the event parser *)
Definition event_result (steps : list ion_step) (p : parsed) : parsed :=
  set_p_diel (event_diel p) (set_p_cell (Some (numbered (map st_cell steps))) (set_p_pos (Some (numbered (map st_pos steps))) (set_p_force (Some (numbered (map st_force steps))) (set_p_stress (Some (numbered (map st_stress steps))) p)))).
Lemma combine_values {A} (g : calc_values -> A) (h : ion_step -> A) (sts : list ion_step) (fs : list (str -> energy_pair)) : (forall st f, g (values st f) = h st) -> length sts = length fs ->
  map g (map (fun x => values (fst x) (snd x)) (combine sts fs)) = map h sts.
Proof. intros H. revert fs. induction sts as [|st sts IH]; intros [|f fs] L; try discriminate; auto. cbn. rewrite H. f_equal. apply IH. auto. Qed.
Lemma combine_tots (sts : list ion_step) (fs : list (str -> energy_pair)) : length sts = length fs -> map v_tot (map (fun x => values (fst x) (snd x)) (combine sts fs)) = map tot_of fs.
Proof. revert fs. induction sts as [|st sts IH]; intros [|f fs] L; try discriminate; auto. cbn. f_equal. apply IH. auto. Qed.
Lemma nonempty_numbered {A} (l : list A) : l <> [] -> nonempty (numbered l) = Some (numbered l).
Proof. destruct l; [congruence|reflexivity]. Qed.
Lemma found_from n fs : fs <> [] -> found_totens (numbered_from n (map tot_of fs)) = true.
Proof. destruct fs as [|f fs]; [congruence|]. intros _. cbn. rewrite !orb_true_r. reflexivity. Qed.
(** all children give the values of [p] *)
Section Picks.
Context (kbb : bool) (all : list xml) (o0 : parsed) (spe : list Z) (dv : option diel) (p : parsed) (TG : target kbb all o0 spe dv p).
Lemma pick_all {A} s (v : A) o : (existsb (matches s) all = false -> v = o) -> pick s all v o = v.
Proof. intros H. unfold pick. destruct (existsb (matches s) all); auto. symmetry. auto. Qed.
Lemma eig_absent : existsb (matches (Tag "eigenvalues")) all = false -> p_eigenvalues p = None /\ p_occupancies p = None.
Proof. intros E. pose proof (tg_eig _ _ _ _ _ _ TG) as H. rewrite !path_in_absent in H by auto. cbn [eig_of some_list] in H. apply Ok_inj' in H. injection H as -> ->. auto. Qed.
Lemma dos_absent : existsb (matches (Tag "dos")) all = false -> p_dos p = None.
Proof. intros E. pose proof (tg_dos _ _ _ _ _ _ TG) as H. rewrite !path_in_absent in H by auto. apply Ok_inj' in H. auto. Qed.
Lemma proj_absent : existsb (matches (Tag "projected")) all = false -> p_projectors p = None.
Proof. intros E. pose proof (tg_proj _ _ _ _ _ _ TG) as H. rewrite !path_in_absent in H by auto. apply Ok_inj' in H. auto. Qed.
Lemma diel_absent : existsb (matches (Tag "dielectricfunction")) all = false -> dv = None.
Proof. intros E. pose proof (tg_diel _ _ _ _ _ _ TG) as H. rewrite !path_in_absent in H by auto. apply Ok_inj' in H. auto. Qed.
Lemma dynmat_absent : existsb (matches (Tag "dynmat")) all = false -> p_hessian p = None /\ p_dynmat p = None.
Proof. intros E. pose proof (tg_hessian _ _ _ _ _ _ TG) as H. pose proof (tg_dynmat _ _ _ _ _ _ TG) as H'. rewrite !path_in_absent in H, H' by auto. apply Ok_inj' in H. apply Ok_inj' in H'. auto. Qed.
Lemma born_absent : existsb (matches born_) all = false -> p_born p = BornNone.
Proof. intros E. pose proof (tg_born _ _ _ _ _ _ TG) as H. rewrite !path_in_absent in H by auto. apply Ok_inj' in H. auto. Qed.
Lemma dynmat_present : existsb (matches (Tag "dynmat")) all = true -> exists d, p_dynmat p = Some d.
Proof.
  intros E. apply existsb_exists in E as (k & K & M). pose proof (tg_children _ _ _ _ _ _ TG) as F. rewrite Forall_forall in F. destruct (dynmat_child _ _ (F k K) M) as (h & t & w & H).
  pose proof (tg_dynmat _ _ _ _ _ _ TG) as D. rewrite !(path_in_unique _ _ _ k) in D by (auto; apply (tg_once _ _ _ _ _ _ TG); cbn; tauto). destruct (dynmat_paths _ _ _ _ H) as (_ & P2 & z & P3). rewrite P2, P3 in D. cbn [dynmat_of hd_error] in D.
  apply bind_ok in D as (vals & _ & D). apply bind_ok in D as (m & _ & D). apply Ok_inj' in D. eauto.
Qed.
Lemma vel_absent : existsb (matches (Tag "eigenvelocities")) all = false -> p_velocities p = None /\ p_kpoints_specific p = None /\ p_kpointsw_specific p = None.
Proof. intros E. destruct (tg_vel _ _ _ _ _ _ TG) as (vel & H & A & B & C). rewrite !path_in_absent in H by auto. apply Ok_inj' in H. subst vel. auto. Qed.
Lemma out_all : out_at o0 dv p all = assemble (p_born p) (p_hessian p) dv (p_projectors p) (p_dos p) (p_occupancies p) (p_eigenvalues p) (p_velocities p) (p_kpointsw_specific p) (p_kpoints_specific p) o0.
Proof.
  unfold out_at. rewrite (pick_all born_) by exact born_absent. rewrite (pick_all (Tag "dynmat")) by apply dynmat_absent. rewrite (pick_all (Tag "dielectricfunction")) by exact diel_absent. rewrite (pick_all (Tag "projected") (p_projectors p)) by exact proj_absent. rewrite (pick_all (Tag "dos")) by exact dos_absent.
  rewrite !(pick_all (Tag "eigenvelocities")) by apply vel_absent.
  rewrite !(pick_all (Tag "eigenvalues")); auto; intros E; destruct (eig_absent E) as [A1 A2]; rewrite ?A1, ?A2, pick_same; auto.
Qed.
Lemma dynmat_all o : p_dynmat o = None -> (if has_at all then set_p_dynmat (Some (dyn_at p all)) o else o) = set_p_dynmat (p_dynmat p) o.
Proof.
  intros N. unfold has_at, dyn_at, pick. destruct (existsb (matches (Tag "dynmat")) all) eqn:E.
  - destruct (dynmat_present E) as [d D]. rewrite D. reflexivity.
  - destruct (dynmat_absent E) as [_ ->]. clear -N. destruct o. cbn in N. rewrite N. reflexivity.
Qed.
End Picks.
Lemma out_nil o dv p : p_born o = BornNone -> p_hessian o = None -> p_diel o = None -> p_projectors o = None -> p_dos o = None -> p_occupancies o = None -> p_eigenvalues o = None ->
  p_velocities o = None -> p_kpoints_specific o = None -> p_kpointsw_specific o = None -> out_at o dv p [] = o.
Proof. intros. unfold out_at. rewrite !pick_nil. destruct o. cbn in *. subst. reflexivity. Qed.
Lemma head_nil p : out_at (head_of p) (event_diel p) p [] = head_of p.
Proof. apply out_nil; reflexivity. Qed.
Lemma agree x calcs n steps fs kbb all p : is_run x calcs -> Forall2 (step_holds n) calcs steps -> Forall2 energies_hold calcs fs -> parsew x kbb all = Ok p ->
  parsee kbb (events None x) = Ok (event_result steps p).
Proof.
  intros RUN ST EN PW. destruct (run_is _ _ RUN) as (ge & kp & pa & ai & q1 & q2 & q3 & q4 & q5 & q6 & P). apply parsew_run in PW as T.
  destruct (head_run P T) as (s0 & HEAD & -> & (spe & SP)). pose proof (children_target P T spe (event_diel p) SP (diel_is P T)) as TG. pose proof (nothing_else P T) as (N1 & N2).
  assert (steps <> []) as NS by (intros ->; inversion ST; subst; apply (rp_some _ _ _ _ _ _ _ _ _ _ _ _ P); auto). assert (fs <> []) as NF by (intros ->; inversion EN; subst; apply (rp_some _ _ _ _ _ _ _ _ _ _ _ _ P); auto).
  assert (p_totens p = Some (numbered_from 1 (map tot_of fs))) as TT.
  { assert (fetch_totens x = Ok (Some (numbered_from 1 (map tot_of fs)))) as F. { apply fetch_totens_ok; [auto|]. rewrite (calcs_are P). auto. } destruct T. rewrite F in tr_totens. apply Ok_inj' in tr_totens. auto. }
  assert (length steps = length fs) as LL by (apply Forall2_length in ST; apply Forall2_length in EN; congruence).
  pose proof P as P'. destruct P' as [(y & ->) _ _ _ _ _ _ _ _ _ Q6 _ CS _ _].
  unfold parsee. rewrite run_elem. cbn [handle]. rewrite modeling_step by auto. cbn [bind].
  match goal with |- context [flat_map (events (Some [])) ?l] => replace l with ((q1 ++ [ge] ++ q2 ++ [kp] ++ q3 ++ [pa] ++ q4 ++ [ai] ++ q5) ++ calcs ++ q6) by (rewrite <- !app_assoc; reflexivity) end.
  rewrite run_flat_app, HEAD. cbn [bind].
  replace (set_s_out (head_of p) start_state) with (steps_done (head_of p) (event_diel p) p [] []) by (clear; unfold steps_done, rest; rewrite head_nil; reflexivity).
  rewrite run_flat_app, (calcs_run kbb (children calcs) (head_of p) spe (event_diel p) p TG n (Some []) calcs CS steps fs ST EN [] [] []) by (rewrite app_nil_r; reflexivity). cbn [bind app]. fold (children calcs).
  rewrite calm_top by (auto; reflexivity). cbn [bind handle]. rewrite modeling_step by reflexivity. cbn [bind]. f_equal.
  unfold steps_done. rewrite (combine_values v_basis st_cell), (combine_values v_pos st_pos), (combine_values v_force st_force), (combine_values v_stress st_stress), combine_tots by auto.
  unfold rest, finish. cbn [s_out s_specific s_has_dynmat s_dynmat s_cell s_pos s_force s_stress s_totens].
  rewrite (out_all _ _ _ _ _ _ TG), (dynmat_all _ _ _ _ _ _ TG) by (clear; destruct p; reflexivity). rewrite found_from by auto. rewrite !nonempty_numbered by (destruct steps; [congruence|discriminate]). rewrite <- TT.
  unfold event_result, head_of, set_params. generalize (event_diel p). intros dv. clear - N1 N2. destruct p. cbn in *. subst. reflexivity.
Qed.
