(** The ionic steps of a document, read by the event parser. *)
From Coq Require Import Ascii String List NArith ZArith Bool Lia.
From Verif Require Import PyBase PyStrLemmas PyNum UtilsModel LineModel OutcarModel ChgcarModel StreamConfig VasprunTypes VasprunXml VasprunModel VasprunEvents VasprunSpec VasprunSteps VasprunDoc VasprunRun VasprunElems VasprunElems2 VasprunElems3 VasprunElems5 VasprunElems6 VasprunElems7 VasprunElems8 VasprunPaths VasprunCalc.
Import ListNotations.
Local Open Scope string_scope.
Local Open Scope list_scope.

Definition path_in (rs : list xml) (s : pstep) (r : list pstep) : list xml := flat_map (findall_child r) (filter (matches s) rs).
Definition eig_path (n : string) : list pstep := [Tag "array"; Tag "set"; spin_set n; Tag "set"; Tag "r"].
Definition proj_path (n : string) : list pstep := [Tag "array"; Tag "set"; spin_set n; Tag "set"; Tag "set"; Tag "r"].
Definition total_path (n : string) : list pstep := [Tag "total"; Tag "array"; Tag "set"; spin_set n; Tag "r"].
Definition partial_path (n : string) : list pstep := [Tag "partial"; Tag "array"; Tag "set"; Tag "set"; spin_set n; Tag "r"].
Definition eig_of (kbb : bool) (ispin nbands : option Z) (kpoints : option matrix) (s1 s2 : list xml) : res (option (spins matrix) * option (spins matrix)) :=
  match some_list s1 with
  | None => Ok (None, None)
  | Some s1 => let* n := olen kpoints in let* (e, o) := extract_eigenvalues kbb ispin nbands s1 (some_list s2) n in Ok (Some e, o)
  end.
Definition pr_of (kbb : bool) (kpoints : option matrix) (ispin nbands : option Z) (species : option (list Z)) (s1 s2 : list xml) : res (option (spins (list (list matrix)))) :=
  match some_list s1 with None => Ok None | Some s1 => let* p := extract_projectors kbb kpoints ispin nbands species s1 (some_list s2) in Ok (Some p) end.
Definition dos_of (species : option (list Z)) (ef t1 t2 p1 p2 : list xml) : res (option ddict) :=
  let* fermi := match hd_error ef with None => Ok None | Some e => convert_f (text e) end in
  match some_list t1, species with
  | Some t1, Some sp => let* r := extract_dos (Some t1) (some_list t2) (some_list p1) (some_list p2) fermi (length sp) in Ok (Some r)
  | _, _ => Ok None
  end.
Lemma some_second {A} (l : list A) : some_list l = match l with [] => None | _ => Some l end. Proof. destruct l; auto. Qed.
Lemma second_some l : some_list l = second l. Proof. destruct l; auto. Qed.
Lemma some_nonempty {A} (l : list A) : l <> [] -> some_list l = Some l. Proof. apply some_list_some. Qed.
Definition part_path (n : string) : list pstep := [Tag n; Tag "array"; Tag "set"; Tag "r"].
Lemma diel_paths im re k : is_dielectric im re k -> findall_child (part_path "imag") k = im /\ findall_child (part_path "real") k = re /\ im <> [] /\ length re = length im.
Proof.
  intros (a & y & i & j & -> & HI & HJ & NI & LR).
  assert (forall n rows q, is_part n rows q -> findall_child [Tag "array"; Tag "set"; Tag "r"] q = rows) as PP.
  { clear. intros n rows q (arr & st & HQ & HA & HS & FR). rewrite (plain_child _ _ _ _ _ HQ), filter_one, flat_one, (array_set _ _ _ HA), (plain_child _ _ _ _ _ HS), flat_child_nil by (eauto using plain_set, array_tag). apply (filter_rows "r"); auto. }
  assert (forall n rows q, is_part n rows q -> tag q = n) as PT by (clear; intros n rows q (arr & st & (z & ->) & _); auto).
  unfold part_path. rewrite !child_cons. cbn [filter matches]. rewrite (PT _ _ _ HI), (PT _ _ _ HJ). cbn [String.eqb Ascii.eqb Bool.eqb]. rewrite !flat_one. split; [eapply PP; eauto|]. split; [eapply PP; eauto|]. auto.
Qed.
Lemma dynmat_paths h t w k : is_dynmat h t w k -> findall_child [vrr "hessian"; Tag "v"] k = h /\ findall_child [TagAt "v" "name" "eigenvalues"] k = [Elem "v" [("name", "eigenvalues")] t []] /\ exists z, findall_child [vrr "eigenvectors"] k = [Elem "varray" [("name", "eigenvectors")] z w].
Proof.
  intros (ha & va & q & (y & EK) & ((z1 & ->) & RH) & ((z2 & ->) & RV) & NH & Q).
  assert (forall n, In n ["hessian"; "eigenvectors"; "eigenvalues"] -> forall g, In g q -> attr g "name" <> Some n) as QN.
  { intros n IN g G Z. destruct (Q g g G (or_introl eq_refl)) as [_ D]. apply D. rewrite Z. clear -IN. cbn in *. intuition congruence. }
  assert (forall tg n, In n ["hessian"; "eigenvectors"; "eigenvalues"] -> filter (matches (TagAt tg "name" n)) q = []) as QF.
  { intros tg n IN. apply filter_quiet. intros g G. cbn [matches]. rewrite opt_is_false by (apply QN; auto). apply andb_false_r. }
  assert (findall_child [vrr "hessian"; Tag "v"] k = h) as P1.
  { rewrite EK, child_cons, filter_app. unfold vrr. rewrite QF by (cbn; tauto). cbn [filter]. change (matches (TagAt "varray" "name" "hessian") (Elem "varray" [("name", "hessian")] z1 h)) with true. change (matches (TagAt "varray" "name" "hessian") (Elem "v" [("name", "eigenvalues")] t [])) with false. change (matches (TagAt "varray" "name" "hessian") (Elem "varray" [("name", "eigenvectors")] z2 w)) with false. cbn [app]. rewrite flat_one, child_cons, flat_child_nil. apply (filter_rows "v"); auto. }
  assert (findall_child [TagAt "v" "name" "eigenvalues"] k = [Elem "v" [("name", "eigenvalues")] t []]) as P2.
  { rewrite EK, child_cons, filter_app, QF by (cbn; tauto). reflexivity. }
  assert (findall_child [vrr "eigenvectors"] k = [Elem "varray" [("name", "eigenvectors")] z2 w]) as P3.
  { rewrite EK, child_cons, filter_app. unfold vrr. rewrite QF by (cbn; tauto). reflexivity. }
  eauto.
Qed.
Definition diel_of (im re : list xml) : res (option diel) :=
  match some_list im with
  | None => Ok None
  | Some im => let* m := convert2D 7 (im ++ re) in let* h := split_even 2 m in
      Ok (Some (Diel (Some (column 0 (nth 0 h []))) (Some (columns_from1 (nth 0 h []))) (Some (columns_from1 (nth 1 h []))) None None))
  end.
Definition hessian_of (spe : list Z) (rows : list xml) : res (option matrix) :=
  match some_list rows with None => Ok None | Some es => let* m := convert2D (length spe * 3) es in Ok (Some m) end.
Definition dynmat_of (spe : list Z) (vals vecs : list xml) : res (option dynm) :=
  match hd_error vals with
  | None => Ok None
  | Some e => let* values := convert_array_f (text e) in
      match hd_error vecs with None => Ok None | Some v => let* m := convert2D (length spe * 3) (kids v) in Ok (Some (Dynm (Some values) (Some m))) end
  end.
Definition born_of (spe : list Z) (rows : list xml) : res born :=
  match some_list rows with None => Ok BornNone | Some es => let* m := convert2D 3 es in let* b := split_even (length spe) m in Ok (BornArray b) end.
Definition vel_of (kbb : bool) (ispin nbands : option Z) (s1 s2 ks ws : list xml) : res (option (spins (list matrix) * option matrix * option row)) :=
  match some_list s1 with
  | None => Ok None
  | Some s1 => let* kp := opt_map_res (convert2D 3) (some_list ks) in let* w := opt_map_res convert1D (some_list ws) in
               let* n := olen kp in let* v := extract_eigenvelocities kbb ispin nbands s1 (some_list s2) n in Ok (Some (v, kp, w))
  end.
Definition vel_path (n : string) : list pstep := Tag "eigenvalues" :: eig_path n.
Definition vk_path (n : string) : list pstep := [Tag "kpoints"; vrr n; Tag "v"].
Lemma vel_paths ks ws r1 r2 k : is_velocities ks ws r1 r2 k -> findall_child (vel_path "spin 1") k = r1 /\ findall_child (vel_path "spin 2") k = r2 /\ findall_child (vk_path "kpointlist") k = ks /\ findall_child (vk_path "weights") k = ws /\ r1 <> [] /\ ks <> [] /\ ws <> [].
Proof.
  intros (a & x & kp & kl & kw & ve & -> & (y & ->) & ((z1 & ->) & RK) & ((z2 & ->) & RW) & NK & NW & HE). destruct (eigen_paths _ _ _ HE) as (TE & P1 & P2 & _).
  assert (r1 <> []) as NE by (destruct HE as (? & ? & ? & ? & ? & ? & ? & ? & ? & ? & ? & ? & ? & ? & ? & NE); auto).
  unfold vel_path, vk_path. rewrite !child_cons. cbn [filter matches]. rewrite TE. cbn [tag String.eqb Ascii.eqb Bool.eqb]. rewrite !flat_one. unfold eig_path. rewrite P1, P2, !child_cons. unfold vrr. cbn [filter].
  change (matches (TagAt "varray" "name" "kpointlist") (Elem "varray" [("name", "kpointlist")] z1 ks)) with true. change (matches (TagAt "varray" "name" "kpointlist") (Elem "varray" [("name", "weights")] z2 ws)) with false.
  change (matches (TagAt "varray" "name" "weights") (Elem "varray" [("name", "kpointlist")] z1 ks)) with false. change (matches (TagAt "varray" "name" "weights") (Elem "varray" [("name", "weights")] z2 ws)) with true.
  cbv iota. rewrite !flat_one, !child_cons, !flat_child_nil, !(filter_rows "v") by auto. auto 10.
Qed.
Lemma path_in_unique all s r k : length (filter (matches s) all) <= 1 -> In k all -> matches s k = true -> path_in all s r = findall_child r k.
Proof. intros L I M. unfold path_in. rewrite (filter_unique _ _ k), flat_one; auto. Qed.
Lemma path_in_absent all s r : existsb (matches s) all = false -> path_in all s r = [].
Proof. intros E. unfold path_in. rewrite exists_filter; auto. Qed.

(** ** What all children together give *)
Record target (kbb : bool) (all : list xml) (o0 : parsed) (spe : list Z) (dv : option diel) (p : parsed) : Prop := Target {
  tg_species : p_species o0 = Some spe;
  tg_eig : eig_of kbb (p_ispin o0) (p_nbands o0) (p_kpoints o0) (path_in all (Tag "eigenvalues") (eig_path "spin 1")) (path_in all (Tag "eigenvalues") (eig_path "spin 2")) = Ok (p_eigenvalues p, p_occupancies p);
  tg_dos : dos_of (Some spe) (path_in all (Tag "dos") [item "efermi"]) (path_in all (Tag "dos") (total_path "spin 1")) (path_in all (Tag "dos") (total_path "spin 2")) (path_in all (Tag "dos") (partial_path "spin 1")) (path_in all (Tag "dos") (partial_path "spin 2")) = Ok (p_dos p);
  tg_proj : pr_of kbb (p_kpoints o0) (p_ispin o0) (p_nbands o0) (Some spe) (path_in all (Tag "projected") (proj_path "spin1")) (path_in all (Tag "projected") (proj_path "spin2")) = Ok (p_projectors p);
  tg_diel : diel_of (path_in all (Tag "dielectricfunction") (part_path "imag")) (path_in all (Tag "dielectricfunction") (part_path "real")) = Ok dv;
  tg_hessian : hessian_of spe (path_in all (Tag "dynmat") [vrr "hessian"; Tag "v"]) = Ok (p_hessian p);
  tg_dynmat : dynmat_of spe (path_in all (Tag "dynmat") [TagAt "v" "name" "eigenvalues"]) (path_in all (Tag "dynmat") [vrr "eigenvectors"]) = Ok (p_dynmat p);
  tg_born : born_of spe (path_in all born_ [Tag "set"; Tag "v"]) = Ok (p_born p);
  tg_vel : exists vel, vel_of kbb (p_ispin o0) (p_nbands o0) (path_in all (Tag "eigenvelocities") (vel_path "spin 1")) (path_in all (Tag "eigenvelocities") (vel_path "spin 2")) (path_in all (Tag "eigenvelocities") (vk_path "kpointlist")) (path_in all (Tag "eigenvelocities") (vk_path "weights")) = Ok vel /\
    p_velocities p = option_map (fun s => fst (fst s)) vel /\ p_kpoints_specific p = (match vel with Some (_, k, _) => k | None => None end) /\ p_kpointsw_specific p = (match vel with Some (_, _, w) => w | None => None end);
  tg_children : Forall (calc_child (filter (matches (Tag "eigenvalues")) all)) all;
  tg_once : forall s, In s once_in_all -> length (filter (matches s) all) <= 1 }.
(** the numbers of one step *)
Record calc_values := CalcValues { v_basis : matrix; v_pos : matrix; v_force : matrix; v_stress : matrix; v_tot : tot }.
Definition calc_holds (c : xml) (v : calc_values) : Prop :=
  convert2D 3 (findall_child basis_path c) = Ok (v_basis v) /\ convert2D 3 (findall_child positions_path c) = Ok (v_pos v) /\
  convert2D 3 (findall_child (varray_path "forces") c) = Ok (v_force v) /\ convert2D 3 (findall_child (varray_path "stress") c) = Ok (v_stress v) /\
  exists a0 a1 a2 e0 e1 e2 r0 r1 r2 f0 f1 f2, convert1D (findall_deep (scstep_path "e_0_energy") c) = Ok a0 /\ convert1D (findall_deep (scstep_path "e_fr_energy") c) = Ok a1 /\ convert1D (findall_deep (scstep_path "e_wo_entrp") c) = Ok a2 /\
    findall_child (final_path "e_0_energy") c = e0 :: r0 /\ findall_child (final_path "e_fr_energy") c = e1 :: r1 /\ findall_child (final_path "e_wo_entrp") c = e2 :: r2 /\
    en_val e0 = Ok f0 /\ en_val e1 = Ok f1 /\ en_val e2 = Ok f2 /\ v_tot v = Tot (Some a0) (Some a1) (Some a2) (Some (Some f0)) (Some (Some f1)) (Some (Some f2)).
Definition no_tot : tot := Tot None None None None None None.
Definition final_tot (t : tot) : tot := Tot None None None (to_extrapolated_final t) (to_free_final t) (to_no_entropy_final t).
(** the attributes that the ionic steps set *)
Definition assemble (b : born) (h : option matrix) (d : option diel) (pr : option (spins (list (list matrix)))) (ds : option ddict) (oc e : option (spins matrix)) (v : option (spins (list matrix))) (w : option row) (k : option matrix) (o : parsed) : parsed :=
  Parsed (p_version o) (p_symprec o) (p_sigma o) (p_ismear o) (p_ispin o) (p_nbands o) (p_nelect o) (p_system o) (p_nelm o) (p_nsw o) (p_species o) (p_cell o) (p_pos o) (p_force o) (p_stress o)
    (p_kpoints o) (p_kpointsw o) (p_kdiv o) e oc (p_eigenvalues_specific o) v k w ds (p_dos_specific o) (p_totens o) d pr h (p_dynmat o) b.
Section Assemble.
Context (b : born) (h : option matrix) (d : option diel) (pr : option (spins (list (list matrix)))) (ds : option ddict) (oc e : option (spins matrix)) (v : option (spins (list matrix))) (w : option row) (k : option matrix) (o : parsed).
Lemma born_in x : set_p_born x (assemble b h d pr ds oc e v w k o) = assemble x h d pr ds oc e v w k o. Proof. reflexivity. Qed.
Lemma hessian_in x : set_p_hessian x (assemble b h d pr ds oc e v w k o) = assemble b x d pr ds oc e v w k o. Proof. reflexivity. Qed.
Lemma diel_in x : set_p_diel x (assemble b h d pr ds oc e v w k o) = assemble b h x pr ds oc e v w k o. Proof. reflexivity. Qed.
Lemma projectors_in x : set_p_projectors x (assemble b h d pr ds oc e v w k o) = assemble b h d x ds oc e v w k o. Proof. reflexivity. Qed.
Lemma dos_in x : set_p_dos x (assemble b h d pr ds oc e v w k o) = assemble b h d pr x oc e v w k o. Proof. reflexivity. Qed.
Lemma occupancies_in x : set_p_occupancies x (assemble b h d pr ds oc e v w k o) = assemble b h d pr ds x e v w k o. Proof. reflexivity. Qed.
Lemma eigenvalues_in x : set_p_eigenvalues x (assemble b h d pr ds oc e v w k o) = assemble b h d pr ds oc x v w k o. Proof. reflexivity. Qed.
Lemma velocities_in x : set_p_velocities x (assemble b h d pr ds oc e v w k o) = assemble b h d pr ds oc e x w k o. Proof. reflexivity. Qed.
Lemma kw_in x : set_p_kpointsw_specific x (assemble b h d pr ds oc e v w k o) = assemble b h d pr ds oc e v x k o. Proof. reflexivity. Qed.
Lemma k_in x : set_p_kpoints_specific x (assemble b h d pr ds oc e v w k o) = assemble b h d pr ds oc e v w x o. Proof. reflexivity. Qed.
End Assemble.
Ltac put := cbv [out_ set_s_out set_s_dos set_s_dynmat set_s_has_dynmat s_flags s_calc s_data s_data2 s_data3 s_data4 s_data5 s_data6 s_cell s_pos s_force s_stress s_totens s_dos s_part1 s_part2 s_dynmat s_specific s_has_dynmat s_out];
  rewrite ?eigenvalues_in, ?occupancies_in, ?projectors_in, ?dos_in, ?diel_in, ?hessian_in, ?born_in, ?k_in, ?kw_in, ?velocities_in; reflexivity.
Section Results.
Context (kbb : bool) (all : list xml) (o0 : parsed) (spe : list Z) (dv : option diel) (p : parsed) (TG : target kbb all o0 spe dv p).
Definition no_dos : ddict := DDict None None None.
(** the attributes after the children [l] *)
Definition dos_at (l : list xml) : ddict := pick (Tag "dos") l (match p_dos p with Some d => d | None => no_dos end) no_dos.
Definition dyn_at (l : list xml) : dynm := pick (Tag "dynmat") l (match p_dynmat p with Some d => d | None => Dynm None None end) (Dynm None None).
Definition has_at (l : list xml) : bool := pick (Tag "dynmat") l true false.
Definition out_at (l : list xml) : parsed :=
  assemble (pick born_ l (p_born p) BornNone) (pick (Tag "dynmat") l (p_hessian p) None) (pick (Tag "dielectricfunction") l dv None)
    (pick (Tag "projected") l (p_projectors p) None) (pick (Tag "dos") l (p_dos p) None)
    (pick (Tag "eigenvalues") l (p_occupancies p) (pick (Tag "projected") l (p_occupancies p) None))
    (pick (Tag "eigenvalues") l (p_eigenvalues p) (pick (Tag "projected") l (p_eigenvalues p) None))
    (pick (Tag "eigenvelocities") l (p_velocities p) None) (pick (Tag "eigenvelocities") l (p_kpointsw_specific p) None) (pick (Tag "eigenvelocities") l (p_kpoints_specific p) None) o0.
(** between the steps: [vs] are the steps read *)
Definition rest (ca : nat) (ce po fo ss : ndict (option matrix)) (tt : ndict tot) (l : list xml) : est :=
  Est 0 ca [] [] [] [] [] [] ce po fo ss tt (dos_at l) no_part no_part (dyn_at l) false (has_at l) (out_at l).
Section Calc.
Context (ca : nat) (ce po fo ss : ndict (option matrix)) (tt : ndict tot) (NT : ~ In ca (map fst tt)).
Context (before after ks : list xml) (AL : all = before ++ ks ++ after).
Context (ONCE : forall s, In s once_each_step -> length (filter (matches s) ks) = 1).
Context (x : option str) (v : calc_values) (CH : calc_holds (Elem "calculation" [] x ks) v) (NS : forall k d, In k ks -> In d (descendants k) -> tag d <> "scstep").
Definition sc_rows (key : string) (l : list xml) : list xml := filter (sc_i key) (flat_map descendants (filter (matches (Tag "scstep")) l)).
Definition mid (l : list xml) : est :=
  Est 4 ca [] [] (sc_rows "e_0_energy" l) (sc_rows "e_fr_energy" l) (sc_rows "e_wo_entrp" l) []
    (pick (Tag "structure") l (ndset ca (Some (v_basis v)) ce) ce) (pick (Tag "structure") l (ndset ca (Some (v_pos v)) po) po)
    (pick (varray_ "forces") l (ndset ca (Some (v_force v)) fo) fo) (pick (varray_ "stress") l (ndset ca (Some (v_stress v)) ss) ss)
    (tt ++ [(ca, pick (Tag "energy") l (final_tot (v_tot v)) no_tot)])
    (dos_at (before ++ l)) no_part no_part (dyn_at (before ++ l)) false (has_at (before ++ l)) (out_at (before ++ l)).
Lemma mid_ready l : ready 4 (mid l). Proof. repeat split. Qed.
Lemma in_all k : In k ks -> In k all. Proof. intros I. rewrite AL. apply in_or_app. right. apply in_or_app. auto. Qed.
Lemma path_one s r k : In k ks -> In s once_each_step -> matches s k = true -> findall_child (s :: r) (Elem "calculation" [] x ks) = findall_child r k.
Proof. intros I J M. rewrite child_cons, (filter_unique _ _ k), flat_one; auto. rewrite ONCE; auto. Qed.
Lemma once_before l k r s : ks = l ++ k :: r -> In s once_each_step -> matches s k = true -> existsb (matches s) l = false.
Proof. intros E J M. eapply none_before; [|exact M]. rewrite <- E, ONCE; auto. Qed.
Lemma all_before l k r s : ks = l ++ k :: r -> In s once_in_all -> matches s k = true -> existsb (matches s) (before ++ l) = false.
Proof. intros E J M. apply (none_before _ _ k (r ++ after)); auto. replace ((before ++ l) ++ k :: r ++ after) with all; [apply (tg_once _ _ _ _ _ _ TG); auto|]. rewrite AL, E, <- !app_assoc. reflexivity. Qed.
Lemma all_path k s r : In k ks -> In s once_in_all -> matches s k = true -> path_in all s r = findall_child r k.
Proof. intros I J M. apply path_in_unique; auto using in_all. apply (tg_once _ _ _ _ _ _ TG). auto. Qed.
(** a child that is not of kind [t] *)
Ltac others NM := repeat match goal with |- context [pick ?t (?l ++ [?k]) ?n ?o] => rewrite (pick_other t l k n o) by (apply NM; [cbn; tauto|discriminate]) end.
Lemma sc_rows_other key l k : matches (Tag "scstep") k = false -> sc_rows key (l ++ [k]) = sc_rows key l.
Proof. intros M. unfold sc_rows. rewrite filter_app. cbn [filter]. rewrite M, app_nil_r. auto. Qed.
Lemma sc_rows_new key l k : matches (Tag "scstep") k = true -> sc_rows key (l ++ [k]) = sc_rows key l ++ filter (sc_i key) (descendants k).
Proof. intros M. unfold sc_rows. rewrite filter_app. cbn [filter]. rewrite M, flat_map_app, flat_one, filter_app. auto. Qed.
Lemma child_run l k r : ks = l ++ k :: r -> run_events kbb (events (Some []) k) (mid l) = Ok (mid (l ++ [k])).
Proof.
  intros E. assert (In k ks) as IK by (rewrite E; apply in_or_app; right; left; auto).
  assert (calc_child (filter (matches (Tag "eigenvalues")) all) k) as C. { pose proof (tg_children _ _ _ _ _ _ TG) as F. rewrite Forall_forall in F. apply F. apply in_all. auto. }
  destruct (child_kind _ _ C) as [Q|(s & IS & M & K)].
  - assert (forall t, In t kinds -> matches t k = false) as NM by (intros t J; apply quiet_matches; auto using kinds_read).
    pose proof (calm_calc kbb [k] (Some []) (mid l) Q eq_refl) as CC. rewrite run_flat_one in CC. rewrite CC. f_equal. unfold mid, dos_at, dyn_at, has_at, out_at. rewrite !app_assoc, !sc_rows_other by (apply NM; cbn; tauto).
    repeat match goal with |- context [pick ?t (?l ++ [?k]) ?n ?o] => rewrite (pick_other t l k n o) by (apply NM; cbn; tauto) end. reflexivity.
  - assert (forall t, In t kinds -> t <> s -> matches t k = false) as NM by (intros t J N; exact (other_kind s t k IS M J N)).
    destruct K as [[-> H]|[[-> H]|[[-> (rows & H)]|[[-> (rows & H)]|[[-> H]|[[-> (r1 & r2 & H)]|[[-> H]|[[-> (f & r1 & r2 & F & H)]|[[-> (im & re & H)]|[[-> (rows & H)]|[[-> (h & t & w & H)]|[-> (kl & kw & r1 & r2 & H)]]]]]]]]]]]].
    + (* scstep *) rewrite ev_scstep by (auto using mid_ready). f_equal. unfold mid, dos_at, dyn_at, has_at, out_at. rewrite !app_assoc, !sc_rows_new by auto. others NM. reflexivity.
    + (* structure *) destruct (ev_structure kbb (Some []) k (mid l) H (mid_ready l)) as (b1 & b2 & B1 & B2 & ->).
      destruct CH as (C1 & C2 & _). unfold basis_path, positions_path in C1, C2. rewrite (path_one _ _ k), B1 in C1 by (auto; cbn; tauto). rewrite (path_one _ _ k), B2 in C2 by (auto; cbn; tauto). rewrite C1, C2. cbn [bind]. f_equal.
      pose proof (once_before l k r (Tag "structure") E ltac:(cbn; tauto) M) as O. unfold mid, dos_at, dyn_at, has_at, out_at. rewrite !app_assoc, !sc_rows_other by (apply NM; [cbn; tauto|discriminate]). rewrite !(pick_new (Tag "structure") l k) by auto. rewrite !(pick_old (Tag "structure") l) by auto. others NM. reflexivity.
    + (* forces *) pose proof H as ((y & ->) & R). rewrite ev_forces by (auto using mid_ready).
      destruct CH as (_ & _ & C1 & _). unfold varray_path in C1. change (TagAt "varray" "name" "forces") with (varray_ "forces") in C1. rewrite (path_one _ _ _ IK) in C1 by (auto; cbn; tauto). rewrite child_cons, flat_child_nil, (filter_rows "v") in C1 by auto. rewrite C1. cbn [bind]. f_equal.
      pose proof (once_before l _ r (varray_ "forces") E ltac:(cbn; tauto) M) as O. unfold mid, dos_at, dyn_at, has_at, out_at. rewrite !app_assoc, !sc_rows_other by (apply NM; [cbn; tauto|discriminate]). rewrite !(pick_new (varray_ "forces") l) by auto. rewrite !(pick_old (varray_ "forces") l) by auto. others NM. reflexivity.
    + (* stress *) pose proof H as ((y & ->) & R). rewrite ev_stress by (auto using mid_ready).
      destruct CH as (_ & _ & _ & C1 & _). unfold varray_path in C1. change (TagAt "varray" "name" "stress") with (varray_ "stress") in C1. rewrite (path_one _ _ _ IK) in C1 by (auto; cbn; tauto). rewrite child_cons, flat_child_nil, (filter_rows "v") in C1 by auto. rewrite C1. cbn [bind]. f_equal.
      pose proof (once_before l _ r (varray_ "stress") E ltac:(cbn; tauto) M) as O. unfold mid, dos_at, dyn_at, has_at, out_at. rewrite !app_assoc, !sc_rows_other by (apply NM; [cbn; tauto|discriminate]). rewrite !(pick_new (varray_ "stress") l) by auto. rewrite !(pick_old (varray_ "stress") l) by auto. others NM. reflexivity.
    + (* energy *) pose proof (once_before l k r (Tag "energy") E ltac:(cbn; tauto) M) as O.
      destruct (ev_energy kbb (Some []) k tt no_tot (mid l) H (mid_ready l)) as (e0 & e1 & e2 & E0 & E1 & E2 & RUN); [exact NT|unfold mid; cbn [s_totens s_calc]; rewrite (pick_old (Tag "energy") l) by auto; reflexivity|].
      destruct CH as (_ & _ & _ & _ & a0 & a1 & a2 & g0 & g1 & g2 & z0 & z1 & z2 & f0 & f1 & f2 & _ & _ & _ & G0 & G1 & G2 & F0 & F1 & F2 & VT). unfold final_path in G0, G1, G2. rewrite (path_one _ _ k) in G0 by (auto; cbn; tauto). rewrite (path_one _ _ k) in G1 by (auto; cbn; tauto). rewrite (path_one _ _ k) in G2 by (auto; cbn; tauto). rewrite E0 in G0. rewrite E1 in G1. rewrite E2 in G2. injection G0 as <- _. injection G1 as <- _. injection G2 as <- _.
      rewrite (RUN f0 f1 f2) by auto. f_equal. unfold mid, dos_at, dyn_at, has_at, out_at. rewrite !app_assoc, !sc_rows_other by (apply NM; [cbn; tauto|discriminate]). rewrite !(pick_new (Tag "energy") l k) by auto. others NM. rewrite VT. reflexivity.
    + (* eigenvalues *) destruct (eigen_paths _ _ _ H) as (_ & PE1 & PE2 & _). assert (r1 <> []) as NE by (destruct H as (? & ? & ? & ? & ? & ? & ? & ? & ? & ? & ? & ? & ? & ? & ? & NE); auto).
      pose proof (tg_eig _ _ _ _ _ _ TG) as HE. rewrite !(all_path k) in HE by (auto; cbn; tauto). unfold eig_path in HE. rewrite PE1, PE2 in HE. unfold eig_of in HE. rewrite some_nonempty in HE by auto. apply bind_ok in HE as (n & HN & HE). apply bind_ok in HE as ([v' o'] & HX & HE). apply Ok_inj' in HE. injection HE as HV HO.
      rewrite (ev_eigenvalues kbb _ 4 r1 r2) by (auto using mid_ready; left; auto). unfold eig_effect. change (p_kpoints (s_out (mid l))) with (p_kpoints o0). change (p_ispin (s_out (mid l))) with (p_ispin o0). change (p_nbands (s_out (mid l))) with (p_nbands o0).
      rewrite HN. cbn [bind]. rewrite <- second_some, HX. cbn [bind]. change (N.eqb 4 4) with true. cbv iota. f_equal.
      unfold mid, dos_at, dyn_at, has_at, out_at. rewrite !app_assoc, !sc_rows_other by (apply NM; [cbn; tauto|discriminate]). rewrite !(pick_new (Tag "eigenvalues") (before ++ l) k) by auto. others NM. rewrite <- HV, HO. put.
    + (* dos *) destruct (is_dos_rows_of _ H) as [dr Hr]. destruct (dos_paths _ _ Hr) as (_ & _ & PF & PT1 & PT2 & PP1 & PP2 & NT1).
      pose proof (tg_dos _ _ _ _ _ _ TG) as HD. rewrite !(all_path k) in HD by (auto; cbn; tauto). unfold total_path, partial_path in HD. rewrite PF, PT1, PT2, PP1, PP2 in HD. unfold dos_of in HD. cbn [hd_error] in HD. apply bind_ok in HD as (f & HF & HD). rewrite (some_nonempty (dr_t1 dr)) in HD by auto. apply bind_ok in HD as (d' & HX' & HD). apply Ok_inj' in HD.
      rewrite !second_some in HX'. pose proof (all_before l k r (Tag "dos") E ltac:(cbn; tauto) M) as O.
      rewrite (ev_dos kbb _ dr k (mid l) spe f d'); auto using mid_ready; [|unfold mid, dos_at; cbn [s_dos]; rewrite pick_old by auto; reflexivity|apply (tg_species _ _ _ _ _ _ TG)]. f_equal.
      unfold mid, dos_at, dyn_at, has_at, out_at. rewrite !app_assoc, !sc_rows_other by (apply NM; [cbn; tauto|discriminate]). rewrite !(pick_new (Tag "dos") (before ++ l) k) by auto. others NM. rewrite <- HD. put.
    + (* projected *) assert (In f all /\ matches (Tag "eigenvalues") f = true) as [IF MF] by (apply filter_In; rewrite F; left; auto).
      assert (calc_child (filter (matches (Tag "eigenvalues")) all) f) as CF. { pose proof (tg_children _ _ _ _ _ _ TG) as FF. rewrite Forall_forall in FF. apply FF. auto. }
      destruct (eig_child _ _ CF MF) as (e1 & e2 & HE'). destruct (eigen_paths _ _ _ HE') as (TE & PE1 & PE2 & _). assert (e1 <> []) as NE by (destruct HE' as (? & ? & ? & ? & ? & ? & ? & ? & ? & ? & ? & ? & ? & ? & ? & NE); auto).
      pose proof (tg_eig _ _ _ _ _ _ TG) as HE. unfold path_in in HE. rewrite F, !flat_one in HE. unfold eig_path in HE. rewrite PE1, PE2 in HE. unfold eig_of in HE. rewrite some_nonempty in HE by auto. apply bind_ok in HE as (n & HN & HE). apply bind_ok in HE as ([v' o'] & HX & HE). apply Ok_inj' in HE. injection HE as HV HO.
      destruct (projected_paths _ _ _ _ TE H) as (_ & PP1 & PP2). assert (r1 <> []) as NP by (destruct H as (? & ? & ? & ? & ? & ? & ? & ? & ? & ? & ? & ? & ? & ? & ? & NP); auto).
      pose proof (tg_proj _ _ _ _ _ _ TG) as HP. rewrite !(all_path k) in HP by (auto; cbn; tauto). unfold proj_path in HP. rewrite PP1, PP2 in HP. unfold pr_of in HP. rewrite (some_nonempty r1) in HP by auto. apply bind_ok in HP as (pr' & HX' & HP). apply Ok_inj' in HP.
      rewrite (ev_projected kbb _ f e1 e2 r1 r2 k (mid l)) by (auto using mid_ready). unfold eig_effect, pr_effect. change (p_kpoints (s_out (mid l))) with (p_kpoints o0). change (p_ispin (s_out (mid l))) with (p_ispin o0). change (p_nbands (s_out (mid l))) with (p_nbands o0).
      rewrite HN. cbn [bind]. rewrite <- !second_some, HX. cbn [bind]. cbv zeta.
      match goal with |- context [extract_projectors kbb (p_kpoints ?o) (p_ispin ?o) (p_nbands ?o) (p_species ?o)] => change (p_kpoints o) with (p_kpoints o0); change (p_ispin o) with (p_ispin o0); change (p_nbands o) with (p_nbands o0); change (p_species o) with (p_species o0) end.
      rewrite (tg_species _ _ _ _ _ _ TG), <- ?second_some, HX'. cbn [bind]. f_equal. unfold mid, dos_at, dyn_at, has_at, out_at. rewrite !app_assoc, !sc_rows_other by (apply NM; [cbn; tauto|discriminate]). rewrite !(pick_new (Tag "projected") (before ++ l) k) by auto. others NM. rewrite !pick_same, <- HV, HO, <- HP. put.
    + (* dielectric *) pose proof H as (a & y & i & j & EK & HI & HJ & NI & LR). 
      destruct (diel_paths _ _ _ H) as (PI & PR & _).
      pose proof (tg_diel _ _ _ _ _ _ TG) as HD. rewrite !(all_path k) in HD by (auto; cbn; tauto). rewrite PI, PR in HD. unfold diel_of in HD. rewrite (some_nonempty im) in HD by auto. apply bind_ok in HD as (m & HM & HD). apply bind_ok in HD as (h & HH & HD). apply Ok_inj' in HD.
      rewrite (ev_diel kbb _ im re k (mid l) H (mid_ready l)), HM. cbn [bind]. rewrite HH. cbn [bind]. f_equal.
      unfold mid, dos_at, dyn_at, has_at, out_at. rewrite !app_assoc, !sc_rows_other by (apply NM; [cbn; tauto|discriminate]). rewrite !(pick_new (Tag "dielectricfunction") (before ++ l) k) by auto. others NM. rewrite <- HD. put.
    + (* born *) pose proof H as (y & heads & sets & rs & EK & HH & FS & CR & NR).
      assert (findall_child [Tag "set"; Tag "v"] k = rows) as PB.
      { rewrite EK, child_cons, filter_app, filter_quiet by (intros q K; rewrite Forall_forall in HH; destruct (HH q K) as (b & u & [->| ->]); reflexivity). cbn [app]. rewrite <- CR. apply (rows_path rs sets (fun r st => plain "set" r st /\ Forall (is_row "v") r)); auto.
        clear. intros rows e (HS & FR). split; [eapply plain_set; eauto|]. rewrite (plain_child _ _ _ _ _ HS), flat_child_nil. apply (filter_rows "v"); auto. }
      pose proof (tg_born _ _ _ _ _ _ TG) as HB. rewrite !(all_path k) in HB by (auto; cbn; tauto). rewrite PB in HB. unfold born_of in HB. rewrite (some_nonempty rows) in HB by auto. apply bind_ok in HB as (m & HM & HB). apply bind_ok in HB as (b & HBB & HB). apply Ok_inj' in HB.
      rewrite (ev_born kbb _ rows k (mid l) spe H (mid_ready l)) by apply (tg_species _ _ _ _ _ _ TG). rewrite HM. cbn [bind]. rewrite HBB. cbn [bind]. f_equal.
      unfold mid, dos_at, dyn_at, has_at, out_at. rewrite !app_assoc, !sc_rows_other by (apply NM; [cbn; tauto|discriminate]). rewrite !(pick_new born_ (before ++ l) k) by auto. others NM. rewrite <- HB. put.
    + (* dynmat *) assert (h <> []) as NH by (destruct H as (? & ? & ? & _ & _ & _ & NH & _); auto).
      destruct (dynmat_paths _ _ _ _ H) as (P1 & P2 & z & P3).
      pose proof (tg_hessian _ _ _ _ _ _ TG) as HH. rewrite (all_path k) in HH by (auto; cbn; tauto). rewrite P1 in HH. unfold hessian_of in HH. rewrite (some_nonempty h) in HH by auto. apply bind_ok in HH as (mh & HM & HH). apply Ok_inj' in HH.
      pose proof (tg_dynmat _ _ _ _ _ _ TG) as HD. rewrite !(all_path k) in HD by (auto; cbn; tauto). rewrite P2, P3 in HD. unfold dynmat_of in HD. cbn [hd_error] in HD. apply bind_ok in HD as (vals & HV & HD). apply bind_ok in HD as (mv & HMV & HD). apply Ok_inj' in HD. cbn [text] in HV. cbn [kids] in HMV.
      rewrite (ev_dynmat kbb _ h t w k (mid l) spe H (mid_ready l)) by apply (tg_species _ _ _ _ _ _ TG). rewrite HM. cbn [bind]. rewrite HV. cbn [bind]. rewrite HMV. cbn [bind]. f_equal.
      unfold mid, dos_at, dyn_at, has_at, out_at. rewrite !app_assoc, !sc_rows_other by (apply NM; [cbn; tauto|discriminate]). rewrite !(pick_new (Tag "dynmat") (before ++ l) k) by auto. others NM. rewrite <- HH, <- HD. put.
    + (* velocities *) destruct (vel_paths _ _ _ _ _ H) as (P1 & P2 & P3 & P4 & NE & NK & NW).
      destruct (tg_vel _ _ _ _ _ _ TG) as (vel & HV & V1 & V2 & V3). rewrite !(all_path k) in HV by (auto; cbn; tauto). rewrite P1, P2, P3, P4 in HV. unfold vel_of in HV. rewrite (some_nonempty r1), (some_nonempty kl), (some_nonempty kw) in HV by auto. cbn [opt_map_res] in HV.
      apply bind_ok in HV as (kp & HK & HV). apply bind_ok in HK as (m & HM & HK). apply Ok_inj' in HK. subst kp. apply bind_ok in HV as (kq & HK & HV). apply bind_ok in HK as (w & HW & HK). apply Ok_inj' in HK. subst kq. cbn [olen bind] in HV. apply bind_ok in HV as (vv & HX & HV). apply Ok_inj' in HV. subst vel. cbn [option_map fst] in V1, V2, V3.
      rewrite (ev_velocities kbb _ kl kw r1 r2 k (mid l) H (mid_ready l)). unfold vel_effect. change (p_ispin (s_out (mid l))) with (p_ispin o0). change (p_nbands (s_out (mid l))) with (p_nbands o0). rewrite HM. cbn [bind]. rewrite HW. cbn [bind]. rewrite <- second_some, HX. cbn [bind]. f_equal.
      unfold mid, dos_at, dyn_at, has_at, out_at. rewrite !app_assoc, !sc_rows_other by (apply NM; [cbn; tauto|discriminate]). rewrite !(pick_new (Tag "eigenvelocities") (before ++ l) k) by auto. others NM. rewrite V1, V2, V3. put.
Qed.
Lemma children_run l r : ks = l ++ r -> run_events kbb (flat_map (events (Some [])) r) (mid l) = Ok (mid ks).
Proof.
  revert l. induction r as [|k r IH]; intros l E. { rewrite app_nil_r in E. rewrite E. reflexivity. }
  rewrite run_flat_cons, (child_run l k r E). cbn [bind]. apply IH. rewrite E, <- app_assoc. reflexivity.
Qed.
Lemma calc_run q : run_events kbb (events q (Elem "calculation" [] x ks)) (rest ca ce po fo ss tt before) =
  Ok (rest (S ca) (ndset ca (Some (v_basis v)) ce) (ndset ca (Some (v_pos v)) po) (ndset ca (Some (v_force v)) fo) (ndset ca (Some (v_stress v)) ss) (tt ++ [(ca, v_tot v)]) (before ++ ks)).
Proof.
  rewrite run_elem. cbn [handle].
  match goal with |- context [step kbb true true q ?e ?s] => assert (step kbb true true q e s = Ok (mid [])) as -> end.
  { unfold mid, rest. rewrite !pick_nil, app_nil_r. rewrite <- (ndset_new ca) by auto. cbn [sc_rows filter flat_map]. generalize (dos_at before), (dyn_at before), (has_at before), (out_at before). intros. ev. reflexivity. }
  cbn [bind]. rewrite (children_run [] ks eq_refl). cbn [bind handle].
  assert (forall key, In key ["e_0_energy"; "e_fr_energy"; "e_wo_entrp"] -> sc_rows key ks = findall_deep (scstep_path key) (Elem "calculation" [] x ks)) as SC.
  { intros key IK. unfold findall_deep, scstep_path, sc_rows. rewrite filter_descendants by (intros k d KI KD; apply not_matches; cbn; eapply NS; eauto). rewrite children_at_flat, flat_filter. apply flat_map_ext_in. intros a A. apply filter_In in A as [A M].
    assert (is_scstep a) as (_ & _ & H). { pose proof (tg_children _ _ _ _ _ _ TG) as F. rewrite Forall_forall in F. eapply scstep_child; [apply F; apply in_all; auto|auto]. } symmetry. apply H. auto. }
  unfold mid. rewrite !SC by (cbn; tauto). rewrite !(pick_once _ ks) by (apply ONCE; cbn; tauto).
  destruct CH as (_ & _ & _ & _ & a0 & a1 & a2 & g0 & g1 & g2 & z0 & z1 & z2 & f0 & f1 & f2 & A0 & A1 & A2 & _ & _ & _ & _ & _ & _ & VT). rewrite VT. unfold final_tot. cbn [to_extrapolated_final to_free_final to_no_entropy_final].
  revert A0 A1 A2. generalize (findall_deep (scstep_path "e_0_energy") (Elem "calculation" [] x ks)), (findall_deep (scstep_path "e_fr_energy") (Elem "calculation" [] x ks)), (findall_deep (scstep_path "e_wo_entrp") (Elem "calculation" [] x ks)). intros l0 l1 l2 A0 A1 A2.
  unfold rest. generalize (dos_at (before ++ ks)), (dyn_at (before ++ ks)), (has_at (before ++ ks)), (out_at (before ++ ks)). intros dd dy hh oo.
  pose proof (ndget_last ca (Tot None None None (Some (Some f0)) (Some (Some f1)) (Some (Some f2))) tt NT) as G.
  pose proof (ndset_last ca (Tot None None None (Some (Some f0)) (Some (Some f1)) (Some (Some f2))) (Tot (Some a0) (Some a1) (Some a2) (Some (Some f0)) (Some (Some f1)) (Some (Some f2))) tt NT) as H.
  clear -A0 A1 A2 G H. ev. rewrite A0. ev. rewrite A1. ev. rewrite A2. ev. rewrite G. ev. rewrite H. reflexivity.
Qed.
End Calc.
End Results.
