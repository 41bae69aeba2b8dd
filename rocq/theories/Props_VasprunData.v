(** Properties C73 to C79: the tables, parameters and species that the regular parser of
    vasprun.xml returns for every document, and get_lattice. *)
From Coq Require Import Ascii String List NArith ZArith Bool Lia.
From Verif Require Import PyBase PyStrLemmas PyNum UtilsModel LineModel KpointsCodes OutcarModel DoscarProofs StreamConfig ChgcarModel ChgcarSpec ChgcarProofs VasprunTypes VasprunXml VasprunModel VasprunSpec VasprunTables VasprunTree VasprunSteps VasprunEnergies VasprunAccess Props_Vasprun Props_VasprunSample.
Import ListNotations.
Local Open Scope list_scope.

(** ** C73: the density of states *)
(** [v] is column [c] of the rows *)
Definition column_is (rows : matrix) (c : nat) (v : row) : Prop := length v = length rows /\ forall i x, nth_error v i = Some x -> cell_at rows i c x.
(** [a] holds, for each of [n] ions, the columns 1 to 9 of its rows; the rows of the ions follow each other *)
Definition partial_is (n : nat) (rows : matrix) (a : list matrix) : Prop :=
  exists e, length rows = n * e /\ shape3 a n e 9 /\ forall ion i j, ion < n -> i < e -> j < 9 -> exists v, at3 a ion i j v /\ cell_at rows (ion * e + i) (S j) v.
Definition partial_part (n : nat) (rows : matrix) (o : option (list matrix)) : Prop := match o with None => rows = [] | Some a => rows <> [] /\ partial_is n rows a end.
(** the elements of the density of states, by spin *)
Definition dos_total_path (d : pstep) (spin : string) : list pstep := [Tag "calculation"; d; Tag "total"; Tag "array"; Tag "set"; TagAt "set" "comment" spin; Tag "r"].
Definition dos_partial_path (d : pstep) (spin : string) : list pstep := [Tag "calculation"; d; Tag "partial"; Tag "array"; Tag "set"; Tag "set"; TagAt "set" "comment" spin; Tag "r"].
(** what the document says: total and partial rows of both spins *)
Record dos_rows := DosRows { total1 : matrix; total2 : matrix; partial1 : matrix; partial2 : matrix }.
Definition dos_says (x : xml) (d : pstep) (r : dos_rows) : Prop :=
  Forall2 holds (findall_deep (dos_total_path d "spin 1") x) (total1 r) /\ Forall2 holds (findall_deep (dos_total_path d "spin 2") x) (total2 r) /\
  Forall2 holds (findall_deep (dos_partial_path d "spin 1") x) (partial1 r) /\ Forall2 holds (findall_deep (dos_partial_path d "spin 2") x) (partial2 r) /\
  (forall w, In w (total1 r ++ total2 r) -> length w = 3) /\ (forall w, In w (partial1 r ++ partial2 r) -> length w = 10).
(** the dictionary of one spin *)
Definition spin_part (n : nat) (total partial : matrix) (d : dpart) : Prop :=
  (exists t, dp_total d = Some t /\ column_is total 1 t) /\ (exists t, dp_integrated d = Some t /\ column_is total 2 t) /\ (exists a, dp_partial d = Some a /\ partial_part n partial a).
Definition dos_is (n : nat) (r : dos_rows) (d : ddict) : Prop :=
  exists a, dd_all d = Some a /\ (exists e, dp_energy a = Some e /\ column_is (total1 r) 0 e) /\
    (total2 r = [] -> dd_up d = None /\ dd_down d = None /\ spin_part n (total1 r) (partial1 r) a) /\
    (total2 r <> [] -> exists u v, dd_up d = Some u /\ dd_down d = Some v /\ spin_part n (total1 r) (partial1 r) u /\ spin_part n (total2 r) (partial2 r) v).

Lemma column_rows m c rows : rect rows m -> c < m -> column_is rows c (column c rows).
Proof.
  intros R C. assert (column c rows = tab (length rows) (fun i => pick rows c i)) as E.
  { rewrite (list_tab [] rows) at 1. apply (column_rect (length rows) m (fun i => nth i rows [])); auto. intros i I. apply nth_rect; auto. }
  rewrite E. split; [apply tab_length|]. intros i v H. apply tab_nth_inv in H as [L ->]. eapply pick_cell; eauto.
Qed.
Lemma in_firstn {A} n (l : list A) x : In x (firstn n l) -> In x l.
Proof. intros I. rewrite <- (firstn_skipn n l). apply in_or_app. auto. Qed.
Lemma in_skipn {A} n (l : list A) x : In x (skipn n l) -> In x l.
Proof. intros I. rewrite <- (firstn_skipn n l). apply in_or_app. auto. Qed.
Lemma nth_tl {A} (l : list A) j : nth_error (tl l) j = nth_error l (S j).
Proof. destruct l; [destruct j; auto|auto]. Qed.
Lemma partial_dos_ok n es rows a : 0 < n -> Forall2 holds es rows -> rect rows 10 -> partial_dos n es = Ok a -> partial_is n rows a.
Proof.
  intros N F R H. unfold partial_dos in H. rewrite (convert2D_holds 10 _ _ F R) in H. cbn [bind] in H.
  assert (exists e, length rows = n * e) as [e L].
  { unfold split_even in H. destruct n as [|n]; [lia|]. unfold columns_from1 in H. rewrite map_length in H. destruct (Nat.eqb_spec (length rows mod S n) 0) as [M|]; [|discriminate].
    exists (length rows / S n). apply Nat.div_exact; auto. }
  assert (columns_from1 rows = tab (n * e) (fun i => tl (nth i rows []))) as T by (unfold columns_from1; rewrite (list_tab [] rows) at 1; rewrite L, map_tab; auto).
  rewrite T, split_even_tab in H by auto. apply Ok_inj' in H. subst a. exists e. split; auto. split.
  - split; [apply tab_length|]. intros p P. apply tab_In in P as (i & I & ->). split; [apply tab_length|]. intros r Q. apply tab_In in Q as (j & J & ->).
    pose proof (nth_rect rows 10 (i * e + j) R ltac:(nia)) as W. destruct (nth (i * e + j) rows []); cbn in *; lia.
  - intros ion i j I1 I2 J. assert (ion * e + i < length rows) as B by nia. pose proof (nth_rect rows 10 (ion * e + i) R B) as W.
    exists (nth (S j) (nth (ion * e + i) rows []) fzero). assert (nth_error (nth (ion * e + i) rows []) (S j) = Some (nth (S j) (nth (ion * e + i) rows []) fzero)) as E by (apply nth_error_nth'; lia). split.
    + unfold at3, at2, cell_at. rewrite tab_nth by auto. eexists. split; [reflexivity|]. rewrite tab_nth by auto. eexists. split; [reflexivity|]. rewrite nth_tl. exact E.
    + exists (nth (ion * e + i) rows []). split; [apply nth_error_nth'; auto|exact E].
Qed.
Lemma F2_nil {A B} {R : A -> B -> Prop} {l} : Forall2 R l [] -> l = []. Proof. intros F. inversion F. auto. Qed.
Lemma entries_some es : entries_of (some_list es) = some_list es. Proof. destruct es; auto. Qed.
Lemma partial_part_ok n es rows a : 0 < n -> Forall2 holds es rows -> rect rows 10 -> opt_map_res (partial_dos n) (some_list es) = Ok a -> partial_part n rows a.
Proof.
  intros N F R H. destruct F as [|e r es rows Hd F]; cbn [some_list opt_map_res] in H.
  - apply Ok_inj' in H. subst a. cbn. auto.
  - apply bind_ok in H as [b [H E]]. apply Ok_inj' in E. subst a. split; [discriminate|]. eapply partial_dos_ok; eauto.
Qed.
Lemma species_some x sp : fetch_species x = Ok (Some sp) -> 0 < length sp.
Proof.
  unfold fetch_species, findall. destruct (findall_deep _ x) as [|e es]; cbn [some_list opt_map_res]; [discriminate|]. intros H. apply bind_ok in H as [b [H E]]. apply Ok_inj' in E. injection E as <-.
  unfold convert_species in H. apply mapM_ok_Forall2 in H. apply F2_len in H. rewrite <- H. destruct es; cbn; lia.
Qed.
Lemma dos_parts_ok x d sp r o : 0 < length sp -> dos_says x d r -> dos_parts x d (Some sp) = Ok o ->
  (total1 r = [] -> o = None) /\ (total1 r <> [] -> exists dd, o = Some dd /\ dos_is (length sp) r dd /\
     exists fermi, (match find [Tag "calculation"; d; item "efermi"] x with None => Ok None | Some e => convert_f (text e) end) = Ok fermi /\ fermi_of (Some dd) = Ok fermi).
Proof.
  intros N (F1 & F2 & G1 & G2 & W & V) H. unfold dos_parts in H. apply bind_ok in H as [fermi [FE H]]. cbv zeta beta in H. unfold findall, spin_set in H.
  fold (dos_total_path d "spin 1") (dos_total_path d "spin 2") (dos_partial_path d "spin 1") (dos_partial_path d "spin 2") in H.
  split; intros T.
  - rewrite T in F1. rewrite (F2_nil F1) in H. cbn [some_list] in H. apply Ok_inj' in H. auto.
  - rewrite (some_list_some (findall_deep (dos_total_path d "spin 1") x)) in H by (intros Z; rewrite Z in F1; inversion F1; congruence). apply bind_ok in H as [dd [X H]]. apply Ok_inj' in H. subst o. exists dd. split; auto.
    assert (rect (total1 r) 3) as R1 by (intros q I; apply W, in_or_app; auto). assert (rect (total2 r) 3) as R2 by (intros q I; apply W, in_or_app; auto).
    assert (rect (partial1 r) 10) as Q1 by (intros q I; apply V, in_or_app; auto). assert (rect (partial2 r) 10) as Q2 by (intros q I; apply V, in_or_app; auto).
    unfold extract_dos in X. cbn [of_option bind] in X. rewrite (convert2D_holds 3 _ _ F1 R1) in X. cbn [bind] in X. rewrite !entries_some in X. apply bind_ok in X as [pa [PA X]].
    apply (partial_part_ok _ _ _ _ N G1 Q1) in PA.
    assert (forall rows part pp e f, rect rows 3 -> partial_part (length sp) part pp -> spin_part (length sp) rows part (DPart e (Some (column 1 rows)) (Some (column 2 rows)) (Some pp) f)) as SP.
    { intros rows part pp e f RR PP. split; [|split]; eexists; (split; [reflexivity|]); auto; apply (column_rows 3); auto; lia. }
    destruct (total2 r) as [|w t2] eqn:T2.
    + rewrite (F2_nil F2) in X. cbn [some_list] in X. apply Ok_inj' in X. subst dd. split.
      * eexists. split; [reflexivity|]. rewrite T2. split; [eexists; split; [reflexivity|apply (column_rows 3); auto; lia]|]. split; [|congruence]. intros _. split; [reflexivity|]. split; [reflexivity|]. apply SP; auto.
      * exists fermi. split; auto.
    + rewrite (some_list_some (findall_deep (dos_total_path d "spin 2") x)) in X by (intros Z; rewrite Z in F2; inversion F2; congruence). rewrite (convert2D_holds 3 _ _ F2 R2) in X. cbn [bind] in X.
      apply bind_ok in X as [pb [PB X]]. apply (partial_part_ok _ _ _ _ N G2 Q2) in PB. apply Ok_inj' in X. subst dd. split.
      * eexists. split; [reflexivity|]. rewrite T2. split; [eexists; split; [reflexivity|apply (column_rows 3); auto; lia]|]. split; [congruence|]. intros _. eexists _, _. split; [reflexivity|]. split; [reflexivity|]. split; apply SP; auto.
      * exists fermi. split; auto.
Qed.
(** Energies, densities, integrated densities and partial densities are the columns of the
    document, each spin and each ion with its own; without rows for the first spin there is no
    density of states *)
Theorem C73_vasprun_dos : forall x kbb all p sp r, parsew x kbb all = Ok p -> get_species p = Some sp -> dos_says x (Tag "dos") r ->
  (total1 r = [] -> get_dos p = None) /\ (total1 r <> [] -> exists d, get_dos p = Some d /\ dos_is (length sp) r d).
Proof.
  intros x kbb all p sp r H S D. apply parsew_run in H. unfold get_species in S. pose proof (tr_species _ _ _ _ H) as SP. rewrite S in SP. apply species_some in SP.
  pose proof (tr_dos _ _ _ _ H) as E. rewrite S in E. unfold fetch_dos in E. apply bind_ok in E as [o [O E]]. unfold get_dos.
  assert (p_dos p = o) as ->. { destruct o as [dd|]; [apply bind_ok in E as [i [_ E]]|]; apply Ok_inj' in E; symmetry; apply (f_equal fst E). }
  destruct (dos_parts_ok _ _ _ _ _ SP D O) as [A B]. split; auto. intros T. destruct (B T) as (dd & -> & I & _). eauto.
Qed.
(** the same for the density of states of the interpolated mesh *)
Theorem C73_vasprun_dos_specific : forall x kbb all p sp r, parsew x kbb all = Ok p -> get_species p = Some sp -> dos_says x (TagAt "dos" "comment" "interpolated") r -> get_dos p <> None ->
  (total1 r = [] -> get_dos_specific p = None) /\ (total1 r <> [] -> exists d, get_dos_specific p = Some d /\ dos_is (length sp) r d).
Proof.
  intros x kbb all p sp r H S D NN. apply parsew_run in H. unfold get_species in S. pose proof (tr_species _ _ _ _ H) as SP. rewrite S in SP. apply species_some in SP.
  pose proof (tr_dos _ _ _ _ H) as E. rewrite S in E. unfold fetch_dos in E. apply bind_ok in E as [o [O E]]. unfold get_dos, get_dos_specific in *.
  destruct o as [dd|]; [|apply Ok_inj' in E; exfalso; apply NN; symmetry; apply (f_equal fst E)]. apply bind_ok in E as [i [O' E]]. apply Ok_inj' in E.
  assert (p_dos_specific p = i) as -> by (symmetry; apply (f_equal snd E)). destruct (dos_parts_ok _ _ _ _ _ SP D O') as [A B]. split; auto. intros T. destruct (B T) as (dd' & -> & I & _). eauto.
Qed.
(** The Fermi level is the first efermi of a density of states in a calculation *)
Theorem C73_vasprun_fermi : forall x kbb all p sp r e rest t v, parsew x kbb all = Ok p -> get_species p = Some sp -> dos_says x (Tag "dos") r -> total1 r <> [] ->
  findall_deep [Tag "calculation"; Tag "dos"; TagAt "i" "name" "efermi"] x = e :: rest -> text e = Some t -> parse_float t = Some v -> get_fermi_level p = Ok (Some v).
Proof.
  intros x kbb all p sp r e rest t v H S D T F TX P. apply parsew_run in H. unfold get_species in S. pose proof (tr_species _ _ _ _ H) as SP. rewrite S in SP. apply species_some in SP.
  pose proof (tr_dos _ _ _ _ H) as E. rewrite S in E. unfold fetch_dos in E. apply bind_ok in E as [o [O E]].
  assert (p_dos p = o) as Po. { destruct o as [dd|]; [apply bind_ok in E as [i [_ E]]|]; apply Ok_inj' in E; symmetry; apply (f_equal fst E). }
  destruct (dos_parts_ok _ _ _ _ _ SP D O) as [_ B]. destruct (B T) as (dd & Q & _ & fermi & FE & G). unfold get_fermi_level. rewrite Po, Q, G. f_equal.
  unfold find, item in FE. rewrite F in FE. cbn [hd_error] in FE. rewrite TX in FE. unfold convert_f in FE. destruct (substrb stars t); [discriminate|]. unfold to_float in FE. rewrite P in FE. cbn in FE. apply Ok_inj' in FE. auto.
Qed.
(** Documented, but not so: with two spins 'total' has no sum of the spins, neither of the
    density nor integrated nor partial *)
Theorem C73_vasprun_dos_sum_refuted : forall x kbb all p sp r, parsew x kbb all = Ok p -> get_species p = Some sp -> dos_says x (Tag "dos") r -> total1 r <> [] -> total2 r <> [] ->
  exists d a, get_dos p = Some d /\ dd_all d = Some a /\ dp_total a = None /\ dp_integrated a = None /\ dp_partial a = None.
Proof.
  intros x kbb all p sp r H S (F1 & F2 & _) T1 T2. apply parsew_run in H. unfold get_species in S. pose proof (tr_dos _ _ _ _ H) as E. rewrite S in E. unfold fetch_dos in E. apply bind_ok in E as [o [O E]].
  assert (p_dos p = o) as Po. { destruct o as [dd|]; [apply bind_ok in E as [i [_ E]]|]; apply Ok_inj' in E; symmetry; apply (f_equal fst E). }
  unfold dos_parts in O. apply bind_ok in O as [fermi [_ O]]. cbv zeta beta in O. unfold findall, spin_set in O. fold (dos_total_path (Tag "dos") "spin 1") (dos_total_path (Tag "dos") "spin 2") in O.
  rewrite (some_list_some (findall_deep (dos_total_path (Tag "dos") "spin 1") x)) in O by (intros Z; rewrite Z in F1; inversion F1; congruence).
  rewrite (some_list_some (findall_deep (dos_total_path (Tag "dos") "spin 2") x)) in O by (intros Z; rewrite Z in F2; inversion F2; congruence).
  apply bind_ok in O as [dd [X O]]. apply Ok_inj' in O. unfold get_dos. rewrite Po, <- O. unfold extract_dos in X. cbn [of_option bind] in X. repeat (apply bind_ok in X as [? [? X]]).
  destruct (entries_of (Some (findall_deep (dos_total_path (Tag "dos") "spin 2") x))) eqn:EN.
  - repeat (apply bind_ok in X as [? [? X]]). apply Ok_inj' in X. subst dd. eexists _, _. repeat split.
  - exfalso. destruct (findall_deep (dos_total_path (Tag "dos") "spin 2") x); [inversion F2; congruence|discriminate].
Qed.
(** A partial density with another number of columns (f orbitals, or non-collinear) is silently zero *)
Theorem C73_vasprun_dos_wide_refuted : forall n es rows m a, 2 <= m -> m <> 10 -> Forall2 holds es rows -> (forall w, In w rows -> length w = m) -> partial_dos n es = Ok a ->
  forall ion i j v, at3 a ion i j v -> v = FFin false 0 0.
Proof.
  intros n es rows m a M N F R H ion i j v (q & Q & w & W & V). unfold partial_dos in H. apply bind_ok in H as [c [C H]].
  assert (c = map (fun _ => repeat fzero 10) rows) as ->.
  { clear H. unfold convert2D in C. revert c C. induction F as [|e r es rows Hd F IH]; intros c C; cbn [mapM] in C; [apply Ok_inj' in C; subst; auto|].
    rewrite (numbers_holds _ _ Hd) in C. cbn [bind] in C. apply bind_ok in C as [c' [C E]]. apply Ok_inj' in E. subst c. cbn [map]. f_equal; [|apply IH; auto; intros; apply R; right; auto].
    pose proof (R r (or_introl eq_refl)) as L. unfold fit_row. rewrite L. destruct (Nat.eqb_spec m 10); [contradiction|]. destruct r as [|u [|u' r]]; cbn in L; auto; lia. }
  assert (forall w, In w (columns_from1 (map (fun _ : row => repeat fzero 10) rows)) -> w = repeat fzero 9) as Z by (intros w' I; unfold columns_from1 in I; rewrite map_map in I; apply in_map_iff in I as (? & <- & _); reflexivity).
  assert (In w (columns_from1 (map (fun _ : row => repeat fzero 10) rows))) as I.
  { unfold split_even in H. destruct n; [discriminate|]. destruct (Nat.eqb _ _); [|discriminate]. apply Ok_inj' in H. subst a. apply nth_error_In in W. pose proof (nth_error_Some_lt _ _ _ Q) as LQ. rewrite chunks_length in LQ. rewrite chunks_nth in Q by auto. injection Q as <-.
    apply (in_firstn) in W. apply in_skipn in W. exact W. }
  rewrite (Z w I) in V. apply nth_error_In, repeat_spec in V. auto.
Qed.
(** The sample run has two spins and two ions *)
Definition sample_dos_rows : dos_rows :=
  let get path := match all_some (map row_of (findall_deep path sample)) with Some l => l | None => [] end in
  DosRows (get (dos_total_path (Tag "dos") "spin 1")) (get (dos_total_path (Tag "dos") "spin 2")) (get (dos_partial_path (Tag "dos") "spin 1")) (get (dos_partial_path (Tag "dos") "spin 2")).
Example c73_sample : dos_says sample (Tag "dos") sample_dos_rows /\ length (total1 sample_dos_rows) = 2 /\ length (total2 sample_dos_rows) = 2 /\ length (partial1 sample_dos_rows) = 4 /\ length (partial2 sample_dos_rows) = 4 /\
  get_species (tree_of sample false true) = Some [11; 17]%Z.
Proof.
  split; [|vm_compute; auto]. unfold dos_says. split; [apply rows_holds; vm_compute; reflexivity|]. split; [apply rows_holds; vm_compute; reflexivity|]. split; [apply rows_holds; vm_compute; reflexivity|]. split; [apply rows_holds; vm_compute; reflexivity|].
  split; (apply (proj1 (Forall_forall (fun w => length w = _) _)); vm_compute; repeat constructor).
Qed.
Example c73_sample_fermi : exists e rest t v, findall_deep [Tag "calculation"; Tag "dos"; TagAt "i" "name" "efermi"] sample = e :: rest /\ text e = Some t /\ parse_float t = Some v.
Proof. do 4 eexists. split; [vm_compute; reflexivity|]. split; [reflexivity|]. vm_compute. reflexivity. Qed.

(** ** C74: k-points, weights, divisions *)
Definition kpoints_path (n : string) : list pstep := [Tag "kpoints"; TagAt "varray" "name" n; Tag "v"].
Theorem C74_vasprun_kpoints : forall x kbb all p ks ws, parsew x kbb all = Ok p ->
  Forall2 holds (findall_child (kpoints_path "kpointlist") x) ks -> (forall k, In k ks -> length k = 3) -> Forall2 (fun e w => holds e [w]) (findall_child (kpoints_path "weights") x) ws ->
  get_kpoints p = some_list ks /\ get_kpointsw p = some_list ws.
Proof.
  intros x kbb all p ks ws H K R W. apply parsew_run in H. pose proof (tr_kpoints _ _ _ _ H) as A. pose proof (tr_kpointsw _ _ _ _ H) as B. unfold fetch_kpoints, fetch_kpointsw, vrr in *. fold (kpoints_path "kpointlist") in A. fold (kpoints_path "weights") in B.
  unfold get_kpoints, get_kpointsw. split.
  - destruct ks as [|k ks]; [rewrite (F2_nil K) in A; apply Ok_inj' in A; auto|]. rewrite some_list_some in A by (intros Z; rewrite Z in K; inversion K). cbn [opt_map_res] in A. rewrite (convert2D_holds 3 _ _ K R) in A. apply Ok_inj' in A. auto.
  - destruct ws as [|w ws]; [rewrite (F2_nil W) in B; apply Ok_inj' in B; auto|]. rewrite some_list_some in B by (intros Z; rewrite Z in W; inversion W). cbn [opt_map_res] in B. rewrite (convert1D_holds _ _ W) in B. apply Ok_inj' in B. auto.
Qed.
(** The mesh: three integers *)
Theorem C74_vasprun_divisions : forall x kbb all p e rest t ns, parsew x kbb all = Ok p -> findall_child [Tag "kpoints"; Tag "generation"; TagAt "v" "name" "divisions"] x = e :: rest -> text e = Some t ->
  Forall2 (fun w n => parse_int w = Some n) (split_ws t) ns -> p_kdiv p = Some ns.
Proof.
  intros x kbb all p e rest t ns H F T W. apply parsew_run in H. pose proof (tr_kdiv _ _ _ _ H) as A. unfold fetch_kdiv in A. rewrite F in A. cbn [hd_error opt_map_res] in A. apply bind_ok in A as [b [B A]]. apply Ok_inj' in A. rewrite <- A. f_equal. clear A.
  rewrite T in B. unfold convert_array_i in B. destruct (existsb odd_char t); [discriminate|]. revert b B. induction W as [|w n l ns P W IH]; intros b B; cbn [mapM] in B; [apply Ok_inj' in B; auto|].
  unfold small_int in B at 1. rewrite P in B. destruct (_ && _)%bool; [|discriminate]. cbn [bind] in B. apply bind_ok in B as [b' [B E]]. apply Ok_inj' in E. subst b. f_equal. apply IH; auto.
Qed.
(** The k-points of the interpolated mesh: those of the band velocities if there are any, else
    those of the interpolated eigenvalues *)
Definition specific_path (t n : string) : list pstep := [Tag "calculation"; Tag t; Tag "kpoints"; TagAt "varray" "name" n; Tag "v"].
Theorem C74_vasprun_kpoints_specific : forall x kbb all p ks ws, parsew x kbb all = Ok p ->
  let source := if match findall_deep (spin_path [Tag "eigenvelocities"; Tag "eigenvalues"] "spin 1") x with [] => true | _ => false end then "eigenvalues"%string else "eigenvelocities"%string in
  findall_deep (spin_path [Tag source; Tag "eigenvalues"] "spin 1") x <> [] ->
  Forall2 holds (findall_deep (specific_path source "kpointlist") x) ks -> (forall k, In k ks -> length k = 3) -> Forall2 (fun e w => holds e [w]) (findall_deep (specific_path source "weights") x) ws ->
  get_kpoints_specific p = some_list ks /\ get_kpointsw_specific p = some_list ws.
Proof.
  intros x kbb all p ks ws H source NE K R W. apply parsew_run in H. destruct (tr_specific _ _ _ _ H) as (spec & vel & SP & VE & _ & _ & KS & WS). unfold get_kpoints_specific, get_kpointsw_specific. rewrite KS, WS. clear KS WS.
  assert (specific_kpoints x source = Ok (some_list ks)) as A.
  { unfold specific_kpoints, findall, vrr. fold (specific_path source "kpointlist"). destruct ks as [|k ks]; [rewrite (F2_nil K); auto|]. rewrite some_list_some by (intros Z; rewrite Z in K; inversion K). cbn [opt_map_res some_list]. rewrite (convert2D_holds 3 _ _ K R). auto. }
  assert (specific_kpointsw x source = Ok (some_list ws)) as B.
  { unfold specific_kpointsw, findall, vrr. fold (specific_path source "weights"). destruct ws as [|w ws]; [rewrite (F2_nil W); auto|]. rewrite some_list_some by (intros Z; rewrite Z in W; inversion W). cbn [opt_map_res some_list]. rewrite (convert1D_holds _ _ W). auto. }
  unfold fetch_eigenvelocities, spin_rows, findall in VE. change (Tag "calculation" :: [Tag "eigenvelocities"; Tag "eigenvalues"] ++ [Tag "array"; Tag "set"; spin_set "spin 1"; Tag "set"; Tag "r"]) with (spin_path [Tag "eigenvelocities"; Tag "eigenvalues"] "spin 1") in VE.
  unfold source in *. clear source. destruct (findall_deep (spin_path [Tag "eigenvelocities"; Tag "eigenvalues"] "spin 1") x) as [|e es] eqn:EV.
  - cbn [some_list] in VE. apply Ok_inj' in VE. subst vel. unfold fetch_eigenvalues_specific, spin_rows, findall in SP.
    change (Tag "calculation" :: [Tag "eigenvalues"; Tag "eigenvalues"] ++ [Tag "array"; Tag "set"; spin_set "spin 1"; Tag "set"; Tag "r"]) with (spin_path [Tag "eigenvalues"; Tag "eigenvalues"] "spin 1") in SP.
    rewrite some_list_some in SP by auto. rewrite A, B in SP. cbn [bind] in SP. repeat (apply bind_ok in SP as [? [? SP]]). destruct x1 as [q1 q2]. apply Ok_inj' in SP. subst spec. auto.
  - cbn [some_list] in VE. rewrite A, B in VE. cbn [bind] in VE. repeat (apply bind_ok in VE as [? [? VE]]). apply Ok_inj' in VE. subst vel. auto.
Qed.
Example c74_sample : exists ks ws, ks <> [] /\ Forall2 holds (findall_child (kpoints_path "kpointlist") sample) ks /\ (forall k, In k ks -> length k = 3) /\ length ws = 2 /\ Forall2 (fun e w => holds e [w]) (findall_child (kpoints_path "weights") sample) ws.
Proof.
  eexists _, [_; _]. split; [|split; [apply rows_holds; vm_compute; reflexivity|]]; [discriminate|]. split; [apply (proj1 (Forall_forall (fun w => length w = _) _)); vm_compute; repeat constructor|]. split; [reflexivity|].
  pose proof (rows_holds (findall_child (kpoints_path "weights") sample) _ ltac:(vm_compute; reflexivity)) as F. inversion F as [|? ? ? ? F1 F']; subst. inversion F' as [|? ? ? ? F2 F'']; subst. inversion F''; subst. clear F F' F''. constructor; [exact F1|]. constructor; [exact F2|constructor].
Qed.
Example c74_sample_divisions : exists e t, findall_child [Tag "kpoints"; Tag "generation"; TagAt "v" "name" "divisions"] sample = [e] /\ text e = Some t /\ Forall2 (fun w n => parse_int w = Some n) (split_ws t) [2; 1; 1]%Z.
Proof. do 2 eexists. split; [vm_compute; reflexivity|]. split; [reflexivity|]. repeat constructor. Qed.

(** ** C75: species *)
(** the symbols of the elements in the order of their atomic numbers *)
Local Open Scope string_scope.
Definition symbols : list string :=
  ["H"; "He"; "Li"; "Be"; "B"; "C"; "N"; "O"; "F"; "Ne"; "Na"; "Mg"; "Al"; "Si"; "P"; "S"; "Cl"; "Ar"; "K"; "Ca"; "Sc"; "Ti"; "V"; "Cr"; "Mn"; "Fe"; "Co"; "Ni"; "Cu"; "Zn"; "Ga"; "Ge"; "As"; "Se"; "Br"; "Kr";
   "Rb"; "Sr"; "Y"; "Zr"; "Nb"; "Mo"; "Tc"; "Ru"; "Rh"; "Pd"; "Ag"; "Cd"; "In"; "Sn"; "Sb"; "Te"; "I"; "Xe"; "Cs"; "Ba"; "La"; "Ce"; "Pr"; "Nd"; "Pm"; "Sm"; "Eu"; "Gd"; "Tb"; "Dy"; "Ho"; "Er"; "Tm"; "Yb"; "Lu";
   "Hf"; "Ta"; "W"; "Re"; "Os"; "Ir"; "Pt"; "Au"; "Hg"; "Tl"; "Pb"; "Bi"; "Po"; "At"; "Rn"; "Fr"; "Ra"; "Ac"; "Th"; "Pa"; "U"; "Np"; "Pu"; "Am"; "Cm"; "Bk"; "Cf"; "Es"; "Fm"; "Md"; "No"; "Lr"; "Rf"; "Db"; "Sg"; "Bh"; "Hs"; "Mt"; "Ds"; "Rg"; "Cn"].
Local Close Scope string_scope.
(** [s] is the symbol of the element number [z], with its first letter in upper case *)
Definition symbol_of (z : nat) (s : string) : Prop := exists i, z = S i /\ nth_error symbols i = Some s.
(** one row of the table of atoms: the symbol, and anything *)
Definition atom_row (rc : xml) (s : string) : Prop := exists c1 c2, filter (matches (Tag "c")) (kids rc) = [c1; c2] /\ exists t, text c1 = Some t /\ split_ws t = [list_ascii_of_string s].
Definition atom_rows (x : xml) : list xml := findall_deep [Tag "atominfo"; TagAt "array" "name" "atoms"; Tag "set"; Tag "rc"] x.
Lemma children_at_app a b es : children_at (a ++ b) es = children_at b (children_at a es).
Proof. revert es. induction a as [|s a IH]; intros es; cbn; auto. Qed.
Lemma filter_flat {A B} (f : B -> bool) (g : A -> list B) l : filter f (flat_map g l) = flat_map (fun a => filter f (g a)) l.
Proof. induction l as [|a l IH]; cbn; auto. rewrite filter_app, IH. auto. Qed.
Lemma atomic_number z s : symbol_of z s -> assoc (string_of_list_ascii (lower (list_ascii_of_string s))) elements = Some (Z.of_nat z).
Proof.
  intros (i & -> & N). assert (i < length symbols) as L by (apply nth_error_Some; congruence).
  assert (forallb (fun i => match nth_error symbols i with Some s => match assoc (string_of_list_ascii (lower (list_ascii_of_string s))) elements with Some v => Z.eqb v (Z.of_nat (S i)) | None => false end | None => true end) (seq 0 (length symbols)) = true) as C by (vm_compute; reflexivity).
  rewrite forallb_forall in C. specialize (C i ltac:(apply in_seq; lia)). rewrite N in C. destruct (assoc _ elements) as [v|]; [apply Z.eqb_eq in C; subst v; reflexivity|discriminate C].
Qed.
Theorem C75_vasprun_species : forall x kbb all p ss zs, parsew x kbb all = Ok p -> Forall2 atom_row (atom_rows x) ss -> Forall2 (fun z s => symbol_of z s) zs ss -> zs <> [] ->
  get_species p = Some (map Z.of_nat zs).
Proof.
  intros x kbb all p ss zs H A S NE. apply parsew_run in H. pose proof (tr_species _ _ _ _ H) as E. unfold get_species. unfold fetch_species, findall in E.
  change [Tag "atominfo"; TagAt "array" "name" "atoms"; Tag "set"; Tag "rc"; Tag "c"] with (Tag "atominfo" :: [TagAt "array" "name" "atoms"; Tag "set"; Tag "rc"] ++ [Tag "c"]) in E.
  cbn [findall_deep] in E. rewrite children_at_app in E. change (children_at [TagAt "array" "name" "atoms"; Tag "set"; Tag "rc"] (filter (matches (Tag "atominfo")) (descendants x))) with (atom_rows x) in E. cbn [children_at] in E. rewrite filter_flat in E.
  assert (mapM (fun e => match text e with None => Exn AttributeError | Some s => match split_ws s with [] => Exn IndexError | w :: _ => of_option (SysExit 506) (assoc (string_of_list_ascii (lower w)) elements) end end)
            (every_other (flat_map (fun a => filter (matches (Tag "c")) (kids a)) (atom_rows x))) = Ok (map Z.of_nat zs) /\ (zs <> [] -> flat_map (fun a => filter (matches (Tag "c")) (kids a)) (atom_rows x) <> [])) as [M N].
  { clear E NE. revert zs S. induction A as [|rc s rcs ss R A IH]; intros zs S; inversion S as [|z ? zs' ? SZ S']; subst; [split; [reflexivity|congruence]|]. destruct R as (c1 & c2 & C & t & T & W). cbn [flat_map]. rewrite C. cbn [app every_other mapM]. split; [|discriminate].
    rewrite T, W. rewrite (atomic_number _ _ SZ). cbn [of_option bind]. rewrite (proj1 (IH _ S')). reflexivity. }
  rewrite some_list_some in E by auto. cbn [opt_map_res] in E. unfold convert_species in E. rewrite M in E. cbn [bind] in E. apply Ok_inj' in E. auto.
Qed.
(** An unknown symbol: exit code 506 *)
Theorem C75_vasprun_unknown_species : forall es pre e post t w rest, es = pre ++ e :: post -> text e = Some t -> split_ws t = w :: rest -> (forall n, ~ In (string_of_list_ascii (lower w), n) elements) ->
  (forall d, In d pre -> exists z, convert_species [d] = Ok [z]) -> convert_species es = Exn (SysExit 506).
Proof.
  intros es pre e post t w rest -> T W N A. unfold convert_species in *. induction pre as [|d pre IH]; cbn [app mapM].
  - rewrite T, W. destruct (assoc _ elements) as [n|] eqn:E; [|reflexivity]. exfalso. apply (N n). clear -E. induction elements as [|[k v] l IH]; [discriminate|]. cbn [assoc] in E. destruct (String.eqb_spec (string_of_list_ascii (lower w)) k) as [Q|]; [|right; auto]. injection E as ->. rewrite Q. left. auto.
  - destruct (A d (or_introl eq_refl)) as [z Z]. cbn [mapM] in Z. destruct (match text d with None => _ | Some s => _ end) as [z'|ex]; cbn [bind] in *; [|discriminate]. rewrite IH by (intros; apply A; right; auto). reflexivity.
Qed.
(** The names of the elements from 113 on are the provisional ones *)
Theorem C75_vasprun_new_names_refuted : Forall (fun s => forall a b, convert_species [Elem "c" a (Some (lit s)) b] = Exn (SysExit 506)) ["Nh"; "Fl"; "Mc"; "Lv"; "Ts"; "Og"]%string.
Proof. repeat constructor; intros a b; vm_compute; reflexivity. Qed.
Example c75_sample : Forall2 atom_row (atom_rows sample) ["Na"; "Cl"]%string /\ symbol_of 11 "Na" /\ symbol_of 17 "Cl" /\ (exists p, parsew sample false true = Ok p).
Proof.
  split; [|split; [exists 10; auto|split; [exists 16; auto|apply sample_regular]]].
  assert (exists a b, atom_rows sample = [a; b] /\ atom_row a "Na" /\ atom_row b "Cl") as (a & b & E & A & B).
  { eexists _, _. split; [vm_compute; reflexivity|]. split; (eexists _, _; split; [reflexivity|]; eexists; split; [reflexivity|]; vm_compute; reflexivity). }
  rewrite E. repeat constructor; auto.
Qed.

(** ** C76: parameters *)
(** where a parameter is in the document *)
Local Open Scope string_scope.
Definition separators (names : list string) (tag : string) : list pstep := Tag "parameters" :: map (TagAt "separator" "name") names ++ [TagAt "i" "name" tag].
Definition parameter_places : list (string * list pstep) :=
  [("symprec", separators ["symmetry"] "SYMPREC"); ("sigma", separators ["electronic"; "electronic smearing"] "SIGMA"); ("ismear", separators ["electronic"; "electronic smearing"] "ISMEAR");
   ("ispin", separators ["electronic"; "electronic spin"] "ISPIN"); ("nbands", separators ["electronic"] "NBANDS"); ("nelect", separators ["electronic"] "NELECT");
   ("system", separators ["general"] "SYSTEM"); ("nelm", separators ["electronic"; "electronic convergence"] "NELM"); ("nsw", separators ["ionic"] "NSW")].
Definition kind_of (name : string) : string :=
  if existsb (String.eqb name) ["symprec"; "sigma"; "nelect"] then "float" else if existsb (String.eqb name) ["system"] then "text" else "int".
(** [v] is the value of the text [t], as a number or as it is *)
Inductive value_of : string -> str -> entry -> Prop :=
| value_float t v : parse_float t = Some v -> value_of "float" t (Float_ (Some v))
| value_int t v : parse_int t = Some v -> value_of "int" t (Int_ (Some v))
| value_text t : value_of "text" t (Text_ (Some t)).
Definition no_value (kind : string) : entry := if String.eqb kind "float" then Float_ None else if String.eqb kind "int" then Int_ None else Text_ None.
Local Close Scope string_scope.
(** get_parameters has these nine keys; each holds the value of the first element at its place
    below parameters, whatever the incar element says, and None if there is none *)
Theorem C76_vasprun_parameters : forall x kbb all p, parsew x kbb all = Ok p ->
  (forall name, In name (map fst (get_parameters p)) <-> In name (map fst parameter_places)) /\
  forall name path, In (name, path) parameter_places ->
    (findall_deep path x = [] -> In (name, no_value (kind_of name)) (get_parameters p)) /\
    (forall e rest t v, findall_deep path x = e :: rest -> text e = Some t -> value_of (kind_of name) t v -> In (name, v) (get_parameters p)).
Proof.
  intros x kbb all p H. split; [intros name; cbn; intuition|]. apply parsew_run in H.
  assert (forall path, param_f x path = match findall_deep (Tag "parameters" :: path) x with [] => Ok None | e :: _ => convert_f (text e) end) as PF by (intros path; unfold param_f, param, find; destruct (findall_deep _ x); auto).
  assert (forall path, param_i x path = match findall_deep (Tag "parameters" :: path) x with [] => Ok None | e :: _ => convert_i (text e) end) as PI by (intros path; unfold param_i, param, find; destruct (findall_deep _ x); auto).
  assert (forall path r, param_f x path = Ok r -> (findall_deep (Tag "parameters" :: path) x = [] -> r = None) /\ forall e rest t v, findall_deep (Tag "parameters" :: path) x = e :: rest -> text e = Some t -> parse_float t = Some v -> r = Some v) as F.
  { intros path r Q. rewrite PF in Q. split; [intros E; rewrite E in Q; apply Ok_inj' in Q; auto|]. intros e rest t v E T V. rewrite E, T in Q. unfold convert_f in Q. destruct (substrb stars t); [discriminate|]. unfold to_float in Q. rewrite V in Q. cbn in Q. apply Ok_inj' in Q. auto. }
  assert (forall path r, param_i x path = Ok r -> (findall_deep (Tag "parameters" :: path) x = [] -> r = None) /\ forall e rest t v, findall_deep (Tag "parameters" :: path) x = e :: rest -> text e = Some t -> parse_int t = Some v -> r = Some v) as I.
  { intros path r Q. rewrite PI in Q. split; [intros E; rewrite E in Q; apply Ok_inj' in Q; auto|]. intros e rest t v E T V. rewrite E, T in Q. unfold convert_i in Q. destruct (substrb stars t); [discriminate|]. unfold to_int in Q. rewrite V in Q. cbn in Q. apply Ok_inj' in Q. auto. }
  destruct H as [_ H1 H2 H3 H4 H5 H6 H7 H8 H9 _ _ _ _ _ _ _ _ _ _ _ _ _ _]. unfold fetch_symprec, fetch_sigma, fetch_ismear, fetch_ispin, fetch_nbands, fetch_nelect, fetch_nelm, fetch_nsw in *.
  apply F in H1, H2, H6. apply I in H3, H4, H5, H8, H9. unfold sep, item in *.
  assert (forall (n : string) o (path : list pstep), In (n, Float_ o) (get_parameters p) -> kind_of n = "float"%string -> ((findall_deep path x = [] -> o = None) /\ forall e rest t v, findall_deep path x = e :: rest -> text e = Some t -> parse_float t = Some v -> o = Some v) ->
    (findall_deep path x = [] -> In (n, no_value (kind_of n)) (get_parameters p)) /\ (forall e rest t v, findall_deep path x = e :: rest -> text e = Some t -> value_of (kind_of n) t v -> In (n, v) (get_parameters p))) as GF.
  { intros n o path IN K [Q1 Q2]. rewrite K. split; [intros E; rewrite (Q1 E) in IN; exact IN|]. intros e rest t v E T V. inversion V as [? w PW| |]; subst. rewrite (Q2 _ _ _ _ E T PW) in IN. exact IN. }
  assert (forall (n : string) o (path : list pstep), In (n, Int_ o) (get_parameters p) -> kind_of n = "int"%string -> ((findall_deep path x = [] -> o = None) /\ forall e rest t v, findall_deep path x = e :: rest -> text e = Some t -> parse_int t = Some v -> o = Some v) ->
    (findall_deep path x = [] -> In (n, no_value (kind_of n)) (get_parameters p)) /\ (forall e rest t v, findall_deep path x = e :: rest -> text e = Some t -> value_of (kind_of n) t v -> In (n, v) (get_parameters p))) as GI.
  { intros n o path IN K [Q1 Q2]. rewrite K. split; [intros E; rewrite (Q1 E) in IN; exact IN|]. intros e rest t v E T V. inversion V as [|? w PW|]; subst. rewrite (Q2 _ _ _ _ E T PW) in IN. exact IN. }
  intros name path IN. unfold parameter_places in IN.
  repeat (destruct IN as [IN|IN]; [pose proof (f_equal fst IN) as IN1; pose proof (f_equal snd IN) as IN2; cbn [fst snd] in IN1, IN2; subst name path; clear IN|]); [ | | | | | | | | |destruct IN].
  - eapply GF; [unfold get_parameters; left; reflexivity|reflexivity|exact H1].
  - eapply GF; [unfold get_parameters; do 2 right; left; reflexivity|reflexivity|exact H2].
  - eapply GI; [unfold get_parameters; do 1 right; left; reflexivity|reflexivity|exact H3].
  - eapply GI; [unfold get_parameters; do 3 right; left; reflexivity|reflexivity|exact H4].
  - eapply GI; [unfold get_parameters; do 4 right; left; reflexivity|reflexivity|exact H5].
  - eapply GF; [unfold get_parameters; do 5 right; left; reflexivity|reflexivity|exact H6].
  - assert (p_system p = match findall_deep (separators ["general"%string] "SYSTEM") x with [] => None | e :: _ => text e end) as SY by (rewrite H7; unfold fetch_system, param, find, sep, item; change (separators ["general"%string] "SYSTEM") with [Tag "parameters"; TagAt "separator" "name" "general"; TagAt "i" "name" "SYSTEM"]; destruct (findall_deep [Tag "parameters"; TagAt "separator" "name" "general"; TagAt "i" "name" "SYSTEM"] x); reflexivity).
    split; [intros E; rewrite E in SY|intros e rest t v E T V; rewrite E, T in SY; inversion V; subst]; unfold get_parameters; rewrite SY; do 6 right; left; reflexivity.
  - eapply GI; [unfold get_parameters; do 7 right; left; reflexivity|reflexivity|exact H8].
  - eapply GI; [unfold get_parameters; do 8 right; left; reflexivity|reflexivity|exact H9].
Qed.
Example c76_sample : exists e rest t, findall_deep (separators ["electronic"%string] "NBANDS") sample = e :: rest /\ text e = Some t /\ value_of (kind_of "nbands") t (Int_ (Some 2%Z)).
Proof. do 3 eexists. split; [vm_compute; reflexivity|]. split; [reflexivity|]. apply value_int. vm_compute. reflexivity. Qed.

(** ** C77: the dielectric function *)
(** rows of energy, xx, yy, zz, xy, yz, zx *)
Definition dielectric_path (part : string) : list pstep := [Tag "calculation"; Tag "dielectricfunction"; Tag part; Tag "array"; Tag "set"; Tag "r"].
Definition tensor_path (n : string) : list pstep := [Tag "calculation"; TagAt "varray" "name" n; Tag "v"].
Definition six_is (rows m : matrix) : Prop := shape2 m (length rows) 6 /\ forall i j, i < length rows -> j < 6 -> exists v, at2 m i j v /\ cell_at rows i (S j) v.
Lemma six_rows rows : rect rows 7 -> six_is rows (columns_from1 rows).
Proof.
  intros R. assert (columns_from1 rows = tab (length rows) (fun i => tl (nth i rows []))) as T by (unfold columns_from1; rewrite (list_tab [] rows) at 1; rewrite map_tab; auto).
  rewrite T. split; [split; [apply tab_length|]|].
  - intros r I. apply tab_In in I as (i & I & ->). pose proof (nth_rect rows 7 i R I) as W. destruct (nth i rows []); cbn in *; lia.
  - intros i j I J. pose proof (nth_rect rows 7 i R I) as W. exists (nth (S j) (nth i rows []) fzero). assert (nth_error (nth i rows []) (S j) = Some (nth (S j) (nth i rows []) fzero)) as E by (apply nth_error_nth'; lia). split.
    + unfold at2, cell_at. rewrite tab_nth by auto. eexists. split; [reflexivity|]. rewrite nth_tl. exact E.
    + eexists. split; [apply nth_error_nth'; auto|exact E].
Qed.
Lemma table_some dim es rows : Forall2 holds es rows -> rect rows dim -> opt_map_res (convert2D dim) (some_list es) = Ok (some_list rows).
Proof. intros F R. destruct rows as [|r rows]; [rewrite (F2_nil F); auto|]. rewrite some_list_some by (intros Z; rewrite Z in F; inversion F). cbn [opt_map_res some_list]. rewrite (convert2D_holds dim _ _ F R). auto. Qed.
Theorem C77_vasprun_dielectrics : forall x kbb all p im re ep ei, parsew x kbb all = Ok p ->
  Forall2 holds (findall_deep (dielectric_path "imag") x) im -> Forall2 holds (findall_deep (dielectric_path "real") x) re -> (forall r, In r (im ++ re) -> length r = 7) ->
  Forall2 holds (findall_deep (tensor_path "epsilon") x) ep -> Forall2 holds (findall_deep (tensor_path "epsilon_ion") x) ei -> (forall r, In r (ep ++ ei) -> length r = 3) ->
  exists d, get_dielectrics p = Some d /\
    (im = [] -> di_energy d = None /\ di_imag d = None) /\ (im <> [] -> exists e m, di_energy d = Some e /\ di_imag d = Some m /\ column_is im 0 e /\ six_is im m) /\
    (re = [] -> di_real d = None) /\ (re <> [] -> exists m, di_real d = Some m /\ six_is re m) /\
    get_epsilon p = Ok (some_list ep) /\ get_epsilon_ion p = Ok (some_list ei).
Proof.
  intros x kbb all p im re ep ei H I R W E1 E2 V. apply parsew_run in H. destruct (tr_diel _ _ _ _ H) as (d & D & PD). exists d. split; [exact PD|]. unfold get_epsilon, get_epsilon_ion. rewrite PD. clear PD H.
  assert (rect im 7) as R1 by (intros r IN; apply W, in_or_app; auto). assert (rect re 7) as R2 by (intros r IN; apply W, in_or_app; auto).
  assert (rect ep 3) as R3 by (intros r IN; apply V, in_or_app; auto). assert (rect ei 3) as R4 by (intros r IN; apply V, in_or_app; auto).
  unfold fetch_diel, findall, vrr in D. cbv zeta in D. fold (dielectric_path "imag") (dielectric_path "real") (tensor_path "epsilon") (tensor_path "epsilon_ion") in D.
  rewrite (table_some 7 _ _ I R1), (table_some 7 _ _ R R2), (table_some 3 _ _ E1 R3), (table_some 3 _ _ E2 R4) in D. cbn [bind] in D. apply Ok_inj' in D. subst d. cbn [di_energy di_imag di_real di_epsilon di_epsilon_ion of_option].
  split; [intros ->; auto|]. split; [intros N; rewrite some_list_some by auto; cbn [option_map]; do 2 eexists; split; [reflexivity|]; split; [reflexivity|]; split; [apply (column_rows 7); auto; lia|apply six_rows; auto]|].
  split; [intros ->; auto|]. split; [intros N; rewrite some_list_some by auto; eexists; split; [reflexivity|apply six_rows; auto]|]. auto.
Qed.
(** A document with the density-density and the current-current function: both are in one table,
    one after the other, so that the energies are there twice *)
Theorem C77_vasprun_two_functions_refuted : forall x kbb all p f1 f2 im1 im2, parsew x kbb all = Ok p -> findall_deep [Tag "calculation"; Tag "dielectricfunction"] x = [f1; f2] ->
  let rows f := findall_child [Tag "imag"; Tag "array"; Tag "set"; Tag "r"] f in
  Forall2 holds (rows f1) im1 -> Forall2 holds (rows f2) im2 -> (forall r, In r (im1 ++ im2) -> length r = 7) -> im1 <> [] -> im2 <> [] ->
  exists d e1 e2, get_dielectrics p = Some d /\ di_energy d = Some (e1 ++ e2) /\ column_is im1 0 e1 /\ column_is im2 0 e2.
Proof.
  intros x kbb all p f1 f2 im1 im2 H F rows I1 I2 W N1 N2. apply parsew_run in H. destruct (tr_diel _ _ _ _ H) as (d & D & PD). exists d, (column 0 im1), (column 0 im2). split; [exact PD|].
  assert (rect im1 7) as R1 by (intros r IN; apply W, in_or_app; auto). assert (rect im2 7) as R2 by (intros r IN; apply W, in_or_app; auto).
  split; [|split; apply (column_rows 7); auto; lia]. clear PD.
  assert (findall_deep (dielectric_path "imag") x = rows f1 ++ rows f2) as E.
  { unfold dielectric_path. change [Tag "calculation"; Tag "dielectricfunction"; Tag "imag"; Tag "array"; Tag "set"; Tag "r"] with (Tag "calculation" :: [Tag "dielectricfunction"] ++ [Tag "imag"; Tag "array"; Tag "set"; Tag "r"]).
    cbn [findall_deep]. rewrite children_at_app. change (children_at [Tag "dielectricfunction"] (filter (matches (Tag "calculation")) (descendants x))) with (findall_deep [Tag "calculation"; Tag "dielectricfunction"] x). rewrite F.
    change [f1; f2] with ([f1] ++ [f2]). unfold rows, findall_child. clear. generalize [Tag "imag"; Tag "array"; Tag "set"; Tag "r"]. intros path. generalize [f1] [f2]. induction path as [|s path IH]; intros a b; cbn [children_at]; auto. rewrite flat_map_app, filter_app. apply IH. }
  unfold fetch_diel, findall, vrr in D. cbv zeta in D. fold (dielectric_path "imag") in D. rewrite E in D. rewrite (table_some 7 _ _ (Forall2_app I1 I2)) in D by (intros r IN; apply W; auto). cbn [bind] in D. repeat (apply bind_ok in D as [? [? D]]). apply Ok_inj' in D. subst d. cbn [di_energy].
  rewrite some_list_some by (destruct im1; [congruence|discriminate]). cbn [option_map]. f_equal. unfold column. rewrite map_app. clear. induction (map (fun r : list float => nth_error r 0) im1) as [|[a|] l IH]; cbn [app keep_some]; auto. rewrite IH. auto.
Qed.
Local Open Scope string_scope.
Local Open Scope list_scope.
Definition diel_function (c : string) (z : string) : xml :=
  let part n := box n [box "array" [leaf "field" "energy"; box "set" (rs [(" 0.0 1 1 1 0 0 " ++ z)%string; (" 0.5 2 2 2 0 0 " ++ z)%string])]] in comment_ "dielectricfunction" c [part "imag"; part "real"].
Definition optics : xml := sample_document [sample_step "0.5" [(" -1.0", " -2.0", " -3.0")] [diel_function "density-density" "0.1"; diel_function "current-current" "0.2"; named_ "varray" "epsilon" (vs [" 2 0 0 "; " 0 2 0 "; " 0 0 3 "])]].
Local Close Scope string_scope.
Example c77_optics : (exists p, parsew optics false true = Ok p) /\ (exists im re ep, length im = 4 /\ Forall2 holds (findall_deep (dielectric_path "imag") optics) im /\ Forall2 holds (findall_deep (dielectric_path "real") optics) re /\ (forall r, In r (im ++ re) -> length r = 7) /\
  Forall2 holds (findall_deep (tensor_path "epsilon") optics) ep /\ Forall2 holds (findall_deep (tensor_path "epsilon_ion") optics) [] /\ forall r, In r (ep ++ []) -> length r = 3) /\
  exists f1 f2, findall_deep [Tag "calculation"; Tag "dielectricfunction"] optics = [f1; f2].
Proof.
  split; [eexists; vm_compute; reflexivity|]. split; [|eexists _, _; vm_compute; reflexivity]. eexists [_; _; _; _], _, _. split; [reflexivity|]. split; [apply rows_holds; vm_compute; reflexivity|]. split; [apply rows_holds; vm_compute; reflexivity|].
  split; [apply (proj1 (Forall_forall (fun w => length w = _) _)); vm_compute; repeat constructor|]. split; [apply rows_holds; vm_compute; reflexivity|]. split; [vm_compute; constructor|]. apply (proj1 (Forall_forall (fun w => length w = _) _)); vm_compute; repeat constructor.
Qed.
