(** Properties of the OUTCAR reader (C46-C49, C62-C64): statements, with examples. *)
From Coq Require Import Ascii String List NArith ZArith Bool Lia.
From Verif Require Import PyBase PyStrLemmas PyNum UtilsModel OutcarModel OutcarSpec OutcarMatch OutcarProofs OutcarScan OutcarStatus OutcarTables OutcarTimings Props_Stream StreamConfig.
Import ListNotations.
Local Open Scope list_scope.

Lemma init_ok path handler o : outcar_init path handler = Ok o ->
  exists d t, scan (scanned path handler) odata0 = Ok d /\ run_status d = Ok (oc_status o) /\ foldM timing_line (last_lines 50 (scanned path handler)) [] = Ok t /\
    oc_stats o = t /\ oc_elastic o = od_elastic d /\ oc_operations o = od_operations d /\ oc_original o = od_original d /\ oc_symmetrized o = od_symmetrized d /\
    oc_sphere o = od_sphere d /\ oc_full_cell o = od_full_cell d.
Proof.
  unfold outcar_init. destruct (negb (is_some path) && negb (is_some handler)); [discriminate|]. intros H. apply bind_ok in H as [ls [H1 H2]]. apply scanned_ok in H1. subst ls.
  unfold from_list in H2. apply bind_ok in H2 as [d [D H2]]. apply bind_ok in H2 as [s [S1 H2]]. apply bind_ok in H2 as [t [T H2]]. apply Ok_inj' in H2. subst o. exists d, t. cbn. auto 20.
Qed.

(** ** C46: the run status *)
(** electronic convergence and the NELM flags *)
Theorem C46_electronic path handler o : outcar_init path handler = Ok o ->
  let ls := scanned path handler in let s := oc_status o in
  last_said iterates ls (Some (rs_last s)) /\ (rs_finished s = true <-> run_finished ls) /\
  exists nelm, rs_nelm s = Some nelm /\ last_said (param "NELM") ls (Some nelm) /\
    (rs_electronic s = true <-> run_finished ls /\ (snd (rs_last s) < nelm)%Z) /\
    (rs_contains s = true <-> exists x, breached ls nelm x) /\
    (rs_consistent s = true <->
       (run_finished ls /\ forall x, ionic_step ls x -> breached ls nelm x) \/
       (~ run_finished ls /\ (1 < fst (rs_last s))%Z /\ forall x x', ionic_step ls x -> ionic_step ls x' -> (x < x')%Z -> breached ls nelm x)).
Proof. intros H ls s. apply init_ok in H as (d & t & H1 & H2 & _). pose proof (run_status_ok _ _ _ H1 H2) as [A B C D E F]. auto. Qed.
(** ionic convergence, as a table: (finished, IBRION or -1, NSW, last ionic step) to the
    answer; None is Python's None *)
Inductive ionic_answer (finished : Prop) (ibrion : Z) (nsw : option Z) (step : Z) : option bool -> Prop :=
| ia_unfinished : ~ finished -> ionic_answer finished ibrion nsw step (Some false)
| ia_static : finished -> (ibrion <= 0)%Z -> ionic_answer finished ibrion nsw step None
| ia_converged n : finished -> (0 < ibrion)%Z -> nsw = Some n -> (step < n)%Z -> ionic_answer finished ibrion nsw step (Some true)
| ia_exhausted n : finished -> (0 < ibrion)%Z -> nsw = Some n -> (n <= step)%Z -> (1 < n)%Z -> ionic_answer finished ibrion nsw step (Some false)
| ia_unknown n : finished -> (0 < ibrion)%Z -> nsw = Some n -> (n <= step)%Z -> (n <= 1)%Z -> ionic_answer finished ibrion nsw step None.
Theorem C46_ionic path handler o : outcar_init path handler = Ok o ->
  let ls := scanned path handler in let s := oc_status o in
  exists ib, (last_said (param "IBRION") ls (Some ib) \/ last_said (param "IBRION") ls None /\ ib = (-1)%Z) /\
    ionic_answer (run_finished ls) ib (rs_nsw s) (fst (rs_last s)) (rs_ionic s).
Proof.
  intros H ls s. apply init_ok in H as (d & t & H1 & H2 & _). pose proof (run_status_ok _ _ _ H1 H2) as [A B C D E [ib [F1 [F2 F3]]]]. exists ib. split; auto. fold ls s in E, F2, F3 |- *. rewrite F3.
  destruct (rs_finished s) eqn:EF; cbn [negb].
  - assert (run_finished ls) as R by (apply E; auto). destruct (ib <=? 0)%Z eqn:EB. { apply ia_static; auto. apply Z.leb_le. auto. } apply Z.leb_gt in EB.
    destruct (rs_nsw s) as [n|] eqn:EN; [|exfalso; apply F2; auto]. destruct (fst (rs_last s) <? n)%Z eqn:E1. { apply Z.ltb_lt in E1. eapply ia_converged; eauto. }
    apply Z.ltb_ge in E1. destruct (n <=? 1)%Z eqn:E2. { apply Z.leb_le in E2. eapply ia_unknown; eauto. } apply Z.leb_gt in E2. eapply ia_exhausted; eauto.
  - apply ia_unfinished. intros R. apply E in R. congruence.
Qed.
(** whatever a crashed run left behind, it is not reported as converged *)
Theorem C46_unfinished path handler o : outcar_init path handler = Ok o -> ~ run_finished (scanned path handler) ->
  rs_finished (oc_status o) = false /\ rs_ionic (oc_status o) = Some false /\ rs_electronic (oc_status o) = false.
Proof.
  intros H N. pose proof (C46_ionic _ _ _ H) as [ib [_ I1]]. pose proof (C46_electronic _ _ _ H) as [_ [F [nelm [_ [_ [L _]]]]]]. split; [|split].
  - destruct (rs_finished (oc_status o)); auto. exfalso. apply N, F. auto.
  - destruct I1; auto; contradiction.
  - destruct (rs_electronic (oc_status o)); auto. exfalso. apply N. apply L. auto.
Qed.

(** ** C47: the last line that gives a parameter counts *)
Theorem C47_last_wins path handler o : outcar_init path handler = Ok o ->
  last_said (param "NSW") (scanned path handler) (rs_nsw (oc_status o)) /\ last_said (param "NELM") (scanned path handler) (rs_nelm (oc_status o)) /\
  last_said nbands_said (scanned path handler) (rs_nbands (oc_status o)).
Proof.
  intros H. apply init_ok in H as (d & t & H1 & H2 & _). pose proof (run_status_ok _ _ _ H1 H2) as [A [nelm [B1 [B2 _]]] C D E F]. split; auto. split; auto. rewrite B1. auto.
Qed.
(** what a line says is unambiguous, so is what the last one says *)
Theorem C47_unambiguous ls a b key : In key ["NSW"; "NELM"; "IBRION"]%string -> last_said (param key) ls a -> last_said (param key) ls b -> a = b.
Proof.
  intros K. apply last_said_fun. intros [|l t] v w; [intros []|]. intros [_ A] [_ B]. eapply assigns_fun; eauto. destruct K as [<-|[<-|[<-|[]]]]; reflexivity.
Qed.

(** ** C48: the closing block *)
Theorem C48_run_stats path handler o : outcar_init path handler = Ok o ->
  exists before closing, scanned path handler = before ++ closing /\ length closing = Nat.min 50 (length (scanned path handler)) /\
    NoDup (dkeys (oc_stats o)) /\ forall name, last_said (timing name) closing (dget name (oc_stats o)).
Proof.
  intros H. apply init_ok in H as (d & t & _ & _ & H & E & _). subst t. set (ls := scanned path handler) in *.
  exists (firstn (length ls - 50) ls), (last_lines 50 ls). unfold last_lines in *. split; [rewrite firstn_skipn; auto|]. split; [rewrite skipn_length; lia|].
  split; [eapply timings_NoDup; eauto; constructor|]. intros name. destruct (timings_said _ _ _ H name) as [[v [A B]]|[A B]]; rewrite A; auto.
Qed.
Theorem C48_unambiguous name ls a b : last_said (timing name) ls a -> last_said (timing name) ls b -> a = b.
Proof. apply last_said_fun. intros [|l t] v w; [intros []|]. cbn [timing head_line]. intros A B. exact (proj2 (entry_fun _ _ _ _ _ A B)). Qed.

(** ** C49: tables *)
Theorem C49_elastic path handler o k h : outcar_init path handler = Ok o -> In (k, h) [("symmetrized", "SYMMETRIZED ELASTIC MODULI"); ("total", "TOTAL ELASTIC MODULI")]%string ->
  exists v, dget (lit k) (oc_elastic o) = Some v /\ last_said (elastic h) (scanned path handler) v.
Proof.
  intros H K. apply init_ok in H as (d & t & H1 & _ & _ & _ & E & _). rewrite E.
  assert (In (k, h) elastic_keys) as K' by (destruct K as [<-|[<-|[]]]; cbn; auto). destruct (elastic_said _ _ _ _ H1 K') as [[v [A B]]|[A B]].
  - exists (Some v). auto.
  - exists None. split; auto. rewrite A. destruct K as [X|[X|[]]]; inversion X; reflexivity.
Qed.
(** the documented key of the non-symmetrized moduli is never filled: the table is stored
    under another key *)
Theorem C49_nonsymmetrized_refuted path handler o : outcar_init path handler = Ok o ->
  dget (lit "non-symmetrized") (oc_elastic o) = Some None /\
  last_said (elastic "ELASTIC MODULI  (kBar)") (scanned path handler) (match dget (lit "non_symmetrized") (oc_elastic o) with Some v => v | None => None end).
Proof.
  intros H. apply init_ok in H as (d & t & H1 & _ & _ & _ & E & _). rewrite E. split; [rewrite (nonsym_said _ _ _ H1); reflexivity|].
  destruct (elastic_said _ _ "non_symmetrized" "ELASTIC MODULI  (kBar)" H1 (or_introl eq_refl)) as [[v [A B]]|[A B]]; rewrite A; auto.
Qed.
Theorem C49_symmetry path handler o s : outcar_init path handler = Ok o ->
  all_said (fun before tail => maybe (operations_said s before tail)) [] (scanned path handler) (part s (oc_operations o)) /\
  all_said (fun before tail => maybe (cell_said s before tail)) [] (scanned path handler) (part s (oc_symmetrized o)) /\
  all_said (fun before tail vs => exists a b, vs = a ++ b /\ maybe (pricel s before tail) a /\ maybe (supercell s before tail) b) [] (scanned path handler) (part s (oc_original o)).
Proof. intros H. apply init_ok in H as (d & t & H1 & _ & _ & _ & _ & E1 & E2 & E3 & _). rewrite E1, E2, E3. apply symmetry_said. auto. Qed.
(** magnetization: the last row of a site counts, the last table gives the totals (or, when
    it has no line of totals, the first site recorded does) *)
Theorem C49_magnetization path handler o p : outcar_init path handler = Ok o -> In p ["x"; "y"; "z"]%string ->
  exists sph ts, dget (lit p) (oc_sphere o) = Some sph /\ all_said (fun _ tail => maybe (mag_table p tail)) [] (scanned path handler) ts /\
    let rows := concat (map fst ts) in
    (forall k, match zget k (sp_site sph) with
               | Some m => exists a b, rows = a ++ (k, m) :: b /\ ~ In k (map fst b)
               | None => ~ In k (map fst rows)
               end) /\
    match rev ts with
    | [] => sp_total sph = []
    | (_, Some m) :: _ => sp_total sph = m
    | (_, None) :: _ => exists k m rows', rows = (k, m) :: rows' /\ zget k (sp_site sph) = Some (sp_total sph)
    end.
Proof.
  intros H K. apply init_ok in H as (d & t & H1 & _ & _ & _ & _ & _ & _ & _ & E & _). rewrite E. destruct (mag_said p _ _ H1 K) as [ts [T1 [T2 T3]]].
  assert (dkeys (od_sphere d) = map lit ["x"; "y"; "z"]%string) as DK.
  { change (map lit ["x"; "y"; "z"]%string) with (dkeys (od_sphere odata0)). generalize odata0 H1. generalize (scanned path handler). clear. induction l as [|l rest IH]; intros d0 H; cbn [scan] in H; [apply Ok_inj' in H; congruence|].
    apply bind_ok in H as [d1 [S1 S2]]. rewrite (IH _ S2). apply (sf_projs _ _ _ _ (step_ok _ _ _ _ S1)). }
  assert (exists sph, dget (lit p) (od_sphere d) = Some sph) as [sph DS].
  { destruct (dget (lit p) (od_sphere d)) eqn:G; eauto. exfalso. apply dget_None in G. apply G. rewrite DK. apply in_map. auto. }
  exists sph, ts. split; auto. split; [exact T1|]. unfold sphere_of in T2, T3. rewrite DS in T2, T3.
  assert (forall rows k, match zget k (dict_of rows) with Some m => exists a b, rows = a ++ (k, m) :: b /\ ~ In k (map fst b) | None => ~ In k (map fst rows) end) as G.
  { clear. intros rows k. assert (In k (map fst rows) \/ ~ In k (map fst rows)) as [X|X] by (destruct (in_dec Z.eq_dec k (map fst rows)); auto).
    - assert (exists a m b, rows = a ++ (k, m) :: b /\ ~ In k (map fst b)) as (a & m & b & R & N).
      { induction rows as [|[k' m'] rows IH]; [destruct X|]. cbn [map fst In] in X. destruct (in_dec Z.eq_dec k (map fst rows)) as [Y|Y].
        - destruct (IH Y) as (a & m & b & R & N). exists ((k', m') :: a), m, b. split; auto. rewrite R. auto.
        - destruct X as [->|X]; [|contradiction]. exists [], m', rows. auto. }
      rewrite R, dict_of_last by auto. exists a, b. auto.
    - rewrite dict_of_none; auto. }
  split; [intros k; rewrite T2; apply G|]. destruct (rev ts) as [|[r [m|]] rs]; auto. destruct T3 as [k T3].
  assert (forall rows, hd_error (dict_of rows) = hd_error (dict_of rows) -> forall k v, hd_error (dict_of rows) = Some (k, v) -> exists m rows', rows = (k, m) :: rows' /\ zget k (dict_of rows) = Some v) as HD.
  { clear. intros rows _ k v X. destruct rows as [|[k0 m0] rows]; [discriminate|].
    assert (forall rows s v0, exists v s', fold_left (fun s (km : Z * dict float) => zset (fst km) (snd km) s) rows ((k0, v0) :: s) = (k0, v) :: s') as FL.
    { clear. induction rows as [|[k m] rows IH]; intros s v0; cbn [fold_left fst snd]; eauto. cbn [zset]. destruct (k =? k0)%Z; apply IH. }
    unfold dict_of, after_rows in *. cbn [fold_left fst snd zset] in *. destruct (FL rows [] m0) as [v' [s' E]]. rewrite E in *. cbn [hd_error] in X. inversion X. subst. exists m0, rows. split; auto. cbn [zget]. rewrite Z.eqb_refl. auto. }
  rewrite T2 in T3. destruct (HD _ eq_refl _ _ T3) as (m & rows' & R & Z1). exists k, m, rows'. rewrite T2. auto.
Qed.
Theorem C49_full_cell path handler o : outcar_init path handler = Ok o -> last_said cell_moment (scanned path handler) (oc_full_cell o).
Proof. intros H. apply init_ok in H as (d & t & H1 & _ & _ & _ & _ & _ & _ & _ & _ & E). rewrite E. apply full_said. auto. Qed.

(** ** C62: exit codes *)
Definition noexits {A} (r : res A) : Prop := forall c, r <> Exn (SysExit c).
Lemma noexits_bind {A B} (r : res A) (f : A -> res B) : noexits r -> (forall a, noexits (f a)) -> noexits (bind r f).
Proof. unfold noexits. destruct r; cbn; auto. intros H _ c. specialize (H c). congruence. Qed.
Lemma noexits_ok {A} (a : A) : noexits (Ok a). Proof. intros c. discriminate. Qed.
Lemma noexits_mapM {A B} (f : A -> res B) l : (forall a, noexits (f a)) -> noexits (mapM f l).
Proof. intros H. induction l as [|a l IH]; cbn; [intros c; discriminate|]. apply noexits_bind; auto. intros b. apply noexits_bind; auto. intros x c. discriminate. Qed.
Lemma noexits_foldM {A S} (f : S -> A -> res S) l s : (forall s a, noexits (f s a)) -> noexits (foldM f l s).
Proof. intros H. revert s. induction l as [|a l IH]; intros s; cbn; [intros c; discriminate|]. apply noexits_bind; auto. Qed.
Lemma noexits_option {A} e (o : option A) : (forall c, e <> SysExit c) -> noexits (of_option e o).
Proof. intros H c. destruct o; cbn; congruence. Qed.
Ltac noexits_step := first
  [ apply noexits_ok | apply noexits_option; intros; discriminate | apply noexits_mapM; intros | apply noexits_foldM; intros | apply noexits_bind; [|intros]
  | match goal with |- noexits (match ?b with _ => _ end) => destruct b end | (intros c; discriminate) ].
Lemma read_moments_noexits ls s : noexits (read_moments ls s).
Proof. revert s. induction ls as [|l ls IH]; intros s; cbn [read_moments]; [intros c; discriminate|]. unfold py_nth, to_int, moments, to_float, s_orb. repeat first [apply IH | noexits_step]. Qed.
Lemma scan_noexits ls d : noexits (scan ls d).
Proof.
  revert d. induction ls as [|l ls IH]; intros d; cbn [scan]; [intros c; discriminate|]. apply noexits_bind; auto.
  unfold step, step_params, step_symmetry, step_elastic, step_magnetization, match_integer_param, tensor_at, py_nth, to_int, to_float.
  repeat first [apply read_moments_noexits | noexits_step].
Qed.
Lemma timings_noexits ls i : noexits (foldM timing_line ls i).
Proof. apply noexits_foldM. intros s l. unfold timing_line, py_nth. repeat noexits_step. Qed.
Lemma marker_recorded ls d d' : scan ls d = Ok d' -> ov_iter d <> None \/ Exists is_marker ls -> ov_iter d' <> None.
Proof.
  revert d. induction ls as [|l ls IH]; intros d H E; cbn [scan] in H.
  - apply Ok_inj' in H. subst. destruct E as [E|E]; auto. inversion E.
  - apply bind_ok in H as [d1 [H1 H2]]. apply (IH _ H2). apply step_ok in H1. pose proof (sf_iter _ _ _ _ H1) as S1. pose proof (sf_steps _ _ _ _ H1) as S2.
    destruct E as [E|E]; [|apply Exists_cons in E as [M|E]; [|auto]].
    + left. destruct S1 as [[v [-> _]]|[_ ->]]; [discriminate|auto].
    + left. destruct S2 as [[x [y [X _]]]|[N _]]; [|contradiction]. destruct S1 as [[v [-> _]]|[N _]]; [discriminate|]. exfalso. apply (N (Some (x, y))). exists (x, y). auto.
Qed.
Lemma from_list_exit ls c : from_list ls = Exn (SysExit c) -> c = 600%Z /\ forall l, In l ls -> ~ is_marker l.
Proof.
  unfold from_list. destruct (scan ls odata0) as [d|e] eqn:ES; cbn [bind]; intros H; [|inversion H; subst e; exfalso; eapply scan_noexits; eauto].
  destruct (run_status d) as [s|e] eqn:ER; cbn [bind] in H.
  - exfalso. destruct (foldM timing_line (last_lines 50 ls) []) eqn:ET; cbn [bind] in H; inversion H. subst. eapply timings_noexits; eauto.
  - inversion H. subst e. clear H. unfold run_status in ER. destruct (ov_iter d) as [it|] eqn:EI; cbn [of_option bind] in ER.
    + exfalso. revert ER. match goal with |- ?r = _ -> _ => assert (noexits r) as NE end; [unfold ionic; repeat noexits_step|apply NE].
    + inversion ER. split; auto. intros l L M. apply (marker_recorded _ _ _ ES); auto. right. apply Exists_exists. eauto.
Qed.
Theorem C62_exit_codes path handler c : outcar_init path handler = Exn (SysExit c) ->
  (c = 10%Z /\ path = None /\ handler = None) \/ (c = 14%Z /\ path = Some None /\ handler = None) \/
  (c = 600%Z /\ forall l, In l (scanned path handler) -> ~ is_marker l).
Proof.
  unfold outcar_init. destruct handler as [h|].
  - destruct path; cbn [is_some negb andb read_from_file file_data bind filter_lines scanned]; intros H; apply from_list_exit in H; auto.
  - destruct path as [[txt|]|]; cbn [is_some negb andb read_from_file file_data bind filter_lines scanned]; intros H; [apply from_list_exit in H; auto| |]; inversion H; auto.
Qed.
(** a file without a single electronic step is never accepted *)
Theorem C62_no_iterations path handler o : outcar_init path handler = Ok o -> exists l, In l (scanned path handler) /\ is_marker l.
Proof.
  intros H. pose proof (C46_electronic _ _ _ H) as [[b [t [E [X _]]]] _]. destruct t as [|l t]; [destruct X|]. exists l. rewrite E. split; [rewrite in_app_iff; right; left; auto|]. eapply says_marker. exact X.
Qed.

(** ** Examples: a file that meets the hypotheses of all of the above *)
Definition sample_lines : list string :=
  ["   IBRION =      2    ionic relax"; "   NSW    =      3    number of steps"; "   NELM   =      2;   NELMIN=  2"; "   k-points  NKPTS =  4   number of bands    NBANDS=     12";
   " Analysis of symmetry for initial positions (statically):"; " Subroutine PRICEL returns:"; " Original cell was already a primitive cell."; " Routine SETGRP: Setting up the symmetry group for a "; " simple cubic supercell.";
   " Subroutine GETGRP returns: Found 48 space group operations";
   "--------- Iteration      1(   1)  ---------"; "--------- Iteration      1(   2)  ---------"; "--------- Iteration      2(   1)  ---------";
   " number of electron      12.0 magnetization       1.5";
   " magnetization (x)"; ""; "# of ion       s       p       d       tot"; "----------------"; "    1        0.5   0.25   0.125   0.875"; "    2        1   2   3   6"; "----------------"; "tot          1.5   2.25  3.125  6.875";
   " TOTAL ELASTIC MODULI (kBar)"; " Direction"; " ---"; " XX 1 2"; " YY 3 4"; " ZZ 5 6"; " XY 7 8"; " YZ 9 1"; " ZX 2 3";
   " General timing and accounting informations for this job:"; "          Total CPU time used (sec):       12.5"; "                  User time (sec):"; "   base      :      30000. kBytes"]%string.
Definition sample : str := flat_map (fun l => lit l ++ [nl]) sample_lines.
Definition sample_object : res outcar := outcar_init None (Some sample).
Definition status_view (r : res outcar) : option (option Z * option Z * option Z * (Z * Z) * bool * option bool * bool * bool * bool) :=
  match r with Ok o => let s := oc_status o in Some (rs_nelm s, rs_nsw s, rs_nbands s, rs_last s, rs_finished s, rs_ionic s, rs_electronic s, rs_consistent s, rs_contains s) | _ => None end.
Example sample_status : status_view sample_object = Some (Some 2, Some 3, Some 12, (2, 1), true, Some true, true, false, true)%Z.
Proof. vm_compute. reflexivity. Qed.
Example sample_tables : match sample_object with
  | Ok o => part Static (oc_operations o) = [48%Z] /\ part Static (oc_symmetrized o) = [lit "simple cubic supercell."] /\ part Static (oc_original o) = [CellPrimitive] /\
            option_map (fun s => map fst (sp_site s)) (dget (lit "x") (oc_sphere o)) = Some [1%Z; 2%Z] /\
            option_map (fun v => match v with Some rows => map (@length float) rows | None => [] end) (dget (lit "total") (oc_elastic o)) = Some [2; 2; 2; 2; 2; 2] /\
            map (fun kv => (fst kv, is_some (snd kv))) (oc_stats o) = [(lit "total_cpu_time_used", true); (lit "user_time", false); (lit "mem_usage_base", true)]
  | _ => False end.
Proof. vm_compute. repeat split. Qed.
(** cut before the closing block: the same file, crashed *)
Definition cut : str := flat_map (fun l => lit l ++ [nl]) (firstn 31 sample_lines).
Example cut_status : status_view (outcar_init None (Some cut)) = Some (Some 2, Some 3, Some 12, (2, 1), false, Some false, false, true, true)%Z.
Proof. vm_compute. reflexivity. Qed.
Example no_iterations : outcar_init None (Some (lit "nothing here")) = Exn (SysExit 600).
Proof. vm_compute. reflexivity. Qed.
(** the patterns are met *)
Example sample_patterns :
  is_marker (lit "--------- Iteration      1(   2)  ---------") /\ assigns "NELM" (lit "   NELM   =      2;   NELMIN=  2") 2 /\
  timed (lit "Total CPU time used (sec):  12") (lit "total_cpu_time_used") (parse_float (lit "12")) /\
  measured (lit "base      :      30000. kBytes") (lit "mem_usage_base") (parse_float (lit "30000.")).
Proof.
  split; [|split; [|split]].
  - exists (lit "--------- "), (lit "1"), (lit "2"), 6, 3, (lit "  ---------"). vm_compute. repeat split; discriminate.
  - exists 2, 3, 6, (lit "2"), (lit ";   NELMIN=  2"). vm_compute. repeat split; discriminate.
  - split; [left; exists (lit "Total CPU time used "), (lit ":  12"); reflexivity|]. exists (lit "Total CPU time used (sec)"), (lit "  12"), [].
    split; [reflexivity|]. split; [vm_compute; intuition discriminate|]. split; [vm_compute; intuition discriminate|]. split; auto.
  - split; [intros X; apply contains_has in X; discriminate|]. split; [intros X; apply contains_has in X; discriminate|]. split; [exists (lit "base      "), (lit "      30000. "); left; reflexivity|].
    exists (lit "base"), (lit "30000."). split; [exists (lit "      :      30000. kBytes"); split; [reflexivity|split; reflexivity]|]. split; [|auto].
    exists (lit "base      :      "), (lit " "), (lit "kBytes"). split; [reflexivity|]. split; [discriminate|]. split; [reflexivity|]. split; [reflexivity|]. split; [reflexivity|]. right. split; [discriminate|].
    exists (lit "base      :     "), sp. split; reflexivity.
Qed.
