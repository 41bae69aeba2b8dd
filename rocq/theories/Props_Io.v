(** Properties of files and handlers (C81-C84): statements, with examples. *)
From Coq Require Import Ascii String List NArith ZArith Bool Lia Arith.
From Verif Require Import PyBase PyNum PyStrLemmas UtilsModel IncarModel KpointsModel PoscarModel ArithModel
  DoscarModel EigenvalModel OutcarModel PotcarModel ChgcarModel IoModel IoProofs.
From Verif Require PoscarRoundTrip.
Import ListNotations.
Local Open Scope list_scope.
Local Open Scope bool_scope.
Local Open Scope nat_scope.

(** an open file object, at its end; the KPOINTS mode *)
Definition ready (f : fobj) : Prop := f_open f = true /\ f_pos f = length (f_text f).
Definition mode_is (es : kentries) (m : string) : Prop := dget (lit "mode") es = Some (KStr (lit m)).
Lemma mode_line es : mode_is es "line" -> is_line es = true.
Proof. unfold mode_is, is_line. intros ->. apply seqb_refl. Qed.
Lemma mode_not_line es : ~ mode_is es "line" -> is_line es = false.
Proof.
  unfold mode_is, is_line. intros H. destruct (dget (lit "mode") es) as [v|]; [|reflexivity]. destruct v; try reflexivity.
  destruct (seqb s (lit "line")) eqn:E; [|reflexivity]. apply seqb_eq in E. subst s. congruence.
Qed.

(** ** C81: writing to a handler appends the text, once *)
(** get_string() is what the calls leave in a fresh StringIO *)
Theorem C81_incar_get_string : forall comments x, get_string_io (incar_w comments x) = Ok (IncarModel.write comments x).
Proof. intros. unfold get_string_io. rewrite (run_simp_ok _ _ (opened []) (simp_incar comments x) eq_refl), (wrote_end _ _ end_opened). reflexivity. Qed.
Print Assumptions C81_incar_get_string.
Theorem C81_poscar_get_string : forall A prec conserve wd es, get_string_io (poscar_w A prec conserve wd es) = PoscarModel.get_string A prec conserve wd es.
Proof.
  intros. unfold get_string_io. pose proof (simp_poscar A prec conserve wd es) as H. destruct (PoscarModel.get_string A prec conserve wd es) as [t|e].
  - rewrite (run_simp_ok _ _ (opened []) H eq_refl), (wrote_end _ _ end_opened). reflexivity.
  - rewrite (run_simp _ _ (opened []) H eq_refl). reflexivity.
Qed.
Print Assumptions C81_poscar_get_string.
Theorem C81_kpoints_get_string : forall prec es, get_string_io (kpoints_w prec es) = KpointsModel.get_string prec es.
Proof.
  intros. unfold get_string_io, KpointsModel.get_string. rewrite kp_text_write. destruct (kp_text prec es) as [t|e] eqn:E.
  - rewrite (run_kpoints prec es t _ E end_opened). reflexivity.
  - destruct (kp_fails prec es e E) as (ops & N & ->). unfold run_on. cbn [fst snd]. rewrite do_ops_puts by auto. reflexivity.
Qed.
Print Assumptions C81_kpoints_get_string.

(** INCAR and POSCAR: the text is appended and the handler is left open at its end *)
Theorem C81_incar_appends : forall comments x f, ready f ->
  exists f', write_handler (incar_w comments x) f = (f', Ok tt) /\ f_text f' = f_text f ++ IncarModel.write comments x /\ ready f'.
Proof.
  intros comments x f R. eexists. split; [|split].
  - unfold write_handler. rewrite (run_simp_ok _ _ _ (simp_incar comments x)) by apply R. rewrite wrote_end by apply R. reflexivity.
  - reflexivity.
  - split; reflexivity.
Qed.
Print Assumptions C81_incar_appends.
Theorem C81_poscar_appends : forall A prec conserve wd es txt f, PoscarModel.get_string A prec conserve wd es = Ok txt -> ready f ->
  exists f', write_handler (poscar_w A prec conserve wd es) f = (f', Ok tt) /\ f_text f' = f_text f ++ txt /\ ready f'.
Proof.
  intros A prec conserve wd es txt f G R. pose proof (simp_poscar A prec conserve wd es) as H. rewrite G in H. eexists. split; [|split].
  - unfold write_handler. rewrite (run_simp_ok _ _ _ H) by apply R. rewrite wrote_end by apply R. reflexivity.
  - reflexivity.
  - split; reflexivity.
Qed.
Print Assumptions C81_poscar_appends.
(** KPOINTS: the same in every mode but line mode, where the position ends up one past
    the end of the content *)
Theorem C81_kpoints_appends : forall prec es txt f, KpointsModel.get_string prec es = Ok txt -> ready f ->
  exists f', write_handler (kpoints_w prec es) f = (f', Ok tt) /\ f_text f' = f_text f ++ txt /\ f_open f' = true /\
    (~ mode_is es "line" -> ready f') /\ (mode_is es "line" -> f_pos f' = S (length (f_text f'))).
Proof.
  intros prec es txt f G R. unfold KpointsModel.get_string in G. rewrite kp_text_write in G. apply bind_ok in G as [t [T G]]. apply Ok_inj in G. subst txt.
  unfold write_handler. rewrite (run_kpoints prec es t f T R). eexists. split; [reflexivity|]. cbn [f_text f_open f_pos]. split; [reflexivity|]. split; [reflexivity|]. split.
  - intros L. rewrite (mode_not_line es L). split; reflexivity.
  - intros L. rewrite (mode_line es L). pose proof (kp_text_line prec es t (mode_line es L) T) as E. rewrite E at 1. rewrite !app_length. cbn. lia.
Qed.
Print Assumptions C81_kpoints_appends.
(** so that what is written after a KPOINTS in line mode on the same handler does not
    follow it directly: a NUL character comes in between *)
Theorem C81_line_mode_refuted : forall prec es txt f comments x, KpointsModel.get_string prec es = Ok txt -> mode_is es "line" -> ready f ->
  IncarModel.write comments x <> [] ->
  exists f1 f2, write_handler (kpoints_w prec es) f = (f1, Ok tt) /\ write_handler (incar_w comments x) f1 = (f2, Ok tt) /\
    f_text f2 = f_text f ++ txt ++ [Ascii.zero] ++ IncarModel.write comments x.
Proof.
  intros prec es txt f comments x G L R N. destruct (C81_kpoints_appends prec es txt f G R) as (f1 & W1 & T1 & O1 & _ & P1). specialize (P1 L).
  exists f1. eexists. split; [exact W1|]. split. { unfold write_handler. rewrite (run_simp_ok _ _ _ (simp_incar comments x)) by auto. reflexivity. }
  set (t := IncarModel.write comments x) in *. clearbody t. destruct t as [|c t]; [congruence|]. unfold wrote. cbn [f_text]. rewrite P1.
  rewrite firstn_all2 by lia. rewrite skipn_all2 by (cbn; lia). replace (S (length (f_text f1)) - length (f_text f1)) with 1 by lia. cbn [repeat].
  rewrite T1, app_nil_r, <- !app_assoc. reflexivity.
Qed.
Print Assumptions C81_line_mode_refuted.

(** a refused object: KPOINTS writes fail on the handler as get_string fails *)
Theorem C81_failures : forall prec es e f, KpointsModel.get_string prec es = Exn e -> f_open f = true ->
  exists f', write_handler (kpoints_w prec es) f = (f', Exn e) /\ f_open f' = true.
Proof.
  intros prec es e f G O. unfold KpointsModel.get_string in G. rewrite kp_text_write in G. destruct (kp_text prec es) as [t|e'] eqn:T; cbn [bind] in G; [discriminate|].
  assert (e' = e) by congruence. subst e'. destruct (kp_fails prec es e T) as (ops & N & ->). unfold write_handler, run_on. cbn [fst snd]. rewrite do_ops_puts by auto.
  eexists. split; [reflexivity|]. apply wrote_open. auto.
Qed.
Print Assumptions C81_failures.

(** ** C83: files opened for writing *)
Theorem C81_poscar_failures : forall A prec conserve wd es e f, PoscarModel.get_string A prec conserve wd es = Exn e -> f_open f = true ->
  exists f', write_handler (poscar_w A prec conserve wd es) f = (f', Exn e) /\ f_open f' = true.
Proof.
  intros A prec conserve wd es e f G O. pose proof (simp_poscar A prec conserve wd es) as H. rewrite G in H. unfold write_handler.
  rewrite (run_simp _ _ f H O). eexists. split; [reflexivity|]. apply wrote_open. auto.
Qed.
Print Assumptions C81_poscar_failures.
(** a handler that is closed: ValueError, and nothing is written, whenever there is
    something to write *)
Lemma run_closed w f : f_open f = false -> fst w <> [] -> run_on w f = (f, Exn ValueError).
Proof.
  intros O N. unfold run_on. destruct (fst w) as [|o l]; [congruence|]. cbn [do_ops]. assert (do_op o f = Exn ValueError) as ->; [|reflexivity].
  destruct o; cbn [do_op]; unfold f_write, f_cut, f_truncate; rewrite O; [reflexivity|]. destruct (f_pos f); reflexivity.
Qed.
Theorem C81_incar_closed : forall comments x f, f_open f = false -> IncarModel.write comments x <> [] ->
  write_handler (incar_w comments x) f = (f, Exn ValueError).
Proof.
  intros comments x f O N. apply run_closed; auto. intros E. apply N. destruct (simp_incar comments x) as [_ _ T]. rewrite <- (T _ eq_refl), E. reflexivity.
Qed.
Print Assumptions C81_incar_closed.
Theorem C81_poscar_closed : forall A prec conserve wd es txt f, f_open f = false -> PoscarModel.get_string A prec conserve wd es = Ok txt ->
  write_handler (poscar_w A prec conserve wd es) f = (f, Exn ValueError).
Proof.
  intros A prec conserve wd es txt f O G. apply run_closed; auto. intros E. destruct (simp_poscar A prec conserve wd es) as [_ _ T]. specialize (T _ G). rewrite E in T. cbn in T. subst txt.
  unfold PoscarModel.get_string in G. apply bind_ok in G as [ls [W G]]. apply Ok_inj in G.
  destruct (PoscarRoundTrip.write_lines_inv A prec conserve wd es ls W) as (co & cell & l2 & sites & out & gs & c & pos & vel & pre & _ & _ & _ & _ & _ & _ & _ & _ & _ & _ & ->).
  cbn [app map concat] in G. destruct c; discriminate.
Qed.
Print Assumptions C81_poscar_closed.
Theorem C81_kpoints_closed : forall prec es txt f, f_open f = false -> KpointsModel.get_string prec es = Ok txt ->
  write_handler (kpoints_w prec es) f = (f, Exn ValueError).
Proof.
  intros prec es txt f O G. unfold KpointsModel.get_string in G. rewrite kp_text_write in G. apply bind_ok in G as [t [T G]].
  destruct (kp_ops prec es t T) as (ops & N & P & E). apply run_closed; auto. rewrite E. cbn [fst]. intros Q. apply app_eq_nil in Q as [-> _].
  apply (kp_text_nonempty prec es t T). rewrite <- P. reflexivity.
Qed.
Print Assumptions C81_kpoints_closed.
(** a write(file_path) that returns leaves the file closed, with exactly the text of
    get_string(); one that raises leaves it open *)
Theorem C83_kpoints_path : forall prec es,
  (forall txt, KpointsModel.get_string prec es = Ok txt ->
     exists f, write_path (kpoints_w prec es) = (f, Ok tt) /\ f_text f = txt /\ f_open f = false) /\
  (forall e, KpointsModel.get_string prec es = Exn e -> exists f, write_path (kpoints_w prec es) = (f, Exn e) /\ f_open f = true).
Proof.
  intros prec es. split.
  - intros txt G. destruct (C81_kpoints_appends prec es txt (opened []) G end_opened) as (f & W & T & _). unfold write_handler in W. unfold write_path. rewrite W.
    eexists. split; [reflexivity|]. split; [exact T|reflexivity].
  - intros e G. destruct (C81_failures prec es e (opened []) G eq_refl) as (f & W & O). unfold write_handler in W. unfold write_path. rewrite W. eauto.
Qed.
Print Assumptions C83_kpoints_path.
Theorem C83_poscar_path : forall A prec conserve wd es,
  (forall txt, PoscarModel.get_string A prec conserve wd es = Ok txt ->
     exists f, write_path (poscar_w A prec conserve wd es) = (f, Ok tt) /\ f_text f = txt /\ f_open f = false) /\
  (forall e, PoscarModel.get_string A prec conserve wd es = Exn e -> exists f, write_path (poscar_w A prec conserve wd es) = (f, Exn e) /\ f_open f = true).
Proof.
  intros A prec conserve wd es. pose proof (simp_poscar A prec conserve wd es) as H. split.
  - intros txt G. rewrite G in H. unfold write_path. rewrite (run_simp_ok _ _ (opened []) H eq_refl), (wrote_end _ _ end_opened). eexists. split; [reflexivity|]. split; reflexivity.
  - intros e G. rewrite G in H. unfold write_path. rewrite (run_simp _ _ (opened []) H eq_refl). cbn [outcome]. eexists. split; [reflexivity|]. apply wrote_open. reflexivity.
Qed.
Print Assumptions C83_poscar_path.
Theorem C83_incar_path : forall comments x,
  exists f, write_path (incar_w comments x) = (f, Ok tt) /\ f_text f = IncarModel.write comments x /\ f_open f = false.
Proof.
  intros. unfold write_path. rewrite (run_simp_ok _ _ (opened []) (simp_incar comments x) eq_refl), (wrote_end _ _ end_opened). eexists. split; [reflexivity|]. split; reflexivity.
Qed.
Print Assumptions C83_incar_path.
(** false: not every file the package opens is closed when the call ends *)
Theorem C83_always_closed_refuted : forall prec es e, KpointsModel.validate es = Exn e ->
  exists f, write_path (kpoints_w prec es) = (f, Exn e) /\ f_open f = true.
Proof.
  intros prec es e V. apply C83_kpoints_path. unfold KpointsModel.get_string, KpointsModel.write. rewrite V. reflexivity.
Qed.
Print Assumptions C83_always_closed_refuted.
(** opening and closing by hand *)
Theorem C83_open_close : forall h d,
  open_close (Some SRead) h (Some d) = Ok (FObj d 0 true) /\
  open_close (Some SWrite) h (Some d) = Ok (FObj [] 0 true) /\
  (forall s, open_close (Some s) h None = Exn (SysExit 14)) /\
  open_close None None (Some d) = Exn (SysExit 15) /\
  (forall f, exists f', open_close None (Some f) (Some d) = Ok f' /\ f_open f' = false /\ f_text f' = f_text f).
Proof.
  intros h d. split; [reflexivity|]. split; [reflexivity|]. split; [intros []; reflexivity|]. split; [reflexivity|].
  intros f. exists (f_close f). repeat split.
Qed.
Print Assumptions C83_open_close.

(** ** C84: parsing from a handler uses it up *)
Definition incar_from (vt : bool) (f : fobj) := parse_handler (fun t => incar_init (Args None None None (Some t)) vt) f.
Definition kpoints_from (f : fobj) := parse_handler (fun t => kpoints_init (KArgs None None None (Some t))) f.
Definition poscar_from (A : arith) (f : fobj) := parse_handler (fun t => poscar_init A (PArgs A None None None (Some t))) f.
Definition doscar_from (nc : bool) (f : fobj) := parse_handler (fun t => doscar_init None (Some t) nc) f.
Definition eigenval_from (f : fobj) := parse_handler (fun t => eigenval_init None (Some t)) f.
Definition outcar_from (f : fobj) := parse_handler (fun t => outcar_init None (Some t)) f.
Definition potcar_from (f : fobj) := parse_handler (fun t => potcar_init None (Some t)) f.
Definition chgcar_from (A : cell_arith) (f : fobj) := parse_handler (fun t => chgcar_init A None (Some t)) f.

Lemma parse_eq {X} (parse : str -> res X) f : f_open f = true ->
  parse_handler parse f = (parse (f_rest f), FObj (f_text f) (Nat.max (f_pos f) (length (f_text f))) true).
Proof. intros O. unfold parse_handler, f_read. rewrite O. reflexivity. Qed.
Lemma rest_end t p : length t <= p -> f_rest (FObj t p true) = [].
Proof. intros H. unfold f_rest. cbn. apply skipn_all2. auto. Qed.
(** what is parsed is the text from the position to the end; the handler stays open, its
    content is unchanged and nothing is left to read *)
Theorem C84_reads_the_rest : forall X (parse : str -> res X) before text,
  exists f', parse_handler parse (FObj (before ++ text) (length before) true) = (parse text, f') /\
    f_open f' = true /\ f_text f' = before ++ text /\ f_rest f' = [].
Proof.
  intros X parse before text. rewrite parse_eq by reflexivity. eexists. split.
  - unfold f_rest. cbn [f_text f_pos]. rewrite skipn_app, skipn_all, Nat.sub_diag. reflexivity.
  - repeat split. apply rest_end. cbn [f_text f_pos]. lia.
Qed.
Print Assumptions C84_reads_the_rest.
(** the second object made from the same handler: every class sees an empty file *)
Definition second_of {X Y} (first : fobj -> res X * fobj) (second : fobj -> res Y * fobj) (text : str) : res Y :=
  fst (second (snd (first (FObj text 0 true)))).
Lemma second_eq {X Y} (p : str -> res X) (q : str -> res Y) text : second_of (parse_handler p) (parse_handler q) text = q [].
Proof.
  unfold second_of. rewrite (parse_eq p) by reflexivity. cbn [snd]. rewrite parse_eq by reflexivity. cbn [fst]. rewrite rest_end by (cbn; lia). reflexivity.
Qed.
Theorem C84_second_object : forall text vt A nc C,
  second_of (kpoints_from) kpoints_from text = Exn IndexError /\
  second_of (poscar_from A) (poscar_from A) text = Exn IndexError /\
  second_of (doscar_from nc) (doscar_from nc) text = Exn IndexError /\
  second_of eigenval_from eigenval_from text = Exn IndexError /\
  second_of outcar_from outcar_from text = Exn (SysExit 600) /\
  second_of potcar_from potcar_from text = Exn AttributeError /\
  second_of (chgcar_from C) (chgcar_from C) text = Exn IndexError /\
  second_of (incar_from vt) (incar_from vt) text = Ok (Incar [] vt).
Proof.
  intros text vt A nc C. unfold kpoints_from, poscar_from, doscar_from, eigenval_from, outcar_from, potcar_from, chgcar_from, incar_from.
  rewrite !second_eq. repeat split; try reflexivity; destruct vt; reflexivity.
Qed.
Print Assumptions C84_second_object.
(** so two INCAR objects made from one handler differ as soon as the file sets a tag *)
Theorem C84_same_twice_refuted : forall text vt x, incar_init (Args None None None (Some text)) vt = Ok x -> ents x <> [] ->
  fst (incar_from vt (FObj text 0 true)) = Ok x /\
  exists y, second_of (incar_from vt) (incar_from vt) text = Ok y /\ forall k, IncarModel.get y k = None.
Proof.
  intros text vt x H N. split.
  - unfold incar_from. rewrite parse_eq by reflexivity. cbn [fst]. unfold f_rest. cbn. exact H.
  - exists (Incar [] vt). split; [|reflexivity]. apply (C84_second_object text vt ArithModel.exact true ChgcarModel.cell_exact).
Qed.
Print Assumptions C84_same_twice_refuted.
(** after seek(0) it is parsed again in full *)
Theorem C84_rewound_partial : forall X (parse : str -> res X) text,
  exists f1 f2, parse_handler parse (FObj text 0 true) = (parse text, f1) /\ f_rewind f1 = Ok f2 /\ fst (parse_handler parse f2) = parse text.
Proof.
  intros X parse text. rewrite parse_eq by reflexivity. do 2 eexists. split; [reflexivity|]. split; [reflexivity|]. reflexivity.
Qed.
Print Assumptions C84_rewound_partial.

(** ** C82: what a crash during write(file_path) can leave *)
Definition is_prefix (d t : str) : Prop := exists s, d ++ s = t.
Lemma dsteps_trans s1 s2 s3 : dsteps s1 s2 -> dsteps s2 s3 -> dsteps s1 s3.
Proof. intros H K. induction K as [s|a b c K IH St]; [auto|]. apply (ds_step _ b _); auto. Qed.
Lemma puts_run : forall l b rest, nocut l -> dsteps (DState [] b, l ++ rest) (DState [] (b ++ puts l), rest).
Proof.
  induction l as [|o l IH]; intros b rest N; [cbn; rewrite app_nil_r; constructor|]. inversion N as [|? ? No Nl]. subst.
  destruct o as [t|]; [|congruence]. rewrite puts_put. eapply dsteps_trans; [econstructor; [constructor|cbn [app]; constructor]|].
  rewrite app_assoc. apply IH; auto.
Qed.
Lemma crash_inv l : nocut l -> forall s, dsteps (DState [] [], l) s ->
  nocut (snd s) /\ d_disk (fst s) ++ d_buf (fst s) ++ puts (snd s) = puts l.
Proof.
  intros N s H. remember (DState [] [], l) as s0 eqn:E. induction H as [s|s1 s2 s3 H IH St]; subst; [cbn; auto|].
  destruct (IH eq_refl) as [I1 I2]. inversion St; subst; cbn [fst snd d_disk d_buf] in *.
  - inversion I1. split; auto. rewrite puts_put in I2. rewrite <- app_assoc. auto.
  - inversion I1. congruence.
  - split; auto. rewrite <- !app_assoc in *. auto.
Qed.
Lemma crash_inv_cut l : nocut l -> forall s, dsteps (DState [] [], l ++ [Cut]) s ->
  (exists r, snd s = r ++ [Cut] /\ nocut r /\ d_disk (fst s) ++ d_buf (fst s) ++ puts r = puts l) \/
  (snd s = [] /\ d_disk (fst s) ++ d_buf (fst s) = removelast (puts l)).
Proof.
  intros N s H. remember (DState [] [], l ++ [Cut]) as s0 eqn:E. induction H as [s|s1 s2 s3 H IH St]; subst; [left; exists l; cbn; auto|].
  destruct (IH eq_refl) as [(r & I1 & I2 & I3)|[I1 I2]]; inversion St; subst; cbn [fst snd d_disk d_buf] in *.
  - left. destruct r as [|o r]; [inversion I1|]. cbn in I1. injection I1 as Eo Er. subst o l0. inversion I2. subst. exists r. split; auto. split; auto. rewrite puts_put in I3. rewrite <- app_assoc. auto.
  - right. destruct r as [|o r]; cbn in I1.
    + injection I1 as Er. subst l0. split; auto. change (puts []) with (@nil ascii) in I3. rewrite app_nil_r in *. rewrite I3. reflexivity.
    + injection I1 as Eo _. subst o. inversion I2. congruence.
  - left. exists r. split; auto. split; auto. rewrite <- !app_assoc in *. auto.
  - discriminate.
  - discriminate.
  - right. split; auto. rewrite <- !app_assoc in *. auto.
Qed.
Lemma removelast_prefix (t : str) : is_prefix (removelast t) t.
Proof. destruct t as [|a t]; [exists []; reflexivity|]. exists [last (a :: t) a]. symmetry. apply app_removelast_last. discriminate. Qed.
Lemma prefix_trans a b c : is_prefix a b -> is_prefix b c -> is_prefix a c.
Proof. intros [s <-] [s' <-]. exists (s ++ s'). apply app_assoc. Qed.
(** the contents: the old one, or any prefix of what _write emits *)
Lemma crash_exact w l tail old d : fst w = l ++ tail -> nocut l -> tail = [] \/ tail = [Cut] ->
  (crash_content w old d <-> d = old \/ is_prefix d (puts l)).
Proof.
  intros E N T. split.
  - intros [|d' b r H]; [auto|]. right. rewrite E in H. destruct T as [-> | ->].
    + rewrite app_nil_r in H. destruct (crash_inv l N _ H) as [_ I]. cbn in I. eexists. exact I.
    + destruct (crash_inv_cut l N _ H) as [(r' & _ & _ & I)|[_ I]]; cbn in I; [eexists; exact I|].
      apply (prefix_trans _ (removelast (puts l))); [exists b; exact I|apply removelast_prefix].
  - intros [-> |[s P]]; [constructor|]. apply (cc_during _ _ d s tail). rewrite E.
    eapply ds_step; [apply (puts_run l [] tail N)|]. cbn [app]. rewrite <- P. apply (d_flush [] d s tail).
Qed.
Theorem C82_incar_crash : forall comments x old d,
  crash_content (incar_w comments x) old d <-> d = old \/ exists rest, d ++ rest = IncarModel.write comments x.
Proof.
  intros. destruct (simp_incar comments x) as [_ N T]. specialize (T _ eq_refl). cbn in T.
  rewrite (crash_exact _ (fst (incar_w comments x)) [] old d); [rewrite T; reflexivity|rewrite app_nil_r; reflexivity|auto|auto].
Qed.
Print Assumptions C82_incar_crash.
Theorem C82_poscar_crash : forall A prec conserve wd es txt old d, PoscarModel.get_string A prec conserve wd es = Ok txt ->
  (crash_content (poscar_w A prec conserve wd es) old d <-> d = old \/ exists rest, d ++ rest = txt).
Proof.
  intros A prec conserve wd es txt old d G. destruct (simp_poscar A prec conserve wd es) as [_ N T]. specialize (T _ G). cbn in T.
  rewrite (crash_exact _ (fst (poscar_w A prec conserve wd es)) [] old d); [rewrite T; reflexivity|rewrite app_nil_r; reflexivity|auto|auto].
Qed.
Print Assumptions C82_poscar_crash.
(** KPOINTS: in line mode the text is there with one more newline before it is cut *)
Theorem C82_kpoints_crash : forall prec es txt old d, KpointsModel.get_string prec es = Ok txt ->
  (crash_content (kpoints_w prec es) old d <->
   d = old \/ (exists rest, d ++ rest = txt) \/ (mode_is es "line" /\ d = txt ++ [nl])).
Proof.
  intros prec es txt old d G. unfold KpointsModel.get_string in G. rewrite kp_text_write in G. apply bind_ok in G as [t [T G]]. apply Ok_inj in G.
  destruct (kp_ops prec es t T) as (ops & N & P & E). rewrite (crash_exact _ ops (if is_line es then [Cut] else []) old d); [|rewrite E; reflexivity|auto|destruct (is_line es); auto].
  rewrite P. destruct (is_line es) eqn:L.
  - pose proof (kp_text_line prec es t L T) as F. rewrite G in F. assert (mode_is es "line") as M.
    { unfold is_line in L. unfold mode_is. destruct (dget (lit "mode") es) as [[]|]; try discriminate. apply seqb_eq in L. subst s. reflexivity. }
    rewrite F. split.
    + intros [H|[s H]]; [auto|]. right. destruct s as [|c s] using rev_ind; [right; split; auto; rewrite app_nil_r in H; auto|]. clear IHs. left.
      rewrite app_assoc in H. apply app_inj_tail in H as [H _]. exists s. exact H.
    + intros [H|[[s H]|[_ H]]]; [auto|right; exists (s ++ [nl])|right; exists []; rewrite app_nil_r; auto]. rewrite app_assoc, H. reflexivity.
  - subst t. split; [intros [H|H]; auto|]. intros [H|[H|[M _]]]; auto. rewrite (mode_line es M) in L. discriminate.
Qed.
Print Assumptions C82_kpoints_crash.
(** false: the old content or the new one: the file may be left empty *)
Theorem C82_atomic_refuted : forall comments x old, crash_content (incar_w comments x) old [].
Proof. intros. apply C82_incar_crash. right. eexists. reflexivity. Qed.
Print Assumptions C82_atomic_refuted.
Theorem C82_kpoints_atomic_refuted : forall prec es txt old, KpointsModel.get_string prec es = Ok txt -> crash_content (kpoints_w prec es) old [].
Proof. intros prec es txt old G. apply (C82_kpoints_crash prec es txt old [] G). right. left. eexists. reflexivity. Qed.
Print Assumptions C82_kpoints_atomic_refuted.

(** ** Examples *)
Definition sample_incar_io : IncarModel.incar :=
  match IncarModel.incar_of_string (lit "ENCUT = 400" ++ [nl] ++ lit "NSW = 10") true with Ok x => x | Exn _ => IncarModel.Incar [] true end.
Definition sample_line_io : kentries :=
  match kpoints_of_string (lit "lines" ++ [nl] ++ lit "10" ++ [nl] ++ lit "Line-mode" ++ [nl] ++ lit "Reciprocal" ++ [nl]
                           ++ lit "0 0 0" ++ [nl] ++ lit "0.5 0 0" ++ [nl]) with Ok x => x | Exn _ => [] end.
Example C81_case : mode_is sample_line_io "line" /\ (exists t, KpointsModel.get_string 9 sample_line_io = Ok t) /\
  ready (FObj (lit "x") 1 true) /\ IncarModel.write false sample_incar_io <> [].
Proof. split; [vm_compute; reflexivity|]. split; [eexists; vm_compute; reflexivity|]. split; [split; reflexivity|vm_compute; discriminate]. Qed.
Example C81_closed_case : write_handler (incar_w false sample_incar_io) (FObj (lit "x") 1 false) = (FObj (lit "x") 1 false, Exn ValueError).
Proof. apply C81_incar_closed; [reflexivity|vm_compute; discriminate]. Qed.
Example C82_case : crash_content (incar_w false sample_incar_io) (lit "old") (lit "ENCUT = 4").
Proof. apply C82_incar_crash. right. eexists. vm_compute. reflexivity. Qed.
Example C83_case : exists es e, KpointsModel.validate es = Exn e.
Proof. exists [], KeyError. vm_compute. reflexivity. Qed.
Example C84_case : exists x, incar_init (Args None None None (Some (lit "NSW = 1"))) true = Ok x /\ ents x <> [].
Proof. eexists. split; [vm_compute; reflexivity|discriminate]. Qed.
