(** Property C80 for the event driven parser: what each exit code says of the events read so
    far.  Holds for every sequence of events, well formed or not. *)
From Coq Require Import Ascii String List NArith ZArith Bool Lia.
From Verif Require Import PyBase PyStrLemmas PyNum UtilsModel LineModel OutcarModel ChgcarModel VasprunTypes VasprunXml VasprunModel VasprunEvents VasprunSpec VasprunTables Props_VasprunSample Props_VasprunExits.
Import ListNotations.
Local Open Scope list_scope.
Local Open Scope bool_scope.

(** ** Specification: questions about a list of events *)
Definition is_start (t : string) (ev : event) : bool := match ev with Start _ _ e => String.eqb t (tag e) | End _ => false end.
Definition is_end (t : string) (ev : event) : bool := match ev with End e => String.eqb t (tag e) | Start _ _ _ => false end.
(** the last start or end of an element [t] is a start *)
Definition switch (t : string) (b : bool) (ev : event) : bool := if is_start t ev then true else if is_end t ev then false else b.
Definition inside (t : string) (h : list event) : bool := fold_left (switch t) h false.
(** the same for elements <kpoints> that are outside of <calculation> *)
Definition mesh_switch (b : bool * bool) (ev : event) : bool * bool :=
  let c := switch "calculation" (fst b) ev in (c, if c then snd b else switch "kpoints" (snd b) ev).
Definition inside_mesh (h : list event) : bool := snd (fold_left mesh_switch h (false, false)).
(** the text of the last parameter [n] within <parameters>; None: there is none, or its text
    was empty or had not been read yet *)
Definition parameter (n : string) (b : bool * option str) (ev : event) : bool * option str :=
  let i := switch "parameters" (fst b) ev in
  (i, match ev with Start seen _ e => if i && opt_is n (attr e "name") then (if seen then text e else None) else snd b | End _ => snd b end).
Definition setting (n : string) (h : list event) : option str := snd (fold_left (parameter n) h (false, None)).
(** elements that have started, or ended *)
Definition started (P : xml -> Prop) (h : list event) : Prop := exists seen parent e, In (Start seen parent e) h /\ P e.
Definition ended (P : xml -> Prop) (h : list event) : Prop := exists e, In (End e) h /\ P e.
Definition named_as (t n : string) (e : xml) : Prop := tag e = t /\ attr e "name" = Some n.
Definition the_dos (e : xml) : Prop := tag e = "dos"%string /\ attr e "comment" = None.
Definition fine_dos (e : xml) : Prop := tag e = "dos"%string /\ attr e "comment" = Some "interpolated"%string.
Fixpoint fermis (h : list event) : nat :=
  match h with
  | [] => 0
  | Start _ _ e :: r => (if String.eqb "i" (tag e) && opt_is "efermi" (attr e "name") then 1 else 0) + fermis r
  | End _ :: r => fermis r
  end.
(** the list of k-points of the mesh has been read *)
Definition mesh_read (h : list event) : Prop := exists h1 e h2, h = h1 ++ End e :: h2 /\ named_as "varray" "kpointlist" e /\ inside_mesh (h1 ++ [End e]) = true.
(** an <i name=[key]> is open in an <scstep> of a <calculation> *)
Definition is_named (t n : string) (e : xml) : bool := String.eqb t (tag e) && opt_is n (attr e "name").
Definition switch_named (t n : string) (b : bool) (ev : event) : bool :=
  match ev with Start _ _ e => if is_named t n e then true else b | End e => if is_named t n e then false else b end.
Definition energy_switch (key : string) (b : bool * (bool * bool)) (ev : event) : bool * (bool * bool) :=
  let '(c, (sc, o)) := b in
  let c := switch "calculation" c ev in
  let sc := if c then switch "scstep" sc ev else sc in
  (c, (sc, if c && sc then switch_named "i" key o ev else o)).
Definition collecting (key : string) (h : list event) : bool :=
  let '(c, (sc, o)) := fold_left (energy_switch key) h (false, (false, false)) in c && sc && o.
Definition element_of (ev : event) : xml := match ev with Start _ _ e => e | End e => e end.
(** [x] starts or ends meanwhile: the <i> itself, and what is in it *)
Definition step_energy_of (key : string) (h : list event) (x : xml) : Prop :=
  exists h1 ev h2, h = h1 ++ ev :: h2 /\ element_of ev = x /\ collecting key (h1 ++ [ev]) = true.
Definition energy_keys : list string := ["e_0_energy"; "e_fr_energy"; "e_wo_entrp"]%string.
Definition overflows (e : xml) : Prop := exists t a b, text e = Some t /\ t = a ++ lit "****" ++ b.
Definition unknown_name (e : xml) : Prop := exists t w rest, text e = Some t /\ split_ws t = w :: rest /\ (forall n, ~ In (string_of_list_ascii (lower w), n) elements).
Definition row_tag (e : xml) : Prop := In (tag e) ["c"; "v"; "r"]%string.
Definition bands_end (e : xml) : Prop := In (tag e) ["eigenvalues"; "eigenvelocities"; "array"]%string.
(** the exit code [c] is given at the event [ev], after the events [h] *)
Inductive event_reason (h : list event) : event -> Z -> Prop :=
| TwoFermis e : tag e = "dos"%string -> inside "calculation" h = true ->
    2 <= fermis h \/ (1 <= fermis h /\ started the_dos h /\ started fine_dos h) -> event_reason h (End e) 500
| NoAtoms e : named_as "array" "born_charges" e \/ named_as "varray" "hessian" e \/ named_as "varray" "eigenvectors" e \/ tag e = "partial"%string ->
    inside "calculation" h = true -> ~ ended (named_as "array" "atoms") h -> event_reason h (End e) 501
| NoSpinYet e : bands_end e -> inside "calculation" h = true -> setting "ISPIN" h = None -> event_reason h (End e) 502
| NoBandsYet e : bands_end e -> inside "calculation" h = true -> setting "NBANDS" h = None -> event_reason h (End e) 503
| NoAtomsProjected e : tag e = "array"%string -> inside "calculation" h = true -> ~ ended (named_as "array" "atoms") h -> event_reason h (End e) 503
| NoMesh e : tag e = "array"%string -> inside "calculation" h = true -> ~ mesh_read h -> event_reason h (End e) 504
| RowsMismatch e t nb : bands_end e -> inside "calculation" h = true -> setting "NBANDS" h = Some t -> parse_int t = Some nb -> event_reason h (End e) 505
| UnknownName e : named_as "array" "atoms" e -> started (fun c => row_tag c /\ unknown_name c) h -> event_reason h (End e) 506
| OverflowNow seen parent e n : attr e "name" = Some n -> In n ["SYMPREC"; "ISPIN"; "ISMEAR"; "SIGMA"; "NBANDS"; "NELECT"; "NELM"; "NSW"]%string ->
    inside "parameters" (h ++ [Start seen parent e]) = true -> overflows e -> event_reason h (Start seen parent e) 509
| OverflowFermi e : tag e = "dos"%string -> inside "calculation" h = true -> started (fun f => named_as "i" "efermi" f /\ overflows f) h -> event_reason h (End e) 509
| RowNotOneNumber e : named_as "varray" "weights" e \/ tag e = "eigenvalues"%string -> started (fun f => row_tag f /\ not_one_number f) h -> event_reason h (End e) 509
| EnergyNotOneNumber e key f : tag e = "calculation"%string -> In key energy_keys -> step_energy_of key h f -> not_one_number f -> event_reason h (End e) 509.

(** ** Proof *)
Lemma is_on_on f g s : f <> g -> is_on f (on g s) = is_on f s.
Proof. intros N. unfold is_on, on. cbn. apply N.setbit_neq. congruence. Qed.
Lemma is_on_off f g s : f <> g -> is_on f (off g s) = is_on f s.
Proof. intros N. unfold is_on, off. cbn. apply N.clearbit_neq. congruence. Qed.
Lemma is_on_same f s : is_on f (on f s) = true. Proof. unfold is_on, on. cbn. apply N.setbit_eq. Qed.
Lemma is_off_same f s : is_on f (off f s) = false. Proof. unfold is_on, off. cbn. apply N.clearbit_eq. Qed.
Definition says (z : option Z) (t : option str) : Prop := match t with None => z = None | Some s => exists v, z = Some v /\ parse_int s = Some v end.
(** what is known of the state *)
Record view := View { w_par : bool; w_calc : bool; w_mesh : bool; w_ispin : option str; w_nbands : option str; w_nosp : Prop; w_nokp : Prop;
  w_sc : bool; w_open : string -> bool;
  w_row : xml -> Prop; w_any : string -> xml -> Prop; w_fermi : xml -> Prop; w_dos : Prop; w_fine : Prop; w_count : nat -> Prop }.
Definition I (v : view) (s : est) : Prop :=
  (is_on fParameters s = w_par v /\ is_on fCalculation s = w_calc v /\ is_on fKdata s = w_mesh v /\ (is_on fDos s = true -> w_dos v) /\ (is_on fDosSpecific s = true -> w_fine v)) /\
  (is_on fScstep s = w_sc v /\ is_on fE0 s = w_open v "e_0_energy" /\ is_on fEfr s = w_open v "e_fr_energy" /\ is_on fEwo s = w_open v "e_wo_entrp") /\
  (says (p_ispin (s_out s)) (w_ispin v) /\ says (p_nbands (s_out s)) (w_nbands v) /\ (p_species (s_out s) = None -> w_nosp v) /\ (p_kpoints (s_out s) = None -> w_nokp v)) /\
  (Forall (w_row v) (s_data s) /\ Forall (w_row v) (s_data2 s) /\ Forall (w_any v "e_0_energy") (s_data3 s) /\ Forall (w_any v "e_fr_energy") (s_data4 s) /\ Forall (w_any v "e_wo_entrp") (s_data5 s) /\ Forall (w_fermi v) (s_data6 s) /\ w_count v (length (s_data6 s))).
Ltac pl := let X := fresh in intros X; repeat (destruct X as [X|X]; [discriminate X|]); exact X.
Ltac oth := split; [pl|split; discriminate].
Lemma assoc_no_pair {A} k (l : list (string * A)) : assoc k l = None -> forall n, ~ In (k, n) l.
Proof. induction l as [|[k' v] l IH]; cbn; [tauto|]. destruct (String.eqb_spec k k') as [->|N]; [discriminate|]. intros E n [J|J]; [inversion J; congruence|exact (IH E n J)]. Qed.
Section Event.
Variables (kbb st seen : bool) (parent : option (list (string * string))) (e : xml) (h : list event).
Definition ev_ : event := if st then Start seen parent e else End e.
Definition Q (c : Z) : Prop := event_reason h ev_ c.
Definition post (v : view) (r : res est) : Prop := match r with Ok s' => I v s' | Exn (SysExit c) => Q c | Exn _ => True end.
Definition tri (v w : view) (f : block) : Prop := forall s, I v s -> post w (f s).
Lemma t_pass v : tri v v pass. Proof. intros s H. exact H. Qed.
Lemma t_seq v w u f g : tri v w f -> tri w u g -> tri v u (seqb_ f g).
Proof. intros F G s H. unfold seqb_. specialize (F s H). destruct (f s) as [s'|[]]; cbn [bind]; try exact F. apply G. exact F. Qed.
Lemma t_when v c f : (c = true -> tri v v f) -> tri v v (when_ c f).
Proof. intros F. destruct c; [apply F; reflexivity|apply t_pass]. Qed.
Lemma t_guard v c f : tri v v f -> tri v v (guard c f).
Proof. intros F s H. unfold guard. destruct (c s); [apply F, H|exact H]. Qed.
Lemma t_guard_calc v f : (w_calc v = true -> tri v v f) -> tri v v (guard (is_on fCalculation) f).
Proof. intros F s H. unfold guard. destruct (is_on fCalculation s) eqn:E; [|exact H]. apply F; [|exact H]. destruct H as ((_ & <- & _) & _). exact E. Qed.
Lemma t_named v n f : (attr e "name" = Some n -> tri v v f) -> tri v v (named e n f).
Proof. intros F s H. unfold named. destruct attr as [m|]; [|exact Logic.I]. destruct (String.eqb_spec n m); [|exact H]. apply F; [congruence|exact H]. Qed.
Lemma post_bind {A} v (r : res A) f : exits Q r -> (forall a, r = Ok a -> post v (f a)) -> post v (bind r f).
Proof. intros X F. destruct r as [a|x]; cbn [bind]; [apply F; reflexivity|]. destruct x; try exact Logic.I. apply X. reflexivity. Qed.
Lemma t_do v F : (forall s, I v s -> I v (F s)) -> tri v v (do_ F).
Proof. intros H s J. apply H, J. Qed.
Definition plain (f : N) : Prop := ~ In f [fParameters; fCalculation; fKdata; fScstep; fE0; fEfr; fEwo].
Definition other (f : N) : Prop := plain f /\ f <> fDos /\ f <> fDosSpecific.
Lemma plain_neq f g : plain f -> In g [fParameters; fCalculation; fKdata; fScstep; fE0; fEfr; fEwo] -> g <> f.
Proof. intros P J ->. exact (P J). Qed.
Lemma I_on v f s : other f -> I v s -> I v (on f s).
Proof.
  intros (P & D & E) (X & Z & Y). split; [|split; [|exact Y]]; rewrite !is_on_on; auto; try (apply (plain_neq f); [exact P|cbn; tauto]).
Qed.
Lemma I_off v f s : plain f -> I v s -> I v (off f s).
Proof.
  intros P ((X & X1 & X2 & X3 & X4) & Z & Y). split; [|split; [|exact Y]]; rewrite !is_on_off by (apply (plain_neq f); [exact P|cbn; tauto]).
  2: exact Z. repeat split; auto.
  - intros H. apply X3. destruct (N.eq_dec f fDos); [|rewrite is_on_off in H by congruence; exact H]. subst f. rewrite is_off_same in H. discriminate H.
  - intros H. apply X4. destruct (N.eq_dec f fDosSpecific); [|rewrite is_on_off in H by congruence; exact H]. subst f. rewrite is_off_same in H. discriminate H.
Qed.
Lemma I_clear v s : I v s -> I v (clear s).
Proof. intros (X & O & Y & (_ & Z)). split; [exact X|]. split; [exact O|]. split; [exact Y|]. split; [apply Forall_nil|exact Z]. Qed.
Lemma I_clear2 v s : I v s -> I v (clear2 s).
Proof. intros (X & O & Y & (_ & _ & Z)). split; [exact X|]. split; [exact O|]. split; [exact Y|]. split; [apply Forall_nil|]. split; [apply Forall_nil|exact Z]. Qed.
Lemma I_out v s g : (forall p, p_ispin (g p) = p_ispin p) -> (forall p, p_nbands (g p) = p_nbands p) -> (forall p, p_species (g p) = p_species p) -> (forall p, p_kpoints (g p) = p_kpoints p) -> I v s -> I v (out_ g s).
Proof. intros A B C D (X & O & Y & Z). split; [exact X|]. split; [exact O|]. split; [|exact Z]. unfold out_. cbn [s_out set_s_out]. rewrite A, B, C, D. exact Y. Qed.
Lemma I_any v s s' : s_flags s' = s_flags s -> s_out s' = s_out s -> s_data s' = s_data s -> s_data2 s' = s_data2 s -> s_data3 s' = s_data3 s -> s_data4 s' = s_data4 s -> s_data5 s' = s_data5 s -> s_data6 s' = s_data6 s -> I v s -> I v s'.
Proof. intros A B C D E F G K H. unfold I, is_on. rewrite A, B, C, D, E, F, G, K. exact H. Qed.
(** the facts about the view that holds while the blocks of <calculation> run *)
Record good (v : view) : Prop := Good {
  Gcalc : st = false -> w_calc v = true -> inside "calculation" h = true;
  Gispin : st = false -> w_ispin v = setting "ISPIN" h;
  Gnbands : st = false -> w_nbands v = setting "NBANDS" h;
  Gnosp : w_nosp v -> ~ ended (named_as "array" "atoms") h;
  Gnokp : st = false -> w_nokp v -> ~ mesh_read h;
  Grow : forall x, w_row v x -> st = false -> started (fun f => row_tag f /\ f = x) h;
  Gpush : st = true -> row_tag e -> w_row v e;
  Gdos : st = true -> the_dos e -> w_dos v;
  Gfine : st = true -> fine_dos e -> w_fine v;
  Gfermi : forall x, w_fermi v x -> st = false -> started (fun f => named_as "i" "efermi" f /\ f = x) h;
  Gcount0 : w_count v 0;
  Gcount : forall n, w_count v n -> 2 <= n -> st = false -> 2 <= fermis h \/ (1 <= fermis h /\ started the_dos h /\ started fine_dos h) }.
Variable v : view.
Hypothesis G : good v.
Lemma Gc : st = false -> w_calc v = true -> inside "calculation" h = true. Proof. exact (Gcalc v G). Qed.
#[local] Hint Resolve Gc : core.
Lemma st_end t : ends st e t = true -> st = false /\ tag e = t.
Proof. unfold ends. intros H. apply andb_prop in H as (A & B). apply negb_true_iff in A. apply String.eqb_eq in B. auto. Qed.
Lemma st_start t : start st e t = true -> st = true /\ tag e = t.
Proof. unfold start. intros H. apply andb_prop in H as (A & B). apply String.eqb_eq in B. auto. Qed.
Lemma name_is_eq n : name_is e n = true -> attr e "name" = Some n.
Proof. unfold name_is, opt_is. destruct attr; [|discriminate]. intros H. apply String.eqb_eq in H. congruence. Qed.
Lemma comment_is_eq n : comment_is e n = true -> attr e "comment" = Some n.
Proof. unfold comment_is, opt_is. destruct attr; [|discriminate]. intros H. apply String.eqb_eq in H. congruence. Qed.
Lemma ends_Q : st = false -> ev_ = End e. Proof. unfold ev_. intros ->. reflexivity. Qed.

Lemma t_flag t f : other f -> tri v v (flag_from st e t f).
Proof. intros O. unfold flag_from. apply t_seq with v; apply t_when; intros _; apply t_do; intros s H; [apply I_on|apply I_off]; auto; apply O. Qed.
Lemma t_flag_set n f : other f -> tri v v (flag_set st e n f).
Proof. intros O. unfold flag_set. apply t_seq with v; apply t_when; intros _; apply t_do; intros s H; [apply I_on|apply I_off]; auto; apply O. Qed.
Lemma I_push s : w_row v e -> I v s -> I v (push e s).
Proof. intros R (X & O & Y & (A & Z)). split; [exact X|]. split; [exact O|]. split; [exact Y|]. split; [|exact Z]. apply Forall_app. split; [exact A|constructor; auto]. Qed.
Lemma I_push2 s : w_row v e -> I v s -> I v (push2 e s).
Proof. intros R (X & O & Y & (A & B & Z)). split; [exact X|]. split; [exact O|]. split; [exact Y|]. split; [exact A|]. split; [|exact Z]. apply Forall_app. split; [exact B|constructor; auto]. Qed.
Lemma t_collect f t : In t ["c"; "v"; "r"]%string -> tri v v (collect st e f t).
Proof. intros N. unfold collect. apply t_guard, t_when. intros C. apply st_start in C as (C & D). apply t_do. intros s H. apply I_push; [|exact H]. apply (Gpush v G); [exact C|]. unfold row_tag. rewrite D. exact N. Qed.
Lemma t_collect2 f t : In t ["c"; "v"; "r"]%string -> tri v v (collect2 st e f t).
Proof. intros N. unfold collect2. apply t_guard, t_when. intros C. apply st_start in C as (C & D). apply t_do. intros s H. apply I_push2; [|exact H]. apply (Gpush v G); [exact C|]. unfold row_tag. rewrite D. exact N. Qed.
(** rows of numbers never exit *)
Lemma q_2D d es : exits Q (convert2D d es). Proof. apply ex_convert2D. Qed.
Lemma q_1D s : I v s -> st = false -> named_as "varray" "weights" e \/ tag e = "eigenvalues"%string -> exits Q (convert1D (s_data s)).
Proof.
  intros H C D. apply not_one. intros x M N. unfold Q. rewrite (ends_Q C). apply RowNotOneNumber; [exact D|]. destruct H as (_ & _ & _ & (A & _)). rewrite Forall_forall in A. destruct ((Grow v G) x (A x M) C) as (b & p & y & J & T & ->). exists b, p, x. auto.
Qed.
Lemma q_atoms s : I v s -> st = false -> w_calc v = true -> named_as "array" "born_charges" e \/ named_as "varray" "hessian" e \/ named_as "varray" "eigenvectors" e \/ tag e = "partial"%string -> exits Q (atoms_of s).
Proof.
  intros H C W D. unfold atoms_of. destruct (p_species (s_out s)) eqn:E; [apply exits_ok|]. apply exits_exit. unfold Q. rewrite (ends_Q C). apply NoAtoms; auto. apply (Gnosp v G). destruct H as (_ & _ & (_ & _ & A & _) & _). auto.
Qed.
Lemma q_spin s : I v s -> st = false -> w_calc v = true -> bands_end e -> p_ispin (s_out s) = None -> Q 502.
Proof.
  intros H C W D E. unfold Q. rewrite (ends_Q C). apply NoSpinYet; auto. rewrite <- ((Gispin v G) C). destruct H as (_ & _ & (A & _) & _). unfold says in A. destruct (w_ispin v); [|reflexivity]. destruct A as (z & A & _). congruence.
Qed.
Lemma q_nbands s : I v s -> st = false -> w_calc v = true -> bands_end e -> p_nbands (s_out s) = None -> Q 503.
Proof.
  intros H C W D E. unfold Q. rewrite (ends_Q C). apply NoBandsYet; auto. rewrite <- ((Gnbands v G) C). destruct H as (_ & _ & (_ & A & _) & _). unfold says in A. destruct (w_nbands v); [|reflexivity]. destruct A as (z & A & _). congruence.
Qed.
Lemma q_rows s nb : I v s -> st = false -> w_calc v = true -> bands_end e -> p_nbands (s_out s) = Some nb -> Q 505.
Proof.
  intros H C W D E. unfold Q. rewrite (ends_Q C). destruct H as (_ & _ & (_ & A & _) & _). unfold says in A. rewrite ((Gnbands v G) C) in A. destruct (setting "NBANDS" h) as [t|] eqn:T; [|congruence]. destruct A as (z & A & P). eapply RowsMismatch; eauto.
Qed.
Lemma q_eigen s n : I v s -> st = false -> w_calc v = true -> tag e = "eigenvalues"%string -> exits Q (extract_eigenvalues kbb (p_ispin (s_out s)) (p_nbands (s_out s)) (s_data s) (second (s_data2 s)) n).
Proof.
  intros H C W D. assert (bands_end e) as B by (unfold bands_end; rewrite D; cbn; auto).
  unfold extract_eigenvalues. destruct (p_ispin (s_out s)) eqn:E1; [|apply exits_exit; eapply q_spin; eauto]. destruct (p_nbands (s_out s)) as [nb|] eqn:E2; [|apply exits_exit; eapply q_nbands; eauto].
  assert (Q 505) as R by (eapply q_rows; eauto).
  assert (forall a b es, (forall x, In x es -> w_row v x) -> exits Q (eigen_table a b es)) as T.
  { intros a b es U. unfold eigen_table. apply exits_bind; [|intros; apply ex_split]. destruct Nat.ltb; [apply ex_convert2D|]. apply exits_bind; [|intros; apply exits_ok]. apply not_one. intros x M N. unfold Q. rewrite (ends_Q C). apply RowNotOneNumber; [auto|]. destruct ((Grow v G) x (U x M) C) as (b' & p & y & J & T & ->). exists b', p, x. auto. }
  destruct H as (_ & _ & _ & (A1 & A2 & _)). rewrite Forall_forall in A1, A2.
  destruct wrong_count; [apply exits_exit, R|]. apply exits_bind; [unfold py_nth; ex1; ex_exn|]. intros e0 _. apply exits_bind; [ex1; ex_exn|]. intros t0 _. apply exits_bind; [apply T; exact A1|]. intros m _.
  destruct (s_data2 s) as [|x l] eqn:E3; cbn [second]; [apply exits_ok|]. destruct wrong_count; [apply exits_exit, R|]. apply exits_bind; [apply T; exact A2|]. intros. apply exits_ok.
Qed.
Lemma q_velocities s n : I v s -> st = false -> w_calc v = true -> tag e = "eigenvelocities"%string -> exits Q (extract_eigenvelocities kbb (p_ispin (s_out s)) (p_nbands (s_out s)) (s_data s) (second (s_data2 s)) n).
Proof.
  intros H C W D. assert (bands_end e) as B by (unfold bands_end; rewrite D; cbn; auto).
  unfold extract_eigenvelocities. destruct (p_ispin (s_out s)) eqn:E1; [|apply exits_exit; eapply q_spin; eauto]. destruct (p_nbands (s_out s)) as [nb|] eqn:E2; [|apply exits_exit; eapply q_nbands; eauto].
  assert (Q 505) as R by (eapply q_rows; eauto). cbv zeta.
  assert (forall es, exits Q (if wrong_count (length es) nb n then Exn (SysExit 505) else let* rows := convert2D 4 es in split_even n rows)) as T.
  { intros es. destruct wrong_count; [apply exits_exit, R|]. apply exits_bind; [apply ex_convert2D|]. intros. apply ex_split. }
  apply exits_bind; [apply T|]. intros a _. destruct (second (s_data2 s)); [|apply exits_ok]. apply exits_bind; [apply T|]. intros. apply exits_ok.
Qed.
Lemma q_projectors s : I v s -> st = false -> w_calc v = true -> tag e = "array"%string -> exits Q (extract_projectors kbb (p_kpoints (s_out s)) (p_ispin (s_out s)) (p_nbands (s_out s)) (p_species (s_out s)) (s_data s) (second (s_data2 s))).
Proof.
  intros H C W D. assert (bands_end e) as B by (unfold bands_end; rewrite D; cbn; auto).
  unfold extract_projectors. destruct (p_kpoints (s_out s)) as [kp|] eqn:E0.
  2: { apply exits_exit. unfold Q. rewrite (ends_Q C). apply NoMesh; auto. apply ((Gnokp v G) C). destruct H as (_ & _ & (_ & _ & _ & A) & _). auto. }
  destruct (p_ispin (s_out s)) eqn:E1; [|apply exits_exit; eapply q_spin; eauto]. destruct (p_nbands (s_out s)) as [nb|] eqn:E2; [|apply exits_exit; eapply q_nbands; eauto].
  destruct (p_species (s_out s)) as [sp|] eqn:E3.
  2: { apply exits_exit. unfold Q. rewrite (ends_Q C). apply NoAtomsProjected; auto. apply (Gnosp v G). destruct H as (_ & _ & (_ & _ & A & _) & _). auto. }
  assert (Q 505) as R by (eapply q_rows; eauto). cbv zeta.
  assert (forall (b : bool) l, exits Q (if b then Exn (SysExit 505) else let* rows := convert2D 9 l in let* per_k := split_even (length kp) rows in split_axis1 (Z.to_nat nb) per_k)) as T.
  { intros b l. destruct b; [apply exits_exit, R|]. ex1; [apply ex_convert2D|]. ex1; [apply ex_split|apply ex_split1]. }
  ex1; [apply T|]. ex1; [destruct (second (s_data2 s)); [|apply exits_ok]; ex1; [apply T|apply exits_ok]|]. destruct (second (s_data2 s)); apply exits_ok.
Qed.
Ltac bnd := apply post_bind; [|let a := fresh "a" in let A := fresh "A" in intros a A].
Ltac same := apply I_any with (9 := ltac:(eassumption)); reflexivity.
Lemma t_dos_total : tri v v dos_total.
Proof.
  intros s H. unfold dos_total. bnd; [apply q_2D|]. cbv zeta. bnd.
  - destruct (second _); [|apply exits_ok]. apply exits_bind; [apply ex_convert2D|]. intros; apply exits_ok.
  - apply I_clear2. destruct (second _); [apply bind_ok in A0 as (b & _ & A0)|]; injection A0 as <-; apply I_any with s; auto.
Qed.
Lemma t_dos_partial : st = false -> w_calc v = true -> tag e = "partial"%string -> tri v v dos_partial.
Proof.
  intros C W T s H. unfold dos_partial. bnd; [apply q_atoms; auto|]. bnd; [apply ex_partial|]. cbv zeta. bnd.
  - destruct (second _); [|apply exits_ok]. apply exits_bind; [apply ex_partial|]. intros; apply exits_ok.
  - apply I_clear2. destruct (second _); [apply bind_ok in A1 as (b & _ & A1)|]; injection A1 as <-; apply I_any with s; auto.
Qed.
Lemma I_data6 s : I v s -> I v (set_s_data6 [] s).
Proof. intros (X & O & Y & (A & B & C & D & F & _)). split; [exact X|]. split; [exact O|]. split; [exact Y|]. repeat (split; [assumption|]). split; [apply Forall_nil|exact (Gcount0 v G)]. Qed.
Lemma t_dos_end store f : (forall s, I v s -> I v (store s)) -> plain f -> st = false -> w_calc v = true -> tag e = "dos"%string -> tri v v (dos_end store f).
Proof.
  intros K F1 C W T s H. unfold dos_end. bnd.
  - destruct (s_data6 s) as [|x [|y l]] eqn:E; [apply exits_ok| |].
    + apply ex_convert_f. intros t X (a & b & Y). unfold Q. rewrite (ends_Q C). apply OverflowFermi; auto. destruct H as (_ & _ & _ & (_ & _ & _ & _ & _ & A & _)). rewrite E in A. apply Forall_inv in A. destruct ((Gfermi v G) x A C) as (b' & p & z & J & Z & ->). exists b', p, x. split; [exact J|]. split; [exact Z|]. exists t, a, b. auto.
    + apply exits_exit. unfold Q. rewrite (ends_Q C). apply TwoFermis; auto. destruct H as (_ & _ & _ & (_ & _ & _ & _ & _ & _ & A)). eapply (Gcount v G); eauto. rewrite E. cbn. lia.
  - cbv zeta. bnd.
    + destruct part_empty; [apply exits_ok|]. apply exits_bind; [ex1; ex_exn|]. intros; apply exits_ok.
    + apply I_off; auto. match goal with |- I v (set_s_part1 _ (set_s_part2 _ (set_s_data6 [] (clear2 ?s')))) => apply I_any with (set_s_data6 [] (clear2 s')); [reflexivity ..|]; apply I_data6, I_clear2 end. apply K. apply I_any with s; auto.
Qed.
Ltac wh := apply t_when; intros C.
Ltac gd := apply t_guard.
Ltac endsof C := apply st_end in C as (? & ?).
Lemma I_outd s d : I v s -> I v (out_ (set_p_dos d) s). Proof. apply I_out; reflexivity. Qed.
Lemma I_dos_on s : st = true -> the_dos e -> I v s -> I v (on fDos s).
Proof.
  intros A B ((X1 & X2 & X3 & X4 & X5) & O & Y). split; [|split; [|exact Y]]; rewrite !is_on_on by discriminate; [repeat split; auto; intros Z; first [exact (Gdos v G A B) | exact (Gfine v G A B) | rewrite is_on_on in Z by discriminate; auto]|exact O].
Qed.
Lemma I_fine_on s : st = true -> fine_dos e -> I v s -> I v (on fDosSpecific s).
Proof.
  intros A B ((X1 & X2 & X3 & X4 & X5) & O & Y). split; [|split; [|exact Y]]; rewrite !is_on_on by discriminate; [repeat split; auto; intros Z; first [exact (Gdos v G A B) | exact (Gfine v G A B) | rewrite is_on_on in Z by discriminate; auto]|exact O].
Qed.
Lemma t_dos_block : w_calc v = true -> tri v v (dos_block st e).
Proof.
  intros W. unfold dos_block.
  apply t_seq with v. { wh. apply andb_prop in C as (C1 & D). apply st_start in C1 as (C2 & T). apply t_do. intros s H. apply I_dos_on; auto. split; [exact T|]. destruct (attr e "comment"); [discriminate D|reflexivity]. }
  apply t_seq with v. { gd. wh. apply t_dos_total. }
  apply t_seq with v. { gd. wh. endsof C. apply t_dos_partial; auto. }
  apply t_seq with v. { gd. wh. endsof C. apply t_dos_end; [intros s; apply I_outd|pl|auto ..]. }
  apply t_seq with v. { wh. apply andb_prop in C as (C1 & D). apply st_start in C1 as (C2 & T). apply t_do. intros s H. apply I_fine_on; auto. split; [exact T|]. apply comment_is_eq. exact D. }
  apply t_seq with v. { gd. wh. apply t_dos_total. }
  apply t_seq with v. { gd. wh. endsof C. apply t_dos_partial; auto. }
  gd. wh. endsof C. apply t_dos_end; [intros s HI; apply I_any with s; auto|pl|auto ..].
Qed.
(** a block that stores a table: the rows and the flag are reset *)
Lemma post_ok s : I v s -> post v (Ok s). Proof. auto. Qed.
Lemma t_forces : tri v v (forces_block st e).
Proof.
  unfold forces_block. apply t_seq with v; [apply t_flag; oth|].
  apply t_seq with v. { wh. apply t_named. intros N. apply t_do. intros s H. apply I_on; [oth|exact H]. }
  apply t_seq with v. { wh. apply t_named. intros N s H. bnd; [apply q_2D|]. apply I_off; [pl|]. apply I_clear. apply I_any with s; auto. }
  apply t_seq with v. { wh. apply t_named. intros N. apply t_do. intros s H. apply I_on; [oth|exact H]. }
  wh. apply t_named. intros N s H. bnd; [apply q_2D|]. apply I_off; [pl|]. apply I_clear. apply I_any with s; auto.
Qed.
Lemma t_eigen_block : w_calc v = true -> tri v v (eigen_block kbb st e).
Proof.
  intros W. unfold eigen_block.
  apply t_seq with v. { gd. wh. apply t_do. intros s H. apply I_on; [oth|exact H]. }
  apply t_seq with v. { gd. wh. endsof C. intros s H'. bnd; [apply ex_olen|]. bnd; [apply q_eigen; auto|]. destruct a0 as [x o]. apply I_off; [pl|]. apply I_clear2. apply I_out; auto. }
  apply t_seq with v. { wh. apply t_do. intros s H. apply I_on; [oth|exact H]. }
  apply t_seq with v. { gd. wh. endsof C. intros s H'. bnd; [apply ex_olen|]. bnd; [apply q_eigen; auto|]. destruct a0 as [x o]. apply I_off; [pl|]. apply I_clear2. apply I_out; auto. }
  apply t_seq with v. { wh. apply t_do. intros s H. apply I_on; [oth|exact H]. }
  wh. endsof C. intros s H'. bnd; [apply ex_olen|]. bnd; [apply q_velocities; auto|]. apply I_off; [pl|]. apply I_clear2. apply I_out; auto.
Qed.
Lemma ends_named t n : ends st e t && name_is e n = true -> st = false /\ named_as t n e.
Proof. intros H. apply andb_prop in H as (A & B). apply st_end in A as (A & T). apply name_is_eq in B. split; [exact A|split; assumption]. Qed.
Lemma t_diel : w_calc v = true -> tri v v (diel_block st e).
Proof.
  intros W. unfold diel_block.
  apply t_seq with v. { wh. apply t_do. intros s H. apply I_on; [oth|exact H]. }
  apply t_seq with v. { wh. intros s H. bnd; [apply q_2D|]. bnd; [apply ex_split|]. cbv zeta. apply I_off; [pl|]. apply I_clear. apply I_out; auto. }
  apply t_seq with v. { wh. apply t_do. intros s H. apply I_on; [oth|exact H]. }
  apply t_seq with v. { wh. apply t_do. intros s H. apply I_off; [pl|]. apply I_any with s; auto. }
  apply t_seq with v. { wh. apply t_do. intros s H. apply I_on; [oth|exact H]. }
  wh. apply ends_named in C as (? & ?). intros s H'. bnd; [apply q_atoms; auto|]. bnd; [apply q_2D|]. bnd; [apply ex_split|]. apply I_off; [pl|]. apply I_clear. apply I_out; auto.
Qed.
Lemma t_lattice : tri v v (lattice_block st e).
Proof.
  unfold lattice_block. gd. apply t_seq with v. { wh. apply t_do. intros s H. apply I_on; [oth|exact H]. }
  apply t_seq with v. { wh. intros s H. bnd; [apply q_2D|]. apply I_off; [pl|]. apply I_clear. apply I_any with s; auto. }
  apply t_seq with v. { wh. apply t_do. intros s H. apply I_on; [oth|exact H]. }
  apply t_seq with v. { wh. intros s H. bnd; [apply q_2D|]. apply I_off; [pl|]. apply I_clear. apply I_any with s; auto. }
  apply t_seq with v; apply t_collect; cbn; auto.
Qed.
Lemma t_update f : tri v v (update_totens f).
Proof. intros s H. unfold update_totens. bnd; [ex1; ex_exn|]. apply I_any with s; auto. Qed.
Lemma t_energies : tri v v (energies_block st seen e).
Proof.
  assert (forall n f, tri v v (final_energy st seen e n f)) as K.
  { intros n f. unfold final_energy. wh. apply t_named. intros _ s H. bnd; [ex1; ex_exn|]. bnd; [unfold OutcarModel.to_float; ex1; ex_exn|]. apply t_update. exact H. }
  unfold energies_block. gd. apply t_seq with v; [apply K|]. apply t_seq with v; apply K.
Qed.
Lemma t_specific_k : tri v v (specific_k st e).
Proof.
  unfold specific_k. apply t_seq with v. { wh. apply t_do. intros s H. apply I_on; [oth|exact H]. }
  apply t_seq with v. { wh. intros s H. bnd; [apply q_2D|]. apply I_off; [pl|]. apply I_clear. apply I_out; auto. }
  apply t_seq with v. { wh. apply t_do. intros s H. apply I_on; [oth|exact H]. }
  wh. apply ends_named in C as (? & ?). intros s H'. bnd; [apply q_1D; auto|]. apply I_off; [pl|]. apply I_clear. apply I_out; auto.
Qed.
Ltac rows := first [apply t_flag_set; oth | apply t_collect; cbn; auto | apply t_collect2; cbn; auto | apply t_specific_k].
Lemma t_rows : tri v v (eigen_rows st e) /\ tri v v (eigen_specific_rows st e) /\ tri v v (velocity_rows st e).
Proof. unfold eigen_rows, eigen_specific_rows, velocity_rows. repeat split; gd; repeat (apply t_seq with v; [rows|]); rows. Qed.
Lemma t_projected : w_calc v = true -> tri v v (projected_block kbb st e).
Proof.
  intros W. unfold projected_block. gd. apply t_seq with v. { wh. apply t_do. intros s H. apply I_on; [oth|exact H]. }
  apply t_seq with v. { gd. wh. endsof C. intros s H'. cbv zeta. bnd; [apply q_projectors; auto|]. apply I_off; [pl|]. apply I_clear2. apply I_out; auto. }
  gd. repeat (apply t_seq with v; [rows|]); rows.
Qed.
Lemma t_dynmat : w_calc v = true -> tri v v (dynmat_block st seen e).
Proof.
  intros W. unfold dynmat_block. gd. apply t_seq with v. { wh. apply t_do. intros s H. apply I_on; [oth|exact H]. }
  apply t_seq with v. { wh. apply ends_named in C as (? & ?). intros s H'. bnd; [apply q_atoms; auto|]. bnd; [apply q_2D|]. apply I_off; [pl|]. apply I_clear. apply I_out; auto. }
  apply t_seq with v. { wh. apply t_do. intros s H. apply I_on; [oth|exact H]. }
  apply t_seq with v. { wh. apply ends_named in C as (? & ?). intros s H'. bnd; [apply q_atoms; auto|]. bnd; [apply q_2D|]. apply I_off; [pl|]. apply I_clear. apply I_any with s; auto. }
  apply t_seq with v; [rows|]. apply t_seq with v; [rows|].
  wh. intros s H'. bnd; [apply ex_numbers|]. apply I_any with s; auto.
Qed.
Lemma t_before : w_calc v = true -> tri v v (dos_block st e >> forces_block st e).
Proof. intros W. apply t_seq with v; [apply t_dos_block, W|apply t_forces]. Qed.
Lemma t_middle : w_calc v = true -> tri v v (eigen_block kbb st e >> diel_block st e).
Proof. intros W. apply t_seq with v; [apply t_eigen_block, W|apply t_diel, W]. Qed.
Lemma t_after : w_calc v = true -> tri v v (lattice_block st e >> collect st e fForces "v" >> collect st e fStress "v" >> energies_block st seen e >>
  eigen_rows st e >> eigen_specific_rows st e >> velocity_rows st e >> collect st e fDiel "r" >> projected_block kbb st e >> dynmat_block st seen e >> collect st e fBorn "v").
Proof.
  intros W. apply t_seq with v; [apply t_lattice|]. apply t_seq with v; [rows|]. apply t_seq with v; [rows|]. apply t_seq with v; [apply t_energies|].
  apply t_seq with v; [apply t_rows|]. apply t_seq with v; [apply t_rows|]. apply t_seq with v; [apply t_rows|]. apply t_seq with v; [rows|]. apply t_seq with v; [apply t_projected, W|]. apply t_seq with v; [apply t_dynmat, W|]. rows.
Qed.
End Event.

Lemma inside_snoc t h ev : inside t (h ++ [ev]) = switch t (inside t h) ev.
Proof. unfold inside. rewrite fold_left_app. reflexivity. Qed.
Lemma fold_fst {A B C} (f : A * B -> C -> A * B) (g : A -> C -> A) l : (forall b c, fst (f b c) = g (fst b) c) -> forall b, fst (fold_left f l b) = fold_left g l (fst b).
Proof. intros H. induction l as [|c l IH]; intros b; cbn [fold_left]; [reflexivity|]. rewrite IH, H. reflexivity. Qed.
Lemma mesh_snoc h ev : inside_mesh (h ++ [ev]) = if inside "calculation" (h ++ [ev]) then inside_mesh h else switch "kpoints" (inside_mesh h) ev.
Proof.
  unfold inside_mesh. rewrite fold_left_app, inside_snoc. cbn [fold_left]. set (b := fold_left mesh_switch h (false, false)).
  assert (fst b = inside "calculation" h) as E by (apply (fold_fst mesh_switch (switch "calculation")); reflexivity). unfold mesh_switch. rewrite E. cbn [snd]. reflexivity.
Qed.
Lemma setting_snoc n h ev : setting n (h ++ [ev]) = match ev with Start seen _ e => if inside "parameters" (h ++ [ev]) && opt_is n (attr e "name") then (if seen then text e else None) else setting n h | End _ => setting n h end.
Proof.
  unfold setting. rewrite fold_left_app, inside_snoc. cbn [fold_left]. set (b := fold_left (parameter n) h (false, None)).
  assert (fst b = inside "parameters" h) as E by (apply (fold_fst (parameter n) (switch "parameters")); reflexivity). unfold parameter. rewrite E. destruct ev; reflexivity.
Qed.
Lemma started_snoc P h ev : started P (h ++ [ev]) <-> started P h \/ match ev with Start _ _ e => P e | End _ => False end.
Proof.
  split.
  - intros (b & p & e & J & X). apply in_app_iff in J as [J|[J|[]]]; [left; exists b, p, e; auto|right]. subst ev. exact X.
  - intros [(b & p & e & J & X)|X]; [exists b, p, e; split; [apply in_app_iff; auto|exact X]|]. destruct ev as [b p e|]; [|destruct X]. exists b, p, e. split; [apply in_app_iff; right; left; reflexivity|exact X].
Qed.
Lemma ended_snoc P h ev : ended P (h ++ [ev]) <-> ended P h \/ match ev with Start _ _ _ => False | End e => P e end.
Proof.
  split.
  - intros (e & J & X). apply in_app_iff in J as [J|[J|[]]]; [left; exists e; auto|right]. subst ev. exact X.
  - intros [(e & J & X)|X]; [exists e; split; [apply in_app_iff; auto|exact X]|]. destruct ev as [b p e|e]; [destruct X|]. exists e. split; [apply in_app_iff; right; left; reflexivity|exact X].
Qed.
Lemma fermis_snoc h ev : fermis (h ++ [ev]) = fermis h + match ev with Start _ _ e => if String.eqb "i" (tag e) && opt_is "efermi" (attr e "name") then 1 else 0 | End _ => 0 end.
Proof. induction h as [|[b p e|e] h IH]; cbn [fermis app]; [destruct ev; cbn; lia|rewrite IH; lia|exact IH]. Qed.
Lemma mesh_read_snoc h ev : mesh_read h \/ match ev with End e => named_as "varray" "kpointlist" e /\ inside_mesh (h ++ [ev]) = true | _ => False end -> mesh_read (h ++ [ev]).
Proof.
  intros [(h1 & e & h2 & -> & X)|X]; [exists h1, e, (h2 ++ [ev]); rewrite <- app_assoc; auto|]. destruct ev as [|e]; [destruct X|]. exists h, e, []. split; [reflexivity|exact X].
Qed.
Definition energy (key : string) (h : list event) := fold_left (energy_switch key) h (false, (false, false)).
Definition scstep_of (h : list event) : bool := fst (snd (energy "e_0_energy" h)).
Definition open_of (h : list event) (key : string) : bool := snd (snd (energy key h)).
Lemma energy_calc key h : fst (energy key h) = inside "calculation" h.
Proof. unfold energy, inside. rewrite (fold_fst (energy_switch key) (switch "calculation")); [reflexivity|]. intros [a [b c]] ev. reflexivity. Qed.
Lemma energy_scstep key h : fst (snd (energy key h)) = scstep_of h.
Proof.
  unfold scstep_of, energy. assert (forall b b', fst b = fst b' -> fst (snd b) = fst (snd b') -> fst (snd (fold_left (energy_switch key) h b)) = fst (snd (fold_left (energy_switch "e_0_energy") h b'))) as K; [|apply K; reflexivity].
  induction h as [|ev r IH]; intros b b' X Y; cbn [fold_left]; [exact Y|]. destruct b as [c [sc o]], b' as [c' [sc' o']]. cbn in X, Y. subst c' sc'. apply IH; reflexivity.
Qed.
Lemma scstep_snoc h ev : scstep_of (h ++ [ev]) = if inside "calculation" (h ++ [ev]) then switch "scstep" (scstep_of h) ev else scstep_of h.
Proof.
  rewrite inside_snoc, <- (energy_calc "e_0_energy" h). unfold scstep_of, energy. rewrite fold_left_app. cbn [fold_left]. destruct (fold_left (energy_switch "e_0_energy") h (false, (false, false))) as [c [sc o]]. reflexivity.
Qed.
Lemma open_snoc key h ev : open_of (h ++ [ev]) key = if inside "calculation" (h ++ [ev]) && scstep_of (h ++ [ev]) then switch_named "i" key (open_of h key) ev else open_of h key.
Proof.
  rewrite scstep_snoc, inside_snoc, <- (energy_calc key h), <- (energy_scstep key h). unfold open_of, energy. rewrite fold_left_app. cbn [fold_left]. destruct (fold_left (energy_switch key) h (false, (false, false))) as [c [sc o]]. cbn. destruct (switch "calculation" c ev); reflexivity.
Qed.
Lemma collecting_is key h : collecting key h = inside "calculation" h && scstep_of h && open_of h key.
Proof.
  rewrite <- (energy_calc key h), <- (energy_scstep key h). unfold collecting, open_of, energy. destruct (fold_left (energy_switch key) h (false, (false, false))) as [c [sc o]]. reflexivity.
Qed.
Lemma step_energy_snoc key h ev x : step_energy_of key h x -> step_energy_of key (h ++ [ev]) x.
Proof. intros (h1 & v & h2 & -> & X). exists h1, v, (h2 ++ [ev]). rewrite <- app_assoc. auto. Qed.
Definition few (h : list event) (n : nat) : Prop := n <= fermis h \/ (started the_dos h /\ started fine_dos h /\ n <= 2 * fermis h).
(** the view after the events [h]; between two of them, the components change one by one *)
Definition U (h' : list event) (par calc mesh : bool) (i n : option str) (nosp nokp : Prop) (sc : bool) (op : string -> bool) (any : string -> xml -> Prop) (count : nat -> Prop) : view :=
  View par calc mesh i n nosp nokp sc op (fun x => started (fun f => row_tag f /\ f = x) h') any (fun x => started (fun f => named_as "i" "efermi" f /\ f = x) h') (started the_dos h') (started fine_dos h') count.
Definition noatoms (h : list event) : Prop := ~ ended (named_as "array" "atoms") h.
Definition energies_of (h : list event) (key : string) (x : xml) : Prop := step_energy_of key h x.
Definition V (h : list event) : view := U h (inside "parameters" h) (inside "calculation" h) (inside_mesh h) (setting "ISPIN" h) (setting "NBANDS" h) (noatoms h) (~ mesh_read h) (scstep_of h) (open_of h) (energies_of h) (few h).

Section Step.
Variables (kbb st seen : bool) (parent : option (list (string * string))) (e : xml) (h : list event).
Notation ev := (ev_ st seen parent e).
Notation h' := (h ++ [ev]).
Notation tri := (tri st seen parent e h).
Notation post := (post st seen parent e h).
Lemma started_mono P : started P h -> started P h'. Proof. intros H. apply started_snoc. auto. Qed.
Lemma ended_mono P : ended P h -> ended P h'. Proof. intros H. apply ended_snoc. auto. Qed.
Lemma begin s : I (V h) s -> I (U h' (inside "parameters" h) (inside "calculation" h) (inside_mesh h) (setting "ISPIN" h) (setting "NBANDS" h) (noatoms h) (~ mesh_read h) (scstep_of h) (open_of h) (energies_of h) (few h)) s.
Proof.
  intros ((X1 & X2 & X3 & X4 & X5) & O & Y & (A & B & C & D & F & G & K)). unfold I, V, U in *. cbn [w_par w_calc w_mesh w_ispin w_nbands w_nosp w_nokp w_sc w_open w_row w_any w_fermi w_dos w_fine w_count] in *.
  split; [repeat (split; [assumption|]); split; intros Z; apply started_mono; auto|]. split; [exact O|]. split; [exact Y|].
  assert (forall P Q : xml -> Prop, (forall x, P x -> Q x) -> forall l, Forall P l -> Forall Q l) as M by (intros P Q PQ l; apply Forall_impl; exact PQ).
  split; [revert A; apply M; intros x; apply started_mono|]. split; [revert B; apply M; intros x; apply started_mono|]. do 3 (split; [assumption|]).
  split; [revert G; apply M; intros x; apply started_mono|exact K].
Qed.
Lemma sw t b : switch t b ev = if start st e t then true else if ends st e t then false else b.
Proof. unfold switch, is_start, is_end, start, ends. destruct st; cbn; destruct String.eqb; reflexivity. Qed.
Lemma se t : start st e t = true -> ends st e t = false.
Proof. unfold start, ends. destruct st; cbn; [reflexivity|discriminate]. Qed.
Ltac views := unfold U; cbn [w_par w_calc w_mesh w_ispin w_nbands w_nosp w_nokp w_sc w_open w_row w_any w_fermi w_dos w_fine w_count].
Variables (par calc mesh : bool) (i n : option str) (nosp nokp : Prop) (sc : bool) (op : string -> bool) (any : string -> xml -> Prop) (count : nat -> Prop).
Lemma s_par : tri (U h' par calc mesh i n nosp nokp sc op any count) (U h' (switch "parameters" par ev) calc mesh i n nosp nokp sc op any count) (flag_from st e "parameters" fParameters).
Proof.
  intros s ((X1 & X2 & X3 & X4 & X5) & O & Y). rewrite sw. unfold flag_from, seqb_. destruct (start st e "parameters") eqn:S1; [rewrite (se _ S1)|destruct (ends st e "parameters")]; cbn [when_ bind pass do_]; unfold pass, do_; cbn [bind post]; (split; [|split; [|exact Y]]); views; [rewrite is_on_same| |rewrite is_off_same| | |]; rewrite ?is_on_on, ?is_on_off by discriminate; repeat (split; try assumption); try assumption; apply O.
Qed.
Lemma s_calc_start : tri (U h' par calc mesh i n nosp nokp sc op any count) (U h' par (if start st e "calculation" then true else calc) mesh i n nosp nokp sc op any count) (calculation_start st e).
Proof.
  intros s ((X1 & X2 & X3 & X4 & X5) & O & Y). unfold calculation_start. destruct (start st e "calculation"); cbn [when_ bind pass do_]; unfold pass, do_; cbn [bind post]; (split; [|split; [|exact Y]]); views; [rewrite is_on_same| | |]; rewrite ?is_on_on by discriminate; repeat (split; try assumption); try assumption; apply O.
Qed.
Lemma s_calc_end : any = energies_of h -> tri (U h' par calc mesh i n nosp nokp sc op any count) (U h' par (if ends st e "calculation" then false else calc) mesh i n nosp nokp sc op any count) (calculation_end st e).
Proof.
  intros EA. unfold calculation_end. destruct (ends st e "calculation") eqn:C; [|apply t_pass]. cbn [when_]. apply st_end in C as (C & T). intros s H. pose proof H as (_ & _ & _ & (_ & _ & D3 & D4 & D5 & _)). rewrite Forall_forall in D3, D4, D5. cbn [w_any U] in D3, D4, D5. rewrite EA in D3, D4, D5.
  assert (forall key l, In key energy_keys -> (forall x, In x l -> energies_of h key x) -> exits (Q st seen parent e h) (convert1D l)) as K.
  { intros key l J L. apply not_one. intros x M N. unfold Q. rewrite (ends_Q st seen parent e C). apply (EnergyNotOneNumber h e key x); auto. apply (L x M). }
  apply post_bind; [apply (K _ _ (or_introl eq_refl) D3)|intros a _]. apply post_bind; [apply (K _ _ (or_intror (or_introl eq_refl)) D4)|intros b _]. apply post_bind; [apply (K _ _ (or_intror (or_intror (or_introl eq_refl))) D5)|intros c _].
  apply post_bind; [unfold update_totens; ex1; [ex1; ex_exn|apply exits_ok]|]. intros s' U'. assert (I (U h' par calc mesh i n nosp nokp sc op any count) s') as I'.
  { apply bind_ok in U' as (t & _ & U'). injection U' as <-. revert H. apply I_any; reflexivity. }
  clear U' H D3 D4 D5 s. destruct I' as ((X1 & X2 & X3 & X4 & X5) & O & Y & (A & B & C' & D & F & G)). cbn [post]. split; [|split; [|split; [exact Y|]]].
  - views. rewrite is_off_same. rewrite !is_on_off by discriminate. repeat split; assumption.
  - rewrite !is_on_off by discriminate. exact O.
  - split; [exact A|]. split; [exact B|]. repeat (split; [apply Forall_nil|]). exact G.
Qed.
Lemma I_view v w s : I v s -> w_par w = w_par v -> w_calc w = w_calc v -> w_mesh w = w_mesh v -> w_ispin w = w_ispin v -> w_nbands w = w_nbands v -> w_sc w = w_sc v -> w_open w = w_open v ->
  (p_species (s_out s) = None -> w_nosp v -> w_nosp w) -> (p_kpoints (s_out s) = None -> w_nokp v -> w_nokp w) -> w_row w = w_row v -> w_any w = w_any v -> w_fermi w = w_fermi v -> w_dos w = w_dos v -> w_fine w = w_fine v -> (w_count v (length (s_data6 s)) -> w_count w (length (s_data6 s))) -> I w s.
Proof.
  intros (X & O & (Y1 & Y2 & Y3 & Y4) & (A & B & C & D & F & G & K)) E1 E2 E3 E4 E5 E6 E7 E8 E9 F1 F2 F3 F4 F5 F6. unfold I. rewrite E1, E2, E3, E4, E5, E6, E7, F1, F2, F3, F4, F5. auto 20.
Qed.
Lemma t_weaken v w f : tri v v f -> (forall s, I v s -> I w s) -> tri v w f.
Proof. intros F K s H. specialize (F s H). destruct (f s) as [s'|[]]; cbn in *; auto. Qed.
Lemma noatoms_snoc : ends st e "array" && name_is e "atoms" = false -> noatoms h -> noatoms h'.
Proof.
  intros E N X. apply ended_snoc in X as [X|X]; [exact (N X)|]. unfold ev_ in X. destruct st eqn:S1; [exact X|]. destruct X as (T & A). unfold ends, name_is, opt_is in E. rewrite T, A in E. cbn in E. discriminate E.
Qed.
Lemma s_atoms : tri (U h' par calc mesh i n (noatoms h) nokp sc op any count) (U h' par calc mesh i n (noatoms h') nokp sc op any count) (atoms_block st e).
Proof.
  unfold atoms_block. destruct (ends st e "array" && name_is e "atoms") eqn:E.
  - pose proof E as E'. apply andb_prop in E' as (E1 & E2). apply t_seq with (U h' par calc mesh i n (noatoms h) nokp sc op any count).
    { apply t_when. intros C. apply t_do. intros s H. apply I_on; [oth|exact H]. }
    cbn [when_]. apply st_end in E1 as (C & T). intros s H. apply post_bind.
    + apply exits_mapM. intros x M. destruct (text x) as [t|] eqn:X; [|ex_exn]. destruct (split_ws t) as [|w r] eqn:W; [ex_exn|]. apply exits_option. intros N. apply exits_exit. unfold Q. rewrite (ends_Q st seen parent e C). apply UnknownName; [split; [exact T|apply name_is_eq, E2]|].
      destruct H as (_ & _ & _ & (A & _)). rewrite Forall_forall in A. assert (In x (s_data s)) as M' by (apply (every_In (length (s_data s))); [apply le_n|exact M]). specialize (A x M'). cbn [w_row U] in A. apply started_snoc in A as [(b & p & y & J & R & ->)|A]; [|rewrite (ends_Q st seen parent e C) in A; destruct A].
      exists b, p, x. split; [exact J|]. split; [exact R|]. exists t, w, r. split; [exact X|]. split; [exact W|]. intros z. apply assoc_no_pair. exact N.
    + intros a _. cbn [post]. apply I_off; [pl|]. apply I_clear. destruct H as (X & O & (Y1 & Y2 & Y3 & Y4) & Z). split; [exact X|]. split; [exact O|]. split; [|exact Z]. split; [exact Y1|]. split; [exact Y2|]. split; [intros D; discriminate D|exact Y4].
  - apply t_seq with (U h' par calc mesh i n (noatoms h) nokp sc op any count).
    { apply t_when. intros C. apply t_do. intros s H. apply I_on; [oth|exact H]. }
    cbn [when_]. intros s H. cbn. apply (I_view _ _ _ H); auto. intros _. apply noatoms_snoc, E.
Qed.
Lemma s_mesh : calc = inside "calculation" h' -> mesh = inside_mesh h -> tri (U h' par calc mesh i n nosp nokp sc op any count) (U h' par calc (inside_mesh h') i n nosp nokp sc op any count) (kpoints_flag st e).
Proof.
  intros EC EM. rewrite mesh_snoc, <- EC, <- EM, sw. intros s ((X1 & X2 & X3 & X4 & X5) & O & Y). cbn [w_calc w_mesh U] in X2, X3. unfold kpoints_flag, seqb_, guard. rewrite X2. destruct calc; cbn [negb bind].
  - rewrite X2. cbn. split; [|split; [exact O|exact Y]]. repeat split; assumption.
  - destruct (start st e "kpoints") eqn:S1; [rewrite (se _ S1)|destruct (ends st e "kpoints")]; cbn [when_ bind pass do_]; unfold pass, do_; cbn [bind]; rewrite ?is_on_on by discriminate; rewrite X2; cbn [negb bind post]; (split; [|split; [|exact Y]]); views; [rewrite is_on_same| |rewrite is_off_same| | |]; rewrite ?is_on_on, ?is_on_off by discriminate; repeat (split; try assumption); try assumption; apply O.
Qed.
Notation UU i n := (U h' par calc mesh i n nosp nokp sc op any count).
Definition caught : list string := ["SYMPREC"; "ISPIN"; "ISMEAR"; "SIGMA"; "NBANDS"; "NELECT"; "NELM"; "NSW"]%string.
Lemma over_now nm t : inside "parameters" h' = true -> In nm caught -> st = true -> name_is e nm = true -> start_text seen e = Some t -> (exists a b, t = a ++ stars ++ b) -> Q st seen parent e h 509.
Proof.
  intros HP J C N T (a & b & X). unfold Q. unfold ev_ in *. rewrite C in *. apply OverflowNow with nm; [apply name_is_eq, N|exact J|exact HP|]. unfold start_text in T. destruct seen; [|discriminate T]. exists t, a, b. auto.
Qed.
Lemma s_pf v nm g : inside "parameters" h' = true -> In nm caught -> (forall x p, p_ispin (g x p) = p_ispin p) -> (forall x p, p_nbands (g x p) = p_nbands p) -> (forall x p, p_species (g x p) = p_species p) -> (forall x p, p_kpoints (g x p) = p_kpoints p) ->
  tri v v (param_block st e nm (pf seen e g)).
Proof.
  intros HP J A B C D. unfold param_block. apply t_when. intros E. apply andb_prop in E as (E & N). intros s H. unfold pf. apply post_bind; [apply ex_convert_f; intros t T X; exact (over_now nm t HP J E N T X)|]. intros x _. apply I_out; auto.
Qed.
Lemma s_pi v nm g : inside "parameters" h' = true -> In nm caught -> (forall x p, p_ispin (g x p) = p_ispin p) -> (forall x p, p_nbands (g x p) = p_nbands p) -> (forall x p, p_species (g x p) = p_species p) -> (forall x p, p_kpoints (g x p) = p_kpoints p) ->
  tri v v (param_block st e nm (pi seen e g)).
Proof.
  intros HP J A B C D. unfold param_block. apply t_when. intros E. apply andb_prop in E as (E & N). intros s H. unfold pi. apply post_bind; [apply ex_convert_i; intros t T X; exact (over_now nm t HP J E N T X)|]. intros x _. apply I_out; auto.
Qed.
Lemma convert_says t z : convert_i t = Ok z -> says z t.
Proof. unfold convert_i, says. destruct t as [t|]; [|congruence]. destruct substrb; [discriminate|]. intros H. apply bind_ok in H as (x & P & H). unfold OutcarModel.to_int in P. destruct (parse_int t) as [y|]; [|discriminate]. exists x. cbn in P. split; congruence. Qed.
Lemma s_ispin : inside "parameters" h' = true -> tri (UU i n) (UU (if st && name_is e "ISPIN" then start_text seen e else i) n) (param_block st e "ISPIN" (pi seen e set_p_ispin)).
Proof.
  intros HP. unfold param_block. destruct (st && name_is e "ISPIN") eqn:E; [|apply t_pass]. apply andb_prop in E as (E & N). cbn [when_]. intros s (X & O & (Y1 & Y2 & Y3 & Y4) & Z). unfold pi. apply post_bind; [apply ex_convert_i; intros t T W; eapply over_now; eauto; cbn; tauto|].
  intros x W. apply convert_says in W. split; [exact X|]. split; [exact O|]. split; [|exact Z]. split; [exact W|]. split; [exact Y2|]. split; [exact Y3|exact Y4].
Qed.
Lemma s_nbands : inside "parameters" h' = true -> tri (UU i n) (UU i (if st && name_is e "NBANDS" then start_text seen e else n)) (param_block st e "NBANDS" (pi seen e set_p_nbands)).
Proof.
  intros HP. unfold param_block. destruct (st && name_is e "NBANDS") eqn:E; [|apply t_pass]. apply andb_prop in E as (E & N). cbn [when_]. intros s (X & O & (Y1 & Y2 & Y3 & Y4) & Z). unfold pi. apply post_bind; [apply ex_convert_i; intros t T W; eapply over_now; eauto; cbn; tauto|].
  intros x W. apply convert_says in W. split; [exact X|]. split; [exact O|]. split; [|exact Z]. split; [exact Y1|]. split; [exact W|]. split; [exact Y3|exact Y4].
Qed.
Lemma s_nelm v : inside "parameters" h' = true -> tri v v (param_block st e "NELM" (nelm_block seen parent e)).
Proof.
  intros HP s H. unfold param_block. destruct (st && name_is e "NELM") eqn:E; [|exact H]. cbn [when_]. unfold nelm_block. destruct parent as [a|] eqn:EP; [|exact Logic.I]. destruct opt_is; [|exact H]. rewrite <- EP in *.
  assert (tri v v (param_block st e "NELM" (pi seen e set_p_nelm))) as K by (apply s_pi; auto; cbn; tauto). specialize (K s H). unfold param_block in K. rewrite E in K. exact K.
Qed.
End Step.
Section Step2.
Variables (kbb st seen : bool) (parent : option (list (string * string))) (e : xml) (h : list event).
Notation ev := (ev_ st seen parent e).
Notation h' := (h ++ [ev]).
Notation tri := (tri st seen parent e h).
Notation post := (post st seen parent e h).
Variables (calc mesh : bool) (i n : option str) (nosp nokp : Prop) (sc : bool) (op : string -> bool) (any : string -> xml -> Prop) (count : nat -> Prop).
Notation UU par i n := (U h' par calc mesh i n nosp nokp sc op any count).
Lemma s_params : i = setting "ISPIN" h -> n = setting "NBANDS" h ->
  tri (UU (inside "parameters" h') i n) (UU (inside "parameters" h') (setting "ISPIN" h') (setting "NBANDS" h')) (guard (is_on fParameters) (parameters_block st seen parent e)).
Proof.
  intros EI EN. destruct (inside "parameters" h') eqn:HP.
  - assert (tri (UU true i n) (UU true (setting "ISPIN" h') (setting "NBANDS" h')) (parameters_block st seen parent e)) as K.
    { assert (forall nm o, (if st && name_is e nm then start_text seen e else o) = match ev with Start s _ f => if inside "parameters" h' && opt_is nm (attr f "name") then (if s then text f else None) else o | End _ => o end) as E.
      { intros nm o. rewrite HP. unfold ev_, name_is, start_text. destruct st; reflexivity. }
      unfold parameters_block. rewrite !setting_snoc, <- EI, <- EN, <- (E "ISPIN"%string), <- (E "NBANDS"%string).
      apply t_seq with (UU true i n); [apply s_pf; auto; cbn; tauto|].
      apply t_seq with (UU true (if st && name_is e "ISPIN" then start_text seen e else i) n); [apply s_ispin; exact HP|]. generalize (if st && name_is e "ISPIN" then start_text seen e else i). intros i'.
      apply t_seq with (UU true i' n); [apply s_pi; auto; cbn; tauto|]. apply t_seq with (UU true i' n); [apply s_pf; auto; cbn; tauto|].
      apply t_seq with (UU true i' (if st && name_is e "NBANDS" then start_text seen e else n)); [apply s_nbands; exact HP|]. generalize (if st && name_is e "NBANDS" then start_text seen e else n). intros n'.
      apply t_seq with (UU true i' n'); [apply s_pf; auto; cbn; tauto|].
      apply t_seq with (UU true i' n'); [unfold param_block; apply t_when; intros _; apply t_do; intros s H; apply I_out; auto|].
      apply t_seq with (UU true i' n'); [apply s_nelm; exact HP|]. apply s_pi; auto; cbn; tauto. }
    intros s H. unfold guard. pose proof H as ((X & _) & _). rewrite X. cbn [w_par U]. apply K. exact H.
  - intros s H. unfold guard. pose proof H as ((X & _) & _). rewrite X. cbn [w_par U]. cbn. revert H. rewrite !setting_snoc, <- EI, <- EN, HP. cbn [andb]. unfold ev_. destruct st; exact (fun H => H).
Qed.
Lemma s_energy_flags par : calc = true -> tri (UU par i n) (U h' par calc mesh i n nosp nokp (switch "scstep" sc ev) op any count) (energy_flags st e).
Proof.
  intros _. unfold energy_flags. apply t_seq with (UU par i n). { apply t_guard, t_when. intros C. apply t_do. intros s H. apply I_on; [oth|exact H]. }
  apply t_seq with (UU par i n). { apply t_guard, t_when. intros C. apply t_do. intros s H. apply I_off; [pl|exact H]. }
  intros s ((X1 & X2 & X3 & X4 & X5) & (O1 & O) & Y). rewrite sw. unfold flag_from, seqb_. destruct (start st e "scstep") eqn:S1; [rewrite (se _ _ _ S1)|destruct (ends st e "scstep")]; cbn [when_ bind pass do_]; unfold pass, do_; cbn [bind post]; (split; [|split; [split|exact Y]]); unfold U; cbn [w_par w_calc w_mesh w_ispin w_nbands w_nosp w_nokp w_sc w_open w_row w_any w_fermi w_dos w_fine w_count]; rewrite ?is_on_same, ?is_off_same, ?is_on_on, ?is_on_off by discriminate; repeat (split; try assumption); try assumption; try reflexivity; try apply O.
Qed.
End Step2.
Section Step3.
Variables (kbb st seen : bool) (parent : option (list (string * string))) (e : xml) (h : list event).
Notation ev := (ev_ st seen parent e).
Notation h' := (h ++ [ev]).
Notation tri := (tri st seen parent e h).
Notation post := (post st seen parent e h).
Variables (par mesh : bool) (i n : option str) (nosp nokp : Prop) (count : nat -> Prop).
Notation W op any := (U h' par true mesh i n nosp nokp true op any count).
Definition put_ {A} (key : string) (a : A) (f : string -> A) : string -> A := fun k => if String.eqb k key then a else f k.
Definition opened (key : string) (b : bool) : bool := switch_named "i" key b ev.
Ltac vw := unfold U; cbn [w_par w_calc w_mesh w_ispin w_nbands w_nosp w_nokp w_sc w_open w_row w_any w_fermi w_dos w_fine w_count].
(** the two assignments to the flag [f] of [key] *)
Lemma named_flag key b : (start st e "i" = true -> attr e "name" <> None) -> (ends st e "i" = true -> attr e "name" <> None) ->
  opened key b = if start st e "i" && name_is e key then true else if ends st e "i" && name_is e key then false else b.
Proof.
  intros A B. unfold opened, switch_named, ev_, is_named, start, ends, name_is. destruct st; cbn [negb andb]; destruct (String.eqb "i" (tag e)); reflexivity.
Qed.
Lemma flag_run (f : N) key s s' : (when_ (start st e "i") (named e key (do_ (on f))) >> when_ (ends st e "i") (named e key (do_ (off f)))) s = Ok s' ->
  s' = if start st e "i" && name_is e key then on f s else if ends st e "i" && name_is e key then off f s else s.
Proof.
  unfold seqb_, name_is, named, start, ends. destruct st; cbn [negb andb when_]; (destruct (String.eqb "i" (tag e)); cbn [andb when_]); unfold pass, do_; cbn [bind]; try congruence; destruct (attr e "name") as [m|]; cbn [bind]; try discriminate; cbn [opt_is]; destruct (String.eqb key m); cbn [bind]; congruence.
Qed.
Lemma flag_noexit (f : N) key s c : (when_ (start st e "i") (named e key (do_ (on f))) >> when_ (ends st e "i") (named e key (do_ (off f)))) s <> Exn (SysExit c).
Proof.
  unfold seqb_, named, start, ends. destruct st; cbn [negb andb when_]; (destruct (String.eqb "i" (tag e)); cbn [andb when_]); unfold pass, do_; cbn [bind]; try congruence; destruct (attr e "name") as [m|]; cbn [bind]; try discriminate; destruct (String.eqb key m); cbn [bind]; congruence.
Qed.
Variables (op : string -> bool) (any any' : string -> xml -> Prop).
Definition state_after (f : N) (key : string) (s : est) : est := if start st e "i" && name_is e key then on f s else if ends st e "i" && name_is e key then off f s else s.
Lemma after_flag f key s : is_on f s = op key -> is_on f (state_after f key s) = opened key (op key).
Proof.
  intros E. unfold state_after, opened, switch_named, ev_, is_named, start, ends, name_is. destruct st; cbn [negb andb]; destruct (String.eqb "i" (tag e)); cbn [andb]; try exact E; destruct (opt_is key (attr e "name")); rewrite ?is_on_same, ?is_off_same; auto.
Qed.
Lemma after_other f key g s : g <> f -> is_on g (state_after f key s) = is_on g s.
Proof. intros N. unfold state_after. destruct andb; [apply is_on_on; exact N|]. destruct andb; [apply is_on_off; exact N|reflexivity]. Qed.
Lemma after_rest f key s : s_out (state_after f key s) = s_out s /\ s_data (state_after f key s) = s_data s /\ s_data2 (state_after f key s) = s_data2 s /\ s_data3 (state_after f key s) = s_data3 s /\ s_data4 (state_after f key s) = s_data4 s /\ s_data5 (state_after f key s) = s_data5 s /\ s_data6 (state_after f key s) = s_data6 s.
Proof. unfold state_after. destruct andb; [repeat split|]. destruct andb; repeat split. Qed.
Lemma s_one f key add : (forall s, I (W op any) s -> is_on f s = op key) -> (opened key (op key) = true -> any' key e) ->
  (forall s, I (W op any) s -> I (W (put_ key (opened key (op key)) op) any) (state_after f key s)) ->
  (forall s o, any' key e -> I (W o any) s -> I (W o (put_ key (any' key) any)) (add s)) -> (forall s o, I (W o any) s -> I (W o (put_ key (any' key) any)) s) ->
  tri (W op any) (W (put_ key (opened key (op key)) op) (put_ key (any' key) any)) (scstep_one st e key f add).
Proof.
  intros A B C D D' s H. unfold scstep_one, seqb_.
  destruct ((when_ (start st e "i") (named e key (do_ (on f))) >> when_ (ends st e "i") (named e key (do_ (off f)))) s) as [s1|x] eqn:E.
  - pose proof (flag_run _ _ _ _ E) as E1. fold (state_after f key s) in E1. unfold seqb_ in E.
    destruct (when_ (start st e "i") (named e key (do_ (on f))) s) as [s0|]; cbn [bind] in *; [|discriminate E]. rewrite E. cbn [bind]. rewrite E1. specialize (C s H). unfold guard. rewrite (after_flag f key s (A s H)).
    destruct (opened key (op key)) eqn:O; cbn; [|apply D', C]. apply D; [exact (B eq_refl)|exact C].
  - unfold seqb_ in E. destruct (when_ (start st e "i") (named e key (do_ (on f))) s) as [s0|x0] eqn:E0; cbn [bind] in *.
    + rewrite E. cbn [bind]. cbn. destruct x; try exact Logic.I. exfalso. eapply (flag_noexit f key s). unfold seqb_. rewrite E0. exact E.
    + cbn. destruct x0; try exact Logic.I. exfalso. eapply (flag_noexit f key s). unfold seqb_. rewrite E0. reflexivity.
Qed.
End Step3.
Section Step4.
Variables (kbb st seen : bool) (parent : option (list (string * string))) (e : xml) (h : list event).
Notation ev := (ev_ st seen parent e).
Notation h' := (h ++ [ev]).
Notation tri := (tri st seen parent e h).
Variables (par mesh : bool) (i n : option str) (nosp nokp : Prop) (count : nat -> Prop).
Notation W sc op any := (U h' par true mesh i n nosp nokp sc op any count).
Notation "'opened_'" := (opened st seen parent e).
Lemma s_e0 op (any : string -> xml -> Prop) (any' : xml -> Prop) : (forall x, any "e_0_energy"%string x -> any' x) -> (opened_ "e_0_energy" (op "e_0_energy"%string) = true -> any' e) ->
  tri (W true op any) (W true (put_ "e_0_energy" (opened_ "e_0_energy" (op "e_0_energy"%string)) op) (put_ "e_0_energy" any' any)) (scstep_one st e "e_0_energy" fE0 (fun s => set_s_data3 (s_data3 s ++ [e]) s)).
Proof.
  intros M N. apply (s_one st seen parent e h par mesh i n nosp nokp count op any (fun _ => any')).
  - intros s (_ & O & _). apply O.
  - exact N.
  - intros s ((X1 & X2 & X3 & X4 & X5) & (O1 & O2 & O3 & O4) & Y & Z). destruct (after_rest st e fE0 "e_0_energy" s) as (R1 & R2 & R3 & R4 & R5 & R6 & R7).
    unfold I. rewrite R1, R2, R3, R4, R5, R6, R7. rewrite (after_other st e fE0 "e_0_energy" fParameters s), (after_other st e fE0 "e_0_energy" fCalculation s), (after_other st e fE0 "e_0_energy" fKdata s), (after_other st e fE0 "e_0_energy" fDos s), (after_other st e fE0 "e_0_energy" fDosSpecific s), (after_other st e fE0 "e_0_energy" fScstep s), (after_other st e fE0 "e_0_energy" fEfr s), (after_other st e fE0 "e_0_energy" fEwo s) by discriminate. split; [repeat (split; [assumption|]); assumption|]. split; [|split; [exact Y|exact Z]].
    split; [exact O1|]. split; [change (is_on fE0 (state_after st e fE0 "e_0_energy" s) = opened st seen parent e "e_0_energy" (op "e_0_energy"%string)); apply after_flag; exact O2|]. split; [exact O3|exact O4].
  - intros s o A (X & O & Y & (D1 & D2 & D3 & D4 & D5 & D6)). split; [exact X|]. split; [exact O|]. split; [exact Y|]. split; [exact D1|]. split; [exact D2|]. split; [|split; [exact D4|split; [exact D5|exact D6]]].
    apply Forall_app. split; [revert D3; apply Forall_impl; exact M|constructor; [exact A|constructor]].
  - intros s o (X & O & Y & (D1 & D2 & D3 & D4 & D5 & D6)). split; [exact X|]. split; [exact O|]. split; [exact Y|]. split; [exact D1|]. split; [exact D2|]. split; [|split; [exact D4|split; [exact D5|exact D6]]].
    revert D3. apply Forall_impl. exact M.
Qed.
Lemma s_efr op (any : string -> xml -> Prop) (any' : xml -> Prop) : (forall x, any "e_fr_energy"%string x -> any' x) -> (opened_ "e_fr_energy" (op "e_fr_energy"%string) = true -> any' e) ->
  tri (W true op any) (W true (put_ "e_fr_energy" (opened_ "e_fr_energy" (op "e_fr_energy"%string)) op) (put_ "e_fr_energy" any' any)) (scstep_one st e "e_fr_energy" fEfr (fun s => set_s_data4 (s_data4 s ++ [e]) s)).
Proof.
  intros M N. apply (s_one st seen parent e h par mesh i n nosp nokp count op any (fun _ => any')).
  - intros s (_ & O & _). apply O.
  - exact N.
  - intros s ((X1 & X2 & X3 & X4 & X5) & (O1 & O2 & O3 & O4) & Y & Z). destruct (after_rest st e fEfr "e_fr_energy" s) as (R1 & R2 & R3 & R4 & R5 & R6 & R7).
    unfold I. rewrite R1, R2, R3, R4, R5, R6, R7. rewrite (after_other st e fEfr "e_fr_energy" fParameters s), (after_other st e fEfr "e_fr_energy" fCalculation s), (after_other st e fEfr "e_fr_energy" fKdata s), (after_other st e fEfr "e_fr_energy" fDos s), (after_other st e fEfr "e_fr_energy" fDosSpecific s), (after_other st e fEfr "e_fr_energy" fScstep s), (after_other st e fEfr "e_fr_energy" fE0 s), (after_other st e fEfr "e_fr_energy" fEwo s) by discriminate. split; [repeat (split; [assumption|]); assumption|]. split; [|split; [exact Y|exact Z]].
    split; [exact O1|]. split; [exact O2|]. split; [change (is_on fEfr (state_after st e fEfr "e_fr_energy" s) = opened st seen parent e "e_fr_energy" (op "e_fr_energy"%string)); apply after_flag; exact O3|exact O4].
  - intros s o A (X & O & Y & (D1 & D2 & D3 & D4 & D5 & D6)). split; [exact X|]. split; [exact O|]. split; [exact Y|]. split; [exact D1|]. split; [exact D2|]. split; [exact D3|]. split; [|split; [exact D5|exact D6]].
    apply Forall_app. split; [revert D4; apply Forall_impl; exact M|constructor; [exact A|constructor]].
  - intros s o (X & O & Y & (D1 & D2 & D3 & D4 & D5 & D6)). split; [exact X|]. split; [exact O|]. split; [exact Y|]. split; [exact D1|]. split; [exact D2|]. split; [exact D3|]. split; [|split; [exact D5|exact D6]].
    revert D4. apply Forall_impl. exact M.
Qed.
Lemma s_ewo op (any : string -> xml -> Prop) (any' : xml -> Prop) : (forall x, any "e_wo_entrp"%string x -> any' x) -> (opened_ "e_wo_entrp" (op "e_wo_entrp"%string) = true -> any' e) ->
  tri (W true op any) (W true (put_ "e_wo_entrp" (opened_ "e_wo_entrp" (op "e_wo_entrp"%string)) op) (put_ "e_wo_entrp" any' any)) (scstep_one st e "e_wo_entrp" fEwo (fun s => set_s_data5 (s_data5 s ++ [e]) s)).
Proof.
  intros M N. apply (s_one st seen parent e h par mesh i n nosp nokp count op any (fun _ => any')).
  - intros s (_ & O & _). apply O.
  - exact N.
  - intros s ((X1 & X2 & X3 & X4 & X5) & (O1 & O2 & O3 & O4) & Y & Z). destruct (after_rest st e fEwo "e_wo_entrp" s) as (R1 & R2 & R3 & R4 & R5 & R6 & R7).
    unfold I. rewrite R1, R2, R3, R4, R5, R6, R7. rewrite (after_other st e fEwo "e_wo_entrp" fParameters s), (after_other st e fEwo "e_wo_entrp" fCalculation s), (after_other st e fEwo "e_wo_entrp" fKdata s), (after_other st e fEwo "e_wo_entrp" fDos s), (after_other st e fEwo "e_wo_entrp" fDosSpecific s), (after_other st e fEwo "e_wo_entrp" fScstep s), (after_other st e fEwo "e_wo_entrp" fE0 s), (after_other st e fEwo "e_wo_entrp" fEfr s) by discriminate. split; [repeat (split; [assumption|]); assumption|]. split; [|split; [exact Y|exact Z]].
    split; [exact O1|]. split; [exact O2|]. split; [exact O3|change (is_on fEwo (state_after st e fEwo "e_wo_entrp" s) = opened st seen parent e "e_wo_entrp" (op "e_wo_entrp"%string)); apply after_flag; exact O4].
  - intros s o A (X & O & Y & (D1 & D2 & D3 & D4 & D5 & D6)). split; [exact X|]. split; [exact O|]. split; [exact Y|]. split; [exact D1|]. split; [exact D2|]. split; [exact D3|]. split; [exact D4|]. split; [|exact D6].
    apply Forall_app. split; [revert D5; apply Forall_impl; exact M|constructor; [exact A|constructor]].
  - intros s o (X & O & Y & (D1 & D2 & D3 & D4 & D5 & D6)). split; [exact X|]. split; [exact O|]. split; [exact Y|]. split; [exact D1|]. split; [exact D2|]. split; [exact D3|]. split; [exact D4|]. split; [|exact D6].
    revert D5. apply Forall_impl. exact M.
Qed.
Lemma s_scstep : inside "calculation" h' = true -> tri (W (scstep_of h') (open_of h) (energies_of h)) (W (scstep_of h') (open_of h') (energies_of h')) (scstep_block st e).
Proof.
  intros HC s H. unfold scstep_block, guard. pose proof H as (_ & (O & _) & _). rewrite O. cbn [w_sc U]. destruct (scstep_of h') eqn:SC.
  - assert (forall key, open_of h' key = opened_ key (open_of h key)) as EO by (intros key; rewrite open_snoc, HC, SC; reflexivity).
    assert (forall key, opened_ key (open_of h key) = true -> energies_of h' key e) as EN.
    { intros key B. exists h, ev, []. split; [reflexivity|]. split; [unfold ev_, element_of; destruct st; reflexivity|]. rewrite collecting_is, HC, SC, EO, B. reflexivity. }
    assert (forall key x, energies_of h key x -> energies_of h' key x) as EM by (intros key x; apply step_energy_snoc).
    set (o1 := put_ "e_0_energy" (opened_ "e_0_energy" (open_of h "e_0_energy")) (open_of h)). set (a1 := put_ "e_0_energy" (energies_of h' "e_0_energy") (energies_of h)).
    set (o2 := put_ "e_fr_energy" (opened_ "e_fr_energy" (o1 "e_fr_energy"%string)) o1). set (a2 := put_ "e_fr_energy" (energies_of h' "e_fr_energy") a1).
    set (o3 := put_ "e_wo_entrp" (opened_ "e_wo_entrp" (o2 "e_wo_entrp"%string)) o2). set (a3 := put_ "e_wo_entrp" (energies_of h' "e_wo_entrp") a2).
    assert (tri (W true (open_of h) (energies_of h)) (W true o3 a3)
      (scstep_one st e "e_0_energy" fE0 (fun s => set_s_data3 (s_data3 s ++ [e]) s) >> scstep_one st e "e_fr_energy" fEfr (fun s => set_s_data4 (s_data4 s ++ [e]) s) >> scstep_one st e "e_wo_entrp" fEwo (fun s => set_s_data5 (s_data5 s ++ [e]) s))) as K.
    { apply t_seq with (W true o1 a1); [exact (s_e0 (open_of h) (energies_of h) (energies_of h' "e_0_energy") (EM _) (EN _))|]. apply t_seq with (W true o2 a2); [exact (s_efr o1 a1 (energies_of h' "e_fr_energy") (EM _) (EN _))|]. exact (s_ewo o2 a2 (energies_of h' "e_wo_entrp") (EM _) (EN _)). }
    specialize (K s H). unfold post in K |- *. match type of K with match ?r with _ => _ end => destruct r as [s'|x]; [|exact K] end. destruct K as (X & (O1 & O2 & O3 & O4) & Y & Z). split; [exact X|]. split; [|split; [exact Y|exact Z]].
    split; [exact O1|]. cbn [w_open U] in *. rewrite !EO. split; [exact O2|]. split; [exact O3|exact O4].
  - cbn [post]. destruct H as (X & (O1 & O2 & O3 & O4) & Y & (D1 & D2 & D3 & D4 & D5 & D6)). cbn [w_open U] in *.
    assert (forall key, open_of h' key = open_of h key) as EO by (intros key; rewrite open_snoc, SC, andb_false_r; reflexivity).
    assert (forall key x, energies_of h key x -> energies_of h' key x) as EM by (intros key x; apply step_energy_snoc).
    split; [exact X|]. split; [cbn [w_open w_sc U]; rewrite !EO; auto|]. split; [exact Y|]. split; [exact D1|]. split; [exact D2|]. split; [revert D3; apply Forall_impl, EM|]. split; [revert D4; apply Forall_impl, EM|]. split; [revert D5; apply Forall_impl, EM|exact D6].
Qed.
End Step4.
Section Step5.
Variables (kbb st seen : bool) (parent : option (list (string * string))) (e : xml) (h : list event).
Notation ev := (ev_ st seen parent e).
Notation h' := (h ++ [ev]).
Notation tri := (tri st seen parent e h).
Notation V1 nokp sc op any count := (U h' (inside "parameters" h') (inside "calculation" h') (inside_mesh h') (setting "ISPIN" h') (setting "NBANDS" h') (noatoms h') nokp sc op any count).
Lemma started_end P : st = false -> started P h' -> started P h.
Proof. intros C X. apply started_snoc in X as [X|X]; [exact X|]. rewrite (ends_Q st seen parent e C) in X. destruct X. Qed.
Lemma view_good' (nokp : Prop) sc op any (count : nat -> Prop) : (nokp -> ~ mesh_read h) -> count 0 -> (st = false -> forall n, count n -> few h n) -> good st e h (V1 nokp sc op any count).
Proof.
  intros HN HC0 HCN.
  constructor; cbn [w_par w_calc w_mesh w_ispin w_nbands w_nosp w_nokp w_sc w_open w_row w_any w_fermi w_dos w_fine w_count U].
  - intros C. rewrite inside_snoc, sw. unfold start, ends. rewrite C. cbn [negb andb]. destruct (String.eqb "calculation" (tag e)); [intros Z; discriminate Z|auto].
  - intros C. rewrite setting_snoc, (ends_Q st seen parent e C). reflexivity.
  - intros C. rewrite setting_snoc, (ends_Q st seen parent e C). reflexivity.
  - intros N X. apply N, ended_mono, X.
  - auto.
  - intros x X C. exact (started_end _ C X).
  - intros C R. apply started_snoc. right. unfold ev_. rewrite C. auto.
  - intros C R. apply started_snoc. right. unfold ev_. rewrite C. exact R.
  - intros C R. apply started_snoc. right. unfold ev_. rewrite C. exact R.
  - intros x X C. exact (started_end _ C X).
  - exact HC0.
  - intros k KC L C. destruct (HCN C k KC) as [K|(A & B & K)]; [left; lia|]. right. split; [lia|auto].
Qed.
Lemma view_good sc op any : good st e h (V1 (~ mesh_read h) sc op any (few h)).
Proof. apply view_good'; auto. left. lia. Qed.
Lemma s_calculation : tri (V1 (~ mesh_read h) (scstep_of h) (open_of h) (energies_of h) (few h)) (V1 (~ mesh_read h) (scstep_of h') (open_of h') (energies_of h') (few h)) (calculation_block kbb st seen e).
Proof.
  assert (forall key x, energies_of h key x -> energies_of h' key x) as EM by (intros key x; apply step_energy_snoc).
  intros s H. unfold calculation_block. unfold guard at 1. pose proof H as ((_ & X & _) & _). rewrite X. cbn [w_calc U]. destruct (inside "calculation" h') eqn:HC.
  - assert (forall sc op any, good st e h (U h' (inside "parameters" h') true (inside_mesh h') (setting "ISPIN" h') (setting "NBANDS" h') (noatoms h') (~ mesh_read h) sc op any (few h))) as G by (intros sc op any; pose proof (view_good sc op any) as X0; rewrite HC in X0; exact X0).
    revert s H X. intros s H _. revert s H. apply t_seq with (1 := t_dos_block st seen parent e h _ (G _ _ _) eq_refl). apply t_seq with (1 := t_forces st seen parent e h _ ).
    apply t_seq with (1 := s_energy_flags st seen parent e h true _ _ _ _ _ _ _ _ _ _ eq_refl).
    rewrite scstep_snoc, HC.
    apply t_seq with (1 := t_eigen_block kbb st seen parent e h _ (G _ _ _) eq_refl). apply t_seq with (1 := t_diel st seen parent e h _ (G _ _ _) eq_refl).
    assert (switch "scstep" (scstep_of h) ev = scstep_of h') as ES by (rewrite scstep_snoc, HC; reflexivity). rewrite ES.
    apply t_seq with (1 := s_scstep st seen parent e h _ _ _ _ _ _ _ HC).
    apply t_after; [apply G|reflexivity].
  - cbn [post]. destruct H as (X' & (O1 & O2 & O3 & O4) & Y & (D1 & D2 & D3 & D4 & D5 & D6)). cbn [w_open w_sc U] in *.
    assert (scstep_of h' = scstep_of h) as ES by (rewrite scstep_snoc, HC; reflexivity).
    assert (forall key, open_of h' key = open_of h key) as EO by (intros key; rewrite open_snoc, HC; reflexivity).
    split; [exact X'|]. split; [cbn [w_open w_sc U]; rewrite ES, !EO; auto|]. split; [exact Y|]. split; [exact D1|]. split; [exact D2|]. split; [revert D3; apply Forall_impl, EM|]. split; [revert D4; apply Forall_impl, EM|]. split; [revert D5; apply Forall_impl, EM|exact D6].
Qed.
Lemma mesh_read_inv : mesh_read h' -> mesh_read h \/ (st = false /\ named_as "varray" "kpointlist" e /\ inside_mesh h' = true).
Proof.
  intros (h1 & x & h2 & E & N & M). destruct h2 as [|y h2 _] using rev_ind.
  - apply app_inj_tail in E as (E1 & E2). right. unfold ev_ in *. destruct st; [discriminate E2|]. injection E2 as ->. rewrite E1 at 1. auto.
  - rewrite app_comm_cons, app_assoc in E. apply app_inj_tail in E as (E1 & _). left. exists h1, x, h2. auto.
Qed.
Ltac wh := apply t_when; intros C.
Lemma s_kpoints sc op any : tri (V1 (~ mesh_read h) sc op any (few h)) (V1 (~ mesh_read h') sc op any (few h)) (kpoints_block st seen e).
Proof.
  pose proof (view_good sc op any) as G.
  assert (good st e h (V1 (~ mesh_read h') sc op any (few h))) as G'.
  { apply view_good'; [intros N X; apply N, mesh_read_snoc; auto|left; lia|auto]. }
  intros s H. unfold kpoints_block, guard at 1. pose proof H as ((_ & _ & X & _) & _). rewrite X. cbn [w_mesh U]. destruct (inside_mesh h') eqn:HM.
  - revert s H X. intros s H _. revert s H.
    eapply t_seq. { wh. intros s H. apply post_bind; [apply ex_int|]. intros a _. apply I_out with (5 := H); reflexivity. }
    eapply t_seq. { wh. apply t_do. intros s H. apply I_on; [oth|exact H]. }
    apply t_seq with (U h' (inside "parameters" h') (inside "calculation" h') true (setting "ISPIN" h') (setting "NBANDS" h') (noatoms h') (~ mesh_read h') sc op any (few h)).
    { destruct (ends st e "varray" && name_is e "kpointlist") eqn:E; cbn [when_]; intros s H.
      - apply post_bind; [apply ex_convert2D|]. intros m _. cbn [post]. apply I_off; [pl|]. apply I_clear. destruct H as (X & O & (Y1 & Y2 & Y3 & Y4) & Z). split; [exact X|]. split; [exact O|]. split; [|exact Z]. split; [exact Y1|]. split; [exact Y2|]. split; [exact Y3|]. intros D. discriminate D.
      - cbn. apply (I_view _ _ _ H); auto. cbn [w_nokp U]. intros _ N M. apply mesh_read_inv in M as [M|(C & (T & A) & _)]; [exact (N M)|]. unfold ends, name_is, opt_is in E. rewrite C, T, A in E. cbn in E. discriminate E. }
    try rewrite HM in G'.
    eapply t_seq. { wh. apply t_do. intros s H. apply I_on; [oth|exact H]. }
    eapply t_seq. { wh. apply ends_named in C as (C & N). intros s H. apply post_bind; [apply (q_1D st seen parent e h _ G' s H C); auto|]. intros a _. apply I_off; [pl|]. apply I_clear. apply I_out with (5 := H); reflexivity. }
    eapply t_seq; [apply (t_collect st seen parent e h _ G'); cbn; auto|]. apply (t_collect st seen parent e h _ G'); cbn; auto.
  - cbn [post]. apply (I_view _ _ _ H); auto. cbn [w_nokp U]. intros _ N M. apply mesh_read_inv in M as [M|(_ & _ & M)]; [exact (N M)|congruence].
Qed.
Definition pushed : bool := start st e "i" && name_is e "efermi".
Definition mid (k : nat) : Prop := if pushed then k <= fermis h \/ (started the_dos h' /\ k <= fermis h + 1) \/ (started the_dos h' /\ started fine_dos h' /\ k <= 2 * fermis h + 1) else few h k.
Lemma few_mid k : few h k -> mid k.
Proof. unfold mid. destruct pushed; [|auto]. intros [K|(A & B & K)]; [auto|]. right. right. split; [apply started_mono, A|]. split; [apply started_mono, B|lia]. Qed.
Lemma fermis_now : fermis h' = fermis h + if pushed then 1 else 0.
Proof. rewrite fermis_snoc. unfold ev_, pushed, start, name_is. destruct st; cbn [andb]; [reflexivity|lia]. Qed.
Lemma mid_few k : mid k -> few h' k.
Proof.
  unfold few. rewrite fermis_now. unfold mid. destruct pushed.
  - intros [K|[(A & K)|(A & B & K)]]; [left; lia|left; lia|]. right. split; [exact A|]. split; [exact B|lia].
  - intros [K|(A & B & K)]; [left; lia|]. right. split; [apply started_mono, A|]. split; [apply started_mono, B|lia].
Qed.
Lemma I_fermi (v w : view) s : w_par w = w_par v -> w_calc w = w_calc v -> w_mesh w = w_mesh v -> w_ispin w = w_ispin v -> w_nbands w = w_nbands v -> w_sc w = w_sc v -> w_open w = w_open v -> w_nosp w = w_nosp v -> w_nokp w = w_nokp v ->
  w_row w = w_row v -> w_any w = w_any v -> w_fermi w = w_fermi v -> w_dos w = w_dos v -> w_fine w = w_fine v -> w_fermi w e -> (w_count v (length (s_data6 s)) -> w_count w (length (s_data6 s) + 1)) -> I v s -> I w (set_s_data6 (s_data6 s ++ [e]) s).
Proof.
  intros E1 E2 E3 E4 E5 E6 E7 E8 E9 F1 F2 F3 F4 F5 HF F6 (X & O & Y & (A & B & C & D & F & G & K)). unfold I. rewrite E1, E2, E3, E4, E5, E6, E7, E8, E9, F1, F2, F3, F4, F5.
  split; [exact X|]. split; [exact O|]. split; [exact Y|]. do 5 (split; [assumption|]). cbn [s_data6 set_s_data6]. split; [apply Forall_app; split; [exact G|constructor; [rewrite <- F3; exact HF|constructor]]|]. rewrite app_length. apply F6, K.
Qed.
Lemma fermi_row : pushed = true -> started (fun f => named_as "i" "efermi" f /\ f = e) h'.
Proof. unfold pushed. intros P. apply andb_prop in P as (A & B). apply st_start in A as (C & T). apply name_is_eq in B. apply started_snoc. right. unfold ev_. rewrite C. repeat split; auto. Qed.
Lemma s_dos_rows (nokp : Prop) sc op any (c c' : nat -> Prop) f f1 f2 : other f1 -> other f2 -> (nokp -> ~ mesh_read h) ->
  c' 0 -> (st = false -> forall k, c' k -> few h k) -> (forall k, c k -> c' k) -> (pushed = true -> forall s, I (V1 nokp sc op any c) s -> is_on f s = true -> c (length (s_data6 s)) -> c' (length (s_data6 s) + 1)) ->
  tri (V1 nokp sc op any c) (V1 nokp sc op any c') (VasprunEvents.dos_rows st e f f1 f2).
Proof.
  intros O1 O2 N C0 CF CC CP s H. unfold VasprunEvents.dos_rows, guard. assert (I (V1 nokp sc op any c') s) as H' by (apply (I_view _ _ _ H); auto; apply CC).
  pose proof (view_good' nokp sc op any c' N C0 CF) as G. destruct (is_on f s) eqn:E; [|exact H'].
  assert (tri (V1 nokp sc op any c') (V1 nokp sc op any c') (flag_set st e "spin 1" f1 >> flag_set st e "spin 2" f2 >> collect st e f1 "r" >> collect2 st e f2 "r")) as K.
  { eapply t_seq; [apply t_flag_set; exact O1|]. eapply t_seq; [apply t_flag_set; exact O2|]. eapply t_seq; [apply (t_collect st seen parent e h _ G); cbn; auto|]. apply (t_collect2 st seen parent e h _ G); cbn; auto. }
  fold pushed. unfold seqb_ at 1. destruct pushed eqn:P; cbn [when_]; unfold do_, pass; cbn [bind]; apply K; [|exact H'].
  apply (I_fermi (V1 nokp sc op any c)); auto; [apply fermi_row, P|exact (CP eq_refl s H E)].
Qed.
Lemma s_step s : I (V h) s -> post st seen parent e h (V h') (step kbb st seen parent e s).
Proof.
  intros H. apply begin with (st := st) (seen := seen) (parent := parent) (e := e) in H. revert s H. unfold step.
  eapply t_seq; [apply t_flag; oth|]. eapply t_seq; [apply s_par|]. rewrite <- inside_snoc.
  eapply t_seq; [apply s_calc_start|]. eapply t_seq; [apply s_calc_end; reflexivity|].
  assert ((if ends st e "calculation" then false else if start st e "calculation" then true else inside "calculation" h) = inside "calculation" h') as EC.
  { rewrite inside_snoc, sw. destruct (start st e "calculation") eqn:S1; [rewrite (se _ _ _ S1)|]; reflexivity. }
  rewrite EC. eapply t_seq; [apply s_atoms|]. eapply t_seq; [apply s_mesh; reflexivity|]. eapply t_seq; [apply t_flag; oth|].
  eapply t_seq. { apply t_guard. unfold param_block. apply t_when. intros _. apply t_do. intros s H. apply I_out with (5 := H); reflexivity. }
  eapply t_seq; [apply s_params; reflexivity|]. eapply t_seq; [apply s_calculation|].
  eapply t_seq; [apply (t_collect st seen parent e h _ (view_good _ _ _)); cbn; auto|]. eapply t_seq; [apply s_kpoints|].
  assert (~ mesh_read h' -> ~ mesh_read h) as NM by (intros N X; apply N, mesh_read_snoc; auto).
  eapply t_seq; [apply (s_dos_rows _ _ _ _ (few h) mid)|].
  - oth.
  - oth.
  - exact NM.
  - apply few_mid. left. lia.
  - intros C k. unfold mid, pushed, start. rewrite C. auto.
  - exact few_mid.
  - intros P s H O K. unfold mid. rewrite P. destruct H as ((_ & _ & _ & D & _) & _). specialize (D O). cbn [w_dos U] in D. destruct K as [K|(A & B & K)]; [right; left; split; [exact D|lia]|]. right. right. split; [exact D|]. split; [apply started_mono, B|lia].
  - apply (s_dos_rows _ _ _ _ mid (few h')).
    + oth.
    + oth.
    + exact NM.
    + left. lia.
    + intros C k. assert (pushed = false) as PF by (unfold pushed, start; rewrite C; reflexivity). unfold few. rewrite fermis_now, PF, Nat.add_0_r. intros [K|(A & B & K)]; [auto|]. right. split; [exact (started_end _ C A)|]. split; [exact (started_end _ C B)|exact K].
    + exact mid_few.
    + intros P s H O K. unfold mid in K. rewrite P in K. unfold few. rewrite fermis_now, P. destruct H as ((_ & _ & _ & _ & D) & _). specialize (D O). cbn [w_fine U] in D. destruct K as [K|[(A & K)|(A & B & K)]]; [left; lia| |]; (right; split; [exact A|]; split; [exact D|lia]).
Qed.
End Step5.

Lemma at_start : I (V []) start_state.
Proof.
  repeat split; try (intros Z; discriminate Z); try apply Forall_nil.
  - intros _ (x & [] & _).
  - intros _ (h1 & x & h2 & E & _). destruct h1; discriminate E.
  - left. apply le_n.
Qed.
(** Whatever the events are: when the event parser exits, it does so at an event, after the events
    before it, that are the reason for the code *)
Theorem C80_vasprun_event_reasons : forall kbb evs c, parsee kbb evs = Exn (SysExit c) ->
  exists before ev after, evs = before ++ ev :: after /\ event_reason before ev c.
Proof.
  intros kbb evs c H. unfold parsee in H. destruct (run_events kbb evs start_state) as [s|x] eqn:E; [discriminate H|]. injection H as ->.
  assert (forall after before s, I (V before) s -> run_events kbb after s = Exn (SysExit c) -> exists b ev a, before ++ after = b ++ ev :: a /\ event_reason b ev c) as K; [|apply (K evs [] start_state at_start E)].
  clear E evs. induction after as [|v after IH]; intros before s HI HR; [discriminate HR|]. cbn [run_events foldM] in HR. unfold run_events in HR. cbn [foldM] in HR.
  assert (match handle kbb v s with Ok s' => I (V (before ++ [v])) s' | Exn (SysExit z) => event_reason before v z | Exn _ => True end) as P.
  { destruct v as [seen parent e|e]; [exact (s_step kbb true seen parent e before s HI)|exact (s_step kbb false true None e before s HI)]. }
  destruct (handle kbb v s) as [s'|x]; cbn [bind] in HR.
  - destruct (IH (before ++ [v]) s' P HR) as (b & u & a & E & R). exists b, u, a. rewrite <- app_assoc in E. auto.
  - injection HR as ->. exists before, v, after. auto.
Qed.
(** Every code occurs *)
Local Open Scope string_scope.
Local Open Scope list_scope.
Definition exit_of (x : xml) : Z := match parsee false (events None x) with Exn (SysExit c) => c | _ => 0%Z end.
Definition fermi_dos (l : list string) : list xml := [box "dos" (map (i_ "efermi") l)].
Definition steps_of (t : string) : list xml := [box "scstep" [box "energy" [i_ "e_0_energy" t]]].
Definition projection : list xml := [box "projected" (one_band ++ [box "array" [box "set" [comment_ "set" "spin1" [box "set" [box "set" (rs [" 1 2 3 4 5 6 7 8 9 "])]]]]])].
(** with projected bands outside of this parser's order of elements *)
Definition odd_projection : list xml := [box "eigenvelocities" [box "projected" [box "eigenvalues" []; box "array" []]]].
Example c80_event_codes : map exit_of
  [ broken [] [] [] (fermi_dos [" 1.0"; " 2.0"]); broken [] [] [] [box "dos" [box "partial" []]];
    broken (set_params [i_ "NBANDS" " 1"]) one_kpoint [] one_band; broken (set_params [spin_par]) one_kpoint [] one_band;
    broken (set_params [spin_par; i_ "NBANDS" " 1"]) one_kpoint [] projection;
    broken (set_params [spin_par; i_ "NBANDS" " 1"]) [] (atoms_are "Na") odd_projection;
    broken (set_params [spin_par; i_ "NBANDS" " 2"]) one_kpoint (atoms_are "Na") one_band;
    broken [] [] (atoms_are "Xx") []; broken (set_params [i_ "NBANDS" "****"]) [] [] []; broken [] [] [] (fermi_dos ["****"]);
    broken [] [box "kpoints" [named_ "varray" "weights" (vs [" 0.5 0.5 "])]] [] []; broken [] [] [] (steps_of " 1.0 2.0") ]
  = [500; 501; 502; 503; 503; 504; 505; 506; 509; 509; 509; 509]%Z.
Proof. vm_compute. reflexivity. Qed.
