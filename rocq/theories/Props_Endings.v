(** Property C88: the line endings of a file do not matter. *)
From Coq Require Import Ascii String List NArith ZArith QArith Bool Lia Arith.
From Verif Require Import PyBase PyNum PyStrLemmas PyLines UtilsModel.
From Verif Require Import PoscarModel ArithModel KpointsSpec PoscarSpec PoscarRead PoscarRoundTrip PoscarTheorems Props_Poscar.
From Verif Require IncarModel KpointsModel DoscarModel EigenvalModel OutcarModel ChgcarModel PotcarModel StreamModel.
Import ListNotations.
Local Open Scope list_scope.
Local Open Scope bool_scope.
Local Open Scope nat_scope.

(** ** Specification: a text as lines, each with the mark that ends it *)
Inductive ending := LF | CRLF | CR.
Definition mark (e : ending) : str := match e with LF => [nl] | CRLF => [cr; nl] | CR => [cr] end.
(** the lines [ls] with their marks, and a last line without one *)
Fixpoint ended (ls : list (str * ending)) (last : str) : str :=
  match ls with [] => last | (l, e) :: r => l ++ mark e ++ ended r last end.
(** a line holds no mark itself *)
Definition one_piece (l : str) : Prop := ~ In nl l /\ ~ In cr l.
(** a lone CR is not followed by an empty line ended by LF, which would read as a CRLF *)
Fixpoint distinct (ls : list (str * ending)) : Prop :=
  match ls with
  | (_, CR) :: ((([], LF) :: _) as r) => False
  | _ :: r => distinct r
  | [] => True
  end.
(** the same lines, all ended by LF *)
Definition with_lf (ls : list (str * ending)) (last : str) : str := ended (map (fun p => (fst p, LF)) ls) last.

Lemma translate_piece l r : one_piece l -> translate_newlines (l ++ r) = l ++ translate_newlines r.
Proof.
  intros [_ H]. induction l as [|c l IH]; auto. cbn [app translate_newlines]. destruct (aeqb c cr) eqn:E; [exfalso; apply H; left; apply Ascii.eqb_eq; exact E|].
  f_equal. apply IH. intros K. apply H. right. exact K.
Qed.
Lemma translate_lf r : translate_newlines (nl :: r) = nl :: translate_newlines r.
Proof. reflexivity. Qed.
Lemma translate_crlf r : translate_newlines (cr :: nl :: r) = nl :: translate_newlines r.
Proof. reflexivity. Qed.
Lemma translate_cr r : hd_error r <> Some nl -> translate_newlines (cr :: r) = nl :: translate_newlines r.
Proof.
  intros H. cbn [translate_newlines]. change (aeqb cr cr) with true. cbv iota. f_equal. destruct r as [|c r]; auto. destruct (aeqb c nl) eqn:E; auto.
  exfalso. apply H. apply Ascii.eqb_eq in E. subst. reflexivity.
Qed.
Lemma head_ended ls last : distinct (([], CR) :: ls) -> Forall one_piece (map fst ls) -> one_piece last -> hd_error (ended ls last) <> Some nl.
Proof.
  intros D F L. destruct ls as [|[l e] ls]; cbn [ended].
  - destruct last as [|c last]; [discriminate|]. cbn. intros K. injection K as ->. destruct L as [L _]. apply L. left. reflexivity.
  - cbn [map fst] in F. inversion F as [|? ? [H _] _]; subst. destruct l as [|c l]; [|cbn; intros K; injection K as ->; apply H; left; reflexivity].
    destruct e; cbn in *; try discriminate. destruct D.
Qed.
Theorem translate_ended ls last : Forall one_piece (map fst ls) -> one_piece last -> distinct ls -> translate_newlines (ended ls last) = with_lf ls last.
Proof.
  intros F L D. induction ls as [|[l e] ls IH]; [cbn; rewrite <- (app_nil_r last) at 1; rewrite translate_piece, app_nil_r; auto|].
  cbn [map fst] in F. inversion F as [|? ? H F']; subst. unfold with_lf. cbn [map fst ended]. rewrite translate_piece by auto. f_equal. fold (with_lf ls last).
  assert (distinct ls) as D' by (cbn [distinct] in D; destruct e; auto; destruct ls as [|[[|] []] ?]; auto; destruct D).
  destruct e; cbn [mark app]; [rewrite translate_lf|rewrite translate_crlf|rewrite translate_cr]; try (f_equal; apply IH; auto).
  apply head_ended; auto.
Qed.
Lemma with_lf_fixed ls last : Forall one_piece (map fst ls) -> one_piece last -> translate_newlines (with_lf ls last) = with_lf ls last.
Proof.
  intros F L. unfold with_lf at 1. rewrite translate_ended; auto.
  - unfold with_lf. rewrite map_map. reflexivity.
  - rewrite map_map. exact F.
  - clear. induction ls as [|p ls IH]; cbn [map distinct]; auto.
Qed.
(** str.splitlines treats the marks alike too *)
Lemma splitlines_one c r : is_break c = true -> (aeqb c cr = false \/ hd_error r <> Some nl) -> splitlines (c :: r) = [] :: splitlines r.
Proof.
  intros B H. cbn [splitlines]. rewrite B. f_equal. destruct r as [|c' r]; auto. destruct (aeqb c cr); auto. destruct (aeqb c' nl) eqn:E; auto.
  exfalso. destruct H as [H|H]; [discriminate|]. apply H. apply Ascii.eqb_eq in E. subst. reflexivity.
Qed.
Lemma splitlines_other c r : is_break c = false -> splitlines (c :: r) = match r with [] => [[c]] | _ => match splitlines r with [] => [[c]] | w :: ws => (c :: w) :: ws end end.
Proof. intros B. cbn [splitlines]. rewrite B. reflexivity. Qed.
Lemma splitlines_translate t : splitlines (translate_newlines t) = splitlines t.
Proof.
  assert (forall n t, length t <= n -> splitlines (translate_newlines t) = splitlines t) as H; [|apply (H (length t)); auto].
  clear t. induction n as [|n IH]; intros t L; [destruct t; [auto|cbn in L; lia]|]. destruct t as [|c r]; auto. cbn [length] in L.
  destruct (aeqb c cr) eqn:E.
  - apply Ascii.eqb_eq in E. subst c. destruct r as [|c' r'].
    + reflexivity.
    + destruct (aeqb c' nl) eqn:N.
      * apply Ascii.eqb_eq in N. subst c'. rewrite translate_crlf. rewrite splitlines_one by auto. change (splitlines (cr :: nl :: r')) with ([] :: splitlines r'). f_equal. apply IH. cbn in L. lia.
      * assert (hd_error (c' :: r') <> Some nl) as K by (intros K; injection K as ->; discriminate N).
        rewrite translate_cr by exact K. rewrite splitlines_one by auto. rewrite splitlines_one by auto. f_equal. apply IH. lia.
  - assert (translate_newlines (c :: r) = c :: translate_newlines r) as -> by (cbn [translate_newlines]; rewrite E; reflexivity).
    destruct (is_break c) eqn:B.
    + rewrite !splitlines_one by auto. f_equal. apply IH. lia.
    + rewrite !splitlines_other by auto. rewrite IH by lia. destruct r as [|c' r]; auto. cbn [translate_newlines]. destruct (aeqb c' cr); auto.
Qed.
(** Every reader, given the path of a file. *)
Theorem C88_files : forall ls last, Forall one_piece (map fst ls) -> one_piece last -> distinct ls ->
  let a := Some (Some (ended ls last)) in let b := Some (Some (with_lf ls last)) in
  (forall vt, IncarModel.incar_of_file (ended ls last) vt = IncarModel.incar_of_file (with_lf ls last) vt) /\
  KpointsModel.kpoints_of_file (ended ls last) = KpointsModel.kpoints_of_file (with_lf ls last) /\
  (forall A, PoscarModel.poscar_of_file A (ended ls last) = PoscarModel.poscar_of_file A (with_lf ls last)) /\
  (forall nc, DoscarModel.doscar_init a None nc = DoscarModel.doscar_init b None nc) /\
  EigenvalModel.eigenval_init a None = EigenvalModel.eigenval_init b None /\
  OutcarModel.outcar_init a None = OutcarModel.outcar_init b None /\
  (forall A, ChgcarModel.chgcar_init A a None = ChgcarModel.chgcar_init A b None) /\
  PotcarModel.potcar_init a None = PotcarModel.potcar_init b None /\
  (forall R compile search h cfg, StreamModel.stream_init R compile search a None h cfg = StreamModel.stream_init R compile search b None h cfg).
Proof.
  intros ls last F L D a b. assert (translate_newlines (ended ls last) = translate_newlines (with_lf ls last)) as E by (rewrite with_lf_fixed, translate_ended; auto).
  assert (forall c, read_from_file a None c = read_from_file b None c) as R by (intros c; unfold read_from_file, a, b; cbn [file_data]; rewrite E; reflexivity).
  assert (ChgcarModel.read_text a None = ChgcarModel.read_text b None) as T by (unfold a, b; cbn [ChgcarModel.read_text]; rewrite E; reflexivity).
  repeat split.
  - intros vt. unfold IncarModel.incar_of_file, IncarModel.incar_init. cbn [IncarModel.a_string IncarModel.a_dict IncarModel.a_path IncarModel.a_handler IncarModel.read_lines]. rewrite E. reflexivity.
  - unfold KpointsModel.kpoints_of_file, KpointsModel.kpoints_init. cbn [KpointsModel.ka_string KpointsModel.ka_dict KpointsModel.ka_path KpointsModel.ka_handler]. fold a b. rewrite R. reflexivity.
  - intros A. unfold PoscarModel.poscar_of_file, PoscarModel.poscar_init. cbn [PoscarModel.pa_string PoscarModel.pa_dict PoscarModel.pa_path PoscarModel.pa_handler]. fold a b. rewrite R. reflexivity.
  - intros nc. unfold DoscarModel.doscar_init. rewrite R. reflexivity.
  - unfold EigenvalModel.eigenval_init. rewrite R. reflexivity.
  - unfold OutcarModel.outcar_init. rewrite R. reflexivity.
  - intros A. unfold ChgcarModel.chgcar_init. rewrite T. reflexivity.
  - unfold PotcarModel.potcar_init. rewrite T. reflexivity.
  - intros C compile search h cfg. unfold StreamModel.stream_init. change (is_some a) with (is_some b). rewrite R. reflexivity.
Qed.

(** The readers of a string. *)
Theorem C88_strings : forall ls last, Forall one_piece (map fst ls) -> one_piece last -> distinct ls ->
  (forall vt, IncarModel.incar_of_string (ended ls last) vt = IncarModel.incar_of_string (with_lf ls last) vt) /\
  KpointsModel.kpoints_of_string (ended ls last) = KpointsModel.kpoints_of_string (with_lf ls last).
Proof.
  intros ls last F L D. assert (splitlines (ended ls last) = splitlines (with_lf ls last)) as E by (rewrite <- (translate_ended ls last), splitlines_translate; auto).
  split.
  - intros vt. unfold IncarModel.incar_of_string, IncarModel.incar_init. cbn [IncarModel.a_string IncarModel.a_dict IncarModel.a_path IncarModel.a_handler]. rewrite E. reflexivity.
  - unfold KpointsModel.kpoints_of_string, KpointsModel.kpoints_init. cbn [KpointsModel.ka_string KpointsModel.ka_dict KpointsModel.ka_path KpointsModel.ka_handler]. rewrite E. reflexivity.
Qed.

(** A POSCAR given as a string or a handler keeps its CR characters: the blank line before the
    predictors is then not recognised, and the predictors are dropped without a word. *)
Lemma blank_crlf w : blank_line (w ++ [cr; nl]) = false.
Proof.
  unfold blank_line. rewrite filter_app. change (filter (fun c => negb (aeqb c sp)) [cr; nl]) with [cr; nl].
  destruct (filter (fun c => negb (aeqb c sp)) w) as [|a [|b r]]; [reflexivity| |]; destruct (seqb _ _) eqn:E; auto; apply seqb_eq in E; discriminate E.
Qed.
Theorem C88_poscar_predictors_refuted : forall A ch txt es ss, pread A ch txt = Ok es ->
  Forall (fun l => exists w, l = w ++ [cr; nl]) (plines ch txt) -> pholds es "sites" (PSites A (map (SSite A) ss)) ->
  Forall (fun s => si_predictors A s = None) ss.
Proof.
  intros A ch txt es ss R F HS.
  assert (forall i l, nth_error (plines ch txt) i = Some l -> blank_line l = false) as B.
  { intros i l H. apply nth_error_In in H. rewrite Forall_forall in F. destruct (F l H) as [w ->]. apply blank_crlf. }
  assert (forall i l, zat (plines ch txt) i = Ok l -> blank_line l = false) as BZ.
  { intros i l H. unfold zat in H. destruct (KpointsModel.list_index _ i); [|discriminate]. eapply B. apply py_nth_ok. exact H. }
  destruct (pread_reading A _ _ _ R) as (l0 & l1 & l2 & l3 & l4 & sc & r2 & r3 & r4 & spec' & atoms' & sel & dir & fst' & raw & hasv & vd & pred & vel & pre & ss' & RD & BS & HS' & _ & _).
  unfold pholds in *. rewrite HS in HS'. assert (ss' = ss) as -> by (injection HS' as E; clear -E; revert ss' E; induction ss as [|s ss IH]; intros [|s' ss'] E; try discriminate; auto; injection E as -> E; f_equal; auto).
  assert (pre = None) as ->.
  { pose proof (rd_tail _ _ _ _ _ _ _ _ _ _ _ _ _ _ _ _ _ _ _ _ _ _ _ RD) as RT. pose proof (rd_vel _ _ _ _ _ _ _ _ _ _ _ _ _ _ _ _ _ _ _ _ _ _ _ RD) as RV. destruct hasv.
    - destruct RV as (v & _ & _ & RP). unfold read_predictors in RP. destruct (_ <? _)%Z in RP; [|congruence]. apply bind_ok in RP as (l & Hl & RP). rewrite (BZ _ _ Hl) in RP. congruence.
    - destruct RV as [_ RV]. destruct pred; [|auto]. exfalso. unfold read_tail_mode in RT.
      apply bind_ok in RT as ([[v d] pr] & RT1 & RT). assert (pr = false) as ->.
      { destruct (_ <? _)%Z in RT1; [|congruence]. apply bind_ok in RT1 as (l & Hl & RT1). apply bind_ok in RT1 as (c & _ & RT1). rewrite (BZ _ _ Hl) in RT1. destruct (aeqb _ _) in RT1; [congruence|]. destruct (aeqb _ _) in RT1; congruence. }
      destruct (_ <? _)%Z in RT; [|congruence]. apply bind_ok in RT as (l & _ & RT). apply bind_ok in RT as (t & _ & RT). destruct (is_number t); congruence. }
  apply Forall_forall. intros s H. apply In_nth_error in H as [i H]. destruct (built_site_nth A _ _ _ _ _ _ BS H) as (r & _ & ->). reflexivity.
Qed.

(** ** Non-vacuity *)
Definition predictor_lines : list str := map lit ["c"; "1"; "2 0 0"; "0 2 0"; "0 0 2"; "Ga"; "1"; "Direct"; "0 0.5 0"; "Cartesian"; "1 0 0"; ""; "0.5 0.25 0"]%string.
Definition marked (e : ending) : str := ended (map (fun l => (l, e)) predictor_lines) [].
Definition predictors_of (r : res (pentries exact)) : list (option (list Q)) :=
  match r with Ok es => match dget (lit "sites") es with Some (PSites _ l) => map (fun v => match v with SSite _ s => si_predictors exact s | _ => None end) l | _ => [] end | Exn _ => [] end.
Example C88_case : let f r := map (option_map (map Qred)) (predictors_of r) in
  f (pread exact FromFile (marked LF)) = [Some [1 # 2; 1 # 4; 0]%Q] /\ f (pread exact FromFile (marked CRLF)) = [Some [1 # 2; 1 # 4; 0]%Q] /\
  f (pread exact FromFile (marked CR)) = [Some [1 # 2; 1 # 4; 0]%Q] /\
  f (pread exact FromString (marked LF)) = [Some [1 # 2; 1 # 4; 0]%Q] /\ f (pread exact FromString (marked CRLF)) = [None].
Proof. vm_compute. repeat split; reflexivity. Qed.
Example C88_mixed : Forall one_piece (map fst [(lit "a", CR); (lit "b", LF); ([], CRLF); ([], CRLF); ([], LF)]) /\ one_piece (lit "end") /\
  distinct [(lit "a", CR); (lit "b", LF); ([], CRLF); ([], CRLF); ([], LF)] /\
  ended [(lit "a", CR); (lit "b", LF); ([], CRLF); ([], CRLF); ([], LF)] (lit "end") = lit "a" ++ [cr] ++ lit "b" ++ [nl; cr; nl; cr; nl; nl] ++ lit "end".
Proof. repeat split; auto. repeat constructor; cbn; intuition discriminate. all: cbn; intuition discriminate. Qed.
(** An EIGENVAL given as a handler keeps its CR characters too, and "\r\n" at the end of
    a line is an empty line for the expression that separates the k-points. *)
From Verif Require Props_Eigenval.
Definition eigenval_text (e : ending) : str := ended (map (fun l => (lit l, e)) (Props_Eigenval.head_lines ++ Props_Eigenval.body_lines)) [].
Theorem C88_eigenval_handler_refuted : exists lf crlf, lf = eigenval_text LF /\ crlf = eigenval_text CRLF /\
  (exists e, EigenvalModel.eigenval_init (Some (Some crlf)) None = Ok e /\ EigenvalModel.eigenval_init (Some (Some lf)) None = Ok e /\ EigenvalModel.eigenval_init None (Some lf) = Ok e) /\
  EigenvalModel.eigenval_init None (Some crlf) = Exn IndexError.
Proof. do 2 eexists. split; [reflexivity|]. split; [reflexivity|]. split; [eexists; split; [vm_compute; reflexivity|split; vm_compute; reflexivity]|vm_compute; reflexivity]. Qed.
