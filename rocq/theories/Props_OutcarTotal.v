(** C96: exactly which OUTCARs are accepted.  The other OUTCAR theorems say what an accepted
    file is read as; this one says which files are accepted, by conditions on their lines. *)
From Coq Require Import Ascii String List NArith ZArith Bool Lia.
From Verif Require IncarTokens.
From Verif Require Import PyBase PyStrLemmas PyNum PyNumLemmas UtilsModel OutcarModel OutcarSpec OutcarMatch OutcarProofs OutcarScan OutcarStatus OutcarTables OutcarTimings Props_Stream StreamConfig KpointsCodes Props_Outcar.
Import ListNotations.
Local Open Scope list_scope.

(** ** Specification *)
(** [l] is '   KEY  =  text...', [text] a run of digits and minus signs *)
Definition gives (key : string) (l : str) : Prop :=
  exists n m k t r, l = spaces (S n) ++ lit key ++ spaces m ++ lit "=" ++ spaces k ++ t ++ r /\ t <> [] /\ forallb int_char t = true.
Definition one_width (rows : list (list float)) : Prop := forall r r', In r rows -> In r' rows -> length r = length r'.
(** an earlier table of the component [p] has a row.  [before]: the lines before [tail] *)
Definition earlier_row (p : string) (before tail : list str) : Prop :=
  exists b t rows tot, before = b ++ t /\ t <> [] /\ mag_table p (t ++ tail) (rows, tot) /\ rows <> [].
(** the first line of [tail], after the lines [before], is a marker or has everything that
    its kind of line announces *)
Record announced (before tail : list str) (l : str) : Prop := {
  an_param : forall key, In key ["NSW"; "NELM"; "IBRION"]%string -> gives key l -> exists z, assigns key l z;
  an_nbands : has l "NBANDS=" -> exists t z, between (lit "NBANDS=") l t /\ parse_int (strip t) = Some z;
  an_next : forall s, in_section before l s ->
    begins l "Subroutine PRICEL returns" \/ begins l "Routine SETGRP: Setting up the symmetry group for a" -> tl tail <> [];
  an_operations : forall s, in_section before l s -> begins l "Subroutine GETGRP returns" ->
    exists w z, nth_error (split_ws l) 4 = Some w /\ parse_int w = Some z;
  an_elastic : forall h, In h ["ELASTIC MODULI  (kBar)"; "SYMMETRIZED ELASTIC MODULI"; "TOTAL ELASTIC MODULI"]%string -> begins l h ->
    exists rows, table tail rows /\ one_width rows;
  an_mag : forall p, In p ["x"; "y"; "z"]%string -> begins l ("magnetization (" ++ p ++ ")") ->
    exists rows tot, mag_lines (skipn 4 tail) rows tot /\ (tot = None -> rows <> [] \/ earlier_row p before tail);
  an_electrons : begins l "number of electron" -> exists xs, numbers (skipn 5 (split_ws l)) xs }.
Definition line_ok (before tail : list str) : Prop := match tail with [] => True | l :: _ => is_marker l \/ announced before tail l end.
(** some line says something *)
Definition said {V} (P : list str -> V -> Prop) (ls : list str) : Prop := exists before tail v, ls = before ++ tail /\ P tail v.
(** a timing of the closing block has a colon *)
Definition closing_ok (l : str) : Prop := has l "(sec)" \/ has l "(kb)" -> In ":"%char l.
Record acceptable (ls : list str) : Prop := {
  ac_lines : forall before tail, ls = before ++ tail -> line_ok before tail;
  ac_marker : exists l, In l ls /\ is_marker l;
  ac_nelm : said (param "NELM") ls;
  ac_nsw : run_finished ls -> forall ib, last_said (param "IBRION") ls (Some ib) -> (0 < ib)%Z -> said (param "NSW") ls;
  ac_closing : forall before closing, ls = before ++ closing -> length closing <= 50 -> Forall closing_ok closing }.

(** ** Proofs *)
Definition okr {A} (r : res A) : Prop := exists v, r = Ok v.
Lemma okr_Ok {A} (a : A) : okr (Ok a) <-> True. Proof. split; auto. intros _. exists a. auto. Qed.
Lemma okr_Exn {A} e : okr (Exn e : res A) <-> False. Proof. split; [intros [v H]; discriminate|tauto]. Qed.
Lemma okr_bind {A B} (r : res A) (f : A -> res B) (P : Prop) : (forall a, r = Ok a -> (okr (f a) <-> P)) -> (okr (bind r f) <-> okr r /\ P).
Proof.
  intros H. destruct r as [a|e]; cbn [bind].
  - rewrite (H a eq_refl), okr_Ok. tauto.
  - rewrite !okr_Exn. tauto.
Qed.
Lemma okr_bind_ok {A B} (r : res A) (f : A -> B) : okr (bind r (fun a => Ok (f a))) <-> okr r.
Proof. rewrite (okr_bind r _ True); [tauto|]. intros. apply okr_Ok. Qed.
Lemma okr_option {A} e (o : option A) : okr (of_option e o) <-> o <> None.
Proof. destruct o; cbn [of_option]; rewrite ?okr_Ok, ?okr_Exn; split; auto; congruence. Qed.
Lemma okr_to_int t : okr (to_int t) <-> exists z, parse_int t = Some z.
Proof. unfold to_int. rewrite okr_option. destruct (parse_int t); split; try congruence; eauto. intros [z H]. congruence. Qed.
Lemma okr_floats ws : okr (mapM to_float ws) <-> exists xs, numbers ws xs.
Proof.
  split. - intros [xs H]. exists xs. apply floats_ok. auto.
  - intros [xs H]. exists xs. induction H as [|w x ws xs H1 H2 IH]; [reflexivity|]. cbn [mapM]. unfold to_float at 1. rewrite H1. cbn [of_option bind]. rewrite IH. reflexivity.
Qed.

Lemma gives_match key l : good_key (lit key) -> (gives key l <-> param_match (lit key) l <> None).
Proof.
  intros G. split.
  - intros (n & m & k & t & r & E & T & D).
    assert (param_match (lit key) l = Some (t ++ fst (span is_int_char r))) as ->; [|discriminate].
    apply (param_match_ok _ _ _ G). exists n, m, k, (snd (span is_int_char r)). split.
    { rewrite E. rewrite <- (app_assoc t), <- (span_app is_int_char r). reflexivity. }
    split; [intros X; apply app_eq_nil in X; tauto|]. split; [|apply span_stops]. rewrite forallb_app, D. apply span_all.
  - destruct (param_match (lit key) l) as [t|] eqn:E; [|congruence]. intros _.
    apply (param_match_ok _ _ _ G) in E. destruct E as (n & m & k & r & E & T & D & _). exists n, m, k, t, r. auto.
Qed.
Lemma okr_param key old l : good_key (lit key) -> (okr (match_integer_param (lit key) old l) <-> (gives key l -> exists z, assigns key l z)).
Proof.
  intros G. rewrite gives_match by auto. unfold match_integer_param. destruct (param_match (lit key) l) as [t|] eqn:E.
  - rewrite okr_bind_ok, okr_to_int. split.
    + intros [z Z] _. exists z. apply (param_match_ok _ _ _ G) in E. destruct E as (n & m & k & r & E & T & D & P). exists n, m, k, t, r. auto.
    + intros H. destruct H as [z (n & m & k & t' & r & E' & T & D & P & Z)]; [congruence|]. exists z.
      assert (param_match (lit key) l = Some t') as K by (apply (param_match_ok _ _ _ G); exists n, m, k, r; auto). congruence.
  - rewrite okr_Ok. split; auto. intros _ H. congruence.
Qed.
Lemma okr_nbands l old :
  okr (if contains l "NBANDS=" then let* z := to_int (strip (split_second (lit "NBANDS=") l)) in Ok (Some z) else Ok old) <->
  (has l "NBANDS=" -> exists t z, between (lit "NBANDS=") l t /\ parse_int (strip t) = Some z).
Proof.
  destruct (contains l "NBANDS=") eqn:E.
  - apply contains_has in E. rewrite okr_bind_ok, okr_to_int. assert (between (lit "NBANDS=") l (split_second (lit "NBANDS=") l)) as B by (apply split_second_ok; [discriminate|exact E]). split.
    + intros [z Z] _. exists (split_second (lit "NBANDS=") l), z. auto.
    + intros H. destruct (H E) as (t & z & B' & Z). exists z. rewrite (between_fun (lit "NBANDS=") l (split_second (lit "NBANDS=") l) t) by (auto; discriminate). auto.
  - rewrite okr_Ok. split; auto. intros _ H. apply contains_has in H. congruence.
Qed.
Definition ok_params (l : str) : Prop :=
  (forall key, In key ["NSW"; "NELM"; "IBRION"]%string -> gives key l -> exists z, assigns key l z) /\
  (has l "NBANDS=" -> exists t z, between (lit "NBANDS=") l t /\ parse_int (strip t) = Some z).
Lemma okr_step_params d l : okr (step_params d l) <-> ok_params l.
Proof.
  unfold step_params, ok_params.
  rewrite (okr_bind _ _ ((gives "IBRION" l -> exists z, assigns "IBRION" l z) /\ (gives "NELM" l -> exists z, assigns "NELM" l z) /\ (has l "NBANDS=" -> exists t z, between (lit "NBANDS=") l t /\ parse_int (strip t) = Some z))).
  - rewrite (okr_param "NSW") by reflexivity. split.
    + intros (A & B & C & D). split; auto. intros key [<-|[<-|[<-|[]]]]; auto.
    + intros (A & D). split; [|split; [|split]]; auto; apply A; cbn; auto.
  - intros a _. rewrite (okr_bind _ _ ((gives "NELM" l -> exists z, assigns "NELM" l z) /\ (has l "NBANDS=" -> exists t z, between (lit "NBANDS=") l t /\ parse_int (strip t) = Some z))).
    + rewrite (okr_param "IBRION") by reflexivity. tauto.
    + intros b _. rewrite (okr_bind _ _ (has l "NBANDS=" -> exists t z, between (lit "NBANDS=") l t /\ parse_int (strip t) = Some z)).
      * rewrite (okr_param "NELM") by reflexivity. tauto.
      * intros c _. rewrite okr_bind_ok. apply okr_nbands.
Qed.

(** ** Symmetry *)
Definition next_config (l : str) (c : config) : config :=
  if startswith (strip l) (header Dynamic) then CfgDynamic else if startswith (strip l) (header Static) then CfgStatic else c.
Definition ok_symmetry (c : config) (next : option str) (l : str) : Prop := c <> CfgNone ->
  (begins l "Subroutine PRICEL returns" \/ begins l "Routine SETGRP: Setting up the symmetry group for a" -> next <> None) /\
  (begins l "Subroutine GETGRP returns" -> exists w z, nth_error (split_ws l) 4 = Some w /\ parse_int w = Some z).
Lemma okr_if (b : bool) {A} (r : res A) (a : A) : okr (if b then r else Ok a) <-> (b = true -> okr r).
Proof. destruct b; rewrite ?okr_Ok; intuition congruence. Qed.
Lemma okr_word ws (b3 : bool) {A} (f : Z -> A) a : okr (if b3 then let* w := py_nth ws 4 in let* z := to_int w in Ok (f z) else Ok a) <-> (b3 = true -> exists w z, nth_error ws 4 = Some w /\ parse_int w = Some z).
Proof.
  rewrite okr_if. split; intros H B; specialize (H B).
  - destruct H as [v H]. apply bind_ok in H as [w [W H]]. apply bind_ok in H as [z [Z _]]. exists w, z. split; [apply py_nth_ok; exact W|apply to_int_ok; exact Z].
  - destruct H as (w & z & W & Z). unfold py_nth. rewrite W. cbn [of_option bind]. unfold to_int. rewrite Z. cbn [of_option bind]. apply okr_Ok. auto.
Qed.
Lemma okr_sym (b1 b2 b3 b4 : bool) (c : config) (next : option str) (ws : list str) (d : odata) :
  okr (let* (ops, orig, sym) :=
    match c with
    | CfgNone => Ok (od_operations d, od_original d, od_symmetrized d)
    | _ =>
        let* orig := if b1 then
                       let* t := of_option IndexError next in
                       Ok (match lower (strip t) with [] => od_original d | _ => push c CellPrimitive (od_original d) end)
                     else Ok (od_original d) in
        let orig := if b4 then push c (CellSupercell ws) orig else orig in
        let* sym := if b2 then
                      let* t := of_option IndexError next in Ok (push c (lower (strip t)) (od_symmetrized d))
                    else Ok (od_symmetrized d) in
        let* ops := if b3 then
                      let* w := py_nth ws 4 in let* z := to_int w in Ok (push c z (od_operations d))
                    else Ok (od_operations d) in
        Ok (ops, orig, sym)
    end in
  Ok (OData (od_elastic d) ops orig sym (od_sphere d) (od_full_cell d)
        (od_nsw d) (od_nelm d) (od_nbands d) (od_finished d) c (ov_ibrion d) (ov_iter d) (ov_steps d))) <->
  (c <> CfgNone -> (b1 = true \/ b2 = true -> next <> None) /\ (b3 = true -> exists w z, nth_error ws 4 = Some w /\ parse_int w = Some z)).
Proof.
  set (G := exists w z, nth_error ws 4 = Some w /\ parse_int w = Some z).
  match goal with |- okr (bind ?r ?f) <-> _ => rewrite (okr_bind r f True) end; [|intros [[ops orig] sym] _; apply okr_Ok].
  assert (forall B (A : res B), (okr A <-> (b1 = true -> next <> None) /\ (b2 = true -> next <> None) /\ (b3 = true -> G)) -> (okr A /\ True <-> ((b1 = true \/ b2 = true -> next <> None) /\ (b3 = true -> G)))) as K by (intros; tauto).
  destruct c.
  - rewrite okr_Ok. split; [intros _ X; congruence|tauto].
  - transitivity ((b1 = true \/ b2 = true -> next <> None) /\ (b3 = true -> G)); [|split; [auto|intros H; apply H; discriminate]]. apply K.
    cbv iota zeta. match goal with |- okr (bind ?r ?f) <-> _ => rewrite (okr_bind r f ((b2 = true -> next <> None) /\ (b3 = true -> G))) end; [rewrite okr_if, okr_bind_ok, okr_option; reflexivity|].
    intros o _. match goal with |- okr (bind ?r ?f) <-> _ => rewrite (okr_bind r f (b3 = true -> G)) end; [rewrite okr_if, okr_bind_ok, okr_option; reflexivity|].
    intros o2 _. rewrite okr_bind_ok. apply okr_word.
  - transitivity ((b1 = true \/ b2 = true -> next <> None) /\ (b3 = true -> G)); [|split; [auto|intros H; apply H; discriminate]]. apply K.
    cbv iota zeta. match goal with |- okr (bind ?r ?f) <-> _ => rewrite (okr_bind r f ((b2 = true -> next <> None) /\ (b3 = true -> G))) end; [rewrite okr_if, okr_bind_ok, okr_option; reflexivity|].
    intros o _. match goal with |- okr (bind ?r ?f) <-> _ => rewrite (okr_bind r f (b3 = true -> G)) end; [rewrite okr_if, okr_bind_ok, okr_option; reflexivity|].
    intros o2 _. rewrite okr_bind_ok. apply okr_word.
Qed.
Lemma okr_step_symmetry next d l : okr (step_symmetry (of_option IndexError next) d l) <-> ok_symmetry (next_config l (ov_config d)) next l.
Proof.
  unfold step_symmetry, ok_symmetry.
  change (startswith (strip l) "Analysis of symmetry for dynamics") with (startswith (strip l) (header Dynamic)).
  change (startswith (strip l) "Analysis of symmetry for initial positions (statically)") with (startswith (strip l) (header Static)).
  fold (next_config l (ov_config d)). generalize (next_config l (ov_config d)). intros c.
  rewrite <- !starts_begins, split_ws_strip.
  generalize (startswith (strip l) "Subroutine PRICEL returns"), (startswith (strip l) "Routine SETGRP: Setting up the symmetry group for a"), (startswith (strip l) "Subroutine GETGRP returns"), (contains l "primitive cells build up your supercell").
  intros b1 b2 b3 b4. generalize (split_ws l). intros ws. apply okr_sym.
Qed.

(** ** Elastic moduli *)
Lemma same_lengths_width rows : same_lengths rows = true <-> one_width rows.
Proof.
  unfold one_width. destruct rows as [|r rs]; cbn [same_lengths]; [split; auto; intros _ r r' []|]. rewrite forallb_forall. split.
  - intros H. assert (forall x, In x (r :: rs) -> length x = length r) as K by (intros x [<-|X]; auto; apply Nat.eqb_eq; auto). intros a b A B. rewrite (K a A), (K b B). auto.
  - intros H x X. apply Nat.eqb_eq. apply H; cbn; auto.
Qed.
Lemma mapM_of_Forall2 {A B} (f : A -> res B) l vs : Forall2 (fun a v => f a = Ok v) l vs -> mapM f l = Ok vs.
Proof. induction 1 as [|a v l vs H1 H2 IH]; [reflexivity|]. cbn [mapM]. rewrite H1. cbn [bind]. rewrite IH. reflexivity. Qed.
Lemma numbers_floats ws xs : numbers ws xs -> mapM to_float ws = Ok xs.
Proof. intros H. apply mapM_of_Forall2. induction H as [|w x ws xs H1 H2 IH]; constructor; auto. unfold to_float. rewrite H1. auto. Qed.
Lemma okr_tensor tail : okr (tensor_at tail) <-> exists rows, table tail rows /\ one_width rows.
Proof.
  split.
  - intros [t H]. exists t. split; [apply tensor_ok; auto|]. unfold tensor_at in H. apply bind_ok in H as [rows [_ H2]]. destruct (same_lengths rows) eqn:E; [|discriminate]. apply Ok_inj' in H2. subst t. apply same_lengths_width. auto.
  - intros [rows [T W]]. exists rows. unfold tensor_at.
    assert (mapM (fun i => let* l := py_nth tail i in mapM to_float (tl (split_ws (strip l)))) [3; 4; 5; 6; 7; 8] = Ok rows) as ->.
    { apply mapM_of_Forall2. unfold table in T. revert T. generalize [3; 4; 5; 6; 7; 8]. intros is F. induction F as [|i row is rs [l [E1 E2]] F IH]; constructor.
      - unfold py_nth. rewrite E1. cbn [of_option bind]. rewrite split_ws_strip. apply numbers_floats. auto.
      - apply IH. intros a b A B. apply W; right; auto. }
    cbn [bind]. apply same_lengths_width in W. rewrite W. auto.
Qed.
Definition ok_elastic (tail : list str) (l : str) : Prop :=
  forall h, In h ["ELASTIC MODULI  (kBar)"; "SYMMETRIZED ELASTIC MODULI"; "TOTAL ELASTIC MODULI"]%string -> begins l h -> exists rows, table tail rows /\ one_width rows.
Lemma okr_step_elastic tail d l : okr (step_elastic tail d l) <-> ok_elastic tail l.
Proof.
  unfold step_elastic, ok_elastic. set (T := exists rows, table tail rows /\ one_width rows).
  assert (forall (h : string) {V} (f : list (list float) -> V) e, okr (if startswith (strip l) h then let* t := tensor_at tail in Ok (f t) else Ok e) <-> (begins l h -> T)) as K.
  { intros h V f e. rewrite okr_if, okr_bind_ok, okr_tensor, starts_begins. reflexivity. }
  rewrite (okr_bind _ _ ((begins l "SYMMETRIZED ELASTIC MODULI" -> T) /\ (begins l "TOTAL ELASTIC MODULI" -> T))).
  - rewrite (K "ELASTIC MODULI  (kBar)"%string). split.
    + intros (A & B & C) h [<-|[<-|[<-|[]]]]; auto.
    + intros H. split; [|split]; apply H; cbn; auto.
  - intros e1 _. rewrite (okr_bind _ _ (begins l "TOTAL ELASTIC MODULI" -> T)).
    + rewrite (K "SYMMETRIZED ELASTIC MODULI"%string). tauto.
    + intros e2 _. rewrite okr_bind_ok. apply K.
Qed.

(** ** Magnetization *)
Lemma orbitals_fold ws xs : numbers ws xs -> forall i d, i + length ws <= 4 ->
  okr (foldM (fun d iw => let* x := to_float (snd iw) in let* o := s_orb (fst iw) in Ok (dset o x d)) (combine (seq i (length ws)) ws) d).
Proof.
  induction 1 as [|w x ws xs H1 H2 IH]; intros i d L; [exists d; reflexivity|]. cbn [length] in *. cbn [seq combine foldM fst snd]. unfold to_float at 1. rewrite H1. cbn [of_option bind].
  assert (exists o, s_orb i = Ok o) as [o ->] by (destruct i as [|[|[|[|i]]]]; [eexists; reflexivity..|lia]). cbn [bind]. apply IH. lia.
Qed.
Lemma parse_float_nil : parse_float [] = None.
Proof. reflexivity. Qed.
Lemma okr_moments l : okr (moments (split_ws l)) <-> exists m, moments_of l m.
Proof.
  split; [intros [m H]; exists m; apply moments_ok; auto|]. intros [m (ws & xs & t & <- & N & L & T & _)].
  unfold moments. assert (length (removelast (tl (split_ws l))) = length xs) as LN by (clear -N; induction N; cbn; auto).
  destruct (orbitals_fold _ _ N 0 []) as [d D]; [lia|]. rewrite D. cbn [bind].
  destruct (rev (split_ws l)) as [|w r] eqn:ER.
  - assert (split_ws l = []) as X by (rewrite <- (rev_involutive (split_ws l)), ER; reflexivity). rewrite X in T. cbn [last] in T. rewrite parse_float_nil in T. discriminate T.
  - assert (split_ws l = rev r ++ [w]) as X by (rewrite <- (rev_involutive (split_ws l)), ER; reflexivity). rewrite X, last_last in T. unfold to_float. rewrite T. cbn [of_option bind]. apply okr_Ok. auto.
Qed.
Lemma zset_ne {V} k (v : V) d : zset k v d <> [].
Proof. destruct d as [|[k' v'] d]; cbn [zset]; [discriminate|]. destruct (k =? k')%Z; discriminate. Qed.
Lemma read_moments_complete lines rows tot : mag_lines lines rows tot -> forall s, (tot = None -> rows <> [] \/ sp_site s <> []) -> okr (read_moments lines s).
Proof.
  induction 1 as [l rest E|l rest m B M|l rest rows t B M IH|l rest w k m rows t N1 N2 N3 W K M ML IH]; intros s H; cbn [read_moments]; rewrite split_ws_strip.
  - rewrite E. destruct (H eq_refl) as [X|X]; [congruence|]. destruct (sp_site s) as [|[k m] ss]; [congruence|]. apply okr_Ok. auto.
  - destruct (split_ws l) as [|w0 ws] eqn:EW. { exfalso. destruct B as [r A]. apply split_ws_nil_iff in EW. rewrite strip_blank in A by auto. discriminate. }
    assert (okr (moments (split_ws l))) as [m' M'] by (apply okr_moments; eauto). apply starts_begins in B. rewrite B. rewrite andb_false_r. cbn [bind]. rewrite <- EW, M'. apply okr_Ok. auto.
  - destruct (split_ws l) as [|w0 ws] eqn:EW. { exfalso. destruct B as [r A]. apply split_ws_nil_iff in EW. rewrite strip_blank in A by auto. discriminate. }
    assert (startswith (strip l) "tot" = false) as NT. { apply not_true_iff_false. intros X. apply starts_begins in X. destruct B as [r A], X as [r' A']. rewrite A in A'. discriminate. }
    apply starts_begins in B. rewrite B, NT. cbn [negb andb bind]. apply IH. auto.
  - destruct (split_ws l) as [|w0 ws] eqn:EW; [congruence|].
    assert (startswith (strip l) "tot" = false) as NT by (apply not_true_iff_false; intros X; apply starts_begins in X; contradiction).
    assert (startswith (strip l) "-" = false) as NM by (apply not_true_iff_false; intros X; apply starts_begins in X; contradiction).
    rewrite NT, NM. cbn [negb andb]. rewrite <- EW in *.
    assert (okr (moments (split_ws l))) as [m' M'] by (apply okr_moments; eauto).
    unfold py_nth. rewrite W. cbn [of_option bind]. unfold to_int. rewrite K. cbn [of_option bind]. rewrite M'. cbn [bind]. apply IH. intros _. right. cbn [sp_site]. apply zset_ne.
Qed.
Lemma after_rows_ne rows site : after_rows rows site <> [] <-> rows <> [] \/ site <> [].
Proof.
  unfold after_rows. revert site. induction rows as [|[k m] rows IH]; intros site; cbn [fold_left fst snd]. { intuition congruence. }
  rewrite IH. split; [left; discriminate|]. intros _. right. apply zset_ne.
Qed.
Lemma okr_read_moments lines s : okr (read_moments lines s) <-> exists rows tot, mag_lines lines rows tot /\ (tot = None -> rows <> [] \/ sp_site s <> []).
Proof.
  split.
  - intros [s' H]. apply read_moments_ok in H as [[rows tot] [M [A B]]]. cbn [fst snd] in *. exists rows, tot. split; auto. intros ->. destruct B as [k B]. apply after_rows_ne. rewrite <- A. destruct (sp_site s'); discriminate.
  - intros (rows & tot & M & H). eapply read_moments_complete; eauto.
Qed.
Definition ok_mag (tail : list str) (site : string -> zdict (dict float)) (l : str) : Prop :=
  forall p, In p projs -> begins l ("magnetization (" ++ p ++ ")") -> exists rows tot, mag_lines (skipn 4 tail) rows tot /\ (tot = None -> rows <> [] \/ site p <> []).
Lemma okr_mag_step tail l m p : dget (lit p) m <> None -> (okr (mag_step tail l m p) <->
  (begins l ("magnetization (" ++ p ++ ")") -> exists rows tot, mag_lines (skipn 4 tail) rows tot /\ (tot = None -> rows <> [] \/ sp_site (sphere_of p m) <> []))).
Proof.
  intros D. unfold mag_step.
  assert (lit "magnetization (" ++ lit p ++ lit ")" = lit ("magnetization (" ++ p ++ ")")) as -> by (rewrite !lit_app; reflexivity).
  change (prefixb (lit ("magnetization (" ++ p ++ ")")) (strip l)) with (startswith (strip l) ("magnetization (" ++ p ++ ")")).
  rewrite okr_if, starts_begins. unfold sphere_of. destruct (dget (lit p) m) as [o|]; [|congruence]. cbn [of_option bind]. rewrite okr_bind_ok, okr_read_moments. reflexivity.
Qed.
Lemma okr_step_magnetization tail d l : dkeys (od_sphere d) = map lit ["x"; "y"; "z"]%string ->
  (okr (step_magnetization tail d l) <-> ok_mag tail (fun p => sp_site (sphere_of p (od_sphere d))) l /\ (begins l "number of electron" -> exists xs, numbers (skipn 5 (split_ws l)) xs)).
Proof.
  intros DK. unfold step_magnetization.
  assert (forall m : dict sphere, dkeys m = map lit ["x"; "y"; "z"]%string -> forall p, In p projs -> dget (lit p) m <> None) as PR.
  { intros m K p P. rewrite dget_None, K. intros X. apply X. apply in_map. exact P. }
  match goal with |- okr (bind ?r ?f) <-> _ => rewrite (okr_bind r f (begins l "number of electron" -> exists xs, numbers (skipn 5 (split_ws l)) xs)) end.
  2:{ intros sph _. rewrite okr_bind_ok, okr_if, okr_bind_ok, okr_floats, starts_begins, split_ws_strip. reflexivity. }
  apply and_iff_compat_r.
  change (okr (foldM (mag_step tail l) projs (od_sphere d)) <-> ok_mag tail (fun p => sp_site (sphere_of p (od_sphere d))) l).
  set (m0 := od_sphere d) in *. unfold ok_mag.
  set (C := fun p m => begins l ("magnetization (" ++ p ++ ")") -> exists rows tot, mag_lines (skipn 4 tail) rows tot /\ (tot = None -> rows <> [] \/ sp_site (sphere_of p m) <> [])).
  change (okr (foldM (mag_step tail l) projs m0) <-> forall p, In p projs -> C p m0).
  cbn [foldM projs].
  match goal with |- okr (bind ?r ?f) <-> _ => rewrite (okr_bind r f (C "y"%string m0 /\ C "z"%string m0)) end.
  - rewrite okr_mag_step by (apply PR; cbn; auto). fold (C "x"%string m0). split.
    + intros (A & B & D) p [<-|[<-|[<-|[]]]]; auto.
    + intros H. split; [|split]; apply H; cbn; auto.
  - intros m1 M1. apply mag_step_ok in M1 as [_ [B1 K1]].
    match goal with |- okr (bind ?r ?f) <-> _ => rewrite (okr_bind r f (C "z"%string m0)) end.
    + rewrite okr_mag_step by (apply PR; [congruence|cbn; auto]). unfold C. rewrite (B1 "y"%string) by discriminate. reflexivity.
    + intros m2 M2. apply mag_step_ok in M2 as [_ [B2 K2]]. rewrite okr_bind_ok.
      rewrite okr_mag_step by (apply PR; [congruence|cbn; auto]). unfold C. rewrite (B2 "z"%string), (B1 "z"%string) by discriminate. reflexivity.
Qed.

(** ** One line *)
Lemma okr_digits a : digits a -> okr (to_int a).
Proof.
  intros [N D]. apply okr_to_int. exists (zsigned false (digits_val a)). change a with (sign_str false ++ a) at 1. apply parse_int_core; auto.
Qed.
Lemma marker_ok l a b : iteration l = Some (a, b) -> digits a /\ digits b.
Proof. intros H. apply iteration_some in H as [p [(n & m & q & _ & A & B) _]]. auto. Qed.
Lemma sec_here before l d : sec_inv before d -> ~ is_marker l -> forall s, next_config l (ov_config d) = cfg s <-> in_section before l s.
Proof.
  unfold sec_inv. intros I0 NM.
  assert (last_said section_said (before ++ [l]) (sec_of (next_config l (ov_config d)))) as I1.
  { assert (forall s, startswith (strip l) (header s) = true <-> plain (fun l => begins l (header s)) l) as K by (intros s; unfold plain; rewrite starts_begins; tauto).
    unfold next_config. destruct (startswith (strip l) (header Dynamic)) eqn:ED.
    - apply K in ED. apply (last_said_snoc_here (fun l s => plain (fun l => begins l (header s)) l)). auto.
    - destruct (startswith (strip l) (header Static)) eqn:ES.
      + apply K in ES. apply (last_said_snoc_here (fun l s => plain (fun l => begins l (header s)) l)). auto.
      + apply (last_said_snoc_skip (fun l s => plain (fun l => begins l (header s)) l)); auto. intros s X. apply K in X. destruct s; congruence. }
  intros s. split.
  - intros E. rewrite E in I1. destruct s; exact I1.
  - intros X. pose proof (last_said_fun _ _ _ _ section_fun I1 X) as E. destruct (next_config l (ov_config d)); cbn [sec_of] in E; inversion E; reflexivity.
Qed.
Definition rows_inv (before tail : list str) (d : odata) : Prop := forall p, In p projs -> (sp_site (sphere_of p (od_sphere d)) <> [] <-> earlier_row p before tail).
Definition keys_inv (d : odata) : Prop := dkeys (od_sphere d) = map lit ["x"; "y"; "z"]%string.
Lemma okr_step before l rest d : sec_inv before d -> keys_inv d -> rows_inv before (l :: rest) d -> (okr (step (l :: rest) d l) <-> line_ok before (l :: rest)).
Proof.
  intros SI KI RI. cbn [line_ok]. unfold step. destruct (iteration l) as [[a b]|] eqn:EI.
  - destruct (marker_ok _ _ _ EI) as [A B]. apply okr_digits in A as [x A], B as [y B]. rewrite A, B. cbn [bind]. rewrite okr_Ok. split; auto. intros _. left. apply iteration_some in EI as [p [M _]]. exists p, a, b. auto.
  - apply iteration_none in EI as NM. change (py_nth (l :: rest) 1) with (of_option IndexError (nth_error (l :: rest) 1)).
    set (P4 := ok_mag (l :: rest) (fun p => sp_site (sphere_of p (od_sphere d))) l /\ (begins l "number of electron" -> exists xs, numbers (skipn 5 (split_ws l)) xs)).
    set (P3 := ok_elastic (l :: rest) l). set (P2 := ok_symmetry (next_config l (ov_config d)) (nth_error (l :: rest) 1) l).
    match goal with |- okr (bind ?r ?f) <-> _ => assert (okr (bind r f) <-> ok_params l /\ P2 /\ P3 /\ P4) as K end.
    { match goal with |- okr (bind ?r ?f) <-> _ => rewrite (okr_bind r f (P2 /\ P3 /\ P4)) end; [rewrite okr_step_params; reflexivity|].
      intros d1 H1. apply step_params_ok in H1. destruct H1 as (_ & _ & _ & _ & _ & _ & _ & _ & _ & S1 & _ & C1 & _).
      match goal with |- okr (bind ?r ?f) <-> _ => rewrite (okr_bind r f (P3 /\ P4)) end; [rewrite okr_step_symmetry, C1; reflexivity|].
      intros d2 H2. apply step_symmetry_ok in H2. destruct H2 as (_ & _ & _ & S2 & _).
      match goal with |- okr (bind ?r ?f) <-> _ => rewrite (okr_bind r f P4) end; [rewrite okr_step_elastic; reflexivity|].
      intros d3 H3. apply step_elastic_ok in H3. destruct H3 as (_ & _ & _ & _ & _ & S3 & _).
      rewrite okr_step_magnetization by (rewrite S3, S2, S1; exact KI). unfold P4. rewrite S3, S2, S1. reflexivity. }
    rewrite K. clear K. pose proof (sec_here _ _ _ SI NM) as SH. split.
    + intros ((A1 & A2) & A3 & A4 & A5 & A6). right. constructor; auto.
      * intros s X. apply SH in X. intros Y. assert (next_config l (ov_config d) <> CfgNone) as N by (rewrite X; destruct s; discriminate). apply A3 in N as [N _]. apply N in Y. cbn [tl]. cbn [nth_error] in Y. destruct rest; [congruence|discriminate].
      * intros s X. apply SH in X. assert (next_config l (ov_config d) <> CfgNone) as N by (rewrite X; destruct s; discriminate). apply A3 in N as [_ N]. exact N.
      * intros p P B. destruct (A5 p P B) as (rows & tot & M & T). exists rows, tot. split; auto. intros X. destruct (T X) as [Y|Y]; auto. right. apply (RI p P). exact Y.
    + intros [M|[A1 A2 A3 A4 A5 A6 A7]]; [contradiction|]. split; [split; auto|]. split; [|split; [exact A5|split; auto]].
      * intros N. assert (exists s, next_config l (ov_config d) = cfg s) as [s X] by (destruct (next_config l (ov_config d)); [congruence|exists Static; auto|exists Dynamic; auto]).
        apply SH in X. split; [|exact (A4 s X)]. intros Y. pose proof (A3 s X Y) as Z. cbn [tl] in Z. cbn [nth_error]. destruct rest; [congruence|discriminate].
      * intros p P B. destruct (A6 p P B) as (rows & tot & M & T). exists rows, tot. split; auto. intros X. destruct (T X) as [Y|Y]; auto. right. apply (RI p P). exact Y.
Qed.
Lemma earlier_snoc p before l rest : earlier_row p (before ++ [l]) rest <-> earlier_row p before (l :: rest) \/ exists rows tot, mag_table p (l :: rest) (rows, tot) /\ rows <> [].
Proof.
  split.
  - intros (b & t & rows & tot & E & N & M & R). destruct (snoc_cases _ _ _ _ E) as [[-> _]|[t0 [-> E2]]]; [congruence|]. rewrite <- app_assoc in M. cbn [app] in M. destruct t0 as [|x t0].
    + right. exists rows, tot. auto.
    + left. exists b, (x :: t0), rows, tot. split; auto. split; [discriminate|]. auto.
  - intros [(b & t & rows & tot & E & N & M & R)|(rows & tot & M & R)].
    + exists b, (t ++ [l]), rows, tot. split; [rewrite E, app_assoc; auto|]. split; [destruct t; discriminate|]. rewrite <- app_assoc. cbn [app]. auto.
    + exists before, [l], rows, tot. split; auto. split; [discriminate|]. auto.
Qed.
Lemma rows_step before l rest d d' : rows_inv before (l :: rest) d -> step (l :: rest) d l = Ok d' -> rows_inv (before ++ [l]) rest d'.
Proof.
  intros RI H p P. rewrite earlier_snoc. rewrite <- (RI p P). apply step_ok in H. destruct (sf_mag _ _ _ _ H p P) as [[[rows tot] [M [A _]]]|[N E]]; clear H.
  - rewrite A, after_rows_ne. cbn [fst]. split; [intros [X|X]; auto; right; exists rows, tot; auto|]. intros [X|(rows' & tot' & [_ M'] & R)]; auto. destruct M as [_ M]. cbn [fst snd] in *. destruct (mag_lines_fun _ _ _ _ _ M M') as [-> _]. auto.
  - rewrite E. split; auto. intros [X|(rows' & tot' & M' & R)]; auto. exfalso. exact (N _ M').
Qed.
Lemma okr_scan tail : forall before d, sec_inv before d -> keys_inv d -> rows_inv before tail d ->
  (okr (scan tail d) <-> forall b t, tail = b ++ t -> line_ok (before ++ b) t).
Proof.
  induction tail as [|l rest IH]; intros before d SI KI RI; cbn [scan].
  - rewrite okr_Ok. split; auto. intros _ b t E. symmetry in E. apply app_eq_nil in E as [-> ->]. exact Logic.I.
  - match goal with |- okr (bind ?r ?f) <-> _ => rewrite (okr_bind r f (forall b t, rest = b ++ t -> line_ok ((before ++ [l]) ++ b) t)) end.
    + rewrite (okr_step before) by auto. split.
      * intros [A B] b t E. destruct b as [|x b]; cbn [app] in E; [subst t; rewrite app_nil_r; exact A|]. injection E as <- E. specialize (B b t E). rewrite <- app_assoc in B. exact B.
      * intros H. split; [rewrite <- (app_nil_r before); apply H; reflexivity|]. intros b t E. rewrite <- app_assoc. apply H. cbn [app]. congruence.
    + intros d1 H1. apply IH; [eapply sec_step; eauto| |eapply rows_step; eauto]. unfold keys_inv. rewrite (sf_projs _ _ _ _ (step_ok _ _ _ _ H1)). exact KI.
Qed.

(** ** The status and the closing block *)
Lemma last_said_said {V} (P : list str -> V -> Prop) ls o : last_said P ls o -> (o <> None <-> said P ls).
Proof.
  destruct o as [v|]; cbn [last_said].
  - intros (b & t & E & X & _). split; [intros _; exists b, t, v; auto|discriminate].
  - intros H. split; [congruence|]. intros (b & t & v & E & X). exfalso. exact (H b t v E X).
Qed.
Lemma okr_status ls d : scan ls odata0 = Ok d -> (okr (run_status d) <->
  (exists l, In l ls /\ is_marker l) /\ (run_finished ls -> forall ib, last_said (param "IBRION") ls (Some ib) -> (0 < ib)%Z -> said (param "NSW") ls) /\ said (param "NELM") ls).
Proof.
  intros H.
  assert (od_finished d = true <-> run_finished ls) as F. { rewrite (scan_finished _ _ _ H). cbn. split; [intros [X|X]; [discriminate|auto]|auto]. }
  assert (last_said (param "NSW") ls (od_nsw d)) as NSW. { apply (scan_last_opt od_nsw (param "NSW") (param_nil _)) in H; auto. intros. apply (sf_nsw _ _ _ _ (step_ok _ _ _ _ H0)). }
  assert (last_said (param "NELM") ls (od_nelm d)) as NELM. { apply (scan_last_opt od_nelm (param "NELM") (param_nil _)) in H; auto. intros. apply (sf_nelm _ _ _ _ (step_ok _ _ _ _ H0)). }
  assert (last_said iterates ls (ov_iter d)) as IT. { apply (scan_last_opt ov_iter iterates (fun v X => X)) in H; auto. intros. apply (sf_iter _ _ _ _ (step_ok _ _ _ _ H0)). }
  assert (last_said (param "IBRION") ls (Some (ov_ibrion d)) \/ last_said (param "IBRION") ls None /\ ov_ibrion d = (-1)%Z) as IB.
  { apply (scan_last ov_ibrion (param "IBRION") (param_nil _)) in H; auto. intros. apply (sf_ibrion _ _ _ _ (step_ok _ _ _ _ H0)). }
  pose proof (last_said_said _ _ _ NSW) as SNSW. pose proof (last_said_said _ _ _ NELM) as SNELM.
  assert (ov_iter d <> None <-> exists l, In l ls /\ is_marker l) as SM.
  { split.
    - intros X. apply (last_said_said _ _ _ IT) in X as (b & t & v & E & X). destruct t as [|l t]; [destruct X|]. exists l. split; [rewrite E, in_app_iff; right; left; auto|]. eapply says_marker. exact X.
    - intros (l & L & M). apply (marker_recorded _ _ _ H). right. apply Exists_exists. eauto. }
  rewrite <- SM, <- SNELM. unfold run_status.
  match goal with |- okr (bind ?r ?f) <-> _ => rewrite (okr_bind r f ((run_finished ls -> forall ib, last_said (param "IBRION") ls (Some ib) -> (0 < ib)%Z -> said (param "NSW") ls) /\ od_nelm d <> None)) end; [rewrite okr_option; reflexivity|].
  intros iter _. match goal with |- okr (bind ?r ?f) <-> _ => rewrite (okr_bind r f (od_nelm d <> None)) end; [|intros ion _; rewrite okr_bind_ok, okr_option; reflexivity].
  apply and_iff_compat_r. rewrite okr_if, F. unfold ionic. destruct (Z.leb_spec (ov_ibrion d) 0) as [L|L].
  - rewrite okr_Ok. split; auto. intros _ R ib X Y. exfalso. destruct IB as [IB|[IB _]].
    + assert (Some ib = Some (ov_ibrion d)) as Q by (eapply C47_unambiguous; [|exact X|exact IB]; cbn; auto). injection Q as Q. subst. lia.
    + pose proof (C47_unambiguous ls (Some ib) None "IBRION" ltac:(cbn; auto) X IB). discriminate.
  - rewrite okr_bind_ok, okr_option, SNSW. split; [intros A R ib _ _; auto|]. intros A R. destruct IB as [IB|[_ E]]; [exact (A R _ IB L)|lia].
Qed.
Lemma In_colon l : In ":"%char l <-> In ":"%char (strip l).
Proof. apply IncarTokens.In_strip. reflexivity. Qed.
Lemma okr_timing_line info l : okr (timing_line info l) <-> closing_ok l.
Proof.
  unfold timing_line, closing_ok. destruct (contains l "(sec)" || contains l "(kb)") eqn:E.
  - apply orb_true_iff in E. rewrite !contains_has in E. rewrite okr_bind_ok. unfold py_nth. rewrite okr_option, In_colon. split.
    + intros X _. destruct (in_dec ascii_dec ":"%char (strip l)) as [Y|Y]; auto. apply nochar_In in Y. rewrite (split_on_none _ _ Y) in X. cbn in X. congruence.
    + intros X. specialize (X E). apply in_split in X. assert (exists a b, strip l = a ++ ":"%char :: b /\ ~ In ":"%char a) as (a & b & S1 & N).
      { destruct X as (a & b & X). revert a b X. generalize (strip l). induction s as [|c s IH]; intros a b X; [destruct a; discriminate|].
        destruct (ascii_dec c ":"%char) as [->|NE]; [exists [], s; auto|]. destruct a as [|x a]; cbn [app] in X; injection X as -> X; [congruence|].
        destruct (IH a b X) as (a' & b' & -> & N). exists (x :: a'), b'. split; auto. intros [Y|Y]; [congruence|auto]. }
      apply nochar_In in N. rewrite S1, split_on_app by auto. cbn [nth_error]. pose proof (split_on_join ":"%char b) as J. destruct (split_on ":" b) eqn:EB; [|discriminate]. destruct b as [|c b]; [discriminate EB|]. cbn [split_on] in EB. destruct (aeqb c ":"); [discriminate EB|]. destruct (split_on ":" b); discriminate EB.
  - apply orb_false_iff in E as [E1 E2]. assert (okr (if mem_line l then let* t := match rev (split_runs is_colon_sp (strip l)) with _ :: t :: _ => Ok t | _ => Exn IndexError end in Ok (dset (lit "mem_usage_" ++ hd [] (split_runs is_colon_sp (strip l))) (parse_float t) info) else Ok info)) as K.
    { rewrite okr_if, okr_bind_ok. intros M. apply mem_line_ok in M. assert (In ":"%char (strip l)) as C. { apply (proj1 (In_colon l)). destruct M as (a & b & [->| ->]); rewrite in_app_iff; right; left; auto. }
      destruct (split_runs_shape is_colon_sp (strip l)) as (k & r & S1 & N & _ & [[-> _]|(seps & w & _ & _ & _ & _ & X)]).
      - exfalso. rewrite app_nil_r in S1. rewrite S1 in C. unfold nof in N. rewrite forallb_forall in N. apply N in C. discriminate C.
      - rewrite X. cbn [rev]. destruct (rev (split_runs is_colon_sp w)) as [|x rs] eqn:ER. { exfalso. apply (split_runs_ne is_colon_sp w). rewrite <- (rev_involutive (split_runs _ w)), ER. auto. }
        destruct rs as [|y ys]; cbn [app]; [exists k|exists y]; reflexivity. }
    split; [|intros _; exact K]. intros _ [X|X]; apply contains_has in X; congruence.
Qed.
Lemma okr_timings ls info : okr (foldM timing_line ls info) <-> Forall closing_ok ls.
Proof.
  revert info. induction ls as [|l ls IH]; intros info; cbn [foldM]; [rewrite okr_Ok; split; auto|].
  rewrite (okr_bind _ _ (Forall closing_ok ls)) by (intros; apply IH). rewrite okr_timing_line. split; [intros [A B]; constructor; auto|]. intros A. inversion A. auto.
Qed.
Lemma closing_last (ls : list str) : Forall closing_ok (last_lines 50 ls) <-> forall before closing, ls = before ++ closing -> length closing <= 50 -> Forall closing_ok closing.
Proof.
  unfold last_lines. split.
  - intros H b c -> L. rewrite Forall_forall in *. intros l X. apply H. rewrite skipn_app, in_app_iff. right. rewrite app_length.
    replace (length b + length c - 50 - length b) with 0 by lia. exact X.
  - intros H. apply (H (firstn (length ls - 50) ls)); [rewrite firstn_skipn; auto|]. rewrite skipn_length. lia.
Qed.
Lemma okr_from_list ls : okr (from_list ls) <-> acceptable ls.
Proof.
  unfold from_list.
  set (P := (exists l, In l ls /\ is_marker l) /\ (run_finished ls -> forall ib, last_said (param "IBRION") ls (Some ib) -> (0 < ib)%Z -> said (param "NSW") ls) /\ said (param "NELM") ls).
  match goal with |- okr (bind ?r ?f) <-> _ => rewrite (okr_bind r f (P /\ Forall closing_ok (last_lines 50 ls))) end.
  - rewrite (okr_scan ls []), closing_last.
    + cbn [app]. unfold P. split; [intros (A & (B & C & D) & E); constructor; auto|]. intros [A B C D E]. auto.
    + apply last_said_nil. intros v [].
    + reflexivity.
    + intros p _. split.
      * intros X. exfalso. apply X. unfold sphere_of. destruct (dget (lit p) (od_sphere odata0)) as [s0|] eqn:G; auto.
        apply dget_In in G. destruct G as [G|[G|[G|[]]]]; injection G as _ <-; reflexivity.
      * intros (b & t & rows & tot & E & N & _). symmetry in E. apply app_eq_nil in E. tauto.
  - intros d H. match goal with |- okr (bind ?r ?f) <-> _ => rewrite (okr_bind r f (Forall closing_ok (last_lines 50 ls))) end; [rewrite (okr_status ls d H); reflexivity|].
    intros s _. rewrite okr_bind_ok. apply okr_timings.
Qed.

(** ** C96 *)
(** an OUTCAR is read exactly when its lines have what they announce *)
Theorem C96_outcar path handler : handler <> None \/ (exists txt, path = Some (Some txt)) ->
  ((exists o, outcar_init path handler = Ok o) <-> acceptable (scanned path handler)).
Proof.
  intros H. rewrite <- okr_from_list. unfold okr, outcar_init. destruct handler as [h|].
  - destruct path; reflexivity.
  - destruct H as [H|[txt ->]]; [congruence|]. reflexivity.
Qed.
(** nothing else is read *)
Theorem C96_outcar_no_source path : (forall txt, path <> Some (Some txt)) -> forall o, outcar_init path None <> Ok o.
Proof. intros H o. destruct path as [[txt|]|]; [congruence|discriminate|discriminate]. Qed.
(** as a test that can be run *)
Definition is_read (txt : str) : bool := match outcar_init None (Some txt) with Ok _ => true | Exn _ => false end.
Lemma is_read_acceptable txt : is_read txt = true <-> acceptable (readlines txt).
Proof.
  assert (Some txt <> None \/ (exists t, @None (option str) = Some (Some t))) as H by (left; discriminate).
  pose proof (C96_outcar None (Some txt) H) as K. change (scanned None (Some txt)) with (readlines txt) in K. rewrite <- K. unfold is_read. destruct (outcar_init None (Some txt)) as [o|e].
  - split; auto. intros _. exists o. auto.
  - split; [discriminate|]. intros [o X]. discriminate X.
Qed.
(** the sample file of Props_Outcar is acceptable; without the line of NELM, or cut inside
    its magnetization table or its elastic moduli, it is not *)
Example C96_case : acceptable (readlines sample).
Proof. apply is_read_acceptable. vm_compute. reflexivity. Qed.
Definition without (n : nat) : str := flat_map (fun l => lit l ++ [nl]) (firstn n sample_lines ++ skipn (S n) sample_lines).
Lemma refused_file txt : is_read txt = false -> ~ acceptable (readlines txt).
Proof. intros H X. apply is_read_acceptable in X. congruence. Qed.
Example C96_no_nelm : ~ acceptable (readlines (without 2)).
Proof. apply refused_file. vm_compute. reflexivity. Qed.
Definition cut_at (n : nat) : str := flat_map (fun l => lit l ++ [nl]) (firstn n sample_lines).
Example C96_cut_inside : forall n, In n [8; 15; 20; 26; 28] -> ~ acceptable (readlines (cut_at n)).
Proof. intros n H. apply refused_file. repeat (destruct H as [<-|H]; [vm_compute; reflexivity|]). destruct H. Qed.
Example C96_cut_between : acceptable (readlines (cut_at 22)).
Proof. apply is_read_acceptable. vm_compute. reflexivity. Qed.
