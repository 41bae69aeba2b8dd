(** Properties of the shared helpers (C37, C38, C40, C60): statements, with examples. *)
From Coq Require Import Ascii String List NArith ZArith QArith Qabs Bool Lia Arith.
From Verif Require Import PyBase PyNum PyStrLemmas PyNumLemmas PyFmtLemmas PyLines UtilsModel KpointsModel KpointsSpec KpointsCodes.
Import ListNotations.
Local Open Scope list_scope.
Local Open Scope bool_scope.
Local Open Scope nat_scope.

(** ** C37: destination of write *)
Theorem C37_one_destination : forall path handler old body,
  (* neither or both: exit 10, nothing is touched *)
  ((path = None /\ handler = false \/ path <> None /\ handler = true) ->
    base_write path handler old body = (Exn (SysExit 10), old, [])) /\
  (* a path alone: the text goes to the file only *)
  (forall p, path = Some p -> p <> [] -> handler = false ->
    base_write path handler old body = (match em_exn body with None => Ok tt | Some e => Exn e end, em_text body, [])) /\
  (* a handler alone: the text goes to the handler only *)
  (path = None -> handler = true ->
    base_write path handler old body = (match em_exn body with None => Ok tt | Some e => Exn e end, old, em_text body)).
Proof.
  intros path handler old body. split; [|split].
  - intros [[-> ->]|[H ->]]; [reflexivity|]. destruct path as [[|a p]|]; [reflexivity|reflexivity|congruence].
  - intros p -> Hp ->. destruct p as [|a p]; [congruence|reflexivity].
  - intros -> ->. reflexivity.
Qed.
Print Assumptions C37_one_destination.
Theorem C37_exit10_only_for_sources : forall path handler old t,
  base_write path handler old (Emission t None) = (Exn (SysExit 10), old, []) ->
  path = None /\ handler = false \/ path <> None /\ handler = true.
Proof. intros [[|a p]|] [|] old t H; try discriminate; auto. right. split; [discriminate|auto]. right; split; [discriminate|auto]. Qed.
Print Assumptions C37_exit10_only_for_sources.

(** ** C60: a refused write and the file that was there *)
(** false: the file is emptied before the content is validated; for every KPOINTS
    object that does not validate, writing over any file loses its content *)
Theorem C60_refused_write_refuted : forall prec es e p old, validate es = Exn e -> p <> [] ->
  base_write (Some p) false old (emission_of (get_string prec es)) = (Exn e, [], []).
Proof.
  intros prec es e p old V Hp. unfold get_string, write. rewrite V. cbn [bind emission_of].
  destruct p; [congruence|reflexivity].
Qed.
Print Assumptions C60_refused_write_refuted.
(** with a handler, a refused write emits nothing *)
Theorem C60_refused_write_handler_partial : forall prec es e old, validate es = Exn e ->
  base_write None true old (emission_of (get_string prec es)) = (Exn e, old, []).
Proof. intros prec es e old V. unfold get_string, write. rewrite V. reflexivity. Qed.
Print Assumptions C60_refused_write_handler_partial.
Example C60_case : exists es, validate es = Exn (SysExit 206).
Proof. exists (make_entries KNone KNone KNone KNone KNone KNone KNone KNone KNone (KInt 0)). reflexivity. Qed.

(** ** C38: numbers written in fixed format *)
(** one number is one token, made of the sign, digits and point only, and its decimal
    value is within half a unit of the last place *)
Theorem C38_one_token : forall w p x, split_ws (fmt_f w p x) = [fmt_f 0 p x].
Proof. intros. apply split_ws_fmtf. Qed.
Print Assumptions C38_one_token.
Theorem C38_half_unit : forall w p x, wf_float x -> finite x = true ->
  exists t d, split_ws (fmt_f w p x) = [t] /\ parse_dec t = Some d /\
    (Qabs (dval d - fval x) <= / (2 * inject_Z (10 ^ Z.of_nat p)))%Q.
Proof.
  intros w p x W F. destruct (text_error p x W F) as [d [H1 H2]].
  exists (fmt_f 0 p x), d. split; [apply split_ws_fmtf|]. auto.
Qed.
Print Assumptions C38_half_unit.
(** what float() reads back from it *)
Theorem C38_reread : forall w p x, wf_float x -> finite x = true ->
  exists t y, split_ws (fmt_f w p x) = [t] /\ parse_float t = Some y /\ wf_float y /\ finite y = true /\
    (Qabs (fval y - fval x) <= / inject_Z (10 ^ Z.of_nat p))%Q /\ fmt_f w p y = fmt_f w p x.
Proof.
  intros w p x W F. exists (fmt_f 0 p x), (reread p x). split; [apply split_ws_fmtf|]. split; [apply parse_float_fixed|].
  split; [apply reread_wf; auto|]. split; [rewrite reread_finite; auto|]. split; [apply reread_error; auto|apply fmt_f_reread; auto].
Qed.
Print Assumptions C38_reread.
(** numbers on a line separated by a space never merge, whatever their widths and values *)
Theorem C38_lines : forall w p xs zs,
  split_ws (join [sp] (map (fmt_f w p) xs)) = map (fmt_f 0 p) xs /\
  split_ws (join [sp] (map (fmt_d w) zs)) = map str_of_Z zs /\
  Forall2 (fun t z => parse_int t = Some z) (map str_of_Z zs) zs.
Proof.
  intros w p xs zs. split; [apply split_ws_join_fmtf|]. split; [apply split_ws_join_fmtd|].
  induction zs; constructor; auto. apply parse_int_str.
Qed.
Print Assumptions C38_lines.
(** a double that is the nearest to a decimal with p digits is read back exactly *)
Theorem C38_exact : forall w p x, p <= 300 -> fits p x ->
  exists t, split_ws (fmt_f w p x) = [t] /\ parse_float t = Some x.
Proof.
  intros w p x P F. exists (fmt_f 0 p x). split; [apply split_ws_fmtf|].
  change (fmt_f 0 p x) with (fixed_text p x). rewrite parse_float_fixed. f_equal.
  apply reread_fits; auto. eapply fits_finite; eauto.
Qed.
Print Assumptions C38_exact.
Definition num (s : string) : float := match parse_float (lit s) with Some x => x | None => FNan end.
Example C38_case : fmt_f 13 9 (num "-123456789.125") = lit "-123456789.125000000" /\ fmt_f 13 9 (num "0.1") = lit "  0.100000000" /\
  wf_float (num "0.1") /\ finite (num "0.1") = true /\ fits 9 (num "0.1").
Proof.
  split; [vm_compute; reflexivity|]. split; [vm_compute; reflexivity|]. split; [apply (parse_float_wf (lit "0.1")); vm_compute; reflexivity|].
  split; [vm_compute; reflexivity|]. exists false, 100000000%N. split; vm_compute; reflexivity.
Qed.

(** ** C40: read_from_file(contains=...) *)
(** [id] occurs in the line *)
Definition occurs (id line : str) : Prop := exists a b, line = a ++ id ++ b.
(** with a list of identifiers: exactly the lines in which one occurs, in file
    order, each repeated once per identifier that occurs in it *)
Theorem C40_lines_exact : forall path handler ids data, file_data path handler = Ok data ->
  exists r, read_from_file path handler (CMany ids) = Ok r /\
    r = concat (map (fun line => repeat line (length (filter (fun id => substrb id line) ids))) data) /\
    (forall l, In l r <-> In l data /\ exists id, In id ids /\ occurs id l).
Proof.
  intros path handler ids data H. unfold read_from_file. rewrite H. cbn [bind]. eexists. split; [reflexivity|].
  assert (filter_lines (CMany ids) data = concat (map (fun line => repeat line (length (filter (fun id => substrb id line) ids))) data)) as E.
  { unfold filter_lines. cbn [contains_elements]. rewrite flat_map_concat_map. f_equal. apply map_ext. intros l.
    induction ids as [|id ids IH]; auto. cbn [flat_map filter]. rewrite IH. destruct (substrb id l); reflexivity. }
  rewrite E. split; [reflexivity|]. intros l. rewrite in_concat. split.
  - intros [x [H1 H2]]. apply in_map_iff in H1 as [line [<- H1]]. pose proof (repeat_spec _ _ _ H2) as ->. split; auto.
    destruct (filter (fun id => substrb id line) ids) as [|id r] eqn:F; [destruct H2|].
    assert (In id (filter (fun id => substrb id line) ids)) as K by (rewrite F; left; auto). apply filter_In in K as [K1 K2].
    exists id. split; auto. apply substrb_spec. exact K2.
  - intros [H1 [id [H2 H3]]]. exists (repeat l (length (filter (fun id => substrb id l) ids))). split; [apply in_map_iff; eauto|].
    assert (In id (filter (fun id => substrb id l) ids)) as K by (apply filter_In; split; auto; apply substrb_spec; exact H3).
    destruct (filter (fun id => substrb id l) ids); [destruct K|left; reflexivity].
Qed.
Print Assumptions C40_lines_exact.
(** so when at most one identifier occurs in each line, each matching line is
    returned exactly once *)
Theorem C40_once_partial : forall path handler ids data, file_data path handler = Ok data ->
  (forall l, In l data -> length (filter (fun id => substrb id l) ids) <= 1) ->
  read_from_file path handler (CMany ids) = Ok (filter (fun l => existsb (fun id => substrb id l) ids) data).
Proof.
  intros path handler ids data H Once. destruct (C40_lines_exact path handler ids data H) as [r [-> [-> _]]]. f_equal. clear H.
  induction data as [|l data IH]; auto. cbn [map concat filter]. rewrite IH by (intros; apply Once; right; auto).
  specialize (Once l (or_introl eq_refl)).
  assert (existsb (fun id => substrb id l) ids = negb (length (filter (fun id => substrb id l) ids) =? 0)) as ->.
  { clear. induction ids as [|id ids IH]; auto. cbn [existsb filter]. rewrite IH. destruct (substrb id l); reflexivity. }
  destruct (length (filter (fun id => substrb id l) ids)) as [|[|n]]; [reflexivity|reflexivity|lia].
Qed.
Print Assumptions C40_once_partial.
(** false in general: a line is duplicated when two identifiers occur in it, and a
    single identifier given as a string is matched character by character *)
Theorem C40_contains_refuted :
  read_from_file None (Some (lit "abc")) (CMany [lit "a"; lit "b"]) = Ok [lit "abc"; lit "abc"] /\
  read_from_file None (Some (lit "TITEL")) (COne (lit "LE")) = Ok [lit "TITEL"; lit "TITEL"] /\
  read_from_file None (Some (lit "EXL")) (COne (lit "LE")) = Ok [lit "EXL"; lit "EXL"].
Proof. vm_compute. auto. Qed.
Print Assumptions C40_contains_refuted.
(** no [contains]: the whole file *)
Theorem C40_no_filter : forall path handler, read_from_file path handler CNone = file_data path handler.
Proof. intros. unfold read_from_file. destruct (file_data path handler); reflexivity. Qed.
Print Assumptions C40_no_filter.
