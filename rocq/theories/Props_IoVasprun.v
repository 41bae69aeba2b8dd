(** Properties of Vasprun objects made from handlers (C84): statements, with examples. *)
From Coq Require Import Ascii String List NArith ZArith Bool Lia Arith.
From Verif Require Import PyBase PyStrLemmas UtilsModel IoModel IoProofs IoVasprun.
From Verif Require VasprunModel.
Import ListNotations.
Local Open Scope list_scope.
Local Open Scope bool_scope.
Local Open Scope nat_scope.

(** the source a handler stands for *)
Definition source_of (binary : bool) (t : str) : VasprunModel.xsource := if binary then VasprunModel.FromBytes t else VasprunModel.FromText t.
Lemma prepare_eq binary f : f_open f = true ->
  prepare binary f = (FObj (f_text f) 0 true, let* b := VasprunModel.xml_truncated (source_of binary (f_text f)) in Ok (length (f_text f), b)).
Proof.
  destruct f as [t p o]. cbn [f_open f_text]. intros ->. unfold prepare, file_size, f_seek. cbn [f_open f_text f_pos bind].
  unfold set_truncated. destruct (Nat.ltb 1024 (length t)) eqn:L.
  - apply Nat.ltb_lt in L. unfold f_seek, f_last_line, f_read, f_rest. cbn [f_open f_text f_pos bind fst snd].
    assert (skipn (length t - 1024) t <> []) as NE by (intros K; apply (f_equal (@length ascii)) in K; rewrite skipn_length in K; cbn [length] in K; lia).
    destruct (skipn (length t - 1024) t) as [|c r] eqn:E; [congruence|]. cbn [f_open f_text].
    destruct binary; cbn [source_of VasprunModel.xml_truncated]; apply Nat.ltb_lt in L; rewrite L; [rewrite E|]; reflexivity.
  - destruct binary; cbn [source_of VasprunModel.xml_truncated]; rewrite L; reflexivity.
Qed.
(** wherever the handler stands, the whole file is parsed, and the method is the one the content asks for *)
Theorem C84_vasprun_rewinds : forall X binary event (parse : VasprunModel.method -> str -> res X) before text tr,
  VasprunModel.xml_truncated (source_of binary (before ++ text)) = Ok tr ->
  fst (vasprun_on binary event parse (FObj (before ++ text) (length before) true)) =
  parse (VasprunModel.choose (N.of_nat (length (before ++ text))) tr event) (before ++ text).
Proof.
  intros X binary event parse before text tr T. unfold vasprun_on. rewrite prepare_eq by reflexivity. cbn [f_text]. rewrite T. reflexivity.
Qed.
Print Assumptions C84_vasprun_rewinds.
(** a second object made from the same handler is the same as the first *)
Theorem C84_vasprun_twice : forall X binary event (parse : VasprunModel.method -> str -> res X) f, f_open f = true ->
  fst (vasprun_on binary event parse (snd (vasprun_on binary event parse f))) = fst (vasprun_on binary event parse f).
Proof.
  intros X binary event parse f O. unfold vasprun_on at 2 3. rewrite !prepare_eq by auto.
  destruct (VasprunModel.xml_truncated (source_of binary (f_text f))) as [b|e] eqn:T; cbn [bind].
  - unfold parse_handler at 1 2, f_read. cbn [f_open f_text f_pos fst snd]. unfold vasprun_on. rewrite prepare_eq by reflexivity. cbn [f_text]. rewrite T. reflexivity.
  - cbn [fst snd]. unfold vasprun_on. rewrite prepare_eq by reflexivity. cbn [f_text]. rewrite T. reflexivity.
Qed.
Print Assumptions C84_vasprun_twice.
(** a closed handler is refused *)
Theorem C84_vasprun_closed : forall X binary event (parse : VasprunModel.method -> str -> res X) f, f_open f = false ->
  vasprun_on binary event parse f = (Exn ValueError, f).
Proof. intros X binary event parse [t p o]. cbn. intros ->. reflexivity. Qed.
Print Assumptions C84_vasprun_closed.
Example C84_vasprun_case : forall n, VasprunModel.xml_truncated (source_of true (lit "<modeling>" ++ lit "</modeling>")) = Ok true /\
  vasprun_on true false (fun _ t => Ok (length t)) (FObj (lit "<modeling></modeling>") n true) = (Ok 21, FObj (lit "<modeling></modeling>") 21 true).
Proof. intros n. split; reflexivity. Qed.
