(** Vocabulary used to state the KPOINTS theorems. *)
From Coq Require Import Ascii String List NArith ZArith QArith Qabs Bool Lia.
From Verif Require Import PyBase PyNum PyStrLemmas PyNumLemmas PyFmtLemmas KpointsModel.
Import ListNotations.
Local Open Scope list_scope.
Local Open Scope nat_scope.

(** the object holds [v] under key [k] *)
Definition holds (es : kentries) (k : string) (v : kval) : Prop := dget (lit k) es = Some v.

(** a comment without surrounding blanks, '#' or line breaks *)
Definition plain_comment (c : str) : Prop :=
  strip c = c /\ ~ In "#"%char c /\ (forall a, In a c -> is_break a = false).
(** the comment entry is None or a plain comment; [shown_comment] is what a reader sees *)
Definition comment_ok (v : kval) : Prop :=
  match v with KNone => True | KStr c => plain_comment c | _ => False end.
Definition shown_comment (v : kval) : str := match v with KStr c => c | _ => lit "No comment" end.

(** every float in the value is an IEEE double *)
Fixpoint doubles (v : kval) : Prop :=
  match v with
  | KFloat x => wf_float x
  | KPt p => Forall wf_float (kp_point p) /\ match kp_weight p with Some w => wf_float w | None => True end
  | KList l => (fix all (l : list kval) : Prop := match l with [] => True | a :: r => doubles a /\ all r end) l
  | _ => True
  end.

(** The text [txt] read through each of the three channels gives [es]. *)
Definition reads_back (txt : str) (es : kentries) : Prop :=
  kpoints_of_string txt = Ok es /\ kpoints_of_file txt = Ok es /\ kpoints_of_handler txt = Ok es.

(** what a reader sees of a point written with [prec] decimals: the three
    coordinates and the weight (1 when None), each re-read from its text *)
Definition point_image (prec : nat) (p : kpoint) : kpoint :=
  Kpoint (map (reread prec) (firstn 3 (kp_point p)))
         (Some (reread prec (match kp_weight p with Some w => w | None => float_of_Z 1 end))) true.
Definition float_image (prec : nat) (v : kval) : kval :=
  match v with KFloat x => KFloat (reread prec x) | _ => v end.
(** a list of floats re-read *)
Definition floats_image (prec : nat) (v : kval) : kval :=
  match v with KList l => KList (map (float_image prec) l) | _ => v end.

Definition KExplicit : kval := KStr (lit "explicit").
Definition KAutomatic : kval := KStr (lit "automatic").
Definition KLine : kval := KStr (lit "line").

(** first line, second line, third line of a text as the reader sees them *)
Definition count_line (ls : list str) (n : Z) : Prop :=
  exists l t r, nth_error ls 1 = Some l /\ split_ws l = t :: r /\ parse_int t = Some n.
Definition letter_line (ls : list str) (i : nat) (c : ascii) : Prop :=
  exists l r, nth_error ls i = Some l /\ strip l = c :: r.

(** The three ways a text reaches the reader, and the lines the reader is given. *)
Inductive channel := FromString | FromFile | FromHandler.
Definition kread (ch : channel) (txt : str) : res kentries :=
  match ch with
  | FromString => kpoints_of_string txt
  | FromFile => kpoints_of_file txt
  | FromHandler => kpoints_of_handler txt
  end.
Definition klines (ch : channel) (txt : str) : list str :=
  match ch with
  | FromString => splitlines txt
  | FromFile => readlines (translate_newlines txt)
  | FromHandler => readlines txt
  end.

(** a line with three coordinates and possibly a weight *)
Definition point_line (l : str) (x y z : float) (w : option float) : Prop :=
  exists a b c r, split_ws l = a :: b :: c :: r /\
    parse_float a = Some x /\ parse_float b = Some y /\ parse_float c = Some z /\
    match r with [] => w = None | d :: _ => exists v, parse_float d = Some v /\ w = Some v end.
(** a line with exactly five integers *)
Definition five_ints (l : str) (zs : list Z) : Prop :=
  length zs = 5 /\ Forall2 (fun t z => parse_int t = Some z) (split_ws l) zs.
(** a line of floats, a line of integers *)
Definition float_line (l : str) (xs : list float) : Prop :=
  Forall2 (fun t x => parse_float t = Some x) (split_ws l) xs.
Definition int_line (l : str) (zs : list Z) : Prop :=
  Forall2 (fun t z => parse_int t = Some z) (split_ws l) zs.

(** Python position: index [n] (possibly negative) designates position [i] of a list of length [len] *)
Definition designates (n : Z) (len i : nat) : Prop :=
  i < len /\ (n = Z.of_nat i \/ n = Z.of_nat i - Z.of_nat len)%Z.

(** [y] is what float() gives back on '{:.{prec}f}'.format(x): it is within one
    unit of the last decimal, and is [x] itself when [x] is the double nearest to
    a decimal with [prec] decimals (below 2^52 units) *)
Definition rewritten (prec : nat) (x y : float) : Prop :=
  parse_float (fmt_f 0 prec x) = Some y /\
  (wf_float x -> finite x = true -> finite y = true /\ (Qabs.Qabs (fval y - fval x) <= / inject_Z (10 ^ Z.of_nat prec))%Q) /\
  (prec <= 300 -> fits prec x -> y = x).
(** the same for three coordinates and the weight (1 when None) of a point *)
Definition point_rewritten (prec : nat) (p q : kpoint) : Prop :=
  kp_direct q = true /\ length (kp_point q) = 3 /\ Forall2 (rewritten prec) (firstn 3 (kp_point p)) (kp_point q) /\
  exists w, kp_weight q = Some w /\
    rewritten prec (match kp_weight p with Some v => v | None => float_of_Z 1 end) w.
