(** Model of parsevasp/eigenval.py.  Loggers are not modelled.  numpy arrays are nested
    lists: kpoints[k][j], eigenvalues[spin][k][band]. *)
From Coq Require Import Ascii String List NArith ZArith Bool Lia.
From Verif Require Import PyBase PyNum UtilsModel LineModel.
Import ListNotations.
Local Open Scope list_scope.

(** utils.py:389 empty_line = r'[\r\n]\s*[\r\n]': a newline, and white space up to the last
    newline of a run of white space.  [last_newline t]: where that run ends, after a newline *)
Definition is_newline (c : ascii) : bool := (aeqb c cr || aeqb c nl)%bool.
Fixpoint last_newline (t : str) : option nat :=
  match t with
  | [] => None
  | c :: r => if is_space c then
                match last_newline r with
                | Some k => Some (S k)
                | None => if is_newline c then Some 1 else None
                end
              else None
  end.
(** re.split(empty_line, t): [skip] characters of a match are still to be passed over *)
Fixpoint split_empty (skip : nat) (t : str) : list str :=
  match t with
  | [] => [[]]
  | c :: r =>
      match skip with
      | S k => split_empty k r
      | O =>
          match (if is_newline c then last_newline r else None) with
          | Some k => [] :: split_empty k r
          | None => match split_empty 0 r with [] => [[c]] | w :: ws => (c :: w) :: ws end
          end
      end
  end.
(** eigenval.py:102, 108: words of the lines of the blocks, without empty lines *)
Definition is_nil {A} (l : list A) : bool := match l with [] => true | _ => false end.
Definition block_words (block : str) : list (list str) := filter (fun x => negb (is_nil x)) (map split_ws (splitlines block)).

(** array[i] = x *)
Fixpoint set_nth {A} (n : nat) (x : A) (l : list A) : list A :=
  match l, n with
  | [], _ => []
  | _ :: r, O => x :: r
  | y :: r, S n' => y :: set_nth n' x r
  end.
Definition zero : float := FFin false 0 0.
(** assigning a sequence to [n] places: as many values, or one for all *)
Definition broadcast {A} (n : nat) (l : list A) : res (list A) :=
  if Nat.eqb (length l) n then Ok l else match l with [x] => Ok (repeat x n) | _ => Exn ValueError end.
(** 114: eigenvalues[:, k, int(point[0]) - 1] = point[1:num_spins + 1] *)
Definition set_band (ns k nb : nat) (eig : list (list (list float))) (point : list str) : res (list (list (list float))) :=
  let* w := py_nth point 0 in
  let* b := to_int w in
  let i := (if (b - 1 <? 0)%Z then Z.of_nat nb + (b - 1) else b - 1)%Z in
  if ((i <? 0) || (Z.of_nat nb <=? i))%Z%bool then Exn IndexError else
  let* vs := mapM to_float (firstn ns (tl point)) in
  let* vs := broadcast ns vs in
  Ok (map (fun pv => set_nth k (set_nth (Z.to_nat i) (snd pv) (nth k (fst pv) [])) (fst pv)) (combine eig vs)).
(** 106-114 *)
Record tables := Tables { tb_kpoints : list (list float); tb_eigenvalues : list (list (list float)) }.
Definition read_block (ns nk nb k : nat) (t : tables) (words : list (list str)) : res tables :=
  match words with
  | [] => Exn IndexError                                     (* 110: pop from empty list *)
  | first :: rest =>
      let* kpi := mapM to_float first in
      if Nat.leb nk k then Exn IndexError else               (* 111 *)
      let* kpi := broadcast 4 kpi in
      let* eig := foldM (set_band ns k nb) rest (tb_eigenvalues t) in
      Ok (Tables (set_nth k kpi (tb_kpoints t)) eig)
  end.
Fixpoint read_blocks (ns nk nb k : nat) (t : tables) (blocks : list (list (list str))) : res tables :=
  match blocks with
  | [] => Ok t
  | b :: r => let* t' := read_block ns nk nb k t b in read_blocks ns nk nb (S k) t' r
  end.

Record eig_meta := EigMeta { em_line_0 : list Z; em_line_1 : line_value float; em_line_2 : line_value float;
  em_ions : Z; em_atoms : Z; em_p00 : Z; em_nspin : Z; em_cartesian : bool; em_name : str; em_some : Z; em_bands : Z; em_kp : Z }.
Record eigenval := Eigenval { eg_meta : eig_meta; eg_kpoints : list (list float); eg_eigenvalues : list (list (list float)) }.
(** 69-132 _from_list *)
Definition from_list (lines : list str) : res eigenval :=
  let* l0 := py_nth lines 0 in let* v0 := line_to_type to_int l0 in                     (* 81 *)
  let* l1 := py_nth lines 1 in let* v1 := line_to_type to_float l1 in
  let* l2 := py_nth lines 2 in let* v2 := line_to_type to_float l2 in
  let* l3 := py_nth lines 3 in let* coord := line_to_type to_str l3 in
  let* l4 := py_nth lines 4 in
  let* l5 := py_nth lines 5 in let* v5 := line_to_type to_int l5 in let* h5 := unpack 3 v5 in   (* 90 *)
  let* h0 := unpack 4 v0 in                                                              (* 98 *)
  let nk := nth 1 h5 0%Z in let nb := nth 2 h5 0%Z in let ns := nth 3 h0 0%Z in
  let blocks := map block_words (split_empty 0 (concat (skipn 6 lines))) in              (* 95, 101-102 *)
  if ((nk <? 0) || (nb <? 0) || (ns <? 0))%Z%bool then Exn ValueError else               (* 103-104: np.zeros *)
  let kn := Z.to_nat nk in let bn := Z.to_nat nb in let sn := Z.to_nat ns in
  let* t := read_blocks sn kn bn 0 (Tables (repeat (repeat zero 4) kn) (repeat (repeat (repeat zero bn) kn) sn)) blocks in
  let* cart := starts_with_c coord in                                                    (* 125 *)
  Ok (Eigenval (EigMeta h0 v1 v2 (nth 0 h0 0%Z) (nth 1 h0 0%Z) (nth 2 h0 0%Z) ns cart (line_text l4) (nth 0 h5 0%Z) nb nk)
        (tb_kpoints t) (tb_eigenvalues t)).
(** 14-67 *)
Definition eigenval_init (path : source_path) (handler : source_handler) : res eigenval :=
  if negb (is_some path) && negb (is_some handler) then Exn (SysExit 10)
  else let* lines := read_from_file path handler CNone in from_list lines.
