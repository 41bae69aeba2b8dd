(** Property C90: a number that is spoiled is refused. *)
From Coq Require Import Ascii String List NArith ZArith QArith Bool Lia Arith.
From Verif Require Import PyBase PyNum PyStrLemmas PyNumLemmas PyLines PyToken UtilsModel LineModel DoscarModel EigenvalModel KpointsModel KpointsSpec KpointsEdits KpointsCodes ArithModel PoscarModel PoscarSpec PoscarRead PoscarRoundTrip.
From Verif Require Import Props_Kpoints Props_Poscar Props_Blanks.
Import ListNotations.
Local Open Scope list_scope.
Local Open Scope bool_scope.
Local Open Scope nat_scope.

(** ** Specification *)
(** [ls'] is [ls] with line [i] (from 0) replaced by [l'] *)
Definition replaced (ls ls' : list str) (i : nat) (l' : str) : Prop := exists a l b, ls = a ++ l :: b /\ ls' = a ++ l' :: b /\ length a = i.
(** one of the first [n] words of a line is not accepted by float(), by int() *)
Definition bad_float (n : nat) (l : str) : Prop := exists w, In w (firstn n (split_ws l)) /\ parse_float w = None.
Definition bad_int (n : nat) (l : str) : Prop := exists w, In w (firstn n (split_ws l)) /\ parse_int w = None.
Definition any_bad_float (l : str) : Prop := exists w, In w (split_ws l) /\ parse_float w = None.
Definition any_bad_int (l : str) : Prop := exists w, In w (split_ws l) /\ parse_int w = None.

(** ** Lists *)
Lemma replaced_at ls ls' i l' : replaced ls ls' i l' -> nth_error ls' i = Some l' /\ (exists l, nth_error ls i = Some l) /\ (forall j, j <> i -> nth_error ls' j = nth_error ls j) /\ length ls' = length ls.
Proof.
  intros (a & l & b & -> & -> & <-). repeat split.
  - rewrite nth_error_app2, Nat.sub_diag by lia. reflexivity.
  - exists l. rewrite nth_error_app2, Nat.sub_diag by lia. reflexivity.
  - intros j N. destruct (Nat.lt_ge_cases j (length a)) as [L|L]; [rewrite !nth_error_app1 by lia; auto|].
    rewrite !nth_error_app2 by lia. destruct (j - length a) as [|k] eqn:E; [lia|reflexivity].
  - rewrite !app_length. reflexivity.
Qed.
Lemma replaced_map f ls ls' i l' : replaced ls ls' i l' -> replaced (map f ls) (map f ls') i (f l').
Proof. intros (a & l & b & -> & -> & <-). exists (map f a), (f l), (map f b). rewrite !map_app, map_length. auto. Qed.
Lemma mapM_bad {T U} (f g : T -> res U) x e : forall l r, mapM f l = Ok r -> In x l -> g x = Exn e -> (forall y, y <> x -> g y = f y) -> (forall a b : T, {a = b} + {a <> b}) -> mapM g l = Exn e.
Proof.
  induction l as [|a l IH]; intros r H I E O D; [destruct I|]. cbn [mapM] in *. apply bind_ok in H as [b [H1 H]]. apply bind_ok in H as [c [H2 H]].
  destruct (D a x) as [->|N]; [rewrite E; reflexivity|]. destruct I as [->|I]; [congruence|]. rewrite (O a N), H1. cbn [bind]. rewrite (IH c); auto.
Qed.
Lemma mapM_In_exn {T U} (f : T -> res U) e : forall l x, In x l -> f x = Exn e -> (forall y e', f y = Exn e' -> e' = e) -> mapM f l = Exn e.
Proof.
  induction l as [|a l IH]; intros x I E K; [destruct I|]. cbn [mapM]. destruct (f a) as [b|e'] eqn:F; cbn [bind]; [|f_equal; eauto].
  destruct I as [->|I]; [congruence|]. rewrite (IH x); auto.
Qed.
Lemma floats_bad l : any_bad_float l -> mapM get_float (split_ws l) = Exn ValueError.
Proof. intros (w & I & B). apply (mapM_In_exn _ _ _ w); auto; unfold get_float; [rewrite B; auto|]. intros y e'. destruct (parse_float y); cbn; congruence. Qed.
Lemma ints_bad l : any_bad_int l -> mapM get_int (split_ws l) = Exn ValueError.
Proof. intros (w & I & B). apply (mapM_In_exn _ _ _ w); auto; unfold get_int; [rewrite B; auto|]. intros y e'. destruct (parse_int y); cbn; congruence. Qed.
Lemma firsts_bad n l : bad_float n l -> mapM get_float (firstn n (split_ws l)) = Exn ValueError.
Proof. intros (w & I & B). apply (mapM_In_exn _ _ _ w); auto; unfold get_float; [rewrite B; auto|]. intros y e'. destruct (parse_float y); cbn; congruence. Qed.

(** ** KPOINTS *)
Lemma read_point_bad l : bad_float 4 l -> read_point l = Exn ValueError.
Proof.
  intros (w & I & B). unfold read_point, get_float.
  destruct (split_ws l) as [|a [|b [|c r]]]; cbn [firstn] in I; [destruct I| | |]; cbn [py_nth nth_error of_option bind].
  - destruct I as [->|[]]. rewrite B. reflexivity.
  - destruct (parse_float a) eqn:A; [|reflexivity]. cbn [of_option bind]. destruct I as [->|[->|[]]]; [congruence|]. rewrite B. reflexivity.
  - destruct (parse_float a) eqn:A; [|reflexivity]. cbn [of_option bind]. destruct (parse_float b) eqn:Eb; [|reflexivity]. cbn [of_option bind].
    destruct (parse_float c) eqn:Ec; [|reflexivity]. cbn [of_option bind].
    destruct I as [->|[->|[->|I]]]; try congruence. destruct r as [|d r]; [destruct I|]. destruct I as [->|[]]. rewrite B. reflexivity.
Qed.
Definition end_of (ch : channel) : str := match ch with FromString => [] | _ => [nl] end.
Lemma klines_unlines ch ls : forallb nobreak ls = true -> klines ch (unlines ls) = map (fun l : str => l ++ end_of ch) ls.
Proof.
  intros N. destruct ch; cbn [klines end_of].
  - rewrite splitlines_unlines by auto. symmetry. rewrite <- (map_id ls) at 2. apply map_ext. intros l. apply app_nil_r.
  - rewrite translate_nochange by (apply unlines_nocr; auto). apply readlines_unlines. auto using forallb_nobreak_nonl.
  - apply readlines_unlines. auto using forallb_nobreak_nonl.
Qed.
Lemma end_blank ch : blank (end_of ch) = true.
Proof. destruct ch; reflexivity. Qed.
Lemma words_end ch l : split_ws (l ++ end_of ch) = split_ws l.
Proof. destruct ch; cbn [end_of]; [rewrite app_nil_r; auto| |]; apply split_ws_nl. Qed.
Lemma count_line_kept ls ls' i l' n : replaced ls ls' i l' -> i <> 1 -> count_line ls n -> count_line ls' n.
Proof. intros R N (l & t & r & H & K). exists l, t, r. rewrite (proj1 (proj2 (proj2 (replaced_at _ _ _ _ R)))) by auto. auto. Qed.
Lemma letter_line_kept ls ls' i l' j c : replaced ls ls' i l' -> i <> j -> letter_line ls j c -> letter_line ls' j c.
Proof. intros R N (l & r & H & K). exists l, r. rewrite (proj1 (proj2 (proj2 (replaced_at _ _ _ _ R)))) by auto. auto. Qed.
Lemma count_unique ls n m : count_line ls n -> count_line ls m -> n = m.
Proof. intros (l & t & r & A & B & C) (l' & t' & r' & A' & B' & C'). rewrite A in A'. injection A' as <-. rewrite B in B'. injection B' as <- <-. congruence. Qed.
Lemma letter_unique ls i c d : letter_line ls i c -> letter_line ls i d -> c = d.
Proof. intros (l & r & A & B) (l' & r' & A' & B'). rewrite A in A'. injection A' as <-. congruence. Qed.

Lemma body_explicit_bad ls ls' i l' n c b : body ls n c = Ok b -> replaced ls ls' i l' -> (0 < n)%Z -> c <> "l"%char -> 3 <= i < 3 + Z.to_nat n -> bad_float 4 l' ->
  body ls' n c = Exn ValueError.
Proof.
  intros H R N L I B. destruct (replaced_at _ _ _ _ R) as (R1 & _ & R2 & _). unfold body in *.
  assert ((n <=? 0)%Z = false) as E1 by (apply Z.leb_gt; lia). assert (aeqb c "l" = false) as E2 by (unfold aeqb; apply Ascii.eqb_neq; auto).
  rewrite E1, E2 in *. cbn [negb andb] in *. apply bind_ok in H as [[[po te] vo] [H _]].
  destruct (aeqb c "k" || aeqb c "c")%bool; [discriminate H|]. apply bind_ok in H as [pts [H _]].
  unfold read_range in *. rewrite (mapM_bad _ _ i ValueError _ _ H); auto using Nat.eq_dec.
  - apply in_seq. lia.
  - unfold line_at, py_nth. rewrite R1. cbn [of_option bind]. apply read_point_bad. auto.
  - intros y Y. unfold line_at, py_nth. rewrite R2 by auto. reflexivity.
Qed.
Lemma body_mesh_bad ls ls' i l' n c b : body ls n c = Ok b -> replaced ls ls' i l' -> (n <= 0)%Z ->
  In c ["g"; "m"]%char /\ (i = 3 /\ any_bad_int l' \/ i = 4 /\ length ls = 5 /\ any_bad_float l') \/ c = "r"%char /\ 3 <= i <= 6 /\ any_bad_float l' ->
  body ls' n c = Exn ValueError.
Proof.
  intros H R N K. destruct (replaced_at _ _ _ _ R) as (R1 & _ & R2 & R3). unfold body in *.
  assert ((n <=? 0)%Z = true) as E1 by (apply Z.leb_le; lia). rewrite E1 in *. cbn [negb andb bind] in *.
  apply bind_ok in H as [[[[ce di] gv] sh] [H _]]. enough (read_automatic c ls' = Exn ValueError) as -> by reflexivity.
  destruct K as [[C K]|[-> [I B]]].
  - assert (exists cs, forall l, read_automatic c l =
      (let* l3 := line_at l 3 in let* d := ints_of_line l3 in
       let* sh := if (length l =? 5)%nat then let* l4 := line_at l 4 in let* x := floats_of_line l4 in Ok (kfloats x) else Ok KNone in
       Ok (KStr cs, kints d, KNone, sh))) as [cs E] by (destruct C as [<-|[<-|[]]]; eexists; intros l; reflexivity).
    rewrite E in *. unfold line_at, py_nth, ints_of_line, floats_of_line in *. destruct K as [[-> B]|[-> [L B]]].
    + rewrite R1. cbn [of_option bind]. rewrite ints_bad by auto. reflexivity.
    + rewrite R2, R3 by lia. apply bind_ok in H as [l3 [H3 H]]. rewrite H3. cbn [bind]. apply bind_ok in H as [d [H4 H]]. rewrite H4. cbn [bind]. rewrite L, R1. cbn [Nat.eqb of_option bind]. rewrite floats_bad by auto. reflexivity.
  - unfold read_automatic in *. cbn [aeqb Ascii.eqb Bool.eqb orb] in *. change (aeqb "r" "a") with false in *. change (aeqb "r" "g") with false in *. change (aeqb "r" "m") with false in *. change (aeqb "r" "r") with true in *. cbn [orb] in *. cbv iota in *.
    apply bind_ok in H as [g [H3 H]]. destruct (Nat.eq_dec i 6) as [->|N6].
    + assert (mapM (fun i => let* l := line_at ls' i in let* x := floats_of_line l in Ok (kfloats x)) [3; 4; 5] = Ok g) as ->.
      { rewrite <- H3. cbn [mapM]. unfold line_at, py_nth. rewrite !R2 by lia. reflexivity. }
      cbn [bind]. unfold line_at, py_nth. rewrite R1. cbn [of_option bind]. unfold floats_of_line. rewrite floats_bad by auto. reflexivity.
    + rewrite (mapM_bad _ _ i ValueError _ _ H3); auto using Nat.eq_dec.
      * cbn. lia.
      * unfold line_at, py_nth. rewrite R1. cbn [of_option bind]. unfold floats_of_line. rewrite floats_bad by auto. reflexivity.
      * intros y Y. unfold line_at, py_nth. rewrite R2 by auto. reflexivity.
Qed.
Lemma replaced_skipn k ls ls' i l' : replaced ls ls' (k + i) l' -> replaced (skipn k ls) (skipn k ls') i l'.
Proof.
  intros (a & l & b & -> & -> & L). exists (skipn k a), l, b. rewrite !skipn_app. rewrite L. replace (k - (k + i)) with 0 by lia. rewrite skipn_length, L. repeat split; auto. lia.
Qed.
Lemma mapM_replaced {U} (f : str -> res U) ls ls' i l' r e : mapM f ls = Ok r -> replaced ls ls' i l' -> f l' = Exn e -> mapM f ls' = Exn e.
Proof.
  intros H (a & l & b & -> & -> & _) E. rewrite mapM_app in H |- *. apply bind_ok in H as [x [H1 H]]. rewrite H1. cbn [bind mapM]. rewrite E. reflexivity.
Qed.
Lemma body_line_bad ls ls' i l' n b : body ls n "l" = Ok b -> replaced ls ls' i l' -> 4 <= i -> bad_float 3 l' -> body ls' n "l" = Exn ValueError.
Proof.
  intros H R I B. destruct (replaced_at _ _ _ _ R) as (R1 & _ & R2 & R3). unfold body in *. change (aeqb "l" "l") with true in *. cbn [negb] in *. rewrite andb_false_r in *. cbn [bind] in *.
  apply bind_ok in H as [q [H1 H]]. assert ((if (n <=? 0)%Z then read_automatic "l" ls' else Ok (KNone, KNone, KNone, KNone)) = Ok q) as ->.
  { rewrite <- H1. destruct (n <=? 0)%Z; auto. }
  cbn [bind]. destruct q as [[[ce di] gv] sh]. apply bind_ok in H as [pp [H _]]. unfold line_at, py_nth in *. rewrite R2 by lia.
  apply bind_ok in H as [l3 [H3 H]]. rewrite H3. cbn [bind]. apply bind_ok in H as [w [H4 H]]. rewrite H4. cbn [bind]. apply bind_ok in H as [r [H5 H]]. rewrite H5. cbn [bind].
  destruct (aeqb (lower1 r) "r" || aeqb (lower1 r) "d"); [|discriminate H]. apply bind_ok in H as [pts [H _]]. unfold read_line_points in *. apply bind_ok in H as [x [H _]].
  rewrite (mapM_replaced _ _ (skipn 4 ls') (i - 4) l' _ ValueError H); auto.
  - apply replaced_skipn. replace (4 + (i - 4)) with i by lia. auto.
  - assert (seqb l' [nl] = false) as ->. { destruct (seqb l' [nl]) eqn:E; auto. apply seqb_eq in E. subst. destruct B as (w' & W & _). destruct W. }
    rewrite firsts_bad by auto. reflexivity.
Qed.
Section KpointsTexts.
Variables (ch : channel) (ls ls' : list str) (es : kentries) (n : Z) (c : ascii) (i : nat) (l' : str).
Hypothesis NB : forallb nobreak ls = true.
Hypothesis NB' : nobreak l' = true.
Hypothesis READ : kread ch (unlines ls) = Ok es.
Hypothesis COUNT : count_line ls n.
Hypothesis LETTER : letter_line ls 2 c.
Hypothesis REPL : replaced ls ls' i l'.
Let m (l : str) : str := l ++ end_of ch.
Lemma nobreak_kept : forallb nobreak ls' = true.
Proof.
  destruct REPL as (a & l & b & E & -> & _). rewrite E in NB. rewrite forallb_app in *. cbn [forallb] in *. apply andb_prop in NB as [-> H]. apply andb_prop in H as [_ ->]. rewrite NB'. reflexivity.
Qed.
Lemma count_line_end : count_line (map m ls) n.
Proof. destruct COUNT as (l & t & r & A & B & C). exists (m l), t, r. rewrite nth_error_map, A. unfold m. rewrite words_end. auto. Qed.
Lemma letter_line_end : letter_line (map m ls) 2 c.
Proof. destruct LETTER as (l & r & A & B). exists (m l), r. rewrite nth_error_map, A. split; auto. rewrite <- B. apply strip_app_blank, end_blank. Qed.
Lemma spoiled_body e : i <> 1 -> i <> 2 -> (forall b, body (map m ls) n (lower1 c) = Ok b -> body (map m ls') n (lower1 c) = Exn e) -> kread ch (unlines ls') = Exn e.
Proof.
  intros I1 I2 H. rewrite kread_eq. rewrite klines_unlines by apply nobreak_kept. change (KpointsProofs.build (KpointsModel.from_list (map m ls')) = Exn e).
  apply kread_ok in READ as [F _]. rewrite klines_unlines in F by auto. change (KpointsModel.from_list (map m ls) = Ok es) in F.
  pose proof count_line_end as C1. pose proof letter_line_end as C2. pose proof (replaced_map m _ _ _ _ REPL) as R.
  rewrite (from_list_body _ _ _ C1 C2) in F. apply bind_ok in F as [b [F _]].
  rewrite (from_list_body (map m ls') n c).
  - rewrite (H b F). reflexivity.
  - apply (count_line_kept _ _ _ _ _ R); auto.
  - apply (letter_line_kept _ _ _ _ _ _ R); auto.
Qed.
Lemma bad_float_end k : bad_float k l' -> bad_float k (m l').
Proof. unfold bad_float, m. rewrite words_end. auto. Qed.
Lemma any_float_end : any_bad_float l' -> any_bad_float (m l').
Proof. unfold any_bad_float, m. rewrite words_end. auto. Qed.
Lemma any_int_end : any_bad_int l' -> any_bad_int (m l').
Proof. unfold any_bad_int, m. rewrite words_end. auto. Qed.
Lemma lower1_l x : lower1 x = "l"%char <-> In x ["l"; "L"]%char.
Proof.
  assert (Bool.eqb (aeqb (lower1 x) "l") (existsb (aeqb x) ["l"; "L"]%char) = true) as H by (revert x; refine (forall_ascii _ _); vm_compute; reflexivity).
  apply Bool.eqb_prop in H. unfold aeqb in H. rewrite <- (Ascii.eqb_eq (lower1 x)), H, existsb_exists. split.
  - intros (y & I & E). apply Ascii.eqb_eq in E. subst. auto.
  - intros I. exists x. split; auto. apply Ascii.eqb_refl.
Qed.
Lemma explicit_bad : (0 < n)%Z -> ~ In c ["l"; "L"]%char -> 3 <= i < 3 + Z.to_nat n -> bad_float 4 l' -> kread ch (unlines ls') = Exn ValueError.
Proof.
  intros N C I B. apply spoiled_body; try lia. intros b H. apply (body_explicit_bad _ _ i (m l') _ _ _ H); auto using bad_float_end.
  - apply replaced_map. auto.
  - rewrite lower1_l. auto.
Qed.
Lemma mesh_bad : (n <= 0)%Z ->
  In c ["g"; "G"; "m"; "M"]%char /\ (i = 3 /\ any_bad_int l' \/ i = 4 /\ length ls = 5 /\ any_bad_float l') \/ In c ["r"; "R"]%char /\ 3 <= i <= 6 /\ any_bad_float l' -> kread ch (unlines ls') = Exn ValueError.
Proof.
  intros N K. apply spoiled_body; try lia. intros b H. apply (body_mesh_bad _ _ i (m l') _ _ _ H); auto using replaced_map.
  destruct K as [[C K]|[C [I B]]]; [left|right].
  - split; [repeat (destruct C as [<-|C]; [cbn; auto|]); destruct C|]. rewrite map_length. destruct K as [[-> K]|[-> [L K]]]; [left|right]; auto using any_int_end, any_float_end.
  - split; [repeat (destruct C as [<-|C]; [reflexivity|]); destruct C|]. auto using any_float_end.
Qed.
Lemma line_bad : In c ["l"; "L"]%char -> 4 <= i -> bad_float 3 l' -> kread ch (unlines ls') = Exn ValueError.
Proof.
  intros C I B. apply spoiled_body; try lia. rewrite (proj2 (lower1_l c)) by auto. intros b H. apply (body_line_bad _ _ i (m l') _ _ H); auto using bad_float_end, replaced_map.
Qed.
End KpointsTexts.
(** a coordinate or the weight of a point *)
Theorem C90_kpoints_explicit : forall ch ls ls' es n c i l', forallb nobreak ls = true -> nobreak l' = true ->
  kread ch (unlines ls) = Ok es -> count_line ls n -> letter_line ls 2 c -> replaced ls ls' i l' ->
  (0 < n)%Z -> ~ In c ["l"; "L"]%char -> 3 <= i < 3 + Z.to_nat n -> bad_float 4 l' ->
  kread ch (unlines ls') = Exn ValueError.
Proof. exact explicit_bad. Qed.
Print Assumptions C90_kpoints_explicit.
(** a division, a shift, a component of a generating vector *)
Theorem C90_kpoints_automatic : forall ch ls ls' es n c i l', forallb nobreak ls = true -> nobreak l' = true ->
  kread ch (unlines ls) = Ok es -> count_line ls n -> letter_line ls 2 c -> replaced ls ls' i l' -> (n <= 0)%Z ->
  In c ["g"; "G"; "m"; "M"]%char /\ (i = 3 /\ any_bad_int l' \/ i = 4 /\ length ls = 5 /\ any_bad_float l') \/ In c ["r"; "R"]%char /\ 3 <= i <= 6 /\ any_bad_float l' ->
  kread ch (unlines ls') = Exn ValueError.
Proof. exact mesh_bad. Qed.
Print Assumptions C90_kpoints_automatic.
(** a coordinate of an end point *)
Theorem C90_kpoints_line : forall ch ls ls' es n c i l', forallb nobreak ls = true -> nobreak l' = true ->
  kread ch (unlines ls) = Ok es -> count_line ls n -> letter_line ls 2 c -> replaced ls ls' i l' ->
  In c ["l"; "L"]%char -> 4 <= i -> bad_float 3 l' ->
  kread ch (unlines ls') = Exn ValueError.
Proof. exact line_bad. Qed.
Print Assumptions C90_kpoints_line.
Lemma count_bad L l0 l1 t q : nth_error L 0 = Some l0 -> nth_error L 1 = Some l1 -> split_ws l1 = t :: q -> parse_int t = None -> KpointsModel.from_list L = Exn ValueError.
Proof. intros H0 H1 S B. unfold KpointsModel.from_list, line_at, py_nth. rewrite H0, H1. cbn [of_option bind]. rewrite S. cbn [nth_error of_option bind]. unfold get_int. rewrite B. reflexivity. Qed.
(** the number of points *)
Theorem C90_kpoints_count : forall ch ls ls' es l', forallb nobreak ls = true -> nobreak l' = true ->
  kread ch (unlines ls) = Ok es -> replaced ls ls' 1 l' -> bad_int 1 l' -> kread ch (unlines ls') = Exn ValueError.
Proof.
  intros ch ls ls' es l' NB NB' READ R (w & I & B). rewrite kread_eq, klines_unlines by (eapply nobreak_kept; eauto).
  pose proof (replaced_map (fun l => l ++ end_of ch) _ _ _ _ R) as R'. destruct (replaced_at _ _ _ _ R') as (R1 & (l & R0) & R2 & R3).
  destruct (split_ws l') as [|t q] eqn:E; [destruct I|]. cbn [firstn In] in I. destruct I as [->|[]].
  destruct ls as [|l0 ?]; [destruct R as (a & x & b & X & _); destruct a; discriminate|].
  rewrite (count_bad _ (l0 ++ end_of ch) (l' ++ end_of ch) w q); auto.
  - rewrite R2 by lia. reflexivity.
  - rewrite words_end. auto.
Qed.
Print Assumptions C90_kpoints_count.
Definition with_line (ls : list string) (i : nat) (l : string) : list str := firstn i (map lit ls) ++ lit l :: skipn (S i) (map lit ls).
Definition three_points : list string := ["three points"; "3"; "Direct"; "0 0 0 1"; "0.5 0 0 2"; "0.5 0.5 0 1"]%string.
Example C90_kpoints_case : forallb nobreak (map lit three_points) = true /\ (exists es, kread FromFile (unlines (map lit three_points)) = Ok es) /\
  count_line (map lit three_points) 3 /\ letter_line (map lit three_points) 2 "D" /\
  replaced (map lit three_points) (with_line three_points 4 "0.5 0.0.0 0 2") 4 (lit "0.5 0.0.0 0 2") /\ bad_float 4 (lit "0.5 0.0.0 0 2") /\
  kread FromFile (unlines (with_line three_points 4 "0.5 0.0.0 0 2")) = Exn ValueError /\
  kread FromString (unlines (with_line ["mesh"; "0"; "Gamma"; "4 4 4"]%string 3 "4 4 4.5")) = Exn ValueError.
Proof.
  split; [vm_compute; reflexivity|]. split; [eexists; vm_compute; reflexivity|]. split; [exists (lit "3"), (lit "3"), []; vm_compute; auto|]. split; [exists (lit "Direct"), (lit "irect"); vm_compute; auto|].
  split; [exists (map lit (firstn 4 three_points)), (lit "0.5 0 0 2"), (map lit (skipn 5 three_points)); vm_compute; auto|]. split; [exists (lit "0.0.0"); vm_compute; auto|]. split; vm_compute; reflexivity.
Qed.
