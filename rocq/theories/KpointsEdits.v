From Coq Require Import Ascii String List NArith ZArith Bool Lia Arith.
From Verif Require Import PyBase PyNum PyStrLemmas PyNumLemmas PyFmtLemmas PyLines UtilsModel KpointsModel KpointsSpec KpointsProofs KpointsRoundTrip.
Import ListNotations.
Local Open Scope list_scope.
Local Open Scope bool_scope.
Local Open Scope nat_scope.

(** ** Reading, line by line *)
Lemma kread_eq ch txt : kread ch txt = build (from_list (klines ch txt)).
Proof. destruct ch; [apply of_string_eq|apply of_file_eq|apply of_handler_eq]. Qed.
Lemma kread_exn ch txt e : from_list (klines ch txt) = Exn e -> kread ch txt = Exn e.
Proof. intros H. rewrite kread_eq, H. reflexivity. Qed.
Lemma kread_ok ch txt es : kread ch txt = Ok es -> from_list (klines ch txt) = Ok es /\ validate es = Ok tt.
Proof.
  rewrite kread_eq. unfold build. intros H. apply bind_ok in H as [e [H1 H]]. apply bind_ok in H as [[] [H2 H]].
  inversion H; subst. auto.
Qed.

(** the first three lines *)
Lemma from_list_head ls n c : count_line ls n -> letter_line ls 2 c ->
  exists l0 l1 l2 r t q, ls = l0 :: l1 :: l2 :: r /\ split_ws l1 = t :: q /\ parse_int t = Some n /\
    head_char (strip l2) = Ok c.
Proof.
  intros (l1 & t & q & H1 & H2 & H3) (l2 & q2 & H4 & H5).
  destruct ls as [|l0 [|a [|b r]]]; try discriminate. cbn in H1, H4. inversion H1; inversion H4; subst.
  exists l0, l1, l2, r, t, q. repeat split; auto. rewrite H5. reflexivity.
Qed.
Definition body (ls : list str) (n : Z) (c : ascii) : res (kval * kval * kval * kval * kval * kval * kval * str) :=
  let automatic := (n <=? 0)%Z in
  let line_mode := aeqb c "l"%char in
  let* (points, tetra, vol) :=
    if negb automatic && negb line_mode then
      if aeqb c "k"%char || aeqb c "c"%char then Exn (SysExit 200)
      else
        let m := Z.to_nat n in
        let* pts := read_range ls 3 m read_point in
        let* (te, v) := read_tetra ls (m + 3) in
        Ok (KList pts, te, v)
    else Ok (KNone, KNone, KNone) in
  let* (centering, divisions, gv, shifts) :=
    if automatic then read_automatic c ls else Ok (KNone, KNone, KNone, KNone) in
  let* points :=
    if line_mode then
      let* l3 := line_at ls 3 in
      let* w := py_nth (split_ws l3) 0 in
      let* r := head_char w in
      if aeqb (lower1 r) "r"%char || aeqb (lower1 r) "d"%char then
        let* pts := read_line_points (skipn 4 ls) in Ok (KList pts)
      else Exn (SysExit 200)
    else Ok points in
  let mode := if line_mode then lit "line" else if automatic then lit "automatic" else lit "explicit" in
  Ok (points, tetra, vol, centering, divisions, gv, shifts, mode).
Lemma from_list_body ls n c : count_line ls n -> letter_line ls 2 c ->
  from_list ls = (let* (po, te, vo, ce, di, gv, sh, mo) := body ls n (lower1 c) in
    Ok (make_entries (KStr (strip (filter (fun c => negb (aeqb c hash)) (hd [] ls)))) di gv sh po te vo (KStr mo) ce (KInt n))).
Proof.
  intros H1 H2. destruct (from_list_head ls n c H1 H2) as (l0 & l1 & l2 & r & t & q & -> & S & P & L).
  unfold from_list, body. cbn [line_at py_nth nth_error of_option bind hd]. rewrite S. cbn [py_nth nth_error of_option bind].
  unfold get_int. rewrite P. cbn [of_option bind]. rewrite L. cbn [bind].
  set (ls := l0 :: l1 :: l2 :: r).
  change (line_at ls 3) with (py_nth ls 3).
  destruct (if negb (n <=? 0)%Z && _ then _ else _) as [[[po te] vo]|]; cbn [bind]; auto.
  destruct (if (n <=? 0)%Z then _ else _) as [[[[ce di] gv] sh]|]; cbn [bind]; auto.
  match goal with |- bind ?x _ = _ => destruct x as [pp|]; cbn [bind]; auto end.
Qed.
Lemma from_list_ok_head ls es : from_list ls = Ok es -> exists n c, count_line ls n /\ letter_line ls 2 c.
Proof.
  unfold from_list. intros H. apply bind_ok in H as [l0 [H0 H]]. apply bind_ok in H as [l1 [H1 H]].
  apply bind_ok in H as [t [Ht H]]. apply bind_ok in H as [n [Hn H]]. apply bind_ok in H as [l2 [H2 H]].
  apply bind_ok in H as [c [Hc H]]. exists n, c. clear H.
  unfold line_at, py_nth in *.
  destruct (nth_error ls 1) as [a|] eqn:E1; [|discriminate]. inversion H1; subst.
  destruct (nth_error ls 2) as [b|] eqn:E2; [|discriminate]. inversion H2; subst.
  destruct (split_ws l1) as [|t' q] eqn:S; [discriminate|]. inversion Ht; subst.
  unfold get_int in Hn. destruct (parse_int t) as [z|] eqn:P; [|discriminate]. inversion Hn; subst.
  destruct (strip l2) as [|c' q2] eqn:S2; [discriminate|]. inversion Hc; subst.
  split; [exists l1, t, q; auto|]. exists l2, q2. auto.
Qed.

Lemma read_point_ok l v : read_point l = Ok v <-> exists x y z w, point_line l x y z w /\ v = KPt (Kpoint [x; y; z] w true).
Proof.
  unfold read_point, point_line, get_float. split.
  - intros H. destruct (split_ws l) as [|a [|b [|c r]]]; cbn [py_nth nth_error of_option bind] in H;
      try (destruct (parse_float a); discriminate); try discriminate.
    + destruct (parse_float a); [|discriminate]. cbn in H. destruct (parse_float b); discriminate.
    + destruct (parse_float a) as [x|] eqn:A; [|discriminate]. destruct (parse_float b) as [y|] eqn:B; [|discriminate].
      destruct (parse_float c) as [z|] eqn:C; [|discriminate]. cbn [of_option bind] in H.
      destruct r as [|d r]; cbn [bind] in H.
      * inversion H. exists x, y, z, None. split; auto. exists a, b, c, []. auto.
      * destruct (parse_float d) as [w|] eqn:D; [|discriminate]. inversion H.
        exists x, y, z, (Some w). split; auto. exists a, b, c, (d :: r). repeat split; auto. eauto.
  - intros (x & y & z & w & (a & b & c & r & -> & A & B & C & D) & ->).
    cbn [py_nth nth_error of_option bind]. rewrite A, B, C. cbn [of_option bind].
    destruct r as [|d r]; [subst; reflexivity|]. destruct D as [v [D ->]]. rewrite D. reflexivity.
Qed.
Lemma mapM_floats ts xs : mapM get_float ts = Ok xs <-> Forall2 (fun t x => parse_float t = Some x) ts xs.
Proof.
  revert xs. induction ts as [|t ts IH]; intros xs; cbn [mapM].
  - split; [intros [= <-]; constructor|]. inversion 1; auto.
  - unfold get_float at 1. destruct (parse_float t) as [x|] eqn:E; cbn [of_option bind].
    + split.
      * intros H. apply bind_ok in H as [r [H1 H]]. inversion H; subst. constructor; auto. apply IH; auto.
      * inversion 1; subst. apply IH in H4. rewrite H4. cbn. congruence.
    + split; [discriminate|]. inversion 1; subst. congruence.
Qed.
Lemma mapM_ints ts xs : mapM get_int ts = Ok xs <-> Forall2 (fun t x => parse_int t = Some x) ts xs.
Proof.
  revert xs. induction ts as [|t ts IH]; intros xs; cbn [mapM].
  - split; [intros [= <-]; constructor|]. inversion 1; auto.
  - unfold get_int at 1. destruct (parse_int t) as [x|] eqn:E; cbn [of_option bind].
    + split.
      * intros H. apply bind_ok in H as [r [H1 H]]. inversion H; subst. constructor; auto. apply IH; auto.
      * inversion 1; subst. apply IH in H4. rewrite H4. cbn. congruence.
    + split; [discriminate|]. inversion 1; subst. congruence.
Qed.
Lemma read_tetra_line_ok l v : read_tetra_line l = Ok v <-> exists zs, five_ints l zs /\ v = kints zs.
Proof.
  unfold read_tetra_line, five_ints. split.
  - destruct (length (split_ws l) =? 5) eqn:E; [|discriminate]. cbn [negb]. intros H. apply bind_ok in H as [zs [H1 H]].
    inversion H. exists zs. split; auto. apply mapM_ints in H1. split; auto.
    apply Nat.eqb_eq in E. rewrite <- E. clear -H1. induction H1; cbn; congruence.
  - intros [zs [[L F] ->]]. assert (length (split_ws l) = 5) as ->.
    { rewrite <- L. clear -F. induction F; cbn; congruence. }
    cbn [Nat.eqb negb]. apply mapM_ints in F. rewrite F. reflexivity.
Qed.

(** reading a range of lines *)
Lemma read_range_ok {A} ls s n (f : str -> res A) vs : read_range ls s n f = Ok vs ->
  s + n <= length ls \/ n = 0.
Proof.
  unfold read_range. revert s vs. induction n as [|n IH]; intros s vs; auto. cbn [seq mapM]. intros H.
  apply bind_ok in H as [v [H1 H]]. apply bind_ok in H as [vs' [H2 H]]. left.
  apply bind_ok in H1 as [l [H1 _]]. unfold line_at, py_nth in H1.
  destruct (nth_error ls s) eqn:E; [|discriminate]. apply IH in H2 as [H2|H2]; [lia|].
  subst. assert (nth_error ls s <> None) as K by congruence. apply nth_error_Some in K. lia.
Qed.
Lemma read_range_eq {A} ls s n (f : str -> res A) : s + n <= length ls ->
  read_range ls s n f = mapM f (firstn n (skipn s ls)).
Proof.
  intros H. pose proof (range_slice f (firstn s ls) (firstn n (skipn s ls)) (skipn n (skipn s ls))) as R.
  rewrite !firstn_skipn in R. rewrite !firstn_length, skipn_length in R.
  rewrite (Nat.min_l s), (Nat.min_l n) in R by lia. exact R.
Qed.
Lemma mapM_Forall2 {A B} (f : A -> res B) l r : mapM f l = Ok r <-> Forall2 (fun a b => f a = Ok b) l r.
Proof.
  split; [apply mapM_ok_Forall2|]. induction 1 as [|a b l r H _ IH]; auto. cbn [mapM]. rewrite H. cbn [bind]. rewrite IH. reflexivity.
Qed.

(** ** Edits *)
Lemma list_index_spec {A} (l : list A) n i : list_index l n = Some i <-> designates n (length l) i.
Proof.
  unfold list_index, designates. destruct (0 <=? n)%Z eqn:E.
  - apply Z.leb_le in E. destruct (n <? Z.of_nat (length l))%Z eqn:F.
    + apply Z.ltb_lt in F. split; [intros [= <-]; lia|]. intros [H [-> | H2]]; f_equal; lia.
    + apply Z.ltb_ge in F. split; [discriminate|]. intros [H [H2|H2]]; exfalso; lia.
  - apply Z.leb_gt in E. destruct (- Z.of_nat (length l) <=? n)%Z eqn:F.
    + apply Z.leb_le in F. split; [intros [= <-]; lia|]. intros [H [H2|H2]]; [exfalso; lia|f_equal; lia].
    + apply Z.leb_gt in F. split; [discriminate|]. intros [H [H2|H2]]; exfalso; lia.
Qed.
Lemma list_set_split {A} (l : list A) i v : i < length l -> list_set l i v = firstn i l ++ v :: skipn (S i) l.
Proof.
  revert i. induction l as [|x l IH]; intros [|i] H; cbn in *; try lia; auto. f_equal. apply IH. lia.
Qed.
Lemma list_del_split {A} (l : list A) i : i < length l -> list_del l i = firstn i l ++ skipn (S i) l.
Proof.
  revert i. induction l as [|x l IH]; intros [|i] H; cbn in *; try lia; auto. f_equal. apply IH. lia.
Qed.
Lemma check_dict_some es po : holds es "points" po -> is_knone po = false -> holds es "divisions" KNone \/ (exists d, holds es "divisions" d /\ is_knone d = false) ->
  check_dict es = Ok tt.
Proof.
  unfold holds, check_dict, key. intros H N [D|[d [D K]]]; rewrite D; cbn [of_option bind is_knone].
  - rewrite H. cbn [of_option bind]. rewrite N. reflexivity.
  - rewrite K. reflexivity.
Qed.
Lemma valid_check_dict es : validate es = Ok tt -> check_dict es = Ok tt.
Proof. unfold validate. intros H. apply bind_ok in H as [[] [H _]]. exact H. Qed.

Lemma allowed_substr e n : In n allowed_names -> substrb n e = true -> check_allowed_entries e = Ok tt.
Proof.
  intros H1 H2. unfold check_allowed_entries. assert (existsb (fun n => substrb n e) allowed_names = true) as ->; auto.
  apply existsb_exists. eauto.
Qed.

Lemma modify_point es l n p : validate es = Ok tt -> holds es "points" (KList l) ->
  (forall i, designates n (length l) i ->
     modify es (lit "points") (KPt p) (Some (KInt n)) = Ok (dset (lit "points") (KList (firstn i l ++ KPt p :: skipn (S i) l)) es)) /\
  ((Z.of_nat (length l) <= n)%Z -> modify es (lit "points") (KPt p) (Some (KInt n)) = Exn (SysExit 211)) /\
  ((n < - Z.of_nat (length l))%Z -> modify es (lit "points") (KPt p) (Some (KInt n)) = Exn IndexError).
Proof.
  intros V H. unfold modify.
  change (check_allowed_entries (lit "points")) with (Ok tt). cbn [bind].
  rewrite (valid_check_dict es V). cbn [bind check_point is_knone is_point negb reject].
  unfold check_point_number. cbn [is_int]. unfold holds in H. unfold key. rewrite H. cbn [of_option bind int_value].
  destruct (Z.of_nat (length l) - 1 <? n)%Z eqn:E; cbn [reject bind].
  - apply Z.ltb_lt in E. repeat split; intros; auto; exfalso; [|lia].
    destruct H0 as [H1 [H2|H2]]; lia.
  - apply Z.ltb_ge in E. destruct (list_index l n) as [i|] eqn:I.
    + pose proof (proj1 (list_index_spec l n i) I) as D. repeat split; intros; try (exfalso; unfold designates in *; lia).
      assert (i0 = i) as -> by (unfold designates in *; lia). rewrite list_set_split by apply D. reflexivity.
    + repeat split; intros; auto; [|exfalso; lia]. apply list_index_spec in H0. congruence.
Qed.
Lemma delete_point_spec es l n : validate es = Ok tt -> holds es "points" (KList l) ->
  (forall i, designates n (length l) i ->
     delete_point es (KInt n) = Ok (dset (lit "points") (KList (firstn i l ++ skipn (S i) l)) es)) /\
  ((Z.of_nat (length l) <= n)%Z -> delete_point es (KInt n) = Exn (SysExit 211)) /\
  ((n < - Z.of_nat (length l))%Z -> delete_point es (KInt n) = Exn IndexError).
Proof.
  intros V H. unfold delete_point, check_points, check_point_number. unfold holds in H. rewrite arg_key_none. unfold key.
  cbn [is_int]. rewrite H. cbn [of_option bind int_value].
  destruct (Z.of_nat (length l) - 1 <? n)%Z eqn:E; cbn [reject bind].
  - apply Z.ltb_lt in E. repeat split; intros; auto; exfalso; [|lia].
    destruct H0 as [H1 [H2|H2]]; lia.
  - apply Z.ltb_ge in E. destruct (list_index l n) as [i|] eqn:I.
    + pose proof (proj1 (list_index_spec l n i) I) as D. repeat split; intros; try (exfalso; unfold designates in *; lia).
      assert (i0 = i) as -> by (unfold designates in *; lia). rewrite list_del_split by apply D. reflexivity.
    + repeat split; intros; auto; [|exfalso; lia]. apply list_index_spec in H0. congruence.
Qed.
