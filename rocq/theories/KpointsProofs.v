From Coq Require Import Ascii String List NArith ZArith Bool Lia Arith.
From Verif Require Import PyBase PyNum PyStrLemmas PyNumLemmas PyFmtLemmas PyLines UtilsModel KpointsModel KpointsSpec.
Import ListNotations.
Local Open Scope list_scope.
Local Open Scope bool_scope.
Local Open Scope nat_scope.

(** ** The reader sees a line only through [strip], except in line mode *)
Definition lsame (l l' : str) : Prop := strip l = strip l'.
Lemma lsame_split l l' : lsame l l' -> split_ws l = split_ws l'.
Proof. intros H. rewrite <- (split_ws_strip l), <- (split_ws_strip l'), H. reflexivity. Qed.
Definition nohash (l : str) : str := filter (fun c => negb (aeqb c hash)) l.
Lemma nohash_app a b : nohash (a ++ b) = nohash a ++ nohash b.
Proof. apply filter_app. Qed.
Lemma nohash_blank p : blank p = true -> blank (nohash p) = true.
Proof.
  unfold blank, nohash. rewrite !forallb_forall. intros H x Hx. apply filter_In in Hx as [Hx _]. auto.
Qed.
Lemma strip_nohash l : strip (nohash l) = strip (nohash (strip l)).
Proof.
  destruct (strip_spec l) as [p [q [Hp [Hq E]]]]. rewrite E at 1. rewrite !nohash_app.
  rewrite strip_blank_app by (apply nohash_blank; auto).
  rewrite strip_app_blank by (apply nohash_blank; auto). reflexivity.
Qed.
Lemma lsame_nohash l l' : lsame l l' -> strip (nohash l) = strip (nohash l').
Proof. intros H. rewrite (strip_nohash l), (strip_nohash l'), H. reflexivity. Qed.

Lemma same_nth_gen ls ls' : Forall2 lsame ls ls' -> forall i,
  (nth_error ls i = None /\ nth_error ls' i = None) \/
  exists l l', nth_error ls i = Some l /\ nth_error ls' i = Some l' /\ lsame l l'.
Proof.
  induction 1 as [|l l' r r' H _ IH]; intros [|i]; cbn [nth_error]; auto.
  right. exists l, l'. auto.
Qed.
Lemma Forall2_len {A B} (R : A -> B -> Prop) a b : Forall2 R a b -> length a = length b.
Proof. induction 1; cbn; congruence. Qed.

Section same.
Variables ls ls' : list str.
Hypothesis Hs : Forall2 lsame ls ls'.
Let same_nth := same_nth_gen ls ls' Hs.
Let same_length := Forall2_len _ ls ls' Hs.
Lemma same_bind {A} i (f : str -> res A) (g : str -> res A) :
  (forall l l', lsame l l' -> f l = g l') -> bind (line_at ls i) f = bind (line_at ls' i) g.
Proof.
  intros H. unfold line_at, py_nth. destruct (same_nth i) as [[-> ->]|[l [l' [-> [-> S]]]]]; cbn; auto.
Qed.
Lemma same_bind' {A} i (f : str -> res A) (g : str -> res A) :
  (forall l l', nth_error ls i = Some l -> lsame l l' -> f l = g l') -> bind (line_at ls i) f = bind (line_at ls' i) g.
Proof.
  intros H. unfold line_at, py_nth. destruct (same_nth i) as [[-> ->]|[l [l' [E [-> S]]]]]; cbn; auto.
  rewrite E. cbn. auto.
Qed.
Lemma same_range {A} s n (f : str -> res A) :
  (forall l l', lsame l l' -> f l = f l') -> read_range ls s n f = read_range ls' s n f.
Proof. intros H. unfold read_range. apply mapM_ext. intros i _. apply same_bind; auto. Qed.

Lemma read_point_same l l' : lsame l l' -> read_point l = read_point l'.
Proof. intros H. unfold read_point. rewrite (lsame_split l l' H). reflexivity. Qed.
Lemma read_tetra_line_same l l' : lsame l l' -> read_tetra_line l = read_tetra_line l'.
Proof. intros H. unfold read_tetra_line. rewrite (lsame_split l l' H). reflexivity. Qed.
Lemma read_tetra_same lm : read_tetra ls lm = read_tetra ls' lm.
Proof.
  unfold read_tetra. rewrite same_length. destruct (lm <? length ls'); auto.
  apply same_bind. intros l l' H. rewrite H. destruct (head_char (strip l')); cbn [bind]; auto.
  destruct (aeqb _ _); auto. destruct (S lm <? length ls'); auto.
  apply same_bind. intros k k' K. rewrite (lsame_split k k' K).
  destruct (py_nth (split_ws k') 0); cbn [bind]; auto.
  destruct (get_int a0); cbn [bind]; auto. destruct (py_nth (split_ws k') 1); cbn [bind]; auto.
  destruct (get_float a2); cbn [bind]; auto. rewrite same_range; auto using read_tetra_line_same.
Qed.
Lemma read_automatic_same c : read_automatic c ls = read_automatic c ls'.
Proof.
  unfold read_automatic. destruct (aeqb c "a"); auto.
  assert (forall l l', lsame l l' -> floats_of_line l = floats_of_line l') as F.
  { intros l l' H. unfold floats_of_line. rewrite (lsame_split l l' H). reflexivity. }
  destruct (aeqb c "g" || aeqb c "m").
  - apply same_bind. intros l l' H. unfold ints_of_line. rewrite (lsame_split l l' H).
    destruct (mapM get_int (split_ws l')); cbn [bind]; auto. rewrite same_length.
    destruct (length ls' =? 5); auto.
    rewrite (same_bind 4 (fun l4 => let* x := floats_of_line l4 in Ok (kfloats x)) (fun l4 => let* x := floats_of_line l4 in Ok (kfloats x))); auto.
    intros k k' K. rewrite (F k k' K). reflexivity.
  - destruct (aeqb c "r"); auto.
    rewrite (mapM_ext _ (fun i => let* l := line_at ls' i in let* x := floats_of_line l in Ok (kfloats x))).
    + destruct (mapM _ _); cbn [bind]; auto. apply same_bind. intros k k' K. rewrite (F k k' K). reflexivity.
    + intros i _. apply same_bind. intros k k' K. rewrite (F k k' K). reflexivity.
Qed.

(** in line mode, a bare newline is also told apart *)
Definition bare (l : str) : bool := seqb l [nl].
Lemma read_line_points_same a b : Forall2 (fun l l' => lsame l l' /\ bare l = bare l') a b ->
  read_line_points a = read_line_points b.
Proof.
  intros H. unfold read_line_points.
  assert (forall f, (forall l l', lsame l l' -> bare l = bare l' -> f l = f l') ->
    @mapM str (list kval) f a = mapM f b) as K.
  { intros f Hf. induction H as [|l l' r r' [H1 H2] _ IH]; cbn; auto. rewrite (Hf l l') by auto. rewrite IH. reflexivity. }
  rewrite K; auto. intros l l' H1 H2. unfold bare in H2. rewrite H2, (lsame_split l l' H1). reflexivity.
Qed.

Lemma from_list_same :
  (forall c, letter_line ls 2 c -> lower1 c <> "l"%char) \/
  Forall2 (fun l l' => lsame l l' /\ bare l = bare l') (skipn 4 ls) (skipn 4 ls') ->
  from_list ls = from_list ls'.
Proof.
  intros Hl. unfold from_list. apply same_bind. intros l0 l0' H0.
  fold (nohash l0) (nohash l0'). rewrite (lsame_nohash l0 l0' H0).
  apply same_bind. intros l1 l1' H1. rewrite (lsame_split l1 l1' H1).
  destruct (py_nth (split_ws l1') 0) as [t|]; cbn [bind]; auto.
  destruct (get_int t) as [num|]; cbn [bind]; auto.
  apply same_bind'. intros l2 l2' E1 H2.
  rewrite H2. destruct (strip l2') as [|c0 r0] eqn:E; cbn [head_char bind]; auto.
  assert (forall b : bool, (if b then Exn (SysExit 200) else
    let* pts := read_range ls 3 (Z.to_nat num) read_point in
    let* (te, v) := read_tetra ls (Z.to_nat num + 3) in Ok (KList pts, te, v)) =
    (if b then Exn (SysExit 200) else
    let* pts := read_range ls' 3 (Z.to_nat num) read_point in
    let* (te, v) := read_tetra ls' (Z.to_nat num + 3) in Ok (KList pts, te, v))) as ->.
  { intros [|]; auto. rewrite same_range by apply read_point_same. rewrite read_tetra_same. reflexivity. }
  rewrite read_automatic_same.
  destruct (if negb _ && _ then _ else _) as [[[p te] v]|]; cbn [bind]; auto.
  destruct (if (num <=? 0)%Z then _ else _) as [[[[ce dv] gv] sh]|]; cbn [bind]; auto.
  destruct (aeqb (lower1 c0) "l"%char) eqn:L; auto.
  destruct Hl as [Hl|Hl].
  - exfalso. apply aeqb_eq in L. eapply Hl; eauto. exists l2, r0. split; auto. rewrite H2, E. reflexivity.
  - f_equal. apply same_bind. intros l3 l3' H3. rewrite (lsame_split l3 l3' H3).
    destruct (py_nth _ 0); cbn [bind]; auto. destruct (head_char a); cbn [bind]; auto.
    destruct (_ || _); auto. rewrite (read_line_points_same _ _ Hl). reflexivity.
Qed.
End same.

(** ** Channels *)
Definition build (es : res kentries) : res kentries := let* e := es in let* _ := validate e in Ok e.
Lemma of_string_eq txt : kpoints_of_string txt = build (from_list (splitlines txt)).
Proof. unfold kpoints_of_string, kpoints_init, build. cbn. destruct (from_list (splitlines txt)); reflexivity. Qed.
Lemma of_file_eq txt : kpoints_of_file txt = build (from_list (readlines (translate_newlines txt))).
Proof. unfold kpoints_of_file, kpoints_init, build. cbn. destruct (from_list _); reflexivity. Qed.
Lemma of_handler_eq txt : kpoints_of_handler txt = build (from_list (readlines txt)).
Proof. unfold kpoints_of_handler, kpoints_init, build. cbn. destruct (from_list _); reflexivity. Qed.
Lemma of_dict_eq d : kpoints_of_dict d = let* _ := validate d in Ok d.
Proof. reflexivity. Qed.

(** the only line boundary in the text is the newline character *)
Definition only_nl (t : str) : Prop := forall a, In a t -> is_break a = true -> a = nl.
Definition withnl (l l' : str) : Prop := l' = l \/ l' = l ++ [nl].
Lemma withnl_same l l' : withnl l l' -> lsame l l'.
Proof. intros [-> | ->]; unfold lsame; auto. rewrite strip_nl. reflexivity. Qed.

Lemma lines_withnl t : only_nl t -> Forall2 withnl (splitlines t) (readlines t).
Proof.
  induction t as [|c r IH]; intros H; [constructor|].
  assert (only_nl r) as Hr by (intros a Ha; apply H; right; auto). specialize (IH Hr).
  cbn [splitlines readlines]. destruct (is_break c) eqn:B.
  - apply H in B; [|left; auto]. subst c. change (aeqb nl nl) with true. cbv iota.
    constructor; [right; reflexivity|].
    destruct r as [|c' r']; [constructor|]. change (aeqb nl cr) with false. cbn [andb]. exact IH.
  - assert (aeqb c nl = false) as ->.
    { destruct (aeqb c nl) eqn:E; auto. apply aeqb_eq in E. subst c. discriminate. }
    destruct r as [|c' r'].
    + cbn. constructor; [left; reflexivity|constructor].
    + remember (c' :: r') as t eqn:Et. clear Hr H.
      assert (splitlines t <> []) as Hne.
      { rewrite Et. clear. cbn [splitlines]. intros K. destruct (is_break c'); [discriminate K|].
        destruct r'; [discriminate K|]. destruct (splitlines _); discriminate K. }
      remember (splitlines t) as s1 eqn:S1. remember (readlines t) as s2 eqn:S2. clear S1 S2.
      destruct IH as [|l l' a b H1 H2]; [congruence|].
      constructor; auto. destruct H1 as [-> | ->]; [left|right]; reflexivity.
Qed.

Lemma only_nl_nocr t : only_nl t -> nochar cr t = true.
Proof.
  intros H. apply nochar_In. intros K. specialize (H cr K eq_refl); discriminate.
Qed.

(** C20: string and file channels agree *)
Lemma Forall2_skipn {A B} (R : A -> B -> Prop) n a b : Forall2 R a b -> Forall2 R (skipn n a) (skipn n b).
Proof. revert a b. induction n; intros a b H; auto. inversion H; subst; cbn; auto. Qed.
Lemma Forall2_weaken {A B} (R S : A -> B -> Prop) a b : (forall x y, In x a -> R x y -> S x y) -> Forall2 R a b -> Forall2 S a b.
Proof.
  intros H K. induction K; constructor; [apply H; [left; auto|auto]|]. apply IHK. intros; apply H; [right|]; auto.
Qed.
Lemma channels_agree txt : only_nl txt ->
  (forall c, letter_line (splitlines txt) 2 c -> lower1 c <> "l"%char) \/
  (forall l, In l (skipn 4 (splitlines txt)) -> l <> []) ->
  kpoints_of_string txt = kpoints_of_file txt /\ kpoints_of_handler txt = kpoints_of_file txt.
Proof.
  intros H Hl. rewrite of_string_eq, of_file_eq, of_handler_eq.
  rewrite translate_nochange by (apply only_nl_nocr; auto). split; auto. f_equal.
  pose proof (lines_withnl txt H) as L.
  apply from_list_same.
  - eapply Forall2_weaken; [|exact L]. intros; apply withnl_same; auto.
  - destruct Hl as [Hl|Hl]; [left; auto|right].
    apply Forall2_skipn with (n := 4) in L. eapply Forall2_weaken; [|exact L].
    intros x y Hx W. split; [apply withnl_same; auto|]. unfold bare.
    destruct W as [-> | ->]; auto.
    assert (nobreak x = true) as Nx.
    { apply (splitlines_parts txt). rewrite <- (firstn_skipn 4 (splitlines txt)). apply in_or_app. right. exact Hx. }
    apply Hl in Hx. destruct x as [|a x]; [congruence|].
    assert (seqb ((a :: x) ++ [nl]) [nl] = false) as ->.
    { apply seqb_neq. intros K. destruct x; discriminate. }
    apply seqb_neq. intros K. rewrite K in Nx. discriminate.
Qed.
