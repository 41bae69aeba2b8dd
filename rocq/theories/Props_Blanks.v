(** Property C89: how the columns of a line are separated does not matter. *)
From Coq Require Import Ascii String List NArith ZArith QArith Bool Lia Arith.
From Verif Require Import PyBase PyNum PyStrLemmas PyNumLemmas PyLines PyToken UtilsModel LineModel DoscarModel KpointsModel KpointsSpec KpointsEdits KpointsCodes ArithModel PoscarModel PoscarSpec PoscarRead PoscarRoundTrip.
From Verif Require Import Props_Kpoints Props_Poscar.
Import ListNotations.
Local Open Scope list_scope.
Local Open Scope bool_scope.
Local Open Scope nat_scope.

(** ** Specification *)
(** the white space of Python below code point 256 *)
Definition white (c : ascii) : Prop := In (PyBase.code c) [9; 10; 11; 12; 13; 28; 29; 30; 31; 32; 133; 160]%N.
Definition tab : ascii := "009"%char.
Definition gap (g : str) : Prop := Forall (fun c => c = " "%char \/ c = tab) g.
Definition word (w : str) : Prop := w <> [] /\ Forall (fun c => ~ white c) w.
(** the words [ws] with blanks and tabs before, between and after them *)
Inductive spaced : list str -> str -> Prop :=
| spaced_end g : gap g -> spaced [] g
| spaced_last g w g' : gap g -> word w -> gap g' -> spaced [w] (g ++ w ++ g')
| spaced_next g w c r ws : gap g -> word w -> c = " "%char \/ c = tab -> spaced ws r -> spaced (w :: ws) (g ++ w ++ c :: r).
(** the same words, at least one, with other blanks and tabs *)
Definition respaced (l l' : str) : Prop := exists ws, ws <> [] /\ spaced ws l /\ spaced ws l'.

(** ** What str.split makes of it *)
Lemma white_space c : is_space c = true <-> white c.
Proof.
  assert (Bool.eqb (is_space c) (existsb (N.eqb (PyBase.code c)) [9; 10; 11; 12; 13; 28; 29; 30; 31; 32; 133; 160]%N) = true) as H by (revert c; refine (forall_ascii _ _); vm_compute; reflexivity).
  apply Bool.eqb_prop in H. rewrite H. unfold white. rewrite existsb_exists. split.
  - intros (x & I & E). apply N.eqb_eq in E. congruence.
  - intros I. eexists. split; [exact I|]. apply N.eqb_refl.
Qed.
Lemma gap_blank g : gap g -> blank g = true.
Proof. intros H. apply forallb_forall. intros c I. apply white_space. rewrite (proj1 (Forall_forall _ _) H c I) || idtac. unfold gap in H. rewrite Forall_forall in H. destruct (H c I) as [-> | ->]; unfold white; cbn; auto 20. Qed.
Lemma word_token w : word w -> w <> [] /\ nospace w = true.
Proof.
  intros [H F]. split; auto. apply forallb_forall. intros c I. rewrite Forall_forall in F. destruct (is_space c) eqn:E; auto. exfalso. apply (F c I). apply white_space. auto.
Qed.
Lemma spaced_split ws l : spaced ws l -> split_ws l = ws.
Proof.
  induction 1 as [g G|g w g' G W G'|g w c r ws G W C S IH].
  - apply split_ws_blank, gap_blank. auto.
  - apply word_token in W as [W1 W2]. rewrite split_ws_blank_app, split_ws_app_blank, split_ws_word by auto using gap_blank. reflexivity.
  - apply word_token in W as [W1 W2]. rewrite split_ws_blank_app by auto using gap_blank. rewrite split_ws_app_space by (apply white_space; unfold white; destruct C as [-> | ->]; cbn; auto 20). rewrite split_ws_word, IH by auto. reflexivity.
Qed.
Lemma spaced_nobreak ws l : spaced ws l -> nobreak l = true.
Proof.
  assert (forall g, gap g -> nobreak g = true) as G.
  { intros g H. apply forallb_forall. intros c I. unfold gap in H. rewrite Forall_forall in H. destruct (H c I) as [-> | ->]; reflexivity. }
  assert (forall w, word w -> nobreak w = true) as W.
  { intros w [_ F]. apply forallb_forall. intros c I. rewrite Forall_forall in F. destruct (is_break c) eqn:E; auto. exfalso. apply (F c I). apply white_space.
    assert (implb (is_break c) (is_space c) = true) as K by (revert c I E; intros c _ _; revert c; refine (forall_ascii _ _); vm_compute; reflexivity). rewrite E in K. exact K. }
  assert (forall a b, nobreak a = true -> nobreak b = true -> nobreak (a ++ b) = true) as AP by (intros a b X Y; unfold nobreak in *; rewrite forallb_app, X, Y; reflexivity).
  induction 1 as [g Hg|g w g' Hg Hw Hg'|g w c r ws Hg Hw C S IH]; auto.
  apply AP; auto. apply AP; auto. unfold nobreak. cbn [forallb]. apply andb_true_iff. split; [destruct C as [-> | ->]; reflexivity|exact IH].
Qed.
Lemma respaced_words l l' : respaced l l' -> split_ws l = split_ws l' /\ split_ws l <> [].
Proof. intros (ws & N & H & K). rewrite (spaced_split _ _ H), (spaced_split _ _ K). auto. Qed.
Lemma respaced_nobreak l l' : respaced l l' -> nobreak l = true /\ nobreak l' = true.
Proof. intros (ws & N & H & K). split; eapply spaced_nobreak; eauto. Qed.

(** ** Lines at the same place *)
(** the same line, or one with the same words, at least one *)
Definition alike (l l' : str) : Prop := l = l' \/ split_ws l = split_ws l' /\ split_ws l <> [].
Lemma alike_words l l' : alike l l' -> split_ws l = split_ws l'.
Proof. intros [->|[H _]]; auto. Qed.
Lemma alike_sym l l' : alike l l' -> alike l' l.
Proof. intros [->|[H N]]; [left; auto|right; split; congruence]. Qed.
Lemma Forall2_length' {T U} (R : T -> U -> Prop) l l' : Forall2 R l l' -> length l = length l'.
Proof. induction 1; cbn; auto. Qed.
Lemma Forall2_nth {T U} (R : T -> U -> Prop) l l' : Forall2 R l l' -> forall i, match nth_error l i, nth_error l' i with Some a, Some b => R a b | None, None => True | _, _ => False end.
Proof. induction 1 as [|a b l l' H F IH]; intros [|i]; cbn; auto. apply IH. Qed.
Lemma at_both {T U} (R : T -> T -> Prop) ls ls' i (f f' : T -> res U) : Forall2 R ls ls' -> (forall a b, R a b -> f a = f' b) -> bind (py_nth ls i) f = bind (py_nth ls' i) f'.
Proof.
  intros F H. pose proof (Forall2_nth R ls ls' F i) as N. unfold py_nth. destruct (nth_error ls i), (nth_error ls' i); cbn [of_option bind]; auto; contradiction.
Qed.
Lemma bind_both {T U} (m m' : res T) (f f' : T -> res U) : m = m' -> (forall a, f a = f' a) -> bind m f = bind m' f'.
Proof. intros -> H. destruct m'; cbn; auto. Qed.
Lemma mapM_both {T U} (f f' : T -> res U) l : (forall a, f a = f' a) -> mapM f l = mapM f' l.
Proof. intros H. induction l as [|a l IH]; auto. cbn [mapM]. rewrite H, IH. reflexivity. Qed.
Lemma Forall2_skip {T U} (R : T -> U -> Prop) n : forall l l', Forall2 R l l' -> Forall2 R (skipn n l) (skipn n l').
Proof. induction n; intros l l' F; auto. destruct F; cbn; auto. Qed.
(** the first character of the first word *)
Lemma head_strip l : head_char (strip l) = match split_ws l with [] => Exn IndexError | w :: _ => head_char w end.
Proof.
  rewrite <- split_ws_strip. unfold strip. destruct (lstrip l) as [|c r] eqn:E; [reflexivity|].
  assert (is_space c = false) as C. { clear -E. induction l as [|a l IH]; [discriminate|]. cbn in E. destruct (is_space a) eqn:A; auto. congruence. }
  assert (exists r', rstrip (c :: r) = c :: r') as [r' ->].
  { unfold rstrip. cbn [rev]. assert (forall p, exists q, lstrip (p ++ [c]) = q ++ [c]) as K. { clear -C. induction p as [|a p [q IH]]; cbn; [rewrite C; exists []; auto|]. destruct (is_space a); eauto. exists (a :: p). reflexivity. }
    destruct (K (rev r)) as [q ->]. rewrite rev_app_distr. cbn. eauto. }
  cbn [head_char split_ws]. rewrite C. destruct r' as [|c' r']; [reflexivity|]. destruct (is_space c'); [reflexivity|]. destruct (split_ws (c' :: r')); reflexivity.
Qed.

(** ** KPOINTS *)
Section K.
Variables ls ls' : list str.
Hypothesis F : Forall2 alike ls ls'.
Lemma k_len : length ls = length ls'.
Proof. eapply Forall2_length'; eauto. Qed.
Lemma k_range {T} s n (f : str -> res T) : (forall a b, alike a b -> f a = f b) -> KpointsModel.read_range ls s n f = KpointsModel.read_range ls' s n f.
Proof. intros H. unfold KpointsModel.read_range. apply mapM_both. intros i. eapply at_both; eauto. Qed.
Lemma k_point a b : alike a b -> KpointsModel.read_point a = KpointsModel.read_point b.
Proof. intros H. unfold KpointsModel.read_point. rewrite (alike_words _ _ H). reflexivity. Qed.
Lemma k_tetra_line a b : alike a b -> KpointsModel.read_tetra_line a = KpointsModel.read_tetra_line b.
Proof. intros H. unfold KpointsModel.read_tetra_line. rewrite (alike_words _ _ H). reflexivity. Qed.
Lemma k_tetra n : KpointsModel.read_tetra ls n = KpointsModel.read_tetra ls' n.
Proof.
  unfold KpointsModel.read_tetra. rewrite k_len. destruct (n <? length ls'); auto. eapply at_both; [exact F|]. intros a b H. rewrite !head_strip, (alike_words _ _ H). apply bind_both; auto. intros c.
  destruct (aeqb (lower1 c) "t"); auto. destruct (S n <? length ls'); auto. eapply at_both; [exact F|]. clear a b H. intros a b H. rewrite (alike_words _ _ H). apply bind_both; auto. intros t. apply bind_both; auto. intros m. apply bind_both; auto. intros t1. apply bind_both; auto. intros v. rewrite (k_range _ _ _ k_tetra_line). reflexivity.
Qed.
Lemma k_floats a b : alike a b -> KpointsModel.floats_of_line a = KpointsModel.floats_of_line b.
Proof. intros H. unfold KpointsModel.floats_of_line. rewrite (alike_words _ _ H). reflexivity. Qed.
Lemma k_ints a b : alike a b -> KpointsModel.ints_of_line a = KpointsModel.ints_of_line b.
Proof. intros H. unfold KpointsModel.ints_of_line. rewrite (alike_words _ _ H). reflexivity. Qed.
Lemma k_automatic c : KpointsModel.read_automatic c ls = KpointsModel.read_automatic c ls'.
Proof.
  unfold KpointsModel.read_automatic. destruct (aeqb c "a"); auto. destruct (aeqb c "g" || aeqb c "m").
  - eapply at_both; [exact F|]. intros a b H. rewrite (k_ints _ _ H). apply bind_both; auto. intros d. rewrite k_len. destruct (length ls' =? 5); auto. apply bind_both; auto. eapply at_both; [exact F|]. intros x y K. rewrite (k_floats _ _ K). reflexivity.
  - destruct (aeqb c "r"); auto. apply bind_both; [apply mapM_both; intros i; eapply at_both; [exact F|]; intros x y K; rewrite (k_floats _ _ K); reflexivity|].
    intros g. eapply at_both; [exact F|]. intros x y K. rewrite (k_floats _ _ K). reflexivity.
Qed.
Lemma k_line : KpointsModel.read_line_points (skipn 4 ls) = KpointsModel.read_line_points (skipn 4 ls').
Proof.
  unfold KpointsModel.read_line_points. apply bind_both; auto. pose proof (Forall2_skip _ 4 _ _ F) as G. induction G as [|a b la lb H G IH]; auto. cbn [mapM].
  assert (seqb a [nl] = seqb b [nl]) as E.
  { destruct H as [->|[W N]]; auto. assert (forall x, split_ws x <> [] -> seqb x [nl] = false) as K by (intros x X; destruct (seqb x [nl]) eqn:Z; auto; apply seqb_eq in Z; subst; exfalso; apply X; reflexivity). rewrite !K; congruence. }
  rewrite E, (alike_words _ _ H), IH. reflexivity.
Qed.
End K.
Lemma k_from_list l0 ls ls' : Forall2 alike ls ls' -> KpointsModel.from_list (l0 :: ls) = KpointsModel.from_list (l0 :: ls').
Proof.
  intros F. assert (Forall2 alike (l0 :: ls) (l0 :: ls')) as G by (constructor; auto; left; auto). unfold KpointsModel.from_list. change (KpointsModel.line_at (l0 :: ls) 0) with (Ok l0). change (KpointsModel.line_at (l0 :: ls') 0) with (Ok l0). cbn [bind].
  eapply at_both; [exact G|]. intros l1 l1' H1. rewrite (alike_words _ _ H1). apply bind_both; auto. intros t. apply bind_both; auto. intros num.
  eapply at_both; [exact G|]. intros l2 l2' H2. rewrite !head_strip, (alike_words _ _ H2). apply bind_both; auto. intros c.
  rewrite (k_automatic _ _ G), (k_line _ _ G). rewrite (k_range _ _ G _ _ _ k_point), (k_tetra _ _ G). apply bind_both; auto. intros [[po te] vo]. apply bind_both; auto. intros [[[ce di] gv] sh].
  apply bind_both; auto. destruct (aeqb (lower1 c) "l"); auto. eapply at_both; [exact G|]. intros a b H. rewrite (alike_words _ _ H). reflexivity.
Qed.
(** Any other blanks and tabs between, before and after the words of any line after the
    comment: the same object, or the same refusal. *)
Theorem C89_kpoints : forall ch comment ls ls', nobreak comment = true -> Forall2 (fun l l' => respaced l l' \/ l = [] /\ l' = []) ls ls' ->
  kread ch (unlines (comment :: ls)) = kread ch (unlines (comment :: ls')).
Proof.
  intros ch comment ls ls' N F. rewrite !kread_eq. f_equal.
  assert (forallb nobreak (comment :: ls) = true /\ forallb nobreak (comment :: ls') = true) as [N1 N2].
  { cbn [forallb]. rewrite N. clear N. induction F as [|a b la lb [H|[-> ->]] F [I1 I2]]; auto; cbn [forallb andb] in *. destruct (respaced_nobreak _ _ H) as [-> ->]. auto. }
  assert (Forall2 alike ls ls') as A. { eapply Forall2_impl'; [|exact F]. intros a b [H|[-> ->]]; [right; apply respaced_words; auto|left; auto]. }
  assert (Forall2 alike (map (fun l => l ++ [nl]) ls) (map (fun l => l ++ [nl]) ls')) as B.
  { clear -A. induction A as [|a b la lb H A IH]; cbn [map]; constructor; auto. destruct H as [->|[H K]]; [left; auto|right; rewrite !split_ws_nl; auto]. }
  destruct ch; cbn [klines]; rewrite ?translate_nochange by (apply unlines_nocr; auto); rewrite ?splitlines_unlines, ?readlines_unlines by (auto using forallb_nobreak_nonl).
  - apply k_from_list; auto.
  - cbn [map]. apply k_from_list; auto.
  - cbn [map]. apply k_from_list; auto.
Qed.

(** ** DOSCAR: every line but the fifth, the name of the system *)
Lemma d_line {T} (conv : str -> res T) a b : alike a b -> line_to_type conv a = line_to_type conv b.
Proof. intros H. unfold line_to_type. rewrite (alike_words _ _ H). reflexivity. Qed.
Lemma d_from_list nc ls ls' : Forall2 alike ls ls' -> nth_error ls 4 = nth_error ls' 4 -> DoscarModel.from_list nc ls = DoscarModel.from_list nc ls'.
Proof.
  intros F E. unfold DoscarModel.from_list. eapply at_both; [exact F|]. intros a b H. rewrite (d_line _ _ _ H). apply bind_both; auto. intros h. apply bind_both; auto. intros h2. clear a b H.
  eapply at_both; [exact F|]. intros a b H. rewrite (d_line _ _ _ H). apply bind_both; auto. intros co. clear a b H. assert (py_nth ls 4 = py_nth ls' 4) as -> by (unfold py_nth; rewrite E; reflexivity). apply bind_both; auto. intros l4.
  eapply at_both; [exact F|]. intros a b H. rewrite (d_line _ _ _ H). apply bind_both; auto. intros v2. apply bind_both; auto. intros line_2. apply bind_both; auto. intros nd. apply bind_both; auto.
  pose proof (Forall2_skip _ 6 _ _ F) as G. clear -G. induction G as [|x y lx ly H G IH]; auto. cbn [mapM]. rewrite (d_line _ _ _ H), IH. reflexivity.
Qed.
Definition doscar_of (ch : channel) (txt : str) (nc : bool) : res doscar :=
  match ch with FromFile => doscar_init (Some (Some txt)) None nc | _ => doscar_init None (Some txt) nc end.
Theorem C89_doscar : forall ch nc ls ls', Forall2 (fun l l' => respaced l l' \/ l = l' /\ nobreak l = true) ls ls' -> nth_error ls 4 = nth_error ls' 4 ->
  doscar_of ch (unlines ls) nc = doscar_of ch (unlines ls') nc.
Proof.
  intros ch nc ls ls' F E.
  assert (forallb nobreak ls = true /\ forallb nobreak ls' = true) as [N1 N2].
  { clear E. induction F as [|a b la lb [H|[-> H]] F [I1 I2]]; auto; cbn [forallb]; rewrite I1, I2; [|rewrite H; auto]. destruct (respaced_nobreak _ _ H) as [-> ->]. auto. }
  assert (Forall2 alike (map (fun l => l ++ [nl]) ls) (map (fun l => l ++ [nl]) ls')) as B.
  { clear -F. induction F as [|a b la lb H A IH]; cbn [map]; constructor; auto. destruct H as [H|[-> _]]; [right; rewrite !split_ws_nl; apply respaced_words; auto|left; auto]. }
  assert (DoscarModel.from_list nc (map (fun l => l ++ [nl]) ls) = DoscarModel.from_list nc (map (fun l => l ++ [nl]) ls')) as K.
  { apply d_from_list; auto. clear -E. rewrite !nth_error_map. exact (f_equal (option_map (fun l : str => l ++ [nl])) E). }
  unfold doscar_of, doscar_init, read_from_file; destruct ch; cbn [is_some negb andb file_data bind filter_lines]; rewrite ?translate_nochange by (apply unlines_nocr; auto); rewrite !readlines_unlines by (auto using forallb_nobreak_nonl); exact K.
Qed.

(** ** POSCAR *)
(** the line begins with a letter that has a meaning *)
Definition begins (l : str) (c : ascii) : Prop := exists r, l = c :: r.
Definition same_start (l l' : str) : Prop := forall c, In c (lit "sSdDcC") -> begins l c <-> begins l' c.
Definition p_alike (l l' : str) : Prop := l = l' \/ split_ws l = split_ws l' /\ split_ws l <> [] /\ same_start l l'.
Definition special (c : ascii) : bool := aeqb (lower1 c) "s" || aeqb (lower1 c) "d" || aeqb (lower1 c) "c".
Lemma special_spec c : special c = true <-> In c (lit "sSdDcC").
Proof.
  assert (Bool.eqb (special c) (existsb (aeqb c) (lit "sSdDcC")) = true) as H by (revert c; refine (forall_ascii _ _); vm_compute; reflexivity).
  apply Bool.eqb_prop in H. rewrite H, existsb_exists. split; [intros (x & I & E); apply aeqb_eq in E; congruence|intros I; exists c; split; auto; apply aeqb_eq; auto].
Qed.
Lemma p_start a b : p_alike a b -> match a, b with
  | c :: _, c' :: _ => aeqb (lower1 c) "s" = aeqb (lower1 c') "s" /\ aeqb (lower1 c) "d" = aeqb (lower1 c') "d" /\ aeqb (lower1 c) "c" = aeqb (lower1 c') "c"
  | [], [] => True | _, _ => False end.
Proof.
  intros [->|(W & N & H)]; [destruct b; auto|]. destruct a as [|c a]; [exfalso; apply N; reflexivity|]. destruct b as [|c' b]; [exfalso; apply N; rewrite W; reflexivity|].
  destruct (special c) eqn:S1.
  - assert (begins (c' :: b) c) as [r E] by (apply H; [apply special_spec; auto|exists a; auto]). injection E as -> _. auto.
  - destruct (special c') eqn:S2.
    + assert (begins (c :: a) c') as [r E] by (apply H; [apply special_spec; auto|exists b; auto]). injection E as -> _. auto.
    + unfold special in *. apply orb_false_iff in S1 as [S1 C1]. apply orb_false_iff in S1 as [S1 D1]. apply orb_false_iff in S2 as [S2 C2]. apply orb_false_iff in S2 as [S2 D2]. rewrite S1, S2, C1, C2, D1, D2. auto.
Qed.
Lemma p_words a b : p_alike a b -> split_ws a = split_ws b.
Proof. intros [->|[H _]]; auto. Qed.
Lemma blank_words a : split_ws a <> [] -> blank_line a = false.
Proof.
  intros N. unfold blank_line. destruct (seqb _ _) eqn:E; auto. exfalso. apply N. apply seqb_eq in E. apply split_ws_blank. apply forallb_forall. intros c I.
  destruct (aeqb c sp) eqn:S; [apply aeqb_eq in S; subst; reflexivity|]. assert (In c (filter (fun c => negb (aeqb c sp)) a)) as K by (apply filter_In; split; auto; rewrite S; reflexivity). rewrite E in K. destruct K as [<-|[]]. reflexivity.
Qed.
Lemma p_blank a b : p_alike a b -> blank_line a = blank_line b.
Proof. intros [->|(H & N & _)]; auto. rewrite !blank_words; congruence. Qed.
Section P.
Variable A : arith.
Lemma p_num3 f a b : p_alike a b -> num3 A a f = num3 A b f.
Proof. intros H. unfold num3. rewrite (p_words _ _ H). reflexivity. Qed.
Lemma p_flags a b : p_alike a b -> flags3 a = flags3 b.
Proof. intros H. unfold flags3. rewrite (p_words _ _ H). reflexivity. Qed.
Variables ls ls' : list str.
Hypothesis L : length ls = length ls'.
Hypothesis F : forall i, 7 <= i -> match nth_error ls i, nth_error ls' i with Some a, Some b => p_alike a b | None, None => True | _, _ => False end.
Lemma p_at {U} i (f f' : str -> res U) : 7 <= i -> (forall a b, p_alike a b -> f a = f' b) -> bind (py_nth ls i) f = bind (py_nth ls' i) f'.
Proof. intros I H. pose proof (F i I) as N. unfold py_nth. destruct (nth_error ls i), (nth_error ls' i); cbn [of_option bind]; auto; contradiction. Qed.
Lemma p_zat {U} n (f f' : str -> res U) : (7 <= n)%Z -> (forall a b, p_alike a b -> f a = f' b) -> bind (zat ls n) f = bind (zat ls' n) f'.
Proof. intros I H. unfold zat. unfold list_index. rewrite L. assert ((0 <=? n)%Z = true) as -> by (apply Z.leb_le; lia). destruct (n <? _)%Z; auto. apply p_at; auto. lia. Qed.
Lemma p_range {U} (f f' : nat -> res U) s n : 7 <= s -> (forall i, 7 <= i -> f i = f' i) -> mapM f (seq s n) = mapM f' (seq s n).
Proof. intros I H. revert s I. induction n as [|n IH]; intros s I; auto. cbn [seq mapM]. rewrite (H s I), IH by lia. reflexivity. Qed.
Lemma p_sites spec atoms d s sc cell k : forall i st, 7 <= i -> read_sites A ls spec atoms d s sc cell i k st = read_sites A ls' spec atoms d s sc cell i k st.
Proof.
  induction k as [|k IH]; intros i st I; auto. cbn [read_sites]. apply bind_both; auto. intros [sp' st']. apply p_at; auto. intros a b H. rewrite (p_num3 _ _ _ H), (p_flags _ _ H). apply bind_both; auto. intros p. apply bind_both; auto. intros p'. apply bind_both; auto. intros f. rewrite IH by lia. reflexivity.
Qed.
Lemma p_block s n : 7 <= s -> PoscarModel.read_block A ls s n = PoscarModel.read_block A ls' s n.
Proof. intros I. unfold PoscarModel.read_block. apply p_range; auto. intros i J. apply p_at; auto. intros a b H. apply p_num3. auto. Qed.
Lemma p_first {U} (f f' : ascii -> res U) a b : p_alike a b ->
  (forall c c', aeqb (lower1 c) "s" = aeqb (lower1 c') "s" -> aeqb (lower1 c) "d" = aeqb (lower1 c') "d" -> aeqb (lower1 c) "c" = aeqb (lower1 c') "c" -> f c = f' c') ->
  bind (py_nth a 0) f = bind (py_nth b 0) f'.
Proof. intros H K. apply p_start in H. destruct a, b; try contradiction; auto. destruct H as (H1 & H2 & H3). cbn. apply K; auto. Qed.
Lemma p_mode : read_mode ls = read_mode ls'.
Proof.
  unfold read_mode. apply p_at; [lia|]. intros a b H. apply (p_first _ _ _ _ H). intros c c' S1 D1 C1. rewrite S1, D1. destruct (aeqb (lower1 c') "s"); auto.
  apply p_at; [lia|]. clear a b H. intros a b H. apply (p_first _ _ _ _ H). intros e e' S2 D2 C2. rewrite D2. reflexivity.
Qed.
Lemma p_tail p d : (7 <= p)%Z -> read_tail_mode ls p d = read_tail_mode ls' p d.
Proof.
  intros I. unfold read_tail_mode. rewrite L. apply bind_both.
  - destruct (p <? _)%Z; auto. apply p_zat; auto. intros a b H. apply (p_first _ _ _ _ H). intros c c' S1 D1 C1. rewrite D1, C1, (p_blank _ _ H). reflexivity.
  - intros [[v x] pr]. destruct (p + 1 <? _)%Z; auto. apply p_zat; [lia|]. intros a b H. rewrite (p_words _ _ H). reflexivity.
Qed.
Lemma p_vel s n d cell : 7 <= s -> read_velocities A ls s n d cell = read_velocities A ls' s n d cell.
Proof. intros I. unfold read_velocities. apply p_range; auto. intros i J. apply p_at; auto. intros a b H. rewrite (p_num3 _ _ _ H). reflexivity. Qed.
Lemma p_pred q n : (7 <= q)%Z -> read_predictors A ls q n = read_predictors A ls' q n.
Proof.
  intros I. unfold read_predictors. rewrite L. destruct (q <? _)%Z; auto. apply p_zat; auto. intros a b H. rewrite (p_blank _ _ H). destruct (blank_line b); auto. apply p_zat; [lia|]. clear a b H. intros a b H. rewrite (p_words _ _ H). apply bind_both; auto. intros t. rewrite p_block by lia. reflexivity.
Qed.
End P.
Lemma bind_with {T U} (m : res T) (f f' : T -> res U) : (forall a, m = Ok a -> f a = f' a) -> bind m f = bind m f'.
Proof. intros H. destruct m; cbn; auto. Qed.
Lemma first_line ls s d f : read_mode ls = Ok (s, d, f) -> 8 <= f.
Proof. unfold read_mode. intros H. apply bind_ok in H as (l & _ & H). apply bind_ok in H as (c & _ & H). destruct (aeqb _ _); [|injection H as _ _ <-; lia]. apply bind_ok in H as (l' & _ & H). apply bind_ok in H as (c' & _ & H). injection H as _ _ <-. lia. Qed.
Lemma p_from_list A l0 l1 l2 l3 l4 l5 l6 m1 m2 m3 m4 m5 m6 r r' :
  alike l1 m1 -> alike l2 m2 -> alike l3 m3 -> alike l4 m4 -> alike l5 m5 -> alike l6 m6 -> is_numbers l5 = is_numbers m5 ->
  (forall atoms, mapM int_tok (split_ws l6) = Ok atoms -> (0 <= fold_left Z.add atoms 0)%Z) -> Forall2 p_alike r r' ->
  PoscarModel.from_list A (l0 :: l1 :: l2 :: l3 :: l4 :: l5 :: l6 :: r) = PoscarModel.from_list A (l0 :: m1 :: m2 :: m3 :: m4 :: m5 :: m6 :: r').
Proof.
  intros H1 H2 H3 H4 H5 H6 E5 NN F. set (ls := l0 :: l1 :: l2 :: l3 :: l4 :: l5 :: l6 :: r). set (ls' := l0 :: m1 :: m2 :: m3 :: m4 :: m5 :: m6 :: r').
  assert (length ls = length ls') as L by (unfold ls, ls'; cbn; rewrite (Forall2_length' _ _ _ F); auto).
  assert (forall i, 7 <= i -> match nth_error ls i, nth_error ls' i with Some a, Some b => p_alike a b | None, None => True | _, _ => False end) as G.
  { intros i I. do 7 (destruct i as [|i]; [lia|]). exact (Forall2_nth _ _ _ F i). }
  unfold PoscarModel.from_list.
  change (py_nth ls 0) with (Ok l0); change (py_nth ls 1) with (Ok l1); change (py_nth ls 2) with (Ok l2); change (py_nth ls 3) with (Ok l3); change (py_nth ls 4) with (Ok l4); change (py_nth ls 5) with (Ok l5); change (py_nth ls 6) with (Ok l6).
  change (py_nth ls' 0) with (Ok l0); change (py_nth ls' 1) with (Ok m1); change (py_nth ls' 2) with (Ok m2); change (py_nth ls' 3) with (Ok m3); change (py_nth ls' 4) with (Ok m4); change (py_nth ls' 5) with (Ok m5); change (py_nth ls' 6) with (Ok m6).
  cbn [bind]. rewrite <- (alike_words _ _ H1), <- (alike_words _ _ H2), <- (alike_words _ _ H3), <- (alike_words _ _ H4), <- (alike_words _ _ H5), <- (alike_words _ _ H6), E5.
  apply bind_both; auto. intros t. apply bind_both; auto. intros sc. destruct (nneg A sc); auto. destruct (is_numbers m5); auto.
  apply bind_both; auto. intros r2. apply bind_both; auto. intros r3. apply bind_both; auto. intros r4. apply bind_both; auto. intros cell. apply bind_with. intros atoms HA. specialize (NN atoms HA).
  rewrite <- (p_mode _ _ L G). apply bind_with. intros [[sel dir] first] HM. apply first_line in HM. rewrite <- (p_sites A _ _ L G) by lia. apply bind_both; auto. intros raw.
  rewrite <- (p_tail _ _ L G) by lia. apply bind_both; auto. intros [[hasv vd] pr]. apply bind_both; auto. destruct hasv.
  - rewrite <- (p_vel A _ _ L G) by lia. rewrite <- (p_pred A _ _ L G) by lia. reflexivity.
  - destruct pr; auto. rewrite <- (p_block A _ _ L G) by lia. reflexivity.
Qed.
(** Any other blanks and tabs, as long as the line of species has a word that is not a number
    and the lines after the counts keep starting, or not, with a letter of a header. *)
Theorem C89_poscar : forall A ch l0 l1 l2 l3 l4 l5 l6 m1 m2 m3 m4 m5 m6 r r' w,
  nobreak l0 = true -> respaced l1 m1 -> respaced l2 m2 -> respaced l3 m3 -> respaced l4 m4 -> respaced l5 m5 -> respaced l6 m6 ->
  In w (split_ws l5) -> is_number w = false -> (forall atoms, counts_at [[]; []; []; []; []; []; l6] 6 atoms -> (0 <= total atoms)%Z) ->
  Forall2 (fun l l' => l = l' /\ nobreak l = true \/ respaced l l' /\ same_start l l') r r' ->
  pread A ch (unlines (l0 :: l1 :: l2 :: l3 :: l4 :: l5 :: l6 :: r)) = pread A ch (unlines (l0 :: m1 :: m2 :: m3 :: m4 :: m5 :: m6 :: r')).
Proof.
  intros A ch l0 l1 l2 l3 l4 l5 l6 m1 m2 m3 m4 m5 m6 r r' w N0 H1 H2 H3 H4 H5 H6 W NW NN F.
  assert (forallb nobreak r = true /\ forallb nobreak r' = true) as [N1 N2].
  { clear -F. induction F as [|a b la lb [[-> H]|[H _]] F [I1 I2]]; auto; cbn [forallb]; rewrite I1, I2; [rewrite H; auto|]. destruct (respaced_nobreak _ _ H) as [-> ->]. auto. }
  assert (forall a b, respaced a b -> alike (a ++ [nl]) (b ++ [nl])) as AL by (intros a b H; right; rewrite !split_ws_nl; apply respaced_words; auto).
  rewrite !pread_eq, !plines_unlines.
  2-3: cbn [forallb]; rewrite N0, ?N1, ?N2, ?(proj1 (respaced_nobreak _ _ H1)), ?(proj2 (respaced_nobreak _ _ H1)), ?(proj1 (respaced_nobreak _ _ H2)), ?(proj2 (respaced_nobreak _ _ H2)), ?(proj1 (respaced_nobreak _ _ H3)), ?(proj2 (respaced_nobreak _ _ H3)), ?(proj1 (respaced_nobreak _ _ H4)), ?(proj2 (respaced_nobreak _ _ H4)), ?(proj1 (respaced_nobreak _ _ H5)), ?(proj2 (respaced_nobreak _ _ H5)), ?(proj1 (respaced_nobreak _ _ H6)), ?(proj2 (respaced_nobreak _ _ H6)); reflexivity.
  cbn [map]. rewrite (p_from_list A (l0 ++ [nl]) _ _ _ _ _ _ (m1 ++ [nl]) (m2 ++ [nl]) (m3 ++ [nl]) (m4 ++ [nl]) (m5 ++ [nl]) (m6 ++ [nl]) _ (map (fun l => l ++ [nl]) r')); auto.
  - assert (forall l, In w (split_ws l) -> is_numbers (l ++ [nl]) = false) as K.
    { intros l I. destruct (is_numbers _) eqn:E; auto. apply is_numbers_tokens in E as [E _]. rewrite split_ws_nl in E. rewrite forallb_forall in E. rewrite (E w I) in NW. discriminate. }
    rewrite !K; auto. rewrite <- (proj1 (respaced_words _ _ H5)). auto.
  - intros atoms HA. apply NN. exists l6. split; auto. rewrite split_ws_nl in HA. apply mapM_ok_Forall2 in HA. eapply Forall2_impl'; [|exact HA]. intros a b Q. apply of_option_ok in Q. exact Q.
  - clear -F. induction F as [|a b la lb [[-> _]|[H S]] F IH]; cbn [map]; constructor; auto; [left; auto|]. right. rewrite !split_ws_nl. destruct (respaced_words _ _ H) as [E N]. split; auto. split; auto.
    intros c I. destruct a as [|x a]; [exfalso; apply N; reflexivity|]. destruct b as [|y b]; [exfalso; apply N; rewrite E; reflexivity|]. specialize (S c I). unfold begins in *. cbn [app].
    split; intros [q Q]; injection Q as -> _; [destruct (proj1 S (ex_intro _ a eq_refl)) as [q' Q']; injection Q' as -> _|destruct (proj2 S (ex_intro _ b eq_refl)) as [q' Q']; injection Q' as -> _]; eexists; reflexivity.
Qed.

(** ** Non-vacuity *)
Definition line_of (s : string) : str := map (fun c => if aeqb c "|" then tab else c) (lit s).
Ltac word_ := split; [discriminate|repeat (constructor; [intros X; unfold white in X; cbn in X; repeat destruct X as [X|X]; try discriminate X; destruct X|]); constructor].
Ltac or_ := first [left; reflexivity | right; reflexivity].
Ltac gap_ := repeat (constructor; [or_|]); constructor.
Example C89_case : respaced (line_of "0.0 0.25 -0.5") (line_of "|0.0| 0.25  -0.5 | ").
Proof.
  exists [lit "0.0"; lit "0.25"; lit "-0.5"]. split; [discriminate|]. split.
  - apply (spaced_next [] (lit "0.0") " " (lit "0.25 -0.5")); [gap_|word_|or_|]. apply (spaced_next [] (lit "0.25") " " (lit "-0.5")); [gap_|word_|or_|]. apply (spaced_last [] (lit "-0.5") []); [gap_|word_|gap_].
  - apply (spaced_next [tab] (lit "0.0") tab (line_of " 0.25  -0.5 | ")); [gap_|word_|or_|]. apply (spaced_next [" "%char] (lit "0.25") " " (line_of " -0.5 | ")); [gap_|word_|or_|]. apply (spaced_last [" "%char] (lit "-0.5") [" "%char; tab; " "%char]); [gap_|word_|gap_].
Qed.
Example C89_texts : kread FromFile (unlines (map line_of ["c"; "1"; "Direct"; "0.0 0.25 -0.5"]%string)) = kread FromFile (unlines (map line_of ["c"; "1"; "Direct"; "|0.0| 0.25  -0.5 | "]%string)) /\
  reads (pread exact FromFile (unlines (map line_of ["c"; "1"; "2 0 0"; "0 2 0"; "0 0 2"; "Ga As"; "1 1"; "Direct"; "0 0.5 0"; "0 0 0"]%string))) = true /\
  reads (pread exact FromFile (unlines (map line_of ["c"; "| 1"; "2|0|0"; "0 2 0"; "0 0 2"; " Ga||As  "; "| 1|1"; "Direct"; " 0|0.5 0"; "0  0 |0"]%string))) = true.
Proof. vm_compute. auto. Qed.
