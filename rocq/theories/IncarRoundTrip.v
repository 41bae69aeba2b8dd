(** Reading back what Incar._write produced. *)
From Coq Require Import Ascii String List NArith ZArith Bool Lia Arith Permutation Sorted.
From Verif Require Import PyBase PyStrLemmas PyNum PyNumLemmas IncarTags IncarModel IncarProofs.
Import ListNotations.
Local Open Scope list_scope.
Local Open Scope bool_scope.

Arguments smem : simpl never.

(** ** Type tests on printed numbers *)
Lemma count_char_0 c l : nochar c l = true -> count_char c l = 0.
Proof.
  induction l as [|x r IH]; auto. cbn [nochar forallb]. intros H. apply andb_true_iff in H as [H1 H2].
  apply negb_true_iff in H1. cbn. rewrite H1. cbn. apply IH. exact H2.
Qed.
Lemma count_char_pos c l : charb c l = true -> count_char c l <> 0.
Proof.
  induction l as [|x r IH]; [discriminate|]. cbn. rewrite (aeqb_sym c x). destruct (aeqb x c); cbn; auto.
Qed.
Lemma charb_nochar c l : charb c l = negb (nochar c l).
Proof.
  induction l as [|x r IH]; auto. cbn. rewrite (aeqb_sym c x). destruct (aeqb x c); cbn; auto.
Qed.
Lemma str_of_Z_class (P : ascii -> bool) z :
  P "-"%char = true -> forallb (fun c => implb (is_digit c) (P c)) all_ascii = true ->
  forallb P (str_of_Z z) = true.
Proof.
  intros H1 H2. rewrite str_of_Z_sign, forallb_app. rewrite (alldigits_all P (zdigits z)) by (auto; apply digits_of_digits).
  destruct (z <? 0)%Z; cbn; rewrite ?H1; reflexivity.
Qed.
Lemma test_content_int z : test_string_content (str_of_Z z) = CInt.
Proof.
  unfold test_string_content, parse_float. rewrite parse_dec_str_of_Z. cbn [option_map].
  rewrite count_char_0 by (apply str_of_Z_class; vm_compute; reflexivity).
  rewrite !charb_nochar. unfold nochar.
  rewrite !str_of_Z_class by (vm_compute; reflexivity). reflexivity.
Qed.
Lemma test_content_float x : wf_float x -> finite x = true -> test_string_content (repr_float x) = CFloat.
Proof.
  intros H1 H2. destruct (repr_float_spec x H1 H2) as [P [[Q|Q] _]]; unfold test_string_content; rewrite P.
  - apply count_char_pos in Q. apply Nat.eqb_neq in Q. rewrite Q. reflexivity.
  - rewrite Q. rewrite andb_false_r. reflexivity.
Qed.

Definition atom_finite (a : atom) : bool := match a with AFloat x => finite x | _ => true end.
Definition not_bool (a : atom) : bool := match a with ABool _ => false | _ => true end.
(** values whose printed form denotes the same value *)
Definition writable (v : value) : bool :=
  match v with
  | VAtom a => atom_finite a
  | VList l => forallb (fun a => atom_finite a && not_bool a) l
  end.

Lemma sep_free_numeric l : forallb numeric_char l = true -> sep_free l = true.
Proof. intros H. unfold sep_free. rewrite !numeric_nochar by auto. reflexivity. Qed.

Lemma clean_element_str a :
  atom_ok a -> atom_finite a = true -> not_bool a = true ->
  clean_element (str_atom a) = Ok a /\ test_string_content (str_atom a) = atype a /\
  is_token (str_atom a) = true /\ sep_free (str_atom a) = true.
Proof.
  destruct a as [z|x|b|s]; cbn [atom_ok atom_finite not_bool str_atom atype]; intros H1 H2 H3.
  - unfold clean_element. rewrite test_content_int, parse_int_str.
    repeat split; auto using str_of_Z_token, sep_free_numeric, str_of_Z_numeric.
  - unfold clean_element. rewrite test_content_float by auto.
    destruct (repr_float_spec x H1 H2) as [P [_ [N E]]]. rewrite P.
    repeat split; auto using sep_free_numeric. apply is_token_intro; auto using numeric_nospace.
  - discriminate.
  - destruct H1 as [T [S [C B]]]. unfold clean_element. rewrite C, B. auto.
Qed.

Definition value_tokens (v : value) : list str :=
  match v with
  | VList l => map str_atom l
  | VAtom (ABool true) => [lit ".TRUE."]
  | VAtom (ABool false) => [lit ".FALSE."]
  | VAtom a => [str_atom a]
  end.
Lemma convert_tokens v : convert_value v = join [sp] (value_tokens v).
Proof. destruct v as [[z|x|[|]|s]|l]; reflexivity. Qed.
Lemma atoms_str l :
  Forall atom_ok l -> forallb (fun a => atom_finite a && not_bool a) l = true ->
  mapM clean_element (map str_atom l) = Ok l /\ map test_string_content (map str_atom l) = map atype l /\
  forallb is_token (map str_atom l) = true /\ forallb sep_free (map str_atom l) = true.
Proof.
  induction 1 as [|a l Ha Hl IH]; [cbn; auto|]. cbn. rewrite !andb_true_iff. intros [[F1 F2] F3].
  destruct (clean_element_str a Ha F1 F2) as [-> [-> [-> ->]]].
  destruct (IH F3) as [-> [-> [-> ->]]]. auto.
Qed.
Lemma value_tokens_ok v : value_ok v -> writable v = true ->
  forallb is_token (value_tokens v) = true /\ forallb sep_free (value_tokens v) = true.
Proof.
  destruct v as [a|l]; cbn [value_ok writable].
  - intros H1 H2. destruct a as [z|x|[|]|s]; try (split; reflexivity);
    match goal with |- forallb is_token (value_tokens (VAtom ?a)) = true /\ _ =>
      destruct (clean_element_str a H1 H2 eq_refl) as [_ [_ [T S]]] end;
    cbn [value_tokens forallb]; rewrite T, S; auto.
  - intros [_ [H1 _]] H2. destruct (atoms_str l H1 H2) as [_ [_ [T S]]]. auto.
Qed.

Lemma ceqb_refl t : ceqb t t = true.
Proof. destruct t; reflexivity. Qed.

Lemma clean_value_convert v pre post :
  value_ok v -> writable v = true -> blank pre = true -> blank post = true ->
  clean_value_string (pre ++ convert_value v ++ post) = Ok v.
Proof.
  intros Hv Hw Hpre Hpost. unfold clean_value_string.
  rewrite split_ws_blank_app, split_ws_app_blank, convert_tokens by auto.
  destruct (value_tokens_ok v Hv Hw) as [T _].
  rewrite split_ws_join by (auto; reflexivity). clear T.
  destruct v as [a|l]; cbn [value_ok writable] in *.
  - destruct a as [z|x|[|]|s]; try reflexivity;
    match goal with |- context [value_tokens (VAtom ?a)] =>
      destruct (clean_element_str a Hv Hw eq_refl) as [C [T _]] end;
    cbn [value_tokens mapM map]; rewrite C; cbn [bind forallb]; rewrite T, ceqb_refl; reflexivity.
  - destruct Hv as [Hlen [Hok [t Ht]]]. destruct (atoms_str l Hok Hw) as [C [T _]].
    cbn [value_tokens]. rewrite C, T. cbn [bind].
    assert (forall t0, In t0 (map atype l) -> t0 = t) as Hall.
    { intros t0 H. apply in_map_iff in H as [a [<- Ha]]. rewrite Forall_forall in Ht. auto. }
    destruct l as [|a [|b l]]; [reflexivity|cbn in Hlen; lia|].
    cbn [map]. set (ts := atype a :: atype b :: map atype l).
    assert (forallb (ceqb (atype a)) ts = true) as ->; [|reflexivity].
    apply forallb_forall. intros t0 H0. rewrite (Hall t0 H0), (Hall (atype a)) by (left; auto). apply ceqb_refl.
Qed.

Lemma sep_free_app a b : sep_free (a ++ b) = sep_free a && sep_free b.
Proof.
  unfold sep_free, nochar. rewrite !forallb_app.
  repeat match goal with |- context [forallb ?f ?l] => destruct (forallb f l) end; reflexivity.
Qed.
Lemma sep_free_join ts : forallb sep_free ts = true -> sep_free (join [sp] ts) = true.
Proof.
  induction ts as [|t ts IH]; auto. cbn [forallb]. intros H. apply andb_true_iff in H as [H1 H2].
  destruct ts; auto. rewrite join_cons2, !sep_free_app, H1, IH by auto. reflexivity.
Qed.

Section RT.
Variable brk : ascii -> bool.
Hypothesis brk_space : forall c, brk c = true -> is_space c = true.
Hypothesis brk_sp : brk sp = false.
Let nobrk := nobrk brk.
Lemma brk_sp' : brk " "%char = false.
Proof. exact brk_sp. Qed.

Lemma nobrk_app a b : nobrk (a ++ b) = nobrk a && nobrk b.
Proof. apply forallb_app. Qed.
Lemma nobrk_join ts : forallb is_token ts = true -> nobrk (join [sp] ts) = true.
Proof.
  induction ts as [|t ts IH]; auto. cbn [forallb]. intros H. apply andb_true_iff in H as [H1 H2].
  assert (nobrk t = true) by (apply nospace_nobrk; auto using is_token_nospace).
  destruct ts; auto. rewrite join_cons2, !nobrk_app, H, IH by auto. cbn. rewrite brk_sp. reflexivity.
Qed.

Definition item_writable (it : item) : bool :=
  if smem (i_tag it) raw_tags then true else writable (i_value it).

Lemma convert_ok it : item_ok brk it -> item_writable it = true ->
  sep_free (convert_value (i_value it)) = true /\ nobrk (convert_value (i_value it)) = true.
Proof.
  intros [_ H] Hw. unfold item_writable in Hw. destruct (smem (i_tag it) raw_tags).
  - destruct H as [[s [-> [_ [H1 H2]]]] _]. cbn. auto.
  - destruct H as [H _]. destruct (value_tokens_ok _ H Hw) as [T S]. rewrite convert_tokens.
    auto using sep_free_join, nobrk_join.
Qed.

Definition comment_str (comments : bool) (it : item) : str :=
  match i_comment it with Some c => if comments then lit " # " ++ c else [] | None => [] end.
Definition item_line (comments : bool) (it : item) : str :=
  upper (i_tag it) ++ lit " = " ++ convert_value (i_value it) ++ comment_str comments it.
Lemma write_item_line comments it : write_item comments (i_tag it) it = item_line comments it ++ [nl].
Proof. unfold write_item, item_line, comment_str. rewrite <- !app_assoc. reflexivity. Qed.

Lemma item_line_nobrk comments it : item_ok brk it -> item_writable it = true -> nobrk (item_line comments it) = true.
Proof.
  intros H Hw. destruct (convert_ok it H Hw) as [_ C]. unfold item_line. rewrite !nobrk_app, C.
  destruct H as [[Ht [_ _]] H]. apply is_token_nospace in Ht.
  assert (nobrk (upper (i_tag it)) = true) as -> by (apply nospace_nobrk; auto; rewrite nospace_upper; auto).
  assert (nobrk (lit " = ") = true) as ->.
  { cbn. rewrite brk_sp'. destruct (brk "="%char) eqn:E; auto. apply brk_space in E. discriminate. }
  cbn [andb]. unfold comment_str.
  destruct (smem (i_tag it) raw_tags); [destruct H as [_ ->]; auto|].
  destruct H as [_ H]. destruct (i_comment it) as [c|]; auto. destruct comments; auto.
  rewrite nobrk_app. destruct H as [_ H]. fold nobrk in H. rewrite H. cbn. rewrite brk_sp'.
  destruct (brk "#"%char) eqn:E; auto. apply brk_space in E. discriminate.
Qed.

Definition stored (comments : bool) (it : item) : item :=
  if comments then it else Item (i_tag it) (i_value it) None.

Lemma clean_entry_written it c post :
  item_ok brk it -> item_writable it = true -> blank post = true ->
  clean_entry (upper (i_tag it) ++ [sp]) (PVal (VAtom (AStr ([sp] ++ convert_value (i_value it) ++ post)))) c
  = Ok (Item (i_tag it) (i_value it) (if smem (i_tag it) raw_tags then None else option_map strip c)).
Proof.
  intros [[T1 [T2 T3]] H] Hw Hp. unfold clean_entry.
  rewrite split_ws_app_blank by reflexivity.
  rewrite split_ws_word; [|apply is_token_ne; rewrite is_token_upper; auto|apply is_token_nospace; rewrite is_token_upper; auto].
  rewrite lower_upper, T2. unfold item_writable in Hw. destruct (smem (i_tag it) raw_tags).
  - destruct H as [[s [-> [S1 _]]] _]. cbn [convert_value str_atom].
    rewrite strip_blank_app, strip_app_blank by (auto; reflexivity). rewrite S1. reflexivity.
  - destruct H as [H _]. rewrite clean_value_convert by (auto; reflexivity). reflexivity.
Qed.

Lemma add_item_line comments it d post :
  item_ok brk it -> item_writable it = true -> blank post = true -> sep_free post = true ->
  add_line d (item_line comments it ++ post) = Ok (dset (i_tag it) (stored comments it) d).
Proof.
  intros H Hw Hp Hs.
  pose proof (convert_ok it H Hw) as [Cs _].
  pose proof H as [[T1 [T2 T3]] HH].
  assert (sep_free (upper (i_tag it)) = true) as U.
  { unfold sep_free in *. rewrite !upper_nochar by reflexivity. auto. }
  set (body0 := upper (i_tag it) ++ lit " = " ++ convert_value (i_value it)).
  assert (nochar "#"%char body0 = true /\ nochar ";"%char body0 = true) as [B1 B2].
  { unfold body0. unfold sep_free in U, Cs. rewrite !andb_true_iff in U, Cs. unfold nochar. rewrite !forallb_app.
    unfold nochar in U, Cs. destruct U as [[-> ->] _]. destruct Cs as [[-> ->] _]. split; reflexivity. }
  (* body and comment seen by the reader *)
  assert (exists w cm, split_first "#"%char (item_line comments it ++ post) = (body0 ++ w, cm) /\
            blank w = true /\ sep_free w = true /\
            (if smem (i_tag it) raw_tags then None else option_map strip cm) = (if comments then i_comment it else None)) as
    [w [cm [E [W1 [W2 W3]]]]].
  { unfold item_line, comment_str.
    assert ((if smem (i_tag it) raw_tags then i_comment it = None else comment_ok brk (i_comment it))) as HC
      by (destruct (smem (i_tag it) raw_tags); tauto).
    destruct (i_comment it) as [c|] eqn:Ec; [destruct comments|].
    - destruct (smem (i_tag it) raw_tags) eqn:R; [discriminate|]. destruct HC as [HC _].
      exists [sp], (Some ([sp] ++ c ++ post)). split; [|split; [reflexivity|split; [reflexivity|]]].
      + replace ((upper (i_tag it) ++ lit " = " ++ convert_value (i_value it) ++ lit " # " ++ c) ++ post)
          with ((body0 ++ [sp]) ++ "#"%char :: ([sp] ++ c ++ post)).
        * apply split_first_app. unfold nochar. rewrite forallb_app. fold (nochar "#"%char body0). rewrite B1. reflexivity.
        * unfold body0. rewrite <- !app_assoc. reflexivity.
      + cbn [option_map]. rewrite strip_blank_app, strip_app_blank by (auto; reflexivity). congruence.
    - exists post, None. split; [|split; [auto|split; [auto|]]].
      + rewrite app_nil_r. fold body0. apply split_first_none.
        unfold nochar. rewrite forallb_app. fold (nochar "#"%char body0). rewrite B1.
        unfold sep_free in Hs. rewrite !andb_true_iff in Hs. unfold nochar in Hs. tauto.
      + cbn. destruct (smem _ _); reflexivity.
    - exists post, None. split; [|split; [auto|split; [auto|]]].
      + rewrite app_nil_r. fold body0. apply split_first_none.
        unfold nochar. rewrite forallb_app. fold (nochar "#"%char body0). rewrite B1.
        unfold sep_free in Hs. rewrite !andb_true_iff in Hs. unfold nochar in Hs. tauto.
      + cbn. destruct (smem _ _), comments; reflexivity. }
  unfold add_line.
  rewrite <- split_first_hd, E. cbn [fst].
  assert (split_ws (body0 ++ w) <> []) as Hne.
  { rewrite split_ws_app_blank by auto. intros K. apply split_ws_nil_iff in K. unfold body0 in K.
    unfold blank in K. rewrite forallb_app in K. apply andb_true_iff in K as [K _].
    pose proof T1 as T1'. rewrite <- is_token_upper in T1'. destruct (upper (i_tag it)); [discriminate|].
    cbn in K, T1'. apply andb_true_iff in K as [K _]. rewrite K in T1'. discriminate. }
  destruct (split_ws (body0 ++ w)) as [|x xs]; [congruence|]. clear Hne x xs.
  assert (nochar ";"%char (body0 ++ w) = true) as B3.
  { unfold nochar. rewrite forallb_app. fold (nochar ";"%char body0). rewrite B2.
    unfold sep_free in W2. rewrite !andb_true_iff in W2. unfold nochar in W2. tauto. }
  rewrite split_on_none by auto. cbn [foldM]. unfold add_fragment.
  assert (seqb (body0 ++ w) [nl] = false) as ->.
  { apply seqb_neq. unfold body0. intros K. apply (f_equal (@length ascii)) in K. rewrite !app_length in K. clear -K. change (length (lit " = ")) with 3 in K. change (length [nl]) with 1 in K. lia. }
  assert (split_on "="%char (body0 ++ w) = [upper (i_tag it) ++ [sp]; [sp] ++ convert_value (i_value it) ++ w]) as ->.
  { replace (body0 ++ w) with ((upper (i_tag it) ++ [sp]) ++ "="%char :: ([sp] ++ convert_value (i_value it) ++ w))
      by (unfold body0; rewrite <- !app_assoc; reflexivity).
    unfold sep_free in U, Cs, W2. rewrite !andb_true_iff in U, Cs, W2.
    rewrite split_on_app.
    - rewrite split_on_none; auto. unfold nochar in *. rewrite !forallb_app.
      destruct Cs as [_ ->]. destruct W2 as [_ ->]. reflexivity.
    - unfold nochar in *. rewrite forallb_app. destruct U as [_ ->]. reflexivity. }
  rewrite clean_entry_written by auto. cbn [bind i_tag]. rewrite W3.
  unfold stored. destruct comments; auto. destruct it; reflexivity.
Qed.

(** ** The whole file *)
Definition items_ok (d : entries) : Prop := entries_ok brk d /\ forall k it, In (k, it) d -> item_writable it = true.

Lemma fold_lines comments post its d :
  (forall it, In it its -> item_ok brk it /\ item_writable it = true) ->
  blank post = true -> sep_free post = true ->
  foldM add_line (map (fun it => item_line comments it ++ post) its) d =
  Ok (fold_left (fun d it => dset (i_tag it) (stored comments it) d) its d).
Proof.
  intros H Hp Hs. revert d. induction its as [|it its IH]; intros d; auto.
  cbn [map foldM fold_left]. destruct (H it (or_introl eq_refl)) as [H1 H2].
  rewrite add_item_line by auto. cbn [bind]. apply IH. intros; apply H; right; auto.
Qed.
Lemma dset_fresh {V} k (v : V) d : ~ In k (dkeys d) -> dset k v d = d ++ [(k, v)].
Proof.
  induction d as [|[k' v'] r IH]; auto. cbn. intros H.
  destruct (seqb k k') eqn:E; [apply seqb_eq in E; subst; exfalso; auto|]. rewrite IH; auto.
Qed.
Lemma fold_dset_fresh (f : item -> item) its d :
  NoDup (dkeys d ++ map i_tag its) ->
  fold_left (fun d it => dset (i_tag it) (f it) d) its d = d ++ map (fun it => (i_tag it, f it)) its.
Proof.
  revert d. induction its as [|it its IH]; intros d H; cbn; [rewrite app_nil_r; auto|].
  cbn in H. pose proof (NoDup_remove_2 _ _ _ H) as N. rewrite dset_fresh.
  - rewrite IH; [rewrite <- app_assoc; reflexivity|].
    unfold dkeys. rewrite map_app. cbn. rewrite <- app_assoc. exact H.
  - intros K. apply N. apply in_or_app. left; auto.
Qed.

(** the items in the order of the sorted keys *)
Definition sorted_items (d : entries) : list item :=
  concat (map (fun k => match dget k d with Some it => [it] | None => [] end) (ssort (dkeys d))).

Lemma sorted_items_tags d : entries_ok brk d -> map i_tag (sorted_items d) = ssort (dkeys d).
Proof.
  intros [Hn Hd]. unfold sorted_items.
  assert (forall ks, incl ks (dkeys d) -> map i_tag (concat (map (fun k => match dget k d with Some it => [it] | None => [] end) ks)) = ks) as K.
  { induction ks as [|k ks IH]; intros Hi; auto. cbn. rewrite map_app, IH.
    - destruct (dget k d) as [it|] eqn:E.
      + apply dget_In in E. destruct (Hd _ _ E) as [-> _]. reflexivity.
      + apply dget_None in E. exfalso. apply E, Hi. left; auto.
    - intros x Hx. apply Hi. right; auto. }
  apply K. intros k Hk. eapply Permutation_in; [apply ssort_perm|auto].
Qed.
Lemma sorted_items_In d it : In it (sorted_items d) -> exists k, dget k d = Some it.
Proof.
  unfold sorted_items. rewrite in_concat. intros [l [Hl Hi]]. apply in_map_iff in Hl as [k [<- _]].
  exists k. destruct (dget k d); [|destruct Hi]. destruct Hi as [->|[]]; auto.
Qed.
Lemma dget_sorted d (f : item -> item) k : entries_ok brk d ->
  dget k (map (fun it => (i_tag it, f it)) (sorted_items d)) = option_map f (dget k d).
Proof.
  intros H. pose proof H as [Hn Hd].
  assert (NoDup (map i_tag (sorted_items d))) as N.
  { rewrite sorted_items_tags by auto. eapply Permutation_NoDup; [symmetry; apply ssort_perm|auto]. }
  destruct (dget k d) as [it|] eqn:E; cbn.
  - apply In_dget.
    + unfold dkeys. rewrite map_map. cbn. exact N.
    + apply in_map_iff. exists it. pose proof E as E'. apply dget_In in E'. destruct (Hd _ _ E') as [-> _].
      split; auto. unfold sorted_items. apply in_concat. exists [it]. split; [|left; auto].
      apply in_map_iff. exists (i_tag it). rewrite E. split; auto.
      eapply Permutation_in; [symmetry; apply ssort_perm|]. apply in_map_iff. exists (i_tag it, it). auto.
  - apply dget_None. intros K. apply dget_None in E. apply E. unfold dkeys in K. rewrite map_map in K. cbn in K.
    change (map (fun x => i_tag x) (sorted_items d)) with (map i_tag (sorted_items d)) in K.
    rewrite sorted_items_tags in K by auto. eapply Permutation_in; [apply ssort_perm|exact K].
Qed.

Lemma write_lines comments x : entries_ok brk (ents x) ->
  write comments x = concat (map (fun it => item_line comments it ++ [nl]) (sorted_items (ents x))).
Proof.
  intros [_ Hd]. unfold write, sorted_items.
  induction (ssort (dkeys (ents x))) as [|k ks IH]; auto. cbn. rewrite IH, map_app, concat_app.
  f_equal. destruct (dget k (ents x)) as [it|] eqn:E; auto. cbn. rewrite app_nil_r.
  apply dget_In in E. destruct (Hd _ _ E) as [-> _]. apply write_item_line.
Qed.

Lemma reread comments d post : items_ok d -> blank post = true -> sep_free post = true ->
  from_list (map (fun it => item_line comments it ++ post) (sorted_items d)) =
  Ok (map (fun it => (i_tag it, stored comments it)) (sorted_items d)).
Proof.
  intros [H1 H2] Hp Hs. unfold from_list. rewrite fold_lines; auto.
  - rewrite fold_dset_fresh; auto. cbn. rewrite sorted_items_tags by auto.
    destruct H1 as [Hn _]. eapply Permutation_NoDup; [symmetry; apply ssort_perm|auto].
  - intros it Hit. apply sorted_items_In in Hit as [k Hk]. apply dget_In in Hk. split; [apply (proj2 H1 k)|apply (H2 k)]; auto.
Qed.
End RT.

Lemma splitlines_concat ls : forallb nobreak ls = true -> splitlines (concat (map (fun l => l ++ [nl]) ls)) = ls.
Proof.
  induction ls as [|l ls IH]; auto. cbn. intros H. apply andb_true_iff in H as [H1 H2].
  rewrite <- app_assoc. cbn. rewrite splitlines_app, IH; auto.
Qed.
Lemma readlines_concat ls : forallb (nochar nl) ls = true ->
  readlines (concat (map (fun l => l ++ [nl]) ls)) = map (fun l => l ++ [nl]) ls.
Proof.
  induction ls as [|l ls IH]; auto. cbn. intros H. apply andb_true_iff in H as [H1 H2].
  rewrite <- app_assoc. cbn. rewrite readlines_app, IH; auto.
Qed.

Lemma splitlines_tail txt l : In l (splitlines txt) -> tail_ok is_break l = true.
Proof. intros H. apply nobrk_tail. apply splitlines_parts in H. exact H. Qed.

(** breaking characters of a text file *)
Definition file_brk (c : ascii) : bool := aeqb c nl || aeqb c cr.
Lemma file_brk_space c : file_brk c = true -> is_space c = true.
Proof.
  unfold file_brk. rewrite orb_true_iff, !aeqb_eq. intros [->| ->]; reflexivity.
Qed.
Lemma translate_nocr_aux n l : length l <= n -> nochar cr (translate_newlines l) = true.
Proof.
  revert l; induction n as [|n IH]; intros l Hn.
  - destruct l; [reflexivity|cbn in Hn; lia].
  - destruct l as [|c r]; auto. cbn in Hn. cbn [translate_newlines]. destruct (aeqb c cr) eqn:E.
    + destruct r as [|c' r']; [reflexivity|].
      destruct (aeqb c' nl); cbn [nochar forallb]; change (negb (aeqb nl cr)) with true; cbn [andb]; apply IH; cbn in *; lia.
    + cbn [nochar forallb]. rewrite E. cbn [negb andb]. apply IH. lia.
Qed.
Lemma translate_nocr l : nochar cr (translate_newlines l) = true.
Proof. eapply translate_nocr_aux; eauto. Qed.
Lemma translate_id l : nochar cr l = true -> translate_newlines l = l.
Proof.
  induction l as [|c r IH]; auto. cbn [nochar forallb]. intros H. apply andb_true_iff in H as [H1 H2].
  apply negb_true_iff in H1. cbn. rewrite H1. f_equal. auto.
Qed.
Lemma readlines_tail txt l : nochar cr txt = true -> In l (readlines txt) -> tail_ok file_brk l = true.
Proof.
  intros Hc. revert l. induction txt as [|c r IH]; [intros ? []|].
  cbn [nochar forallb] in Hc. apply andb_true_iff in Hc as [Hc1 Hc2]. apply negb_true_iff in Hc1.
  intros l. cbn [readlines]. destruct (aeqb c nl) eqn:E.
  - intros [<-|H]; auto. cbn. destruct (file_brk c); reflexivity.
  - assert (file_brk c = false) as Fc by (unfold file_brk; rewrite E, Hc1; reflexivity).
    destruct (readlines r) as [|w ws] eqn:Er.
    + intros [<-|[]]. cbn. rewrite Fc. reflexivity.
    + intros [<-|H].
      * cbn. rewrite Fc. apply IH; auto. left; auto.
      * apply IH; auto. right; auto.
Qed.
