(** Proofs about rejected INCAR input, token typing and dictionaries. *)
From Coq Require Import Ascii String List NArith ZArith Bool Lia Arith Permutation Sorted.
From Verif Require Import PyBase PyStrLemmas PyNum PyNumLemmas IncarTags IncarModel IncarSpec IncarProofs IncarRoundTrip IncarTokens IncarTheorems.
Import ListNotations.
Local Open Scope list_scope.
Local Open Scope bool_scope.

Arguments incar_tags : simpl never.

Lemma split_on_app_length d a b : length (split_on d (a ++ d :: b)) = length (split_on d a) + length (split_on d b).
Proof.
  induction a as [|c a IH]; cbn [app split_on].
  - rewrite aeqb_refl. reflexivity.
  - destruct (aeqb c d); cbn [length]; [rewrite IH; reflexivity|].
    pose proof (split_on_ne d a) as N1. pose proof (split_on_ne d (a ++ d :: b)) as N2.
    destruct (split_on d (a ++ d :: b)), (split_on d a); try congruence. cbn [length] in *. lia.
Qed.
Lemma split_on_pos d a : length (split_on d a) <> 0.
Proof. pose proof (split_on_ne d a). destruct (split_on d a); cbn; congruence. Qed.

Lemma one_line_not_nl p : one_line p -> seqb p [nl] = false.
Proof. intros H. apply seqb_neq. intros ->. specialize (H nl (or_introl eq_refl)). discriminate. Qed.

Lemma fragment_two_eq c d a b e : one_line (a ++ "="%char :: b ++ "="%char :: e) ->
  add_fragment c d (a ++ "="%char :: b ++ "="%char :: e) = Exn (SysExit 101).
Proof.
  intros H. unfold add_fragment. rewrite one_line_not_nl by auto.
  pose proof (split_on_app_length "="%char a (b ++ "="%char :: e)) as L.
  rewrite (split_on_app_length _ b e) in L.
  pose proof (split_on_pos "="%char a). pose proof (split_on_pos "="%char b). pose proof (split_on_pos "="%char e).
  destruct (split_on "="%char (a ++ "="%char :: b ++ "="%char :: e)) as [|? [|? [|? ?]]]; cbn [length] in L; try lia. reflexivity.
Qed.
Lemma fragment_no_eq c d p : one_line p -> ~ In "="%char p -> add_fragment c d p = Exn (SysExit 102).
Proof.
  intros H Hn. unfold add_fragment. rewrite one_line_not_nl by auto. apply nochar_not_In in Hn.
  rewrite split_on_none by auto. reflexivity.
Qed.

Lemma kind_content e a : token_denotes e a -> is_token e = true -> ~ special e ->
  atom_kind a = match test_string_content e with CInt => KInt | CFloat => KFloat | CString => KText end.
Proof.
  intros H Ht Hs. pose proof (denotes_clean_element e a Ht H Hs) as C. unfold clean_element in C.
  destruct (test_string_content e).
  - destruct (parse_int e); inversion C; reflexivity.
  - destruct (parse_float e); inversion C; reflexivity.
  - inversion C. pose proof (for_bool_spec e) as B. destruct (test_string_for_bool e); try contradiction; reflexivity.
Qed.
Lemma tokens_clean l : forall atoms, Forall2 token_denotes l atoms -> forallb is_token l = true ->
  (forall e, In e l -> ~ special e) ->
  mapM clean_element l = Ok atoms /\
  map atom_kind atoms = map (fun e => match test_string_content e with CInt => KInt | CFloat => KFloat | CString => KText end) l.
Proof.
  induction l as [|e l IH]; intros atoms F T S; inversion F as [|? a ? l' Ha F']; subst; [auto|].
  cbn [forallb] in T. apply andb_true_iff in T as [T1 T2].
  assert (~ special e) as Se by (apply S; left; auto).
  destruct (IH l' F' T2) as [H1 H2]; [intros; apply S; right; auto|].
  cbn [mapM map]. rewrite (denotes_clean_element e a) by auto. cbn [bind]. rewrite H1. cbn [bind]. split; auto.
  rewrite (kind_content e a), H2; auto.
Qed.
Lemma ceqb_eq a b : ceqb a b = true <-> a = b.
Proof. destruct a, b; cbn; split; congruence. Qed.

Lemma mixed_104 s atoms a b : Forall2 token_denotes (split_ws s) atoms -> (forall e, In e (split_ws s) -> ~ special e) ->
  In a atoms -> In b atoms -> atom_kind a <> atom_kind b -> clean_value_string s = Exn (SysExit 104).
Proof.
  intros F S Ha Hb Hk. destruct (tokens_clean _ _ F (split_ws_tokens s) S) as [H1 H2].
  unfold clean_value_string. rewrite H1. cbn [bind].
  destruct (map test_string_content (split_ws s)) as [|t ts] eqn:E.
  - apply map_eq_nil in E. rewrite E in F. inversion F; subst. destruct Ha.
  - destruct (forallb (ceqb t) (t :: ts)) eqn:K; auto. exfalso. apply Hk.
    assert (forall x, In x (map test_string_content (split_ws s)) -> x = t) as Hall.
    { rewrite E. intros x Hx. rewrite forallb_forall in K. apply K in Hx. apply ceqb_eq in Hx. auto. }
    assert (forall x, In x atoms -> atom_kind x = match t with CInt => KInt | CFloat => KFloat | CString => KText end) as Q.
    { intros x Hx. apply (in_map atom_kind) in Hx. rewrite H2 in Hx. apply in_map_iff in Hx as [e [<- He]].
      rewrite (Hall (test_string_content e)); auto. apply in_map; auto. }
    rewrite (Q a Ha), (Q b Hb). reflexivity.
Qed.
Lemma same_kind_ok s atoms : Forall2 token_denotes (split_ws s) atoms -> (forall e, In e (split_ws s) -> ~ special e) ->
  (forall a b, In a atoms -> In b atoms -> atom_kind a = atom_kind b) ->
  clean_value_string s = Ok (match atoms with [a] => VAtom a | _ => VList atoms end).
Proof.
  intros F S Hk. destruct (tokens_clean _ _ F (split_ws_tokens s) S) as [H1 H2].
  unfold clean_value_string. rewrite H1. cbn [bind].
  destruct (map test_string_content (split_ws s)) as [|t ts] eqn:E; auto.
  assert (forallb (ceqb t) (t :: ts) = true) as ->; auto.
  rewrite <- E. apply forallb_forall. intros c Hc. apply ceqb_eq.
  assert (In t (map test_string_content (split_ws s))) as Ht by (rewrite E; left; auto).
  apply in_map_iff in Ht as [e1 [<- He1]]. apply in_map_iff in Hc as [e2 [<- He2]].
  set (g := fun e => match test_string_content e with CInt => KInt | CFloat => KFloat | CString => KText end) in *.
  assert (In (g e1) (map atom_kind atoms) /\ In (g e2) (map atom_kind atoms)) as [Q1 Q2].
  { rewrite H2. split; apply in_map; auto. }
  apply in_map_iff in Q1 as [a1 [Q1 A1]]. apply in_map_iff in Q2 as [a2 [Q2 A2]].
  assert (g e1 = g e2) as K by (rewrite <- Q1, <- Q2; apply Hk; auto).
  unfold g in K. destruct (test_string_content e1), (test_string_content e2); congruence.
Qed.
Lemma accepted_kinds s cv : clean_value_string s = Ok cv ->
  exists atoms, Forall2 token_denotes (split_ws s) atoms /\ (forall e, In e (split_ws s) -> ~ special e) /\
    (forall a b, In a atoms -> In b atoms -> atom_kind a = atom_kind b).
Proof.
  intros H. pose proof H as H'. unfold clean_value_string in H. apply bind_ok in H as [l [H1 H2]]. clear H2.
  apply mapM_ok_Forall2 in H1.
  assert (Forall2 token_denotes (split_ws s) l) as F by (clear -H1; induction H1; constructor; auto using clean_element_denotes).
  assert (forall e, In e (split_ws s) -> ~ special e) as S.
  { pose proof (split_ws_tokens s) as T. rewrite forallb_forall in T. intros e He Hs.
    specialize (special_value_error e (T e He) Hs) as V.
    assert (forall l l', Forall2 (fun e a => clean_element e = Ok a) l l' -> In e l -> exists a, clean_element e = Ok a) as K.
    { clear. induction 1; intros []; subst; eauto. }
    destruct (K _ _ H1 He) as [a Ha]. congruence. }
  exists l. split; auto. split; auto. intros a b Ha Hb.
  destruct (atom_kind a) eqn:Ka, (atom_kind b) eqn:Kb; auto; exfalso;
    assert (atom_kind a <> atom_kind b) as Kn by congruence; rewrite (mixed_104 s l a b F S Ha Hb Kn) in H'; discriminate.
Qed.

(** ** A bad piece stops the reader *)
Lemma from_list_stop l1 l l2 d e : from_list l1 = Ok d -> add_line d l = Exn e -> from_list (l1 ++ l :: l2) = Exn e.
Proof. intros H1 H2. unfold from_list in *. rewrite foldM_app, H1. cbn. rewrite H2. reflexivity. Qed.
Lemma from_list_bad_piece l1 p rest l2 d e : from_list l1 = Ok d ->
  ~ In "#"%char p -> ~ In ";"%char p -> split_ws p <> [] ->
  (rest = [] \/ exists q, rest = ";"%char :: q \/ rest = "#"%char :: q) ->
  (forall c d, add_fragment c d p = Exn e) -> from_list (l1 ++ (p ++ rest) :: l2) = Exn e.
Proof.
  intros H1 H2 H3 H4 H5 H6. eapply from_list_stop; eauto.
  destruct (add_line_plain d p rest H2 H4 H5 H3) as [c [ps ->]]. cbn. rewrite H6. reflexivity.
Qed.
Lemma string_stop ls1 l ls2 vt x e : Forall one_line (ls1 ++ l :: ls2) -> incar_of_string (unlines ls1) false = Ok x ->
  (forall d, from_list ls1 = Ok d -> from_list (ls1 ++ l :: ls2) = Exn e) ->
  incar_of_string (unlines (ls1 ++ l :: ls2)) vt = Exn e.
Proof.
  intros H1 H2 H3. rewrite of_string_eq in *. rewrite splitlines_unlines in * by (auto; apply Forall_app in H1; tauto).
  apply of_lines_ok in H2 as [d [H2 _]]. rewrite (H3 d H2). reflexivity.
Qed.

(** what acceptance implies *)
Lemma fragment_ok_inv c d p d' : add_fragment c d p = Ok d' -> p = [nl] \/ piece_ok p.
Proof.
  unfold add_fragment. destruct (seqb p [nl]) eqn:E; [apply seqb_eq in E; auto|]. right.
  pose proof (split_on_join "="%char p) as J.
  assert (forall w, In w (split_on "="%char p) -> ~ In "="%char w) as K.
  { intros w Hw. apply split_on_parts in Hw. apply nochar_In. auto. }
  destruct (split_on "="%char p) as [|t [|v [|? ?]]]; try discriminate.
  apply bind_ok in H as [it [H1 _]]. unfold clean_entry in H1.
  destruct (split_ws t) as [|w r] eqn:Et; [discriminate|].
  exists t, v, (lower w). cbn in J. split; [auto|]. split; [apply K; cbn; auto|]. split; [apply K; cbn; auto|].
  split; [exists w, r; auto|].
  destruct (smem (lower w) raw_tags) eqn:R; [left; apply raw_tag_smem; auto|]. right.
  apply bind_ok in H1 as [cv [H1 _]]. eapply accepted_kinds; eauto.
Qed.
Lemma foldM_each {A S} (f : S -> A -> res S) l : forall s s', foldM f l s = Ok s' -> forall a, In a l -> exists s0 s1, f s0 a = Ok s1.
Proof.
  induction l as [|x l IH]; intros s s' H a []; subst; cbn in H; apply bind_ok in H as [s1 [H1 H2]]; eauto.
Qed.
Lemma line_ok_inv d l d' p : add_line d l = Ok d' -> split_ws (hd [] (split_on "#"%char l)) <> [] ->
  In p (split_on ";"%char (hd [] (split_on "#"%char l))) -> p = [nl] \/ piece_ok p.
Proof.
  unfold add_line. rewrite hd_split_first. destruct (split_first "#"%char l) as [b c]. cbn [fst]. intros H N Hp.
  destruct (split_ws b); [congruence|]. destruct (foldM_each _ _ _ _ H p Hp) as [s0 [s1 H1]]. eapply fragment_ok_inv; eauto.
Qed.
Lemma lines_ok_inv ls d l p : from_list ls = Ok d -> In l ls -> split_ws (hd [] (split_on "#"%char l)) <> [] ->
  In p (split_on ";"%char (hd [] (split_on "#"%char l))) -> p = [nl] \/ piece_ok p.
Proof. intros H Hl. destruct (foldM_each _ _ _ _ H l Hl) as [s0 [s1 H1]]. eapply line_ok_inv; eauto. Qed.

(** ** Which exceptions can escape *)
Definition piece_exn (p : str) (e : exn) : Prop :=
  e = SysExit 101 \/ e = SysExit 102 \/ e = SysExit 104 \/ (e = IndexError /\ blank_tag p) \/ (e = ValueError /\ special_value p).
Lemma mapM_exn {A B} (f : A -> res B) l e : mapM f l = Exn e -> exists a, In a l /\ f a = Exn e.
Proof.
  induction l as [|a l IH]; cbn; [discriminate|]. destruct (f a) as [b|e'] eqn:E; cbn.
  - destruct (mapM f l) eqn:E2; cbn; [discriminate|]. intros H. inversion H; subst. destruct (IH eq_refl) as [a' [H1 H2]]. eauto.
  - intros H; inversion H; subst. eauto.
Qed.
Lemma value_exn s e : clean_value_string s = Exn e -> e = SysExit 104 \/ (e = ValueError /\ exists w, In w (split_ws s) /\ special w).
Proof.
  unfold clean_value_string. destruct (mapM clean_element (split_ws s)) as [l|e'] eqn:E; cbn [bind].
  - destruct (map test_string_content (split_ws s)) as [|t ts]; [discriminate|].
    destruct (forallb (ceqb t) (t :: ts)); [discriminate|]. intros H; inversion H; auto.
  - intros H; inversion H; subst. apply mapM_exn in E as [w [H1 H2]]. right.
    destruct (clean_element_total w) as [[a Ha]|[Hv Hs]]; [congruence|]. split; [congruence|eauto].
Qed.
Lemma fragment_exn c d p e : add_fragment c d p = Exn e -> piece_exn p e.
Proof.
  unfold add_fragment, piece_exn. destruct (seqb p [nl]); [discriminate|].
  pose proof (split_on_join "="%char p) as J.
  destruct (split_on "="%char p) as [|t [|v [|? ?]]]; intros H; try (inversion H; auto; fail).
  cbn in J. unfold clean_entry in H. destruct (split_ws t) as [|w r] eqn:Et.
  - inversion H; subst e. right. right. right. left. split; auto. exists t, v. auto.
  - destruct (smem (lower w) raw_tags); [discriminate|].
    destruct (clean_value_string v) as [cv|e'] eqn:Ev; [discriminate|]. cbn in H. inversion H; subst e'.
    apply value_exn in Ev as [->|[-> [x [H1 H2]]]]; auto. do 4 right. split; auto. exists t, v, x. auto.
Qed.
Lemma foldM_exn {A S} (f : S -> A -> res S) l : forall s e, foldM f l s = Exn e -> exists s0 a, In a l /\ f s0 a = Exn e.
Proof.
  induction l as [|x l IH]; intros s e H; cbn in H; [discriminate|]. destruct (f s x) as [s1|e1] eqn:E; cbn in H.
  - apply IH in H as [s0 [a [H1 H2]]]. exists s0, a. split; [right|]; auto.
  - inversion H; subst. exists s, x. split; [left|]; auto.
Qed.
Lemma line_exn d l e : add_line d l = Exn e -> exists p, piece_of [l] p /\ piece_exn p e.
Proof.
  unfold add_line, piece_of, before_hash. rewrite hd_split_first. destruct (split_first "#"%char l) as [b c] eqn:E. cbn [fst].
  destruct (split_ws b) eqn:Eb; [discriminate|]. intros H. apply foldM_exn in H as [s0 [p [H1 H2]]].
  exists p. split; [|eapply fragment_exn; eauto]. exists l. rewrite hd_split_first, E. cbn [fst]. split; [left; auto|].
  split; auto. congruence.
Qed.
Lemma piece_of_incl ls ls' p : incl ls ls' -> piece_of ls p -> piece_of ls' p.
Proof. intros H [l [H1 H2]]. exists l. auto. Qed.
Lemma lines_exn ls e : from_list ls = Exn e -> exists p, piece_of ls p /\ piece_exn p e.
Proof.
  intros H. apply foldM_exn in H as [d [l [H1 H2]]]. apply line_exn in H2 as [p [H2 H3]]. exists p. split; auto.
  eapply piece_of_incl; [|exact H2]. intros x [<-|[]]. auto.
Qed.
Lemma of_lines_exn ls vt e : (let* es := from_list ls in let* _ := validate vt es in Ok (Incar es vt)) = Exn e ->
  (vt = true /\ e = SysExit 100) \/ exists p, piece_of ls p /\ piece_exn p e.
Proof.
  destruct (from_list ls) as [es|e'] eqn:E; cbn [bind].
  - unfold validate. destruct vt; [|discriminate]. destruct (forallb _ _); [discriminate|]. cbn. intros H; inversion H; auto.
  - intros H; inversion H; subst. right. apply lines_exn; auto.
Qed.

(** ** One token *)
Lemma one_token k e a : canonical_tag k -> ~ raw_tag k -> sep_free k = true -> is_token e = true -> sep_free e = true ->
  (exists x, incar_of_string (k ++ lit " = " ++ e) false = Ok x /\ get x k = Some (VAtom a)) <->
  token_denotes e a /\ ~ special e.
Proof.
  intros Hk Hr Sk Te Se.
  pose proof (canonical_token k Hk) as Tk.
  assert (nobreak (k ++ lit " = " ++ e) = true) as NB.
  { unfold nobreak. rewrite !forallb_app. rewrite !andb_true_iff. repeat split; try reflexivity;
      [apply nospace_nobreak, is_token_nospace; auto|apply nospace_nobreak, is_token_nospace; auto]. }
  assert (k ++ lit " = " ++ e <> []) as NE by (destruct k; [discriminate Tk|discriminate]).
  assert (incar_of_string (k ++ lit " = " ++ e) false =
          match clean_value_string (lit " " ++ e) with
          | Ok cv => Ok (Incar [(k, Item k cv None)] false) | Exn x => Exn x end) as ->.
  { rewrite of_string_eq, splitlines_last by auto. unfold from_list. cbn [foldM].
    unfold sep_free in Sk, Se. rewrite !andb_true_iff in Sk, Se. destruct Sk as [[K1 K2] K3], Se as [[E1 E2] E3].
    rewrite add_line_single.
    - unfold add_fragment.
      assert (seqb (k ++ lit " = " ++ e) [nl] = false) as ->.
      { apply seqb_neq. intros K. rewrite K in NB. discriminate NB. }
      assert (split_on "="%char (k ++ lit " = " ++ e) = [k ++ lit " "; lit " " ++ e]) as ->.
      { replace (k ++ lit " = " ++ e) with ((k ++ lit " ") ++ "="%char :: (lit " " ++ e)) by (rewrite <- app_assoc; reflexivity).
        rewrite split_on_app, split_on_none; auto. unfold nochar in *. rewrite forallb_app, K3. reflexivity. }
      unfold clean_entry. rewrite split_ws_app_blank by reflexivity.
      rewrite split_ws_word by (auto using is_token_ne, is_token_nospace). destruct Hk as [_ [_ Hl]]. rewrite Hl.
      assert (smem k raw_tags = false) as ->.
      { destruct (smem k raw_tags) eqn:R; auto. apply raw_tag_smem in R. contradiction. }
      destruct (clean_value_string (lit " " ++ e)); reflexivity.
    - apply nochar_In. unfold nochar in *. rewrite !forallb_app, K1, E1. reflexivity.
    - intros K. apply split_ws_nil_iff in K. unfold blank in K. rewrite forallb_app in K. apply andb_true_iff in K as [K _].
      destruct k; [discriminate Tk|]. cbn in K, Tk. apply andb_true_iff in K as [K _]. rewrite K in Tk. discriminate.
    - apply nochar_In. unfold nochar in *. rewrite !forallb_app, K2, E2. reflexivity. }
  assert (clean_value_string (lit " " ++ e) = match clean_element e with Ok a => Ok (VAtom a) | Exn x => Exn x end) as ->.
  { unfold clean_value_string. rewrite split_ws_blank_app by reflexivity.
    rewrite split_ws_word by (auto using is_token_ne, is_token_nospace).
    cbn [mapM map]. destruct (clean_element e); cbn [bind]; auto. cbn [forallb]. rewrite ceqb_refl. reflexivity. }
  split.
  - intros [x [H1 H2]]. destruct (clean_element e) as [b|] eqn:E; [|discriminate]. inversion H1; subst.
    unfold get in H2. cbn [ents dget] in H2. rewrite seqb_refl in H2. cbn in H2. inversion H2; subst.
    split; [apply clean_element_denotes; auto|]. intros S. rewrite special_value_error in E by auto. discriminate.
  - intros [H1 H2]. rewrite (denotes_clean_element e a) by auto. eexists. split; [reflexivity|].
    unfold get. cbn [ents dget]. rewrite seqb_refl. reflexivity.
Qed.

(** ** Dictionaries *)
Lemma dict_item_again brk d it : item_ok brk it ->
  add_dict_item d (i_tag it, PVal (i_value it)) = Ok (dset (i_tag it) (Item (i_tag it) (i_value it) None) d).
Proof.
  intros [[T1 [T2 T3]] H]. unfold add_dict_item.
  assert (split_ws (i_tag it) = [i_tag it]) as Ts.
  { apply split_ws_word; [apply is_token_ne|apply is_token_nospace]; auto. }
  assert (clean_entry (i_tag it) (PVal (i_value it)) None = Ok (Item (i_tag it) (i_value it) None)) as C.
  { unfold clean_entry. rewrite Ts, T2. destruct (i_value it) as [[z|x|b|s]|l] eqn:Ev; auto.
    destruct (smem (i_tag it) raw_tags).
    - destruct H as [[s' [E [S1 _]]] _]. inversion E; subst. rewrite S1. reflexivity.
    - destruct H as [H _]. pose proof (clean_value_convert (VAtom (AStr s)) [] [] H eq_refl eq_refl eq_refl) as K.
      cbn [app convert_value str_atom] in K. rewrite app_nil_r in K. rewrite K. reflexivity. }
  destruct (i_value it) as [[z|x|b|s]|l] eqn:Ev; try (rewrite C; reflexivity).
  assert (sep_free s = true) as S.
  { destruct (smem (i_tag it) raw_tags).
    - destruct H as [[s' [E [_ [_ S1]]]] _]. inversion E; subst. auto.
    - destruct H as [H _]. cbn in H. tauto. }
  unfold sep_free in S. rewrite !andb_true_iff in S. rewrite split_on_none by tauto. rewrite C. reflexivity.
Qed.
Lemma dict_again brk es : entries_ok brk es ->
  from_dict (map (fun kv => (fst kv, PVal (snd kv))) (map (fun kv => (fst kv, i_value (snd kv))) es)) =
  Ok (map (fun kv => (fst kv, Item (fst kv) (i_value (snd kv)) None)) es).
Proof.
  intros [Hn Hd]. unfold from_dict. rewrite map_map. cbn [fst snd].
  assert (forall es d, (forall k it, In (k, it) es -> k = i_tag it /\ item_ok brk it) -> NoDup (dkeys d ++ dkeys es) ->
    foldM add_dict_item (map (fun x : str * item => (fst x, PVal (i_value (snd x)))) es) d =
    Ok (d ++ map (fun kv => (fst kv, Item (fst kv) (i_value (snd kv)) None)) es)) as K.
  { clear. induction es as [|[k it] es IH]; intros d H N.
    - cbn. rewrite app_nil_r. reflexivity.
    - cbn [map foldM fst snd]. destruct (H k it (or_introl eq_refl)) as [-> Hi]. rewrite (dict_item_again brk) by auto.
      cbn [bind]. cbn [dkeys map fst] in N. pose proof (NoDup_remove_2 _ _ _ N) as N2. rewrite dset_fresh.
      + rewrite IH; [rewrite <- app_assoc; reflexivity|intros; apply H; right; auto|].
        unfold dkeys at 1. rewrite map_app. cbn [map fst]. rewrite <- app_assoc. exact N.
      + intros Q. apply N2. apply in_or_app. left. exact Q. }
  rewrite K; auto.
Qed.
Lemma dict_round_trip brk es vt : entries_ok brk es -> validate vt es = Ok tt ->
  exists x', incar_of_dict (map (fun kv => (fst kv, PVal (snd kv))) (get_dict (Incar es vt))) vt = Ok x' /\
    get_dict x' = get_dict (Incar es vt).
Proof.
  intros H Hv. rewrite of_dict_eq. unfold get_dict at 1. cbn [ents]. rewrite (dict_again brk) by auto. cbn [bind].
  rewrite (validate_perm vt _ es).
  - rewrite Hv. cbn. eexists. split; [reflexivity|]. unfold get_dict. cbn [ents]. rewrite map_map. reflexivity.
  - unfold dkeys. rewrite map_map. reflexivity.
Qed.

Lemma add_dict_exn d kv e : add_dict_item d kv = Exn e ->
  In e [SysExit 103; SysExit 104; SysExit 105; IndexError; ValueError].
Proof.
  unfold add_dict_item. destruct kv as [t v].
  assert (forall t v c e, clean_entry t v c = Exn e -> In e [SysExit 103; SysExit 104; SysExit 105; IndexError; ValueError]) as K.
  { clear. intros t v c e. unfold clean_entry. destruct (split_ws t) as [|w r]; [intros H; inversion H; cbn; tauto|].
    destruct v as [[[z|x|b|s]|l]|]; try discriminate; [|intros H; inversion H; cbn; tauto].
    destruct (smem (lower w) raw_tags); [discriminate|].
    destruct (clean_value_string s) as [cv|e'] eqn:E; [discriminate|]. cbn [bind]. intros H; inversion H; subst.
    apply value_exn in E as [->|[-> _]]; cbn; tauto. }
  intros H.
  assert (forall r, (let* it := r in Ok (dset (i_tag it) it d)) = Exn e -> r = Exn e) as B.
  { intros [it|e']; cbn; [discriminate|congruence]. }
  apply B in H. destruct v as [[[z|x|b|s]|l]|]; try (eapply K; exact H).
  destruct (split_on "#"%char s) as [|? [|? [|? ?]]]; try (eapply K; exact H). inversion H. cbn; tauto.
Qed.
Lemma from_dict_exn l e : from_dict l = Exn e -> In e [SysExit 103; SysExit 104; SysExit 105; IndexError; ValueError].
Proof. intros H. apply foldM_exn in H as [s0 [a [_ H]]]. eapply add_dict_exn; eauto. Qed.

(** ** Constructor sources *)
Lemma ctor_exit10 a vt : incar_init a vt = Exn (SysExit 10) <->
  let s := given (a_string a) in let d := given (a_dict a) in let p := given (a_path a) in let h := given (a_handler a) in
  s && d || s && p || d && p && h || negb (s || d || p || h) = true.
Proof.
  unfold incar_init. cbv zeta.
  assert (forall ls vt, (let* es := match a_dict a with None => from_list ls | Some dd => from_dict dd end in
      let* _ := validate vt es in Ok (Incar es vt)) <> Exn (SysExit 10)) as K.
  { intros ls v H. destruct (a_dict a) as [dd|].
    - destruct (from_dict dd) as [es|e] eqn:E; cbn [bind] in H.
      + unfold validate in H. destruct v; [|discriminate]. destruct (forallb _ _); discriminate.
      + inversion H; subst. apply from_dict_exn in E. cbn in E. repeat (destruct E as [E|E]; [discriminate|]). destruct E.
    - apply of_lines_exn in H as [[_ H]|[p [_ H]]]; [discriminate|].
      destruct H as [H|[H|[H|[[H _]|[H _]]]]]; discriminate. }
  destruct (given (a_string a)) eqn:Es, (given (a_dict a)) eqn:Ed, (given (a_path a)) eqn:Ep, (given (a_handler a)) eqn:Eh;
    cbn [andb orb negb]; (split; [intros H|intros H]); try reflexivity; try discriminate; exfalso;
    try (destruct (read_lines (a_path a) (a_handler a)) as [fl|e] eqn:R; cbn [bind] in H;
         [|unfold read_lines in R; destruct (a_handler a); [discriminate|]; destruct (a_path a) as [[?|]|]; inversion R; subst; discriminate]);
    cbn [bind] in H; eapply K; exact H.
Qed.

(** ** Validation *)
Lemma validate_ok_iff vt d : validate vt d = Ok tt <-> (vt = true -> forall k, In k (dkeys d) -> In k incar_tags).
Proof.
  unfold validate. destruct vt; [|split; [discriminate|reflexivity]].
  destruct (forallb (fun k => smem k incar_tags) (dkeys d)) eqn:E.
  - split; auto. intros _ _ k Hk. rewrite forallb_forall in E. apply smem_In. auto.
  - split; [discriminate|]. intros H. exfalso.
    assert (forallb (fun k => smem k incar_tags) (dkeys d) = true) as K; [|congruence].
    apply forallb_forall. intros k Hk. apply smem_In. auto.
Qed.
Lemma validate_cases vt d : validate vt d = Ok tt \/ validate vt d = Exn (SysExit 100).
Proof. unfold validate. destruct vt; auto. destruct (forallb _ _); auto. Qed.
Lemma validated a x : incar_init a false = Ok x ->
  ((forall k v, In (k, v) (get_dict x) -> In k incar_tags) -> exists y, incar_init a true = Ok y /\ get_dict y = get_dict x) /\
  (forall k v, In (k, v) (get_dict x) -> ~ In k incar_tags -> incar_init a true = Exn (SysExit 100)).
Proof.
  unfold incar_init. cbv zeta. destruct (_ || _); [discriminate|]. destruct (_ && _); [discriminate|].
  match goal with |- bind ?r _ = _ -> _ => destruct r as [fl|e]; cbn [bind]; [|discriminate] end.
  match goal with |- bind ?r _ = _ -> _ => destruct r as [es|e]; cbn [bind]; [|discriminate] end.
  change (validate false es) with (Ok tt). cbn [bind]. intros H. inversion H; subst. unfold get_dict. cbn [ents]. split.
  - intros K. assert (validate true es = Ok tt) as ->.
    { apply validate_ok_iff. intros _ k Hk. apply in_map_iff in Hk as [[k' it] [<- Hk]].
      apply (K k' (i_value it)). apply in_map_iff. exists (k', it). auto. }
    cbn [bind]. eexists. split; reflexivity.
  - intros k v Hin Hn. destruct (validate_cases true es) as [V|V]; rewrite V; auto. exfalso.
    apply Hn. apply (proj1 (validate_ok_iff true es) V eq_refl). apply in_map_iff in Hin as [[k' it] [E Hin]].
    cbn in E. inversion E; subst. apply in_map_iff. exists (k, it). auto.
Qed.
Lemma validated_keys a x : incar_init a true = Ok x -> forall k v, In (k, v) (get_dict x) -> In k incar_tags.
Proof.
  intros H. apply init_ok_inv in H as [es [_ [V ->]]]. intros k v Hin. unfold get_dict in Hin. cbn [ents] in Hin.
  apply in_map_iff in Hin as [[k' it] [E Hin]]. cbn in E. inversion E; subst.
  apply (proj1 (validate_ok_iff true es) V eq_refl). apply in_map_iff. exists (k, it). auto.
Qed.
