(** Proofs about the INCAR model. *)
From Coq Require Import Ascii String List NArith ZArith Bool Lia Arith Permutation Sorted.
From Verif Require Import PyBase PyStrLemmas PyNum PyNumLemmas IncarTags IncarModel.
Import ListNotations.
Local Open Scope list_scope.
Local Open Scope bool_scope.

Lemma last_ns_cons c y r : last_ns (c :: y :: r) = last_ns (y :: r).
Proof.
  unfold last_ns. change (rev (c :: y :: r)) with (rev (y :: r) ++ [c]).
  destruct (rev (y :: r)) as [|z t] eqn:E; [|reflexivity].
  apply (f_equal (@length ascii)) in E. rewrite rev_length in E. discriminate.
Qed.

(** ** Line-breaking characters at the end only *)
Section Brk.
Variable brk : ascii -> bool.
Hypothesis brk_space : forall c, brk c = true -> is_space c = true.

Definition nobrk (l : str) : bool := forallb (fun c => negb (brk c)) l.

(** a breaking character can only be the last one *)
Fixpoint tail_ok (l : str) : bool :=
  match l with
  | [] => true
  | c :: r => if brk c then match r with [] => true | _ => false end else tail_ok r
  end.

Lemma nobrk_tail l : nobrk l = true -> tail_ok l = true.
Proof.
  induction l as [|c r IH]; auto. cbn. destruct (brk c); [discriminate|]. auto.
Qed.
Lemma nobrk_tail_snoc l c : nobrk l = true -> tail_ok (l ++ [c]) = true.
Proof.
  induction l as [|x r IH]; cbn; [destruct (brk c); auto|].
  destruct (brk x); [discriminate|]. auto.
Qed.
Lemma tail_ok_app_r a b : tail_ok (a ++ b) = true -> tail_ok b = true.
Proof.
  induction a as [|c a IH]; auto. cbn. destruct (brk c); auto.
  destruct (a ++ b) eqn:E; [|discriminate]. apply app_eq_nil in E as [_ ->]. auto.
Qed.
Lemma tail_ok_app_l a b : tail_ok (a ++ b) = true -> tail_ok a = true.
Proof.
  induction a as [|c a IH]; auto. cbn. destruct (brk c); auto.
  destruct (a ++ b) eqn:E; [|discriminate]. apply app_eq_nil in E as [-> _]. auto.
Qed.
Lemma tail_ok_infix a b c : tail_ok (a ++ b ++ c) = true -> tail_ok b = true.
Proof. intros H. eapply tail_ok_app_l, tail_ok_app_r, H. Qed.

Lemma tail_ok_last l : tail_ok l = true -> last_ns l = true -> nobrk l = true.
Proof.
  induction l as [|c r IH]; auto. cbn [tail_ok nobrk forallb]. intros H L.
  destruct (brk c) eqn:E.
  - destruct r; [|discriminate]. apply brk_space in E. unfold last_ns in L. cbn in L. rewrite E in L. discriminate.
  - cbn. apply IH; auto. destruct r as [|y r]; auto.
    rewrite last_ns_cons in L. exact L.
Qed.
Lemma strip_nobrk l : tail_ok l = true -> nobrk (strip l) = true.
Proof.
  intros H. apply tail_ok_last; [|apply strip_last].
  destruct (strip_spec l) as [p [q [_ [_ E]]]]. rewrite E in H. eapply tail_ok_infix; eauto.
Qed.
Lemma nospace_nobrk l : nospace l = true -> nobrk l = true.
Proof.
  unfold nospace, nobrk. rewrite !forallb_forall. intros H x Hx. specialize (H x Hx).
  destruct (brk x) eqn:E; auto. apply brk_space in E. rewrite E in H. discriminate.
Qed.

(** ** What the parser stores *)
Definition sep_free (l : str) : bool := nochar "#"%char l && nochar ";"%char l && nochar "="%char l.

Definition atype (a : atom) : content :=
  match a with AInt _ => CInt | AFloat _ => CFloat | _ => CString end.

Definition atom_ok (a : atom) : Prop :=
  match a with
  | AInt _ | ABool _ => True
  | AFloat x => wf_float x
  | AStr s => is_token s = true /\ sep_free s = true /\
              test_string_content s = CString /\ test_string_for_bool s = AStr s
  end.

Definition value_ok (v : value) : Prop :=
  match v with
  | VAtom a => atom_ok a
  | VList l => length l <> 1 /\ Forall atom_ok l /\ exists t, Forall (fun a => atype a = t) l
  end.

Definition tag_ok (t : str) : Prop := is_token t = true /\ lower t = t /\ sep_free t = true.

Definition comment_ok (c : option str) : Prop :=
  match c with None => True | Some c => strip c = c /\ nobrk c = true end.

Definition item_ok (it : item) : Prop :=
  tag_ok (i_tag it) /\
  if smem (i_tag it) raw_tags
  then (exists s, i_value it = VAtom (AStr s) /\ strip s = s /\ nobrk s = true /\ sep_free s = true) /\ i_comment it = None
  else value_ok (i_value it) /\ comment_ok (i_comment it).

Definition entries_ok (d : entries) : Prop :=
  NoDup (dkeys d) /\ forall k it, In (k, it) d -> k = i_tag it /\ item_ok it.

Lemma entries_ok_nil : entries_ok [].
Proof. split; [constructor|intros ? ? []]. Qed.
Lemma entries_ok_set d it : entries_ok d -> item_ok it -> entries_ok (dset (i_tag it) it d).
Proof.
  intros [H1 H2] Hi. split; [apply dset_NoDup; auto|].
  intros k it' H. apply dset_In in H as [[-> ->]|H]; auto.
Qed.

Lemma sep_free_incl a b : incl a b -> sep_free b = true -> sep_free a = true.
Proof.
  unfold sep_free, nochar. intros H. rewrite !andb_true_iff. intros [[A B] C].
  repeat split; eapply forallb_incl; eauto.
Qed.

Lemma substrb_true_bool s : test_string_for_bool s = AStr s \/ exists b, test_string_for_bool s = ABool b.
Proof.
  unfold test_string_for_bool. destruct (existsb _ true_marks); eauto.
  destruct (existsb _ false_marks); eauto.
Qed.

Lemma clean_element_ok e a : clean_element e = Ok a -> is_token e = true -> sep_free e = true ->
  atom_ok a /\ atype a = test_string_content e.
Proof.
  unfold clean_element. intros H Ht Hs. destruct (test_string_content e) eqn:T.
  - destruct (parse_int e); [|discriminate]. inversion H; subst. cbn. auto.
  - destruct (parse_float e) eqn:P; [|discriminate]. inversion H; subst. cbn. split; auto.
    eapply parse_float_wf; eauto.
  - inversion H; subst. destruct (substrb_true_bool e) as [E|[b E]]; rewrite E; cbn; auto.
Qed.

Lemma Forall2_strengthen {A B} (P R : A -> B -> Prop) (Q : A -> Prop) l l' :
  Forall2 P l l' -> (forall x, In x l -> Q x) -> (forall x y, P x y -> Q x -> R x y) -> Forall2 R l l'.
Proof.
  intros F HQ HR. induction F as [|x y l l' Hxy _ IH]; constructor.
  - apply HR; auto. apply HQ. left; auto.
  - apply IH. intros; apply HQ; right; auto.
Qed.

Lemma clean_value_string_ok v cv : clean_value_string v = Ok cv -> sep_free v = true -> value_ok cv.
Proof.
  unfold clean_value_string. intros H Hs. apply bind_ok in H as [l [Hl H]].
  apply mapM_ok_Forall2 in Hl.
  assert (Forall2 (fun e a => atom_ok a /\ atype a = test_string_content e) (split_ws v) l) as F.
  { eapply Forall2_strengthen with (Q := fun e => is_token e = true /\ sep_free e = true); [exact Hl| |].
    - intros e He. split.
      + pose proof (split_ws_tokens v) as T. rewrite forallb_forall in T. auto.
      + eapply sep_free_incl; [|exact Hs]. apply split_ws_chars; auto.
    - intros e a He [H1 H2]. apply clean_element_ok; auto. }
  clear Hl.
  assert (Forall atom_ok l) as Fok by (clear -F; induction F; constructor; tauto).
  assert (forall t, forallb (ceqb t) (map test_string_content (split_ws v)) = true -> Forall (fun a => atype a = t) l) as Ft.
  { intros t. clear -F. induction F as [|e a es las [_ Hea] _ IH]; cbn; intros H; constructor;
      apply andb_true_iff in H as [H1 H2]; auto.
    rewrite Hea. destruct t, (test_string_content e); auto; discriminate. }
  assert (forall t, Forall (fun a => atype a = t) l -> value_ok (match l with [a] => VAtom a | _ => VList l end)) as K.
  { intros t Hl. destruct l as [|a [|b l']]; cbn.
    - repeat split; auto. exists CInt. constructor.
    - inversion Fok; auto.
    - split; [lia|]. split; [auto|]. exists t; auto. }
  destruct (map test_string_content (split_ws v)) as [|t ts] eqn:E.
  - inversion H; subst. apply (K CInt). apply map_eq_nil in E. rewrite E in F. inversion F. constructor.
  - destruct (forallb (ceqb t) (t :: ts)) eqn:E2; [|discriminate]. inversion H; subst. apply (K t). auto.
Qed.

Lemma split_ws_head_tag tag t r : split_ws tag = t :: r -> sep_free tag = true -> tag_ok (lower t).
Proof.
  intros E Hs. assert (is_token t = true) as Ht.
  { pose proof (split_ws_tokens tag) as T. rewrite E in T. cbn in T. apply andb_true_iff in T. tauto. }
  split; [rewrite is_token_lower; auto|]. split; [apply lower_idem|].
  assert (sep_free t = true) as H.
  { eapply sep_free_incl; [|exact Hs]. apply split_ws_chars. rewrite E; left; auto. }
  unfold sep_free in *. rewrite !lower_nochar by reflexivity. auto.
Qed.

Lemma clean_entry_ok tag v c it :
  clean_entry tag (PVal (VAtom (AStr v))) c = Ok it ->
  sep_free tag = true -> sep_free v = true -> tail_ok v = true ->
  match c with None => True | Some c => tail_ok c = true end -> item_ok it.
Proof.
  unfold clean_entry. intros H Ht Hv Hvt Hc. destruct (split_ws tag) as [|t r] eqn:E; [discriminate|].
  pose proof (split_ws_head_tag _ _ _ E Ht) as Htag.
  destruct (smem (lower t) raw_tags) eqn:R.
  - inversion H; subst. split; auto. cbn [i_tag i_value i_comment]. rewrite R. split; auto.
    exists (strip v). repeat split; auto using strip_idem, strip_nobrk.
    eapply sep_free_incl; [apply strip_chars|auto].
  - apply bind_ok in H as [cv [H1 H2]]. inversion H2; subst. split; auto. cbn [i_tag i_value i_comment]. rewrite R.
    split; [eapply clean_value_string_ok; eauto|].
    destruct c as [c|]; cbn; auto using strip_idem, strip_nobrk.
Qed.

(** parts of a split are contiguous pieces *)
Lemma split_on_infix d l w : In w (split_on d l) -> exists a b, l = a ++ w ++ b.
Proof.
  revert w. induction l as [|c r IH]; cbn [split_on].
  - intros w [<-|[]]. exists [], []. reflexivity.
  - intros w. destruct (aeqb c d) eqn:E.
    + intros [<-|H]; [exists [], (c :: r); reflexivity|].
      destruct (IH w H) as [a [b ->]]. exists (c :: a), b. reflexivity.
    + destruct (split_on d r) as [|w0 ws] eqn:Es; [exfalso; eapply split_on_ne; eauto|].
      intros [<-|H].
      * assert (exists b, r = w0 ++ b) as [b ->].
        { pose proof (split_on_join d r) as J. rewrite Es in J. rewrite <- J.
          destruct ws; [exists []; cbn; rewrite app_nil_r; auto|]. rewrite join_cons2. eauto. }
        exists [], b. reflexivity.
      * destruct (IH w (or_intror H)) as [a [b ->]]. exists (c :: a), b. reflexivity.
Qed.
Lemma split_on_tail d l w : In w (split_on d l) -> tail_ok l = true -> tail_ok w = true.
Proof. intros H T. destruct (split_on_infix _ _ _ H) as [a [b ->]]. eapply tail_ok_infix; eauto. Qed.

Lemma foldM_inv {A S} (P : S -> Prop) (f : S -> A -> res S) l s s' :
  (forall a s s', In a l -> P s -> f s a = Ok s' -> P s') -> P s -> foldM f l s = Ok s' -> P s'.
Proof.
  revert s; induction l as [|a l IH]; cbn; intros s Hf Hs H.
  - inversion H; subst; auto.
  - apply bind_ok in H as [s1 [H1 H2]]. apply (IH s1); [| |exact H2].
    + intros a0 s0 s2 Ha. apply Hf. right; auto.
    + apply (Hf a s s1); auto.
Qed.

Lemma add_line_ok d line d' :
  entries_ok d -> tail_ok line = true -> add_line d line = Ok d' -> entries_ok d'.
Proof.
  unfold add_line. intros Hd Ht H.
  destruct (split_ws (hd [] (split_on "#"%char line))) as [|w0 ws0]; [inversion H; subst; auto|].
  destruct (split_first "#"%char line) as [body comment] eqn:E.
  pose proof (split_first_spec "#"%char line) as S. rewrite E in S.
  assert (nochar "#"%char body = true) as Hb.
  { pose proof (split_first_nochar "#"%char line) as K. rewrite E in K. exact K. }
  assert (tail_ok body = true) as Tb.
  { destruct comment; subst line; auto. eapply tail_ok_app_l; eauto. }
  assert (match comment with None => True | Some c => tail_ok c = true end) as Tc.
  { destruct comment as [c|]; auto. subst line. apply tail_ok_app_r in Ht.
    change ("#"%char :: c) with (["#"%char] ++ c) in Ht. eapply tail_ok_app_r; eauto. }
  eapply foldM_inv; [|exact Hd|exact H].
  intros ntry s s' Hin Hs Hf. unfold add_fragment in Hf.
  destruct (seqb ntry [nl]); [inversion Hf; subst; auto|].
  destruct (split_on "="%char ntry) as [|tag [|v [|w ws]]] eqn:Eq; try discriminate.
  apply bind_ok in Hf as [it [Hit Hs']]. inversion Hs'; subst. apply entries_ok_set; auto.
  assert (forall w, In w [tag; v] -> sep_free w = true /\ tail_ok w = true) as Hw.
  { intros w Hw. rewrite <- Eq in Hw. split.
    - unfold sep_free. rewrite !andb_true_iff. repeat split.
      + eapply forallb_incl; [|exact Hb]. intros x Hx. eapply split_on_chars; eauto. eapply split_on_chars; eauto.
      + eapply forallb_incl; [eapply split_on_chars; eauto|]. eapply split_on_parts; eauto.
      + eapply split_on_parts; eauto.
    - eapply split_on_tail; eauto. eapply split_on_tail; eauto. }
  eapply clean_entry_ok; eauto; apply Hw; cbn; auto.
Qed.

Lemma from_list_ok lines d :
  (forall l, In l lines -> tail_ok l = true) -> from_list lines = Ok d -> entries_ok d.
Proof.
  unfold from_list. intros Hl H.
  eapply (foldM_inv entries_ok); [|apply entries_ok_nil|exact H].
  intros a s s' Hin Hs Hf. eapply add_line_ok; eauto.
Qed.
End Brk.
