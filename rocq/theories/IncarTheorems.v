(** Proofs of the INCAR properties (statements are collected in Props_Incar.v). *)
From Coq Require Import Ascii String List NArith ZArith Bool Lia Arith Permutation Sorted.
From Verif Require Import PyBase PyStrLemmas PyNum PyNumLemmas IncarTags IncarModel IncarSpec IncarProofs IncarRoundTrip IncarTokens.
Import ListNotations.
Local Open Scope list_scope.
Local Open Scope bool_scope.

Arguments incar_tags : simpl never.

Lemma finish_ok es vt x :
  (let* _ := validate vt es in Ok (Incar es vt)) = Ok x <-> validate vt es = Ok tt /\ x = Incar es vt.
Proof.
  destruct (validate vt es) as [[]|e]; cbn; split; try discriminate.
  - intros H; inversion H; auto.
  - intros [_ ->]; auto.
  - intros [H _]; discriminate.
Qed.
Lemma of_string_eq txt vt : incar_of_string txt vt =
  (let* es := from_list (splitlines txt) in let* _ := validate vt es in Ok (Incar es vt)).
Proof. reflexivity. Qed.
Lemma of_file_eq txt vt : incar_of_file txt vt =
  (let* es := from_list (readlines (translate_newlines txt)) in let* _ := validate vt es in Ok (Incar es vt)).
Proof. reflexivity. Qed.
Lemma of_dict_eq d vt : incar_of_dict d vt =
  (let* es := from_dict d in let* _ := validate vt es in Ok (Incar es vt)).
Proof. reflexivity. Qed.
Lemma of_lines_ok ls vt x :
  (let* es := from_list ls in let* _ := validate vt es in Ok (Incar es vt)) = Ok x <->
  exists es, from_list ls = Ok es /\ validate vt es = Ok tt /\ x = Incar es vt.
Proof.
  destruct (from_list ls) as [es|e]; cbn [bind].
  - rewrite finish_ok. split; [intros H; exists es; tauto|]. intros [es' [H1 H2]]. inversion H1; subst; auto.
  - split; [discriminate|]. intros [es' [H1 H2]]. discriminate.
Qed.

Lemma validate_perm vt d d' : Permutation (dkeys d) (dkeys d') -> validate vt d = validate vt d'.
Proof.
  intros H. unfold validate. destruct vt; auto.
  assert (forallb (fun k => smem k incar_tags) (dkeys d) = forallb (fun k => smem k incar_tags) (dkeys d')) as ->; auto.
  apply eq_true_iff_eq. rewrite !forallb_forall. split; intros K k Hk; apply K.
  - eapply Permutation_in; [symmetry; exact H|auto].
  - eapply Permutation_in; [exact H|auto].
Qed.

(** ** Reading back *)
Lemma entries_writable brk d : entries_ok brk d ->
  (forall k v, option_map i_value (dget k d) = Some v -> prints_faithfully v) -> items_ok brk d.
Proof.
  intros H Hp. split; auto. intros k it Hin. destruct H as [Hn Hd].
  pose proof (Hd k it Hin) as [-> Hok].
  assert (dget (i_tag it) d = Some it) as E by (apply In_dget; auto).
  specialize (Hp (i_tag it) (i_value it)). rewrite E in Hp. specialize (Hp eq_refl).
  unfold item_writable. destruct (smem (i_tag it) raw_tags); auto.
  unfold writable. destruct (i_value it) as [a|l].
  - destruct a; auto.
  - apply forallb_forall. intros a Ha. specialize (Hp a Ha). destruct a; auto; try contradiction.
    apply andb_true_iff. split; auto.
Qed.

Definition kept (comments : bool) (d d' : entries) : Prop :=
  Permutation (dkeys d) (dkeys d') /\ forall k, dget k d' = option_map (stored comments) (dget k d).

Lemma reread_kept brk comments d : entries_ok brk d ->
  kept comments d (map (fun it => (i_tag it, stored comments it)) (sorted_items d)).
Proof.
  intros H. split; [|intros k; apply (dget_sorted brk); auto].
  unfold dkeys at 2. rewrite map_map. cbn [fst].
  change (map (fun x => i_tag x) (sorted_items d)) with (map i_tag (sorted_items d)).
  rewrite (sorted_items_tags brk) by auto. symmetry. apply ssort_perm.
Qed.

Lemma break_sp : is_break sp = false.
Proof. reflexivity. Qed.
Lemma file_brk_sp : file_brk sp = false.
Proof. reflexivity. Qed.

Lemma string_entries_ok txt es : from_list (splitlines txt) = Ok es -> entries_ok is_break es.
Proof. intros H. eapply from_list_ok; [exact break_space| |exact H]. intros l Hl. eapply splitlines_tail; eauto. Qed.
Lemma file_entries_ok txt es : from_list (readlines (translate_newlines txt)) = Ok es -> entries_ok file_brk es.
Proof.
  intros H. eapply from_list_ok; [exact file_brk_space| |exact H].
  intros l Hl. eapply readlines_tail; [apply translate_nocr|exact Hl].
Qed.

Lemma item_lines_ok brk comments d : (forall c, brk c = true -> is_space c = true) -> brk sp = false ->
  items_ok brk d -> forallb (nobrk brk) (map (item_line comments) (sorted_items d)) = true.
Proof.
  intros B1 B2 [H1 H2]. apply forallb_forall. intros l Hl. apply in_map_iff in Hl as [it [<- Hit]].
  apply sorted_items_In in Hit as [k Hk]. apply dget_In in Hk. destruct H1 as [_ Hd].
  apply item_line_nobrk; auto; [apply (Hd k); auto|apply (H2 k); auto].
Qed.

Lemma write_concat brk comments x : entries_ok brk (ents x) ->
  write comments x = concat (map (fun l => l ++ [nl]) (map (item_line comments) (sorted_items (ents x)))).
Proof. intros H. rewrite (write_lines brk) by auto. rewrite map_map. reflexivity. Qed.

Lemma reread_string comments es vt : items_ok is_break es -> validate vt es = Ok tt ->
  exists es', incar_of_string (write comments (Incar es vt)) vt = Ok (Incar es' vt) /\ kept comments es es'.
Proof.
  intros H Hv. pose proof H as [He _].
  exists (map (fun it => (i_tag it, stored comments it)) (sorted_items es)).
  pose proof (reread_kept is_break comments es He) as K. split; auto.
  rewrite of_string_eq, (write_concat is_break) by auto. cbn [ents]. rewrite splitlines_concat.
  - pose proof (reread is_break break_space break_sp comments es [] H eq_refl eq_refl) as R.
    assert (map (fun it => item_line comments it ++ []) (sorted_items es) = map (item_line comments) (sorted_items es)) as E
      by (apply map_ext; intros; apply app_nil_r).
    rewrite E in R. rewrite R. cbn [bind]. rewrite <- (validate_perm vt es) by apply K. rewrite Hv. reflexivity.
  - apply (item_lines_ok is_break); auto. exact break_space.
Qed.

Lemma nobrk_file l : nobrk file_brk l = true -> nochar nl l = true /\ nochar cr l = true.
Proof.
  unfold nobrk, file_brk, nochar. rewrite !forallb_forall. intros H.
  split; intros c Hc; specialize (H c Hc); rewrite negb_true_iff, orb_false_iff in H; rewrite negb_true_iff; tauto.
Qed.
Lemma nochar_concat c ls : forallb (nochar c) ls = true -> aeqb nl c = false ->
  nochar c (concat (map (fun l => l ++ [nl]) ls)) = true.
Proof.
  intros H Hc. induction ls as [|l ls IH]; auto. cbn in H. apply andb_true_iff in H as [H1 H2].
  cbn. unfold nochar in *. rewrite !forallb_app, H1, IH by auto. cbn. rewrite Hc. reflexivity.
Qed.
Lemma reread_file comments es vt : items_ok file_brk es -> validate vt es = Ok tt ->
  exists es', incar_of_file (write comments (Incar es vt)) vt = Ok (Incar es' vt) /\ kept comments es es'.
Proof.
  intros H Hv. pose proof H as [He _].
  exists (map (fun it => (i_tag it, stored comments it)) (sorted_items es)).
  pose proof (reread_kept file_brk comments es He) as K. split; auto.
  rewrite of_file_eq, (write_concat file_brk) by auto. cbn [ents].
  pose proof (item_lines_ok file_brk comments es file_brk_space file_brk_sp H) as L.
  assert (forallb (nochar nl) (map (item_line comments) (sorted_items es)) = true /\
          forallb (nochar cr) (map (item_line comments) (sorted_items es)) = true) as [L1 L2].
  { rewrite forallb_forall in L. rewrite !forallb_forall. split; intros l Hl; apply L in Hl; apply nobrk_file in Hl; tauto. }
  rewrite translate_id by (apply nochar_concat; auto). rewrite readlines_concat by auto.
  pose proof (reread file_brk file_brk_space file_brk_sp comments es [nl] H eq_refl eq_refl) as R.
  rewrite map_map. rewrite R. cbn [bind]. rewrite <- (validate_perm vt es) by apply K. rewrite Hv. reflexivity.
Qed.

Lemma stored_value c it : i_value (stored c it) = i_value it.
Proof. destruct c; reflexivity. Qed.
Lemma kept_get c es es' vt k : kept c es es' -> get (Incar es' vt) k = get (Incar es vt) k.
Proof.
  intros [_ H]. unfold get. cbn [ents]. rewrite H. destruct (dget k es); cbn; rewrite ?stored_value; auto.
Qed.
Lemma kept_write c es es' vt : kept c es es' -> write false (Incar es' vt) = write false (Incar es vt).
Proof.
  intros [H1 H2]. unfold write. cbn [ents]. rewrite (ssort_perm_eq _ _ H1). f_equal. apply map_ext. intros k.
  rewrite H2. destruct (dget k es) as [it|]; auto. unfold write_item. cbn [option_map]. rewrite stored_value.
  destruct (i_comment it), (i_comment (stored c it)); reflexivity.
Qed.
Lemma kept_write_true es es' vt b : kept true es es' -> write b (Incar es' vt) = write b (Incar es vt).
Proof.
  intros [H1 H2]. unfold write. cbn [ents]. rewrite (ssort_perm_eq _ _ H1). f_equal. apply map_ext. intros k.
  rewrite H2. destruct (dget k es); auto.
Qed.

Lemma string_round_trip txt vt x :
  incar_of_string txt vt = Ok x ->
  (forall k v, get x k = Some v -> prints_faithfully v) ->
  exists x', incar_of_string (get_string x) vt = Ok x' /\ (forall k, get x' k = get x k) /\
             get_string x' = get_string x /\ Permutation (map fst (get_dict x)) (map fst (get_dict x')).
Proof.
  rewrite of_string_eq, of_lines_ok. intros [es [H1 [H2 ->]]] Hp.
  apply string_entries_ok in H1. pose proof (entries_writable _ _ H1 Hp) as W.
  destruct (reread_string false es vt W H2) as [es' [E K]]. exists (Incar es' vt).
  split; [exact E|]. split; [intros k; eapply kept_get; eauto|]. split; [eapply kept_write; eauto|].
  unfold get_dict. cbn [ents]. rewrite !map_map. apply K.
Qed.
Lemma file_round_trip txt vt x :
  incar_of_file txt vt = Ok x ->
  (forall k v, get x k = Some v -> prints_faithfully v) ->
  exists x', incar_of_file (get_string x) vt = Ok x' /\ (forall k, get x' k = get x k) /\
             get_string x' = get_string x /\ Permutation (map fst (get_dict x)) (map fst (get_dict x')).
Proof.
  rewrite of_file_eq, of_lines_ok. intros [es [H1 [H2 ->]]] Hp.
  apply file_entries_ok in H1. pose proof (entries_writable _ _ H1 Hp) as W.
  destruct (reread_file false es vt W H2) as [es' [E K]]. exists (Incar es' vt).
  split; [exact E|]. split; [intros k; eapply kept_get; eauto|]. split; [eapply kept_write; eauto|].
  unfold get_dict. cbn [ents]. rewrite !map_map. apply K.
Qed.

Lemma comments_string txt vt x :
  incar_of_string txt vt = Ok x ->
  (forall k v, get x k = Some v -> prints_faithfully v) ->
  exists x', incar_of_string (write true x) vt = Ok x' /\
    (forall k, get x' k = get x k /\ comment_at x' k = comment_at x k) /\ write true x' = write true x.
Proof.
  rewrite of_string_eq, of_lines_ok. intros [es [H1 [H2 ->]]] Hp.
  apply string_entries_ok in H1. pose proof (entries_writable _ _ H1 Hp) as W.
  destruct (reread_string true es vt W H2) as [es' [E K]]. exists (Incar es' vt).
  split; [exact E|]. split; [|eapply kept_write_true; eauto].
  intros k. split; [eapply kept_get; eauto|]. unfold comment_at. cbn [ents].
  destruct K as [_ K]. rewrite K. destruct (dget k es); reflexivity.
Qed.
Lemma comments_file txt vt x :
  incar_of_file txt vt = Ok x ->
  (forall k v, get x k = Some v -> prints_faithfully v) ->
  exists x', incar_of_file (write true x) vt = Ok x' /\
    (forall k, get x' k = get x k /\ comment_at x' k = comment_at x k) /\ write true x' = write true x.
Proof.
  rewrite of_file_eq, of_lines_ok. intros [es [H1 [H2 ->]]] Hp.
  apply file_entries_ok in H1. pose proof (entries_writable _ _ H1 Hp) as W.
  destruct (reread_file true es vt W H2) as [es' [E K]]. exists (Incar es' vt).
  split; [exact E|]. split; [|eapply kept_write_true; eauto].
  intros k. split; [eapply kept_get; eauto|]. unfold comment_at. cbn [ents].
  destruct K as [_ K]. rewrite K. destruct (dget k es); reflexivity.
Qed.

(** ** Entries *)
Lemma raw_tag_smem k : smem k raw_tags = true <-> raw_tag k.
Proof. apply smem_In. Qed.

Lemma clean_value_denotes k s cv : ~ raw_tag k -> clean_value_string s = Ok cv -> text_denotes k s cv.
Proof.
  intros Hr H. unfold clean_value_string in H. apply bind_ok in H as [l [H1 H2]].
  right. split; auto. exists l. split.
  - apply mapM_ok_Forall2 in H1. clear H2. induction H1; constructor; auto using clean_element_denotes.
  - destruct (map test_string_content (split_ws s)) as [|t ts]; [congruence|].
    destruct (forallb (ceqb t) (t :: ts)); congruence.
Qed.

Lemma clean_entry_inv t v c it : clean_entry t v c = Ok it ->
  named t (i_tag it) /\ arg_denotes (i_tag it) v (i_value it).
Proof.
  unfold clean_entry, named. destruct (split_ws t) as [|w r] eqn:E; [discriminate|].
  destruct v as [[[z|x|b|s]|l]|]; try discriminate;
    try (intros H; inversion H; subst; cbn [i_tag i_value]; split; [eauto|reflexivity]).
  destruct (smem (lower w) raw_tags) eqn:R.
  - intros H; inversion H; subst. cbn [i_tag i_value arg_denotes]. split; [eauto|]. left. apply raw_tag_smem in R. auto.
  - intros H. apply bind_ok in H as [cv [H1 H2]]. inversion H2; subst. cbn [i_tag i_value arg_denotes]. split; [eauto|].
    apply clean_value_denotes; auto. rewrite <- raw_tag_smem. congruence.
Qed.
Lemma named_canonical t k : named t k -> canonical_tag k.
Proof.
  intros [w [r [E ->]]]. pose proof (split_ws_tokens t) as T. rewrite E in T. cbn [forallb] in T.
  apply andb_true_iff in T as [T _]. rewrite <- is_token_lower in T. split; [apply is_token_ne; auto|].
  split; [|apply lower_idem]. apply is_token_nospace in T. unfold nospace in T. rewrite forallb_forall in T.
  intros c Hc. apply negb_true_iff. auto.
Qed.
Lemma canonical_token k : canonical_tag k -> is_token k = true.
Proof.
  intros [H1 [H2 _]]. apply is_token_intro; auto. apply forallb_forall. intros c Hc. rewrite H2; auto.
Qed.
Lemma canonical_named k : canonical_tag k -> named k k.
Proof.
  intros H. pose proof (canonical_token k H) as T. exists k, []. split; [|symmetry; apply H].
  apply split_ws_word; [apply is_token_ne|apply is_token_nospace]; auto.
Qed.
Lemma named_det t k k' : named t k -> named t k' -> k = k'.
Proof. intros [w [r [E ->]]] [w' [r' [E' ->]]]. congruence. Qed.

Definition keys_ok (d : entries) : Prop := NoDup (dkeys d) /\ forall k it, In (k, it) d -> canonical_tag k /\ i_tag it = k.
Lemma keys_ok_nil : keys_ok [].
Proof. split; [constructor|intros ? ? []]. Qed.
Lemma keys_ok_set d t v c it : keys_ok d -> clean_entry t v c = Ok it -> keys_ok (dset (i_tag it) it d).
Proof.
  intros [H1 H2] H. apply clean_entry_inv in H as [H _]. split; [apply dset_NoDup; auto|].
  intros k it' Hin. apply dset_In in Hin as [[-> ->]|Hin]; auto. split; auto. eapply named_canonical; eauto.
Qed.
Lemma keys_ok_del d k : keys_ok d -> keys_ok (ddel k d).
Proof. intros [H1 H2]. split; [apply ddel_NoDup; auto|]. intros k' it H. apply ddel_In in H. auto. Qed.

Lemma add_line_keys d l d' : keys_ok d -> add_line d l = Ok d' -> keys_ok d'.
Proof.
  intros Hd H. unfold add_line in H. destruct (split_ws (hd [] (split_on "#"%char l))); [inversion H; subst; auto|].
  destruct (split_first "#"%char l) as [body comment].
  eapply (foldM_inv keys_ok); [|exact Hd|exact H].
  intros a s0 s1 _ Hs Hf. unfold add_fragment in Hf. destruct (seqb a [nl]); [inversion Hf; subst; auto|].
  destruct (split_on "="%char a) as [|t [|v [|? ?]]]; try discriminate.
  apply bind_ok in Hf as [it [H1 H2]]. inversion H2; subst. eapply keys_ok_set; eauto.
Qed.
Lemma from_list_keys ls d : from_list ls = Ok d -> keys_ok d.
Proof.
  intros H. eapply (foldM_inv keys_ok); [|apply keys_ok_nil|exact H]. intros a s s' _. apply add_line_keys.
Qed.
Lemma add_dict_keys d kv d' : keys_ok d -> add_dict_item d kv = Ok d' -> keys_ok d'.
Proof.
  intros Hd H. unfold add_dict_item in H. destruct kv as [t v]. apply bind_ok in H as [it [H1 H2]].
  inversion H2; subst. assert (exists v c, clean_entry t v c = Ok it) as [v' [c H]].
  { destruct v as [[[z|x|b|s]|l]|]; eauto. destruct (split_on "#"%char s) as [|? [|? [|? ?]]]; eauto; discriminate. }
  eapply keys_ok_set; eauto.
Qed.
Lemma from_dict_keys l d : from_dict l = Ok d -> keys_ok d.
Proof.
  intros H. eapply (foldM_inv keys_ok); [|apply keys_ok_nil|exact H]. intros a s s' _. apply add_dict_keys.
Qed.
Lemma init_ok_inv a vt x : incar_init a vt = Ok x ->
  exists es, (match a_dict a with
              | Some d => from_dict d = Ok es
              | None => exists ls, from_list ls = Ok es
              end) /\ validate vt es = Ok tt /\ x = Incar es vt.
Proof.
  unfold incar_init. cbv zeta.
  destruct (_ || _); [discriminate|]. destruct (_ && _); [discriminate|].
  intros H. apply bind_ok in H as [fl [_ H]]. apply bind_ok in H as [es [H1 H2]]. apply finish_ok in H2.
  exists es. split; auto. destruct (a_dict a); eauto.
Qed.
Lemma init_keys a vt x : incar_init a vt = Ok x -> keys_ok (ents x).
Proof.
  intros H. apply init_ok_inv in H as [es [H [_ ->]]]. cbn.
  destruct (a_dict a); [eapply from_dict_keys; eauto|]. destruct H as [ls H]. eapply from_list_keys; eauto.
Qed.
Lemma step_keys x o : keys_ok (ents x) -> keys_ok (ents (step x o)).
Proof.
  intros H. destruct o as [t v c|t]; cbn.
  - unfold modify. destruct (clean_entry t v c) as [it|e] eqn:E; cbn; auto. eapply keys_ok_set; eauto.
  - apply keys_ok_del; auto.
Qed.
Lemma run_keys x ops : keys_ok (ents x) -> keys_ok (ents (run x ops)).
Proof. revert x. induction ops as [|o ops IH]; intros x H; auto. cbn. apply IH, step_keys, H. Qed.
Lemma reachable_keys x : reachable x -> keys_ok (ents x).
Proof. intros [a [vt [x0 [ops [H ->]]]]]. apply run_keys. eapply init_keys; eauto. Qed.

Lemma canonical_keys x : reachable x ->
  NoDup (map fst (get_dict x)) /\ forall k v, In (k, v) (get_dict x) -> canonical_tag k.
Proof.
  intros H. apply reachable_keys in H as [H1 H2]. unfold get_dict. rewrite map_map. cbn [fst]. split; [exact H1|].
  intros k v Hin. apply in_map_iff in Hin as [[k' it] [E Hin]]. cbn in E. inversion E; subst. eapply H2; eauto.
Qed.

Lemma get_dict_get x k v : reachable x -> In (k, v) (get_dict x) <-> get x k = Some v.
Proof.
  intros H. apply reachable_keys in H as [H1 _]. unfold get_dict, get. rewrite in_map_iff. split.
  - intros [[k' it] [E Hin]]. cbn in E. inversion E; subst. rewrite (In_dget _ _ _ H1 Hin). reflexivity.
  - destruct (dget k (ents x)) as [it|] eqn:E; cbn; [|discriminate]. intros K. inversion K; subst.
    exists (k, it). split; auto. apply dget_In; auto.
Qed.

(** ** Edits *)
Lemma modify_spec x t v c x' : modify x t v c = Ok x' ->
  exists k w, named t k /\ arg_denotes k v w /\ get x' k = Some w /\
    forall k', k' <> k -> get x' k' = get x k'.
Proof.
  unfold modify. intros H. apply bind_ok in H as [it [H1 H2]]. inversion H2; subst.
  apply clean_entry_inv in H1 as [N D]. exists (i_tag it), (i_value it). split; auto. split; auto.
  unfold get. cbn [ents]. rewrite dget_dset_same. split; auto.
  intros k' Hk. rewrite dget_dset_other; auto.
Qed.
Lemma modify_fail x t v c e : modify x t v c = Exn e ->
  (forall k, ~ named t k) /\ e = IndexError \/
  exists k, named t k /\ (v = POther /\ e = SysExit 105 \/ exists s, v = PVal (VAtom (AStr s)) /\ ~ raw_tag k).
Proof.
  unfold modify, clean_entry. destruct (split_ws t) as [|w r] eqn:E.
  - intros H; inversion H; subst. left. split; auto. intros k [w [r [K _]]]. congruence.
  - right. exists (lower w). split; [exists w, r; auto|].
    destruct v as [[[z|x0|b|s]|l]|]; cbn [bind] in H; try discriminate H; auto.
    + destruct (smem (lower w) raw_tags) eqn:R; [discriminate|]. right. exists s. split; auto.
      rewrite <- raw_tag_smem. congruence.
    + left. inversion H; auto.
Qed.
Lemma delete_spec x k : reachable x ->
  get (delete x k) k = None /\ forall k', k' <> k -> get (delete x k) k' = get x k'.
Proof.
  intros H. apply reachable_keys in H as [H _]. unfold get, delete. cbn [ents]. split.
  - rewrite dget_ddel_same; auto.
  - intros k' Hk. rewrite dget_ddel_other; auto.
Qed.
Lemma run_snoc x ops o : run x (ops ++ [o]) = step (run x ops) o.
Proof. unfold run. rewrite fold_left_app. reflexivity. Qed.
Lemma reachable_run x ops : reachable x -> reachable (run x ops).
Proof.
  intros [a [vt [x0 [ops0 [H ->]]]]]. exists a, vt, x0, (ops0 ++ ops). split; auto. unfold run. rewrite fold_left_app. auto.
Qed.

(** ** Output layout *)
Lemma shown_convert v : shown v = convert_value v.
Proof.
  destruct v as [[z|x|[|]|s]|l]; reflexivity.
Qed.
Lemma layout x : reachable x ->
  exists ls, Permutation ls (get_dict x) /\ StronglySorted slt (map fst ls) /\ get_string x = unlines (map shown_entry ls).
Proof.
  intros H. apply reachable_keys in H as [H1 _].
  set (f := fun k => match dget k (ents x) with Some it => [(k, i_value it)] | None => [] end).
  assert (forall ks, incl ks (dkeys (ents x)) -> map fst (concat (map f ks)) = ks) as K1.
  { induction ks as [|k ks IH]; intros Hi; auto. cbn. rewrite map_app, IH by (intros y Hy; apply Hi; right; auto).
    unfold f. destruct (dget k (ents x)) eqn:E; auto. apply dget_None in E. exfalso. apply E, Hi. left; auto. }
  exists (concat (map f (ssort (dkeys (ents x))))). split; [|split].
  - transitivity (concat (map f (dkeys (ents x)))).
    + rewrite <- !flat_map_concat_map. apply Permutation_flat_map, ssort_perm.
    + assert (forall d, incl d (ents x) -> concat (map f (dkeys d)) = map (fun kv => (fst kv, i_value (snd kv))) d) as K.
      { induction d as [|[k it] d IH]; intros Hi; auto.
        change (concat (map f (dkeys ((k, it) :: d)))) with (f k ++ concat (map f (dkeys d))). rewrite IH by (intros y Hy; apply Hi; right; auto).
        unfold f. rewrite (In_dget _ _ _ H1 (Hi _ (or_introl eq_refl))). reflexivity. }
      rewrite K; [reflexivity|apply incl_refl].
  - rewrite K1; [apply sorted_strict; [|apply ssort_sorted]|].
    + eapply Permutation_NoDup; [symmetry; apply ssort_perm|auto].
    + intros k Hk. eapply Permutation_in; [apply ssort_perm|auto].
  - unfold get_string, write, unlines. induction (ssort (dkeys (ents x))) as [|k ks IH]; auto. cbn [map concat].
    rewrite IH, map_app, map_app, concat_app. f_equal. unfold f. destruct (dget k (ents x)) as [it|]; auto.
    cbn [map concat]. unfold shown_entry, write_item. cbn [fst snd]. rewrite (shown_convert (i_value it)).
    rewrite app_nil_r, <- !app_assoc. destruct (i_comment it); reflexivity.
Qed.
Lemma layout_unique x y : reachable x -> reachable y -> Permutation (get_dict x) (get_dict y) -> get_string x = get_string y.
Proof.
  intros Hx Hy HP. unfold get_string, write.
  assert (Permutation (dkeys (ents x)) (dkeys (ents y))) as P.
  { apply (Permutation_map fst) in HP. unfold get_dict in HP. rewrite !map_map in HP. exact HP. }
  rewrite (ssort_perm_eq _ _ P). f_equal. apply map_ext. intros k.
  assert (get x k = get y k) as G.
  { destruct (get x k) as [v|] eqn:E1.
    - symmetry. apply get_dict_get; auto. apply get_dict_get in E1; auto. eapply Permutation_in; eauto.
    - destruct (get y k) as [v|] eqn:E2; auto. apply get_dict_get in E2; auto.
      eapply Permutation_in in E2; [|symmetry; exact HP]. apply get_dict_get in E2; auto. congruence. }
  unfold get in G. destruct (dget k (ents x)) as [it|], (dget k (ents y)) as [it'|]; cbn in G; try discriminate; auto.
  inversion G. unfold write_item. rewrite H0. destruct (i_comment it), (i_comment it'); reflexivity.
Qed.
Lemma string_reachable txt vt x : incar_of_string txt vt = Ok x -> reachable x.
Proof. intros H. exists (Args (Some txt) None None None), vt, x, []. auto. Qed.
Lemma file_reachable txt vt x : incar_of_file txt vt = Ok x -> reachable x.
Proof. intros H. exists (Args None None (Some (Some txt)) None), vt, x, []. auto. Qed.
Lemma one_line_nobreak l : one_line l <-> nobreak l = true.
Proof.
  unfold one_line, nobreak. rewrite forallb_forall. split; intros H c Hc; specialize (H c Hc); [rewrite H|apply negb_true_iff]; auto.
Qed.
Lemma splitlines_unlines ls : Forall one_line ls -> splitlines (unlines ls) = ls.
Proof.
  intros H. apply splitlines_concat. apply forallb_forall. intros l Hl. rewrite Forall_forall in H. apply one_line_nobreak; auto.
Qed.

(** ** Lines *)
Lemma split_on_blank l p : blank l = true -> In p (split_on ";"%char l) -> split_on "="%char p = [p].
Proof.
  intros H Hp. apply split_on_none. apply nochar_not_In. intros K. apply (split_on_chars _ _ _ Hp) in K.
  unfold blank in H. rewrite forallb_forall in H. apply H in K. discriminate.
Qed.
Lemma hd_split_first d l : hd [] (split_on d l) = fst (split_first d l).
Proof. symmetry. apply split_first_hd. Qed.

Lemma last_assigned_snoc k l k' v :
  last_assigned k (l ++ [(k', v)]) = if seqb k k' then Some v else last_assigned k l.
Proof.
  induction l as [|[k0 v0] l IH]; [reflexivity|]. cbn [app last_assigned]. rewrite IH. destruct (seqb k k'); reflexivity.
Qed.
Lemma smem_app x a b : smem x (a ++ b) = smem x a || smem x b.
Proof. apply existsb_app. Qed.
Lemma dedup_snoc l : forall seen x, dedup seen (l ++ [x]) = if smem x (seen ++ l) then dedup seen l else dedup seen l ++ [x].
Proof.
  induction l as [|y l IH]; intros seen x; cbn [app dedup].
  - rewrite app_nil_r. destruct (smem x seen); reflexivity.
  - rewrite !IH, !smem_app. destruct (smem y seen) eqn:E.
    + change (smem x (y :: l)) with (seqb x y || smem x l). destruct (seqb x y) eqn:E2; auto.
      apply seqb_eq in E2. subst. rewrite E. reflexivity.
    + change (smem x (y :: l)) with (seqb x y || smem x l). change (smem x [y]) with (seqb x y || false).
      rewrite orb_false_r, orb_assoc. destruct (smem x seen || seqb x y || smem x l); reflexivity.
Qed.
Lemma dedup_In x l : forall seen, In x (dedup seen l) <-> In x l /\ ~ In x seen.
Proof.
  induction l as [|y l IH]; intros seen; cbn [dedup]; [cbn; tauto|].
  destruct (smem y seen) eqn:E.
  - apply smem_In in E. rewrite IH. cbn. split; [tauto|]. intros [[->|H] H2]; tauto.
  - assert (~ In y seen) by (intros K; apply smem_In in K; congruence).
    cbn [In]. rewrite IH, in_app_iff. cbn [In]. split.
    + intros [->|[H1 H2]]; tauto.
    + intros [[->|H1] H2]; [auto|]. destruct (seqb x y) eqn:E2; [apply seqb_eq in E2; auto|].
      apply seqb_neq in E2. right. split; auto. intros [K|[K|[]]]; congruence.
Qed.

Definition tracks (d : entries) (l : list (str * str)) : Prop :=
  (forall k, match last_assigned k l with
             | Some v => exists it, dget k d = Some it /\ text_denotes k v (i_value it)
             | None => dget k d = None
             end) /\ dkeys d = dedup [] (map fst l).

Lemma fragment_tracks c d p d' l : tracks d l -> add_fragment c d p = Ok d' -> tracks d' (l ++ piece_assignment p).
Proof.
  intros [T1 T2] H. unfold add_fragment in H. destruct (seqb p [nl]) eqn:E.
  - apply seqb_eq in E. subst. inversion H; subst. rewrite app_nil_r. split; auto.
  - unfold piece_assignment. destruct (split_on "="%char p) as [|t [|v [|? ?]]]; try discriminate.
    apply bind_ok in H as [it [H1 H2]]. inversion H2; subst. clear H2.
    apply clean_entry_inv in H1 as [[w [r [-> K]]] D]. cbn [arg_denotes] in D. rewrite <- K.
    split.
    + intros k. rewrite last_assigned_snoc. destruct (seqb k (i_tag it)) eqn:Ek.
      * apply seqb_eq in Ek. subst. rewrite dget_dset_same. eauto.
      * apply seqb_neq in Ek. rewrite dget_dset_other by auto. apply T1.
    + rewrite dkeys_dset, map_app. cbn [map fst]. rewrite dedup_snoc. cbn [app]. rewrite T2.
      destruct (dhas (i_tag it) d) eqn:E1.
      * apply dhas_In in E1. rewrite T2 in E1. apply dedup_In in E1 as [E1 _]. apply smem_In in E1. rewrite E1. auto.
      * destruct (smem (i_tag it) (map fst l)) eqn:E2; auto. apply smem_In in E2. exfalso.
        assert (In (i_tag it) (dkeys d)) as K2 by (rewrite T2; apply dedup_In; auto). apply dhas_In in K2. congruence.
Qed.
Lemma fragments_tracks c ps : forall d d' l, tracks d l -> foldM (add_fragment c) ps d = Ok d' ->
  tracks d' (l ++ flat_map piece_assignment ps).
Proof.
  induction ps as [|p ps IH]; intros d d' l T H; cbn in H |- *.
  - inversion H; subst. rewrite app_nil_r. auto.
  - apply bind_ok in H as [d1 [H1 H2]]. rewrite app_assoc. eapply IH; [|exact H2]. eapply fragment_tracks; eauto.
Qed.
Lemma line_tracks d line d' l : tracks d l -> add_line d line = Ok d' -> tracks d' (l ++ line_assignments line).
Proof.
  intros T H. unfold add_line in H. unfold line_assignments.
  rewrite hd_split_first in *. destruct (split_first "#"%char line) as [body comment]. cbn [fst] in *.
  destruct (split_ws body) eqn:E.
  - inversion H; subst. apply split_ws_nil_iff in E.
    assert (flat_map piece_assignment (split_on ";"%char body) = []) as ->; [|rewrite app_nil_r; auto].
    assert (forall ps, incl ps (split_on ";"%char body) -> flat_map piece_assignment ps = []) as K; [|apply K, incl_refl].
    induction ps as [|p ps IH]; intros Hi; auto. cbn. rewrite IH by (intros y Hy; apply Hi; right; auto).
    unfold piece_assignment. rewrite (split_on_blank body p); auto. apply Hi. left; auto.
  - eapply fragments_tracks; eauto.
Qed.
Lemma lines_tracks ls d : from_list ls = Ok d -> tracks d (assignments ls).
Proof.
  assert (forall ls d d' l, tracks d l -> foldM add_line ls d = Ok d' -> tracks d' (l ++ assignments ls)) as K.
  { clear. induction ls as [|x ls IH]; intros d d' l T H; cbn in H |- *.
    - inversion H; subst. rewrite app_nil_r. auto.
    - apply bind_ok in H as [d1 [H1 H2]]. rewrite app_assoc. eapply IH; [|exact H2]. eapply line_tracks; eauto. }
  intros H. apply (K ls [] d []); [split; [intros k; reflexivity|reflexivity]|exact H].
Qed.
Lemma last_wins ls vt x :
  (let* es := from_list ls in let* _ := validate vt es in Ok (Incar es vt)) = Ok x ->
  (forall k, match last_assigned k (assignments ls) with
             | Some v => exists w, get x k = Some w /\ text_denotes k v w
             | None => get x k = None
             end) /\ map fst (get_dict x) = dedup [] (map fst (assignments ls)).
Proof.
  rewrite of_lines_ok. intros [es [H1 [_ ->]]]. apply lines_tracks in H1 as [T1 T2]. split.
  - intros k. specialize (T1 k). unfold get. cbn [ents]. destruct (last_assigned k (assignments ls)).
    + destruct T1 as [it [-> T1]]. cbn. eauto.
    + rewrite T1. reflexivity.
  - unfold get_dict. rewrite map_map. exact T2.
Qed.

(** ** Inert lines, comments, grouping *)
Lemma inert_add d l : inert_line l -> add_line d l = Ok d.
Proof.
  intros [_ H]. unfold add_line. rewrite hd_split_first.
  assert (split_ws (fst (split_first "#"%char l)) = []) as ->; auto. apply split_ws_nil_iff.
  destruct H as [H|[p [q [-> H]]]].
  - assert (blank l = true) as B by (apply forallb_forall; auto).
    rewrite split_first_none; auto. apply nochar_not_In. intros K. apply H in K. discriminate.
  - rewrite split_first_app; [apply forallb_forall; auto|]. apply nochar_not_In. intros K. apply H in K. discriminate.
Qed.
Lemma from_list_inert l1 l l2 : (forall d, add_line d l = Ok d) -> from_list (l1 ++ l :: l2) = from_list (l1 ++ l2).
Proof.
  intros H. unfold from_list. rewrite !foldM_app. destruct (foldM add_line l1 []) as [d|e]; auto. cbn. rewrite H. reflexivity.
Qed.
Lemma readlines_unlines ls : Forall (fun l => ~ In nl l) ls -> readlines (unlines ls) = map (fun l => l ++ [nl]) ls.
Proof.
  intros H. apply readlines_concat. apply forallb_forall. intros l Hl. rewrite Forall_forall in H. apply nochar_not_In. auto.
Qed.
Lemma one_line_nonl l : one_line l -> ~ In nl l /\ ~ In cr l.
Proof. intros H. split; intros K; apply H in K; discriminate. Qed.
Lemma translate_unlines ls : Forall one_line ls -> translate_newlines (unlines ls) = unlines ls.
Proof.
  intros H. apply translate_id. apply nochar_concat; auto. apply forallb_forall. intros l Hl.
  rewrite Forall_forall in H. apply H in Hl. apply one_line_nonl in Hl. apply nochar_not_In. tauto.
Qed.
Lemma file_lines ls : Forall one_line ls -> readlines (translate_newlines (unlines ls)) = map (fun l => l ++ [nl]) ls.
Proof.
  intros H. rewrite translate_unlines by auto. apply readlines_unlines.
  eapply Forall_impl; [|exact H]. intros l Hl. apply one_line_nonl in Hl. tauto.
Qed.
Lemma inert_nl l : inert_line l -> forall d, add_line d (l ++ [nl]) = Ok d.
Proof.
  intros [_ H] d. unfold add_line. rewrite hd_split_first.
  assert (split_ws (fst (split_first "#"%char (l ++ [nl]))) = []) as ->; auto. apply split_ws_nil_iff.
  destruct H as [H|[p [q [-> H]]]].
  - assert (forall c, In c (l ++ [nl]) -> is_space c = true) as H'.
    { intros c Hc. apply in_app_or in Hc as [Hc|[<-|[]]]; auto. }
    rewrite split_first_none; [apply forallb_forall; auto|]. apply nochar_not_In. intros K. apply H' in K. discriminate.
  - rewrite <- app_assoc. cbn [app]. rewrite split_first_app; [apply forallb_forall; auto|].
    apply nochar_not_In. intros K. apply H in K. discriminate.
Qed.

(* texts after '#' *)
Definition sim (d d' : entries) : Prop :=
  map (fun kv => (fst kv, i_tag (snd kv), i_value (snd kv))) d = map (fun kv => (fst kv, i_tag (snd kv), i_value (snd kv))) d'.
Definition rsim (r r' : res entries) : Prop :=
  match r, r' with Ok d, Ok d' => sim d d' | Exn e, Exn e' => e = e' | _, _ => False end.
Lemma sim_dset k it it' d : forall d', sim d d' -> i_tag it = i_tag it' -> i_value it = i_value it' ->
  sim (dset k it d) (dset k it' d').
Proof.
  unfold sim. induction d as [|[k0 i0] d IH]; intros [|[k1 i1] d'] H Ht Hv; try discriminate; cbn.
  - rewrite Ht, Hv. reflexivity.
  - cbn in H. inversion H; subst. destruct (seqb k k1); cbn; [rewrite Ht, Hv; f_equal; auto|].
    rewrite H2, H3. f_equal. apply IH; auto.
Qed.
Lemma clean_entry_comment t v c c' :
  match clean_entry t v c, clean_entry t v c' with
  | Ok it, Ok it' => i_tag it = i_tag it' /\ i_value it = i_value it'
  | Exn e, Exn e' => e = e'
  | _, _ => False
  end.
Proof.
  unfold clean_entry. destruct (split_ws t) as [|w ws]; auto. destruct v as [[[z|x|b|s]|l']|]; try (split; reflexivity); try reflexivity.
  destruct (smem (lower w) raw_tags); [split; reflexivity|]. destruct (clean_value_string s); cbn [bind]; [split|]; reflexivity.
Qed.
Lemma fragment_sim c c' d d' p : sim d d' -> rsim (add_fragment c d p) (add_fragment c' d' p).
Proof.
  intros H. unfold add_fragment. destruct (seqb p [nl]); [exact H|].
  destruct (split_on "="%char p) as [|t [|v [|? ?]]]; try reflexivity.
  pose proof (clean_entry_comment t (PVal (VAtom (AStr v))) c c') as K.
  destruct (clean_entry t _ c) as [it|e], (clean_entry t _ c') as [it'|e']; cbn; auto; try contradiction.
  destruct K as [K1 K2]. rewrite K1. apply sim_dset; auto.
Qed.
Lemma fragments_sim c c' ps : forall d d', sim d d' -> rsim (foldM (add_fragment c) ps d) (foldM (add_fragment c') ps d').
Proof.
  induction ps as [|p ps IH]; intros d d' H; cbn; auto.
  pose proof (fragment_sim c c' d d' p H) as K.
  destruct (add_fragment c d p) as [d1|e], (add_fragment c' d' p) as [d1'|e']; cbn; auto; contradiction.
Qed.
Lemma line_sim d d' a b : sim d d' -> fst (split_first "#"%char a) = fst (split_first "#"%char b) ->
  rsim (add_line d a) (add_line d' b).
Proof.
  intros H E. unfold add_line. rewrite !hd_split_first, E.
  destruct (split_first "#"%char a) as [ba ca], (split_first "#"%char b) as [bb cb]. cbn [fst] in *. subst.
  destruct (split_ws bb); [exact H|]. apply fragments_sim; auto.
Qed.
Lemma lines_sim ls ls' : Forall2 (fun a b => fst (split_first "#"%char a) = fst (split_first "#"%char b)) ls ls' ->
  forall d d', sim d d' -> rsim (foldM add_line ls d) (foldM add_line ls' d').
Proof.
  induction 1 as [|a b ls ls' E F IH]; intros d d' H; cbn; auto.
  pose proof (line_sim d d' a b H E) as K.
  destruct (add_line d a) as [d1|e], (add_line d' b) as [d1'|e']; cbn; auto; contradiction.
Qed.
Lemma same_before_split a b : same_before_hash a b -> fst (split_first "#"%char a) = fst (split_first "#"%char b).
Proof.
  intros [p [Hp [Ha Hb]]]. apply nochar_not_In in Hp.
  assert (forall x, (x = p \/ exists q, x = p ++ "#"%char :: q) -> fst (split_first "#"%char x) = p) as K.
  { intros x [->|[q ->]]; [rewrite split_first_none by auto|rewrite split_first_app by auto]; reflexivity. }
  rewrite (K a Ha), (K b Hb). reflexivity.
Qed.
Lemma sim_outcome vt r r' : rsim r r' ->
  outcome (let* es := r in let* _ := validate vt es in Ok (Incar es vt)) =
  outcome (let* es := r' in let* _ := validate vt es in Ok (Incar es vt)).
Proof.
  destruct r as [d|e], r' as [d'|e']; cbn; try contradiction; [|intros ->; auto].
  intros H.
  assert (dkeys d = dkeys d') as K.
  { unfold sim in H. apply (f_equal (map (fun x => fst (fst x)))) in H. rewrite !map_map in H. exact H. }
  assert (map (fun kv => (fst kv, i_value (snd kv))) d = map (fun kv => (fst kv, i_value (snd kv))) d') as K2.
  { unfold sim in H. apply (f_equal (map (fun x => (fst (fst x), snd x)))) in H. rewrite !map_map in H. exact H. }
  rewrite (validate_perm vt d d') by (rewrite K; auto).
  destruct (validate vt d') as [[]|e]; cbn; auto. unfold get_dict. cbn [ents]. rewrite K2. reflexivity.
Qed.

Lemma add_line_plain d p rest : ~ In "#"%char p -> split_ws p <> [] ->
  (rest = [] \/ exists q, rest = ";"%char :: q \/ rest = "#"%char :: q) -> ~ In ";"%char p ->
  exists c ps, add_line d (p ++ rest) = foldM (add_fragment c) (p :: ps) d.
Proof.
  intros H1 H2 H3 H4. unfold add_line. rewrite hd_split_first.
  assert (exists c tl, split_first "#"%char (p ++ rest) = (p ++ tl, c) /\ (tl = [] \/ exists q, tl = ";"%char :: q)) as [c [tl [E Ht]]].
  { apply nochar_not_In in H1. destruct H3 as [->|[q [->| ->]]].
    - exists None, []. rewrite app_nil_r, split_first_none by auto. auto.
    - assert (forall q a, nochar "#"%char a = true -> split_first "#"%char (a ++ q) = (a ++ fst (split_first "#"%char q), snd (split_first "#"%char q))) as K.
      { clear. intros q. induction a as [|x a IH]; cbn; intros H; [destruct (split_first _ q); auto|].
        apply andb_true_iff in H as [Hx H]. apply negb_true_iff in Hx. rewrite Hx, IH by auto. reflexivity. }
      rewrite K by auto. cbn [split_first]. change (aeqb ";"%char "#"%char) with false.
      destruct (split_first "#"%char q) as [a b] eqn:Eq. cbn [fst snd]. exists b, (";"%char :: a). eauto.
    - rewrite split_first_app by auto. exists (Some q), []. rewrite app_nil_r. auto. }
  rewrite E. cbn [fst].
  assert (split_ws (p ++ tl) <> []) as N.
  { intros K. apply split_ws_nil_iff in K. unfold blank in K. rewrite forallb_app in K. apply andb_true_iff in K as [K _].
    apply H2. apply split_ws_nil_iff. exact K. }
  destruct (split_ws (p ++ tl)); [congruence|].
  apply nochar_not_In in H4. destruct Ht as [->|[q ->]].
  - rewrite app_nil_r, split_on_none by auto. exists c, []. reflexivity.
  - rewrite split_on_app by auto. exists c, (split_on ";"%char q). reflexivity.
Qed.
Lemma add_line_single d p : ~ In "#"%char p -> split_ws p <> [] -> ~ In ";"%char p -> add_line d p = add_fragment None d p.
Proof.
  intros H1 H2 H3. unfold add_line. apply nochar_not_In in H1, H3. rewrite hd_split_first, split_first_none by auto. cbn [fst].
  destruct (split_ws p); [congruence|]. rewrite split_on_none by auto. cbn. destruct (add_fragment None d p); auto.
Qed.
Lemma nochar_join d ps : forallb (nochar d) ps = true -> d <> ";"%char -> nochar d (join (lit ";") ps) = true.
Proof.
  intros H Hd. induction ps as [|p ps IH]; auto. cbn [forallb] in H. apply andb_true_iff in H as [H1 H2].
  destruct ps as [|p2 ps]; auto. rewrite join_cons2. unfold nochar in *. rewrite !forallb_app, H1, IH by auto. cbn.
  destruct (aeqb ";"%char d) eqn:E; auto. apply aeqb_eq in E. congruence.
Qed.
Lemma grouped_line d ps : ps <> [] -> Forall (fun p => ~ In "#"%char p /\ ~ In ";"%char p /\ split_ws p <> []) ps ->
  add_line d (join (lit ";") ps) = foldM add_line ps d.
Proof.
  intros Hne H.
  assert (forall d, foldM add_line ps d = foldM (add_fragment None) ps d) as ->.
  { clear Hne d. induction H as [|p ps [H1 [H2 H3]] F IH]; intros d; auto. cbn. rewrite add_line_single by auto.
    destruct (add_fragment None d p); cbn; auto. }
  unfold add_line. rewrite hd_split_first, split_first_none.
  2:{ apply nochar_join; [|discriminate]. apply forallb_forall. rewrite Forall_forall in H. intros p Hp. apply nochar_not_In. apply H; auto. }
  cbn [fst].
  assert (split_ws (join (lit ";") ps) <> []) as N.
  { destruct ps as [|p ps]; [congruence|]. inversion H as [|? ? [_ [_ H3]] _]; subst. intros K. apply H3.
    apply split_ws_nil_iff in K. apply split_ws_nil_iff. destruct ps; auto. rewrite join_cons2 in K. unfold blank in *.
    rewrite forallb_app in K. apply andb_true_iff in K. tauto. }
  destruct (split_ws (join (lit ";") ps)); [congruence|].
  change (lit ";") with [";"%char]. rewrite split_join_on; auto.
  apply forallb_forall. rewrite Forall_forall in H. intros p Hp. apply nochar_not_In. apply H; auto.
Qed.
Lemma from_list_grouped l1 ps l2 : ps <> [] ->
  Forall (fun p => ~ In "#"%char p /\ ~ In ";"%char p /\ split_ws p <> []) ps ->
  from_list (l1 ++ join (lit ";") ps :: l2) = from_list (l1 ++ ps ++ l2).
Proof.
  intros H1 H2. unfold from_list. rewrite !foldM_app. destruct (foldM add_line l1 []) as [d|e]; auto.
  cbn [bind foldM]. rewrite grouped_line, foldM_app by auto. reflexivity.
Qed.
