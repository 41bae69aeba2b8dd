(** INCAR properties (C01-C16): statements, with non-vacuity examples. *)
From Coq Require Import Ascii String List NArith ZArith Bool Lia Arith Permutation Sorted.
From Verif Require Import PyBase PyStrLemmas PyNum IncarTags IncarModel IncarSpec IncarProofs IncarRoundTrip IncarTokens IncarTheorems IncarErrors.
Import ListNotations.
Local Open Scope list_scope.
Local Open Scope bool_scope.

(** A non-trivial INCAR text used by the examples. *)
Definition sample : str := unlines (map lit
  ["SYSTEM = Si bulk (test)"; "ENCUT = 5.2e2 # cutoff energy"; "# a comment"; "";
   " lreal = .FALSE. ; NSW=10;  encut = 600.25 # final"; "MAGMOM = 4*0.5 2*-1"; "KPAR = 1 2 3"; "ALGO = Fast"]%string).
Definition sample_incar : incar :=
  match incar_of_string sample true with Ok x => x | Exn _ => Incar [] false end.
Example sample_ok : incar_of_string sample true = Ok sample_incar.
Proof. vm_compute. reflexivity. Qed.
Example sample_keys : map fst (get_dict sample_incar) =
  map lit ["system"; "encut"; "lreal"; "nsw"; "magmom"; "kpar"; "algo"]%string.
Proof. vm_compute. reflexivity. Qed.
Example sample_faithful : forall k v, get sample_incar k = Some v -> prints_faithfully v.
Proof.
  intros k v H. apply (get_dict_get sample_incar k v) in H; [|eapply string_reachable, sample_ok].
  assert (Forall (fun kv => prints_faithfully (snd kv)) (get_dict sample_incar)) as F.
  { vm_compute. repeat constructor; intros a Ha; repeat (destruct Ha as [<-|Ha]; [exact I|]); destruct Ha. }
  rewrite Forall_forall in F. apply (F (k, v) H).
Qed.

(** ** C01 *)
Theorem C01_string_round_trip : forall txt vt x,
  incar_of_string txt vt = Ok x ->
  (forall k v, get x k = Some v -> prints_faithfully v) ->
  exists x', incar_of_string (get_string x) vt = Ok x' /\ (forall k, get x' k = get x k) /\
             get_string x' = get_string x /\ Permutation (map fst (get_dict x)) (map fst (get_dict x')).
Proof. exact string_round_trip. Qed.
Print Assumptions C01_string_round_trip.
Theorem C01_file_round_trip : forall txt vt x,
  incar_of_file txt vt = Ok x ->
  (forall k v, get x k = Some v -> prints_faithfully v) ->
  exists x', incar_of_file (get_string x) vt = Ok x' /\ (forall k, get x' k = get x k) /\
             get_string x' = get_string x /\ Permutation (map fst (get_dict x)) (map fst (get_dict x')).
Proof. exact file_round_trip. Qed.
Print Assumptions C01_file_round_trip.
Example C01_case : exists x', incar_of_string (get_string sample_incar) true = Ok x' /\ forall k, get x' k = get sample_incar k.
Proof. destruct (C01_string_round_trip _ _ _ sample_ok sample_faithful) as [x' [H1 [H2 _]]]. eauto. Qed.

(** Without the side condition: a list of logicals comes back as text, and an
    overflowing literal cannot be read back at all. *)
Theorem C01_unconditional_refuted :
  (exists txt x x' k, incar_of_string txt true = Ok x /\ incar_of_string (get_string x) true = Ok x' /\ get x' k <> get x k) /\
  (exists txt x, incar_of_string txt true = Ok x /\ incar_of_string (get_string x) true = Exn ValueError).
Proof.
  split.
  - exists (lit "LREAL = .TRUE. .FALSE."). eexists. eexists. exists (lit "lreal").
    split; [vm_compute; reflexivity|]. split; [vm_compute; reflexivity|]. vm_compute. discriminate.
  - exists (lit "ENCUT = 1e999"). eexists. split; [vm_compute; reflexivity|]. vm_compute. reflexivity.
Qed.
Print Assumptions C01_unconditional_refuted.

(** ** C02 *)
Theorem C02_comments_survive_string : forall txt vt x,
  incar_of_string txt vt = Ok x ->
  (forall k v, get x k = Some v -> prints_faithfully v) ->
  exists x', incar_of_string (write true x) vt = Ok x' /\
    (forall k, get x' k = get x k /\ comment_at x' k = comment_at x k) /\ write true x' = write true x.
Proof. exact comments_string. Qed.
Print Assumptions C02_comments_survive_string.
Theorem C02_comments_survive_file : forall txt vt x,
  incar_of_file txt vt = Ok x ->
  (forall k v, get x k = Some v -> prints_faithfully v) ->
  exists x', incar_of_file (write true x) vt = Ok x' /\
    (forall k, get x' k = get x k /\ comment_at x' k = comment_at x k) /\ write true x' = write true x.
Proof. exact comments_file. Qed.
Print Assumptions C02_comments_survive_file.
Example C02_case : comment_at sample_incar (lit "encut") = Some (lit "final").
Proof. vm_compute. reflexivity. Qed.

(** ** C03 *)
Theorem C03_canonical_tags : forall x, reachable x ->
  NoDup (map fst (get_dict x)) /\ forall k v, In (k, v) (get_dict x) -> canonical_tag k.
Proof. exact canonical_keys. Qed.
Print Assumptions C03_canonical_tags.
Example C03_case : reachable (run sample_incar [OpModify (lit " IsMear  x ") (PVal (VAtom (AInt 1))) None; OpDelete (lit "nsw")]) /\
  map fst (get_dict (run sample_incar [OpModify (lit " IsMear  x ") (PVal (VAtom (AInt 1))) None; OpDelete (lit "nsw")])) =
  map lit ["system"; "encut"; "lreal"; "magmom"; "kpar"; "algo"; "ismear"]%string.
Proof. split; [apply reachable_run; eapply string_reachable, sample_ok|vm_compute; reflexivity]. Qed.

(** ** C04 *)
Theorem C04_last_assignment_wins : forall txt vt x, incar_of_string txt vt = Ok x ->
  (forall k, match last_assigned k (assignments (splitlines txt)) with
             | Some v => exists w, get x k = Some w /\ text_denotes k v w
             | None => get x k = None
             end) /\ map fst (get_dict x) = dedup [] (map fst (assignments (splitlines txt))).
Proof. intros txt vt x H. rewrite of_string_eq in H. exact (last_wins _ _ _ H). Qed.
Print Assumptions C04_last_assignment_wins.
Theorem C04_last_assignment_wins_file : forall txt vt x, incar_of_file txt vt = Ok x ->
  (forall k, match last_assigned k (assignments (readlines (translate_newlines txt))) with
             | Some v => exists w, get x k = Some w /\ text_denotes k v w
             | None => get x k = None
             end) /\ map fst (get_dict x) = dedup [] (map fst (assignments (readlines (translate_newlines txt)))).
Proof. intros txt vt x H. rewrite of_file_eq in H. exact (last_wins _ _ _ H). Qed.
Print Assumptions C04_last_assignment_wins_file.
Example C04_case : last_assigned (lit "encut") (assignments (splitlines sample)) = Some (lit " 600.25 ").
Proof. vm_compute. reflexivity. Qed.

(** ** C05 *)
Theorem C05_modify_get_delete_canonical : forall x t v c x', reachable x -> canonical_tag t -> modify x t v c = Ok x' ->
  (exists w, arg_denotes t v w /\ get x' t = Some w) /\ get (delete x' t) t = None.
Proof.
  intros x t v c x' Hr Hc H. split.
  - destruct (modify_spec _ _ _ _ _ H) as [k [w [H1 [H2 [H3 _]]]]].
    rewrite (named_det t t k (canonical_named t Hc) H1). eauto.
  - apply delete_spec. destruct Hr as [a [vt [x0 [ops [H0 ->]]]]].
    exists a, vt, x0, (ops ++ [OpModify t v c]). split; auto. rewrite run_snoc. cbn [step]. rewrite H. reflexivity.
Qed.
Print Assumptions C05_modify_get_delete_canonical.
(** modify() stores under the lower-cased first word, whatever the spelling *)
Theorem C05_modify_stores_canonical_name : forall x t v c x', modify x t v c = Ok x' ->
  exists k w, named t k /\ arg_denotes k v w /\ get x' k = Some w /\ forall k', k' <> k -> get x' k' = get x k'.
Proof. exact modify_spec. Qed.
Print Assumptions C05_modify_stores_canonical_name.
Example C05_case : canonical_tag (lit "nsw") /\ exists x', modify sample_incar (lit "nsw") (PVal (VAtom (AStr (lit "20")))) None = Ok x'.
Proof.
  split; [|eexists; vm_compute; reflexivity].
  split; [discriminate|]. split; [|reflexivity]. intros c Hc. cbn in Hc. repeat (destruct Hc as [<-|Hc]; [reflexivity|]). destruct Hc.
Qed.
(** get() and delete() do not normalise: the upper-case spelling is never found. *)
Theorem C05_any_spelling_refuted :
  exists x t v x', reachable x /\ modify x t v None = Ok x' /\ get x' t = None /\
    get (delete x' t) (lower t) <> None.
Proof.
  exists sample_incar, (lit "ENCUT"), (PVal (VAtom (AInt 400))). eexists.
  split; [eapply string_reachable, sample_ok|]. split; [vm_compute; reflexivity|].
  split; [vm_compute; reflexivity|]. vm_compute. discriminate.
Qed.
Print Assumptions C05_any_spelling_refuted.

(** ** C06 *)
(** The first component is right; the second is the value again, never the comment. *)
Theorem C06_get_with_comment_partial : forall x k, fst (get_comment x k) = get x k.
Proof. intros x k. unfold get_comment, get. destruct (dget k (ents x)); reflexivity. Qed.
Print Assumptions C06_get_with_comment_partial.
Theorem C06_second_component_is_value : forall x k v, get x k = Some v -> snd (get_comment x k) = GValue v.
Proof. intros x k v. unfold get_comment, get. destruct (dget k (ents x)); cbn; congruence. Qed.
Print Assumptions C06_second_component_is_value.
Theorem C06_get_comment_refuted :
  exists x k c, reachable x /\ comment_at x k = Some c /\ snd (get_comment x k) <> GComment (Some c).
Proof.
  exists sample_incar, (lit "encut"), (lit "final").
  split; [eapply string_reachable, sample_ok|]. split; [vm_compute; reflexivity|]. vm_compute. discriminate.
Qed.
Print Assumptions C06_get_comment_refuted.

(** ** C07 *)
Theorem C07_layout : forall x, reachable x ->
  exists ls, Permutation ls (get_dict x) /\ StronglySorted slt (map fst ls) /\ get_string x = unlines (map shown_entry ls).
Proof. exact layout. Qed.
Print Assumptions C07_layout.
Theorem C07_insertion_order_irrelevant : forall x y, reachable x -> reachable y ->
  Permutation (get_dict x) (get_dict y) -> get_string x = get_string y.
Proof. exact layout_unique. Qed.
Print Assumptions C07_insertion_order_irrelevant.
Example C07_case : get_string sample_incar = unlines (map lit
  ["ALGO = Fast"; "ENCUT = 600.25"; "KPAR = 1 2 3"; "LREAL = .FALSE."; "MAGMOM = 4*0.5 2*-1"; "NSW = 10"; "SYSTEM = Si bulk (test)"]%string).
Proof. vm_compute. reflexivity. Qed.

(** ** C08 *)
Theorem C08_inert_lines : forall l1 l l2 vt, Forall one_line (l1 ++ l2) -> inert_line l ->
  incar_of_string (unlines (l1 ++ l :: l2)) vt = incar_of_string (unlines (l1 ++ l2)) vt /\
  incar_of_file (unlines (l1 ++ l :: l2)) vt = incar_of_file (unlines (l1 ++ l2)) vt.
Proof.
  intros l1 l l2 vt H Hl.
  assert (Forall one_line (l1 ++ l :: l2)) as H'.
  { apply Forall_app in H as [Ha Hb]. apply Forall_app. split; auto. constructor; auto. apply Hl. }
  rewrite !of_string_eq, !of_file_eq, !splitlines_unlines, !file_lines by auto. split.
  - rewrite from_list_inert; auto. intros d. apply inert_add; auto.
  - rewrite !map_app. cbn [map]. rewrite from_list_inert; auto. intros d. apply inert_nl; auto.
Qed.
Print Assumptions C08_inert_lines.
Theorem C08_text_after_hash : forall ls ls' vt, Forall one_line ls -> Forall one_line ls' ->
  Forall2 same_before_hash ls ls' ->
  outcome (incar_of_string (unlines ls) vt) = outcome (incar_of_string (unlines ls') vt).
Proof.
  intros ls ls' vt H1 H2 F. rewrite !of_string_eq, !splitlines_unlines by auto. apply sim_outcome.
  apply lines_sim; [|reflexivity]. clear -F. induction F; constructor; auto using same_before_split.
Qed.
Print Assumptions C08_text_after_hash.
Example C08_case : Forall one_line (map lit ["NSW = 1 # a"; "ENCUT = 2"]%string) /\ inert_line (lit "  # ENCUT = 3") /\
  Forall2 same_before_hash (map lit ["NSW = 1 # a"; "ENCUT = 2"]%string) (map lit ["NSW = 1 # b; x = = #"; "ENCUT = 2#"]%string).
Proof.
  assert (forall l, nobreak l = true -> one_line l) as K by (intros; apply one_line_nobreak; auto).
  split; [repeat constructor; apply K; reflexivity|]. split.
  - split; [apply K; reflexivity|]. right. exists (lit "  "), (lit " ENCUT = 3"). split; [reflexivity|].
    intros c [<-|[<-|[]]]; reflexivity.
  - constructor; [|constructor; [|constructor]].
    + exists (lit "NSW = 1 "). split; [apply nochar_In; reflexivity|]. split; right; [exists (lit " a")|exists (lit " b; x = = #")]; reflexivity.
    + exists (lit "ENCUT = 2"). split; [apply nochar_In; reflexivity|]. split; [left; reflexivity|right; exists []; reflexivity].
Qed.

(** ** C09 *)
(** After any accepted text, the first malformed piece of the next line decides. *)
Definition ends_piece (rest : str) : Prop := rest = [] \/ exists q, rest = ";"%char :: q \/ rest = "#"%char :: q.
Theorem C09_two_equals : forall ls1 a b e rest ls2 vt x,
  let p := a ++ "="%char :: b ++ "="%char :: e in
  Forall one_line (ls1 ++ (p ++ rest) :: ls2) -> incar_of_string (unlines ls1) false = Ok x ->
  ~ In "#"%char p -> ~ In ";"%char p -> ends_piece rest ->
  incar_of_string (unlines (ls1 ++ (p ++ rest) :: ls2)) vt = Exn (SysExit 101).
Proof.
  intros ls1 a b e rest ls2 vt x p H1 H2 H3 H4 H5. eapply string_stop; eauto. intros d Hd.
  assert (one_line p) as Hp.
  { apply Forall_app in H1 as [_ H1]. inversion H1; subst. intros c Hc. apply H6. apply in_or_app; auto. }
  eapply from_list_bad_piece; eauto.
  - intros K. apply split_ws_nil_iff in K. unfold blank in K. rewrite forallb_forall in K.
    assert (In "="%char p) as Q by (unfold p; apply in_elt). apply K in Q. discriminate.
  - intros c d0. apply fragment_two_eq; auto.
Qed.
Print Assumptions C09_two_equals.
Theorem C09_no_equals : forall ls1 p rest ls2 vt x,
  Forall one_line (ls1 ++ (p ++ rest) :: ls2) -> incar_of_string (unlines ls1) false = Ok x ->
  ~ In "#"%char p -> ~ In ";"%char p -> ends_piece rest -> split_ws p <> [] -> ~ In "="%char p ->
  incar_of_string (unlines (ls1 ++ (p ++ rest) :: ls2)) vt = Exn (SysExit 102).
Proof.
  intros ls1 p rest ls2 vt x H1 H2 H3 H4 H5 H6 H7. eapply string_stop; eauto. intros d Hd.
  eapply from_list_bad_piece; eauto. intros c d0. apply fragment_no_eq; auto.
  apply Forall_app in H1 as [_ H1]. inversion H1; subst. intros y Hy. apply H8. apply in_or_app; auto.
Qed.
Print Assumptions C09_no_equals.
Theorem C09_mixed_types : forall ls1 t v k atoms a b rest ls2 vt x,
  let p := t ++ "="%char :: v in
  Forall one_line (ls1 ++ (p ++ rest) :: ls2) -> incar_of_string (unlines ls1) false = Ok x ->
  ~ In "#"%char p -> ~ In ";"%char p -> ends_piece rest -> ~ In "="%char t -> ~ In "="%char v ->
  named t k -> ~ raw_tag k ->
  Forall2 token_denotes (split_ws v) atoms -> (forall e, In e (split_ws v) -> ~ special e) ->
  In a atoms -> In b atoms -> atom_kind a <> atom_kind b ->
  incar_of_string (unlines (ls1 ++ (p ++ rest) :: ls2)) vt = Exn (SysExit 104).
Proof.
  intros ls1 t v k atoms a b rest ls2 vt x p H1 H2 H3 H4 H5 H6 H7 H8 H9 F S Ha Hb Hab. eapply string_stop; eauto. intros d Hd.
  assert (one_line p) as Hp.
  { apply Forall_app in H1 as [_ H1]. inversion H1; subst. intros c Hc. apply H10. apply in_or_app; auto. }
  eapply from_list_bad_piece; eauto.
  - intros K. apply split_ws_nil_iff in K. unfold blank in K. rewrite forallb_forall in K.
    assert (In "="%char p) as Q by (unfold p; apply in_elt). apply K in Q. discriminate.
  - intros c d0. unfold add_fragment. rewrite one_line_not_nl by auto. unfold p.
    rewrite split_on_app, split_on_none by (apply nochar_not_In; auto).
    destruct H8 as [w [r [E ->]]]. unfold clean_entry. rewrite E.
    assert (smem (lower w) raw_tags = false) as ->.
    { destruct (smem (lower w) raw_tags) eqn:R; auto. apply raw_tag_smem in R. contradiction. }
    rewrite (mixed_104 v atoms a b) by auto. reflexivity.
Qed.
Print Assumptions C09_mixed_types.
Theorem C09_accepted_is_well_formed : forall txt vt x p, incar_of_string txt vt = Ok x ->
  piece_of (splitlines txt) p -> piece_ok p.
Proof.
  intros txt vt x p H [l [H1 [H2 H3]]]. rewrite of_string_eq in H. apply of_lines_ok in H as [d [H _]].
  destruct (lines_ok_inv _ _ _ _ H H1 H2 H3) as [->|K]; auto. exfalso.
  apply splitlines_parts in H1. unfold before_hash in H3. rewrite hd_split_first in H3.
  assert (In nl l) as Q.
  { pose proof (split_first_spec "#"%char l) as S. destruct (split_first "#"%char l) as [b [c|]]; cbn [fst] in *; subst.
    - apply in_or_app. left. apply (split_on_chars _ _ _ H3). left; reflexivity.
    - apply (split_on_chars _ _ _ H3). left; reflexivity. }
  apply nobreak_nonl in H1. apply nochar_In in H1. contradiction.
Qed.
Print Assumptions C09_accepted_is_well_formed.
Theorem C09_unsupported_type : forall x t k c, named t k -> modify x t POther c = Exn (SysExit 105) /\
  incar_of_dict [(t, POther)] false = Exn (SysExit 105).
Proof.
  intros x t k c [w [r [E _]]]. unfold modify. rewrite of_dict_eq. unfold from_dict, foldM, add_dict_item, clean_entry.
  rewrite E. split; reflexivity.
Qed.
Print Assumptions C09_unsupported_type.
Theorem C09_dict_two_hashes : forall d1 t a b e d2 vt es, incar_of_dict d1 false = Ok es ->
  incar_of_dict (d1 ++ (t, PVal (VAtom (AStr (a ++ "#"%char :: b ++ "#"%char :: e)))) :: d2) vt = Exn (SysExit 103).
Proof.
  intros d1 t a b e d2 vt es H. rewrite of_dict_eq in *. unfold from_dict in *. rewrite foldM_app.
  destruct (foldM add_dict_item d1 []) as [d|x]; [|discriminate]. cbn [bind foldM]. unfold add_dict_item at 1.
  pose proof (split_on_app_length "#"%char a (b ++ "#"%char :: e)) as L. rewrite (split_on_app_length _ b e) in L.
  pose proof (split_on_pos "#"%char a). pose proof (split_on_pos "#"%char b). pose proof (split_on_pos "#"%char e).
  destruct (split_on "#"%char (a ++ "#"%char :: b ++ "#"%char :: e)) as [|? [|? [|? ?]]]; cbn [length] in L; try lia. reflexivity.
Qed.
Print Assumptions C09_dict_two_hashes.
Example C09_case :
  incar_of_string (unlines (map lit ["NSW = 1"; "ENCUT = 2 = 3 ; x"; "A = 1"]%string)) true = Exn (SysExit 101) /\
  incar_of_string (unlines (map lit ["NSW = 1"; "ENCUT"; "A = 1"]%string)) true = Exn (SysExit 102) /\
  incar_of_string (unlines (map lit ["NSW = 1"; "ENCUT = 1 2.5 # x"; "A = 1"]%string)) true = Exn (SysExit 104).
Proof. vm_compute. auto. Qed.
Example C09_hyp : Forall2 token_denotes (split_ws (lit " 1 2.5 ")) [AInt 1; AFloat (FFin false 5 (-1))] /\
  atom_kind (AInt 1) <> atom_kind (AFloat (FFin false 5 (-1))) /\ piece_of (splitlines sample) (lit "  encut = 600.25 ").
Proof.
  split; [|split; [discriminate|]].
  - cbn. constructor; [apply TD_int; vm_compute; reflexivity|]. constructor; [|constructor]. apply TD_float; vm_compute; reflexivity.
  - exists (lit " lreal = .FALSE. ; NSW=10;  encut = 600.25 # final"). split; [vm_compute; tauto|].
    split; [vm_compute; discriminate|vm_compute; tauto].
Qed.

(** ** C10 *)
Theorem C10_token_typing : forall k e a, canonical_tag k -> ~ raw_tag k ->
  (forall c, In c (k ++ e) -> ~ In c (lit "#;=")) -> e <> [] -> (forall c, In c e -> is_space c = false) ->
  (exists x, incar_of_string (k ++ lit " = " ++ e) false = Ok x /\ get x k = Some (VAtom a)) <->
  token_denotes e a /\ ~ special e.
Proof.
  intros k e a Hk Hr Hs He Hn.
  assert (forall w, (forall c, In c w -> ~ In c (lit "#;=")) -> sep_free w = true) as K.
  { intros w Hw. unfold sep_free. rewrite !andb_true_iff. repeat split; apply nochar_not_In; intros Q; apply Hw in Q; apply Q; cbn; auto. }
  apply one_token; auto.
  - apply K. intros c Hc. apply Hs. apply in_or_app; auto.
  - apply is_token_intro; auto. apply forallb_forall. intros c Hc. rewrite Hn; auto.
  - apply K. intros c Hc. apply Hs. apply in_or_app; auto.
Qed.
Print Assumptions C10_token_typing.
Theorem C10_token_typing_deterministic : forall e a b, token_denotes e a -> token_denotes e b -> a = b.
Proof. exact token_denotes_det. Qed.
Print Assumptions C10_token_typing_deterministic.
Example C10_case : token_denotes (lit "-1_0") (AInt (-10)) /\ token_denotes (lit "1E-1") (AFloat (FFin false 3602879701896397 (-55))) /\
  token_denotes (lit "(.T.)") (ABool true) /\ token_denotes (lit "4*0.5") (AStr (lit "4*0.5")).
Proof.
  split; [apply TD_int; vm_compute; reflexivity|].
  split; [apply TD_float; vm_compute; reflexivity|].
  assert (forall e, match test_string_for_bool e with AStr s => s = e /\ forall b, ~ has_logical e b | ABool b => has_logical e b | _ => False end) as K by exact for_bool_spec.
  split; [apply TD_bool; [vm_compute; reflexivity|exact (K (lit "(.T.)"))]|].
  apply TD_str; [vm_compute; reflexivity|exact (proj2 (K (lit "4*0.5")))].
Qed.

(** ** C11 *)
Theorem C11_documented_exits_partial : forall txt vt e, incar_of_string txt vt = Exn e ->
  (forall p, piece_of (splitlines txt) p -> ~ blank_tag p /\ ~ special_value p) ->
  (vt = true /\ e = SysExit 100) \/ e = SysExit 101 \/ e = SysExit 102 \/ e = SysExit 104.
Proof.
  intros txt vt e H Hp. rewrite of_string_eq in H. apply of_lines_exn in H as [H|[p [H1 H2]]]; auto.
  destruct (Hp p H1) as [N1 N2]. destruct H2 as [H|[H|[H|[[_ H]|[_ H]]]]]; tauto.
Qed.
Print Assumptions C11_documented_exits_partial.
(** exactly which other exceptions escape, and why *)
Theorem C11_other_exceptions : forall txt vt e, incar_of_string txt vt = Exn e ->
  (vt = true /\ e = SysExit 100) \/ e = SysExit 101 \/ e = SysExit 102 \/ e = SysExit 104 \/
  (exists p, piece_of (splitlines txt) p /\ (e = IndexError /\ blank_tag p \/ e = ValueError /\ special_value p)).
Proof.
  intros txt vt e H. rewrite of_string_eq in H. apply of_lines_exn in H as [H|[p [H1 H2]]]; auto.
  destruct H2 as [H|[H|[H|[H|H]]]]; auto; do 4 right; exists p; auto.
Qed.
Print Assumptions C11_other_exceptions.
Theorem C11_no_crash_refuted :
  incar_of_string (lit "ENCUT = inf") true = Exn ValueError /\ incar_of_string (lit " = 500") true = Exn IndexError.
Proof. vm_compute. auto. Qed.
Print Assumptions C11_no_crash_refuted.

(** ** C12 (Incar) *)
Theorem C12_incar_sources : forall a vt,
  incar_init a vt = Exn (SysExit 10) <->
  let s := given (a_string a) in let d := given (a_dict a) in let p := given (a_path a) in let h := given (a_handler a) in
  s && d || s && p || d && p && h || negb (s || d || p || h) = true.
Proof. exact ctor_exit10. Qed.
Print Assumptions C12_incar_sources.
Theorem C12_incar_one_source_refuted : exists a x,
  given (a_dict a) = true /\ given (a_path a) = true /\ incar_init a true = Ok x.
Proof.
  exists (Args None (Some [(lit "nsw", PVal (VAtom (AInt 1)))]) (Some (Some (lit "ENCUT = 500"))) None). eexists.
  split; [reflexivity|]. split; [reflexivity|]. vm_compute. reflexivity.
Qed.
Print Assumptions C12_incar_one_source_refuted.

(** ** C13 *)
Theorem C13_validated_tags : forall a x, incar_init a true = Ok x -> forall k v, In (k, v) (get_dict x) -> In k incar_tags.
Proof. exact validated_keys. Qed.
Print Assumptions C13_validated_tags.
Theorem C13_validation_exact : forall a x, incar_init a false = Ok x ->
  ((forall k v, In (k, v) (get_dict x) -> In k incar_tags) -> exists y, incar_init a true = Ok y /\ get_dict y = get_dict x) /\
  (forall k v, In (k, v) (get_dict x) -> ~ In k incar_tags -> incar_init a true = Exn (SysExit 100)).
Proof. exact validated. Qed.
Print Assumptions C13_validation_exact.
Theorem C13_after_edits_refuted : exists x x' k v, reachable x /\ validate_tags x = true /\
  modify x k v None = Ok x' /\ validate_tags x' = true /\ get x' k <> None /\ ~ In k incar_tags.
Proof.
  exists sample_incar. eexists. exists (lit "nosuchtag"), (PVal (VAtom (AInt 1))).
  split; [eapply string_reachable, sample_ok|]. split; [vm_compute; reflexivity|]. split; [vm_compute; reflexivity|].
  split; [vm_compute; reflexivity|]. split; [vm_compute; discriminate|].
  intros K. apply smem_In in K. vm_compute in K. discriminate.
Qed.
Print Assumptions C13_after_edits_refuted.

(** ** C14 *)
Theorem C14_grouping : forall l1 ps l2 vt, ps <> [] -> Forall one_line (l1 ++ ps ++ l2) ->
  Forall (fun p => ~ In "#"%char p /\ ~ In ";"%char p /\ split_ws p <> []) ps ->
  incar_of_string (unlines (l1 ++ join (lit ";") ps :: l2)) vt = incar_of_string (unlines (l1 ++ ps ++ l2)) vt.
Proof.
  intros l1 ps l2 vt Hne H Hp. rewrite !of_string_eq.
  assert (one_line (join (lit ";") ps)) as J.
  { apply Forall_app in H as [_ H]. apply Forall_app in H as [H _]. clear -H. induction H as [|p ps Hp H IH]; [intros ? []|].
    destruct ps as [|p2 ps]; auto. rewrite join_cons2. intros c Hc. apply in_app_or in Hc as [Hc|Hc]; auto.
    apply in_app_or in Hc as [[<-|[]]|Hc]; auto. }
  rewrite !splitlines_unlines; auto.
  - rewrite from_list_grouped; auto.
  - apply Forall_app in H as [Ha H]. apply Forall_app in H as [_ H]. apply Forall_app. split; auto.
Qed.
Print Assumptions C14_grouping.
Example C14_case : Forall (fun p => ~ In "#"%char p /\ ~ In ";"%char p /\ split_ws p <> []) (map lit ["NSW = 1"; " ENCUT=2 "]%string).
Proof. repeat constructor; try (apply nochar_In; reflexivity); discriminate. Qed.
(** A trailing ';' is accepted from a file (when nothing follows it) and rejected from a string. *)
Theorem C14_trailing_semicolon_refuted :
  incar_of_string (lit "NSW = 1;") true = Exn (SysExit 102) /\
  (exists x, incar_of_file (unlines [lit "NSW = 1;"]) true = Ok x) /\
  incar_of_file (unlines [lit "NSW = 1; # x"]) true = Exn (SysExit 102).
Proof. split; [vm_compute; reflexivity|]. split; [eexists; vm_compute; reflexivity|vm_compute; reflexivity]. Qed.
Print Assumptions C14_trailing_semicolon_refuted.

(** ** C15 *)
Theorem C15_finite_map : forall x ops o k, reachable x ->
  let before := run x ops in
  match o with
  | OpModify t v c =>
      match modify before t v c with
      | Ok _ => (named t k /\ exists w, arg_denotes k v w /\ get (run x (ops ++ [o])) k = Some w) \/
                (~ named t k /\ get (run x (ops ++ [o])) k = get before k)
      | Exn _ => get (run x (ops ++ [o])) k = get before k
      end
  | OpDelete t => get (run x (ops ++ [o])) k = if seqb t k then None else get before k
  end.
Proof.
  intros x ops o k Hr before. rewrite run_snoc. fold before.
  pose proof (reachable_run x ops Hr) as Hb. fold before in Hb. destruct o as [t v c|t]; cbn [step].
  - destruct (modify before t v c) as [x'|e] eqn:E; auto.
    destruct (modify_spec _ _ _ _ _ E) as [k0 [w [N [D [G O]]]]].
    destruct (seqb k k0) eqn:Ek.
    + apply seqb_eq in Ek. subst. left. split; auto. eauto.
    + apply seqb_neq in Ek. right. split; [|auto]. intros N2. apply Ek. eapply named_det; eauto.
  - destruct (delete_spec before t Hb) as [D1 D2]. destruct (seqb t k) eqn:E.
    + apply seqb_eq in E. subst. auto.
    + apply seqb_neq in E. apply D2. auto.
Qed.
Print Assumptions C15_finite_map.
(** when a modification is refused *)
Theorem C15_refused_modify : forall x t v c e, modify x t v c = Exn e ->
  (forall k, ~ named t k) /\ e = IndexError \/
  exists k, named t k /\ (v = POther /\ e = SysExit 105 \/ exists s, v = PVal (VAtom (AStr s)) /\ ~ raw_tag k).
Proof. exact modify_fail. Qed.
Print Assumptions C15_refused_modify.
Example C15_case : get (run sample_incar [OpModify (lit "NSW") (PVal (VList [AInt 1; AInt 2])) None; OpDelete (lit "encut"); OpDelete (lit "NSW")]) (lit "nsw")
  = Some (VList [AInt 1; AInt 2]).
Proof. vm_compute. reflexivity. Qed.

(** ** C16 *)
Definition as_args (d : dict value) : dict pyarg := map (fun kv => (fst kv, PVal (snd kv))) d.
Theorem C16_dict_round_trip : forall txt vt x,
  incar_of_string txt vt = Ok x \/ incar_of_file txt vt = Ok x ->
  exists x', incar_of_dict (as_args (get_dict x)) vt = Ok x' /\ get_dict x' = get_dict x.
Proof.
  intros txt vt x [H|H]; [rewrite of_string_eq in H|rewrite of_file_eq in H];
    apply of_lines_ok in H as [es [H1 [H2 ->]]].
  - apply string_entries_ok in H1. eapply dict_round_trip; eauto.
  - apply file_entries_ok in H1. eapply dict_round_trip; eauto.
Qed.
Print Assumptions C16_dict_round_trip.
Example C16_case : exists x', incar_of_dict (as_args (get_dict sample_incar)) true = Ok x'.
Proof. destruct (C16_dict_round_trip _ _ _ (or_introl sample_ok)) as [x' [H _]]. eauto. Qed.
