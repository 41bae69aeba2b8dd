(** Properties of interrupted INCAR writes (C85): statements, with examples. *)
From Coq Require Import Ascii String List NArith ZArith Bool Lia Arith Permutation Sorted.
From Verif Require Import PyBase PyStrLemmas PyNum IncarTags IncarModel IncarSpec IncarProofs IncarRoundTrip IncarTokens IncarTheorems IncarErrors
  IoModel IoProofs.
From Verif Require PyLines Props_Io Props_IoCrash.
Import ListNotations.
Local Open Scope list_scope.
Local Open Scope bool_scope.

Definition entry_of (it : item) : str * value := (i_tag it, i_value it).
Lemma shown_item it : item_ok file_brk it -> shown_entry (entry_of it) = item_line false it.
Proof.
  intros _. unfold shown_entry, entry_of, item_line, comment_str. cbn [fst snd]. rewrite shown_convert.
  destruct (i_comment it); rewrite app_nil_r; reflexivity.
Qed.
Lemma items_facts x vt txt : incar_of_file txt vt = Ok x -> (forall k v, get x k = Some v -> prints_faithfully v) ->
  items_ok file_brk (ents x) /\ validate vt (ents x) = Ok tt.
Proof.
  rewrite of_file_eq, of_lines_ok. intros [es [H1 [H2 ->]]] Hp. cbn [ents].
  apply file_entries_ok in H1. split; auto. apply entries_writable; auto.
Qed.
Lemma sorted_perm d : entries_ok file_brk d -> Permutation (map entry_of (sorted_items d)) (map (fun kv => (fst kv, i_value (snd kv))) d).
Proof.
  intros E. pose proof (sorted_items_tags file_brk d E) as T. pose proof E as [N D].
  apply NoDup_Permutation.
  - apply (NoDup_map_inv fst). rewrite map_map. cbn [entry_of fst]. change (map (fun x => i_tag x) (sorted_items d)) with (map i_tag (sorted_items d)).
    rewrite T. eapply Permutation_NoDup; [symmetry; apply ssort_perm|auto].
  - apply (NoDup_map_inv fst). rewrite map_map. exact N.
  - intros [k v]. rewrite !in_map_iff. split.
    + intros [it [H1 H2]]. unfold entry_of in H1. apply sorted_items_In in H2 as [k' H2]. apply dget_In in H2. pose proof (D _ _ H2) as [-> _].
      exists (i_tag it, it). split; auto.
    + intros [[k' it] [H1 H2]]. cbn in H1. pose proof (D _ _ H2) as [-> _]. exists it. split; auto.
      unfold sorted_items. apply in_concat. exists [it]. split; [|left; auto]. apply in_map_iff. exists (i_tag it).
      rewrite (In_dget _ _ _ N H2). split; auto. eapply Permutation_in; [symmetry; apply ssort_perm|]. apply in_map_iff. exists (i_tag it, it). auto.
Qed.
Lemma get_first vt k its t : NoDup (map i_tag its) ->
  get (Incar (map (fun it => (i_tag it, stored false it)) (firstn k its)) vt) t = dget t (firstn k (map entry_of its)).
Proof.
  intros _. unfold get. cbn [ents]. rewrite firstn_map. induction (firstn k its) as [|it l IH]; auto.
  cbn. destruct (seqb t (i_tag it)); auto.
Qed.
Lemma NoDup_firstn {A} (l : list A) : forall k, NoDup l -> NoDup (firstn k l).
Proof.
  intros k H. rewrite <- (firstn_skipn k l) in H. revert H. generalize (firstn k l), (skipn k l). intros a b.
  induction a as [|x a IH]; cbn; intros H; constructor; inversion H; subst; auto. intros K. apply H2. apply in_or_app. auto.
Qed.
Lemma first_lines its k : (forall it, In it its -> item_ok file_brk it /\ item_writable it = true) -> NoDup (map i_tag its) ->
  from_list (map (fun it => item_line false it ++ [nl]) (firstn k its)) = Ok (map (fun it => (i_tag it, stored false it)) (firstn k its)).
Proof.
  intros H N. unfold from_list. rewrite (fold_lines file_brk file_brk_space file_brk_sp); auto.
  - rewrite fold_dset_fresh; auto. cbn. rewrite <- firstn_map. apply NoDup_firstn. exact N.
  - intros it Hi. apply H. rewrite <- (firstn_skipn k its). apply in_or_app. auto.
Qed.
(** the first k lines of the file, then p *)
Lemma cut_read its k p : (forall it, In it its -> item_ok file_brk it /\ item_writable it = true) -> NoDup (map i_tag its) ->
  nobrk file_brk p = true -> p <> [] ->
  from_list (readlines (translate_newlines (unlines (map (item_line false) (firstn k its)) ++ p))) =
  add_line (map (fun it => (i_tag it, stored false it)) (firstn k its)) p.
Proof.
  intros H N B NE. assert (forallb (nobrk file_brk) (map (item_line false) (firstn k its)) = true) as L.
  { apply forallb_forall. intros l Hl. apply in_map_iff in Hl as [it [<- Hi]].
    assert (In it its) as Hi' by (rewrite <- (firstn_skipn k its); apply in_or_app; auto). destruct (H it Hi'). apply item_line_nobrk; auto using file_brk_space, file_brk_sp. }
  assert (forallb (nochar nl) (map (item_line false) (firstn k its)) = true /\ forallb (nochar cr) (map (item_line false) (firstn k its)) = true) as [L1 L2].
  { rewrite forallb_forall in L. rewrite !forallb_forall. split; intros l Hl; apply L in Hl; apply nobrk_file in Hl; tauto. }
  apply nobrk_file in B as [B1 B2].
  rewrite translate_id.
  2:{ unfold nochar. rewrite forallb_app. change (nochar cr (unlines (map (item_line false) (firstn k its))) && nochar cr p = true).
      unfold unlines. rewrite nochar_concat, B2 by auto. reflexivity. }
  change (unlines (map (item_line false) (firstn k its))) with (PyLines.unlines (map (item_line false) (firstn k its))).
  rewrite PyLines.readlines_unlines_last by auto. rewrite map_map. unfold from_list. rewrite foldM_app.
  pose proof (first_lines its k H N) as F. unfold from_list in F. rewrite F. cbn [bind foldM]. destruct (add_line _ p); reflexivity.
Qed.
Lemma whole_read its k : (forall it, In it its -> item_ok file_brk it /\ item_writable it = true) -> NoDup (map i_tag its) ->
  from_list (readlines (translate_newlines (unlines (map (item_line false) (firstn k its))))) =
  Ok (map (fun it => (i_tag it, stored false it)) (firstn k its)).
Proof.
  intros H N. assert (forallb (nobrk file_brk) (map (item_line false) (firstn k its)) = true) as L.
  { apply forallb_forall. intros l Hl. apply in_map_iff in Hl as [it [<- Hi]].
    assert (In it its) as Hi' by (rewrite <- (firstn_skipn k its); apply in_or_app; auto). destruct (H it Hi'). apply item_line_nobrk; auto using file_brk_space, file_brk_sp. }
  assert (forallb (nochar nl) (map (item_line false) (firstn k its)) = true /\ forallb (nochar cr) (map (item_line false) (firstn k its)) = true) as [L1 L2].
  { rewrite forallb_forall in L. rewrite !forallb_forall. split; intros l Hl; apply L in Hl; apply nobrk_file in Hl; tauto. }
  unfold unlines. rewrite translate_id by (apply nochar_concat; auto). rewrite readlines_concat by auto. rewrite map_map. apply first_lines; auto.
Qed.
Lemma nochar_prefix c p q : nochar c (p ++ q) = true -> nochar c p = true.
Proof. unfold nochar. rewrite forallb_app. intros H. apply andb_true_iff in H. tauto. Qed.
Lemma prefix_app {A} (a b p q : list A) : a ++ b = p ++ q -> (exists r, a = p ++ r /\ q = r ++ b) \/ (exists r, p = a ++ r /\ b = r ++ q).
Proof.
  revert p. induction a as [|x a IH]; intros p H; [right; exists p; auto|]. destruct p as [|y p]; [left; exists (x :: a); auto|].
  cbn in H. inversion H. subst y. destruct (IH p H2) as [(r & -> & ->)|(r & -> & ->)]; [left|right]; exists r; auto.
Qed.
(** one line cut short: blank, refused, or the tag with the value its beginning denotes *)
Lemma cut_line it p q d d' : item_ok file_brk it -> item_writable it = true -> item_line false it = p ++ q -> p <> [] ->
  add_line d p = Ok d' ->
  exists a b it', shown (i_value it) = a ++ b /\ i_tag it' = i_tag it /\ text_denotes (i_tag it) a (i_value it') /\ d' = dset (i_tag it) it' d.
Proof.
  intros H Hw E NE A. pose proof (convert_ok file_brk file_brk_space file_brk_sp it H Hw) as [Cs _]. pose proof H as [[T1 [T2 T3]] _].
  assert (sep_free (upper (i_tag it)) = true) as U by (unfold sep_free in *; rewrite !upper_nochar by reflexivity; auto).
  assert (item_line false it = (upper (i_tag it) ++ [sp]) ++ "="%char :: sp :: convert_value (i_value it)) as EL.
  { unfold item_line, comment_str. rewrite <- app_assoc. destruct (i_comment it); rewrite app_nil_r; reflexivity. }
  unfold sep_free in U, Cs. rewrite !andb_true_iff in U, Cs. destruct U as [[U1 U2] U3]. destruct Cs as [[C1 C2] C3].
  assert (nochar "#"%char (item_line false it) = true /\ nochar ";"%char (item_line false it) = true) as [N1 N2].
  { rewrite EL. split; unfold nochar; rewrite !forallb_app; cbn [forallb]; fold (nochar "#"%char (convert_value (i_value it))) (nochar ";"%char (convert_value (i_value it)))
      (nochar "#"%char (upper (i_tag it))) (nochar ";"%char (upper (i_tag it))); rewrite ?U1, ?U2, ?C1, ?C2; reflexivity. }
  rewrite E in N1, N2. apply nochar_prefix in N1, N2.
  assert (split_ws p <> []) as NB.
  { intros K. apply split_ws_nil_iff in K. rewrite <- is_token_upper in T1.
    destruct (upper (i_tag it)) as [|c u] eqn:EU; [discriminate|]. destruct p as [|c' p']; [congruence|].
    rewrite E in EL. cbn in EL. inversion EL. subst c'. cbn in K, T1. apply andb_true_iff in K as [K _]. rewrite K in T1. discriminate. }
  rewrite add_line_single in A by (try (apply nochar_In); auto).
  unfold add_fragment in A. destruct (seqb p [nl]) eqn:Pn.
  { exfalso. apply seqb_eq in Pn. subst p. apply NB. reflexivity. }
  rewrite EL in E. symmetry in E. apply prefix_app in E as [(r & -> & F)|(r & F & _)].
  2:{ assert (nochar "="%char p = true) as N3.
      { apply (nochar_prefix _ p r). rewrite <- F. unfold nochar. rewrite forallb_app. fold (nochar "="%char (upper (i_tag it))). rewrite U3. reflexivity. }
      rewrite split_on_none in A by auto. discriminate. }
  destruct r as [|c r].
  { rewrite app_nil_r in A. rewrite split_on_none in A; [discriminate|]. unfold nochar. rewrite forallb_app. fold (nochar "="%char (upper (i_tag it))). rewrite U3. reflexivity. }
  cbn [app] in F. inversion F as [[F1 F2]]. subst c.
  assert (nochar "="%char (upper (i_tag it) ++ [sp]) = true) as N4.
  { unfold nochar. rewrite forallb_app. fold (nochar "="%char (upper (i_tag it))). rewrite U3. reflexivity. }
  assert (nochar "="%char r = true) as N5.
  { apply (nochar_prefix _ r q). rewrite <- F2. cbn. exact C3. }
  rewrite split_on_app, split_on_none in A by auto.
  apply bind_ok in A as [it' [A1 A2]]. apply Ok_inj in A2.
  apply clean_entry_inv in A1 as [A1 A3]. cbn [arg_denotes] in A3.
  assert (i_tag it' = i_tag it) as ET.
  { apply (named_det (upper (i_tag it) ++ [sp])); auto. exists (upper (i_tag it)), []. split.
    - rewrite split_ws_app_blank by reflexivity. apply split_ws_word; [apply is_token_ne|apply is_token_nospace]; rewrite is_token_upper; auto.
    - rewrite lower_upper. auto. }
  rewrite ET in A2, A3.
  assert (exists a, text_denotes (i_tag it) a (i_value it') /\ exists b, convert_value (i_value it) = a ++ b) as (a & Ha & b & Hb).
  { destruct r as [|c r].
    - exists []. split; [exact A3|exists (convert_value (i_value it)); auto].
    - cbn in F2. inversion F2. subst c. exists r. split; [|exists q; auto].
      destruct A3 as [[R ->]|[R [l [L1 L2]]]].
      + left. split; auto.
      + right. split; auto. exists l. split; auto. }
  exists a, b, it'. rewrite shown_convert. split; [exact Hb|]. split; [exact ET|]. split; [exact Ha|auto].
Qed.

(** INCAR: a crash leaves the old content, or a file that is refused, or one that gives the first
    tags (in the order of the file) with their values, and perhaps one more tag whose value is what
    the beginning of its text denotes; every other tag is missing *)
Theorem C85_incar_cut : forall txt vt x old d x', incar_of_file txt vt = Ok x -> (forall k v, get x k = Some v -> prints_faithfully v) ->
  crash_content (incar_w false x) old d -> incar_of_file d vt = Ok x' ->
  d = old \/
  exists ls k, Permutation ls (get_dict x) /\ StronglySorted slt (map fst ls) /\ k <= length ls /\
    ((forall t, get x' t = dget t (firstn k ls)) \/
     exists t0 v0 v' a b, nth_error ls k = Some (t0, v0) /\ shown v0 = a ++ b /\ text_denotes t0 a v' /\
       forall t, get x' t = if seqb t t0 then Some v' else dget t (firstn k ls)).
Proof.
  intros txt vt x old d x' H Hp CC R. apply Props_Io.C82_incar_crash in CC as [->|[s Hs]]; [auto|]. right.
  destruct (items_facts x vt txt H Hp) as [[IE IW] HV]. pose proof (file_reachable _ _ _ H) as RX. apply reachable_keys in RX as [_ _].
  set (its := sorted_items (ents x)). exists (map entry_of its).
  assert (map i_tag its = ssort (dkeys (ents x))) as T by (apply (sorted_items_tags file_brk); auto).
  assert (NoDup (map i_tag its)) as ND by (rewrite T; eapply Permutation_NoDup; [symmetry; apply ssort_perm|apply IE]).
  assert (forall it, In it its -> item_ok file_brk it /\ item_writable it = true) as OK.
  { intros it Hi. apply sorted_items_In in Hi as [k Hk]. apply dget_In in Hk. split; [apply (proj2 IE k)|apply (IW k)]; auto. }
  assert (map fst (map entry_of its) = map i_tag its) as MF by (rewrite map_map; reflexivity).
  rewrite (write_concat file_brk) in Hs by auto. fold its in Hs.
  change (d ++ s = PyLines.unlines (map (item_line false) its)) in Hs.
  destruct (Props_IoCrash.prefix_unlines _ _ _ Hs) as (k0 & p & D & P).
  assert (exists k, k <= length its /\ d = unlines (map (item_line false) (firstn k its)) ++ p /\
            (p = [] \/ exists it q, nth_error its k = Some it /\ item_line false it = p ++ q)) as (k & KL & D' & P').
  { destruct (Nat.le_gt_cases k0 (length its)) as [K|K].
    - exists k0. split; auto. rewrite firstn_map in D. split; [exact D|]. destruct P as [->|(l & q & P1 & P2)]; [auto|].
      rewrite nth_error_map in P1. destruct (nth_error its k0) as [it|] eqn:E; [|discriminate]. cbn in P1. injection P1 as P1. right. exists it, q. split; auto. congruence.
    - exists (length its). split; auto. rewrite firstn_all2 in D by (rewrite map_length; lia). rewrite firstn_all. split; [exact D|].
      destruct P as [->|(l & q & P1 & P2)]; [auto|]. assert (nth_error (map (item_line false) its) k0 = None) as X by (apply nth_error_None; rewrite map_length; lia). congruence. }
  exists k. split; [apply sorted_perm; auto|]. split.
  { rewrite MF, T. apply sorted_strict; [|apply ssort_sorted]. eapply Permutation_NoDup; [symmetry; apply ssort_perm|apply IE]. }
  split; [rewrite map_length; auto|].
  rewrite of_file_eq, of_lines_ok in R. destruct R as [es [R1 [R2 ->]]]. rewrite D' in R1.
  destruct p as [|c p0].
  { rewrite app_nil_r, (whole_read its k OK ND) in R1. apply Ok_inj in R1. subst es. left. intros t. apply (get_first vt k its t ND). }
  set (p := c :: p0) in *. assert (p <> []) as NE by discriminate. clearbody p.
  destruct P' as [->|(it & q & P1 & P2)]; [congruence|].
  assert (In it its) as Hit by (eapply nth_error_In; eauto). destruct (OK it Hit) as [O1 O2].
  assert (nobrk file_brk p = true) as NP.
  { pose proof (item_line_nobrk file_brk file_brk_space file_brk_sp false it O1 O2) as B. rewrite P2 in B. unfold nobrk in *. rewrite forallb_app in B. apply andb_true_iff in B. tauto. }
  rewrite (cut_read its k p OK ND NP NE) in R1. right.
  destruct (cut_line it p q _ es O1 O2 P2 NE R1) as (a & b & it' & Hs' & ET & TD & ->).
  exists (i_tag it), (i_value it), (i_value it'), a, b. rewrite nth_error_map, P1. split; [reflexivity|]. split; auto. split; auto.
  intros t. unfold get. cbn [ents]. destruct (seqb t (i_tag it)) eqn:ST.
  - apply seqb_eq in ST. subst t. rewrite dget_dset_same. reflexivity.
  - rewrite dget_dset_other by (apply seqb_neq; exact ST). pose proof (get_first vt k its t ND) as G. exact G.
Qed.
Print Assumptions C85_incar_cut.
(** a cut between two lines is always accepted, and gives the tags of the lines before it *)
Theorem C85_incar_whole_lines : forall txt vt x, incar_of_file txt vt = Ok x -> (forall k v, get x k = Some v -> prints_faithfully v) ->
  exists ls, Permutation ls (get_dict x) /\ StronglySorted slt (map fst ls) /\
  forall k, crash_content (incar_w false x) [] (unlines (map shown_entry (firstn k ls))) /\
    exists x', incar_of_file (unlines (map shown_entry (firstn k ls))) vt = Ok x' /\ forall t, get x' t = dget t (firstn k ls).
Proof.
  intros txt vt x H Hp. destruct (items_facts x vt txt H Hp) as [[IE IW] HV].
  set (its := sorted_items (ents x)). exists (map entry_of its).
  assert (map i_tag its = ssort (dkeys (ents x))) as T by (apply (sorted_items_tags file_brk); auto).
  assert (NoDup (map i_tag its)) as ND by (rewrite T; eapply Permutation_NoDup; [symmetry; apply ssort_perm|apply IE]).
  assert (forall it, In it its -> item_ok file_brk it /\ item_writable it = true) as OK.
  { intros it Hi. apply sorted_items_In in Hi as [k Hk]. apply dget_In in Hk. split; [apply (proj2 IE k)|apply (IW k)]; auto. }
  split; [apply sorted_perm; auto|]. split.
  { rewrite map_map. cbn [entry_of fst]. change (map (fun x => i_tag x) its) with (map i_tag its). rewrite T. apply sorted_strict; [|apply ssort_sorted].
    eapply Permutation_NoDup; [symmetry; apply ssort_perm|apply IE]. }
  intros k.
  assert (map shown_entry (firstn k (map entry_of its)) = map (item_line false) (firstn k its)) as E.
  { rewrite firstn_map, map_map. apply map_ext_in. intros it Hi. apply shown_item. apply OK. rewrite <- (firstn_skipn k its). apply in_or_app. auto. }
  rewrite E. split.
  - apply Props_Io.C82_incar_crash. right. exists (unlines (map (item_line false) (skipn k its))).
    rewrite (write_concat file_brk) by auto. fold its. unfold unlines. rewrite <- concat_app, <- map_app, <- map_app, firstn_skipn. reflexivity.
  - rewrite of_file_eq, (whole_read its k OK ND). cbn [bind].
    assert (validate vt (map (fun it => (i_tag it, stored false it)) (firstn k its)) = Ok tt) as V.
    { unfold validate in *. destruct vt; auto.
      destruct (forallb (fun k => smem k incar_tags) (dkeys (ents x))) eqn:F; [|discriminate].
      assert (forallb (fun k => smem k incar_tags) (dkeys (map (fun it => (i_tag it, stored false it)) (firstn k its))) = true) as ->; auto.
      rewrite forallb_forall in *. intros t Ht. apply F. unfold dkeys in Ht. rewrite map_map in Ht. cbn [fst] in Ht. apply in_map_iff in Ht as [it [<- Hi]].
      eapply Permutation_in; [apply ssort_perm|]. rewrite <- T. apply in_map. rewrite <- (firstn_skipn k its). apply in_or_app. auto. }
    rewrite V. cbn [bind]. eexists. split; [reflexivity|]. intros t. apply (get_first vt k its t ND).
Qed.
Print Assumptions C85_incar_whole_lines.
(** false: an accepted file has the values that were written *)
Theorem C85_incar_values_refuted : exists txt x d x', incar_of_file txt true = Ok x /\
  crash_content (incar_w false x) [] d /\ incar_of_file d true = Ok x' /\
  get x (lit "encut") = Some (VAtom (AInt 400)) /\ get x' (lit "encut") = Some (VAtom (AInt 4)).
Proof.
  exists (lit "ENCUT = 400"), (Incar [(lit "encut", Item (lit "encut") (VAtom (AInt 400)) None)] true), (lit "ENCUT = 4").
  eexists. split; [vm_compute; reflexivity|]. split.
  - apply Props_Io.C82_incar_crash. right. exists (lit "00" ++ [nl]). vm_compute. reflexivity.
  - split; [vm_compute; reflexivity|]. split; vm_compute; reflexivity.
Qed.
Print Assumptions C85_incar_values_refuted.
Example C85_incar_case : exists x, incar_of_file (lit "NSW = 1 2" ++ [nl] ++ lit "ENCUT = 400") true = Ok x /\
  crash_content (incar_w false x) (lit "") (lit "ENCUT = 400" ++ [nl] ++ lit "NSW = 1").
Proof. eexists. split; [vm_compute; reflexivity|]. apply Props_Io.C82_incar_crash. right. exists (lit " 2" ++ [nl]). vm_compute. reflexivity. Qed.
