(** Properties C57 and C58: the energies of vasprun.xml; truncation and choice of the method. *)
From Coq Require Import Ascii String List NArith ZArith Bool Lia.
From Verif Require Import PyBase PyStrLemmas PyNum UtilsModel LineModel KpointsCodes OutcarModel DoscarProofs StreamConfig ChgcarModel ChgcarSpec ChgcarProofs VasprunTypes VasprunXml VasprunModel VasprunEvents VasprunSpec VasprunTables VasprunTree VasprunSteps VasprunEnergies.
Import ListNotations.
Local Open Scope list_scope.

(** ** C57: energies *)
(** One entry per selected ionic step: its final energy, and its energies per electronic step
    one after the other (all, or the last one of each step); electronic_steps counts them *)
Theorem C57_vasprun_energies : forall x kbb all p (steps sel : list (str -> energy_pair)) status etype nosc,
  parsew x kbb all = Ok p -> steps <> [] -> Forall2 energies_hold (calculations x) steps -> selects status steps sel ->
  etype <> [] -> (forall t, In t etype -> In t [lit "energy_extrapolated"; lit "energy_free"; lit "energy_no_entropy"]) ->
  exists e, get_energies (p_totens p) status etype nosc = Ok (Some e) /\ map fst (en_types e) = etype /\
    (forall t finals values, In (t, (finals, values)) (en_types e) ->
       finals = map (fun f => Some (ep_final (f t))) sel /\ values = flat_map (fun f => shown nosc (ep_steps (f t))) sel) /\
    (forall pre t, etype = pre ++ [t] -> en_steps e = map (fun f => length (shown nosc (ep_steps (f t)))) sel).
Proof.
  intros x kbb all p steps sel status etype nosc H NE F S T0 T. pose proof (tr_totens _ _ _ _ (parsew_run _ _ _ _ H)) as E. rewrite (fetch_totens_ok x steps NE F) in E. apply Ok_inj' in E. rewrite <- E.
  destruct (exists_last T0) as (pre & tl & ->). rewrite (get_energies_ok steps status sel pre tl nosc NE); auto.
  - eexists. split; [reflexivity|]. cbn [en_types en_steps]. split; [|split].
    + rewrite map_map. cbn [fst]. apply map_id.
    + intros t fi va I. apply in_map_iff in I as [t' [Q _]]. pose proof (f_equal fst Q) as Q1. cbn [fst] in Q1. subst t'. apply (f_equal snd) in Q. cbn [snd] in Q. pose proof (f_equal fst Q) as Q1. pose proof (f_equal snd Q) as Q2. cbn [fst snd] in *. subst. auto.
    + intros pre' t Q. apply app_inj_tail in Q as [_ <-]. auto.
  - intros f t I Is. clear - F I Is. induction F as [|c g cs gs G F IH]; [destruct I|]. destruct I as [->|I]; [|auto].
    assert (exists k, In (t, k) keys_of_types) as [k K] by (destruct Is as [<-|[<-|[<-|[]]]]; eexists; [left|right; left|right; right; left]; reflexivity).
    apply (G t k K).
Qed.
Lemma missing_energy c key : findall_deep (scstep_path key) c = [] \/ findall_child (final_path key) c = [] -> forall r, step_energy c key = Ok r -> r = None.
Proof.
  intros M r H. unfold step_energy in H. change (findall [Tag "scstep"; Tag "energy"; item key] c) with (some_list (findall_deep (scstep_path key) c)) in H.
  change (findall_child [Tag "energy"; item key] c) with (findall_child (final_path key) c) in H. destruct M as [M|M]; rewrite M in H.
  - apply Ok_inj' in H. auto.
  - destruct (some_list _); [|apply Ok_inj' in H; auto]. apply bind_ok in H as [a [_ H]]. apply Ok_inj' in H. auto.
Qed.
(** One ionic step without an entry, and there are no energies at all *)
Theorem C57_vasprun_missing_entry : forall x kbb all p c t key status etype nosc, parsew x kbb all = Ok p -> In c (calculations x) -> In (t, key) keys_of_types ->
  findall_deep (scstep_path key) c = [] \/ findall_child (final_path key) c = [] ->
  (forall t, In t etype -> In t [lit "energy_extrapolated"; lit "energy_free"; lit "energy_no_entropy"]) ->
  get_energies (p_totens p) status etype nosc = Ok None.
Proof.
  intros x kbb all p c t key status etype nosc H I K M T. pose proof (tr_totens _ _ _ _ (parsew_run _ _ _ _ H)) as E.
  unfold get_energies. assert (forallb (fun t => smem t energy_types) etype = true) as -> by (apply forallb_forall; intros t' I'; apply smem_in, T; auto). cbn [negb].
  enough (p_totens p = None) as -> by auto. unfold fetch_totens in E. change (findall [Tag "calculation"] x) with (some_list (calculations x)) in E.
  rewrite some_list_some in E by (intros Z; rewrite Z in I; destruct I). revert E I. generalize (p_totens p) 1. induction (calculations x) as [|d cs IH]; intros o n E I; [destruct I|]. cbn [energies_from] in E. apply bind_ok in E as [te [SE E]].
  destruct I as [->|I].
  - assert (te = None) as ->.
    { unfold step_energies in SE. apply bind_ok in SE as [e0 [E0 SE]]. destruct K as [K|K].
      { apply (f_equal snd) in K. cbn [snd] in K. subst key. pose proof (missing_energy _ _ M _ E0) as ->. apply Ok_inj' in SE. auto. }
      destruct e0 as [[a0 f0]|]; [|apply Ok_inj' in SE; auto]. apply bind_ok in SE as [e1 [E1 SE]]. destruct K as [K|K].
      { apply (f_equal snd) in K. cbn [snd] in K. subst key. pose proof (missing_energy _ _ M _ E1) as ->. apply Ok_inj' in SE. auto. }
      destruct e1 as [[a1 f1]|]; [|apply Ok_inj' in SE; auto]. apply bind_ok in SE as [e2 [E2 SE]]. destruct K as [K|[]].
      apply (f_equal snd) in K. cbn [snd] in K. subst key. pose proof (missing_energy _ _ M _ E2) as ->. apply Ok_inj' in SE. auto. }
    apply Ok_inj' in E. auto.
  - destruct te as [te|]; [|apply Ok_inj' in E; auto]. apply bind_ok in E as [r [R E]]. pose proof (IH _ _ R I) as ->. apply Ok_inj' in E. auto.
Qed.
(** What is refused: another energy type always; another status, and no type at all, once there
    are data *)
Theorem C57_vasprun_refused : forall data status etype nosc,
  (forall t, In t etype -> ~ In t [lit "energy_extrapolated"; lit "energy_free"; lit "energy_no_entropy"] -> get_energies data status etype nosc = Exn ValueError) /\
  ((forall t, In t etype -> In t [lit "energy_extrapolated"; lit "energy_free"; lit "energy_no_entropy"]) ->
     (data = None -> get_energies data status etype nosc = Ok None) /\
     (data <> None -> ~ In status [lit "initial"; lit "last"; lit "all"] -> get_energies data status etype nosc = Exn (SysExit 507)) /\
     (data <> None -> In status [lit "initial"; lit "last"; lit "all"] -> etype = [] -> get_energies data status etype nosc = Exn UnboundLocal)).
Proof.
  intros data status etype nosc. split.
  - intros t I N. unfold get_energies. destruct (forallb _ etype) eqn:E; auto. exfalso. apply N. rewrite forallb_forall in E. specialize (E t I). unfold smem in E. apply existsb_exists in E as [t' [I' T]]. apply seqb_eq in T. subst t'. auto.
  - intros T. unfold get_energies. assert (forallb (fun t => smem t energy_types) etype = true) as -> by (apply forallb_forall; intros t I; apply smem_in, T; auto). cbn [negb].
    split; [intros ->; auto|]. split; intros D N; (destruct data as [d|]; [|congruence]); unfold check_status.
    + destruct (smem status _) eqn:E; auto. exfalso. apply N. unfold smem in E. apply existsb_exists in E as [t [I S]]. apply seqb_eq in S. subst t. auto.
    + intros ->. rewrite smem_in by auto. auto.
Qed.

(** ** C58: truncation and choice of the method *)
(** the document is larger than a kilobyte, and its last line has the closing tag, all of it
    among the last 1024 bytes *)
Definition closed_at_end (t : str) : Prop :=
  exists pre mid post, t = pre ++ mid ++ post /\ mid = lit "</modeling>" /\ length (mid ++ post) <= 1024 /\ 1024 < length t /\
    forall a b, post = a ++ nl :: b -> b = [].
Lemma last_line_sub acc t : exists a, acc ++ t = a ++ last_line acc t.
Proof.
  revert acc. induction t as [|c r IH]; intros acc; cbn [last_line]; [exists []; rewrite app_nil_r; auto|].
  destruct r as [|d r]; [exists []; auto|]. destruct (aeqb c nl).
  - destruct (IH []) as [a E]. exists (acc ++ c :: a). rewrite <- app_assoc. cbn. cbn in E. rewrite E. auto.
  - destruct (IH (acc ++ [c])) as [a E]. rewrite <- app_assoc in E. exists a. exact E.
Qed.
(** text without a newline except possibly at the end is its own last line *)
Lemma last_line_whole acc (t : str) : (forall a b, t = a ++ nl :: b -> b = []) -> last_line acc t = acc ++ t.
Proof.
  revert acc. induction t as [|c r IH]; intros acc H; cbn [last_line]; [rewrite app_nil_r; auto|].
  destruct r as [|d r]; auto. destruct (aeqb c nl) eqn:E.
  - apply aeqb_eq in E. subst c. discriminate (H [] (d :: r) eq_refl).
  - rewrite IH; [rewrite <- app_assoc; auto|]. intros a b Q. apply (H (c :: a) b). rewrite Q. auto.
Qed.
(** the last line reaches back over everything without newlines *)
Lemma last_line_tail acc pre (t : str) : t <> [] -> (forall a b, t = a ++ nl :: b -> b = []) -> exists z, last_line acc (pre ++ t) = z ++ t.
Proof.
  intros NE H. revert acc. induction pre as [|c pre IH]; intros acc; [exists acc; apply last_line_whole; auto|]. cbn [app last_line].
  destruct (pre ++ t) as [|d r] eqn:Q; [destruct pre; [|discriminate]; cbn in Q; congruence|]. destruct (aeqb c nl); apply IH.
Qed.
Lemma no_newline_closing post : (forall a b : str, post = a ++ nl :: b -> b = []) -> forall a b, lit "</modeling>" ++ post = a ++ nl :: b -> b = [].
Proof.
  intros H a b E. cbn in E.
  repeat (destruct a as [|? a]; [exfalso; apply (f_equal (fun l => hd nl l)) in E; cbn in E; discriminate|cbn in E; apply (f_equal (@tl ascii)) in E; cbn in E]).
  exact (H a b E).
Qed.
(** Truncated is what the constructor reports: a document in which the closing tag is nowhere is
    always truncated; one with the tag in its last line is not, if it has more than 1024 bytes *)
Theorem C58_vasprun_unclosed_is_truncated : forall t, (forall a b, t <> a ++ lit "</modeling>" ++ b) ->
  xml_truncated (FromPath (Some t)) = Ok true /\ xml_truncated (FromBytes t) = Ok true.
Proof.
  intros t H. unfold xml_truncated. enough ((if Nat.ltb 1024 (length t) then negb (substrb closing (last_line [] (skipn (length t - 1024) t))) else true) = true) as -> by auto.
  destruct (Nat.ltb _ _); auto. apply negb_true_iff, substrb_false. intros a b E. destruct (last_line_sub [] (skipn (length t - 1024) t)) as [z Z]. cbn [app] in Z. rewrite E in Z.
  apply (H (firstn (length t - 1024) t ++ z ++ a) b). rewrite <- (firstn_skipn (length t - 1024) t) at 1. rewrite Z, <- !app_assoc. auto.
Qed.
Theorem C58_vasprun_closed_is_complete : forall t, closed_at_end t -> xml_truncated (FromPath (Some t)) = Ok false /\ xml_truncated (FromBytes t) = Ok false.
Proof.
  intros t (pre & mid & post & E & M & L & G & N). unfold xml_truncated. enough ((if Nat.ltb 1024 (length t) then negb (substrb closing (last_line [] (skipn (length t - 1024) t))) else true) = false) as -> by auto.
  destruct (Nat.ltb_spec 1024 (length t)); [|lia]. apply negb_false_iff, substrb_spec.
  assert (skipn (length t - 1024) t = skipn (length t - 1024) pre ++ mid ++ post) as ->.
  { rewrite E at 2. rewrite skipn_app. f_equal. assert (length t - 1024 - length pre = 0) as -> by (rewrite E, app_length; lia). auto. }
  destruct (last_line_tail [] (skipn (length t - 1024) pre) (mid ++ post)) as [z ->].
  - rewrite M. discriminate.
  - rewrite M. apply no_newline_closing. auto.
  - rewrite M. exists z, post. auto.
Qed.
(** Small documents are always flagged: the flag is not "the closing tag is missing" *)
Theorem C58_vasprun_small_is_truncated : forall t, length t <= 1024 -> xml_truncated (FromPath (Some t)) = Ok true /\ xml_truncated (FromBytes t) = Ok true /\ xml_truncated (FromText t) = Ok true.
Proof. intros t L. unfold xml_truncated. destruct (Nat.ltb_spec 1024 (length t)); [lia|]. auto. Qed.
(** Nor does a document with a longer tail count as complete *)
Theorem C58_vasprun_far_tag_is_truncated : forall pre post, 1024 <= length post -> (forall a b, post <> a ++ lit "</modeling>" ++ b) ->
  xml_truncated (FromPath (Some (pre ++ post))) = Ok true.
Proof.
  intros pre post L H. unfold xml_truncated. f_equal. destruct (Nat.ltb _ _); auto. apply negb_true_iff, substrb_false. intros a b E.
  assert (skipn (length (pre ++ post) - 1024) (pre ++ post) = skipn (length post - 1024) post) as Q.
  { rewrite skipn_app, skipn_all2 by (rewrite app_length; lia). rewrite app_length. cbn [app]. f_equal. lia. }
  rewrite Q in E. destruct (last_line_sub [] (skipn (length post - 1024) post)) as [z Z]. cbn [app] in Z. rewrite E in Z.
  apply (H (firstn (length post - 1024) post ++ z ++ a) b). rewrite <- (firstn_skipn (length post - 1024) post) at 1. rewrite Z, <- !app_assoc. auto.
Qed.
(** The method depends on the size, on the flag and on [event] only.  [parse_tree recover] and
    [parse_events] are arbitrary: what lxml makes of the source *)
Definition mb500 : N := 524288000.
Theorem C58_vasprun_method : forall parse_tree parse_events path handler kbb all event s tr,
  (handler = Some s \/ handler = None /\ path = Some s) -> xml_truncated s = Ok tr ->
  let size := N.of_nat (length (content s)) in
  (event = false -> (size < mb500)%N \/ tr = true ->
     xml_init parse_tree parse_events path handler kbb all event = (let* x := parse_tree tr (content s) in let* p := parsew x kbb all in Ok (XObject tr p))) /\
  (event = true \/ (mb500 <= size)%N /\ tr = false ->
     xml_init parse_tree parse_events path handler kbb all event = (let* evs := parse_events (content s) in let* p := parsee kbb evs in Ok (XObject tr p))).
Proof.
  intros pt pe path handler kbb all event s tr H T size. unfold xml_init.
  assert (of_option (SysExit 510) (match handler with Some h => Some h | None => path end) = Ok s) as -> by (destruct H as [->|[-> ->]]; auto). cbn [bind]. rewrite T. cbn [bind].
  fold size. unfold choose. change (500 * 1048576)%N with mb500. split.
  - intros -> [L| ->].
    + apply N.ltb_lt in L. rewrite L. cbn [orb andb negb]. destruct (pt tr (content s)); reflexivity.
    + rewrite orb_true_r. cbn [andb negb]. destruct (pt true (content s)); reflexivity.
  - intros [->|[L ->]].
    + cbn [negb]. rewrite andb_false_r. destruct (pe (content s)); reflexivity.
    + apply N.ltb_ge in L. rewrite L. cbn [orb andb]. destruct (pe (content s)); reflexivity.
Qed.
(** No source; a file that cannot be found; a large document through a handler in text mode *)
Theorem C58_vasprun_sources : forall parse_tree parse_events path kbb all event,
  xml_init parse_tree parse_events None None kbb all event = Exn (SysExit 510) /\
  xml_init parse_tree parse_events (Some (FromPath None)) None kbb all event = Exn AttributeError /\
  (forall t, 1024 < length t -> xml_init parse_tree parse_events path (Some (FromText t)) kbb all event = Exn TypeError).
Proof.
  intros. split; [auto|]. split; [auto|]. intros t L. unfold xml_init. cbn [of_option bind xml_truncated]. destruct (Nat.ltb_spec 1024 (length t)); [auto|lia].
Qed.
(** The conditions can be met, by documents of every size from 1025 bytes *)
Example c58_closed : forall n, 1014 <= n -> closed_at_end (repeat " "%char n ++ lit "</modeling>" ++ lit " ") /\ closed_at_end (repeat nl n ++ lit "</modeling>" ++ [nl]).
Proof.
  intros n N. split; (eexists _, _, _; split; [reflexivity|]; split; [reflexivity|]; split; [cbn; lia|]; split; [rewrite !app_length, repeat_length; cbn; lia|]).
  - intros [|a [|b c]] r E; try discriminate.
  - intros [|a [|b c]] r E; try discriminate. injection E. auto.
Qed.
