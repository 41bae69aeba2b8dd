(** Properties C69 (overflowed numbers in vasprun.xml) and C70 (get_version). *)
From Coq Require Import Ascii String List NArith ZArith Bool Lia.
From Verif Require Import PyBase PyStrLemmas PyNum UtilsModel LineModel KpointsCodes OutcarModel OutcarMatch DoscarProofs StreamConfig ChgcarModel ChgcarSpec ChgcarProofs VasprunTypes VasprunXml VasprunModel VasprunEvents VasprunSpec VasprunTables VasprunTree VasprunSteps VasprunEnergies Props_Vasprun Props_VasprunFile Props_VasprunSample.
Import ListNotations.
Local Open Scope list_scope.

(** ** C69: numbers that do not fit their field ('****') *)
(** Scalars and columns: exit code 509 *)
Theorem C69_vasprun_overflow_scalar : forall t, (exists a b, t = a ++ lit "****" ++ b) -> convert_f (Some t) = Exn (SysExit 509) /\ convert_i (Some t) = Exn (SysExit 509).
Proof. intros t S. unfold convert_f, convert_i, stars. rewrite (proj2 (substrb_spec _ _)) by auto. auto. Qed.
(** Every scalar of a document is read that way: with an overflowed one there is no object.
    The two lists are the scalars with their paths *)
Definition param_paths_f : list (list pstep) := [[sep "symmetry"; item "SYMPREC"]; [sep "electronic"; sep "electronic smearing"; item "SIGMA"]; [sep "electronic"; item "NELECT"]].
Definition param_paths_i : list (list pstep) := [[sep "electronic"; sep "electronic convergence"; item "NELM"]; [sep "ionic"; item "NSW"]; [sep "electronic"; sep "electronic spin"; item "ISPIN"];
  [sep "electronic"; sep "electronic smearing"; item "ISMEAR"]; [sep "electronic"; item "NBANDS"]].
Theorem C69_vasprun_overflow_parameter : forall x kbb all path e rest t p, In path (param_paths_f ++ param_paths_i) -> findall_deep (Tag "parameters" :: path) x = e :: rest ->
  text e = Some t -> (exists a b, t = a ++ lit "****" ++ b) -> parsew x kbb all <> Ok p.
Proof.
  intros x kbb all path e rest t p I F T S H. apply parsew_run in H. destruct (C69_vasprun_overflow_scalar t S) as [Cf Ci].
  assert (forall path, findall_deep (Tag "parameters" :: path) x = e :: rest -> param_f x path = Exn (SysExit 509) /\ param_i x path = Exn (SysExit 509)) as P.
  { intros q Q. unfold param_f, param_i, param, find. rewrite Q. cbn [hd_error option_map]. rewrite T. auto. }
  apply P in F as [Ff Fi]. destruct H. unfold fetch_symprec, fetch_sigma, fetch_nelect, fetch_nelm, fetch_nsw, fetch_ispin, fetch_ismear, fetch_nbands in *.
  cbn in I. repeat (destruct I as [<-|I]; [congruence|]). destruct I.
Qed.
Lemma numbers_reads e t xs : text e = Some t -> ordinary t -> reads parse_float (split_ws t) xs -> numbers (text e) = Ok xs.
Proof.
  intros -> O F. unfold numbers, fromstring. rewrite (ordinary_odd _ O). f_equal. eapply reads_fun; [apply leading_reads|]. exact F.
Qed.
(** a row whose numbers stop after [xs] *)
Definition stops_after (e : xml) (xs : list float) : Prop := exists t, text e = Some t /\ ordinary t /\ reads parse_float (split_ws t) xs.
Theorem C69_vasprun_overflow_column : forall es e xs, In e es -> stops_after e xs -> length xs <> 1 -> (forall e, In e es -> exists ys, stops_after e ys) -> convert1D es = Exn (SysExit 509).
Proof.
  intros es e xs I (t & T & O & R) L A. unfold convert1D. induction es as [|d es IH]; [destruct I|]. cbn [mapM]. destruct I as [->|I].
  - rewrite (numbers_reads _ _ _ T O R). cbn [bind]. destruct xs as [|a [|b xs]]; auto. cbn in L. lia.
  - destruct (A d) as (ys & t' & T' & O' & R'); [left; auto|]. rewrite (numbers_reads _ _ _ T' O' R'). cbn [bind]. destruct ys as [|a [|b ys]]; auto. cbn [bind].
    rewrite IH; auto. intros; apply A; right; auto.
Qed.
(** Tables: nothing is reported.  A row whose numbers stop early is a row of zeros; if exactly
    one number can be read it fills the whole row *)
Theorem C69_vasprun_overflow_table_refuted : forall dim e xs, stops_after e xs -> length xs <> dim ->
  (length xs <> 1 -> convert2D dim [e] = Ok [repeat (FFin false 0 0) dim]) /\ (forall v, xs = [v] -> convert2D dim [e] = Ok [repeat v dim]).
Proof.
  intros dim e xs (t & T & O & R) L. unfold convert2D. cbn [mapM]. rewrite (numbers_reads _ _ _ T O R). cbn [bind]. unfold fit_row. destruct (Nat.eqb_spec (length xs) dim); [contradiction|]. split.
  - intros N. destruct xs as [|a [|b xs]]; auto. cbn in N. lia.
  - intros v ->. auto.
Qed.
(** Whole documents: the last force of the first step overflows in its first number, the last
    position in its second; no error, and the numbers are wrong *)
Local Open Scope string_scope.
Local Open Scope list_scope.
Definition overflowed : xml := tiny [box "calculation" [box "structure" [box "crystal" [named_ "varray" "basis" (vs [" 4 0 0 "; " 0 4 0 "; " 0 0 4 "])]; named_ "varray" "positions" (vs [" 0.25 ******** 0.5 "])];
  named_ "varray" "forces" (vs [" ******** 0.5 0.75 "]); named_ "varray" "stress" (vs [" 4 0 0 "; " 0 4 0 "; " 0 0 4 "])]].
Local Close Scope string_scope.
Definition ffloat (s : string) : float := match parse_float (lit s) with Some v => v | None => FNan end.
Theorem C69_vasprun_overflow_document_refuted : exists p, parsew overflowed false true = Ok p /\
  get_forces p (lit "last") = Ok (StepValue (Some [[ffloat "0.0"; ffloat "0.0"; ffloat "0.0"]])) /\
  get_positions p (lit "last") = Ok (StepValue (Some [[ffloat "0.25"; ffloat "0.25"; ffloat "0.25"]])).
Proof. eexists. split; [vm_compute; reflexivity|]. split; vm_compute; reflexivity. Qed.
Lemma plain_ordinary t : forallb plain_char t = true -> ordinary t.
Proof.
  intros P c I. rewrite forallb_forall in P. specialize (P c I). unfold plain_char in P. apply andb_true_iff in P as [P1 P2]. split.
  - intros ->. discriminate.
  - intros S. rewrite S in P2. cbn [negb orb] in P2. apply orb_true_iff in P2 as [P2|P2]; [left|right].
    + apply andb_true_iff in P2 as [A B]. apply N.leb_le in A, B. auto.
    + apply N.eqb_eq. auto.
Qed.
Lemma leading_stops e t xs : text e = Some t -> forallb plain_char t = true -> leading_numbers (cell64 (fun _ _ _ => FNan)) (split_ws t) = xs -> stops_after e xs.
Proof. intros T P <-. exists t. split; auto. split; [apply plain_ordinary; auto|]. apply (leading_reads (cell64 (fun _ _ _ => FNan))). Qed.
Example c69_rows : stops_after (leaf "v" " ******** 0.5 0.75 ") [] /\ stops_after (leaf "v" " 0.25 **** 1 ") [ffloat "0.25"].
Proof. split; (eapply leading_stops; [reflexivity|vm_compute; reflexivity|vm_compute; reflexivity]). Qed.
Example c69_parameter : exists e rest, findall_deep (Tag "parameters" :: [sep "electronic"; item "NBANDS"]) (box "modeling" [box "parameters" [named_ "separator" "electronic" [i_ "NBANDS" "******"]]]) = e :: rest /\
  text e = Some (lit "******").
Proof. eexists _, _. split; [vm_compute; reflexivity|reflexivity]. Qed.

(** ** C70: get_version *)
Definition digits (d : str) : Prop := d <> [] /\ forall c, In c d -> (48 <= N_of_ascii c <= 57)%N.
(** X.Y.Z with three integers *)
Definition version_form (v : str) : Prop := exists a b c, v = a ++ "."%char :: b ++ "."%char :: c /\ digits a /\ digits b /\ digits c.
(** the first X.Y.Z in a text, with all digits of Z *)
Definition first_version (t v : str) : Prop :=
  exists pre post, t = pre ++ v ++ post /\ version_form v /\ (forall d r, post = d :: r -> ~ (48 <= N_of_ascii d <= 57)%N) /\
    forall pre' v' post', t = pre' ++ v' ++ post' -> version_form v' -> length pre <= length pre'.
Lemma digit_iff c : is_digit c = true <-> (48 <= N_of_ascii c <= 57)%N.
Proof. unfold is_digit, code. rewrite andb_true_iff, !N.leb_le. tauto. Qed.
Lemma digits_all d : digits d -> forallb is_digit d = true.
Proof. intros [_ H]. apply forallb_forall. intros c I. apply digit_iff, H; auto. Qed.
Lemma all_digits d : d <> [] -> forallb is_digit d = true -> digits d.
Proof. intros N H. split; auto. intros c I. rewrite forallb_forall in H. apply digit_iff, H; auto. Qed.
Lemma version_here_some t v : version_here t = Some v -> exists post, t = v ++ post /\ version_form v /\ (forall d r, post = d :: r -> ~ (48 <= N_of_ascii d <= 57)%N).
Proof.
  unfold version_here. pose proof (span_app is_digit t) as T. pose proof (span_all is_digit t) as TA. destruct (span is_digit t) as [a r1] eqn:E1. cbn [fst snd] in *.
  destruct a as [|a0 a]; [discriminate|]. destruct r1 as [|d1 r2]; [discriminate|].
  pose proof (span_app is_digit r2) as T2. pose proof (span_all is_digit r2) as TB. destruct (span is_digit r2) as [b r3] eqn:E2. cbn [fst snd] in *.
  destruct b as [|b0 b]; [discriminate|]. destruct r3 as [|d2 r4]; [discriminate|].
  pose proof (span_app is_digit r4) as T3. pose proof (span_all is_digit r4) as TC. pose proof (span_stops is_digit r4) as ST. destruct (span is_digit r4) as [c r5] eqn:E3. cbn [fst snd] in *.
  destruct c as [|c0 c]; [discriminate|]. destruct (aeqb d1 "." && aeqb d2 ".") eqn:D; [|discriminate]. apply andb_true_iff in D as [D1 D2]. apply aeqb_eq in D1, D2. subst d1 d2.
  intros H. assert (v = (a0 :: a) ++ "."%char :: (b0 :: b) ++ "."%char :: (c0 :: c)) as -> by congruence. exists r5. split; [|split].
  - rewrite T, T2, T3. rewrite <- !app_assoc. cbn [app]. rewrite <- !app_assoc. auto.
  - exists (a0 :: a), (b0 :: b), (c0 :: c). split; [auto|]. split; [|split]; apply all_digits; auto; discriminate.
  - intros d r ->. intros Q. apply digit_iff in Q. cbn in ST. congruence.
Qed.
Lemma version_here_none t v post : version_here t = None -> t = v ++ post -> ~ version_form v.
Proof.
  intros H -> (a & b & c & -> & Da & Db & Dc). unfold version_here in H. rewrite <- app_assoc in H. cbn [app] in H. rewrite <- app_assoc in H. cbn [app] in H.
  rewrite span_exact in H by (try apply digits_all; auto; reflexivity).
  destruct a as [|a0 a]; [destruct Da; congruence|]. rewrite span_exact in H by (try apply digits_all; auto; reflexivity). destruct b as [|b0 b]; [destruct Db; congruence|].
  destruct c as [|c0 c]; [destruct Dc; congruence|]. assert (is_digit c0 = true) as C0 by (apply digit_iff; apply Dc; left; auto). cbn [app span] in H. rewrite C0 in H.
  destruct (span is_digit (c ++ post)) as [z1 z2]. cbn [fst] in H. discriminate.
Qed.
Lemma search_some t v : search_version t = Some v -> first_version t v.
Proof.
  revert v. induction t as [|c t IH]; intros v; cbn [search_version].
  - destruct (version_here []) as [w|] eqn:E; [|discriminate]. vm_compute in E. discriminate.
  - destruct (version_here (c :: t)) as [w|] eqn:E; intros H.
    + injection H as ->. destruct (version_here_some _ _ E) as (post & T & F & P). exists [], post. repeat split; auto. intros; cbn; lia.
    + destruct (IH _ H) as (pre & post & T & F & P & M). exists (c :: pre), post. split; [cbn; rewrite T; auto|]. split; auto. split; auto. intros pre' v' post' Q V. destruct pre' as [|c' pre'].
      * exfalso. exact (version_here_none _ v' post' E Q V).
      * cbn in Q. injection Q as -> Q. cbn. apply le_n_S. eapply M; eauto.
Qed.
Lemma search_none t : search_version t = None -> forall v, ~ first_version t v.
Proof.
  intros H v (pre & post & T & F & _). revert pre T. induction t as [|c t IH]; intros pre T.
  - destruct F as (a & b & d & -> & [Da _] & _). destruct pre; [|discriminate]. destruct a; [congruence|discriminate].
  - cbn [search_version] in H. destruct (version_here (c :: t)) as [w|] eqn:E; [discriminate|]. destruct pre as [|c' pre]; [exact (version_here_none _ v post E T F)|]. cbn in T. injection T as -> T. eapply IH; eauto.
Qed.
Lemma digits_stop (a a' : str) b b' : digits a -> digits a' -> (forall d r, b = d :: r -> ~ (48 <= N_of_ascii d <= 57)%N) -> (forall d r, b' = d :: r -> ~ (48 <= N_of_ascii d <= 57)%N) -> a ++ b = a' ++ b' -> a = a' /\ b = b'.
Proof.
  intros D D' S S' E. assert (stops is_digit b) as B by (destruct b as [|d r]; cbn; auto; destruct (is_digit d) eqn:Q; auto; apply digit_iff in Q; exfalso; eapply S; eauto).
  assert (stops is_digit b') as B' by (destruct b' as [|d r]; cbn; auto; destruct (is_digit d) eqn:Q; auto; apply digit_iff in Q; exfalso; eapply S'; eauto).
  pose proof (span_exact is_digit a b (digits_all _ D) B) as X. pose proof (span_exact is_digit a' b' (digits_all _ D') B') as X'. rewrite E, X' in X. injection X as -> ->. auto.
Qed.
Lemma dot_stop : forall x d r, "."%char :: x = d :: r -> ~ (48 <= N_of_ascii d <= 57)%N.
Proof. intros x d r E. injection E as <- _. cbn. lia. Qed.
Lemma first_version_fun t v w : first_version t v -> first_version t w -> v = w.
Proof.
  intros (pre & post & T & F & P & M) (pre' & post' & T' & F' & P' & M'). pose proof (M _ _ _ T' F') as L. pose proof (M' _ _ _ T F) as L'.
  assert (forall (a b x y : str), length a = length b -> a ++ x = b ++ y -> a = b) as LI.
  { induction a as [|h a IH]; intros [|h' b] x y Q Z; try discriminate; auto. cbn in Z. injection Z as -> Z. f_equal. eapply IH; eauto. }
  assert (pre = pre') as -> by (eapply LI; [|rewrite <- T, <- T'; reflexivity]; lia).
  rewrite T in T'. apply app_inv_head in T'. destruct F as (a & b & c & -> & Da & Db & Dc). destruct F' as (a' & b' & c' & -> & Da' & Db' & Dc').
  rewrite <- !app_assoc in T'. cbn [app] in T'. rewrite <- !app_assoc in T'. cbn [app] in T'.
  apply digits_stop in T' as [-> T']; auto; try (intros; eapply dot_stop; eauto). injection T' as T'. apply digits_stop in T' as [-> T']; auto; try (intros; eapply dot_stop; eauto). injection T' as T'.
  apply digits_stop in T' as [-> _]; auto.
Qed.
(** The first X.Y.Z of the version element, white space around it removed; without one, and
    without the element, an AttributeError *)
Theorem C70_vasprun_version : forall p v,
  (get_version p = Ok v <-> exists t, p_version p = Some t /\ first_version (strip t) v) /\
  (p_version p = None \/ (exists t, p_version p = Some t /\ forall v, ~ first_version (strip t) v) -> get_version p = Exn AttributeError).
Proof.
  intros p v. unfold get_version. split.
  - split.
    + destruct (p_version p) as [t|]; [|discriminate]. intros H. exists t. split; auto. destruct (search_version (strip t)) as [w|] eqn:S; [|discriminate]. apply Ok_inj' in H. subst w. apply search_some. auto.
    + intros (t & -> & F). destruct (search_version (strip t)) as [w|] eqn:S; [|exfalso; eapply search_none; eauto]. cbn. f_equal. eapply first_version_fun; [apply search_some; eauto|auto].
  - intros [->|(t & -> & N)]; auto. destruct (search_version (strip t)) as [w|] eqn:S; auto. exfalso. eapply N, search_some. eauto.
Qed.
(** The regular parser takes it from the first i element named version in a generator element *)
Theorem C70_vasprun_version_source : forall x kbb all p, parsew x kbb all = Ok p ->
  p_version p = match findall_deep [Tag "generator"; TagAt "i" "name" "version"] x with e :: _ => text e | [] => None end.
Proof.
  intros x kbb all p H. rewrite (tr_version _ _ _ _ (parsew_run _ _ _ _ H)). unfold fetch_version, find, item. destruct (findall_deep _ x); auto.
Qed.
Example c70_sample : get_version (tree_of sample false true) = Ok (lit "5.4.4").
Proof. vm_compute. reflexivity. Qed.
