(** Timings and memory of an OUTCAR. *)
From Coq Require Import Ascii String List NArith ZArith Bool Lia.
From Verif Require Import PyBase PyStrLemmas PyNum UtilsModel OutcarModel OutcarSpec OutcarMatch OutcarProofs OutcarScan StreamConfig KpointsCodes.
Import ListNotations.
Local Open Scope list_scope.

(** ** Pieces *)
Lemma colon_same c : colon_or_space c = is_colon_sp c.
Proof. reflexivity. Qed.
Lemma split_runs_ne f l : split_runs f l <> [].
Proof. induction l as [|c l IH]; cbn [split_runs]; [discriminate|]. destruct (f c); [destruct l as [|c' l]; [discriminate|destruct (f c'); [auto|discriminate]]|]. destruct (split_runs f l); discriminate. Qed.
Definition nof (f : ascii -> bool) (l : str) : bool := forallb (fun c => negb (f c)) l.
Lemma split_runs_none f w : nof f w = true -> split_runs f w = [w].
Proof.
  unfold nof. induction w as [|c w IH]; cbn [split_runs forallb]; auto. intros H. apply andb_true_iff in H as [H1 H2]. apply negb_true_iff in H1. rewrite H1, (IH H2). auto.
Qed.
Lemma split_runs_seps f seps w : seps <> [] -> forallb f seps = true -> stops f w -> split_runs f (seps ++ w) = [] :: split_runs f w.
Proof.
  intros N H S1. induction seps as [|c seps IH]; [congruence|]. cbn [forallb] in H. apply andb_true_iff in H as [H1 H2]. cbn [app split_runs]. rewrite H1.
  destruct seps as [|c' seps].
  - cbn [app]. destruct w as [|x w]; [reflexivity|]. cbn [stops] in S1. rewrite S1. auto.
  - cbn [app] in *. cbn [forallb] in H2. assert (f c' = true) as E by (apply andb_true_iff in H2; tauto). rewrite E. apply IH; auto. discriminate.
Qed.
Lemma split_runs_word f v x : nof f v = true -> split_runs f (v ++ x) = match split_runs f x with w :: ws => (v ++ w) :: ws | [] => [v] end.
Proof.
  intros H. induction v as [|c v IH]; cbn [app]; [destruct (split_runs f x) eqn:E; auto; exfalso; eapply split_runs_ne; eauto|].
  unfold nof in H. cbn [forallb] in H. apply andb_true_iff in H as [H1 H2]. apply negb_true_iff in H1. cbn [split_runs]. rewrite H1. rewrite (IH H2). destruct (split_runs f x); auto.
Qed.
(** every text is a first piece followed by runs and pieces *)
Lemma split_runs_shape f l : exists k r, l = k ++ r /\ nof f k = true /\ stops (fun c => negb (f c)) r /\
  ((r = [] /\ split_runs f l = [k]) \/ exists seps w, r = seps ++ w /\ seps <> [] /\ forallb f seps = true /\ stops f w /\ split_runs f l = k :: split_runs f w).
Proof.
  pose proof (span_app (fun c => negb (f c)) l) as A. pose proof (span_all (fun c => negb (f c)) l) as B. pose proof (span_stops (fun c => negb (f c)) l) as C.
  destruct (span (fun c => negb (f c)) l) as [k r]. cbn [fst snd] in *. exists k, r. split; auto. split; auto. split; auto.
  destruct r as [|c r]; [left; split; auto; rewrite A, app_nil_r; apply split_runs_none; auto|right].
  pose proof (span_app f (c :: r)) as A'. pose proof (span_all f (c :: r)) as B'. pose proof (span_stops f (c :: r)) as C'. cbn [stops] in C. apply negb_false_iff in C. cbn [span] in *. rewrite C in *.
  destruct (span f r) as [s w]. cbn [fst snd] in *. exists (c :: s), w. split; auto. split; [discriminate|]. split; auto. split; auto.
  rewrite A, (split_runs_word f k _ B), A', split_runs_seps, app_nil_r by (auto; discriminate). auto.
Qed.
Lemma hd_pieces l : first_piece l (hd [] (split_runs is_colon_sp l)).
Proof.
  destruct (split_runs_shape is_colon_sp l) as (k & r & E & N & S1 & H). exists r.
  assert (hd [] (split_runs is_colon_sp l) = k) as ->. { destruct H as [[_ ->]|[s [w [_ [_ [_ [_ ->]]]]]]]; reflexivity. }
  split; auto. split; auto. destruct r as [|c r]; auto. cbn [stops] in S1. apply negb_false_iff in S1. exact S1.
Qed.
Lemma first_piece_fun l k k' : first_piece l k -> first_piece l k' -> k = k'.
Proof.
  assert (forall l k, first_piece l k -> k = fst (span (fun c => negb (colon_or_space c)) l)) as K.
  { clear. intros l k [r [E [N S1]]]. subst l. rewrite (span_exact (fun c => negb (colon_or_space c)) k r N); auto. destruct r as [|c r]; cbn [stops]; auto. apply negb_false_iff. auto. }
  intros A B. apply K in A, B. congruence.
Qed.
Lemma pieces_last_but_one n l t : length l <= n -> (match rev (split_runs is_colon_sp l) with _ :: t' :: _ => Some t' | _ => None end = Some t -> last_but_one l t).
Proof.
  revert l. induction n as [|n IH]; intros l L.
  - destruct l; [|cbn [length] in L; lia]. cbn. discriminate.
  - destruct (split_runs_shape is_colon_sp l) as (k & r & E & N & S1 & H). destruct H as [[-> H]|(s & w & -> & Ns & As & Sw & H)].
    + rewrite H. cbn [rev app]. discriminate.
    + assert (length w <= n) as LW. { rewrite E in L. rewrite !app_length in L. destruct s; [congruence|]. cbn [length] in L. lia. }
      specialize (IH w LW). rewrite H. cbn [rev]. destruct (rev (split_runs is_colon_sp w)) as [|a [|b rs]] eqn:ER.
      * exfalso. apply (split_runs_ne is_colon_sp w). rewrite <- (rev_involutive (split_runs _ w)), ER. auto.
      * cbn [app]. (* w is one piece *)
        assert (nof is_colon_sp w = true) as NW.
        { destruct (split_runs_shape is_colon_sp w) as (k2 & r2 & E2 & N2 & _ & [[-> _]|(s2 & w2 & _ & _ & _ & _ & H2)]); [rewrite app_nil_r in E2; subst k2; auto|].
          exfalso. rewrite H2 in ER. cbn [rev] in ER. destruct (rev (split_runs is_colon_sp w2)) as [|y ys] eqn:EQ; [|destruct ys; discriminate]. apply (split_runs_ne is_colon_sp w2). rewrite <- (rev_involutive (split_runs _ w2)), EQ. auto. }
        intros X. inversion X. subst k. exists [], s, w. cbn [app]. auto 10.
      * cbn [app]. intros X. specialize (IH X). clear X.
        destruct IH as (pre & s' & w' & E2 & Ns' & As' & Nv & Nw' & P). exists (k ++ s ++ pre), s', w'. split; [rewrite E, E2, <- !app_assoc; auto|]. split; auto. split; auto. split; auto. split; auto. right.
        destruct P as [->|[NV (p & c & -> & Cc)]].
        -- destruct t as [|x t].
           ** exfalso. cbn [app] in E2. destruct s' as [|z s']; [congruence|]. subst w. cbn [app stops forallb] in Sw, As'. apply andb_true_iff in As' as [As1 _]. rewrite colon_same in As1. congruence.
           ** split; [discriminate|]. rewrite app_nil_r. destruct (exists_last Ns) as [s0 [c Es]]. exists (k ++ s0), c. split; [rewrite Es, app_assoc; auto|]. rewrite Es in As. apply forallb_app_iff in As as [_ As]. cbn [forallb] in As. rewrite andb_true_r in As. exact As.
        -- split; auto. exists (k ++ s ++ p), c. split; auto. rewrite <- !app_assoc. auto.
Qed.
Lemma forallb_rev {A} (f : A -> bool) l : forallb f (rev l) = forallb f l.
Proof. induction l as [|a l IH]; auto. cbn [rev forallb]. rewrite forallb_app, IH. cbn [forallb]. rewrite andb_true_r, andb_comm. auto. Qed.
Lemma last_but_one_fun l t t' : last_but_one l t -> last_but_one l t' -> t = t'.
Proof.
  set (nc := fun c => negb (colon_or_space c)).
  assert (forall l t, last_but_one l t -> rev t = fst (span nc (snd (span colon_or_space (snd (span nc (rev l))))))) as K.
  { clear l t t'. intros l t (pre & s & w & E & Ns & As & Nv & Nw & P). subst l. rewrite !rev_app_distr, <- !app_assoc.
    assert (stops nc (rev s ++ rev t ++ rev pre)) as S1. { destruct (exists_last Ns) as [s0 [c Es]]. rewrite Es in *. rewrite rev_app_distr. cbn [rev app stops]. apply forallb_app_iff in As as [_ As]. cbn [forallb] in As. rewrite andb_true_r in As. unfold nc. rewrite As. auto. }
    rewrite (span_exact nc (rev w)); [|rewrite forallb_rev; auto|auto]. cbn [snd].
    assert (stops colon_or_space (rev t ++ rev pre)) as S2.
    { destruct t as [|x t] using rev_ind. - destruct P as [->|[P _]]; [exact Logic.I|congruence]. - rewrite rev_app_distr. cbn [rev app stops]. apply forallb_app_iff in Nv as [_ Nv]. cbn [forallb] in Nv. rewrite andb_true_r in Nv. apply negb_true_iff in Nv. auto. }
    rewrite (span_exact colon_or_space (rev s)); [|rewrite forallb_rev; auto|auto]. cbn [snd].
    rewrite (span_exact nc (rev t)); [auto|rewrite forallb_rev; auto|].
    destruct P as [->|[_ (p & c & -> & Cc)]]; [exact Logic.I|]. rewrite rev_app_distr. cbn [rev app stops]. unfold nc. rewrite Cc. auto. }
  intros A B. apply K in A, B. rewrite <- (rev_involutive t), <- (rev_involutive t'). congruence.
Qed.

(** ** Lines *)
Lemma split_on_second d l t rest : split_on d l = hd [] (split_on d l) :: t :: rest -> exists r, l = hd [] (split_on d l) ++ [d] ++ t ++ r /\ ~ In d (hd [] (split_on d l)) /\ ~ In d t /\ (r = [] \/ exists r0, r = [d] ++ r0).
Proof.
  intros H. set (b := hd [] (split_on d l)) in *. assert (~ In d b) as NB. { apply nochar_In. eapply split_on_parts. rewrite H. left. auto. }
  assert (~ In d t) as NT. { apply nochar_In. eapply split_on_parts. rewrite H. right. left. auto. }
  pose proof (split_on_join d l) as J. rewrite H in J. destruct rest as [|x rest].
  - cbn [join] in J. exists []. rewrite app_nil_r. auto.
  - rewrite join_cons2 in J. change (join [d] (t :: x :: rest)) with (t ++ [d] ++ join [d] (x :: rest)) in J. exists ([d] ++ join [d] (x :: rest)). split; [congruence|]. eauto.
Qed.
Lemma timed_parts l before t r : strip l = before ++ lit ":" ++ t ++ r -> ~ In ":"%char before -> ~ In ":"%char t -> (r = [] \/ exists r0, r = lit ":" ++ r0) ->
  hd [] (split_on ":" (strip l)) = before /\ nth_error (split_on ":" (strip l)) 1 = Some t.
Proof.
  intros E N1 N2 R. apply nochar_In in N1, N2. rewrite E. change (lit ":" ++ t ++ r) with (":"%char :: t ++ r). rewrite split_on_app by auto. cbn [hd nth_error]. split; auto.
  destruct R as [->|[r0 ->]]. - rewrite app_nil_r, split_on_none by auto. auto. - change (lit ":" ++ r0) with (":"%char :: r0). rewrite split_on_app by auto. auto.
Qed.
Lemma mem_line_ok l : mem_line l = true -> ends_kbytes l.
Proof.
  unfold mem_line, drop_newline. intros H.
  assert (exists b, rev b = match rev l with c :: r => if aeqb c nl then r else rev l | [] => rev l end /\ (l = b \/ l = b ++ [nl]) /\ exists r, rev b = rev (lit "kBytes") ++ r /\ charb ":" r = true) as (b & _ & L & r & R1 & R2).
  { destruct (rev l) as [|c x] eqn:ER.
    - exfalso. assert (l = []) as -> by (rewrite <- (rev_involutive l), ER; auto). vm_compute in H. discriminate.
    - destruct (aeqb c nl) eqn:EC.
      + apply aeqb_eq in EC. subst c. rewrite rev_involutive in H. destruct (after (rev (lit "kBytes")) x) as [r|] eqn:EA; [|discriminate]. apply after_some in EA. exists (rev x). rewrite rev_involutive. split; auto. split; [right; rewrite <- (rev_involutive l), ER; auto|]. exists r. auto.
      + destruct (after (rev (lit "kBytes")) (rev l)) as [r|] eqn:EA; [|discriminate]. apply after_some in EA. exists l. split; auto. split; auto. exists r. auto. }
  assert (b = rev r ++ lit "kBytes") as EB by (rewrite <- (rev_involutive b), R1, rev_app_distr, rev_involutive; auto).
  assert (In ":"%char (rev r)) as I1. { rewrite <- in_rev. unfold charb in R2. apply existsb_exists in R2 as [x [X1 X2]]. apply aeqb_eq in X2. subst x. auto. }
  apply in_split in I1 as [a [b0 I1]]. exists a, b0. rewrite I1 in EB. subst b. destruct L as [->| ->]; [left|right]; rewrite <- ?app_assoc; cbn [app lit list_ascii_of_string]; auto.
Qed.
Lemma ends_kbytes_mem l : ends_kbytes l -> mem_line l = true.
Proof.
  unfold mem_line, drop_newline. intros [a [b [->| ->]]].
  - assert (rev (a ++ lit ":" ++ b ++ lit "kBytes") = rev (lit "kBytes") ++ rev b ++ lit ":" ++ rev a) as E by (rewrite !rev_app_distr, <- !app_assoc; auto).
    rewrite E. cbn [lit list_ascii_of_string rev app]. cbn [aeqb]. assert (aeqb "s" nl = false) as -> by reflexivity.
    change (a ++ ":"%char :: b ++ ["k"; "B"; "y"; "t"; "e"; "s"]%char) with (a ++ lit ":" ++ b ++ lit "kBytes"). rewrite E.
    assert (after ["s"; "e"; "t"; "y"; "B"; "k"]%char (rev (lit "kBytes") ++ rev b ++ lit ":" ++ rev a) = Some (rev b ++ lit ":" ++ rev a)) as -> by (apply after_some; auto).
    unfold charb. apply existsb_exists. exists ":"%char. split; [rewrite !in_app_iff; right; left; left; auto|apply aeqb_refl].
  - assert (rev (a ++ lit ":" ++ b ++ lit "kBytes" ++ [nl]) = nl :: rev (lit "kBytes") ++ rev b ++ lit ":" ++ rev a) as E by (rewrite !rev_app_distr, <- !app_assoc; auto).
    rewrite E. rewrite aeqb_refl, rev_involutive.
    assert (after (rev (lit "kBytes")) (rev (lit "kBytes") ++ rev b ++ lit ":" ++ rev a) = Some (rev b ++ lit ":" ++ rev a)) as -> by (apply after_some; auto).
    unfold charb. apply existsb_exists. exists ":"%char. split; [rewrite !in_app_iff; right; left; left; auto|apply aeqb_refl].
Qed.
Lemma timing_line_ok info l info' : timing_line info l = Ok info' ->
  (exists name v, (timed l name v \/ measured l name v) /\ info' = dset name v info) \/ ((forall name v, ~ (timed l name v \/ measured l name v)) /\ info' = info).
Proof.
  unfold timing_line. destruct (contains l "(sec)" || contains l "(kb)") eqn:E1; intros H.
  - apply orb_true_iff in E1. rewrite !contains_has in E1. left. apply bind_ok in H as [t [H1 H2]]. apply Ok_inj' in H2. apply py_nth_ok in H1.
    exists (entry_name (hd [] (split_on ":" (strip l)))), (parse_float (strip t)). split; [left|].
    + split; auto. destruct (split_on ":" (strip l)) as [|b0 [|t0 rest]] eqn:ES; try discriminate. cbn [nth_error] in H1. inversion H1. subst t0.
      pose proof (split_on_second ":" (strip l) t rest) as K. rewrite ES in K. cbn [hd] in *. destruct (K eq_refl) as (r & A & B & C & D). exists b0, t, r. auto 10.
    + subst info'. unfold entry_name. rewrite <- (split_ws_strip (hd [] (split_on ":" (strip l)))). auto.
  - apply orb_false_iff in E1 as [E1 E2]. assert (~ has l "(sec)") as N1 by (intros X; apply contains_has in X; congruence). assert (~ has l "(kb)") as N2 by (intros X; apply contains_has in X; congruence).
    destruct (mem_line l) eqn:EM.
    + left. apply bind_ok in H as [t [H1 H2]]. apply Ok_inj' in H2. exists (lit "mem_usage_" ++ hd [] (split_runs is_colon_sp (strip l))), (parse_float t). split; [right|auto].
      split; auto. split; auto. split; [apply mem_line_ok; auto|]. exists (hd [] (split_runs is_colon_sp (strip l))), t. split; [apply hd_pieces|]. split; auto.
      eapply pieces_last_but_one; [apply le_n|]. destruct (rev _) as [|x [|y rs]]; inversion H1. auto.
    + apply Ok_inj' in H. right. split; auto. intros name v [[[X|X] _]|[_ [_ [X _]]]]; auto. apply ends_kbytes_mem in X. congruence.
Qed.
Lemma entry_fun l name v name' v' : (timed l name v \/ measured l name v) -> (timed l name' v' \/ measured l name' v') -> name = name' /\ v = v'.
Proof.
  intros [[A1 (b & t & r & A2 & A3 & A4 & A5 & A6 & A7)]|(A1 & A2 & A3 & k & t & A4 & A5 & A6 & A7)] [[B1 (b' & t' & r' & B2 & B3 & B4 & B5 & B6 & B7)]|(B1 & B2 & B3 & k' & t' & B4 & B5 & B6 & B7)]; try tauto.
  - destruct (timed_parts _ _ _ _ A2 A3 A4 A5) as [X1 X2]. destruct (timed_parts _ _ _ _ B2 B3 B4 B5) as [Y1 Y2]. assert (b = b') by congruence. assert (t = t') by congruence. split; congruence.
  - rewrite (first_piece_fun _ _ _ A4 B4) in A6. rewrite (last_but_one_fun _ _ _ A5 B5) in A7. split; congruence.
Qed.
Lemma timings_said ls info0 info : foldM timing_line ls info0 = Ok info -> forall name, 
  (exists v, dget name info = Some v /\ last_said (timing name) ls (Some v)) \/ (dget name info = dget name info0 /\ last_said (timing name) ls None).
Proof.
  intros H name. revert info0 H. induction ls as [|l ls IH]; intros info0 H; cbn [foldM] in H.
  - apply Ok_inj' in H. subst. right. split; auto. apply last_said_nil. intros v [].
  - apply bind_ok in H as [i1 [H1 H2]]. destruct (IH _ H2) as [[v [A B]]|[A B]].
    + left. exists v. split; auto. apply last_said_cons. auto.
    + apply timing_line_ok in H1. destruct H1 as [[n [v [T E]]]|[T E]].
      * subst i1. destruct (list_eq_dec ascii_dec name n) as [->|N].
        -- left. exists v. rewrite dget_dset_same in A. split; auto. apply last_said_here; auto.
        -- right. rewrite dget_dset_other in A by auto. split; auto. apply last_said_skip; auto. intros v' T'. cbn [timing head_line] in T'. apply N. exact (proj1 (entry_fun _ _ _ _ _ T' T)).
      * subst i1. right. split; auto. apply last_said_skip; auto. intros v'. exact (T name v').
Qed.
Lemma timings_NoDup ls info0 info : foldM timing_line ls info0 = Ok info -> NoDup (dkeys info0) -> NoDup (dkeys info).
Proof.
  revert info0. induction ls as [|l ls IH]; intros info0 H ND; cbn [foldM] in H; [apply Ok_inj' in H; congruence|]. apply bind_ok in H as [i1 [H1 H2]]. apply (IH _ H2).
  apply timing_line_ok in H1. destruct H1 as [[n [v [_ E]]]|[_ E]]; subst i1; auto. apply dset_NoDup. auto.
Qed.
