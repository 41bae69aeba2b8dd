(** Property C91: what has been read can be written; a table of velocities or predictors is
    written whole or not at all. *)
From Coq Require Import Ascii String List NArith ZArith QArith Bool Lia Arith Permutation.
From Verif Require Import PyBase PyNum PyStrLemmas PyNumLemmas PyLines PyToken UtilsModel KpointsModel KpointsSpec
  PoscarModel ArithModel PoscarGroup PoscarSpec PoscarRead PoscarRoundTrip PoscarTheorems Props_Poscar.
Import ListNotations.
Local Open Scope list_scope.
Local Open Scope bool_scope.
Local Open Scope nat_scope.

(** ** Specification *)
(** numpy.dot of three numbers and a 3x3 matrix gives three numbers, and numpy.linalg.inv of
    a 3x3 matrix gives a 3x3 matrix *)
Definition three_by_three {T} (m : list (list T)) : Prop := length m = 3 /\ Forall (fun r => length r = 3) m.
Definition keeps_sizes (A : arith) : Prop :=
  (forall v m, length v = 3 -> three_by_three m -> length (ndot A v m) = 3) /\ (forall m i, three_by_three m -> ninv A m = Some i -> three_by_three i).
(** a site in direct coordinates with three components everywhere *)
Definition three_components (A : arith) (s : site A) : Prop :=
  si_direct A s = true /\ length (si_position A s) = 3 /\ length (si_selective A s) = 3 /\
  (forall v, si_velocities A s = Some v -> length v = 3) /\ (forall v, si_predictors A s = Some v -> length v = 3).
(** all of them or none *)
Definition all_or_none {T U} (f : T -> option U) (l : list T) : Prop := (forall x, In x l -> f x <> None) \/ (forall x, In x l -> f x = None).
Definition some_and_none {T U} (f : T -> option U) (l : list T) : Prop := exists x y, In x l /\ In y l /\ f x <> None /\ f y = None.

(** ** Writing *)
Section Write.
Variable A : arith.
Hypothesis KS : keeps_sizes A.
Variables (prec : nat) (conserve wd : bool) (es : pentries A) (cell : list (list (num A))) (ss : list (site A)).
Hypothesis V : validate A es = Ok tt.
Hypothesis HU : pholds es "unitcell" (PMat A cell).
Hypothesis HS : pholds es "sites" (PSites A (map (SSite A) ss)).
Hypothesis F : Forall (three_components A) ss.
Lemma line3_total v : length v = 3 -> exists t, line3 A prec v = Ok t.
Proof. destruct v as [|a [|b [|c [|]]]]; try discriminate. intros _. eexists. reflexivity. Qed.
Lemma cell_square : square3 A cell /\ three_by_three cell.
Proof.
  unfold validate in V. apply bind_ok in V as [u [_ H]]. apply bind_ok in H as [u2 [H _]]. unfold check_unitcell, arg_or, pkey in H. unfold pholds in HU. rewrite HU in H. cbn [of_option bind] in H.
  assert (square3 A cell) as S. { unfold square3. destruct (cell_ok A (PMat A cell)); auto. discriminate. }
  split; auto. destruct (square3_shape A _ S) as (a & b & c & d & e & f & g & h & k & ->). split; auto.
Qed.
Lemma shown_total v : length v = 3 -> exists w, shown A wd cell v = Ok w /\ length w = 3.
Proof.
  intros L. unfold shown, to_cart, dot. destruct wd; [eauto|]. destruct cell_square as [_ [L3 R]]. rewrite firstn_all2 by (rewrite L; apply le_n). rewrite L, L3. cbn [Nat.eqb]. eexists. split; [reflexivity|]. apply KS; auto. split; auto.
Qed.
Lemma flags_total l : length l = 3 -> exists t, flags_text l = Ok t.
Proof. destruct l as [|a [|b [|c [|]]]]; try discriminate. intros _. unfold flags_text. destruct a, b, c; eexists; reflexivity. Qed.
Lemma mapM_total {T U} (f : T -> res U) l : (forall x, In x l -> exists y, f x = Ok y) -> exists r, mapM f l = Ok r.
Proof.
  induction l as [|a l IH]; intros H; [eexists; reflexivity|]. destruct (H a) as [y Y]; [left; auto|]. destruct IH as [r R]; [intros x X; apply H; right; auto|]. cbn [mapM]. rewrite Y. cbn [bind]. rewrite R. eexists. reflexivity.
Qed.
Lemma views_of l : Forall (three_components A) l -> mapM (wsite_of A) (map (SSite A) l) = Ok (map (view A) l).
Proof. induction 1 as [|s l' [D _] G IH]; auto. cbn [map mapM wsite_of]. rewrite D. cbn [bind]. rewrite IH. reflexivity. Qed.
Lemma views : mapM (wsite_of A) (map (SSite A) ss) = Ok (map (view A) ss).
Proof. apply views_of, F. Qed.
Lemma comment_total gs : exists co c, pholds es "comment" co /\ comment_text A gs co = Ok c.
Proof.
  pose proof V as H. unfold validate in H. apply bind_ok in H as [u [H _]]. unfold check_comment, arg_or, pkey in H. destruct (dget (lit "comment") es) as [co|] eqn:E; [|discriminate H]. cbn [of_option bind] in H.
  exists co. destruct co; try discriminate H.
  - eexists. split; [exact E|]. reflexivity.
  - assert (exists c, comment_text A gs (PStr A s) = Ok c) as [c C] by (unfold comment_text; destruct (substrb _ _); eauto). exists c. auto.
Qed.
Lemma out_components out gs w : group_sites A conserve (map (view A) ss) = (out, gs) -> In w out -> exists s, In s ss /\ w = view A s /\ three_components A s.
Proof.
  intros G I. apply group_any in G as (_ & _ & P). apply (Permutation_in _ P) in I. apply in_map_iff in I as (s & <- & I). exists s. split; auto. split; auto. rewrite Forall_forall in F. auto.
Qed.
(** what is written before the velocities *)
Lemma write_eq out gs : group_sites A conserve (map (view A) ss) = (out, gs) -> exists c rows pos,
  write_lines A prec conserve wd es =
  (let* vel := if existsb (fun s => is_some (ws_velocities A s)) (map (view A) ss) then let* v := mapM (velocity_text A prec wd cell) out in Ok (label wd :: v) else Ok [] in
   let* pre := if existsb (fun s => is_some (ws_predictors A s)) (map (view A) ss) then let* v := mapM (predictor_text A prec) out in Ok ([] :: v) else Ok [] in
   Ok ([c; num_text A prec (n1 A)] ++ rows ++ [species_text gs; counts_text gs]
      ++ (if existsb (fun s => existsb negb (ws_selective A s)) (map (view A) ss) then [lit "Selective dynamics"] else []) ++ [label wd] ++ pos ++ vel ++ pre)).
Proof.
  intros G. destruct (comment_total gs) as (co & c & HC & C). unfold write_lines. rewrite V. cbn [bind]. unfold pkey. unfold pholds in *. rewrite HC, HU, HS. cbn [of_option bind unitcell_of]. rewrite views. cbn [bind]. rewrite G. rewrite C. cbn [bind].
  destruct (mapM_total (line3 A prec) cell) as [rows R].
  { intros r I. apply line3_total. destruct cell_square as [_ [_ X]]. rewrite Forall_forall in X. auto. }
  rewrite R. cbn [bind]. set (sel := existsb (fun s => existsb negb (ws_selective A s)) (map (view A) ss)).
  destruct (mapM_total (position_text A prec wd sel cell) out) as [pos P].
  { intros w I. destruct (out_components _ _ _ G I) as (s & _ & -> & D & L & LF & _). unfold position_text. cbn [ws_position view ws_selective]. destruct (shown_total _ L) as (v & -> & L'). cbn [bind]. destruct (line3_total _ L') as [t ->]. cbn [bind].
    destruct sel; [|eexists; reflexivity]. destruct (flags_total _ LF) as [f ->]. eexists. reflexivity. }
  rewrite P. cbn [bind]. exists c, rows, pos. reflexivity.
Qed.
Lemma existsb_some {U} (f : site A -> option U) (g : wsite A -> option U) : (forall s, g (view A s) = f s) ->
  existsb (fun s => is_some (g s)) (map (view A) ss) = true <-> exists s, In s ss /\ f s <> None.
Proof.
  intros E. rewrite existsb_exists. split.
  - intros (w & I & X). apply in_map_iff in I as (s & <- & I). exists s. split; auto. rewrite <- E. destruct (g (view A s)); [discriminate|discriminate X].
  - intros (s & I & X). exists (view A s). split; [apply in_map; auto|]. rewrite E. destruct (f s); auto; congruence.
Qed.
Lemma velocities_total out gs : group_sites A conserve (map (view A) ss) = (out, gs) -> (forall s, In s ss -> si_velocities A s <> None) -> exists v, mapM (velocity_text A prec wd cell) out = Ok v.
Proof.
  intros G H. apply mapM_total. intros w I. destruct (out_components _ _ _ G I) as (s & J & -> & _ & _ & _ & L & _). unfold velocity_text. cbn [view ws_velocities]. destruct (si_velocities A s) as [v|] eqn:E; [|destruct (H s J E)].
  destruct (shown_total v (L v eq_refl)) as (x & -> & L'). cbn [bind]. apply line3_total. auto.
Qed.
Lemma predictors_total out gs : group_sites A conserve (map (view A) ss) = (out, gs) -> (forall s, In s ss -> si_predictors A s <> None) -> exists v, mapM (predictor_text A prec) out = Ok v.
Proof.
  intros G H. apply mapM_total. intros w I. destruct (out_components _ _ _ G I) as (s & J & -> & _ & _ & _ & _ & L). unfold predictor_text. cbn [view ws_predictors]. destruct (si_predictors A s) as [v|] eqn:E; [|destruct (H s J E)]. apply line3_total. auto.
Qed.
Lemma none_exists {U} (f : site A -> option U) (g : wsite A -> option U) : (forall s, g (view A s) = f s) -> (forall s, In s ss -> f s = None) -> existsb (fun s => is_some (g s)) (map (view A) ss) = false.
Proof. intros E H. destruct (existsb _ _) eqn:X; auto. apply (existsb_some f g E) in X as (s & I & N). destruct (N (H s I)). Qed.
Lemma writes : all_or_none (si_velocities A) ss -> all_or_none (si_predictors A) ss -> exists txt, get_string A prec conserve wd es = Ok txt.
Proof.
  intros HV HP. destruct (group_sites A conserve (map (view A) ss)) as [out gs] eqn:G. destruct (write_eq out gs G) as (c & rows & pos & E). unfold get_string. rewrite E. clear E.
  assert (exists vel, (if existsb (fun s => is_some (ws_velocities A s)) (map (view A) ss) then let* v := mapM (velocity_text A prec wd cell) out in Ok (label wd :: v) else Ok []) = Ok vel) as [vel ->].
  { destruct HV as [HV|HV]; [|rewrite (none_exists (si_velocities A) (ws_velocities A)) by auto; eexists; reflexivity]. destruct (existsb _ _); [|eexists; reflexivity]. destruct (velocities_total _ _ G HV) as [v ->]. eexists. reflexivity. }
  cbn [bind].
  assert (exists pre, (if existsb (fun s => is_some (ws_predictors A s)) (map (view A) ss) then let* v := mapM (predictor_text A prec) out in Ok ([] :: v) else Ok []) = Ok pre) as [pre ->].
  { destruct HP as [HP|HP]; [|rewrite (none_exists (si_predictors A) (ws_predictors A)) by auto; eexists; reflexivity]. destruct (existsb _ _); [|eexists; reflexivity]. destruct (predictors_total _ _ G HP) as [v ->]. eexists. reflexivity. }
  eexists. reflexivity.
Qed.
Lemma mapM_type {T U} (f : T -> res U) l x : In x l -> f x = Exn TypeError -> (forall y, In y l -> (exists z, f y = Ok z) \/ f y = Exn TypeError) -> mapM f l = Exn TypeError.
Proof.
  induction l as [|a l IH]; intros I E K; [destruct I|]. cbn [mapM]. destruct (K a) as [[z Z0]|Z0]; [left; auto| |rewrite Z0; reflexivity]. rewrite Z0. cbn [bind]. destruct I as [->|I]; [congruence|]. rewrite IH; auto. intros y Y. apply K. right. auto.
Qed.
Lemma mixed_refused : some_and_none (si_velocities A) ss \/ some_and_none (si_predictors A) ss -> get_string A prec conserve wd es = Exn TypeError.
Proof.
  intros H. destruct (group_sites A conserve (map (view A) ss)) as [out gs] eqn:G. destruct (write_eq out gs G) as (c & rows & pos & E). unfold get_string. rewrite E. clear E.
  assert (forall s, In s ss -> In (view A s) out) as O. { intros s I. apply group_any in G as (_ & _ & P). apply (Permutation_in _ (Permutation_sym P)). apply in_map. auto. }
  assert (forall w, In w out -> (exists z, velocity_text A prec wd cell w = Ok z) \/ velocity_text A prec wd cell w = Exn TypeError) as KV.
  { intros w I. destruct (out_components _ _ _ G I) as (s & J & -> & _ & _ & _ & L & _). unfold velocity_text. cbn [view ws_velocities]. destruct (si_velocities A s) as [v|]; [left|right; auto]. destruct (shown_total v (L v eq_refl)) as (x & -> & L'). cbn [bind]. apply line3_total. auto. }
  assert (forall w, In w out -> (exists z, predictor_text A prec w = Ok z) \/ predictor_text A prec w = Exn TypeError) as KP.
  { intros w I. destruct (out_components _ _ _ G I) as (s & J & -> & _ & _ & _ & _ & L). unfold predictor_text. cbn [view ws_predictors]. destruct (si_predictors A s) as [v|]; [left|right; auto]. apply line3_total. auto. }
  destruct H as [(x & y & X & Y & NX & NY)|(x & y & X & Y & NX & NY)].
  - rewrite (proj2 (existsb_some (si_velocities A) (ws_velocities A) (fun s => eq_refl))) by eauto. rewrite (mapM_type _ _ (view A y)); auto. unfold velocity_text. cbn [view ws_velocities]. rewrite NY. reflexivity.
  - assert (forall T (r : res T), r = Exn TypeError \/ (exists z, r = Ok z) -> forall f : T -> res (list str), (forall z, f z = Exn TypeError) -> (let* ls := bind r f in Ok (concat (map (fun l => l ++ [nl]) ls))) = Exn TypeError) as SEQ.
    { intros T r [->|[z ->]] f K; cbn [bind]; auto. rewrite K. reflexivity. }
    apply SEQ.
    + destruct (existsb _ _); [|right; eexists; reflexivity]. destruct (existsb (fun s => negb (is_some (si_velocities A s))) ss) eqn:Q.
      * apply existsb_exists in Q as (s & I & Q). left. rewrite (mapM_type _ _ (view A s)); auto. unfold velocity_text. cbn [view ws_velocities]. destruct (si_velocities A s); [discriminate|reflexivity].
      * right. destruct (velocities_total _ _ G) as [v ->]; [|eexists; reflexivity]. intros s I N. assert (existsb (fun s => negb (is_some (si_velocities A s))) ss = true) as Z0 by (apply existsb_exists; exists s; rewrite N; auto). congruence.
    + intros z. rewrite (proj2 (existsb_some (si_predictors A) (ws_predictors A) (fun s => eq_refl))) by eauto. rewrite (mapM_type _ _ (view A y)); auto. unfold predictor_text. cbn [view ws_predictors]. rewrite NY. reflexivity.
Qed.
End Write.
Theorem C91_writes : forall A prec conserve wd es cell ss, keeps_sizes A -> validate A es = Ok tt ->
  pholds es "unitcell" (PMat A cell) -> pholds es "sites" (PSites A (map (SSite A) ss)) -> Forall (three_components A) ss ->
  all_or_none (si_velocities A) ss -> all_or_none (si_predictors A) ss -> exists txt, get_string A prec conserve wd es = Ok txt.
Proof. intros A prec conserve wd es cell ss K V U S F. exact (writes A K prec conserve wd es cell ss V U S F). Qed.
Print Assumptions C91_writes.
Theorem C91_mixed_refused : forall A prec conserve wd es cell ss, keeps_sizes A -> validate A es = Ok tt ->
  pholds es "unitcell" (PMat A cell) -> pholds es "sites" (PSites A (map (SSite A) ss)) -> Forall (three_components A) ss ->
  some_and_none (si_velocities A) ss \/ some_and_none (si_predictors A) ss -> get_string A prec conserve wd es = Exn TypeError.
Proof. intros A prec conserve wd es cell ss K V U S F. exact (mixed_refused A K prec conserve wd es cell ss V U S F). Qed.
Print Assumptions C91_mixed_refused.

(** ** Reading *)
Section Read.
Variable A : arith.
Hypothesis KS : keeps_sizes A.
Lemma num3_length l f v : num3 A l f = Ok v -> length v = 3.
Proof. intros H. apply num3_ok in H as (x & y & z & _ & ->). reflexivity. Qed.
Lemma to_direct_length v m w : three_by_three m -> to_direct A v m = Ok w -> length w = 3.
Proof.
  intros M H. unfold to_direct, inv in H. destruct (square A m); [|discriminate]. apply bind_ok in H as [i [H1 H]]. apply of_option_ok in H1. pose proof (proj2 KS _ _ M H1) as I. unfold dot in H. destruct (length v =? length i) eqn:E; [|discriminate].
  apply Nat.eqb_eq in E. injection H as <-. apply KS; auto. rewrite E. apply I.
Qed.
Lemma sites_length ls spec atoms direct selective scaling cell : three_by_three cell -> forall k i st raw, read_sites A ls spec atoms direct selective scaling cell i k st = Ok raw ->
  length raw = k /\ Forall (fun r => length (snd (fst r)) = 3 /\ length (snd r) = 3) raw.
Proof.
  intros M. induction k as [|k IH]; intros i st raw H; cbn [read_sites] in H; [injection H as <-; auto|].
  apply bind_ok in H as [[sp' st'] [H1 H]]. apply bind_ok in H as [line [H2 H]]. apply bind_ok in H as [p [H3 H]]. apply bind_ok in H as [p2 [H4 H]]. apply bind_ok in H as [f [H5 H]]. apply bind_ok in H as [r [H6 H]]. injection H as <-.
  destruct (IH _ _ _ H6) as [L F]. split; [cbn; auto|]. constructor; auto. cbn [fst snd]. split.
  - apply num3_length in H3. destruct direct; [injection H4 as <-; auto|]. eapply to_direct_length; eauto.
  - destruct selective; [|injection H5 as <-; auto]. unfold flags3 in H5. apply bind_ok in H5 as [a [_ H5]]. apply bind_ok in H5 as [b [_ H5]]. apply bind_ok in H5 as [c [_ H5]]. injection H5 as <-. reflexivity.
Qed.
Lemma block_length ls start n b : read_block A ls start n = Ok b -> length b = n /\ Forall (fun v => length v = 3) b.
Proof.
  unfold read_block. intros H. split; [apply mapM_length in H; rewrite H; apply seq_length|]. apply mapM_ok_Forall2 in H. induction H as [|i v l b H F IH]; constructor; auto. apply bind_ok in H as [x [_ H]]. eapply num3_length; eauto.
Qed.
Lemma vel_length ls start n d cell v : three_by_three cell -> read_velocities A ls start n d cell = Ok v -> length v = n /\ Forall (fun v => length v = 3) v.
Proof.
  unfold read_velocities. intros M H. split; [apply mapM_length in H; rewrite H; apply seq_length|]. apply mapM_ok_Forall2 in H. induction H as [|i x l b H F IH]; constructor; auto. apply bind_ok in H as [y [_ H]]. apply bind_ok in H as [w [W H]].
  destruct d; [injection H as <-; eapply num3_length; eauto|eapply to_direct_length; eauto].
Qed.
Definition table (n : nat) (o : option (list (list (num A)))) : Prop := forall b, o = Some b -> length b = n /\ Forall (fun v => length v = 3) b.
Lemma pre_length ls q n o : read_predictors A ls q n = Ok o -> table n o.
Proof.
  unfold read_predictors, table. intros H b ->. destruct (q <? _)%Z; [|discriminate H]. apply bind_ok in H as [l [_ H]]. destruct (blank_line l); [|discriminate H]. apply bind_ok in H as [l' [_ H]]. apply bind_ok in H as [t [_ H]]. destruct (is_number t); [|discriminate H].
  apply bind_ok in H as [b' [H1 H]]. injection H as <-. eapply block_length; eauto.
Qed.
Lemma table_site n o i : table n o -> i < n -> (o <> None -> opt_nth A o i <> None) /\ (o = None -> opt_nth A o i = None) /\ forall v, opt_nth A o i = Some v -> length v = 3.
Proof.
  intros T L. destruct o as [b|]; cbn [opt_nth].
  - destruct (T b eq_refl) as [LB F]. split; [intros _ N; apply nth_error_None in N; apply (Nat.lt_irrefl n); eapply Nat.le_lt_trans; [|exact L]; rewrite <- LB; exact N|]. split; [discriminate|]. intros v H. rewrite Forall_forall in F. apply F. eapply nth_error_In; eauto.
  - split; [congruence|]. split; auto. discriminate.
Qed.
Lemma read_components ch txt es : pread A ch txt = Ok es -> exists cell ss, validate A es = Ok tt /\ pholds es "unitcell" (PMat A cell) /\ pholds es "sites" (PSites A (map (SSite A) ss)) /\ Forall (three_components A) ss /\
  all_or_none (si_velocities A) ss /\ all_or_none (si_predictors A) ss.
Proof.
  intros R. pose proof (proj2 (proj1 (pread_ok A _ _ _) R)) as V.
  destruct (pread_reading A _ _ _ R) as (l0 & l1 & l2 & l3 & l4 & sc & r2 & r3 & r4 & spec' & atoms' & sel & dir & fst' & raw & hasv & vd & pred & vel & pre & ss & RD & B & HS & HU & CO).
  set (cell := map (map (nmul A sc)) [r2; r3; r4]) in *. destruct (cell_square A es cell V HU) as [_ M].
  destruct (sites_length _ _ _ _ _ _ _ M _ _ _ _ (rd_sites _ _ _ _ _ _ _ _ _ _ _ _ _ _ _ _ _ _ _ _ _ _ _ RD)) as [LR FR]. set (n := Z.to_nat (total atoms')) in *.
  assert (table n vel /\ table n pre) as [TV TP].
  { pose proof (rd_vel _ _ _ _ _ _ _ _ _ _ _ _ _ _ _ _ _ _ _ _ _ _ _ RD) as X. destruct hasv.
    - destruct X as (v & -> & E1 & E2). split; [intros b Hb; injection Hb as <-; eapply vel_length; eauto|eapply pre_length; eauto].
    - destruct X as [-> X]. split; [intros b Hb; discriminate|]. destruct pred; [destruct X as (b' & -> & E1); intros b Hb; injection Hb as <-; eapply block_length; eauto|subst; intros b Hb; discriminate]. }
  assert (forall i s, nth_error ss i = Some s -> i < n /\ exists r, In r raw /\ s = Site A (fst (fst r)) (snd (fst r)) (Some (snd r)) (opt_nth A vel i) (opt_nth A pre i) true) as ST.
  { intros i s H. destruct (built_site_nth A _ _ _ _ _ _ B H) as (r & N & E). split; [rewrite <- LR; apply nth_error_Some; congruence|]. exists r. split; auto. eapply nth_error_In; eauto. }
  exists cell, ss. split; auto. split; auto. split; auto. split; [|split].
  - apply Forall_forall. intros s I. apply In_nth_error in I as [i H]. destruct (ST _ _ H) as (L & r & IR & ->). rewrite Forall_forall in FR. destruct (FR _ IR) as [F1 F2]. unfold three_components, Site. cbn [si_direct si_position si_selective si_velocities si_predictors].
    split; auto. split; auto. split; auto. split; [apply (table_site n vel i TV L)|apply (table_site n pre i TP L)].
  - destruct vel as [v|] eqn:EV; [left|right]; intros s I; apply In_nth_error in I as [i H]; destruct (ST _ _ H) as (L & r & IR & ->); unfold Site; cbn [si_velocities]; [apply (proj1 (table_site n _ i TV L)); discriminate|reflexivity].
  - destruct pre as [v|] eqn:EV; [left|right]; intros s I; apply In_nth_error in I as [i H]; destruct (ST _ _ H) as (L & r & IR & ->); unfold Site; cbn [si_predictors]; [apply (proj1 (table_site n _ i TP L)); discriminate|reflexivity].
Qed.
End Read.
(** every file that is read can be written, in both forms and both orders *)
Theorem C91_read_then_write : forall A ch txt es prec conserve wd, keeps_sizes A -> pread A ch txt = Ok es -> exists out, get_string A prec conserve wd es = Ok out.
Proof.
  intros A ch txt es prec conserve wd K R. destruct (read_components A K ch txt es R) as (cell & ss & V & U & S & F & HV & HP). exact (C91_writes A prec conserve wd es cell ss K V U S F HV HP).
Qed.
Print Assumptions C91_read_then_write.
(** every site of a file that is read has three components; velocities and predictors are
    there for all of them or for none *)
Theorem C91_read_sites : forall A ch txt es, keeps_sizes A -> pread A ch txt = Ok es ->
  exists ss, pholds es "sites" (PSites A (map (SSite A) ss)) /\ Forall (three_components A) ss /\ all_or_none (si_velocities A) ss /\ all_or_none (si_predictors A) ss.
Proof. intros A ch txt es K R. destruct (read_components A K ch txt es R) as (cell & ss & _ & _ & S & F & HV & HP). eauto. Qed.
Print Assumptions C91_read_sites.
(** exact arithmetic is one of the number systems meant *)
Lemma exact_keeps_sizes : keeps_sizes exact.
Proof.
  split.
  - intros v m L [M F]. destruct v as [|x [|y [|z [|]]]]; try discriminate. destruct m as [|a [|b [|c [|]]]]; try discriminate. inversion F as [|? ? F1 F']. inversion F' as [|? ? F2 F'']. inversion F'' as [|? ? F3 _]. subst.
    destruct a as [|? [|? [|? [|]]]]; try discriminate. destruct b as [|? [|? [|? [|]]]]; try discriminate. destruct c as [|? [|? [|? [|]]]]; try discriminate. reflexivity.
  - intros m i [M F] H. destruct m as [|a [|b [|c [|]]]]; try discriminate. inversion F as [|? ? F1 F']. inversion F' as [|? ? F2 F'']. inversion F'' as [|? ? F3 _]. subst.
    destruct a as [|? [|? [|? [|]]]]; try discriminate. destruct b as [|? [|? [|? [|]]]]; try discriminate. destruct c as [|? [|? [|? [|]]]]; try discriminate. cbn in H.
    match type of H with (if ?b then _ else _) = _ => destruct b; [discriminate|] | _ => idtac end. injection H as <-. split; repeat constructor.
Qed.
(** a file with velocities, and one of its sites replaced by a site without *)
Definition still : pentries exact := match pread exact FromFile sample with Ok es => match PoscarModel.modify exact es (lit "sites") (PSite exact (Site exact (lit "Ga") [0; 0; 0]%Q None None None true)) (Some (IInt 1)) with Ok e => e | _ => [] end | _ => [] end.
Definition sites_of (es : pentries exact) : list (site exact) := match dget (lit "sites") es with Some (PSites _ l) => flat_map (fun v => match v with SSite _ s => [s] | _ => [] end) l | _ => [] end.
Example C91_case : reads (pread exact FromFile sample) = true /\ (exists t, (let* es := pread exact FromFile sample in get_string exact 5 false false es) = Ok t) /\
  PoscarModel.validate exact still = Ok tt /\ map (fun s => is_some (si_velocities exact s)) (sites_of still) = [true; false; true] /\ get_string exact 5 false true still = Exn TypeError.
Proof.
  split; [vm_compute; reflexivity|]. split; [eexists; vm_compute; reflexivity|]. split; [vm_compute; reflexivity|]. split; vm_compute; reflexivity.
Qed.
