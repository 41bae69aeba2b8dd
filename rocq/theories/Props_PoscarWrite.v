(** POSCAR properties about writing (C29-C31, C36): statements, with non-vacuity examples. *)
From Coq Require Import Ascii String List NArith ZArith QArith Qabs Bool Lia Arith Permutation Sorting.Sorted.
From Verif Require Import PyBase PyNum PyStrLemmas PyNumLemmas PyFmtLemmas PyLines PyToken UtilsModel KpointsModel KpointsSpec KpointsEdits KpointsCodes
  PoscarModel ArithModel PoscarGroup PoscarSpec PoscarRead PoscarRoundTrip PoscarTheorems PoscarErrors Props_Kpoints Props_Poscar.
Import ListNotations.
Local Open Scope list_scope.
Local Open Scope bool_scope.
Local Open Scope nat_scope.

(** both number systems *)
Definition number_system (A : arith) : Prop := (exists d i, A = binary64 d i) \/ A = exact.
Lemma system_fmt A prec : number_system A -> exists rr, fmt_ok A prec rr /\ unit_ok A.
Proof.
  intros [[d [i ->]]| ->]; [exists (reread prec); split; [apply binary64_fmt|apply binary64_unit]|exists (qround prec); split; [apply exact_fmt|apply exact_unit]].
Qed.

Lemma written_text A prec conserve wd es txt ss : number_system A ->
  get_string A prec conserve wd es = Ok txt -> pholds es "sites" (PSites A (map (SSite A) ss)) ->
  Forall (fun s => is_token (si_specie A s) = true) ss ->
  exists lines cell out gs selective first, txt = unlines lines /\ pholds es "unitcell" (PMat A cell) /\
    group_sites A conserve (map (view A) ss) = (out, gs) /\
    tokens_at lines 5 (map fst gs) /\ tokens_at lines 6 (map (fun g => str_of_Z (Z.of_nat (snd g))) gs) /\
    layout lines selective wd first /\
    (selective = true <-> Exists (fun s => In false (si_selective A s)) ss) /\
    forall i w, nth_error out i = Some w -> exists l, nth_error lines (first + i) = Some l /\ shows_site A prec wd selective cell w l.
Proof.
  intros HA G HL TS. destruct (system_fmt A prec HA) as (rr & FO & UO).
  unfold get_string in G. apply bind_ok in G as [ls [W G]]. apply Ok_inj in G as Etxt. clear G. change (concat _) with (unlines ls) in Etxt.
  destruct (write_lines_inv A prec conserve wd es ls W) as (co & cell & l2 & sites & out & gs & c & pos & vel & pre & HC & HU & SQ & HL2 & HW & HG & CT & HP & HV & HR & E).
  unfold pholds in *. rewrite HL in HL2. inversion HL2. subst l2. clear HL2.
  destruct (wsites_inv A _ _ HW) as (ss2 & Es & -> & DS).
  assert (ss2 = ss) as ->. { clear -Es. revert ss2 Es. induction ss as [|s ss IH]; intros [|s2 ss2] H; try discriminate; auto. inversion H. f_equal. apply IH; auto. }
  assert (Forall (fun w => is_token (ws_specie A w) = true) (map (view A) ss)) as TW.
  { clear -TS. induction TS; constructor; auto. cbn [view ws_specie]. unfold get_specie. rewrite capitalize_token. auto. }
  pose proof (groups_tokens A _ _ _ _ HG TW) as GT. pose proof (group_any A _ _ _ _ HG) as (EX & GP & PM).
  assert (map (fun g => capitalize (fst g)) gs = map fst gs) as CG.
  { apply map_ext_in. intros [k n] Hg. cbn [fst]. assert (In k (map (ws_specie A) out)) as K.
    { rewrite EX. unfold expand. apply in_flat_map. exists (k, n). split; auto. rewrite Forall_forall in GP. specialize (GP _ Hg). cbn [fst snd] in *. destruct n; [lia|left; reflexivity]. }
    apply in_map_iff in K as [w [<- Hw]]. apply (Permutation_in _ PM) in Hw. apply in_map_iff in Hw as [s [<- _]]. cbn [view ws_specie]. unfold get_specie. apply capitalize_idem. }
  destruct (square3_shape A cell SQ) as (a1 & a2 & a3 & b1 & b2 & b3 & c1 & c2 & c3 & Ecell).
  set (sel := has_sel A (map (view A) ss)) in *.
  exists ls, cell, out, gs, sel, (if sel then 9 else 8). split; [auto|]. split; [auto|]. split; [auto|]. split; [|split; [|split; [|split]]].
  - exists (species_text gs). rewrite E, Ecell. split; [reflexivity|]. rewrite species_split by auto. auto.
  - exists (counts_text gs). rewrite E, Ecell. split; [reflexivity|]. apply counts_split.
  - rewrite E, Ecell. destruct sel; cbn [map app].
    + exists "S"%char. split; [eexists; reflexivity|]. split; [reflexivity|]. split; [reflexivity|]. destruct wd; [exists "D"%char|exists "C"%char]; (split; [eexists; reflexivity|reflexivity]).
    + destruct wd; [exists "D"%char|exists "C"%char]; (split; [eexists; reflexivity|]); repeat split; try reflexivity; discriminate.
  - unfold sel, has_sel. rewrite existsb_exists, Exists_exists. split.
    + intros [w [Hw H]]. apply in_map_iff in Hw as [s [<- Hs]]. exists s. split; auto. cbn [view ws_selective] in H. apply existsb_exists in H as [[] [H1 H2]]; [discriminate|auto].
    + intros [s [Hs H]]. exists (view A s). split; [apply in_map; auto|]. cbn [view ws_selective]. apply existsb_exists. exists false. auto.
  - intros i w Hi. apply mapM_ok_Forall2 in HP.
    assert (exists l, nth_error pos i = Some l /\ position_text A prec wd sel cell w = Ok l) as (l & Hl & P).
    { clear -HP Hi. revert i Hi. induction HP as [|a b la lb Q F IH]; intros [|i] Hi; cbn in *; try discriminate; [inversion Hi; subst; eauto|apply IH; auto]. }
    exists l. split.
    + rewrite E, Ecell. assert (nth_error (pos ++ vel ++ pre) i = Some l) as K by (rewrite nth_error_app1; [auto|apply nth_error_Some; congruence]).
      destruct sel; cbn [map app Nat.add nth_error]; exact K.
    + unfold position_text in P. apply bind_ok in P as [v [P1 P]]. apply bind_ok in P as [t [P2 P]]. apply bind_ok in P as [f [P3 P]]. inversion P. subst l.
      apply line3_ok in P2 as (x & y & z & r & -> & ->). exists x, y, z, r. split.
      * unfold shown in P1. destruct wd; [inversion P1; auto|]. unfold to_cart, dot in P1. destruct (_ =? _) in P1; inversion P1; auto.
      * destruct sel.
        -- apply flags_text_ok in P3. subst f. rewrite split_ws_sp.
           rewrite (line3_split A prec rr FO x y z). unfold tok. f_equal.
           change (map (fun b : bool => if b then lit "T" else lit "F") (three_flags (ws_selective A w))) with (map flag_letter (flags_image (ws_selective A w))).
           apply split_ws_join; auto. unfold flags_image. cbn [map forallb].
           destruct (nth 0 (ws_selective A w) true), (nth 1 (ws_selective A w) true), (nth 2 (ws_selective A w) true); reflexivity.
        -- inversion P3. rewrite !app_nil_r. apply (line3_split A prec rr FO x y z).
Qed.

(** ** C29: grouping by species *)
Definition specie_is (A : arith) (k : str) (w : wsite A) : bool := seqb k (ws_specie A w).
(** The sixth and seventh lines of a written file list each species once with the
    number of its sites, by increasing count; the position lines show all the sites,
    gathered by species in the order of the header and, within a species, in the order
    they have in the object. *)
Theorem C29_grouped : forall A prec wd es txt ss, number_system A ->
  get_string A prec false wd es = Ok txt -> pholds es "sites" (PSites A (map (SSite A) ss)) ->
  Forall (fun s => is_token (si_specie A s) = true) ss ->
  exists lines cell out gs selective first, txt = unlines lines /\ pholds es "unitcell" (PMat A cell) /\
    tokens_at lines 5 (map fst gs) /\ tokens_at lines 6 (map (fun g => str_of_Z (Z.of_nat (snd g))) gs) /\
    NoDup (map fst gs) /\
    (forall k n, In (k, n) gs <-> n = length (filter (specie_is A k) (map (view A) ss)) /\ 0 < n) /\
    StronglySorted (fun a b => snd a <= snd b) gs /\
    Permutation out (map (view A) ss) /\
    map (ws_specie A) out = flat_map (fun g => repeat (fst g) (snd g)) gs /\
    (forall k, filter (specie_is A k) out = filter (specie_is A k) (map (view A) ss)) /\
    layout lines selective wd first /\ (selective = true <-> Exists (fun s => In false (si_selective A s)) ss) /\
    forall i w, nth_error out i = Some w -> exists l, nth_error lines (first + i) = Some l /\ shows_site A prec wd selective cell w l.
Proof.
  intros A prec wd es txt ss HA G HS TS.
  destruct (written_text A prec false wd es txt ss HA G HS TS) as (lines & cell & out & gs & sel & first & E & HU & GR & T5 & T6 & LY & SE & P).
  pose proof (group_default A _ _ _ GR) as (PM & ND & C & EX & F & SS).
  exists lines, cell, out, gs, sel, first. split; [auto|]. split; [auto|]. split; [auto|]. split; [auto|]. split; [auto|]. split; [|split; [auto|split; [auto|split; [auto|split; [exact F|auto]]]]].
  intros k n. split; [apply C|]. intros [En Pn].
  assert (In k (map (ws_specie A) out)) as K.
  { destruct (filter (specie_is A k) (map (view A) ss)) as [|w r] eqn:Ef; [cbn in En; lia|].
    assert (In w (filter (specie_is A k) (map (view A) ss))) as I by (rewrite Ef; left; auto). apply filter_In in I as [I1 I2]. apply seqb_eq in I2.
    rewrite I2. apply in_map. apply (Permutation_in _ (Permutation_sym PM)). auto. }
  rewrite EX in K. unfold expand in K. apply in_flat_map in K as [[k' n'] [Hg K]]. apply repeat_spec in K. cbn [fst] in K. subst k'.
  destruct (C _ _ Hg) as [Q _]. assert (n = n') as -> by (rewrite Q; exact En). exact Hg.
Qed.
Print Assumptions C29_grouped.
(** Species with the same number of sites keep the order in which they first occur. *)
Theorem C29_ties : forall A (ws out : list (wsite A)) gs n, group_sites A false ws = (out, gs) ->
  exists firsts, NoDup firsts /\ (forall k, In k firsts <-> In k (map (ws_specie A) ws)) /\
    map fst (filter (fun g => snd g =? n) gs) = filter (fun k => length (filter (seqb k) (map (ws_specie A) ws)) =? n) firsts /\
    forall i j a b, nth_error firsts i = Some a -> nth_error firsts j = Some b -> i < j ->
      exists p, nth_error (map (ws_specie A) ws) p = Some a /\ ~ In b (firstn p (map (ws_specie A) ws)).
Proof.
  intros A ws out gs n G. exists (uniq [] (map (ws_specie A) ws)). split; [apply uniq_NoDup|]. split; [intros k; rewrite uniq_In; cbn; tauto|].
  split; [exact (group_ties A ws out gs n G)|]. clear G.
  generalize (map (ws_specie A) ws). intros l i j a b Hi Hj Hij.
  assert (forall l seen i j a b, nth_error (uniq seen l) i = Some a -> nth_error (uniq seen l) j = Some b -> i < j ->
    exists p, nth_error l p = Some a /\ ~ In b (firstn p l)) as K.
  { clear. induction l as [|x l IH]; intros seen i j a b Hi Hj Hij; [destruct i; discriminate|]. cbn [uniq] in *. destruct (smem x seen) eqn:M.
    - destruct (IH _ _ _ _ _ Hi Hj Hij) as (p & H1 & H2). exists (S p). split; auto. cbn [firstn In]. intros [->|H]; [|auto].
      apply smem_In in M. assert (In b (uniq seen l)) as I by (eapply nth_error_In; eauto). apply uniq_In in I. tauto.
    - destruct i as [|i].
      + inversion Hi. subst. exists 0. split; auto.
      + destruct j as [|j]; [lia|]. cbn [nth_error] in *. destruct (IH _ _ _ _ _ Hi Hj ltac:(lia)) as (p & H1 & H2). exists (S p). split; auto. cbn [firstn In].
        intros [->|H]; [|auto]. assert (In b (uniq (b :: seen) l)) as I by (eapply nth_error_In; eauto). apply uniq_In in I. cbn in I. tauto. }
  eapply K; eauto.
Qed.
Print Assumptions C29_ties.

(** ** C30: conserve_order *)
Fixpoint neighbours_differ (l : list str) : Prop :=
  match l with x :: ((y :: _) as r) => x <> y /\ neighbours_differ r | _ => True end.
Theorem C30_conserved : forall A prec wd es txt ss, number_system A ->
  get_string A prec true wd es = Ok txt -> pholds es "sites" (PSites A (map (SSite A) ss)) ->
  Forall (fun s => is_token (si_specie A s) = true) ss ->
  exists lines cell gs selective first, txt = unlines lines /\ pholds es "unitcell" (PMat A cell) /\
    tokens_at lines 5 (map fst gs) /\ tokens_at lines 6 (map (fun g => str_of_Z (Z.of_nat (snd g))) gs) /\
    flat_map (fun g => repeat (fst g) (snd g)) gs = map (get_specie A) ss /\
    Forall (fun g => 0 < snd g) gs /\ neighbours_differ (map fst gs) /\
    layout lines selective wd first /\ (selective = true <-> Exists (fun s => In false (si_selective A s)) ss) /\
    forall i s, nth_error ss i = Some s -> exists l, nth_error lines (first + i) = Some l /\ shows_site A prec wd selective cell (view A s) l.
Proof.
  intros A prec wd es txt ss HA G HS TS.
  destruct (written_text A prec true wd es txt ss HA G HS TS) as (lines & cell & out & gs & sel & first & E & HU & GR & T5 & T6 & LY & SE & P).
  pose proof (group_conserve A _ _ _ GR) as (-> & EX & GP & DN).
  exists lines, cell, gs, sel, first. split; [auto|]. split; [auto|]. split; [auto|]. split; [auto|]. split.
  { unfold expand in EX. rewrite EX, map_map. reflexivity. }
  split; [auto|]. split; [exact DN|]. split; [auto|]. split; [auto|].
  intros i s Hi. apply P. rewrite nth_error_map, Hi. reflexivity.
Qed.
Print Assumptions C30_conserved.

(** ** C31: round trip *)
Lemma three_by_image {A : arith} (R : num A -> num A -> Prop) rr w : (forall x, R x (rr x)) -> 3 <= length w -> three_by R w (image A rr w).
Proof.
  intros H L. unfold three_by, image. rewrite map_length, firstn_length. split; [lia|]. induction (firstn 3 w); cbn; constructor; auto.
Qed.
Lemma site_back_kept A rr cell (R : num A -> num A -> Prop) w s : (forall x, R x (rr x)) ->
  (forall v, ws_predictors A w = Some v -> 3 <= length v) ->
  capitalize (ws_specie A w) = ws_specie A w ->
  site_back A rr true cell w s -> site_kept A (three_by R) (three_by R) w s.
Proof.
  intros HR LP CW (S1 & S2 & S3 & S4 & S5 & S6). unfold site_kept. split.
  { unfold get_specie. rewrite S1, <- CW. rewrite capitalize_lower_capitalize. reflexivity. }
  split; [auto|]. split; [exact S3|]. split; [|split].
  - destruct S4 as (u & E & L & ->). cbn in E. inversion E; subst. apply three_by_image; auto.
  - unfold both. destruct (ws_velocities A w) as [v|], (si_velocities A s) as [v'|]; try contradiction; auto. destruct S5 as (u & E & L & ->). cbn in E. inversion E; subst. apply three_by_image; auto.
  - unfold both. destruct (ws_predictors A w) as [v|], (si_predictors A s) as [v'|]; try contradiction; auto. cbn in S6. subst v'. apply three_by_image; auto.
Qed.
Lemma predictors_three A prec conserve wd es ls out gs ss : write_lines A prec conserve wd es = Ok ls ->
  pholds es "sites" (PSites A (map (SSite A) ss)) -> group_sites A conserve (map (view A) ss) = (out, gs) ->
  Forall (fun w => forall v, ws_predictors A w = Some v -> 3 <= length v) out.
Proof.
  intros W HL HG. destruct (write_lines_inv A prec conserve wd es ls W) as (co & cell & l2 & sites & out2 & gs2 & c & pos & vel & pre & HC & HU & SQ & HL2 & HW & HG2 & CT & HP & HV & HR & E).
  unfold pholds in *. rewrite HL in HL2. inversion HL2. subst l2. clear HL2.
  destruct (wsites_inv A _ _ HW) as (ss2 & Es & -> & DS).
  assert (ss2 = ss) as ->. { clear -Es. revert ss2 Es. induction ss as [|s ss IH]; intros [|s2 ss2] H; try discriminate; auto. inversion H. f_equal. apply IH; auto. }
  rewrite HG in HG2. inversion HG2. subst out2 gs2. pose proof (group_any A _ _ _ _ HG) as (_ & _ & PM).
  destruct (has_pre A (map (view A) ss)) eqn:HPre.
  - destruct HR as (v & M & _). apply mapM_ok_Forall2 in M. clear -M. induction M as [|w t out ts Q F IH]; constructor; auto.
    intros v Ev. unfold predictor_text in Q. rewrite Ev in Q. apply line3_ok in Q as (x & y & z & r & -> & _). cbn. lia.
  - apply Forall_forall. intros w Hw v Ev. apply (Permutation_in _ PM) in Hw. exfalso.
    assert (has_pre A (map (view A) ss) = true) as K by (apply existsb_exists; exists w; split; [auto|rewrite Ev; reflexivity]). congruence.
Qed.
Lemma out_capital A conserve ss out gs : group_sites A conserve (map (view A) ss) = (out, gs) -> Forall (fun w => capitalize (ws_specie A w) = ws_specie A w) out.
Proof.
  intros HG. pose proof (group_any A _ _ _ _ HG) as (_ & _ & PM). apply Forall_forall. intros w Hw. apply (Permutation_in _ PM) in Hw.
  apply in_map_iff in Hw as [s [<- _]]. cbn [view ws_specie]. unfold get_specie. apply capitalize_idem.
Qed.
Lemma Forall2_and_l {T U} (P : T -> Prop) (Q R : T -> U -> Prop) l m : (forall a b, P a -> Q a b -> R a b) -> Forall P l -> Forall2 Q l m -> Forall2 R l m.
Proof. intros H F G. induction G; [constructor|]. inversion F; subst. constructor; auto. Qed.
(** IEEE doubles, direct coordinates: the lattice, and for each written site its species,
    flags, position, velocity and predictor are read back, each number as [rewritten]
    says (exactly when it has at most [prec] decimals, within a unit of the last decimal
    otherwise), whatever numpy's dot and inv do. *)
Theorem C31_direct_round_trip : forall d i prec conserve es txt ch cell ss, let A := binary64 d i in
  get_string A prec conserve true es = Ok txt -> pholds es "unitcell" (PMat A cell) -> pholds es "sites" (PSites A (map (SSite A) ss)) ->
  species_readable A ss -> comment_plain A es ->
  exists es' cell' out ss', pread A ch txt = Ok es' /\
    pholds es' "unitcell" (PMat A cell') /\ Forall2 (Forall2 (rewritten prec)) cell cell' /\
    pholds es' "sites" (PSites A (map (SSite A) ss')) /\ order_written A conserve (map (view A) ss) out /\
    Forall2 (site_kept A (three_by (rewritten prec)) (three_by (rewritten prec))) out ss'.
Proof.
  intros d i prec conserve es txt ch cell ss A G HU HL SR CP.
  destruct (written_read A prec (reread prec) conserve true es txt ch cell ss (binary64_fmt d i prec) (binary64_unit d i) G HU HL SR CP (or_introl eq_refl))
    as (es' & out & ss' & gs & c & co & R & HC & CT & [r W] & GR & -> & F).
  eexists _, (map (map (reread prec)) cell), out, ss'. split; [exact R|]. split; [reflexivity|]. split.
  { clear. induction cell; constructor; auto. apply rereads. }
  split; [reflexivity|]. split; [eapply order_of_group; eauto|].
  pose proof (predictors_three A _ _ _ _ _ _ _ _ W HL GR) as PT. pose proof (out_capital A _ _ _ _ GR) as OC.
  eapply Forall2_and_l; [|exact (Forall_and PT OC)|exact F]. intros w s [H1 H2] SB. eapply site_back_kept; eauto. intros x. apply reread_rewritten.
Qed.
Print Assumptions C31_direct_round_trip.
(** Exact arithmetic, direct coordinates: everything is within half a unit of the last
    decimal. *)
Theorem C31_direct_exact : forall prec conserve es txt ch cell ss, let A := exact in
  get_string A prec conserve true es = Ok txt -> pholds es "unitcell" (PMat A cell) -> pholds es "sites" (PSites A (map (SSite A) ss)) ->
  species_readable A ss -> comment_plain A es ->
  exists es' cell' out ss', pread A ch txt = Ok es' /\
    pholds es' "unitcell" (PMat A cell') /\ Forall2 (Forall2 (half_unit prec)) cell cell' /\
    pholds es' "sites" (PSites A (map (SSite A) ss')) /\ order_written A conserve (map (view A) ss) out /\
    Forall2 (site_kept A (three_by (half_unit prec)) (three_by (half_unit prec))) out ss'.
Proof.
  intros prec conserve es txt ch cell ss A G HU HL SR CP.
  destruct (written_read A prec (qround prec) conserve true es txt ch cell ss (exact_fmt prec) exact_unit G HU HL SR CP (or_introl eq_refl))
    as (es' & out & ss' & gs & c & co & R & HC & CT & [r W] & GR & -> & F).
  eexists _, (map (map (qround prec)) cell), out, ss'. split; [exact R|]. split; [reflexivity|]. split.
  { clear. induction cell as [|row cell IH]; constructor; auto. clear. induction row; constructor; auto. apply qround_error. }
  split; [reflexivity|]. split; [eapply order_of_group; eauto|].
  pose proof (predictors_three A _ _ _ _ _ _ _ _ W HL GR) as PT. pose proof (out_capital A _ _ _ _ GR) as OC.
  eapply Forall2_and_l; [|exact (Forall_and PT OC)|exact F]. intros w s [H1 H2] SB. eapply site_back_kept; eauto. intros x. apply qround_error.
Qed.
Print Assumptions C31_direct_exact.
(** Exact arithmetic, cartesian coordinates: [v] is written as v L rounded to [prec]
    decimals, and the direct coordinates v' read back satisfy v' L' = that rounded value,
    L' being the lattice read back. *)
Definition cart_kept (prec : nat) (L L' : list (list Q)) (v v' : list Q) : Prop :=
  exists c c', qdot (firstn 3 v) L = c /\ three_by (half_unit prec) c c' /\ veq (qdot v' L') c'.
(** the lattice is still non-singular after being written with [prec] decimals *)
Definition singular (m : list (list Q)) : Prop :=
  match m with [[a; b; c]; [d; e; f]; [g; h; i]] => (a * (e * i - f * h) - b * (d * i - f * g) + c * (d * h - e * g) == 0)%Q | _ => True end.
Definition rewritten_cell (prec : nat) (m m' : list (list Q)) : Prop :=
  Forall2 (Forall2 (fun x y => nparse exact (nfmt exact 0 prec x) = Some y)) m m'.
Lemma nonsingular_inverse m : ~ singular m -> exists i, qinv m = Some i /\ length i = 3.
Proof.
  intros NS.
  assert (exists a b c d e f g h k, m = [[a; b; c]; [d; e; f]; [g; h; k]]) as (a & b & c & d & e & f & g & h & k & ->).
  { unfold singular in NS. repeat match type of NS with ~ (match ?m with _ => _ end) => destruct m; try (exfalso; apply NS; exact I; fail) end. repeat eexists. }
  destruct (qinv_some a b c d e f g h k NS) as [j Hj]. exists j. split; auto. destruct (qinv_shape _ _ Hj) as (? & ? & ? & ? & ? & ? & ? & ? & ? & ->). reflexivity.
Qed.
Theorem C31_cartesian_exact : forall prec conserve es txt ch cell ss, let A := exact in
  get_string A prec conserve false es = Ok txt -> pholds es "unitcell" (PMat A cell) -> pholds es "sites" (PSites A (map (SSite A) ss)) ->
  species_readable A ss -> comment_plain A es -> (forall cell', rewritten_cell prec cell cell' -> ~ singular cell') ->
  exists es' cell' out ss', pread A ch txt = Ok es' /\
    pholds es' "unitcell" (PMat A cell') /\ Forall2 (Forall2 (half_unit prec)) cell cell' /\
    pholds es' "sites" (PSites A (map (SSite A) ss')) /\ order_written A conserve (map (view A) ss) out /\
    Forall2 (site_kept A (cart_kept prec cell cell') (three_by (half_unit prec))) out ss'.
Proof.
  intros prec conserve es txt ch cell ss A G HU HL SR CP NS.
  assert (rewritten_cell prec cell (map (map (qround prec)) cell)) as RC.
  { clear. induction cell as [|row cell IH]; constructor; auto. clear. induction row; constructor; auto. apply (fo_parse _ _ _ (exact_fmt prec)). }
  assert (invertible A (qround prec) false cell) as IV.
  { right. exact (nonsingular_inverse _ (NS _ RC)). }
  destruct (written_read A prec (qround prec) conserve false es txt ch cell ss (exact_fmt prec) exact_unit G HU HL SR CP IV)
    as (es' & out & ss' & gs & c & co & R & HC & CT & [r W] & GR & -> & F).
  eexists _, (map (map (qround prec)) cell), out, ss'. split; [exact R|]. split; [reflexivity|]. split.
  { clear. induction cell as [|row cell IH]; constructor; auto. clear. induction row; constructor; auto. apply qround_error. }
  split; [reflexivity|]. split; [eapply order_of_group; eauto|].
  pose proof (predictors_three A _ _ _ _ _ _ _ _ W HL GR) as PT. pose proof (out_capital A _ _ _ _ GR) as OC.
  assert (forall v v', vec_back A (qround prec) false cell v v' -> cart_kept prec cell (map (map (qround prec)) cell) v v') as VB.
  { intros v v' (w & E & L & TD). cbn [shown] in E. unfold to_cart, dot in E. destruct (_ =? _) in E; [|discriminate]. apply Ok_inj in E. rename E into E2.
    exists w, (image A (qround prec) w). split; [exact E2|]. split; [apply (@three_by_image exact); [intros x; apply qround_error|auto]|].
    destruct w as [|x [|y [|z w]]]; cbn in L; try lia. unfold image in *. cbn [firstn map] in *. apply to_direct_exact. exact TD. }
  eapply Forall2_and_l; [|exact (Forall_and PT OC)|exact F]. intros w s [LP CW] (S1 & S2 & S3 & S4 & S5 & S6). unfold site_kept. split.
  { unfold get_specie. rewrite S1, <- CW. rewrite capitalize_lower_capitalize. reflexivity. }
  split; [auto|]. split; [exact S3|]. split; [auto|]. split.
  - unfold both. destruct (ws_velocities A w) as [v|], (si_velocities A s) as [v'|]; try contradiction; auto.
  - unfold both. destruct (ws_predictors A w) as [v|], (si_predictors A s) as [v'|]; try contradiction; auto. cbn in S6. subst v'. apply (@three_by_image exact); [intros x; apply qround_error|auto].
Qed.
Print Assumptions C31_cartesian_exact.

(** ** C36: the comment line *)
Section Comment.
Variable A : arith.
Variable prec : nat.
Variable rr : num A -> num A.
Hypothesis FO : fmt_ok A prec rr.
Lemma line3_text_nobreak v t : line3 A prec v = Ok t -> nobreak t = true.
Proof. intros H. apply line3_ok in H as (x & y & z & r & _ & ->). eapply line3_nobreak; eauto. Qed.
Lemma flags_text_nobreak f s : flags_text f = Ok s -> nobreak s = true.
Proof.
  intros H. apply flags_text_ok in H. subst s. unfold flags_image. cbn [map]. destruct (nth 0 f true), (nth 1 f true), (nth 2 f true); reflexivity.
Qed.
Lemma mapM_nobreak {T} (f : T -> res str) l r : (forall a t, f a = Ok t -> nobreak t = true) -> mapM f l = Ok r -> forallb nobreak r = true.
Proof.
  intros H M. apply mapM_ok_Forall2 in M. induction M; auto. cbn [forallb]. rewrite (H _ _ H0), IHM. reflexivity.
Qed.
Lemma written_nobreak conserve wd es ls c r : write_lines A prec conserve wd es = Ok ls -> ls = c :: r -> nobreak c = true ->
  (forall ss, pholds es "sites" (PSites A (map (SSite A) ss)) -> Forall (fun s => is_token (si_specie A s) = true) ss) ->
  forallb nobreak ls = true.
Proof.
  intros W El NC TS.
  destruct (write_lines_inv A prec conserve wd es ls W) as (co & cell & l2 & sites & out & gs & c2 & pos & vel & pre & HC & HU & SQ & HL & HW & HG & CT & HP & HV & HR & E).
  assert (c2 = c) as -> by (rewrite El in E; inversion E; auto).
  destruct (wsites_inv A _ _ HW) as (ss & -> & -> & DS). specialize (TS _ HL).
  assert (Forall (fun w => is_token (ws_specie A w) = true) (map (view A) ss)) as TW.
  { clear -TS. induction TS; constructor; auto. cbn [view ws_specie]. unfold get_specie. rewrite capitalize_token. auto. }
  pose proof (groups_tokens A _ _ _ _ HG TW) as GT.
  assert (forallb nobreak (map (row_text A prec) cell) = true) as N1 by (clear -FO; induction cell; cbn; auto; rewrite (row_nobreak A prec rr FO), IHcell; auto).
  assert (nobreak (label wd) = true) as NL by (destruct wd; reflexivity).
  assert (forallb nobreak pos = true) as N2.
  { eapply mapM_nobreak; [|exact HP]. intros w t P. unfold position_text in P. apply bind_ok in P as [v [P1 P]]. apply bind_ok in P as [u [P2 P]]. apply bind_ok in P as [f [P3 P]]. inversion P.
    rewrite nobreak_app, (line3_text_nobreak _ _ P2). destruct (has_sel A (map (view A) ss)); [apply flags_text_nobreak in P3; auto|inversion P3; auto]. }
  assert (forallb nobreak vel = true) as N3.
  { destruct (has_vel A (map (view A) ss)); [|subst; auto]. destruct HV as (v & M & ->). cbn [forallb]. rewrite NL. cbn [andb]. eapply mapM_nobreak; [|exact M].
    intros w t P. unfold velocity_text in P. destruct (ws_velocities A w); [|discriminate]. apply bind_ok in P as [u [P1 P]]. eapply line3_text_nobreak; eauto. }
  assert (forallb nobreak pre = true) as N4.
  { destruct (has_pre A (map (view A) ss)); [|subst; auto]. destruct HR as (v & M & ->). cbn [forallb]. eapply mapM_nobreak; [|exact M].
    intros w t P. unfold predictor_text in P. destruct (ws_predictors A w); [|discriminate]. eapply line3_text_nobreak; eauto. }
  assert (forallb nobreak (pos ++ vel ++ pre) = true) as N5 by (rewrite !forallb_app, N2, N3, N4; reflexivity).
  rewrite E. cbn [app forallb]. rewrite NC, (num_text_nobreak A prec rr FO). cbn [andb]. rewrite forallb_app, N1. cbn [andb app forallb].
  rewrite species_nobreak, counts_nobreak by auto. cbn [andb]. rewrite forallb_app. cbn [forallb]. rewrite NL.
  destruct (has_sel A (map (view A) ss)); cbn [forallb andb]; exact N5.
Qed.
End Comment.

Definition no_hash (s : str) : Prop := ~ In "#"%char s.
Definition drop_hash (s : str) : str := filter (fun x => negb (aeqb x "#")) s.
Lemma drop_hash_id s : no_hash s -> drop_hash s = s.
Proof.
  unfold no_hash, drop_hash. induction s as [|c s IH]; intros N; auto. cbn [filter]. destruct (aeqb c "#") eqn:E; [apply aeqb_eq in E; subst; exfalso; apply N; left; auto|].
  cbn [negb]. rewrite IH; auto. intros K. apply N. right. auto.
Qed.
Lemma drop_hash_no s : no_hash (drop_hash s).
Proof. unfold no_hash, drop_hash. intros H. apply filter_In in H as [_ H]. rewrite aeqb_refl in H. discriminate. Qed.
Lemma hash_capitalize s : In "#"%char (capitalize s) -> In "#"%char s.
Proof.
  assert (forall x, lower1 x = "#"%char -> x = "#"%char) as L.
  { intros x. assert (implb (aeqb (lower1 x) "#") (aeqb x "#") = true) as K by (revert x; apply forall_ascii; vm_compute; reflexivity).
    intros E. rewrite E, aeqb_refl in K. apply aeqb_eq. exact K. }
  assert (forall x, upper1 x = "#"%char -> x = "#"%char) as U.
  { intros x. assert (implb (aeqb (upper1 x) "#") (aeqb x "#") = true) as K by (revert x; apply forall_ascii; vm_compute; reflexivity).
    intros E. rewrite E, aeqb_refl in K. apply aeqb_eq. exact K. }
  intros H. destruct s as [|c s]; [destruct H|]. cbn [capitalize] in H. destruct H as [H|H]; [left; auto|right]. unfold lower in H. apply in_map_iff in H as [x [Hx H]]. rewrite <- (L x Hx). auto.
Qed.
Lemma compound_no_hash gs : Forall (fun g => no_hash (fst g)) gs -> no_hash (compound gs).
Proof.
  intros F. unfold compound, no_hash. rewrite !in_app_iff. intros [H|[H|H]].
  - vm_compute in H. repeat (destruct H as [H|H]; [discriminate|]). destruct H.
  - apply in_flat_map in H as [g [Hg H]]. apply in_app_iff in H as [H|H].
    + rewrite Forall_forall in F. apply (F _ Hg). apply hash_capitalize. auto.
    + destruct (snd g =? 1); [destruct H|]. pose proof (str_of_Z_numeric (Z.of_nat (snd g))) as N. rewrite forallb_forall in N. specialize (N _ H). discriminate.
  - destruct H as [H|[]]. discriminate.
Qed.
Lemma lstrip_incl s : incl (lstrip s) s.
Proof. induction s as [|c s IH]; cbn [lstrip]; [intros x []|]. destruct (is_space c); [intros x H; right; auto|intros x H; auto]. Qed.
Lemma strip_incl s : incl (strip s) s.
Proof.
  intros x H. unfold strip, rstrip in H. apply in_rev in H. apply lstrip_incl in H. apply in_rev in H. apply lstrip_incl in H. auto.
Qed.
Lemma compound_ends gs : compound gs <> [] /\ head_ns (compound gs) = true /\ last_ns (compound gs) = true.
Proof.
  split; [discriminate|]. split; [reflexivity|]. unfold compound, last_ns. rewrite !rev_app_distr. reflexivity.
Qed.
Lemma strip_filter_idem s : no_hash s -> strip s = s -> strip (drop_hash ((lit "# " ++ s) ++ [nl])) = s.
Proof.
  intros N E. change ((lit "# " ++ s) ++ [nl]) with ("#"%char :: (sp :: s) ++ [nl]). unfold drop_hash. cbn [filter]. change (negb (aeqb "#" "#")) with false. cbv iota.
  rewrite filter_app. change (filter (fun x => negb (aeqb x "#")) [nl]) with [nl]. fold (drop_hash (sp :: s)). rewrite drop_hash_id.
  - rewrite strip_app_blank by reflexivity. change (strip (sp :: s)) with (strip s). exact E.
  - intros [H|H]; [discriminate|contradiction].
Qed.
(** Write an object, read the text, and write what was read: the first line is then the
    comment that was read behind '# ', with nothing added, and reading once more gives
    that same comment (the same conserve_order must be used, and species names contain
    no '#'). *)
Theorem C36_comment_stable : forall A prec prec' conserve wd wd' es txt txt' ch es' ss, number_system A ->
  get_string A prec conserve wd es = Ok txt -> pholds es "sites" (PSites A (map (SSite A) ss)) ->
  species_readable A ss -> comment_plain A es -> Forall (fun s => no_hash (si_specie A s)) ss ->
  pread A ch txt = Ok es' -> get_string A prec' conserve wd' es' = Ok txt' ->
  exists c rest, pholds es' "comment" (PStr A c) /\ txt' = (lit "# " ++ c) ++ nl :: rest /\
    forall ch' es'', pread A ch' txt' = Ok es'' -> pholds es'' "comment" (PStr A c).
Proof.
  intros A prec prec' conserve wd wd' es txt txt' ch es' ss HA G HS [TS NN] CP NH R G'.
  destruct (system_fmt A prec HA) as (rr & FO & UO). destruct (system_fmt A prec' HA) as (rr' & FO' & _).
  unfold get_string in G. apply bind_ok in G as [ls [W G]]. apply Ok_inj in G as Etxt. clear G. change (concat _) with (unlines ls) in Etxt.
  destruct (write_lines_inv A prec conserve wd es ls W) as (co & cell2 & l2 & sites & out & gs & c & pos & vel & pre & HC & _ & SQ & HL2 & HW & GR & CT & HP & HV & HR & Els).
  assert (HS' := HS). unfold pholds in HS, HL2. rewrite HS in HL2. inversion HL2. subst l2. clear HL2.
  destruct (wsites_inv A _ _ HW) as (ss2 & Es & -> & DS).
  assert (ss2 = ss) as ->. { clear -Es. revert ss2 Es. induction ss as [|s ss0 IH]; intros [|s2 ss2] H; try discriminate; auto. inversion H. f_equal. apply IH; auto. }
  clear Es DS.
  assert (Forall (fun w => is_token (ws_specie A w) = true) (map (view A) ss)) as TW.
  { clear -TS. induction TS; constructor; auto. cbn [view ws_specie]. unfold get_specie. rewrite capitalize_token. auto. }
  pose proof (groups_tokens A _ _ _ _ GR TW) as GT. pose proof (group_any A _ _ _ _ GR) as (EX & GP & PM). pose proof (out_capital A _ _ _ _ GR) as OC.
  assert (forall g, In g gs -> exists s, In s ss /\ fst g = get_specie A s) as GS.
  { intros [k n] Hg. assert (In k (map (ws_specie A) out)) as K.
    { rewrite EX. unfold expand. apply in_flat_map. exists (k, n). split; auto. rewrite Forall_forall in GP. specialize (GP _ Hg). cbn [fst snd] in *. destruct n; [lia|left; reflexivity]. }
    apply in_map_iff in K as [w [<- Hw]]. apply (Permutation_in _ PM) in Hw. apply in_map_iff in Hw as [s [<- Hs]]. exists s. auto. }
  assert (map (fun g => capitalize (fst g)) gs = map fst gs) as CG.
  { apply map_ext_in. intros g Hg. destruct (GS g Hg) as (s & _ & ->). unfold get_specie. apply capitalize_idem. }
  assert (nobreak c = true) as NC. { eapply comment_line_nobreak; [exact CT|exact GT|]. destruct co; auto. }
  destruct ls as [|c0 ls0]; [discriminate|]. assert (c0 = c) as -> by (inversion Els; auto).
  assert (forallb nobreak (c :: ls0) = true) as NB.
  { eapply (written_nobreak A prec rr FO); eauto. intros ss2 H2. unfold pholds in H2. rewrite HS in H2. inversion H2 as [E2].
    assert (ss2 = ss) as ->; auto. clear -E2. revert ss2 E2. induction ss as [|s ss0 IH]; intros [|s2 ss2] H; try discriminate; auto. inversion H. f_equal. apply IH; auto. }
  assert (plines ch txt = map nls (c :: ls0)) as PL by (rewrite <- Etxt; apply (plines_unlines ch (c :: ls0)); auto).
  destruct (square3_shape A cell2 SQ) as (a1 & a2 & a3 & b1 & b2 & b3 & d1 & d2 & d3 & Ecell).
  assert (tokens_at (plines ch txt) 5 (map fst gs)) as T5.
  { exists (nls (species_text gs)). rewrite PL, Els, Ecell. split; [reflexivity|]. unfold nls. rewrite split_ws_nl, species_split by auto. exact CG. }
  assert (counts_at (plines ch txt) 6 (map (fun g => Z.of_nat (snd g)) gs ++ repeat 0%Z 0)) as T6.
  { exists (nls (counts_text gs)). rewrite PL, Els, Ecell. split; [reflexivity|]. unfold nls. rewrite split_ws_nl, counts_split. cbn [repeat]. rewrite app_nil_r.
    clear. induction gs; constructor; auto. apply parse_int_str. }
  destruct (C27_species_partial A ch txt es' (map fst gs) _ 0 R T5 T6) as (ss' & HS1 & _ & SP).
  { clear -GP. induction GP; constructor; auto. lia. }
  change (flat_map _ _) with (announced (map fst gs) (map (fun g => Z.of_nat (snd g)) gs)) in SP. rewrite announced_expand, <- EX in SP.
  assert (map (ws_specie A) (map (view A) ss') = map (ws_specie A) out) as SV.
  { rewrite map_map. cbn [view ws_specie]. unfold get_specie. rewrite <- (map_map (si_specie A) capitalize), SP, !map_map.
    apply map_ext_in. intros w Hw. rewrite Forall_forall in OC. rewrite <- (OC w Hw). apply capitalize_lower_capitalize. }
  destruct (pread_reading A _ _ _ R) as (l0 & l1 & l2 & l3 & l4 & sc & r2 & r3 & r4 & spec' & atoms' & sel & dir & first & raw & hasv & vd & pred & vel2 & pre2 & ss2 & RD & _ & _ & _).
  pose proof (rd_0 _ _ _ _ _ _ _ _ _ _ _ _ _ _ _ _ _ _ _ _ _ _ _ RD) as H0. rewrite PL in H0. cbn [map nth_error] in H0. inversion H0. subst l0. clear H0.
  pose proof (rd_es _ _ _ _ _ _ _ _ _ _ _ _ _ _ _ _ _ _ _ _ _ _ _ RD) as Ees. clear RD.
  fold (drop_hash (nls c)) in Ees. set (c1 := strip (drop_hash (nls c))) in *.
  assert (pholds es' "comment" (PStr A c1)) as HC1 by (rewrite Ees; reflexivity).
  (* the compound is in c1 *)
  assert (exists a b, c = a ++ compound gs ++ b) as (ca & cb & EC).
  { destruct co; cbn [comment_text] in CT; try discriminate.
    - apply Ok_inj in CT. exists (lit "# "), []. rewrite app_nil_r. auto.
    - destruct (substrb (compound gs) s) eqn:SB; apply Ok_inj in CT.
      + apply substrb_spec in SB as (u & v & ->). exists (lit "# " ++ u), v. rewrite <- CT, <- app_assoc. reflexivity.
      + exists (lit "# "), (lit " Old comment: " ++ s). auto. }
  assert (no_hash (compound gs)) as NHC.
  { apply compound_no_hash. apply Forall_forall. intros g Hg. destruct (GS g Hg) as (s & Hs & ->). rewrite Forall_forall in NH. specialize (NH s Hs). unfold no_hash, get_specie in *.
    intros K. apply NH. apply hash_capitalize. exact K. }
  assert (substrb (compound gs) c1 = true) as SB.
  { apply substrb_spec. unfold c1, nls. rewrite EC. unfold drop_hash. rewrite <- !app_assoc, !filter_app. fold (drop_hash (compound gs)). rewrite (drop_hash_id _ NHC).
    destruct (compound_ends gs) as (K1 & K2 & K3).
    destruct (strip_keeps (filter (fun x => negb (aeqb x "#")) ca) (compound gs) (filter (fun x => negb (aeqb x "#")) cb ++ filter (fun x => negb (aeqb x "#")) [nl]) K1 K2 K3) as (u & v & E2). exists u, v. exact E2. }
  (* the second writing *)
  unfold get_string in G'. apply bind_ok in G' as [ls' [W' G']]. apply Ok_inj in G' as Etxt'. clear G'. change (concat _) with (unlines ls') in Etxt'.
  destruct (write_lines_inv A prec' conserve wd' es' ls' W') as (co' & cell' & l2' & sites' & out' & gs' & c' & pos' & vel' & pre' & HC' & _ & _ & HL2' & HW' & GR' & CT' & _ & _ & _ & Els').
  unfold pholds in HC1, HC', HS1, HL2'. rewrite HC1 in HC'. inversion HC'. subst co'. rewrite HS1 in HL2'. inversion HL2'. subst l2'. clear HC' HL2'.
  destruct (wsites_inv A _ _ HW') as (ss3 & Es & -> & _).
  assert (ss3 = ss') as ->. { clear -Es. revert ss3 Es. induction ss' as [|s ss0 IH]; intros [|s2 ss2] H; try discriminate; auto. inversion H. f_equal. apply IH; auto. }
  assert (gs' = gs) as -> by (symmetry; eapply (group_species_only A conserve); [symmetry; exact SV|exact (regroup A _ _ _ _ GR)|exact GR']).
  cbn [comment_text] in CT'. rewrite SB in CT'. apply Ok_inj in CT'.
  destruct ls' as [|c0 ls1]; [discriminate|]. assert (c0 = c') as -> by (inversion Els'; auto).
  exists c1, (unlines ls1). split; [exact HC1|]. split; [rewrite <- Etxt', unlines_cons, CT'; reflexivity|].
  intros ch' es'' R'.
  assert (no_hash c1 /\ nobreak c1 = true) as [NH1 NB1].
  { assert (incl c1 (drop_hash c)) as I.
    { unfold c1, nls, drop_hash. rewrite filter_app. change (filter (fun x => negb (aeqb x "#")) [nl]) with [nl]. rewrite strip_app_blank by reflexivity. apply strip_incl. }
    split; [intros K; apply I in K; apply (drop_hash_no c K)|]. unfold nobreak in *. apply forallb_forall. intros x Hx. apply I in Hx. unfold drop_hash in Hx. apply filter_In in Hx as [Hx _].
    rewrite forallb_forall in NC. auto. }
  assert (forallb nobreak (c' :: ls1) = true) as NB'.
  { eapply (written_nobreak A prec' rr' FO'); [exact W'|reflexivity| |].
    - rewrite <- CT', nobreak_app, NB1. reflexivity.
    - intros ss3 H3. unfold pholds in H3. rewrite HS1 in H3. inversion H3 as [E3].
      assert (ss3 = ss') as ->. { clear -E3. revert ss3 E3. induction ss' as [|s ss0 IH]; intros [|s2 ss2] H; try discriminate; auto. inversion H. f_equal. apply IH; auto. }
      clear -SP TW PM. apply Forall_forall. intros s Hs. assert (In (si_specie A s) (map (si_specie A) ss')) as K by (apply in_map; auto).
      rewrite SP in K. rewrite map_map in K. apply in_map_iff in K as [w [<- Hw]]. apply (Permutation_in _ PM) in Hw. rewrite Forall_forall in TW. specialize (TW w Hw).
      rewrite is_token_lower. exact TW. }
  assert (plines ch' txt' = map nls (c' :: ls1)) as PL' by (rewrite <- Etxt'; apply (plines_unlines ch' (c' :: ls1)); auto).
  destruct (pread_reading A _ _ _ R') as (m0 & m1 & m2 & m3 & m4 & sc' & q2 & q3 & q4 & spec2 & atoms2 & sel2 & dir2 & first2 & raw2 & hasv2 & vd2 & pred2 & vel3 & pre3 & ss4 & RD' & _ & _ & _).
  pose proof (rd_0 _ _ _ _ _ _ _ _ _ _ _ _ _ _ _ _ _ _ _ _ _ _ _ RD') as H0. rewrite PL' in H0. cbn [map nth_error] in H0. inversion H0. subst m0. clear H0.
  pose proof (rd_es _ _ _ _ _ _ _ _ _ _ _ _ _ _ _ _ _ _ _ _ _ _ _ RD') as Ees'. clear RD'.
  rewrite Ees'. unfold pholds. cbn [dget]. change (seqb (lit "comment") (lit "comment")) with true. cbv iota. do 2 f_equal.
  fold (drop_hash (nls c')). unfold nls. rewrite <- CT'. apply strip_filter_idem; auto. apply strip_idem.
Qed.
Print Assumptions C36_comment_stable.

(** ** The hypotheses are met *)
Definition cell_two : list (list Q) := [[2; 0; 0]; [0; 4; 0]; [1; 0; 8]]%Q.
Definition water_sites : list (site exact) :=
  [Site exact (lit "h") [0; 0; 0]%Q None None None true;
   Site exact (lit "o") [1 # 2; 1 # 3; 1 # 4]%Q (Some [true; false; true]) None None true;
   Site exact (lit "h") [1 # 8; - (1 # 2); 0]%Q None None None true].
Definition water : pentries exact := [(lit "comment", PStr exact (lit "ice")); (lit "unitcell", PMat exact cell_two);
  (lit "sites", PSites exact (map (SSite exact) water_sites))].
Definition written (prec : nat) (conserve wd : bool) (es : pentries exact) (ls : list string) : bool :=
  match get_string exact prec conserve wd es with Ok t => seqb t (unlines (map lit ls)) | Exn _ => false end.
Lemma written_ok prec conserve wd es ls : written prec conserve wd es ls = true -> get_string exact prec conserve wd es = Ok (unlines (map lit ls)).
Proof. unfold written. destruct (get_string exact prec conserve wd es); [|discriminate]. intros H. apply seqb_eq in H. subst. reflexivity. Qed.
Definition grouped_text : list string :=
  ["# Compound: OH2. Old comment: ice"; "  1.0000"; "  2.0000   0.0000   0.0000"; "  0.0000   4.0000   0.0000"; "  1.0000   0.0000   8.0000";
   "O     H"; "    1     2"; "Selective dynamics"; "Direct";
   "  0.5000   0.3333   0.2500 T F T"; "  0.0000   0.0000   0.0000 T T T"; "  0.1250  -0.5000   0.0000 T T T"]%string.
Definition conserved_text : list string :=
  ["# Compound: HOH. Old comment: ice"; "  1.0000"; "  2.0000   0.0000   0.0000"; "  0.0000   4.0000   0.0000"; "  1.0000   0.0000   8.0000";
   "H     O     H"; "    1     1     1"; "Selective dynamics"; "Cartesian";
   "  0.0000   0.0000   0.0000 T T T"; "  1.2500   1.3333   2.0000 T F T"; "  0.2500  -2.0000   0.0000 T T T"]%string.

Lemma water_readable : species_readable exact water_sites.
Proof. split; [repeat constructor|]. right. apply Exists_cons_hd. vm_compute. reflexivity. Qed.
Lemma water_comment : comment_plain exact water.
Proof. intros t H. unfold pholds in H. apply (f_equal (fun o => match o with Some (PStr _ x) => x | _ => t end)) in H. rewrite <- H. vm_compute. reflexivity. Qed.
Example C29_case : written 4 false true water grouped_text = true /\ pholds water "sites" (PSites exact (map (SSite exact) water_sites)) /\
  Forall (fun s => is_token (si_specie exact s) = true) water_sites.
Proof. split; [vm_compute; reflexivity|]. split; [reflexivity|]. repeat constructor. Qed.
Example C29_ties_case : map fst (snd (group_sites exact false (map (view exact) water_sites))) = map lit ["O"; "H"]%string.
Proof. vm_compute. reflexivity. Qed.
Example C30_case : written 4 true false water conserved_text = true.
Proof. vm_compute. reflexivity. Qed.
Example C31_direct_case : written 4 false true water grouped_text = true /\ species_readable exact water_sites /\ comment_plain exact water.
Proof. split; [vm_compute; reflexivity|]. split; [apply water_readable|apply water_comment]. Qed.
Example C31_cartesian_case : written 4 true false water conserved_text = true /\ (forall cell', rewritten_cell 4 cell_two cell' -> ~ singular cell').
Proof.
  split; [vm_compute; reflexivity|]. intros m H. unfold rewritten_cell, cell_two in H.
  repeat match goal with X : Forall2 _ (_ :: _) _ |- _ => inversion X; clear X; subst | X : Forall2 _ [] _ |- _ => inversion X; clear X; subst end.
  repeat match goal with X : nparse exact ?t = Some ?y |- _ => 
    let r := eval vm_compute in (nparse exact t) in match r with Some ?v => assert (y = v) by (apply (f_equal (fun o => match o with Some q => q | None => y end)) in X; rewrite <- X; vm_compute; reflexivity); clear X end end.
  subst. vm_compute. discriminate.
Qed.
Definition twice (es : pentries exact) : bool :=
  match get_string exact 4 false true es with
  | Ok t => match pread exact FromFile t with
            | Ok es' => match get_string exact 6 false false es' with Ok t' => seqb (firstn 33 t') (lit "# Compound: OH2. Old comment: ice") | Exn _ => false end
            | Exn _ => false end
  | Exn _ => false end.
Example C36_case : twice water = true /\ species_readable exact water_sites /\ comment_plain exact water /\ Forall (fun s => no_hash (si_specie exact s)) water_sites.
Proof.
  split; [vm_compute; reflexivity|]. split; [apply water_readable|]. split; [apply water_comment|].
  repeat constructor; intros H; vm_compute in H; repeat (destruct H as [H|H]; [discriminate|]); destruct H.
Qed.
(** the same with binary64 numbers, whatever the matrix routines do *)
Definition fhalf : float := FFin false 1 (-1).
Definition fzero : float := FFin false 0 0.
Definition hydrogen_sites (A : arith) (E : num A = float) : list (site A) :=
  let c (x : float) : num A := eq_rect_r (fun T => T) x E in
  [Site A (lit "h") [c fhalf; c fzero; c fhalf] None None None true].
Definition hydrogen d i : pentries (binary64 d i) :=
  [(lit "comment", PStr (binary64 d i) (lit "h")); (lit "unitcell", PMat (binary64 d i) [[fone; fzero; fhalf]; [fzero; fone; fzero]; [fzero; fzero; fone]]);
   (lit "sites", PSites (binary64 d i) (map (SSite (binary64 d i)) (hydrogen_sites (binary64 d i) eq_refl)))].
Example C31_binary64_case : forall d i,
  (exists txt, get_string (binary64 d i) 3 false true (hydrogen d i) = Ok txt) /\
  species_readable (binary64 d i) (hydrogen_sites (binary64 d i) eq_refl) /\ comment_plain (binary64 d i) (hydrogen d i).
Proof.
  intros d i. split; [eexists; vm_compute; reflexivity|]. split.
  - split; [repeat constructor|]. right. apply Exists_cons_hd. vm_compute. reflexivity.
  - intros t H. unfold pholds in H. apply (f_equal (fun o => match o with Some (PStr _ x) => x | _ => t end)) in H. rewrite <- H. vm_compute. reflexivity.
Qed.
