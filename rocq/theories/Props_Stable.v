(** Property C95: writing again what was read from a written file changes nothing. *)
From Coq Require Import Ascii String List NArith ZArith Bool Lia Arith Permutation.
From Verif Require Import PyBase PyNum PyStrLemmas PyNumLemmas PyFmtLemmas PyLines PyToken UtilsModel KpointsModel KpointsSpec
  PoscarModel ArithModel PoscarGroup PoscarSpec PoscarRead PoscarRoundTrip PoscarTheorems Props_Poscar Props_PoscarWrite Props_PoscarDigits.
Import ListNotations.
Local Open Scope list_scope.
Local Open Scope bool_scope.
Local Open Scope nat_scope.

(** ** Specification *)
(** Python floats: a number that is a correctly rounded binary64 *)
Definition site_doubles {d i} (s : site (binary64 d i)) : Prop :=
  Forall wf_float (si_position _ s) /\ (forall v, si_velocities _ s = Some v -> Forall wf_float v) /\ (forall v, si_predictors _ s = Some v -> Forall wf_float v).
Definition cell_doubles {d i} (m : list (list (num (binary64 d i)))) : Prop := Forall (Forall wf_float) m.
(** the same text from the second line on *)
Definition same_below_comment (t t' : str) : Prop := exists c c' body, nobreak c = true /\ nobreak c' = true /\ t = c ++ nl :: body /\ t' = c' ++ nl :: body.

(** ** Proofs *)
Lemma mapM_pointwise {S T U} (f : S -> res U) (g : T -> res U) l l' : Forall2 (fun a b => f a = g b) l l' -> mapM f l = mapM g l'.
Proof. induction 1 as [|a b l l' E F IH]; auto. cbn [mapM]. rewrite E, IH. reflexivity. Qed.

Lemma runs_repeat k n l : (forall y m t, runs l = (y, m) :: t -> k <> y) -> runs (repeat k (S n) ++ l) = (k, S n) :: runs l.
Proof.
  intros H. induction n as [|n IH].
  - cbn [repeat app runs]. destruct (runs l) as [|[y m] t] eqn:R; auto. rewrite (proj2 (seqb_neq k y)); auto. eapply H; eauto.
  - change (repeat k (S (S n)) ++ l) with (k :: (repeat k (S n) ++ l)). cbn [runs]. rewrite IH, seqb_refl. reflexivity.
Qed.
Lemma runs_of_expand gs : NoDup (map fst gs) -> Forall (fun g => 0 < snd g) gs -> runs (expand gs) = gs.
Proof.
  induction gs as [|[k n] gs IH]; intros N P; auto. cbn [map fst] in N. inversion N as [|? ? NI N']; subst. inversion P as [|? ? P1 P']; subst. cbn [snd] in P1.
  destruct n as [|n]; [lia|]. change (expand ((k, S n) :: gs)) with (repeat k (S n) ++ expand gs). rewrite runs_repeat.
  - rewrite IH; auto.
  - rewrite IH by auto. intros y m t -> ->. apply NI. left. reflexivity.
Qed.

Lemma nobreak_cut a b u v : nobreak a = true -> nobreak b = true -> a ++ nl :: u = b ++ nl :: v -> a = b /\ u = v.
Proof.
  unfold nobreak. revert b. induction a as [|x a IH]; intros [|y b] N M E; cbn [app forallb] in *.
  - injection E as ->. auto.
  - injection E as <- _. apply andb_true_iff in M as [M _]. vm_compute in M. discriminate M.
  - injection E as -> _. apply andb_true_iff in N as [N _]. vm_compute in N. discriminate N.
  - injection E as <- E. apply andb_true_iff in N as [_ N]. apply andb_true_iff in M as [_ M]. destruct (IH b N M E) as [-> ->]. auto.
Qed.
Lemma flat_map_in {T U} (f g : T -> list U) l : (forall x, In x l -> f x = g x) -> flat_map f l = flat_map g l.
Proof. induction l as [|x l IH]; intros H; auto. cbn [flat_map]. rewrite (H x (or_introl eq_refl)), IH; auto. intros y Hy. apply H. right. auto. Qed.

Section Rewrite.
Variable A : arith.
Variable prec : nat.
Variable rr : num A -> num A.
Hypothesis FO : fmt_ok A prec rr.
Hypothesis UO : unit_ok A.
(** the numbers whose text is stable *)
Variable good : num A -> Prop.
Hypothesis ST : forall x, good x -> nfmt A 0 prec (rr x) = nfmt A 0 prec x.
Notation wsite := (wsite A).
Definition wgood (w : wsite) : Prop := Forall good (ws_position A w) /\ (forall v, ws_velocities A w = Some v -> Forall good v) /\ (forall v, ws_predictors A w = Some v -> Forall good v).
(** the site [w] as it comes back *)
Definition back (w w' : wsite) : Prop :=
  ws_specie A w' = ws_specie A w /\ ws_selective A w' = flags_image (ws_selective A w) /\
  (3 <= length (ws_position A w) /\ ws_position A w' = image A rr (ws_position A w)) /\
  opt_back A (fun v v' => 3 <= length v /\ v' = image A rr v) (ws_velocities A w) (ws_velocities A w') /\
  opt_back A (fun v v' => v' = image A rr v) (ws_predictors A w) (ws_predictors A w').

Lemma num_text_stable x : good x -> num_text A prec (rr x) = num_text A prec x.
Proof. intros G. unfold num_text. rewrite !(fo_pad A prec rr FO (prec + 4)), ST by auto. reflexivity. Qed.
Lemma line3_stable v t : Forall good v -> line3 A prec v = Ok t -> line3 A prec (image A rr v) = Ok t.
Proof.
  intros G H. apply line3_ok in H as (x & y & z & r & -> & ->). inversion G as [|? ? G1 G']; subst. inversion G' as [|? ? G2 G'']; subst. inversion G'' as [|? ? G3 _]; subst.
  change (line3 A prec (image A rr (x :: y :: z :: r))) with (@Ok str (join [sp] [num_text A prec (rr x); num_text A prec (rr y); num_text A prec (rr z)])).
  rewrite (num_text_stable x), (num_text_stable y), (num_text_stable z) by auto. reflexivity.
Qed.
Lemma image_row r : Forall good r -> row_text A prec (map rr r) = row_text A prec r.
Proof. intros G. unfold row_text. rewrite map_map. f_equal. apply map_ext_in. intros x Hx. rewrite Forall_forall in G. apply num_text_stable. auto. Qed.
Lemma flags_image_idem f s : flags_text f = Ok s -> flags_text (flags_image f) = Ok s.
Proof.
  intros H. rewrite (flags_text_ok f s H). unfold flags_image. cbn [map].
  destruct (nth 0 f true), (nth 1 f true), (nth 2 f true); reflexivity.
Qed.
Lemma image_all_true f : existsb negb f = false -> existsb negb (flags_image f) = false.
Proof.
  intros H. unfold flags_image. cbn [map existsb]. assert (forall i, nth i f true = true) as T.
  { intros i. destruct (nth_in_or_default i f true) as [K|K]; auto. destruct (nth i f true) eqn:E; auto. exfalso.
    assert (existsb negb f = true) as X by (apply existsb_exists; exists false; auto). congruence. }
  rewrite !T. reflexivity.
Qed.
Lemma image_some_false f s : flags_text f = Ok s -> existsb negb f = true -> existsb negb (flags_image f) = true.
Proof.
  intros H E. unfold flags_text in H. apply bind_ok in H as [l [M _]]. clear s.
  destruct f as [|a [|b [|c r]]]; try discriminate E.
  - destruct a; [discriminate|reflexivity].
  - destruct a, b; try discriminate; reflexivity.
  - destruct a, b, c; try reflexivity. cbn [existsb negb orb] in E. exfalso. cbn [mark] in M.
    change (length [lit "T"; lit "T"; lit "T"]) with 3 in M.
    assert (forall r i sel, 3 <= i -> length sel = 3 -> existsb negb r = true -> forall l, mark r i sel <> Ok l) as K.
    { clear. induction r as [|x r IH]; intros i sel Hi Hl E l; [discriminate|]. cbn [mark]. destruct x.
      - apply IH; auto.
      - rewrite (proj2 (Nat.ltb_ge i (length sel))) by lia. discriminate. }
    exact (K r 3 [lit "T"; lit "T"; lit "T"] (le_n 3) eq_refl E l M).
Qed.

Lemma back_of_site cell w s : capitalize (ws_specie A w) = ws_specie A w -> site_back A rr true cell w s -> back w (view A s).
Proof.
  intros CW (S1 & _ & S3 & (u & E & L & Ep) & S5 & S6). cbn [shown] in E. injection E as <-. unfold back. cbn [view ws_specie ws_selective ws_position ws_velocities ws_predictors]. split.
  { unfold get_specie. rewrite S1, <- CW. apply capitalize_lower_capitalize. }
  split; [auto|]. split; [auto|]. split; [|exact S6].
  unfold opt_back in *. destruct (ws_velocities A w) as [v|], (si_velocities A s) as [v'|]; auto. destruct S5 as (u & E & L' & ->). cbn [shown] in E. injection E as <-. auto.
Qed.
(** the sites as they came back are grouped as they are *)
Lemma back_regroup c c' ws out gs out' : group_sites A c ws = (out, gs) -> (c = false \/ c' = true) -> map (ws_specie A) out' = map (ws_specie A) out ->
  group_sites A c' out' = (out', gs).
Proof.
  intros G HC ES. pose proof (group_any A _ _ _ _ G) as (EX & GP & _). destruct c'.
  - unfold group_sites. rewrite ES, EX. f_equal. destruct c.
    + pose proof G as G2. unfold group_sites in G2. injection G2 as E1 E2. rewrite <- EX, <- E1. exact E2.
    + pose proof (group_default A _ _ _ G) as (_ & N & _). apply runs_of_expand; auto.
  - destruct HC as [-> |HC]; [|discriminate]. pose proof (group_default A _ _ _ G) as (_ & N & _).
    pose proof (regroup A _ _ _ _ G) as G2. unfold group_sites in *. rewrite ES.
    pose proof (f_equal snd G2) as Eg. cbn [snd] in Eg. rewrite Eg. f_equal.
    (* gathering sites that already are gathered *)
    set (keys := sort_by (fun k => count k (map (ws_specie A) out)) (uniq [] (map (ws_specie A) out))) in *.
    assert (map fst gs = keys) as EK by (rewrite <- Eg, map_map; apply map_id).
    change (map (ws_specie A) out = flat_map (fun g => repeat (fst g) (snd g)) gs) in EX.
    assert (map (ws_specie A) out' = expand gs) as EX' by (rewrite ES; exact EX). clear -EX' EK N GP. rewrite <- EK. clear EK keys out.
    revert out' EX'. induction gs as [|[k n] gs IH]; intros out' E.
    + destruct out'; [reflexivity|discriminate].
    + cbn [map fst flat_map]. inversion N as [|? ? NI N']; subst. inversion GP; subst.
      change (expand ((k, n) :: gs)) with (repeat k n ++ expand gs) in E.
      apply map_eq_app in E as (a & b & -> & Ea & Eb).
      assert (forall x, In x a -> ws_specie A x = k) as Ha.
      { intros x Hx. apply (in_map (ws_specie A)) in Hx. rewrite Ea in Hx. apply repeat_spec in Hx. auto. }
      assert (forall x, In x b -> In (ws_specie A x) (map fst gs)) as Hb.
      { intros x Hx. apply (in_map (ws_specie A)) in Hx. rewrite Eb in Hx. unfold expand in Hx. apply in_flat_map in Hx as [[k' n'] [Hg Hx]]. apply repeat_spec in Hx. cbn [fst] in Hx. rewrite Hx. apply (in_map fst) in Hg. exact Hg. }
      rewrite filter_app.
      assert (filter (fun s => seqb k (ws_specie A s)) a = a) as ->.
      { clear -Ha. induction a as [|x a IH]; auto. cbn [filter]. rewrite (Ha x (or_introl eq_refl)), seqb_refl, IH; auto. intros y Hy. apply Ha. right. auto. }
      assert (filter (fun s => seqb k (ws_specie A s)) b = []) as ->.
      { clear -Hb NI. induction b as [|x b IH]; auto. cbn [filter]. rewrite (proj2 (seqb_neq k (ws_specie A x))).
        - apply IH. intros y Hy. apply Hb. right. auto.
        - intros ->. apply NI. apply Hb. left. auto. }
      rewrite app_nil_r. f_equal.
      transitivity (flat_map (fun k : str => filter (fun s : wsite => seqb k (ws_specie A s)) b) (map fst gs)); [|exact (IH H2 N' b Eb)].
      apply flat_map_in. intros k' Hk'. rewrite filter_app.
      assert (filter (fun s => seqb k' (ws_specie A s)) a = []) as ->; [|reflexivity].
      clear -Ha Hk' NI. induction a as [|x a IH]; auto. cbn [filter]. rewrite (Ha x (or_introl eq_refl)), (proj2 (seqb_neq k' k)).
      * apply IH. intros y Hy. apply Ha. right. auto.
      * intros ->. auto.
Qed.

(** the texts of the sites *)
Lemma position_stable sel cell w w' t : wgood w -> back w w' -> position_text A prec true sel cell w = Ok t ->
  position_text A prec true sel cell w' = Ok t.
Proof.
  intros (G & _ & _) (_ & B2 & (_ & B3) & _ & _) H. unfold position_text in *. cbn [shown bind] in *. rewrite B3.
  apply bind_ok in H as [u [L H]]. rewrite (line3_stable _ _ G L). cbn [bind]. apply bind_ok in H as [f [F H]]. rewrite B2.
  destruct sel; [|rewrite F; exact H]. rewrite (flags_image_idem _ _ F). exact H.
Qed.
Lemma velocity_stable cell w w' t : wgood w -> back w w' -> velocity_text A prec true cell w = Ok t -> velocity_text A prec true cell w' = Ok t.
Proof.
  intros (_ & G & _) (_ & _ & _ & B4 & _) H. unfold velocity_text in *. cbn [shown bind] in *.
  destruct (ws_velocities A w) as [v|]; [|discriminate]. destruct (ws_velocities A w') as [v'|]; [|destruct B4]. destruct B4 as [_ ->].
  apply line3_stable; auto.
Qed.
Lemma predictor_stable w w' t : wgood w -> back w w' -> predictor_text A prec w = Ok t -> predictor_text A prec w' = Ok t.
Proof.
  intros (_ & _ & G) (_ & _ & _ & _ & B5) H. unfold predictor_text in *.
  destruct (ws_predictors A w) as [v|]; [|discriminate]. destruct (ws_predictors A w') as [v'|]; [|destruct B5]. cbn [opt_back] in B5. subst v'.
  apply line3_stable; auto.
Qed.
Lemma mapM_stable (f : wsite -> res str) out out' ts : (forall w w' t, wgood w -> back w w' -> f w = Ok t -> f w' = Ok t) ->
  Forall wgood out -> Forall2 back out out' -> mapM f out = Ok ts -> mapM f out' = Ok ts.
Proof.
  intros H G B. revert ts G. induction B as [|w w' out out' B1 B IH]; intros ts G M; auto. inversion G; subst. cbn [mapM] in *.
  apply bind_ok in M as [t [M1 M]]. apply bind_ok in M as [r [M2 M]]. rewrite (H w w' t) by auto. cbn [bind]. rewrite (IH r) by auto. exact M.
Qed.

(** the lines written for what came back: only the first may differ *)
Lemma rewrite_lines conserve conserve' es cell ss ls ss' cm :
  write_lines A prec conserve true es = Ok ls -> pholds es "unitcell" (PMat A cell) -> pholds es "sites" (PSites A (map (SSite A) ss)) ->
  (conserve = false \/ conserve' = true) ->
  Forall (Forall good) cell -> Forall wgood (map (view A) ss) ->
  (forall out gs, group_sites A conserve (map (view A) ss) = (out, gs) -> Forall2 (site_back A rr true cell) out ss') ->
  exists c c' r gs, ls = c :: r /\
    write_lines A prec conserve' true [(lit "comment", PStr A cm); (lit "unitcell", PMat A (map (map rr) cell)); (lit "sites", PSites A (map (SSite A) ss'))] = Ok (c' :: r) /\
    (exists out, group_sites A conserve (map (view A) ss) = (out, gs) /\ Forall2 back out (map (view A) ss')) /\
    group_sites A conserve' (map (view A) ss') = (map (view A) ss', gs) /\ comment_text A gs (PStr A cm) = Ok c'.
Proof.
  intros W HU HS HC GC GS SB.
  destruct (write_lines_inv A prec conserve true es ls W) as (co & cell2 & l2 & sites & out & gs & c & pos & vel & pre & HCo & HU2 & SQ & HL2 & HW & HG & CT & HP & HV & HR & E).
  unfold pholds in *. rewrite HU in HU2. injection HU2 as <-. rewrite HS in HL2. injection HL2 as <-.
  destruct (wsites_inv A _ _ HW) as (ss2 & Es & -> & DS). apply map_SSite_inj in Es. subst ss2.
  specialize (SB _ _ HG). pose proof (group_any A _ _ _ _ HG) as (EX & GP & PM). pose proof (out_capital A _ _ _ _ HG) as OC.
  assert (Forall wgood out) as GO.
  { apply Forall_forall. intros w Hw. apply (Permutation_in _ PM) in Hw. rewrite Forall_forall in GS. auto. }
  assert (Forall2 back out (map (view A) ss')) as B.
  { clear -SB OC. induction SB as [|w s out ss' H F IH]; [constructor|]. inversion OC; subst. cbn [map]. constructor; [eapply back_of_site; eauto|auto]. }
  assert (map (ws_specie A) (map (view A) ss') = map (ws_specie A) out) as SPEC.
  { clear -B. induction B as [|w w' o o' (H & _) F IH]; auto. cbn [map]. rewrite IH. f_equal. exact H. }
  pose proof (back_regroup conserve conserve' _ _ _ _ HG HC SPEC) as HG'.
  assert (mapM (wsite_of A) (map (SSite A) ss') = Ok (map (view A) ss')) as HW'.
  { clear -SB. induction SB as [|w s out ss' (_ & D & _) F IH]; auto. cbn [map mapM wsite_of]. rewrite D. cbn [bind]. rewrite IH. reflexivity. }
  assert (has_sel A (map (view A) ss) = has_sel A out) as ES by (apply existsb_perm; symmetry; auto).
  assert (has_vel A (map (view A) ss) = has_vel A out) as EV by (apply existsb_perm; symmetry; auto).
  assert (has_pre A (map (view A) ss) = has_pre A out) as EP by (apply existsb_perm; symmetry; auto).
  rewrite ES, EV, EP in *.
  assert (has_sel A (map (view A) ss') = has_sel A out) as ES'.
  { destruct (has_sel A out) eqn:K.
    - unfold has_sel in *. apply existsb_exists in K as [w [Hw K]].
      apply existsb_exists. apply mapM_ok_Forall2 in HP.
      assert (exists w' t, In w' (map (view A) ss') /\ back w w' /\ position_text A prec true true cell w = Ok t) as (w' & t & H1 & (_ & H2 & _) & H3).
      { clear -B HP Hw. revert pos HP. induction B as [|a b o o' B1 B IH]; intros pos HP; [destruct Hw|]. inversion HP; subst. destruct Hw as [->|Hw].
        - exists b, y. split; [left; auto|auto].
        - destruct (IH Hw _ H3) as (w' & t & I1 & I2 & I3). exists w', t. split; [right; auto|auto]. }
      exists w'. split; [auto|]. rewrite H2. unfold position_text in H3. apply bind_ok in H3 as [v [_ H3]]. apply bind_ok in H3 as [u [_ H3]]. apply bind_ok in H3 as [f [F _]].
      eapply image_some_false; eauto.
    - unfold has_sel in *. apply not_true_is_false. intros K2. apply existsb_exists in K2 as [w' [Hw' K2]].
      assert (exists w, In w out /\ back w w') as (w & Hw & (_ & H2 & _)).
      { clear -B Hw'. induction B as [|a b o o' B1 B IH]; [destruct Hw'|]. destruct Hw' as [->|H]; [exists a; split; [left|]; auto|]. destruct (IH H) as (w & I1 & I2). exists w. split; [right|]; auto. }
      rewrite H2 in K2. rewrite image_all_true in K2; [discriminate|].
      destruct (existsb negb (ws_selective A w)) eqn:K3; auto. rewrite <- K. symmetry. apply existsb_exists. exists w. auto. }
  assert (has_vel A (map (view A) ss') = has_vel A out) as EV'.
  { clear -B. unfold has_vel. induction B as [|w w' o o' (_ & _ & _ & H & _) F IH]; auto. cbn [map existsb]. rewrite IH. f_equal.
    destruct (ws_velocities A w), (ws_velocities A w'); auto; destruct H. }
  assert (has_pre A (map (view A) ss') = has_pre A out) as EP'.
  { clear -B. unfold has_pre. induction B as [|w w' o o' (_ & _ & _ & _ & H) F IH]; auto. cbn [map existsb]. rewrite IH. f_equal.
    destruct (ws_predictors A w), (ws_predictors A w'); auto; destruct H. }
  destruct (square3_shape A cell SQ) as (a1 & a2 & a3 & b1 & b2 & b3 & d1 & d2 & d3 & Ecell).
  assert (exists c', comment_text A gs (PStr A cm) = Ok c') as [c' CT'] by (cbn [comment_text]; destruct (substrb (compound gs) cm); eauto).
  exists c, c', (tl ls), gs. split; [rewrite E; reflexivity|]. split; [|split; [eauto|split; [exact HG'|exact CT']]].
  unfold write_lines.
  assert (validate A [(lit "comment", PStr A cm); (lit "unitcell", PMat A (map (map rr) cell)); (lit "sites", PSites A (map (SSite A) ss'))] = Ok tt) as ->.
  { unfold validate, check_comment, check_unitcell, check_sites, arg_or, pkey. rewrite Ecell. reflexivity. }
  cbn [bind].
  change (pkey A [(lit "comment", PStr A cm); (lit "unitcell", PMat A (map (map rr) cell)); (lit "sites", PSites A (map (SSite A) ss'))] "comment") with (@Ok (pval A) (PStr A cm)).
  change (pkey A [(lit "comment", PStr A cm); (lit "unitcell", PMat A (map (map rr) cell)); (lit "sites", PSites A (map (SSite A) ss'))] "unitcell") with (@Ok (pval A) (PMat A (map (map rr) cell))).
  change (pkey A [(lit "comment", PStr A cm); (lit "unitcell", PMat A (map (map rr) cell)); (lit "sites", PSites A (map (SSite A) ss'))] "sites") with (@Ok (pval A) (PSites A (map (SSite A) ss'))).
  cbn [bind unitcell_of]. rewrite HW'. cbn [bind].
  fold (has_sel A (map (view A) ss')) (has_vel A (map (view A) ss')) (has_pre A (map (view A) ss')). rewrite ES', EV', EP', HG', CT'. cbn [bind].
  assert (mapM (line3 A prec) (map (map rr) cell) = Ok (map (row_text A prec) cell)) as ->.
  { rewrite Ecell in GC |- *. inversion GC as [|? ? G1 GC2]; subst. inversion GC2 as [|? ? G2 GC3]; subst. inversion GC3 as [|? ? G3 _]; subst.
    cbn [map mapM].
    assert (line3 A prec [rr a1; rr a2; rr a3] = Ok (row_text A prec [a1; a2; a3])) as -> by (apply (line3_stable [a1; a2; a3]); auto; reflexivity). 
    assert (line3 A prec [rr b1; rr b2; rr b3] = Ok (row_text A prec [b1; b2; b3])) as -> by (apply (line3_stable [b1; b2; b3]); auto; reflexivity).
    assert (line3 A prec [rr d1; rr d2; rr d3] = Ok (row_text A prec [d1; d2; d3])) as -> by (apply (line3_stable [d1; d2; d3]); auto; reflexivity). reflexivity. }
  cbn [bind].
  rewrite (mapM_stable (position_text A prec true (has_sel A out) (map (map rr) cell)) out (map (view A) ss') pos); auto.
  2:{ intros w w' t. apply position_stable. }
  cbn [bind].
  assert ((if has_vel A out then let* v := mapM (velocity_text A prec true (map (map rr) cell)) (map (view A) ss') in Ok (label true :: v) else Ok []) = Ok vel) as ->.
  { destruct (has_vel A out); [|rewrite HV; reflexivity]. destruct HV as (v & M & ->).
    rewrite (mapM_stable (velocity_text A prec true (map (map rr) cell)) out (map (view A) ss') v); auto. intros w w' t. apply velocity_stable. }
  cbn [bind].
  assert ((if has_pre A out then let* v := mapM (predictor_text A prec) (map (view A) ss') in Ok ([] :: v) else Ok []) = Ok pre) as ->.
  { destruct (has_pre A out); [|rewrite HR; reflexivity]. destruct HR as (v & M & ->).
    rewrite (mapM_stable (predictor_text A prec) out (map (view A) ss') v); auto. intros w w' t. apply predictor_stable. }
  cbn [bind]. rewrite E. reflexivity.
Qed.
End Rewrite.

Section Doubles.
Variables (d : list float -> list (list float) -> list float) (i : list (list float) -> option (list (list float))).
Let A := binary64 d i.
Lemma doubles_good ss : Forall (site_doubles (d:=d) (i:=i)) ss -> Forall (wgood A wf_float) (map (view A) ss).
Proof. intros F. induction F as [|s ss H F IH]; constructor; auto. Qed.
Lemma stable_text prec x : wf_float x -> nfmt A 0 prec (reread prec x) = nfmt A 0 prec x.
Proof. apply fixed_text_reread. Qed.
Lemma image_wf prec v : Forall wf_float v -> Forall wf_float (image A (reread prec) v).
Proof.
  intros F. unfold image. apply Forall_forall. intros y Hy. apply in_map_iff in Hy as [x [<- Hx]]. rewrite Forall_forall in F.
  apply reread_wf, F. rewrite <- (firstn_skipn 3 v). apply in_or_app. left. exact Hx.
Qed.
Lemma back_wf prec w s : wgood A wf_float w -> back A (reread prec) w (view A s) -> site_doubles (d:=d) (i:=i) s.
Proof.
  intros (G1 & G2 & G3) (_ & _ & (_ & B3) & B4 & B5). cbn [view ws_position ws_velocities ws_predictors] in *. split; [|split].
  - change (Forall wf_float (si_position A s)). rewrite B3. apply image_wf. exact G1.
  - intros v' E. change (si_velocities A s = Some v') in E. unfold opt_back in B4. rewrite E in B4. destruct (ws_velocities A w) as [v|]; [|destruct B4]. destruct B4 as [_ ->]. apply image_wf. auto.
  - intros v' E. change (si_predictors A s = Some v') in E. unfold opt_back in B5. rewrite E in B5. destruct (ws_predictors A w) as [v|]; [|destruct B5]. rewrite B5. apply image_wf. auto.
Qed.

(** What is known of one rewriting *)
Lemma rewriting prec conserve conserve' es txt ch cell ss :
  get_string A prec conserve true es = Ok txt -> pholds es "unitcell" (PMat A cell) -> pholds es "sites" (PSites A (map (SSite A) ss)) ->
  species_readable A ss -> comment_plain A es -> cell_doubles (d:=d) (i:=i) cell -> Forall (site_doubles (d:=d) (i:=i)) ss ->
  (conserve = false \/ conserve' = true) ->
  exists es' txt' c c' r gs ss' cell', pread A ch txt = Ok es' /\ get_string A prec conserve' true es' = Ok txt' /\
    txt = c ++ nl :: unlines r /\ txt' = c' ++ nl :: unlines r /\ nobreak c = true /\ nobreak c' = true /\
    pholds es' "comment" (PStr A (comment_read_back c)) /\ pholds es' "unitcell" (PMat A cell') /\ pholds es' "sites" (PSites A (map (SSite A) ss')) /\
    species_readable A ss' /\ comment_plain A es' /\ cell_doubles (d:=d) (i:=i) cell' /\ Forall (site_doubles (d:=d) (i:=i)) ss' /\
    group_sites A conserve' (map (view A) ss') = (map (view A) ss', gs) /\ comment_text A gs (PStr A (comment_read_back c)) = Ok c' /\
    exists out, group_sites A conserve (map (view A) ss) = (out, gs).
Proof.
  intros G HU HS SR CP DC DS HC.
  destruct (written_read A prec (reread prec) conserve true es txt ch cell ss (binary64_fmt d i prec) (binary64_unit d i) G HU HS SR CP (or_introl eq_refl))
    as (es' & out & ss' & gs & c & co & R & HCo & CT & [r W] & GR & Ees & SB).
  destruct (rewrite_lines A prec (reread prec) (binary64_fmt d i prec) wf_float (stable_text prec) conserve conserve' es cell ss (c :: r) ss' (comment_read_back c) W HU HS HC DC (doubles_good ss DS))
    as (c0 & c' & r0 & gs' & E & W' & (out' & GR' & B) & GS' & CT').
  { intros o g Hg. rewrite GR in Hg. injection Hg as <- <-. exact SB. }
  injection E as <- <-. rewrite GR in GR'. injection GR' as <- <-.
  assert (Forall (fun w => is_token (ws_specie A w) = true) (map (view A) ss)) as TW.
  { destruct SR as [TS _]. clear -TS. induction TS; constructor; auto. cbn [view ws_specie]. unfold get_specie. rewrite capitalize_token. auto. }
  pose proof (groups_tokens A _ _ _ _ GR TW) as GT. pose proof (group_any A _ _ _ _ GR) as (EX & GP & PM).
  assert (nobreak c = true) as NC. { eapply comment_line_nobreak; [exact CT|exact GT|]. destruct co; auto. }
  assert (nobreak (comment_read_back c) = true) as NB1.
  { unfold comment_read_back, nls. unfold nobreak in *. apply forallb_forall. intros x Hx. rewrite filter_app in Hx. change (filter (fun x => negb (aeqb x "#")) [nl]) with [nl] in Hx.
    rewrite strip_app_blank in Hx by reflexivity. apply strip_incl in Hx. apply filter_In in Hx as [Hx _]. rewrite forallb_forall in NC. auto. }
  assert (nobreak c' = true) as NC'. { eapply comment_line_nobreak; [exact CT'|exact GT|]. exact NB1. }
  assert (map (get_specie A) ss' = map (ws_specie A) out) as SP.
  { clear -B. change (map (ws_specie A) (map (view A) ss')) with (map (ws_specie A) (map (view A) ss')) in *. revert B. generalize out. clear. intros out B.
    remember (map (view A) ss') as vs eqn:Ev. revert ss' Ev. induction B as [|w w' o o' (H & _) F IH]; intros [|s ss'] Ev; try discriminate; auto.
    cbn [map] in Ev. injection Ev as -> Ev. cbn [map]. rewrite (IH ss' Ev). f_equal. exact H. }
  exists es', (unlines (c' :: r)), c, c', r, gs, ss', (map (map (reread prec)) cell).
  split; [exact R|]. split; [rewrite Ees; unfold get_string; rewrite W'; reflexivity|]. split.
  { unfold get_string in G. rewrite W in G. cbn [bind] in G. apply Ok_inj in G. rewrite <- G. apply unlines_cons. }
  split; [apply unlines_cons|]. split; [exact NC|]. split; [exact NC'|]. rewrite Ees. split; [reflexivity|]. split; [reflexivity|]. split; [reflexivity|]. split.
  { destruct SR as [TS NN]. split.
    - apply Forall_forall. intros s Hs. rewrite <- (is_token_lower (si_specie A s)), <- lower_capitalize, is_token_lower.
      assert (In (get_specie A s) (map (ws_specie A) out)) as K by (rewrite <- SP; apply in_map; auto).
      apply in_map_iff in K as [w [Ew Hw]]. apply (Permutation_in _ PM) in Hw. rewrite Forall_forall in TW. specialize (TW w Hw). unfold get_specie in Ew. rewrite <- Ew. exact TW.
    - destruct NN as [-> |NN].
      + left. cbn [map] in PM. apply Permutation_sym, Permutation_nil in PM. rewrite PM in SP. destruct ss'; [reflexivity|discriminate].
      + right. apply Exists_exists in NN as [s [Hs N]]. assert (In (get_specie A s) (map (ws_specie A) out)) as K.
        { apply in_map_iff. exists (view A s). split; [reflexivity|]. apply (Permutation_in _ (Permutation_sym PM)). apply in_map. exact Hs. }
        rewrite <- SP in K. apply in_map_iff in K as [s' [Es' Hs']]. apply Exists_exists. exists s'. split; [auto|]. rewrite Es'. exact N. }
  split.
  { intros t Ht. unfold pholds in Ht. cbn [dget] in Ht. change (seqb (lit "comment") (lit "comment")) with true in Ht. cbv iota in Ht. injection Ht as <-. exact NB1. }
  split.
  { unfold cell_doubles in *. clear -DC. induction DC as [|row cell H F IH]; [constructor|]. cbn [map]. constructor; [|exact IH]. clear -H. induction H; cbn [map]; constructor; auto. apply reread_wf; auto. }
  split.
  { pose proof (doubles_good ss DS) as DG. assert (Forall (wgood A wf_float) out) as DO.
    { apply Forall_forall. intros w Hw. apply (Permutation_in _ PM) in Hw. rewrite Forall_forall in DG. auto. }
    clear -DO B. remember (map (view A) ss') as vs eqn:Ev. revert ss' Ev. induction B as [|w w' o o' H F IH]; intros [|s ss'] Ev; try discriminate; [constructor|].
    cbn [map] in Ev. injection Ev as -> Ev. inversion DO; subst. constructor; [eapply back_wf; eauto|apply IH; auto]. }
  split; [exact GS'|]. split; [exact CT'|]. exists out. exact GR.
Qed.
End Doubles.

(** ** C95 *)
(** Write an object in direct coordinates, read the text, write what was read: everything
    below the comment line is the same, for every precision.  (With conserve_order the
    second writing must use it too; files written in the default order may be rewritten
    either way.) *)
Theorem C95_poscar_body : forall d i prec conserve conserve' es txt ch cell ss, let A := binary64 d i in
  get_string A prec conserve true es = Ok txt -> pholds es "unitcell" (PMat A cell) -> pholds es "sites" (PSites A (map (SSite A) ss)) ->
  species_readable A ss -> comment_plain A es -> cell_doubles (d:=d) (i:=i) cell -> Forall (site_doubles (d:=d) (i:=i)) ss ->
  (conserve = false \/ conserve' = true) ->
  exists es' txt', pread A ch txt = Ok es' /\ get_string A prec conserve' true es' = Ok txt' /\ same_below_comment txt txt'.
Proof.
  intros d i prec conserve conserve' es txt ch cell ss A G HU HS SR CP DC DS HC.
  destruct (rewriting d i prec conserve conserve' es txt ch cell ss G HU HS SR CP DC DS HC) as (es' & txt' & c & c' & r & gs & ss' & cell' & R & G' & E & E' & NC & NC' & _).
  exists es', txt'. split; [exact R|]. split; [exact G'|]. exists c, c', (unlines r). auto.
Qed.
Print Assumptions C95_poscar_body.
(** The second text is final: however it is read, it is written back byte for byte. *)
Theorem C95_poscar_settles : forall d i prec conserve es txt ch cell ss, let A := binary64 d i in
  get_string A prec conserve true es = Ok txt -> pholds es "unitcell" (PMat A cell) -> pholds es "sites" (PSites A (map (SSite A) ss)) ->
  species_readable A ss -> comment_plain A es -> cell_doubles (d:=d) (i:=i) cell -> Forall (site_doubles (d:=d) (i:=i)) ss ->
  Forall (fun s => no_hash (si_specie A s)) ss ->
  exists es' txt', pread A ch txt = Ok es' /\ get_string A prec conserve true es' = Ok txt' /\ same_below_comment txt txt' /\
    forall ch', exists es'', pread A ch' txt' = Ok es'' /\ get_string A prec conserve true es'' = Ok txt'.
Proof.
  intros d i prec conserve es txt ch cell ss A G HU HS SR CP DC DS NH.
  assert (conserve = false \/ conserve = true) as HC by (destruct conserve; auto).
  destruct (rewriting d i prec conserve conserve es txt ch cell ss G HU HS SR CP DC DS HC)
    as (es' & txt' & c & c' & r & gs & ss' & cell' & R & G' & E & E' & NC & NC' & HC1 & HU1 & HS1 & SR1 & CP1 & DC1 & DS1 & GG & CT & out & GR).
  exists es', txt'. split; [exact R|]. split; [exact G'|]. split; [exists c, c', (unlines r); auto|]. intros ch'.
  destruct (rewriting d i prec conserve conserve es' txt' ch' cell' ss' G' HU1 HS1 SR1 CP1 DC1 DS1 HC)
    as (es2 & txt2 & c2 & c2' & r2 & gs2 & ss2 & cell2 & R2 & G2 & E2 & E2' & NC2 & NC2' & HC2 & _ & _ & _ & _ & _ & _ & _ & CT2 & out2 & GR2).
  exists es2. split; [exact R2|]. etransitivity; [exact G2|]. apply (f_equal (@Ok str)).
  destruct (C36_comment_stable A prec prec conserve true true es txt txt' ch es' ss (or_introl (ex_intro _ d (ex_intro _ i eq_refl))) G HS SR CP NH R G') as (cm & rest & HM & _ & STB).
  specialize (STB ch' es2 R2).
  assert (cm = comment_read_back c) as ->.
  { pose proof (eq_trans (eq_sym HC1) HM) as K. injection K as K. symmetry. exact K. }
  assert (comment_read_back c2 = comment_read_back c) as EC.
  { pose proof (eq_trans (eq_sym HC2) STB) as K. injection K as K. exact K. }
  assert (gs2 = gs) as -> by (pose proof (eq_trans (eq_sym GG) GR2) as K; injection K as _ K; symmetry; exact K).
  assert (c2' = c') as -> by (rewrite EC in CT2; pose proof (eq_trans (eq_sym CT2) CT) as K; injection K as K; exact K).
  assert (c2 = c' /\ unlines r2 = unlines r) as [_ ER].
  { apply (nobreak_cut c2 c' (unlines r2) (unlines r)); auto. congruence. }
  congruence.
Qed.
Print Assumptions C95_poscar_settles.

(** ** The hypotheses are met *)
Section Case.
Variables (d : list float -> list (list float) -> list float) (i : list (list float) -> option (list (list float))).
Let A := binary64 d i.
Definition thirdish : float := match parse_float (lit "0.3333333333333333") with Some x => x | None => fzero end.
Definition salt_sites : list (site A) :=
  [Site A (lit "na") [thirdish; fzero; fhalf] None None None true; Site A (lit "cl") [fhalf; fzero; thirdish] None None None true;
   Site A (lit "cl") [fzero; thirdish; thirdish] (Some [true; false; true]) None None true].
Definition salt_cell : list (list (num A)) := [[fone; fzero; fhalf]; [fzero; thirdish; fzero]; [fzero; fzero; fone]].
(** a comment whose '#' is lost on reading *)
Definition salt : pentries A := [(lit "comment", PStr A (lit "NaCl #3 ")); (lit "unitcell", PMat A salt_cell); (lit "sites", PSites A (map (SSite A) salt_sites))].
End Case.
Example C95_poscar_case : forall d i,
  (exists txt, get_string (binary64 d i) 3 false true (salt d i) = Ok txt) /\
  pholds (salt d i) "unitcell" (PMat (binary64 d i) (salt_cell d i)) /\ pholds (salt d i) "sites" (PSites (binary64 d i) (map (SSite (binary64 d i)) (salt_sites d i))) /\
  species_readable (binary64 d i) (salt_sites d i) /\ comment_plain (binary64 d i) (salt d i) /\
  cell_doubles (d:=d) (i:=i) (salt_cell d i) /\ Forall (site_doubles (d:=d) (i:=i)) (salt_sites d i) /\
  Forall (fun s => no_hash (si_specie (binary64 d i) s)) (salt_sites d i).
Proof.
  intros d i. assert (wf_float thirdish) as W3.
  { apply (parse_float_wf (lit "0.3333333333333333")). vm_compute. reflexivity. }
  assert (wf_float fzero /\ wf_float fone /\ wf_float fhalf) as (W0 & W1 & W2).
  { split; [|split]; [apply (parse_float_wf (lit "0"))|apply (parse_float_wf (lit "1"))|apply (parse_float_wf (lit "0.5"))]; vm_compute; reflexivity. }
  split; [eexists; vm_compute; reflexivity|]. split; [reflexivity|]. split; [reflexivity|]. split; [|split; [|split; [|split]]].
  - split; [repeat constructor|]. right. apply Exists_cons_hd. vm_compute. reflexivity.
  - intros t H. unfold pholds in H. apply (f_equal (fun o => match o with Some (PStr _ x) => x | _ => t end)) in H. rewrite <- H. vm_compute. reflexivity.
  - unfold cell_doubles, salt_cell. repeat first [assumption|apply Forall_nil|apply Forall_cons].
  - unfold salt_sites. repeat (constructor; [split; [cbn [si_position]; repeat first [assumption|apply Forall_nil|apply Forall_cons]|split; discriminate]|]). constructor.
  - repeat constructor; intros H; vm_compute in H; repeat (destruct H as [H|H]; [discriminate|]); destruct H.
Qed.
(** The first rewriting can change the comment: 'NaCl #3 ' loses its '#' and its blank,
    so that the text of C95_poscar_body is all that stays. *)
Section Case2.
Variables (d : list float -> list (list float) -> list float) (i : list (list float) -> option (list (list float))).
Let A := binary64 d i.
Definition salt_first : str := match get_string A 3 false true (salt d i) with Ok t => t | Exn _ => [] end.
Definition salt_read : pentries A := match pread A FromFile salt_first with Ok e => e | Exn _ => [] end.
Definition salt_second : str := match get_string A 3 false true salt_read with Ok t => t | Exn _ => [] end.
Lemma salt_first_ok : get_string A 3 false true (salt d i) = Ok salt_first.
Proof. vm_compute. reflexivity. Qed.
Lemma salt_read_ok : pread A FromFile salt_first = Ok salt_read.
Proof. unfold salt_read. assert ((match pread A FromFile salt_first with Ok _ => true | Exn _ => false end) = true) as H by (vm_compute; reflexivity). destruct (pread A FromFile salt_first); [reflexivity|discriminate]. Qed.
Lemma salt_second_ok : get_string A 3 false true salt_read = Ok salt_second.
Proof. unfold salt_second. assert ((match get_string A 3 false true salt_read with Ok _ => true | Exn _ => false end) = true) as H by (vm_compute; reflexivity). destruct (get_string A 3 false true salt_read); [reflexivity|discriminate]. Qed.
Lemma salt_lines : seqb salt_second salt_first = false /\ seqb (hd [] (splitlines salt_first)) (lit "# Compound: NaCl2. Old comment: NaCl #3 ") = true /\
  seqb (hd [] (splitlines salt_second)) (lit "# Compound: NaCl2. Old comment: NaCl 3") = true.
Proof. split; [|split]; vm_compute; reflexivity. Qed.
End Case2.
Theorem C95_first_rewriting_refuted : forall d i, exists txt es' txt',
  get_string (binary64 d i) 3 false true (salt d i) = Ok txt /\ pread (binary64 d i) FromFile txt = Ok es' /\
  get_string (binary64 d i) 3 false true es' = Ok txt' /\ txt' <> txt /\
  hd [] (splitlines txt) = lit "# Compound: NaCl2. Old comment: NaCl #3 " /\ hd [] (splitlines txt') = lit "# Compound: NaCl2. Old comment: NaCl 3".
Proof.
  intros d i. exists (salt_first d i), (salt_read d i), (salt_second d i). destruct (salt_lines d i) as (H1 & H2 & H3).
  split; [apply salt_first_ok|]. split; [apply salt_read_ok|]. split; [apply salt_second_ok|].
  split; [apply seqb_neq; exact H1|]. split; apply seqb_eq; [exact H2|exact H3].
Qed.
Print Assumptions C95_first_rewriting_refuted.
