(** How scanning an OUTCAR line by line relates to what its lines say. *)
From Coq Require Import Ascii String List NArith ZArith Bool Lia.
From Verif Require Import PyBase PyStrLemmas PyNum UtilsModel OutcarModel OutcarSpec OutcarMatch StreamConfig.
Import ListNotations.
Local Open Scope list_scope.

(** the first line of [tail] says [v] and sets the variable, or leaves it *)
Definition sets {V} (P : V -> Prop) (old new : V) : Prop := P new \/ ((forall v, ~ P v) /\ new = old).
Definition lift {V} (P : V -> Prop) (o : option V) : Prop := exists v, o = Some v /\ P v.

Lemma to_int_ok t z : to_int t = Ok z -> parse_int t = Some z.
Proof. unfold to_int. destruct (parse_int t); intros H; inversion H; auto. Qed.
Lemma to_float_ok t x : to_float t = Ok x -> parse_float t = Some x.
Proof. unfold to_float. destruct (parse_float t); intros H; [apply Ok_inj' in H; congruence|discriminate]. Qed.
Lemma floats_ok ws xs : mapM to_float ws = Ok xs -> numbers ws xs.
Proof.
  intros H. apply mapM_ok_Forall2 in H. induction H; constructor; auto. apply to_float_ok. auto.
Qed.
Lemma numbers_fun ws xs ys : numbers ws xs -> numbers ws ys -> xs = ys.
Proof. intros H. revert ys. induction H; intros ys G; inversion G; subst; auto. f_equal; [congruence|auto]. Qed.
Lemma py_nth_ok {A} (l : list A) i x : py_nth l i = Ok x -> nth_error l i = Some x.
Proof. unfold py_nth. destruct (nth_error l i); intros H; inversion H; auto. Qed.

(** ** Parameters *)
Lemma nbands_ok l old v :
  (if contains l "NBANDS=" then let* z := to_int (strip (split_second (lit "NBANDS=") l)) in Ok (Some z) else Ok old) = Ok v ->
  sets (lift (fun z => exists t, between (lit "NBANDS=") l t /\ parse_int (strip t) = Some z)) old v.
Proof.
  destruct (contains l "NBANDS=") eqn:E; intros H.
  - apply contains_has in E. apply bind_ok in H as [z [Z H]]. apply Ok_inj' in H. subst v. left. exists z. split; auto.
    apply to_int_ok in Z. eexists. split; [|exact Z]. apply split_second_ok; [discriminate|exact E].
  - apply Ok_inj' in H. right. split; auto. intros w [z [_ [t [B _]]]]. destruct B as [p [r [B _]]].
    assert (contains l "NBANDS=" = true) by (apply contains_has; exists p; eexists; exact B). congruence.
Qed.
Lemma param_sets key old l v : good_key (lit key) -> match_integer_param (lit key) old l = Ok v -> sets (lift (assigns key l)) old v.
Proof.
  intros G H. apply match_param_ok in H; auto. destruct H as [[z [H1 H2]]|[H1 H2]]; [left; exists z; auto|right; split; auto].
  intros w [z [_ X]]. exact (H2 _ X).
Qed.
Lemma step_params_ok d l d' : step_params d l = Ok d' ->
  sets (lift (assigns "NSW" l)) (od_nsw d) (od_nsw d') /\ sets (lift (assigns "NELM" l)) (od_nelm d) (od_nelm d') /\
  sets (assigns "IBRION" l) (ov_ibrion d) (ov_ibrion d') /\
  sets (lift (fun z => exists t, between (lit "NBANDS=") l t /\ parse_int (strip t) = Some z)) (od_nbands d) (od_nbands d') /\
  (od_finished d' = true <-> od_finished d = true \/ has l "timing and accounting informations") /\
  od_elastic d' = od_elastic d /\ od_operations d' = od_operations d /\ od_original d' = od_original d /\ od_symmetrized d' = od_symmetrized d /\
  od_sphere d' = od_sphere d /\ od_full_cell d' = od_full_cell d /\ ov_config d' = ov_config d /\ ov_iter d' = ov_iter d /\ ov_steps d' = ov_steps d.
Proof.
  unfold step_params. intros H. apply bind_ok in H as [nsw [H1 H]]. apply bind_ok in H as [ib [H2 H]]. apply bind_ok in H as [nelm [H3 H]]. apply bind_ok in H as [nb [H4 H]].
  apply Ok_inj' in H. subst d'. cbn [od_nsw od_nelm od_nbands od_finished ov_ibrion od_elastic od_operations od_original od_symmetrized od_sphere od_full_cell ov_config ov_iter ov_steps].
  split; [apply param_sets; auto; reflexivity|]. split; [apply param_sets; auto; reflexivity|].
  split. { apply param_sets in H2; [|reflexivity]. destruct H2 as [[z [-> H2]]|[H2 ->]]; [left; auto|right]. split; auto. intros v X. apply (H2 (Some v)). exists v. auto. }
  split; [apply nbands_ok; auto|]. split; [rewrite orb_true_iff, contains_has; reflexivity|]. tauto.
Qed.

(** ** Symmetry *)
Definition cfg (s : section) : config := match s with Static => CfgStatic | Dynamic => CfgDynamic end.
Definition part {A} (s : section) (t : two A) : A := match s with Static => st_part t | Dynamic => dy_part t end.
Lemma headers_apart l : begins l (header Static) -> begins l (header Dynamic) -> False.
Proof. intros [r A] [r' B]. rewrite A in B. cbv [header lit list_ascii_of_string app] in B. discriminate. Qed.
Lemma push_part {A} s c (x : A) t : part s (push c x t) = part s t ++ (if match c, s with CfgStatic, Static => true | CfgDynamic, Dynamic => true | _, _ => false end then [x] else []).
Proof. destruct c, s; cbn; rewrite ?app_nil_r; auto. Qed.
Definition pricel_said (l : str) (next : option str) (c : cell_type) : Prop :=
  begins l "Subroutine PRICEL returns" /\ (exists n, next = Some n /\ strip n <> []) /\ c = CellPrimitive.
Definition supercell_said (l : str) (c : cell_type) : Prop := has l "primitive cells build up your supercell" /\ c = CellSupercell (split_ws l).
Lemma maybe_none {V} (P : V -> Prop) : (forall v, ~ P v) -> maybe P [].
Proof. right. auto. Qed.
Lemma is_cfg s c : match c, s with CfgStatic, Static => true | CfgDynamic, Dynamic => true | _, _ => false end = true <-> c = cfg s.
Proof. destruct s, c; cbn; split; intros; congruence. Qed.

Lemma step_symmetry_ok next d l d' : step_symmetry (of_option IndexError next) d l = Ok d' ->
  ov_config d' = (if startswith (strip l) (header Dynamic) then CfgDynamic else if startswith (strip l) (header Static) then CfgStatic else ov_config d) /\
  (forall s, exists a b c1 c2, part s (od_operations d') = part s (od_operations d) ++ a /\ part s (od_symmetrized d') = part s (od_symmetrized d) ++ b /\
     part s (od_original d') = part s (od_original d) ++ c1 ++ c2 /\
     maybe (fun z => ov_config d' = cfg s /\ begins l "Subroutine GETGRP returns" /\ exists w, nth_error (split_ws l) 4 = Some w /\ parse_int w = Some z) a /\
     maybe (fun t => ov_config d' = cfg s /\ begins l "Routine SETGRP: Setting up the symmetry group for a" /\ exists n, next = Some n /\ t = lower (strip n)) b /\
     maybe (fun c => ov_config d' = cfg s /\ pricel_said l next c) c1 /\ maybe (fun c => ov_config d' = cfg s /\ supercell_said l c) c2) /\
  od_elastic d' = od_elastic d /\ od_sphere d' = od_sphere d /\ od_full_cell d' = od_full_cell d /\
  od_nsw d' = od_nsw d /\ od_nelm d' = od_nelm d /\ od_nbands d' = od_nbands d /\ od_finished d' = od_finished d /\ ov_ibrion d' = ov_ibrion d /\ ov_iter d' = ov_iter d /\ ov_steps d' = ov_steps d.
Proof.
  unfold step_symmetry. intros H.
  change (startswith (strip l) "Analysis of symmetry for dynamics") with (startswith (strip l) (header Dynamic)) in H.
  change (startswith (strip l) "Analysis of symmetry for initial positions (statically)") with (startswith (strip l) (header Static)) in H.
  set (c := if startswith (strip l) (header Dynamic) then CfgDynamic else if startswith (strip l) (header Static) then CfgStatic else ov_config d) in *.
  apply bind_ok in H as [[[ops orig] sym] [H0 H]]. apply Ok_inj' in H. subst d'.
  cbn [od_nsw od_nelm od_nbands od_finished ov_ibrion od_elastic od_operations od_original od_symmetrized od_sphere od_full_cell ov_config ov_iter ov_steps].
  split; [reflexivity|]. split; [|tauto]. intros s. clearbody c. destruct (match c, s with CfgStatic, Static => true | CfgDynamic, Dynamic => true | _, _ => false end) eqn:EC.
  - apply is_cfg in EC. subst c.
    assert (forall A (x : A) t, part s (push (cfg s) x t) = part s t ++ [x]) as PP by (intros; rewrite push_part; destruct s; reflexivity).
    assert (exists orig0, (let* orig := (if startswith (strip l) "Subroutine PRICEL returns" then
                       let* t := of_option IndexError next in
                       Ok (match lower (strip t) with [] => od_original d | _ => push (cfg s) CellPrimitive (od_original d) end)
                     else Ok (od_original d)) in Ok orig) = Ok orig0 /\
        (if contains l "primitive cells build up your supercell" then push (cfg s) (CellSupercell (split_ws (strip l))) orig0 else orig0) = orig /\
        (if startswith (strip l) "Routine SETGRP: Setting up the symmetry group for a" then
                      let* t := of_option IndexError next in Ok (push (cfg s) (lower (strip t)) (od_symmetrized d))
                    else Ok (od_symmetrized d)) = Ok sym /\
        (if startswith (strip l) "Subroutine GETGRP returns" then
                      let* w := py_nth (split_ws (strip l)) 4 in let* z := to_int w in Ok (push (cfg s) z (od_operations d))
                    else Ok (od_operations d)) = Ok ops) as K.
    { destruct s; cbn [cfg] in *; apply bind_ok in H0 as [o0 [H1 H0]]; apply bind_ok in H0 as [s0 [H2 H0]]; apply bind_ok in H0 as [p0 [H3 H0]];
      inversion H0; subst; exists o0; rewrite H1; cbn [bind]; auto. }
    clear H0. destruct K as [o0 [K1 [K2 [K3 K4]]]].
    assert (exists c1, part s o0 = part s (od_original d) ++ c1 /\ maybe (fun c => cfg s = cfg s /\ pricel_said l next c) c1) as [c1 [C1 C1']].
    { apply bind_ok in K1 as [o1 [K1 K1']]. apply Ok_inj' in K1'. subst o1. destruct (startswith (strip l) "Subroutine PRICEL returns") eqn:E.
      - apply starts_begins in E. apply bind_ok in K1 as [t [K1 K1']]. destruct next as [n|]; [|discriminate]. apply Ok_inj' in K1. subst t.
        destruct (strip n) as [|x t] eqn:ES; cbn [lower map] in K1'; apply Ok_inj' in K1'; subst o0.
        + exists []. rewrite app_nil_r. split; auto. apply maybe_none. intros v [_ [_ [[n' [N1 N2]] _]]]. congruence.
        + exists [CellPrimitive]. split; [apply PP|]. left. exists CellPrimitive. split; auto. split; auto. split; auto. split; auto. exists n. split; auto. congruence.
      - apply Ok_inj' in K1. subst o0. exists []. rewrite app_nil_r. split; auto. apply maybe_none. intros v [_ [B _]]. apply starts_begins in B. congruence. }
    assert (exists c2, part s orig = part s o0 ++ c2 /\ maybe (fun c => cfg s = cfg s /\ supercell_said l c) c2) as [c2 [C2 C2']].
    { destruct (contains l "primitive cells build up your supercell") eqn:E; subst orig.
      - eexists. split; [apply PP|]. left. eexists. split; [|reflexivity]. split; auto. split; [apply contains_has; auto|]. rewrite split_ws_strip. auto.
      - exists []. rewrite app_nil_r. split; auto. apply maybe_none. intros v [_ [B _]]. apply contains_has in B. congruence. }
    assert (exists b, part s sym = part s (od_symmetrized d) ++ b /\ maybe (fun t => cfg s = cfg s /\ begins l "Routine SETGRP: Setting up the symmetry group for a" /\ exists n, next = Some n /\ t = lower (strip n)) b) as [b [Bb Bb']].
    { destruct (startswith (strip l) "Routine SETGRP: Setting up the symmetry group for a") eqn:E.
      - apply starts_begins in E. apply bind_ok in K3 as [t [K3 K3']]. destruct next as [n|]; [|discriminate]. apply Ok_inj' in K3, K3'. subst t sym.
        eexists. split; [apply PP|]. left. eexists. split; [|reflexivity]. split; auto. split; auto. exists n. auto.
      - apply Ok_inj' in K3. subst sym. exists []. rewrite app_nil_r. split; auto. apply maybe_none. intros v [_ [B _]]. apply starts_begins in B. congruence. }
    assert (exists a, part s ops = part s (od_operations d) ++ a /\ maybe (fun z => cfg s = cfg s /\ begins l "Subroutine GETGRP returns" /\ exists w, nth_error (split_ws l) 4 = Some w /\ parse_int w = Some z) a) as [a [Aa Aa']].
    { destruct (startswith (strip l) "Subroutine GETGRP returns") eqn:E.
      - apply starts_begins in E. apply bind_ok in K4 as [w [K4 K5]]. apply bind_ok in K5 as [z [K5 K6]]. apply Ok_inj' in K6. subst ops. apply py_nth_ok in K4. rewrite split_ws_strip in K4. apply to_int_ok in K5.
        eexists. split; [apply PP|]. left. eexists. split; [|reflexivity]. split; auto. split; auto. exists w. auto.
      - apply Ok_inj' in K4. subst ops. exists []. rewrite app_nil_r. split; auto. apply maybe_none. intros v [_ [B _]]. apply starts_begins in B. congruence. }
    exists a, b, c1, c2. rewrite C2, C1, app_assoc. auto 10.
  - assert (c <> cfg s) as NC. { intros X. apply is_cfg in X. congruence. }
    assert (forall A (x : A) t, part s (push c x t) = part s t) as PP by (intros; rewrite push_part, EC, app_nil_r; auto).
    assert (part s ops = part s (od_operations d) /\ part s sym = part s (od_symmetrized d) /\ part s orig = part s (od_original d)) as [P1 [P2 P3]].
    { destruct c; [inversion H0; auto| |];
      (apply bind_ok in H0 as [o0 [H1 H0]]; apply bind_ok in H0 as [s0 [H2 H0]]; apply bind_ok in H0 as [p0 [H3 H0]]; inversion H0; subst; clear H0;
       split; [|split];
       [ destruct (startswith _ _) in H3; [apply bind_ok in H3 as [w [_ H3]]; apply bind_ok in H3 as [z [_ H3]]|]; apply Ok_inj' in H3; subst; rewrite ?PP; auto
       | destruct (startswith _ _) in H2; [apply bind_ok in H2 as [w [_ H2]]|]; apply Ok_inj' in H2; subst; rewrite ?PP; auto
       | assert (part s o0 = part s (od_original d)) as <- by (destruct (startswith _ _) in H1; [apply bind_ok in H1 as [w [_ H1]]; destruct (lower (strip w)) in H1|]; apply Ok_inj' in H1; subst; rewrite ?PP; auto);
         destruct (contains _ _); auto; exact (PP _ _ o0) ]). }
    exists [], [], [], []. rewrite !app_nil_r. rewrite P1, P2, P3. repeat split; auto; apply maybe_none; intros v [X _]; congruence.
Qed.

(** ** Elastic moduli *)
Lemma tensor_ok tail t : tensor_at tail = Ok t -> table tail t.
Proof.
  unfold tensor_at. intros H. apply bind_ok in H as [rows [H1 H2]]. destruct (same_lengths rows); [|discriminate]. apply Ok_inj' in H2. subst t.
  apply mapM_ok_Forall2 in H1. unfold table. revert H1. generalize [3; 4; 5; 6; 7; 8]. intros is F. induction F as [|i row is rows E F IH]; constructor; auto.
  apply bind_ok in E as [l [E1 E2]]. exists l. split; [apply py_nth_ok; auto|]. rewrite split_ws_strip in E2. apply floats_ok. auto.
Qed.
Lemma table_fun tail t t' : table tail t -> table tail t' -> t = t'.
Proof.
  unfold table. generalize [3; 4; 5; 6; 7; 8]. intros is F. revert t'. induction F as [|i row is rows [l [E1 E2]] F IH]; intros t' G; inversion G as [|? r2 ? rs2 [l2 [E1' E2']] G2]; subst; auto.
  f_equal; auto. assert (l2 = l) by congruence. subst. eapply numbers_fun; eauto.
Qed.
(** the key under which a header's table is stored *)
Definition elastic_keys : list (string * string) :=
  [("non_symmetrized", "ELASTIC MODULI  (kBar)"); ("symmetrized", "SYMMETRIZED ELASTIC MODULI"); ("total", "TOTAL ELASTIC MODULI")]%string.
Lemma key_cases k h : In (k, h) elastic_keys -> (k = "non_symmetrized" /\ h = "ELASTIC MODULI  (kBar)" \/ k = "symmetrized" /\ h = "SYMMETRIZED ELASTIC MODULI" \/ k = "total" /\ h = "TOTAL ELASTIC MODULI")%string.
Proof. intros [H|[H|[H|[]]]]; inversion H; auto. Qed.
Lemma elastic_set (h k : string) tail l e e' : (if startswith (strip l) h then let* t := tensor_at tail in Ok (dset (lit k) (Some t) e) else Ok e) = Ok e' ->
  sets (fun o => exists t, o = Some (Some t) /\ begins l h /\ table tail t) (dget (lit k) e) (dget (lit k) e') /\
  forall k', k' <> lit k -> dget k' e' = dget k' e.
Proof.
  destruct (startswith (strip l) h) eqn:E; intros H.
  - apply starts_begins in E. apply bind_ok in H as [t [H1 H2]]. apply Ok_inj' in H2. subst e'. apply tensor_ok in H1. split.
    + left. exists t. rewrite dget_dset_same. auto.
    + intros k' N. apply dget_dset_other. auto.
  - apply Ok_inj' in H. subst e'. split; auto. right. split; auto. intros v [t [_ [B _]]]. apply starts_begins in B. congruence.
Qed.
Lemma step_elastic_ok tail d l d' : step_elastic tail d l = Ok d' ->
  (forall k h, In (k, h) elastic_keys -> sets (fun o => exists t, o = Some (Some t) /\ begins l h /\ table tail t) (dget (lit k) (od_elastic d)) (dget (lit k) (od_elastic d'))) /\
  dget (lit "non-symmetrized") (od_elastic d') = dget (lit "non-symmetrized") (od_elastic d) /\
  od_operations d' = od_operations d /\ od_original d' = od_original d /\ od_symmetrized d' = od_symmetrized d /\
  od_sphere d' = od_sphere d /\ od_full_cell d' = od_full_cell d /\
  od_nsw d' = od_nsw d /\ od_nelm d' = od_nelm d /\ od_nbands d' = od_nbands d /\ od_finished d' = od_finished d /\ ov_config d' = ov_config d /\ ov_ibrion d' = ov_ibrion d /\ ov_iter d' = ov_iter d /\ ov_steps d' = ov_steps d.
Proof.
  unfold step_elastic. intros H. apply bind_ok in H as [e1 [H1 H]]. apply bind_ok in H as [e2 [H2 H]]. apply bind_ok in H as [e3 [H3 H]]. apply Ok_inj' in H. subst d'.
  cbn [od_nsw od_nelm od_nbands od_finished ov_ibrion od_elastic od_operations od_original od_symmetrized od_sphere od_full_cell ov_config ov_iter ov_steps].
  apply elastic_set in H1 as [A1 B1]. apply elastic_set in H2 as [A2 B2]. apply elastic_set in H3 as [A3 B3].
  split; [|split; [rewrite B3, B2, B1; auto; discriminate|tauto]].
  intros k h K. apply key_cases in K. destruct K as [[-> ->]|[[-> ->]|[-> ->]]].
  - rewrite B3, B2 by discriminate. auto.
  - rewrite B3 by discriminate. rewrite <- (B1 (lit "symmetrized")) by discriminate. auto.
  - rewrite <- (B1 (lit "total")), <- (B2 (lit "total")) by discriminate. auto.
Qed.

(** ** Magnetization *)
Lemma moments_ok l m : moments (split_ws l) = Ok m -> moments_of l m.
Proof.
  unfold moments. intros H. apply bind_ok in H as [d [H1 H2]]. apply bind_ok in H2 as [t [H2 H3]]. apply Ok_inj' in H3. subst m.
  unfold moments_of. exists (split_ws l).
  assert (exists xs, numbers (removelast (tl (split_ws l))) xs /\ length xs <= 4 /\ d = combine (map lit ["s"; "p"; "d"; "f"]%string) xs) as [xs [X1 [X2 X3]]].
  { revert H1. generalize (removelast (tl (split_ws l))). intros ws H1.
    (* at most four words *)
    destruct ws as [|w1 ws]. { inversion H1. exists []. split; [constructor|]. split; [cbn; lia|auto]. }
    destruct ws as [|w2 ws].
    { cbn [length seq combine foldM fst snd] in H1. apply bind_ok in H1 as [d1 [D1 H1]]. apply bind_ok in D1 as [x1 [X1 D1]]. cbn in D1. apply Ok_inj' in D1, H1. subst. exists [x1].
      split; [repeat constructor; apply to_float_ok; auto|]. split; [cbn; lia|reflexivity]. }
    destruct ws as [|w3 ws].
    { cbn [length seq combine foldM fst snd] in H1. apply bind_ok in H1 as [d1 [D1 H1]]. apply bind_ok in D1 as [x1 [X1 D1]]. cbn in D1. apply Ok_inj' in D1. subst d1.
      apply bind_ok in H1 as [d2 [D2 H1]]. apply bind_ok in D2 as [x2 [X2 D2]]. cbn in D2. apply Ok_inj' in D2, H1. subst. exists [x1; x2].
      split; [repeat constructor; apply to_float_ok; auto|]. split; [cbn; lia|reflexivity]. }
    destruct ws as [|w4 ws].
    { cbn [length seq combine foldM fst snd] in H1. apply bind_ok in H1 as [d1 [D1 H1]]. apply bind_ok in D1 as [x1 [X1 D1]]. cbn in D1. apply Ok_inj' in D1. subst d1.
      apply bind_ok in H1 as [d2 [D2 H1]]. apply bind_ok in D2 as [x2 [X2 D2]]. cbn in D2. apply Ok_inj' in D2. subst d2.
      apply bind_ok in H1 as [d3 [D3 H1]]. apply bind_ok in D3 as [x3 [X3 D3]]. cbn in D3. apply Ok_inj' in D3, H1. subst. exists [x1; x2; x3].
      split; [repeat constructor; apply to_float_ok; auto|]. split; [cbn; lia|reflexivity]. }
    cbn [length seq combine foldM fst snd] in H1. apply bind_ok in H1 as [d1 [D1 H1]]. apply bind_ok in D1 as [x1 [X1 D1]]. cbn in D1. apply Ok_inj' in D1. subst d1.
    apply bind_ok in H1 as [d2 [D2 H1]]. apply bind_ok in D2 as [x2 [X2 D2]]. cbn in D2. apply Ok_inj' in D2. subst d2.
    apply bind_ok in H1 as [d3 [D3 H1]]. apply bind_ok in D3 as [x3 [X3 D3]]. cbn in D3. apply Ok_inj' in D3. subst d3.
    apply bind_ok in H1 as [d4 [D4 H1]]. apply bind_ok in D4 as [x4 [X4 D4]]. cbn in D4. apply Ok_inj' in D4.
    destruct ws as [|w5 ws].
    { apply Ok_inj' in H1. subst. exists [x1; x2; x3; x4]. split; [repeat constructor; apply to_float_ok; auto|]. split; [cbn; lia|reflexivity]. }
    cbn [length seq combine foldM fst snd] in H1. apply bind_ok in H1 as [d5 [D5 H1]]. apply bind_ok in D5 as [x5 [X5 D5]]. cbn in D5. discriminate. }
  exists xs, t. split; auto. split; auto. split; auto. split.
  - destruct (rev (split_ws l)) as [|w ws] eqn:ER; [discriminate|]. apply to_float_ok in H2.
    assert (split_ws l = rev ws ++ [w]) as -> by (rewrite <- (rev_involutive (split_ws l)), ER; reflexivity). rewrite last_last. auto.
  - subst d. destruct xs as [|x1 [|x2 [|x3 [|x4 [|x5 xs]]]]]; try reflexivity.
Qed.
Lemma moments_of_fun l m m' : moments_of l m -> moments_of l m' -> m = m'.
Proof.
  intros [ws [xs [t [A [B [C [D E]]]]]]] [ws' [xs' [t' [A' [B' [C' [D' E']]]]]]]. subst ws ws'.
  rewrite (numbers_fun _ _ _ B B') in E. assert (t = t') by congruence. congruence.
Qed.
(** a table's effect on the recorded sites and totals *)
Definition after_rows (rows : list (Z * dict float)) (site : zdict (dict float)) : zdict (dict float) := fold_left (fun s km => zset (fst km) (snd km) s) rows site.
Definition after_table (t : list (Z * dict float) * option (dict float)) (s s' : sphere) : Prop :=
  sp_site s' = after_rows (fst t) (sp_site s) /\
  match snd t with Some m => sp_total s' = m | None => exists k, hd_error (sp_site s') = Some (k, sp_total s') end.
Lemma read_moments_ok lines s s' : read_moments lines s = Ok s' -> exists t, mag_lines lines (fst t) (snd t) /\ after_table t s s'.
Proof.
  revert s. induction lines as [|l rest IH]; intros s H; [discriminate|]. cbn [read_moments] in H. rewrite split_ws_strip in H.
  destruct (split_ws l) as [|w0 ws0] eqn:EW.
  - destruct (sp_site s) as [|[k m] site] eqn:ES; [discriminate|]. apply Ok_inj' in H. subst s'. exists ([], None). split; [constructor; auto|].
    unfold after_table. cbn [fst snd after_rows fold_left sp_site sp_total hd_error]. split; auto. exists k. auto.
  - rewrite <- EW in H. apply bind_ok in H as [s1 [H1 H2]].
    destruct (startswith (strip l) "tot") eqn:ET.
    + rewrite andb_false_r in H1. apply Ok_inj' in H1. subst s1. apply starts_begins in ET. apply bind_ok in H2 as [m [H2 H3]]. apply Ok_inj' in H3. subst s'. apply moments_ok in H2.
      exists ([], Some m). split; [constructor; auto|]. unfold after_table. cbn. auto.
    + assert (~ begins l "tot") as NT. { intros X. apply starts_begins in X. congruence. }
      destruct (startswith (strip l) "-") eqn:EM; cbn [negb andb] in H1.
      * apply Ok_inj' in H1. subst s1. apply starts_begins in EM. destruct (IH _ H2) as [t [T1 T2]]. exists t. split; auto. constructor; auto.
      * assert (~ begins l "-") as NM. { intros X. apply starts_begins in X. congruence. }
        apply bind_ok in H1 as [w [K1 H1]]. apply bind_ok in H1 as [k [K2 H1]]. apply bind_ok in H1 as [m [K3 H1]]. apply Ok_inj' in H1. subst s1.
        apply py_nth_ok in K1. apply to_int_ok in K2. apply moments_ok in K3. destruct (IH _ H2) as [[rows tot] [T1 T2]]. exists ((k, m) :: rows, tot). cbn [fst snd] in *. split.
        { eapply ml_row; eauto. congruence. }
        unfold after_table in *. cbn [fst snd after_rows fold_left sp_site sp_total] in *. auto.
Qed.
Lemma mag_lines_fun lines rows t rows' t' : mag_lines lines rows t -> mag_lines lines rows' t' -> rows = rows' /\ t = t'.
Proof.
  assert (forall l p q, begins l p -> begins l q -> hd_error (lit p) <> hd_error (lit q) -> lit p <> [] -> lit q <> [] -> False) as AP.
  { intros l p q [r A] [r' B] N1 N2 N3. rewrite A in B. destruct (lit p), (lit q); try congruence. inversion B. subst. apply N1. reflexivity. }
  assert (forall l p, begins l p -> lit p <> [] -> split_ws l = [] -> False) as BN.
  { intros l p [r A] N E. apply split_ws_nil_iff in E. rewrite strip_blank in A by auto. destruct (lit p); [congruence|discriminate]. }
  intros H. revert rows' t'. induction H as [l rest E|l rest m B M|l rest rows t B M IH|l rest w k m rows t N1 N2 N3 W K M ML IH]; intros rows' t' G; inversion G; subst; auto;
    try (exfalso; eapply BN; eauto; discriminate); try contradiction.
  - split; auto. f_equal. eapply moments_of_fun; eauto.
  - exfalso. apply (AP l "tot"%string "-"%string); auto; discriminate.
  - exfalso. apply (AP l "tot"%string "-"%string); auto; discriminate.
  - match goal with ML' : mag_lines rest rows0 t' |- _ => destruct (IH _ _ ML') as [-> ->] end. split; auto. repeat f_equal; [congruence|eapply moments_of_fun; eauto].
Qed.
Definition projs : list string := ["x"; "y"; "z"]%string.
Definition sphere_of (p : string) (m : dict sphere) : sphere := match dget (lit p) m with Some s => s | None => Sphere [] [] end.
Definition mag_update (p : string) (tail : list str) (l : str) (s s' : sphere) : Prop :=
  (exists t, begins l ("magnetization (" ++ p ++ ")") /\ mag_lines (skipn 4 tail) (fst t) (snd t) /\ after_table t s s') \/ (~ begins l ("magnetization (" ++ p ++ ")") /\ s' = s).
Definition mag_step (tail : list str) (l : str) (m : dict sphere) (p : string) : res (dict sphere) :=
  if prefixb (lit "magnetization (" ++ lit p ++ lit ")") (strip l) then
    let* old := of_option KeyError (dget (lit p) m) in
    let* new := read_moments (skipn 4 tail) old in Ok (dset (lit p) new m)
  else Ok m.
Lemma lit_app a b : lit (a ++ b) = lit a ++ lit b.
Proof. unfold lit. induction a as [|c a IH]; cbn; auto. f_equal. auto. Qed.
Lemma mag_step_ok tail l p m m' : mag_step tail l m p = Ok m' ->
  mag_update p tail l (sphere_of p m) (sphere_of p m') /\ (forall q, lit q <> lit p -> sphere_of q m' = sphere_of q m) /\ dkeys m' = dkeys m.
Proof.
  unfold mag_step, mag_update. intros H.
  assert (lit "magnetization (" ++ lit p ++ lit ")" = lit ("magnetization (" ++ p ++ ")")) as EQ by (rewrite !lit_app; reflexivity). rewrite EQ in H.
  destruct (prefixb _ (strip l)) eqn:E.
  - apply prefixb_after in E. apply bind_ok in H as [o [H1 H]]. apply bind_ok in H as [n [H2 H]]. apply Ok_inj' in H. subst m'.
    assert (dget (lit p) m = Some o) as D by (destruct (dget (lit p) m); inversion H1; auto). apply read_moments_ok in H2 as [t [T1 T2]]. unfold sphere_of.
    split; [|split].
    + left. exists t. split; [exact E|]. split; auto. rewrite dget_dset_same, D. auto.
    + intros q Q. rewrite dget_dset_other; auto.
    + rewrite dkeys_dset. unfold dhas. rewrite D. auto.
  - apply Ok_inj' in H. subst m'. split; auto. right. split; auto. intros B. assert (prefixb (lit ("magnetization (" ++ p ++ ")")) (strip l) = true) as K by (apply prefixb_after; exact B). congruence.
Qed.
Lemma step_magnetization_ok tail d l d' : step_magnetization tail d l = Ok d' ->
  (forall p, In p projs -> mag_update p tail l (sphere_of p (od_sphere d)) (sphere_of p (od_sphere d'))) /\ dkeys (od_sphere d') = dkeys (od_sphere d) /\
  sets (lift (fun xs => begins l "number of electron" /\ numbers (skipn 5 (split_ws l)) xs)) (od_full_cell d) (od_full_cell d') /\
  od_elastic d' = od_elastic d /\ od_operations d' = od_operations d /\ od_original d' = od_original d /\ od_symmetrized d' = od_symmetrized d /\
  od_nsw d' = od_nsw d /\ od_nelm d' = od_nelm d /\ od_nbands d' = od_nbands d /\ od_finished d' = od_finished d /\ ov_config d' = ov_config d /\ ov_ibrion d' = ov_ibrion d /\ ov_iter d' = ov_iter d /\ ov_steps d' = ov_steps d.
Proof.
  unfold step_magnetization. intros H. apply bind_ok in H as [sph [H1 H]]. apply bind_ok in H as [full [H2 H]]. apply Ok_inj' in H. subst d'.
  cbn [od_nsw od_nelm od_nbands od_finished ov_ibrion od_elastic od_operations od_original od_symmetrized od_sphere od_full_cell ov_config ov_iter ov_steps].
  change (foldM (mag_step tail l) projs (od_sphere d) = Ok sph) in H1.
  cbn [foldM projs] in H1. apply bind_ok in H1 as [m1 [M1 H1]]. apply bind_ok in H1 as [m2 [M2 H1]]. apply bind_ok in H1 as [m3 [M3 H1]]. apply Ok_inj' in H1. subst m3.
  apply mag_step_ok in M1 as [A1 [B1 C1]]. apply mag_step_ok in M2 as [A2 [B2 C2]]. apply mag_step_ok in M3 as [A3 [B3 C3]].
  split; [|split; [congruence|split; [|tauto]]].
  - intros p [<-|[<-|[<-|[]]]].
    + rewrite B3, B2 by discriminate. auto.
    + rewrite B3 by discriminate. rewrite <- (B1 "y"%string) by discriminate. auto.
    + rewrite <- (B1 "z"%string), <- (B2 "z"%string) by discriminate. auto.
  - destruct (startswith (strip l) "number of electron") eqn:E.
    + apply starts_begins in E. apply bind_ok in H2 as [v [H2 H3]]. apply Ok_inj' in H3. subst full. rewrite split_ws_strip in H2. apply floats_ok in H2. left. exists v. auto.
    + apply Ok_inj' in H2. subst full. right. split; auto. intros v [w [_ [B _]]]. apply starts_begins in B. congruence.
Qed.
