(** Which triggers are built from a configuration. *)
From Coq Require Import Ascii String List NArith ZArith Bool Lia Arith Permutation.
From Verif Require Import PyBase PyStrLemmas UtilsModel StreamModel StreamProofs.
Import ListNotations.
Local Open Scope list_scope.
Local Open Scope bool_scope.
Local Open Scope nat_scope.

Lemma Ok_inj' {A} (a b : A) : Ok a = Ok b -> a = b.
Proof. congruence. Qed.

Section C.
Variable R : Type.
Variable compile : str -> option R.
Notation vstream := (vstream R).
Notation sval := (sval R).
Notation triggers := (triggers R).
Notation sconfig := (sconfig R).

(** append [xs] to the list under [k] *)
Definition dapp (k : str) (xs : list vstream) (d : triggers) : triggers :=
  map (fun kl => if seqb k (fst kl) then (fst kl, snd kl ++ xs) else kl) d.
Lemma dkeys_dapp k xs d : dkeys (dapp k xs d) = dkeys d.
Proof. unfold dkeys, dapp. rewrite map_map. apply map_ext. intros [a b]. cbn [fst]. destruct (seqb k a); auto. Qed.
Lemma dget_dapp_same k xs d l : dget k d = Some l -> dget k (dapp k xs d) = Some (l ++ xs).
Proof.
  induction d as [|[a b] d IH]; intros H; [discriminate|]. cbn [dapp map fst snd dget] in *. destruct (seqb k a) eqn:E.
  - inversion H. subst. cbn [dget]. rewrite E. auto.
  - cbn [dget]. rewrite E. apply IH. auto.
Qed.
Lemma dapp_none k xs d : ~ In k (dkeys d) -> dapp k xs d = d.
Proof.
  unfold dapp. induction d as [|[a b] d IH]; intros H; auto. cbn [map fst]. assert (seqb k a = false) as ->.
  { apply seqb_neq. intros ->. apply H. left. auto. } f_equal. apply IH. intros K. apply H. right. auto.
Qed.
Lemma dset_dapp k l xs d : NoDup (dkeys d) -> dget k d = Some l -> dset k (l ++ xs) d = dapp k xs d.
Proof.
  unfold dapp. induction d as [|[a b] d IH]; intros ND H; [discriminate|]. inversion ND as [|? ? NI ND']. subst. cbn [dset dget map fst snd] in *. destruct (seqb k a) eqn:E.
  - inversion H. subst. f_equal. apply seqb_eq in E. subst a. symmetry. apply dapp_none. auto.
  - f_equal. apply IH; auto.
Qed.
Lemma dapp_dapp k a b d : dapp k a (dapp k b d) = dapp k (b ++ a) d.
Proof. unfold dapp. rewrite map_map. apply map_ext. intros [x y]. cbn [fst]. destruct (seqb k x) eqn:E; cbn [fst snd]; rewrite E; auto. rewrite app_assoc. auto. Qed.
Lemma dapp_nil k d : dapp k [] d = d.
Proof. unfold dapp. rewrite <- (map_id d) at 2. apply map_ext. intros [x y]. cbn [fst snd]. destruct (seqb k x); auto. rewrite app_nil_r. auto. Qed.
Lemma dapp_perm k xs d : NoDup (dkeys d) -> In k (dkeys d) -> Permutation (flat_map snd (dapp k xs d)) (flat_map snd d ++ xs).
Proof.
  unfold dapp. induction d as [|[a b] d IH]; intros ND H; [destruct H|]. inversion ND as [|? ? NI ND']. subst. cbn [map fst]. destruct (seqb k a) eqn:E.
  - apply seqb_eq in E. subst a. fold (dapp k xs d). rewrite dapp_none by auto. cbn [flat_map snd]. rewrite <- !app_assoc. apply Permutation_app_head. apply Permutation_app_comm.
  - cbn [flat_map snd]. rewrite <- app_assoc. apply Permutation_app_head. apply IH; auto. destruct H as [H|H]; auto. cbn in H. subst. rewrite seqb_refl in E. discriminate.
Qed.
Lemma dapp_filter (f : vstream -> bool) k xs d : filter f xs = [] -> filter f (flat_map snd (dapp k xs d)) = filter f (flat_map snd d).
Proof.
  intros H. unfold dapp. induction d as [|[a b] d IH]; auto. cbn [map fst]. destruct (seqb k a); cbn [flat_map snd]; rewrite !filter_app, IH; auto. rewrite H, app_nil_r. auto.
Qed.
Lemma in_keys_get {V} k (d : dict V) : In k (dkeys d) -> exists v, dget k d = Some v.
Proof. intros H. destruct (dget k d) eqn:E; eauto. apply dget_None in E. contradiction. Qed.

(** ** one VaspStream *)
Lemma vasp_stream_short n e t : vasp_stream R compile n e = Ok t -> vs_short R t = n /\ dget (lit "kind") e = Some (SStr R (vs_kind R t)) /\
  smem (upper (vs_kind R t)) allowed_streams = true /\
  (match dget (lit "inverse") e with Some v => truthy R v | None => false end) = vs_inverse R t.
Proof.
  unfold vasp_stream. destruct (negb _); [discriminate|]. intros H.
  apply bind_ok in H as [k [K H]]. apply bind_ok in H as [r [_ H]]. apply bind_ok in H as [m [_ H]]. apply bind_ok in H as [k' [K' H]].
  apply bind_ok in H as [r' [_ H]]. apply bind_ok in H as [m' [_ H]]. apply bind_ok in H as [s' [_ H]]. apply bind_ok in H as [l' [_ H]].
  apply bind_ok in H as [c' [_ H]]. apply bind_ok in H as [i' [I' H]]. inversion H. subst t. clear H. cbn [vs_short vs_kind vs_inverse].
  destruct k; try discriminate. destruct (smem (upper s) allowed_streams) eqn:E; inversion K'. subst.
  destruct (dget (lit "kind") e); inversion K. split; [auto|]. split; [auto|]. split; [auto|].
  destruct (dget (lit "inverse") e) as [v|]; [destruct v; inversion I'; auto|inversion I'; auto].
Qed.

(** ** kinds *)
Definition has_kind (k : str) (e : dict sval) : bool := match dget (lit "kind") e with Some (SStr _ x) => seqb x k | _ => false end.
Lemma set_streams_ok (cfg : sconfig) K : set_streams R cfg = Ok K ->
  NoDup K /\ (forall k, In k K <-> smem (upper k) allowed_streams = true /\ exists n e, In (n, e) cfg /\ has_kind k e = true) /\
  Forall (fun ne => exists k, dget (lit "kind") (snd ne) = Some (SStr R k)) cfg.
Proof.
  unfold set_streams. intros H.
  assert (forall cfg K0 K, NoDup K0 -> foldM (fun kinds e => match dget (lit "kind") (snd e) with
     | None => Exn KeyError
     | Some (SStr _ k) => Ok (if smem (upper k) allowed_streams && negb (smem k kinds) then kinds ++ [k] else kinds)
     | Some _ => Exn ValueError end) (cfg : sconfig) K0 = Ok K ->
     NoDup K /\ (forall k, In k K <-> In k K0 \/ (smem (upper k) allowed_streams = true /\ exists n e, In (n, e) cfg /\ has_kind k e = true)) /\
     Forall (fun ne => exists k, dget (lit "kind") (snd ne) = Some (SStr R k)) cfg) as G.
  { clear. induction cfg as [|[n e] cfg IH]; intros K0 K ND H; cbn [foldM] in H.
    - inversion H. subst. split; [auto|]. split; [|constructor]. intros k. split; [auto|]. intros [X|(_ & n & e & [] & _)]; auto.
    - apply bind_ok in H as [K1 [H1 H]]. cbn [snd] in H1. destruct (dget (lit "kind") e) as [[| |x| |]|] eqn:D; try discriminate. apply Ok_inj' in H1 as E1. clear H1.
      assert (NoDup K1 /\ forall k, In k K1 <-> In k K0 \/ (smem (upper k) allowed_streams = true /\ k = x)) as [ND1 IN1].
      { destruct (smem (upper x) allowed_streams) eqn:A, (smem x K0) eqn:M; cbn [andb negb] in E1; rewrite <- E1.
        - split; auto. intros k. split; auto. intros [Y|[_ ->]]; auto. apply smem_In. auto.
        - split. + apply NoDup_rev in ND. rewrite <- (rev_involutive (K0 ++ [x])). apply NoDup_rev. rewrite rev_app_distr. cbn. constructor; auto. rewrite <- in_rev. intros Y. apply smem_In in Y. congruence.
          + intros k. rewrite in_app_iff. cbn. split; [intros [Y|[->|[]]]; auto|]. intros [Y|[_ ->]]; auto.
        - split; auto. intros k. split; auto. intros [Y|[Y ->]]; auto. congruence.
        - split; auto. intros k. split; auto. intros [Y|[Y ->]]; auto. congruence. }
      apply IH in H; auto. destruct H as (N2 & IN2 & F2). split; [auto|]. split; [|constructor; eauto].
      intros k. rewrite IN2, IN1. split.
      + intros [[Y|[Y ->]]|(Y & n' & e' & I' & H')]; auto; right; (split; [auto|]).
        * exists n, e. split; [left; auto|]. unfold has_kind. rewrite D. apply seqb_refl.
        * exists n', e'. split; [right|]; auto.
      + intros [Y|(Y & n' & e' & [I'|I'] & H')]; auto.
        * inversion I'. subst n' e'. unfold has_kind in H'. rewrite D in H'. apply seqb_eq in H'. subst x. auto.
        * right. split; eauto. }
  apply G in H; [|constructor]. destruct H as (A & B & C). split; [auto|]. split; [|auto]. intros k. rewrite B. split; [intros [[]|X]; auto|auto].
Qed.

(** ** building *)
Definition of_kind (k : str) (cfg : sconfig) : sconfig := filter (fun ne => has_kind k (snd ne)) cfg.
Definition build (ne : str * dict sval) : res vstream := vasp_stream R compile (fst ne) (snd ne).
Lemma inner_ok kind (cfg : sconfig) tr inv tr' inv' : NoDup (dkeys tr) -> NoDup (dkeys inv) -> 
  foldM (add_entry R compile kind) cfg (tr, inv) = Ok (tr', inv') ->
  exists ms, mapM build (of_kind kind cfg) = Ok ms /\ tr' = dapp (key_of kind) (filter (noninv R) ms) tr /\ inv' = dapp (key_of kind) (filter (vs_inverse R) ms) inv.
Proof.
  revert tr inv. induction cfg as [|[n e] cfg IH]; intros tr inv N1 N2 H.
  - cbn in H. inversion H. exists []. cbn. rewrite !dapp_nil. auto.
  - cbn [foldM] in H. cbn [of_kind filter snd]. unfold has_kind at 1. unfold add_entry in H at 1. cbn [fst snd] in H.
    destruct (dget (lit "kind") e) as [[| |x| |]|] eqn:D; cbn [bind] in H; try discriminate; try (apply IH; auto; fail).
    destruct (seqb x kind) eqn:E; cbn [bind] in H; [|apply IH; auto].
    destruct (vasp_stream R compile n e) as [t|] eqn:V; [|discriminate]. cbn [bind] in H.
    destruct (vasp_stream_short _ _ _ V) as (_ & _ & _ & I). rewrite I in H. cbn [mapM]. unfold build at 1. cbn [fst snd]. rewrite V. cbn [bind].
    destruct (vs_inverse R t) eqn:VI.
    + unfold tget in H. destruct (dget (key_of kind) inv) as [l|] eqn:G; [|discriminate]. cbn [bind of_option] in H. rewrite (dset_dapp _ _ _ _ N2 G) in H.
      apply IH in H; [|auto|rewrite dkeys_dapp; auto]. destruct H as (ms & M & -> & ->). exists (t :: ms). fold (of_kind kind cfg). rewrite M. split; [auto|].
      rewrite dapp_dapp. cbn [filter]. unfold noninv at 2. rewrite VI. auto.
    + unfold tget in H. destruct (dget (key_of kind) tr) as [l|] eqn:G; [|discriminate]. cbn [bind of_option] in H. rewrite (dset_dapp _ _ _ _ N1 G) in H.
      apply IH in H; [|rewrite dkeys_dapp; auto|auto]. destruct H as (ms & M & -> & ->). exists (t :: ms). fold (of_kind kind cfg). rewrite M. split; [auto|].
      rewrite dapp_dapp. cbn [filter]. unfold noninv at 2. rewrite VI. auto.
Qed.
(** what is made of each kind, in order *)
Definition makes (cfg : sconfig) (k : str) (ms : list vstream) : Prop := mapM build (of_kind k cfg) = Ok ms.
Lemma outer_ok cfg ks tr inv tr' inv' : NoDup (dkeys tr) -> NoDup (dkeys inv) -> (forall k, In k ks -> In (key_of k) (dkeys tr) /\ In (key_of k) (dkeys inv)) ->
  foldM (fun ti kind => foldM (add_entry R compile kind) cfg ti) ks (tr, inv) = Ok (tr', inv') ->
  exists mss, Forall2 (makes cfg) ks mss /\ dkeys tr' = dkeys tr /\ dkeys inv' = dkeys inv /\
    Permutation (flat_map snd tr') (flat_map snd tr ++ flat_map (filter (noninv R)) mss) /\
    Permutation (flat_map snd inv') (flat_map snd inv ++ flat_map (filter (vs_inverse R)) mss).
Proof.
  revert tr inv. induction ks as [|k ks IH]; intros tr inv N1 N2 HK H; cbn [foldM] in H.
  - inversion H. subst. exists []. cbn. rewrite !app_nil_r. repeat split; auto.
  - apply bind_ok in H as [[tr1 inv1] [H1 H]]. apply inner_ok in H1; auto. destruct H1 as (ms & M & -> & ->).
    apply IH in H; [|rewrite dkeys_dapp; auto|rewrite dkeys_dapp; auto|intros k' Hk; rewrite !dkeys_dapp; apply HK; right; auto].
    destruct H as (mss & F & K1 & K2 & P1 & P2). rewrite dkeys_dapp in K1, K2. exists (ms :: mss). split; [constructor; auto|]. split; [auto|]. split; [auto|].
    destruct (HK k (or_introl eq_refl)) as [I1 I2]. cbn [flat_map]. split.
    + rewrite P1. rewrite (dapp_perm _ _ _ N1 I1). rewrite <- app_assoc. auto.
    + rewrite P2. rewrite (dapp_perm _ _ _ N2 I2). rewrite <- app_assoc. auto.
Qed.
Lemma empty_keys ks : let d := fold_left (fun d k => dset (key_of k) (@nil vstream) d) ks [] in
  NoDup (dkeys d) /\ (forall x, In x (dkeys d) <-> exists k, In k ks /\ x = key_of k) /\ flat_map snd d = [].
Proof.
  assert (forall ks (d : triggers), NoDup (dkeys d) -> flat_map snd d = [] -> let d' := fold_left (fun d k => dset (key_of k) (@nil vstream) d) ks d in
    NoDup (dkeys d') /\ (forall x, In x (dkeys d') <-> In x (dkeys d) \/ exists k, In k ks /\ x = key_of k) /\ flat_map snd d' = []) as G.
  { clear. induction ks as [|k ks IH]; intros d ND E; cbn [fold_left].
    - split; [auto|]. split; [|auto]. intros x. split; auto. intros [H|(k & [] & _)]; auto.
    - destruct (IH (dset (key_of k) [] d)) as (A & B & C); [apply dset_NoDup; auto| |].
      + clear -E. induction d as [|[a b] d IHd]; auto. cbn [flat_map snd] in E. apply app_eq_nil in E as [E1 E2]. subst b. cbn [dset]. destruct (seqb (key_of k) a); cbn [flat_map snd]; auto.
      + split; [auto|]. split; [|auto]. intros x. rewrite B. rewrite dkeys_dset. unfold dhas. destruct (dget (key_of k) d) eqn:G.
        * split; [intros [H|(k' & H & ->)]; auto; right; exists k'; split; [right|]; auto|]. intros [H|(k' & [->|H] & ->)]; auto; [|right; eauto].
          left. apply dget_In in G. apply in_map_iff. exists (key_of k', l). auto.
        * rewrite in_app_iff. cbn. split; [intros [[H|[<-|[]]]|(k' & H & ->)]; auto; right; eexists; split; eauto|]. intros [H|(k' & [->|H] & ->)]; auto. right. eauto. }
  destruct (G ks [] (NoDup_nil _) eq_refl) as (A & B & C). split; [auto|]. split; [|auto]. intros x. rewrite B. split; [intros [[]|H]; auto|auto].
Qed.
Lemma build_ok cfg ks tr inv : build_triggers R compile ks cfg = Ok (tr, inv) ->
  exists mss, Forall2 (makes cfg) ks mss /\ NoDup (dkeys tr) /\ NoDup (dkeys inv) /\ (forall x, In x (dkeys inv) -> exists k, In k ks /\ x = key_of k) /\ dkeys tr = dkeys inv /\
    Permutation (flat_map snd tr) (flat_map (filter (noninv R)) mss) /\ Permutation (flat_map snd inv) (flat_map (filter (vs_inverse R)) mss).
Proof.
  unfold build_triggers. intros H. destruct (empty_keys ks) as (A & B & C). cbv zeta in *. set (d := fold_left (fun d k => dset (key_of k) (@nil vstream) d) ks []) in *.
  apply outer_ok in H; auto.
  - destruct H as (mss & F & K1 & K2 & P1 & P2). exists mss. rewrite C in P1, P2. rewrite K1, K2. split; [auto|]. split; [auto|]. split; [auto|]. split; [|auto]. intros x Hx. apply B. auto.
  - intros k Hk. assert (In (key_of k) (dkeys d)) by (apply B; eauto). auto.
Qed.
Lemma extend_ok ks tr inv all : NoDup (dkeys tr) -> Forall (fun t => noninv R t = false) (flat_map snd inv) -> extend_triggers R ks tr inv = Ok all ->
  dkeys all = dkeys tr /\ filter (noninv R) (flat_map snd all) = filter (noninv R) (flat_map snd tr) /\
  (forall t, In t (flat_map snd all) -> In t (flat_map snd tr) \/ In t (flat_map snd inv)) /\
  (forall t, In t (flat_map snd tr) -> In t (flat_map snd all)) /\
  (forall k l t, In k ks -> dget (key_of k) inv = Some l -> In t l -> In t (flat_map snd all)).
Proof.
  unfold extend_triggers. intros ND FI. revert tr ND. induction ks as [|k ks IH]; intros tr ND H; cbn [foldM] in H.
  - inversion H. subst. repeat split; auto. intros k l t [].
  - apply bind_ok in H as [tr1 [H1 H]]. apply bind_ok in H1 as [l [G1 H1]]. apply bind_ok in H1 as [i [G2 H1]]. inversion H1 as [E]. clear H1.
    unfold tget in G1, G2. destruct (dget (key_of k) tr) as [l'|] eqn:D1; inversion G1. subst l'. destruct (dget (key_of k) inv) as [i'|] eqn:D2; inversion G2. subst i'. clear G1 G2.
    rewrite (dset_dapp _ _ _ _ ND D1) in E. subst tr1. apply IH in H; [|rewrite dkeys_dapp; auto]. destruct H as (A & B & C & D & F).
    assert (In (key_of k) (dkeys tr)) as KI. { apply dget_In in D1. apply in_map_iff. exists (key_of k, l). auto. }
    pose proof (dapp_perm (key_of k) i tr ND KI) as P.
    assert (incl i (flat_map snd inv)) as II. { intros t Ht. apply in_flat_map. exists (key_of k, i). split; [apply dget_In; auto|auto]. }
    rewrite dkeys_dapp in A. split; [auto|]. split; [|split; [|split]].
    + rewrite B. apply dapp_filter. clear -II FI. rewrite Forall_forall in FI. induction i as [|t i IHi]; auto. cbn. rewrite (FI t (II t (or_introl eq_refl))). apply IHi. intros x Hx. apply II. right. auto.
    + intros t Ht. apply C in Ht as [Ht|Ht]; auto. apply (Permutation_in _ P) in Ht. apply in_app_iff in Ht as [Ht|Ht]; auto.
    + intros t Ht. apply D. apply (Permutation_in _ (Permutation_sym P)). apply in_app_iff. auto.
    + intros k' l' t [->|Hk] G Ht; [|eauto]. rewrite D2 in G. inversion G. subst l'. apply D. apply (Permutation_in _ (Permutation_sym P)). apply in_app_iff. auto.
Qed.
Lemma makes_In cfg k ms t : makes cfg k ms -> (In t ms <-> exists n e, In (n, e) cfg /\ has_kind k e = true /\ vasp_stream R compile n e = Ok t).
Proof.
  unfold makes. intros H. apply mapM_ok_Forall2 in H. split.
  - intros Ht. assert (exists ne, In ne (of_kind k cfg) /\ build ne = Ok t) as ([n e] & I & B).
    { clear -H Ht. induction H; [destruct Ht|]. destruct Ht as [->|Ht]; [exists x; split; [left|]; auto|]. destruct (IHForall2 Ht) as (ne & I & B). exists ne. split; [right|]; auto. }
    apply filter_In in I as [I K]. exists n, e. auto.
  - intros (n & e & I & K & V). assert (In (n, e) (of_kind k cfg)) as IO by (apply filter_In; auto).
    clear -H IO V. induction H; [destruct IO|]. destruct IO as [->|IO]; [|right; auto]. left. unfold build in H. cbn in H. congruence.
Qed.
Lemma makes_short cfg k ms : makes cfg k ms -> map (vs_short R) ms = map fst (of_kind k cfg).
Proof.
  unfold makes. intros H. apply mapM_ok_Forall2 in H. induction H as [|[n e] t l ms B F IH]; auto. cbn. f_equal; auto. unfold build in B. cbn in B. apply vasp_stream_short in B. tauto.
Qed.
Lemma filter_keys_NoDup {V} (f : str * V -> bool) (d : dict V) : NoDup (dkeys d) -> NoDup (map fst (filter f d)).
Proof.
  induction d as [|a d IH]; intros H; cbn; [constructor|]. inversion H. subst. destruct (f a); cbn; auto. constructor; auto.
  intros X. apply in_map_iff in X as [y [E Y]]. apply filter_In in Y as [Y _]. apply H2. apply in_map_iff. eauto.
Qed.
Lemma makes_NoDup cfg ks mss : NoDup (dkeys cfg) -> NoDup ks -> Forall2 (makes cfg) ks mss -> NoDup (map (vs_short R) (concat mss)).
Proof.
  intros ND NK F. induction F as [|k ms ks mss M F IH]; [constructor|]. inversion NK. subst. cbn [concat]. rewrite map_app.
  specialize (IH H2). rewrite (makes_short _ _ _ M).
  assert (forall n, In n (map fst (of_kind k cfg)) -> ~ In n (map (vs_short R) (concat mss))) as DJ.
  { intros n Hn Hm. apply in_map_iff in Hn as [[n' e] [E Hn]]. cbn in E. subst n'. apply filter_In in Hn as [Hn Kn]. cbn [snd] in Kn.
    apply in_map_iff in Hm as [t [E Ht]]. apply in_concat in Ht as [ms' [Hms Ht]].
    assert (exists k', In k' ks /\ makes cfg k' ms') as (k' & Hk' & Mk'). { clear -F Hms. induction F; [destruct Hms|]. destruct Hms as [->|Hms]; [exists x; split; [left|]; auto|]. destruct (IHF Hms) as (k' & I & B). exists k'. split; [right|]; auto. }
    destruct (proj1 (makes_In _ _ _ _ Mk') Ht) as (n' & e' & I' & K' & V). apply vasp_stream_short in V as (V & _). subst n'. subst n.
    pose proof (In_dget _ _ _ ND Hn) as G1. pose proof (In_dget _ _ _ ND I') as G2. rewrite G1 in G2. inversion G2. subst e'.
    unfold has_kind in Kn, K'. destruct (dget (lit "kind") e) as [[| |x| |]|]; try discriminate. apply seqb_eq in Kn. apply seqb_eq in K'. subst. contradiction. }
  clear -DJ IH ND. pose proof (filter_keys_NoDup (fun ne => has_kind k (snd ne)) cfg ND) as N1. fold (of_kind k cfg) in N1.
  induction (map fst (of_kind k cfg)) as [|a l IHl]; auto. inversion N1. subst. cbn. constructor.
  - intros H. apply in_app_iff in H as [H|H]; auto. apply (DJ a); [left|]; auto.
  - apply IHl; auto. intros n Hn. apply DJ. right. auto.
Qed.
End C.
