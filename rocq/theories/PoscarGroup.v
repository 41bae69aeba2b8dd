(** Grouping of the sites by species (poscar.py:599-679). *)
From Coq Require Import Ascii String List NArith ZArith Bool Lia Arith Permutation Sorting.Sorted.
From Verif Require Import PyBase PyNum PyStrLemmas UtilsModel KpointsModel PoscarModel.
Import ListNotations.
Local Open Scope list_scope.
Local Open Scope bool_scope.
Local Open Scope nat_scope.

(** the species of the sites announced by a header of species and counts *)
Definition expand (gs : list (str * nat)) : list str := flat_map (fun g => repeat (fst g) (snd g)) gs.
(** number of occurrences *)
Lemma count_cons x y l : count x (y :: l) = (if seqb x y then 1 else 0) + count x l.
Proof. unfold count. cbn [filter]. destruct (seqb x y); reflexivity. Qed.
Lemma count_app x a b : count x (a ++ b) = count x a + count x b.
Proof. unfold count. rewrite filter_app, app_length. reflexivity. Qed.
Lemma count_In x l : In x l <-> 0 < count x l.
Proof.
  induction l as [|y l IH]; [cbn; split; [tauto|lia]|]. rewrite count_cons. cbn [In]. destruct (seqb x y) eqn:E.
  - apply seqb_eq in E. subst. split; [lia|auto].
  - apply seqb_neq in E. rewrite IH. cbn. split; [intros [K|K]; [congruence|auto]|auto].
Qed.

Lemma uniq_In l : forall seen x, In x (uniq seen l) <-> In x l /\ ~ In x seen.
Proof.
  induction l as [|y l IH]; intros seen x; cbn [uniq]; [cbn; tauto|].
  destruct (smem y seen) eqn:E.
  - apply smem_In in E. rewrite IH. cbn. split; [tauto|]. intros [[<-|H] K]; tauto.
  - assert (~ In y seen) as NI by (intros K; apply smem_In in K; congruence).
    cbn [In]. rewrite IH. cbn [In]. split.
    + intros [<-|[H K]]; split; auto.
    + intros [[<-|H] K]; auto. destruct (list_eq_dec ascii_dec y x) as [->|N]; auto. right. split; auto. intros [Q|Q]; auto.
Qed.
Lemma uniq_NoDup l : forall seen, NoDup (uniq seen l).
Proof.
  induction l as [|y l IH]; intros seen; cbn [uniq]; [constructor|].
  destruct (smem y seen); auto. constructor; auto. rewrite uniq_In. cbn. tauto.
Qed.
Lemma insert_by_perm f x l : Permutation (insert_by f x l) (x :: l).
Proof.
  induction l as [|y l IH]; cbn; auto. destruct (f x <=? f y); auto.
  apply perm_trans with (y :: x :: l); [constructor; auto|constructor].
Qed.
Lemma sort_by_perm f l : Permutation (sort_by f l) l.
Proof. induction l as [|x l IH]; cbn; auto. rewrite insert_by_perm. constructor; auto. Qed.
Definition leby (f : str -> nat) (a b : str) : Prop := f a <= f b.
Lemma insert_by_sorted f x l : StronglySorted (leby f) l -> StronglySorted (leby f) (insert_by f x l).
Proof.
  induction 1 as [|y l S IH F]; cbn; [repeat constructor|].
  destruct (Nat.leb_spec (f x) (f y)) as [L|L].
  - constructor; [constructor; auto|]. constructor; [exact L|]. eapply Forall_impl; [|exact F]. unfold leby. intros; lia.
  - constructor; auto. assert (Forall (leby f y) (x :: l)) as G by (constructor; [unfold leby; lia|auto]).
    rewrite Forall_forall in *. intros z Hz. apply G. apply (Permutation_in _ (insert_by_perm f x l)). auto.
Qed.
Lemma sort_by_sorted f l : StronglySorted (leby f) (sort_by f l).
Proof. induction l; cbn; [constructor|apply insert_by_sorted; auto]. Qed.
(** stability: the keys of one count stay in order of first occurrence *)
Lemma insert_by_stable f x l n : StronglySorted (leby f) l ->
  filter (fun k => f k =? n) (insert_by f x l) = filter (fun k => f k =? n) (x :: l).
Proof.
  induction 1 as [|y l S IH F]; cbn [insert_by]; auto. destruct (Nat.leb_spec (f x) (f y)) as [L|L]; auto.
  cbn [filter] in *. rewrite IH. destruct (Nat.eqb_spec (f x) n) as [E1|E1]; destruct (Nat.eqb_spec (f y) n) as [E2|E2]; auto. lia.
Qed.
Lemma sort_by_stable f l n : filter (fun k => f k =? n) (sort_by f l) = filter (fun k => f k =? n) l.
Proof.
  induction l as [|x l IH]; auto. cbn [sort_by]. rewrite insert_by_stable by apply sort_by_sorted. cbn [filter]. rewrite IH. reflexivity.
Qed.

Section Group.
Variable A : arith.
Notation wsite := (wsite A).
Implicit Types (ws : list wsite).
Definition of_specie (k : str) (s : wsite) : bool := seqb k (ws_specie A s).

Lemma filter_of_specie_self k ws : map (ws_specie A) (filter (of_specie k) ws) = repeat k (count k (map (ws_specie A) ws)).
Proof.
  induction ws as [|s ws IH]; auto. cbn [filter map]. rewrite count_cons. unfold of_specie at 1.
  destruct (seqb k (ws_specie A s)) eqn:E; [|auto]. cbn [map repeat Nat.add]. rewrite IH. apply seqb_eq in E. rewrite <- E. reflexivity.
Qed.
Lemma filter_other k k' ws : k <> k' -> filter (of_specie k) (filter (of_specie k') ws) = [].
Proof.
  intros N. induction ws as [|s ws IH]; auto. cbn [filter]. unfold of_specie at 2. destruct (seqb k' (ws_specie A s)) eqn:E; auto.
  apply seqb_eq in E. cbn [filter]. unfold of_specie at 1. destruct (seqb k (ws_specie A s)) eqn:E2; auto. apply seqb_eq in E2. congruence.
Qed.
Lemma filter_idem k ws : filter (of_specie k) (filter (of_specie k) ws) = filter (of_specie k) ws.
Proof.
  induction ws as [|s ws IH]; auto. cbn [filter]. destruct (of_specie k s) eqn:E; auto. cbn [filter]. rewrite E, IH. reflexivity.
Qed.
Lemma filter_flat k keys ws : NoDup keys ->
  filter (of_specie k) (flat_map (fun k => filter (of_specie k) ws) keys) =
  if smem k keys then filter (of_specie k) ws else [].
Proof.
  induction 1 as [|x keys H ND IH]; auto. cbn [flat_map]. rewrite filter_app, IH.
  unfold smem. cbn [existsb]. fold (smem k keys). destruct (seqb k x) eqn:E.
  - apply seqb_eq in E. subst x. rewrite filter_idem. destruct (smem k keys) eqn:M; [apply smem_In in M; contradiction|]. cbn [orb]. apply app_nil_r.
  - apply seqb_neq in E. rewrite filter_other by auto. reflexivity.
Qed.
Lemma filter_perm_split k ws : Permutation ws (filter (of_specie k) ws ++ filter (fun s => negb (of_specie k s)) ws).
Proof.
  induction ws as [|s ws IH]; cbn; auto. destruct (of_specie k s); cbn; [constructor; auto|].
  rewrite IH at 1. apply Permutation_middle.
Qed.
Lemma flat_perm keys : forall ws, NoDup keys -> (forall s, In s ws -> In (ws_specie A s) keys) ->
  Permutation (flat_map (fun k => filter (of_specie k) ws) keys) ws.
Proof.
  induction keys as [|k keys IH]; intros ws ND H.
  - destruct ws as [|s ws]; [constructor|]. destruct (H s (or_introl eq_refl)).
  - inversion ND; subst. cbn [flat_map]. eapply perm_trans; [|symmetry; apply (filter_perm_split k ws)]. apply Permutation_app_head.
    rewrite <- (IH (filter (fun s => negb (of_specie k s)) ws)); auto.
    + match goal with |- Permutation ?a ?b => replace b with a; [reflexivity|] end.
      clear IH H ND H3. induction keys as [|k' keys IH]; auto. cbn [flat_map].
      rewrite IH by (intros K; apply H2; right; auto). f_equal.
      assert (k <> k') as N by (intros ->; apply H2; left; auto). clear -N.
      induction ws as [|s ws IH]; auto. cbn [filter]. destruct (of_specie k s) eqn:E1; destruct (of_specie k' s) eqn:E2; cbn [negb filter]; rewrite ?E2; try congruence.
      unfold of_specie in *. apply seqb_eq in E1. apply seqb_eq in E2. congruence.
    + intros s Hs. apply filter_In in Hs as [Hs N]. destruct (H s Hs) as [E|E]; auto.
      unfold of_specie in N. rewrite E, seqb_refl in N. discriminate.
Qed.

Theorem group_default ws out gs : group_sites A false ws = (out, gs) ->
  Permutation out ws /\
  NoDup (map fst gs) /\
  (forall k n, In (k, n) gs -> n = length (filter (of_specie k) ws) /\ 0 < n) /\
  map (ws_specie A) out = expand gs /\
  (forall k, filter (of_specie k) out = filter (of_specie k) ws) /\
  StronglySorted (fun a b => snd a <= snd b) gs.
Proof.
  unfold group_sites. set (species := map (ws_specie A) ws). set (f := fun k => count k species). set (keys := sort_by f (uniq [] species)).
  intros E. inversion E. clear E. change (fun k => filter (fun s => seqb k (ws_specie A s)) ws) with (fun k => filter (of_specie k) ws) in *.
  assert (NoDup keys) as ND.
  { eapply Permutation_NoDup; [symmetry; apply sort_by_perm|apply uniq_NoDup]. }
  assert (forall k, In k keys <-> In k species) as IK.
  { intros k. assert (In k keys <-> In k (uniq [] species)) as -> by (split; apply Permutation_in; [|symmetry]; apply sort_by_perm).
    rewrite uniq_In. cbn. tauto. }
  assert (map fst (map (fun k => (k, count k species)) keys) = keys) as MF by (rewrite map_map; apply map_id).
  split; [|split; [|split; [|split; [|split]]]].
  - apply flat_perm; auto. intros s Hs. apply IK. apply in_map. auto.
  - rewrite MF. auto.
  - intros k n H. apply in_map_iff in H as [k' [E H]]. inversion E. subst. split.
    + pose proof (filter_of_specie_self k ws) as L. apply (f_equal (@length _)) in L. rewrite map_length, repeat_length in L. symmetry. exact L.
    + apply count_In, IK. auto.
  - unfold expand. clear MF IK ND H0 H1. induction keys as [|k keys IH]; auto. cbn [flat_map map]. rewrite map_app, IH. f_equal.
    apply filter_of_specie_self.
  - intros k. rewrite filter_flat by auto. destruct (smem k keys) eqn:M; auto.
    assert (~ In k species) as NI by (intros K; apply IK, smem_In in K; congruence).
    clear -NI. unfold species in NI. induction ws as [|s ws IH]; auto. cbn [filter]. unfold of_specie at 1.
    destruct (seqb k (ws_specie A s)) eqn:E; [apply seqb_eq in E; exfalso; apply NI; left; auto|]. apply IH. intros K. apply NI. right. auto.
  - assert (StronglySorted (leby f) keys) as S by apply sort_by_sorted. clear -S. induction S as [|k keys S IH F]; cbn; constructor; auto.
    clear -F. induction F; cbn; constructor; auto.
Qed.
(** ties are in order of first occurrence *)
Theorem group_ties ws out gs n : group_sites A false ws = (out, gs) ->
  map fst (filter (fun g => snd g =? n) gs) = filter (fun k => count k (map (ws_specie A) ws) =? n) (uniq [] (map (ws_specie A) ws)).
Proof.
  unfold group_sites. intros E. inversion E. clear E.
  rewrite <- sort_by_stable. set (keys := sort_by _ _). clearbody keys. induction keys as [|k keys IH]; auto.
  cbn [map filter snd]. destruct (count k (map (ws_specie A) ws) =? n); cbn [map]; rewrite IH; reflexivity.
Qed.

Lemma runs_expand l : expand (runs l) = l.
Proof.
  induction l as [|x l IH]; auto. cbn [runs]. destruct (runs l) as [|[y n] t] eqn:R; [cbn in *; congruence|].
  destruct (seqb x y) eqn:E.
  - apply seqb_eq in E. subst y. cbn [expand flat_map fst snd repeat app] in *. congruence.
  - cbn [expand flat_map fst snd repeat app] in *. congruence.
Qed.
Lemma runs_pos l : Forall (fun g => 0 < snd g) (runs l).
Proof.
  induction l as [|x l IH]; [constructor|]. cbn [runs]. destruct (runs l) as [|[y n] t] eqn:R; [repeat constructor|].
  inversion IH; subst. destruct (seqb x y); repeat (constructor; cbn [snd] in *; auto with arith).
Qed.
(** consecutive groups have different species *)
Fixpoint distinct_neighbours (l : list str) : Prop :=
  match l with x :: ((y :: _) as r) => x <> y /\ distinct_neighbours r | _ => True end.
Lemma runs_distinct l : distinct_neighbours (map fst (runs l)).
Proof.
  induction l as [|x l IH]; [exact I|]. cbn [runs]. destruct (runs l) as [|[y n] t] eqn:R; [exact I|].
  destruct (seqb x y) eqn:E.
  - apply seqb_eq in E. subst y. exact IH.
  - cbn [map fst] in *. split; auto. apply seqb_neq. auto.
Qed.
Theorem group_conserve ws out gs : group_sites A true ws = (out, gs) ->
  out = ws /\ expand gs = map (ws_specie A) ws /\ Forall (fun g => 0 < snd g) gs /\ distinct_neighbours (map fst gs).
Proof.
  unfold group_sites. intros E. inversion E. auto using runs_expand, runs_pos, runs_distinct.
Qed.
(** in both cases *)
Lemma group_any c ws out gs : group_sites A c ws = (out, gs) ->
  map (ws_specie A) out = expand gs /\ Forall (fun g => 0 < snd g) gs /\ Permutation out ws.
Proof.
  destruct c; intros H.
  - apply group_conserve in H as [-> [E [P _]]]. auto.
  - apply group_default in H as [P [_ [C [E _]]]]. split; auto. split; auto. apply Forall_forall. intros [k n] Hin. apply C in Hin. cbn. tauto.
Qed.
End Group.
