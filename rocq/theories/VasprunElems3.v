(** Runs of the event parser over the final energies and the eigenvalues. *)
From Coq Require Import Ascii String List NArith ZArith Bool Lia.
From Verif Require Import PyBase PyStrLemmas PyNum UtilsModel LineModel OutcarModel ChgcarModel StreamConfig VasprunTypes VasprunXml VasprunModel VasprunEvents VasprunSpec VasprunSteps VasprunDoc VasprunRun VasprunElems VasprunElems2.
Import ListNotations.
Local Open Scope string_scope.
Local Open Scope list_scope.

(** ** Final energies *)
Definition en_v (e : xml) : float := match en_val e with Ok v => v | Exn _ => FNan end.
Definition en_name (e : xml) : string := match attr e "name" with Some n => n | None => "" end.
Definition en_upd (tt : tot) (k : xml) : tot := if existsb (String.eqb (en_name k)) en_names then en_set (en_name k) (en_v k) tt else tt.
Lemma ndset_last {A} k (v w : A) d : ~ In k (map fst d) -> ndset k w (d ++ [(k, v)]) = d ++ [(k, w)].
Proof.
  intros N. unfold ndset. rewrite existsb_app. cbn [existsb fst]. rewrite Nat.eqb_refl, orb_true_r. rewrite map_app. cbn [map fst]. rewrite Nat.eqb_refl. f_equal.
  induction d as [|[k' v'] d IH]; auto. cbn [map fst]. destruct (Nat.eqb_spec k' k) as [->|]; [exfalso; apply N; left; auto|]. f_equal. apply IH. intros I. apply N. right; auto.
Qed.
Lemma ndget_last {A} k (v : A) d : ~ In k (map fst d) -> ndget k (d ++ [(k, v)]) = Some v.
Proof. intros N. rewrite ndget_app by auto. cbn. rewrite Nat.eqb_refl. auto. Qed.
Definition en_ok (e : xml) : Prop := (exists a t, e = Elem "i" a t [] /\ assoc "name" a <> None) /\ (In (en_name e) en_names -> exists v, en_val e = Ok v).
Lemma en_list kbb p l d tt s : Forall en_ok l -> s_flags s = (4 + 2 ^ 28)%N -> ~ In (s_calc s) (map fst d) -> s_totens s = d ++ [(s_calc s, tt)] ->
  run_events kbb (flat_map (events p) l) s = Ok (set_s_totens (d ++ [(s_calc s, fold_left en_upd l tt)]) s).
Proof.
  intros F. revert tt s. induction F as [|e l [(a & t & -> & N) V] F IH]; intros tt s E K T. { cbn. rewrite <- T. destruct s; auto. }
  destruct (assoc "name" a) as [n|] eqn:A; [|congruence]. rewrite run_flat_cons, (en_leaf kbb p a t s n tt); auto; [|rewrite T; apply ndget_last; auto].
  assert (en_name (Elem "i" a t []) = n) as EN by (unfold en_name, attr; cbn [attrs]; rewrite A; auto). rewrite EN in V. cbn [fold_left].
  assert (en_upd tt (Elem "i" a t []) = if existsb (String.eqb n) en_names then en_set n (en_v (Elem "i" a t [])) tt else tt) as -> by (unfold en_upd; rewrite EN; auto).
  destruct (existsb (String.eqb n) en_names) eqn:X.
  - assert (In n en_names) as I by (apply existsb_exists in X as (y & Y & Z); apply String.eqb_eq in Z; subst; auto). destruct (V I) as [v HV]. rewrite HV. cbn [bind].
    assert (en_v (Elem "i" a t []) = v) as -> by (unfold en_v; rewrite HV; auto).
    rewrite IH with (tt := en_set n v tt); try (destruct s; auto; fail). cbn [s_calc set_s_totens s_totens]. rewrite T. apply ndset_last; auto.
  - cbn [bind]. apply IH; auto.
Qed.
Definition en_last (n : string) (l : list xml) (o : option (option float)) : option (option float) := fold_left (fun o k => if String.eqb n (en_name k) then Some (Some (en_v k)) else o) l o.
Lemma en_fold l tt : fold_left en_upd l tt = Tot (to_extrapolated tt) (to_free tt) (to_no_entropy tt)
  (en_last "e_0_energy" l (to_extrapolated_final tt)) (en_last "e_fr_energy" l (to_free_final tt)) (en_last "e_wo_entrp" l (to_no_entropy_final tt)).
Proof.
  revert tt. induction l as [|k l IH]; intros tt; [destruct tt; auto|]. unfold en_last in *. cbn [fold_left]. rewrite IH. clear IH. unfold en_upd, en_set, en_names. cbn [existsb]. generalize (en_name k) as n. intros n.
  rewrite (String.eqb_sym n "e_0_energy"), (String.eqb_sym n "e_fr_energy"), (String.eqb_sym n "e_wo_entrp").
  destruct (String.eqb_spec "e_0_energy" n) as [<-|D0]; [reflexivity|]. destruct (String.eqb_spec "e_fr_energy" n) as [<-|D1]; [reflexivity|]. destruct (String.eqb_spec "e_wo_entrp" n) as [<-|D2]; [reflexivity|]. reflexivity.
Qed.
Lemma en_last_one n l e o : n <> "" -> Forall (fun k => tag k = "i") l -> filter (matches (TagAt "i" "name" n)) l = [e] -> en_last n l o = Some (Some (en_v e)).
Proof.
  intros NN F. assert (forall l o, Forall (fun k => tag k = "i") l -> en_last n l o = fold_left (fun o k => Some (Some (en_v k))) (filter (matches (TagAt "i" "name" n)) l) o) as H.
  { clear -NN. intros l. induction l as [|k l IH]; intros o F; auto. inversion F as [|? ? T F']; subst. unfold en_last in *. cbn [fold_left filter matches]. rewrite T. change (String.eqb "i" "i") with true. cbn [andb]. unfold en_name.
    destruct (attr k "name") as [m|]; cbn [opt_is].
    - destruct (String.eqb n m); cbn [fold_left]; apply IH; auto.
    - destruct (String.eqb_spec n ""); [congruence|apply IH; auto]. }
  intros E. rewrite H, E by auto. reflexivity.
Qed.
Lemma length_one {A} (l : list A) : length l = 1 -> exists a, l = [a]. Proof. destruct l as [|a [|b l]]; cbn; try discriminate. eauto. Qed.
Lemma ev_energy kbb p e d tt s : is_energy e -> ready 4 s -> ~ In (s_calc s) (map fst d) -> s_totens s = d ++ [(s_calc s, tt)] ->
  exists e0 e1 e2, findall_child [TagAt "i" "name" "e_0_energy"] e = [e0] /\ findall_child [TagAt "i" "name" "e_fr_energy"] e = [e1] /\ findall_child [TagAt "i" "name" "e_wo_entrp"] e = [e2] /\
  forall v0 v1 v2, en_val e0 = Ok v0 -> en_val e1 = Ok v1 -> en_val e2 = Ok v2 ->
  run_events kbb (events p e) s = Ok (set_s_totens (d ++ [(s_calc s, Tot (to_extrapolated tt) (to_free tt) (to_no_entropy tt) (Some (Some v0)) (Some (Some v1)) (Some (Some v2)))]) s).
Proof.
  intros (ks & (x & ->) & F & U) R K T.
  destruct (length_one _ (U "e_0_energy" ltac:(cbn; auto))) as [e0 H0]. destruct (length_one _ (U "e_fr_energy" ltac:(cbn; auto))) as [e1 H1]. destruct (length_one _ (U "e_wo_entrp" ltac:(cbn; auto))) as [e2 H2].
  exists e0, e1, e2. rewrite !child_cons, !flat_child_nil. split; [|split; [|split]]; auto. intros v0 v1 v2 V0 V1 V2.
  rewrite run_elem. cbn [handle].
  match goal with |- context [step kbb true true p ?e s] => assert (step kbb true true p e s = Ok (set_s_flags (4 + 2 ^ 28) s)) as -> by (destruct R as (E & _ & _); clear -E; at_flags s E; ev; reflexivity) end. cbn [bind].
  assert (Forall (fun k => tag k = "i") ks) as FI by (eapply Forall_impl; [|exact F]; intros k (a & t & -> & _); auto).
  rewrite en_list with (d := d) (tt := tt); try (destruct s; auto; fail).
  - cbn [bind handle]. rewrite en_fold, (en_last_one "e_0_energy" ks e0 _ ltac:(discriminate) FI H0), (en_last_one "e_fr_energy" ks e1 _ ltac:(discriminate) FI H1), (en_last_one "e_wo_entrp" ks e2 _ ltac:(discriminate) FI H2).
    unfold en_v. rewrite V0, V1, V2. clear -R T. destruct R as (E & D & D2). at_flags s E. cbn [s_calc set_s_flags]. generalize (d ++ [(ca, Tot (to_extrapolated tt) (to_free tt) (to_no_entropy tt) (Some (Some v0)) (Some (Some v1)) (Some (Some v2)))]). intros dd. ev. reflexivity.
  - apply Forall_forall. intros k KI. rewrite Forall_forall in F. destruct (F k KI) as (a & t & -> & N). split; [eauto|]. intros IN. unfold en_name, attr in IN. cbn [attrs] in IN.
    destruct (assoc "name" a) as [n|] eqn:A; [|congruence].
    assert (forall n', n = n' -> In (Elem "i" a t []) (filter (matches (TagAt "i" "name" n')) ks)) as FF.
    { intros n' ->. apply filter_In. split; auto. cbn [matches tag]. unfold attr. cbn [attrs]. rewrite A. cbn [opt_is]. rewrite !String.eqb_refl. auto. }
    destruct IN as [I|[I|[I|[]]]]; subst n; specialize (FF _ eq_refl); [rewrite H0 in FF|rewrite H1 in FF|rewrite H2 in FF]; destruct FF as [<-|[]]; eauto.
Qed.
