(** Runs of the event parser over electronic steps, energies and eigenvalues. *)
From Coq Require Import Ascii String List NArith ZArith Bool Lia.
From Verif Require Import PyBase PyStrLemmas PyNum UtilsModel LineModel OutcarModel ChgcarModel StreamConfig VasprunTypes VasprunXml VasprunModel VasprunEvents VasprunSpec VasprunSteps VasprunDoc VasprunRun VasprunElems.
Import ListNotations.
Local Open Scope string_scope.
Local Open Scope list_scope.

(** ** Electronic steps *)
Definition sc_i (n : string) : xml -> bool := matches (TagAt "i" "name" n).
Definition sc_add (l : list xml) (s : est) : est :=
  set_s_data3 (s_data3 s ++ filter (sc_i "e_0_energy") l) (set_s_data4 (s_data4 s ++ filter (sc_i "e_fr_energy") l) (set_s_data5 (s_data5 s ++ filter (sc_i "e_wo_entrp") l) s)).
Definition sc_ok (d : xml) : Prop := In (tag d) ["energy"; "i"; "time"] /\ (tag d = "i" -> attr d "name" <> None /\ kids d = []).
Lemma sc_add_nil s : sc_add [] s = s. Proof. destruct s. unfold sc_add. cbn. rewrite !app_nil_r. reflexivity. Qed.
Lemma sc_add_app a b s : sc_add b (sc_add a s) = sc_add (a ++ b) s. Proof. destruct s. unfold sc_add. cbn. rewrite !filter_app, !app_assoc. reflexivity. Qed.
Lemma sc_add_flags l s : s_flags (sc_add l s) = s_flags s. Proof. destruct s. reflexivity. Qed.
Lemma sc_add_ready F l s : ready F s -> ready F (sc_add l s). Proof. intros R. destruct s. exact R. Qed.
Lemma sc_other kbb st seen par tg a t ks s : tg = "energy" \/ tg = "time" -> s_flags s = (4 + 2 ^ 32)%N -> step kbb st seen par (Elem tg a t ks) s = Ok s.
Proof.
  intros T E. at_flags s E. destruct T as [->| ->]; blocks; (destruct (opt_is "interpolated" (attr _ "comment"))); destruct st; ev; reflexivity.
Qed.
Lemma sc_leaf kbb p a t s n : assoc "name" a = Some n -> s_flags s = (4 + 2 ^ 32)%N -> run_events kbb (events p (Elem "i" a t [])) s = Ok (sc_add [Elem "i" a t []] s).
Proof.
  intros N E. unfold run_events. cbn [events flat_map app foldM bind]. unfold sc_add, sc_i. cbn [filter matches tag]. unfold attr. cbn [attrs]. rewrite N. change (String.eqb "i" "i") with true. cbn [andb opt_is].
  destruct (String.eqb_spec "e_0_energy" n) as [<-|D0]; [|destruct (String.eqb_spec "e_fr_energy" n) as [<-|D1]; [|destruct (String.eqb_spec "e_wo_entrp" n) as [<-|D2]]].
  all: at_flags s E; blocks; unfold attr; cbn [attrs]; rewrite !N; cbv [opt_is]; rewrite ?(proj2 (String.eqb_neq "e_0_energy" n)), ?(proj2 (String.eqb_neq "e_fr_energy" n)), ?(proj2 (String.eqb_neq "e_wo_entrp" n)) by auto.
  all: destruct (assoc "comment" a) as [w|]; [destruct (String.eqb "interpolated" w)|]; ev; rewrite ?app_nil_r; reflexivity.
Qed.
Lemma sc_list kbb l : Forall (fun e => (forall d, In d (within e) -> sc_ok d) -> forall p s, s_flags s = (4 + 2 ^ 32)%N -> run_events kbb (events p e) s = Ok (sc_add (within e) s)) l ->
  (forall k d, In k l -> In d (within k) -> sc_ok d) -> forall p s, s_flags s = (4 + 2 ^ 32)%N -> run_events kbb (flat_map (events p) l) s = Ok (sc_add (flat_map within l) s).
Proof.
  intros F. induction F as [|e l H F IH]; intros Q p s E. { cbn. rewrite sc_add_nil. auto. }
  rewrite run_flat_cons, H; auto; [|intros d D; eapply Q; [left; auto|auto]]. cbn [bind flat_map]. rewrite IH; [|intros k d K; eapply Q; right; auto|rewrite sc_add_flags; auto]. rewrite sc_add_app. auto.
Qed.
Lemma sc_elem kbb e : (forall d, In d (within e) -> sc_ok d) -> forall p s, s_flags s = (4 + 2 ^ 32)%N -> run_events kbb (events p e) s = Ok (sc_add (within e) s).
Proof.
  induction e as [tg a t ks IH] using xml_rect'. intros H p s E. destruct (H _ (or_introl eq_refl)) as [T I]. cbn [tag kids] in T, I. unfold attr in I. cbn [attrs] in I.
  assert (tg = "i" \/ tg <> "i") as [->|TI] by (destruct (String.eqb_spec tg "i"); auto).
  - destruct (I eq_refl) as [N ->]. destruct (assoc "name" a) as [n|] eqn:A; [|congruence]. rewrite (sc_leaf kbb p a t s n); auto.
  - assert (tg = "energy" \/ tg = "time") as T' by (destruct T as [<-|[<-|[<-|[]]]]; auto; congruence).
    rewrite run_elem. cbn [handle]. rewrite sc_other by auto. cbn [bind]. rewrite (sc_list kbb ks IH); auto; [|intros k d K D; apply H; right; cbn [descendants]; apply in_flat_map; eauto]. cbn [bind handle].
    rewrite sc_other by (auto; rewrite sc_add_flags; auto). f_equal. unfold within. cbn [descendants]. unfold sc_add. cbn [filter].
    assert (forall n, sc_i n (Elem tg a t ks) = false) as K by (intros n; unfold sc_i; cbn [matches tag]; rewrite (proj2 (String.eqb_neq "i" tg)) by congruence; auto). rewrite !K. reflexivity.
Qed.
Lemma ev_scstep kbb p e s : is_scstep e -> ready 4 s -> run_events kbb (events p e) s = Ok (sc_add (descendants e) s).
Proof.
  intros ((ks & x & ->) & H & _) R. rewrite run_elem. cbn [handle].
  match goal with |- context [step kbb true true p ?e s] => assert (step kbb true true p e s = Ok (set_s_flags (4 + 2 ^ 32) s)) as -> by (destruct R as (E & _ & _); at_flags s E; ev; reflexivity) end. cbn [bind].
  rewrite sc_list.
  - cbn [bind handle]. change (descendants (Elem "scstep" [] x ks)) with (flat_map within ks). generalize (flat_map within ks) as l. intros l. destruct R as (E & _ & _). clear -E. unfold sc_add. generalize (filter (sc_i "e_0_energy") l), (filter (sc_i "e_fr_energy") l), (filter (sc_i "e_wo_entrp") l). intros l1 l2 l3. at_flags s E. ev. reflexivity.
  - apply Forall_forall. intros k _. apply sc_elem.
  - intros k d K D. apply H. cbn [descendants]. apply in_flat_map. eauto.
  - destruct s. reflexivity.
Qed.
Lemma ev_scsteps kbb p l s : Forall is_scstep l -> ready 4 s -> run_events kbb (flat_map (events p) l) s = Ok (sc_add (flat_map descendants l) s).
Proof.
  intros F. revert s. induction F as [|e l H F IH]; intros s R. { cbn. rewrite sc_add_nil. auto. }
  rewrite run_flat_cons, ev_scstep by auto. cbn [bind flat_map]. rewrite IH by (apply sc_add_ready; auto). rewrite sc_add_app. auto.
Qed.
(** ** Final energies *)
(** float() of a text *)
Definition en_val (e : xml) : res float := let* t := of_option TypeError (text e) in OutcarModel.to_float t.
Definition en_set (n : string) (v : float) (t : tot) : tot :=
  if String.eqb "e_0_energy" n then set_to_extrapolated_final (Some (Some v)) t else if String.eqb "e_fr_energy" n then set_to_free_final (Some (Some v)) t
  else if String.eqb "e_wo_entrp" n then set_to_no_entropy_final (Some (Some v)) t else t.
Definition en_names : list string := ["e_0_energy"; "e_fr_energy"; "e_wo_entrp"].
Lemma en_leaf kbb p a t s n tt : assoc "name" a = Some n -> s_flags s = (4 + 2 ^ 28)%N -> ndget (s_calc s) (s_totens s) = Some tt ->
  run_events kbb (events p (Elem "i" a t [])) s =
  if existsb (String.eqb n) en_names then let* v := en_val (Elem "i" a t []) in Ok (set_s_totens (ndset (s_calc s) (en_set n v tt) (s_totens s)) s) else Ok s.
Proof.
  intros N E G. unfold run_events. cbn [events flat_map app foldM bind]. unfold en_val, en_set, en_names. cbn [existsb text].
  rewrite (String.eqb_sym n "e_0_energy"), (String.eqb_sym n "e_fr_energy"), (String.eqb_sym n "e_wo_entrp").
  destruct (String.eqb_spec "e_0_energy" n) as [<-|D0]; [|destruct (String.eqb_spec "e_fr_energy" n) as [<-|D1]; [|destruct (String.eqb_spec "e_wo_entrp" n) as [<-|D2]]].
  all: at_flags s E; cbn [s_calc s_totens] in G; blocks; unfold attr; cbn [attrs]; rewrite !N; cbv [opt_is]; rewrite ?(proj2 (String.eqb_neq "e_0_energy" n)), ?(proj2 (String.eqb_neq "e_fr_energy" n)), ?(proj2 (String.eqb_neq "e_wo_entrp" n)) by auto.
  all: destruct (assoc "comment" a) as [w|]; [destruct (String.eqb "interpolated" w)|]; destruct t as [t|]; ev; try reflexivity; destruct (OutcarModel.to_float t); try reflexivity; rewrite G; reflexivity.
Qed.
