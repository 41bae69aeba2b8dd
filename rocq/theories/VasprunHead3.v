(** The atoms. *)
From Coq Require Import Ascii String List NArith ZArith Bool Lia.
From Verif Require Import PyBase PyStrLemmas PyNum UtilsModel LineModel OutcarModel ChgcarModel StreamConfig VasprunTypes VasprunXml VasprunModel VasprunEvents VasprunSpec VasprunSteps VasprunDoc VasprunRun VasprunElems VasprunElems2 VasprunElems3 VasprunElems4 VasprunElems5 VasprunElems6 VasprunPaths VasprunCalc VasprunHead VasprunHead2.
Import ListNotations.
Local Open Scope string_scope.
Local Open Scope list_scope.

Definition is_rc (c : list xml) (rc : xml) : Prop := plain "rc" c rc /\ Forall (is_row "c") c.
Lemma rc_ev kbb p c rc s : is_rc c rc -> s_flags s = (2 ^ 6)%N -> run_events kbb (events p rc) s = Ok (set_s_data (s_data s ++ c) s).
Proof.
  intros [(x & ->) F] E. rewrite run_elem. cbn [handle].
  assert (forall st p s, s_flags s = (2 ^ 6)%N -> step kbb st true p (Elem "rc" [] x c) s = Ok s) as Q by (clear; intros st p s E; at_flags s E; destruct st; ev; reflexivity).
  rewrite Q by auto. cbn [bind]. rewrite (push_rows kbb _ (2 ^ 6) "c") by (auto; push_done). cbn [bind handle]. apply Q. auto.
Qed.
Lemma ev_atominfo kbb p e s : is_atominfo e -> ready 0 s -> exists cs, findall_child [TagAt "array" "name" "atoms"; Tag "set"; Tag "rc"; Tag "c"] e = cs /\ cs <> [] /\
  forall spe, convert_species (every_other cs) = Ok spe -> run_events kbb (events p e) s = Ok (out_ (set_p_species (Some spe)) s).
Proof.
  intros (before & after & arr & heads & st & rcs & cs & x & (y & ->) & Q & -> & HH & (z & ->) & F & NE) R.
  assert (quiet other_top before /\ quiet other_top after) as [Q1 Q2] by (apply quiet_app; intros k d K D; eapply Q; eauto). clear Q.
  assert (Forall2 is_rc cs rcs) as F' by (clear -F; induction F as [|a b l r H F IH]; constructor; auto). clear F.
  exists (concat cs). split; [|split; auto].
  - rewrite child_cons, !filter_app.
    assert (forall q, quiet other_top q -> filter (matches (TagAt "array" "name" "atoms")) q = []) as NQ.
    { intros q H. apply filter_quiet. intros k K. destruct (H k k K (or_introl eq_refl)) as [_ B]. destruct (matches _ k) eqn:M; auto. exfalso. apply B. split; [apply (matches_tag _ _ M)|]. cbn [matches] in M. apply andb_true_iff in M as [_ M]. apply opt_is_true in M. auto. }
    rewrite (NQ before), (NQ after) by auto. change (filter (matches (TagAt "array" "name" "atoms")) [Elem "array" [("name", "atoms")] x (heads ++ [Elem "set" [] z rcs])]) with [Elem "array" [("name", "atoms")] x (heads ++ [Elem "set" [] z rcs])].
    cbn [app]. rewrite flat_one, child_cons, filter_app, (filter_quiet _ heads). 2:{ intros k K. rewrite Forall_forall in HH. destruct (HH k K) as (a & t & [->| ->]); reflexivity. }
    change (filter (matches (Tag "set")) [Elem "set" [] z rcs]) with [Elem "set" [] z rcs]. cbn [app]. rewrite flat_one, child_cons.
    clear -F'. induction F' as [|c rc cs rcs ((w & ->) & R) F IH]; auto. cbn [filter matches tag String.eqb Ascii.eqb Bool.eqb flat_map concat]. rewrite IH, child_cons, flat_child_nil, (filter_rows "c"); auto.
  - intros spe SP. rewrite run_elem. cbn [handle].
    assert (forall st p s ks, s_flags s = 0%N -> step kbb st true p (Elem "atominfo" [] y ks) s = Ok s) as QA by (clear; intros st p s ks E; at_flags s E; destruct st; ev; reflexivity).
    destruct R as (E & D & D2). rewrite QA by auto. cbn [bind]. rewrite run_flat_app, calm_top by auto. cbn [bind]. rewrite run_flat_app, run_flat_one.
    match goal with |- context [run_events kbb (events _ ?a) s] => assert (run_events kbb (events (Some []) a) s = Ok (out_ (set_p_species (Some spe)) s)) as -> end.
    { rewrite run_elem. cbn [handle]. match goal with |- context [step kbb true true ?p ?e s] => assert (step kbb true true p e s = Ok (set_s_flags (2 ^ 6) s)) as -> by (clear -E; at_flags s E; ev; reflexivity) end. cbn [bind].
      assert (In (2 ^ 6)%N heading_flags) as I by (cbn; tauto).
      rewrite run_flat_app, (headings kbb _ (2 ^ 6)) by auto. cbn [bind]. rewrite run_flat_one. rewrite (ev_plain_set kbb _ (2 ^ 6) rcs _ _ (set_s_data (concat cs) (set_s_flags (2 ^ 6) s))); auto.
      - cbn [bind handle]. clear -E D D2 SP. revert SP. generalize (concat cs). intros ccs SP. at_flags s E. cbn [s_data s_data2] in *. subst. ev. rewrite SP. ev. reflexivity.
      - exists z. auto.
      - intros q. rewrite (pushes kbb q (2 ^ 6) is_rc) with (rs := cs); auto. { change (s_data (set_s_flags (2 ^ 6) s)) with (s_data s). rewrite D. auto. } intros. apply rc_ev; auto. }
    cbn [bind]. rewrite calm_top by auto. cbn [bind handle]. apply QA. auto.
Qed.
