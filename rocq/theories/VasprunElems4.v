(** Runs of the event parser over eigenvalues, projectors and densities of states. *)
From Coq Require Import Ascii String List NArith ZArith Bool Lia.
From Verif Require Import PyBase PyStrLemmas PyNum UtilsModel LineModel OutcarModel ChgcarModel StreamConfig VasprunTypes VasprunXml VasprunModel VasprunEvents VasprunSpec VasprunSteps VasprunDoc VasprunRun VasprunElems.
Import ListNotations.
Local Open Scope string_scope.
Local Open Scope list_scope.

Lemma pushes kbb p F (P : list xml -> xml -> Prop) : (forall r e s, P r e -> s_flags s = F -> run_events kbb (events p e) s = Ok (set_s_data (s_data s ++ r) s)) ->
  forall rs es, Forall2 P rs es -> forall s, s_flags s = F -> run_events kbb (flat_map (events p) es) s = Ok (set_s_data (s_data s ++ concat rs) s).
Proof.
  intros H rs es R. induction R as [|r e rs es HR R IH]; intros s E; [cbn; rewrite app_nil_r; destruct s; auto|]. rewrite run_flat_cons, (H r) by auto. cbn [bind]. rewrite IH by auto. cbn [s_data set_s_data concat]. rewrite <- app_assoc. auto.
Qed.
Lemma pushes2 kbb p F (P : list xml -> xml -> Prop) : (forall r e s, P r e -> s_flags s = F -> run_events kbb (events p e) s = Ok (set_s_data2 (s_data2 s ++ r) s)) ->
  forall rs es, Forall2 P rs es -> forall s, s_flags s = F -> run_events kbb (flat_map (events p) es) s = Ok (set_s_data2 (s_data2 s ++ concat rs) s).
Proof.
  intros H rs es R. induction R as [|r e rs es HR R IH]; intros s E; [cbn; rewrite app_nil_r; destruct s; auto|]. rewrite run_flat_cons, (H r) by auto. cbn [bind]. rewrite IH by auto. cbn [s_data2 set_s_data2 concat]. rewrite <- app_assoc. auto.
Qed.
(** flags while headings and inner sets do nothing *)
Definition heading_flags : list N := [2 ^ 6; 4 + 2 ^ 12; 4 + 2 ^ 25 + 2 ^ 12; 4 + 2 ^ 25 + 2 ^ 34; 4 + 2 ^ 19; 4 + 2 ^ 33; 4 + 2 ^ 40; 4 + 2 ^ 16]%N.
Lemma heading_step kbb st seen par d s F : is_heading d -> In F heading_flags -> s_flags s = F -> step kbb st seen par d s = Ok s.
Proof.
  intros (a & t & [->| ->]) I E; repeat (destruct I as [<-|I]; [clear -E; at_flags s E; blocks; unfold attr; cbn [attrs]; destruct (assoc "name" a) as [n|]; destruct (assoc "comment" a) as [w|]; cbv [opt_is]; try destruct (String.eqb "interpolated" w); destruct st; ev; reflexivity|]); destruct I.
Qed.
Lemma headings kbb p F l s : Forall is_heading l -> In F heading_flags -> s_flags s = F -> run_events kbb (flat_map (events p) l) s = Ok s.
Proof.
  intros H I E. apply (calm_list kbb F is_heading); auto. { intros. eapply heading_step; eauto. }
  intros k d K D. rewrite Forall_forall in H. specialize (H k K). destruct D as [<-|D]; auto. destruct H as (a & t & [->| ->]); destruct D.
Qed.
(** arrays and plain sets around the data *)
Definition bare (d : xml) : Prop := exists x ks, d = Elem "array" [] x ks \/ d = Elem "set" [] x ks.
Lemma bare_start kbb par d s F : bare d -> In F heading_flags -> s_flags s = F -> step kbb true true par d s = Ok s.
Proof. intros (x & ks & [->| ->]) I E; repeat (destruct I as [<-|I]; [clear -E; at_flags s E; ev; reflexivity|]); destruct I. Qed.
Lemma set_end kbb par x ks s F : In F heading_flags -> s_flags s = F -> step kbb false true par (Elem "set" [] x ks) s = Ok s.
Proof. intros I E; repeat (destruct I as [<-|I]; [clear -E; at_flags s E; ev; reflexivity|]); destruct I. Qed.
Lemma array_end kbb par x ks s F : In F heading_flags -> F <> (4 + 2 ^ 25 + 2 ^ 34)%N -> s_flags s = F -> step kbb false true par (Elem "array" [] x ks) s = Ok s.
Proof. intros I N E; repeat (destruct I as [<-|I]; [clear -E N; try (exfalso; apply N; reflexivity); at_flags s E; ev; reflexivity|]); destruct I. Qed.
(** inner sets *)
Lemma set_quiet kbb st seen par a x ks s F : In F [4 + 2 ^ 12 + 2 ^ 14; 4 + 2 ^ 12 + 2 ^ 15; 4 + 2 ^ 25 + 2 ^ 12 + 2 ^ 14; 4 + 2 ^ 25 + 2 ^ 12 + 2 ^ 15; 4 + 2 ^ 19; 4 + 2 ^ 16 + 2 ^ 17; 4 + 2 ^ 16 + 2 ^ 18]%N ->
  (forall c, In c ["spin 1"; "spin 2"] -> assoc "comment" a <> Some c) -> s_flags s = F -> step kbb st seen par (Elem "set" a x ks) s = Ok s.
Proof.
  intros I A E. assert (opt_is "spin 1" (assoc "comment" a) = false) as A1 by (apply opt_is_false, A; cbn; auto). assert (opt_is "spin 2" (assoc "comment" a) = false) as A2 by (apply opt_is_false, A; cbn; auto). clear A.
  repeat (destruct I as [<-|I]; [at_flags s E; blocks; unfold attr; cbn [attrs]; rewrite ?A1, ?A2; destruct (opt_is "interpolated" (assoc "comment" a)); destruct st; ev; reflexivity|]); destruct I.
Qed.
Lemma set_quiet' kbb st seen par a x ks s F : In F [4 + 2 ^ 25 + 2 ^ 34 + 2 ^ 35; 4 + 2 ^ 25 + 2 ^ 34 + 2 ^ 36]%N ->
  (forall c, In c ["spin1"; "spin2"] -> assoc "comment" a <> Some c) -> s_flags s = F -> step kbb st seen par (Elem "set" a x ks) s = Ok s.
Proof.
  intros I A E. assert (opt_is "spin1" (assoc "comment" a) = false) as A1 by (apply opt_is_false, A; cbn; auto). assert (opt_is "spin2" (assoc "comment" a) = false) as A2 by (apply opt_is_false, A; cbn; auto). clear A.
  repeat (destruct I as [<-|I]; [at_flags s E; blocks; unfold attr; cbn [attrs]; rewrite ?A1, ?A2; destruct (opt_is "interpolated" (assoc "comment" a)); destruct st; ev; reflexivity|]); destruct I.
Qed.
