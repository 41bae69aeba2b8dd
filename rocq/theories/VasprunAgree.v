(** The ionic steps of a document, read by the event parser. *)
From Coq Require Import Ascii String List NArith ZArith Bool Lia.
From Verif Require Import PyBase PyStrLemmas PyNum UtilsModel LineModel OutcarModel ChgcarModel StreamConfig VasprunTypes VasprunXml VasprunModel VasprunEvents VasprunSpec VasprunTables VasprunTree VasprunSteps VasprunEnergies VasprunDoc VasprunRun VasprunElems VasprunElems2 VasprunElems3 VasprunElems4 VasprunElems5 VasprunElems6 VasprunElems7 VasprunPaths VasprunCalc VasprunResults VasprunHead VasprunHead2 VasprunHead3.
Import ListNotations.
Local Open Scope string_scope.
Local Open Scope list_scope.

Definition values (st : ion_step) (f : str -> energy_pair) : calc_values := CalcValues (st_cell st) (st_pos st) (st_force st) (st_stress st) (tot_of f).
Lemma rows_convert n es m : rows_hold n es m -> convert2D 3 es = Ok m.
Proof. intros [F [_ L]]. apply convert2D_holds; auto. Qed.
Lemma parts_of n c st f : step_holds n c st -> energies_hold c f -> calc_holds c (values st f).
Proof.
  intros (_ & H1 & H2 & H3 & H4) EH.
  split; [eapply rows_convert; eauto|]. split; [eapply rows_convert; eauto|]. split; [eapply rows_convert; eauto|]. split; [eapply rows_convert; eauto|].
  assert (forall key p, energy_holds c key p -> convert1D (findall_deep (scstep_path key) c) = Ok (ep_steps p) /\ exists e r, findall_child (final_path key) c = e :: r /\ en_val e = Ok (ep_final p)) as A.
  { intros key p (F & _ & e' & rest & t & FC & TX & _ & Q). split; [apply convert1D_holds; auto|]. exists e', rest. split; auto. unfold en_val. rewrite TX. cbn [of_option bind]. unfold OutcarModel.to_float. rewrite Q. auto. }
  assert (energy_holds c "e_0_energy" (f (lit "energy_extrapolated"))) as B0 by (apply EH; left; auto).
  assert (energy_holds c "e_fr_energy" (f (lit "energy_free"))) as B1 by (apply EH; right; left; auto).
  assert (energy_holds c "e_wo_entrp" (f (lit "energy_no_entropy"))) as B2 by (apply EH; right; right; left; auto).
  apply A in B0 as (C0 & e0 & r0 & D0 & F0). apply A in B1 as (C1 & e1 & r1 & D1 & F1). apply A in B2 as (C2 & e2 & r2 & D2 & F2).
  exists (ep_steps (f (lit "energy_extrapolated"))), (ep_steps (f (lit "energy_free"))), (ep_steps (f (lit "energy_no_entropy"))), e0, e1, e2, r0, r1, r2, (ep_final (f (lit "energy_extrapolated"))), (ep_final (f (lit "energy_free"))), (ep_final (f (lit "energy_no_entropy"))).
  do 9 (split; [assumption|]). reflexivity.
Qed.
Lemma from_snoc {A} n (l : list A) x : numbered_from n (l ++ [x]) = numbered_from n l ++ [((n + length l)%nat, x)].
Proof. unfold numbered_from. rewrite app_length. cbn [length]. rewrite seq_app. rewrite combine_app by (rewrite seq_length; auto). auto. Qed.
Lemma set_numbered (l : list matrix) m k : k = S (length l) -> ndset k (Some m) (numbered l) = numbered (l ++ [m]).
Proof. intros ->. rewrite ndset_new by (rewrite numbered_keys, in_seq; lia). rewrite numbered_snoc. auto. Qed.
Section Steps.
Context (kbb : bool) (all : list xml) (o0 : parsed) (spe : list Z) (dv : option diel) (p : parsed) (TG : target kbb all o0 spe dv p).
(** after the steps [vs] with the children [l] *)
Definition steps_done (vs : list calc_values) (l : list xml) : est :=
  rest o0 dv p (S (length vs)) (numbered (map v_basis vs)) (numbered (map v_pos vs)) (numbered (map v_force vs)) (numbered (map v_stress vs)) (numbered_from 1 (map v_tot vs)) l.
Lemma step_run q vs before after c v : all = before ++ kids c ++ after -> is_calculation (filter (matches (Tag "eigenvalues")) all) c -> calc_holds c v ->
  run_events kbb (events q c) (steps_done vs before) = Ok (steps_done (vs ++ [v]) (before ++ kids c)).
Proof.
  intros AL (ks & (x & ->) & _ & ON & NS) CH. cbn [kids] in *. unfold steps_done.
  rewrite (calc_run kbb all o0 spe dv p TG _ _ _ _ _ _) with (after := after) (v := v); auto.
  - rewrite !map_app, app_length. cbn [map length]. rewrite !set_numbered by (rewrite map_length; auto). rewrite from_snoc, map_length, Nat.add_1_r. reflexivity.
  - rewrite from_keys, in_seq, map_length. lia.
Qed.
Lemma calcs_run n q calcs : Forall (is_calculation (filter (matches (Tag "eigenvalues")) all)) calcs -> forall sts fs, Forall2 (step_holds n) calcs sts -> Forall2 energies_hold calcs fs ->
  forall vs before after, all = before ++ flat_map kids calcs ++ after ->
  run_events kbb (flat_map (events q) calcs) (steps_done vs before) = Ok (steps_done (vs ++ map (fun x => values (fst x) (snd x)) (combine sts fs)) (before ++ flat_map kids calcs)).
Proof.
  induction 1 as [|c calcs C F IH]; intros sts fs ST EN vs before after AL.
  - clear AL. inversion ST; subst. cbn. rewrite !app_nil_r. auto.
  - revert AL. inversion ST as [|? st ? sts' S1 S2]; subst. inversion EN as [|? f ? fs' E1 E2]; subst. intros AL. cbn [combine map fst snd]. cbn [flat_map] in AL. rewrite <- app_assoc in AL.
    rewrite run_flat_cons, (step_run q vs before _ c (values st f) AL C) by (eapply parts_of; eauto). cbn [bind].
    rewrite (IH sts' fs' S2 E2 (vs ++ [values st f]) (before ++ kids c) after) by (rewrite AL, <- !app_assoc; reflexivity). cbn [flat_map]. rewrite <- !app_assoc. reflexivity.
Qed.
End Steps.
