(** Runs of the event parser over densities of states. *)
From Coq Require Import Ascii String List NArith ZArith Bool Lia.
From Verif Require Import PyBase PyStrLemmas PyNum UtilsModel LineModel OutcarModel ChgcarModel StreamConfig VasprunTypes VasprunXml VasprunModel VasprunEvents VasprunSpec VasprunSteps VasprunDoc VasprunRun VasprunElems VasprunElems4 VasprunElems5.
Import ListNotations.
Local Open Scope string_scope.
Local Open Scope list_scope.

Notation FD := (4 + 2 ^ 19)%N.
Lemma dos_efermi kbb p a t s : assoc "name" a = Some "efermi" -> s_flags s = FD -> run_events kbb (events p (Elem "i" a t [])) s = Ok (set_s_data6 (s_data6 s ++ [Elem "i" a t []]) s).
Proof.
  intros N E. unfold run_events. cbn [events flat_map app foldM bind]. at_flags s E; blocks; unfold attr; cbn [attrs]; rewrite !N; cbv [opt_is].
  destruct (assoc "comment" a) as [w|]; [destruct (String.eqb "interpolated" w)|]; ev; reflexivity.
Qed.
Lemma dos_spin1 kbb p ks e s : is_set "spin 1" ks e -> Forall (is_row "r") ks -> s_flags s = FD -> run_events kbb (events p e) s = Ok (set_s_data (s_data s ++ ks) s).
Proof.
  intros (x & ->) F E. rewrite run_elem. cbn [handle].
  match goal with |- context [step kbb true true p ?e s] => assert (step kbb true true p e s = Ok (set_s_flags (FD + 2 ^ 21) s)) as -> by (clear F; at_flags s E; ev; reflexivity) end. cbn [bind].
  rewrite (push_rows kbb _ (FD + 2 ^ 21) "r") by (auto; push_done). cbn [bind handle].
  change (s_data (set_s_flags (FD + 2 ^ 21) s)) with (s_data s). clear F. at_flags s E; ev; reflexivity.
Qed.
Lemma dos_spin2 kbb p ks e s : is_set "spin 2" ks e -> Forall (is_row "r") ks -> s_flags s = FD -> run_events kbb (events p e) s = Ok (set_s_data2 (s_data2 s ++ ks) s).
Proof.
  intros (x & ->) F E. rewrite run_elem. cbn [handle].
  match goal with |- context [step kbb true true p ?e s] => assert (step kbb true true p e s = Ok (set_s_flags (FD + 2 ^ 22) s)) as -> by (clear F; at_flags s E; ev; reflexivity) end. cbn [bind].
  rewrite (push2_rows kbb _ (FD + 2 ^ 22) "r") by (auto; push_done). cbn [bind handle].
  change (s_data2 (set_s_flags (FD + 2 ^ 22) s)) with (s_data2 s). clear F. at_flags s E; ev; reflexivity.
Qed.
Lemma dos_spins kbb p k1 k2 spins s : per_spin "spin 1" "spin 2" k1 k2 spins -> Forall (is_row "r") (k1 ++ k2) -> s_flags s = FD ->
  run_events kbb (flat_map (events p) spins) s = Ok (set_s_data2 (s_data2 s ++ k2) (set_s_data (s_data s ++ k1) s)).
Proof.
  intros P F E. apply Forall_app in F as [F1 F2]. inversion P as [ks e HS|ks ls e f HS HT NE]; subst.
  - rewrite run_flat_one, (dos_spin1 kbb p k1) by auto. rewrite app_nil_r. destruct s; auto.
  - rewrite run_flat_cons, (dos_spin1 kbb p k1) by auto. cbn [bind]. rewrite run_flat_one, (dos_spin2 kbb p k2); auto.
Qed.
Definition total1 (a : matrix) : dpart := DPart (Some (column 0 a)) (Some (column 1 a)) (Some (column 2 a)) (Some None) None.
Definition total2 (b : matrix) : dpart := DPart None (Some (column 1 b)) (Some (column 2 b)) (Some None) None.
Lemma dos_total_ev kbb p t1 t2 e s a o : is_total t1 t2 e -> ready FD s -> s_part1 s = no_part -> s_part2 s = no_part -> convert2D 3 t1 = Ok a -> opt_map_res (convert2D 3) (second t2) = Ok o ->
  run_events kbb (events p e) s = Ok (set_s_part1 (total1 a) (set_s_part2 (match o with Some b => total2 b | None => no_part end) s)).
Proof.
  intros (arr & st & spins & (x & ->) & HA & HS & HP & F & NE) R P1 P2 A B. rewrite run_elem. cbn [handle].
  match goal with |- context [step kbb true true p ?e s] => assert (step kbb true true p e s = Ok s) as -> by (destruct R as (E & _ & _); clear -E; at_flags s E; ev; reflexivity) end. cbn [bind].
  assert (In FD heading_flags) as I by (cbn; tauto). destruct R as (E & D & D2).
  rewrite run_flat_one. rewrite (ev_array kbb _ FD st arr _ (set_s_data2 t2 (set_s_data t1 s))); auto; try (discriminate).
  - cbn [bind handle]. clear -E D D2 P1 P2 A B. at_flags s E. cbn [s_data s_data2 s_part1 s_part2] in *; subst. unfold total1, total2.
    destruct t2 as [|t2 r]; cbn [second opt_map_res] in B.
    + apply Ok_inj' in B. subst o. ev. rewrite A. ev. reflexivity.
    + destruct (convert2D 3 (t2 :: r)) as [b|] eqn:C; cbn [bind] in B; [|discriminate]. apply Ok_inj' in B. subst o. ev. rewrite A. ev. rewrite C. ev. reflexivity.
  - intros q. apply (ev_plain_set kbb q FD spins); auto. intros q'. rewrite (dos_spins kbb q' t1 t2) by auto. rewrite D, D2. reflexivity.
Qed.
Lemma dos_ion kbb p rows e s : is_ion rows e -> s_flags s = FD -> run_events kbb (events p e) s = Ok (set_s_data2 (s_data2 s ++ snd rows) (set_s_data (s_data s ++ fst rows) s)).
Proof.
  intros (spins & (a & x & -> & A) & HP & F) E. rewrite run_elem. cbn [handle].
  rewrite (set_quiet _ _ _ _ _ _ _ _ FD) by (auto; cbn; tauto). cbn [bind]. rewrite (dos_spins kbb _ (fst rows) (snd rows)) by auto. cbn [bind handle]. rewrite (set_quiet _ _ _ _ _ _ _ _ FD) by (auto; cbn; tauto). auto.
Qed.
Lemma dos_ions kbb p rs es s : Forall2 is_ion rs es -> s_flags s = FD -> run_events kbb (flat_map (events p) es) s = Ok (set_s_data2 (s_data2 s ++ flat_map snd rs) (set_s_data (s_data s ++ flat_map fst rs) s)).
Proof.
  intros F. revert s. induction F as [|r e rs es H F IH]; intros s E. { cbn. rewrite !app_nil_r. destruct s; auto. }
  rewrite run_flat_cons, (dos_ion kbb p r) by auto. cbn [bind]. rewrite IH by auto. cbn [flat_map]. rewrite !app_assoc. reflexivity.
Qed.
Lemma dos_partial_ev kbb p r1 r2 e s spe a o : is_partial r1 r2 e -> ready FD s -> p_species (s_out s) = Some spe -> partial_dos (length spe) r1 = Ok a -> opt_map_res (partial_dos (length spe)) (second r2) = Ok o ->
  run_events kbb (events p e) s = Ok (set_s_part1 (set_dp_partial (Some (Some a)) (s_part1 s)) (set_s_part2 (match o with Some b => set_dp_partial (Some (Some b)) (s_part2 s) | None => s_part2 s end) s)).
Proof.
  intros (arr & st & ions & rs & (x & ->) & HA & HS & HI & C1 & C2 & NE) R SP A B. rewrite run_elem. cbn [handle].
  match goal with |- context [step kbb true true p ?e s] => assert (step kbb true true p e s = Ok s) as -> by (destruct R as (E & _ & _); clear -E; at_flags s E; ev; reflexivity) end. cbn [bind].
  assert (In FD heading_flags) as I by (cbn; tauto). destruct R as (E & D & D2).
  rewrite run_flat_one. rewrite (ev_array kbb _ FD st arr _ (set_s_data2 r2 (set_s_data r1 s))); auto; try (discriminate).
  - cbn [bind handle]. clear -E D D2 SP A B. at_flags s E. cbn [s_data s_data2 s_out] in *; subst. destruct ou as [o1 o2 o3 o4 o5 o6 o7 o8 o9 o10 osp o12 o13 o14 o15 o16 o17 o18 o19 o20 o21 o22 o23 o24 o25 o26 o27 o28 o29 o30 o31 o32]. cbn [p_species] in SP. subst osp.
    destruct r2 as [|r2 r]; cbn [second opt_map_res] in B.
    + apply Ok_inj' in B. subst o. ev. rewrite A. ev. reflexivity.
    + destruct (partial_dos (length spe) (r2 :: r)) as [b|] eqn:C; cbn [bind] in B; [|discriminate]. apply Ok_inj' in B. subst o. ev. rewrite A. ev. rewrite C. ev. reflexivity.
  - intros q. apply (ev_plain_set kbb q FD ions); auto. intros q'. rewrite (dos_ions kbb q' rs) by auto. rewrite D, D2, C1, C2. reflexivity.
Qed.
(** the parts of a density of states *)
Record dos_rows_of := DosRows { dr_fermi : xml; dr_t1 : list xml; dr_t2 : list xml; dr_p1 : list xml; dr_p2 : list xml }.
Definition is_dos_rows (r : dos_rows_of) (e : xml) : Prop :=
  exists a t total partial, dr_fermi r = Elem "i" a t [] /\ assoc "name" a = Some "efermi" /\ is_total (dr_t1 r) (dr_t2 r) total /\ plain "dos" ([dr_fermi r; total] ++ partial) e /\
    (partial = [] /\ dr_p1 r = [] /\ dr_p2 r = [] \/ exists q, partial = [q] /\ is_partial (dr_p1 r) (dr_p2 r) q /\ (dr_t2 r = [] -> dr_p2 r = [])).
Lemma is_dos_rows_of e : is_dos e -> exists r, is_dos_rows r e.
Proof.
  intros (a & t & ef & total & partial & t1 & t2 & p1 & p2 & -> & A & T & P & [->|(q & -> & Q & Z)]).
  - exists (DosRows (Elem "i" a t []) t1 t2 [] []). exists a, t, total, []. cbn. auto 10.
  - exists (DosRows (Elem "i" a t []) t1 t2 p1 p2). exists a, t, total, [q]. cbn. split; auto. split; auto. split; auto. split; auto. right. eauto.
Qed.
Lemma second_entries l : entries_of (some_list l) = second l. Proof. destruct l; auto. Qed.
Lemma entries_second l : entries_of (second l) = second l. Proof. destruct l; auto. Qed.
Lemma ev_dos kbb p r e s spe f d : is_dos_rows r e -> ready 4 s -> s_dos s = DDict None None None -> s_part1 s = no_part -> s_part2 s = no_part -> s_data6 s = [] -> p_species (s_out s) = Some spe ->
  convert_f (text (dr_fermi r)) = Ok f -> extract_dos (Some (dr_t1 r)) (second (dr_t2 r)) (second (dr_p1 r)) (second (dr_p2 r)) f (length spe) = Ok d ->
  run_events kbb (events p e) s = Ok (out_ (set_p_dos (Some d)) (set_s_dos d s)).
Proof.
  intros (at_ & t & total & partial & EF & AN & T & (x & ->) & HP) R SD SP1 SP2 D6 SP F X.
  unfold extract_dos in X. cbn [of_option bind] in X. apply bind_ok in X as (a & A & X). rewrite !entries_second in X. apply bind_ok in X as (pa & PA & X).
  assert (exists o, opt_map_res (convert2D 3) (second (dr_t2 r)) = Ok o) as [o O].
  { destruct (second (dr_t2 r)) as [t2|]; [|exists None; reflexivity]. apply bind_ok in X as (b & B & X). exists (Some b). cbn [opt_map_res]. rewrite B. reflexivity. }
  rewrite run_elem. cbn [handle].
  match goal with |- context [step kbb true true p ?e s] => assert (step kbb true true p e s = Ok (set_s_flags FD s)) as -> by (destruct R as (E & _ & _); clear -E; at_flags s E; ev; reflexivity) end. cbn [bind].
  rewrite run_flat_app, run_flat_cons, EF, dos_efermi by auto. cbn [bind]. rewrite run_flat_one.
  rewrite (dos_total_ev kbb _ (dr_t1 r) (dr_t2 r) total _ a o); auto; [|destruct R as (E & D & D2); split; auto]. cbn [bind].
  set (s1 := set_s_part1 _ _).
  assert (exists pb, opt_map_res (partial_dos (length spe)) (second (dr_p2 r)) = Ok pb /\ (dr_t2 r = [] -> pb = None) /\
    run_events kbb (flat_map (events (Some [])) partial) s1 = Ok (set_s_part1 (set_dp_partial (Some pa) (s_part1 s1)) (set_s_part2 (match o with Some _ => set_dp_partial (Some pb) (s_part2 s1) | None => s_part2 s1 end) s1))) as (pb & PB & PBN & RUN).
  { destruct HP as [(-> & N1 & N2)|(q & -> & HQ & Z)].
    - exists None. rewrite N1 in PA. cbn in PA. apply Ok_inj' in PA. subst pa. rewrite N2. cbn [flat_map]. rewrite run_nil. repeat split; auto. f_equal. unfold s1. destruct o; reflexivity.
    - assert (exists pb, opt_map_res (partial_dos (length spe)) (second (dr_p2 r)) = Ok pb) as [pb PB].
      { destruct (second (dr_t2 r)) as [t2|] eqn:S2.
        - apply bind_ok in X as (b & B & X). apply bind_ok in X as (pb & PB & X). eauto.
        - destruct (dr_t2 r); [|discriminate]. exists None. rewrite Z by auto. reflexivity. }
      exists pb. split; auto. assert (dr_t2 r = [] -> pb = None) as PN. { intros N. rewrite (Z N) in PB. cbn in PB. apply Ok_inj' in PB. auto. } split; auto.
      destruct (HQ) as (_ & _ & _ & _ & _ & _ & _ & _ & _ & _ & NE). destruct (dr_p1 r) as [|y l] eqn:P1; [congruence|]. cbn [second opt_map_res] in PA. apply bind_ok in PA as (pa' & PA & Q). apply Ok_inj' in Q. subst pa.
      rewrite run_flat_one, (dos_partial_ev kbb _ (y :: l) (dr_p2 r) q s1 spe pa' pb); auto; [|destruct R as (E & D & D2); split; auto].
      f_equal. f_equal. f_equal. unfold s1. cbn [s_part2 set_s_part1 set_s_part2]. destruct o as [b|]; destruct pb as [pb|]; auto.
      exfalso. destruct (dr_t2 r) as [|z w]. { specialize (PN eq_refl). discriminate. } cbn [second opt_map_res] in O. destruct (convert2D 3 (z :: w)); discriminate. }
  rewrite RUN. cbn [bind handle]. unfold s1. clear RUN s1. change (s_data6 (set_s_flags FD s)) with (s_data6 s). rewrite D6. cbn [app].
  assert (d = match o with
              | Some b => DDict (Some (DPart None (Some (column 1 a)) (Some (column 2 a)) (Some pa) None)) (Some (DPart None (Some (column 1 b)) (Some (column 2 b)) (Some pb) None)) (Some (DPart (Some (column 0 a)) None None None (Some f)))
              | None => DDict None None (Some (DPart (Some (column 0 a)) (Some (column 1 a)) (Some (column 2 a)) (Some pa) (Some f))) end) as ->.
  { destruct (second (dr_t2 r)) as [t2|] eqn:S2; cbn [opt_map_res] in O.
    - apply bind_ok in X as (b & B & X). rewrite PB in X. cbn [bind] in X. apply Ok_inj' in X. rewrite B in O. cbn [bind] in O. apply Ok_inj' in O. subst. auto.
    - apply Ok_inj' in X. apply Ok_inj' in O. subst. auto. }
  destruct R as (E & D & D2). rewrite EF in F. cbn [text] in F. clear -E D D2 SD SP1 SP2 F D6. at_flags s E. cbn [s_data s_data2 s_dos s_part1 s_part2 s_data6] in *. subst. unfold total1, total2. destruct o as [b|]; ev; rewrite F; ev; reflexivity.
Qed.
