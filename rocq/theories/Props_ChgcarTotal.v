(** C99: exactly which CHGCARs are accepted. *)
From Coq Require Import Ascii String List NArith ZArith QArith Bool Lia.
From Verif Require Import PyBase PyStrLemmas PyNum UtilsModel LineModel EigenvalModel ArithModel DoscarProofs EigenvalProofs Props_Outcar StreamConfig ChgcarModel ChgcarSpec ChgcarProofs Props_Chgcar.
Import ListNotations.
Local Open Scope list_scope.
Local Open Scope nat_scope.

(** ** Specification *)
(** the white space of the text is that of the C library, and it has no parenthesis *)
Definition c_text (t : str) : Prop := forall c, In c t -> c <> "("%char /\ (is_space c = true -> (9 <= code c <= 13)%N \/ code c = 32%N).
(** the data sets that are looked at: all of two or of four, otherwise the first *)
Definition used (sets : list str) (d : str) : Prop := nth_error sets 0 = Some d \/ ((length sets = 2 \/ length sets = 4) /\ In d sets).
Section All.
Variable A : cell_arith.
(** before its augmentation occupancies the data set has as many leading numbers as the
    grid has points *)
Definition complete (nx ny nz : nat) (d : str) : Prop :=
  exists part vs, density_part d part /\ c_text part /\ reads (cparse A) (split_ws part) vs /\ length vs = nx * ny * nz.
Definition acceptable (t : str) : Prop :=
  exists header g data sets nx ny nz s v0 v1 v2, layout t header g data /\ cell_of (cparse A) (cmul A) header s v0 v1 v2 /\
    grid_line g nx ny nz /\ pieces g data sets /\ forall d, used sets d -> complete nx ny nz d.

(** ** Proofs *)
Lemma c_text_ok t : existsb odd_char t = false <-> c_text t.
Proof.
  unfold c_text. induction t as [|c t IH]; cbn [existsb]; [split; [intros _ c []|auto]|]. rewrite orb_false_iff, IH.
  assert (odd_char c = false <-> c <> "("%char /\ (is_space c = true -> (9 <= code c <= 13)%N \/ code c = 32%N)) as O.
  { unfold odd_char. rewrite orb_false_iff, andb_false_iff, negb_false_iff, orb_true_iff, andb_true_iff, !N.leb_le, N.eqb_eq, aeqb_neq. destruct (is_space c); intuition (try congruence). }
  rewrite O. split; [intros [H1 H2] x [<-|X]; auto|]. intros H. split; [apply H; left; auto|intros x X; apply H; right; auto].
Qed.
Lemma complete_good nx ny nz d : complete nx ny nz d <-> good_set A nx ny nz d.
Proof. split; intros (p & vs & P & O & R & L); exists p, vs; (split; [exact P|split; [apply c_text_ok; exact O|auto]]). Qed.
Lemma dataset_good nx ny nz vol d a : dataset A (rev [Z.of_nat nx; Z.of_nat ny; Z.of_nat nz]) vol d = Ok a -> complete nx ny nz d.
Proof.
  intros H. pose proof H as H'. apply dataset_ok in H' as (nz' & ny' & nx' & E & part & vs & P & R & L & _). cbn [rev app] in E. injection E as E1 E2 E3. apply Nat2Z.inj in E1, E2, E3. subst.
  exists part, vs. split; auto. split; auto. apply c_text_ok. unfold dataset, fromstring in H. apply bind_ok in H as [xs [H _]]. rewrite (density_part_fun _ _ _ (density_part_cut d) P) in H. destruct (existsb odd_char part); [discriminate|auto].
Qed.
Lemma from_text_complete t c : from_text A t = Ok c -> acceptable t.
Proof.
  intros H. pose proof H as H0. apply from_text_ok in H0 as (header & g & data & sets & nx & ny & nz & vol & LA & G & P & (s & v0 & v1 & v2 & C & EV) & _).
  exists header, g, data, sets, nx, ny, nz, s, v0, v1, v2. split; auto. split; auto. split; auto. split; auto.
  destruct LA as [body [F1 F2]]. apply cut_some in F1, F2. unfold from_text in H. rewrite F1 in H. cbn [of_option bind fst snd] in H. rewrite F2 in H. cbn [of_option bind fst snd] in H.
  destruct C as (l1 & l2 & l3 & l4 & L1 & L2 & L3 & L4 & S1 & V0 & V1 & V2). apply header_nth in L1, L2, L3, L4. apply lattice_row_ok in V0, V1, V2. rewrite L1, L2, L3, L4 in H. cbn [bind] in H. rewrite S1 in H. cbn [of_option bind] in H. rewrite V0, V1, V2 in H. cbn [bind] in H.
  pose proof (grid_nonempty _ _ _ _ G) as NE. apply grid_line_ok in G. rewrite G in H. cbn [bind] in H.
  assert (match g with [] => Exn ValueError | _ => Ok (split_str 0 g data) end = Ok sets) as SE by (destruct g; [congruence|]; f_equal; eapply pieces_fun; eauto; apply split_str_pieces; auto). rewrite SE in H. cbn [bind] in H.
  apply bind_ok in H as [d0 [D0 H]]. apply bind_ok in H as [total [TO H]]. apply dataset_good in TO. unfold py_nth in D0. destruct (nth_error sets 0) as [d0'|] eqn:N0; [|discriminate]. cbn in D0. apply Ok_inj' in D0. subst d0'.
  intros d [U|[U I]]; [assert (d = d0) by congruence; subst; auto|].
  destruct sets as [|x0 [|x1 [|x2 [|x3 [|]]]]]; cbn [length] in U; try (exfalso; lia); cbn in N0; injection N0 as ->.
  - apply bind_ok in H as [m [M H]]. apply dataset_good in M. destruct I as [<-|[<-|[]]]; auto.
  - apply bind_ok in H as [mx [M1 H]]. apply bind_ok in H as [my [M2 H]]. apply bind_ok in H as [mz [M3 H]]. apply dataset_good in M1, M2, M3. destruct I as [<-|[<-|[<-|[<-|[]]]]]; auto.
Qed.

(** A file is read if and only if it is as described *)
Theorem C99_accepted path handler : (exists c, chgcar_init A path handler = Ok c) <-> exists t, source_text path handler t /\ acceptable t.
Proof.
  split.
  - intros [c H]. apply init_text in H as (t & ST & H). exists t. split; auto. eapply from_text_complete; eauto.
  - intros (t & ST & header & g & data & sets & nx & ny & nz & s & v0 & v1 & v2 & L & C & G & P & U).
    assert (forall d, used sets d -> good_set A nx ny nz d) as GS by (intros d D; apply complete_good; auto). clear U.
    assert (exists c, from_text A t = Ok c) as [c E]; [|exists c; apply init_text; eauto]. eapply from_text_accepts; eauto.
    destruct sets as [|x0 [|x1 [|x2 [|x3 [|]]]]]; auto; try (apply GS; left; reflexivity); repeat split; apply GS; right; (split; [cbn [length]; lia|cbn [In]; auto]).
Qed.
End All.

(** ** Examples *)
Example C99_case : exists t, source_text None (chg_file (chg_head ++ set1 ++ set2)) t /\ acceptable cell_exact t.
Proof.
  apply C99_accepted. pose proof spin_read as H. destruct (chgcar_init cell_exact None (chg_file (chg_head ++ set1 ++ set2))) as [c|]; [eauto|destruct H].
Qed.
(** the first data set cut short *)
Example C99_refused : ~ exists t, source_text None (chg_file (chg_head ++ firstn 1 set1)) t /\ acceptable cell_exact t.
Proof. intros H. apply C99_accepted in H as [c H]. rewrite short_set in H. discriminate. Qed.
(** a third data set is not looked at *)
Example C99_third : exists t, source_text None (chg_file (chg_head ++ set1 ++ set2 ++ ["  2  3  1"; " 1.0"]%string)) t /\ acceptable cell_exact t.
Proof. apply C99_accepted. pose proof three_sets as H. destruct (chgcar_init cell_exact None _) as [c|]; [eauto|destruct H]. Qed.
