(** C98: exactly which EIGENVALs are accepted. *)
From Coq Require Import Ascii String List NArith ZArith Bool Lia.
From Verif Require Import PyBase PyStrLemmas PyNum UtilsModel LineModel EigenvalModel EigenvalSpec DoscarProofs EigenvalProofs Props_Stream Props_Outcar StreamConfig Props_Eigenval.
Import ListNotations.
Local Open Scope list_scope.

(** ** Specification *)
(** where blank lines may be: not two at the beginning, and none at the end except one that
    the file ends in the middle of, after a line that is not blank *)
Record spaced (ls : list str) : Prop := Spaced {
  sp_word : exists l, In l ls /\ ~ blank l;
  sp_first : forall a b r, ls = a :: b :: r -> ~ (blank a /\ blank b);
  sp_last : forall before w, ls = before ++ [w ++ [nl]] -> ~ blank (w ++ [nl]);
  sp_before_last : forall before a b, ls = before ++ [a; b] -> ~ (blank a /\ blank b) }.
Definition acceptable (ls : list str) : Prop :=
  exists ions atoms p00 ns some nk nb coordinates name xs ys ps,
    header ls ions atoms p00 (Z.of_nat ns) some (Z.of_nat nk) (Z.of_nat nb) coordinates name /\ floats_at ls 1 xs /\ floats_at ls 2 ys /\
    spaced (skipn 6 ls) /\ paragraphs (skipn 6 ls) ps /\ length ps <= nk /\ Forall (readable_block ns nb) ps.

(** ** Proofs *)
Lemma separator_iff l : separator l = true <-> blank l /\ exists w, l = w ++ [nl].
Proof.
  unfold separator, terminated. rewrite andb_true_iff, blankb_ok. destruct l as [|c w _] using rev_ind; cbn [rev]; [split; [intros [_ X]; discriminate|intros [_ [w X]]; destruct w; discriminate]|].
  rewrite rev_app_distr. cbn [rev app]. rewrite aeqb_eq. split; intros [B X]; (split; [exact B|]); [exists w; congruence|destruct X as [w' X]; apply app_inj_tail in X; tauto].
Qed.
Lemma clean_app a t : clean (a ++ t) -> clean t.
Proof. induction a as [|l a IH]; auto. intros C. apply IH. eapply clean_tl; eauto. Qed.
Lemma first_ended a b r : clean (a :: b :: r) -> exists w, a = w ++ [nl].
Proof. intros C. destruct (clean_head _ _ C) as [(w & E & _)|(_ & _ & _ & X)]; [eauto|discriminate]. Qed.
Lemma blank_groups s ls g : Forall blank ls -> In g (groups s ls) -> g = [].
Proof.
  revert s g. induction ls as [|l ls IH]; intros s g F; cbn [groups]; [intros [<-|[]]; auto|]. inversion F as [|? ? B F']. subst. rewrite (words1_blank _ B). destruct (s && separator l)%bool; [apply IH; auto|].
  destruct (next_separates ls); [intros [<-|G]; [auto|apply (IH true); auto]|]. destruct (groups false ls) as [|g0 gs] eqn:E; [intros [<-|[]]; auto|]. cbn [app]. intros G. apply (IH false); auto. rewrite E. exact G.
Qed.
Lemma blank_not_full s ls : Forall blank ls -> ~ full (groups s ls).
Proof.
  intros B F. pose proof (groups_nonempty s ls) as N. destruct (groups s ls) as [|g gs] eqn:E; [congruence|]. unfold full in F. rewrite Forall_forall in F. apply (F g); [left; auto|]. apply (blank_groups s ls); auto. rewrite E. left. auto.
Qed.
Lemma tail_groups t : next_separates t = true -> groups true t = [[]] -> forall ls,
  last (groups true (ls ++ t)) [] = [] /\ (ls <> [] -> exists g gs, groups false (ls ++ t) = g :: gs /\ gs <> [] /\ last gs [] = []).
Proof.
  intros NS GT. induction ls as [|x ls [I1 I2]]; [split; [cbn [app]; rewrite GT; auto|congruence]|].
  assert (exists g gs, groups false ((x :: ls) ++ t) = g :: gs /\ gs <> [] /\ last gs [] = []) as (g & gs & G1 & G2 & G3).
  { cbn [app groups andb]. destruct (next_separates (ls ++ t)) eqn:E; [exists (words1 x), (groups true (ls ++ t)); split; [auto|split; [apply groups_nonempty|auto]]|].
    destruct ls as [|y ls]; [cbn [app] in E; congruence|]. destruct I2 as (g & gs & G1 & G2 & G3); [discriminate|]. rewrite G1. eauto 6. }
  split; [|eauto]. change ((x :: ls) ++ t) with (x :: (ls ++ t)) in *. cbn [groups andb] in G1 |- *. destruct (separator x); auto. rewrite G1. destruct gs; [congruence|exact G3].
Qed.
Lemma last_in {A} (l : list A) d : l <> [] -> In (last l d) l.
Proof. intros N. destruct (exists_last N) as [l' [a ->]]. rewrite last_last. apply in_or_app. right. left. auto. Qed.
Lemma tail_not_full ls t : next_separates t = true -> groups true t = [[]] -> ls <> [] -> ~ full (groups false (ls ++ t)).
Proof.
  intros NS GT NE F. destruct (proj2 (tail_groups t NS GT ls) NE) as (g & gs & G1 & G2 & G3). rewrite G1 in F. inversion F as [|? ? _ F']. subst. rewrite Forall_forall in F'. apply (F' (last gs [])); auto. apply last_in. auto.
Qed.
Lemma full_spaced ls : clean ls -> full (groups false ls) -> spaced ls.
Proof.
  intros C F.
  assert (exists l, In l ls /\ ~ blank l) as W.
  { destruct (existsb (fun l => negb (blankb l)) ls) eqn:E.
    - apply existsb_exists in E as [l [L B]]. exists l. split; auto. rewrite <- blankb_ok. destruct (blankb l); [discriminate|congruence].
    - exfalso. apply (blank_not_full false ls); auto. apply Forall_forall. intros l L. apply blankb_ok. destruct (blankb l) eqn:B; auto. assert (existsb (fun l => negb (blankb l)) ls = true) by (apply existsb_exists; exists l; rewrite B; auto). congruence. }
  assert (forall before t, ls = before ++ t -> Forall blank t -> next_separates t = true -> groups true t = [[]] -> False) as T.
  { intros before t E B NS GT. destruct before as [|x before]; [|apply (tail_not_full (x :: before) t); auto; [discriminate|rewrite <- E; auto]]. subst ls. destruct W as [l [L NB]]. rewrite Forall_forall in B. apply NB, B. exact L. }
  constructor; auto.
  - intros a b r E [A B]. subst ls. destruct (separator b) eqn:SB.
    + cbn [groups andb next_separates] in F. rewrite SB, (words1_blank _ A) in F. inversion F. congruence.
    + destruct r as [|c r]; [apply (blank_not_full false [a; b]); auto|]. destruct (first_ended _ _ _ (clean_tl _ _ C)) as [w X]. assert (separator b = true) by (apply separator_iff; eauto). congruence.
  - intros before w E B. assert (separator (w ++ [nl]) = true) as S1 by (apply separator_iff; eauto). apply (T before [w ++ [nl]] E); [repeat constructor; auto|exact S1|]. cbn [groups andb]. rewrite S1. auto.
  - intros before a b E [A B]. rewrite E in C. destruct (first_ended _ _ _ (clean_app _ _ C)) as [w X]. assert (separator a = true) as S1 by (apply separator_iff; eauto). apply (T before [a; b] E); [repeat constructor; auto|exact S1|].
    cbn [groups andb]. rewrite S1. destruct (separator b); auto. cbn [next_separates]. rewrite (words1_blank _ B). auto.
Qed.
Lemma drop_last u : blank u -> separator u = false -> forall ls s, ls <> [] -> groups s (ls ++ [u]) = groups s ls.
Proof.
  intros B S1. assert (forall s, groups s [u] = [[]]) as G by (intros s; cbn [groups next_separates]; rewrite S1, andb_false_r, (words1_blank _ B); auto).
  induction ls as [|x ls IH]; intros s NE; [congruence|]. destruct ls as [|y ls].
  - cbn [app]. change (groups s [x; u]) with (if (s && separator x)%bool then groups true [u] else if separator u then words1 x :: groups true [u] else match groups false [u] with [] => [words1 x] | g :: gs => (words1 x ++ g) :: gs end).
    rewrite S1, !G. cbn [groups next_separates]. auto.
  - change ((x :: y :: ls) ++ [u]) with (x :: ((y :: ls) ++ [u])). assert (forall s', groups s' ((y :: ls) ++ [u]) = groups s' (y :: ls)) as R by (intros s'; apply IH; discriminate).
    remember (y :: ls) as r. assert (next_separates (r ++ [u]) = next_separates r) as NS by (subst r; reflexivity). cbn [groups]. rewrite NS, !R. auto.
Qed.
Lemma spaced_full ls : clean ls -> spaced ls -> full (groups false ls).
Proof.
  intros C [[l0 [W1 W2]] F L LL]. destruct ls as [|u before _] using rev_ind; [destruct W1|].
  assert (forall a b r, before ++ [u] = a :: b :: r -> ~ (blank a /\ blank b)) as F' by exact F.
  destruct (blankb u) eqn:B.
  - apply blankb_ok in B. assert (separator u = false) as SU. { destruct (separator u) eqn:E; auto. apply separator_iff in E as [_ [w ->]]. destruct (L before w eq_refl B). }
    assert (before <> []) as NE by (intros ->; cbn in W1; destruct W1 as [<-|[]]; auto). rewrite drop_last by auto.
    destruct (exists_last NE) as [b2 [a E]]. assert (~ blank a) as NA. { intros A. apply (LL b2 a u); [subst before; rewrite <- app_assoc; auto|auto]. }
    apply groups_well_spaced.
    + destruct C as [C1 C2]. split; [|intros x c X; apply C2; apply in_or_app; auto]. clear -C1. revert C1. generalize (eq_refl (before ++ [u])). generalize (before ++ [u]) at 2 3 as z. intros z E H. revert before E. induction H as [|w W N|w ls N H IH]; intros before E.
      * destruct before; discriminate. * destruct before as [|x [|]]; [constructor|discriminate|discriminate]. * destruct before as [|x before]; [constructor|]. cbn in E. injection E as -> E. constructor; auto.
    + split; [subst before; rewrite last_last; auto|]. destruct before as [|p [|q r]]; auto. apply (F' p q (r ++ [u])). auto.
  - assert (~ blank u) as NB by (rewrite <- blankb_ok; congruence). apply groups_well_spaced; auto. split; [rewrite last_last; auto|]. destruct before as [|p [|q r]]; cbn [app]; auto.
    + apply (F' p u []). auto. + apply (F' p q (r ++ [u])). auto.
Qed.

Lemma mapM_readable n ws vs vs' : mapM to_float ws = Ok vs -> broadcast n vs = Ok vs' -> readable n ws.
Proof.
  intros H B. pose proof (DoscarProofs.mapM_length _ _ _ H) as L. split.
  - unfold broadcast in B. destruct (Nat.eqb_spec (length vs) n); [lia|]. destruct vs as [|v [|]]; try discriminate. right. cbn in L. lia.
  - apply mapM_float in H. apply Forall_forall. intros t T X. apply (in_map parse_float) in T. rewrite H in T. apply in_map_iff in T as [x [T _]]. congruence.
Qed.
Lemma set_band_readable ns k nb eig point eig' : set_band ns k nb eig point = Ok eig' -> (exists b, b < nb /\ names_w nb point b) /\ readable ns (firstn ns (tl point)).
Proof.
  intros H. unfold set_band in H. apply bind_ok in H as [w [W H]]. apply bind_ok in H as [z [Z1 H]]. apply to_int_ok in Z1. set (i := (if (z - 1 <? 0)%Z then Z.of_nat nb + (z - 1) else z - 1)%Z) in *.
  destruct ((i <? 0) || (Z.of_nat nb <=? i))%Z%bool eqn:RG; [discriminate|]. apply orb_false_iff in RG as [R1 R2]. apply Z.ltb_ge in R1. apply Z.leb_gt in R2.
  apply bind_ok in H as [vs [V1 H]]. apply bind_ok in H as [vs' [V2 _]]. split; [|eapply mapM_readable; eauto]. exists (Z.to_nat i). split; [lia|].
  destruct point as [|w' ws]; [discriminate|]. unfold py_nth in W. cbn in W. apply Ok_inj' in W. subst w'. exists w, ws, z. split; auto. split; auto. unfold i in *. destruct (Z.ltb_spec (z - 1) 0); lia.
Qed.
Lemma read_blocks_readable ns nk nb ps k t t' : k <= nk -> read_blocks ns nk nb k t (map (map split_ws) ps) = Ok t' -> k + length ps <= nk /\ Forall (readable_block ns nb) ps.
Proof.
  revert k t. induction ps as [|p ps IH]; intros k t LK H; cbn [map read_blocks length] in *; [split; [lia|constructor]|]. apply bind_ok in H as [t1 [H1 H2]]. unfold read_block in H1. destruct p as [|first rows]; [discriminate|]. cbn [map] in H1.
  apply bind_ok in H1 as [kpi [K1 H1]]. destruct (Nat.leb_spec nk k) as [|KL]; [discriminate|]. apply bind_ok in H1 as [kp [K2 H1]]. apply bind_ok in H1 as [eig [E1 _]].
  destruct (IH (S k) t1 ltac:(lia) H2) as [A B]. split; [lia|]. constructor; auto. exists first, rows. split; auto. split; [eapply mapM_readable; eauto|].
  clear -E1. revert E1. generalize (tb_eigenvalues t) as e0. induction rows as [|r rows IHr]; intros e0 E1 row R; [destruct R|]. cbn [map foldM] in E1. apply bind_ok in E1 as [e1 [S1 S2]]. destruct R as [<-|R]; [|eapply IHr; eauto].
  apply set_band_readable in S1. exact S1.
Qed.

(** A file in which newlines are the only line breaks is read if and only if it is as
    described *)
Theorem C98_accepted path handler : newlines_only (skipn 6 (scanned path handler)) ->
  ((exists e, eigenval_init path handler = Ok e) <-> acceptable (scanned path handler)).
Proof.
  intros NO. assert (clean (skipn 6 (scanned path handler))) as C by (split; auto; apply shaped_skipn, scanned_shaped). split.
  - intros [e H]. apply from_ok, from_list_ok in H. destruct (rd_header _ _ H) as [co [HD _]]. destruct (rd_lines _ _ H) as (F1 & F2 & _). destruct (rd_sizes _ _ H) as (Z1 & Z2 & Z3). pose proof (rd_blocks _ _ H) as B.
    rewrite groups_ok in B by auto. pose proof (full_blocks _ _ _ _ _ _ _ B) as F. destruct (first_groups _ C F) as [ps [P G]]. rewrite G in B. apply read_blocks_readable in B as [B1 B2]; [|lia].
    exists (em_ions (eg_meta e)), (em_atoms (eg_meta e)), (em_p00 (eg_meta e)), (n_spins e), (em_some (eg_meta e)), (n_kpoints e), (n_bands e), co, (em_name (eg_meta e)), (items (em_line_1 (eg_meta e))), (items (em_line_2 (eg_meta e))), ps.
    unfold n_spins, n_kpoints, n_bands in *. rewrite !Z2Nat.id by auto. split; auto. split; auto. split; auto. split; [apply full_spaced; auto|]. auto.
  - intros (ions & atoms & p00 & ns & some & nk & nb & coord & name & xs & ys & ps & HD & (l1 & A1 & B1) & (l2 & A2 & B2) & SP & P & L & F). set (ls := scanned path handler) in *.
    destruct HD as [(l0 & A0 & B0) (l3 & A3 & B3) (l4 & A4 & B4) (l5 & A5 & B5)].
    assert (exists e, from_list ls = Ok e) as [e E].
    { pose proof (spaced_full _ C SP) as G. destruct (first_groups _ C G) as [ps' [P' G']]. rewrite (paragraphs_fun _ _ _ P' P) in G'. clear ps' P'.
      assert (forall ws zs, map parse_int ws = map Some zs -> mapM to_int ws = Ok zs) as MI.
      { clear. intros ws. induction ws as [|w ws IH]; intros [|z zs] H; try discriminate; auto. cbn [map] in H. injection H as H1 H2. cbn [mapM]. unfold to_int at 1. rewrite H1. cbn [of_option bind]. rewrite (IH _ H2). auto. }
      assert (forall ws zs, map parse_float ws = map Some zs -> mapM to_float ws = Ok zs) as MF.
      { clear. intros ws. induction ws as [|w ws IH]; intros [|z zs] H; try discriminate; auto. cbn [map] in H. assert (parse_float w = Some z) as H1 by congruence. assert (map parse_float ws = map Some zs) as H2 by congruence. cbn [mapM]. unfold to_float at 1. rewrite H1. cbn [of_option bind]. rewrite (IH _ H2). auto. }
      unfold from_list, py_nth. rewrite A0, A1, A2, A3, A4, A5. cbn [of_option bind]. unfold line_to_type. rewrite (MI _ _ B0), (MI _ _ B5), (MF _ _ B1), (MF _ _ B2), B3. cbn [bind mapM to_str unpack length Nat.eqb nth].
      assert (((Z.of_nat nk <? 0) || (Z.of_nat nb <? 0) || (Z.of_nat ns <? 0))%Z%bool = false) as -> by (rewrite !orb_false_iff; repeat split; apply Z.ltb_ge; lia).
      rewrite groups_ok, G' by auto. rewrite !Nat2Z.id. match goal with |- exists e, bind (read_blocks _ _ _ _ ?t _) _ = _ => destruct (read_blocks_accepts ns nk nb ps 0 t L F) as [t' T] end. rewrite T. cbn [bind starts_with_c]. destruct coord; cbn [bind]; eauto. }
    exists e. unfold eigenval_init. revert E A0. unfold ls. destruct handler as [h|]; [destruct path; cbn; auto|]. destruct path as [[t|]|]; cbn; auto; discriminate.
Qed.

(** ** Examples *)
Definition is_read (r : res eigenval) : bool := match r with Ok _ => true | Exn _ => false end.
Lemma no_other_break ls : forallb (forallb (fun c => if is_break c then aeqb c nl else true)) ls = true -> newlines_only ls.
Proof. intros X l c L C B. rewrite forallb_forall in X. specialize (X l L). rewrite forallb_forall in X. specialize (X c C). rewrite B in X. apply aeqb_eq. auto. Qed.
Lemma read_iff path handler : forallb (forallb (fun c => if is_break c then aeqb c nl else true)) (skipn 6 (scanned path handler)) = true ->
  (is_read (eigenval_init path handler) = true <-> acceptable (scanned path handler)).
Proof. intros X. rewrite <- C98_accepted by (apply no_other_break; exact X). destruct (eigenval_init path handler); cbn [is_read]; split; try congruence; eauto. intros [e' H]. discriminate. Qed.
Example C98_case : newlines_only (skipn 6 (scanned None (file (head_lines ++ body_lines)))) /\ acceptable (scanned None (file (head_lines ++ body_lines))).
Proof. split; [apply no_other_break; vm_compute; reflexivity|apply read_iff; vm_compute; reflexivity]. Qed.
(** a blank line at the end is fatal; when the file ends inside it, it is not *)
Example C98_trailing : ~ acceptable (scanned None (file (head_lines ++ body_lines ++ [""]%string))).
Proof. intros A. apply read_iff in A; [|vm_compute; reflexivity]. revert A. vm_compute. discriminate. Qed.
Definition with_tail (t : string) : source_handler := match file (head_lines ++ body_lines) with Some s => Some (s ++ lit t) | None => None end.
Example C98_unfinished_blank : acceptable (scanned None (with_tail "  ")).
Proof. apply read_iff; vm_compute; reflexivity. Qed.
