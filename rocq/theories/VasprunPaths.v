(** The paths of the regular parser in a document of VasprunDoc. *)
From Coq Require Import Ascii String List NArith ZArith Bool Lia.
From Verif Require Import PyBase PyStrLemmas PyNum UtilsModel LineModel OutcarModel ChgcarModel StreamConfig VasprunTypes VasprunXml VasprunModel VasprunEvents VasprunSpec VasprunSteps VasprunDoc VasprunRun VasprunElems VasprunElems2 VasprunElems3 VasprunElems6.
Import ListNotations.
Local Open Scope string_scope.
Local Open Scope list_scope.

Lemma filter_true {A} (f : A -> bool) l : (forall k, In k l -> f k = true) -> filter f l = l.
Proof. induction l as [|k l IH]; intros H; auto. cbn. rewrite H by (left; auto). f_equal. apply IH. intros. apply H. right; auto. Qed.
Lemma array_set body arr r : is_array body arr -> tag body = "set" -> findall_child (Tag "set" :: r) arr = findall_child r body.
Proof.
  intros (heads & HH & (x & ->)) T. rewrite child_cons, filter_app, filter_quiet.
  - cbn [app filter matches]. rewrite T. cbn [String.eqb Ascii.eqb Bool.eqb flat_map]. rewrite app_nil_r. auto.
  - intros k K. rewrite Forall_forall in HH. destruct (HH k K) as (a & t & [->| ->]); reflexivity.
Qed.
Lemma plain_set st ks : plain "set" ks st -> tag st = "set". Proof. intros (x & ->). auto. Qed.
Lemma plain_child tg ks e s r : plain tg ks e -> findall_child (s :: r) e = flat_map (findall_child r) (filter (matches s) ks).
Proof. intros (x & ->). apply child_cons. Qed.
Lemma set_matches n m ks x : matches (spin_set n) (Elem "set" [("comment", m)] x ks) = String.eqb n m.
Proof. unfold spin_set. cbn [matches tag]. unfold attr. cbn [attrs assoc]. rewrite !String.eqb_refl. reflexivity. Qed.
Lemma spin_path1 n1 n2 k1 k2 spins st s r : n1 <> n2 -> plain "set" spins st -> per_spin n1 n2 k1 k2 spins -> findall_child (spin_set n1 :: s :: r) st = flat_map (findall_child r) (filter (matches s) k1).
Proof.
  intros N HS P. rewrite (plain_child _ _ _ _ _ HS). inversion P as [ks e (x & ->)|ks ls e f (x & ->) (y & ->) NE]; subst; cbn [filter]; rewrite !set_matches, String.eqb_refl.
  - cbn [flat_map]. rewrite app_nil_r. apply child_cons.
  - rewrite (proj2 (String.eqb_neq n1 n2)) by auto. cbn [flat_map]. rewrite app_nil_r. apply child_cons.
Qed.
Lemma spin_path2 n1 n2 k1 k2 spins st s r : n1 <> n2 -> plain "set" spins st -> per_spin n1 n2 k1 k2 spins -> findall_child (spin_set n2 :: s :: r) st = flat_map (findall_child r) (filter (matches s) k2).
Proof.
  intros N HS P. rewrite (plain_child _ _ _ _ _ HS). inversion P as [ks e (x & ->)|ks ls e f (x & ->) (y & ->) NE]; subst; cbn [filter]; rewrite !set_matches, ?String.eqb_refl, (proj2 (String.eqb_neq n2 n1)) by auto.
  - reflexivity.
  - cbn [flat_map]. rewrite app_nil_r. apply child_cons.
Qed.
Lemma rows_path rs ks (P : list xml -> xml -> Prop) r : (forall rows e, P rows e -> tag e = "set" /\ findall_child r e = rows) -> Forall2 P rs ks -> flat_map (findall_child r) (filter (matches (Tag "set")) ks) = concat rs.
Proof. intros H F. induction F as [|rows e rs ks HP F IH]; auto. destruct (H _ _ HP) as [T Q]. cbn [filter matches]. rewrite T. cbn [String.eqb Ascii.eqb Bool.eqb flat_map concat]. rewrite Q. congruence. Qed.
Lemma set_rows avoid rows e : inner_set avoid rows e -> Forall (is_row "r") rows -> tag e = "set" /\ findall_child [Tag "r"] e = rows.
Proof. intros (a & x & -> & _) F. split; auto. rewrite child_cons, flat_child_nil. apply (filter_rows "r"); auto. Qed.
Lemma kset_rows rows e : is_kset rows e -> tag e = "set" /\ findall_child [Tag "r"] e = rows. Proof. intros [H F]. eapply set_rows; eauto. Qed.
Lemma bset_rows rows e : is_bset rows e -> tag e = "set" /\ findall_child [Tag "r"] e = rows. Proof. intros [H F]. eapply set_rows; eauto. Qed.
Lemma kbset_rows rows e : is_kbset rows e -> tag e = "set" /\ findall_child [Tag "set"; Tag "r"] e = rows.
Proof. intros (bs & rs & (a & x & -> & _) & F & <-). split; auto. rewrite child_cons. apply (rows_path rs bs is_bset); auto. apply bset_rows. Qed.
Lemma flat_one {A B} (f : A -> list B) a : flat_map f [a] = f a. Proof. cbn. apply app_nil_r. Qed.
Lemma array_tag body arr : is_array body arr -> matches (Tag "array") arr = true. Proof. intros (h & _ & (x & ->)). reflexivity. Qed.
Lemma filter_one {A} (f : A -> bool) a : f a = true -> filter f [a] = [a]. Proof. intros H. cbn. rewrite H. auto. Qed.
Lemma eigen_paths rows1 rows2 e : is_eigenvalues rows1 rows2 e -> tag e = "eigenvalues" /\
  findall_child [Tag "array"; Tag "set"; spin_set "spin 1"; Tag "set"; Tag "r"] e = rows1 /\ findall_child [Tag "array"; Tag "set"; spin_set "spin 2"; Tag "set"; Tag "r"] e = rows2 /\ filter (matches (Tag "eigenvalues")) (kids e) = [].
Proof.
  intros (arr & st & spins & k1 & k2 & r1 & r2 & HE & HA & HS & HP & F1 & F2 & C1 & C2 & NE). pose proof HE as (x & ->). split; [reflexivity|].
  rewrite !(plain_child _ _ _ _ _ HE), !filter_one, !flat_one, !(array_set _ _ _ HA) by (eauto using plain_set, array_tag).
  rewrite (spin_path1 "spin 1" "spin 2" k1 k2 spins), (spin_path2 "spin 1" "spin 2" k1 k2 spins) by (auto; discriminate).
  rewrite (rows_path r1 k1 is_kset), (rows_path r2 k2 is_kset) by (auto using kset_rows). split; auto. split; auto. cbn [kids]. destruct HA as (h & _ & (y & ->)). reflexivity.
Qed.
Lemma projected_paths eig rows1 rows2 e : tag eig = "eigenvalues" -> is_projected eig rows1 rows2 e -> tag e = "projected" /\
  findall_child [Tag "array"; Tag "set"; spin_set "spin1"; Tag "set"; Tag "set"; Tag "r"] e = rows1 /\ findall_child [Tag "array"; Tag "set"; spin_set "spin2"; Tag "set"; Tag "set"; Tag "r"] e = rows2.
Proof.
  intros TE (arr & st & spins & k1 & k2 & r1 & r2 & HE & HA & HS & HP & F1 & F2 & C1 & C2 & NE). pose proof HE as (x & ->). split; [reflexivity|].
  rewrite !(plain_child _ _ _ _ _ HE). assert (filter (matches (Tag "array")) [eig; arr] = [arr]) as ->. { cbn [filter]. rewrite (array_tag _ _ HA). cbn [matches]. rewrite TE. reflexivity. }
  rewrite !flat_one, !(array_set _ _ _ HA) by (eauto using plain_set).
  rewrite (spin_path1 "spin1" "spin2" k1 k2 spins), (spin_path2 "spin1" "spin2" k1 k2 spins) by (auto; discriminate).
  rewrite (rows_path r1 k1 is_kbset), (rows_path r2 k2 is_kbset) by (auto using kbset_rows). auto.
Qed.
Lemma total_paths t1 t2 e : is_total t1 t2 e -> tag e = "total" /\
  findall_child [Tag "array"; Tag "set"; spin_set "spin 1"; Tag "r"] e = t1 /\ findall_child [Tag "array"; Tag "set"; spin_set "spin 2"; Tag "r"] e = t2.
Proof.
  intros (arr & st & spins & HE & HA & HS & HP & F & NE). pose proof HE as (x & ->). split; [reflexivity|]. apply Forall_app in F as [F1 F2].
  rewrite !(plain_child _ _ _ _ _ HE), !filter_one, !flat_one, !(array_set _ _ _ HA) by (eauto using plain_set, array_tag).
  rewrite (spin_path1 "spin 1" "spin 2" t1 t2 spins), (spin_path2 "spin 1" "spin 2" t1 t2 spins) by (auto; discriminate).
  rewrite !flat_child_nil, !(filter_rows "r") by auto. auto.
Qed.
Lemma ion_paths rows e : is_ion rows e -> matches (Tag "set") e = true /\ findall_child [spin_set "spin 1"; Tag "r"] e = fst rows /\ findall_child [spin_set "spin 2"; Tag "r"] e = snd rows.
Proof.
  intros (spins & (a & x & -> & _) & HP & F). split; auto. apply Forall_app in F as [F1 F2].
  assert (plain "set" spins (Elem "set" [] x spins)) as HS by (exists x; auto).
  pose proof (spin_path1 "spin 1" "spin 2" _ _ _ _ (Tag "r") [] ltac:(discriminate) HS HP) as Q1. pose proof (spin_path2 "spin 1" "spin 2" _ _ _ _ (Tag "r") [] ltac:(discriminate) HS HP) as Q2.
  rewrite !child_cons. rewrite child_cons in Q1, Q2. rewrite Q1, Q2. rewrite !flat_child_nil, !(filter_rows "r") by auto. auto.
Qed.
Lemma ions_paths rs ions : Forall2 is_ion rs ions -> flat_map (findall_child [spin_set "spin 1"; Tag "r"]) (filter (matches (Tag "set")) ions) = flat_map fst rs /\ flat_map (findall_child [spin_set "spin 2"; Tag "r"]) (filter (matches (Tag "set")) ions) = flat_map snd rs.
Proof. intros F. induction F as [|r e rs ions H F [IH1 IH2]]; auto. destruct (ion_paths _ _ H) as (M & Q1 & Q2). cbn [filter]. rewrite M. cbn [flat_map]. rewrite Q1, Q2, IH1, IH2. auto. Qed.
Lemma partial_paths p1 p2 e : is_partial p1 p2 e -> tag e = "partial" /\
  findall_child [Tag "array"; Tag "set"; Tag "set"; spin_set "spin 1"; Tag "r"] e = p1 /\ findall_child [Tag "array"; Tag "set"; Tag "set"; spin_set "spin 2"; Tag "r"] e = p2.
Proof.
  intros (arr & st & ions & rs & HE & HA & HS & HI & C1 & C2 & NE). pose proof HE as (x & ->). split; [reflexivity|]. destruct (ions_paths _ _ HI) as [Q1 Q2].
  rewrite !(plain_child _ _ _ _ _ HE), !filter_one, !flat_one, !(array_set _ _ _ HA), !(plain_child _ _ _ _ _ HS) by (eauto using plain_set, array_tag). rewrite Q1, Q2. auto.
Qed.
Lemma dos_paths r e : is_dos_rows r e -> tag e = "dos" /\ attr e "comment" = None /\ findall_child [item "efermi"] e = [dr_fermi r] /\
  findall_child [Tag "total"; Tag "array"; Tag "set"; spin_set "spin 1"; Tag "r"] e = dr_t1 r /\ findall_child [Tag "total"; Tag "array"; Tag "set"; spin_set "spin 2"; Tag "r"] e = dr_t2 r /\
  findall_child [Tag "partial"; Tag "array"; Tag "set"; Tag "set"; spin_set "spin 1"; Tag "r"] e = dr_p1 r /\ findall_child [Tag "partial"; Tag "array"; Tag "set"; Tag "set"; spin_set "spin 2"; Tag "r"] e = dr_p2 r /\ dr_t1 r <> [].
Proof.
  intros (a & t & total & partial & EF & N & T & HE & HP). pose proof HE as (x & ->). split; [reflexivity|]. split; [reflexivity|]. destruct (total_paths _ _ _ T) as (TT & T1 & T2).
  assert (matches (item "efermi") (dr_fermi r) = true) as ME by (rewrite EF; cbn [matches item tag]; unfold attr; cbn [attrs]; rewrite N; reflexivity).
  assert (matches (Tag "total") (dr_fermi r) = false) as MT by (rewrite EF; reflexivity). assert (matches (Tag "partial") (dr_fermi r) = false) as MP by (rewrite EF; reflexivity).
  assert (dr_t1 r <> []) as NT by (destruct T as (? & ? & ? & ? & ? & ? & ? & ? & NE); auto).
  rewrite !(plain_child _ _ _ _ _ HE). cbn [app filter]. rewrite ME, MT, MP. cbn [matches item]. rewrite TT. cbn [String.eqb Ascii.eqb Bool.eqb andb].
  destruct HP as [(-> & -> & ->)|(q & -> & HQ & _)].
  - cbn [filter flat_map]. rewrite !app_nil_r, T1, T2. auto 10.
  - destruct (partial_paths _ _ _ HQ) as (TQ & P1 & P2). cbn [filter matches item]. rewrite TQ. cbn [String.eqb Ascii.eqb Bool.eqb andb flat_map]. rewrite !app_nil_r, T1, T2, P1, P2. auto 10.
Qed.
