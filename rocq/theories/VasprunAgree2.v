(** The document, read by both parsers. *)
From Coq Require Import Ascii String List NArith ZArith Bool Lia.
From Verif Require Import PyBase PyStrLemmas PyNum UtilsModel LineModel OutcarModel ChgcarModel StreamConfig VasprunTypes VasprunXml VasprunModel VasprunEvents VasprunSpec VasprunTables VasprunTree VasprunSteps VasprunEnergies VasprunDoc VasprunRun VasprunElems VasprunElems2 VasprunElems3 VasprunElems4 VasprunElems5 VasprunElems6 VasprunElems7 VasprunPaths VasprunCalc VasprunResults VasprunHead VasprunHead2 VasprunHead3 VasprunAgree.
Import ListNotations.
Local Open Scope string_scope.
Local Open Scope list_scope.

Definition top_tags : list string := ["generator"; "parameters"; "calculation"; "kpoints"; "projected"; "atominfo"].
Lemma quiet_top_filter t q : quiet other_top q -> In t top_tags -> filter (matches (Tag t)) q = [].
Proof. intros Q I. apply filter_tag. intros k K Z. destruct (Q k k K (or_introl eq_refl)) as [T _]. apply T. rewrite Z. exact I. Qed.
Lemma filter_one_tag t e : filter (matches (Tag t)) [e] = if String.eqb t (tag e) then [e] else []. Proof. reflexivity. Qed.
Lemma filter_same t u l : (forall k, In k l -> tag k = u) -> filter (matches (Tag t)) l = if String.eqb t u then l else [].
Proof. intros H. induction l as [|k l IH]. { destruct (String.eqb t u); auto. } cbn [filter matches]. rewrite (H k) by (left; auto). rewrite IH by (intros; apply H; right; auto). destruct (String.eqb t u); auto. Qed.
Lemma calculation_tag rs c : is_calculation rs c -> tag c = "calculation". Proof. intros (? & (x & ->) & _). auto. Qed.
Lemma generator_tag e : is_generator e -> tag e = "generator". Proof. intros (? & (x & ->) & _). auto. Qed.
Lemma kpoints_tag e : is_kpoints e -> tag e = "kpoints". Proof. intros (? & ? & ? & ? & ? & ? & (x & ->) & _). auto. Qed.
Lemma parameters_tag e : is_parameters e -> tag e = "parameters". Proof. intros ((? & (x & ->)) & _). auto. Qed.
Lemma atominfo_tag e : is_atominfo e -> tag e = "atominfo". Proof. intros (? & ? & ? & ? & ? & ? & ? & ? & (x & ->) & _). auto. Qed.
(** the elements of a run *)
Definition children (calcs : list xml) : list xml := flat_map kids calcs.
Record run_parts (x : xml) (calcs : list xml) (ge kp pa ai : xml) (q1 q2 q3 q4 q5 q6 : list xml) : Prop := RunParts {
  rp_root : plain "modeling" (q1 ++ [ge] ++ q2 ++ [kp] ++ q3 ++ [pa] ++ q4 ++ [ai] ++ q5 ++ calcs ++ q6) x;
  rp_ge : is_generator ge; rp_kp : is_kpoints kp; rp_pa : is_parameters pa; rp_ai : is_atominfo ai;
  rp_q1 : quiet other_top q1; rp_q2 : quiet other_top q2; rp_q3 : quiet other_top q3; rp_q4 : quiet other_top q4; rp_q5 : quiet other_top q5; rp_q6 : quiet other_top q6;
  rp_some : calcs <> []; rp_calcs : Forall (is_calculation (filter (matches (Tag "eigenvalues")) (children calcs))) calcs;
  rp_once : forall s, In s once_in_all -> length (filter (matches s) (children calcs)) <= 1;
  rp_deep : forall k d, In k (kids x) -> In d (descendants k) -> ~ In (tag d) ["generator"; "parameters"; "atominfo"; "calculation"] }.
Lemma run_is x calcs : is_run x calcs -> exists ge kp pa ai q1 q2 q3 q4 q5 q6, run_parts x calcs ge kp pa ai q1 q2 q3 q4 q5 q6.
Proof.
  intros (ge & kp & pa & ai & q1 & q2 & q3 & q4 & q5 & q6 & H1 & H2 & H3 & H4 & H5 & Q & H7 & H8 & H9 & H10). exists ge, kp, pa, ai, q1, q2, q3, q4, q5, q6.
  apply quiet_app in Q as [Q1 Q]. apply quiet_app in Q as [Q2 Q]. apply quiet_app in Q as [Q3 Q]. apply quiet_app in Q as [Q4 Q]. apply quiet_app in Q as [Q5 Q6]. constructor; auto.
Qed.
Section Run.
Context {x : xml} {calcs : list xml} {ge kp pa ai : xml} {q1 q2 q3 q4 q5 q6 : list xml} (P : run_parts x calcs ge kp pa ai q1 q2 q3 q4 q5 q6).
Lemma kids_tag t : In t top_tags -> filter (matches (Tag t)) (kids x) =
  if String.eqb t "generator" then [ge] else if String.eqb t "kpoints" then [kp] else if String.eqb t "parameters" then [pa] else if String.eqb t "atominfo" then [ai] else if String.eqb t "calculation" then calcs else [].
Proof.
  intros I. destruct P as [(y & ->) GE KP PA AI Q1 Q2 Q3 Q4 Q5 Q6 _ CS _ _]. cbn [kids]. rewrite !filter_app. rewrite (quiet_top_filter t q1), (quiet_top_filter t q2), (quiet_top_filter t q3), (quiet_top_filter t q4), (quiet_top_filter t q5), (quiet_top_filter t q6) by auto. rewrite !filter_one_tag.
  rewrite (generator_tag _ GE), (kpoints_tag _ KP), (parameters_tag _ PA), (atominfo_tag _ AI).
  rewrite (filter_same t "calculation" calcs) by (intros k K; rewrite Forall_forall in CS; apply (calculation_tag _ _ (CS k K))).
  repeat (destruct I as [<-|I]; [cbn [String.eqb Ascii.eqb Bool.eqb app]; rewrite ?app_nil_r; reflexivity|]). destruct I.
Qed.
Lemma deep_tag t r : In t ["generator"; "parameters"; "atominfo"; "calculation"] -> findall_deep (Tag t :: r) x = flat_map (findall_child r) (filter (matches (Tag t)) (kids x)).
Proof.
  intros I. rewrite findall_deep_flat. f_equal. unfold findall_deep. cbn [children_at]. pose proof (rp_deep _ _ _ _ _ _ _ _ _ _ _ _ P) as D. destruct x as [tg a z ks]. cbn [kids] in *. apply filter_descendants.
  intros k d K E. apply not_matches. intros Z. apply (D k d K E). rewrite Z. exact I.
Qed.
Lemma child_tag t r : findall_child (Tag t :: r) x = flat_map (findall_child r) (filter (matches (Tag t)) (kids x)).
Proof. destruct x as [tg a z ks]. apply child_cons. Qed.
Lemma calcs_are : calculations x = calcs.
Proof. unfold calculations. rewrite deep_tag by (cbn; tauto). rewrite kids_tag by (cbn; tauto). cbn [String.eqb Ascii.eqb Bool.eqb]. apply flat_child_nil. Qed.
Lemma generator_path r : findall_deep (Tag "generator" :: r) x = findall_child r ge.
Proof. rewrite deep_tag, kids_tag by (cbn; tauto). cbn [String.eqb Ascii.eqb Bool.eqb]. apply flat_one. Qed.
Lemma parameters_path r : findall_deep (Tag "parameters" :: r) x = findall_child r pa.
Proof. rewrite deep_tag, kids_tag by (cbn; tauto). cbn [String.eqb Ascii.eqb Bool.eqb]. apply flat_one. Qed.
Lemma atominfo_path r : findall_deep (Tag "atominfo" :: r) x = findall_child r ai.
Proof. rewrite deep_tag, kids_tag by (cbn; tauto). cbn [String.eqb Ascii.eqb Bool.eqb]. apply flat_one. Qed.
Lemma kpoints_path r : findall_child (Tag "kpoints" :: r) x = findall_child r kp.
Proof. rewrite child_tag, kids_tag by (cbn; tauto). cbn [String.eqb Ascii.eqb Bool.eqb]. apply flat_one. Qed.
(** paths in the calculations *)
Lemma children_path s r (l : list xml) : flat_map (findall_child (s :: r)) l = path_in (children l) s r.
Proof. unfold path_in, children. induction l as [|c l IH]; auto. cbn [flat_map]. rewrite filter_app, flat_map_app, IH. f_equal. destruct c. apply child_cons. Qed.
Lemma calc_path s r : findall (Tag "calculation" :: s :: r) x = some_list (path_in (children calcs) s r).
Proof. rewrite findall_calc, calcs_are, children_path. auto. Qed.
Lemma calc_find s r : find (Tag "calculation" :: s :: r) x = hd_error (path_in (children calcs) s r).
Proof. unfold find. rewrite findall_deep_flat. change (findall_deep [Tag "calculation"] x) with (calculations x). rewrite calcs_are, children_path. auto. Qed.
Lemma child_in k : In k (children calcs) -> calc_child (filter (matches (Tag "eigenvalues")) (children calcs)) k.
Proof.
  intros I. unfold children in I. apply in_flat_map in I as (c & C & K). pose proof (rp_calcs _ _ _ _ _ _ _ _ _ _ _ _ P) as F. rewrite Forall_forall in F. destruct (F c C) as (ks & (y & ->) & FK & _). cbn [kids] in K. rewrite Forall_forall in FK. apply FK. auto.
Qed.
End Run.
