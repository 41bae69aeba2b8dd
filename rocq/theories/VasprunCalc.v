(** The children of the ionic steps. *)
From Coq Require Import Ascii String List NArith ZArith Bool Lia.
From Verif Require Import PyBase PyStrLemmas PyNum UtilsModel LineModel OutcarModel ChgcarModel StreamConfig VasprunTypes VasprunXml VasprunModel VasprunEvents VasprunSpec VasprunSteps VasprunDoc VasprunRun VasprunElems VasprunElems2 VasprunElems3 VasprunElems5 VasprunElems6 VasprunElems7 VasprunElems8 VasprunPaths.
Import ListNotations.
Local Open Scope string_scope.
Local Open Scope list_scope.

(** ** Tags *)
Definition pstep_tag (s : pstep) : string := match s with Tag t | TagAt t _ _ => t end.
Lemma matches_tag s k : matches s k = true -> tag k = pstep_tag s.
Proof. destruct s; cbn; rewrite ?andb_true_iff; [intros H|intros [H _]]; apply String.eqb_eq in H; auto. Qed.
Lemma not_matches s k : tag k <> pstep_tag s -> matches s k = false.
Proof. intros N. destruct (matches s k) eqn:M; auto. apply matches_tag in M. congruence. Qed.
Lemma filter_tag s l : (forall k, In k l -> tag k <> pstep_tag s) -> filter (matches s) l = [].
Proof. intros H. apply filter_quiet. intros k K. apply not_matches. auto. Qed.
Definition read_tags : list string := ["generator"; "parameters"; "calculation"; "atominfo"; "projected"; "dos"; "structure"; "scstep"; "energy"; "eigenvalues"; "eigenvelocities"; "dielectricfunction"; "dynmat"].
Definition born_ : pstep := TagAt "array" "name" "born_charges".
Definition read_step (s : pstep) : Prop := In (pstep_tag s) read_tags \/ s = born_ \/ s = varray_ "forces" \/ s = varray_ "stress".
Lemma quiet_matches s k : quiet other_calc [k] -> read_step s -> matches s k = false.
Proof.
  intros Q I. destruct (Q k k (or_introl eq_refl) (or_introl eq_refl)) as [T [B V]]. destruct I as [I|I].
  - apply not_matches. intros E. apply T. rewrite E. exact I.
  - destruct (matches s k) eqn:M; auto. exfalso. pose proof (matches_tag _ _ M) as MT. destruct I as [->|[->| ->]]; cbn [matches varray_ born_ pstep_tag] in *; apply andb_true_iff in M as [_ M]; apply opt_is_true in M.
    + apply B. auto.
    + destruct (V MT) as (n & N & NF & _). congruence.
    + destruct (V MT) as (n & N & _ & NS). congruence.
Qed.
(** the kinds of children *)
Definition kinds : list pstep := Tag "scstep" :: once_each_step ++ once_in_all.
Lemma kinds_read s : In s kinds -> read_step s.
Proof. intros I. unfold read_step. repeat (destruct I as [<-|I]; [cbn; tauto|]). destruct I. Qed.
Definition pstep_eq (a b : pstep) : bool :=
  match a, b with Tag s, Tag t => String.eqb s t | TagAt s u v, TagAt t x y => String.eqb s t && String.eqb u x && String.eqb v y | _, _ => false end.
Lemma pstep_eq_ok a b : pstep_eq a b = true <-> a = b.
Proof.
  destruct a, b; cbn; rewrite ?andb_true_iff, ?String.eqb_eq; split; intros H; try discriminate.
  - congruence.
  - injection H. auto.
  - destruct H as [[-> ->] ->]. auto.
  - injection H as -> -> ->. auto.
Qed.
Lemma kinds_disjoint s t k : In s kinds -> In t kinds -> matches s k = true -> matches t k = true -> s = t.
Proof.
  intros I J M M'. assert (pstep_tag s = pstep_tag t) as T by (rewrite <- (matches_tag _ _ M); apply matches_tag; auto).
  apply pstep_eq_ok. revert M M' T.
  repeat (destruct I as [<-|I]; [clear -J; repeat (destruct J as [<-|J]; [intros M M' T; first [reflexivity|discriminate T|exfalso; clear -M M'; cbn [matches varray_] in M, M'; apply andb_true_iff in M as [_ M]; apply andb_true_iff in M' as [_ M']; apply opt_is_true in M, M'; congruence]|]); destruct J|]). destruct I.
Qed.
Lemma other_kind s t k : In s kinds -> matches s k = true -> In t kinds -> t <> s -> matches t k = false.
Proof. intros I M J N. destruct (matches t k) eqn:M'; auto. exfalso. apply N. symmetry. eapply kinds_disjoint; eauto. Qed.
(** the kind of a child *)
Lemma scstep_tag e : is_scstep e -> tag e = "scstep". Proof. intros ((ks & x & ->) & _). auto. Qed.
Lemma structure_tag e : is_structure e -> tag e = "structure". Proof. intros (? & ? & ? & ? & ? & ? & ? & (? & ->) & _). auto. Qed.
Lemma energy_tag e : is_energy e -> tag e = "energy". Proof. intros (? & (? & ->) & _). auto. Qed.
Lemma eigenvalues_tag r1 r2 e : is_eigenvalues r1 r2 e -> tag e = "eigenvalues". Proof. intros H. apply (eigen_paths _ _ _ H). Qed.
Lemma dos_tag e : is_dos e -> tag e = "dos". Proof. intros H. destruct (is_dos_rows_of _ H) as [r R]. apply (dos_paths _ _ R). Qed.
Lemma projected_tag f r1 r2 e : is_projected f r1 r2 e -> tag e = "projected". Proof. intros (? & ? & ? & ? & ? & ? & ? & (? & ->) & _). auto. Qed.
Lemma dielectric_tag im re e : is_dielectric im re e -> tag e = "dielectricfunction". Proof. intros (? & ? & ? & ? & -> & _). auto. Qed.
Lemma dynmat_tag h t v e : is_dynmat h t v e -> tag e = "dynmat". Proof. intros (? & ? & ? & (? & ->) & _). auto. Qed.
Lemma velocities_tag ks ws r1 r2 e : is_velocities ks ws r1 r2 e -> tag e = "eigenvelocities". Proof. intros (? & ? & ? & ? & ? & ? & -> & _). auto. Qed.
Lemma tag_matches t e : tag e = t -> matches (Tag t) e = true. Proof. intros <-. cbn. apply String.eqb_refl. Qed.
Lemma varray_matches n rows e : is_varray n rows e -> matches (varray_ n) e = true.
Proof. intros ((x & ->) & _). cbn [matches varray_ tag]. unfold attr. cbn [attrs assoc]. rewrite !String.eqb_refl. cbn [opt_is]. rewrite String.eqb_refl. reflexivity. Qed.
Lemma born_matches rows e : is_born rows e -> matches born_ e = true. Proof. intros (? & ? & ? & ? & -> & _). reflexivity. Qed.
(** every child is of one kind or not read *)
Definition of_kind (eigs : list xml) (s : pstep) (k : xml) : Prop :=
  s = Tag "scstep" /\ is_scstep k \/ s = Tag "structure" /\ is_structure k \/ s = varray_ "forces" /\ (exists r, is_varray "forces" r k) \/ s = varray_ "stress" /\ (exists r, is_varray "stress" r k) \/
  s = Tag "energy" /\ is_energy k \/ s = Tag "eigenvalues" /\ (exists r1 r2, is_eigenvalues r1 r2 k) \/ s = Tag "dos" /\ is_dos k \/ s = Tag "projected" /\ (exists f r1 r2, eigs = [f] /\ is_projected f r1 r2 k) \/
  s = Tag "dielectricfunction" /\ (exists im re, is_dielectric im re k) \/ s = born_ /\ (exists r, is_born r k) \/ s = Tag "dynmat" /\ (exists h t v, is_dynmat h t v k) \/
  s = Tag "eigenvelocities" /\ (exists ks ws r1 r2, is_velocities ks ws r1 r2 k).
Lemma child_kind eigs k : calc_child eigs k -> quiet other_calc [k] \/ exists s, In s kinds /\ matches s k = true /\ of_kind eigs s k.
Proof.
  unfold of_kind. intros [e H|e H|r e H|r e H|e H|r1 r2 e H|e H|r1 r2 f e F H|im re e H|r e H|h t v e H|kp w r1 r2 e H|e H]; [right..|left; auto].
  - exists (Tag "scstep"). split; [cbn; tauto|]. split; [apply tag_matches, scstep_tag; auto|]. auto.
  - exists (Tag "structure"). split; [cbn; tauto|]. split; [apply tag_matches, structure_tag; auto|]. auto.
  - exists (varray_ "forces"). split; [cbn; tauto|]. split; [eapply varray_matches; eauto|]. eauto 6.
  - exists (varray_ "stress"). split; [cbn; tauto|]. split; [eapply varray_matches; eauto|]. eauto 8.
  - exists (Tag "energy"). split; [cbn; tauto|]. split; [apply tag_matches, energy_tag; auto|]. auto 8.
  - exists (Tag "eigenvalues"). split; [cbn; tauto|]. split; [eapply tag_matches, eigenvalues_tag; eauto|]. eauto 11.
  - exists (Tag "dos"). split; [cbn; tauto|]. split; [apply tag_matches, dos_tag; auto|]. auto 11.
  - exists (Tag "projected"). split; [cbn; tauto|]. split; [eapply tag_matches, projected_tag; eauto|]. do 7 right. left. eauto 8.
  - exists (Tag "dielectricfunction"). split; [cbn; tauto|]. split; [eapply tag_matches, dielectric_tag; eauto|]. do 8 right. left. eauto 8.
  - exists born_. split; [cbn; tauto|]. split; [eapply born_matches; eauto|]. do 9 right. left. eauto 8.
  - exists (Tag "dynmat"). split; [cbn; tauto|]. split; [eapply tag_matches, dynmat_tag; eauto|]. do 10 right. left. eauto 8.
  - exists (Tag "eigenvelocities"). split; [cbn; tauto|]. split; [eapply tag_matches, velocities_tag; eauto|]. do 11 right. eauto 8.
Qed.
Lemma kind_of eigs k s : calc_child eigs k -> In s kinds -> matches s k = true -> of_kind eigs s k.
Proof.
  intros C I M. destruct (child_kind _ _ C) as [Q|(t & J & N & K)]. { rewrite (quiet_matches _ _ Q (kinds_read _ I)) in M. discriminate. }
  rewrite (kinds_disjoint s t k); auto.
Qed.
Lemma eig_child eigs k : calc_child eigs k -> matches (Tag "eigenvalues") k = true -> exists r1 r2, is_eigenvalues r1 r2 k.
Proof. intros C M. destruct (kind_of _ _ (Tag "eigenvalues") C ltac:(cbn; tauto) M) as [[K _]|[[K _]|[[K _]|[[K _]|[[K _]|[[_ H]|[[K _]|[[K _]|[[K _]|[[K _]|[[K _]|[K _]]]]]]]]]]]]; try discriminate K. auto. Qed.
Lemma scstep_child eigs k : calc_child eigs k -> matches (Tag "scstep") k = true -> is_scstep k.
Proof. intros C M. destruct (kind_of _ _ (Tag "scstep") C ltac:(cbn; tauto) M) as [[_ H]|[[K _]|[[K _]|[[K _]|[[K _]|[[K _]|[[K _]|[[K _]|[[K _]|[[K _]|[[K _]|[K _]]]]]]]]]]]]; try discriminate K. auto. Qed.
Lemma dos_child eigs k : calc_child eigs k -> matches (Tag "dos") k = true -> is_dos k.
Proof. intros C M. destruct (kind_of _ _ (Tag "dos") C ltac:(cbn; tauto) M) as [[K _]|[[K _]|[[K _]|[[K _]|[[K _]|[[K _]|[[_ H]|[[K _]|[[K _]|[[K _]|[[K _]|[K _]]]]]]]]]]]]; try discriminate K. auto. Qed.
Lemma diel_child eigs k : calc_child eigs k -> matches (Tag "dielectricfunction") k = true -> exists im re, is_dielectric im re k.
Proof. intros C M. destruct (kind_of _ _ (Tag "dielectricfunction") C ltac:(cbn; tauto) M) as [[K _]|[[K _]|[[K _]|[[K _]|[[K _]|[[K _]|[[K _]|[[K _]|[[_ H]|[[K _]|[[K _]|[K _]]]]]]]]]]]]; try discriminate K. auto. Qed.
Lemma dynmat_child eigs k : calc_child eigs k -> matches (Tag "dynmat") k = true -> exists h t v, is_dynmat h t v k.
Proof. intros C M. destruct (kind_of _ _ (Tag "dynmat") C ltac:(cbn; tauto) M) as [[K _]|[[K _]|[[K _]|[[K _]|[[K _]|[[K _]|[[K _]|[[K _]|[[K _]|[[K _]|[[_ H]|[K _]]]]]]]]]]]]; try discriminate K. auto. Qed.

Lemma vel_child eigs k : calc_child eigs k -> matches (Tag "eigenvelocities") k = true -> exists ks ws r1 r2, is_velocities ks ws r1 r2 k.
Proof. intros C M. destruct (kind_of _ _ (Tag "eigenvelocities") C ltac:(cbn; tauto) M) as [[K _]|[[K _]|[[K _]|[[K _]|[[K _]|[[K _]|[[K _]|[[K _]|[[K _]|[[K _]|[[K _]|[_ H]]]]]]]]]]]]; try discriminate K. auto. Qed.

(** ** Lists *)
Lemma flat_filter {A B} (f : B -> bool) (g : A -> list B) l : filter f (flat_map g l) = flat_map (fun a => filter f (g a)) l.
Proof. induction l as [|a l IH]; auto. cbn [flat_map]. rewrite filter_app. congruence. Qed.
Lemma flat_map_ext_in {A B} (f g : A -> list B) l : (forall a, In a l -> f a = g a) -> flat_map f l = flat_map g l.
Proof. induction l as [|a l IH]; intros H; auto. cbn. rewrite H, IH by (try (left; auto; fail); intros; apply H; right; auto). auto. Qed.
Lemma filter_descendants f t a x ks : (forall k d, In k ks -> In d (descendants k) -> f d = false) -> filter f (descendants (Elem t a x ks)) = filter f ks.
Proof.
  intros H. cbn [descendants]. induction ks as [|k ks IH]; auto. cbn [flat_map app filter]. rewrite filter_app, IH by (intros k' d K; apply H; right; auto).
  rewrite (filter_quiet f (descendants k)) by (intros d D; eapply H; [left; eauto|auto]). destruct (f k); auto.
Qed.
Lemma filter_unique {A} (f : A -> bool) l k : length (filter f l) <= 1 -> In k l -> f k = true -> filter f l = [k].
Proof.
  intros L I F. assert (In k (filter f l)) as J by (apply filter_In; auto). destruct (filter f l) as [|a [|b r]]; [destruct J|destruct J as [->|[]]; auto|cbn in L; lia].
Qed.
Lemma none_before {A} (f : A -> bool) a k b : length (filter f (a ++ k :: b)) <= 1 -> f k = true -> existsb f a = false.
Proof.
  intros L F. destruct (existsb f a) eqn:E; auto. exfalso. apply existsb_exists in E as (y & Y & G). rewrite filter_app in L. cbn [filter] in L. rewrite F, app_length in L.
  assert (In y (filter f a)) as J by (apply filter_In; auto). destruct (filter f a); [destruct J|cbn in L; lia].
Qed.
Lemma exists_filter {A} (f : A -> bool) l : existsb f l = false -> filter f l = [].
Proof. induction l as [|a l IH]; auto. cbn. intros H. apply orb_false_iff in H as [-> H]. auto. Qed.
(** one value if there was such a child, another if not *)
Definition pick {A} (s : pstep) (l : list xml) (new old : A) : A := if existsb (matches s) l then new else old.
Lemma pick_other {A} s l k (n o : A) : matches s k = false -> pick s (l ++ [k]) n o = pick s l n o.
Proof. intros M. unfold pick. rewrite existsb_app. cbn. rewrite M, !orb_false_r. auto. Qed.
Lemma pick_new {A} s l k (n o : A) : matches s k = true -> pick s (l ++ [k]) n o = n.
Proof. intros M. unfold pick. rewrite existsb_app. cbn. rewrite M, orb_true_r. auto. Qed.
Lemma pick_old {A} s l (n o : A) : existsb (matches s) l = false -> pick s l n o = o. Proof. intros M. unfold pick. rewrite M. auto. Qed.
Lemma pick_same {A} s l (n : A) : pick s l n n = n. Proof. unfold pick. destruct (existsb _ _); auto. Qed.
Lemma pick_nil {A} s (n o : A) : pick s [] n o = o. Proof. reflexivity. Qed.
Lemma pick_some {A} s l k (n o : A) : In k l -> matches s k = true -> pick s l n o = n.
Proof. intros I M. unfold pick. assert (existsb (matches s) l = true) as -> by (apply existsb_exists; eauto). auto. Qed.
Lemma pick_once {A} s l (n o : A) : length (filter (matches s) l) = 1 -> pick s l n o = n.
Proof.
  intros L. destruct (filter (matches s) l) as [|k r] eqn:E; [discriminate|]. assert (In k (filter (matches s) l)) as I by (rewrite E; left; auto). apply filter_In in I as [I M]. eapply pick_some; eauto.
Qed.
