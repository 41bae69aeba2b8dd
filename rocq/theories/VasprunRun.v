(** Runs of the event parser over parts of a document. *)
From Coq Require Import Ascii String List NArith ZArith Bool Lia.
From Verif Require Import PyBase PyStrLemmas PyNum UtilsModel LineModel OutcarModel ChgcarModel StreamConfig VasprunTypes VasprunXml VasprunModel VasprunEvents VasprunSpec VasprunDoc.
Import ListNotations.
Local Open Scope string_scope.
Local Open Scope list_scope.

(** ** Tactics *)
Ltac ev := cbv -[app convert1D convert2D convert_species every_other convert_f convert_i convert_array_i convert_array_f extract_eigenvalues extract_eigenvelocities extract_projectors partial_dos split_even column columns_from1 ndset ndget OutcarModel.to_float nth olen length].
(** the statements of one pass through the loop, without looking at the flags *)
Ltac blocks := cbv [handle step flag_from calculation_start calculation_end atoms_block kpoints_flag parameters_block param_block dos_block forces_block energy_flags eigen_block diel_block
  scstep_one scstep_block lattice_block final_energy energies_block eigen_rows specific_k eigen_specific_rows velocity_rows projected_block dynmat_block calculation_block kpoints_block dos_rows
  collect collect2 flag_set named name_is comment_is start ends].
Ltac open_state s := destruct s as [fl ca d1 d2 d3 d4 d5 d6 ce po fo sr tt0 do p1 p2 dy sp hd ou].
Ltac flags_in E := match type of E with s_flags _ = ?F => match goal with fl : N |- _ => change (fl = F) in E; subst fl end end.

(** ** Trees *)
Fixpoint xml_rect' (P : xml -> Prop) (H : forall t a x ks, Forall P ks -> P (Elem t a x ks)) (e : xml) : P e :=
  match e with Elem t a x ks => H t a x ks ((fix go (l : list xml) : Forall P l := match l with [] => Forall_nil P | k :: r => Forall_cons k (xml_rect' P H k) (go r) end) ks) end.
Lemma run_app kbb a b s : run_events kbb (a ++ b) s = let* s := run_events kbb a s in run_events kbb b s.
Proof. unfold run_events. revert s. induction a as [|e a IH]; intros s; cbn [foldM app]; auto. destruct (handle kbb e s); cbn [bind]; auto. Qed.
Lemma run_elem kbb p t a x ks s : run_events kbb (events p (Elem t a x ks)) s =
  let* s1 := handle kbb (Start true p (Elem t a x ks)) s in let* s2 := run_events kbb (flat_map (events (Some a)) ks) s1 in handle kbb (End (Elem t a x ks)) s2.
Proof.
  cbn [events]. unfold run_events. cbn [foldM]. destruct (handle kbb (Start true p (Elem t a x ks)) s) as [s1|]; cbn [bind]; auto.
  change (foldM (fun s ev => handle kbb ev s) (flat_map (events (Some a)) ks ++ [End (Elem t a x ks)]) s1) with (run_events kbb (flat_map (events (Some a)) ks ++ [End (Elem t a x ks)]) s1).
  rewrite run_app. change (foldM (fun s ev => handle kbb ev s) (flat_map (events (Some a)) ks) s1) with (run_events kbb (flat_map (events (Some a)) ks) s1). destruct (run_events kbb _ s1); cbn [bind]; auto. unfold run_events. cbn [foldM bind]. destruct (handle _ _ _); auto.
Qed.
Lemma run_flat_app kbb p a b s : run_events kbb (flat_map (events p) (a ++ b)) s = let* s := run_events kbb (flat_map (events p) a) s in run_events kbb (flat_map (events p) b) s.
Proof. rewrite flat_map_app. apply run_app. Qed.
Lemma run_flat_cons kbb p a b s : run_events kbb (flat_map (events p) (a :: b)) s = let* s := run_events kbb (events p a) s in run_events kbb (flat_map (events p) b) s.
Proof. cbn [flat_map]. apply run_app. Qed.
Lemma run_flat_one kbb p a s : run_events kbb (flat_map (events p) [a]) s = run_events kbb (events p a) s.
Proof. cbn [flat_map]. rewrite app_nil_r. auto. Qed.
Lemma run_nil kbb s : run_events kbb [] s = Ok s. Proof. reflexivity. Qed.
(** elements that do nothing *)
Lemma calm_run kbb F (P : xml -> Prop) : (forall st seen par d s, P d -> s_flags s = F -> step kbb st seen par d s = Ok s) ->
  forall e, (forall d, In d (within e) -> P d) -> forall p s, s_flags s = F -> run_events kbb (events p e) s = Ok s.
Proof.
  intros H e. induction e as [t a x ks IH] using xml_rect'. intros A p s E. rewrite run_elem. cbn [handle]. rewrite H; auto; [|apply A; left; auto]. cbn [bind].
  assert (run_events kbb (flat_map (events (Some a)) ks) s = Ok s) as ->.
  { assert (forall k d, In k ks -> In d (within k) -> P d) as A' by (intros k d I J; apply A; right; cbn [descendants]; apply in_flat_map; eauto). clear A.
    induction IH as [|k ks K IH IHl]; auto. rewrite run_flat_cons, K; auto; [|intros d D; eapply A'; [left; auto|auto]]. cbn [bind]. apply IHl. intros k' d I J. eapply A'; [right; eauto|auto]. }
  cbn [bind handle]. apply H; auto. apply A. left; auto.
Qed.
Lemma calm_list kbb F (P : xml -> Prop) : (forall st seen par d s, P d -> s_flags s = F -> step kbb st seen par d s = Ok s) ->
  forall l, quiet P l -> forall p s, s_flags s = F -> run_events kbb (flat_map (events p) l) s = Ok s.
Proof.
  intros H l. induction l as [|e l IH]; intros Q p s E; auto. rewrite run_flat_cons, (calm_run kbb F P H); auto; [|intros d D; eapply Q; [left; auto|auto]]. cbn [bind]. apply IH; auto. intros k d I J. eapply Q; [right; eauto|auto].
Qed.
(** rows *)
Lemma push_rows kbb p F tg : (forall t s, s_flags s = F -> run_events kbb (events p (Elem tg [] t [])) s = Ok (push (Elem tg [] t []) s)) ->
  forall rows, Forall (is_row tg) rows -> forall s, s_flags s = F -> run_events kbb (flat_map (events p) rows) s = Ok (set_s_data (s_data s ++ rows) s).
Proof.
  intros H rows R. induction R as [|r rows [t ->] R IH]; intros s E; [rewrite app_nil_r; destruct s; auto|]. rewrite run_flat_cons, H by auto. cbn [bind]. rewrite IH by auto. unfold push. cbn [s_data set_s_data]. rewrite <- app_assoc. auto.
Qed.
Lemma push2_rows kbb p F tg : (forall t s, s_flags s = F -> run_events kbb (events p (Elem tg [] t [])) s = Ok (push2 (Elem tg [] t []) s)) ->
  forall rows, Forall (is_row tg) rows -> forall s, s_flags s = F -> run_events kbb (flat_map (events p) rows) s = Ok (set_s_data2 (s_data2 s ++ rows) s).
Proof.
  intros H rows R. induction R as [|r rows [t ->] R IH]; intros s E; [rewrite app_nil_r; destruct s; auto|]. rewrite run_flat_cons, H by auto. cbn [bind]. rewrite IH by auto. unfold push2. cbn [s_data2 set_s_data2]. rewrite <- app_assoc. auto.
Qed.
Ltac push_done := clear; let E := fresh in let t := fresh in let s := fresh in intros t s E; open_state s; flags_in E; ev; reflexivity.

(** ** Quiet elements *)
Lemma not_tag d l t : ~ In (tag d) l -> existsb (String.eqb t) l = true -> String.eqb t (tag d) = false.
Proof. intros N I. apply String.eqb_neq. intros Q. apply N. rewrite <- Q. apply existsb_exists in I as [u [I U]]. apply String.eqb_eq in U. subst u. auto. Qed.
Ltac each_tag H d l := lazymatch l with ?t :: ?r => try rewrite !(not_tag d _ t H eq_refl); each_tag H d r | [] => idtac end.
Ltac no_tags H := lazymatch type of H with ~ In (tag ?d) ?l => each_tag H d l end.
Lemma opt_is_false v o : o <> Some v -> opt_is v o = false.
Proof. intros N. destruct o as [w|]; cbn; auto. apply String.eqb_neq. congruence. Qed.
Lemma opt_is_true v o : opt_is v o = true <-> o = Some v.
Proof. destruct o as [w|]; cbn; [rewrite String.eqb_eq|]; split; congruence. Qed.
Lemma quiet_top kbb st seen par d s : other_top d -> s_flags s = 0%N -> step kbb st seen par d s = Ok s.
Proof.
  intros [T A] E. open_state s. flags_in E. blocks.
  assert ((String.eqb "array" (tag d) && opt_is "atoms" (attr d "name"))%bool = false) as B.
  { destruct (String.eqb_spec "array" (tag d)) as [Q|]; auto. apply opt_is_false. intros Z. apply A. auto. }
  replace (st && String.eqb "array" (tag d) && opt_is "atoms" (attr d "name"))%bool with false by (rewrite <- andb_assoc, B, andb_false_r; auto).
  replace (negb st && String.eqb "array" (tag d) && opt_is "atoms" (attr d "name"))%bool with false by (rewrite <- andb_assoc, B, andb_false_r; auto).
  no_tags T. destruct st; ev; reflexivity.
Qed.
Lemma quiet_calc kbb st seen par d s : other_calc d -> s_flags s = 4%N -> step kbb st seen par d s = Ok s.
Proof.
  intros [T [A V]] E. open_state s. flags_in E. blocks.
  assert (forall n, n = "atoms" \/ n = "born_charges" -> (String.eqb "array" (tag d) && opt_is n (attr d "name"))%bool = false) as B.
  { intros n N. destruct (String.eqb_spec "array" (tag d)) as [Q|]; auto. apply opt_is_false. intros Z. apply A. destruct N as [->| ->]; auto. }
  replace (st && String.eqb "array" (tag d) && opt_is "atoms" (attr d "name"))%bool with false by (rewrite <- andb_assoc, B, andb_false_r; auto).
  replace (negb st && String.eqb "array" (tag d) && opt_is "atoms" (attr d "name"))%bool with false by (rewrite <- andb_assoc, B, andb_false_r; auto).
  replace (st && String.eqb "array" (tag d) && opt_is "born_charges" (attr d "name"))%bool with false by (rewrite <- andb_assoc, B, andb_false_r; auto).
  replace (negb st && String.eqb "array" (tag d) && opt_is "born_charges" (attr d "name"))%bool with false by (rewrite <- andb_assoc, B, andb_false_r; auto).
  destruct (String.eqb_spec "varray" (tag d)) as [Q|NV].
  - clear B A T. destruct (V (eq_sym Q)) as (n & N & NF & NS). destruct d as [tg a t ks]. cbn [tag] in Q. subst tg. rewrite !N. cbv [opt_is]. rewrite !(proj2 (String.eqb_neq "forces" n)), !(proj2 (String.eqb_neq "stress" n)) by congruence.
    match goal with |- context [attr (Elem "varray" a t ks) "comment"] => destruct (attr (Elem "varray" a t ks) "comment") as [w|]; [destruct (String.eqb "interpolated" w)|] end; destruct st; ev; reflexivity.
  - no_tags T. destruct (opt_is "interpolated" (attr d "comment")); destruct st; ev; reflexivity.
Qed.
(** elements of a known tag with unknown attributes *)
Ltac known_tag := cbv [tag]; cbn [String.eqb Ascii.eqb Bool.eqb].
Lemma quiet_structure kbb st seen par d s : other_structure d -> s_flags s = 12%N -> step kbb st seen par d s = Ok s.
Proof.
  intros T E. open_state s. flags_in E. destruct d as [tg a t ks]. unfold other_structure in T. cbn [tag] in T.
  destruct T as [->|[->|[-> (n & N & D)]]].
  - blocks. destruct (opt_is "interpolated" (attr (Elem "i" a t ks) "comment")); destruct st; ev; reflexivity.
  - blocks. destruct (opt_is "interpolated" (attr (Elem "v" a t ks) "comment")); destruct st; ev; reflexivity.
  - blocks. rewrite !N. cbv [opt_is]. rewrite !(proj2 (String.eqb_neq "basis" n)), !(proj2 (String.eqb_neq "positions" n)), !(proj2 (String.eqb_neq "forces" n)), !(proj2 (String.eqb_neq "stress" n)) by (intros Q; apply D; rewrite <- Q; cbn; tauto).
    match goal with |- context [attr (Elem "varray" a t ks) "comment"] => destruct (attr (Elem "varray" a t ks) "comment") as [w|]; [destruct (String.eqb "interpolated" w)|] end; destruct st; ev; reflexivity.
Qed.
