(** Lists and tables of an OUTCAR, from what its lines say. *)
From Coq Require Import Ascii String List NArith ZArith Bool Lia.
From Verif Require Import PyBase PyStrLemmas PyNum UtilsModel OutcarModel OutcarSpec OutcarMatch OutcarProofs OutcarScan OutcarStatus StreamConfig KpointsCodes.
Import ListNotations.
Local Open Scope list_scope.

(** ** Sections *)
Definition section_said (tail : list str) (s : section) : Prop := head_line (plain (fun l => begins l (header s))) tail.
Lemma section_fun t s s' : section_said t s -> section_said t s' -> s = s'.
Proof. destruct t as [|l t]; [intros []|]. intros [_ A] [_ B]. destruct s, s'; auto; exfalso; eapply headers_apart; eauto. Qed.
Lemma last_said_snoc_here {V} (Q : str -> V -> Prop) before l v : Q l v -> last_said (fun t v => head_line (fun l => Q l v) t) (before ++ [l]) (Some v).
Proof. intros H. exists before, [l]. split; auto. split; auto. intros more t w E N. destruct more as [|x [|y m]]; try congruence; inversion E. subst. intros []. Qed.
Lemma snoc_cases {A} (b : list A) l p t : b ++ [l] = p ++ t -> (t = [] /\ p = b ++ [l]) \/ exists t0, t = t0 ++ [l] /\ b = p ++ t0.
Proof.
  intros H. destruct t as [|x t] using rev_ind; [left; rewrite app_nil_r in H; auto|]. right. clear IHt. rewrite app_assoc in H. apply app_inj_tail in H as [H1 H2]. subst. exists t. auto.
Qed.
Lemma last_said_snoc_skip {V} (Q : str -> V -> Prop) before l o : (forall v, ~ Q l v) -> last_said (fun t v => head_line (fun l => Q l v) t) before o -> last_said (fun t v => head_line (fun l => Q l v) t) (before ++ [l]) o.
Proof.
  intros N. destruct o as [v|].
  - intros [p [t [E [X Y]]]]. exists p, (t ++ [l]). split; [rewrite E, app_assoc; auto|]. split; [destruct t; [destruct X|exact X]|].
    intros m t' w E' M Z. symmetry in E'. pose proof (snoc_cases _ _ _ _ (eq_sym E')) as [[-> _]|[t0 [-> E2]]]; [exact Z|]. destruct t0 as [|x t0]; [exact (N _ Z)|]. exact (Y m (x :: t0) w E2 M Z).
  - intros Y p t w E Z. destruct (snoc_cases _ _ _ _ E) as [[-> _]|[t0 [-> E2]]]; [exact Z|]. destruct t0 as [|x t0]; [exact (N _ Z)|]. exact (Y p (x :: t0) w E2 Z).
Qed.
Definition sec_of (c : config) : option section := match c with CfgNone => None | CfgStatic => Some Static | CfgDynamic => Some Dynamic end.
Definition sec_inv (before : list str) (d : odata) : Prop := last_said section_said before (sec_of (ov_config d)).
Lemma sec_step before l rest d d' : sec_inv before d -> step (l :: rest) d l = Ok d' -> sec_inv (before ++ [l]) d'.
Proof.
  unfold sec_inv. intros I0 H. apply step_ok in H. rewrite (sf_config _ _ _ _ H). clear H.
  assert (forall s, startswith (strip l) (header s) && negb (is_some (iteration l)) = true <-> plain (fun l => begins l (header s)) l) as K.
  { intros s. unfold plain. rewrite andb_true_iff, starts_begins, <- iteration_none. destruct (iteration l); cbn; split; intros [A B]; split; auto; discriminate. }
  destruct (startswith (strip l) (header Dynamic) && negb (is_some (iteration l))) eqn:ED.
  - apply K in ED. apply (last_said_snoc_here (fun l s => plain (fun l => begins l (header s)) l)). auto.
  - destruct (startswith (strip l) (header Static) && negb (is_some (iteration l))) eqn:ES.
    + apply K in ES. apply (last_said_snoc_here (fun l s => plain (fun l => begins l (header s)) l)). auto.
    + apply (last_said_snoc_skip (fun l s => plain (fun l => begins l (header s)) l)); auto. intros s X. apply K in X. destruct s; congruence.
Qed.
Lemma in_section_cfg before l d' s : sec_inv (before ++ [l]) d' -> (ov_config d' = cfg s <-> in_section before l s).
Proof.
  unfold sec_inv, in_section. change (fun (tail : list str) (s0 : section) => head_line (plain (fun l0 => begins l0 (header s0))) tail) with section_said. intros I0. split.
  - intros E. rewrite E in I0. destruct s; exact I0.
  - intros X. pose proof (last_said_fun _ _ _ _ section_fun I0 X) as E. destruct (ov_config d'); cbn [sec_of] in E; inversion E; reflexivity.
Qed.
(** entries of original_cell_type *)
Definition pricel (s : section) (before tail : list str) (c : cell_type) : Prop :=
  in_line s (fun l => begins l "Subroutine PRICEL returns" /\ (exists n, nth_error tail 1 = Some n /\ strip n <> []) /\ c = CellPrimitive) before tail.
Definition supercell (s : section) (before tail : list str) (c : cell_type) : Prop :=
  in_line s (fun l => has l "primitive cells build up your supercell" /\ c = CellSupercell (split_ws l)) before tail.
Lemma symmetry_said ls d' s : scan ls odata0 = Ok d' ->
  all_said (fun before tail => maybe (operations_said s before tail)) [] ls (part s (od_operations d')) /\
  all_said (fun before tail => maybe (cell_said s before tail)) [] ls (part s (od_symmetrized d')) /\
  all_said (fun before tail vs => exists a b, vs = a ++ b /\ maybe (pricel s before tail) a /\ maybe (supercell s before tail) b) [] ls (part s (od_original d')).
Proof.
  intros H. assert (sec_inv [] odata0) as I0 by (apply last_said_nil; intros v []).
  assert (forall before l rest d d', sec_inv before d -> step (l :: rest) d l = Ok d' -> forall P : Prop, (~ is_marker l /\ ov_config d' = cfg s /\ P) <-> ~ is_marker l /\ in_section before l s /\ P) as W.
  { intros before l rest d d1 I1 S1 P. rewrite (in_section_cfg before l d1 s); [tauto|]. eapply sec_step; eauto. }
  split; [|split].
  - apply (scan_all (fun d => part s (od_operations d)) (fun before tail => maybe (operations_said s before tail)) sec_inv) with (before := []) in H; auto.
    + destruct H as [vs [H E]]. rewrite E. destruct s; exact H.
    + intros before l rest d d1 I1 S1. split; [eapply sec_step; eauto|]. destruct (sf_symmetry _ _ _ _ (step_ok _ _ _ _ S1) s) as (a & b & c1 & c2 & A1 & A2 & A3 & A4 & A5 & A6 & A7).
      exists a. split; auto. eapply maybe_same; [|exact A4]. intros z. eapply W; eauto.
  - apply (scan_all (fun d => part s (od_symmetrized d)) (fun before tail => maybe (cell_said s before tail)) sec_inv) with (before := []) in H; auto.
    + destruct H as [vs [H E]]. rewrite E. destruct s; exact H.
    + intros before l rest d d1 I1 S1. split; [eapply sec_step; eauto|]. destruct (sf_symmetry _ _ _ _ (step_ok _ _ _ _ S1) s) as (a & b & c1 & c2 & A1 & A2 & A3 & A4 & A5 & A6 & A7).
      exists b. split; auto. eapply maybe_same; [|exact A5]. intros z. eapply W; eauto.
  - apply (scan_all (fun d => part s (od_original d)) (fun before tail vs => exists a b, vs = a ++ b /\ maybe (pricel s before tail) a /\ maybe (supercell s before tail) b) sec_inv) with (before := []) in H; auto.
    + destruct H as [vs [H E]]. rewrite E. destruct s; exact H.
    + intros before l rest d d1 I1 S1. split; [eapply sec_step; eauto|]. destruct (sf_symmetry _ _ _ _ (step_ok _ _ _ _ S1) s) as (a & b & c1 & c2 & A1 & A2 & A3 & A4 & A5 & A6 & A7).
      exists (c1 ++ c2). split; auto. exists c1, c2. split; auto. split; [eapply maybe_same; [|exact A6]|eapply maybe_same; [|exact A7]]; intros z; eapply W; eauto.
Qed.

(** ** Elastic moduli *)
Lemma elastic_said ls d' k h : scan ls odata0 = Ok d' -> In (k, h) elastic_keys ->
  (exists t, dget (lit k) (od_elastic d') = Some (Some t) /\ last_said (elastic h) ls (Some t)) \/
  (dget (lit k) (od_elastic d') = dget (lit k) (od_elastic odata0) /\ last_said (elastic h) ls None).
Proof.
  intros H K. apply (scan_last (fun d => dget (lit k) (od_elastic d)) (fun tail o => exists t, o = Some (Some t) /\ elastic h tail t)) in H.
  - destruct H as [[p [t [E [[v [X Y]] N]]]]|[H E]].
    + left. exists v. split; auto. exists p, t. split; auto. split; auto. intros m t' w M1 M2 M3. eapply (N m t'); eauto.
    + right. split; auto. intros b t v X Y. eapply (H b t); eauto.
  - intros v [t [_ [[] _]]].
  - intros l rest d d1 S1. apply (sf_elastic _ _ _ _ (step_ok _ _ _ _ S1) k h K).
Qed.
Lemma nonsym_said ls d d' : scan ls d = Ok d' -> dget (lit "non-symmetrized") (od_elastic d') = dget (lit "non-symmetrized") (od_elastic d).
Proof.
  revert d. induction ls as [|l rest IH]; intros d H; cbn [scan] in H; [apply Ok_inj' in H; congruence|]. apply bind_ok in H as [d1 [H1 H2]].
  rewrite (IH _ H2). apply (sf_nonsym _ _ _ _ (step_ok _ _ _ _ H1)).
Qed.

(** ** Magnetization *)
Definition tables_said (p : string) (ls : list str) (ts : list (list (Z * dict float) * option (dict float))) : Prop :=
  all_said (fun _ tail => maybe (mag_table p tail)) [] ls ts.
Definition dict_of (rows : list (Z * dict float)) : zdict (dict float) := after_rows rows [].
Lemma after_rows_app a b s : after_rows (a ++ b) s = after_rows b (after_rows a s).
Proof. unfold after_rows. apply fold_left_app. Qed.
Lemma mag_said p ls d' : scan ls odata0 = Ok d' -> In p projs -> exists ts, tables_said p ls ts /\
  let s := sphere_of p (od_sphere d') in
  sp_site s = dict_of (concat (map fst ts)) /\
  match rev ts with
  | [] => sp_total s = []
  | (_, Some m) :: _ => sp_total s = m
  | (_, None) :: _ => exists k, hd_error (sp_site s) = Some (k, sp_total s)
  end.
Proof.
  intros H K.
  assert (forall ls before d d', scan ls d = Ok d' -> exists ts, all_said (fun _ tail => maybe (mag_table p tail)) before ls ts /\
     sp_site (sphere_of p (od_sphere d')) = after_rows (concat (map fst ts)) (sp_site (sphere_of p (od_sphere d))) /\
     match rev ts with [] => sp_total (sphere_of p (od_sphere d')) = sp_total (sphere_of p (od_sphere d)) | (_, Some m) :: _ => sp_total (sphere_of p (od_sphere d')) = m
       | (_, None) :: _ => exists k, hd_error (sp_site (sphere_of p (od_sphere d'))) = Some (k, sp_total (sphere_of p (od_sphere d'))) end) as G.
  { clear H ls d'. induction ls as [|l rest IH]; intros before d d' H; cbn [scan] in H.
    - apply Ok_inj' in H. subst. exists []. split; [constructor|]. split; reflexivity.
    - apply bind_ok in H as [d1 [H1 H2]]. destruct (IH (before ++ [l]) _ _ H2) as [ts [T1 [T2 T3]]]. destruct (sf_mag _ _ _ _ (step_ok _ _ _ _ H1) p K) as [[t [M1 [M2 M3]]]|[M1 M2]].
      + exists ([t] ++ ts). split; [constructor; [left; eauto|auto]|]. split; [cbn [app map concat]; rewrite after_rows_app, T2, M2; auto|].
        cbn [app rev]. destruct (rev ts) as [|[r [m|]] rs] eqn:ER; cbn [app]; auto.
        destruct t as [r [m|]]; cbn [snd] in M3. { rewrite T3. auto. }
        assert (ts = []) as -> by (rewrite <- (rev_involutive ts), ER; reflexivity). cbn [map concat after_rows fold_left] in T2. destruct M3 as [k M3]. exists k. rewrite T2, T3. auto.
      + exists ([] ++ ts). split; [constructor; [right; auto|auto]|]. cbn [app]. split; [rewrite T2, M2; auto|]. destruct (rev ts) as [|[r [m|]] rs]; auto. congruence. }
  destruct (G ls [] odata0 d' H) as [ts [T1 [T2 T3]]]. exists ts. split; [exact T1|].
  assert (sphere_of p (od_sphere odata0) = Sphere [] []) as E by (destruct K as [<-|[<-|[<-|[]]]]; reflexivity). rewrite E in T2, T3. split; auto.
Qed.
(** the last row of a site counts *)
Lemma dict_of_last rows k m more : ~ In k (map fst more) -> zget k (dict_of (rows ++ (k, m) :: more)) = Some m.
Proof.
  intros N. unfold dict_of. rewrite after_rows_app. cbn [after_rows fold_left fst snd]. generalize (after_rows rows []). intros s.
  assert (forall s, zget k s = Some m -> zget k (fold_left (fun s km => zset (fst km) (snd km) s) more s) = Some m) as G.
  { clear s. induction more as [|[k' m'] more IH]; intros s E; cbn [fold_left fst snd]; auto. cbn [map fst In] in N. apply IH; [tauto|]. rewrite zget_zset_other; auto. }
  apply G. apply zget_zset_same.
Qed.
Lemma dict_of_none rows k : ~ In k (map fst rows) -> zget k (dict_of rows) = None.
Proof.
  intros N. unfold dict_of, after_rows. assert (forall s, zget k s = None -> zget k (fold_left (fun s km => zset (fst km) (snd km) s) rows s) = None) as G; [|apply G; auto].
  induction rows as [|[k' m'] more IH]; intros s E; cbn [fold_left fst snd]; auto. cbn [map fst In] in N. apply IH; [tauto|]. rewrite zget_zset_other; auto.
Qed.
Lemma full_said ls d' : scan ls odata0 = Ok d' -> last_said cell_moment ls (od_full_cell d').
Proof. intros H. apply (scan_last_opt od_full_cell cell_moment (fun v X => X)) in H; auto. intros. apply (sf_full _ _ _ _ (step_ok _ _ _ _ H0)). Qed.
