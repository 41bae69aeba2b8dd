(** The parameters and the atoms. *)
From Coq Require Import Ascii String List NArith ZArith Bool Lia.
From Verif Require Import PyBase PyStrLemmas PyNum UtilsModel LineModel OutcarModel ChgcarModel StreamConfig VasprunTypes VasprunXml VasprunModel VasprunEvents VasprunSpec VasprunSteps VasprunDoc VasprunRun VasprunElems VasprunElems2 VasprunElems3 VasprunElems4 VasprunElems5 VasprunElems6 VasprunPaths VasprunCalc VasprunHead.
Import ListNotations.
Local Open Scope string_scope.
Local Open Scope list_scope.

(** ** The parameters *)
Definition par1 (o : parsed) (v : list (string * string) * xml) : res parsed :=
  let (par, d) := v in
  let cf (f : option float -> parsed -> parsed) := let* v := convert_f (text d) in Ok (f v o) in
  let ci (f : option Z -> parsed -> parsed) := let* v := convert_i (text d) in Ok (f v o) in
  match attr d "name" with
  | None => Ok o
  | Some n => if String.eqb "SYMPREC" n then cf set_p_symprec else if String.eqb "ISPIN" n then ci set_p_ispin else if String.eqb "ISMEAR" n then ci set_p_ismear else
              if String.eqb "SIGMA" n then cf set_p_sigma else if String.eqb "NBANDS" n then ci set_p_nbands else if String.eqb "NELECT" n then cf set_p_nelect else
              if String.eqb "SYSTEM" n then Ok (set_p_system (text d) o) else
              if String.eqb "NELM" n then (if opt_is "electronic convergence" (assoc "name" par) then ci set_p_nelm else Ok o) else
              if String.eqb "NSW" n then ci set_p_nsw else Ok o
  end.
Definition par_tag (d : xml) : Prop := In (tag d) ["separator"; "i"; "v"].
Ltac par_case := ev; try reflexivity; repeat (match goal with |- context [convert_f ?t] => destruct (convert_f t) | |- context [convert_i ?t] => destruct (convert_i t) end; ev; try reflexivity).
Lemma par_no_tags d : par_tag d -> ~ In (tag d) ["generator"; "parameters"; "calculation"; "array"; "kpoints"; "projected"; "c"].
Proof. unfold par_tag. intros T. cbn in *. intuition congruence. Qed.
Lemma par_start kbb par d s : par_tag d -> s_flags s = 2%N -> step kbb true true (Some par) d s = let* o := par1 (s_out s) (par, d) in Ok (set_s_out o s).
Proof.
  intros T E. apply par_no_tags in T. destruct d as [tg a t ks]. unfold par1, attr. cbn [attrs text].
  at_flags s E. blocks. no_tags T. clear T. cbn [tag]. unfold attr. cbn [attrs].
  destruct (assoc "name" a) as [n|] eqn:A; [|ev; reflexivity]. cbv [opt_is].
  destruct (String.eqb_spec "SYMPREC" n) as [<-|N1]; [par_case|].
  destruct (String.eqb_spec "ISPIN" n) as [<-|N2]; [par_case|]. destruct (String.eqb_spec "ISMEAR" n) as [<-|N3]; [par_case|]. destruct (String.eqb_spec "SIGMA" n) as [<-|N4]; [par_case|].
  destruct (String.eqb_spec "NBANDS" n) as [<-|N5]; [par_case|]. destruct (String.eqb_spec "NELECT" n) as [<-|N6]; [par_case|]. destruct (String.eqb_spec "SYSTEM" n) as [<-|N7]; [par_case|].
  destruct (String.eqb_spec "NELM" n) as [<-|N8].
  { cbv [nelm_block]; cbv [opt_is]; destruct (assoc "name" par) as [z|]; [destruct (String.eqb "electronic convergence" z)|]; par_case. }
  destruct (String.eqb_spec "NSW" n) as [<-|N9]; par_case.
Qed.
Lemma par_end kbb seen par d s : par_tag d -> s_flags s = 2%N -> step kbb false seen par d s = Ok s.
Proof. intros T E. apply par_no_tags in T. at_flags s E. blocks. no_tags T. ev; reflexivity. Qed.
Lemma foldM_app' {A B} (f : B -> A -> res B) a b s : foldM f (a ++ b) s = let* s := foldM f a s in foldM f b s.
Proof. revert s. induction a as [|x a IH]; intros s; cbn [foldM app]; auto. destruct (f s x); cbn [bind]; auto. Qed.
Lemma par_list kbb ks : Forall (fun e => (forall d, In d (within e) -> par_tag d) -> forall par s, s_flags s = 2%N -> run_events kbb (events (Some par) e) s = let* o := foldM par1 (visits par e) (s_out s) in Ok (set_s_out o s)) ks ->
  (forall k d, In k ks -> In d (within k) -> par_tag d) -> forall par s, s_flags s = 2%N -> run_events kbb (flat_map (events (Some par)) ks) s = let* o := foldM par1 (flat_map (visits par) ks) (s_out s) in Ok (set_s_out o s).
Proof.
  intros F. induction F as [|e ks H F IH]; intros Q par s E. { cbn. destruct s; auto. }
  rewrite run_flat_cons, H; auto; [|intros d D; eapply Q; [left; auto|auto]]. cbn [flat_map]. rewrite foldM_app'. destruct (foldM par1 (visits par e) (s_out s)) as [o|]; cbn [bind]; auto.
  rewrite IH; auto. intros k d K; eapply Q; right; auto.
Qed.
Lemma par_elem kbb e : (forall d, In d (within e) -> par_tag d) -> forall par s, s_flags s = 2%N -> run_events kbb (events (Some par) e) s = let* o := foldM par1 (visits par e) (s_out s) in Ok (set_s_out o s).
Proof.
  induction e as [tg a t ks IH] using xml_rect'. intros H par s E. rewrite run_elem. cbn [handle visits foldM]. pose proof (H _ (or_introl eq_refl)) as T.
  rewrite par_start by auto. destruct (par1 (s_out s) (par, Elem tg a t ks)) as [o|]; cbn [bind]; auto.
  rewrite (par_list kbb ks IH); auto; [|intros k d K D; apply H; right; cbn [descendants]; apply in_flat_map; eauto]. cbn [s_out set_s_out]. destruct (foldM par1 (flat_map (visits a) ks) o) as [o'|]; cbn [bind handle]; auto. apply par_end; auto.
Qed.
(** the effect field by field *)
Definition last_of {A} (n : string) (val : xml -> A) (l : list xml) (init : A) : A := fold_left (fun o d => if opt_is n (attr d "name") then val d else o) l init.
Lemma last_of_filter {A} n (val : xml -> A) l init : last_of n val l init = fold_left (fun o d => val d) (named_in n l) init.
Proof. unfold last_of, named_in. revert init. induction l as [|d l IH]; intros init; auto. cbn [fold_left filter]. destruct (opt_is n (attr d "name")); cbn [fold_left]; apply IH. Qed.
Definition cf (d : xml) : option float := match convert_f (text d) with Ok v => v | Exn _ => None end.
Definition ci (d : xml) : option Z := match convert_i (text d) with Ok v => v | Exn _ => None end.
Definition float_names : list string := ["SYMPREC"; "SIGMA"; "NELECT"].
Definition int_names : list string := ["ISPIN"; "ISMEAR"; "NBANDS"; "NELM"; "NSW"].
Definition with_params (l : list xml) (o : parsed) : parsed :=
  set_p_symprec (last_of "SYMPREC" cf l (p_symprec o)) (set_p_ispin (last_of "ISPIN" ci l (p_ispin o)) (set_p_ismear (last_of "ISMEAR" ci l (p_ismear o)) (set_p_sigma (last_of "SIGMA" cf l (p_sigma o))
    (set_p_nbands (last_of "NBANDS" ci l (p_nbands o)) (set_p_nelect (last_of "NELECT" cf l (p_nelect o)) (set_p_system (last_of "SYSTEM" text l (p_system o)) (set_p_nelm (last_of "NELM" ci l (p_nelm o)) (set_p_nsw (last_of "NSW" ci l (p_nsw o)) o)))))))).
Lemma par_fold l o :
  (forall n a d, In (a, d) l -> attr d "name" = Some n -> In n float_names -> exists v, convert_f (text d) = Ok v) -> (forall n a d, In (a, d) l -> attr d "name" = Some n -> In n int_names -> exists v, convert_i (text d) = Ok v) ->
  (forall a d, In (a, d) l -> attr d "name" = Some "NELM" -> assoc "name" a = Some "electronic convergence") -> foldM par1 l o = Ok (with_params (map snd l) o).
Proof.
  revert o. induction l as [|[a d] l IH]; intros o HF HI HN. { destruct o; reflexivity. }
  cbn [foldM map snd]. assert (par1 o (a, d) = Ok (with_params [d] o)) as P.
  { unfold par1, with_params, last_of. cbn [fold_left].
    pose proof (fun n => HF n a d (or_introl eq_refl)) as HF'. pose proof (fun n => HI n a d (or_introl eq_refl)) as HI'. pose proof (HN a d (or_introl eq_refl)) as HN'. clear HF HI HN IH l.
    destruct (attr d "name") as [n|]; cbn [opt_is]; [|destruct o; reflexivity]. unfold cf, ci.
    destruct (String.eqb_spec "SYMPREC" n) as [<-|_]. { destruct (HF' _ eq_refl ltac:(cbn; tauto)) as [v ->]. destruct o; reflexivity. }
    destruct (String.eqb_spec "ISPIN" n) as [<-|_]. { destruct (HI' _ eq_refl ltac:(cbn; tauto)) as [v ->]. destruct o; reflexivity. }
    destruct (String.eqb_spec "ISMEAR" n) as [<-|_]. { destruct (HI' _ eq_refl ltac:(cbn; tauto)) as [v ->]. destruct o; reflexivity. }
    destruct (String.eqb_spec "SIGMA" n) as [<-|_]. { destruct (HF' _ eq_refl ltac:(cbn; tauto)) as [v ->]. destruct o; reflexivity. }
    destruct (String.eqb_spec "NBANDS" n) as [<-|_]. { destruct (HI' _ eq_refl ltac:(cbn; tauto)) as [v ->]. destruct o; reflexivity. }
    destruct (String.eqb_spec "NELECT" n) as [<-|_]. { destruct (HF' _ eq_refl ltac:(cbn; tauto)) as [v ->]. destruct o; reflexivity. }
    destruct (String.eqb_spec "SYSTEM" n) as [<-|_]. { destruct o; reflexivity. }
    destruct (String.eqb_spec "NELM" n) as [<-|_]. { rewrite HN' by auto. destruct (HI' _ eq_refl ltac:(cbn; tauto)) as [v ->]. destruct o; reflexivity. }
    destruct (String.eqb_spec "NSW" n) as [<-|_]. { destruct (HI' _ eq_refl ltac:(cbn; tauto)) as [v ->]. destruct o; reflexivity. }
    destruct o; reflexivity. }
  rewrite P. cbn [bind]. rewrite IH by (intros; first [eapply HF|eapply HI|eapply HN]; eauto; right; eauto). f_equal.
Qed.
Lemma visits_snd par e : map snd (visits par e) = within e.
Proof.
  revert par. induction e as [tg a t ks IH] using xml_rect'. intros par. unfold within. cbn [visits map snd descendants]. f_equal. induction IH as [|k ks H IH IHl]; auto. cbn [flat_map]. rewrite map_app, H, IHl. reflexivity.
Qed.
Lemma visits_kids e : map snd (flat_map (visits []) (kids e)) = descendants e.
Proof. destruct e as [tg a t ks]. cbn [kids descendants]. induction ks as [|k ks IH]; auto. cbn [flat_map]. rewrite map_app, visits_snd, IH. reflexivity. Qed.
Definition pval {A} (conv : option str -> res (option A)) (path : list pstep) (e : xml) : res (option A) := match hd_error (findall_child path e) with None => Ok None | Some d => conv (text d) end.
Definition the_path (n : string) : list pstep := match assoc n parameter_paths with Some p => p | None => [] end.
Definition param_values (e : xml) (p : parsed) : Prop :=
  pval convert_f (the_path "SYMPREC") e = Ok (p_symprec p) /\ pval convert_i (the_path "ISPIN") e = Ok (p_ispin p) /\ pval convert_i (the_path "ISMEAR") e = Ok (p_ismear p) /\ pval convert_f (the_path "SIGMA") e = Ok (p_sigma p) /\
  pval convert_i (the_path "NBANDS") e = Ok (p_nbands p) /\ pval convert_f (the_path "NELECT") e = Ok (p_nelect p) /\ pval (fun t => Ok t) (the_path "SYSTEM") e = Ok (p_system p) /\ pval convert_i (the_path "NELM") e = Ok (p_nelm p) /\ pval convert_i (the_path "NSW") e = Ok (p_nsw p).
Definition set_params (p o : parsed) : parsed :=
  set_p_symprec (p_symprec p) (set_p_ispin (p_ispin p) (set_p_ismear (p_ismear p) (set_p_sigma (p_sigma p) (set_p_nbands (p_nbands p) (set_p_nelect (p_nelect p) (set_p_system (p_system p) (set_p_nelm (p_nelm p) (set_p_nsw (p_nsw p) o)))))))).
Definition no_params (o : parsed) : Prop :=
  p_symprec o = None /\ p_ispin o = None /\ p_ismear o = None /\ p_sigma o = None /\ p_nbands o = None /\ p_nelect o = None /\ p_system o = None /\ p_nelm o = None /\ p_nsw o = None.
Lemma ev_parameters kbb par e s p : is_parameters e -> ready 0 s -> param_values e p -> no_params (s_out s) -> run_events kbb (events par e) s = Ok (out_ (set_params p) s).
Proof.
  intros ((ks & x & ->) & T & U & NE) R (V1 & V2 & V3 & V4 & V5 & V6 & V7 & V8 & V9) (O1 & O2 & O3 & O4 & O5 & O6 & O7 & O8 & O9). set (e := Elem "parameters" [] x ks) in *.
  assert (forall n, In n (map fst parameter_paths) -> findall_child (the_path n) e = named_in n (descendants e) /\ length (named_in n (descendants e)) <= 1) as U'.
  { intros n I. assert (In (n, the_path n) parameter_paths) as J. { clear -I. cbn in I. repeat (destruct I as [<-|I]; [cbn; tauto|]). destruct I. } destruct (U n (the_path n) J) as [Q L]. unfold named_in. rewrite <- Q. auto. }
  unfold e at 1. rewrite run_elem. fold e. cbn [handle].
  assert (step kbb true true par e s = Ok (set_s_flags 2 s)) as -> by (destruct R as (E & _ & _); clear -E; at_flags s E; unfold e; ev; reflexivity). cbn [bind].
  rewrite par_list.
  - change ks with (kids e). rewrite par_fold.
    + rewrite visits_kids. cbn [bind handle].
      assert (forall A n (val : xml -> A) i v (conv : option str -> res A), In n (map fst parameter_paths) -> (forall d, conv (text d) = Ok v -> val d = v) -> i = v \/ hd_error (findall_child (the_path n) e) <> None ->
        (forall d, hd_error (findall_child (the_path n) e) = Some d -> conv (text d) = Ok v) -> last_of n val (descendants e) i = v) as LA.
      { intros A n val i v conv I HV HI HC. destruct (U' n I) as [Q L]. rewrite last_of_filter, <- Q. rewrite <- Q in L. destruct (findall_child (the_path n) e) as [|d [|d' l]]; cbn in *; [destruct HI; congruence|apply HV; apply HC; auto|lia]. }
      assert (forall A n (val : xml -> option A) v (conv : option str -> res (option A)), In n (map fst parameter_paths) -> (forall d, conv (text d) = Ok v -> val d = v) -> pval conv (the_path n) e = Ok v -> last_of n val (descendants e) None = v) as LB.
      { intros A n val v conv I HV P. unfold pval in P. apply (LA _ n val None v conv); auto.
        - destruct (hd_error (findall_child (the_path n) e)); [right; discriminate|left; apply Ok_inj' in P; auto].
        - intros d D. rewrite D in P. auto. }
      assert (forall d v, convert_f (text d) = Ok v -> cf d = v) as CF by (intros d v H; unfold cf; rewrite H; auto). assert (forall d v, convert_i (text d) = Ok v -> ci d = v) as CI by (intros d v H; unfold ci; rewrite H; auto).
      change (s_out (set_s_flags 2 s)) with (s_out s).
      unfold with_params. rewrite O1, O2, O3, O4, O5, O6, O7, O8, O9.
      rewrite (LB _ "SYMPREC" cf _ convert_f ltac:(cbn; tauto) ltac:(auto) V1), (LB _ "ISPIN" ci _ convert_i ltac:(cbn; tauto) ltac:(auto) V2), (LB _ "ISMEAR" ci _ convert_i ltac:(cbn; tauto) ltac:(auto) V3), (LB _ "SIGMA" cf _ convert_f ltac:(cbn; tauto) ltac:(auto) V4),
        (LB _ "NBANDS" ci _ convert_i ltac:(cbn; tauto) ltac:(auto) V5), (LB _ "NELECT" cf _ convert_f ltac:(cbn; tauto) ltac:(auto) V6), (LB _ "SYSTEM" text _ (fun t => Ok t) ltac:(cbn; tauto) ltac:(intros d H; apply Ok_inj' in H; auto) V7), (LB _ "NELM" ci _ convert_i ltac:(cbn; tauto) ltac:(auto) V8), (LB _ "NSW" ci _ convert_i ltac:(cbn; tauto) ltac:(auto) V9).
      destruct R as (E & D & D2). clear -E. unfold e. clear e. at_flags s E. ev. reflexivity.
    + intros n a d I A J. assert (In d (descendants e)) as ID by (rewrite <- visits_kids; apply in_map_iff; exists (a, d); auto).
      assert (In n (map fst parameter_paths)) as IN by (clear -J; cbn in *; tauto). destruct (U' n IN) as [Q L]. assert (In d (named_in n (descendants e))) as IF by (apply filter_In; split; auto; apply opt_is_true; auto).
      assert (hd_error (findall_child (the_path n) e) = Some d) as HD by (rewrite Q; destruct (named_in n (descendants e)) as [|d0 [|d1 l]]; [destruct IF|destruct IF as [->|[]]; auto|cbn in L; lia]).
      unfold pval in V1, V4, V6. destruct J as [<-|[<-|[<-|[]]]]; [rewrite HD in V1|rewrite HD in V4|rewrite HD in V6]; eauto.
    + intros n a d I A J. assert (In d (descendants e)) as ID by (rewrite <- visits_kids; apply in_map_iff; exists (a, d); auto).
      assert (In n (map fst parameter_paths)) as IN by (clear -J; cbn in *; tauto). destruct (U' n IN) as [Q L]. assert (In d (named_in n (descendants e))) as IF by (apply filter_In; split; auto; apply opt_is_true; auto).
      assert (hd_error (findall_child (the_path n) e) = Some d) as HD by (rewrite Q; destruct (named_in n (descendants e)) as [|d0 [|d1 l]]; [destruct IF|destruct IF as [->|[]]; auto|cbn in L; lia]).
      unfold pval in V2, V3, V5, V8, V9. destruct J as [<-|[<-|[<-|[<-|[<-|[]]]]]]; [rewrite HD in V2|rewrite HD in V3|rewrite HD in V5|rewrite HD in V8|rewrite HD in V9]; eauto.
    + exact NE.
  - apply Forall_forall. intros k _. apply par_elem.
  - intros k d K D. apply T. cbn [descendants e]. apply in_flat_map. eauto.
  - reflexivity.
Qed.
