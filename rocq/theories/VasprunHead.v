(** The header of the document: version, k-points, parameters, atoms. *)
From Coq Require Import Ascii String List NArith ZArith Bool Lia.
From Verif Require Import PyBase PyStrLemmas PyNum UtilsModel LineModel OutcarModel ChgcarModel StreamConfig VasprunTypes VasprunXml VasprunModel VasprunEvents VasprunSpec VasprunSteps VasprunDoc VasprunRun VasprunElems VasprunElems2 VasprunElems3 VasprunElems4 VasprunElems5 VasprunElems6 VasprunPaths VasprunCalc.
Import ListNotations.
Local Open Scope string_scope.
Local Open Scope list_scope.

(** ** The version *)
Definition named_in (n : string) (l : list xml) : list xml := filter (fun k => opt_is n (attr k "name")) l.
Lemma gen_leaf kbb p a t s : s_flags s = 1%N -> run_events kbb (events p (Elem "i" a t [])) s = Ok (if opt_is "version" (assoc "name" a) then out_ (set_p_version t) s else s).
Proof.
  intros E. unfold run_events. cbn [events flat_map app foldM bind]. at_flags s E. blocks. unfold attr. cbn [attrs]. destruct (opt_is "version" (assoc "name" a)); destruct (opt_is "interpolated" (assoc "comment" a)); ev; reflexivity.
Qed.
Lemma ev_generator kbb p e s : is_generator e -> ready 0 s -> exists l, findall_child [item "version"] e = l /\ length l <= 1 /\ run_events kbb (events p e) s = Ok (match l with [] => s | k :: _ => out_ (set_p_version (text k)) s end).
Proof.
  intros (ks & (x & ->) & F & L) R. exists (named_in "version" ks). split; [|split; auto].
  - rewrite child_cons, flat_child_nil. unfold named_in. apply filter_ext_in. intros k K. rewrite Forall_forall in F. destruct (F k K) as (a & t & ->). reflexivity.
  - rewrite run_elem. cbn [handle].
    match goal with |- context [step kbb true true p ?e s] => assert (step kbb true true p e s = Ok (set_s_flags 1 s)) as -> by (destruct R as (E & _ & _); clear -E; at_flags s E; ev; reflexivity) end. cbn [bind].
    assert (forall ks s, Forall (fun k => exists a t, k = Elem "i" a t []) ks -> s_flags s = 1%N -> run_events kbb (flat_map (events (Some [])) ks) s = Ok (fold_left (fun s k => if opt_is "version" (attr k "name") then out_ (set_p_version (text k)) s else s) ks s)) as H.
    { clear. intros ks s F. revert s. induction F as [|k ks (a & t & ->) F IH]; intros s E; auto. rewrite run_flat_cons, gen_leaf by auto. cbn [bind fold_left]. unfold attr. cbn [attrs text]. apply IH. destruct (opt_is "version" (assoc "name" a)); auto. }
    rewrite H by auto. cbn [bind handle].
    assert (forall ks (s : est), length (named_in "version" ks) <= 1 -> fold_left (fun s k => if opt_is "version" (attr k "name") then out_ (set_p_version (text k)) s else s) ks s = match named_in "version" ks with [] => s | k :: _ => out_ (set_p_version (text k)) s end) as G.
    { clear. intros ks. unfold named_in. induction ks as [|k ks IH]; intros s L; auto. cbn [filter fold_left] in *. destruct (opt_is "version" (attr k "name")); [|apply IH; auto]. cbn [length] in L. rewrite IH by lia. destruct (filter _ ks); [auto|cbn in L; lia]. }
    rewrite G by exact L. destruct R as (E & D & D2). clear -E. at_flags s E. destruct (named_in "version" ks); ev; reflexivity.
Qed.
(** ** k-points *)
Lemma quiet_k kbb st seen par d s : other_k d -> s_flags s = 128%N -> step kbb st seen par d s = Ok s.
Proof.
  intros [T A] E. assert (forall n, In (Some n) [Some "divisions"; Some "kpointlist"; Some "weights"] -> opt_is n (attr d "name") = false) as B by (intros n N; apply opt_is_false; intros Z; apply A; rewrite Z; exact N).
  destruct d as [tg a t ks]. cbn [tag] in T. at_flags s E.
  destruct T as [<-|[<-|[<-|[]]]]; blocks; rewrite ?(B "divisions"), ?(B "kpointlist"), ?(B "weights") by (cbn; tauto); unfold attr; cbn [attrs]; (destruct (opt_is "interpolated" (assoc "comment" a))); destruct st; ev; reflexivity.
Qed.
Definition is_div : xml -> bool := matches (TagAt "v" "name" "divisions").
Definition div_set (d : list Z) (s : est) : est := out_ (set_p_kdiv (Some d)) s.
Lemma gen_item kbb p k s : (exists b t, k = Elem "i" b t [] \/ k = Elem "v" b t []) -> s_flags s = 128%N ->
  run_events kbb (events p k) s = if is_div k then let* d := convert_array_i (text k) in Ok (div_set d s) else Ok s.
Proof.
  intros (b & t & [->| ->]) E; unfold run_events, is_div; cbn [events flat_map app foldM bind matches tag String.eqb Ascii.eqb Bool.eqb andb]; unfold attr; cbn [attrs text]; at_flags s E; blocks; unfold attr; cbn [attrs].
  - destruct (opt_is "interpolated" (assoc "comment" b)); ev; reflexivity.
  - destruct (opt_is "divisions" (assoc "name" b)); destruct (opt_is "interpolated" (assoc "comment" b)); ev; try reflexivity; destruct (convert_array_i t); reflexivity.
Qed.
Lemma ev_generation kbb p g s : is_generation g -> s_flags s = 128%N -> exists l, findall_child [TagAt "v" "name" "divisions"] g = l /\ length l <= 1 /\
  forall d, opt_map_res (fun e => convert_array_i (text e)) (hd_error l) = Ok d -> run_events kbb (events p g) s = Ok (match d with Some d => div_set d s | None => s end).
Proof.
  intros (a & x & ks & -> & F & L) E. exists (filter is_div ks). split; [rewrite child_cons, flat_child_nil; auto|]. split; auto. intros d H.
  rewrite run_elem. cbn [handle].
  assert (forall st p s, s_flags s = 128%N -> step kbb st true p (Elem "generation" a x ks) s = Ok s) as Q by (clear; intros st p s E; at_flags s E; blocks; unfold attr; cbn [attrs]; destruct (opt_is "interpolated" (assoc "comment" a)); destruct st; ev; reflexivity).
  rewrite Q by auto. cbn [bind]. fold is_div in L.
  assert (forall ks s, Forall (fun k => exists b t, k = Elem "i" b t [] \/ k = Elem "v" b t []) ks -> s_flags s = 128%N -> length (filter is_div ks) <= 1 -> opt_map_res (fun e => convert_array_i (text e)) (hd_error (filter is_div ks)) = Ok d ->
    run_events kbb (flat_map (events (Some a)) ks) s = Ok (match d with Some d => div_set d s | None => s end)) as G.
  { clear. intros ks s F. revert s. induction F as [|k ks K F IH]; intros s E L H; [cbn in H; apply Ok_inj' in H; subst d; auto|]. rewrite run_flat_cons, gen_item by auto. cbn [filter] in *. destruct (is_div k) eqn:V; [|cbn [bind]; apply IH; auto].
    cbn [length hd_error opt_map_res] in *. apply bind_ok in H as (z & Z & H). apply Ok_inj' in H. subst d. rewrite Z. cbn [bind].
    assert (filter is_div ks = []) as N by (destruct (filter is_div ks); cbn in L; [auto|lia]).
    clear -N F E. revert E. assert (forall s, s_flags s = 128%N -> run_events kbb (flat_map (events (Some a)) ks) s = Ok s) as H. { induction F as [|k' ks K' F IH]; intros u E; auto. cbn [filter] in N. destruct (is_div k') eqn:V; [discriminate|]. rewrite run_flat_cons, gen_item, V by auto. cbn [bind]. apply IH; auto. }
    intros E. apply H. auto. }
  rewrite G by auto. cbn [bind handle]. apply Q. destruct d; auto.
Qed.
Lemma calm_k kbb l p s : quiet other_k l -> s_flags s = 128%N -> run_events kbb (flat_map (events p) l) s = Ok s.
Proof. intros Q E. apply (calm_list kbb 128 other_k); auto. intros. apply quiet_k; auto. Qed.
Lemma ev_kpoints kbb p e s : is_kpoints e -> ready 0 s -> exists r1 r2 l, findall_child [TagAt "varray" "name" "kpointlist"; Tag "v"] e = r1 /\ findall_child [TagAt "varray" "name" "weights"; Tag "v"] e = r2 /\ r1 <> [] /\ r2 <> [] /\
  findall_child [Tag "generation"; TagAt "v" "name" "divisions"] e = l /\
  forall m w d, convert2D 3 r1 = Ok m -> convert1D r2 = Ok w -> opt_map_res (fun e => convert_array_i (text e)) (hd_error l) = Ok d -> p_kdiv (s_out s) = None ->
    run_events kbb (events p e) s = Ok (out_ (fun o => set_p_kdiv d (set_p_kpointsw (Some w) (set_p_kpoints (Some m) o))) s).
Proof.
  intros (gen & kl & kw & rest & r1 & r2 & (x & ->) & HG & ((xl & ->) & R1) & ((xw & ->) & R2) & N1 & N2 & Q) R.
  assert (quiet other_k rest) as Q' by (intros k d K D; eapply Q; eauto). clear Q.
  assert (exists l, findall_child [Tag "generation"; TagAt "v" "name" "divisions"] (Elem "kpoints" [] x (gen ++ [Elem "varray" [("name", "kpointlist")] xl r1; Elem "varray" [("name", "weights")] xw r2] ++ rest)) = l /\
    forall d s, s_flags s = 128%N -> p_kdiv (s_out s) = None -> opt_map_res (fun e => convert_array_i (text e)) (hd_error l) = Ok d -> run_events kbb (flat_map (events (Some [])) gen) s = Ok (out_ (set_p_kdiv d) s)) as (l & HL & GEN).
  { rewrite child_cons, !filter_app. rewrite (filter_tag (Tag "generation") rest). 2:{ intros k K. destruct (Q' k k K (or_introl eq_refl)) as [T _]. intros Z. rewrite Z in T. cbn in T. intuition discriminate. }
    cbn [filter matches tag String.eqb Ascii.eqb Bool.eqb]. rewrite app_nil_r. destruct HG as [->|(g & -> & HG)].
    - exists []. split; auto. intros d u E KD H. cbn in H. apply Ok_inj' in H. subst d. cbn [flat_map]. rewrite run_nil. destruct u. cbn in KD. unfold out_. cbn. destruct s_out. cbn in KD. subst. reflexivity.
    - destruct (ev_generation kbb (Some []) g (set_s_flags 128 start_state) HG eq_refl) as (l & HL & LL & _). exists l. split.
      + destruct (HG) as (? & ? & ? & EG & _). cbn [filter matches]. rewrite EG at 1. cbn [tag String.eqb Ascii.eqb Bool.eqb]. rewrite flat_one. exact HL.
      + intros d u E KD H. destruct (ev_generation kbb (Some []) g u HG E) as (l' & HL' & _ & RUN). rewrite HL in HL'. subst l'. rewrite run_flat_one, (RUN d H). f_equal. destruct d; auto. destruct u. cbn in KD. unfold out_. cbn. destruct s_out. cbn in KD. subst. reflexivity. }
  exists r1, r2, l. split; [|split; [|split; [auto|split; [auto|split; [auto|]]]]].
  - rewrite child_cons, !filter_app. rewrite (filter_quiet _ rest). 2:{ intros k K. destruct (Q' k k K (or_introl eq_refl)) as [_ T]. cbn [matches]. rewrite opt_is_false, andb_false_r; auto. intros Z. apply T. rewrite Z. cbn; auto. }
    rewrite (filter_tag _ gen). 2:{ intros k K. destruct HG as [->|(g & -> & (? & ? & ? & -> & _))]; [destruct K|]. destruct K as [<-|[]]. discriminate. }
    change (filter (matches (TagAt "varray" "name" "kpointlist")) [Elem "varray" [("name", "kpointlist")] xl r1; Elem "varray" [("name", "weights")] xw r2]) with [Elem "varray" [("name", "kpointlist")] xl r1]. cbn [app]. rewrite flat_one, child_cons, flat_child_nil. apply (filter_rows "v"); auto.
  - rewrite child_cons, !filter_app. rewrite (filter_quiet _ rest). 2:{ intros k K. destruct (Q' k k K (or_introl eq_refl)) as [_ T]. cbn [matches]. rewrite opt_is_false, andb_false_r; auto. intros Z. apply T. rewrite Z. cbn; auto. }
    rewrite (filter_tag _ gen). 2:{ intros k K. destruct HG as [->|(g & -> & (? & ? & ? & -> & _))]; [destruct K|]. destruct K as [<-|[]]. discriminate. }
    change (filter (matches (TagAt "varray" "name" "weights")) [Elem "varray" [("name", "kpointlist")] xl r1; Elem "varray" [("name", "weights")] xw r2]) with [Elem "varray" [("name", "weights")] xw r2]. cbn [app]. rewrite flat_one, child_cons, flat_child_nil. apply (filter_rows "v"); auto.
  - intros m w d M W D KD. rewrite run_elem. cbn [handle].
    match goal with |- context [step kbb true true p ?e s] => assert (step kbb true true p e s = Ok (set_s_flags 128 s)) as -> by (destruct R as (E & _ & _); clear -E; at_flags s E; ev; reflexivity) end. cbn [bind].
    rewrite run_flat_app, (GEN d) by auto. cbn [bind]. set (s1 := out_ _ _). assert (ready 128 s1) as RR by (apply ready_out; eapply ready_flags; eauto).
    rewrite run_flat_app, run_flat_cons, ev_kpointlist by auto. rewrite M. cbn [bind]. rewrite run_flat_one, ev_weights by (auto using ready_out). rewrite W. cbn [bind]. rewrite calm_k by (auto; apply RR). cbn [bind handle].
    unfold s1. destruct R as (E & D1 & D2). clear -E. at_flags s E. ev. reflexivity.
Qed.
