(** Property C87: get_dict of a KPOINTS object; C22: bool indices. *)
From Coq Require Import Ascii String List NArith ZArith Bool Lia Arith.
From Verif Require Import PyBase PyNum PyStrLemmas PyNumLemmas PyFmtLemmas PyLines PyToken UtilsModel KpointsModel KpointsSpec KpointsRoundTrip KpointsEdits KpointsCodes Props_Kpoints.
Import ListNotations.
Local Open Scope list_scope.
Local Open Scope bool_scope.
Local Open Scope nat_scope.

(** the list [point, weight, direct] of a point; the weight is None for a line of three numbers *)
Definition triple (p : kpoint) : kval :=
  KList [KList (map KFloat (kp_point p)); match kp_weight p with Some w => KFloat w | None => KNone end; KBool (kp_direct p)].

Lemma read_points ls es : from_list ls = Ok es ->
  exists co di gv sh po te vo mo ce n, es = make_entries co di gv sh po te vo mo ce n /\
    (po = KNone \/ (mo = KLine \/ mo = KExplicit) /\ exists ps, po = KList (map KPt ps) /\ Forall (fun p => kp_direct p = true) ps).
Proof.
  intros F. destruct (from_list_ok_head ls es F) as [n [c [Hn Hc]]]. rewrite (from_list_body ls n c Hn Hc) in F.
  destruct (body ls n (lower1 c)) as [[[[[[[[po te] vo] ce] di] gv] sh] mo]|] eqn:B; [|discriminate].
  cbn [bind] in F. injection F as <-. do 10 eexists. split; [reflexivity|].
  unfold body in B. apply bind_ok in B as [[[po1 te1] vo1] [B1 B]]. apply bind_ok in B as [[[[x1 x2] x3] x4] [_ B]]. apply bind_ok in B as [po2 [B2 B]]. injection B as <- <- <- <- <- <- <- <-.
  destruct (aeqb (lower1 c) "l").
  - apply bind_ok in B2 as (l & _ & B2). apply bind_ok in B2 as (w & _ & B2). apply bind_ok in B2 as (r & _ & B2). destruct (_ || _) in B2; [|discriminate].
    apply bind_ok in B2 as (pts & P & B2). injection B2 as <-. right. split; [left; reflexivity|]. unfold read_line_points in P. apply bind_ok in P as (rs & P & E). injection E as <-.
    apply mapM_ok_Forall2 in P. clear -P. induction P as [|a b la lb Q F (ps & IH & D)]; [exists []; auto|]. cbn [concat].
    assert (exists q, b = map KPt q /\ Forall (fun p => kp_direct p = true) q) as (q & -> & DQ).
    { destruct (seqb a [nl]); [injection Q as <-; exists []; auto|]. apply bind_ok in Q as (co & _ & Q). injection Q as <-. exists [Kpoint co (Some (float_of_Z 1)) true]. auto. }
    exists (q ++ ps). split; [|apply Forall_app; auto]. injection IH as IH. rewrite IH, map_app. reflexivity.
  - injection B2 as <-. destruct (n <=? 0)%Z eqn:A; cbn [negb andb] in B1; [injection B1 as <- _ _; auto|]. destruct (_ || _) in B1; [discriminate|].
    apply bind_ok in B1 as (pts & P & B1). apply bind_ok in B1 as ([te2 v] & _ & B1). injection B1 as <- _ _. right. split; [right; reflexivity|].
    unfold read_range in P. apply mapM_ok_Forall2 in P. clear -P. induction P as [|a b la lb Q F (ps & IH & D)]; [exists []; auto|].
    apply bind_ok in Q as (l & _ & Q). apply read_point_ok in Q as (x & y & z & w & _ & ->). exists (Kpoint [x; y; z] w true :: ps). injection IH as IH. rewrite IH. auto.
Qed.
Lemma dict_points ps : mapM dict_point (map KPt ps) = Ok (map triple ps).
Proof. induction ps as [|p ps IH]; auto. cbn [map mapM dict_point bind]. rewrite IH. reflexivity. Qed.

(** For every KPOINTS read: get_dict() has the keys of the object, in its order, each with its
    value; the points as [point, weight, direct] lists, None where there are no points. *)
Theorem C87_kpoints_dict : forall ch txt es, kread ch txt = Ok es ->
  exists d, get_dict es = Ok d /\ map fst d = map fst es /\ (forall k, k <> lit "points" -> dget k d = dget k es) /\
    ((holds es "points" KNone /\ d = es) \/
     exists ps, holds es "points" (KList (map KPt ps)) /\ Forall (fun p => kp_direct p = true) ps /\ holds d "points" (KList (map triple ps))).
Proof.
  intros ch txt es R. apply kread_ok in R as [F _]. destruct (read_points _ _ F) as (co & di & gv & sh & po & te & vo & mo & ce & n & -> & [->|(MO & ps & -> & D)]).
  - eexists. split; [reflexivity|]. split; auto. split; auto. left. split; reflexivity.
  - exists (make_entries co di gv sh (KList (map triple ps)) te vo mo ce n). split.
    + unfold get_dict, make_entries. cbn [mapM fst snd].
      repeat match goal with |- context [seqb (lit ?a) (lit ?b)] => let v := eval vm_compute in (seqb (lit a) (lit b)) in change (seqb (lit a) (lit b)) with v; cbv iota end.
      rewrite dict_points. reflexivity.
    + split; auto. split.
      * intros k N. unfold make_entries. cbn [dget]. rewrite (proj2 (seqb_neq k (lit "points"))) by exact N. reflexivity.
      * right. exists ps. repeat split; auto.
Qed.
(** The dictionary of a mesh is accepted again, and gives the same object. *)
Theorem C87_kpoints_dict_back_partial : forall ch txt es d, kread ch txt = Ok es -> holds es "points" KNone -> get_dict es = Ok d ->
  kpoints_of_dict d = Ok es.
Proof.
  intros ch txt es d R P G. destruct (C87_kpoints_dict _ _ _ R) as (d' & G' & _ & _ & [[_ ->]|(ps & P' & _)]).
  - rewrite G in G'. injection G' as ->. apply kread_ok in R as [_ V]. unfold kpoints_of_dict, kpoints_init. cbn. rewrite V. reflexivity.
  - unfold holds in *. rewrite P in P'. discriminate.
Qed.
(** The dictionary of a list of points is accepted too, but what it makes cannot be written. *)
Theorem C87_kpoints_dict_back_refuted : forall ch txt es d p l prec, kread ch txt = Ok es -> holds es "points" (KList (p :: l)) -> get_dict es = Ok d ->
  kpoints_of_dict d = Ok d /\ get_string prec d = Exn AttributeError.
Proof.
  intros ch txt es d p l prec R P G. pose proof R as R0. apply kread_ok in R0 as [F V]. pose proof (from_list_ok_head _ _ F) as (n0 & c0 & Hn & Hc).
  destruct (C21_accepted_is_supported _ _ _ R) as (n1 & c1 & _ & _ & HN & _).
  destruct (read_points _ _ F) as (co & di & gv & sh & po & te & vo & mo & ce & n & -> & [->|(MO & ps & -> & D)]); [discriminate P|].
  assert (d = make_entries co di gv sh (KList (map triple ps)) te vo mo ce n) as ->.
  { unfold get_dict, make_entries in G. cbn [mapM fst snd] in G.
    repeat match type of G with context [seqb (lit ?a) (lit ?b)] => let v := eval vm_compute in (seqb (lit a) (lit b)) in change (seqb (lit a) (lit b)) with v in G; cbv iota in G end.
    rewrite dict_points in G. injection G as <-. reflexivity. }
  assert (validate (make_entries co di gv sh (KList (map triple ps)) te vo mo ce n) = Ok tt) as V2.
  { apply validate_spec in V as (co' & po' & ce' & di' & gv' & sh' & mo' & nu' & te' & vo' & V). destruct V as [E1 E2 E3 E4 E5 E6 E7 E8 E9 E10 S T].
    unfold holds in *. injection E1 as <-. injection E2 as <-. injection E3 as <-. injection E4 as <-. injection E5 as <-. injection E6 as <-. injection E7 as <-. injection E8 as <-. injection E9 as <-. injection E10 as <-.
    apply validate_make_ok; auto. }
  split; [unfold kpoints_of_dict, kpoints_init; cbn [is_some ka_string ka_dict ka_path ka_handler andb orb negb bind]; rewrite V2; reflexivity|].
  injection P as P. destruct ps as [|p0 ps]; [discriminate|]. injection HN as ->.
  unfold get_string, write. rewrite V2. cbn [bind].
  apply validate_spec in V as (co' & po' & ce' & di' & gv' & sh' & mo' & nu' & te' & vo' & V). destruct V as [E1 E2 E3 E4 E5 E6 E7 E8 E9 E10 _ T].
  unfold holds in *. injection E1 as <-. rewrite !andb_true_iff in T. destruct T as (((((((((T & _) & _) & _) & _) & _) & _) & _) & _) & _).
  change (key (make_entries co di gv sh (KList (map triple (p0 :: ps))) te vo mo ce (KInt n1)) "comment") with (Ok co). cbn [bind].
  change (key (make_entries co di gv sh (KList (map triple (p0 :: ps))) te vo mo ce (KInt n1)) "mode") with (Ok mo).
  destruct MO as [-> | ->]; destruct co; try discriminate; reflexivity.
Qed.

Example C87_case : kread FromString explicit_text = Ok explicit_obj /\ kread FromString mesh_text = Ok mesh_obj /\ kread FromFile line_txt = Ok line_obj /\
  holds mesh_obj "points" KNone /\
  (exists d p q r, get_dict explicit_obj = Ok d /\ holds d "points" (KList [p; q; r]) /\
    r = KList [KList (map KFloat [dec "0.001"; dec "0"; dec "0"]); KNone; KBool true] /\
    q = KList [KList (map KFloat [dec "0.1"; dec "0.2"; dec "0.3"]); KFloat (dec "2"); KBool true]).
Proof. split; [vm_compute; reflexivity|]. split; [vm_compute; reflexivity|]. split; [vm_compute; reflexivity|]. split; [vm_compute; reflexivity|]. do 4 eexists. split; [vm_compute; reflexivity|]. vm_compute. auto. Qed.

(** ** C22: True and False are accepted as the numbers 1 and 0 *)
Theorem C22_bool_index : forall es e v (b : bool),
  modify es e v (Some (KBool b)) = modify es e v (Some (KInt (if b then 1 else 0)%Z)) /\
  delete_point es (KBool b) = delete_point es (KInt (if b then 1 else 0)%Z).
Proof. intros es e v b. destruct b; split; reflexivity. Qed.
