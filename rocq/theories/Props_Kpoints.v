(** KPOINTS properties (C12, C17-C26, C59): statements, with non-vacuity examples. *)
From Coq Require Import Ascii String List NArith ZArith QArith Qabs Bool Lia Arith.
From Verif Require Import PyBase PyNum PyStrLemmas PyNumLemmas PyFmtLemmas PyLines UtilsModel KpointsModel KpointsSpec
  KpointsProofs KpointsRoundTrip KpointsModes KpointsLine KpointsEdits KpointsCodes KpointsHistory.
Import ListNotations.
Local Open Scope list_scope.
Local Open Scope bool_scope.
Local Open Scope nat_scope.

Definition dec (s : string) : float := match parse_float (lit s) with Some x => x | None => FNan end.
Definition or_empty (r : res kentries) : kentries := match r with Ok e => e | Exn _ => [] end.

(** A KPOINTS file of each mode. *)
Definition explicit_text : str := unlines (map lit
  ["# a mesh"; "3"; "Direct"; "0.0 0.25 -0.5 1.0"; "0.1 0.2 0.3 2"; "1e-3 0 0"; "Tetrahedra"; "2 0.5"; "1 1 2 3 1"; "4 1 2 3 2"]%string).
Definition explicit_obj : kentries := or_empty (kpoints_of_string explicit_text).
Example explicit_ok : kpoints_of_string explicit_text = Ok explicit_obj /\ kpoints_of_file explicit_text = Ok explicit_obj.
Proof. vm_compute. auto. Qed.
Definition mesh_text : str := unlines (map lit ["# mesh"; "0"; "Monkhorst"; "4 5 6"; "0 0.5 0.25"]%string).
Definition mesh_obj : kentries := or_empty (kpoints_of_string mesh_text).
Definition recip_text : str := unlines (map lit ["# gv"; "0"; "Reciprocal"; "0.25 0 0"; "0 0.25 0"; "0 0 0.5"; "0.5 0.5 0.5"]%string).
Definition recip_obj : kentries := or_empty (kpoints_of_string recip_text).
Definition line_txt : str := unlines (map lit ["# path"; "20"; "Line-mode"; "Reciprocal"; "0 0 0"; "0.5 0 0"; ""; "0.5 0 0"; "0.5 0.5 0"]%string).
Definition line_obj : kentries := or_empty (kpoints_of_file line_txt).
Example objects_ok : kpoints_of_string mesh_text = Ok mesh_obj /\ kpoints_of_string recip_text = Ok recip_obj /\ kpoints_of_file line_txt = Ok line_obj.
Proof. vm_compute. auto. Qed.

Lemma reread_rewritten prec x : rewritten prec x (reread prec x).
Proof.
  split; [apply parse_float_fixed|]. split.
  - intros W F. split; [rewrite reread_finite; auto|apply reread_error; auto].
  - intros P F. apply reread_fits; auto. eapply fits_finite; eauto.
Qed.
Lemma rereads prec xs : Forall2 (rewritten prec) xs (map (reread prec) xs).
Proof. induction xs; constructor; auto. apply reread_rewritten. Qed.

(** ** C17: explicit mode.  [prec] is the number of decimals written (default 9). *)
(** a tetrahedron entry of five integers *)
Definition int_entry (v : kval) : Prop := exists zs, v = KList (map KInt zs).
Theorem C17_explicit_round_trip : forall prec es txt ch co ps te vo,
  get_string prec es = Ok txt ->
  holds es "mode" KExplicit -> holds es "comment" co -> comment_ok co ->
  holds es "points" (KList (map KPt ps)) -> ps <> [] ->
  holds es "num_kpoints" (KInt (Z.of_nat (length ps))) ->
  holds es "tetra" te -> match te with KList l => Forall int_entry l | _ => True end ->
  holds es "tetra_volume" vo ->
  exists es' qs, kread ch txt = Ok es' /\
    holds es' "mode" KExplicit /\ holds es' "comment" (KStr (shown_comment co)) /\
    holds es' "num_kpoints" (KInt (Z.of_nat (length ps))) /\
    holds es' "points" (KList (map KPt qs)) /\ Forall2 (point_rewritten prec) ps qs /\
    holds es' "tetra" te /\
    (te <> KNone -> exists x y, vo = KFloat x /\ rewritten prec x y /\ holds es' "tetra_volume" (KFloat y)).
Proof.
  intros prec es txt ch co ps te vo W M C OC P Hne N T IT Vo.
  destruct (write_explicit_inv prec es txt W M) as (co2 & ps2 & nz & te2 & vo2 & vol & C2 & P2 & (nu & N2 & _ & I2) & T2 & V2 & OC2 & OT & F & TV & ->).
  unfold holds in *. rewrite C in C2. inversion C2. subst co2. rewrite P in P2. inversion P2 as [E]. rewrite T in T2. inversion T2. subst te2.
  rewrite Vo in V2. inversion V2. subst vo2. rewrite N in N2. inversion N2. subst nu. cbn [int_value] in I2. subst nz.
  assert (ps2 = ps) as ->. { clear -E. revert ps2 E. induction ps as [|p ps IH]; intros [|q qs] E; try discriminate; auto. inversion E. f_equal. auto. }
  exists (eimage prec co ps te vol), (map (point_image prec) ps).
  assert (reads_back (unlines (elines prec co ps (Z.of_nat (length ps)) te vol)) (eimage prec co ps te vol)) as RB.
  { apply unlines_channels.
    - apply elines_nobreak; auto.
    - apply read_elines; auto.
    - apply validate_make_ok; [reflexivity|]. cbn [ok_comment ok_points ok_centering ok_divisions ok_gv ok_shifts is_int andb].
      change (ok_mode KExplicit) with true. rewrite tetra_image_ok by auto. destruct te; auto.
    - intros c. apply elines_letter. }
  split; [destruct RB as [R1 [R2 R3]]; destruct ch; auto|].
  split; [reflexivity|]. split; [reflexivity|]. split; [reflexivity|]. split; [cbn; rewrite map_map; reflexivity|]. split; [|split].
  - clear -F. induction F as [|p ps T F IH]; constructor; auto. split; [reflexivity|]. unfold point_image. cbn [kp_point kp_weight kp_direct]. split.
    + rewrite map_length, firstn_length. unfold three in T. lia.
    + split; [apply rereads|]. eexists. split; [reflexivity|]. apply reread_rewritten.
  - change (Some (tetra_image te) = Some te). f_equal. destruct te as [| | | | |l| |]; auto. cbn [tetra_image]. f_equal.
    clear -IT. induction IT as [|v l [zs ->] _ IH]; auto. cbn [map]. rewrite IH. f_equal. unfold tet_image. cbn [tet_ints].
    rewrite !map_map. reflexivity.
  - intros NT. destruct TV as [K | ->]; [congruence|]. exists vol, (reread prec vol). split; [reflexivity|]. split; [apply reread_rewritten|].
    destruct te; try reflexivity; try congruence.
Qed.
Print Assumptions C17_explicit_round_trip.

(** Writing what was read back gives the same text, for every precision. *)
Theorem C17_explicit_stable : forall prec es txt ch es' po vo,
  get_string prec es = Ok txt -> holds es "mode" KExplicit ->
  (forall co, holds es "comment" co -> comment_ok co) ->
  holds es "points" po -> doubles po -> holds es "tetra_volume" vo -> doubles vo ->
  kread ch txt = Ok es' -> (exists ps, po = KList ps /\ holds es "num_kpoints" (KInt (Z.of_nat (length ps))) /\ ps <> []) ->
  get_string prec es' = Ok txt.
Proof.
  intros prec es txt ch es' po vo W M C P D Vo DV R (l & -> & N & Hne).
  destruct (write_explicit_inv prec es txt W M) as (co & ps & nz & te & vo2 & vol & C2 & P2 & (nu & N2 & _ & I2) & T2 & V2 & OC2 & OT & F & TV & ->).
  specialize (C co C2).
  unfold holds in *. rewrite P in P2. inversion P2. subst l. rewrite map_length in *. rewrite N in N2. inversion N2. subst nu. cbn [int_value] in I2. subst nz.
  rewrite Vo in V2. inversion V2. subst vo2.
  assert (ps <> []) as Hne2 by (intros ->; apply Hne; reflexivity).
  assert (reads_back (unlines (elines prec co ps (Z.of_nat (length ps)) te vol)) (eimage prec co ps te vol)) as RB.
  { apply unlines_channels.
    - apply elines_nobreak; auto.
    - apply read_elines; auto.
    - apply validate_make_ok; [reflexivity|]. cbn [ok_comment ok_points ok_centering ok_divisions ok_gv ok_shifts is_int andb].
      change (ok_mode KExplicit) with true. rewrite tetra_image_ok by auto. destruct te; auto.
    - intros c. apply elines_letter. }
  assert (es' = eimage prec co ps te vol) as ->.
  { destruct RB as [R1 [R2 R3]]. destruct ch; cbn [kread] in R; congruence. }
  apply write_eimage; auto.
  - clear -D. cbn [doubles] in D. induction ps as [|p ps IH]; constructor.
    + destruct D as [[D1 D2] _]. split; auto. unfold weight_of. destruct (kp_weight p); auto. apply one_wf.
    + apply IH. cbn in D. tauto.
  - destruct TV as [->| ->]; auto.
Qed.
Print Assumptions C17_explicit_stable.
Example C17_case : exists txt, get_string 9 explicit_obj = Ok txt /\
  holds explicit_obj "mode" KExplicit /\ holds explicit_obj "comment" (KStr (lit "a mesh")) /\ comment_ok (KStr (lit "a mesh")) /\
  exists ps te vo, holds explicit_obj "points" (KList (map KPt ps)) /\ ps <> [] /\
  holds explicit_obj "num_kpoints" (KInt (Z.of_nat (length ps))) /\ holds explicit_obj "tetra" te /\ te <> KNone /\
  holds explicit_obj "tetra_volume" vo /\ kpoints_of_string txt = Ok
    (dset (lit "points") (KList (map KPt [Kpoint [dec "0"; dec "0.25"; dec "-0.5"] (Some (dec "1")) true;
      Kpoint [dec "0.1"; dec "0.2"; dec "0.3"] (Some (dec "2")) true; Kpoint [dec "0.001"; dec "0"; dec "0"] (Some (dec "1")) true])) explicit_obj).
Proof.
  eexists. split; [vm_compute; reflexivity|]. split; [reflexivity|]. split; [reflexivity|]. split.
  { split; [reflexivity|]. split; [intros H; repeat destruct H as [H|H]; try discriminate; destruct H|].
    intros a H. repeat (destruct H as [<-|H]; [reflexivity|]). destruct H. }
  exists [Kpoint [dec "0"; dec "0.25"; dec "-0.5"] (Some (dec "1")) true;
      Kpoint [dec "0.1"; dec "0.2"; dec "0.3"] (Some (dec "2")) true; Kpoint [dec "0.001"; dec "0"; dec "0"] None true].
  eexists _, _. repeat split; try reflexivity; try discriminate; vm_compute; reflexivity.
Qed.

(** ** C18: automatic modes *)
Theorem C18_mesh_round_trip : forall prec es txt ch co cs zs sh,
  get_string prec es = Ok txt -> holds es "mode" KAutomatic -> holds es "comment" co -> comment_ok co ->
  holds es "centering" (KStr cs) -> cs = lit "Gamma" \/ cs = lit "Monkhorst-Pack" ->
  holds es "divisions" (KList (map KInt zs)) -> length zs = 3 ->
  holds es "generating_vectors" KNone -> holds es "shifts" sh ->
  exists es' ys, kread ch txt = Ok es' /\ holds es' "mode" KAutomatic /\
    holds es' "comment" (KStr (shown_comment co)) /\ holds es' "centering" (KStr cs) /\
    holds es' "divisions" (KList (map KInt zs)) /\ holds es' "generating_vectors" KNone /\
    holds es' "shifts" (KList (map KFloat ys)) /\
    match sh with
    | KList l => exists xs r, l = map KFloat xs ++ r /\ length xs = 3 /\ Forall2 (rewritten prec) xs ys
    | _ => ys = [float_of_Z 0; float_of_Z 0; float_of_Z 0]
    end.
Proof.
  intros prec es txt ch co cs zs sh W M C OC Ce Hcs D LZ G S.
  destruct (write_automatic_inv prec es txt W M) as (co2 & cs2 & di & gv & sh2 & C2 & Ce2 & D2 & G2 & S2 & _ & _ & _ & _ & OS & WD & WG & WS & ->).
  unfold holds in *. rewrite C in C2. inversion C2. subst co2. rewrite Ce in Ce2. inversion Ce2. subst cs2.
  rewrite D in D2. inversion D2. subst di. rewrite G in G2. inversion G2. subst gv. rewrite S in S2. inversion S2. subst sh2.
  assert (alines prec co cs (KList (map KInt zs)) KNone sh = mlines prec co cs zs (shift_vals sh)) as ->.
  { unfold alines, mlines, di_lines. cbn [is_knone gv_lines app]. do 3 f_equal. unfold ivals. rewrite map_map. cbn [int_value]. rewrite map_id.
    rewrite firstn3_id by auto. reflexivity. }
  set (xs := shift_vals sh).
  assert (reads_back (unlines (mlines prec co cs zs xs)) (mimage prec co cs zs xs)) as RB.
  { apply unlines_channels.
    - apply mlines_nobreak; auto.
    - apply read_mlines; auto.
    - apply validate_make_ok; [reflexivity|]. cbn [ok_comment ok_points ok_gv is_int ok_tetra ok_volume andb]. change (ok_mode KAutomatic) with true.
      rewrite !andb_true_r. cbn [ok_centering].
      assert (smem cs centerings = true) as -> by (destruct Hcs as [-> | ->]; reflexivity). cbn [andb ok_divisions kints ok_shifts kfloats].
      apply andb_true_iff. split; apply forallb_forall; intros v Hv; apply in_map_iff in Hv as [z [<- _]]; reflexivity.
    - intros c (l & r & K1 & K2). cbn in K1. inversion K1; subst. destruct Hcs as [-> | ->]; cbn in K2; inversion K2; discriminate. }
  exists (mimage prec co cs zs xs), (map (reread prec) xs).
  split; [destruct RB as [R1 [R2 R3]]; destruct ch; auto|].
  repeat (split; [reflexivity|]).
  destruct sh as [| | | | |l| |]; try discriminate.
  - assert (reread prec (float_of_Z 0) = float_of_Z 0) as Z0.
    { unfold reread. change (float_of_Z 0) with (FFin false 0 0). unfold fixed_q. cbn [float_num float_den]. cbn [N.mul].
      unfold div_rne. rewrite N.div_0_l, N.mod_0_l by (compute; discriminate). cbn.
      unfold float_of_dec. rewrite ?N.mul_0_l. unfold round64. reflexivity. }
    cbn. rewrite Z0. reflexivity.
  - assert (atleast3 (KList l) = true) as A3 by (destruct (is_knone (KList l)) eqn:K; [discriminate|exact WS]).
    cbn [ok_shifts] in OS. exists xs, (skipn 3 l).
    unfold xs, shift_vals. cbn [is_knone fvals].
    split; [|split; [apply (fvals_length (KList l)); auto|apply rereads]].
    rewrite <- (firstn_skipn 3 l) at 1. f_equal. rewrite firstn_map, map_map.
    assert (forallb is_float (firstn 3 l) = true) as OF.
    { rewrite <- (firstn_skipn 3 l), forallb_app in OS. apply andb_true_iff in OS. tauto. }
    clear -OF. induction (firstn 3 l) as [|v r IH]; auto. cbn [forallb] in OF. apply andb_true_iff in OF as [O1 O2]. cbn [map]. rewrite <- IH by auto.
    destruct v; try discriminate. reflexivity.
Qed.
Print Assumptions C18_mesh_round_trip.

Lemma fvals_map xs : fvals (KList (map KFloat xs)) = xs.
Proof. cbn. rewrite map_map. apply map_id. Qed.
Theorem C18_reciprocal_round_trip : forall prec es txt ch co v1 v2 v3 xs,
  get_string prec es = Ok txt -> holds es "mode" KAutomatic -> holds es "comment" co -> comment_ok co ->
  holds es "centering" (KStr (lit "Reciprocal")) -> holds es "divisions" KNone ->
  holds es "generating_vectors" (KList [KList (map KFloat v1); KList (map KFloat v2); KList (map KFloat v3)]) ->
  length v1 = 3 -> length v2 = 3 -> length v3 = 3 ->
  holds es "shifts" (KList (map KFloat xs)) -> length xs = 3 ->
  exists es' w1 w2 w3 ys, kread ch txt = Ok es' /\ holds es' "mode" KAutomatic /\
    holds es' "comment" (KStr (shown_comment co)) /\ holds es' "centering" (KStr (lit "Reciprocal")) /\
    holds es' "divisions" KNone /\
    holds es' "generating_vectors" (KList [KList (map KFloat w1); KList (map KFloat w2); KList (map KFloat w3)]) /\
    holds es' "shifts" (KList (map KFloat ys)) /\
    Forall2 (rewritten prec) v1 w1 /\ Forall2 (rewritten prec) v2 w2 /\ Forall2 (rewritten prec) v3 w3 /\ Forall2 (rewritten prec) xs ys.
Proof.
  intros prec es txt ch co v1 v2 v3 xs W M C OC Ce D G L1 L2 L3 S L4.
  destruct (write_automatic_inv prec es txt W M) as (co2 & cs2 & di & gv & sh2 & C2 & Ce2 & D2 & G2 & S2 & _ & _ & _ & _ & OS & WD & WG & WS & ->).
  unfold holds in *. rewrite C in C2. inversion C2. subst co2. assert (cs2 = lit "Reciprocal") as -> by congruence.
  rewrite D in D2. inversion D2. subst di. rewrite G in G2. inversion G2. subst gv. rewrite S in S2. inversion S2. subst sh2.
  assert (alines prec co (lit "Reciprocal") KNone (KList [KList (map KFloat v1); KList (map KFloat v2); KList (map KFloat v3)]) (KList (map KFloat xs))
    = rlines prec co v1 v2 v3 xs) as ->.
  { unfold alines, rlines, di_lines, shift_vals. cbn [is_knone gv_lines map app]. rewrite !fvals_map, !firstn3_id by auto. reflexivity. }
  assert (reads_back (unlines (rlines prec co v1 v2 v3 xs)) (rimage prec co v1 v2 v3 xs)) as RB.
  { apply unlines_channels.
    - apply rlines_nobreak; auto.
    - apply read_rlines; auto.
    - apply validate_make_ok; [reflexivity|]. cbn [ok_comment ok_points ok_divisions is_int ok_tetra ok_volume andb]. change (ok_mode KAutomatic) with true.
      change (ok_centering (KStr (lit "Reciprocal"))) with true. rewrite !andb_true_r. cbn [andb ok_gv forallb].
      rewrite !kfloats_float_list. apply kfloats_float_list.
    - intros c (l & r & K1 & K2). cbn in K1. inversion K1; subst. cbn in K2; inversion K2; discriminate. }
  exists (rimage prec co v1 v2 v3 xs), (map (reread prec) v1), (map (reread prec) v2), (map (reread prec) v3), (map (reread prec) xs).
  split; [destruct RB as [R1 [R2 R3]]; destruct ch; auto|].
  repeat (split; [reflexivity|]). auto using rereads.
Qed.
Print Assumptions C18_reciprocal_round_trip.
Example C18_case : exists t1 t2, get_string 9 mesh_obj = Ok t1 /\ get_string 9 recip_obj = Ok t2 /\
  holds mesh_obj "mode" KAutomatic /\ holds mesh_obj "centering" (KStr (lit "Monkhorst-Pack")) /\
  holds mesh_obj "divisions" (KList (map KInt [4; 5; 6]%Z)) /\ holds mesh_obj "generating_vectors" KNone /\
  holds recip_obj "mode" KAutomatic /\ holds recip_obj "centering" (KStr (lit "Reciprocal")) /\ holds recip_obj "divisions" KNone /\
  kpoints_of_string t1 = Ok mesh_obj /\ kpoints_of_file t2 = Ok recip_obj.
Proof. eexists _, _. repeat split; vm_compute; reflexivity. Qed.
(** The rest of the property fails in one corner: shifts and generating vectors
    longer than three, or a mesh with only two divisions, are validated but not
    written, and a Gamma mesh with generating vectors is written in a form that
    is read differently. *)
Definition mixed : kentries :=
  make_entries KNone KNone (KList [kfloats [dec "0.5"; dec "0"; dec "0"]]) KNone KNone KNone KNone KAutomatic (KStr (lit "Gamma")) (KInt 0).
Theorem C18_mixed_refuted : exists txt, kpoints_of_dict mixed = Ok mixed /\ get_string 9 mixed = Ok txt /\
  forall ch, kread ch txt = Exn ValueError.
Proof. eexists. split; [vm_compute; reflexivity|]. split; [vm_compute; reflexivity|]. intros []; vm_compute; reflexivity. Qed.
Print Assumptions C18_mixed_refuted.

(** ** C19: line mode through a file or handler *)
(** the sequence of points read back: the three coordinates of each point rewritten, weight one *)
Definition line_points_rewritten (prec : nat) (ps qs : list kpoint) : Prop :=
  Forall2 (fun p q => kp_direct q = true /\ kp_weight q = Some (float_of_Z 1) /\ length (kp_point q) = 3 /\
                      Forall2 (rewritten prec) (firstn 3 (kp_point p)) (kp_point q)) ps qs.
Lemma map_KPt_inj a b : map KPt a = map KPt b -> a = b.
Proof. revert b. induction a as [|p a IH]; intros [|q b] E; try discriminate; auto. inversion E. f_equal. auto. Qed.
Theorem C19_line_file_round_trip : forall prec es txt ch co ps n,
  get_string prec es = Ok txt -> holds es "mode" KLine -> holds es "comment" co -> comment_ok co ->
  holds es "points" (KList (map KPt ps)) -> holds es "num_kpoints" (KInt n) ->
  ch = FromFile \/ ch = FromHandler ->
  exists es' qs, kread ch txt = Ok es' /\ holds es' "mode" KLine /\ holds es' "comment" (KStr (shown_comment co)) /\
    holds es' "num_kpoints" (KInt n) /\ holds es' "points" (KList (map KPt qs)) /\ line_points_rewritten prec ps qs.
Proof.
  intros prec es txt ch co ps n W M C OC P N Hch.
  destruct (write_line_inv prec es txt W M) as (co2 & ps2 & nu & C2 & P2 & N2 & _ & _ & F & ->).
  unfold holds in *. rewrite C in C2. inversion C2. subst co2. rewrite P in P2. inversion P2 as [E]. apply map_KPt_inj in E. subst ps2.
  rewrite N in N2. inversion N2. subst nu. cbn [int_value] in *.
  destruct (line_channels prec co ps n _ OC F (ltext_lines prec co ps n)) as [R1 [R2 _]].
  exists (limage co (map (line_point prec) ps) n), (map (line_point prec) ps).
  split; [destruct Hch as [-> | ->]; auto|]. repeat (split; [reflexivity|]).
  clear -F. induction F as [|p ps T F IH]; constructor; auto. split; [reflexivity|]. split; [reflexivity|]. cbn [line_point kp_point]. split.
  - rewrite map_length, firstn_length. unfold three in T. lia.
  - apply rereads.
Qed.
Print Assumptions C19_line_file_round_trip.
Theorem C19_line_stable : forall prec es txt ch es' ps,
  get_string prec es = Ok txt -> holds es "mode" KLine -> (forall co, holds es "comment" co -> comment_ok co) ->
  holds es "points" (KList (map KPt ps)) -> Forall (fun p => Forall wf_float (kp_point p)) ps ->
  ch = FromFile \/ ch = FromHandler -> kread ch txt = Ok es' ->
  get_string prec es' = Ok txt.
Proof.
  intros prec es txt ch es' ps W M C P D Hch R.
  destruct (write_line_inv prec es txt W M) as (co & ps2 & nu & C2 & P2 & N2 & _ & _ & F & ->). specialize (C co C2).
  unfold holds in *. rewrite P in P2. inversion P2 as [E]. apply map_KPt_inj in E. subst ps2.
  destruct (line_channels prec co ps (int_value nu) _ C F (ltext_lines prec co ps (int_value nu))) as [R1 [R2 _]].
  assert (es' = limage co (map (line_point prec) ps) (int_value nu)) as -> by (destruct Hch as [-> | ->]; cbn [kread] in R; congruence).
  rewrite write_limage.
  - rewrite ltext_image by auto. reflexivity.
  - clear -F. induction F; constructor; auto using line_point_three.
Qed.
Print Assumptions C19_line_stable.
Example C19_case : exists txt, get_string 9 line_obj = Ok txt /\ holds line_obj "mode" KLine /\ kpoints_of_file txt = Ok line_obj /\
  exists ps, holds line_obj "points" (KList (map KPt ps)) /\ length ps = 4.
Proof.
  eexists. split; [vm_compute; reflexivity|]. split; [reflexivity|]. split; [vm_compute; reflexivity|].
  exists (map (fun v => match v with KPt p => p | _ => Kpoint [] None true end)
    (match dget (lit "points") line_obj with Some (KList l) => l | _ => [] end)).
  vm_compute. auto.
Qed.

(** ** C20: what the string channel gives for a written text *)
Theorem C20_channels_agree : forall prec es txt co mo,
  get_string prec es = Ok txt -> holds es "comment" co -> comment_ok co -> holds es "mode" mo -> mo <> KLine ->
  kpoints_of_string txt = kpoints_of_file txt /\ kpoints_of_handler txt = kpoints_of_file txt.
Proof. exact written_channels. Qed.
Print Assumptions C20_channels_agree.
(** any text (written or not) that is not in line mode, whose only line boundary is the newline *)
Theorem C20_any_text : forall txt, (forall a, In a txt -> is_break a = true -> a = nl) ->
  (forall c, letter_line (splitlines txt) 2 c -> lower1 c <> "l"%char) \/ (forall l, In l (skipn 4 (splitlines txt)) -> l <> []) ->
  kpoints_of_string txt = kpoints_of_file txt /\ kpoints_of_handler txt = kpoints_of_file txt.
Proof. exact channels_agree. Qed.
Print Assumptions C20_any_text.
Theorem C20_line_mode_two_points_partial : forall prec es txt co ps,
  get_string prec es = Ok txt -> holds es "mode" KLine -> holds es "comment" co -> comment_ok co ->
  holds es "points" (KList (map KPt ps)) -> length ps <= 2 ->
  kpoints_of_string txt = kpoints_of_file txt /\ kpoints_of_handler txt = kpoints_of_file txt.
Proof.
  intros prec es txt co ps W M C OC P L.
  destruct (write_line_inv prec es txt W M) as (co2 & ps2 & nu & C2 & P2 & N2 & _ & _ & F & ->).
  unfold holds in *. rewrite C in C2. inversion C2. subst co2. rewrite P in P2. inversion P2 as [E]. apply map_KPt_inj in E. subst ps2.
  destruct (line_channels prec co ps (int_value nu) _ OC F (ltext_lines prec co ps (int_value nu))) as [-> [-> ->]].
  destruct ps as [|a [|b [|c r]]]; cbn [length] in L; try lia; auto.
Qed.
Print Assumptions C20_line_mode_two_points_partial.
(** with three or more points in line mode, reading the string always gives a
    different list of points than reading the file: a point without coordinates
    is inserted between the pairs, and the result cannot be written *)
Theorem C20_line_mode_refuted : forall prec es txt co ps,
  get_string prec es = Ok txt -> holds es "mode" KLine -> holds es "comment" co -> comment_ok co ->
  holds es "points" (KList (map KPt ps)) -> 2 < length ps ->
  exists e1 e2 qs1 qs2, kpoints_of_file txt = Ok e1 /\ kpoints_of_string txt = Ok e2 /\
    holds e1 "points" (KList (map KPt qs1)) /\ holds e2 "points" (KList (map KPt qs2)) /\
    length qs1 = length ps /\ length ps < length qs2 /\ nth_error qs2 2 = Some (Kpoint [] (Some (float_of_Z 1)) true) /\
    get_string prec e2 = Exn IndexError.
Proof.
  intros prec es txt co ps W M C OC P L.
  destruct (write_line_inv prec es txt W M) as (co2 & ps2 & nu & C2 & P2 & N2 & _ & _ & F & ->).
  unfold holds in *. rewrite C in C2. inversion C2. subst co2. rewrite P in P2. inversion P2 as [E]. apply map_KPt_inj in E. subst ps2.
  destruct (line_channels prec co ps (int_value nu) _ OC F (ltext_lines prec co ps (int_value nu))) as [R1 [_ R3]].
  rewrite R1, R3. do 2 eexists. exists (map (line_point prec) ps), (with_gaps (map (line_point prec) ps)).
  split; [reflexivity|]. split; [reflexivity|]. split; [reflexivity|]. split; [reflexivity|]. split; [apply map_length|].
  assert (forall l, length l <= length (with_gaps l)) as G.
  { intros l. pattern l. apply two_ind; [auto|auto|]. intros a b r IH. cbn [with_gaps length]. destruct r; cbn [length] in *; lia. }
  destruct ps as [|a [|b [|c r]]]; cbn [length] in L; try lia.
  set (r' := c :: r) in *.
  assert (with_gaps (map (line_point prec) (a :: b :: r')) =
    line_point prec a :: line_point prec b :: empty_point :: with_gaps (map (line_point prec) r')) as -> by reflexivity.
  split; [|split].
  - cbn [length]. specialize (G (map (line_point prec) r')). rewrite map_length in G. lia.
  - reflexivity.
  - unfold get_string, write. rewrite limage_valid. cbn [bind]. unfold key, limage.
    set (pts := KList _).
    change (dget (lit "comment") (make_entries (KStr (shown_comment co)) KNone KNone KNone pts KNone KNone KLine KNone (KInt (int_value nu)))) with (Some (KStr (shown_comment co))).
    change (dget (lit "mode") (make_entries (KStr (shown_comment co)) KNone KNone KNone pts KNone KNone KLine KNone (KInt (int_value nu)))) with (Some KLine).
    cbn [of_option bind KLine]. change (seqb (lit "line") (lit "explicit")) with false.
    change (seqb (lit "line") (lit "automatic")) with false. change (seqb (lit "line") (lit "line")) with true. cbv iota.
    unfold write_line, key.
    change (dget (lit "num_kpoints") (make_entries (KStr (shown_comment co)) KNone KNone KNone pts KNone KNone KLine KNone (KInt (int_value nu)))) with (Some (KInt (int_value nu))).
    change (dget (lit "points") (make_entries (KStr (shown_comment co)) KNone KNone KNone pts KNone KNone KLine KNone (KInt (int_value nu)))) with (Some pts).
    cbn [of_option bind as_int is_int int_value]. unfold pts. cbn [points_of bind map mapM].
    inversion F; subst. inversion H2; subst. rewrite !write_lp_eq by (apply line_point_three; auto). reflexivity.
Qed.
Print Assumptions C20_line_mode_refuted.
Example C20_case : exists txt, get_string 9 line_obj = Ok txt /\ kpoints_of_string txt <> kpoints_of_file txt.
Proof. eexists. split; [vm_compute; reflexivity|]. vm_compute. discriminate. Qed.

(** ** C21: exit codes *)
Theorem C21_cartesian_points : forall ch txt n c,
  count_line (klines ch txt) n -> letter_line (klines ch txt) 2 c -> (0 < n)%Z -> lower1 c = "k"%char \/ lower1 c = "c"%char ->
  kread ch txt = Exn (SysExit 200).
Proof.
  intros ch txt n c Hn Hc H1 H2. apply kread_exn. rewrite (from_list_body _ n c Hn Hc), body_cartesian by auto. reflexivity.
Qed.
Print Assumptions C21_cartesian_points.
Theorem C21_cartesian_line_mode : forall ch txt n c l r q t,
  count_line (klines ch txt) n -> letter_line (klines ch txt) 2 c -> lower1 c = "l"%char ->
  nth_error (klines ch txt) 3 = Some l -> split_ws l = (r :: q) :: t -> lower1 r <> "r"%char -> lower1 r <> "d"%char ->
  kread ch txt = Exn (SysExit 200).
Proof.
  intros ch txt n c l r q t Hn Hc HL H3 S R1 R2. apply kread_exn. rewrite (from_list_body _ n c Hn Hc), HL.
  rewrite (body_line_cartesian _ n l q r t); auto.
Qed.
Print Assumptions C21_cartesian_line_mode.
Theorem C21_bad_tetrahedron : forall ch txt h0 h1 h2 pts tl hl tets bad rest c t q m vol,
  klines ch txt = h0 :: h1 :: h2 :: pts ++ tl :: hl :: tets ++ bad :: rest ->
  count_line (klines ch txt) (Z.of_nat (length pts)) -> letter_line (klines ch txt) 2 c -> pts <> [] ->
  lower1 c <> "l"%char -> lower1 c <> "k"%char -> lower1 c <> "c"%char ->
  Forall (fun l => exists x y z w, point_line l x y z w) pts ->
  strip tl = t :: q -> lower1 t = "t"%char ->
  (exists a b r, split_ws hl = a :: b :: r /\ parse_int a = Some m /\ parse_float b = Some vol) ->
  Forall (fun l => exists zs, five_ints l zs) tets ->
  (Z.of_nat (length tets) < m)%Z -> length (split_ws bad) <> 5 ->
  kread ch txt = Exn (SysExit 201).
Proof.
  intros ch txt h0 h1 h2 pts tl hl tets bad rest c t q m vol E. intros. apply kread_exn. rewrite E in *. eapply tetra_201; eauto.
Qed.
Print Assumptions C21_bad_tetrahedron.
Theorem C21_fully_automatic : forall ch txt n c,
  count_line (klines ch txt) n -> letter_line (klines ch txt) 2 c -> (n <= 0)%Z ->
  (lower1 c = "a"%char -> kread ch txt = Exn (SysExit 202)) /\
  (lower1 c = "d"%char \/ lower1 c = "c"%char -> kread ch txt = Exn (SysExit 203)).
Proof.
  intros ch txt n c Hn Hc H. split; intros HL; apply kread_exn; rewrite (from_list_body _ n c Hn Hc).
  - rewrite HL, body_auto by (auto; discriminate). reflexivity.
  - destruct HL as [-> | ->]; rewrite body_auto by (auto; discriminate); reflexivity.
Qed.
Print Assumptions C21_fully_automatic.
(** Everything that is accepted is of one of the three supported kinds; explicit
    points are exactly the announced number of lines and every tetrahedron has
    five integers. *)
Theorem C21_accepted_is_supported : forall ch txt es, kread ch txt = Ok es ->
  let ls := klines ch txt in
  exists n c, count_line ls n /\ letter_line ls 2 c /\ holds es "num_kpoints" (KInt n) /\
    ((lower1 c = "l"%char /\ holds es "mode" KLine /\
      exists l r q t, nth_error ls 3 = Some l /\ split_ws l = (r :: q) :: t /\ (lower1 r = "r"%char \/ lower1 r = "d"%char)) \/
     ((0 < n)%Z /\ lower1 c <> "l"%char /\ lower1 c <> "k"%char /\ lower1 c <> "c"%char /\ holds es "mode" KExplicit /\
      exists pts te, holds es "points" (KList pts) /\ holds es "tetra" te /\ Z.of_nat (length pts) = n /\
        Forall2 (fun l v => exists x y z w, point_line l x y z w /\ v = KPt (Kpoint [x; y; z] w true))
                (firstn (Z.to_nat n) (skipn 3 ls)) pts /\
        (te = KNone \/ exists l, te = KList l /\ Forall (fun v => exists zs, length zs = 5 /\ v = KList (map KInt zs)) l)) \/
     ((n <= 0)%Z /\ (lower1 c = "g"%char \/ lower1 c = "m"%char \/ lower1 c = "r"%char) /\ holds es "mode" KAutomatic)).
Proof. intros ch txt es H ls. apply kread_ok in H as [F V]. apply accepted_sound; auto. Qed.
Print Assumptions C21_accepted_is_supported.
Example C21_case :
  map (fun t => kpoints_of_string (unlines (map lit t)))
   [["c"; "1"; "Kartesian"; "0 0 0"]; ["c"; "5"; "Line"; "Cart"; "0 0 0"];
    ["c"; "1"; "D"; "0 0 0"; "t"; "2 0.1"; "1 2 3 4 5"; "1 2 3"]; ["c"; "0"; "Auto"; "10"]; ["c"; "-1"; "Dir"]; ["c"; "0"; "x"]]%string
  = map (fun c => Exn (SysExit c)) [200; 200; 201; 202; 203; 206]%Z.
Proof. vm_compute. reflexivity. Qed.

(** ** C22: edits of one point *)
Theorem C22_modify_point : forall es l n p, validate es = Ok tt -> holds es "points" (KList l) ->
  (forall i, designates n (length l) i -> exists es',
     modify es (lit "points") (KPt p) (Some (KInt n)) = Ok es' /\
     holds es' "points" (KList (firstn i l ++ KPt p :: skipn (S i) l)) /\
     (forall k, k <> lit "points" -> dget k es' = dget k es)) /\
  ((Z.of_nat (length l) <= n)%Z -> modify es (lit "points") (KPt p) (Some (KInt n)) = Exn (SysExit 211)) /\
  ((n < - Z.of_nat (length l))%Z -> modify es (lit "points") (KPt p) (Some (KInt n)) = Exn IndexError).
Proof.
  intros es l n p V P. destruct (modify_point es l n p V P) as [A [B C]]. repeat split; auto.
  intros i D. rewrite (A i D). eexists. split; [reflexivity|]. split; [apply dget_dset_same|]. intros k Hk. apply dget_dset_other. auto.
Qed.
Print Assumptions C22_modify_point.
Theorem C22_delete_point : forall es l n, validate es = Ok tt -> holds es "points" (KList l) ->
  (forall i, designates n (length l) i -> exists es',
     delete_point es (KInt n) = Ok es' /\
     holds es' "points" (KList (firstn i l ++ skipn (S i) l)) /\
     (forall k, k <> lit "points" -> dget k es' = dget k es)) /\
  ((Z.of_nat (length l) <= n)%Z -> delete_point es (KInt n) = Exn (SysExit 211)) /\
  ((n < - Z.of_nat (length l))%Z -> delete_point es (KInt n) = Exn IndexError).
Proof.
  intros es l n V P. destruct (delete_point_spec es l n V P) as [A [B C]]. repeat split; auto.
  intros i D. rewrite (A i D). eexists. split; [reflexivity|]. split; [apply dget_dset_same|]. intros k Hk. apply dget_dset_other. auto.
Qed.
Print Assumptions C22_delete_point.
Example C22_case : validate explicit_obj = Ok tt /\ (exists l, holds explicit_obj "points" (KList l) /\ length l = 3) /\
  designates 1 3 1 /\ designates (-1) 3 2.
Proof.
  split; [vm_compute; reflexivity|]. split; [eexists; split; vm_compute; reflexivity|]. unfold designates. lia.
Qed.

(** ** C23: the declared count *)
Definition count_agrees (es : kentries) : Prop :=
  exists l, holds es "points" (KList l) /\ holds es "num_kpoints" (KInt (Z.of_nat (length l))).
Theorem C23_read_count : forall ch txt es, kread ch txt = Ok es -> holds es "mode" KExplicit -> count_agrees es.
Proof.
  intros ch txt es H M. destruct (C21_accepted_is_supported ch txt es H) as (n & c & _ & _ & N & [[_ [K _]]|[(_ & _ & _ & _ & _ & pts & te & P & _ & L & _)|[_ [_ K]]]]).
  - unfold holds in *. rewrite M in K. discriminate.
  - exists pts. split; auto. rewrite L. exact N.
  - unfold holds in *. rewrite M in K. discriminate.
Qed.
Print Assumptions C23_read_count.
(** replacing points keeps it *)
Theorem C23_replacing_points_partial : forall ops es, count_agrees es ->
  Forall (fun o => match o with KModify e v (Some n) => True | KModify e v None => e <> lit "points" /\ e <> lit "num_kpoints" | KDelete _ => False end) ops ->
  count_agrees (krun es ops).
Proof.
  intros ops. induction ops as [|o ops IH]; intros es A F; auto. inversion F; subst. cbn. apply IH; auto.
  destruct o as [e v n|n]; [|contradiction]. cbn. destruct (modify es e v n) as [es'|] eqn:E; auto.
  destruct A as [l [P N]]. unfold modify in E. apply bind_ok in E as [[] [_ E]]. apply bind_ok in E as [[] [_ E]].
  destruct n as [n|].
  - apply bind_ok in E as [[] [_ E]]. apply bind_ok in E as [[] [_ E]]. unfold key, holds in *. rewrite P in E. cbn [of_option bind] in E.
    destruct (list_index l (int_value n)) as [i|] eqn:LI; [|discriminate]. inversion E.
    apply list_index_spec in LI. exists (list_set l i v). split; [apply dget_dset_same|].
    unfold holds. rewrite dget_dset_other by discriminate. rewrite N. do 3 f_equal.
    rewrite list_set_split by apply LI. rewrite app_length, firstn_length. cbn [length]. rewrite skipn_length. destruct LI as [LI _]. lia.
  - repeat (apply bind_ok in E as [[] [_ E]]). inversion E. destruct H1 as [E1 E2].
    exists l. unfold holds in *. rewrite !dget_dset_other by auto. auto.
Qed.
Print Assumptions C23_replacing_points_partial.
(** deleting a point leaves the count: the written text can never be read back *)
Theorem C23_delete_refuted : forall prec es l i txt, validate es = Ok tt -> holds es "mode" KExplicit ->
  holds es "points" (KList l) -> holds es "num_kpoints" (KInt (Z.of_nat (length l))) -> i < length l ->
  (forall co, holds es "comment" co -> comment_ok co) -> get_string prec es = Ok txt ->
  exists es' txt', delete_point es (KInt (Z.of_nat i)) = Ok es' /\ get_string prec es' = Ok txt' /\
    forall ch, exists e, kread ch txt' = Exn e.
Proof. exact delete_unreadable. Qed.
Print Assumptions C23_delete_refuted.
Example C23_case : exists e1 t1, delete_point explicit_obj (KInt 0) = Ok e1 /\ get_string 9 e1 = Ok t1 /\ kpoints_of_string t1 = Exn ValueError /\
  count_agrees explicit_obj.
Proof.
  do 2 eexists. split; [vm_compute; reflexivity|]. split; [vm_compute; reflexivity|]. split; [vm_compute; reflexivity|].
  eexists. split; vm_compute; reflexivity.
Qed.

(** ** C24: keys accepted by modify *)
Definition documented_names : list str :=
  map lit ["comment"; "points"; "tetra"; "tetra_volume"; "divisions"; "mode"; "num_kpoints"; "shifts"; "centering"]%string.
Definition occurs_in (n k : str) : Prop := exists a b, k = a ++ n ++ b.
(** 207 is raised exactly for the keys in which none of these names occurs *)
Theorem C24_rejected_keys : forall es k v n,
  modify es k v n = Exn (SysExit 207) <-> (forall d, In d documented_names -> ~ occurs_in d k).
Proof.
  intros es k v n. unfold check_allowed_entries. split.
  - intros H d Hd O. apply substrb_spec in O. revert H. apply modify_207. eapply allowed_substr; eauto.
  - intros H. unfold modify, check_allowed_entries.
    assert (existsb (fun m => substrb m k) allowed_names = false) as ->; [|reflexivity].
    destruct (existsb (fun m => substrb m k) allowed_names) eqn:E; auto. apply existsb_exists in E as [d [Hd E]].
    apply substrb_spec in E. exfalso. eapply H; eauto.
Qed.
Print Assumptions C24_rejected_keys.
Theorem C24_exact_keys_refuted :
  (forall es v n, modify es (lit "generating_vectors") v n = Exn (SysExit 207)) /\
  (exists es', modify explicit_obj (lit "my comment") (KInt 3) None = Ok es' /\ holds es' "my comment" (KInt 3)).
Proof.
  split.
  - intros es v n. apply C24_rejected_keys. intros d Hd O. apply substrb_spec in O.
    repeat (destruct Hd as [<-|Hd]; [vm_compute in O; discriminate|]). destruct Hd.
  - eexists. split; vm_compute; reflexivity.
Qed.
Print Assumptions C24_exact_keys_refuted.

(** ** C25: get *)
Theorem C25_kpoints_get_absent_partial : forall es k, dget k es = None -> get es k = Ok KNone.
Proof. intros es k H. unfold get. rewrite H. reflexivity. Qed.
Print Assumptions C25_kpoints_get_absent_partial.
Theorem C25_kpoints_get_refuted : forall es k v, dget k es = Some v -> get es k = Exn AttributeError.
Proof. intros es k v H. unfold get. rewrite H. reflexivity. Qed.
Print Assumptions C25_kpoints_get_refuted.

(** ** C26: shifts of a mesh *)
Theorem C26_shifts_exact : forall ch txt es cs, kread ch txt = Ok es ->
  holds es "centering" (KStr cs) -> cs = lit "Gamma" \/ cs = lit "Monkhorst-Pack" ->
  let ls := klines ch txt in
  (length ls = 5 -> exists l xs, nth_error ls 4 = Some l /\ float_line l xs /\ holds es "shifts" (KList (map KFloat xs))) /\
  (length ls <> 5 -> holds es "shifts" KNone).
Proof.
  intros ch txt es cs H Ce Hcs ls. apply kread_ok in H as [F V].
  destruct (from_list_ok_head _ es F) as [n [c [Hn Hc]]]. rewrite (from_list_body _ n c Hn Hc) in F. fold ls in F.
  destruct (body ls n (lower1 c)) as [[[[[[[[po te] vo] ce] di] gv] sh] mo]|] eqn:B; [|discriminate].
  cbn [bind] in F. inversion F. subst es. clear F. change (Some ce = Some (KStr cs)) in Ce. inversion Ce. subst ce.
  assert (read_automatic (lower1 c) ls = Ok (KStr cs, di, gv, sh)) as RA.
  { unfold body in B. destruct (if negb _ && _ then _ else _) as [[[p1 p2] p3]|]; [|discriminate]. cbn [bind] in B.
    destruct (n <=? 0)%Z; [|cbn [bind] in B; apply bind_ok in B as [p4 [_ B]]; inversion B].
    apply bind_ok in B as [[[[x1 x2] x3] x4] [B1 B]]. apply bind_ok in B as [p4 [_ B]]. inversion B; subst. exact B1. }
  unfold read_automatic in RA. destruct (aeqb (lower1 c) "a"); [discriminate|].
  destruct (aeqb (lower1 c) "g" || aeqb (lower1 c) "m").
  - apply bind_ok in RA as [l3 [R1 RA]]. apply bind_ok in RA as [d [R2 RA]]. apply bind_ok in RA as [s [R3 RA]]. inversion RA. subst.
    change (holds (make_entries (KStr (strip (filter (fun c0 => negb (aeqb c0 hash)) (hd [] ls)))) (kints d) KNone sh po te vo (KStr mo)
              (KStr (if aeqb (lower1 c) "g" then lit "Gamma" else lit "Monkhorst-Pack")) (KInt n)) "shifts") with (fun v => Some sh = Some v).
    cbv beta. destruct (length ls =? 5) eqn:L.
    + apply Nat.eqb_eq in L. split; [intros _|congruence]. apply bind_ok in R3 as [l4 [R3 R4]]. apply bind_ok in R4 as [xs [R4 R5]]. inversion R5. subst.
      exists l4, xs. unfold line_at, py_nth in R3. destruct (nth_error ls 4); [|discriminate]. inversion R3. subst. split; [reflexivity|]. split; [apply mapM_floats; exact R4|reflexivity].
    + apply Nat.eqb_neq in L. inversion R3. subst. split; [congruence|reflexivity].
  - destruct (aeqb (lower1 c) "r").
    + apply bind_ok in RA as [g [_ RA]]. apply bind_ok in RA as [l6 [_ RA]]. apply bind_ok in RA as [s [_ RA]]. inversion RA. subst.
      destruct Hcs; discriminate.
    + destruct (aeqb (lower1 c) "d" || aeqb (lower1 c) "c"); [discriminate|]. inversion RA.
Qed.
Print Assumptions C26_shifts_exact.
(** a trailing blank line makes the shift line ignored *)
Theorem C26_shifts_refuted : exists es, kpoints_of_file (mesh_text ++ [nl]) = Ok es /\ holds es "shifts" KNone /\
  holds mesh_obj "shifts" (KList (map KFloat [dec "0"; dec "0.5"; dec "0.25"])).
Proof. eexists. split; [vm_compute; reflexivity|]. split; vm_compute; reflexivity. Qed.
Print Assumptions C26_shifts_refuted.

(** ** C12 (Kpoints) *)
Theorem C12_kpoints_sources : forall a,
  kpoints_init a = Exn (SysExit 10) <->
  let s := is_some (ka_string a) in let d := is_some (ka_dict a) in let p := is_some (ka_path a) in let h := is_some (ka_handler a) in
  s && d || s && p || d && p && h || negb (s || d || p || h) = true.
Proof. exact kpoints_exit10. Qed.
Print Assumptions C12_kpoints_sources.

(** ** C59: histories of edits *)
(** From any object that passed validation, no history of modify and delete_point
    calls (accepted or refused) makes an entry disappear: validation, which every
    write starts with, then succeeds or exits with 206 or 13, never a KeyError or
    another code. *)
Theorem C59_edits_keep_entries : forall ops es, validate es = Ok tt ->
  (forall k, In k ["comment"; "points"; "centering"; "divisions"; "generating_vectors"; "shifts"; "mode"; "num_kpoints"; "tetra"; "tetra_volume"]%string ->
     exists v, holds (krun es ops) k v) /\
  (validate (krun es ops) = Ok tt \/ validate (krun es ops) = Exn (SysExit 206) \/ validate (krun es ops) = Exn (SysExit 13)).
Proof.
  intros ops es V. pose proof (kept_run ops es (valid_kept es V)) as K. split; [|apply kept_validate; auto].
  destruct K as [K1 [v2 [K2 _]] [v3 [K3 _]] [v4 [K4 _]] [v5 [K5 _]] [v6 [K6 _]] [v7 [K7 _]] [v8 [K8 _]] [v9 [K9 _]] [v10 [K10 _]]].
  intros k H. cbn [In] in H. repeat (destruct H as [<-|H]; [eauto|]). destruct H.
Qed.
Print Assumptions C59_edits_keep_entries.
(** The two failures do occur. *)
Theorem C59_always_valid_refuted :
  validate (krun explicit_obj [KModify (lit "num_kpoints") KNone None]) = Exn (SysExit 13) /\
  validate (krun mesh_obj [KModify (lit "divisions") KNone None]) = Exn (SysExit 206) /\
  validate explicit_obj = Ok tt /\ validate mesh_obj = Ok tt.
Proof. vm_compute. auto. Qed.
Print Assumptions C59_always_valid_refuted.
