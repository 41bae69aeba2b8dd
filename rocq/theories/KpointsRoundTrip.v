From Coq Require Import Ascii String List NArith ZArith Bool Lia Arith.
From Verif Require Import PyBase PyNum PyStrLemmas PyNumLemmas PyFmtLemmas PyLines UtilsModel KpointsModel KpointsSpec KpointsProofs.
Import ListNotations.
Local Open Scope list_scope.
Local Open Scope bool_scope.
Local Open Scope nat_scope.

Ltac asc := cbn [app]; repeat (rewrite <- app_assoc; cbn [app]).

(** ** What validation guarantees *)
Definition ok_comment v := match v with KNone | KStr _ => true | _ => false end.
Definition ok_points v := match v with KNone | KList _ => true | _ => false end.
Definition ok_centering v := match v with KNone => true | KStr t => smem t centerings | _ => false end.
Definition ok_divisions v := match v with KNone => true | KList l => forallb is_int l | _ => false end.
Definition ok_gv v := match v with KNone => true | KList l => forallb is_float_list l | _ => false end.
Definition ok_shifts v := match v with KNone => true | KList l => forallb is_float l | _ => false end.
Definition ok_mode v := match v with KNone => true | KStr t => smem t modes | _ => false end.
Definition ok_tet1 v := match v with KList l => (length l =? 5) && forallb is_int l | _ => false end.
Definition ok_tetra v := match v with KNone => true | KList l => forallb ok_tet1 l | _ => false end.
Definition ok_volume v := match v with KNone | KFloat _ => true | _ => false end.

Record valid (es : kentries) (co po ce di gv sh mo nu te vo : kval) : Prop := Valid {
  v_co : holds es "comment" co; v_po : holds es "points" po; v_ce : holds es "centering" ce;
  v_di : holds es "divisions" di; v_gv : holds es "generating_vectors" gv; v_sh : holds es "shifts" sh;
  v_mo : holds es "mode" mo; v_nu : holds es "num_kpoints" nu; v_te : holds es "tetra" te;
  v_vo : holds es "tetra_volume" vo;
  v_some : is_knone di && is_knone po && is_knone gv = false;
  v_types : ok_comment co && ok_points po && ok_centering ce && ok_divisions di && ok_gv gv && ok_shifts sh &&
            ok_mode mo && is_int nu && ok_tetra te && ok_volume vo = true }.

Lemma arg_key_none es k : arg_or_key es k KNone = of_option (SysExit 12) (dget (lit k) es).
Proof. reflexivity. Qed.
Lemma reject_ok b n : reject b n = Ok tt <-> b = false.
Proof. destruct b; cbn; split; congruence. Qed.
Lemma tetra_elements l : (exists r, mapM check_tetra_element l = Ok r) <-> forallb ok_tet1 l = true.
Proof.
  induction l as [|a l IH]; cbn [mapM forallb]; [split; eauto|].
  assert (check_tetra_element a = Ok tt <-> ok_tet1 a = true) as E.
  { destruct a; cbn; split; try discriminate; destruct (length l0 =? 5); cbn; try discriminate;
      destruct (forallb is_int l0); cbn; congruence. }
  destruct (check_tetra_element a) as [[]|e] eqn:C; cbn [bind].
  - destruct E as [E _]. rewrite E by auto. cbn [andb]. rewrite <- IH.
    destruct (mapM check_tetra_element l); cbn; split; intros [r H]; eauto; discriminate.
  - split; [intros [r H]; discriminate|]. intros H. apply andb_true_iff in H as [H _]. apply E in H. discriminate.
Qed.

Ltac dg es k v E := destruct (dget (lit k) es) as [v|] eqn:E; cbn [of_option bind] in *; try discriminate.

Theorem validate_spec es : validate es = Ok tt <-> exists co po ce di gv sh mo nu te vo, valid es co po ce di gv sh mo nu te vo.
Proof.
  split.
  - intros H. unfold validate in H. apply bind_ok in H as [[] [H1 H]]. apply bind_ok in H as [[] [H2 H]].
    apply bind_ok in H as [[] [H3 H]]. apply bind_ok in H as [[] [H4 H]]. apply bind_ok in H as [[] [H5 H]].
    apply bind_ok in H as [[] [H6 H]]. apply bind_ok in H as [[] [H7 H]]. apply bind_ok in H as [[] [H8 H]].
    apply bind_ok in H as [[] [H9 H]]. apply bind_ok in H as [[] [H10 H11]].
    unfold check_comment, check_points, check_centering, check_divisions, check_generating_vectors, check_shifts,
      check_mode, check_num_kpoints, check_tetra, check_tetra_volume, check_dict, key in *.
    rewrite !arg_key_none in *.
    dg es "comment"%string co E1. dg es "points"%string po E2. dg es "centering"%string ce E3.
    dg es "divisions"%string di E4. dg es "generating_vectors"%string gv E5. dg es "shifts"%string sh E6.
    dg es "mode"%string mo E7. dg es "num_kpoints"%string nu E8. dg es "tetra"%string te E9. dg es "tetra_volume"%string vo E10.
    exists co, po, ce, di, gv, sh, mo, nu, te, vo. constructor; auto.
    + destruct (is_knone di); auto. destruct (is_knone po); auto. destruct (is_knone gv); [discriminate|auto].
    + assert (ok_comment co = true) as ->.
      { destruct co; cbn in H2 |- *; try reflexivity; discriminate. }
      assert (ok_points po = true) as -> by (destruct po; try discriminate; auto).
      assert (ok_centering ce = true) as ->.
      { destruct ce; try discriminate; auto. apply reject_ok, negb_false_iff in H4. exact H4. }
      assert (ok_divisions di = true) as ->.
      { destruct di; try discriminate; auto. apply reject_ok, negb_false_iff in H5. exact H5. }
      assert (ok_gv gv = true) as ->.
      { destruct gv; try discriminate; auto. apply reject_ok, negb_false_iff in H6. exact H6. }
      assert (ok_shifts sh = true) as ->.
      { destruct sh; try discriminate; auto. apply reject_ok, negb_false_iff in H7. exact H7. }
      assert (ok_mode mo = true) as ->.
      { destruct mo; try discriminate; auto. apply reject_ok, negb_false_iff in H8. exact H8. }
      apply reject_ok, negb_false_iff in H9. rewrite H9.
      assert (ok_tetra te = true) as ->.
      { destruct te; try discriminate; auto. apply bind_ok in H10 as [r [H10 _]]. apply tetra_elements. eauto. }
      destruct vo; try discriminate; auto.
  - intros (co & po & ce & di & gv & sh & mo & nu & te & vo & V). destruct V as [A1 A2 A3 A4 A5 A6 A7 A8 A9 A10 S T].
    unfold holds in *. repeat (apply andb_true_iff in T as [T ?]).
    unfold validate, check_comment, check_points, check_centering, check_divisions, check_generating_vectors, check_shifts,
      check_mode, check_num_kpoints, check_tetra, check_tetra_volume, check_dict, key.
    rewrite !arg_key_none. rewrite A1, A2, A3, A4, A5, A6, A7, A8, A9, A10. cbn [of_option bind].
    assert ((if is_knone di then if is_knone po then if is_knone gv then Exn (SysExit 206) else Ok tt else Ok tt else Ok tt) = Ok tt) as ->.
    { destruct (is_knone di), (is_knone po), (is_knone gv); auto. discriminate. }
    cbn [bind].
    assert ((if is_knone co then Ok tt else reject (negb (is_str co)) 13) = Ok tt) as ->
      by (destruct co; try discriminate; auto).
    destruct po; try discriminate; cbn [bind];
    destruct ce as [|cs| | | | | |]; try discriminate; cbn [ok_centering] in *;
    try match goal with K : smem _ _ = true |- _ => rewrite K end; cbn [negb reject bind];
    destruct di; try discriminate; cbn [ok_divisions] in *;
    try match goal with K : forallb is_int _ = true |- _ => rewrite K end; cbn [negb reject bind];
    destruct gv; try discriminate; cbn [ok_gv] in *;
    try match goal with K : forallb is_float_list _ = true |- _ => rewrite K end; cbn [negb reject bind];
    destruct sh; try discriminate; cbn [ok_shifts] in *;
    try match goal with K : forallb is_float _ = true |- _ => rewrite K end; cbn [negb reject bind];
    (destruct mo as [|ms| | | | | |]; try discriminate; cbn [ok_mode] in *;
    try match goal with K : smem ms modes = true |- _ => rewrite K end; cbn [negb reject bind]);
    match goal with K : is_int nu = true |- _ => rewrite K end; cbn [negb reject bind];
    (destruct te as [| | | | |tl| |]; try discriminate; cbn [ok_tetra] in *; cbn [bind];
     [|match goal with K : forallb ok_tet1 tl = true |- _ => apply tetra_elements in K as [r ->] end; cbn [bind]]);
    destruct vo; try discriminate; reflexivity.
Qed.

(** ** Lines of the explicit format *)
Definition weight_of (p : kpoint) : float := match kp_weight p with Some w => w | None => float_of_Z 1 end.
Definition pline (prec : nat) (p : kpoint) : str :=
  join [sp] (map (fmtf prec) (firstn 3 (kp_point p) ++ [weight_of p])).
Definition three (p : kpoint) : Prop := 3 <= length (kp_point p).

Lemma write_point_inv prec v s : write_point prec v = Ok s ->
  exists p, v = KPt p /\ three p /\ s = pline prec p ++ [nl].
Proof.
  destruct v as [| | | | | |p|]; try discriminate. cbn [write_point]. intros H.
  destruct p as [co w d]. exists (Kpoint co w d). split; auto. unfold three. cbn [kp_point kp_weight] in *.
  destruct co as [|x0 [|x1 [|x2 r]]]; try discriminate. cbn [py_nth nth_error of_option bind] in H.
  cbn [length]. split; [lia|]. inversion H. unfold pline, weight_of. cbn [kp_point kp_weight firstn app map].
  cbn [join]. unfold sp1. asc. reflexivity.
Qed.
Lemma write_point_eq prec p : three p -> write_point prec (KPt p) = Ok (pline prec p ++ [nl]).
Proof.
  destruct p as [co w d]. unfold three. cbn [kp_point]. intros H.
  destruct co as [|x0 [|x1 [|x2 r]]]; cbn in H; try lia.
  cbn [write_point kp_point kp_weight py_nth nth_error of_option bind]. unfold pline, weight_of. cbn [kp_point kp_weight firstn app map join].
  unfold sp1. asc. reflexivity.
Qed.
Lemma write_points_inv prec pts ss : mapM (write_point prec) pts = Ok ss ->
  exists ps, pts = map KPt ps /\ Forall three ps /\ concat ss = unlines (map (pline prec) ps).
Proof.
  revert ss. induction pts as [|v pts IH]; intros ss; cbn [mapM].
  - intros [= <-]. exists []. repeat split; auto.
  - intros H. apply bind_ok in H as [s [H1 H]]. apply bind_ok in H as [ss' [H2 H]]. inversion H; subst.
    destruct (IH ss' H2) as [ps [-> [F E]]]. apply write_point_inv in H1 as [p [-> [T ->]]].
    exists (p :: ps). cbn [map]. repeat split; auto. rewrite unlines_cons. cbn [concat]. rewrite E. asc. reflexivity.
Qed.
Lemma write_points_eq prec ps : Forall three ps -> exists ss, mapM (write_point prec) (map KPt ps) = Ok ss /\
  concat ss = unlines (map (pline prec) ps).
Proof.
  induction 1 as [|p ps T F [ss [E1 E2]]]; [exists []; auto|].
  cbn [map mapM]. rewrite write_point_eq by auto. cbn [bind]. rewrite E1. cbn [bind].
  eexists. split; [reflexivity|]. cbn [concat]. rewrite E2, unlines_cons. asc. reflexivity.
Qed.

Lemma get_float_fixed prec x : get_float (fixed_text prec x) = Ok (reread prec x).
Proof. unfold get_float. rewrite parse_float_fixed. reflexivity. Qed.
Lemma get_int_str z : get_int (str_of_Z z) = Ok z.
Proof. unfold get_int. rewrite parse_int_str. reflexivity. Qed.
Lemma get_floats_fixed prec xs : mapM get_float (map (fixed_text prec) xs) = Ok (map (reread prec) xs).
Proof. rewrite mapM_map. apply mapM_ok. intros; apply get_float_fixed. Qed.
Lemma get_ints_str zs : mapM get_int (map str_of_Z zs) = Ok zs.
Proof. rewrite mapM_map. rewrite (mapM_ok _ (fun z => z)); [rewrite map_id; auto|]. intros; apply get_int_str. Qed.

Lemma pline_split prec p : three p -> split_ws (pline prec p) = map (fixed_text prec) (firstn 3 (kp_point p) ++ [weight_of p]).
Proof. intros _. unfold pline, fmtf. apply split_ws_join_fmtf. Qed.
Lemma pline_read prec p : three p -> read_point (pline prec p) = Ok (KPt (point_image prec p)).
Proof.
  intros H. unfold read_point. rewrite pline_split by auto. unfold point_image.
  destruct p as [co w d]. unfold three in H. cbn [kp_point kp_weight] in *.
  destruct co as [|x0 [|x1 [|x2 r]]]; cbn in H; try lia. cbn [firstn app map py_nth nth_error of_option bind].
  rewrite !get_float_fixed. reflexivity.
Qed.
Lemma nobreak_fmtf_map prec xs : forallb nobreak (map (fmtf prec) xs) = true.
Proof. apply forallb_forall. intros s Hs. apply in_map_iff in Hs as [x [<- _]]. apply nobreak_fmtf. Qed.
Lemma nobreak_fmtd_map w zs : forallb nobreak (map (fmt_d w) zs) = true.
Proof. apply forallb_forall. intros s Hs. apply in_map_iff in Hs as [x [<- _]]. apply nobreak_fmtd. Qed.
Lemma pline_nobreak prec p : nobreak (pline prec p) = true.
Proof. apply nobreak_join; auto. apply nobreak_fmtf_map. Qed.

(** tetrahedra *)
Definition tline (zs : list Z) : str := join [sp] (map fmtd6 zs).
Definition tet_ints (v : kval) : list Z := match v with KList l => map int_value l | _ => [] end.
Definition tet_image (v : kval) : kval := KList (map KInt (tet_ints v)).
Definition tetra_image (v : kval) : kval := match v with KList l => KList (map tet_image l) | _ => v end.

Lemma write_tet_eq v : ok_tet1 v = true -> write_tetra_line v = Ok (tline (tet_ints v) ++ [nl]).
Proof.
  destruct v as [| | | | |l| |]; try discriminate. cbn [ok_tet1]. intros H. apply andb_true_iff in H as [H1 H2].
  apply Nat.eqb_eq in H1. destruct l as [|a [|b [|c [|d [|e [|f l]]]]]]; try discriminate. clear H1.
  cbn [forallb] in H2. rewrite !andb_true_iff in H2. destruct H2 as [A [B [C [D [E _]]]]].
  cbn [write_tetra_line mapM py_nth nth_error of_option bind as_int]. unfold as_int. rewrite A, B, C, D, E. reflexivity.
Qed.
Lemma tet_ints_five v : ok_tet1 v = true -> length (tet_ints v) = 5.
Proof.
  destruct v as [| | | | |l| |]; try discriminate. cbn [ok_tet1 tet_ints]. intros H. apply andb_true_iff in H as [H1 _].
  apply Nat.eqb_eq in H1. rewrite map_length. exact H1.
Qed.
Lemma tline_read v : ok_tet1 v = true -> read_tetra_line (tline (tet_ints v)) = Ok (tet_image v).
Proof.
  intros H. unfold read_tetra_line, tline, fmtd6. rewrite split_ws_join_fmtd. rewrite map_length, tet_ints_five by auto.
  cbn [Nat.eqb negb]. rewrite get_ints_str. reflexivity.
Qed.
Lemma tline_nobreak zs : nobreak (tline zs) = true.
Proof. apply nobreak_join; auto. apply nobreak_fmtd_map. Qed.
Lemma write_tets_eq l : forallb ok_tet1 l = true -> exists ss, mapM write_tetra_line l = Ok ss /\
  concat ss = unlines (map (fun v => tline (tet_ints v)) l).
Proof.
  induction l as [|v l IH]; [exists []; auto|]. cbn [forallb]. intros H. apply andb_true_iff in H as [H1 H2].
  destruct (IH H2) as [ss [E1 E2]]. cbn [mapM map]. rewrite write_tet_eq by auto. cbn [bind]. rewrite E1. cbn [bind].
  eexists. split; [reflexivity|]. cbn [concat]. rewrite E2, unlines_cons. asc. reflexivity.
Qed.

(** the tetrahedron block as lines *)
Definition thead (prec : nat) (n : nat) (vol : float) : str := fmtd6 (Z.of_nat n) ++ [sp] ++ fmtf prec vol.
Definition tblock (prec : nat) (te : kval) (vol : float) : list str :=
  match te with
  | KList l => lit "Tetrahedra" :: thead prec (length l) vol :: map (fun v => tline (tet_ints v)) l
  | _ => []
  end.
Definition vol_image (prec : nat) (te vo : kval) : kval := if is_knone te then KNone else float_image prec vo.
Lemma write_tetra_inv prec es te vo s : holds es "tetra" te -> holds es "tetra_volume" vo -> ok_tetra te = true ->
  write_tetra prec es = Ok s -> exists vol, s = unlines (tblock prec te vol) /\ (te = KNone \/ vo = KFloat vol).
Proof.
  unfold holds, write_tetra, key. intros -> -> T H. cbn [of_option bind] in H.
  destruct te as [| | | | |l| |]; try discriminate.
  - inversion H. exists (float_of_Z 0). auto.
  - cbn [ok_tetra] in T. destruct (write_tets_eq l T) as [ss [E1 E2]].
    destruct vo as [| | | |x| | |]; try discriminate. cbn [as_float bind] in H. rewrite E1 in H. cbn [bind] in H.
    inversion H. exists x. split; auto. cbn [tblock]. rewrite !unlines_cons, E2. unfold thead, sp1. asc. reflexivity.
Qed.
Lemma write_tetra_eq prec es te vo vol : holds es "tetra" te -> holds es "tetra_volume" vo -> ok_tetra te = true ->
  (te = KNone \/ vo = KFloat vol) -> write_tetra prec es = Ok (unlines (tblock prec te vol)).
Proof.
  unfold holds, write_tetra, key. intros -> -> T H. cbn [of_option bind].
  destruct te as [| | | | |l| |]; try discriminate; auto.
  cbn [ok_tetra] in T. destruct (write_tets_eq l T) as [ss [E1 E2]].
  destruct H as [H | ->]; [discriminate|]. cbn [as_float bind]. rewrite E1. cbn [bind].
  cbn [tblock]. rewrite !unlines_cons, E2. unfold thead, sp1. asc. reflexivity.
Qed.

Lemma range_slice {A} (f : str -> res A) pre xs post :
  read_range (pre ++ xs ++ post) (length pre) (length xs) f = mapM f xs.
Proof. apply mapM_seq_slice. Qed.

Lemma read_tetra_block prec pre te vol : ok_tetra te = true ->
  read_tetra (pre ++ tblock prec te vol) (length pre) = Ok (tetra_image te, if is_knone te then KNone else KFloat (reread prec vol)).
Proof.
  intros T. unfold read_tetra. rewrite app_length.
  destruct te as [| | | | |l| |]; try discriminate; cbn [tblock].
  - cbn [length]. replace (length pre <? length pre + 0) with false by (symmetry; apply Nat.ltb_ge; lia). reflexivity.
  - set (h2 := thead prec (length l) vol).
    assert (split_ws h2 = [str_of_Z (Z.of_nat (length l)); fixed_text prec vol]) as S2.
    { unfold h2, thead, fmtd6, fmtf. rewrite split_ws_sp, split_ws_fmtd, split_ws_fmtf. reflexivity. }
    cbn [length]. rewrite map_length.
    replace (length pre <? length pre + S (S (length l))) with true by (symmetry; apply Nat.ltb_lt; lia).
    replace (S (length pre) <? length pre + S (S (length l))) with true by (symmetry; apply Nat.ltb_lt; lia).
    unfold line_at, py_nth. rewrite nth_error_mid. cbn [of_option bind].
    change (head_char (strip (lit "Tetrahedra"))) with (Ok "T"%char : res ascii). cbn [bind].
    change (aeqb (lower1 "T"%char) "t"%char) with true. cbv iota.
    rewrite (nth_error_app2 pre) by lia. replace (S (length pre) - length pre) with 1 by lia. cbn [nth_error of_option bind].
    rewrite S2. cbn [nth_error of_option bind].
    rewrite get_int_str. cbn [bind]. rewrite get_float_fixed. cbn [bind]. rewrite Nat2Z.id.
    pose proof (range_slice read_tetra_line (pre ++ [lit "Tetrahedra"; h2]) (map (fun v => tline (tet_ints v)) l) []) as R.
    rewrite app_length, map_length, app_nil_r in R. cbn [length] in R.
    replace (length pre + 2) with (S (S (length pre))) in R by lia. rewrite <- app_assoc in R. cbn [app] in R.
    rewrite R, mapM_map. rewrite (mapM_ok _ tet_image).
    + reflexivity.
    + intros v Hv. apply tline_read. cbn [ok_tetra] in T. rewrite forallb_forall in T. auto.
Qed.

(** the whole explicit file as lines *)
Definition cline (co : kval) : str := lit "# " ++ shown_comment co.
Definition elines (prec : nat) (co : kval) (ps : list kpoint) (n : Z) (te : kval) (vol : float) : list str :=
  cline co :: fmtd6 n :: lit "Direct" :: map (pline prec) ps ++ tblock prec te vol.
Definition eimage (prec : nat) (co : kval) (ps : list kpoint) (te : kval) (vol : float) : kentries :=
  make_entries (KStr (shown_comment co)) KNone KNone KNone
    (KList (map (fun p => KPt (point_image prec p)) ps)) (tetra_image te)
    (if is_knone te then KNone else KFloat (reread prec vol)) KExplicit KNone (KInt (Z.of_nat (length ps))).

Lemma plain_shown co : comment_ok co -> plain_comment (shown_comment co).
Proof.
  destruct co; cbn; try tauto. intros _. split; [reflexivity|]. split.
  - cbn. intuition discriminate.
  - intros a H. cbn in H. repeat (destruct H as [<-|H]; [reflexivity|]). contradiction.
Qed.
Lemma nohash_plain c : ~ In "#"%char c -> nohash c = c.
Proof.
  induction c as [|a c IH]; auto. cbn. intros H. unfold hash. destruct (aeqb a "#") eqn:E.
  - apply aeqb_eq in E. subst. tauto.
  - cbn. f_equal. apply IH. tauto.
Qed.
Lemma comment_read c : plain_comment c -> strip (nohash (lit "# " ++ c)) = c.
Proof.
  intros [H1 [H2 _]]. change (lit "# ") with [hash; sp]. cbn [app nohash filter].
  change (aeqb hash hash) with true. change (aeqb sp hash) with false. cbn [negb].
  fold (nohash c). rewrite nohash_plain by auto.
  change (sp :: c) with ([sp] ++ c). rewrite strip_blank_app by reflexivity. exact H1.
Qed.

Lemma read_elines prec co ps te vol : comment_ok co -> ps <> [] -> Forall three ps -> ok_tetra te = true ->
  from_list (elines prec co ps (Z.of_nat (length ps)) te vol) = Ok (eimage prec co ps te vol).
Proof.
  intros C Hne F T. apply plain_shown in C.
  unfold from_list, elines.
  cbn [line_at py_nth nth_error of_option bind]. fold (nohash (cline co)).
  assert (strip (nohash (cline co)) = shown_comment co) as -> by (apply comment_read; auto). unfold fmtd6 at 1. rewrite split_ws_fmtd. cbn [py_nth nth_error of_option bind].
  rewrite get_int_str. cbn [bind].
  change (head_char (strip (lit "Direct"))) with (Ok "D"%char : res ascii). cbn [bind].
  change (aeqb (lower1 "D"%char) "l"%char) with false. change (aeqb (lower1 "D"%char) "k"%char) with false.
  change (aeqb (lower1 "D"%char) "c"%char) with false. cbn [orb].
  assert (Z.of_nat (length ps) <=? 0 = false)%Z as ->.
  { apply Z.leb_gt. destruct ps; [congruence|]. cbn [length]. lia. }
  cbn [negb andb]. rewrite Nat2Z.id.
  set (pre := [cline co; fmtd6 (Z.of_nat (length ps)); lit "Direct"]).
  pose proof (range_slice read_point pre (map (pline prec) ps) (tblock prec te vol)) as R.
  rewrite map_length in R. unfold pre in R at 2. cbn [length] in R. unfold pre in R. cbn [app] in R.
  rewrite R, mapM_map. rewrite (mapM_ok _ (fun p => KPt (point_image prec p))).
  2: { intros p Hp. apply pline_read. rewrite Forall_forall in F. auto. }
  cbn [bind].
  pose proof (read_tetra_block prec (pre ++ map (pline prec) ps) te vol T) as RT.
  rewrite app_length, map_length, <- app_assoc in RT. unfold pre in RT. cbn [length app] in RT.
  replace (length ps + 3) with (3 + length ps) by lia. cbn [Nat.add] in *. rewrite RT. reflexivity.
Qed.
Lemma tblock_nobreak prec te vol : forallb nobreak (tblock prec te vol) = true.
Proof.
  destruct te; auto. cbn [tblock forallb]. change (nobreak (lit "Tetrahedra")) with true.
  unfold thead. rewrite !nobreak_app. unfold fmtd6, fmtf. rewrite nobreak_fmtd, nobreak_fmtf.
  change (nobreak [sp]) with true. cbn [andb].
  apply forallb_forall. intros s Hs. apply in_map_iff in Hs as [x [<- _]]. apply tline_nobreak.
Qed.
Lemma comment_nobreak c : plain_comment c -> nobreak (lit "# " ++ c) = true.
Proof.
  intros [_ [_ H]]. rewrite nobreak_app. change (nobreak (lit "# ")) with true. cbn [andb].
  apply forallb_forall. intros a Ha. rewrite H; auto.
Qed.
Lemma elines_nobreak prec co ps n te vol : comment_ok co -> forallb nobreak (elines prec co ps n te vol) = true.
Proof.
  intros C. apply plain_shown in C. unfold elines, cline. cbn [forallb]. rewrite comment_nobreak by auto.
  unfold fmtd6. rewrite nobreak_fmtd. change (nobreak (lit "Direct")) with true. cbn [andb].
  rewrite forallb_app, tblock_nobreak, andb_true_r.
  apply forallb_forall. intros s Hs. apply in_map_iff in Hs as [x [<- _]]. apply pline_nobreak.
Qed.

(** lines without line breaks, not in line mode: the three channels read the same *)
Lemma unlines_channels ls es : forallb nobreak ls = true -> from_list ls = Ok es -> validate es = Ok tt ->
  (forall c, letter_line ls 2 c -> lower1 c <> "l"%char) -> reads_back (unlines ls) es.
Proof.
  intros N F V L. unfold reads_back. rewrite of_string_eq, of_file_eq, of_handler_eq.
  rewrite translate_nochange by (apply unlines_nocr; auto).
  rewrite splitlines_unlines, readlines_unlines by (auto using forallb_nobreak_nonl).
  assert (from_list (map (fun l => l ++ [nl]) ls) = Ok es) as F'.
  { rewrite <- F. symmetry. apply from_list_same; [|left; auto].
    clear. induction ls; cbn [map]; constructor; auto. unfold lsame. rewrite strip_nl. reflexivity. }
  rewrite F, F'. unfold build. cbn [bind]. rewrite V. auto.
Qed.

Lemma validate_make co di gv sh po te vo mo ce nu :
  is_knone di && is_knone po && is_knone gv = false ->
  ok_comment co && ok_points po && ok_centering ce && ok_divisions di && ok_gv gv && ok_shifts sh &&
            ok_mode mo && is_int nu && ok_tetra te && ok_volume vo = true ->
  valid (make_entries co di gv sh po te vo mo ce nu) co po ce di gv sh mo nu te vo.
Proof. intros H T. constructor; auto; reflexivity. Qed.
Lemma validate_make_ok co di gv sh po te vo mo ce nu :
  is_knone di && is_knone po && is_knone gv = false ->
  ok_comment co && ok_points po && ok_centering ce && ok_divisions di && ok_gv gv && ok_shifts sh &&
            ok_mode mo && is_int nu && ok_tetra te && ok_volume vo = true ->
  validate (make_entries co di gv sh po te vo mo ce nu) = Ok tt.
Proof. intros H T. apply validate_spec. do 10 eexists. apply validate_make; eauto. Qed.

Lemma tetra_image_ok te : ok_tetra te = true -> ok_tetra (tetra_image te) = true.
Proof.
  destruct te as [| | | | |l| |]; auto. cbn [ok_tetra tetra_image]. rewrite !forallb_forall. intros H x Hx.
  apply in_map_iff in Hx as [v [<- Hv]]. apply H in Hv. unfold tet_image. cbn [ok_tet1].
  rewrite map_length, tet_ints_five by auto. cbn [Nat.eqb andb]. apply forallb_forall.
  intros y Hy. apply in_map_iff in Hy as [z [<- _]]. reflexivity.
Qed.
Lemma tet_ints_image v : tet_ints (tet_image v) = tet_ints v.
Proof. unfold tet_image. cbn [tet_ints]. rewrite map_map. cbn. apply map_id. Qed.
Lemma tblock_image prec te vol : wf_float vol -> tblock prec (tetra_image te) (reread prec vol) = tblock prec te vol.
Proof.
  intros W. destruct te as [| | | | |l| |]; auto. cbn [tetra_image tblock]. rewrite map_length. unfold thead, fmtf.
  rewrite fmt_f_reread by auto. rewrite map_map.
  rewrite (map_ext (fun v => tline (tet_ints (tet_image v))) (fun v => tline (tet_ints v))); [reflexivity|].
  intros v. rewrite tet_ints_image. reflexivity.
Qed.
Definition point_doubles (p : kpoint) : Prop := Forall wf_float (kp_point p) /\ wf_float (weight_of p).
Lemma one_wf : wf_float (float_of_Z 1).
Proof. unfold float_of_Z. apply round64_wf. lia. Qed.
Lemma zero_wf : wf_float (float_of_Z 0).
Proof. unfold float_of_Z. apply round64_wf. lia. Qed.
Lemma image_three prec p : three p -> three (point_image prec p).
Proof. unfold three, point_image. cbn [kp_point]. rewrite map_length, firstn_length. lia. Qed.
Lemma pline_image prec p : three p -> point_doubles p -> pline prec (point_image prec p) = pline prec p.
Proof.
  intros T [D1 D2]. unfold pline. f_equal. rewrite !map_app. f_equal.
  - unfold point_image. cbn [kp_point]. rewrite firstn_map, firstn_firstn. cbn [Nat.min]. rewrite map_map.
    apply map_ext_in. intros x Hx. unfold fmtf. apply fmt_f_reread. rewrite Forall_forall in D1. apply D1.
    rewrite <- (firstn_skipn 3 (kp_point p)). apply in_or_app. auto.
  - cbn [map]. f_equal. unfold weight_of at 1, point_image. cbn [kp_weight]. unfold fmtf. apply fmt_f_reread. exact D2.
Qed.

(** writing an explicit object *)
Lemma write_explicit_inv prec es txt : get_string prec es = Ok txt -> holds es "mode" KExplicit ->
  exists co ps nz te vo vol, holds es "comment" co /\ holds es "points" (KList (map KPt ps)) /\
    (exists nu, holds es "num_kpoints" nu /\ is_int nu = true /\ int_value nu = nz) /\
    holds es "tetra" te /\ holds es "tetra_volume" vo /\
    ok_comment co = true /\ ok_tetra te = true /\ Forall three ps /\ (te = KNone \/ vo = KFloat vol) /\
    txt = unlines (elines prec co ps nz te vol).
Proof.
  unfold get_string, write. intros H Hm. apply bind_ok in H as [[] [V H]].
  apply validate_spec in V as (co & po & ce & di & gv & sh & mo & nu & te & vo & V).
  destruct V as [A1 A2 A3 A4 A5 A6 A7 A8 A9 A10 S T]. repeat (apply andb_true_iff in T as [T ?]).
  unfold holds, key in *. rewrite A1 in H. cbn [of_option bind] in H.
  assert (exists cs, match co with KNone => Ok (lit "# No comment") | KStr s => Ok (lit "# " ++ s) | _ => Exn TypeError end = Ok cs
    /\ cs = lit "# " ++ shown_comment co) as [cs [Ec ->]].
  { destruct co; try discriminate; eexists; split; reflexivity. }
  rewrite Ec in H. cbn [bind] in H. rewrite Hm in H. cbn [of_option bind KExplicit] in H.
  change (seqb (lit "explicit") (lit "explicit")) with true in H. cbv iota in H.
  apply bind_ok in H as [b [Hb H]]. inversion H. subst txt.
  unfold write_explicit, key in Hb. rewrite A8, A2 in Hb. cbn [of_option bind] in Hb.
  unfold as_int in Hb. rewrite H2 in Hb. cbn [bind] in Hb.
  destruct po as [| | | | |l| |]; try discriminate. cbn [points_of bind] in Hb.
  apply bind_ok in Hb as [ss [Hs Hb]]. apply bind_ok in Hb as [t [Ht Hb]]. inversion Hb. subst b.
  apply write_points_inv in Hs as [ps [-> [F E]]].
  destruct (write_tetra_inv prec es te vo t A9 A10 ltac:(auto) Ht) as [vol [-> Hv]].
  exists co, ps, (int_value nu), te, vo, vol. repeat split; eauto.
  unfold elines, cline. rewrite !unlines_cons, unlines_app, E. asc. reflexivity.
Qed.

Lemma write_eimage prec co ps te vol : comment_ok co -> Forall three ps -> ok_tetra te = true ->
  Forall point_doubles ps -> (te = KNone \/ wf_float vol) ->
  get_string prec (eimage prec co ps te vol) = Ok (unlines (elines prec co ps (Z.of_nat (length ps)) te vol)).
Proof.
  intros C F T D W. unfold get_string, write, eimage.
  rewrite validate_make_ok; [| |].
  - cbn [bind]. unfold key. set (es := make_entries _ _ _ _ _ _ _ _ _ _).
    change (dget (lit "comment") es) with (Some (KStr (shown_comment co))).
    change (dget (lit "mode") es) with (Some KExplicit). cbn [of_option bind KExplicit].
    change (seqb (lit "explicit") (lit "explicit")) with true. cbv iota.
    unfold write_explicit, key.
    change (dget (lit "num_kpoints") es) with (Some (KInt (Z.of_nat (length ps)))).
    change (dget (lit "points") es) with (Some (KList (map (fun p => KPt (point_image prec p)) ps))).
    cbn [of_option bind as_int is_int int_value points_of].
    destruct (write_points_eq prec (map (point_image prec) ps)) as [ss [E1 E2]].
    { apply Forall_forall. intros p Hp. apply in_map_iff in Hp as [q [<- Hq]]. apply image_three. rewrite Forall_forall in F; auto. }
    rewrite map_map in E1. rewrite E1. cbn [bind].
    rewrite (write_tetra_eq prec es (tetra_image te) (if is_knone te then KNone else KFloat (reread prec vol)) (reread prec vol));
      [|reflexivity|reflexivity|apply tetra_image_ok; auto|destruct te; cbn; auto; discriminate].
    cbn [bind]. f_equal. unfold elines, cline. rewrite !unlines_cons, unlines_app, E2.
    assert (tblock prec (tetra_image te) (reread prec vol) = tblock prec te vol) as ->.
    { destruct W as [-> | W]; [reflexivity|]. apply tblock_image; auto. }
    rewrite map_map. rewrite (map_ext_in (fun p => pline prec (point_image prec p)) (pline prec)).
    + asc. reflexivity.
    + intros p Hp. apply pline_image; [rewrite Forall_forall in F; auto|rewrite Forall_forall in D; auto].
  - reflexivity.
  - cbn [ok_comment ok_points ok_centering ok_divisions ok_gv ok_shifts is_int andb].
    change (ok_mode KExplicit) with true. rewrite tetra_image_ok by auto. destruct te; auto.
Qed.
