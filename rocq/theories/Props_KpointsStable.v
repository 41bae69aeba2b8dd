(** Property C95, KPOINTS part: writing again what was read from a written mesh gives the
    same text.  (Explicit lists: C17_explicit_stable; line mode: C19_line_stable.) *)
From Coq Require Import Ascii String List NArith ZArith Bool Lia Arith.
From Verif Require Import PyBase PyNum PyStrLemmas PyNumLemmas PyFmtLemmas PyLines UtilsModel KpointsModel KpointsSpec KpointsRoundTrip KpointsModes KpointsEdits Props_Kpoints.
Import ListNotations.
Local Open Scope list_scope.
Local Open Scope bool_scope.
Local Open Scope nat_scope.

Lemma fline_reread prec xs : Forall wf_float xs -> fline prec (map (reread prec) xs) = fline prec xs.
Proof.
  intros F. unfold fline. f_equal. rewrite map_map. apply map_ext_in. intros x Hx. unfold fmtf. apply fmt_f_reread. rewrite Forall_forall in F. auto.
Qed.
Lemma fvals_reread prec xs : fvals (kfloats (map (reread prec) xs)) = map (reread prec) xs.
Proof. cbn. rewrite map_map. apply map_id. Qed.
Lemma doubles_fvals l : forallb is_float l = true -> doubles (KList l) -> Forall wf_float (fvals (KList l)).
Proof.
  cbn [doubles fvals]. induction l as [|v l IH]; intros O D; [constructor|]. cbn [forallb] in O. apply andb_true_iff in O as [O1 O2]. destruct D as [D1 D2].
  cbn [map]. constructor; [destruct v; try discriminate; exact D1|apply IH; auto].
Qed.
Lemma doubles_shifts sh : ok_shifts sh = true -> doubles sh -> Forall wf_float (shift_vals sh).
Proof.
  intros O D. unfold shift_vals. destruct sh as [| | | | |l| |]; try discriminate.
  - cbn [is_knone]. repeat constructor.
  - cbn [is_knone]. pose proof (doubles_fvals l O D) as F. apply Forall_forall. intros x Hx. rewrite Forall_forall in F. apply F.
    rewrite <- (firstn_skipn 3 (fvals (KList l))). apply in_or_app. left. exact Hx.
Qed.
Lemma doubles_row v : doubles (KList (map KFloat v)) -> Forall wf_float v.
Proof. cbn [doubles]. induction v as [|x v IH]; intros D; constructor; [apply D|apply IH; apply D]. Qed.

(** A Gamma or Monkhorst-Pack mesh. *)
Theorem C95_kpoints_mesh : forall prec es txt ch es' co cs zs sh,
  get_string prec es = Ok txt -> holds es "mode" KAutomatic -> holds es "comment" co -> comment_ok co ->
  holds es "centering" (KStr cs) -> cs = lit "Gamma" \/ cs = lit "Monkhorst-Pack" ->
  holds es "divisions" (KList (map KInt zs)) -> length zs = 3 ->
  holds es "generating_vectors" KNone -> holds es "shifts" sh -> doubles sh ->
  kread ch txt = Ok es' -> get_string prec es' = Ok txt.
Proof.
  intros prec es txt ch es' co cs zs sh W M C OC Ce Hcs D LZ G S DS R.
  destruct (write_automatic_inv prec es txt W M) as (co2 & cs2 & di & gv & sh2 & C2 & Ce2 & D2 & G2 & S2 & _ & _ & _ & _ & OS & WD & WG & WS & ->).
  unfold holds in *. rewrite C in C2. inversion C2. subst co2. rewrite Ce in Ce2. inversion Ce2. subst cs2.
  rewrite D in D2. inversion D2. subst di. rewrite G in G2. inversion G2. subst gv. rewrite S in S2. inversion S2. subst sh2.
  assert (alines prec co cs (KList (map KInt zs)) KNone sh = mlines prec co cs zs (shift_vals sh)) as AE.
  { unfold alines, mlines, di_lines. cbn [is_knone gv_lines app]. do 3 f_equal. unfold ivals. rewrite map_map. cbn [int_value]. rewrite map_id.
    rewrite firstn3_id by auto. reflexivity. }
  rewrite AE in *. set (xs := shift_vals sh) in *.
  assert (validate (mimage prec co cs zs xs) = Ok tt) as V.
  { apply validate_make_ok; [reflexivity|]. cbn [ok_comment ok_points ok_gv is_int ok_tetra ok_volume andb]. change (ok_mode KAutomatic) with true.
      rewrite !andb_true_r. cbn [ok_centering].
      assert (smem cs centerings = true) as -> by (destruct Hcs as [-> | ->]; reflexivity). cbn [andb ok_divisions kints ok_shifts kfloats].
      apply andb_true_iff. split; apply forallb_forall; intros v Hv; apply in_map_iff in Hv as [z [<- _]]; reflexivity. }
  assert (reads_back (unlines (mlines prec co cs zs xs)) (mimage prec co cs zs xs)) as RB.
  { apply unlines_channels.
    - apply mlines_nobreak; auto.
    - apply read_mlines; auto.
    - exact V.
    - intros c (l & r & K1 & K2). cbn in K1. inversion K1; subst. destruct Hcs as [-> | ->]; cbn in K2; inversion K2; discriminate. }
  assert (es' = mimage prec co cs zs xs) as -> by (destruct RB as [R1 [R2 R3]]; destruct ch; cbn [kread] in R; congruence).
  assert (length xs = 3) as LX.
  { unfold xs, shift_vals. destruct sh as [| | | | |l| |]; try discriminate; [reflexivity|]. cbn [is_knone]. apply (fvals_length (KList l)). exact WS. }
  rewrite (write_automatic_eq prec (mimage prec co cs zs xs) (KStr (shown_comment co)) cs (kints zs) KNone (kfloats (map (reread prec) xs))); auto; try reflexivity.
  - f_equal. f_equal. unfold alines, mlines, di_lines, kints. cbn [is_knone gv_lines app]. unfold cline. cbn [shown_comment]. f_equal. f_equal. f_equal. f_equal.
    + unfold ivals. rewrite map_map. cbn [int_value]. rewrite map_id. rewrite firstn3_id by auto. reflexivity.
    + f_equal. unfold shift_vals at 1. change (is_knone (kfloats (map (reread prec) xs))) with false. cbv iota. rewrite fvals_reread, firstn3_id by (rewrite map_length; auto).
      apply fline_reread. apply doubles_shifts; auto.
  - cbn [ok_divisions kints]. apply forallb_forall. intros v Hv. apply in_map_iff in Hv as [z [<- _]]. reflexivity.
  - cbn [ok_shifts kfloats]. apply forallb_forall. intros v Hv. apply in_map_iff in Hv as [z [<- _]]. reflexivity.
  - destruct xs as [|x1 [|x2 [|x3 xs0]]]; try discriminate LX. reflexivity.
Qed.
Print Assumptions C95_kpoints_mesh.

(** A generating-vector mesh. *)
Theorem C95_kpoints_reciprocal : forall prec es txt ch es' co v1 v2 v3 xs,
  get_string prec es = Ok txt -> holds es "mode" KAutomatic -> holds es "comment" co -> comment_ok co ->
  holds es "centering" (KStr (lit "Reciprocal")) -> holds es "divisions" KNone ->
  holds es "generating_vectors" (KList [KList (map KFloat v1); KList (map KFloat v2); KList (map KFloat v3)]) ->
  length v1 = 3 -> length v2 = 3 -> length v3 = 3 ->
  holds es "shifts" (KList (map KFloat xs)) -> length xs = 3 ->
  Forall wf_float v1 -> Forall wf_float v2 -> Forall wf_float v3 -> Forall wf_float xs ->
  kread ch txt = Ok es' -> get_string prec es' = Ok txt.
Proof.
  intros prec es txt ch es' co v1 v2 v3 xs W M C OC Ce D G L1 L2 L3 S L4 F1 F2 F3 F4 R.
  destruct (write_automatic_inv prec es txt W M) as (co2 & cs2 & di & gv & sh2 & C2 & Ce2 & D2 & G2 & S2 & _ & _ & _ & _ & OS & WD & WG & WS & ->).
  unfold holds in *. rewrite C in C2. inversion C2. subst co2. assert (cs2 = lit "Reciprocal") as -> by congruence.
  rewrite D in D2. inversion D2. subst di. rewrite G in G2. inversion G2. subst gv. rewrite S in S2. inversion S2. subst sh2.
  assert (alines prec co (lit "Reciprocal") KNone (KList [KList (map KFloat v1); KList (map KFloat v2); KList (map KFloat v3)]) (KList (map KFloat xs))
    = rlines prec co v1 v2 v3 xs) as AE.
  { unfold alines, rlines, di_lines, shift_vals. cbn [is_knone gv_lines map app]. rewrite !fvals_map, !firstn3_id by auto. reflexivity. }
  rewrite AE in *.
  assert (validate (rimage prec co v1 v2 v3 xs) = Ok tt) as V.
  { apply validate_make_ok; [reflexivity|]. cbn [ok_comment ok_points ok_divisions is_int ok_tetra ok_volume andb]. change (ok_mode KAutomatic) with true.
      change (ok_centering (KStr (lit "Reciprocal"))) with true. rewrite !andb_true_r. cbn [andb ok_gv forallb].
      rewrite !kfloats_float_list. apply kfloats_float_list. }
  assert (reads_back (unlines (rlines prec co v1 v2 v3 xs)) (rimage prec co v1 v2 v3 xs)) as RB.
  { apply unlines_channels.
    - apply rlines_nobreak; auto.
    - apply read_rlines; auto.
    - exact V.
    - intros c (l & r & K1 & K2). cbn in K1. inversion K1; subst. cbn in K2; inversion K2; discriminate. }
  assert (es' = rimage prec co v1 v2 v3 xs) as -> by (destruct RB as [R1 [R2 R3]]; destruct ch; cbn [kread] in R; congruence).
  rewrite (write_automatic_eq prec (rimage prec co v1 v2 v3 xs) (KStr (shown_comment co)) (lit "Reciprocal") KNone
    (KList [kfloats (map (reread prec) v1); kfloats (map (reread prec) v2); kfloats (map (reread prec) v3)]) (kfloats (map (reread prec) xs))); auto; try reflexivity.
  - f_equal. f_equal. unfold alines, rlines, di_lines. cbn [is_knone gv_lines app map]. unfold cline. cbn [shown_comment]. unfold shift_vals.
    change (is_knone (kfloats (map (reread prec) xs))) with false. cbv iota.
    rewrite !fvals_reread, !firstn3_id by (rewrite map_length; auto). rewrite !fline_reread by auto. reflexivity.
  - cbn [ok_gv forallb]. rewrite !kfloats_float_list. reflexivity.
  - cbn [ok_shifts kfloats]. apply forallb_forall. intros v Hv. apply in_map_iff in Hv as [z [<- _]]. reflexivity.
  - destruct v1 as [|? [|? [|? ?]]], v2 as [|? [|? [|? ?]]], v3 as [|? [|? [|? ?]]]; try discriminate. reflexivity.
  - destruct xs as [|x1 [|x2 [|x3 xs0]]]; try discriminate L4. reflexivity.
Qed.
Print Assumptions C95_kpoints_reciprocal.
(** a mesh without shifts: zeros are written, read and written again *)
Definition bare_mesh : kentries := make_entries (KStr (lit "m")) (kints [4; 4; 2]%Z) KNone KNone KNone KNone KNone KAutomatic (KStr (lit "Gamma")) (KInt 0).
Example C95_kpoints_case : exists t1 t2, get_string 3 bare_mesh = Ok t1 /\ holds bare_mesh "shifts" KNone /\ holds bare_mesh "divisions" (KList (map KInt [4; 4; 2]%Z)) /\
  (exists e, kpoints_of_file t1 = Ok e /\ get_string 3 e = Ok t1) /\ doubles KNone /\
  get_string 1 recip_obj = Ok t2 /\ (exists e, kpoints_of_file t2 = Ok e /\ get_string 1 e = Ok t2).
Proof.
  eexists _, _. split; [vm_compute; reflexivity|]. split; [reflexivity|]. split; [reflexivity|]. split; [eexists; split; vm_compute; reflexivity|].
  split; [exact I|]. split; [vm_compute; reflexivity|]. eexists; split; vm_compute; reflexivity.
Qed.
