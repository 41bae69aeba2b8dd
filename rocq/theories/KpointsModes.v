From Coq Require Import Ascii String List NArith ZArith Bool Lia Arith.
From Verif Require Import PyBase PyNum PyStrLemmas PyNumLemmas PyFmtLemmas PyLines UtilsModel KpointsModel KpointsSpec KpointsProofs KpointsRoundTrip.
Import ListNotations.
Local Open Scope list_scope.
Local Open Scope bool_scope.
Local Open Scope nat_scope.

(** ** Three floats / three ints on a line *)
Definition fline (prec : nat) (xs : list float) : str := join [sp] (map (fmtf prec) xs).
Definition dline (prec : nat) (zs : list Z) : str := join [sp] (map (fmt_d (width prec)) zs).
Definition fvals (v : kval) : list float :=
  match v with KList l => map (fun a => match a with KFloat x => x | _ => FNan end) l | _ => [] end.
Definition ivals (v : kval) : list Z := match v with KList l => map int_value l | _ => [] end.
Definition atleast3 (v : kval) : bool := match v with KList (_ :: _ :: _ :: _) => true | _ => false end.

Lemma write_vec_inv prec v s : is_float_list v = true -> write_vec prec v = Ok s ->
  atleast3 v = true /\ s = fline prec (firstn 3 (fvals v)) ++ [nl].
Proof.
  destruct v as [| | | | |l| |]; try discriminate. cbn [is_float_list write_vec]. intros F H.
  destruct l as [|a [|b [|c l]]]; try discriminate;
    cbn [forallb] in F; rewrite ?andb_true_iff in F;
    repeat match goal with K : _ /\ _ |- _ => destruct K end.
  - destruct a; try discriminate.
  - destruct a; try discriminate. destruct b; try discriminate.
  - destruct a; try discriminate. destruct b; try discriminate. destruct c; try discriminate.
    split; auto. cbn in H. inversion H. unfold fline, sp1. reflexivity.
Qed.
Lemma write_vec_eq prec v : is_float_list v = true -> atleast3 v = true ->
  write_vec prec v = Ok (fline prec (firstn 3 (fvals v)) ++ [nl]).
Proof.
  destruct v as [| | | | |l| |]; try discriminate. cbn [is_float_list]. intros F H.
  destruct l as [|a [|b [|c l]]]; try discriminate.
  cbn [forallb] in F. rewrite !andb_true_iff in F. destruct F as [A [B [C _]]].
  destruct a; try discriminate. destruct b; try discriminate. destruct c; try discriminate. reflexivity.
Qed.
Lemma fline_read prec xs : floats_of_line (fline prec xs) = Ok (map (reread prec) xs).
Proof. unfold floats_of_line, fline, fmtf. rewrite split_ws_join_fmtf. apply get_floats_fixed. Qed.
Lemma dline_read prec zs : ints_of_line (dline prec zs) = Ok zs.
Proof. unfold ints_of_line, dline. rewrite split_ws_join_fmtd. apply get_ints_str. Qed.
Lemma fline_nobreak prec xs : nobreak (fline prec xs) = true.
Proof. apply nobreak_join; auto. apply nobreak_fmtf_map. Qed.
Lemma dline_nobreak prec xs : nobreak (dline prec xs) = true.
Proof. apply nobreak_join; auto. apply nobreak_fmtd_map. Qed.
Lemma fline_image prec xs : Forall wf_float xs -> fline prec (map (reread prec) xs) = fline prec xs.
Proof.
  intros H. unfold fline. rewrite map_map. f_equal. apply map_ext_in. intros x Hx. unfold fmtf. apply fmt_f_reread.
  rewrite Forall_forall in H. auto.
Qed.
Lemma kfloats_fvals xs : fvals (kfloats xs) = xs.
Proof. unfold kfloats. cbn. rewrite map_map. apply map_id. Qed.
Lemma kfloats_float_list xs : is_float_list (kfloats xs) = true.
Proof. unfold kfloats. cbn. apply forallb_forall. intros v H. apply in_map_iff in H as [x [<- _]]. reflexivity. Qed.

(** what a reader sees of a list of floats: the first three, re-read *)
Definition vec_image (prec : nat) (v : kval) : kval := kfloats (map (reread prec) (firstn 3 (fvals v))).
Definition zero3 : list float := [float_of_Z 0; float_of_Z 0; float_of_Z 0].
Definition shift_vals (v : kval) : list float := if is_knone v then zero3 else firstn 3 (fvals v).

Lemma fvals_length v : atleast3 v = true -> length (firstn 3 (fvals v)) = 3.
Proof. destruct v as [| | | | |[|a [|b [|c l]]]| |]; try discriminate. reflexivity. Qed.
Lemma firstn3_id {A} (l : list A) : length l = 3 -> firstn 3 l = l.
Proof. intros H. rewrite <- H. apply firstn_all. Qed.
Lemma kfloats_atleast3 xs : length xs = 3 -> atleast3 (kfloats xs) = true.
Proof. destruct xs as [|a [|b [|c l]]]; try discriminate. reflexivity. Qed.

(** ** Mesh (Gamma / Monkhorst-Pack) *)
Definition mlines (prec : nat) (co : kval) (cs : str) (zs : list Z) (xs : list float) : list str :=
  [cline co; lit "0"; cs; dline prec zs; fline prec xs].
Definition mimage (prec : nat) (co : kval) (cs : str) (zs : list Z) (xs : list float) : kentries :=
  make_entries (KStr (shown_comment co)) (kints zs) KNone (kfloats (map (reread prec) xs)) KNone KNone KNone
    KAutomatic (KStr cs) (KInt 0).
Definition is_mesh (cs : str) : Prop := cs = lit "Gamma" \/ cs = lit "Monkhorst-Pack".

Lemma read_mlines prec co cs zs xs : comment_ok co -> is_mesh cs ->
  from_list (mlines prec co cs zs xs) = Ok (mimage prec co cs zs xs).
Proof.
  intros C M. apply plain_shown in C. unfold from_list, mlines.
  cbn [line_at py_nth nth_error of_option bind]. fold (nohash (cline co)).
  assert (strip (nohash (cline co)) = shown_comment co) as -> by (apply comment_read; auto).
  change (split_ws (lit "0")) with [lit "0"]. cbn [py_nth nth_error of_option bind].
  change (get_int (lit "0")) with (Ok 0%Z : res Z). cbn [bind Z.leb Z.compare negb andb].
  assert (exists c, head_char (strip cs) = Ok c /\ (lower1 c = "g"%char /\ cs = lit "Gamma" \/ lower1 c = "m"%char /\ cs = lit "Monkhorst-Pack")) as [c [-> Hc]].
  { destruct M as [-> | ->]; eexists; split; try reflexivity; [left|right]; split; reflexivity. }
  cbn [bind]. unfold read_automatic.
  cbn [line_at py_nth nth_error of_option bind].
  destruct Hc as [[-> ->]|[-> ->]]; cbn [aeqb Ascii.eqb Bool.eqb orb];
    rewrite dline_read; cbn [bind length Nat.eqb]; rewrite fline_read; cbn [bind]; reflexivity.
Qed.
Lemma mlines_nobreak prec co cs zs xs : comment_ok co -> is_mesh cs -> forallb nobreak (mlines prec co cs zs xs) = true.
Proof.
  intros C M. apply plain_shown in C. unfold mlines. cbn [forallb].
  unfold cline. rewrite comment_nobreak, dline_nobreak, fline_nobreak by auto.
  destruct M as [-> | ->]; reflexivity.
Qed.

(** ** Reciprocal (generating vectors) *)
Definition rlines (prec : nat) (co : kval) (v1 v2 v3 xs : list float) : list str :=
  [cline co; lit "0"; lit "Reciprocal"; fline prec v1; fline prec v2; fline prec v3; fline prec xs].
Definition rimage (prec : nat) (co : kval) (v1 v2 v3 xs : list float) : kentries :=
  let im l := kfloats (map (reread prec) l) in
  make_entries (KStr (shown_comment co)) KNone (KList [im v1; im v2; im v3]) (im xs) KNone KNone KNone
    KAutomatic (KStr (lit "Reciprocal")) (KInt 0).
Lemma read_rlines prec co v1 v2 v3 xs : comment_ok co ->
  from_list (rlines prec co v1 v2 v3 xs) = Ok (rimage prec co v1 v2 v3 xs).
Proof.
  intros C. apply plain_shown in C. unfold from_list, rlines.
  cbn [line_at py_nth nth_error of_option bind]. fold (nohash (cline co)).
  assert (strip (nohash (cline co)) = shown_comment co) as -> by (apply comment_read; auto).
  change (split_ws (lit "0")) with [lit "0"]. cbn [py_nth nth_error of_option bind].
  change (get_int (lit "0")) with (Ok 0%Z : res Z). cbn [bind Z.leb Z.compare negb andb].
  change (head_char (strip (lit "Reciprocal"))) with (Ok "R"%char : res ascii). cbn [bind].
  unfold read_automatic. change (lower1 "R"%char) with "r"%char. cbn [aeqb Ascii.eqb Bool.eqb orb].
  cbn [mapM line_at py_nth nth_error of_option bind]. rewrite !fline_read. cbn [bind].
  reflexivity.
Qed.
Lemma rlines_nobreak prec co v1 v2 v3 xs : comment_ok co -> forallb nobreak (rlines prec co v1 v2 v3 xs) = true.
Proof.
  intros C. apply plain_shown in C. unfold rlines. cbn [forallb].
  unfold cline. rewrite comment_nobreak, !fline_nobreak by auto. reflexivity.
Qed.

(** ** Writing automatic modes *)
Lemma write_head es co : holds es "comment" co -> ok_comment co = true ->
  (let* c := key es "comment" in match c with KNone => Ok (lit "# No comment") | KStr s => Ok (lit "# " ++ s) | _ => Exn TypeError end) = Ok (cline co).
Proof. unfold holds, key. intros -> H. destruct co; try discriminate; reflexivity. Qed.

Lemma write_ints_inv prec l s : forallb is_int l = true ->
  (let* l3 := mapM (fun i => let* e := py_nth l i in as_int e) [0; 1; 2] in
   Ok (join sp1 (map (fmt_d (width prec)) l3) ++ [nl])) = Ok s ->
  atleast3 (KList l) = true /\ s = dline prec (firstn 3 (ivals (KList l))) ++ [nl].
Proof.
  intros F H. destruct l as [|a [|b [|c l]]]; cbn [forallb] in F; rewrite ?andb_true_iff in F;
    repeat match goal with K : _ /\ _ |- _ => destruct K end; cbn [mapM py_nth nth_error of_option bind] in H; try discriminate;
    unfold as_int in H; repeat match goal with K : is_int _ = true |- _ => rewrite K in H; clear K end; cbn [bind] in H; try discriminate.
  inversion H. split; auto.
Qed.
Lemma write_ints_eq prec l : forallb is_int l = true -> atleast3 (KList l) = true ->
  (let* l3 := mapM (fun i => let* e := py_nth l i in as_int e) [0; 1; 2] in
   Ok (join sp1 (map (fmt_d (width prec)) l3) ++ [nl])) = Ok (dline prec (firstn 3 (ivals (KList l))) ++ [nl]).
Proof.
  intros F H. destruct l as [|a [|b [|c l]]]; try discriminate. cbn [forallb] in F; rewrite !andb_true_iff in F.
  destruct F as [A [B [C _]]]. cbn [mapM py_nth nth_error of_option bind]. unfold as_int. rewrite A, B, C. reflexivity.
Qed.

Definition di_lines (prec : nat) (di : kval) : list str := if is_knone di then [] else [dline prec (firstn 3 (ivals di))].
Definition gv_lines (prec : nat) (gv : kval) : list str :=
  match gv with KList l => map (fun v => fline prec (firstn 3 (fvals v))) l | _ => [] end.
Definition alines (prec : nat) (co : kval) (cs : str) (di gv sh : kval) : list str :=
  cline co :: lit "0" :: cs :: di_lines prec di ++ gv_lines prec gv ++ [fline prec (shift_vals sh)].

Lemma alines_text prec co cs di gv sh : unlines (alines prec co cs di gv sh) =
  cline co ++ [nl] ++ lit "0" ++ [nl] ++ cs ++ [nl] ++ unlines (di_lines prec di) ++ unlines (gv_lines prec gv) ++
  unlines [fline prec (shift_vals sh)].
Proof.
  unfold alines. rewrite (unlines_cons (cline co)), (unlines_cons (lit "0")), (unlines_cons cs), !unlines_app. reflexivity.
Qed.
Definition writable_gv (gv : kval) : bool := match gv with KNone => true | KList l => forallb atleast3 l | _ => false end.
Definition writable3 (v : kval) : bool := is_knone v || atleast3 v.

Lemma write_gvs_inv prec l ss : forallb is_float_list l = true -> mapM (write_vec prec) l = Ok ss ->
  forallb atleast3 l = true /\ concat ss = unlines (map (fun v => fline prec (firstn 3 (fvals v))) l).
Proof.
  revert ss. induction l as [|v l IH]; intros ss; cbn [mapM forallb].
  - intros _ [= <-]. auto.
  - intros F H. apply andb_true_iff in F as [F1 F2]. apply bind_ok in H as [s [H1 H]]. apply bind_ok in H as [ss' [H2 H]].
    inversion H; subst. destruct (IH ss' F2 H2) as [I1 I2]. apply write_vec_inv in H1 as [W ->]; auto.
    rewrite W, I1. split; auto. cbn [map concat]. rewrite unlines_cons, I2. asc. reflexivity.
Qed.
Lemma write_gvs_eq prec l : forallb is_float_list l = true -> forallb atleast3 l = true ->
  exists ss, mapM (write_vec prec) l = Ok ss /\ concat ss = unlines (map (fun v => fline prec (firstn 3 (fvals v))) l).
Proof.
  induction l as [|v l IH]; [exists []; auto|]. cbn [mapM forallb map]. intros F W.
  apply andb_true_iff in F as [F1 F2]. apply andb_true_iff in W as [W1 W2]. destruct (IH F2 W2) as [ss [E1 E2]].
  rewrite write_vec_eq by auto. cbn [bind]. rewrite E1. cbn [bind]. eexists. split; [reflexivity|].
  cbn [concat]. rewrite unlines_cons, E2. asc. reflexivity.
Qed.

Lemma ok_shifts_list v : ok_shifts v = true -> is_knone v = false -> is_float_list v = true.
Proof. destruct v; cbn; try discriminate; auto. Qed.

Lemma write_automatic_inv prec es txt : get_string prec es = Ok txt -> holds es "mode" KAutomatic ->
  exists co cs di gv sh, holds es "comment" co /\ holds es "centering" (KStr cs) /\ holds es "divisions" di /\
    holds es "generating_vectors" gv /\ holds es "shifts" sh /\ ok_comment co = true /\ smem cs centerings = true /\
    ok_divisions di = true /\ ok_gv gv = true /\ ok_shifts sh = true /\
    writable3 di = true /\ writable_gv gv = true /\ writable3 sh = true /\
    txt = unlines (alines prec co cs di gv sh).
Proof.
  unfold get_string, write. intros H Hm. apply bind_ok in H as [[] [V H]].
  apply validate_spec in V as (co & po & ce & di & gv & sh & mo & nu & te & vo & V).
  destruct V as [A1 A2 A3 A4 A5 A6 A7 A8 A9 A10 S T]. repeat (apply andb_true_iff in T as [T ?]).
  assert (holds es "mode" KAutomatic) as Hm' by auto.
  unfold holds in *. unfold key in H at 1. rewrite A1 in H. cbn [of_option bind] in H.
  assert ((match co with KNone => Ok (lit "# No comment") | KStr s => Ok (lit "# " ++ s) | _ => Exn TypeError end) = Ok (cline co)) as E.
  { destruct co; try discriminate; reflexivity. }
  rewrite E in H. cbn [bind] in H. unfold key in H. rewrite Hm in H. cbn [of_option bind KAutomatic] in H.
  change (seqb (lit "automatic") (lit "explicit")) with false in H.
  change (seqb (lit "automatic") (lit "automatic")) with true in H. cbv iota in H.
  apply bind_ok in H as [b [Hb H]]. inversion H. subst txt.
  unfold write_automatic, key in Hb. rewrite A3, A4, A5, A6 in Hb. cbn [of_option bind] in Hb.
  destruct ce as [|cs| | | | | |]; try discriminate. cbn [bind] in Hb.
  apply bind_ok in Hb as [ds [Hd Hb]]. apply bind_ok in Hb as [gs [Hg Hb]]. apply bind_ok in Hb as [ss [Hs Hb]].
  inversion Hb. subst b. clear Hb H.
  assert (writable3 di = true /\ ds = unlines (di_lines prec di)) as [D1 ->].
  { destruct di as [| | | | |l| |]; try discriminate.
    - inversion Hd. auto.
    - apply write_ints_inv in Hd as [D1 ->]; auto. split; [exact D1|]. unfold di_lines. cbn [is_knone]. rewrite unlines_one. reflexivity. }
  assert (writable_gv gv = true /\ gs = unlines (gv_lines prec gv)) as [G1 ->].
  { destruct gv as [| | | | |l| |]; try discriminate.
    - inversion Hg. auto.
    - apply bind_ok in Hg as [x [Hg1 Hg2]]. inversion Hg2. subst. apply write_gvs_inv in Hg1 as [G1 G2]; auto. }
  assert (writable3 sh = true /\ ss = unlines [fline prec (shift_vals sh)]) as [S1 ->].
  { destruct sh as [| | | | |l| |]; try discriminate.
    - apply write_vec_inv in Hs as [_ ->]; [|reflexivity]. split; auto. rewrite unlines_one. reflexivity.
    - apply write_vec_inv in Hs as [S1 ->]; auto. split; [exact S1|]. rewrite unlines_one. reflexivity. }
  exists co, cs, di, gv, sh. repeat split; auto.
  rewrite alines_text. asc. reflexivity.
Qed.
Lemma write_automatic_eq prec es co cs di gv sh : validate es = Ok tt -> holds es "mode" KAutomatic ->
  holds es "comment" co -> holds es "centering" (KStr cs) -> holds es "divisions" di ->
  holds es "generating_vectors" gv -> holds es "shifts" sh -> ok_comment co = true ->
  ok_divisions di = true -> ok_gv gv = true -> ok_shifts sh = true ->
  writable3 di = true -> writable_gv gv = true -> writable3 sh = true ->
  get_string prec es = Ok (unlines (alines prec co cs di gv sh)).
Proof.
  intros V M A1 A3 A4 A5 A6 T1 T2 T3 T4 W1 W2 W3. unfold get_string, write. rewrite V. cbn [bind].
  unfold holds in *. unfold key at 1. rewrite A1. cbn [of_option bind].
  assert ((match co with KNone => Ok (lit "# No comment") | KStr s => Ok (lit "# " ++ s) | _ => Exn TypeError end) = Ok (cline co)) as E.
  { destruct co; try discriminate; reflexivity. }
  rewrite E. cbn [bind]. unfold key. rewrite M. cbn [of_option bind KAutomatic].
  change (seqb (lit "automatic") (lit "explicit")) with false.
  change (seqb (lit "automatic") (lit "automatic")) with true. cbv iota.
  unfold write_automatic, key. rewrite A3, A4, A5, A6. cbn [of_option bind].
  assert ((match di with
             | KNone => Ok []
             | KList l => let* l3 := mapM (fun i => let* e := py_nth l i in as_int e) [0; 1; 2] in
                          Ok (join sp1 (map (fmt_d (width prec)) l3) ++ [nl])
             | _ => Exn TypeError end) = Ok (unlines (di_lines prec di))) as ->.
  { destruct di as [| | | | |l| |]; try discriminate; auto. rewrite write_ints_eq by auto.
    unfold di_lines. cbn [is_knone]. rewrite unlines_one. reflexivity. }
  cbn [bind].
  assert ((match gv with
             | KNone => Ok []
             | KList l => let* ls := mapM (write_vec prec) l in Ok (concat ls)
             | _ => Exn TypeError
             end) = Ok (unlines (gv_lines prec gv))) as ->.
  { destruct gv as [| | | | |l| |]; try discriminate; auto. destruct (write_gvs_eq prec l) as [ss [-> E2]]; auto.
    cbn [bind]. rewrite E2. reflexivity. }
  cbn [bind].
  assert ((match sh with
             | KNone => write_vec prec (kfloats [float_of_Z 0; float_of_Z 0; float_of_Z 0])
             | _ => write_vec prec sh end) = Ok (unlines [fline prec (shift_vals sh)])) as ->.
  { destruct sh as [| | | | |l| |]; try discriminate; rewrite write_vec_eq by auto; rewrite unlines_one; reflexivity. }
  cbn [bind]. rewrite alines_text. asc. reflexivity.
Qed.
