From Coq Require Import Ascii String List NArith ZArith Bool Lia Arith.
From Verif Require Import PyBase PyNum PyStrLemmas PyNumLemmas PyFmtLemmas PyLines UtilsModel KpointsModel KpointsSpec KpointsProofs KpointsRoundTrip KpointsModes KpointsLine KpointsEdits KpointsCodes.
Import ListNotations.
Local Open Scope list_scope.
Local Open Scope bool_scope.
Local Open Scope nat_scope.

(** ** Histories: the ten entries never disappear and keep their types, except
    that the comment can become anything and the count None *)
Record kept (es : kentries) : Prop := Kept {
  k_co : exists v, holds es "comment" v;
  k_po : exists v, holds es "points" v /\ ok_points v = true;
  k_ce : exists v, holds es "centering" v /\ ok_centering v = true;
  k_di : exists v, holds es "divisions" v /\ ok_divisions v = true;
  k_gv : exists v, holds es "generating_vectors" v /\ ok_gv v = true;
  k_sh : exists v, holds es "shifts" v /\ ok_shifts v = true;
  k_mo : exists v, holds es "mode" v /\ ok_mode v = true;
  k_nu : exists v, holds es "num_kpoints" v /\ (is_int v = true \/ v = KNone);
  k_te : exists v, holds es "tetra" v /\ ok_tetra v = true;
  k_vo : exists v, holds es "tetra_volume" v /\ ok_volume v = true }.

Lemma valid_kept es : validate es = Ok tt -> kept es.
Proof.
  intros V. apply validate_spec in V as (co & po & ce & di & gv & sh & mo & nu & te & vo & V).
  destruct V as [A1 A2 A3 A4 A5 A6 A7 A8 A9 A10 S T]. repeat (apply andb_true_iff in T as [T ?]).
  constructor; eauto 6.
Qed.

Definition ten_keys : list str :=
  map lit ["comment"; "points"; "centering"; "divisions"; "generating_vectors"; "shifts"; "mode"; "num_kpoints"; "tetra"; "tetra_volume"]%string.

Lemma keep_field es e v k (P : kval -> Prop) : (exists w, holds es k w /\ P w) -> (e = lit k -> P v) ->
  exists w, holds (dset e v es) k w /\ P w.
Proof.
  intros [w [H1 H2]] Hv. destruct (seqb e (lit k)) eqn:E.
  - apply seqb_eq in E. subst. exists v. split; [apply dget_dset_same|auto].
  - apply seqb_neq in E. exists w. split; auto. unfold holds. rewrite dget_dset_other; auto.
Qed.
Lemma kept_set es e v : kept es ->
  (e = lit "points" -> ok_points v = true) -> (e = lit "centering" -> ok_centering v = true) ->
  (e = lit "divisions" -> ok_divisions v = true) -> (e = lit "generating_vectors" -> ok_gv v = true) ->
  (e = lit "shifts" -> ok_shifts v = true) -> (e = lit "mode" -> ok_mode v = true) ->
  (e = lit "num_kpoints" -> is_int v = true \/ v = KNone) ->
  (e = lit "tetra" -> ok_tetra v = true) -> (e = lit "tetra_volume" -> ok_volume v = true) ->
  kept (dset e v es).
Proof.
  intros [] **. constructor; try (apply keep_field; assumption).
  destruct (keep_field es e v "comment" (fun _ => True)) as [w [H8 _]]; eauto.
  destruct k_co0 as [w H8]. eauto.
Qed.

Lemma kcheck_points es v : check_points es v = Ok tt -> ok_points v = true.
Proof. unfold check_points. destruct v; try reflexivity; discriminate. Qed.
Lemma kcheck_centering es v : check_centering es v = Ok tt -> ok_centering v = true.
Proof.
  unfold check_centering. destruct v; try reflexivity; try discriminate. cbn [arg_or_key is_knone bind ok_centering ok_divisions ok_shifts ok_mode]. destruct (smem s centerings); auto; discriminate.
Qed.
Lemma kcheck_divisions es v : check_divisions es v = Ok tt -> ok_divisions v = true.
Proof.
  unfold check_divisions. destruct v; try reflexivity; try discriminate. cbn [arg_or_key is_knone bind ok_centering ok_divisions ok_shifts ok_mode]. destruct (forallb is_int l); auto; discriminate.
Qed.
Lemma kcheck_gv es v : check_generating_vectors es v = Ok tt -> ok_gv v = true.
Proof.
  unfold check_generating_vectors. destruct v; try reflexivity; try discriminate. cbn [arg_or_key is_knone bind ok_gv].
  destruct (forallb is_float_list l); auto; discriminate.
Qed.
Lemma kcheck_shifts es v : check_shifts es v = Ok tt -> ok_shifts v = true.
Proof.
  unfold check_shifts. destruct v; try reflexivity; try discriminate. cbn [arg_or_key is_knone bind ok_centering ok_divisions ok_shifts ok_mode]. destruct (forallb is_float l); auto; discriminate.
Qed.
Lemma kcheck_mode es v : check_mode es v = Ok tt -> ok_mode v = true.
Proof.
  unfold check_mode. destruct v; try reflexivity; try discriminate. cbn [arg_or_key is_knone bind ok_centering ok_divisions ok_shifts ok_mode]. destruct (smem s modes); auto; discriminate.
Qed.
Lemma kcheck_num es v : check_num_kpoints es v = Ok tt -> is_int v = true \/ v = KNone.
Proof. unfold check_num_kpoints. destruct v; cbn; auto; discriminate. Qed.
Lemma kcheck_tetra es v : check_tetra es v = Ok tt -> ok_tetra v = true.
Proof.
  unfold check_tetra. destruct v; try reflexivity; try discriminate. cbn [arg_or_key is_knone bind ok_tetra]. intros H.
  apply bind_ok in H as [r [H _]]. apply tetra_elements. eauto.
Qed.
Lemma kcheck_volume es v : check_tetra_volume es v = Ok tt -> ok_volume v = true.
Proof. unfold check_tetra_volume. destruct v; cbn; auto; discriminate. Qed.

Lemma when_ok (b : bool) (r : res unit) : (if b then r else Ok tt) = Ok tt -> b = true -> r = Ok tt.
Proof. intros H ->. exact H. Qed.
Lemma kept_modify es e v n es' : kept es -> modify es e v n = Ok es' -> kept es'.
Proof.
  intros K. unfold modify. intros H. apply bind_ok in H as [[] [_ H]]. apply bind_ok in H as [[] [_ H]].
  destruct n as [n|].
  - apply bind_ok in H as [[] [_ H]]. apply bind_ok in H as [[] [_ H]]. apply bind_ok in H as [p [_ H]].
    destruct p; try discriminate. destruct (list_index l (int_value n)); [|discriminate]. inversion H.
    apply kept_set; auto; intros; reflexivity || discriminate.
  - repeat (apply bind_ok in H as [[] [?H H]]). inversion H. clear H. subst es'.
    assert (forall k, e = lit k -> seqb e (lit k) = true) as S by (intros k ->; apply seqb_refl).
    apply kept_set; auto; intros E; pose proof (S _ E) as E'.
    + apply (kcheck_points es). pose proof (when_ok _ _ H0 E') as W. apply bind_ok in W as [[] [W _]]. exact W.
    + eapply kcheck_centering, when_ok; eauto.
    + eapply kcheck_divisions, when_ok; eauto.
    + eapply kcheck_gv, when_ok; eauto.
    + eapply kcheck_shifts, when_ok; eauto.
    + eapply kcheck_mode, when_ok; eauto.
    + eapply kcheck_num, when_ok; eauto.
    + eapply kcheck_tetra, when_ok; eauto.
    + eapply kcheck_volume, when_ok; eauto.
Qed.
Lemma kept_delete es n es' : kept es -> delete_point es n = Ok es' -> kept es'.
Proof.
  intros K. unfold delete_point. intros H. apply bind_ok in H as [[] [_ H]]. apply bind_ok in H as [[] [_ H]].
  apply bind_ok in H as [p [_ H]]. destruct p; try discriminate.
  destruct (list_index l (int_value n)); [|discriminate]. inversion H. apply kept_set; auto; intros; reflexivity || discriminate.
Qed.
Lemma kept_run ops es : kept es -> kept (krun es ops).
Proof.
  revert es. induction ops as [|o ops IH]; intros es K; auto. cbn. apply IH. destruct o; cbn.
  - destruct (modify es entry v n) eqn:E; auto. eapply kept_modify; eauto.
  - destruct (delete_point es n) eqn:E; auto. eapply kept_delete; eauto.
Qed.
Lemma kept_validate es : kept es -> validate es = Ok tt \/ validate es = Exn (SysExit 206) \/ validate es = Exn (SysExit 13).
Proof.
  intros [[co A1] [po [A2 T2]] [ce [A3 T3]] [di [A4 T4]] [gv [A5 T5]] [sh [A6 T6]] [mo [A7 T7]] [nu [A8 T8]] [te [A9 T9]] [vo [A10 T10]]].
  destruct (is_knone di && is_knone po && is_knone gv) eqn:N.
  { right; left. rewrite !andb_true_iff in N. destruct N as [[N1 N2] N3]. unfold validate, check_dict, key, holds in *.
    rewrite A4, A2, A5. cbn [of_option bind]. rewrite N1, N2, N3. reflexivity. }
  destruct (ok_comment co) eqn:T1.
  - destruct (is_int nu) eqn:I.
    + left. apply validate_spec. exists co, po, ce, di, gv, sh, mo, nu, te, vo. constructor; auto.
      rewrite T1, T2, T3, T4, T5, T6, T7, T9, T10, I. reflexivity.
    + right; right. destruct T8 as [T8|T8]; [congruence|]. subst nu.
      unfold validate, check_comment, check_points, check_centering, check_divisions, check_generating_vectors, check_shifts,
        check_mode, check_num_kpoints, check_tetra, check_tetra_volume, check_dict, key, holds in *.
      rewrite !arg_key_none. rewrite A1, A2, A3, A4, A5, A6, A7, A8. cbn [of_option bind].
      assert ((if is_knone di then if is_knone po then if is_knone gv then Exn (SysExit 206) else Ok tt else Ok tt else Ok tt) = Ok tt) as ->.
      { destruct (is_knone di), (is_knone po), (is_knone gv); auto. discriminate. }
      cbn [bind].
      assert ((if is_knone co then Ok tt else reject (negb (is_str co)) 13) = Ok tt) as ->
        by (destruct co; try discriminate; auto). cbn [bind].
      assert ((match po with KNone | KList _ => Ok tt | _ => Exn (SysExit 13) end) = Ok tt) as -> by (destruct po; try discriminate; auto).
      cbn [bind].
      assert ((match ce with KNone => Ok tt | KStr t => reject (negb (smem t centerings)) 212 | _ => Exn (SysExit 212) end) = Ok tt) as ->.
      { destruct ce; try discriminate; auto. cbn [ok_centering] in T3. rewrite T3. reflexivity. }
      cbn [bind].
      assert ((match di with KNone => Ok tt | KList l => reject (negb (forallb is_int l)) 13 | _ => Exn (SysExit 13) end) = Ok tt) as ->.
      { destruct di; try discriminate; auto. cbn [ok_divisions] in T4. rewrite T4. reflexivity. }
      cbn [bind].
      assert ((match gv with KNone => Ok tt | KList l => reject (negb (forallb is_float_list l)) 13 | _ => Exn (SysExit 13) end) = Ok tt) as ->.
      { destruct gv; try discriminate; auto. cbn [ok_gv] in T5. rewrite T5. reflexivity. }
      cbn [bind].
      assert ((match sh with KNone => Ok tt | KList l => reject (negb (forallb is_float l)) 13 | _ => Exn (SysExit 13) end) = Ok tt) as ->.
      { destruct sh; try discriminate; auto. cbn [ok_shifts] in T6. rewrite T6. reflexivity. }
      cbn [bind].
      assert ((match mo with KNone => Ok tt | KStr t => reject (negb (smem t modes)) 213 | _ => Exn (SysExit 213) end) = Ok tt) as ->.
      { destruct mo; try discriminate; auto. cbn [ok_mode] in T7. rewrite T7. reflexivity. }
      reflexivity.
  - right; right. unfold validate, check_comment, check_dict, key, holds in *. rewrite arg_key_none. rewrite A1, A4, A2, A5. cbn [of_option bind].
    assert ((if is_knone di then if is_knone po then if is_knone gv then Exn (SysExit 206) else Ok tt else Ok tt else Ok tt) = Ok tt) as ->.
    { destruct (is_knone di), (is_knone po), (is_knone gv); auto. discriminate. }
    cbn [bind]. destruct co; try discriminate; reflexivity.
Qed.

(** ** 207 is raised exactly when no documented name occurs in the key *)
Definition no207 {A} (r : res A) : Prop := r <> Exn (SysExit 207).
Lemma no207_bind {A B} (r : res A) (f : A -> res B) : no207 r -> (forall a, no207 (f a)) -> no207 (bind r f).
Proof. unfold no207. destruct r; cbn; auto. congruence. Qed.
Lemma no207_mapM {A B} (f : A -> res B) l : (forall a, no207 (f a)) -> no207 (mapM f l).
Proof.
  intros H. induction l as [|a l IH]; cbn; [discriminate|]. apply no207_bind; auto. intros b. apply no207_bind; auto. discriminate.
Qed.
Lemma no207_ok {A} (a : A) : no207 (Ok a). Proof. discriminate. Qed.
Lemma no207_arg es k v : no207 (arg_or_key es k v).
Proof. unfold arg_or_key. destruct (is_knone v); [|discriminate]. destruct (dget (lit k) es); cbn; discriminate. Qed.
Lemma no207_key es k : no207 (key es k).
Proof. unfold key. destruct (dget (lit k) es); cbn; discriminate. Qed.
Lemma no207_reject b c : c <> 207%Z -> no207 (reject b c).
Proof. unfold reject, no207. destruct b; [congruence|discriminate]. Qed.
Lemma no207_tet v : no207 (check_tetra_element v).
Proof.
  destruct v; cbn; try discriminate. destruct (length l =? 5); cbn; try discriminate. apply no207_reject. discriminate.
Qed.
Lemma no207_direct v : no207 (check_direct v).
Proof. destruct v; cbn; try discriminate. destruct (kp_direct p); discriminate. Qed.
Ltac n207 := repeat first
  [ apply no207_ok | apply no207_arg | apply no207_key | apply no207_reject; discriminate | apply no207_tet | apply no207_direct
  | apply no207_mapM; intros
  | apply no207_bind; [|intros]
  | match goal with |- no207 (if ?b then _ else _) => destruct b end
  | match goal with |- no207 (match ?b with _ => _ end) => destruct b end
  | discriminate ].
Lemma modify_207 es e v n : check_allowed_entries e = Ok tt -> no207 (modify es e v n).
Proof.
  intros H. unfold modify. rewrite H. cbn [bind].
  unfold check_dict, check_point, check_point_number, check_points, check_comment, check_divisions, check_generating_vectors, check_shifts,
    check_tetra, check_tetra_volume, check_centering, check_mode, check_num_kpoints. cbv zeta. n207.
Qed.

(** ** Exit 10 comes only from the choice of sources *)
Definition noexit {A} (c : Z) (r : res A) : Prop := r <> Exn (SysExit c).
Lemma noexit_bind {A B} c (r : res A) (f : A -> res B) : noexit c r -> (forall a, noexit c (f a)) -> noexit c (bind r f).
Proof. unfold noexit. destruct r; cbn; auto. congruence. Qed.
Lemma noexit_mapM {A B} c (f : A -> res B) l : (forall a, noexit c (f a)) -> noexit c (mapM f l).
Proof.
  intros H. induction l as [|a l IH]; cbn; [discriminate|]. apply noexit_bind; auto. intros b. apply noexit_bind; auto. discriminate.
Qed.
Lemma noexit_ok {A} c (a : A) : noexit c (Ok a). Proof. discriminate. Qed.
Lemma noexit_option {A} c e (o : option A) : e <> SysExit c -> noexit c (of_option e o).
Proof. destruct o; cbn; unfold noexit; congruence. Qed.
Ltac nx := repeat first
  [ apply noexit_ok
  | apply noexit_option; discriminate
  | apply noexit_mapM; intros
  | apply noexit_bind; [|intros]
  | match goal with |- noexit _ (match ?b with _ => _ end) => destruct b end
  | discriminate ].
Lemma from_list_no10 ls : noexit 10 (from_list ls).
Proof.
  unfold from_list, line_at, py_nth, get_int, head_char, read_range, read_point, read_tetra, read_automatic, read_line_points, ints_of_line,
    floats_of_line, get_float, read_tetra_line, line_at, py_nth, get_int, get_float, head_char. nx.
Qed.
Lemma validate_no10 es : noexit 10 (validate es).
Proof.
  unfold validate, check_dict, check_points, check_comment, check_divisions, check_generating_vectors, check_shifts,
    check_tetra, check_tetra_volume, check_centering, check_mode, check_num_kpoints, check_tetra_element, arg_or_key, key, reject. nx.
Qed.
Lemma kpoints_exit10 a : kpoints_init a = Exn (SysExit 10) <->
  let s := is_some (ka_string a) in let d := is_some (ka_dict a) in let p := is_some (ka_path a) in let h := is_some (ka_handler a) in
  s && d || s && p || d && p && h || negb (s || d || p || h) = true.
Proof.
  cbv zeta. unfold kpoints_init.
  destruct (is_some (ka_string a)) eqn:S, (is_some (ka_dict a)) eqn:D, (is_some (ka_path a)) eqn:P, (is_some (ka_handler a)) eqn:H;
    cbn [andb orb negb]; try (split; auto; fail); (split; [|discriminate]); intros E; exfalso; revert E;
    (match goal with |- ?x = Exn (SysExit 10) -> False => change (noexit 10 x) end);
    repeat first [ apply from_list_no10 | apply validate_no10 | apply noexit_ok
                 | apply noexit_bind; [|intros]
                 | match goal with |- noexit _ (match ?b with _ => _ end) => destruct b end
                 | discriminate
                 | unfold read_from_file, file_data ].
Qed.

(** ** Texts written *)
Lemma unlines_only_nl ls : forallb nobreak ls = true -> only_nl (unlines ls).
Proof. intros N. eapply lines_text_only_nl; eauto. left. reflexivity. Qed.
Lemma alines_nobreak prec co cs di gv sh : comment_ok co -> nobreak cs = true -> forallb nobreak (alines prec co cs di gv sh) = true.
Proof.
  intros C N. apply plain_shown in C. unfold alines, cline. cbn [forallb]. rewrite comment_nobreak, N by auto.
  change (nobreak (lit "0")) with true. cbn [andb]. rewrite !forallb_app. cbn [forallb]. rewrite fline_nobreak.
  assert (forallb nobreak (di_lines prec di) = true) as ->.
  { unfold di_lines. destruct (is_knone di); auto. cbn [forallb]. rewrite dline_nobreak. reflexivity. }
  assert (forallb nobreak (gv_lines prec gv) = true) as ->; [|reflexivity].
  destruct gv; auto. cbn [gv_lines]. apply forallb_forall. intros s Hs. apply in_map_iff in Hs as [v [<- _]]. apply fline_nobreak.
Qed.
Lemma centering_nobreak cs : smem cs centerings = true -> nobreak cs = true.
Proof.
  intros H. apply smem_In in H. cbn in H. repeat (destruct H as [<-|H]; [reflexivity|]). destruct H.
Qed.
Lemma centering_letter cs c r : smem cs centerings = true -> strip cs = c :: r -> lower1 c <> "l"%char.
Proof.
  intros H. apply smem_In in H. cbn in H. repeat (destruct H as [<-|H]; [cbn; intros [= <- <-]; discriminate|]). destruct H.
Qed.

Lemma written_channels prec es txt co mo : get_string prec es = Ok txt -> holds es "comment" co -> comment_ok co ->
  holds es "mode" mo -> mo <> KLine ->
  kpoints_of_string txt = kpoints_of_file txt /\ kpoints_of_handler txt = kpoints_of_file txt.
Proof.
  intros W C OC M NL.
  assert (exists ls, txt = unlines ls /\ forallb nobreak ls = true /\ forall c, letter_line ls 2 c -> lower1 c <> "l"%char) as (ls & -> & N & L).
  { pose proof W as W0. unfold get_string, write in W0. apply bind_ok in W0 as [[] [V W0]].
    apply validate_spec in V as (co' & po & ce & di & gv & sh & mo' & nu & te & vo & V).
    destruct V as [A1 A2 A3 A4 A5 A6 A7 A8 A9 A10 S T]. repeat (apply andb_true_iff in T as [T ?]).
    unfold holds in *. rewrite A7 in M. inversion M. subst mo'.
    destruct mo as [|m| | | | | |]; try discriminate.
    - unfold key in W0. rewrite A1, A7 in W0. cbn [of_option bind] in W0. rewrite A1 in C. inversion C. subst co'.
      assert ((match co with KNone => Ok (lit "# No comment") | KStr s => Ok (lit "# " ++ s) | _ => Exn TypeError end) = Ok (cline co)) as E.
      { destruct co; try discriminate; reflexivity. }
      rewrite E in W0. cbn [bind] in W0. inversion W0. exists [cline co]. split; [rewrite unlines_one; reflexivity|]. split.
      + cbn [forallb]. apply plain_shown in OC. unfold cline. rewrite comment_nobreak; auto.
      + intros c (l & r & K & _). discriminate.
    - cbn [ok_mode] in *. match goal with K : smem m modes = true |- _ => apply smem_In in K; cbn in K; rename K into Hm end.
      destruct Hm as [<-|[<-|[<-|[]]]].
      + destruct (write_explicit_inv prec es txt W A7) as (co2 & ps & nz & te2 & vo2 & vol & C2 & _ & _ & _ & _ & _ & OT & F & _ & ->).
        unfold holds in C2. rewrite C2 in C. inversion C; subst.
        eexists. split; [reflexivity|]. split; [apply elines_nobreak; auto|]. intros c. apply elines_letter.
      + destruct (write_automatic_inv prec es txt W A7) as (co2 & cs & di2 & gv2 & sh2 & C2 & _ & _ & _ & _ & _ & Hcs & _ & _ & _ & _ & _ & _ & ->).
        unfold holds in C2. rewrite C2 in C. inversion C; subst.
        eexists. split; [reflexivity|]. split; [apply alines_nobreak; auto using centering_nobreak|].
        intros c (l & r & K1 & K2). cbn in K1. inversion K1; subst. eapply centering_letter; eauto.
      + exfalso. apply NL. reflexivity. }
  apply channels_agree; [apply unlines_only_nl; auto|]. left. intros c. rewrite splitlines_unlines by auto. apply L.
Qed.
