(** Property C92: KPOINTS, what was read can be written. *)
From Coq Require Import Ascii String List NArith ZArith QArith Bool Lia Arith.
From Verif Require Import PyBase PyNum PyStrLemmas PyNumLemmas PyLines PyToken UtilsModel KpointsModel KpointsSpec KpointsProofs KpointsEdits KpointsCodes.
From Verif Require Import Props_Kpoints.
Import ListNotations.
Local Open Scope list_scope.
Local Open Scope bool_scope.
Local Open Scope nat_scope.

(** ** Specification *)
(** nothing the file format needs is missing in the object: the volume when there are
    tetrahedra, three divisions, three components of each vector, three coordinates of each
    point of line mode *)
Definition three_floats (v : kval) : Prop := exists xs, v = KList (map KFloat xs) /\ 3 <= length xs.
Inductive complete (es : kentries) : Prop :=
| complete_explicit : holds es "mode" KExplicit -> holds es "tetra" KNone \/ (exists x, holds es "tetra_volume" (KFloat x)) -> complete es
| complete_mesh zs : holds es "mode" KAutomatic -> holds es "divisions" (KList (map KInt zs)) -> 3 <= length zs ->
    holds es "shifts" KNone \/ (exists v, holds es "shifts" v /\ three_floats v) -> complete es
| complete_vectors vs s : holds es "mode" KAutomatic -> holds es "generating_vectors" (KList vs) -> Forall three_floats vs ->
    holds es "shifts" s -> three_floats s -> complete es
| complete_line ps : holds es "mode" KLine -> holds es "points" (KList (map KPt ps)) -> Forall (fun p => 3 <= length (kp_point p)) ps -> complete es.

(** ** The objects that are read *)
Inductive shape (es : kentries) : Prop :=
| s_explicit ps n te vo : holds es "mode" KExplicit -> holds es "num_kpoints" (KInt n) -> holds es "points" (KList (map KPt ps)) -> Forall (fun p => length (kp_point p) = 3) ps ->
    holds es "tetra" te -> holds es "tetra_volume" vo ->
    (te = KNone \/ (exists zs x, te = KList (map kints zs) /\ Forall (fun z => length z = 5) zs /\ vo = KFloat x) \/ (te = KList [] /\ vo = KNone)) -> shape es
| s_mesh cs zs sh : holds es "mode" KAutomatic -> holds es "centering" (KStr cs) -> holds es "divisions" (kints zs) -> holds es "generating_vectors" KNone ->
    holds es "shifts" sh -> (sh = KNone \/ exists xs, sh = kfloats xs) -> shape es
| s_vectors cs vs xs : holds es "mode" KAutomatic -> holds es "centering" (KStr cs) -> holds es "divisions" KNone -> holds es "generating_vectors" (KList (map kfloats vs)) ->
    holds es "shifts" (kfloats xs) -> shape es
| s_line ps n : holds es "mode" KLine -> holds es "num_kpoints" (KInt n) -> holds es "points" (KList (map KPt ps)) -> shape es.

Lemma Forall_points l vs : Forall2 (fun (l : str) v => read_point l = Ok v) l vs -> exists ps, vs = map KPt ps /\ Forall (fun p => length (kp_point p) = 3) ps.
Proof.
  induction 1 as [|a v l vs H _ (ps & -> & F)]; [exists []; auto|]. apply read_point_ok in H as (x & y & z & w & _ & ->).
  exists (Kpoint [x; y; z] w true :: ps). split; auto.
Qed.
Lemma line_points ls vs : read_line_points ls = Ok vs -> exists ps, vs = map KPt ps.
Proof.
  unfold read_line_points. intros H. apply bind_ok in H as [r [H E]]. injection E as <-. apply mapM_ok_Forall2 in H.
  induction H as [|a v l vs H _ (ps & IH)]; [exists []; auto|]. cbn [concat]. rewrite IH. destruct (seqb a [nl]); [injection H as <-; exists ps; auto|].
  apply bind_ok in H as [co [_ H]]. injection H as <-. exists (Kpoint co (Some (float_of_Z 1)) true :: ps). reflexivity.
Qed.
Lemma tetra_lines (l : list str) vs : Forall2 (fun l v => read_tetra_line l = Ok v) l vs -> exists zs, vs = map kints zs /\ Forall (fun z => length z = 5) zs.
Proof.
  induction 1 as [|a v l vs H _ (ps & -> & F)]; [exists []; auto|]. unfold read_tetra_line in H. destruct (length (split_ws a) =? 5) eqn:L; [|discriminate H].
  cbn [negb] in H. apply bind_ok in H as [zs [H E]]. injection E as <-. exists (zs :: ps). split; auto. constructor; auto. apply mapM_length in H. apply Nat.eqb_eq in L. rewrite H. exact L.
Qed.
Lemma range_Forall2 {T} ls s n (f : str -> res T) vs : read_range ls s n f = Ok vs -> exists l', Forall2 (fun l v => f l = Ok v) l' vs.
Proof.
  unfold read_range. generalize (seq s n). intros q H. apply mapM_ok_Forall2 in H. induction H as [|a v l vs H _ (l' & F)]; [exists []; auto|].
  apply bind_ok in H as [x [_ H]]. exists (x :: l'). auto.
Qed.
Lemma read_shape ch txt es : kread ch txt = Ok es -> shape es.
Proof.
  intros R. apply kread_ok in R as [F V]. destruct (from_list_ok_head _ _ F) as [n [c [Hn Hc]]].
  rewrite (from_list_body _ n c Hn Hc) in F. set (ls := klines ch txt) in *.
  destruct (body ls n (lower1 c)) as [[[[[[[[po te] vo] ce] di] gv] sh] mo]|] eqn:B; [|discriminate].
  cbn [bind] in F. injection F as <-.
  destruct (aeqb (lower1 c) "l") eqn:L.
  - apply aeqb_eq in L. rewrite L in B. unfold body in B. change (aeqb "l" "l") with true in B.
    rewrite andb_false_r in B. cbn [bind] in B.
    apply bind_ok in B as [[[[x1 x2] x3] x4] [_ B]]. apply bind_ok in B as [po' [B1 B]]. inversion B; subst.
    apply bind_ok in B1 as [l [_ B1]]. apply bind_ok in B1 as [w [_ B1]]. apply bind_ok in B1 as [r [_ B1]].
    destruct (aeqb (lower1 r) "r" || aeqb (lower1 r) "d"); [|discriminate B1]. apply bind_ok in B1 as [pts [B1 E]]. injection E as <-.
    destruct (line_points _ _ B1) as (ps & ->). eapply s_line; reflexivity.
  - apply aeqb_neq in L. destruct (Z.le_gt_cases n 0) as [Hz|Hz].
    + rewrite body_auto in B by auto.
      apply bind_ok in B as [[[[x1 x2] x3] x4] [B1 B]]. inversion B; subst.
      unfold read_automatic in B1. destruct (aeqb (lower1 c) "a"); [discriminate|].
      destruct (aeqb (lower1 c) "g" || aeqb (lower1 c) "m") eqn:G.
      * apply bind_ok in B1 as [l3 [_ B1]]. apply bind_ok in B1 as [d [_ B1]]. apply bind_ok in B1 as [s [B2 B1]]. inversion B1; subst.
        eapply s_mesh; try reflexivity. destruct (length ls =? 5); [|injection B2 as <-; auto].
        apply bind_ok in B2 as [l4 [_ B2]]. apply bind_ok in B2 as [x [_ B2]]. injection B2 as <-. eauto.
      * destruct (aeqb (lower1 c) "r").
        -- apply bind_ok in B1 as [g [B2 B1]]. apply bind_ok in B1 as [l6 [_ B1]]. apply bind_ok in B1 as [s [_ B1]]. inversion B1; subst.
           apply mapM_ok_Forall2 in B2.
           assert (exists vs, g = map kfloats vs) as [vs ->].
           { clear - B2. induction B2 as [|a v l vs H _ (ps & ->)]; [exists []; auto|]. apply bind_ok in H as [y [_ H]]. apply bind_ok in H as [x [_ H]]. injection H as <-. exists (x :: ps). reflexivity. }
           eapply s_vectors; reflexivity.
        -- destruct (aeqb (lower1 c) "d" || aeqb (lower1 c) "c"); [discriminate|]. inversion B1; subst.
           exfalso. unfold validate in V. cbn in V. discriminate.
    + assert (lower1 c <> "k"%char /\ lower1 c <> "c"%char) as [K1 K2].
      { split; intros K; rewrite body_cartesian in B by (auto; lia); discriminate. }
      rewrite body_explicit in B by (auto; lia).
      apply bind_ok in B as [pts [B1 B]]. apply bind_ok in B as [[te' v'] [B2 B]]. inversion B; subst.
      apply range_Forall2 in B1 as [l' B1]. apply Forall_points in B1 as (ps & -> & FP).
      eapply s_explicit; try reflexivity; auto. unfold read_tetra in B2. destruct (_ <? _); [|inversion B2; auto].
      apply bind_ok in B2 as [l [_ B2]]. apply bind_ok in B2 as [h [_ B2]]. destruct (aeqb (lower1 h) "t"); [|inversion B2; auto].
      destruct (_ <? _); [|inversion B2; auto]. apply bind_ok in B2 as [fl [_ B2]]. apply bind_ok in B2 as [t0 [_ B2]]. apply bind_ok in B2 as [nt [_ B2]].
      apply bind_ok in B2 as [t1 [_ B2]]. apply bind_ok in B2 as [x [_ B2]]. apply bind_ok in B2 as [tets [B2 E]]. inversion E; subst.
      apply range_Forall2 in B2 as [l2 B2]. apply tetra_lines in B2 as (zs & -> & F5). right. left. eauto.
Qed.

(** ** Writing *)
Lemma write_first prec es b : validate es = Ok tt -> exists first : str, forall m, holds es "mode" (KStr m) ->
  (m = lit "explicit" /\ write_explicit prec es = b \/ m = lit "automatic" /\ write_automatic prec es = b \/ m = lit "line" /\ write_line prec es = b) ->
  exists g : str -> str, get_string prec es = let* x := b in Ok (g x).
Proof.
  intros V. assert (exists cs : str, forall T (k : str -> res T), (let* c := key es "comment" in let* cs := match c with KNone => Ok (lit "# No comment") | KStr s => Ok (lit "# " ++ s) | _ => Exn TypeError end in k cs) = k cs) as [cs E].
  { pose proof V as V'. unfold validate in V'. apply bind_ok in V' as [[] [_ V']]. apply bind_ok in V' as [[] [V1 _]]. unfold check_comment in V1.
    apply bind_ok in V1 as [c [V0 V1]]. apply bind_ok in V1 as [cur [V2 V1]]. unfold arg_or_key in V0. cbn [is_knone] in V0. unfold key in V2 |- *.
    destruct (dget (lit "comment") es) as [x|]; [|discriminate V2]. cbn [of_option] in *. injection V0 as <-. injection V2 as <-.
    destruct x; cbn in V1; try discriminate V1; eexists; intros; cbn [bind]; reflexivity. }
  exists []. intros m M H. unfold get_string, write. rewrite V. cbn [bind]. rewrite E. unfold key. rewrite M. cbn [of_option bind].
  destruct H as [[-> <-]|[[-> <-]|[-> <-]]].
  - change (seqb (lit "explicit") (lit "explicit")) with true. cbv iota. eexists. reflexivity.
  - change (seqb (lit "automatic") (lit "explicit")) with false. change (seqb (lit "automatic") (lit "automatic")) with true. cbv iota. eexists. reflexivity.
  - change (seqb (lit "line") (lit "explicit")) with false. change (seqb (lit "line") (lit "automatic")) with false. change (seqb (lit "line") (lit "line")) with true. cbv iota. eexists (fun x => remove_newline ((cs ++ [nl]) ++ x)). reflexivity.
Qed.
Lemma write_as prec es m r : validate es = Ok tt -> holds es "mode" (KStr m) ->
  (m = lit "explicit" /\ write_explicit prec es = r \/ m = lit "automatic" /\ write_automatic prec es = r \/ m = lit "line" /\ write_line prec es = r) ->
  exists g : str -> str, get_string prec es = let* x := r in Ok (g x).
Proof. intros V M H. destruct (write_first prec es r V) as [f K]. eauto. Qed.

Lemma write_points_ok prec ps : Forall (fun p => length (kp_point p) = 3) ps -> exists ls, mapM (write_point prec) (map KPt ps) = Ok ls.
Proof.
  induction 1 as [|p ps H _ (ls & IH)]; [eexists; reflexivity|]. cbn [map mapM]. destruct p as [co w d]. cbn in H. destruct co as [|x [|y [|z [|]]]]; try discriminate.
  unfold write_point at 1. cbn [kp_point kp_weight py_nth nth_error of_option bind]. rewrite IH. eexists. reflexivity.
Qed.
Lemma write_line_point_ok prec p : (3 <= length (kp_point p) -> exists t, write_line_point prec (KPt p) = Ok t) /\ (length (kp_point p) < 3 -> write_line_point prec (KPt p) = Exn IndexError).
Proof. destruct p as [co w d]. cbn [kp_point]. split; intros H; destruct co as [|x [|y [|z r]]]; cbn in H; try lia; try (eexists; reflexivity); reflexivity. Qed.
Lemma write_line_points_ok prec ps : (Forall (fun p => 3 <= length (kp_point p)) ps -> exists ls, mapM (write_line_point prec) (map KPt ps) = Ok ls) /\
  (~ Forall (fun p => 3 <= length (kp_point p)) ps -> mapM (write_line_point prec) (map KPt ps) = Exn IndexError).
Proof.
  induction ps as [|p ps [I1 I2]]; (split; intros H); [eexists; reflexivity|destruct H; constructor| |]; cbn [map mapM]; destruct (write_line_point_ok prec p) as [P1 P2].
  - inversion H; subst. destruct P1 as [t ->]; auto. destruct I1 as [ls ->]; auto. eexists. reflexivity.
  - destruct (Nat.le_gt_cases 3 (length (kp_point p))) as [L|L]; [|rewrite P2; auto]. destruct P1 as [t ->]; auto. cbn [bind]. rewrite I2; auto.
Qed.
Lemma tetra_line_ok zs : length zs = 5 -> exists t, write_tetra_line (kints zs) = Ok t.
Proof. intros H. destruct zs as [|a [|b [|c [|d [|e [|]]]]]]; try discriminate. eexists. reflexivity. Qed.
Lemma tetra_lines_ok zs : Forall (fun z => length z = 5) zs -> exists ls, mapM write_tetra_line (map kints zs) = Ok ls.
Proof. induction 1 as [|z zs H _ [ls IH]]; [eexists; reflexivity|]. cbn [map mapM]. destruct (tetra_line_ok z H) as [t ->]. rewrite IH. eexists. reflexivity. Qed.
Lemma vec_ok prec xs : (3 <= length xs -> exists t, write_vec prec (kfloats xs) = Ok t) /\ (length xs < 3 -> write_vec prec (kfloats xs) = Exn IndexError).
Proof. split; intros H; destruct xs as [|x [|y [|z r]]]; cbn in H; try lia; try (eexists; reflexivity); reflexivity. Qed.
Lemma three_kfloats xs : three_floats (kfloats xs) <-> 3 <= length xs.
Proof.
  split; [|intros H; exists xs; auto]. intros (ys & E & H). unfold kfloats in E. injection E as E. apply (f_equal (@length kval)) in E. rewrite !map_length in E. lia.
Qed.
Lemma vecs_ok prec vs : (Forall three_floats (map kfloats vs) -> exists ls, mapM (write_vec prec) (map kfloats vs) = Ok ls) /\
  (~ Forall three_floats (map kfloats vs) -> mapM (write_vec prec) (map kfloats vs) = Exn IndexError).
Proof.
  induction vs as [|v vs [I1 I2]]; (split; intros H); [eexists; reflexivity|destruct H; constructor| |]; cbn [map mapM]; destruct (vec_ok prec v) as [P1 P2].
  - inversion H as [|? ? A B]; subst. apply three_kfloats in A. destruct P1 as [t ->]; auto. destruct I1 as [ls ->]; auto. eexists. reflexivity.
  - destruct (Nat.le_gt_cases 3 (length v)) as [L|L]; [|rewrite P2; auto]. destruct P1 as [t ->]; auto. cbn [bind]. rewrite I2; auto.
    intros F. apply H. cbn [map]. constructor; auto. apply three_kfloats. auto.
Qed.
Lemma divisions_ok prec zs : (3 <= length zs -> exists t, (let* l3 := mapM (fun i => let* e := py_nth (map KInt zs) i in as_int e) [0; 1; 2] in Ok (join sp1 (map (fmt_d (width prec)) l3) ++ [nl])) = Ok t) /\
  (length zs < 3 -> (let* l3 := mapM (fun i => let* e := py_nth (map KInt zs) i in as_int e) [0; 1; 2] in Ok (join sp1 (map (fmt_d (width prec)) l3) ++ [nl])) = Exn IndexError).
Proof. split; intros H; destruct zs as [|x [|y [|z r]]]; cbn in H; try lia; try (eexists; reflexivity); reflexivity. Qed.

Lemma holds_inj es k v w : holds es k v -> holds es k w -> v = w.
Proof. unfold holds. congruence. Qed.
Ltac same H1 H2 := pose proof (holds_inj _ _ _ _ H1 H2).
Lemma kints_inj a b : kints a = KList (map KInt b) -> a = b.
Proof. unfold kints. intros H. injection H as H. revert b H. induction a as [|x a IH]; intros [|y b] H; try discriminate; auto. injection H as -> H. f_equal. auto. Qed.
Lemma kpt_inj a b : KList (map KPt a) = KList (map KPt b) -> a = b.
Proof. intros H. injection H as H. revert b H. induction a as [|x a IH]; intros [|y b] H; try discriminate; auto. injection H as -> H. f_equal. auto. Qed.

Lemma shape_written prec es : validate es = Ok tt -> shape es ->
  (complete es /\ exists out, get_string prec es = Ok out) \/
  (~ complete es /\ (holds es "mode" KExplicit /\ get_string prec es = Exn TypeError \/ ~ holds es "mode" KExplicit /\ get_string prec es = Exn IndexError)).
Proof.
  intros V S. destruct S as [ps n te vo M N P F T VO C|cs zs sh M CE D G SH C|cs vs xs M CE D G SH|ps n M N P].
  - assert (NW : te = KList [] -> vo = KNone -> ~ complete es).
    { intros -> -> [M' [X|[x X]]|zs M'|v s M'|q M']; [| |same M M'; discriminate..]; [same T X|same VO X]; discriminate. }
    destruct (write_points_ok prec ps F) as [ls HL].
    assert (W : forall r, write_tetra prec es = r -> write_explicit prec es = let* t := r in Ok (fmtd6 n ++ [nl] ++ lit "Direct" ++ [nl] ++ concat ls ++ t)).
    { intros r <-. unfold write_explicit, key. rewrite N, P. cbn [of_option bind as_int is_int int_value points_of]. rewrite HL. reflexivity. }
    destruct C as [->|[(zs & x & -> & F5 & ->)|[-> ->]]].
    + left. split; [apply complete_explicit; auto|]. destruct (write_as prec es (lit "explicit") _ V M (or_introl (conj eq_refl (W _ eq_refl)))) as [g ->].
      unfold write_tetra, key. rewrite T. eexists. reflexivity.
    + left. split; [apply complete_explicit; eauto|]. destruct (write_as prec es (lit "explicit") _ V M (or_introl (conj eq_refl (W _ eq_refl)))) as [g ->].
      unfold write_tetra, key. rewrite T, VO. cbn [of_option bind as_float]. destruct (tetra_lines_ok zs F5) as [lt ->]. eexists. reflexivity.
    + right. split; [apply NW; auto|]. left. split; auto. destruct (write_as prec es (lit "explicit") _ V M (or_introl (conj eq_refl (W _ eq_refl)))) as [g ->].
      unfold write_tetra, key. rewrite T, VO. reflexivity.
  - assert (M' : ~ holds es "mode" KExplicit) by (intros X; same M X; discriminate).
    assert (W : write_automatic prec es = let* ds := (let* l3 := mapM (fun i => let* e := py_nth (map KInt zs) i in as_int e) [0; 1; 2] in Ok (join sp1 (map (fmt_d (width prec)) l3) ++ [nl])) in
      let* ss := (match sh with KNone => write_vec prec (kfloats [float_of_Z 0; float_of_Z 0; float_of_Z 0]) | _ => write_vec prec sh end) in Ok (lit "0" ++ [nl] ++ cs ++ [nl] ++ ds ++ [] ++ ss)).
    { unfold write_automatic, key. rewrite CE, D, G, SH. cbn [of_option bind kints]. reflexivity. }
    destruct (write_as prec es (lit "automatic") _ V M (or_intror (or_introl (conj eq_refl W)))) as [g E]. clear W.
    destruct (divisions_ok prec zs) as [D1 D2]. destruct (Nat.le_gt_cases 3 (length zs)) as [L|L].
    + destruct (D1 L) as [t HT]. rewrite HT in E. cbn [bind] in E. clear D1 D2 HT. destruct C as [->|[xs ->]].
      * left. split; [eapply complete_mesh; eauto|]. destruct (proj1 (vec_ok prec [float_of_Z 0; float_of_Z 0; float_of_Z 0]) (le_n 3)) as [u HU]. rewrite HU in E. eexists. exact E.
      * cbn [kfloats] in E. change (write_vec prec (KList (map KFloat xs))) with (write_vec prec (kfloats xs)) in E. destruct (vec_ok prec xs) as [X1 X2]. destruct (Nat.le_gt_cases 3 (length xs)) as [LX|LX].
        -- left. destruct (X1 LX) as [u HU]. rewrite HU in E. split; [|eexists; exact E]. eapply complete_mesh; eauto. right. exists (kfloats xs). split; auto. apply three_kfloats. auto.
        -- right. rewrite (X2 LX) in E. split; [|right; auto]. intros [K|zs' K K1 K2 [K3|(v & K3 & K4)]|v s K K1 K2 K3|q K]; [auto| | | |same M K; discriminate].
           ++ same SH K3. discriminate.
           ++ same SH K3. subst v. apply three_kfloats in K4. lia.
           ++ same G K1. discriminate.
    + right. rewrite (D2 L) in E. split; [|right; auto]. intros [K|zs' K K1 K2 _|v s K K1 _|q K]; [auto| | |same M K; discriminate].
      * same D K1. apply kints_inj in H. subst zs'. lia.
      * same G K1. discriminate.
  - assert (M' : ~ holds es "mode" KExplicit) by (intros X; same M X; discriminate).
    assert (W : write_automatic prec es = let* gs := (let* ls := mapM (write_vec prec) (map kfloats vs) in Ok (concat ls)) in
      let* ss := write_vec prec (kfloats xs) in Ok (lit "0" ++ [nl] ++ cs ++ [nl] ++ [] ++ gs ++ ss)).
    { unfold write_automatic, key. rewrite CE, D, G, SH. cbn [of_option bind kfloats]. reflexivity. }
    destruct (write_as prec es (lit "automatic") _ V M (or_intror (or_introl (conj eq_refl W)))) as [g E]. clear W.
    assert (NC : ~ (Forall three_floats (map kfloats vs) /\ 3 <= length xs) -> ~ complete es).
    { intros Z [K|zs' K K1 _ _|v s K K1 K2 K3 K4|q K]; [auto| | |same M K; discriminate].
      - same D K1. discriminate.
      - apply Z. same G K1. injection H as <-. same SH K3. subst s. apply three_kfloats in K4. auto. }
    destruct (vecs_ok prec vs) as [V1 V2]. destruct (vec_ok prec xs) as [X1 X2].
    assert (DF : Forall three_floats (map kfloats vs) \/ ~ Forall three_floats (map kfloats vs)).
    { clear. induction vs as [|v vs IH]; [left; constructor|]. cbn [map]. destruct (Nat.le_gt_cases 3 (length v)) as [L|L].
      - destruct IH as [IH|IH]; [left; constructor; auto; apply three_kfloats; auto|right; inversion 1; auto].
      - right. inversion 1 as [|? ? A]. apply three_kfloats in A. lia. }
    destruct DF as [DF|DF].
    + destruct (V1 DF) as [ls HL]. rewrite HL in E. cbn [bind] in E. destruct (Nat.le_gt_cases 3 (length xs)) as [LX|LX].
      * left. destruct (X1 LX) as [u HU]. rewrite HU in E. split; [|eexists; exact E]. eapply complete_vectors; eauto. apply three_kfloats. auto.
      * right. rewrite (X2 LX) in E. split; [apply NC; intros [_ Q]; lia|right; auto].
    + right. rewrite (V2 DF) in E. split; [apply NC; intros [Q _]; auto|right; auto].
  - assert (M' : ~ holds es "mode" KExplicit) by (intros X; same M X; discriminate).
    assert (W : write_line prec es = let* ls := mapM (write_line_point prec) (map KPt ps) in Ok (fmtd6 n ++ [nl] ++ lit "Line-mode" ++ [nl] ++ lit "Direct" ++ [nl] ++ pair_lines false ls)).
    { unfold write_line, key. rewrite N, P. reflexivity. }
    destruct (write_as prec es (lit "line") _ V M (or_intror (or_intror (conj eq_refl W)))) as [g E]. clear W.
    destruct (write_line_points_ok prec ps) as [P1 P2].
    assert (DF : Forall (fun p => 3 <= length (kp_point p)) ps \/ ~ Forall (fun p => 3 <= length (kp_point p)) ps).
    { clear. induction ps as [|v vs IH]; [left; constructor|]. destruct (Nat.le_gt_cases 3 (length (kp_point v))) as [L|L].
      - destruct IH as [IH|IH]; [left; constructor; auto|right; inversion 1; auto].
      - right. inversion 1. lia. }
    destruct DF as [DF|DF].
    + left. destruct (P1 DF) as [ls HL]. rewrite HL in E. split; [|eexists; exact E]. eapply complete_line; eauto.
    + right. rewrite (P2 DF) in E. split; [|right; auto]. intros [K|zs' K|v s K|q K K1 K2]; [auto|same M K; discriminate..|]. same P K1. apply kpt_inj in H. subst q. auto.
Qed.

(** ** C92 *)
Theorem C92_writes_iff : forall ch txt es prec, kread ch txt = Ok es -> ((exists out, get_string prec es = Ok out) <-> complete es).
Proof.
  intros ch txt es prec R. pose proof (proj2 (kread_ok _ _ _ R)) as V. destruct (shape_written prec es V (read_shape _ _ _ R)) as [[C W]|[C W]]; split; auto; [|contradiction].
  intros [out E]. destruct W as [[_ W]|[_ W]]; congruence.
Qed.
Print Assumptions C92_writes_iff.
(** what happens to an incomplete object: an exception of Python, never a shorter file *)
Theorem C92_incomplete : forall ch txt es prec, kread ch txt = Ok es -> ~ complete es ->
  (holds es "mode" KExplicit -> get_string prec es = Exn TypeError) /\ (~ holds es "mode" KExplicit -> get_string prec es = Exn IndexError).
Proof.
  intros ch txt es prec R NC. pose proof (proj2 (kread_ok _ _ _ R)) as V. destruct (shape_written prec es V (read_shape _ _ _ R)) as [[C W]|[_ W]]; [contradiction|].
  destruct W as [[M W]|[M W]]; split; intros; auto; contradiction.
Qed.
Print Assumptions C92_incomplete.
(** a file whose last line is the one with the name of the tetrahedra, a mesh with two divisions,
    one with a single shift, a path point with two coordinates, and a path with a blank line
    given as a string *)
Definition bare_tetra : str := unlines (map lit ["c"; "1"; "Direct"; "0 0 0 1"; "Tetrahedra"]%string).
Definition two_divisions : str := unlines (map lit ["c"; "0"; "Gamma"; "4 4"]%string).
Definition one_shift : str := unlines (map lit ["c"; "0"; "Gamma"; "4 4 4"; "0.5"]%string).
Definition flat_vector : str := unlines (map lit ["c"; "0"; "Rec"; "1 0"; "0 1 0"; "0 0 1"; "0 0 0"]%string).
Definition flat_point : str := unlines (map lit ["c"; "5"; "Line"; "Rec"; "0 0 0"; "0.5 0.5"]%string).
Definition read_not_written (ch : channel) (txt : str) (e : exn) : Prop := exists es, kread ch txt = Ok es /\ forall prec, get_string prec es = Exn e.
Theorem C92_incomplete_refuted : (forall ch, read_not_written ch bare_tetra TypeError /\ read_not_written ch two_divisions IndexError /\ read_not_written ch one_shift IndexError /\
  read_not_written ch flat_vector IndexError /\ read_not_written ch flat_point IndexError) /\ read_not_written FromString line_txt IndexError.
Proof.
  split; [intros ch; repeat split; unfold read_not_written|].
  - exists (or_empty (kpoints_of_string bare_tetra)). split; [destruct ch; vm_compute; reflexivity|]. intros prec. apply (C92_incomplete FromString bare_tetra); [vm_compute; reflexivity| |vm_compute; reflexivity].
    intros [K [K1|[x K1]]|zs K|v s K|q K]; vm_compute in K; try discriminate K; vm_compute in K1; discriminate K1.
  - exists (or_empty (kpoints_of_string two_divisions)). split; [destruct ch; vm_compute; reflexivity|]. intros prec. lazy. reflexivity.
  - exists (or_empty (kpoints_of_string one_shift)). split; [destruct ch; vm_compute; reflexivity|]. intros prec. lazy. reflexivity.
  - exists (or_empty (kpoints_of_string flat_vector)). split; [destruct ch; vm_compute; reflexivity|]. intros prec. lazy. reflexivity.
  - exists (or_empty (kpoints_of_string flat_point)). split; [destruct ch; vm_compute; reflexivity|]. intros prec. lazy. reflexivity.
  - exists (or_empty (kpoints_of_string line_txt)). split; [vm_compute; reflexivity|]. intros prec. lazy. reflexivity.
Qed.
Print Assumptions C92_incomplete_refuted.
(** complete objects of the three modes *)
Example C92_case : complete explicit_obj /\ complete mesh_obj /\ complete recip_obj /\ complete line_obj.
Proof.
  split; [apply complete_explicit; [vm_compute; reflexivity|right; eexists; vm_compute; reflexivity]|].
  split; [eapply (complete_mesh _ [4; 5; 6]%Z); [vm_compute; reflexivity..|right; eexists; split; [vm_compute; reflexivity|]]; apply three_kfloats with (xs := [dec "0"; dec "0.5"; dec "0.25"]); cbn; lia|].
  split.
  - eapply (complete_vectors _ _ (kfloats [dec "0.5"; dec "0.5"; dec "0.5"])); [vm_compute; reflexivity..| |vm_compute; reflexivity|apply three_kfloats; cbn; lia].
    repeat constructor; (eexists [_; _; _]; split; [reflexivity|cbn; lia]).
  - eapply (complete_line _ (map (fun v => match v with KPt p => p | _ => Kpoint [] None true end) (match dget (lit "points") line_obj with Some (KList l) => l | _ => [] end))); [vm_compute; reflexivity..|]. vm_compute. repeat constructor.
Qed.
