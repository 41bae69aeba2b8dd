(** Properties of interrupted KPOINTS writes (C85), all modes: statements, with examples. *)
From Coq Require Import Ascii String List NArith ZArith Bool Lia Arith.
From Verif Require Import PyBase PyNum PyStrLemmas PyNumLemmas PyFmtLemmas PyLines PyToken UtilsModel KpointsModel KpointsSpec KpointsProofs KpointsRoundTrip KpointsModes KpointsLine KpointsEdits KpointsCodes
  Props_Kpoints IoModel IoProofs.
From Verif Require Props_Io Props_IoCrash.
Import ListNotations.
Local Open Scope list_scope.
Local Open Scope bool_scope.
Local Open Scope nat_scope.

(** ** The lines of a cut file *)
Definition keep (ch : channel) (l : str) : str := match ch with FromString => l | _ => l ++ [nl] end.
Lemma klines_piece ch ls p : forallb nobreak ls = true -> nobreak p = true ->
  klines ch (unlines ls ++ p) = map (keep ch) ls ++ (if seqb p [] then [] else [p]).
Proof.
  intros N P. destruct p as [|a p'].
  - change (seqb [] []) with true. cbv iota. rewrite !app_nil_r. destruct ch; cbn [klines keep].
    + rewrite splitlines_unlines by auto. rewrite map_id. reflexivity.
    + rewrite translate_nochange by (apply unlines_nocr; auto). apply readlines_unlines. apply forallb_nobreak_nonl; auto.
    + apply readlines_unlines. apply forallb_nobreak_nonl; auto.
  - change (seqb (a :: p') []) with false. cbv iota. set (p := a :: p') in *. assert (p <> []) as NE by discriminate. clearbody p.
    destruct ch; cbn [klines keep].
    + rewrite splitlines_unlines_last by auto. rewrite map_id. reflexivity.
    + rewrite translate_nochange. { apply readlines_unlines_last; auto. apply forallb_nobreak_nonl; auto. apply nobreak_nonl; auto. }
      rewrite nochar_app. rewrite unlines_nocr by auto. rewrite nobreak_nocr; auto.
    + apply readlines_unlines_last; auto. apply forallb_nobreak_nonl; auto. apply nobreak_nonl; auto.
Qed.
(** a prefix of a text: the lines of the two agree below [c], and there is perhaps a
    beginning of line [c] *)
Record cuts (c : nat) (ls ls' : list str) : Prop := {
  cu_agree : forall m, m < c -> nth_error ls m = nth_error ls' m;
  cu_short : length ls' <= S c;
  cu_shorter : length ls' <= length ls;
  cu_last : forall l', nth_error ls' c = Some l' -> exists l q, nth_error ls c = Some l /\ l = l' ++ q /\ l' <> [nl] /\ l <> [nl] }.
Lemma cut_klines ch ls d s : forallb nobreak ls = true -> d ++ s = unlines ls -> exists c, cuts c (klines ch (unlines ls)) (klines ch d).
Proof.
  intros NB H. destruct (Props_IoCrash.prefix_unlines ls d s H) as (k & p & D & PP).
  assert (nobreak p = true) as NP.
  { destruct PP as [->|(m & q & Hm & ->)]; [reflexivity|]. apply nth_error_In in Hm. rewrite forallb_forall in NB. apply NB in Hm. apply Props_IoCrash.nobreak_prefix in Hm. exact Hm. }
  assert (forallb nobreak (firstn k ls) = true) as NF by (apply Props_IoCrash.nobreak_firstn; auto).
  assert (klines ch (unlines ls) = map (keep ch) ls) as EF.
  { rewrite <- (app_nil_r (unlines ls)). rewrite klines_piece by auto. change (seqb [] []) with true. cbv iota. apply app_nil_r. }
  rewrite EF, D. rewrite klines_piece by auto. exists (length (firstn k ls)). split.
  - intros m Hm. rewrite nth_error_app1 by (rewrite map_length; auto). rewrite !nth_error_map. f_equal.
    rewrite <- (firstn_skipn k ls) at 1. apply nth_error_app1. auto.
  - rewrite app_length, map_length. destruct (seqb p []); cbn [length]; unfold str in *; lia.
  - rewrite app_length, !map_length, firstn_length. destruct PP as [->|(m & q & Hm & _)].
    + change (seqb [] []) with true. cbn [length]. unfold str in *. lia.
    + assert (k < length ls) by (apply nth_error_Some; congruence). destruct (seqb p []); cbn [length]; unfold str in *; lia.
  - intros l' H'. rewrite nth_error_app2, map_length, Nat.sub_diag in H' by (rewrite map_length; auto).
    destruct p as [|a p']; [discriminate|]. change (seqb (a :: p') []) with false in H'. cbn in H'. inversion H'. subst l'.
    destruct PP as [PP|(m & q & Hm & E)]; [discriminate|].
    assert (length (firstn k ls) = k) as -> by (rewrite firstn_length; assert (k < length ls) by (apply nth_error_Some; congruence); lia).
    exists (keep ch m). rewrite nth_error_map, Hm. cbn [option_map].
    assert (a :: p' <> [nl]) as N1. { intros Q. rewrite Q in NP. discriminate. }
    assert (keep ch m <> [nl]) as N2.
    { intros Q. rewrite E in Q. destruct ch; cbn [keep app] in Q; inversion Q; subst; [discriminate NP| |]; destruct (p' ++ q); discriminate. }
    destruct ch; cbn [keep] in *; subst m; [exists q; auto|exists (q ++ [nl]); split; auto; split; auto; rewrite app_assoc; auto|exists (q ++ [nl]); split; auto; split; auto; rewrite app_assoc; auto].
Qed.

Lemma pynth {A} (l : list A) i x : py_nth l i = Ok x -> nth_error l i = Some x.
Proof. unfold py_nth. destruct (nth_error l i); cbn; intros H; inversion H; auto. Qed.
(** ** Parts of the reader *)
Section Cut.
Variables (ls ls' : list str) (c : nat).
Hypothesis C : cuts c ls ls'.
Lemma line_agree m : m < c -> line_at ls m = line_at ls' m.
Proof. intros H. unfold line_at, py_nth. rewrite (cu_agree _ _ _ C) by auto. reflexivity. Qed.
Lemma line_there m l : line_at ls' m = Ok l -> m <= c.
Proof.
  intros H. unfold line_at in H. apply pynth in H. assert (m < length ls') by (apply nth_error_Some; congruence). pose proof (cu_short _ _ _ C). lia.
Qed.
(** every line of the cut file is a beginning of the line of the whole file *)
Lemma line_prefix m l l' : line_at ls m = Ok l -> line_at ls' m = Ok l' -> exists q, l = l' ++ q.
Proof.
  intros H H'. pose proof (line_there _ _ H') as L. unfold line_at in H, H'. apply pynth in H, H'.
  destruct (Nat.eq_dec m c) as [->|Q].
  - destruct (cu_last _ _ _ C _ H') as (l2 & q & H2 & E & _). exists q. congruence.
  - rewrite (cu_agree _ _ _ C) in H by lia. exists []. rewrite app_nil_r. congruence.
Qed.
Lemma range_agree {B} (f : str -> res B) s n bs bs' : read_range ls s n f = Ok bs -> read_range ls' s n f = Ok bs' ->
  length bs = n /\ length bs' = n /\ forall i, S i < n -> nth_error bs i = nth_error bs' i.
Proof.
  unfold read_range. revert s bs bs'. induction n as [|n IH]; intros s bs bs' H H'; cbn [seq mapM] in H, H'.
  - apply Ok_inj in H, H'. subst. repeat split; auto.
  - apply bind_ok in H as [b [H1 H]]. apply bind_ok in H as [r [H2 H]]. apply Ok_inj in H. apply bind_ok in H' as [b' [G1 H']]. apply bind_ok in H' as [r' [G2 H']]. apply Ok_inj in H'. subst bs bs'.
    destruct (IH _ _ _ H2 G2) as (L1 & L2 & E). split; [cbn; lia|]. split; [cbn; lia|]. intros [|i] Hi; cbn [nth_error]; [|apply E; lia].
    destruct n as [|n]; [lia|]. cbn [seq mapM] in G2. apply bind_ok in G2 as [b2 [G2 _]]. apply bind_ok in G2 as [l2 [G2 _]]. apply line_there in G2.
    rewrite line_agree in H1 by lia. rewrite H1 in G1. congruence.
Qed.
(** the first character of a line that is not blank *)
Lemma first_char l x : head_char (strip l) = Ok x -> exists p r, blank p = true /\ is_space x = false /\ l = p ++ x :: r.
Proof.
  intros H. destruct (strip_spec l) as (p & q & B & _ & E). pose proof (strip_head l) as N. destruct (strip l) as [|y r]; [discriminate|]. cbn in H. inversion H. subst y.
  cbn in N. apply negb_true_iff in N. exists p, (r ++ q). auto.
Qed.
Lemma first_same p : forall p' x x' r r', blank p = true -> blank p' = true -> is_space x = false -> is_space x' = false -> p ++ x :: r = p' ++ x' :: r' -> x = x'.
Proof.
  induction p as [|a p IH]; intros [|a' p'] x x' r r' B B' N N' E; cbn in *; inversion E; subst; auto.
  - apply andb_true_iff in B' as [B' _]. congruence.
  - apply andb_true_iff in B as [B _]. congruence.
  - apply andb_true_iff in B as [_ B]. apply andb_true_iff in B' as [_ B']. eapply IH; eauto.
Qed.
Lemma head_prefix l l' q x y : l = l' ++ q -> head_char (strip l) = Ok x -> head_char (strip l') = Ok y -> x = y.
Proof.
  intros -> H H'. apply first_char in H as (p & r & B & N & E). apply first_char in H' as (p' & r' & B' & N' & E').
  rewrite E', <- app_assoc in E. cbn [app] in E. symmetry. eapply first_same; [exact B'|exact B|exact N'|exact N|exact E].
Qed.
Lemma firstn_eq {B} (a b : list B) : forall n, (forall m, m < n -> nth_error a m = nth_error b m) -> firstn n a = firstn n b.
Proof.
  revert b. induction a as [|x a IH]; intros b [|n] H; auto.
  - destruct b as [|y b]; auto. specialize (H 0 ltac:(lia)). discriminate.
  - destruct b as [|y b]; [specialize (H 0 ltac:(lia)); discriminate|]. pose proof (H 0 ltac:(lia)) as E. inversion E. subst y. cbn [firstn]. f_equal. apply IH. intros m Hm. exact (H (S m) ltac:(lia)).
Qed.
Definition line_point (line : str) : res (list kval) :=
  if seqb line [nl] then Ok [] else let* co := mapM get_float (firstn 3 (split_ws line)) in Ok [KPt (Kpoint co (Some (float_of_Z 1)) true)].
Lemma line_point_one l bs : line_point l = Ok bs -> l <> [nl] -> length bs = 1.
Proof.
  unfold line_point. intros H N. destruct (seqb l [nl]) eqn:E; [apply seqb_eq in E; congruence|]. apply bind_ok in H as [co [_ H]]. apply Ok_inj in H. subst. reflexivity.
Qed.
(** line mode: the points of the first lines, and perhaps one more *)
Lemma line_points_agree pts pts' : read_line_points (skipn 4 ls) = Ok pts -> read_line_points (skipn 4 ls') = Ok pts' ->
  length pts' <= length pts /\ forall i, S i < length pts' -> nth_error pts' i = nth_error pts i.
Proof.
  unfold read_line_points. fold line_point. intros H H'. apply bind_ok in H as [r [H E]]. apply Ok_inj in E. apply bind_ok in H' as [r' [H' E']]. apply Ok_inj in E'. subst pts pts'.
  pose proof (cu_shorter _ _ _ C) as LE. pose proof (cu_short _ _ _ C) as SH.
  destruct (Nat.le_gt_cases (length ls') 4) as [L|L].
  { rewrite skipn_all2 in H' by auto. cbn in H'. apply Ok_inj in H'. subst r'. cbn [concat length]. split; [lia|]. intros i Hi. lia. }
  (* the whole lines *)
  set (k := Nat.min c (length ls')).
  assert (firstn k ls = firstn k ls') as EK by (apply firstn_eq; intros m Hm; apply (cu_agree _ _ _ C); lia).
  assert (skipn 4 ls' = skipn 4 (firstn k ls) ++ skipn k ls') as S1.
  { rewrite EK. rewrite <- (firstn_skipn k ls') at 1. rewrite skipn_app. f_equal. rewrite firstn_length.
    replace (4 - Nat.min k (length ls')) with 0 by lia. reflexivity. }
  assert (skipn 4 ls = skipn 4 (firstn k ls) ++ skipn k ls) as S2.
  { rewrite <- (firstn_skipn k ls) at 1. rewrite skipn_app. f_equal. rewrite firstn_length.
    replace (4 - Nat.min k (length ls)) with 0 by lia. reflexivity. }
  rewrite S1 in H'. rewrite S2 in H. rewrite mapM_app in H, H'.
  apply bind_ok in H as [a [Ha H]]. apply bind_ok in H as [b [Hb H]]. apply Ok_inj in H. apply bind_ok in H' as [a' [Ha' H']]. apply bind_ok in H' as [b' [Hb' H']]. apply Ok_inj in H'.
  rewrite Ha in Ha'. apply Ok_inj in Ha'. subst a' r r'. rewrite !concat_app, !app_length.
  assert (length (concat b') <= 1 /\ length (concat b') <= length (concat b)) as [L1 L2].
  { destruct (skipn k ls') as [|l' t] eqn:ET; [cbn in Hb'; apply Ok_inj in Hb'; subst b'; cbn; lia|].
    assert (k = c /\ t = []) as [K ->].
    { assert (length (skipn k ls') = S (length t)) as Q by (rewrite ET; reflexivity). rewrite skipn_length in Q. split; [lia|]. destruct t; auto. cbn in Q. lia. }
    assert (nth_error ls' c = Some l') as N'. { rewrite <- (firstn_skipn k ls'). rewrite ET, nth_error_app2; rewrite firstn_length; [|lia]. replace (c - Nat.min k (length ls')) with 0 by lia. reflexivity. }
    destruct (cu_last _ _ _ C _ N') as (l & q & N & _ & D1 & D2).
    cbn [mapM] in Hb'. apply bind_ok in Hb' as [x' [X' Hb']]. cbn [bind] in Hb'. apply Ok_inj in Hb'. subst b'. rewrite K in Hb.
    assert (skipn c ls = l :: skipn (S c) ls) as Es. { clear -N. revert c N. induction ls as [|x r IH]; intros [|k] H; try discriminate; [inversion H; reflexivity|]. apply IH. exact H. }
    rewrite Es in Hb. cbn [mapM] in Hb. apply bind_ok in Hb as [x [X Hb]]. apply bind_ok in Hb as [y [_ Hb]]. apply Ok_inj in Hb. subst b.
    apply line_point_one in X; auto. apply line_point_one in X'; auto. cbn [concat]. rewrite !app_length. cbn [length]. unfold str in *. lia. }
  split; [lia|]. intros i Hi. rewrite !nth_error_app1 by lia. reflexivity.
Qed.
(** explicit mode: the tetrahedra *)
Lemma tetra_agree lm te vo te' vo' : read_tetra ls lm = Ok (te, vo) -> read_tetra ls' lm = Ok (te', vo') ->
  te' = KNone \/ te' = KList [] \/
  exists l l', te = KList l /\ te' = KList l' /\ length l' = length l /\ vo' = vo /\ forall i, S i < length l -> nth_error l' i = nth_error l i.
Proof.
  unfold read_tetra. intros H H'. destruct (Nat.ltb_spec lm (length ls')); [|left; apply Ok_inj in H'; congruence].
  apply bind_ok in H' as [l' [L' H']]. apply bind_ok in H' as [x' [X' H']]. destruct (aeqb (lower1 x') "t") eqn:T'; [|left; apply Ok_inj in H'; congruence].
  destruct (Nat.ltb_spec (S lm) (length ls')); [|right; left; apply Ok_inj in H'; congruence].
  apply bind_ok in H' as [f' [F' H']]. apply bind_ok in H' as [t0' [T0' H']]. apply bind_ok in H' as [n' [N' H']]. apply bind_ok in H' as [t1' [T1' H']]. apply bind_ok in H' as [v' [V' H']].
  apply bind_ok in H' as [ts' [R' H']]. apply Ok_inj in H'. inversion H'. subst te' vo'.
  destruct (Z.to_nat n') as [|n] eqn:EN. { cbn in R'. apply Ok_inj in R'. subst. right. left. reflexivity. }
  right. right. assert (S lm < c) as Q.
  { pose proof R' as R. unfold read_range in R. cbn [seq mapM] in R. apply bind_ok in R as [b [R _]]. apply bind_ok in R as [l [R _]]. apply line_there in R. lia. }
  pose proof (cu_shorter _ _ _ C) as LE.
  destruct (Nat.ltb_spec lm (length ls)); [|lia]. rewrite line_agree in H by lia. rewrite L' in H. cbn [bind] in H. rewrite X' in H. cbn [bind] in H. rewrite T' in H.
  destruct (Nat.ltb_spec (S lm) (length ls)); [|lia]. rewrite line_agree in H by lia. rewrite F' in H. cbn [bind] in H. rewrite T0' in H. cbn [bind] in H. rewrite N' in H. cbn [bind] in H.
  rewrite T1' in H. cbn [bind] in H. rewrite V' in H. cbn [bind] in H. rewrite EN in H. apply bind_ok in H as [ts [R H]]. apply Ok_inj in H. inversion H. subst te vo.
  destruct (range_agree _ _ _ _ _ R R') as (A1 & A2 & A3). exists ts, ts'. split; auto. split; auto. split; [lia|]. split; auto. intros i Hi. symmetry. apply A3. lia.
Qed.
(** automatic modes *)
Lemma automatic_agree x ce di gv sh ce' di' gv' sh' : read_automatic x ls = Ok (ce, di, gv, sh) -> read_automatic x ls' = Ok (ce', di', gv', sh') ->
  ce' = ce /\ gv' = gv /\ (di' = di \/ sh' = KNone).
Proof.
  unfold read_automatic. intros H H'. destruct (aeqb x "a"); [discriminate|]. destruct (aeqb x "g" || aeqb x "m").
  - apply bind_ok in H as [l3 [H3 H]]. apply bind_ok in H as [d [D H]]. apply bind_ok in H as [s [S1 H]]. apply Ok_inj in H. inversion H. subst.
    apply bind_ok in H' as [l3' [H3' H']]. apply bind_ok in H' as [d' [D' H']]. apply bind_ok in H' as [s' [S1' H']]. apply Ok_inj in H'. inversion H'. subst.
    split; auto. split; auto. destruct (Nat.eqb_spec (length ls') 5) as [L|L]; [left|right; apply Ok_inj in S1'; congruence].
    pose proof (cu_short _ _ _ C). rewrite line_agree in H3 by lia. rewrite H3 in H3'. apply Ok_inj in H3'. subst l3'. rewrite D in D'. apply Ok_inj in D'. congruence.
  - destruct (aeqb x "r").
    + apply bind_ok in H as [g [G H]]. apply bind_ok in H as [l6 [H6 H]]. apply bind_ok in H as [s [S1 H]]. apply Ok_inj in H. inversion H. subst.
      apply bind_ok in H' as [g' [G' H']]. apply bind_ok in H' as [l6' [H6' H']]. apply bind_ok in H' as [s' [S1' H']]. apply Ok_inj in H'. inversion H'. subst.
      split; auto. split; auto. apply line_there in H6'. cbn [mapM] in G, G'. rewrite !line_agree in G by lia. rewrite G in G'. apply Ok_inj in G'. congruence.
    + destruct (aeqb x "d" || aeqb x "c"); [discriminate|]. apply Ok_inj in H, H'. inversion H. inversion H'. subst. auto.
Qed.
End Cut.

(** What [es'], read from a cut file, has of [es], read from the whole. *)
Record kpartly (es es' : kentries) : Prop := {
  (** always the same *)
  kp_head : forall k, In k ["comment"; "mode"; "centering"; "num_kpoints"; "generating_vectors"]%string -> dget (lit k) es' = dget (lit k) es;
  (** explicit: all the points, each but the last unchanged *)
  kp_explicit : holds es "mode" KExplicit -> exists l l', holds es "points" (KList l) /\ holds es' "points" (KList l') /\ length l' = length l /\
    forall i, S i < length l -> nth_error l' i = nth_error l i;
  (** ... and the tetrahedra are absent, or none, or all there, each but the last unchanged *)
  kp_tetra : holds es' "tetra" KNone \/ holds es' "tetra" (KList []) \/
    exists l l', holds es "tetra" (KList l) /\ holds es' "tetra" (KList l') /\ length l' = length l /\
      dget (lit "tetra_volume") es' = dget (lit "tetra_volume") es /\ forall i, S i < length l -> nth_error l' i = nth_error l i;
  (** automatic: the divisions, unless the shifts are lost *)
  kp_divisions : dget (lit "divisions") es' = dget (lit "divisions") es \/ holds es' "shifts" KNone;
  (** line mode: the first points, each but the last unchanged *)
  kp_line : holds es "mode" (KStr (lit "line")) -> exists l l', holds es "points" (KList l) /\ holds es' "points" (KList l') /\ length l' <= length l /\
    forall i, S i < length l' -> nth_error l' i = nth_error l i }.

Lemma from_list_kcut ls ls' c es es' : cuts c ls ls' -> from_list ls = Ok es -> from_list ls' = Ok es' -> kpartly es es'.
Proof.
  intros C H H'. unfold from_list in H, H'.
  apply bind_ok in H as [l0 [H0 H]]. apply bind_ok in H as [l1 [H1 H]]. apply bind_ok in H as [t [T H]]. apply bind_ok in H as [num [N H]].
  apply bind_ok in H as [l2 [H2 H]]. apply bind_ok in H as [x [X H]].
  apply bind_ok in H' as [l0' [H0' H']]. apply bind_ok in H' as [l1' [H1' H']]. apply bind_ok in H' as [t' [T' H']]. apply bind_ok in H' as [num' [N' H']].
  apply bind_ok in H' as [l2' [H2' H']]. apply bind_ok in H' as [x' [X' H']].
  pose proof (line_there ls ls' c C 2 _ H2') as C2. rewrite (line_agree ls ls' c C) in H0, H1 by lia.
  rewrite H0 in H0'. apply Ok_inj in H0'. subst l0'. rewrite H1 in H1'. apply Ok_inj in H1'. subst l1'. rewrite T in T'. apply Ok_inj in T'. subst t'. rewrite N in N'. apply Ok_inj in N'. subst num'.
  destruct (line_prefix ls ls' c C 2 _ _ H2 H2') as [q Q]. assert (x' = x) as -> by (symmetry; exact (head_prefix l2 l2' q x x' Q X X')). clear H2 H2' Q X X'.
  apply bind_ok in H as [[[po te] vo] [HP H]]. apply bind_ok in H as [[[[ce di] gv] sh] [HA H]]. apply bind_ok in H as [pp [HL H]]. apply Ok_inj in H.
  apply bind_ok in H' as [[[po' te'] vo'] [HP' H']]. apply bind_ok in H' as [[[[ce' di'] gv'] sh'] [HA' H']]. apply bind_ok in H' as [pp' [HL' H']]. apply Ok_inj in H'.
  assert (ce' = ce /\ gv' = gv /\ (di' = di \/ sh' = KNone)) as (-> & -> & HD).
  { destruct (num <=? 0)%Z; [exact (automatic_agree ls ls' c C _ _ _ _ _ _ _ _ _ HA HA')|]. apply Ok_inj in HA, HA'. inversion HA. inversion HA'. subst. auto. }
  split.
  - intros k Hk. subst es es'. repeat (destruct Hk as [<-|Hk]; [reflexivity|]). destruct Hk.
  - intros M. destruct (aeqb (lower1 x) "l") eqn:EL. { exfalso. subst es. unfold holds in M. vm_compute in M. discriminate. }
    destruct (num <=? 0)%Z eqn:EA. { exfalso. subst es. unfold holds in M. vm_compute in M. discriminate. }
    cbn [negb andb] in HP, HP'. destruct (aeqb (lower1 x) "k" || aeqb (lower1 x) "c"); [discriminate|].
    apply bind_ok in HP as [pts [R HP]]. apply bind_ok in HP as [[te1 vo1] [_ HP]]. apply Ok_inj in HP. apply bind_ok in HP' as [pts' [R' HP']]. apply bind_ok in HP' as [[te1' vo1'] [_ HP']]. apply Ok_inj in HP'.
    inversion HP. inversion HP'. subst po po'. apply Ok_inj in HL, HL'. subst pp pp'. destruct (range_agree ls ls' c C _ _ _ _ _ R R') as (A1 & A2 & A3).
    exists pts, pts'. subst es es'. split; [reflexivity|]. split; [reflexivity|]. split; [lia|]. intros i Hi. symmetry. apply A3. lia.
  - assert (te' = KNone \/ te' = KList [] \/
      exists l l', te = KList l /\ te' = KList l' /\ length l' = length l /\ vo' = vo /\ forall i, S i < length l -> nth_error l' i = nth_error l i) as HT.
    { destruct (negb (num <=? 0)%Z && negb (aeqb (lower1 x) "l")).
      - destruct (aeqb (lower1 x) "k" || aeqb (lower1 x) "c"); [discriminate|].
        apply bind_ok in HP as [pts [R HP]]. apply bind_ok in HP as [[te1 vo1] [E HP]]. apply Ok_inj in HP. apply bind_ok in HP' as [pts' [R' HP']]. apply bind_ok in HP' as [[te1' vo1'] [E' HP']]. apply Ok_inj in HP'.
        inversion HP. inversion HP'. subst te1 vo1 te1' vo1'. exact (tetra_agree ls ls' c C _ _ _ _ _ E E').
      - apply Ok_inj in HP'. inversion HP'. left. reflexivity. }
    subst es es'. destruct HT as [-> |[-> |(l & l' & -> & -> & L & -> & A)]]; [left; reflexivity|right; left; reflexivity|right; right]. exists l, l'. split; [reflexivity|]. split; [reflexivity|]. split; [auto|]. split; [reflexivity|auto].
  - subst es es'. destruct HD as [-> | ->]; [left; reflexivity|right; reflexivity].
  - intros M. destruct (aeqb (lower1 x) "l") eqn:EL. 2:{ exfalso. subst es. destruct (num <=? 0)%Z; unfold holds in M; vm_compute in M; discriminate. }
    apply bind_ok in HL as [l3 [_ HL]]. apply bind_ok in HL as [w [_ HL]]. apply bind_ok in HL as [r [_ HL]]. destruct (aeqb (lower1 r) "r" || aeqb (lower1 r) "d"); [|discriminate].
    apply bind_ok in HL as [pts [R HL]]. apply Ok_inj in HL. subst pp.
    apply bind_ok in HL' as [l3' [_ HL']]. apply bind_ok in HL' as [w' [_ HL']]. apply bind_ok in HL' as [r' [_ HL']]. destruct (aeqb (lower1 r') "r" || aeqb (lower1 r') "d"); [|discriminate].
    apply bind_ok in HL' as [pts' [R' HL']]. apply Ok_inj in HL'. subst pp'.
    destruct (line_points_agree ls ls' c C _ _ R R') as [A1 A2]. exists pts, pts'. subst es es'. split; [reflexivity|]. split; [reflexivity|]. split; [exact A1|exact A2].
Qed.
(** Any text of lines that reads as a KPOINTS, and any prefix of it that still does. *)
Theorem C85_kpoints_cut : forall ch lines d rest es es', forallb nobreak lines = true -> d ++ rest = unlines lines ->
  kread ch (unlines lines) = Ok es -> kread ch d = Ok es' -> kpartly es es'.
Proof.
  intros ch lines d rest es es' NB D R R'. apply kread_ok in R as [R _]. apply kread_ok in R' as [R' _].
  destruct (cut_klines ch lines d rest NB D) as [c C]. exact (from_list_kcut _ _ c es es' C R R').
Qed.
Print Assumptions C85_kpoints_cut.

(** ** What the writer leaves *)
(** a blank line at the end of a line-mode file is not read *)
Lemma line_mode_blank x0 x1 x3 r : from_list (x0 :: x1 :: (lit "Line-mode" ++ [nl]) :: x3 :: r ++ [[nl]]) = from_list (x0 :: x1 :: (lit "Line-mode" ++ [nl]) :: x3 :: r).
Proof.
  assert (read_line_points (r ++ [[nl]]) = read_line_points r) as E.
  { unfold read_line_points. rewrite mapM_app. cbn [mapM]. change (seqb [nl] [nl]) with true. cbv iota. cbn [bind]. match goal with |- bind (bind ?m _) _ = _ => destruct m as [a|e] end; [|reflexivity]. cbn [bind].
    rewrite concat_app. cbn. rewrite app_nil_r. reflexivity. }
  unfold from_list. cbn [line_at py_nth nth_error of_option bind skipn]. rewrite E.
  destruct (py_nth (split_ws x1) 0) as [t|]; [|reflexivity]. cbn [bind]. destruct (get_int t) as [n|]; [|reflexivity]. cbn [bind].
  change (head_char (strip (lit "Line-mode" ++ [nl]))) with (Ok "L"%char). cbn [bind]. change (aeqb (lower1 "L") "l") with true. cbn [negb]. rewrite andb_false_r. cbv iota. cbn [bind].
  destruct (n <=? 0)%Z; reflexivity.
Qed.
Lemma alines_nobreak prec co cs di gv sh : comment_ok co -> smem cs centerings = true -> forallb nobreak (alines prec co cs di gv sh) = true.
Proof.
  intros C S. apply plain_shown in C. unfold alines. cbn [forallb]. unfold cline. rewrite comment_nobreak by auto. change (nobreak (lit "0")) with true.
  assert (nobreak cs = true) as ->. { apply smem_In in S. repeat (destruct S as [<-|S]; [reflexivity|]). destruct S. }
  rewrite !forallb_app. cbn [andb forallb]. rewrite fline_nobreak. rewrite !andb_true_r. apply andb_true_iff. split.
  - unfold di_lines. destruct (is_knone di); [reflexivity|]. cbn [forallb]. rewrite dline_nobreak. reflexivity.
  - destruct gv as [| | | | |l| |]; try reflexivity. cbn [gv_lines]. apply forallb_forall. intros x Hx. apply in_map_iff in Hx as [v [<- _]]. apply fline_nobreak.
Qed.
(** An interrupted write of a KPOINTS object over a file: what is left is the old content,
    or reads, when it reads at all, as part of what the complete file reads as. *)
Theorem C85_kpoints_crash_partial : forall prec es co txt old d ch es1 es', get_string prec es = Ok txt -> holds es "comment" co -> comment_ok co ->
  crash_content (kpoints_w prec es) old d -> d <> old -> (ch = FromString -> d <> txt ++ [nl]) ->
  kread ch txt = Ok es1 -> kread ch d = Ok es' -> kpartly es1 es'.
Proof.
  intros prec es co txt old d ch es1 es' G HC OC CR NO FS R R'.
  apply (Props_Io.C82_kpoints_crash prec es txt old d G) in CR as [->|CR]; [congruence|].
  assert (Props_Io.mode_is es "line" \/ ~ Props_Io.mode_is es "line" /\ exists ls, txt = unlines ls /\ forallb nobreak ls = true) as [M|(NM & ls & E & NB)].
  { pose proof G as G0. unfold get_string, write in G0. apply bind_ok in G0 as [u [_ G0]]. apply bind_ok in G0 as [c [C G0]]. apply bind_ok in G0 as [cs [CS G0]]. apply bind_ok in G0 as [m [M G0]].
    unfold key in C, M. assert (c = co) as ->. { unfold holds in HC. rewrite HC in C. inversion C. auto. }
    assert (cs = cline co) as ->. { destruct co; try discriminate; apply Ok_inj in CS; subst; reflexivity. }
    assert (nobreak (cline co) = true) as NC. { unfold cline. apply comment_nobreak, plain_shown. exact OC. }
    assert (dget (lit "mode") es = Some m) as DM by (destruct (dget (lit "mode") es); inversion M; auto).
    assert ((exists mode, m = KStr mode /\ (seqb mode (lit "explicit") = true \/ seqb mode (lit "automatic") = true \/ seqb mode (lit "line") = true)) \/
            m <> KStr (lit "line") /\ txt = unlines [cline co]) as [(mode & -> & D)|[NL E]].
    { destruct m as [|mode| | | | | |]; try (right; split; [discriminate|]; apply Ok_inj in G0; subst; cbn; rewrite app_nil_r; reflexivity).
      destruct (seqb mode (lit "explicit")) eqn:E1; [left; exists mode; auto|]. destruct (seqb mode (lit "automatic")) eqn:E2; [left; exists mode; auto|].
      destruct (seqb mode (lit "line")) eqn:E3; [left; exists mode; auto|]. right. split; [intros Q; apply seqb_neq in E3; congruence|]. apply Ok_inj in G0; subst; cbn; rewrite app_nil_r; reflexivity. }
    2:{ right. split; [unfold Props_Io.mode_is; congruence|]. exists [cline co]. split; [exact E|]. cbn [forallb]. rewrite NC. reflexivity. }
    destruct D as [D|[D|D]]; apply seqb_eq in D; subst mode.
    - right. split. { unfold Props_Io.mode_is. rewrite DM. intros Q. vm_compute in Q. discriminate. }
      destruct (write_explicit_inv prec es txt G DM) as (co' & ps & nz & te & vo & vol & C' & _ & _ & _ & _ & _ & _ & _ & _ & ->).
      assert (co' = co) as -> by (unfold holds in *; congruence). eexists. split; [reflexivity|]. apply elines_nobreak; auto.
    - right. split. { unfold Props_Io.mode_is. rewrite DM. intros Q. vm_compute in Q. discriminate. }
      destruct (write_automatic_inv prec es txt G DM) as (co' & cs & di & gv & sh & C' & _ & _ & _ & _ & _ & SM & _ & _ & _ & _ & _ & _ & ->).
      assert (co' = co) as -> by (unfold holds in *; congruence). eexists. split; [reflexivity|]. apply alines_nobreak; auto.
    - left. exact DM. }
  2:{ destruct CR as [[rest D]|[M _]]; [|contradiction]. rewrite E in D, R. eapply C85_kpoints_cut; eauto. }
  destruct (write_line_inv prec es txt G M) as (co' & ps & nu & C' & _ & _ & _ & _ & F & ET). assert (co' = co) as -> by (unfold holds in *; congruence). clear C'.
  set (ls := llines prec co ps (int_value nu)). assert (lines_text ls txt) as LT by (rewrite ET; apply ltext_lines).
  assert (forallb nobreak ls = true) as NB by (apply llines_nobreak; auto).
  assert (kread ch (unlines ls) = kread ch txt) as RE.
  { destruct (line_channels prec co ps (int_value nu) txt OC F LT) as (A1 & A2 & A3). destruct (line_channels prec co ps (int_value nu) (unlines ls) OC F (or_introl eq_refl)) as (B1 & B2 & B3).
    destruct ch; cbn [kread]; congruence. }
  assert (d = unlines ls ++ [nl] /\ ch <> FromString \/ exists rest, d ++ rest = unlines ls) as [[D CF]|[rest D]].
  { destruct CR as [[rest D]|[_ D]].
    - right. destruct LT as [LT|LT]; [exists rest; congruence|exists (rest ++ [nl])]. rewrite app_assoc, D. exact LT.
    - destruct LT as [LT|LT]; [left; split; [congruence|intros Q; apply (FS Q D)]|right; exists []]. rewrite app_nil_r. congruence. }
  2:{ apply (C85_kpoints_cut ch ls d rest); auto. congruence. }
  assert (kread ch d = kread ch txt) as ED.
  { rewrite <- RE. subst d. assert (unlines ls ++ [nl] = unlines (ls ++ [[]])) as EU by (rewrite unlines_app; reflexivity). rewrite EU.
    assert (forallb nobreak (ls ++ [[]]) = true) as NB2 by (rewrite forallb_app, NB; reflexivity).
    rewrite !kread_eq. assert (from_list (klines ch (unlines (ls ++ [[]]))) = from_list (klines ch (unlines ls))) as ->; [|reflexivity].
    rewrite <- (app_nil_r (unlines (ls ++ [[]]))), <- (app_nil_r (unlines ls)). rewrite !klines_piece by auto. change (seqb [] []) with true. cbv iota. rewrite !app_nil_r, map_app. cbn [map].
    destruct ch; [congruence| |]; cbn [keep app]; exact (line_mode_blank _ _ _ (map (fun l => l ++ [nl]) (paired2 (map (lpoint prec) ps)))). }
  rewrite ED, R in R'. apply Ok_inj in R'. subst es'. apply kread_ok in R as [R _].
  apply (from_list_kcut (klines ch txt) (klines ch txt) (length (klines ch txt)) es1 es1); auto. split; auto.
  intros l' Hl. assert (length (klines ch txt) < length (klines ch txt)) by (apply nth_error_Some; congruence). lia.
Qed.
Print Assumptions C85_kpoints_crash_partial.
(** an automatic mesh cut inside the divisions: read without an error, with two of the three
    divisions; cut inside the last one: with another one *)
Definition mesh_cut (p : string) : str := unlines (map lit ["# m"; "0"; "Gamma"]%string) ++ lit p.
Definition mesh_m : kentries := or_empty (kpoints_of_string (unlines (map lit ["# m"; "0"; "Gamma"; "4 4 12"; "0 0 0"]%string))).
Theorem C85_kpoints_mesh_refuted : exists prec es txt d d', get_string prec es = Ok txt /\ holds es "divisions" (kints [4; 4; 12]%Z) /\
  crash_content (kpoints_w prec es) [] d /\ (exists es', kread FromFile d = Ok es' /\ holds es' "divisions" (kints [4; 4]%Z)) /\
  crash_content (kpoints_w prec es) [] d' /\ (exists es', kread FromFile d' = Ok es' /\ holds es' "divisions" (kints [4; 4; 1]%Z)).
Proof.
  exists 2, mesh_m, (mesh_cut "     4      4     12" ++ [nl] ++ lit "  0.00   0.00   0.00" ++ [nl]), (mesh_cut "     4      4 "), (mesh_cut "     4      4     1").
  assert (get_string 2 mesh_m = Ok (mesh_cut "     4      4     12" ++ [nl] ++ lit "  0.00   0.00   0.00" ++ [nl])) as G by (vm_compute; reflexivity).
  split; [exact G|]. split; [vm_compute; reflexivity|]. split.
  { apply (Props_Io.C82_kpoints_crash 2 mesh_m _ [] _ G). right. left. exists (lit "    12" ++ [nl] ++ lit "  0.00   0.00   0.00" ++ [nl]). vm_compute. reflexivity. }
  split; [eexists; split; vm_compute; reflexivity|]. split.
  { apply (Props_Io.C82_kpoints_crash 2 mesh_m _ [] _ G). right. left. exists (lit "2" ++ [nl] ++ lit "  0.00   0.00   0.00" ++ [nl]). vm_compute. reflexivity. }
  eexists; split; vm_compute; reflexivity.
Qed.
Print Assumptions C85_kpoints_mesh_refuted.
(** a path cut after its first points: read without an error as a shorter path *)
Theorem C85_kpoints_line_refuted : exists prec es txt d, get_string prec es = Ok txt /\ holds es "mode" KLine /\
  crash_content (kpoints_w prec es) [] d /\
  exists es' l l', holds es "points" (KList l) /\ kread FromFile d = Ok es' /\ holds es' "points" (KList l') /\ length l = 4 /\ length l' = 3.
Proof.
  exists 3, line_obj. eexists. exists (unlines (map lit ["# path"; "    20"; "Line-mode"; "Direct"; "  0.000   0.000   0.000"; "  0.500   0.000   0.000"; ""; "  0.500   0.000   0.000"]%string)).
  split; [vm_compute; reflexivity|]. split; [vm_compute; reflexivity|]. split.
  { apply (Props_Io.C82_kpoints_crash 3 line_obj _ [] _ ltac:(vm_compute; reflexivity)). right. left. exists (lit "  0.500   0.500   0.000" ++ [nl]). vm_compute. reflexivity. }
  do 3 eexists. split; [vm_compute; reflexivity|]. split; [vm_compute; reflexivity|]. split; [vm_compute; reflexivity|]. split; reflexivity.
Qed.
Print Assumptions C85_kpoints_line_refuted.
Example C85_kpoints_crash_case : exists txt co d es1 es', get_string 3 line_obj = Ok txt /\ holds line_obj "comment" co /\ comment_ok co /\
  crash_content (kpoints_w 3 line_obj) (lit "old") d /\ d <> lit "old" /\ kread FromHandler txt = Ok es1 /\ kread FromHandler d = Ok es' /\ holds es1 "mode" KLine.
Proof.
  eexists. exists (KStr (lit "path")). exists (unlines (map lit ["# path"; "    20"; "Line-mode"; "Direct"; "  0.000   0.000   0.000"; "  0.500   0.000   0.000"; ""; "  0.500   0.000   0.000"]%string)). do 2 eexists.
  split; [vm_compute; reflexivity|]. split; [vm_compute; reflexivity|]. split.
  { split; [reflexivity|]. split; [intros H; repeat destruct H as [H|H]; try discriminate; destruct H|]. intros a H. repeat (destruct H as [<-|H]; [reflexivity|]). destruct H. }
  split. { apply (Props_Io.C82_kpoints_crash 3 line_obj _ (lit "old") _ ltac:(vm_compute; reflexivity)). right. left. exists (lit "  0.500   0.500   0.000" ++ [nl]). vm_compute. reflexivity. }
  split; [vm_compute; discriminate|]. split; [vm_compute; reflexivity|]. split; [vm_compute; reflexivity|]. vm_compute. reflexivity.
Qed.
