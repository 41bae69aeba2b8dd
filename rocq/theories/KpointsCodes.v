From Coq Require Import Ascii String List NArith ZArith Bool Lia Arith.
From Verif Require Import PyBase PyNum PyStrLemmas PyNumLemmas PyFmtLemmas PyLines UtilsModel KpointsModel KpointsSpec KpointsProofs KpointsRoundTrip KpointsModes KpointsEdits.
Import ListNotations.
Local Open Scope list_scope.
Local Open Scope bool_scope.
Local Open Scope nat_scope.

Lemma prefixb_spec p l : prefixb p l = true <-> exists b, l = p ++ b.
Proof.
  revert l. induction p as [|a p IH]; intros l; cbn [prefixb].
  - split; [intros _; exists l; reflexivity|auto].
  - destruct l as [|c l]; [split; [discriminate|intros [b H]; discriminate]|].
    rewrite andb_true_iff, IH. split.
    + intros [H [b ->]]. apply aeqb_eq in H. subst. exists b. reflexivity.
    + intros [b H]. inversion H; subst. split; [apply aeqb_eq; auto|eauto].
Qed.
Lemma substrb_spec p l : substrb p l = true <-> exists a b, l = a ++ p ++ b.
Proof.
  induction l as [|c l IH]; cbn [substrb]; rewrite orb_true_iff, prefixb_spec.
  - split.
    + intros [[b H]|H]; [|discriminate]. exists [], b. exact H.
    + intros [a [b H]]. left. destruct a; [exists b; exact H|discriminate].
  - rewrite IH. split.
    + intros [[b H]|[a [b ->]]]; [exists [], b; exact H|exists (c :: a), b; reflexivity].
    + intros [[|x a] [b H]]; [left; exists b; exact H|right]. inversion H; subst. eauto.
Qed.

Lemma read_range_exn {A} ls s n (f : str -> res A) k l e : k < n ->
  (forall i, i < k -> exists l v, nth_error ls (s + i) = Some l /\ f l = Ok v) ->
  nth_error ls (s + k) = Some l -> f l = Exn e -> read_range ls s n f = Exn e.
Proof.
  unfold read_range. revert s n. induction k as [|k IH]; intros s n Hk H Hl Hf.
  - destruct n as [|n]; [lia|]. cbn [seq mapM]. unfold line_at, py_nth. rewrite Nat.add_0_r in Hl. rewrite Hl. cbn [of_option bind].
    rewrite Hf. reflexivity.
  - destruct n as [|n]; [lia|]. cbn [seq mapM]. destruct (H 0 ltac:(lia)) as [l0 [v [H1 H2]]].
    unfold line_at at 1, py_nth. rewrite Nat.add_0_r in H1. rewrite H1. cbn [of_option bind]. rewrite H2. cbn [bind].
    rewrite (IH (S s) n); auto; [lia| |].
    + intros i Hi. destruct (H (S i) ltac:(lia)) as [l1 [v1 [K1 K2]]]. exists l1, v1. split; auto.
      replace (S s + i) with (s + S i) by lia. exact K1.
    + replace (S s + k) with (s + S k) by lia. exact Hl.
Qed.
Lemma read_range_short {A} ls s n (f : str -> res A) : length ls < s + n -> 0 < n -> exists e, read_range ls s n f = Exn e.
Proof.
  intros H Hn. destruct (read_range ls s n f) as [vs|e] eqn:E; eauto. apply read_range_ok in E. lia.
Qed.

(** ** Codes *)
Lemma body_cartesian ls n c : (0 < n)%Z -> c = "k"%char \/ c = "c"%char -> body ls n c = Exn (SysExit 200).
Proof.
  intros H C. unfold body. assert (n <=? 0 = false)%Z as -> by (apply Z.leb_gt; lia).
  destruct C as [-> | ->]; reflexivity.
Qed.
Lemma body_line_cartesian ls n l q r t : nth_error ls 3 = Some l -> split_ws l = (r :: q) :: t ->
  lower1 r <> "r"%char -> lower1 r <> "d"%char -> body ls n "l" = Exn (SysExit 200).
Proof.
  intros H3 S R1 R2. unfold body. change (aeqb "l" "l") with true. rewrite andb_false_r. cbn [bind].
  assert ((if (n <=? 0)%Z then read_automatic "l" ls else Ok (KNone, KNone, KNone, KNone)) = Ok (KNone, KNone, KNone, KNone)) as ->
    by (destruct (n <=? 0)%Z; reflexivity).
  cbn [bind]. unfold line_at, py_nth. rewrite H3. cbn [of_option bind]. rewrite S. cbn [nth_error of_option bind head_char].
  assert (aeqb (lower1 r) "r" = false) as -> by (apply aeqb_neq; auto).
  assert (aeqb (lower1 r) "d" = false) as -> by (apply aeqb_neq; auto). reflexivity.
Qed.
Lemma body_auto ls n c : (n <= 0)%Z -> c <> "l"%char ->
  body ls n c = (let* (ce, di, gv, sh) := read_automatic c ls in Ok (KNone, KNone, KNone, ce, di, gv, sh, lit "automatic")).
Proof.
  intros H C. unfold body. assert (n <=? 0 = true)%Z as -> by (apply Z.leb_le; lia).
  assert (aeqb c "l" = false) as -> by (apply aeqb_neq; auto). cbn [negb andb bind].
  destruct (read_automatic c ls) as [[[[ce di] gv] sh]|]; reflexivity.
Qed.
Lemma body_explicit ls n c : (0 < n)%Z -> c <> "l"%char -> c <> "k"%char -> c <> "c"%char ->
  body ls n c = (let* pts := read_range ls 3 (Z.to_nat n) read_point in
                 let* (te, v) := read_tetra ls (Z.to_nat n + 3) in
                 Ok (KList pts, te, v, KNone, KNone, KNone, KNone, lit "explicit")).
Proof.
  intros H C1 C2 C3. unfold body. assert (n <=? 0 = false)%Z as -> by (apply Z.leb_gt; lia).
  assert (aeqb c "l" = false) as -> by (apply aeqb_neq; auto).
  assert (aeqb c "k" = false) as -> by (apply aeqb_neq; auto).
  assert (aeqb c "c" = false) as -> by (apply aeqb_neq; auto). cbn [negb andb orb].
  destruct (read_range _ _ _ _); cbn [bind]; auto. destruct (read_tetra _ _) as [[te v]|]; reflexivity.
Qed.

Lemma mapM_good {A B} (f : A -> res B) l : Forall (fun a => exists b, f a = Ok b) l -> exists r, mapM f l = Ok r.
Proof.
  induction 1 as [|a l [b H] _ [r IH]]; [exists []; auto|]. cbn [mapM]. rewrite H. cbn [bind]. rewrite IH. cbn. eauto.
Qed.

(** explicit file with a tetrahedron line that does not have five entries *)
Lemma tetra_201 h0 h1 h2 pts tl hl tets bad rest c t q m vol :
  let n := Z.of_nat (length pts) in
  let ls := h0 :: h1 :: h2 :: pts ++ tl :: hl :: tets ++ bad :: rest in
  count_line ls n -> letter_line ls 2 c -> pts <> [] ->
  lower1 c <> "l"%char -> lower1 c <> "k"%char -> lower1 c <> "c"%char ->
  Forall (fun l => exists x y z w, point_line l x y z w) pts ->
  strip tl = t :: q -> lower1 t = "t"%char ->
  (exists a b r, split_ws hl = a :: b :: r /\ parse_int a = Some m /\ parse_float b = Some vol) ->
  Forall (fun l => exists zs, five_ints l zs) tets ->
  (Z.of_nat (length tets) < m)%Z -> length (split_ws bad) <> 5 ->
  from_list ls = Exn (SysExit 201).
Proof.
  intros n ls Hn Hc Hne C1 C2 C3 FP ST Ht (a & b & r & SH & PA & PB) FT Hm Hb.
  rewrite (from_list_body ls n c Hn Hc). rewrite body_explicit; auto.
  2: { unfold n. destruct pts; [congruence|]. cbn [length]. lia. }
  unfold n at 1 2. rewrite Nat2Z.id.
  pose proof (range_slice read_point [h0; h1; h2] pts (tl :: hl :: tets ++ bad :: rest)) as R. cbn [length app] in R.
  fold ls in R. rewrite R. clear R.
  destruct (mapM_good read_point pts) as [vs ->].
  { eapply Forall_impl; [|exact FP]. intros l (x & y & z & w & P). eexists. apply read_point_ok. eauto 10. }
  cbn [bind].
  assert (read_tetra ls (length pts + 3) = Exn (SysExit 201)) as ->; [|reflexivity].
  set (pre := h0 :: h1 :: h2 :: pts).
  assert (ls = pre ++ tl :: hl :: tets ++ bad :: rest) as -> by reflexivity.
  assert (length pts + 3 = length pre) as -> by (unfold pre; cbn [length]; lia).
  clearbody pre. clear Hn Hc.
  unfold read_tetra. rewrite app_length. cbn [length]. rewrite app_length. cbn [length].
  replace (length pre <? _) with true by (symmetry; apply Nat.ltb_lt; lia).
  replace (S (length pre) <? _) with true by (symmetry; apply Nat.ltb_lt; lia).
  unfold line_at, py_nth. rewrite nth_error_mid. cbn [of_option bind]. rewrite ST. cbn [head_char bind].
  rewrite Ht. change (aeqb "t" "t") with true. cbv iota.
  rewrite (nth_error_app2 pre) by lia. replace (S (length pre) - length pre) with 1 by lia. cbn [nth_error of_option bind].
  rewrite SH. cbn [nth_error of_option bind]. unfold get_int at 1, get_float at 1. rewrite PA, PB. cbn [of_option bind].
  rewrite (read_range_exn _ _ _ _ (length tets) bad (SysExit 201)); auto.
  - lia.
  - intros i Hi. rewrite nth_error_app2 by lia. replace (S (S (length pre)) + i - length pre) with (S (S i)) by lia.
    cbn [nth_error]. rewrite nth_error_app1 by lia.
    destruct (nth_error tets i) as [l|] eqn:E; [|apply nth_error_None in E; lia].
    rewrite Forall_forall in FT. apply nth_error_In in E. destruct (FT l E) as [zs F].
    exists l, (kints zs). split; auto. apply read_tetra_line_ok. eauto.
  - rewrite nth_error_app2 by lia. replace (S (S (length pre)) + length tets - length pre) with (S (S (length tets))) by lia.
    cbn [nth_error]. apply nth_error_mid.
  - unfold read_tetra_line. apply Nat.eqb_neq in Hb. rewrite Hb. reflexivity.
Qed.

Lemma read_tetra_sound ls lm te vo : read_tetra ls lm = Ok (te, vo) ->
  te = KNone \/ exists l, te = KList l /\ Forall (fun v => exists zs, length zs = 5 /\ v = kints zs) l.
Proof.
  unfold read_tetra. destruct (lm <? length ls); [|intros [= <- <-]; auto]. intros H.
  apply bind_ok in H as [l [_ H]]. apply bind_ok in H as [c [_ H]].
  destruct (aeqb _ _); [|inversion H; auto]. destruct (S lm <? length ls); [|inversion H; subst; right; exists []; auto].
  apply bind_ok in H as [fl [_ H]]. apply bind_ok in H as [t0 [_ H]]. apply bind_ok in H as [m [_ H]].
  apply bind_ok in H as [t1 [_ H]]. apply bind_ok in H as [v [_ H]]. apply bind_ok in H as [ts [H1 H]].
  inversion H; subst. right. exists ts. split; auto. unfold read_range in H1. apply mapM_ok_Forall2 in H1.
  clear H. induction H1 as [|i x a b H _ IH]; constructor; auto.
  apply bind_ok in H as [k [_ H]]. apply read_tetra_line_ok in H as [zs [[L _] ->]]. eauto.
Qed.

(** what an accepted text looks like *)
Lemma accepted_sound ls es : from_list ls = Ok es -> validate es = Ok tt ->
  exists n c, count_line ls n /\ letter_line ls 2 c /\ holds es "num_kpoints" (KInt n) /\
    ((lower1 c = "l"%char /\ holds es "mode" KLine /\
      exists l r q t, nth_error ls 3 = Some l /\ split_ws l = (r :: q) :: t /\ (lower1 r = "r"%char \/ lower1 r = "d"%char)) \/
     ((0 < n)%Z /\ lower1 c <> "l"%char /\ lower1 c <> "k"%char /\ lower1 c <> "c"%char /\ holds es "mode" KExplicit /\
      exists pts te, holds es "points" (KList pts) /\ holds es "tetra" te /\ Z.of_nat (length pts) = n /\
        Forall2 (fun l v => exists x y z w, point_line l x y z w /\ v = KPt (Kpoint [x; y; z] w true))
                (firstn (Z.to_nat n) (skipn 3 ls)) pts /\
        (te = KNone \/ exists l, te = KList l /\ Forall (fun v => exists zs, length zs = 5 /\ v = kints zs) l)) \/
     ((n <= 0)%Z /\ (lower1 c = "g"%char \/ lower1 c = "m"%char \/ lower1 c = "r"%char) /\ holds es "mode" KAutomatic)).
Proof.
  intros F V. destruct (from_list_ok_head ls es F) as [n [c [Hn Hc]]]. exists n, c. split; auto. split; auto.
  rewrite (from_list_body ls n c Hn Hc) in F.
  destruct (body ls n (lower1 c)) as [[[[[[[[po te] vo] ce] di] gv] sh] mo]|] eqn:B; [|discriminate].
  cbn [bind] in F. inversion F. clear F. split; [reflexivity|].
  destruct (aeqb (lower1 c) "l") eqn:L.
  - left. apply aeqb_eq in L. rewrite L in B. split; auto. unfold body in B. change (aeqb "l" "l") with true in B.
    rewrite andb_false_r in B. cbn [bind] in B.
    apply bind_ok in B as [[[[x1 x2] x3] x4] [_ B]]. apply bind_ok in B as [po' [B1 B]]. inversion B; subst. split; [reflexivity|].
    apply bind_ok in B1 as [l [B1 B2]]. unfold line_at, py_nth in B1. destruct (nth_error ls 3) as [l3|] eqn:E3; [|discriminate].
    inversion B1; subst. apply bind_ok in B2 as [w [B2 B3]]. unfold py_nth in B2. destruct (split_ws l) as [|w' t] eqn:S; [discriminate|].
    inversion B2; subst. apply bind_ok in B3 as [r [B3 B4]]. destruct w as [|r' q]; [discriminate|]. inversion B3; subst.
    exists l, r, q, t. split; auto. split; auto.
    destruct (aeqb (lower1 r) "r") eqn:R; [left; apply aeqb_eq; auto|]. destruct (aeqb (lower1 r) "d") eqn:D; [right; apply aeqb_eq; auto|].
    discriminate.
  - right. apply aeqb_neq in L. destruct (Z.le_gt_cases n 0) as [Hz|Hz].
    + right. split; auto. rewrite body_auto in B by auto.
      apply bind_ok in B as [[[[x1 x2] x3] x4] [B1 B]]. inversion B; subst. split; [|reflexivity].
      unfold read_automatic in B1. destruct (aeqb (lower1 c) "a"); [discriminate|].
      destruct (aeqb (lower1 c) "g") eqn:G; [left; apply aeqb_eq; auto|].
      destruct (aeqb (lower1 c) "m") eqn:M; [right; left; apply aeqb_eq; auto|].
      destruct (aeqb (lower1 c) "r") eqn:R; [right; right; apply aeqb_eq; auto|]. cbn [orb] in B1.
      destruct (aeqb (lower1 c) "d" || aeqb (lower1 c) "c"); [discriminate|]. inversion B1; subst.
      exfalso. unfold validate in V. cbn in V. discriminate.
    + left. split; [lia|]. split; auto.
      assert (lower1 c <> "k"%char) as K1.
      { intros K. rewrite body_cartesian in B by (auto; lia). discriminate. }
      assert (lower1 c <> "c"%char) as K2.
      { intros K. rewrite body_cartesian in B by (auto; lia). discriminate. }
      rewrite body_explicit in B by (auto; lia).
      apply bind_ok in B as [pts [B1 B]]. apply bind_ok in B as [[te' v'] [B2 B]]. inversion B; subst.
      repeat split; auto. exists pts, te. split; [reflexivity|]. split; [reflexivity|].
      pose proof (read_range_ok _ _ _ _ _ B1) as RL. destruct RL as [RL|RL]; [|lia].
      rewrite read_range_eq in B1 by auto. apply mapM_ok_Forall2 in B1.
      pose proof (Forall2_len _ _ _ B1) as LE. rewrite firstn_length, skipn_length in LE.
      split; [lia|]. split.
      * eapply Forall2_weaken; [|exact B1]. intros l v _ H. apply read_point_ok. exact H.
      * eapply read_tetra_sound; eauto.
Qed.

(** not line mode: channels see the same lines up to trailing newlines *)
Lemma klines_from_list ls ch : forallb nobreak ls = true ->
  (forall c, letter_line ls 2 c -> lower1 c <> "l"%char) -> from_list (klines ch (unlines ls)) = from_list ls.
Proof.
  intros N L.
  assert (from_list (map (fun l => l ++ [nl]) ls) = from_list ls) as F.
  { symmetry. apply from_list_same; [|left; auto].
    clear. induction ls; cbn [map]; constructor; auto. unfold lsame. rewrite strip_nl. reflexivity. }
  destruct ch; cbn [klines].
  - rewrite splitlines_unlines; auto.
  - rewrite translate_nochange by (apply unlines_nocr; auto). rewrite readlines_unlines by (auto using forallb_nobreak_nonl). exact F.
  - rewrite readlines_unlines by (auto using forallb_nobreak_nonl). exact F.
Qed.
Lemma elines_letter prec co ps n te vol c : letter_line (elines prec co ps n te vol) 2 c -> lower1 c <> "l"%char.
Proof. intros (l & r & H & S). cbn in H. inversion H; subst. cbn in S. inversion S. discriminate. Qed.
Lemma elines_letter_D prec co ps n te vol : letter_line (elines prec co ps n te vol) 2 "D".
Proof. exists (lit "Direct"), (lit "irect"). split; reflexivity. Qed.
Lemma elines_count prec co ps n te vol : count_line (elines prec co ps n te vol) n.
Proof.
  exists (fmtd6 n), (str_of_Z n), []. split; [reflexivity|]. split; [apply split_ws_fmtd|apply parse_int_str].
Qed.

(** one point less than announced cannot be read *)
Lemma short_elines prec co ps n te vol : Forall three ps -> (Z.of_nat (length ps) < n)%Z -> ok_tetra te = true ->
  exists e, from_list (elines prec co ps n te vol) = Exn e.
Proof.
  intros F Hn T. rewrite (from_list_body _ n "D" (elines_count _ _ _ _ _ _) (elines_letter_D _ _ _ _ _ _)).
  change (lower1 "D") with "d"%char. rewrite body_explicit by (try discriminate; lia).
  assert (exists e, read_range (elines prec co ps n te vol) 3 (Z.to_nat n) read_point = Exn e) as [e ->]; [|eexists; reflexivity].
  destruct te as [| | | | |l| |]; try discriminate.
  - apply read_range_short; [|lia]. unfold elines. cbn [length tblock]. rewrite app_nil_r, map_length. lia.
  - destruct (read_point (lit "Tetrahedra")) as [v|e] eqn:E; [vm_compute in E; discriminate|].
    exists e. apply (read_range_exn _ _ _ _ (length ps) (lit "Tetrahedra")); auto; [lia| |].
    + intros i Hi. destruct (nth_error ps i) as [p|] eqn:P; [|apply nth_error_None in P; lia].
      exists (pline prec p), (KPt (point_image prec p)). split.
      * unfold elines. cbn [Nat.add nth_error]. rewrite nth_error_app1 by (rewrite map_length; lia). apply map_nth_error. exact P.
      * apply pline_read. apply nth_error_In in P. rewrite Forall_forall in F; auto.
    + unfold elines. cbn [Nat.add nth_error]. rewrite nth_error_app2 by (rewrite map_length; lia).
      rewrite map_length, Nat.sub_diag. reflexivity.
Qed.

Lemma write_explicit_eq prec es co ps n te vo vol : validate es = Ok tt -> holds es "mode" KExplicit ->
  holds es "comment" co -> ok_comment co = true -> holds es "points" (KList (map KPt ps)) -> Forall three ps ->
  holds es "num_kpoints" n -> is_int n = true -> holds es "tetra" te -> holds es "tetra_volume" vo ->
  ok_tetra te = true -> (te = KNone \/ vo = KFloat vol) ->
  get_string prec es = Ok (unlines (elines prec co ps (int_value n) te vol)).
Proof.
  intros V M C OC P F N I T Vo OT TV. unfold get_string, write. rewrite V. cbn [bind].
  unfold holds in *. unfold key at 1. rewrite C. cbn [of_option bind].
  assert ((match co with KNone => Ok (lit "# No comment") | KStr s => Ok (lit "# " ++ s) | _ => Exn TypeError end) = Ok (cline co)) as E.
  { destruct co; try discriminate; reflexivity. }
  rewrite E. cbn [bind]. unfold key. rewrite M. cbn [of_option bind KExplicit].
  change (seqb (lit "explicit") (lit "explicit")) with true. cbv iota.
  unfold write_explicit, key. rewrite N, P. cbn [of_option bind]. unfold as_int. rewrite I. cbn [bind points_of].
  destruct (write_points_eq prec ps F) as [ss [-> E2]]. cbn [bind].
  rewrite (write_tetra_eq prec es te vo vol T Vo OT TV). cbn [bind]. f_equal.
  unfold elines. rewrite !unlines_cons, unlines_app, E2. asc. reflexivity.
Qed.
Lemma holds_set_same es k v : holds (dset (lit k) v es) k v.
Proof. apply dget_dset_same. Qed.
Lemma holds_set_other es k k' v w : lit k' <> lit k -> holds es k' w -> holds (dset (lit k) v es) k' w.
Proof. intros H K. unfold holds. rewrite dget_dset_other; auto. Qed.
Lemma valid_set_points es co po po' ce di gv sh mo nu te vo : valid es co po ce di gv sh mo nu te vo ->
  ok_points po' = true -> is_knone po' = false ->
  valid (dset (lit "points") po' es) co po' ce di gv sh mo nu te vo.
Proof.
  intros [A1 A2 A3 A4 A5 A6 A7 A8 A9 A10 S T] O K.
  constructor; try (apply holds_set_other; [discriminate|assumption]); [apply holds_set_same| |].
  - rewrite K, andb_false_r. reflexivity.
  - repeat (apply andb_true_iff in T as [T ?]). rewrite O. repeat (apply andb_true_iff; split); auto.
Qed.

Lemma delete_unreadable prec es l i txt : validate es = Ok tt -> holds es "mode" KExplicit ->
  holds es "points" (KList l) -> holds es "num_kpoints" (KInt (Z.of_nat (length l))) -> i < length l ->
  (forall co, holds es "comment" co -> comment_ok co) ->
  get_string prec es = Ok txt ->
  exists es' txt', delete_point es (KInt (Z.of_nat i)) = Ok es' /\ get_string prec es' = Ok txt' /\
    forall ch, exists e, kread ch txt' = Exn e.
Proof.
  intros V M P N Hi Hc W.
  destruct (delete_point_spec es l (Z.of_nat i) V P) as [D _].
  specialize (D i). rewrite D by (split; auto). clear D.
  destruct (write_explicit_inv prec es txt W M) as (co & ps & nz & te & vo & vol & C & P' & _ & T & Vo & OC & OT & F & TV & _).
  unfold holds in P, P'. rewrite P in P'. inversion P'. subst l. clear P'. rewrite map_length in *.
  set (ps' := firstn i ps ++ skipn (S i) ps).
  assert (firstn i (map KPt ps) ++ skipn (S i) (map KPt ps) = map KPt ps') as ->.
  { unfold ps'. rewrite map_app, firstn_map, skipn_map. reflexivity. }
  set (es' := dset (lit "points") (KList (map KPt ps')) es).
  assert (Forall three ps') as F'.
  { unfold ps'. rewrite Forall_forall in *. intros x Hx. apply F. apply in_app_or in Hx as [Hx|Hx].
    - rewrite <- (firstn_skipn i ps). apply in_or_app; auto.
    - rewrite <- (firstn_skipn (S i) ps). apply in_or_app; auto. }
  assert (length ps' < length ps) as L.
  { unfold ps'. rewrite app_length, firstn_length, skipn_length. lia. }
  assert (validate es' = Ok tt) as V'.
  { apply validate_spec in V as (co' & po & ce & di & gv & sh & mo & nu & te' & vo' & V).
    apply validate_spec. do 10 eexists. eapply valid_set_points; eauto. }
  exists es', (unlines (elines prec co ps' (Z.of_nat (length ps)) te vol)). split; [reflexivity|]. split.
  - rewrite (write_explicit_eq prec es' co ps' (KInt (Z.of_nat (length ps))) te vo vol); auto;
      try (apply holds_set_other; [discriminate|auto]). apply holds_set_same.
  - intros ch. destruct (short_elines prec co ps' (Z.of_nat (length ps)) te vol F' ltac:(lia) OT) as [e E].
    exists e. apply kread_exn. rewrite klines_from_list; auto.
    + apply elines_nobreak. auto.
    + intros c. apply elines_letter.
Qed.
