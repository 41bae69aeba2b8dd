(** Properties of the CHGCAR reader (C52, C66). *)
From Coq Require Import Ascii String List NArith ZArith QArith Qabs Bool Lia Lqa.
From Verif Require Import PyBase PyStrLemmas PyNum UtilsModel LineModel EigenvalModel ArithModel DoscarProofs EigenvalProofs Props_Outcar StreamConfig ChgcarModel ChgcarSpec ChgcarProofs.
Import ListNotations.
Local Open Scope list_scope.
Local Open Scope nat_scope.

Section All.
Variable A : cell_arith.
Notation density := (density_of (cparse A) (cdiv A)).
Notation cell := (cell_of (cparse A) (cmul A)).
Lemma init_text path handler c : chgcar_init A path handler = Ok c <-> exists t, source_text path handler t /\ from_text A t = Ok c.
Proof.
  unfold chgcar_init, source_text. split.
  - destruct (negb (is_some path) && negb (is_some handler))%bool; [discriminate|]. intros H. apply bind_ok in H as [t [H1 H2]]. exists t. split; auto. unfold read_text in H1. destruct handler as [h|]; [apply Ok_inj' in H1; subst; auto|]. destruct path as [[u|]|]; try discriminate. apply Ok_inj' in H1. eauto.
  - intros (t & [->|(-> & u & -> & ->)] & F); [destruct path; cbn; auto|cbn; auto].
Qed.
Lemma lattice_row_ok s l v : lattice_row A s l = Ok v <-> vector (cparse A) (cmul A) s l v.
Proof.
  unfold lattice_row, vector. split.
  - intros H. apply bind_ok in H as [xs [H1 H2]]. exists xs. split.
    + revert xs H1 H2. generalize (split_ws l). intros ws. induction ws as [|w ws IH]; intros xs H1 _; cbn [mapM] in H1; [apply Ok_inj' in H1; subst; auto|]. apply bind_ok in H1 as [x [X H1]]. apply bind_ok in H1 as [ys [Y H1]]. apply Ok_inj' in H1. subst xs. cbn [map]. destruct (cparse A w); [|discriminate]. cbn in X. apply Ok_inj' in X. subst. f_equal.
      clear IH. revert ys Y. induction ws as [|w' ws IH]; intros ys Y; cbn [mapM] in Y; [apply Ok_inj' in Y; subst; auto|]. apply bind_ok in Y as [x' [X Y]]. apply bind_ok in Y as [zs [Z1 Y]]. apply Ok_inj' in Y. subst ys. cbn [map]. destruct (cparse A w'); [|discriminate]. cbn in X. apply Ok_inj' in X. subst. f_equal. auto.
    + unfold broadcast in H2. rewrite map_length in H2. destruct (Nat.eqb_spec (length xs) 3); [apply Ok_inj' in H2; auto|]. right. destruct xs as [|x [|]]; try discriminate. apply Ok_inj' in H2. eauto.
  - intros (xs & H & K). assert (mapM (fun t => of_option ValueError (cparse A t)) (split_ws l) = Ok xs) as ->.
    { revert xs H K. generalize (split_ws l). intros ws xs H _. revert xs H. induction ws as [|w ws IH]; intros [|x xs] H; try discriminate; auto. cbn [map] in H. injection H as H1 H2. cbn [mapM]. rewrite H1. cbn [of_option bind]. rewrite (IH _ H2). auto. }
    cbn [bind]. unfold broadcast. rewrite map_length. destruct K as [[L ->]|[x [-> ->]]]; [rewrite L; auto|auto].
Qed.
Lemma grid_line_ok g zs : mapM to_int (split_ws g) = Ok zs <-> map parse_int (split_ws g) = map Some zs.
Proof.
  generalize (split_ws g). clear g. intros ws. revert zs. induction ws as [|w ws IH]; intros zs; cbn [mapM map].
  - split; [intros H; apply Ok_inj' in H; subst; auto|]. destruct zs; [auto|discriminate].
  - unfold to_int at 1. split.
    + intros H. apply bind_ok in H as [z [Z1 H]]. apply bind_ok in H as [ys [Y H]]. apply Ok_inj' in H. subst zs. destruct (parse_int w); [|discriminate]. cbn in Z1. apply Ok_inj' in Z1. subst. cbn [map]. f_equal. apply IH. auto.
    + destruct zs as [|z zs]; [discriminate|]. cbn [map]. intros H. injection H as H1 H2. rewrite H1. cbn [of_option bind]. apply IH in H2. rewrite H2. auto.
Qed.
(** everything a successful reading says *)
Definition reading (t : str) (c : chgcar A) (header g data : str) (sets : list str) (nx ny nz : nat) (volume : cnum A) : Prop :=
  layout t header g data /\ grid_line g nx ny nz /\ pieces g data sets /\
  (exists s v0 v1 v2, cell header s v0 v1 v2 /\ volume = cvolume A v0 v1 v2) /\
  (exists d0, nth_error sets 0 = Some d0 /\ density volume nx ny nz d0 (ch_total c)) /\
  match sets with
  | [_; d1] => exists m, ch_magnetization c = MagOne m /\ density volume nx ny nz d1 m
  | [_; d1; d2; d3] => exists mx my mz, ch_magnetization c = MagXYZ mx my mz /\ density volume nx ny nz d1 mx /\ density volume nx ny nz d2 my /\ density volume nx ny nz d3 mz
  | _ => ch_magnetization c = MagNone
  end.
Lemma header_nth h i l : py_nth (split_on nl h) i = Ok l <-> header_line h i l.
Proof. unfold py_nth, header_line. destruct (nth_error (split_on nl h) i); cbn; split; intros H; try discriminate; [apply Ok_inj' in H; subst; auto|congruence]. Qed.
Lemma grid_nonempty g nx ny nz : grid_line g nx ny nz -> g <> [].
Proof. intros H ->. discriminate. Qed.
Lemma from_text_ok t c : from_text A t = Ok c -> exists header g data sets nx ny nz volume, reading t c header g data sets nx ny nz volume.
Proof.
  unfold from_text. intros H. apply bind_ok in H as [[header body] [H1 H]]. cbn [fst snd] in H. apply bind_ok in H as [l1 [L1 H]]. apply bind_ok in H as [s [S1 H]]. apply bind_ok in H as [l2 [L2 H]]. apply bind_ok in H as [v0 [V0 H]]. apply bind_ok in H as [l3 [L3 H]]. apply bind_ok in H as [v1 [V1 H]]. apply bind_ok in H as [l4 [L4 H]]. apply bind_ok in H as [v2 [V2 H]].
  apply bind_ok in H as [[g data] [H2 H]]. cbn [fst snd] in H. apply bind_ok in H as [zs [G H]]. apply bind_ok in H as [sets [SE H]]. apply bind_ok in H as [d0 [D0 H]]. apply bind_ok in H as [total [TO H]].
  destruct (cut [nl; nl] t) as [[header' body']|] eqn:C1; [|discriminate]. apply Ok_inj' in H1. injection H1 as -> ->. destruct (cut [nl] body) as [[g' data']|] eqn:C2; [|discriminate]. apply Ok_inj' in H2. injection H2 as -> ->. apply cut_some in C1, C2.
  apply header_nth in L1, L2, L3, L4. apply lattice_row_ok in V0, V1, V2. destruct (cparse A l1) as [s'|] eqn:P1; [|discriminate]. cbn in S1. apply Ok_inj' in S1. subst s'. apply grid_line_ok in G.
  assert (g <> []) as NE by (intros ->; discriminate). assert (sets = split_str 0 g data) as -> by (destruct g; [congruence|]; apply Ok_inj' in SE; auto). clear SE. pose proof (split_str_pieces g data NE) as PC. set (sets := split_str 0 g data) in *.
  set (vol := cvolume A v0 v1 v2) in *. pose proof TO as TO'. apply dataset_ok in TO' as (nz & ny & nx & E & DT). assert (zs = [Z.of_nat nx; Z.of_nat ny; Z.of_nat nz]) as EZ. { rewrite <- (rev_involutive zs), E. auto. } subst zs.
  assert (forall d a, dataset A (rev [Z.of_nat nx; Z.of_nat ny; Z.of_nat nz]) vol d = Ok a -> density vol nx ny nz d a) as DS.
  { intros d a D. apply dataset_ok in D as (nz' & ny' & nx' & E' & D). cbn [rev app] in E'. injection E' as E1 E2 E3. apply Nat2Z.inj in E1, E2, E3. subst. auto. }
  exists header, g, data, sets, nx, ny, nz, vol. split; [exists body; auto|]. split; [auto|]. split; [auto|]. split; [exists s, v0, v1, v2; split; [exists l1, l2, l3, l4; auto 10|auto]|].
  assert (ch_total c = total) as ET. { clear -H. destruct sets as [|x0 [|x1 [|x2 [|x3 [|]]]]]; repeat (apply bind_ok in H as [? [_ H]]); apply Ok_inj' in H; subst c; auto. }
  split; [exists d0; split; [|rewrite ET; apply DS; auto]|].
  - unfold py_nth in D0. destruct (nth_error sets 0); [|discriminate]. cbn in D0. apply Ok_inj' in D0. subst. auto.
  - clearbody sets. clear -H DS. destruct sets as [|x0 [|x1 [|x2 [|x3 [|]]]]]; try (apply Ok_inj' in H; subst c; reflexivity).
    + apply bind_ok in H as [m [M H]]. apply Ok_inj' in H. subst c. exists m. auto.
    + apply bind_ok in H as [mx [M1 H]]. apply bind_ok in H as [my [M2 H]]. apply bind_ok in H as [mz [M3 H]]. apply Ok_inj' in H. subst c. exists mx, my, mz. auto 10.
Qed.

(** ** C52: the layout of the arrays *)
(** For every accepted CHGCAR and every number system: charge_density[z][y][x] is number
    x + nx (y + ny z) of the first data set divided by the volume, and so are the
    magnetisation densities for two and four data sets ([density_of]). *)
Theorem C52_grid path handler c : chgcar_init A path handler = Ok c ->
  exists t header g data sets nx ny nz volume, source_text path handler t /\ reading t c header g data sets nx ny nz volume.
Proof. intros H. apply init_text in H as (t & ST & H). apply from_text_ok in H as (h & g & d & se & nx & ny & nz & v & R). exists t, h, g, d, se, nx, ny, nz, v. auto. Qed.
(** what the text says is unambiguous *)
Theorem C52_unambiguous path handler t t' header g data header' g' data' sets sets' : source_text path handler t -> source_text path handler t' ->
  layout t header g data -> layout t' header' g' data' -> pieces g data sets -> pieces g' data' sets' -> t = t' /\ header = header' /\ g = g' /\ data = data' /\ sets = sets'.
Proof.
  intros S1 S2 L1 L2 P1 P2. assert (t = t') as ->. { destruct S1 as [->|(-> & u & -> & ->)], S2 as [E|(E & u' & E' & ->)]; try congruence. }
  destruct (layout_fun _ _ _ _ _ _ _ L1 L2) as (-> & -> & ->). rewrite (pieces_fun _ _ _ _ P1 P2). auto.
Qed.
Theorem C52_density_unambiguous volume nx ny nz d a b : density volume nx ny nz d a -> density volume nx ny nz d b ->
  forall x y z v w, x < nx -> y < ny -> z < nz -> grid_at a z y x v -> grid_at b z y x w -> v = w.
Proof.
  intros (p & vs & P & R & L & _ & V) (p' & vs' & P' & R' & L' & _ & V') x y z v w X Y Z1 G G'. rewrite (density_part_fun _ _ _ P' P) in R'. rewrite (reads_fun A _ _ _ R' R) in V'.
  destruct (V _ _ _ X Y Z1) as (k & K & GK). destruct (V' _ _ _ X Y Z1) as (k' & K' & GK'). rewrite (grid_at_fun _ _ _ _ _ _ G GK), (grid_at_fun _ _ _ _ _ _ G' GK'). congruence.
Qed.
(** a data set that can be read *)
Definition good_set (nx ny nz : nat) (d : str) : Prop :=
  exists part vs, density_part d part /\ existsb odd_char part = false /\ reads (cparse A) (split_ws part) vs /\ length vs = nx * ny * nz.
Lemma good_dataset nx ny nz vol d : good_set nx ny nz d -> exists a, dataset A (rev [Z.of_nat nx; Z.of_nat ny; Z.of_nat nz]) vol d = Ok a.
Proof. intros (p & vs & P & O & R & L). cbn [rev app]. eapply dataset_accepts; eauto. Qed.
Lemma from_text_accepts t header g data sets nx ny nz s v0 v1 v2 : layout t header g data -> grid_line g nx ny nz -> pieces g data sets -> cell header s v0 v1 v2 ->
  match sets with [d0] => good_set nx ny nz d0 | [d0; d1] => good_set nx ny nz d0 /\ good_set nx ny nz d1
  | [d0; d1; d2; d3] => good_set nx ny nz d0 /\ good_set nx ny nz d1 /\ good_set nx ny nz d2 /\ good_set nx ny nz d3 | d0 :: _ => good_set nx ny nz d0 | [] => True end ->
  exists c, from_text A t = Ok c.
Proof.
  intros [body [F1 F2]] G P (l1 & l2 & l3 & l4 & L1 & L2 & L3 & L4 & S1 & V0 & V1 & V2) GS. apply cut_some in F1, F2. unfold from_text. rewrite F1. cbn [of_option bind fst snd]. apply header_nth in L1, L2, L3, L4. apply lattice_row_ok in V0, V1, V2. rewrite L1, L2, L3, L4. cbn [bind]. rewrite S1. cbn [of_option bind]. rewrite V0, V1, V2. cbn [bind]. rewrite F2. cbn [of_option bind fst snd].
  pose proof (grid_nonempty _ _ _ _ G) as NE. apply grid_line_ok in G. rewrite G. cbn [bind].
  assert (match g with [] => Exn ValueError | _ => Ok (split_str 0 g data) end = Ok sets) as -> by (destruct g; [congruence|]; f_equal; eapply pieces_fun; eauto; apply split_str_pieces; auto). cbn [bind].
  assert (sets <> []) as NS by (inversion P; discriminate). destruct sets as [|d0 sets]; [congruence|]. unfold py_nth. cbn [nth_error of_option bind].
  assert (good_set nx ny nz d0) as G0 by (destruct sets as [|d1 [|d2 [|d3 [|]]]]; tauto). set (vol := cvolume A v0 v1 v2). destruct (good_dataset _ _ _ vol _ G0) as [total ->]. cbn [bind].
  destruct sets as [|d1 [|d2 [|d3 [|]]]]; eauto.
  - destruct GS as [_ G1]. destruct (good_dataset _ _ _ vol _ G1) as [m ->]. cbn [bind]. eauto.
  - destruct GS as (_ & G1 & G2 & G3). destruct (good_dataset _ _ _ vol _ G1) as [mx ->]. destruct (good_dataset _ _ _ vol _ G2) as [my ->]. destruct (good_dataset _ _ _ vol _ G3) as [mz ->]. cbn [bind]. eauto.
Qed.
(** every file in the format, with one, two or four complete data sets, is accepted *)
Theorem C52_accepts path handler t header g data sets nx ny nz s v0 v1 v2 : source_text path handler t -> layout t header g data -> grid_line g nx ny nz -> pieces g data sets -> cell header s v0 v1 v2 ->
  length sets = 1 \/ length sets = 2 \/ length sets = 4 -> Forall (good_set nx ny nz) sets -> exists c, chgcar_init A path handler = Ok c.
Proof.
  intros ST L G P C LS F. assert (exists c, from_text A t = Ok c) as [c E].
  { eapply from_text_accepts; eauto. rewrite Forall_forall in F. destruct sets as [|d0 [|d1 [|d2 [|d3 [|]]]]]; cbn [length] in LS; try lia; repeat split; apply F; cbn; auto. }
  exists c. apply init_text. eauto.
Qed.

(** ** C66: incomplete files *)
(** a data set that is used and has too few or too many numbers: the file is refused *)
Theorem C66_wrong_count path handler c t header g data sets nx ny nz i d part vs : source_text path handler t -> layout t header g data -> grid_line g nx ny nz -> pieces g data sets ->
  nth_error sets i = Some d -> i = 0 \/ length sets = 2 \/ length sets = 4 -> density_part d part -> reads (cparse A) (split_ws part) vs -> length vs <> nx * ny * nz ->
  chgcar_init A path handler <> Ok c.
Proof.
  intros ST L G P N U D R W H. destruct (C52_grid _ _ _ H) as (t' & h' & g' & d' & se' & nx' & ny' & nz' & vol & ST' & L' & G' & P' & _ & (d0 & N0 & D0) & M). destruct (C52_unambiguous _ _ _ _ _ _ _ _ _ _ _ _ ST ST' L L' P P') as (_ & _ & <- & _ & <-).
  unfold grid_line in G, G'. rewrite G in G'. cbn [map] in G'. injection G' as E1 E2 E3. apply Nat2Z.inj in E1, E2, E3. subst nx' ny' nz'.
  assert (forall a, ~ density vol nx ny nz d a) as ND. { intros a (p' & vs' & Q & R' & L1 & _). rewrite (density_part_fun _ _ _ Q D) in R'. rewrite (reads_fun A _ _ _ R' R) in L1. contradiction. }
  destruct i as [|i]; [assert (d0 = d) by congruence; subst; eapply ND; eauto|].
  destruct sets as [|x0 [|x1 [|x2 [|x3 [|]]]]]; cbn [length] in U; try (exfalso; lia).
  - destruct M as (m & _ & M). destruct i as [|i]; cbn in N; [injection N as ->; eapply ND; eauto|destruct i; discriminate].
  - destruct M as (mx & my & mz & _ & M1 & M2 & M3). destruct i as [|[|[|i]]]; cbn in N; [injection N as ->; eapply ND; eauto..|destruct i; discriminate].
Qed.
(** A file of a non-collinear run cut inside its third data set (three data sets; or any
    number above four) is accepted whatever the later data sets are, and reported as if
    it had no magnetisation *)
Theorem C66_third_set_refuted path handler t header g data sets nx ny nz s v0 v1 v2 d0 : source_text path handler t -> layout t header g data -> grid_line g nx ny nz -> pieces g data sets -> cell header s v0 v1 v2 ->
  length sets = 3 \/ 4 < length sets -> nth_error sets 0 = Some d0 -> good_set nx ny nz d0 -> exists c, chgcar_init A path handler = Ok c /\ ch_magnetization c = MagNone.
Proof.
  intros ST L G P C LS N GS. assert (exists c, from_text A t = Ok c) as [c E].
  { eapply from_text_accepts; eauto. destruct sets as [|x0 [|x1 [|x2 [|x3 [|]]]]]; cbn [length] in LS; try lia; cbn in N; injection N as ->; auto. }
  assert (chgcar_init A path handler = Ok c) as I by (apply init_text; eauto). exists c. split; auto.
  destruct (C52_grid _ _ _ I) as (t' & h' & g' & d' & se' & nx' & ny' & nz' & vol & ST' & L' & G' & P' & _ & _ & M). destruct (C52_unambiguous _ _ _ _ _ _ _ _ _ _ _ _ ST ST' L L' P P') as (_ & _ & _ & _ & <-).
  destruct sets as [|x0 [|x1 [|x2 [|x3 [|]]]]]; cbn [length] in LS; try lia; auto.
Qed.
(** Whatever follows a complete data set is ignored, if its first word does not begin like a number *)
Theorem C66_junk_refuted ws vs j rest : Forall (fun w => exists x, is_num (cparse A) w x) ws -> reads (cparse A) ws vs -> (forall p r y, j = p ++ r -> ~ is_num (cparse A) p y) ->
  reads (cparse A) (ws ++ j :: rest) vs.
Proof.
  intros F. revert vs. induction F as [|w ws [x N] F IH]; intros vs R J; cbn [app].
  - inversion R; subst. apply rd_other. auto.
  - inversion R as [|w' x' ws' xs' N' R'|w' p' r' x' ws' E' NE' N' M'|w' ws' NN']; subst.
    + constructor; auto.
    + exfalso. specialize (M' (p' ++ r') [] x). rewrite app_nil_r in M'. specialize (M' eq_refl N). rewrite app_length in M'. destruct r'; [congruence|cbn in M'; lia].
    + exfalso. apply (NN' w [] x); auto. rewrite app_nil_r. auto.
Qed.
(** without an empty line there is no header: IndexError *)
Theorem C66_no_empty_line path handler t : source_text path handler t -> (forall a b, t <> a ++ [nl; nl] ++ b) -> chgcar_init A path handler = Exn IndexError.
Proof.
  intros ST N. apply cut_none in N. assert (from_text A t = Exn IndexError) as E by (unfold from_text; rewrite N; reflexivity).
  destruct ST as [->|(-> & u & -> & ->)]; unfold chgcar_init; [destruct path; cbn; auto|cbn; auto].
Qed.
Theorem C66_exit_codes path handler c : chgcar_init A path handler = Exn (SysExit c) ->
  (c = 10%Z /\ path = None /\ handler = None) \/ (c = 14%Z /\ path = Some None /\ handler = None).
Proof.
  assert (forall t, noexits (from_text A t)) as NE.
  { clear c. intros t. unfold from_text, dataset, fromstring, reshape, lattice_row, broadcast, py_nth, to_int. cbv zeta. repeat noexits_step. all: intros ?; discriminate. }
  unfold chgcar_init. destruct handler as [h|].
  - destruct path; cbn [is_some negb andb read_text bind]; intros H; apply NE in H; destruct H.
  - destruct path as [[txt|]|]; cbn [is_some negb andb read_text bind]; intros H; [apply NE in H; destruct H| |]; inversion H; auto.
Qed.
End All.

(** ** The volume, in exact arithmetic *)
Definition exact_cell (header : str) (s a1 a2 a3 b1 b2 b3 c1 c2 c3 : Q) : Prop :=
  exists l1 l2 l3 l4, header_line header 1 l1 /\ header_line header 2 l2 /\ header_line header 3 l3 /\ header_line header 4 l4 /\ qparse l1 = Some s /\
    map qparse (split_ws l2) = map Some [a1; a2; a3] /\ map qparse (split_ws l3) = map Some [b1; b2; b3] /\ map qparse (split_ws l4) = map Some [c1; c2; c3].
Lemma map_Some_inj {B} (xs ys : list B) : map Some xs = map Some ys -> xs = ys.
Proof. revert ys. induction xs as [|x xs IH]; intros [|y ys] H; try discriminate; auto. cbn [map] in H. injection H as -> H. f_equal. auto. Qed.
Lemma vector_three s l a1 a2 a3 v : map qparse (split_ws l) = map Some [a1; a2; a3] -> vector qparse Qmult s l v -> v = [s * a1; s * a2; s * a3]%Q.
Proof. intros H (xs & X & [[_ ->]|(x & -> & _)]); rewrite H in X; apply map_Some_inj in X; [subst xs; auto|discriminate]. Qed.
(** each value of the charge density is the number of the file divided by the (signed)
    volume s^3 det(a, b, c) of the cell *)
Theorem C52_exact path handler c t header g data sets nx ny nz d0 part vs s a1 a2 a3 b1 b2 b3 c1 c2 c3 : chgcar_init cell_exact path handler = Ok c ->
  source_text path handler t -> layout t header g data -> grid_line g nx ny nz -> pieces g data sets -> exact_cell header s a1 a2 a3 b1 b2 b3 c1 c2 c3 ->
  nth_error sets 0 = Some d0 -> density_part d0 part -> reads qparse (split_ws part) vs ->
  forall x y z, x < nx -> y < ny -> z < nz -> exists v u, nth_error vs (x + nx * (y + ny * z)) = Some v /\ grid_at (ch_total c) z y x u /\
    (u == v / (s * s * s * det3 a1 a2 a3 b1 b2 b3 c1 c2 c3))%Q.
Proof.
  intros H ST L G P (l1 & l2 & l3 & l4 & L1 & L2 & L3 & L4 & S1 & V0 & V1 & V2) N DP R x y z X Y Z1.
  destruct (C52_grid _ _ _ _ H) as (t' & h' & g' & d' & se' & nx' & ny' & nz' & vol & ST' & L' & G' & P' & (s' & v0 & v1 & v2 & (m1 & m2 & m3 & m4 & M1 & M2 & M3 & M4 & PS & W0 & W1 & W2) & VO) & (d0' & N' & D') & _). cbn [cnum cparse cmul cdiv cvolume cell_exact] in *.
  destruct (C52_unambiguous _ _ _ _ _ _ _ _ _ _ _ _ ST ST' L L' P P') as (_ & <- & <- & _ & <-). unfold grid_line in G, G'. rewrite G in G'. cbn [map] in G'. injection G' as E1 E2 E3. apply Nat2Z.inj in E1, E2, E3. subst nx' ny' nz'.
  unfold header_line in *. assert (m1 = l1) by congruence. assert (m2 = l2) by congruence. assert (m3 = l3) by congruence. assert (m4 = l4) by congruence. subst m1 m2 m3 m4. assert (s' = s) by congruence. assert (d0' = d0) by congruence. subst s' d0'.
  apply (vector_three _ _ _ _ _ _ V0) in W0. apply (vector_three _ _ _ _ _ _ V1) in W1. apply (vector_three _ _ _ _ _ _ V2) in W2. subst v0 v1 v2.
  destruct D' as (p' & vs' & DP' & R' & _ & _ & V). rewrite (density_part_fun _ _ _ DP' DP) in R'. rewrite (reads_fun cell_exact _ _ _ R' R) in V. destruct (V _ _ _ X Y Z1) as (v & K & GA). exists v, (v / vol)%Q. split; auto. split; auto.
  assert (vol == s * s * s * det3 a1 a2 a3 b1 b2 b3 c1 c2 c3)%Q as ->; [|reflexivity]. rewrite VO. unfold qvolume, det3. ring.
Qed.
(** For a left-handed cell the code divides by the negative of the volume: every value
    has the wrong sign *)
Theorem C52_left_handed_refuted path handler c t header g data sets nx ny nz d0 part vs s a1 a2 a3 b1 b2 b3 c1 c2 c3 : chgcar_init cell_exact path handler = Ok c ->
  source_text path handler t -> layout t header g data -> grid_line g nx ny nz -> pieces g data sets -> exact_cell header s a1 a2 a3 b1 b2 b3 c1 c2 c3 ->
  nth_error sets 0 = Some d0 -> density_part d0 part -> reads qparse (split_ws part) vs -> let volume := Qabs (s * s * s * det3 a1 a2 a3 b1 b2 b3 c1 c2 c3) in
  (0 < s)%Q -> (det3 a1 a2 a3 b1 b2 b3 c1 c2 c3 < 0)%Q ->
  forall x y z, x < nx -> y < ny -> z < nz -> exists v u, nth_error vs (x + nx * (y + ny * z)) = Some v /\ grid_at (ch_total c) z y x u /\ (u == - (v / volume))%Q.
Proof.
  intros H ST L G P C N DP R volume S1 D x y z X Y Z1. destruct (C52_exact _ _ _ _ _ _ _ _ _ _ _ _ _ _ _ _ _ _ _ _ _ _ _ _ H ST L G P C N DP R _ _ _ X Y Z1) as (v & u & K & GA & E). exists v, u. split; auto. split; auto. rewrite E.
  set (det := det3 a1 a2 a3 b1 b2 b3 c1 c2 c3) in *. assert (s * s * s * det < 0)%Q as NV. { assert (0 < s * s)%Q by (apply (Qmult_lt_0_compat s s); auto). assert (0 < s * s * s)%Q by (apply Qmult_lt_0_compat; auto). setoid_replace (s * s * s * det)%Q with (- ((s * s * s) * (- det)))%Q by ring. assert (0 < (s * s * s) * (- det))%Q by (apply Qmult_lt_0_compat; [auto|lra]). lra. }
  unfold volume. rewrite Qabs_neg by lra. field. split; lra.
Qed.

(** ** Examples *)
Definition chg_file (ls : list string) : source_handler := Some (flat_map (fun l => lit l ++ [nl]) ls).
Definition chg_head : list string := ["comment"; "  2.0"; " 1.0 0.0 0.0"; " 0.0 1.0 0.0"; " 0.0 0.5 1.0"; " H"; " 1"; "Direct"; " 0.0 0.0 0.0"; ""; "  2  3  1"]%string.
Definition set1 : list string := [" 8.0 16.0 24.0 32.0"; " 40.0 48.0"; "augmentation occupancies   1  2"; " 0.5 0.25"]%string.
Definition set2 : list string := ["  2  3  1"; " -8.0 0.0 0.0 0.0"; " 0.0 80.0"; "augmentation occupancies   1  2"; " 0.5 0.25"]%string.
Definition show (a : list (list (list Q))) : list (list (list Q)) := map (map (map Qred)) a.
Example spin_read : match chgcar_init cell_exact None (chg_file (chg_head ++ set1 ++ set2)) with
  | Ok c => show (ch_total c) = [[[1; 2]; [3; 4]; [5; 6]]]%Q /\ match ch_magnetization c with MagOne m => show m = [[[-1; 0]; [0; 0]; [0; 10]]]%Q | _ => False end
  | _ => False end.
Proof. vm_compute. auto. Qed.
(** the same file with doubles *)
Example spin_read64 : match chgcar_init (cell64 (fun _ _ _ => FFin false 1 3)) None (chg_file (chg_head ++ set1)) with
  | Ok c => ch_total c = [[[FFin false 1 0; FFin false 1 1]; [FFin false 3 0; FFin false 1 2]; [FFin false 5 0; FFin false 3 1]]] | _ => False end.
Proof. vm_compute. reflexivity. Qed.
Example divided : map (fun p => fdiv (fst p) (snd p)) [(FFin false 1 0, FFin true 3 0); (FFin false 5 1, FFin false 5 0); (FFin false 1 0, FFin true 0 0); (FInf true, FFin true 1 0)]
  = [FFin true 6004799503160661 (-54); FFin false 1 1; FInf true; FInf false].
Proof. vm_compute. reflexivity. Qed.
(** three data sets: no magnetisation; too few numbers: refused *)
Example three_sets : match chgcar_init cell_exact None (chg_file (chg_head ++ set1 ++ set2 ++ ["  2  3  1"; " 1.0"]%string)) with Ok c => ch_magnetization c = MagNone | _ => False end.
Proof. vm_compute. reflexivity. Qed.
Example short_set : chgcar_init cell_exact None (chg_file (chg_head ++ firstn 1 set1)) = Exn ValueError.
Proof. vm_compute. reflexivity. Qed.
(** the parts the theorems speak of, for this file *)
Definition chg_text : str := Eval vm_compute in match chg_file (chg_head ++ set1 ++ set2) with Some t => t | None => [] end.
Definition chg_data : str := Eval vm_compute in flat_map (fun l => lit l ++ [nl]) (set1 ++ set2).
Definition chg_header : str := Eval vm_compute in removelast (flat_map (fun l => lit l ++ [nl]) (firstn 9 chg_head)).
Definition chg_sets : list str := Eval vm_compute in split_str 0 (lit "  2  3  1") chg_data.
Lemma all_good n ws : (forall w, In w ws -> existsb (aeqb "_") w = false /\ is_some (qparse w) = true) -> length ws = n -> exists vs, reads qparse ws vs /\ length vs = n.
Proof.
  revert n. induction ws as [|w ws IH]; intros n F L; [exists []; split; [constructor|auto]|]. destruct n as [|n]; [discriminate|]. destruct (IH n) as [vs [R E]]; [intros; apply F; cbn; auto|cbn in L; lia|].
  destruct (F w (or_introl eq_refl)) as [U P]. destruct (qparse w) as [x|] eqn:X; [|discriminate]. exists (x :: vs). split; [|cbn; auto]. constructor; auto. apply (cnumber_ok cell_exact). unfold cnumber. rewrite U. auto.
Qed.
Example sample_meets : source_text None (chg_file (chg_head ++ set1 ++ set2)) chg_text /\ layout chg_text chg_header (lit "  2  3  1") chg_data /\ grid_line (lit "  2  3  1") 2 3 1 /\ pieces (lit "  2  3  1") chg_data chg_sets /\ length chg_sets = 2 /\
  exact_cell chg_header 2 1 0 0 0 1 0 0 (1 # 2) 1 /\ Forall (good_set cell_exact 2 3 1) chg_sets.
Proof.
  split; [left; vm_compute; reflexivity|]. split; [eexists; split; apply cut_some; vm_compute; reflexivity|]. split; [vm_compute; reflexivity|]. split; [apply split_str_pieces; discriminate|]. split; [reflexivity|]. split.
  - eexists _, _, _, _. repeat split; vm_compute; reflexivity.
  - assert (forall d, (let p := match cut occupancies d with Some (a, _) => a | None => d end in existsb odd_char p = false /\ length (split_ws p) = 6 /\ forallb (fun w => negb (existsb (aeqb "_") w) && is_some (qparse w)) (split_ws p) = true) -> good_set cell_exact 2 3 1 d) as K.
    { intros d (O & L & F). destruct (all_good 6 _ ltac:(intros w W; rewrite forallb_forall in F; specialize (F w W); apply andb_true_iff in F as [F1 F2]; rewrite negb_true_iff in F1; split; [exact F1|exact F2]) L) as [vs [R E]]. eexists _, vs. split; [apply density_part_cut|]. auto. }
    repeat (constructor; [apply K; vm_compute; auto|]). constructor.
Qed.
(** the first two lattice vectors exchanged: every density is negative *)
Example left_handed : match chgcar_init cell_exact None (chg_file (["comment"; "  2.0"; " 0.0 1.0 0.0"; " 1.0 0.0 0.0"; " 0.0 0.5 1.0"; ""; "  2  3  1"]%string ++ set1)) with
  | Ok c => show (ch_total c) = [[[-1; -2]; [-3; -4]; [-5; -6]]]%Q | _ => False end /\ (det3 0 1 0 1 0 0 0 (1 # 2) 1 < 0)%Q.
Proof. vm_compute. auto. Qed.
