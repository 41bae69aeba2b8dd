(** Lemmas for the CHGCAR model. *)
From Coq Require Import Ascii String List NArith ZArith Bool Lia.
From Verif Require Import PyBase PyStrLemmas PyNum UtilsModel LineModel EigenvalModel KpointsCodes ChgcarModel ChgcarSpec DoscarProofs EigenvalProofs StreamConfig.
Import ListNotations.
Local Open Scope list_scope.

Lemma nth_error_Some_lt {B} (l : list B) i x : nth_error l i = Some x -> i < length l.
Proof. intros H. apply nth_error_Some. congruence. Qed.
(** ** Occurrences *)
Lemma first_in_fun sep t a b a' b' : first_in sep t a b -> first_in sep t a' b' -> a = a' /\ b = b'.
Proof.
  intros [E1 L1] [E2 L2]. pose proof (L1 _ _ E2). pose proof (L2 _ _ E1). assert (length a = length a') as L by lia.
  rewrite E1 in E2. assert (a = a' /\ sep ++ b = sep ++ b') as [-> E]. { clear -E2 L. revert a' L E2. induction a as [|x a IH]; intros [|y a'] L E; try discriminate; auto. cbn in E. injection E as -> E. injection L as L. destruct (IH _ L E) as [-> ->]. auto. }
  split; auto. apply app_inv_head in E. auto.
Qed.
Lemma cut_ok sep t : match cut sep t with Some (a, b) => first_in sep t a b | None => forall a b, t <> a ++ sep ++ b end.
Proof.
  induction t as [|c t IH]; cbn [cut].
  - destruct (prefixb sep []) eqn:P.
    + apply prefixb_spec in P as [b P]. destruct sep; [|discriminate]. cbn. split; auto. intros. cbn. lia.
    + intros a b E. destruct a; [|discriminate]. cbn in E. destruct sep; [discriminate|discriminate].
  - destruct (prefixb sep (c :: t)) eqn:P.
    + apply prefixb_spec in P as [b P]. rewrite P. rewrite skipn_app, skipn_all, Nat.sub_diag. cbn [skipn app]. split; auto. intros. cbn. lia.
    + assert (forall b, c :: t <> sep ++ b) as NP. { intros b E. assert (prefixb sep (c :: t) = true) by (apply prefixb_spec; eauto). congruence. }
      destruct (cut sep t) as [[a b]|].
      * destruct IH as [-> IH]. split; auto. intros [|x a'] b' E; [exfalso; eapply NP; cbn in E; eauto|]. cbn in E. injection E as -> E. apply IH in E. cbn. lia.
      * intros [|x a] b E; [eapply NP; cbn in E; eauto|]. cbn in E. injection E as -> E. eapply IH; eauto.
Qed.
Lemma cut_some sep t a b : cut sep t = Some (a, b) <-> first_in sep t a b.
Proof.
  pose proof (cut_ok sep t) as H. split.
  - intros E. rewrite E in H. auto.
  - intros F. destruct (cut sep t) as [[a' b']|]; [destruct (first_in_fun _ _ _ _ _ _ H F) as [-> ->]; auto|]. destruct F as [-> _]. destruct (H a b). auto.
Qed.
Lemma cut_none sep t : cut sep t = None <-> forall a b, t <> a ++ sep ++ b.
Proof.
  pose proof (cut_ok sep t) as H. split; [intros E; rewrite E in H; auto|]. intros N. destruct (cut sep t) as [[a b]|]; auto. destruct H as [-> _]. destruct (N a b). auto.
Qed.
Lemma split_str_skip sep n t : split_str n sep t = split_str 0 sep (skipn n t).
Proof. revert n. induction t as [|c t IH]; intros [|n]; auto. cbn [split_str skipn]. apply IH. Qed.
Lemma split_str_cut sep t : sep <> [] -> split_str 0 sep t = match cut sep t with Some (a, b) => a :: split_str 0 sep b | None => [t] end.
Proof.
  intros NE. induction t as [|c t IH]; cbn [split_str cut].
  - destruct (prefixb sep []) eqn:P; auto. apply prefixb_spec in P as [b P]. destruct sep; [congruence|discriminate].
  - destruct (prefixb sep (c :: t)) eqn:P.
    + rewrite split_str_skip. f_equal. destruct sep as [|s0 sep]; [congruence|]. cbn [length]. replace (S (length sep) - 1) with (length sep) by lia. auto.
    + rewrite IH. destruct (cut sep t) as [[a b]|]; auto.
Qed.
Lemma cut_shorter sep t a b : sep <> [] -> cut sep t = Some (a, b) -> length b < length t.
Proof. intros NE H. apply cut_some in H as [-> _]. rewrite !app_length. destruct sep; [congruence|]. cbn. lia. Qed.
Lemma split_str_pieces sep t : sep <> [] -> pieces sep t (split_str 0 sep t).
Proof.
  intros NE. remember (length t) as n eqn:L. assert (length t <= n) as LE by lia. clear L. revert t LE. induction n as [|n IH]; intros t LE.
  - destruct t; [|cbn in LE; lia]. cbn. constructor. intros a b E. destruct a; [|discriminate]. destruct sep; [congruence|discriminate].
  - rewrite split_str_cut by auto. destruct (cut sep t) as [[a b]|] eqn:C.
    + pose proof (cut_shorter _ _ _ _ NE C). apply cut_some in C. econstructor; eauto. apply IH. lia.
    + constructor. apply cut_none. auto.
Qed.
Lemma pieces_fun sep t ps ps' : pieces sep t ps -> pieces sep t ps' -> ps = ps'.
Proof.
  intros H. revert ps'. induction H as [t N|t a b ps F P IH]; intros ps' H'; inversion H' as [t' N'|t' a' b' qs F' P']; subst; auto.
  - destruct F' as [E _]. destruct (N _ _ E).
  - destruct F as [E _]. destruct (N' _ _ E).
  - destruct (first_in_fun _ _ _ _ _ _ F F') as [-> ->]. f_equal. auto.
Qed.
Lemma density_part_fun d p p' : density_part d p -> density_part d p' -> p = p'.
Proof.
  intros [[b F]|[N ->]] [[b' F']|[N' ->]]; auto.
  - destruct (first_in_fun _ _ _ _ _ _ F F'). auto.
  - destruct F as [E _]. destruct (N' _ _ E).
  - destruct F' as [E _]. destruct (N _ _ E).
Qed.
Lemma density_part_cut d : density_part d (match cut occupancies d with Some (a, _) => a | None => d end).
Proof. pose proof (cut_ok occupancies d) as H. destruct (cut occupancies d) as [[a b]|]; [left; eauto|right; auto]. Qed.
Lemma layout_fun t h g d h' g' d' : layout t h g d -> layout t h' g' d' -> h = h' /\ g = g' /\ d = d'.
Proof.
  intros [b [F G]] [b' [F' G']]. destruct (first_in_fun _ _ _ _ _ _ F F') as [-> ->]. destruct (first_in_fun _ _ _ _ _ _ G G') as [-> ->]. auto.
Qed.

(** ** Numbers *)
Section Num.
Variable A : cell_arith.
Notation is_num := (is_num (cparse A)). Notation reads := (reads (cparse A)).
Lemma cnumber_ok w x : cnumber A w = Some x <-> is_num w x.
Proof.
  unfold cnumber, ChgcarSpec.is_num. destruct (existsb (aeqb "_") w) eqn:E.
  - split; [discriminate|]. intros [N _]. apply existsb_exists in E as [c [C D]]. apply aeqb_eq in D. subst c. contradiction.
  - split; [|tauto]. intros H. split; auto. intros C. assert (existsb (aeqb "_") w = true) by (apply existsb_exists; eexists; split; eauto; apply aeqb_eq; auto). congruence.
Qed.
Lemma strtod_ok n w : n <= length w -> match strtod A n w with
  | Some (x, r) => exists p, w = p ++ r /\ is_num p x /\ forall p' r' y, w = p' ++ r' -> length p' <= n -> is_num p' y -> length p' <= length p
  | None => forall p r y, w = p ++ r -> length p <= n -> ~ is_num p y end.
Proof.
  induction n as [|n IH]; intros L; cbn [strtod].
  - cbn [firstn skipn]. destruct (cnumber A []) as [x|] eqn:E.
    + exists []. split; auto. split; [apply cnumber_ok; auto|]. intros. cbn. lia.
    + intros [|c p] r y P Lp N; [|cbn in Lp; lia]. apply cnumber_ok in N. congruence.
  - destruct (cnumber A (firstn (S n) w)) as [x|] eqn:E.
    + exists (firstn (S n) w). split; [symmetry; apply firstn_skipn|]. split; [apply cnumber_ok; auto|]. intros p' r' y -> Lp N. rewrite firstn_length. rewrite app_length in *. lia.
    + specialize (IH ltac:(lia)). assert (forall p r y, w = p ++ r -> length p = S n -> ~ is_num p y) as NS.
      { intros p r y -> Lp N. rewrite <- Lp in E. rewrite firstn_app, firstn_all, Nat.sub_diag in E. cbn [firstn] in E. rewrite app_nil_r in E. apply cnumber_ok in N. congruence. }
      destruct (strtod A n w) as [[x r]|].
      * destruct IH as (p & P & N & M). exists p. split; auto. split; auto. intros p' r' y P' Lp N'. destruct (Nat.eq_dec (length p') (S n)) as [D|D]; [destruct (NS _ _ _ P' D N')|]. eapply M; eauto. lia.
      * intros p r y P Lp N. destruct (Nat.eq_dec (length p) (S n)) as [D|D]; [eapply NS; eauto|]. eapply IH; eauto. lia.
Qed.
Lemma strtod_whole w x r : strtod A (length w) w = Some (x, r) -> r = [] -> is_num w x.
Proof. intros H ->. pose proof (strtod_ok (length w) w (le_n _)) as K. rewrite H in K. destruct K as (p & -> & N & _). rewrite app_nil_r. auto. Qed.
Lemma leading_reads ws : reads ws (leading_numbers A ws).
Proof.
  induction ws as [|w ws IH]; cbn [leading_numbers]; [constructor|]. pose proof (strtod_ok (length w) w (le_n _)) as K. destruct (strtod A (length w) w) as [[x [|c r]]|].
  - destruct K as (p & -> & N & _). rewrite app_nil_r. constructor; auto.
  - destruct K as (p & P & N & M). eapply rd_prefix; eauto; [discriminate|]. intros p' r' y P' N'. eapply M; eauto. rewrite P'. rewrite app_length. lia.
  - apply rd_other. intros p r y P. eapply K; eauto. rewrite P, app_length. lia.
Qed.
Lemma app_same_length {B} (p p' r r' : list B) : p ++ r = p' ++ r' -> length p = length p' -> p = p' /\ r = r'.
Proof. revert p'. induction p as [|x p IH]; intros [|y p'] E L; try discriminate; auto. cbn in E, L. injection E as -> E. injection L as L. destruct (IH _ E L) as [-> ->]. auto. Qed.
Lemma reads_fun ws xs ys : reads ws xs -> reads ws ys -> xs = ys.
Proof.
  intros H. revert ys. induction H as [|w x ws xs N R IH|w p r x ws E NE N M|w ws NN]; intros ys H'; inversion H' as [|w' x' ws' xs' N' R'|w' p' r' x' ws' E' NE' N' M'|w' ws' NN']; subst; auto.
  - destruct N as [_ N], N' as [_ N']. rewrite N in N'. injection N' as ->. f_equal. auto.
  - specialize (M' (p' ++ r') [] x). rewrite app_nil_r in M'. specialize (M' eq_refl N). rewrite app_length in M'. destruct r'; [congruence|cbn in M'; lia].
  - specialize (NN' w [] x). rewrite app_nil_r in NN'. destruct (NN' eq_refl N).
  - specialize (M (p ++ r) [] x'). rewrite app_nil_r in M. specialize (M eq_refl N'). rewrite app_length in M. destruct r; [congruence|cbn in M; lia].
  - pose proof (M _ _ _ E' N'). pose proof (M' _ _ _ eq_refl N). destruct (app_same_length _ _ _ _ E') as [-> _]; [lia|]. destruct N as [_ N], N' as [_ N']. rewrite N in N'. congruence.
  - destruct (NN' _ _ _ eq_refl N).
  - specialize (NN w [] x'). rewrite app_nil_r in NN. destruct (NN eq_refl N').
  - destruct (NN _ _ _ eq_refl N').
Qed.
End Num.

(** ** Grids *)
Lemma chunks_length {B} k n (l : list B) : length (chunks k n l) = k.
Proof. revert l. induction k as [|k IH]; intros l; cbn; auto. Qed.
Lemma skip_skip {B} n m (l : list B) : skipn n (skipn m l) = skipn (m + n) l.
Proof. revert l. induction m as [|m IH]; intros l; cbn [skipn Nat.add]; auto. destruct l; [apply skipn_nil|apply IH]. Qed.
Lemma nth_skip {B} n (l : list B) i : nth_error (skipn n l) i = nth_error l (n + i).
Proof. revert l. induction n as [|n IH]; intros l; auto. destruct l; [destruct i; auto|apply IH]. Qed.
Lemma nth_first {B} n (l : list B) i : i < n -> nth_error (firstn n l) i = nth_error l i.
Proof. revert l i. induction n as [|n IH]; intros [|x l] [|i] L; cbn; auto; try lia. apply IH. lia. Qed.
Lemma chunks_nth {B} k n (l : list B) i : i < k -> nth_error (chunks k n l) i = Some (firstn n (skipn (i * n) l)).
Proof.
  revert l i. induction k as [|k IH]; intros l i L; [lia|]. destruct i as [|i]; cbn [chunks nth_error Nat.mul]; [auto|]. rewrite IH by lia. rewrite skip_skip. do 3 f_equal.
Qed.
Lemma chunks_In {B} k n (l : list B) p : k * n <= length l -> In p (chunks k n l) -> length p = n.
Proof.
  intros L H. apply In_nth_error in H as [i H]. assert (i < k) as I1. { apply nth_error_Some_lt in H. rewrite chunks_length in H. auto. } rewrite chunks_nth in H by auto. injection H as <-. rewrite firstn_length, skipn_length. nia.
Qed.
Lemma reshape_ok {B} shape (l : list B) a : reshape shape l = Ok a -> exists nz ny nx, shape = [Z.of_nat nz; Z.of_nat ny; Z.of_nat nx] /\ length l = nx * ny * nz /\ grid_shape a nz ny nx /\
  forall x y z, x < nx -> y < ny -> z < nz -> exists v, nth_error l (x + nx * (y + ny * z)) = Some v /\ grid_at a z y x v.
Proof.
  unfold reshape. destruct shape as [|z1 [|z2 [|z3 []]]]; try discriminate. destruct ((z1 <? 0) || (z2 <? 0) || (z3 <? 0))%Z%bool eqn:N; [discriminate|]. apply orb_false_iff in N as [N N3]. apply orb_false_iff in N as [N1 N2]. apply Z.ltb_ge in N1, N2, N3.
  destruct (Z.eqb_spec (Z.of_nat (length l)) (z1 * z2 * z3)) as [L|]; [|discriminate]. intros H. apply Ok_inj' in H.
  exists (Z.to_nat z1), (Z.to_nat z2), (Z.to_nat z3). rewrite !Z2Nat.id by auto. split; auto. set (nz := Z.to_nat z1) in *. set (ny := Z.to_nat z2) in *. set (nx := Z.to_nat z3) in *.
  assert (length l = nx * ny * nz) as LL. { apply Nat2Z.inj. rewrite !Nat2Z.inj_mul. subst nx ny nz. rewrite !Z2Nat.id by auto. lia. }
  split; auto. subst a. split.
  - split; [rewrite map_length; apply chunks_length|]. intros p P. apply in_map_iff in P as [c [<- C]]. split; [apply chunks_length|]. apply chunks_In in C; [|nia]. intros q Q. eapply chunks_In; eauto. lia.
  - intros x y z X Y Z1. set (k := x + nx * (y + ny * z)). assert (k < length l) as K. { assert (ny * S z <= ny * nz) by (apply Nat.mul_le_mono_l; lia). assert (nx * S (y + ny * z) <= nx * (ny * nz)) by (apply Nat.mul_le_mono_l; lia). unfold k. lia. }
    destruct (nth_error l k) as [v|] eqn:V; [|apply nth_error_None in V; lia]. exists v. split; auto. eexists _, _. rewrite nth_error_map, chunks_nth by auto. cbn [option_map]. split; [reflexivity|]. rewrite chunks_nth by auto. split; [reflexivity|].
    rewrite nth_first by auto. rewrite nth_skip. assert (S y * nx <= ny * nx) by (apply Nat.mul_le_mono_r; lia). rewrite nth_first by lia. rewrite nth_skip. rewrite <- V. f_equal. unfold k. nia.
Qed.
Lemma reshape_accepts {B} nz ny nx (l : list B) : length l = nx * ny * nz -> exists a, reshape [Z.of_nat nz; Z.of_nat ny; Z.of_nat nx] l = Ok a.
Proof.
  intros L. unfold reshape. assert (((Z.of_nat nz <? 0) || (Z.of_nat ny <? 0) || (Z.of_nat nx <? 0))%Z%bool = false) as -> by (rewrite !orb_false_iff; repeat split; apply Z.ltb_ge; lia).
  destruct (Z.eqb_spec (Z.of_nat (length l)) (Z.of_nat nz * Z.of_nat ny * Z.of_nat nx)); [eauto|]. exfalso. apply n. rewrite L. lia.
Qed.
Lemma grid_map {B C} (f : B -> C) a z y x v : grid_at a z y x v -> grid_at (map (map (map f)) a) z y x (f v).
Proof. intros (p & q & P & Q & V). exists (map (map f) p), (map f q). rewrite !nth_error_map, P, Q, V. auto. Qed.
Lemma grid_shape_map {B C} (f : B -> C) a nz ny nx : grid_shape a nz ny nx -> grid_shape (map (map (map f)) a) nz ny nx.
Proof.
  intros [L H]. split; [rewrite map_length; auto|]. intros p P. apply in_map_iff in P as [p' [<- P]]. destruct (H _ P) as [L' H']. split; [rewrite map_length; auto|]. intros q Q. apply in_map_iff in Q as [q' [<- Q]]. rewrite map_length. auto.
Qed.
Lemma grid_at_fun {B} (a : list (list (list B))) z y x v w : grid_at a z y x v -> grid_at a z y x w -> v = w.
Proof. intros (p & q & P & Q & V) (p' & q' & P' & Q' & V'). congruence. Qed.
Section Sets.
Variable A : cell_arith.
Lemma dataset_ok ngf vol d a : dataset A ngf vol d = Ok a -> exists nz ny nx, ngf = [Z.of_nat nz; Z.of_nat ny; Z.of_nat nx] /\ density_of (cparse A) (cdiv A) vol nx ny nz d a.
Proof.
  unfold dataset, fromstring. intros H. apply bind_ok in H as [vs [H1 H]]. apply bind_ok in H as [b [H2 H]]. apply Ok_inj' in H. subst a. set (part := match cut occupancies d with Some (a, _) => a | None => d end) in *.
  destruct (existsb odd_char part); [discriminate|]. apply Ok_inj' in H1. apply reshape_ok in H2 as (nz & ny & nx & E & L & SH & V). exists nz, ny, nx. split; auto. exists part, vs. split; [apply density_part_cut|]. subst vs. split; [apply leading_reads|]. split; auto. split; [apply grid_shape_map; auto|].
  intros x y z X Y Z1. destruct (V _ _ _ X Y Z1) as [v [V1 V2]]. exists v. split; auto. apply (grid_map (fun x => cdiv A x vol)). auto.
Qed.
Lemma dataset_accepts nz ny nx vol d part vs : density_part d part -> existsb odd_char part = false -> reads (cparse A) (split_ws part) vs -> length vs = nx * ny * nz ->
  exists a, dataset A [Z.of_nat nz; Z.of_nat ny; Z.of_nat nx] vol d = Ok a.
Proof.
  intros P O R L. unfold dataset, fromstring. rewrite (density_part_fun _ _ _ (density_part_cut d) P), O. cbn [bind]. rewrite (reads_fun A _ _ _ (leading_reads A _) R). destruct (reshape_accepts nz ny nx vs L) as [a ->]. cbn [bind]. eauto.
Qed.
Lemma dataset_refuses nz ny nx vol d part vs : density_part d part -> reads (cparse A) (split_ws part) vs -> length vs <> nx * ny * nz ->
  forall a, dataset A [Z.of_nat nz; Z.of_nat ny; Z.of_nat nx] vol d <> Ok a.
Proof.
  intros P R L a H. apply dataset_ok in H as (nz' & ny' & nx' & E & part' & vs' & P' & R' & L' & _). injection E as E1 E2 E3. apply Nat2Z.inj in E1, E2, E3. subst. rewrite (density_part_fun _ _ _ P' P) in R'. rewrite (reads_fun A _ _ _ R' R) in L'. contradiction.
Qed.
End Sets.
