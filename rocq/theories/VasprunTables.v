(** Lemmas on the numpy tables of the vasprun model. *)
From Coq Require Import Ascii String List NArith ZArith Bool Lia.
From Verif Require Import PyBase PyStrLemmas PyNum UtilsModel LineModel OutcarModel DoscarProofs EigenvalProofs StreamConfig ChgcarModel ChgcarSpec ChgcarProofs VasprunTypes VasprunXml VasprunModel VasprunSpec.
Import ListNotations.
Local Open Scope list_scope.

(** ** Conversions *)
Lemma ordinary_odd t : ordinary t -> existsb odd_char t = false.
Proof.
  intros O. destruct (existsb odd_char t) eqn:E; auto. apply existsb_exists in E as [c [C D]]. destruct (O c C) as [P S]. unfold odd_char in D.
  apply orb_prop in D as [D|D]; [|apply aeqb_eq in D; contradiction]. apply andb_prop in D as [D1 D2]. specialize (S D1).
  assert (((9 <=? code c) && (code c <=? 13) || (code c =? 32))%N = true) as K; [|rewrite K in D2; discriminate].
  unfold code. destruct S as [[S1 S2]|S]; [rewrite (proj2 (N.leb_le _ _) S1), (proj2 (N.leb_le _ _) S2); auto|rewrite (proj2 (N.eqb_eq _ _) S); apply orb_true_r].
Qed.
Lemma Forall2_reads {num} (parse : str -> option num) ws xs : Forall2 (is_num parse) ws xs -> reads parse ws xs.
Proof. induction 1; constructor; auto. Qed.
Lemma numbers_holds e xs : holds e xs -> numbers (text e) = Ok xs.
Proof.
  intros (t & -> & O & F). unfold numbers, fromstring. rewrite (ordinary_odd _ O). f_equal.
  eapply reads_fun; [apply leading_reads|]. apply Forall2_reads. exact F.
Qed.
Lemma holds_words e t xs : holds e xs -> text e = Some t -> length (split_ws t) = length xs.
Proof. intros (t' & T & _ & F) E. rewrite E in T. injection T as ->. eapply Forall2_length; eauto. Qed.
Lemma mapM_Forall2 {A B} (f : A -> res B) l r : Forall2 (fun x y => f x = Ok y) l r -> mapM f l = Ok r.
Proof. induction 1 as [|x y l r H F IH]; cbn [mapM]; auto. rewrite H. cbn [bind]. rewrite IH. auto. Qed.
Lemma convert2D_holds dim es rs : Forall2 holds es rs -> (forall r, In r rs -> length r = dim) -> convert2D dim es = Ok rs.
Proof.
  intros F L. apply mapM_Forall2. induction F as [|e r es rs H F IH]; constructor; [|apply IH; intros; apply L; right; auto].
  rewrite (numbers_holds _ _ H). cbn [bind]. unfold fit_row. rewrite (L r) by (left; auto). rewrite Nat.eqb_refl. auto.
Qed.
Lemma convert1D_holds es xs : Forall2 (fun e x => holds e [x]) es xs -> convert1D es = Ok xs.
Proof. intros F. apply mapM_Forall2. induction F as [|e x es xs H F IH]; constructor; auto. rewrite (numbers_holds _ _ H). auto. Qed.

(** ** Tables given by a function *)
Lemma nth_error_ext {A} (l r : list A) : (forall i, nth_error l i = nth_error r i) -> l = r.
Proof. revert r. induction l as [|x l IH]; intros [|y r] H; auto; try (specialize (H 0); discriminate). f_equal; [specialize (H 0); injection H as ->; auto|]. apply IH. intros i. apply (H (S i)). Qed.
Definition tab {A} (n : nat) (f : nat -> A) : list A := map f (seq 0 n).
Lemma tab_length {A} n (f : nat -> A) : length (tab n f) = n. Proof. unfold tab. rewrite map_length, seq_length. auto. Qed.
Lemma tab_nth {A} n (f : nat -> A) i : i < n -> nth_error (tab n f) i = Some (f i).
Proof. intros L. unfold tab. rewrite nth_error_map. rewrite (nth_error_nth' _ 0) by (rewrite seq_length; lia). rewrite seq_nth by lia. auto. Qed.
Lemma tab_nth_inv {A} n (f : nat -> A) i v : nth_error (tab n f) i = Some v -> i < n /\ v = f i.
Proof. intros H. pose proof (nth_error_Some_lt _ _ _ H) as L. rewrite tab_length in L. rewrite tab_nth in H by auto. injection H as <-. auto. Qed.
Lemma tab_In {A} n (f : nat -> A) v : In v (tab n f) -> exists i, i < n /\ v = f i.
Proof. intros H. apply In_nth_error in H as [i H]. apply tab_nth_inv in H as [L ->]. eauto. Qed.
Lemma tab_ext {A} n (f g : nat -> A) : (forall i, i < n -> f i = g i) -> tab n f = tab n g.
Proof. intros H. unfold tab. apply map_ext_in. intros i I. apply in_seq in I. apply H. lia. Qed.
Lemma list_tab {A} (d : A) l : l = tab (length l) (fun i => nth i l d).
Proof.
  apply nth_error_ext. intros i. destruct (Nat.ltb_spec i (length l)) as [L|L].
  - rewrite tab_nth by auto. apply nth_error_nth'. auto.
  - rewrite (proj2 (nth_error_None l i)) by auto. symmetry. apply nth_error_None. rewrite tab_length. auto.
Qed.
Lemma map_tab {A B} (g : A -> B) n f : map g (tab n f) = tab n (fun i => g (f i)).
Proof. unfold tab. apply map_map. Qed.
Lemma keep_some_tab {A} n (f : nat -> option A) g : (forall i, i < n -> f i = Some (g i)) -> keep_some (tab n f) = tab n g.
Proof.
  intros H. unfold tab. assert (forall i, In i (seq 0 n) -> f i = Some (g i)) as H' by (intros i I; apply in_seq in I; apply H; lia). clear H.
  induction (seq 0 n) as [|i l IH]; cbn [map keep_some]; auto. rewrite (H' i) by (left; auto). rewrite IH; auto. intros; apply H'; right; auto.
Qed.
Lemma column_tab {A} n m (f : nat -> nat -> A) j : j < m -> column j (tab n (fun i => tab m (f i))) = tab n (fun i => f i j).
Proof. intros L. unfold column. rewrite map_tab. apply keep_some_tab. intros i I. apply tab_nth. auto. Qed.
Lemma swap01_tab {A} n m (f : nat -> nat -> A) : 0 < n -> swap01 (tab n (fun i => tab m (f i))) = tab m (fun j => tab n (fun i => f i j)).
Proof.
  intros L. unfold swap01. destruct (tab n (fun i => tab m (f i))) as [|r t] eqn:E.
  - apply (f_equal (@length _)) in E. rewrite tab_length in E. cbn in E. lia.
  - assert (r = tab m (f 0)) as ->. { apply (f_equal (fun l => nth_error l 0)) in E. rewrite tab_nth in E by auto. cbn in E. congruence. }
    rewrite <- E. rewrite tab_length. fold (tab m (fun j => column j (tab n (fun i => tab m (f i))))). apply tab_ext. intros j J. apply column_tab. auto.
Qed.
Lemma chunks_tab {A} n c (f : nat -> A) : chunks n c (tab (n * c) f) = tab n (fun i => tab c (fun j => f (i * c + j))).
Proof.
  apply nth_error_ext. intros i. destruct (Nat.ltb_spec i n) as [L|L].
  - rewrite chunks_nth, tab_nth by auto. f_equal. apply nth_error_ext. intros j. destruct (Nat.ltb_spec j c) as [J|J].
    + rewrite nth_first by auto. rewrite nth_skip. rewrite !tab_nth by nia. auto.
    + rewrite (proj2 (nth_error_None (tab c _) j)) by (rewrite tab_length; auto). apply nth_error_None. rewrite firstn_length. lia.
  - rewrite !(proj2 (nth_error_None _ _)); auto; [rewrite tab_length; auto|rewrite chunks_length; auto].
Qed.
Lemma split_even_tab {A} n c (f : nat -> A) : 0 < n -> split_even n (tab (n * c) f) = Ok (tab n (fun i => tab c (fun j => f (i * c + j)))).
Proof.
  intros L. unfold split_even. destruct n as [|n]; [lia|]. rewrite tab_length. rewrite (Nat.mul_comm (S n) c). rewrite Nat.mod_mul by lia. cbn [Nat.eqb]. rewrite Nat.div_mul by lia.
  rewrite (Nat.mul_comm c (S n)). rewrite chunks_tab. auto.
Qed.
Lemma mapM_tab {A B} (g : A -> res B) n f h : (forall i, i < n -> g (f i) = Ok (h i)) -> mapM g (tab n f) = Ok (tab n h).
Proof.
  intros H. apply mapM_Forall2. unfold tab. assert (forall i, In i (seq 0 n) -> g (f i) = Ok (h i)) as H' by (intros i I; apply in_seq in I; apply H; lia). clear H.
  induction (seq 0 n) as [|i l IH]; cbn [map]; constructor; [apply H'; left; auto|apply IH; intros; apply H'; right; auto].
Qed.
Lemma split_axis1_tab {A} n m c (f : nat -> nat -> A) : 0 < n -> 0 < m -> split_axis1 n (tab m (fun i => tab (n * c) (f i))) = Ok (tab n (fun a => tab m (fun i => tab c (fun j => f i (a * c + j))))).
Proof.
  intros L M. unfold split_axis1. rewrite (mapM_tab _ _ _ (fun i => tab n (fun a => tab c (fun j => f i (a * c + j))))) by (intros; apply split_even_tab; auto).
  cbn [bind]. f_equal. apply (swap01_tab m n (fun i a => tab c (fun j => f i (a * c + j)))). auto.
Qed.

(** ** Eigenvalues *)
Lemma F2_len {A B} {R : A -> B -> Prop} {l r} : Forall2 R l r -> length l = length r.
Proof. induction 1; cbn; auto. Qed.
Lemma Forall2_nth {A B} (R : A -> B -> Prop) l r i x : Forall2 R l r -> nth_error l i = Some x -> exists y, nth_error r i = Some y /\ R x y.
Proof. intros F. revert i. induction F as [|a b l r H F IH]; intros [|i] E; try discriminate; cbn in *; [injection E as ->; eauto|eauto]. Qed.
Definition rows_of {A} (kbb : bool) (nb nk : nat) (f : nat -> A) : list (list A) :=
  if kbb then tab nk (fun k => tab nb (fun b => f (k * nb + b))) else tab nb (fun b => tab nk (fun k => f (k * nb + b))).
Lemma rows_of_by_band {A} kbb nb nk (f : nat -> A) (value : nat -> A -> Prop) : (forall i, i < nk * nb -> value i (f i)) -> by_band kbb nb nk value (rows_of kbb nb nk f).
Proof.
  intros H. unfold by_band, rows_of. destruct kbb; (split; [split; [apply tab_length|]; intros r R; apply tab_In in R as (i & _ & ->); apply tab_length|]);
    intros b k B K; exists (f (k * nb + b)); (split; [|apply H; nia]); unfold at2, cell_at; rewrite tab_nth by auto; (eexists; split; [reflexivity|]); rewrite tab_nth by auto; auto.
Qed.
Definition rect {A} (rs : list (list A)) (m : nat) : Prop := forall r, In r rs -> length r = m.
Lemma column_rect n m (g : nat -> row) j : j < m -> (forall i, i < n -> length (g i) = m) -> column j (tab n g) = tab n (fun i => nth j (g i) fzero).
Proof. intros J L. unfold column. rewrite map_tab. apply keep_some_tab. intros i I. apply nth_error_nth'. rewrite L; auto. Qed.
Lemma nth_rect {A} (rs : list (list A)) m i : rect rs m -> i < length rs -> length (nth i rs []) = m.
Proof. intros R L. apply R. apply nth_In. auto. Qed.
Lemma eigen_table_ok m nk nb es rs : Forall2 holds es rs -> rect rs m -> 1 <= m -> length rs = nk * nb -> 0 < nk -> eigen_table m nk es = Ok (tab nk (fun k => tab nb (fun b => nth (k * nb + b) rs []))).
Proof.
  intros F R M L K. unfold eigen_table. assert ((if Nat.ltb 1 m then convert2D m es else let* xs := convert1D es in Ok (map (fun x => [x]) xs)) = Ok rs) as ->.
  { destruct (Nat.ltb_spec 1 m) as [M2|M2]; [apply convert2D_holds; auto|]. assert (m = 1) as -> by lia. clear M M2 L.
    assert (exists xs, Forall2 (fun e x => holds e [x]) es xs /\ rs = map (fun x => [x]) xs) as (xs & X & ->).
    { induction F as [|e r es rs H F IH]; [exists []; split; constructor|]. destruct IH as (xs & X & ->); [intros r' I'; apply R; right; auto|].
      pose proof (R r (or_introl eq_refl)) as L1. destruct r as [|v [|w r]]; try discriminate. exists (v :: xs). split; [constructor; auto|auto]. }
    rewrite (convert1D_holds _ _ X). auto. }
  cbn [bind]. rewrite (list_tab [] rs) at 1. rewrite L. apply split_even_tab. auto.
Qed.
Definition pick (rs : matrix) (c : nat) (i : nat) : float := nth c (nth i rs []) fzero.
Lemma pick_cell rs m c i : rect rs m -> c < m -> i < length rs -> cell_at rs i c (pick rs c i).
Proof. intros R C I. exists (nth i rs []). split; [apply nth_error_nth'; auto|]. apply nth_error_nth'. pose proof (nth_rect rs m i R I) as E. lia. Qed.
Lemma axes_ok (kbb : bool) m nk nb rs c : rect rs m -> c < m -> length rs = nk * nb -> 0 < nk ->
  map (column c) ((fun t : list matrix => if kbb then t else swap01 t) (tab nk (fun k => tab nb (fun b => nth (k * nb + b) rs [])))) = rows_of kbb nb nk (pick rs c).
Proof.
  intros R C L K. unfold rows_of, pick. cbv beta. destruct kbb.
  - rewrite map_tab. apply tab_ext. intros k K1. apply (column_rect nb m (fun b => nth (k * nb + b) rs [])); auto. intros b B. apply nth_rect; auto. nia.
  - rewrite (swap01_tab nk nb (fun k b => nth (k * nb + b) rs [])) by auto. rewrite map_tab. apply tab_ext. intros b B. apply (column_rect nk m (fun k => nth (k * nb + b) rs [])); auto.
    intros k K1. apply nth_rect; auto. nia.
Qed.
Lemma wrong_count_ok n nb k : 0 < n -> wrong_count n nb k = false -> exists b, nb = Z.of_nat b /\ n = k * b /\ 0 < k /\ 0 < b.
Proof.
  intros N W. unfold wrong_count in W. apply negb_false_iff in W. apply Z.eqb_eq in W. exists (Z.to_nat nb). assert (0 < nb)%Z by nia. rewrite Z2Nat.id by lia. split; auto.
  assert (Z.of_nat n = Z.of_nat (k * Z.to_nat nb)) as E by (rewrite Nat2Z.inj_mul, Z2Nat.id by lia; nia). apply Nat2Z.inj in E. repeat split; nia.
Qed.
Lemma count_right nb nk : wrong_count (nk * nb) (Z.of_nat nb) nk = false.
Proof. unfold wrong_count. apply negb_false_iff. apply Z.eqb_eq. nia. Qed.
Definition pair_of {A} (a : A) (b : option A) : spins A := match b with None => Total a | Some b => UpDown a b end.
(** the second spin, if any *)
Lemma extract_eigenvalues_ok kbb isp nb nk m s1 rs1 s2 rs2 : 0 < nk -> 0 < nb -> 1 <= m ->
  Forall2 holds s1 rs1 -> rect rs1 m -> length rs1 = nk * nb ->
  match s2, rs2 with None, None => True | Some s2, Some rs2 => Forall2 holds s2 rs2 /\ rect rs2 m /\ length rs2 = nk * nb | _, _ => False end ->
  extract_eigenvalues kbb (Some isp) (Some (Z.of_nat nb)) s1 s2 nk =
    Ok (pair_of (rows_of kbb nb nk (pick rs1 0)) (option_map (fun rs => rows_of kbb nb nk (pick rs 0)) rs2),
        if Nat.ltb 1 m then Some (pair_of (rows_of kbb nb nk (pick rs1 1)) (option_map (fun rs => rows_of kbb nb nk (pick rs 1)) rs2)) else None).
Proof.
  intros K B M F1 R1 L1 S2. unfold extract_eigenvalues. rewrite (F2_len F1), L1, count_right.
  destruct s1 as [|e0 s1]; [inversion F1; subst; cbn in L1; nia|]. cbn [py_nth bind]. assert (exists r0, holds e0 r0 /\ length r0 = m) as (r0 & H0 & L0) by (inversion F1; subst; eexists; split; [eauto|apply R1; left; auto]).
  destruct (text e0) as [t0|] eqn:T0; [|destruct H0 as (t & T & _); congruence]. change (py_nth (e0 :: s1) 0) with (@Ok xml e0). cbn [bind]. rewrite T0. cbn [of_option bind]. rewrite (holds_words _ _ _ H0 T0), L0.
  rewrite (eigen_table_ok m nk nb _ rs1) by auto. cbn [bind]. destruct s2 as [s2|], rs2 as [rs2|]; try contradiction.
  - destruct S2 as (F2 & R2 & L2). rewrite (F2_len F2), L2, count_right. rewrite (eigen_table_ok m nk nb _ rs2) by auto. cbn [bind option_map pair_of].
    rewrite !(axes_ok kbb m nk nb) by (auto; lia). destruct (Nat.ltb_spec 1 m); auto. rewrite !(axes_ok kbb m nk nb) by (auto; lia). auto.
  - cbn [option_map pair_of]. rewrite !(axes_ok kbb m nk nb) by (auto; lia). destruct (Nat.ltb_spec 1 m); auto. rewrite !(axes_ok kbb m nk nb) by (auto; lia). auto.
Qed.

(** ** Velocities *)
Definition pickr (rs : matrix) (i : nat) : row := nth i rs [].
Lemma velocity_axes (kbb : bool) nk nb (rs : matrix) : 0 < nk ->
  (fun t : list matrix => if kbb then t else swap01 t) (tab nk (fun k => tab nb (fun b => nth (k * nb + b) rs []))) = rows_of kbb nb nk (pickr rs).
Proof. intros K. unfold rows_of, pickr. cbv beta. destruct kbb; auto. apply (swap01_tab nk nb (fun k b => nth (k * nb + b) rs [])). auto. Qed.
Lemma extract_eigenvelocities_ok kbb isp nb nk s1 rs1 s2 rs2 : 0 < nk -> 0 < nb ->
  Forall2 holds s1 rs1 -> rect rs1 4 -> length rs1 = nk * nb ->
  match s2, rs2 with None, None => True | Some s2, Some rs2 => Forall2 holds s2 rs2 /\ rect rs2 4 /\ length rs2 = nk * nb | _, _ => False end ->
  extract_eigenvelocities kbb (Some isp) (Some (Z.of_nat nb)) s1 s2 nk = Ok (pair_of (rows_of kbb nb nk (pickr rs1)) (option_map (fun rs => rows_of kbb nb nk (pickr rs)) rs2)).
Proof.
  intros K B F1 R1 L1 S2. unfold extract_eigenvelocities.
  assert (forall es rs, Forall2 holds es rs -> rect rs 4 -> length rs = nk * nb ->
    (if wrong_count (length es) (Z.of_nat nb) nk then Exn (SysExit 505) else let* rows := convert2D 4 es in split_even nk rows) = Ok (tab nk (fun k => tab nb (fun b => nth (k * nb + b) rs [])))) as T.
  { intros es rs F R L. rewrite (F2_len F), L, count_right. rewrite (convert2D_holds 4 _ _ F R). cbn [bind]. rewrite (list_tab [] rs) at 1. rewrite L. apply split_even_tab. auto. }
  rewrite (T _ _ F1 R1 L1). cbn [bind]. destruct s2 as [s2|], rs2 as [rs2|]; try contradiction.
  - destruct S2 as (F2 & R2 & L2). rewrite (T _ _ F2 R2 L2). cbn [bind option_map pair_of]. rewrite !(velocity_axes kbb nk nb) by auto. auto.
  - cbn [option_map pair_of]. rewrite !(velocity_axes kbb nk nb) by auto. auto.
Qed.

(** ** Projectors *)
Lemma swap12_tab {A} a b c (f : nat -> nat -> nat -> A) : 0 < b -> swap12 (tab a (fun i => tab b (fun j => tab c (f i j)))) = tab a (fun i => tab c (fun k => tab b (fun j => f i j k))).
Proof. intros B. unfold swap12. rewrite map_tab. apply tab_ext. intros i I. apply (swap01_tab b c (f i)). auto. Qed.
Lemma swap23_tab {A} a b c d (f : nat -> nat -> nat -> nat -> A) : 0 < c ->
  swap23 (tab a (fun i => tab b (fun j => tab c (fun k => tab d (f i j k))))) = tab a (fun i => tab b (fun j => tab d (fun l => tab c (fun k => f i j k l)))).
Proof. intros C. unfold swap23. rewrite map_tab. apply tab_ext. intros i I. apply (swap12_tab b c d (f i)). auto. Qed.
Lemma swap01_tab4 {A} a b c d (f : nat -> nat -> nat -> nat -> A) : 0 < a ->
  swap01 (tab a (fun i => tab b (fun j => tab c (fun k => tab d (f i j k))))) = tab b (fun j => tab a (fun i => tab c (fun k => tab d (f i j k)))).
Proof. intros L. apply (swap01_tab a b (fun i j => tab c (fun k => tab d (f i j k)))). auto. Qed.
Lemma swap12_tab4 {A} a b c d (f : nat -> nat -> nat -> nat -> A) : 0 < b ->
  swap12 (tab a (fun i => tab b (fun j => tab c (fun k => tab d (f i j k))))) = tab a (fun i => tab c (fun k => tab b (fun j => tab d (f i j k)))).
Proof. intros L. apply (swap12_tab a b c (fun i j k => tab d (f i j k))). auto. Qed.
Lemma swap03_tab {A} a b c d (f : nat -> nat -> nat -> nat -> A) : 0 < a -> 0 < b -> 0 < c -> 0 < d ->
  swap03 (tab a (fun i => tab b (fun j => tab c (fun k => tab d (f i j k))))) = tab d (fun l => tab b (fun j => tab c (fun k => tab a (fun i => f i j k l)))).
Proof.
  intros. unfold swap03. rewrite swap01_tab4 by auto. rewrite (swap12_tab4 b a c d (fun j i k => f i j k)) by auto. rewrite (swap23_tab b c a d (fun j k i => f i j k)) by auto.
  rewrite (swap12_tab4 b c d a (fun j k l i => f i j k l)) by auto. apply (swap01_tab4 b d c a (fun j l k i => f i j k l)). auto.
Qed.
Lemma swap13_tab {A} a b c d (f : nat -> nat -> nat -> nat -> A) : 0 < b -> 0 < c -> 0 < d ->
  swap13 (tab a (fun i => tab b (fun j => tab c (fun k => tab d (f i j k))))) = tab a (fun i => tab d (fun l => tab c (fun k => tab b (fun j => f i j k l)))).
Proof.
  intros. unfold swap13. rewrite swap12_tab4 by auto. rewrite (swap23_tab a c b d (fun i k j => f i j k)) by auto. apply (swap12_tab4 a c d b (fun i k l j => f i j k l)). auto.
Qed.
Definition ions_of (kbb : bool) (na nb nk : nat) (rs : matrix) : list (list matrix) := tab na (fun a => rows_of kbb nb nk (fun i => pickr rs (i * na + a))).
Lemma ions_by (kbb : bool) na nb nk rs : length rs = nk * nb * na -> by_ion_band kbb na nb nk (fun i v => nth_error rs i = Some v) (ions_of kbb na nb nk rs).
Proof.
  intros L. split; [apply tab_length|]. intros a p P. apply tab_nth_inv in P as [A ->]. apply (rows_of_by_band kbb nb nk (fun i => pickr rs (i * na + a)) (fun i v => nth_error rs (i * na + a) = Some v)).
  intros i I. unfold pickr. apply nth_error_nth'. nia.
Qed.
Lemma projector_axes (kbb : bool) ns na nb nk (rs : nat -> matrix) s : 0 < ns -> 0 < na -> 0 < nb -> 0 < nk -> s < ns ->
  column s (let p := swap13 (swap03 (tab ns (fun s => tab nb (fun b => tab nk (fun k => tab na (fun a => nth (k * (nb * na) + (b * na + a)) (rs s) ([] : row))))))) in if kbb then p else swap23 p)
  = ions_of kbb na nb nk (rs s).
Proof.
  intros NS NA NB NK S. cbv zeta. set (g := fun (s b k a : nat) => nth (k * (nb * na) + (b * na + a)) (rs s) ([] : row)).
  change (tab ns (fun s0 => tab nb (fun b => tab nk (fun k => tab na (fun a => nth (k * (nb * na) + (b * na + a)) (rs s0) ([] : row)))))) with (tab ns (fun s => tab nb (fun b => tab nk (fun k => tab na (g s b k))))).
  rewrite (swap03_tab ns nb nk na g) by auto. rewrite (swap13_tab na nb nk ns (fun a b k s => g s b k a)) by auto. unfold ions_of, rows_of. destruct kbb.
  - rewrite (column_tab na ns (fun a s => tab nk (fun k => tab nb (fun b => g s b k a)))) by auto. apply tab_ext. intros a A. apply tab_ext. intros k K. apply tab_ext. intros b B. unfold g, pickr. f_equal. nia.
  - rewrite (swap23_tab na ns nk nb (fun a s k b => g s b k a)) by auto. rewrite (column_tab na ns (fun a s => tab nb (fun b => tab nk (fun k => g s b k a)))) by auto.
    apply tab_ext. intros a A. apply tab_ext. intros b B. apply tab_ext. intros k K. unfold g, pickr. f_equal. nia.
Qed.
Lemma extract_projectors_ok kbb kp isp nb na sp nk s1 rs1 s2 rs2 : length kp = nk -> length sp = na -> 0 < nk -> 0 < nb -> 0 < na ->
  Forall2 holds s1 rs1 -> rect rs1 9 -> length rs1 = nk * nb * na ->
  match s2, rs2 with None, None => True | Some s2, Some rs2 => Forall2 holds s2 rs2 /\ rect rs2 9 /\ length rs2 = nk * nb * na | _, _ => False end ->
  extract_projectors kbb (Some kp) (Some isp) (Some (Z.of_nat nb)) (Some sp) s1 s2 = Ok (pair_of (ions_of kbb na nb nk rs1) (option_map (ions_of kbb na nb nk) rs2)).
Proof.
  intros LK LS K B NA F1 R1 L1 S2. unfold extract_projectors. rewrite LK, LS.
  assert (forall es rs, Forall2 holds es rs -> rect rs 9 -> length rs = nk * nb * na ->
    (if negb (Z.of_nat (length es) =? Z.of_nat nb * Z.of_nat nk * Z.of_nat na)%Z then Exn (SysExit 505)
     else let* rows := convert2D 9 es in let* per_k := split_even nk rows in split_axis1 (Z.to_nat (Z.of_nat nb)) per_k)
    = Ok (tab nb (fun b => tab nk (fun k => tab na (fun a => nth (k * (nb * na) + (b * na + a)) rs ([] : row)))))) as T.
  { intros es rs F R L. rewrite (F2_len F), L. assert (Z.of_nat (nk * nb * na) =? Z.of_nat nb * Z.of_nat nk * Z.of_nat na = true)%Z as -> by (apply Z.eqb_eq; nia). cbn [negb].
    rewrite (convert2D_holds 9 _ _ F R). cbn [bind]. rewrite (list_tab [] rs) at 1. rewrite L. rewrite <- Nat.mul_assoc. rewrite split_even_tab by auto. cbn [bind]. rewrite Nat2Z.id.
    apply (split_axis1_tab nb nk na (fun k j => nth (k * (nb * na) + j) rs [])); auto. }
  rewrite (T _ _ F1 R1 L1). cbn [bind]. destruct s2 as [s2|], rs2 as [rs2|]; try contradiction.
  - destruct S2 as (F2 & R2 & L2). rewrite (T _ _ F2 R2 L2). cbn [bind option_map pair_of].
    pose proof (projector_axes kbb 2 na nb nk (fun s => match s with 0 => rs1 | _ => rs2 end)) as P. f_equal. f_equal; [apply (P 0)|apply (P 1)]; auto.
  - cbn [bind option_map pair_of]. f_equal. f_equal. apply (projector_axes kbb 1 na nb nk (fun s => rs1) 0); auto.
Qed.
