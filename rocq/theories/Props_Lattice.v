(** Property C39: the conversions between direct and cartesian coordinates and the reciprocal
    lattice (utils.dir_to_cart, cart_to_dir, lat_to_reclat), in exact arithmetic. *)
From Coq Require Import List Bool Field ZArith QArith Qcanon Lia.
From Verif Require Import PyBase PyStrLemmas LatticeModel.
Import ListNotations.

(** ** What they mean *)
Section Spec.
Variable F : numbers.
Definition plus3 (u v : vec F) : vec F := let '(a, b, c) := u in let '(x, y, z) := v in (add F a x, add F b y, add F c z).
Definition times3 (k : F) (v : vec F) : vec F := let '(x, y, z) := v in (mul F k x, mul F k y, mul F k z).
Definition inner (u v : vec F) : F := let '(a, b, c) := u in let '(x, y, z) := v in add F (add F (mul F a x) (mul F b y)) (mul F c z).
Definition cross (u v : vec F) : vec F := let '(a, b, c) := u in let '(x, y, z) := v in
  (sub F (mul F b z) (mul F c y), sub F (mul F c x) (mul F a z), sub F (mul F a y) (mul F b x)).
(** the point with the coordinates x, y, z along the lattice vectors *)
Definition point (x y z : F) (l : mat F) : vec F := let '(a, b, c) := l in plus3 (plus3 (times3 x a) (times3 y b)) (times3 z c).
Definition origin : vec F := (zero F, zero F, zero F).
(** the lattice vectors span the space *)
Definition independent (l : mat F) : Prop := forall x y z, point x y z l = origin -> x = zero F /\ y = zero F /\ z = zero F.
(** the signed volume of the cell *)
Definition volume (l : mat F) : F := let '(a, b, c) := l in inner a (cross b c).
(** row i *)
Definition row3 (l : mat F) (i : nat) : vec F := let '(a, b, c) := l in match i with 0%nat => a | 1%nat => b | _ => c end.
Definition two_pi : F := mul F (add F (one F) (one F)) (pi F).
End Spec.

Section Proofs.
Variable F : numbers.
Add Field numbers_field : (is_field F).
Local Notation "0" := (zero F). Local Notation "1" := (one F). Local Notation "a + b" := (add F a b). Local Notation "a * b" := (mul F a b). Local Notation "a - b" := (sub F a b). Local Notation "a / b" := (div F a b). Local Notation "- a" := (opp F a).
Ltac open_ := repeat match goal with v : vec F |- _ => destruct v as [[? ?] ?] | m : mat F |- _ => destruct m as [[? ?] ?] | p : (_ * _)%type |- _ => destruct p end.
Ltac three := repeat match goal with |- (_, _) = (_, _) => apply f_equal2 end.
Lemma volume_determinant l : determinant F l = volume F l.
Proof. open_. cbn. ring. Qed.
Lemma transposed_determinant l : determinant F (np_transpose F l) = volume F l.
Proof. open_. cbn. ring. Qed.
Lemma zero_cases (a : F) : {a = 0} + {a <> 0}.
Proof. destruct (is_zero F a) eqn:E; [left; apply is_zero_spec; auto|right]. intros Z. apply is_zero_spec in Z. congruence. Qed.
Lemma domain (a b : F) : a * b = 0 -> a = 0 \/ b = 0.
Proof. intros H. destruct (zero_cases a) as [|N]; auto. right. transitivity (a * b / a); [field; auto|]. rewrite H. field. auto. Qed.
Lemma one_zero : 1 <> 0. Proof. exact (F_1_neq_0 (is_field F)). Qed.
Lemma opp_zero (a : F) : - a = 0 -> a = 0.
Proof. intros H. transitivity (- - a); [ring|]. rewrite H. ring. Qed.
Lemma c39_independent l : independent F l <-> volume F l <> 0.
Proof.
  split.
  - intros I V. destruct l as [[[[a b] c] [[d e] f]] [[g h] i]]. cbn in V.
    assert (forall x y z, point F x y z (a, b, c, (d, e, f), (g, h, i)) = origin F -> x = 0 /\ y = 0 /\ z = 0) as J by exact I. cbn [point plus3 times3] in J. unfold origin in J.
    (* the columns of the adjugate *)
    destruct (J (e * i - f * h) (h * c - i * b) (b * f - c * e)) as (A1 & A2 & A3); [three; [rewrite <- V; ring|ring|ring]|].
    destruct (J (f * g - d * i) (i * a - g * c) (c * d - a * f)) as (B1 & B2 & B3); [three; [ring|rewrite <- V; ring|ring]|].
    destruct (J (d * h - e * g) (g * b - h * a) (a * e - b * d)) as (C1 & C2 & C3); [three; [ring|ring|rewrite <- V; ring]|].
    (* the first two vectors are parallel *)
    assert (a = 0 /\ b = 0 /\ c = 0) as (Za & Zb & Zc).
    { destruct (J d (- a) 0) as (_ & A & _); [three; [ring|transitivity (- (a * e - b * d)); [ring|rewrite C3; ring]|transitivity (c * d - a * f); [ring|exact B3]]|].
      destruct (J e (- b) 0) as (_ & B & _); [three; [transitivity (a * e - b * d); [ring|exact C3]|ring|transitivity (- (b * f - c * e)); [ring|rewrite A3; ring]]|].
      destruct (J f (- c) 0) as (_ & C & _); [three; [transitivity (- (c * d - a * f)); [ring|rewrite B3; ring]|transitivity (b * f - c * e); [ring|exact A3]|ring]|].
      repeat split; apply opp_zero; auto. }
    subst a b c. destruct (J 1 0 0) as (Z & _); [three; ring|]. apply one_zero. auto.
  - intros V x y z P. destruct l as [[[[a b] c] [[d e] f]] [[g h] i]]. cbn in V, P. unfold origin in P. injection P as P1 P2 P3.
    set (D := a * (e * i - f * h) + b * (f * g - d * i) + c * (d * h - e * g)) in *.
    assert (forall t, D * t = 0 -> t = 0) as K by (intros t H; apply domain in H as [H|H]; [contradiction|auto]).
    repeat split; apply K.
    + transitivity ((x * a + y * d + z * g) * (e * i - f * h) + (x * b + y * e + z * h) * (f * g - d * i) + (x * c + y * f + z * i) * (d * h - e * g)); [unfold D; ring|]. rewrite P1, P2, P3. ring.
    + transitivity ((x * a + y * d + z * g) * (h * c - i * b) + (x * b + y * e + z * h) * (i * a - g * c) + (x * c + y * f + z * i) * (g * b - h * a)); [unfold D; ring|]. rewrite P1, P2, P3. ring.
    + transitivity ((x * a + y * d + z * g) * (b * f - c * e) + (x * b + y * e + z * h) * (c * d - a * f) + (x * c + y * f + z * i) * (a * e - b * d)); [unfold D; ring|]. rewrite P1, P2, P3. ring.
Qed.
Lemma c39_inverse l : (volume F l <> 0 -> exists i, np_inv F l = Ok i) /\ (volume F l = 0 -> np_inv F l = Exn LinAlgError).
Proof.
  rewrite <- volume_determinant. destruct l as [[[[a b] c] [[d e] f]] [[g h] i]]. unfold np_inv. set (D := determinant F _). split; intros V.
  - destruct (is_zero F D) eqn:E; [apply is_zero_spec in E; contradiction|eauto].
  - assert (is_zero F D = true) as -> by (apply is_zero_spec; auto). auto.
Qed.
Lemma inv_ok l m : np_inv F l = Ok m -> determinant F l <> 0.
Proof.
  destruct l as [[[[a b] c] [[d e] f]] [[g h] i]]. unfold np_inv. set (D := determinant F _). destruct (is_zero F D) eqn:E; [discriminate|]. intros _ Z. apply is_zero_spec in Z. congruence.
Qed.
Ltac invert_ H := let N := fresh "N" in pose proof (inv_ok _ _ H) as N;
  match type of H with np_inv F ?l = Ok ?m => destruct l as [[[[?a ?b] ?c] [[?d ?e] ?f]] [[?g ?h] ?i]]; unfold np_inv in H; cbn in N;
    destruct (is_zero F _) in H; [discriminate|]; match type of H with Ok ?n = Ok _ => assert (m = n) by congruence; subst m; clear H end end.
Lemma dot_inv v l m : np_inv F l = Ok m -> np_dot F (np_dot F v l) m = v /\ np_dot F (np_dot F v m) l = v.
Proof. intros H. invert_ H. destruct v as [[x y] z]. cbn. split; three; field; auto. Qed.
Lemma np_rows (l : mat F) : l = (row3 F l 0, row3 F l 1, row3 F l 2).
Proof. destruct l as [[u v] w]. reflexivity. Qed.
Lemma inner_comm u v : inner F u v = inner F v u. Proof. destruct u as [[? ?] ?], v as [[? ?] ?]. cbn. ring. Qed.
Lemma reciprocal_products l m k : np_inv F (np_transpose F l) = Ok m -> forall i j, (i < 3)%nat -> (j < 3)%nat -> inner F (row3 F (np_scale F k m) i) (row3 F l j) = if Nat.eqb i j then k else 0.
Proof.
  intros E. pose proof (inv_ok _ _ E) as N. destruct l as [[[[a b] c] [[d e] f]] [[g h] i]]. cbn in E, N. destruct (is_zero F _) in E; [discriminate|]. match type of E with Ok ?n = Ok _ => assert (m = n) by congruence; subst m; clear E end.
  intros p q. destruct p as [|[|[|p]]], q as [|[|[|q]]]; intros Lp Lq; try (exfalso; lia). all: cbn; field; auto.
Qed.
Lemma reciprocal_unique l m k r' : np_inv F (np_transpose F l) = Ok m -> (forall i j, (i < 3)%nat -> (j < 3)%nat -> inner F (row3 F r' i) (row3 F l j) = if Nat.eqb i j then k else 0) ->
  forall i, (i < 3)%nat -> row3 F r' i = row3 F (np_scale F k m) i.
Proof.
  intros E R i L. pose proof (R i 0%nat L ltac:(lia)) as R0. pose proof (R i 1%nat L ltac:(lia)) as R1. pose proof (R i 2%nat L ltac:(lia)) as R2. clear R.
  rewrite <- (proj1 (dot_inv (row3 F r' i) _ _ E)). assert (np_dot F (row3 F r' i) (np_transpose F l) = (inner F (row3 F r' i) (row3 F l 0), inner F (row3 F r' i) (row3 F l 1), inner F (row3 F r' i) (row3 F l 2))) as ->.
  { destruct (row3 F r' i) as [[x y] z]. destruct l as [[[[a b] c] [[d e] f]] [[g h] j]]. reflexivity. }
  rewrite R0, R1, R2. clear R0 R1 R2 E. destruct m as [[[[a b] c] [[d e] f]] [[g h] j]]. destruct i as [|[|[|i]]]; [| | |exfalso; lia]; cbn; three; ring.
Qed.
Lemma scaled_volume l m k : np_inv F (np_transpose F l) = Ok m -> k <> 0 -> volume F (np_scale F k m) <> 0 /\ volume F (np_scale F k m) * volume F l = k * k * k.
Proof.
  intros E K. assert (volume F (np_scale F k m) * volume F l = k * k * k) as P.
  { pose proof (inv_ok _ _ E) as N. destruct l as [[[[a b] c] [[d e] f]] [[g h] i]]. cbn in E, N. destruct (is_zero F _) in E; [discriminate|]. match type of E with Ok ?n = Ok _ => assert (m = n) by congruence; subst m; clear E end.
    cbn. field. auto. }
  split; auto. intros Z. rewrite Z in P. assert (k * k * k = 0) as P' by (rewrite <- P; ring). apply domain in P' as [P'|P']; [apply domain in P' as [P'|P']|]; auto.
Qed.
End Proofs.

(** ** C39 *)
(** dir_to_cart gives the point with these coordinates *)
Theorem C39_dir_to_cart : forall (F : numbers) x y z l, dir_to_cart F (x, y, z) l = point F x y z l.
Proof. intros. destruct l as [[[[a b] c] [[d e] f]] [[g h] i]]. reflexivity. Qed.
(** cart_to_dir gives its coordinates, for every lattice of independent vectors *)
Theorem C39_cart_to_dir : forall (F : numbers) l v, independent F l -> exists x y z, cart_to_dir F v l = Ok (x, y, z) /\ point F x y z l = v /\ (forall x' y' z', point F x' y' z' l = v -> (x', y', z') = (x, y, z)).
Proof.
  intros F l v I. apply c39_independent in I. destruct (proj1 (c39_inverse F l) I) as [i E]. destruct (np_dot F v i) as [[x y] z] eqn:P. exists x, y, z. unfold cart_to_dir. rewrite E. cbn [bind]. rewrite P. split; auto.
  rewrite <- C39_dir_to_cart, <- P. split; [apply (dot_inv F v l i E)|]. intros x' y' z' Q. rewrite <- C39_dir_to_cart in Q. rewrite P, <- P, <- Q. symmetry. apply (dot_inv F _ l i E).
Qed.
(** so they are inverse to each other *)
Theorem C39_round_trips : forall (F : numbers) l, independent F l ->
  (forall v, cart_to_dir F (dir_to_cart F v l) l = Ok v) /\ (forall v d, cart_to_dir F v l = Ok d -> dir_to_cart F d l = v).
Proof.
  intros F l I. apply c39_independent in I. destruct (proj1 (c39_inverse F l) I) as [i E]. unfold cart_to_dir, dir_to_cart. rewrite E. cbn [bind]. split.
  - intros v. f_equal. apply (dot_inv F v l i E).
  - intros v d H. assert (d = np_dot F v i) as -> by congruence. apply (dot_inv F v l i E).
Qed.
(** vectors that do not span the space: an exception, never a value *)
Theorem C39_singular : forall (F : numbers) l, ~ independent F l -> (forall v, cart_to_dir F v l = Exn LinAlgError) /\ lat_to_reclat F l = Exn LinAlgError.
Proof.
  intros F l I. assert (volume F l = zero F) as V by (destruct (zero_cases F (volume F l)); auto; exfalso; apply I, c39_independent; auto).
  split; [intros v; unfold cart_to_dir; rewrite (proj2 (c39_inverse F l) V); auto|]. unfold lat_to_reclat. rewrite (proj2 (c39_inverse F (np_transpose F l))); auto. rewrite <- volume_determinant, transposed_determinant. auto.
Qed.
(** the rows of the reciprocal lattice: product 2 pi with their own vector, 0 with the others, and
    no other rows have these products *)
Theorem C39_reciprocal : forall (F : numbers) l, independent F l -> exists r, lat_to_reclat F l = Ok r /\
  forall r', (forall i j, (i < 3)%nat -> (j < 3)%nat -> inner F (row3 F r' i) (row3 F l j) = if Nat.eqb i j then two_pi F else zero F) <-> r' = r.
Proof.
  intros F l I. pose proof I as V. apply c39_independent in V. assert (volume F (np_transpose F l) <> zero F) as W by (rewrite <- volume_determinant, transposed_determinant; auto).
  destruct (proj1 (c39_inverse F (np_transpose F l)) W) as [m E]. unfold lat_to_reclat. rewrite E. cbn [bind]. eexists. split; [reflexivity|]. fold (two_pi F). intros r'. split; [|intros ->; apply (reciprocal_products F _ _ _ E)].
  intros R. rewrite (np_rows F r'), (np_rows F (np_scale F (two_pi F) m)). rewrite !(reciprocal_unique F l m (two_pi F) r' E R) by auto. reflexivity.
Qed.
(** its volume, and the reciprocal of the reciprocal lattice *)
Theorem C39_reciprocal_twice : forall (F : numbers) l r, independent F l -> two_pi F <> zero F -> lat_to_reclat F l = Ok r ->
  independent F r /\ mul F (volume F r) (volume F l) = mul F (mul F (two_pi F) (two_pi F)) (two_pi F) /\ lat_to_reclat F r = Ok l.
Proof.
  intros F l r I K E. pose proof E as R. unfold lat_to_reclat in R. apply bind_ok in R as (m & M & R). assert (r = np_scale F (two_pi F) m) as -> by (unfold two_pi; congruence). clear R.
  assert (independent F (np_scale F (two_pi F) m)) as J by (apply c39_independent; apply (scaled_volume F l m _ M K)). split; [exact J|]. split; [apply (scaled_volume F l m _ M K)|].
  destruct (C39_reciprocal F _ J) as (r' & E' & U). rewrite E'. f_equal. symmetry. apply U. intros i j Li Lj. rewrite inner_comm. rewrite (reciprocal_products F _ _ _ M) by auto. rewrite Nat.eqb_sym. reflexivity.
Qed.

(** ** The rationals, a skew lattice *)
Lemma qc_zero (a : Qc) : (if Qc_eq_dec a 0%Qc then true else false) = true <-> a = 0%Qc.
Proof. destruct (Qc_eq_dec a 0%Qc); split; auto; discriminate. Qed.
Definition rationals : numbers := Numbers Qc 0%Qc 1%Qc Qcplus Qcmult Qcminus Qcopp Qcdiv Qcinv Qcft (fun a => if Qc_eq_dec a 0%Qc then true else false) qc_zero (Q2Qc (355 # 113)).
Definition q (n : Z) : Qc := Q2Qc (inject_Z n).
Definition skew : mat rationals := ((q 2, q 1, q 0), (q 0, q 3, q 1), (q 1, q 0, q 4)).
Example c39_skew : independent rationals skew /\ two_pi rationals <> 0%Qc.
Proof. split; [apply c39_independent|]; intros H; apply (f_equal this) in H; vm_compute in H; discriminate. Qed.
Example c39_flat : ~ independent rationals ((q 2, q 1, q 0), (q 4, q 2, q 0), (q 1, q 0, q 4)).
Proof. rewrite c39_independent. intros H. apply H. apply Qc_is_canon. vm_compute. reflexivity. Qed.
