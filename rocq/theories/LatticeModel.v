(** Model of parsevasp/utils.py:248-333: dir_to_cart, cart_to_dir, lat_to_reclat, over the
    numbers of any field (the reals, the rationals) instead of IEEE doubles: the rounding of
    numpy.dot and numpy.linalg.inv depends on the installed linear algebra library. *)
From Coq Require Import List Bool Field.
From Verif Require Import PyBase.
Import ListNotations.
Local Open Scope list_scope.

(** the numbers: a commutative field with decidable zero, and what math.pi is in it *)
Record numbers := Numbers {
  carrier :> Type;
  zero : carrier; one : carrier;
  add : carrier -> carrier -> carrier; mul : carrier -> carrier -> carrier; sub : carrier -> carrier -> carrier; opp : carrier -> carrier;
  div : carrier -> carrier -> carrier; inv : carrier -> carrier;
  is_field : field_theory zero one add mul sub opp div inv (@eq carrier);
  is_zero : carrier -> bool;
  is_zero_spec : forall a, is_zero a = true <-> a = zero;
  pi : carrier }.

Section Lattice.
Variable F : numbers.
Notation "a + b" := (add F a b). Notation "a * b" := (mul F a b). Notation "a - b" := (sub F a b). Notation "a / b" := (div F a b).
(** an array of shape (3) and an array of shape (3, 3) *)
Definition vec : Type := F * F * F.
Definition mat : Type := vec * vec * vec.
(** np.dot(v, m) *)
Definition np_dot (v : vec) (m : mat) : vec :=
  let '(x, y, z) := v in let '((a, b, c), (d, e, f), (g, h, i)) := m in
  (x * a + y * d + z * g, x * b + y * e + z * h, x * c + y * f + z * i).
(** np.transpose(m) *)
Definition np_transpose (m : mat) : mat :=
  let '((a, b, c), (d, e, f), (g, h, i)) := m in ((a, d, g), (b, e, h), (c, f, i)).
(** np.linalg.inv(m): Cramer's rule; LinAlgError for a singular matrix *)
Definition determinant (m : mat) : F :=
  let '((a, b, c), (d, e, f), (g, h, i)) := m in a * (e * i - f * h) - b * (d * i - f * g) + c * (d * h - e * g).
Definition np_inv (m : mat) : res mat :=
  let '((a, b, c), (d, e, f), (g, h, i)) := m in
  let D := determinant m in
  if is_zero F D then Exn LinAlgError
  else Ok (((e * i - f * h) / D, (c * h - b * i) / D, (b * f - c * e) / D),
           ((f * g - d * i) / D, (a * i - c * g) / D, (c * d - a * f) / D),
           ((d * h - e * g) / D, (b * g - a * h) / D, (a * e - b * d) / D)).
(** k * m *)
Definition np_scale (k : F) (m : mat) : mat :=
  let s (v : vec) := let '(x, y, z) := v in (k * x, k * y, k * z) in let '(u, v, w) := m in (s u, s v, s w).
(** 248-275 *)
Definition dir_to_cart (vector : vec) (lattice : mat) : vec := np_dot vector lattice.
(** 278-303 *)
Definition cart_to_dir (vector : vec) (lattice : mat) : res vec := let* i := np_inv lattice in Ok (np_dot vector i).
(** 306-333 *)
Definition lat_to_reclat (lattice : mat) : res mat := let* i := np_inv (np_transpose lattice) in Ok (np_scale ((one F + one F) * pi F) i).
End Lattice.
