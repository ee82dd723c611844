(** Specification of numbers: the exact real value of a Python int or float.
    Every finite double is an integer multiple of 2^-1074, so exact values are
    counted in that unit and compared as integers. *)
From Verif Require Import PyBase PyFloat.
Open Scope Z_scope.

(** [Fin u] is the real number u * 2^-1074. *)
Inductive ext := Fin (u : Z) | PInf | MInf | Nan.

Definition UNIT : Z := 2 ^ 1074.

Definition fext (f : float) : ext :=
  match f with
  | S754_zero _ => Fin 0
  | S754_infinity s => if s then MInf else PInf
  | S754_nan => Nan
  | S754_finite s m e => Fin ((if s then Z.neg m else Z.pos m) * 2 ^ (e + 1074))
  end.

Definition ext_of (n : num) : ext :=
  match n with NZ z => Fin (z * UNIT) | NF f => fext f end.

(** Strict order of the extended reals; nan is unordered. *)
Definition ext_lt (a b : ext) : Prop :=
  match a, b with
  | Fin x, Fin y => x < y
  | MInf, Fin _ | MInf, PInf | Fin _, PInf => True
  | _, _ => False
  end.

Definition valid_num (n : num) : Prop := match n with NZ _ => True | NF f => valid_float f = true end.

(** The tolerance 1e-9 (the nearest double) in units; the lemma says that no
    other double of that binade is nearer to 10^-9. *)
Definition tol_units : Z := 4835703278458517 * 2 ^ 992.
Lemma tol_nearest : 2 * Z.abs (tol_units * 10 ^ 9 - UNIT) <= 2 ^ 992 * 10 ^ 9.
Proof. vm_compute. discriminate. Qed.
