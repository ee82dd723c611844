(** Specification of the validation of vectors. *)
From Verif Require Import Vectors OptionsSpec.
Local Open Scope string_scope.
Local Open Scope list_scope.
Local Open Scope nat_scope.

(** A vector (or array of vectors) of the class, with doubles and a shape of the
    Property *)
Definition vector_of (k : akind) (o : aopts) (a : nda) : Prop :=
  n_class a = k /\ n_type a = TFloat /\
  forall l, shape_opt k o = Some l -> exists s, In s l /\ fits s (map Z.of_nat (n_shape a)).
(** What happens to the array [a] at place [i]: the result, and the array afterwards *)
Inductive outcome (k : akind) (o : aopts) (scale : nda -> float -> scaled) (len : option float) (i : nat) (a : nda) : vres -> nda -> Prop :=
| oc_error : ~ vector_of k o a -> outcome k o scale len i a VecErr a
| oc_as_is : vector_of k o a -> len = None -> outcome k o scale len i a (VecOk i) a
| oc_scaled f b : vector_of k o a -> len = Some f -> scale a f = SDone b -> outcome k o scale len i a (VecOk i) b
| oc_zero f b : vector_of k o a -> len = Some f -> scale a f = SZero b -> outcome k o scale len i a VecZero b
| oc_raises f e b : vector_of k o a -> len = Some f -> scale a f = SRaises e b -> outcome k o scale len i a (VecExc e) b.
(** The positive numbers among bool, int and float, and their double; nan counts *)
Inductive positive_number : val -> option float -> Prop :=
| pn_true : positive_number (VBool true) (fofZ 1)
| pn_int z : (0 < z)%Z -> positive_number (VInt z) (fofZ z)
| pn_finite m e : positive_number (VFloat (S754_finite false m e)) (Some (S754_finite false m e))
| pn_inf : positive_number (VFloat (S754_infinity false)) (Some (S754_infinity false))
| pn_nan : positive_number (VFloat S754_nan) (Some S754_nan).
