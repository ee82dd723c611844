(** What a status line says, without the model of reporting. *)
From Verif Require Import World WorldSpec NumSpec BasicSpec.
Local Open Scope string_scope.
Local Open Scope list_scope.
Local Open Scope Z_scope.

(** [s] is the number [z] in decimal, without leading zeros, at the right of
    three characters. *)
Definition right_aligned (z : Z) (s : string) : Prop :=
  exists k, (1 <= k <= 3)%nat /\ s = unchars (repeat " "%char (3 - k) ++ decimal k z) /\
    0 <= z < 10 ^ Z.of_nat k /\ (k = 1%nat \/ 10 ^ Z.of_nat (k - 1) <= z).

(** [z] is a percentage, and it is [n] times one hundred up to 0.51: the
    product is rounded to a double and then to an integer. *)
Definition percentage (n : num) (z : Z) : Prop :=
  0 <= z <= 100 /\ exists u, ext_of n = Fin u /\ 100 * Z.abs (z * UNIT - 100 * u) <= 51 * UNIT.

(** The line printed for progress [n]. *)
Definition line_for (taskname : string) (n : num) (message line : string) : Prop :=
  exists z field, percentage n z /\ right_aligned z field /\
    line = (taskname ++ " | " ++ field ++ "% | " ++ message)%string.

(** [l] is an instance of the class [cid] or of a subclass of it. *)
Definition instance_of (C : ctable) (w : world) (l : loc) (cid : nat) : Prop :=
  exists c, has_class C w l c /\ In cid (c_mro c).

(** The message stored in a status. *)
Definition message_of (w : world) (l : loc) : string :=
  match stored w l "message" with Some (VStr s) => s | _ => "" end.

(** A dictionary with this progress and, if it is not empty, this message. *)
Definition says (d : list (val * val)) (f : float) (s : string) : Prop :=
  (d = [(VStr "progress", VFloat f)] /\ s = "") \/
  d = [(VStr "progress", VFloat f); (VStr "message", VStr s)] \/
  d = [(VStr "message", VStr s); (VStr "progress", VFloat f)].
