(** Specifications for class registries. *)
From Verif Require Import Registry.
Local Open Scope string_scope.
Local Open Scope list_scope.
Local Open Scope nat_scope.

Definition named (T : rtable) (c : nat) (s : string) : Prop := exists x, nth_error T c = Some x /\ rc_name x = s.
(** The body of the class declares a registry. *)
Definition declares (T : rtable) (c : nat) : Prop := exists x, nth_error T c = Some x /\ rc_reg x <> None.
(** [o] is the first class in the MRO of [c] whose body declares a registry. *)
Definition registered_with (T : rtable) (c o : nat) : Prop :=
  exists x l1 l2, nth_error T c = Some x /\ rc_mro x = l1 ++ o :: l2 /\ declares T o /\ forall d, In d l1 -> ~ declares T d.
(** [d] is the last class of that name that is registered with [o]. *)
Definition last_named (T : rtable) (o : nat) (s : string) (d : nat) : Prop :=
  named T d s /\ registered_with T d o /\ forall e, d < e -> named T e s -> ~ registered_with T e o.
(** The parents of every class exist, and HasProperties is among them. *)
Definition parents_ok (T : rtable) (parents : list nat) : Prop := In 0 parents /\ forall p, In p parents -> p < length T.
Fixpoint program_ok (T : rtable) (l : list (string * list nat * bool)) : Prop :=
  match l with
  | [] => True
  | (name, parents, own) :: r => parents_ok T parents /\ program_ok (declare T name parents own) r
  end.
