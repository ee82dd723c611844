(** Vocabulary for operators of observable containers. *)
From Verif Require Import PyBase Operators.
Local Open Scope list_scope.
Local Open Scope nat_scope.

(** The same container, not observable *)
Definition builtin_of (a : obj) : obj := match a with OObservable xs _ => OBuiltin xs | a => a end.
(** The same result, up to observability *)
Definition like (r r' : res obj) : Prop :=
  match r, r' with
  | Ok a, Ok b => builtin_of a = builtin_of b
  | Exc e, Exc e' => e = e'
  | _, _ => False
  end.
(** The expression with builtin containers instead of observable ones *)
Fixpoint with_builtins (e : expr) : expr :=
  match e with
  | EObj a => EObj (builtin_of a)
  | EBin op x y => EBin op (with_builtins x) (with_builtins y)
  | EMeth m x => EMeth m (with_builtins x)
  end.
(** Objects of other classes do nothing with a container to their left. *)
Definition passive (V : opers) : Prop := forall op x l, op_right V op x l = Declines.
(** What other classes return may contain, but is not, an observable container. *)
Definition is_observable (a : obj) : bool := match a with OObservable _ _ => true | _ => false end.
Definition returns_no_observable (V : opers) : Prop :=
  (forall op x l a, op_left V op x l = Gives a -> is_observable a = false) /\
  (forall op x l a, op_right V op x l = Gives a -> is_observable a = false) /\
  (forall op x y a, op_both V op x y = Ok a -> is_observable a = false) /\
  (forall m x a, op_alien V m x = Ok a -> is_observable a = false).
(** A container that tells an instance of its changes *)
Definition attached (a : obj) : bool := match a with OObservable _ (Some _) => true | _ => false end.
(** Does the expression give an observable container, if it gives a container?  Operators:
    if the left operand is one, or the right one and the class has the reflected method. *)
Fixpoint observable_result (V : opers) (e : expr) : bool :=
  match e with
  | EObj a => is_observable a
  | EBin op x y => observable_result V x || (observable_result V y && op_refl V op)
  | EMeth _ x => observable_result V x
  end.
(** Only containers inside *)
Fixpoint containers_only (e : expr) : Prop :=
  match e with
  | EObj (OAlien _) => False
  | EObj _ => True
  | EBin _ x y => containers_only x /\ containers_only y
  | EMeth _ x => containers_only x
  end.
