(** base/containers.py 39-47, 50-64, 95-106: operators and copying methods of
    observable containers (observe_mutations=True), and Python's protocol for binary
    operators.

    Containers have opaque items.  Operands of other classes are opaque too; they are
    not of subclasses of the container's class (a frozenset, a view of a dictionary,
    an array, a number, ...) and do not look whether a list, set or dict is
    observable.  What the builtin classes and these objects do is arbitrary. *)
From Verif Require Import PyBase.
Local Open Scope list_scope.
Local Open Scope nat_scope.

(** Objects: a list, set or dict; an observable one with [_instance] and [_name], if
    they are set (containers.py:108-138); others *)
Inductive obj := OBuiltin (xs : list nat) | OObservable (xs : list nat) (owner : option nat) | OAlien (x : nat).
(** Operands as the builtin classes see them: a subclass is as good as the class
    (base/containers.py:95-105) *)
Inductive operand := ACont (xs : list nat) | AAlien (x : nat).
(** What an operator method does: return a value, return NotImplemented, raise (base/containers.py:95-105) *)
Inductive trial (A : Type) := Gives (a : A) | Declines | Raises (e : exn).
Arguments Gives {A} a. Arguments Declines {A}. Arguments Raises {A} e.

(** Operators and methods are numbered (base/containers.py:31-63). *)
Record opers := Opers {
  (** the builtin class computes [l op r], at least one of them of the class *)
  op_base : nat -> operand -> operand -> trial (list nat);
  (** is it a number operator of the class (those of set and dict), that is tried before
      the reflected method of the right operand? Those of list, + and *, are tried last. *)
  op_number : nat -> bool;
  (** does the class have the reflected method? (not list for +) *)
  op_refl : nat -> bool;
  (** x op container, container op x, x op y by the other classes *)
  op_left : nat -> nat -> list nat -> trial obj;
  op_right : nat -> nat -> list nat -> trial obj;
  op_both : nat -> nat -> nat -> res obj;
  (** methods of the builtin class that return a container: copy, union, ...; and of the
      others *)
  op_meth : nat -> list nat -> res (list nat);
  op_alien : nat -> nat -> res obj
}.

Section Operators.
  Variable V : opers.
  (** the result of the builtin class's method: a builtin container (base/containers.py:95-105) *)
  Definition plainly (t : trial (list nat)) : trial obj :=
    match t with Gives xs => Gives (OBuiltin xs) | Declines => Declines | Raises e => Raises e end.
  (** containers.py:98-101: [cls(output)] of the method's output; the new container has
      neither [_instance] nor [_name], and NotImplemented cannot be iterated over *)
  Definition wrapped (t : trial (list nat)) : trial obj :=
    match t with Gives xs => Gives (OObservable xs None) | Declines => Raises ExType | Raises e => Raises e end.
  (** The first method that does not return NotImplemented decides (base/containers.py:95-105). *)
  Fixpoint decide (ts : list (trial obj)) : res obj :=
    match ts with
    | [] => Exc ExType
    | Gives v :: _ => Ok v
    | Declines :: r => decide r
    | Raises e :: _ => Exc e
    end.
  (** Which methods Python calls for [a op b], in order: first the reflected one of a
      right operand of a subclass; containers.py:39-44 names the methods wrapped
      (no __radd__: a list has none) *)
  Definition trials (op : nat) (a b : obj) : list (trial obj) :=
    match a, b with
    | OBuiltin l, OBuiltin r => [plainly (op_base V op (ACont l) (ACont r))]
    | OBuiltin l, OObservable r _ =>
        (if op_refl V op then [wrapped (op_base V op (ACont l) (ACont r))] else []) ++
        [plainly (op_base V op (ACont l) (ACont r))]
    | OBuiltin l, OAlien x =>
        let own := plainly (op_base V op (ACont l) (AAlien x)) in
        if op_number V op then [own; op_right V op x l] else [op_right V op x l; own]
    | OObservable l _, OBuiltin r | OObservable l _, OObservable r _ => [wrapped (op_base V op (ACont l) (ACont r))]
    | OObservable l _, OAlien x => [wrapped (op_base V op (ACont l) (AAlien x)); op_right V op x l]
    | OAlien x, OBuiltin r =>
        op_left V op x r :: (if op_refl V op then [plainly (op_base V op (AAlien x) (ACont r))] else [])
    | OAlien x, OObservable r _ =>
        op_left V op x r :: (if op_refl V op then [wrapped (op_base V op (AAlien x) (ACont r))] else [])
    | OAlien x, OAlien y => [match op_both V op x y with Ok v => Gives v | Exc e => Raises e end]
    end.
  (** [a op b] (containers.py:39-44, 95-106) *)
  Definition binary (op : nat) (a b : obj) : res obj := decide (trials op a b).
  (** [a.method(...)] (containers.py:39-41, 95-106) *)
  Definition method (m : nat) (a : obj) : res obj :=
    match a with
    | OBuiltin xs => rbind (op_meth V m xs) (fun ys => Ok (OBuiltin ys))
    | OObservable xs _ => rbind (op_meth V m xs) (fun ys => Ok (OObservable ys None))
    | OAlien x => op_alien V m x
    end.

  (** Expressions with such operators and methods (containers.py:39-44) *)
  Inductive expr := EObj (a : obj) | EBin (op : nat) (x y : expr) | EMeth (m : nat) (x : expr).
  (** Their values; operands are evaluated from left to right (containers.py:95-106). *)
  Fixpoint eval (e : expr) : res obj :=
    match e with
    | EObj a => Ok a
    | EBin op x y => rbind (eval x) (fun a => rbind (eval y) (fun b => binary op a b))
    | EMeth m x => rbind (eval x) (fun a => method m a)
    end.
End Operators.
