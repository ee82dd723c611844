(** Specifications for property objects: containment, names, tags. *)
From Verif Require Import Names.
Local Open Scope string_scope.
Local Open Scope list_scope.
Local Open Scope nat_scope.

(** Property [o] has property [q] as its contained property, key or value
    property, alternative, or the property it is computed for. *)
Definition holds (h : heap) (o q : nat) : Prop :=
  exists p, nth_error h o = Some p /\
  match o_kind p with
  | PkDyn c => q = c
  | PkTuple c => c = Some q
  | PkDict k v => k = Some q \/ v = Some q
  | PkUnion l => In q l
  | _ => False
  end.
(** [q] is [o] or in it, at any depth. *)
Inductive inside (h : heap) : nat -> nat -> Prop :=
| ins_self o : inside h o o
| ins_step o c q : holds h o c -> inside h c q -> inside h o q.
(** No property contains itself. *)
Definition acyclic (h : heap) : Prop := forall o c, holds h o c -> ~ inside h c o.
(** Contained properties exist. *)
Definition closed (h : heap) : Prop := forall o q, holds h o q -> q < length h.

(** Nothing but names differs. *)
Definition same_but_names (h h' : heap) : Prop :=
  length h' = length h /\
  forall o p, nth_error h o = Some p ->
  exists p', nth_error h' o = Some p' /\ o_kind p' = o_kind p /\ o_meta p' = o_meta p /\
    o_args p' = o_args p /\ o_kwargs p' = o_kwargs p.

(** Every property object is used under the one name [f] gives it: it is
    contained in objects used under that name, declared as an attribute of that
    name, computed by a function of that name, and given no other name. *)
Fixpoint one_name (f : nat -> string) (n : nat) (h : heap) (ops : list pop) : Prop :=
  (forall o q, holds h o q -> f o = f q) /\
  match ops with
  | [] => True
  | a :: r =>
      match a with
      | PName o s => f o = s
      | PNew (NDyn s _) _ _ => f (length h) = s
      | PClass _ own => forall k o, In (k, o) own -> f o = k
      | _ => True
      end /\ one_name f n (fst (step n h a)) r
  end.

(** The targets of the Renamed properties of a class body are properties. *)
Definition renamed_ok (h : heap) (inh : list string) (own : list (string * nat)) : Prop :=
  forall k o p s, In (k, o) own -> nth_error h o = Some p -> o_kind p = PkRenamed s ->
  In s inh \/ exists q, In (s, q) own.

(** A property or a HasProperties class: what may be contained. *)
Inductive acceptable (h : heap) : parg -> Prop :=
| acc_class c : acceptable h (AClass c)
| acc_obj o p : nth_error h o = Some p ->
    (o_kind p = PkProp \/ (exists c, o_kind p = PkInst c) \/ (exists c, o_kind p = PkTuple c) \/
     (exists k v, o_kind p = PkDict k v) \/ (exists l, o_kind p = PkUnion l)) ->
    acceptable h (AObj o).
(** Arguments that exist in Python: objects have an address on the heap. *)
Definition exists_arg (h : heap) (a : parg) : Prop := forall o, a = AObj o -> o < length h.
(** [c] is the property that stands for the argument: itself, or a new Instance without name. *)
Definition stands_for (h h' : heap) (a : parg) (c : nat) : Prop :=
  match a with
  | AObj o => c = o
  | AClass k => length h <= c /\ exists p, nth_error h' c = Some p /\ o_kind p = PkInst k /\ o_name p = "" /\ o_meta p = []
  | AOther => False
  end.
(** Objects of [h] other than [o] are the same in [h']. *)
Definition others_same (h h' : heap) (o : nat) : Prop :=
  forall q p, nth_error h q = Some p -> q <> o -> nth_error h' q = Some p.
(** Object [o] differs in nothing but what it contains. *)
Definition same_but_kind (h h' : heap) (o : nat) (k : pk) : Prop :=
  exists p, nth_error h o = Some p /\
    nth_error h' o = Some (PO k (o_name p) (o_meta p) (o_args p) (o_kwargs p)).
(** The arguments of a call exist, and are what the new property may contain. *)
Definition new_args (k : pnew) : list parg :=
  match k with NTuple a => [a] | NUnion (Some l) => l | _ => [] end.
Definition not_dynamic (k : pnew) : Prop := forall s a, k <> NDyn s a.
(** What a new property of this class is and contains. *)
Definition new_kind (h h' : heap) (k : pnew) (x : pk) : Prop :=
  match k with
  | NProp => x = PkProp
  | NInst c => x = PkInst c
  | NGet => x = PkGet
  | NRenamed s => x = PkRenamed s
  | NDyn _ a => exists c, a = AObj c /\ x = PkDyn c
  | NTuple a => exists c, stands_for h h' a c /\ x = PkTuple (Some c)
  | NTupleAny => x = PkTuple None
  | NDict => x = PkDict None None
  | NUnion l => exists t cs, l = Some t /\ Forall2 (stands_for h h') t cs /\ x = PkUnion cs
  end.
