(** Specification of Pointer properties. *)
From Verif Require Import Pointers.
Local Open Scope string_scope.
Local Open Scope list_scope.
Local Open Scope nat_scope.

Section Spec.
  Variable prop : option (string -> res pval).
  Variable validate_uid : option (pval -> res unit).
  Variable load : bool.
  Variable loader : option (pval -> res pval).
  Variable isa : pval -> bool.
  Variable make : pval -> res pval.

  (** [s] names [u]: the uid property makes [u] of it, and [validate_uid] does not raise *)
  Definition names_uid (s : string) (u : pval) : Prop :=
    match prop with Some p => p s = Ok u | None => u = PStr s end /\
    (forall f, validate_uid = Some f -> f u = Ok tt).
  (** what [load] makes of it; None if there is nothing to load *)
  Definition loads (u x : pval) : Prop :=
    (exists f, loader = Some f /\ load = true /\ f u = Ok x) \/ ((loader = None \/ load = false) /\ x = PNone).
  (** A value becomes an instance: it is one, or the class makes something of it *)
  Definition instantiates (v w : pval) : Prop := (isa v = true /\ w = v) \/ (isa v = false /\ make v = Ok w).
  (** What assignment accepts *)
  Inductive accepts : pval -> pval -> Prop :=
  | ac_uid s u : names_uid s u -> loads u PNone -> accepts (PStr s) u
  | ac_loaded s u x w : names_uid s u -> loads u x -> x <> PNone -> instantiates x w -> accepts (PStr s) w
  | ac_instance v w : v <> PNone -> (forall s, v <> PStr s) -> instantiates v w -> accepts v w.
  (** Two values are equal: instances by [properties.equal], others by Python *)
  Variable inst_equal : nat -> nat -> res bool.
  Inductive alike : pval -> pval -> Prop :=
  | al_instance l k : inst_equal l k = Ok true -> alike (PObj l) (PObj k)
  | al_value v : (forall l, v <> PObj l) -> alike v v.
End Spec.
(** The class declares the property [name] as [p] *)
Definition declares {P} (props : option (dict P)) (name : string) (p : P) : Prop := exists d, props = Some d /\ In (name, p) d.
