(** Vocabulary for the theorems about deserialization. *)
From Verif Require Import World WorldSpec.
Local Open Scope string_scope.
Local Open Scope list_scope.
Local Open Scope nat_scope.

(** No listener was called between [w] and [w'], and the same listener modes
    are disabled. *)
Definition unheard (w w' : world) : Prop :=
  w_quar w' = w_quar w /\ exists new, since w w' new /\ Forall (fun e => ~ is_call e) new.

(** The Unions in a type either have no HasProperties classes in them, or are
    not strict about instances and have them as alternatives of their own. *)
Fixpoint calm (p : ptype) : Prop :=
  match p with
  | PLeaf _ | PInst _ => True
  | PSeq _ q _ _ _ => calm q
  | PDict k v _ => calm k /\ calm v
  | PUnion si ps => inst_free p \/
      (si = false /\ (fix all (ps : list ptype) : Prop :=
         match ps with [] => True | q :: r => (inst_free q \/ exists cid, q = PInst cid) /\ all r end) ps)
  end.
(** Stored properties are calm, and those that cannot be assigned have no
    HasProperties classes in their types. *)
Definition calm_table (C : ctable) : Prop :=
  forall cid c name d, nth_error (ct_cls C) cid = Some c -> In (name, d) (c_props c) ->
    match pd_kind d with
    | KProp => calm (pd_type d)
    | KGettable | KDynamic _ _ _ => inst_free (pd_type d)
    | KRenamed _ => True
    end.
(** Default factories of properties that cannot be assigned only compute a
    value. *)
Definition calm_defaults (C : ctable) (U : ucode) : Prop :=
  forall cid c name d cb, nth_error (ct_cls C) cid = Some c -> In (name, d) (c_props c) ->
    pd_kind d <> KProp -> default_of c name d = DCall cb ->
    match u_default U cb with Ret _ | Raise _ => True | _ => False end.
