(** Operations that only read, and when they change nothing. *)
From Verif Require Import World WorldSpec.
Local Open Scope string_scope.
Local Open Scope list_scope.
Local Open Scope nat_scope.

(** Reading an attribute, serializing, comparing *)
Definition reading (o : op) : Prop :=
  match o with OGet _ _ | OSer _ _ | OEqual _ _ => True | _ => False end.
(** Code that only reads *)
Inductive reader : prog -> Prop :=
| R_ret v : reader (Ret v)
| R_raise e : reader (Raise e)
| R_do o k : reading o -> (forall r, reader (k r)) -> reader (Do o k).
(** No Union in it has an alternative with a HasProperties class. *)
Fixpoint trial_free (p : ptype) : Prop :=
  match p with
  | PLeaf _ | PInst _ => True
  | PSeq _ q _ _ _ => trial_free q
  | PDict k v _ => trial_free k /\ trial_free v
  | PUnion _ _ => inst_free p
  end.
(** So it is for all properties; the getters of dynamic properties only read, and
    give values of types without HasProperties classes. *)
Definition harmless (C : ctable) (U : ucode) : Prop :=
  forall c name d, In c (ct_cls C) -> In (name, d) (c_props c) ->
  trial_free (pd_type d) /\
  forall g st dl, pd_kind d = KDynamic g st dl -> (forall l, reader (u_get U g l)) /\ inst_free (pd_type d).
(** There are no dynamic properties. *)
Definition no_dynamic (C : ctable) : Prop :=
  forall c name d g st dl, In c (ct_cls C) -> In (name, d) (c_props c) -> pd_kind d <> KDynamic g st dl.
(** The same instances with the same stored values, listeners, flags and attributes,
    the same links, the same modes disabled, no listener called, nothing written,
    no error hook called *)
Definition unchanged (w w' : world) : Prop :=
  w_heap w' = w_heap w /\ w_quar w' = w_quar w /\ w_links w' = w_links w /\ w_trace w' = w_trace w.
