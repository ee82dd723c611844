(** Vocabulary for the theorems about deserializing into an existing instance. *)
From Verif Require Import World WorldSpec DeserSpec DeserInto.
Local Open Scope string_scope.
Local Open Scope list_scope.
Local Open Scope nat_scope.

(** The only difference between [w] and [w'], besides the events, is in the
    stored property values of instance [l]; no listener was called. *)
Definition only_values (l : loc) (w w' : world) : Prop :=
  unheard w w' /\ w_links w' = w_links w /\ length (w_heap w') = length (w_heap w) /\
  (forall l', l' <> l -> nth_error (w_heap w') l' = nth_error (w_heap w) l') /\
  (forall i, nth_error (w_heap w) l = Some i -> exists b, nth_error (w_heap w') l = Some (i_setback b i)).

(** Storing JSON value [j] in property [k] of instance [l]: declaration [d0] of
    the output class deserializes it to [y].  If the property can be assigned,
    the declaration [d] of the instance's class validates [y], and [undefined]
    unsets the property; otherwise [d0] validates it.  [x] is what is stored. *)
Definition stores (E : env) (C : ctable) (U : ucode) (n : nat) (o : dopt) (d0 d : pdecl) (l : loc) (k : string) (j : val) (x : option val) : Prop :=
  exists y wa wb, decl_deserialize E C (exec E C U n) (DOpt (o_trusted o) (o_strict o) false) d0 j wa = (Ok y, wb) /\
    match pd_kind d0 with
    | KProp => y = VUndef /\ x = None \/
        y <> VUndef /\ exists v wc wd, p_validate E C (exec E C U n) (pd_type d) (Some l) k y wc = (Ok v, wd) /\ x = when_set v
    | _ => exists v wc wd, p_validate E C (exec E C U n) (pd_type d0) (Some l) k y wc = (Ok v, wd) /\ x = Some v
    end.

(** The declaration of a property that is not another name for one, without
    HasProperties classes in its type. *)
Definition ordinary (d : pdecl) : Prop :=
  inst_free (pd_type d) /\ forall s, pd_kind d <> KRenamed s.
(** Property [k] is ordinary in the output class and, if it can be assigned, in
    the class of the instance, where it can be assigned too. *)
Definition ordinary_key (c ci : cls) (k : string) : Prop :=
  forall d0, dget (c_props c) k = Some d0 -> ordinary d0 /\
    (pd_kind d0 = KProp -> exists d, dget (c_props ci) k = Some d /\ pd_kind d = KProp /\ ordinary d).
(** A property of class [c] that cannot be assigned and is not another name for
    one is declared alike in class [ci]. *)
Definition same_unset (c ci : cls) : Prop :=
  forall name d, dget (c_props c) name = Some d -> pd_kind d <> KProp -> (forall s, pd_kind d <> KRenamed s) -> dget (c_props ci) name = Some d.
