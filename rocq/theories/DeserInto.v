(** Model of [HasProperties.deserialize] with the private keyword [_instance],
    which [HasUID.deserialize] uses to fill an instance it has registered before
    (extras/uid.py:157-170).  World.v has the case without it. *)
From Verif Require Import World.
Local Open Scope string_scope.
Local Open Scope list_scope.
Local Open Scope nat_scope.

Section Into.
  Variable E : env.
  Variable C : ctable.
  Variable U : ucode.
  (** The interpreter, for calls out of this frame. *)
  Variable rec : call -> M val.

  (** base.py:574-576: each key and value, deserialized by the property of the output class *)
  Definition into_state (c : cls) (o : dopt) (d : list (val * val)) : M (list (string * val)) :=
    mapM (fun kv =>
      match dget (c_props c) (fst kv) with
      | Some pd => let* x := decl_deserialize E C rec (DOpt (o_trusted o) (o_strict o) false) pd (snd kv) in ret (fst kv, x)
      | None => throw ExKey
      end) (known_props c d).
  (** base.py:582-583: [setattr(instance, key, val)], by the class of the instance *)
  Definition into_mutable (l : loc) (kv : string * val) : M unit :=
    has_setattr E C U rec l (fst kv) (snd kv) ;; ret tt.
  (** base.py:584-586: properties without setter are validated and stored *)
  Definition into_immutable (c : cls) (l : loc) (kv : string * val) : M unit :=
    match dget (c_props c) (fst kv) with
    | Some pd =>
        let* x := p_validate E C rec (decl_type pd) (Some l) (fst kv) (snd kv) in
        upd l (fun i => i_setback (dset (i_back i) (fst kv) x) i)
    | None => throw ExKey
    end.

  (** base.py:518-589 [deserialize] of class [cid] with [_instance=l], which is
      not None *)
  Definition deser_into (cid : nat) (v : val) (o : dopt) (l : loc) : M val :=
    match v with
    | VDict d =>
        let* k := deser_class C cid (vd_get d class_key) o in
        let* c := class_of C k in
        let* b := isinstance C (VInst l) k in
        if negb b then throw ExValue
        else if has_unused c d && o_strict o then throw ExValue
        else
          let* newstate := into_state c o d in
          disabled None (iterM (into_mutable l) (filter (fun kv => key_mutable c (fst kv)) newstate)) ;;
          iterM (into_immutable c l) (filter (fun kv => negb (key_mutable c (fst kv))) newstate) ;;
          (if o_valid o then rec (COp (OValidate l)) ;; ret tt else ret tt) ;;
          ret (VInst l)
    | _ => throw ExValue
    end.
End Into.
