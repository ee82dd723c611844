(** Model of class registries: [_REGISTRY] redeclared in class bodies
    (base/base.py:246, 292-295, 303), and the class that deserialize
    constructs (base/base.py:591-603).  World.v has one registry for all classes.

    Not modelled: assigning to [_REGISTRY] or changing it, and declaring it in
    classes that are not HasProperties classes; class names that are not strings
    in the dictionary to read. *)
From Verif Require Export PyBase.
Local Open Scope string_scope.
Local Open Scope list_scope.
Local Open Scope nat_scope.

(** A class: its name, its MRO with itself first, and the dictionary its body
    assigns to [_REGISTRY], if any (base/base.py:303) *)
Record rcls := RC { rc_name : string; rc_mro : list nat; rc_reg : option (dict nat) }.
(** The classes in order of creation (base/base.py:87-247). *)
Definition rtable := list rcls.
(** base/base.py:284, 303: HasProperties itself *)
Definition r_start : rtable := [RC "HasProperties" [0] (Some [("HasProperties", 0)])].

(** base/base.py:246, 596: the class whose dictionary [cls._REGISTRY] is *)
Fixpoint first_reg (T : rtable) (mro : list nat) : option nat :=
  match mro with
  | [] => None
  | c :: r => match nth_error T c with
              | Some (RC _ _ (Some _)) => Some c
              | _ => first_reg T r
              end
  end.
(** The class whose [_REGISTRY] the class uses (base.py:246, 303). *)
Definition reg_owner (T : rtable) (c : nat) : option nat :=
  match nth_error T c with Some x => first_reg T (rc_mro x) | None => None end.
(** base/base.py:246, 596: [cls._REGISTRY] *)
Definition registry (T : rtable) (c : nat) : dict nat :=
  match reg_owner T c with
  | Some o => match nth_error T o with Some (RC _ _ (Some d)) => d | _ => [] end
  | None => []
  end.
(** base/base.py:246: change the dictionary of a class *)
Fixpoint set_reg (T : rtable) (o : nat) (f : dict nat -> dict nat) : rtable :=
  match T, o with
  | [], _ => []
  | x :: r, 0 => RC (rc_name x) (rc_mro x) (option_map f (rc_reg x)) :: r
  | x :: r, S n => x :: set_reg r n f
  end.
(** base/base.py:87-248: a class with this name, MRO of its parents, and whether
    its body says [_REGISTRY = dict()]; line 246 *)
Definition declare (T : rtable) (name : string) (parents : list nat) (own : bool) : rtable :=
  let c := length T in
  let T1 := T ++ [RC name (c :: parents) (if own then Some [] else None)] in
  match reg_owner T1 c with
  | Some o => set_reg T1 o (fun d => dset d name c)
  | None => T1
  end.
(** base/base.py:87-248: a sequence of declarations *)
Fixpoint declare_all (T : rtable) (l : list (string * list nat * bool)) : rtable :=
  match l with
  | [] => T
  | (name, parents, own) :: r => declare_all (declare T name parents own) r
  end.

(** base/base.py:591-603; the result is a class.  [None]: no '__class__' *)
Definition deserialize_class (T : rtable) (c : nat) (input : option string) (trusted strict : bool) : res nat :=
  match nth_error T c, input with
  | Some x, Some s =>
      if String.eqb s "" || String.eqb s (rc_name x) then Ok c
      else match (if trusted then dget (registry T c) s else None) with
           | Some d => Ok d
           | None => if strict then Exc ExValue else Ok c
           end
  | _, _ => Ok c
  end.
