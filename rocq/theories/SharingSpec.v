(** Vocabulary for the sharing of containers. *)
From Verif Require Import PyBase Sharing.
Local Open Scope list_scope.
Local Open Scope nat_scope.

(** The containers that make up a value of a property: itself, and those in it where the
    type has containers *)
Fixpoint parts (h : list cell) (p : stype) (v : sval) : list nat :=
  match p, v with
  | TCont _ _ q, SRef a => a :: match nth_error h a with Some c => flat_map (parts h q) (c_items c) | None => [] end
  | _, _ => []
  end.
(** What is seen of a value of a property *)
Inductive stree := Plain (v : sval) | Node (k : nat) (keys : list nat) (ts : list stree).
Fixpoint view (h : list cell) (p : stype) (v : sval) : stree :=
  match p, v with
  | TCont _ _ q, SRef a => match nth_error h a with Some c => Node (c_kind c) (c_keys c) (map (view h q) (c_items c)) | None => Plain v end
  | _, _ => Plain v
  end.
Definition seen (T : nat -> stype) (s : sstate) (k : nat) : option stree := option_map (view (s_heap s) (T k)) (s_store s k).

(** What is to be stored when [v] is assigned: containers with the converted items *)
Inductive stands_for (V : senv) (h : list cell) : stype -> sval -> stree -> Prop :=
| sf_any v : stands_for V h TAny v (Plain v)
| sf_leaf t n m : e_validate V t n = Some m -> stands_for V h (TLeaf t) (SAtom n) (Plain (SAtom m))
| sf_cont k co q a c ts : nth_error h a = Some c -> co = true \/ c_kind c = k ->
    Forall2 (stands_for V h q) (c_items c) ts -> stands_for V h (TCont k co q) (SRef a) (Node k (c_keys c) ts)
| sf_wrap k q n t : stands_for V h q (SAtom n) t -> stands_for V h (TCont k true q) (SAtom n) (Node k [] [t]).

(** References are to existing containers. *)
Definition exists_in (h : list cell) (v : sval) : Prop := match v with SAtom _ => True | SRef a => a < length h end.
Definition closed (h : list cell) : Prop := Forall (fun c => Forall (exists_in h) (c_items c)) h.

(** The container was made for property [k] when a value was assigned to it. *)
Definition made_for (s : sstate) (a k : nat) : Prop := nth_error (s_made s) a = Some (Some k).
(** Containers that were made for properties get no containers by changing them that they
    did not have before; others are changed at will, and those of properties with
    observe_mutations by their methods. *)
Definition tame (s : sstate) (x : saction) : Prop :=
  match x with
  | AChange a c => forall k c0, made_for s a k -> nth_error (s_heap s) a = Some c0 ->
      forall b, In (SRef b) (c_items c) -> In (SRef b) (c_items c0)
  | _ => True
  end.
Fixpoint tame_from (V : senv) (T : nat -> stype) (s : sstate) (xs : list saction) : Prop :=
  match xs with [] => True | x :: r => tame s x /\ tame_from V T (snd (act V T x s)) r end.
Definition nothing : sstate := ST [] [] (fun _ => None).
(** The action is about property [k], or changes a container made for it. *)
Definition concerns (s : sstate) (x : saction) (k : nat) : Prop :=
  match x with
  | AAssign j _ | ADelete j | ADeserialize j _ | AMutate j _ => j = k
  | AChange a _ => made_for s a k
  | ANew _ | ASerialize _ => False
  end.
