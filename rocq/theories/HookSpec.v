(** Vocabulary for the calls of [_error_hook]. *)
From Verif Require Import World WorldSpec.
Local Open Scope string_scope.
Local Open Scope list_scope.
Local Open Scope nat_scope.

(** The arguments of the calls of [l]'s hook, latest first. *)
Fixpoint hook_calls (l : loc) (new : list event) : list (list etuple) :=
  match new with
  | [] => []
  | EHook l' ts :: r => if Nat.eqb l' l then ts :: hook_calls l r else hook_calls l r
  | _ :: r => hook_calls l r
  end.
(** [tss] are the calls of [l]'s hook between [w] and [w']. *)
Definition reported (l : loc) (w w' : world) (tss : list (list etuple)) : Prop :=
  exists new, since w w' new /\ hook_calls l new = tss.
(** Instance [l] exists and [_getting_validated] is [b]; [None] until
    [__init__]. *)
Definition validating (w : world) (l : loc) (b : option bool) : Prop :=
  exists i, nth_error (w_heap w) l = Some i /\ i_vflag i = b.
(** What a failure should report. *)
Definition failure {A} (r : res A) : list (list etuple) :=
  match r with Exc (ExValidation ts) => [ts] | _ => [] end.
(** The error tuple of a rejected value. *)
Definition rejected (l : loc) (name : string) : list etuple := [ET (Some "invalid") (Some name) (Some l)].

(** Types made of basic properties, lists, sets, tuples and dictionaries. *)
Fixpoint plain_type (p : ptype) : Prop :=
  match p with
  | PLeaf _ => True
  | PSeq _ q _ _ _ => plain_type q
  | PDict k v _ => plain_type k /\ plain_type v
  | PUnion _ _ | PInst _ => False
  end.
Definition numeric (t : leaf) : Prop :=
  match t with LfInt _ _ _ | LfFloat _ _ _ | LfComplex _ => True | _ => False end.
