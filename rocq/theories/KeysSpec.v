(** Keys of dictionaries that have no key as JSON. *)
From Verif Require Import World WorldSpec.

(** The values are containers or instances. *)
Definition composite (p : ptype) : Prop :=
  match p with PSeq _ _ _ _ _ | PDict _ _ _ | PInst _ => True | PLeaf _ | PUnion _ _ => False end.
