(** Disabling and enabling a whole [link]: [link.unlink] and [link.relink].  A
    link object is the tuple [_dlinks] of its directional links (link.py:187-192),
    here the list of their numbers. *)
From Verif Require Import World.
Local Open Scope string_scope.
Local Open Scope list_scope.
Local Open Scope nat_scope.

Section Group.
  Variable rec : call -> M val.

  (** link.py:194-197 [link.dlinks]: the loop over the directional links, in
      the order in which they were made. *)
  Fixpoint each_dlink (f : nat -> op) (ks : list nat) : M val :=
    match ks with
    | [] => ret VNone
    | k :: r => rec (COp (f k)) ;; each_dlink f r
    end.

  (** link.py:199-202 [link.relink] *)
  Definition link_relink (ks : list nat) : M val := each_dlink ORelink ks.

  (** link.py:204-207 [link.unlink] *)
  Definition link_unlink (ks : list nat) : M val := each_dlink OUnlink ks.
End Group.
