(** What can be wrong with a value that was accepted. *)
From Verif Require Import World WorldSpec AccessSpec GraphSpec.
Local Open Scope string_scope.
Local Open Scope list_scope.
Local Open Scope nat_scope.

Section Faultless.
  Variables (E : env) (C : ctable) (U : ucode) (w : world).
  (** the instances taken to be valid *)
  Variable S : loc -> Prop.
  (** The property finds the value equal to itself (nan is not). *)
  Definition self_equal (p : ptype) (v : val) : Prop := answers (fun n => p_equal (exec E C U n) p v v) w (Ok true).
  (** Every part is equal to itself, the lengths are within the limits, and
      instances are valid. *)
  Fixpoint faultless (p : ptype) (v : val) : Prop :=
    self_equal p v /\
    match p with
    | PLeaf _ | PUnion _ _ => True
    | PSeq _ q mn mx _ => forall items, elements v = Some items -> within_limits mn mx (length items) /\ Forall (faultless q) items
    | PDict kp vp _ => forall d, v = VDict d -> Forall (fun kx => faultless kp (fst kx) /\ faultless vp (snd kx)) d
    | PInst _ => forall m, v = VInst m -> S m
    end.
End Faultless.
