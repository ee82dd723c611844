(** Specifications for overriding [_error_hook]. *)
From Verif Require Import Hooks.
Local Open Scope list_scope.
Local Open Scope string_scope.
Local Open Scope nat_scope.

Section Spec.
  Variable S : Type.
  Variable hook : list tup -> S -> option herr * list tup * S.
  Variable K : Type.
  Variable step : K -> S -> list tup * outcome * S.

  (** What a single one contributes: tuples, and another exception that is kept *)
  Inductive yields : outcome -> list tup -> option exn -> Prop :=
  | yi_fine : yields Fine [] None
  | yi_refuses : yields Refuses [Tup "Validation failed" None None true] None
  | yi_raises m ts : yields (Raises (HVal m ts)) ts None
  | yi_other e : is_generic e = true -> yields (Raises (HOther e)) [] (Some e).
  (** All of them: the tuples in order, the first other exception, the state *)
  Inductive gathered : list K -> S -> list tup -> option exn -> S -> Prop :=
  | ga_end u : gathered [] u [] None u
  | ga_next k r u added o u1 ts x ts' x' u2 :
      step k u = (added, o, u1) -> yields o ts x -> gathered r u1 ts' x' u2 ->
      gathered (k :: r) u (added ++ ts ++ ts')%list (match x with Some e => Some e | None => x' end) u2.
  (** One of them ends it at once: an exception that is not collected *)
  Inductive escapes : outcome -> herr -> Prop :=
  | es_raises e : is_generic e = false -> escapes (Raises (HOther e)) (HOther e)
  | es_stops e : escapes (Stops e) e.
  Inductive broken_off : list K -> S -> herr -> S -> Prop :=
  | br_here k r u added o u1 e : step k u = (added, o, u1) -> escapes o e -> broken_off (k :: r) u e u1
  | br_later k r u added o u1 ts x e u2 :
      step k u = (added, o, u1) -> yields o ts x -> broken_off r u1 e u2 -> broken_off (k :: r) u e u2.

  (** The text: the title, then one line for each tuple *)
  Inductive lists : string -> list tup -> string -> Prop :=
  | li_none a : lists a [] a
  | li_next a t r m : lists (a ++ String (ascii_of_nat 10) ("- " ++ t_msg t)) r m -> lists a (t :: r) m.
  (** The hook neither changes the list nor raises. *)
  Definition lenient : Prop := forall ts u, exists u1, hook ts u = (None, ts, u1).

  (** How it ends.  [out]: the exception, or None; [calls]: what the hook is called with *)
  Inductive ends (title : string) (ks : list K) (u : S) : option herr -> S -> list (list tup) -> Prop :=
  | en_broken e u1 : broken_off ks u e u1 -> ends title ks u (Some e) u1 []
  | en_fine u1 : gathered ks u [] None u1 -> ends title ks u None u1 []
  | en_other e u1 : gathered ks u [] (Some e) u1 -> ends title ks u (Some (HOther e)) u1 []
  | en_invalid t r x u1 ts u2 m :
      gathered ks u (t :: r) x u1 -> hook (t :: r) u1 = (None, ts, u2) -> lists title ts m ->
      ends title ks u (Some (HVal m ts)) u2 [t :: r]
  | en_hook t r x u1 e ts u2 :
      gathered ks u (t :: r) x u1 -> hook (t :: r) u1 = (Some e, ts, u2) ->
      ends title ks u (Some e) u2 [t :: r].
End Spec.
