(** Specification of texts and messages. *)
From Verif Require Import Messages.
Local Open Scope list_scope.
Local Open Scope string_scope.
Local Open Scope nat_scope.

(** [s] occurs in [t] *)
Definition occurs (s t : string) : Prop := exists a b, t = a ++ s ++ b.
(** [q] is [p] or inside it *)
Inductive within (q : mprop) : mprop -> Prop :=
| wi_self : within q q
| wi_tuple ci p mn mx : within q p -> within q (MTuple ci p mn mx)
| wi_key ci k v : within q k -> within q (MDict ci k v)
| wi_value ci k v : within q v -> within q (MDict ci k v)
| wi_union p ps : In p ps -> within q p -> within q (MUnion ps)
| wi_dyn p : within q p -> within q (MDyn p).
(** Choices with descriptions have one each *)
Definition described (p : mprop) : Prop :=
  forall cs d, within (MChoice cs (Some d)) p -> forall c, In c cs -> exists t, dget d c = Some t.
(** Dynamic properties are not made from URLs *)
Definition no_dynamic_url (p : mprop) : Prop := ~ within (MDyn MUrl) p.
