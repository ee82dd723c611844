(** Vocabulary for the theorems about the arguments of links. *)
From Verif Require Import World WorldSpec LinkSpec LinkArgs.
Local Open Scope string_scope.
Local Open Scope list_scope.
Local Open Scope nat_scope.

(** The Python pair of an item. *)
Definition pair_of (a : item) : val := VTuple [VInst (fst a); VStr (snd a)].
(** [v] is a settable property of an instance. *)
Definition good_item (C : ctable) (w : world) (v : val) : Prop := exists a, v = pair_of a /\ linkable C w a.
(** [v] is not a pair of an instance and a name, or the instance has no
    attribute of that name. *)
Definition bad_item (C : ctable) (w : world) (v : val) : Prop :=
  (forall a, v <> pair_of a) \/ exists a, v = pair_of a /\ lacks C w a.
(** [v] is no transform, or it is function [g]: callable, with one parameter if
    the parameters are known. *)
Definition transform_as (kinds : nat -> callee) (v : val) (g : option nat) : Prop :=
  v = VNone /\ g = None \/ exists t, v = VObj t /\ g = Some t /\ (kinds t = NoCode \/ kinds t = Code 1).

(** The value of an optional argument. *)
Definition opt (kws : dict val) (name : string) (dflt : val) : val := match dget kws name with Some v => v | None => dflt end.
Definition only_keys (kws : dict val) (names : list string) : Prop := forall key, dhas kws key = true -> In key names.

(** A Python function: how many parameters can be given by position, how many of
    them (the last ones) have defaults, whether there is a [*args], how many
    keyword-only parameters have no default, and whether it is a method bound
    to an instance. *)
Record fsig := Sig { positional : nat; defaults : nat; star : bool; keyword_only : nat; bound : bool }.
(** It can be called with one argument. *)
Definition takes_one (f : fsig) : Prop :=
  let given := if bound f then 2 else 1 in
  positional f - defaults f <= given /\ (given <= positional f \/ star f = true) /\ keyword_only f = 0.
(** A function written as [def f(a, b)] *)
Definition plain (f : fsig) : Prop := defaults f = 0 /\ star f = false /\ keyword_only f = 0 /\ bound f = false.

(** The value that a call gives to parameter number [i]: positional or by
    keyword, not both, or the default. *)
Definition argument (args : list val) (kws : dict val) (i : nat) (name : string) (dflt : option val) : option val :=
  match nth_error args i, dget kws name with
  | Some v, None | None, Some v => Some v
  | Some _, Some _ => None
  | None, None => dflt
  end.
(** Calling [directional_link] with arguments [args] and keywords [kws] gives
    these values to the parameters. *)
Definition called_with (args : list val) (kws : dict val) (source target update_now change_only transform : val) : Prop :=
  length args <= 5 /\ only_keys kws ["source"; "target"; "update_now"; "change_only"; "transform"] /\
  argument args kws 0 "source" None = Some source /\ argument args kws 1 "target" None = Some target /\
  argument args kws 2 "update_now" (Some (VBool false)) = Some update_now /\
  argument args kws 3 "change_only" (Some (VBool true)) = Some change_only /\
  argument args kws 4 "transform" (Some VNone) = Some transform.
