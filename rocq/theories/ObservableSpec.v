(** Specification vocabulary for observable containers (Observable.v). *)
From Verif Require Import PyBase Observable.
Local Open Scope list_scope.

(** Anything but in-place operators *)
Definition plain_op (o : oop) : Prop := match o with OIop _ _ | OAug _ _ => False | _ => True end.
Inductive plain : oprog -> Prop :=
| plain_ret : plain OpRet
| plain_raise e : plain (OpRaise e)
| plain_do o k : plain_op o -> (forall r, plain (k r)) -> plain (OpDo o k).
(** Programs that only read properties *)
Inductive reading : oprog -> Prop :=
| reading_ret : reading OpRet
| reading_raise e : reading (OpRaise e)
| reading_do k f : (forall r, reading (f r)) -> reading (OpDo (ORead k) f).

(** Listeners without in-place operators, validators that do not replace the value *)
Definition plain_env (V : oenv) : Prop :=
  (forall k ph v, plain (oe_listen V k ph v)) /\ (forall k v, oe_replace V k v = None).
(** Validators that change nothing *)
Definition reading_validators (V : oenv) : Prop := forall k v, reading (oe_listen V k PhValidate v).
(** Listeners that do nothing *)
Definition silent_env (V : oenv) : Prop :=
  (forall k ph v, oe_listen V k ph v = OpRet) /\ (forall k v, oe_replace V k v = None).

(** The container [c] is the value of the property [k] and observed. *)
Definition observed (s : ostate) (k c : nat) : Prop :=
  os_back s k = Some c /\ exists o, nth_error (os_conts s) c = Some o /\ oc_owner o = Some k.
(** [c] has these items. *)
Definition holds (s : ostate) (c : nat) (xs : list nat) : Prop :=
  exists o, nth_error (os_conts s) c = Some o /\ oc_items o = xs.
(** [c] is not the value of any property. *)
Definition stale (s : ostate) (c : nat) : Prop := forall k, os_back s k <> Some c.
(** All values of properties are observed. *)
Definition all_observed (s : ostate) : Prop := forall k c, os_back s k = Some c -> observed s k c.
