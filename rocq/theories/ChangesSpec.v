(** Specifications for the change dictionary. *)
From Verif Require Import Changes.
Local Open Scope string_scope.
Local Open Scope list_scope.
Local Open Scope nat_scope.

(** Every name has a list for each of the three modes. *)
Definition registered {F} (lst : dict (dict (list F))) : Prop :=
  forall name d, dget lst name = Some d ->
    forall m, In m ["validate"; "observe_change"; "observe_set"] -> exists l, dget d m = Some l.
(** The listeners of a name and mode: none if the mode is disabled *)
Definition listening {F} (quar : list string) (lst : dict (dict (list F))) (name m : string) : list F :=
  if mem_str m quar then []
  else match dget lst name with
       | Some d => match dget d m with Some l => l | None => [] end
       | None => []
       end.
Definition former (b : dict val) (name : string) : val :=
  match dget b name with Some x => x | None => VUndef end.
Definition begins {A} (l whole : list A) : Prop := exists r, whole = l ++ r.
(** The change tells this name, previous value and mode. *)
Definition tells (c : chg) (name : string) (prev : val) (m : string) : Prop :=
  dget c "name" = Some (VStr name) /\ dget c "previous" = Some prev /\ dget c "mode" = Some (VStr m).
(** The first of the calls is given such a change. *)
Definition first_told {F} (calls : list (F * chg)) (name : string) (prev : val) (m : string) : Prop :=
  match calls with [] => True | p :: _ => tells (snd p) name prev m end.

Section Spec.
  Variable F : Type.
  Variable call : F -> chg -> dict val -> res unit * chg * dict val.
  Variable equal : val -> val -> res bool.

  (** The listener does no more to the change than replace the value. *)
  Definition proper (f : F) : Prop :=
    forall c b, dget c "value" <> None -> exists v, snd (fst (call f c b)) = dset c "value" v.
  (** The listener stores nothing. *)
  Definition stores_nothing (f : F) : Prop := forall c b, snd (call f c b) = b.

  (** What listeners that store nothing make of a change, while [b] is stored *)
  Inductive edited (b : dict val) : list F -> chg -> chg -> Prop :=
  | ed_end c : edited b [] c c
  | ed_next f r c c1 c2 : call f c b = (Ok tt, c1, b) -> edited b r c1 c2 -> edited b (f :: r) c c2.

  (** What proper listeners make of a value, one after the other: the values
      they are told, the last one or the exception, and what is stored then *)
  Inductive passed (name : string) (prev : val) (m : string) :
    list F -> val -> dict val -> list (F * val) -> res val -> dict val -> Prop :=
  | pa_end v b : passed name prev m [] v b [] (Ok v) b
  | pa_next f r v b v1 b1 told out b2 :
      call f [("name", VStr name); ("previous", prev); ("value", v); ("mode", VStr m)] b =
        (Ok tt, [("name", VStr name); ("previous", prev); ("value", v1); ("mode", VStr m)], b1) ->
      passed name prev m r v1 b1 told out b2 ->
      passed name prev m (f :: r) v b ((f, v) :: told) out b2
  | pa_raise f r v b e c1 b1 :
      call f [("name", VStr name); ("previous", prev); ("value", v); ("mode", VStr m)] b = (Exc e, c1, b1) ->
      passed name prev m (f :: r) v b [(f, v)] (Exc e) b1.
  (** The value is another one: set or unset now, or not equal *)
  Inductive altered (prev v : val) : res bool -> Prop :=
  | al_unset : prev = VUndef -> v = VUndef -> altered prev v (Ok false)
  | al_set : prev = VUndef -> v <> VUndef -> altered prev v (Ok true)
  | al_deleted : prev <> VUndef -> v = VUndef -> altered prev v (Ok true)
  | al_equal b : prev <> VUndef -> v <> VUndef -> equal prev v = Ok b -> altered prev v (Ok (negb b))
  | al_raise e : prev <> VUndef -> v <> VUndef -> equal prev v = Exc e -> altered prev v (Exc e).
  (** [c] is [b] with the value stored under the name, and nothing else changed;
      [undefined] is not stored *)
  Definition stored (b : dict val) (name : string) (v : val) (c : dict val) : Prop :=
    dget c name = (match v with VUndef => None | _ => Some v end) /\
    forall k, k <> name -> dget c k = dget b k.

  (** An assignment seen by proper listeners: three phases, in which the value is
      handed on.  [told] are the calls: listener, mode, value. *)
  Definition tagged (m : string) (l : list (F * val)) : list (F * string * val) :=
    map (fun p => (fst p, m, snd p)) l.
  Inductive assigned (L : string -> list F) (name : string) (v : val) (b : dict val) :
    list (F * string * val) -> res unit -> dict val -> Prop :=
  | as_refused told e b1 :
      passed name (former b name) "validate" (L "validate") v b told (Exc e) b1 ->
      assigned L name v b (tagged "validate" told) (Exc e) b1
  | as_incomparable told v1 b1 b2 e :
      passed name (former b name) "validate" (L "validate") v b told (Ok v1) b1 ->
      stored b1 name v1 b2 -> altered (former b name) v1 (Exc e) ->
      assigned L name v b (tagged "validate" told) (Exc e) b2
  | as_same told v1 b1 b2 told' out b3 :
      passed name (former b name) "validate" (L "validate") v b told (Ok v1) b1 ->
      stored b1 name v1 b2 -> altered (former b name) v1 (Ok false) ->
      passed name (former b name) "observe_set" (L "observe_set") v1 b2 told' out b3 ->
      assigned L name v b (tagged "validate" told ++ tagged "observe_set" told')
        (match out with Ok _ => Ok tt | Exc e => Exc e end) b3
  | as_interrupted told v1 b1 b2 told' e b3 :
      passed name (former b name) "validate" (L "validate") v b told (Ok v1) b1 ->
      stored b1 name v1 b2 -> altered (former b name) v1 (Ok true) ->
      passed name (former b name) "observe_change" (L "observe_change") v1 b2 told' (Exc e) b3 ->
      assigned L name v b (tagged "validate" told ++ tagged "observe_change" told') (Exc e) b3
  | as_changed told v1 b1 b2 told' v2 b3 told'' out b4 :
      passed name (former b name) "validate" (L "validate") v b told (Ok v1) b1 ->
      stored b1 name v1 b2 -> altered (former b name) v1 (Ok true) ->
      passed name (former b name) "observe_change" (L "observe_change") v1 b2 told' (Ok v2) b3 ->
      passed name (former b name) "observe_set" (L "observe_set") v2 b3 told'' out b4 ->
      assigned L name v b
        (tagged "validate" told ++ tagged "observe_change" told' ++ tagged "observe_set" told'')
        (match out with Ok _ => Ok tt | Exc e => Exc e end) b4.
End Spec.
(** The calls, as listener, mode and value; the change has no more and no less
    than its four entries. *)
Inductive seen_as {F} (name : string) (prev : val) : F * chg -> F * string * val -> Prop :=
| seen f m v : seen_as name prev (f, [("name", VStr name); ("previous", prev); ("value", v); ("mode", VStr m)]) (f, m, v).
