(** Model of the change dictionary: HasProperties._notify and _set
    (base.py:349-375), the first half of _validate_props for one property
    (base.py:449-458), handlers._get_listeners (handlers.py:101-108).

    In World.v a listener is told name, previous, value and mode, and may replace
    the value.  Here the change is the dictionary it is, and a listener is any
    function that may do anything to it: replace any entry, remove it, add
    others.  It may also change what the instance has stored, for instance by
    assignments, and raise.  Simplifications: the listeners and the disabled
    types stay the same during an assignment (World.v has both), a listener given
    by the name of a method is the method. *)
From Verif Require Export PyBase PyVal.
Local Open Scope string_scope.
Local Open Scope list_scope.
Local Open Scope nat_scope.

(** A change: its values are those of properties, and strings (base/base.py:349-375) *)
Definition chg := dict val.
(** base.py:359, 453-454: [dict(name=name, previous=prev, value=value, mode=mode)] *)
Definition new_change (name : string) (prev v : val) (mode : string) : chg :=
  [("name", VStr name); ("previous", prev); ("value", v); ("mode", VStr mode)].
(** base.py:372, 374: [change.update(name=name, previous=prev, mode=mode)] *)
Definition update (c : chg) (name : string) (prev : val) (mode : string) : chg :=
  dset (dset (dset c "name" (VStr name)) "previous" prev) "mode" (VStr mode).
(** base.py:361-364: [self._backend.pop(name, None)], [self._backend[name] = value] *)
Definition put (b : dict val) (name : string) (v : val) : dict val :=
  if is_undef v then ddel b name else dset b name v.

Section Notify.
  (** the functions of the listeners, and what a call does to the change and to
      [_backend] *)
  Variable F : Type.
  Variable call : F -> chg -> dict val -> res unit * chg * dict val.
  (** [Property.equal] of the property *)
  Variable equal : val -> val -> res bool.
  (** [listeners_disabled._quarantine], and [instance._listeners] *)
  Variable quar : list string.
  Variable lst : dict (dict (list F)).

  (** [_backend], and the calls of listeners so far with the change they were given (base/base.py:349-375) *)
  Record st := ST { s_back : dict val; s_log : list (F * chg) }.

  (** handlers.py:101-108; only called when name and mode are strings *)
  Definition get_listeners (c : chg) : res (list F) :=
    match dget c "mode", dget c "name" with
    | Some (VStr m), Some (VStr n) =>
        if mem_str m quar then Ok []
        else match dget lst n with
             | None => Ok []
             | Some d => match dget d m with Some l => Ok l | None => Exc ExKey end
             end
    | _, _ => Exc ExKey
    end.
  (** base.py:351-355 *)
  Fixpoint fire (fs : list F) (c : chg) (s : st) : res unit * chg * st :=
    match fs with
    | [] => (Ok tt, c, s)
    | f :: r =>
        let '(x, c1, b1) := call f c (s_back s) in
        let s1 := ST b1 (s_log s ++ [(f, c)]) in
        match x with
        | Ok _ => fire r c1 s1
        | Exc e => (Exc e, c1, s1)
        end
    end.
  (** base.py:349-355 *)
  Definition notify (c : chg) (s : st) : res unit * chg * st :=
    match get_listeners c with
    | Exc e => (Exc e, c, s)
    | Ok fs => fire fs c s
    end.
  (** base.py:365-371: whether the observers of changes are called *)
  Definition differs (prev v : val) : res bool :=
    if is_undef prev && is_undef v then Ok false
    else if is_undef prev || is_undef v then Ok true
    else rbind (equal prev v) (fun b => Ok (negb b)).
  (** base.py:374-375 *)
  Definition set_phase (name : string) (prev : val) (c : chg) (s : st) : res unit * st :=
    let '(x, _, s1) := notify (update c name prev "observe_set") s in (x, s1).
  (** base.py:357-375 *)
  Definition has_set (name : string) (v : val) (s : st) : res unit * st :=
    let prev := match dget (s_back s) name with Some x => x | None => VUndef end in
    let '(x, c1, s1) := notify (new_change name prev v "validate") s in
    match x with
    | Exc e => (Exc e, s1)
    | Ok _ =>
        match dget c1 "value" with
        | None => (Exc ExKey, s1)
        | Some v1 =>
            let s2 := ST (put (s_back s1) name v1) (s_log s1) in
            match differs prev v1 with
            | Exc e => (Exc e, s2)
            | Ok false => set_phase name prev c1 s2
            | Ok true =>
                let '(y, c2, s3) := notify (update c1 name prev "observe_change") s2 in
                match y with
                | Exc e => (Exc e, s3)
                | Ok _ => set_phase name prev c2 s3
                end
            end
        end
    end.
  (** base.py:449-458, without [assert_valid]: whether validate() goes on *)
  Definition check_value (name : string) (s : st) : res bool * st :=
    match dget (s_back s) name with
    | None | Some VNone => (Ok true, s)
    | Some v =>
        let '(x, c1, s1) := notify (new_change name v v "validate") s in
        match x with
        | Exc e => (Exc e, s1)
        | Ok _ =>
            match dget c1 "value" with
            | None => (Exc ExKey, s1)
            | Some v1 => (equal v v1, s1)
            end
        end
    end.
End Notify.
Arguments ST {F} _ _.
Arguments s_back {F} _.
Arguments s_log {F} _.
