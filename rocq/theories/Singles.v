(** extras/singleton.py: registries of named instances.

    What the HasProperties constructor and deserializer do besides (checking
    and storing properties, calling user code; World.v) is abstracted to
    arbitrary programs, which may construct and deserialize singletons
    themselves and may raise; only the registry logic is spelled out.

    Not modelled: user code that assigns to [_SINGLETONS] or to
    [_singleton_id]. *)
From Verif Require Import PyBase.
Local Open Scope string_scope.
Local Open Scope list_scope.
Local Open Scope nat_scope.

(** An identifying name: None, a hashable value (the string stands for the
    class of values that are == and hash alike), or an unhashable value (extras/singleton.py:15-22). *)
Inductive ident := INone | IKey (k : string) | IBad.
(** Comparing identifying names (extras/singleton.py:15-22). *)
Definition ident_eqb (a b : ident) : bool :=
  match a, b with
  | INone, INone | IBad, IBad => true
  | IKey x, IKey y => String.eqb x y
  | _, _ => false
  end.

(** A serialized singleton: the entries '_singleton_id', 'name' and
    '__class__', if present, and the others (extras/singleton.py:49-61). *)
Record sdict := SD { sd_id : option ident; sd_name : option ident; sd_cls : option string; sd_rest : nat }.

(** The keywords [trusted], [strict] and [assert_valid] (singleton.py:64-65). *)
Record dflags := DF { df_trusted : bool; df_strict : bool; df_valid : bool }.

(** A construction [cls(name, kwargs)], a deserialization
    [cls.deserialize(d, ...)] of the dictionary at address [d], [serialize] of
    an instance (the rest of the result is given, its address returned) (extras/singleton.py:15-97). *)
Inductive sop :=
| SNew (cid : nat) (name : ident) (arg : nat)
| SDeser (cid : nat) (d : nat) (o : dflags)
| SSer (l : nat) (rest : sdict).

(** User code (extras/singleton.py:15-97) *)
Inductive sprog :=
| SRet
| SRaise (e : exn)
| SDo (o : sop) (k : res nat -> sprog).

(** The classes: [_SINGLETONS] of a class (None: a HasProperties class without
    it), and what the rest of the library and user code do (extras/singleton.py:12-47). *)
Record senv := SE {
  se_reg : nat -> option nat;
  (** base.py:591-603 [_deserialize_class] *)
  se_class : nat -> option string -> dflags -> res nat;
  (** base.py:565-576: unused keys and the property deserializers *)
  se_state : nat -> sdict -> dflags -> sprog;
  (** base.py:576 for the property 'name': what its deserializer makes of the
      name; None if the class has no such property, so that the keyword is
      missing from the call *)
  se_name : nat -> ident -> res (option ident);
  (** base.py:256-276 and singleton.py:45: up to [self.name = name] *)
  se_begin : nat -> nat -> ident -> sprog;
  (** singleton.py:47: HasProperties.__init__ *)
  se_init : nat -> nat -> nat -> sprog;
  (** base.py:584-588: immutable properties, assert_valid *)
  se_after : nat -> nat -> sdict -> dflags -> sprog;
  (** singleton.py:96: [newinst.name = name] *)
  se_rename : nat -> ident -> sprog;
  (** bool(name) *)
  se_truthy : ident -> bool
}.

(** Instances: class and [_singleton_id], once set (extras/singleton.py:43-47) *)
Record sobj := SO { so_cls : nat; so_id : option ident }.

(** The state: instances, dictionaries, the entries of all registries (newest
    first), and as a ghost the names under construction (extras/singleton.py:41-47). *)
Record sstate := SS {
  s_objs : list sobj;
  s_dicts : list sdict;
  s_reg : list ((nat * ident) * nat);
  s_open : list (nat * ident)
}.

(** Comparing keys of [_SINGLETONS] (singleton.py:41) with their owners. *)
Definition key_eqb (a b : nat * ident) : bool :=
  Nat.eqb (fst a) (fst b) && ident_eqb (snd a) (snd b).
(** [_SINGLETONS.get(name)] of registry [r] (extras/singleton.py:15-22) *)
Fixpoint lookup (t : list ((nat * ident) * nat)) (k : nat * ident) : option nat :=
  match t with
  | [] => None
  | (k', l) :: t' => if key_eqb k' k then Some l else lookup t' k
  end.

(** Plumbing of the model: code that changes the state and may raise. *)
Definition SM (A : Type) := sstate -> res A * sstate.
(** Plumbing: [return]. *)
Definition sret {A} (a : A) : SM A := fun s => (Ok a, s).
(** Plumbing: [raise]. *)
Definition sthrow {A} (e : exn) : SM A := fun s => (Exc e, s).
(** Plumbing: sequencing. *)
Definition sbind {A B} (m : SM A) (k : A -> SM B) : SM B :=
  fun s => match m s with (Ok a, s') => k a s' | (Exc e, s') => (Exc e, s') end.

(** Plumbing: the state with other objects. *)
Definition put_objs (x : list sobj) (s : sstate) : sstate := SS x (s_dicts s) (s_reg s) (s_open s).
(** Plumbing: the state with other dictionaries. *)
Definition put_dicts (x : list sdict) (s : sstate) : sstate := SS (s_objs s) x (s_reg s) (s_open s).
(** Plumbing: the state with another registry. *)
Definition put_reg (x : list ((nat * ident) * nat)) (s : sstate) : sstate := SS (s_objs s) (s_dicts s) x (s_open s).
(** Plumbing: the state with other constructions under way. *)
Definition put_open (x : list (nat * ident)) (s : sstate) : sstate := SS (s_objs s) (s_dicts s) (s_reg s) x.

(** Plumbing: replace an item. *)
Fixpoint replace_at {A} (n : nat) (a : A) (l : list A) : list A :=
  match n, l with
  | _, [] => []
  | 0, _ :: r => a :: r
  | S m, x :: r => x :: replace_at m a r
  end.

Section Run.
  Variable V : senv.
  Variable rec : sop -> SM nat.

  (** Operations one after the other (extras/singleton.py:15-97). *)
  Fixpoint srun (p : sprog) : SM unit :=
    match p with
    | SRet => sret tt
    | SRaise e => sthrow e
    | SDo o k => fun s => let (r, s') := rec o s in srun (k r) s'
    end.

  (** a fresh instance (extras/singleton.py:15-22) *)
  Definition salloc (cid : nat) : SM nat :=
    fun s => (Ok (length (s_objs s)), put_objs (s_objs s ++ [SO cid None]) s).
  (** singleton.py:46 [self._singleton_id = name] *)
  Definition set_id (l : nat) (name : ident) : SM unit :=
    fun s => match nth_error (s_objs s) l with
             | Some o => (Ok tt, put_objs (replace_at l (SO (so_cls o) (Some name)) (s_objs s)) s)
             | None => (Exc ExAttr, s)
             end.

  (** singleton.py:15-22 [SingletonMetaclass.__call__] with singleton.py:43-47;
      [name in cls._SINGLETONS] hashes the name *)
  Definition s_new (cid : nat) (name : ident) (arg : nat) : SM nat :=
    match se_reg V cid with
    | Some r =>
        match name with
        | IBad => sthrow ExType
        | _ => fun s =>
            match lookup (s_reg s) (r, name) with
            | Some l => (Ok l, s)
            | None =>
                let (res, s1) :=
                  sbind (salloc cid) (fun l =>
                  sbind (srun (se_begin V cid l name)) (fun _ =>
                  sbind (set_id l name) (fun _ =>
                  sbind (srun (se_init V cid l arg)) (fun _ => sret l))))
                  (put_open ((r, name) :: s_open s) s) in
                let s2 := put_open (s_open s) s1 in
                match res with
                | Ok l => (Ok l, put_reg (((r, name), l) :: s_reg s2) s2)
                | Exc e => (Exc e, s2)
                end
            end
        end
    | None =>
        sbind (salloc cid) (fun l =>
        sbind (srun (se_begin V cid l name)) (fun _ =>
        sbind (srun (se_init V cid l arg)) (fun _ => sret l)))
    end.

  (** base.py:519-589 [HasProperties.deserialize] of a dictionary whose 'name'
      is [name]; constructing without a name is a TypeError for a Singleton *)
  Definition super_deser (cid : nat) (v : sdict) (name : ident) (o : dflags) : SM nat :=
    match se_class V cid (sd_cls v) o with
    | Exc e => sthrow e
    | Ok k =>
        sbind (srun (se_state V k v o)) (fun _ =>
        match se_name V k name with
        | Exc e => sthrow e
        | Ok n =>
            sbind (match n, se_reg V k with
                   | Some n, _ => rec (SNew k n (sd_rest v))
                   | None, Some _ => sthrow ExType
                   | None, None => rec (SNew k INone (sd_rest v))
                   end) (fun l =>
            sbind (srun (se_after V k l v o)) (fun _ => sret l))
        end)
    end.

  (** singleton.py:63-97 [Singleton.deserialize]; an address outside the
      dictionaries stands for a value that is not a dict *)
  Definition s_deser (cid : nat) (d : nat) (o : dflags) : SM nat := fun s =>
    match nth_error (s_dicts s) d with
    | None => (Exc ExValue, s)
    | Some v =>
        let id := match sd_id v with
                  | Some i => i
                  | None => match sd_name v with Some i => i | None => INone end
                  end in
        (* value.pop *)
        let s1 := put_dicts (replace_at d (SD None (sd_name v) (sd_cls v) (sd_rest v)) (s_dicts s)) s in
        match id, se_reg V cid with
        | INone, _ => (Exc ExValue, s1)
        | IBad, _ => (Exc ExType, s1)
        | _, None => (Exc ExAttr, s1)
        | _, Some r =>
            match lookup (s_reg s1) (r, id) with
            | Some l => (Ok l, s1)
            | None =>
                sbind (super_deser cid (SD None (Some id) (sd_cls v) (sd_rest v)) id o) (fun l =>
                match sd_name v with
                | Some n => if se_truthy V n then sbind (srun (se_rename V l n)) (fun _ => sret l) else sret l
                | None => sret l
                end) s1
            end
        end
    end.

  (** singleton.py:49-61 [Singleton.serialize]; without the attribute it fails *)
  Definition s_ser (l : nat) (rest : sdict) : SM nat := fun s =>
    match nth_error (s_objs s) l with
    | Some (SO _ (Some id)) =>
        (Ok (length (s_dicts s)),
         put_dicts (s_dicts s ++ [SD (Some id) (sd_name rest) (sd_cls rest) (sd_rest rest)]) s)
    | _ => (Exc ExAttr, s)
    end.

  (** One operation (extras/singleton.py:15-97). *)
  Definition s_step (o : sop) : SM nat :=
    match o with
    | SNew cid name arg => s_new cid name arg
    | SDeser cid d f => s_deser cid d f
    | SSer l rest => s_ser l rest
    end.
End Run.

(** With a budget of nested calls; running out is Python's RecursionError (extras/singleton.py:15-97). *)
Fixpoint sexec (V : senv) (fuel : nat) (o : sop) : SM nat :=
  match fuel with
  | O => sthrow ExRecursion
  | S n => s_step V (sexec V n) o
  end.
(** The state after a program (extras/singleton.py:15-97). *)
Definition shistory (V : senv) (fuel : nat) (p : sprog) (s : sstate) : sstate :=
  snd (srun (sexec V fuel) p s).
