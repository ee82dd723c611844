(** extras/uid.py: uids and the registry of instances, and flat
    serialization of graphs of HasUID instances.

    Each part has its own small state.  Everything the HasProperties methods do
    besides (World.v) is left out: the values of other properties are opaque
    data, property types decide whether a serialized value is a uid, classes
    are restored from '__class__' (trusted=True, registered classes), user code
    is not called, and all classes share one [_INSTANCES]. *)
From Verif Require Import PyBase.
Local Open Scope string_scope.
Local Open Scope list_scope.
Local Open Scope nat_scope.

(** * The uid property and [_INSTANCES] *)

(** A value of the uid property: a string, or [undefined] on deletion (extras/uid.py:25-28) *)
Inductive ukey := KUid (s : string) | KUndef.
(** Comparing keys of [_INSTANCES] (uid.py:32). *)
Definition ukey_eqb (a b : ukey) : bool :=
  match a, b with
  | KUid x, KUid y => String.eqb x y
  | KUndef, KUndef => true
  | _, _ => false
  end.

(** The uid of each instance (None: deleted) and the entries of [_INSTANCES],
    newest first (extras/uid.py:14-32) *)
Record ustate := US { us_uids : list (option string); us_reg : list (ukey * nat) }.

(** [_INSTANCES.get(k)] (extras/uid.py:35-45) *)
Fixpoint ulookup (t : list (ukey * nat)) (k : ukey) : option nat :=
  match t with
  | [] => None
  | (k', l) :: t' => if ukey_eqb k' k then Some l else ulookup t' k
  end.

(** Plumbing: replace an item. *)
Fixpoint replace_nth {A} (n : nat) (a : A) (l : list A) : list A :=
  match n, l with
  | _, [] => []
  | 0, _ :: r => a :: r
  | S m, x :: r => x :: replace_nth m a r
  end.

(** The uid, if it is one (extras/uid.py:35-49). *)
Definition of_key (k : ukey) : option string := match k with KUid s => Some s | KUndef => None end.
(** [self.uid == change['value']]; a deleted uid reads as None, which is not
    == undefined (extras/uid.py:35-45) *)
Definition same_uid (u : option string) (k : ukey) : bool :=
  match u, k with Some x, KUid y => String.eqb x y | _, _ => false end.

(** uid.py:34-45 [_ensure_unique]: does the validator accept? *)
Definition ensure_unique (s : ustate) (l : nat) (k : ukey) : bool :=
  match nth_error (us_uids s) l with
  | Some u => if same_uid u k then true
              else match ulookup (us_reg s) k with Some _ => false | None => true end
  | None => false
  end.

(** Assigning or deleting the uid of an existing instance: the validator, the
    write, and the observer uid.py:47-49 [_update_instances]; with listeners
    disabled only the write (base.py:357-375). *)
Definition set_uid (enabled : bool) (l : nat) (k : ukey) (s : ustate) : res unit * ustate :=
  if enabled && negb (ensure_unique s l k) then (Exc (ExValidation []), s)
  else
    let s1 := US (replace_nth l (of_key k) (us_uids s)) (us_reg s) in
    (Ok tt, if enabled then US (us_uids s1) ((k, l) :: us_reg s1) else s1).

(** uid.py:30-32 [__init__] of a new instance whose default uid is [dflt]
    (uid.py:25-28; set with listeners disabled, base.py:277-278): the keyword 'uid', if
    given, is assigned; [others_fail] tells whether another keyword is rejected.
    Errors are raised after all keywords were tried (base.py:305-344); only
    then is the instance registered. *)
Definition new_uid (enabled : bool) (dflt : string) (kw : option string) (others_fail : bool) (s : ustate)
  : res nat * ustate :=
  let l := length (us_uids s) in
  let s0 := US (us_uids s ++ [Some dflt]) (us_reg s) in
  let (r, s1) := match kw with
                 | Some u => set_uid enabled l (KUid u) s0
                 | None => (Ok tt, s0)
                 end in
  match r with
  | Exc e => (Exc e, s1)
  | Ok _ =>
      if others_fail then (Exc (ExValidation []), s1)
      else match nth_error (us_uids s1) l with
           | Some (Some u) => (Ok l, US (us_uids s1) ((KUid u, l) :: us_reg s1))
           | _ => (Exc ExAttr, s1)
           end
  end.

(** uid.py:60-67 [load] *)
Definition load_uid (s : ustate) (u : string) : option nat := ulookup (us_reg s) (KUid u).

(** Histories (extras/uid.py:14-67) *)
Inductive uop :=
| UNew (enabled : bool) (dflt : string) (kw : option string) (others_fail : bool)
| USet (enabled : bool) (l : nat) (k : ukey).
(** the state and the instances returned by the constructions so far; only those
    are used afterwards (user code could keep an instance whose construction
    failed) (extras/uid.py:14-67) *)
Definition ustep (sb : ustate * list nat) (o : uop) : ustate * list nat :=
  let (s, built) := sb in
  match o with
  | UNew e d kw f =>
      let (r, s') := new_uid e d kw f s in
      (s', match r with Ok l => l :: built | Exc _ => built end)
  | USet e l k => (if existsb (Nat.eqb l) built then snd (set_uid e l k s) else s, built)
  end.
(** Operations one after the other (extras/uid.py:14-67). *)
Definition uhistory (ops : list uop) : ustate * list nat := fold_left ustep ops (US [] [], []).

(** * Flat serialization *)

(** A property value: data, a HasUID instance, or a container of values (extras/uid.py:69-104) *)
Inductive uval := UData (d : nat) | URef (l : nat) | UList (xs : list uval).
(** An instance for serialize: uid, class, values of the other properties (uid.py:69-104). *)
Record unode := UN { un_uid : string; un_cls : nat; un_fields : list (string * uval) }.

(** Serialized values: instances are replaced by their uids (uid.py:104). *)
Inductive jval := JData (d : nat) | JKey (u : string) | JList (xs : list jval).
(** A dictionary of the registry that serialize makes (uid.py:93-104). *)
Record jnode := JN { jn_uid : string; jn_cls : nat; jn_fields : list (string * jval) }.
(** Entries of the flat dictionary: under '__root__' a uid; None as long as the
    instance is being serialized (uid.py:95); its dictionary *)
Inductive jentry := JRoot (u : string) | JPending | JNode (j : jnode).

(** The key of the root (uid.py:90, 145). *)
Definition root_key : string := "__root__".

(** The property serializers (base.py:476-516); [f] serializes an instance. *)
Fixpoint ser_val {R} (f : nat -> R -> res (string * R)) (v : uval) (reg : R) : res (jval * R) :=
  match v with
  | UData d => Ok (JData d, reg)
  | URef l => match f l reg with Ok (u, reg') => Ok (JKey u, reg') | Exc e => Exc e end
  | UList xs =>
      match (fix go (xs : list uval) (reg : R) : res (list jval * R) :=
        match xs with
        | [] => Ok ([], reg)
        | x :: r => match ser_val f x reg with
                    | Exc e => Exc e
                    | Ok (y, reg1) => match go r reg1 with
                                      | Exc e => Exc e
                                      | Ok (ys, reg2) => Ok (y :: ys, reg2)
                                      end
                    end
        end) xs reg with
      | Ok (ys, reg') => Ok (JList ys, reg')
      | Exc e => Exc e
      end
  end.
(** base.py:476-516: the properties one after the other. *)
Fixpoint ser_fields {R} (f : nat -> R -> res (string * R)) (fs : list (string * uval)) (reg : R)
  : res (list (string * jval) * R) :=
  match fs with
  | [] => Ok ([], reg)
  | (n, v) :: r => match ser_val f v reg with
                   | Exc e => Exc e
                   | Ok (y, reg1) => match ser_fields f r reg1 with
                                     | Exc e => Exc e
                                     | Ok (ys, reg2) => Ok ((n, y) :: ys, reg2)
                                     end
                   end
  end.

(** uid.py:93-104: serialization of one instance into the flat dictionary,
    which is not empty; returns its uid *)
Fixpoint ser_inst (h : list unode) (fuel : nat) (l : nat) (reg : dict jentry) : res (string * dict jentry) :=
  match fuel with
  | 0 => Exc ExRecursion
  | S n =>
      match nth_error h l with
      | None => Exc ExAttr
      | Some x =>
          let key := un_uid x in
          if dhas reg key then Ok (key, reg)
          else match ser_fields (ser_inst h n) (un_fields x) (dset reg key JPending) with
               | Exc e => Exc e
               | Ok (fs, reg1) => Ok (key, dset reg1 key (JNode (JN key (un_cls x) fs)))
               end
      end
  end.
(** uid.py:69-104 [serialize] without a registry *)
Definition uid_serialize (h : list unode) (fuel : nat) (l : nat) : res (dict jentry) :=
  match nth_error h l with
  | None => Exc ExAttr
  | Some x => match ser_inst h fuel l [(root_key, JRoot (un_uid x))] with
              | Ok (_, reg) => Ok reg
              | Exc e => Exc e
              end
  end.

(** * Deserialization *)

(** Entries of the dictionary during deserialization: as given, or the new
    instance (uid.py:162) *)
Inductive dentry := DJson (e : jentry) | DInst (l : nat).
(** heap, [_INSTANCES], dictionary, number of default uids drawn so far (extras/uid.py:107-172) *)
Record dstate := DS { ds_heap : list unode; ds_inst : dict nat; ds_reg : dict dentry; ds_next : nat }.

Section Deser.
  (** uuid4 *)
  Variable fresh : nat -> string.

  (** Plumbing of the model: code that changes the state and may raise. *)
  Definition DM (A : Type) := dstate -> res A * dstate.
  (** Plumbing: [return]. *)
  Definition dret {A} (a : A) : DM A := fun s => (Ok a, s).
  (** Plumbing: [raise]. *)
  Definition dthrow {A} (e : exn) : DM A := fun s => (Exc e, s).
  (** Plumbing: sequencing. *)
  Definition dbind {A B} (m : DM A) (k : A -> DM B) : DM B :=
    fun s => match m s with (Ok a, s') => k a s' | (Exc e, s') => (Exc e, s') end.

  (** The property deserializers (base.py:574-576); [f] reads an instance. *)
  Fixpoint deser_val (f : string -> DM nat) (v : jval) : DM uval :=
    match v with
    | JData d => dret (UData d)
    | JKey u => dbind (f u) (fun l => dret (URef l))
    | JList xs =>
        dbind ((fix go (xs : list jval) : DM (list uval) :=
          match xs with
          | [] => dret []
          | x :: r => dbind (deser_val f x) (fun y => dbind (go r) (fun ys => dret (y :: ys)))
          end) xs) (fun ys => dret (UList ys))
    end.
  (** base.py:574-576: the properties one after the other. *)
  Fixpoint deser_fields (f : string -> DM nat) (fs : list (string * jval)) : DM (list (string * uval)) :=
    match fs with
    | [] => dret []
    | (n, v) :: r => dbind (deser_val f v) (fun y => dbind (deser_fields f r) (fun ys => dret ((n, y) :: ys)))
    end.

  (** uid.py:161-162: [new_cls()] with its default uid, which registers it
      (uid.py:32), and its entry in the dictionary *)
  Definition new_node (uid : string) (cls : nat) : DM nat := fun s =>
    let l := length (ds_heap s) in
    (Ok l, DS (ds_heap s ++ [UN (fresh (ds_next s)) cls []])
              (dset (ds_inst s) (fresh (ds_next s)) l)
              (dset (ds_reg s) uid (DInst l)) (S (ds_next s))).
  (** base.py:574-583 with [_instance]: the deserialized values are assigned,
      with listeners disabled, the uid among them *)
  Definition fill_node (l : nat) (j : jnode) (fs : list (string * uval)) : DM unit := fun s =>
    (Ok tt, DS (replace_nth l (UN (jn_uid j) (jn_cls j) fs) (ds_heap s)) (ds_inst s) (ds_reg s) (ds_next s)).

  (** uid.py:146-172 [deserialize] with a registry *)
  Fixpoint deser_inst (fuel : nat) (uid : string) : DM nat :=
    match fuel with
    | 0 => dthrow ExRecursion
    | S n => fun s =>
        match dget (ds_inst s) uid, dget (ds_reg s) uid with
        | Some l, None => (Ok l, s)
        | Some _, Some _ => (Exc ExValue, s)
        | None, None => (Exc ExValue, s)
        | None, Some e =>
            let (r, s1) := (match e with
             | DInst l => dret l
             | DJson (JNode j) =>
                 dbind (new_node uid (jn_cls j)) (fun l =>
                 dbind (deser_fields (deser_inst n) (jn_fields j)) (fun fs =>
                 dbind (fill_node l j fs) (fun _ => dret l)))
             | DJson _ => (* not a dictionary: base.py:546 *)
                 dbind (new_node uid 0) (fun _ => dthrow ExValue)
             end) s in
            match r with
            | Ok _ =>
                match dget (ds_reg s1) uid with
                | Some (DInst l) => (Ok l, DS (ds_heap s1) (dset (ds_inst s1) uid l) (ds_reg s1) (ds_next s1))
                | _ => (Exc ExType, s1)
                end
            | Exc e => (Exc e, s1)
            end
        end
    end.

  (** uid.py:141-145 with the keyword argument [root]: a dictionary, which is
      copied, and an entry in place of its root *)
  Definition uid_deserialize_at (fuel : nat) (u : string) (d : dict jentry) (h : list unode) (inst : dict nat) (next : nat)
    : res nat * dstate :=
    deser_inst fuel u (DS h inst (map (fun kv => (fst kv, DJson (snd kv))) d) next).
  (** uid.py:141-145: the root of the dictionary *)
  Definition uid_deserialize (fuel : nat) (d : dict jentry) (h : list unode) (inst : dict nat) (next : nat)
    : res nat * dstate :=
    match dget d root_key with
    | Some (JRoot u) => uid_deserialize_at fuel u d h inst next
    | _ => (Exc ExValue, DS h inst (map (fun kv => (fst kv, DJson (snd kv))) d) next)
    end.
End Deser.
