(** base/containers.py 30-138: observable containers (observe_mutations=True).

    A property here is a pair (instance, name), written [k]; containers are
    objects with an identity and opaque items.  What List, Set and Dictionary
    check (World.v) is an arbitrary function [oe_valid], what the mutating
    methods of list, set and dict do an arbitrary function [oe_mutate], and
    listeners are arbitrary programs using the operations below.  Listeners are
    enabled throughout (otherwise none is called, World.v). *)
From Verif Require Import PyBase.
Local Open Scope list_scope.
Local Open Scope nat_scope.

(** A container: its items and [_instance], [_name] (None: not both set) (base/containers.py:108-138) *)
Record ocont := OC { oc_items : list nat; oc_owner : option nat }.

(** The modes (handlers.py:11). *)
Inductive ophase := PhValidate | PhChange | PhSet.
(** notifications and writes of a property, newest first in the trace (base/base.py:349-375) *)
Inductive oevent := ONotify (k : nat) (ph : ophase) (v : option nat) | OWrite (k : nat) (v : option nat).

(** containers, stored container of each property ([_backend]), trace (base/base.py:357-375) *)
Record ostate := OS { os_conts : list ocont; os_back : nat -> option nat; os_trace : list oevent }.

(** A call of a method: which method with which arguments (base/containers.py:30-47) *)
Definition omethod := nat.

(** What is done with containers and properties (containers.py:66-92, base.py:357-375). *)
Inductive oop :=
| ORead (k : nat)                          (* inst.name *)
| OAssign (k : nat) (items : list nat)     (* inst.name = a builtin container *)
| OAssignObj (k : nat) (c : nat)           (* inst.name = an existing container *)
| ODelete (k : nat)                        (* del inst.name *)
| OMut (c : nat) (m : omethod)             (* c.append(x), c[i] = x, ... *)
| OIop (c : nat) (m : omethod)             (* c.__iadd__(x), ... *)
| OAug (k : nat) (m : omethod).            (* inst.name += x, ... *)

(** What it returns (base/containers.py:66-92). *)
Inductive oresult := RUnit | RCont (c : nat) | RItem (x : nat).
(** The bodies of listeners (base/base.py:349-355). *)
Inductive oprog :=
| OpRet
| OpRaise (e : exn)
| OpDo (o : oop) (next : res oresult -> oprog).

(** The listeners and the validation of items (base/base.py:349-355). *)
Record oenv := OE {
  (** List.validate / Set.validate / Dictionary.validate without the last step,
      containers.py:261-281, 409-413, 570-598 *)
  oe_valid : nat -> list nat -> res (list nat);
  (** the method of the builtin class: result and new items *)
  oe_mutate : omethod -> list nat -> res (nat * list nat);
  (** Property.equal, containers.py:329-337 *)
  oe_equal : nat -> list nat -> list nat -> bool;
  (** listeners: property, phase, change['value'] (None: undefined) *)
  oe_listen : nat -> ophase -> option nat -> oprog;
  (** change['value'] after the validators, if they replace it *)
  oe_replace : nat -> option nat -> option (option nat)
}.

(** Plumbing of the model: code that changes the state and may raise. *)
Definition OM (A : Type) := ostate -> res A * ostate.
(** Plumbing: [return]. *)
Definition oret {A} (a : A) : OM A := fun s => (Ok a, s).
(** Plumbing: [raise]. *)
Definition othrow {A} (e : exn) : OM A := fun s => (Exc e, s).
(** Plumbing: sequencing. *)
Definition obind {A B} (m : OM A) (k : A -> OM B) : OM B :=
  fun s => match m s with (Ok a, s') => k a s' | (Exc e, s') => (Exc e, s') end.
(** Plumbing: code that does not touch the state. *)
Definition olift {A} (r : res A) : OM A := match r with Ok a => oret a | Exc e => othrow e end.

(** Plumbing: replace an item. *)
Fixpoint oreplace {A} (n : nat) (a : A) (l : list A) : list A :=
  match n, l with
  | _, [] => []
  | 0, _ :: r => a :: r
  | S m, x :: r => x :: oreplace m a r
  end.
(** Plumbing: change a container. *)
Definition put_cont (c : nat) (o : ocont) (s : ostate) : ostate :=
  OS (oreplace c o (os_conts s)) (os_back s) (os_trace s).
(** Plumbing: a new container. *)
Definition new_cont (o : ocont) : OM nat :=
  fun s => (Ok (length (os_conts s)), OS (os_conts s ++ [o]) (os_back s) (os_trace s)).
(** Plumbing: read a container. *)
Definition the_cont (c : nat) : OM ocont :=
  fun s => match nth_error (os_conts s) c with Some o => (Ok o, s) | None => (Exc ExAttr, s) end.
(** Plumbing: a ghost event. *)
Definition emit (e : oevent) : OM unit :=
  fun s => (Ok tt, OS (os_conts s) (os_back s) (e :: os_trace s)).
(** base.py:361-364: store a value. *)
Definition write (k : nat) (v : option nat) : OM unit :=
  fun s => (Ok tt, OS (os_conts s) (fun k' => if Nat.eqb k' k then v else os_back s k') (OWrite k v :: os_trace s)).
(** Plumbing: the items of a container. *)
Definition items_of (s : ostate) (c : nat) : list nat :=
  match nth_error (os_conts s) c with Some o => oc_items o | None => [] end.

Section Run.
  Variable V : oenv.
  Variable rec : oop -> OM oresult.

  (** The body of a listener (base/base.py:349-355). *)
  Fixpoint orun (p : oprog) : OM unit :=
    match p with
    | OpRet => oret tt
    | OpRaise e => othrow e
    | OpDo o k => fun s => let (r, s') := rec o s in orun (k r) s'
    end.

  (** base.py:349-355 [_notify] *)
  Definition notify (k : nat) (ph : ophase) (v : option nat) : OM unit :=
    obind (emit (ONotify k ph v)) (fun _ => orun (oe_listen V k ph v)).

  (** base.py:357-375 [_set] *)
  Definition oset (k : nat) (v : option nat) : OM unit := fun s =>
    let prev := os_back s k in
    obind (notify k PhValidate v) (fun _ =>
    let v' := match oe_replace V k v with Some x => x | None => v end in
    obind (write k v') (fun _ s1 =>
    obind (match prev, v' with
           | None, None => oret tt
           | Some a, Some b => if oe_equal V k (items_of s1 a) (items_of s1 b) then oret tt else notify k PhChange v'
           | _, _ => notify k PhChange v'
           end) (fun _ => notify k PhSet v') s1)) s.

  (** basic.py:673-677 with containers.py:409-413: validate, observable copy
      (containers.py:108-138), set *)
  Definition oassign (k : nat) (items : list nat) : OM unit :=
    obind (olift (oe_valid V k items)) (fun ys =>
    obind (new_cont (OC ys (Some k))) (fun c => oset k (Some c))).

  (** containers.py:74-79: is the container the stored value of its property? *)
  Definition is_stored (s : ostate) (c : nat) (o : ocont) : option nat :=
    match oc_owner o with
    | Some k => match os_back s k with Some c' => if Nat.eqb c' c then Some k else None | None => None end
    | None => None
    end.
  (** containers.py:85-86 *)
  Definition detach (c : nat) : OM unit := fun s =>
    match nth_error (os_conts s) c with
    | Some o => (Ok tt, put_cont c (OC (oc_items o) None) s)
    | None => (Exc ExAttr, s)
    end.

  (** containers.py:66-92 [properties_mutator] *)
  Definition omutate (ioper : bool) (c : nat) (m : omethod) : OM oresult := fun s =>
    match nth_error (os_conts s) c with
    | None => (Exc ExAttr, s)
    | Some o =>
        match is_stored s c o with
        | None =>
            match oe_mutate V m (oc_items o) with
            | Exc e => (Exc e, s)
            | Ok (x, ys) => (Ok (if ioper then RCont c else RItem x), put_cont c (OC ys (oc_owner o)) s)
            end
        | Some k =>
            obind (olift (oe_mutate V m (oc_items o))) (fun xy =>
            obind (new_cont (OC (snd xy) None)) (fun copy =>
            obind (if ioper then oret tt else oassign k (snd xy)) (fun _ =>
            obind (detach c) (fun _ => oret (if ioper then RCont copy else RItem (fst xy)))))) s
        end
    end.

  (** One of these operations (base/containers.py:66-92, base/base.py:357-375). *)
  Definition ostep (o : oop) : OM oresult :=
    match o with
    | ORead k => fun s => (Ok (match os_back s k with Some c => RCont c | None => RUnit end), s)
    | OAssign k items => obind (oassign k items) (fun _ => oret RUnit)
    | OAssignObj k c => obind (the_cont c) (fun o => obind (oassign k (oc_items o)) (fun _ => oret RUnit))
    | ODelete k => obind (oset k None) (fun _ => oret RUnit)
    | OMut c m => omutate false c m
    | OIop c m => omutate true c m
    | OAug k m => fun s =>
        match os_back s k with
        | None => (Exc ExType, s)
        | Some c => obind (omutate true c m) (fun r =>
                    match r with
                    | RCont c' => obind (the_cont c') (fun o => obind (oassign k (oc_items o)) (fun _ => oret RUnit))
                    | _ => othrow ExType
                    end) s
        end
    end.
End Run.

(** The operation, with listeners nested [fuel] deep (base/containers.py:66-92, base/base.py:357-375). *)
Fixpoint oexec (V : oenv) (fuel : nat) (o : oop) : OM oresult :=
  match fuel with
  | 0 => othrow ExRecursion
  | S n => ostep V (oexec V n) o
  end.

(** A history from the state with no properties set (base/base.py:284-303) *)
Definition ostart : ostate := OS [] (fun _ => None) [].
(** Operations one after the other (base/containers.py:66-92, base/base.py:357-375). *)
Fixpoint ohistory (V : oenv) (n : nat) (ops : list oop) (s : ostate) : ostate :=
  match ops with
  | [] => s
  | o :: r => ohistory V n r (snd (oexec V n o s))
  end.
