(** Which containers an instance shares with its surroundings: validate, serialize and
    deserialize of Tuple, List, Set and Dictionary on a heap of containers.

    Containers are lists, tuples, sets and dicts with their keys; of the kinds only the
    number is known.  What is done with values that are not containers, and with keys,
    is arbitrary.  Unions and instances are left out, equal items of a set are not
    merged, and no listener changes the value.  With observe_mutations a further copy
    is made (base/containers.py:108-138), which changes nothing here; the methods of such
    a container are [AMutate], as long as it is the stored one. *)
From Verif Require Import PyBase.
Local Open Scope list_scope.
Local Open Scope nat_scope.

(** A value: anything immutable, or a reference to a container (base/containers.py:261-281) *)
Inductive sval := SAtom (n : nat) | SRef (a : nat).
(** A container (base/containers.py:22-28, 570-598) *)
Record cell := Cell { c_kind : nat; c_keys : list nat; c_items : list sval }.
(** Property (accepts everything, basic.py:316-324), other properties whose values are no
    containers, and containers of a kind and of properties (base/containers.py:156-186, 479-520) *)
Inductive stype := TAny | TLeaf (t : nat) | TCont (k : nat) (coerce : bool) (q : stype).

(** What the other properties do: validate, to_json, from_json; which kinds of container
    serialize and deserialize take; the kind of JSON (basic.py:226-324) *)
Record senv := SE {
  e_validate : nat -> nat -> option nat;
  e_tojson : nat -> nat -> option nat;
  e_fromjson : nat -> nat -> option nat;
  e_takes : nat -> nat -> bool;
  e_jkind : nat -> nat
}.

(** Plumbing: change a container. *)
Fixpoint set_cell (h : list cell) (a : nat) (c : cell) : list cell :=
  match h, a with
  | [], _ => []
  | _ :: r, 0 => c :: r
  | x :: r, S b => x :: set_cell r b c
  end.
(** Plumbing: one after another, up to the first error. *)
Fixpoint each {A} (f : A -> list cell -> option A * list cell) (xs : list A) (h : list cell) : option (list A) * list cell :=
  match xs with
  | [] => (Some [], h)
  | x :: r => match f x h with
              | (None, h1) => (None, h1)
              | (Some y, h1) => match each f r h1 with
                                | (None, h2) => (None, h2)
                                | (Some ys, h2) => (Some (y :: ys), h2)
                                end
              end
  end.

(** The common form of the three methods: containers that are taken are copied, item by
    item (base/containers.py:261-281, 307-327, 570-598, 617-657).  [leaf] converts other
    values, [takes]: is this kind of container taken? [wraps]: is another value taken as
    the only item? [kind]: the kind of the copy *)
Section Copy.
  Variables (leaf : nat -> nat -> option nat) (takes : nat -> bool -> nat -> bool) (wraps : bool -> bool) (kind : nat -> nat).
  (** the items to copy (base/containers.py:267-275, 315, 325, 570-583) *)
  Definition source (k : nat) (co : bool) (v : sval) (h : list cell) : option (list nat * list sval) :=
    match v with
    | SAtom _ => if wraps co then Some ([], [v]) else None
    | SRef a => match nth_error h a with
                | Some c => if takes k co (c_kind c) then Some (c_keys c, c_items c) else None
                | None => None
                end
    end.
  (** base/containers.py:261-281, 307-327, 570-598, 617-657; basic.py:288-324 *)
  Fixpoint copy (p : stype) (v : sval) (h : list cell) : option sval * list cell :=
    match p with
    | TAny => (Some v, h)
    | TLeaf t => (match v with SAtom n => option_map SAtom (leaf t n) | SRef _ => None end, h)
    | TCont k co q =>
        match source k co v h with
        | None => (None, h)
        | Some (ks, xs) => match each (copy q) xs h with
                           | (None, h1) => (None, h1)
                           | (Some ys, h1) => (Some (SRef (length h1)), h1 ++ [Cell (kind k) ks ys])
                           end
        end
    end.
End Copy.

Section Sharing.
  Variable V : senv.
  (** base/containers.py:261-281, 570-598: containers of the class, or all with coerce *)
  Definition s_validate : stype -> sval -> list cell -> option sval * list cell :=
    copy (e_validate V) (fun k co kd => co || Nat.eqb kd k) (fun co => co) (fun k => k).
  (** base/containers.py:307-316, 617-636 *)
  Definition s_serialize : stype -> sval -> list cell -> option sval * list cell :=
    copy (e_tojson V) (fun k _ kd => e_takes V k kd) (fun _ => false) (e_jkind V).
  (** base/containers.py:318-327, 638-657 *)
  Definition s_deserialize : stype -> sval -> list cell -> option sval * list cell :=
    copy (e_fromjson V) (fun k _ kd => e_takes V k kd) (fun _ => false) (fun k => k).

  (** Properties (of instances) have numbers.  [s_made] is not in the program: it tells for
      each container which property it was made for, if validate made it for one (base/base.py:346-375). *)
  Record sstate := ST { s_heap : list cell; s_made : list (option nat); s_store : nat -> option sval }.
  (** types of the properties *)
  Variable T : nat -> stype.
  (** What a program does: make a container, change one, assign or reset (the value may be
      the default, which all instances share; base.py:376-399), delete, serialize a property,
      assign what deserialize gives (base.py:563-586), or call a method that changes a stored
      container with observe_mutations, which then has this content (base/containers.py:66-92) *)
  Inductive saction := ANew (c : cell) | AChange (a : nat) (c : cell) | AAssign (k : nat) (v : sval) | ADelete (k : nat)
    | ASerialize (k : nat) | ADeserialize (k : nat) (v : sval) | AMutate (k : nat) (c : cell).
  (** Plumbing: record for what the new containers were made. *)
  Definition grown (s : sstate) (h : list cell) (o : option nat) : list (option nat) :=
    s_made s ++ repeat o (length h - length (s_heap s)).
  (** base.py:357-364: the store with a value for property [k] *)
  Definition put (k : nat) (o : option sval) (f : nat -> option sval) : nat -> option sval :=
    fun j => if Nat.eqb j k then o else f j.
  (** validate and store; basic.py:664-683, base.py:357-364 *)
  Definition assign (k : nat) (v : sval) (s : sstate) : sstate :=
    let (r, h) := s_validate (T k) v (s_heap s) in
    ST h (grown s h (Some k)) (match r with Some v' => put k (Some v') (s_store s) | None => s_store s end).
  (** One action, and what it gives to the program (base.py:346-399, 476-516, 563-586,
      base/containers.py:66-92: the method works on a copy, which is assigned) *)
  Definition act (x : saction) (s : sstate) : option sval * sstate :=
    match x with
    | ANew c => (Some (SRef (length (s_heap s))), ST (s_heap s ++ [c]) (s_made s ++ [None]) (s_store s))
    | AChange a c => (None, ST (set_cell (s_heap s) a c) (s_made s) (s_store s))
    | AAssign k v => (None, assign k v s)
    | ADelete k => (None, ST (s_heap s) (s_made s) (put k None (s_store s)))
    | ASerialize k =>
        match s_store s k with
        | None => (None, s)
        | Some v => let (r, h) := s_serialize (T k) v (s_heap s) in (r, ST h (grown s h None) (s_store s))
        end
    | ADeserialize k v =>
        let (r, h) := s_deserialize (T k) v (s_heap s) in
        let s1 := ST h (grown s h None) (s_store s) in
        match r with None => (None, s1) | Some v' => (None, assign k v' s1) end
    | AMutate k c =>
        match s_store s k with
        | Some (SRef _) => (None, assign k (SRef (length (s_heap s))) (ST (s_heap s ++ [c]) (s_made s ++ [None]) (s_store s)))
        | _ => (None, s)
        end
    end.
  (** Sequences of actions, from nothing (basic.py:277-286: reading gives the stored value) *)
  Definition after (xs : list saction) : sstate :=
    fold_left (fun s x => snd (act x s)) xs (ST [] [] (fun _ => None)).
End Sharing.
