(** Model of property objects as objects: their names, the properties they
    contain, tags and terms (basic.py:56-160, 204-219, 444-449, 464-491;
    base/containers.py:140-203, 517-543; base/union.py:63-122; base/base.py:128-134).

    A heap of property objects that may be shared: the same object may be an
    attribute of several classes, and be contained in several others.  World.v
    takes a property and what it contains as a tree, with the name of the attribute.

    Not modelled: keywords and defaults (Declare.v; a contained property with a
    default only causes a warning, and that of a dynamic property is refused
    there), names that are not strings, the documentation built by
    [get_property], changing the dictionary that [meta] returns. *)
From Verif Require Export PyBase PyVal.
Local Open Scope string_scope.
Local Open Scope list_scope.
Local Open Scope nat_scope.

(** What a property object is: a Property that contains no other, an Instance
    of a class, a GettableProperty, Renamed, a dynamic property over another, a
    Tuple, List or Set ([None]: no [_prop]), a Dictionary, a Union (basic.py:85-95, 389, 595) *)
Inductive pk :=
| PkProp | PkInst (c : string) | PkGet | PkRenamed (new : string) | PkDyn (p : nat)
| PkTuple (p : option nat) | PkDict (k v : option nat) | PkUnion (l : list nat).
(** [_name], [_meta], [_args] and [_kwargs] (basic.py:122-126, 100, 145-167) *)
Record pobj := PO {
  o_kind : pk; o_name : string; o_meta : dict val; o_args : list val; o_kwargs : dict val }.
(** The property objects (basic.py:98-101). *)
Definition heap := list pobj.

(** isinstance(value, basic.Property) (basic.py:595, base/instance.py:23,
    base/containers.py:156, 479, base/union.py:23) *)
Definition is_property (k : pk) : bool :=
  match k with PkGet | PkRenamed _ | PkDyn _ => false | _ => true end.
(** The objects whose name is set along with that of the object, in this order
    (basic.py:490, base/containers.py:202, 541-542, base/union.py:120-121).  Without [_prop]
    it is that of a temporary Property (base/containers.py:186, 520, 529). *)
Definition children (k : pk) : list nat :=
  let one o := match o with Some p => [p] | None => [] end in
  match k with
  | PkDyn p => [p]
  | PkTuple p => one p
  | PkDict k v => one k ++ one v
  | PkUnion l => l
  | _ => []
  end.
(** Plumbing: change the kind. *)
Definition with_kind (p : pobj) (k : pk) : pobj := PO k (o_name p) (o_meta p) (o_args p) (o_kwargs p).
(** Plumbing: change [_name] (basic.py:132). *)
Definition with_name (p : pobj) (s : string) : pobj := PO (o_kind p) s (o_meta p) (o_args p) (o_kwargs p).
(** Plumbing: change [_meta] (basic.py:100). *)
Definition with_meta (p : pobj) (m : dict val) : pobj := PO (o_kind p) (o_name p) m (o_args p) (o_kwargs p).
(** Plumbing: change [_args] and [_kwargs] (basic.py:166-167). *)
Definition with_terms (p : pobj) (a : list val) (kw : dict val) : pobj := PO (o_kind p) (o_name p) (o_meta p) a kw.
(** replace the object at an address (basic.py:98-101) *)
Fixpoint put (h : heap) (o : nat) (p : pobj) : heap :=
  match h, o with
  | [], _ => []
  | _ :: r, 0 => p :: r
  | x :: r, S n => x :: put r n p
  end.

(** [prop.name = value] for each, stopping at an exception (base/union.py:118-122) *)
Fixpoint each (f : heap -> nat -> heap * res unit) (h : heap) (l : list nat) : heap * res unit :=
  match l with
  | [] => (h, Ok tt)
  | o :: r => match f h o with
              | (h1, Ok _) => each f h1 r
              | (h1, Exc e) => (h1, Exc e)
              end
  end.
(** [prop.name = s] (basic.py:128-132, 486-491, base/containers.py:200-203, 539-543,
    base/union.py:118-122).  The budget is the recursion limit; addresses
    without object do not occur in Python. *)
Fixpoint set_name (n : nat) (s : string) (h : heap) (o : nat) : heap * res unit :=
  match n with
  | 0 => (h, Exc ExRecursion)
  | S m =>
      match nth_error h o with
      | None => (h, Exc ExAttr)
      | Some p =>
          match each (set_name m s) h (children (o_kind p)) with
          | (h1, Exc e) => (h1, Exc e)
          | (h1, Ok _) =>
              match nth_error h1 o with
              | Some p1 => (put h1 o (with_name p1 s), Ok tt)
              | None => (h1, Exc ExAttr)
              end
          end
      end
  end.

(** An argument: a property object, a HasProperties class, anything else (base/containers.py:140-153) *)
Inductive parg := AObj (o : nat) | AClass (c : string) | AOther.
(** basic.py:56-76, 98-101: a new object, before its keywords *)
Definition fresh (k : pk) : pobj := PO k "" [] [] [].
(** base/containers.py:140-153, base/union.py:77-85: a class becomes a new
    Instance ['', c]; anything but a Property is refused *)
Definition validate_prop (h : heap) (a : parg) : heap * res nat :=
  match a with
  | AClass c => (h ++ [PO (PkInst c) "" [] [VStr ""; VObj 0] []], Ok (length h))
  | AObj o =>
      match nth_error h o with
      | Some p => if is_property (o_kind p) then (h, Ok o) else (h, Exc ExType)
      | None => (h, Exc ExAttr)
      end
  | AOther => (h, Exc ExType)
  end.
(** the loop of base/union.py:77-85 *)
Fixpoint validate_props (h : heap) (l : list parg) : heap * res (list nat) :=
  match l with
  | [] => (h, Ok [])
  | a :: r =>
      match validate_prop h a with
      | (h1, Exc e) => (h1, Exc e)
      | (h1, Ok o) =>
          match validate_props h1 r with
          | (h2, Ok t) => (h2, Ok (o :: t))
          | (h2, Exc e) => (h2, Exc e)
          end
      end
  end.

(** Assigning to an attribute that has no setter or is of another class gives
    an instance attribute of no meaning here: such operations are left out by
    raising AttributeError. *)
Definition set_child (h : heap) (o : nat) (a : parg) (f : pk -> option (nat -> pk)) : heap * res unit :=
  match nth_error h o with
  | None => (h, Exc ExAttr)
  | Some p =>
      match f (o_kind p) with
      | None => (h, Exc ExAttr)
      | Some mk =>
          match validate_prop h a with
          | (h1, Exc e) => (h1, Exc e)
          | (h1, Ok c) => (put h1 o (with_kind p (mk c)), Ok tt)
          end
      end
  end.
(** base/containers.py:188-190 *)
Definition set_prop (h : heap) (o : nat) (a : parg) : heap * res unit :=
  set_child h o a (fun k => match k with PkTuple _ => Some (fun c => PkTuple (Some c)) | _ => None end).
(** base/containers.py:522-524 *)
Definition set_key (h : heap) (o : nat) (a : parg) : heap * res unit :=
  set_child h o a (fun k => match k with PkDict _ v => Some (fun c => PkDict (Some c) v) | _ => None end).
(** base/containers.py:531-533 *)
Definition set_value (h : heap) (o : nat) (a : parg) : heap * res unit :=
  set_child h o a (fun k => match k with PkDict k _ => Some (fun c => PkDict k (Some c)) | _ => None end).
(** base/union.py:73-86; [None]: not a tuple or list *)
Definition set_props (h : heap) (o : nat) (l : option (list parg)) : heap * res unit :=
  match nth_error h o with
  | None => (h, Exc ExAttr)
  | Some p =>
      match o_kind p with
      | PkUnion _ =>
          match l with
          | None => (h, Exc ExType)
          | Some l =>
              match validate_props h l with
              | (h1, Exc e) => (h1, Exc e)
              | (h1, Ok t) => (put h1 o (with_kind p (PkUnion t)), Ok tt)
              end
          end
      | _ => (h, Exc ExAttr)
      end
  end.
(** [d.update(e)] (basic.py:209-219) *)
Definition update (d e : dict val) : dict val := fold_left (fun d kv => dset d (fst kv) (snd kv)) e d.
(** A positional argument of [tag]: a dict, or anything else (basic.py:209-219) *)
Inductive targ := TDict (d : dict val) | TOther.
(** basic.py:209-219 *)
Definition tag (h : heap) (o : nat) (pos : list targ) (kw : dict val) : heap * res unit :=
  match nth_error h o with
  | None => (h, Exc ExAttr)
  | Some p =>
      match pos with
      | [] => (put h o (with_meta p (update (o_meta p) kw)), Ok tt)
      | [TDict d] => (put h o (with_meta p (update (update (o_meta p) d) kw)), Ok tt)
      | _ => (h, Exc ExType)
      end
  end.

(** The class called, with the arguments that matter here *)
Inductive pnew :=
| NProp | NInst (c : string) | NGet | NRenamed (new : string) | NDyn (func_name : string) (p : parg)
| NTuple (p : parg) | NTupleAny | NDict | NUnion (l : option (list parg)).
(** basic.py:80-82: after [__init__] of the object [o], its terms *)
Definition finish (args : list val) (kw : dict val) (r : heap * res unit) (o : nat) : heap * res unit :=
  match r with
  | (h1, Ok _) =>
      match nth_error h1 o with
      | Some p => (put h1 o (with_terms p args kw), Ok tt)
      | None => (h1, Exc ExAttr)
      end
  | _ => r
  end.
(** Calling the class (basic.py:78-82); keywords are operations that follow.
    [__init__] of GettableProperty (basic.py:98-101), Instance
    (base/instance.py:48-50), Renamed (basic.py:1442-1449), DynamicProperty
    (basic.py:444-449, its [prop] 469-475), Tuple (base/containers.py:178-181),
    Union (base/union.py:63-66); then the terms (basic.py:81).  When it raises,
    the object is dropped, but not those made or changed on the way. *)
Definition construct (n : nat) (h : heap) (k : pnew) (args : list val) (kw : dict val) : heap * res unit :=
  match k with
  | NProp => finish args kw (h ++ [fresh PkProp], Ok tt) (length h)
  | NInst c => finish args kw (h ++ [fresh (PkInst c)], Ok tt) (length h)
  | NGet => finish args kw (h ++ [fresh PkGet], Ok tt) (length h)
  | NRenamed s => finish args kw (h ++ [fresh (PkRenamed s)], Ok tt) (length h)
  | NTupleAny => finish args kw (h ++ [fresh (PkTuple None)], Ok tt) (length h)
  | NDict => finish args kw (h ++ [fresh (PkDict None None)], Ok tt) (length h)
  | NTuple a => finish args kw (set_prop (h ++ [fresh (PkTuple None)]) (length h) a) (length h)
  | NUnion l => finish args kw (set_props (h ++ [fresh (PkUnion [])]) (length h) l) (length h)
  | NDyn s a =>
      match a with
      | AObj c =>
          match nth_error h c with
          | None => (h, Exc ExAttr)
          | Some _ =>
              match set_name n s (h ++ [fresh (PkDyn c)]) (length h) with
              | (h1, Exc e) => (h1, Exc e)
              | (h1, Ok _) =>
                  match nth_error h1 c with
                  | Some q => finish args kw (tag h1 (length h) [TDict (o_meta q)] []) (length h)
                  | None => (h1, Exc ExAttr)
                  end
              end
          end
      | _ => (h, Exc ExType)
      end
  end.

(** The loop of base/base.py:129-134 over the properties of the class body;
    [props] are the keys of [_props] *)
Fixpoint name_all (n : nat) (props : list string) (h : heap) (own : list (string * nat)) : heap * res unit :=
  match own with
  | [] => (h, Ok tt)
  | (key, o) :: r =>
      match nth_error h o with
      | None => (h, Exc ExAttr)
      | Some p =>
          if match o_kind p with PkRenamed s => negb (existsb (String.eqb s) props) | _ => false end then (h, Exc ExType)
          else match set_name n key h o with
               | (h1, Ok _) => name_all n props h1 r
               | (h1, Exc e) => (h1, Exc e)
               end
      end
  end.

(** What a program does with property objects: [PClass inherited own] declares
    a class with these properties in its body, and names of inherited ones *)
Inductive pop :=
| PNew (k : pnew) (args : list val) (kw : dict val)
| PName (o : nat) (s : string)
| PProp (o : nat) (a : parg) | PKey (o : nat) (a : parg) | PValue (o : nat) (a : parg)
| PProps (o : nat) (l : option (list parg))
| PTag (o : nat) (pos : list targ) (kw : dict val)
| PClass (inherited : list string) (own : list (string * nat)).
(** one operation, by the lines cited above *)
Definition step (n : nat) (h : heap) (a : pop) : heap * res unit :=
  match a with
  | PNew k args kw => construct n h k args kw
  | PName o s => set_name n s h o
  | PProp o a => set_prop h o a
  | PKey o a => set_key h o a
  | PValue o a => set_value h o a
  | PProps o l => set_props h o l
  | PTag o pos kw => tag h o pos kw
  | PClass inh own => name_all n (inh ++ map fst own) h own
  end.
(** a program; operations that raise are caught *)
Fixpoint run (n : nat) (h : heap) (l : list pop) : heap :=
  match l with
  | [] => h
  | a :: r => run n (fst (step n h a)) r
  end.

(** [scope.name] in the descriptor of the attribute (basic.py:284, 671-681): the
    key of [_backend] that reading, assigning and deleting it use *)
Definition slot (h : heap) (o : nat) : option string := option_map o_name (nth_error h o).
(** basic.py:145-154 [terms]: name, args, kwargs and meta *)
Definition terms (h : heap) (o : nat) : option (string * list val * dict val * dict val) :=
  option_map (fun p => (o_name p, o_args p, o_kwargs p, o_meta p)) (nth_error h o).
