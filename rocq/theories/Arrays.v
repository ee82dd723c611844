(** Model of Array and the Vector properties (math.py): options, shape and
    dtype checks, direction names.

    An array is its class, dtype kind and shape; numpy and vectormath are the
    function [wrap].  Not modelled: the contents of arrays, the scaling of
    vectors to [length] (math.py:255-292), [equal], JSON. *)
From Verif Require Export Options.
Local Open Scope string_scope.
Local Open Scope list_scope.
Local Open Scope nat_scope.

(** The Property classes; as the class of an array, [KArray] is [np.ndarray]
    and the others are the vectormath classes (math.py:22, 295, 344, 395, 465). *)
Inductive akind := KArray | KVec3 | KVec2 | KVec3Array | KVec2Array.
(** Comparing classes (math.py:140-164). *)
Definition akind_eqb (a b : akind) : bool :=
  match a, b with
  | KArray, KArray | KVec3, KVec3 | KVec2, KVec2 | KVec3Array, KVec3Array | KVec2Array, KVec2Array => true
  | _, _ => false
  end.
(** What is seen of an array in math.py:140-164: class, [dtype.kind], shape. *)
Record arr := Arr { a_class : akind; a_kind : ascii; a_shape : list Z }.
(** An item of a list or tuple: a string, a number or a list from the table of
    directions, anything else (math.py:325-337, 438-458) *)
Inductive aitem := AiStr (s : string) | AiNum (z : Z) | AiDir (l : list Z) | AiOther (n : nat).
(** What can be assigned (math.py:142, 332, 380, 445-456). *)
Inductive aval := AvArr (a : arr) | AvList (l : list aitem) | AvTuple (l : list aitem) | AvStr (s : string) | AvOther.

(** * Options *)
(** An entry of a shape: ['*'] or a length (math.py:56-91) *)
Inductive dim := Star | Len (z : Z).
(** math.py:86-89 *)
Definition dim_of (v : val) : option dim :=
  match v with
  | VStr s => if String.eqb s "*" then Some Star else None
  | _ => match as_int v with Some z => Some (Len z) | None => None end
  end.
(** math.py:82-89: a tuple of entries. *)
Definition shape_of (v : val) : option (list dim) := match v with VTuple l => all_some (map dim_of l) | _ => None end.
(** math.py:73-90 [_validate_shape] *)
Definition validate_shape (v : val) : res (list (list dim)) :=
  match all_some (map shape_of (match v with VSet l => l | _ => [v] end)) with
  | Some l => Ok l
  | None => Exc ExType
  end.
(** [type]s as dtype options: the keys of math.py:14-19 [TYPE_MAPPINGS], others *)
Inductive adtype := DInt | DFloat | DBool | DComplex | DNoType.
(** math.py:14-19: the kinds of a type. *)
Definition kinds_of (d : adtype) : list ascii :=
  match d with DInt => ["u"; "i"] | DFloat => ["f"] | DBool => ["b"] | DComplex => ["c"] | DNoType => [] end%char.
(** [ao_shape]: [None] when the attribute [_shape] does not exist, [Some None]
    for any shape (math.py:56-122) *)
Record aopts := AO { ao_shape : option (option (list (list dim))); ao_dtype : option (list adtype); ao_coerce : bool }.
(** math.py:64, 98, 116: the defaults *)
Definition a_start : aopts := AO None None true.
(** math.py:55-64, 320-323, 368-371, 420-423, 490-493 *)
Definition shape_opt (k : akind) (o : aopts) : option (list (list dim)) :=
  match k with
  | KVec3 => Some [[Len 3]]
  | KVec2 => Some [[Len 2]]
  | KArray => match ao_shape o with Some s => s | None => Some [[Star]] end
  | KVec3Array => match ao_shape o with Some s => s | None => Some [[Star; Len 3]] end
  | KVec2Array => match ao_shape o with Some s => s | None => Some [[Star; Len 2]] end
  end%Z.
(** math.py:92-98, 250-253 *)
Definition dtype_opt (k : akind) (o : aopts) : list adtype :=
  match k with
  | KArray => match ao_dtype o with Some l => l | None => [DFloat; DInt] end
  | _ => [DFloat]
  end.
(** math.py:66-71, 425-433, 495-503; Vector3 and Vector2 have no setter *)
Definition set_shape (k : akind) (v : val) (o : aopts) : res aopts :=
  let check n := rbind (validate_shape v)
    (fun l => if forallb (fun s => match s with [_; Len m] => Z.eqb m n | _ => false end) l
              then Ok (AO (Some (Some l)) (ao_dtype o) (ao_coerce o)) else Exc ExType) in
  match k with
  | KVec3 | KVec2 => Exc ExAttr
  | KVec3Array => check 3%Z
  | KVec2Array => check 2%Z
  | KArray => match v with
              | VNone => Ok (AO (Some None) (ao_dtype o) (ao_coerce o))
              | _ => rbind (validate_shape v) (fun l => Ok (AO (Some (Some l)) (ao_dtype o) (ao_coerce o)))
              end
  end.
(** math.py:107: is it a key of [TYPE_MAPPINGS]? *)
Definition known_dtype (d : adtype) : bool := match d with DNoType => false | _ => true end.
(** math.py:100-111 (a single type is the list of it) *)
Definition set_dtype (k : akind) (l : list adtype) (o : aopts) : res aopts :=
  match k with
  | KArray => match l with
              | [] => Exc ExType
              | _ => if forallb known_dtype l then Ok (AO (ao_shape o) (Some l) (ao_coerce o)) else Exc ExType
              end
  | _ => Exc ExAttr
  end.
(** math.py:118-122 *)
Definition set_coerce (v : val) (o : aopts) : res aopts :=
  match v with VBool b => Ok (AO (ao_shape o) (ao_dtype o) b) | _ => Exc ExType end.
(** Assignments to the options (math.py:66-71, 100-111, 118-122). *)
Inductive aop := SetShape (v : val) | SetDtype (l : list adtype) | SetCoerce (v : val).
(** math.py:66-71, 100-111, 118-122: the setters. *)
Definition a_apply (k : akind) (o : aopts) (a : aop) : res aopts :=
  match a with SetShape v => set_shape k v o | SetDtype l => set_dtype k l o | SetCoerce v => set_coerce v o end.

(** * Validation *)
(** The array; [self.error]; another exception (math.py:140-164) *)
Inductive ares := AOk (a : arr) | AErr | AExc (e : exn).
(** math.py:157-163 *)
Definition shape_ok (s : list dim) (dims : list Z) : bool :=
  Nat.eqb (length s) (length dims) &&
  forallb (fun dn => match fst dn with Star => true | Len z => Z.eqb z (snd dn) end) (combine s dims).

(** math.py:538-552 [VECTOR_DIRECTIONS] *)
Definition directions : dict (list Z) :=
  [("ZERO", [0; 0; 0]); ("X", [1; 0; 0]); ("Y", [0; 1; 0]); ("Z", [0; 0; 1]); ("-X", [-1; 0; 0]); ("-Y", [0; -1; 0]);
   ("-Z", [0; 0; -1]); ("EAST", [1; 0; 0]); ("WEST", [-1; 0; 0]); ("NORTH", [0; 1; 0]); ("SOUTH", [0; -1; 0]);
   ("UP", [0; 0; 1]); ("DOWN", [0; 0; -1])]%Z.
(** math.py:332-335, 380-386, 449-456, 519-529: the list for a direction name *)
Definition direction (k : akind) (s : string) : option (list Z) :=
  let name := str_upper s in
  match k with
  | KVec3 | KVec3Array => dget directions name
  | _ => if str_mem name ["Z"; "-Z"; "UP"; "DOWN"] then None
         else match dget directions name with Some l => Some (firstn 2 l) | None => None end
  end.
(** math.py:446-456, 516-529: the items after the loop; [false] when an item is
    no direction name (the items before it have been replaced) *)
Fixpoint replace_names (k : akind) (l : list aitem) : bool * list aitem :=
  match l with
  | [] => (true, [])
  | AiStr s :: r => match direction k s with
                    | Some d => let (ok, t) := replace_names k r in (ok, AiDir d :: t)
                    | None => (false, l)
                    end
  | x :: r => let (ok, t) := replace_names k r in (ok, x :: t)
  end.
(** The first string of a tuple: a direction name cannot be stored (TypeError) (math.py:448-456, 518-529) *)
Fixpoint tuple_names (k : akind) (l : list aitem) : option ares :=
  match l with
  | [] => None
  | AiStr s :: r => match direction k s with Some _ => Some (AExc ExType) | None => Some AErr end
  | _ :: r => tuple_names k r
  end.

Section Validate.
  (** the wrapper of the Property class *)
  Variable wrap : akind -> aval -> res arr.

  (** math.py:140-164 [Array.validate] *)
  Definition array_validate (k : akind) (o : aopts) (v : aval) : ares :=
    match v with
    | AvStr _ | AvOther => AErr
    | AvArr _ | AvList _ | AvTuple _ =>
        match (if ao_coerce o then rbind (wrap k v) (fun a => Ok (AvArr a)) else Ok v) with
        | Exc e => AExc e
        | Ok (AvArr a) =>
            if match k with KArray => true | _ => akind_eqb (a_class a) k end then
              if existsb (fun d => existsb (Ascii.eqb (a_kind a)) (kinds_of d)) (dtype_opt k o) then
                match shape_opt k o with
                | None => AOk a
                | Some l => if existsb (fun s => shape_ok s (a_shape a)) l then AOk a else AErr
                end
              else AErr
            else AErr
        | Ok _ => AErr
        end
    end.
  (** math.py:325-337, 373-388, 438-458, 508-531 [validate] of the vectors (the
      outcome and the value of the caller afterwards) *)
  Definition validate (k : akind) (o : aopts) (v : aval) : ares * aval :=
    match k with
    | KArray => (array_validate k o v, v)
    | KVec3 | KVec2 =>
        match v with
        | AvStr s => match direction k s with
                     | Some d => (array_validate k o (AvList (map (fun z => AiNum z) d)), v)
                     | None => (AErr, v)
                     end
        | _ => (array_validate k o v, v)
        end
    | KVec3Array | KVec2Array =>
        match v with
        | AvList l => let (ok, t) := replace_names k l in
                      ((if ok then array_validate k o (AvList t) else AErr), AvList t)
        | AvTuple l => match tuple_names k l with
                       | Some r => (r, v)
                       | None => (array_validate k o v, v)
                       end
        | _ => (array_validate k o v, v)
        end
    end.
End Validate.
