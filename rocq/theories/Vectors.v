(** Model of the scaling of vectors (math.py:243-292, 435-436, 505-506): the
    option [length] ([None]: not scaled), and what validation does to the arrays it is given.

    [VArr i] is the array at place [i] of the heap.  numpy and vectormath are two
    functions: [wrap] makes a new array from a value (the constructors of
    vectormath copy), [scale] is the assignment to [length] of a vector, which
    works in place.  Direction names are in [Arrays], the contents of arrays in
    [Contents]. *)
From Verif Require Export Contents Files.
Local Open Scope string_scope.
Local Open Scope list_scope.
Local Open Scope nat_scope.

(** An array, a list or tuple, anything else (math.py:278-293) *)
Inductive vin := VArr (i : nat) | VSeq (n : nat) | VNot.
(** The arrays (math.py:278-293). *)
Definition vheap := list nda.
(** [value.length = ...]: done, ZeroDivisionError, another exception; with the
    array afterwards (math.py:278-293) *)
Inductive scaled := SDone (a : nda) | SZero (a : nda) | SRaises (e : exn) (a : nda).
(** The array at a place; [self.error]; its ZeroDivValidationError, which is
    both a ValidationError and a ZeroDivisionError (math.py:243-244); another
    exception *)
Inductive vres := VecOk (i : nat) | VecErr | VecZero | VecExc (e : exn).

(** math.py:263-269 the setter of [length]: what is stored *)
Definition set_length (v : val) : res float :=
  match as_num v with
  | None => Exc ExType
  | Some n => if nle n (NF fzero) then Exc ExType else py_float_num n
  end.

Section Vectors.
  (** the class of the Property: [KVec3], [KVec2], [KVec3Array] or [KVec2Array] *)
  Variable k : akind.
  Variable o : aopts.
  Variable wrap : vheap -> vin -> res nda.
  (** [value.length = L], or of an array of [L] (math.py:271-276, 435-436, 505-506) *)
  Variable scale : nda -> float -> scaled.

  (** math.py:149-164: class, dtype and shape *)
  Definition vec_fits (a : nda) : bool :=
    akind_eqb (n_class a) k && match n_type a with TFloat => true | _ => false end &&
    match shape_opt k o with
    | None => true
    | Some l => existsb (fun s => shape_ok s (map Z.of_nat (n_shape a))) l
    end.
  (** math.py:140-148: the array that is checked *)
  Definition vec_taken (v : vin) (h : vheap) : res (option nat) * vheap :=
    match v with
    | VNot => (Ok None, h)
    | _ => if ao_coerce o
           then match wrap h v with
                | Ok a => (Ok (Some (length h)), h ++ [a])
                | Exc e => (Exc e, h)
                end
           else (Ok (match v with VArr i => Some i | _ => None end), h)
    end.
  (** math.py:278-292 [BaseVector.validate] *)
  Definition vec_validate (len : option float) (v : vin) (h : vheap) : vres * vheap :=
    match vec_taken v h with
    | (Exc e, h1) => (VecExc e, h1)
    | (Ok None, h1) => (VecErr, h1)
    | (Ok (Some i), h1) =>
        match nth_error h1 i with
        | None => (VecErr, h1)
        | Some a =>
            if negb (vec_fits a) then (VecErr, h1)
            else match len with
                 | None => (VecOk i, h1)
                 | Some f => match scale a f with
                             | SDone b => (VecOk i, set_at h1 i b)
                             | SZero b => (VecZero, set_at h1 i b)
                             | SRaises e b => (VecExc e, set_at h1 i b)
                             end
                 end
        end
    end.
  (** basic.py:247-262 [assert_valid] of the stored array [i]; [equal] is
      math.py:166-175 *)
  Definition vec_assert (len : option float) (i : nat) (h : vheap) : res bool * vheap :=
    match vec_validate len (VArr i) h with
    | (VecOk j, h1) =>
        match nth_error h1 i, nth_error h1 j with
        | Some a, Some b => (if array_equal a b then Ok true else Exc (ExValidation []), h1)
        | _, _ => (Exc ExAttr, h1)
        end
    | (VecErr, h1) | (VecZero, h1) => (Exc (ExValidation []), h1)
    | (VecExc e, h1) => (Exc e, h1)
    end.
End Vectors.
