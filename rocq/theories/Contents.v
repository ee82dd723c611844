(** Model of the contents of arrays: Array.equal, to_json and deserialize
    (math.py:166-175, 213-236).

    numpy is modelled as far as these functions use it, for arrays of bool,
    int64, float64 and of strings, from its documentation: [np.array] of nested
    lists, [astype], [tolist], [isnan], [allclose].  Complex, unsigned and object
    arrays are not modelled; the constructors of vectormath are any functions.  Ints outside int64 raise OverflowError here. *)
From Verif Require Export Arrays.
Local Open Scope string_scope.
Local Open Scope list_scope.
Local Open Scope nat_scope.

(** An item, and the dtype (math.py:14-20) *)
Inductive elt := EB (b : bool) | EI (z : Z) | EF (f : float) | ES (s : string).
(** The item types of numpy arrays, of [TYPE_MAPPINGS] (math.py:14-19), and text. *)
Inductive adt := TBool | TInt | TFloat | TStr.
(** class, dtype, shape, and the items in row-major order (math.py:140-164) *)
Record nda := NDA { n_class : akind; n_type : adt; n_shape : list nat; n_data : list elt }.

(** * equal *)
(** the item as a double; [np.isnan] raises TypeError for strings (math.py:166-176) *)
Definition elt_float (e : elt) : option float :=
  match e with
  | EB b => fofZ (if b then 1 else 0)%Z
  | EI z => fofZ z
  | EF f => Some f
  | ES _ => None
  end.
(** the default [rtol] of [np.allclose], 1e-5 as a double (math.py:166-176) *)
Definition RTOL : float := S754_finite false 5902958103587057 (-69).
(** [np.isclose(x, y, atol=TOL)] (math.py:166-176) *)
Definition is_close (x y : float) : bool :=
  if is_fin x && is_fin y
  then fle (fabs (fsub x y)) (SFadd prec emax TOL (SFmul prec emax RTOL (fabs y)))
  else feq x y.
(** [np.array_equal] of masks (math.py:171). *)
Fixpoint bools_eqb (a b : list bool) : bool :=
  match a, b with
  | [], [] => true
  | x :: r, y :: s => Bool.eqb x y && bools_eqb r s
  | _, _ => false
  end.
(** Equal shapes, for [np.array_equal] (math.py:171). *)
Fixpoint nats_eqb (a b : list nat) : bool :=
  match a, b with
  | [], [] => true
  | x :: r, y :: s => Nat.eqb x y && nats_eqb r s
  | _, _ => false
  end.
(** [value[mask]] (math.py:166-176) *)
Fixpoint select {A} (mask : list bool) (l : list A) : list A :=
  match mask, l with
  | b :: m, x :: r => if b then x :: select m r else select m r
  | _, _ => []
  end.
(** math.py:166-175; [mask] is [nan_mask] *)
Definition array_equal (a b : nda) : bool :=
  if negb (akind_eqb (n_class a) (n_class b)) then false
  else match all_some (map elt_float (n_data a)), all_some (map elt_float (n_data b)) with
       | Some x, Some y =>
           let mask := map (fun f => negb (is_nan f)) x in
           if negb (nats_eqb (n_shape a) (n_shape b) && bools_eqb mask (map (fun f => negb (is_nan f)) y)) then false
           else forallb (fun p => is_close (fst p) (snd p)) (combine (select mask x) (select mask y))
       | _, _ => false
       end.

(** * to_json (math.py:227-237) *)
Definition elt_val (e : elt) : val :=
  match e with EB b => VBool b | EI z => VInt z | EF f => VFloat f | ES s => VStr s end.
(** The number of items of a shape (math.py:227-237). *)
Definition size (sh : list nat) : nat := fold_right Nat.mul 1 sh.
(** [n] rows of [k] items (math.py:227-237) *)
Fixpoint rows {A} (n k : nat) (d : list A) : list (list A) :=
  match n with
  | 0 => []
  | S m => firstn k d :: rows m k (skipn k d)
  end.
(** [value.tolist()] (math.py:227-237) *)
Fixpoint tolist (sh : list nat) (d : list elt) : val :=
  match sh with
  | [] => match d with e :: _ => elt_val e | [] => VNone end
  | n :: r => VList (map (tolist r) (rows n (size r) d))
  end.
(** math.py:235: [str(v) if np.isnan(v) or np.isinf(v) else v] *)
Definition number_json (v : val) : res val :=
  match v with
  | VFloat f => Ok (if is_special f then VStr (special_str f) else v)
  | VInt _ | VBool _ => Ok v
  | _ => Exc ExType
  end.
(** A list comprehension (math.py:234-235): the first error is raised. *)
Fixpoint all_ok {A} (l : list (res A)) : res (list A) :=
  match l with
  | [] => Ok []
  | Ok x :: r => rbind (all_ok r) (fun t => Ok (x :: t))
  | Exc e :: _ => Exc e
  end.
(** math.py:232-235; a value that is not a list raises TypeError *)
Fixpoint recurse_list (v : val) : res val :=
  match v with
  | VList l =>
      rbind (all_ok (match l with VList _ :: _ => map recurse_list l | _ => map number_json l end))
            (fun t => Ok (VList t))
  | _ => Exc ExType
  end.
(** math.py:226-236 *)
Definition array_to_json (a : nda) : res val := recurse_list (tolist (n_shape a) (n_data a)).

(** * deserialize *)
Section Read.
  Variable E : env.
  (** [str] of a float and of an int in a string array *)
  Variable fstr : float -> string.
  Variable istr : Z -> string.
  (** [astype(int)] of nan, infinities and doubles outside int64 *)
  Variable fint : float -> Z.
  (** [astype(bool)] of strings *)
  Variable sbool : string -> res bool.

  (** the shape [np.array] finds; [None] for ragged lists (ValueError) (math.py:213-225, 239-240) *)
  Fixpoint np_shape (v : val) : option (list nat) :=
    match v with
    | VList l =>
        match map np_shape l with
        | [] => Some [0]
        | Some s :: r =>
            if forallb (fun o => match o with Some t => nats_eqb s t | None => false end) r
            then Some (length l :: s) else None
        | None :: _ => None
        end
    | _ => Some []
    end.
  (** the items in row-major order (math.py:213-225, 239-240) *)
  Fixpoint np_items (v : val) : list val :=
    match v with
    | VList l => flat_map np_items l
    | _ => [v]
    end.
  (** The order of the item types in [np.array] of mixed items (math.py:213-225, 239-240). *)
  Definition type_rank (t : adt) : nat := match t with TBool => 0 | TInt => 1 | TFloat => 2 | TStr => 3 end.
  (** The item type that [np.array] gives a Python value (math.py:213-225, 239-240). *)
  Definition val_type (v : val) : option adt :=
    match v with
    | VBool _ => Some TBool | VInt _ => Some TInt | VFloat _ => Some TFloat | VStr _ => Some TStr
    | _ => None
    end.
  (** the dtype: that of the highest rank, float64 for no items (math.py:213-225, 239-240) *)
  Definition np_type (l : list val) : option adt :=
    match all_some (map val_type l) with
    | None => None
    | Some [] => Some TFloat
    | Some (t :: r) => Some (fold_left (fun a b => if type_rank a <? type_rank b then b else a) r t)
    end.
  (** The range of int64 (math.py:213-225, 239-240). *)
  Definition in_int64 (z : Z) : bool := ((- 2 ^ 63 <=? z) && (z <? 2 ^ 63))%Z.
  (** one item of a list as an item of an array of that dtype (math.py:213-225, 239-240) *)
  Definition np_item (t : adt) (v : val) : res elt :=
    match t, v with
    | TBool, VBool b => Ok (EB b)
    | TInt, VBool b => Ok (EI (if b then 1 else 0)%Z)
    | TInt, VInt z => if in_int64 z then Ok (EI z) else Exc ExOverflow
    | TFloat, VBool b => match fofZ (if b then 1 else 0)%Z with Some f => Ok (EF f) | None => Exc ExOverflow end
    | TFloat, VInt z => match fofZ z with Some f => Ok (EF f) | None => Exc ExOverflow end
    | TFloat, VFloat f => Ok (EF f)
    | TStr, VBool b => Ok (ES (if b then "True" else "False"))
    | TStr, VInt z => Ok (ES (istr z))
    | TStr, VFloat f => Ok (ES (if is_special f then special_str f else fstr f))
    | TStr, VStr s => Ok (ES s)
    | _, _ => Exc ExType
    end.
  (** [np.array(v)] for nested lists of bools, ints, floats and strings (math.py:213-225, 239-240) *)
  Definition np_array (v : val) : res nda :=
    match np_shape v, np_type (np_items v) with
    | None, _ => Exc ExValue
    | _, None => Exc ExType
    | Some sh, Some t => rbind (all_ok (map (np_item t) (np_items v))) (fun d => Ok (NDA KArray t sh d))
    end.
  (** one item of [a.astype(t)] (math.py:213-225) *)
  Definition cast (t : adt) (e : elt) : res elt :=
    match t, e with
    | TBool, EB b => Ok (EB b)
    | TBool, EI z => Ok (EB (negb (Z.eqb z 0)))
    | TBool, EF f => Ok (EB (match f with S754_zero _ => false | _ => true end))
    | TBool, ES s => rbind (sbool s) (fun b => Ok (EB b))
    | TInt, EB b => Ok (EI (if b then 1 else 0)%Z)
    | TInt, EI z => Ok (EI z)
    | TInt, EF f => Ok (EI (if negb (is_special f) && in_int64 (ftrunc f) then ftrunc f else fint f))
    | TInt, ES s => match parse_int 10 s with
                    | Some z => if in_int64 z then Ok (EI z) else Exc ExOverflow
                    | None => Exc ExValue
                    end
    | TFloat, EB b => match fofZ (if b then 1 else 0)%Z with Some f => Ok (EF f) | None => Exc ExOverflow end
    | TFloat, EI z => match fofZ z with Some f => Ok (EF f) | None => Exc ExOverflow end
    | TFloat, EF f => Ok (EF f)
    | TFloat, ES s => match e_fparse E s with Some f => Ok (EF f) | None => Exc ExValue end
    | TStr, EB b => Ok (ES (if b then "True" else "False"))
    | TStr, EI z => Ok (ES (istr z))
    | TStr, EF f => Ok (ES (if is_special f then special_str f else fstr f))
    | TStr, ES s => Ok (ES s)
    end.
  (** [astype] (math.py:224). *)
  Definition astype (t : adt) (a : nda) : res nda :=
    rbind (all_ok (map (cast t) (n_data a))) (fun d => Ok (NDA (n_class a) t (n_shape a) d)).
  (** the dtype [self.dtype[0]] (math.py:213-225) *)
  Definition first_type (o : aopts) : option adt :=
    match dtype_opt KArray o with
    | DInt :: _ => Some TInt
    | DFloat :: _ => Some TFloat
    | DBool :: _ => Some TBool
    | _ => None
    end.
  (** math.py:213-224 of Array without deserializer; [None] is the value None *)
  Definition array_deserialize (o : aopts) (v : val) : res (option nda) :=
    if is_none v then Ok None
    else match first_type o with
         | Some t => rbind (np_array v) (fun a => rbind (astype t a) (fun b => Ok (Some b)))
         | None => Exc ExNotImpl
         end.
  (** math.py:213-224 of the vector classes without deserializer: the wrapper
      (math.py:316-318, 364-366, 416-418, 486-488), which is also [from_json]
      (math.py:339-341, 390-392, 460-462, 533-535), then [astype(float)], which
      keeps the class.  Their [to_json] is [array_to_json]. *)
  Definition vec_deserialize (wrap : val -> res nda) (v : val) : res (option nda) :=
    if is_none v then Ok None
    else rbind (wrap v) (fun a => rbind (astype TFloat a) (fun b => Ok (Some b))).
End Read.
