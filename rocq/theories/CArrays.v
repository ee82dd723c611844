(** Model of the JSON of complex arrays: Array.to_json and deserialize
    (math.py:213-236) with dtype complex (math.py:18).

    numpy as in Contents.v: [np.array] of nested lists, [tolist], [isnan] and
    [isinf] of a complex number (one of its parts is), [astype(complex)].  Items of a
    list with a string become text, with [str].  [equal] of complex arrays is not
    modelled. *)
From Verif Require Export Contents.
Local Open Scope string_scope.
Local Open Scope list_scope.
Local Open Scope nat_scope.

(** shape, and the items in row-major order: real and imaginary part *)
Record carr := CA { c_shape : list nat; c_data : list (float * float) }.
(** An item as a Python number (math.py:236 [tolist]). *)
Definition c_val (c : float * float) : val := VComplex (fst c) (snd c).
(** [value.tolist()] *)
Fixpoint c_tolist (sh : list nat) (d : list (float * float)) : val :=
  match sh with
  | [] => match d with c :: _ => c_val c | [] => VNone end
  | n :: r => VList (map (c_tolist r) (rows n (size r) d))
  end.

Section JSON.
  Variable E : env.
  (** [str] of a float and of an int in a string array *)
  Variable fstr : float -> string.
  Variable istr : Z -> string.

  (** math.py:235: [str(v) if np.isnan(v) or np.isinf(v) else v] *)
  Definition c_number_json (v : val) : res val :=
    match v with
    | VComplex re im => Ok (if is_special re || is_special im then VStr (e_cstr E re im) else v)
    | _ => number_json v
    end.
  (** math.py:232-235 *)
  Fixpoint c_recurse (v : val) : res val :=
    match v with
    | VList l =>
        rbind (all_ok (match l with VList _ :: _ => map c_recurse l | _ => map c_number_json l end))
              (fun t => Ok (VList t))
    | _ => Exc ExType
    end.
  (** math.py:226-236 *)
  Definition c_to_json (a : carr) : res val := c_recurse (c_tolist (c_shape a) (c_data a)).

  (** Is the item text? *)
  Definition is_str (v : val) : bool := match v with VStr _ => true | _ => false end.
  (** an item as text *)
  Definition c_text (v : val) : res string :=
    match v with
    | VStr s => Ok s
    | VComplex re im => Ok (e_cstr E re im)
    | VBool b => Ok (if b then "True" else "False")
    | VInt z => Ok (istr z)
    | VFloat f => Ok (if is_special f then special_str f else fstr f)
    | _ => Exc ExType
    end.
  (** an item as a complex number *)
  Definition c_item (v : val) : res (float * float) :=
    match v with
    | VComplex re im => Ok (re, im)
    | VFloat f => Ok (f, S754_zero false)
    | VBool b => match fofZ (if b then 1 else 0)%Z with Some f => Ok (f, S754_zero false) | None => Exc ExOverflow end
    | VInt z => match fofZ z with Some f => Ok (f, S754_zero false) | None => Exc ExOverflow end
    | _ => Exc ExType
    end.
  (** the items of [np.array(...).astype(complex)]; [complex(s)] of text *)
  Definition c_items (l : list val) : res (list (float * float)) :=
    if existsb is_str l
    then rbind (all_ok (map c_text l)) (fun ss =>
           all_ok (map (fun s => match e_cparse E s with Some c => Ok c | None => Exc ExValue end) ss))
    else all_ok (map c_item l).
  (** math.py:213-224 of Array without deserializer, if [self.dtype[0]] is complex *)
  Definition c_deserialize (o : aopts) (v : val) : res (option carr) :=
    if is_none v then Ok None
    else match dtype_opt KArray o with
         | DComplex :: _ =>
             match np_shape v with
             | None => Exc ExValue
             | Some sh => rbind (c_items (np_items v)) (fun d => Ok (Some (CA sh d)))
             end
         | _ => Exc ExNotImpl
         end.
End JSON.
