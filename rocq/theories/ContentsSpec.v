(** Specifications for the contents of arrays. *)
From Verif Require Import Contents BasicSpec TextSpec.
Local Open Scope string_scope.
Local Open Scope list_scope.
Local Open Scope nat_scope.

(** An item of an array of that dtype *)
Inductive elt_in : adt -> elt -> Prop :=
| ei_bool b : elt_in TBool (EB b)
| ei_int z : (- 2 ^ 63 <= z < 2 ^ 63)%Z -> elt_in TInt (EI z)
| ei_float f : valid_float f = true -> elt_in TFloat (EF f)
| ei_str s : elt_in TStr (ES s).
(** An array: as many items as the shape says, all of the dtype *)
Definition wf (a : nda) : Prop :=
  length (n_data a) = fold_right Nat.mul 1 (n_shape a) /\ Forall (elt_in (n_type a)) (n_data a).
(** [x] is the item with index [i], as a double *)
Definition float_at (a : nda) (i : nat) (x : float) : Prop :=
  exists e, nth_error (n_data a) i = Some e /\ elt_float e = Some x.
(** What equality of arrays asks of two doubles: both nan, the same infinity, or
    finite with a difference of at most 1e-9 + 1e-5 |y| in double arithmetic. *)
Inductive alike : float -> float -> Prop :=
| al_nan : alike S754_nan S754_nan
| al_inf s : alike (S754_infinity s) (S754_infinity s)
| al_fin x y : is_fin x = true -> is_fin y = true ->
    SFleb (SFabs (SFsub 53 1024 x y))
          (SFadd 53 1024 TOL (SFmul 53 1024 (S754_finite false 5902958103587057 (-69)) (SFabs y))) = true ->
    alike x y.
(** A shape that nested lists can tell: at least one dimension, and none but the
    last is empty *)
Definition listable (sh : list nat) : Prop :=
  exists pre n, sh = pre ++ [n] /\ Forall (fun m => m <> 0) pre.
(** Doubles written as strings are read back. *)
Definition reads_back (E : env) (fstr : float -> string) : Prop :=
  reads_special E /\ forall f, valid_float f = true -> is_special f = false -> e_fparse E (fstr f) = Some f.
(** JSON: lists, numbers that JSON has, booleans, strings *)
Inductive plain_json : val -> Prop :=
| pj_bool b : plain_json (VBool b)
| pj_int z : plain_json (VInt z)
| pj_float f : is_fin f = true -> plain_json (VFloat f)
| pj_str s : plain_json (VStr s)
| pj_list l : Forall plain_json l -> plain_json (VList l).

(** ** Reading nested lists *)
(** [v] is nested lists of the shape with these items in row-major order; a list
    without items ends the shape. *)
Inductive nested : list nat -> val -> list val -> Prop :=
| ns_item v : (forall l, v <> VList l) -> nested [] v [v]
| ns_empty : nested [0] (VList []) []
| ns_list s l items : l <> [] -> Forall2 (nested s) l items -> nested (length l :: s) (VList l) (concat items).
(** The dtype of one item, and the order bool, int, float, string *)
Inductive kind : val -> adt -> Prop :=
| ki_bool b : kind (VBool b) TBool
| ki_int z : kind (VInt z) TInt
| ki_float f : kind (VFloat f) TFloat
| ki_str s : kind (VStr s) TStr.
Definition upto (t : adt) : list adt :=
  match t with TBool => [TBool] | TInt => [TBool; TInt] | TFloat => [TBool; TInt; TFloat] | TStr => [TBool; TInt; TFloat; TStr] end.
(** The dtype of the items: the largest *)
Definition common (items : list val) (t : adt) : Prop :=
  (items = [] /\ t = TFloat) \/
  ((exists v, In v items /\ kind v t) /\ forall v, In v items -> exists u, kind v u /\ In u (upto t)).
Definition int64 (z : Z) : Prop := (- 2 ^ 63 <= z < 2 ^ 63)%Z.
(** 1.0 and 0.0 *)
Definition bool_double (b : bool) : float := if b then S754_finite false (2 ^ 52) (-52) else S754_zero false.

Section Read.
  Variable E : env.
  Variable fstr : float -> string.
  Variable istr : Z -> string.
  Variable fint : float -> Z.
  Variable sbool : string -> res bool.

  Inductive text : val -> string -> Prop :=
  | te_true : text (VBool true) "True"
  | te_false : text (VBool false) "False"
  | te_int z : text (VInt z) (istr z)
  | te_special f : is_special f = true -> text (VFloat f) (special_str f)
  | te_float f : is_special f = false -> text (VFloat f) (fstr f)
  | te_str s : text (VStr s) s.
  (** The item in an array of that dtype *)
  Inductive held : adt -> val -> elt -> Prop :=
  | he_bool b : held TBool (VBool b) (EB b)
  | he_bool_int b : held TInt (VBool b) (EI (Z.b2z b))
  | he_int z : int64 z -> held TInt (VInt z) (EI z)
  | he_bool_float b : held TFloat (VBool b) (EF (bool_double b))
  | he_int_float z f : fofZ z = Some f -> held TFloat (VInt z) (EF f)
  | he_float f : held TFloat (VFloat f) (EF f)
  | he_text v s : text v s -> held TStr v (ES s).
  (** The item after a conversion to the first dtype of the property *)
  Inductive converted : adt -> elt -> elt -> Prop :=
  | co_bool b : converted TBool (EB b) (EB b)
  | co_int_bool z b : (b = true <-> z <> 0%Z) -> converted TBool (EI z) (EB b)
  | co_float_bool f b : (b = true <-> forall s, f <> S754_zero s) -> converted TBool (EF f) (EB b)
  | co_str_bool s b : sbool s = Ok b -> converted TBool (ES s) (EB b)
  | co_bool_int b : converted TInt (EB b) (EI (Z.b2z b))
  | co_int z : converted TInt (EI z) (EI z)
  | co_float_int f : is_special f = false -> int64 (ftrunc f) -> converted TInt (EF f) (EI (ftrunc f))
  | co_float_undefined f : is_special f = true \/ ~ int64 (ftrunc f) -> converted TInt (EF f) (EI (fint f))
  | co_str_int s z : int_text 10 (chars s) z -> int64 z -> converted TInt (ES s) (EI z)
  | co_bool_float b : converted TFloat (EB b) (EF (bool_double b))
  | co_int_float z f : fofZ z = Some f -> converted TFloat (EI z) (EF f)
  | co_float f : converted TFloat (EF f) (EF f)
  | co_str_float s f : e_fparse E s = Some f -> converted TFloat (ES s) (EF f).
End Read.
(** The first dtype *)
Definition first_dtype (o : aopts) (t : adt) : Prop :=
  exists d r, dtype_opt KArray o = d :: r /\ In (d, t) [(DInt, TInt); (DFloat, TFloat); (DBool, TBool)].
(** ** Vectors *)
Inductive vec_shape : akind -> list nat -> Prop :=
| vs_3 : vec_shape KVec3 [3]
| vs_2 : vec_shape KVec2 [2]
| vs_3s n : vec_shape KVec3Array [n; 3]
| vs_2s n : vec_shape KVec2Array [n; 2].
(** What is asked of the constructor of the class: lists of finite doubles of the
    shape give the vector, or vectors, of these doubles. *)
Definition makes_vectors (wrap : val -> res nda) (k : akind) : Prop :=
  forall sh v fs, vec_shape k sh -> nested sh v (map VFloat fs) -> Forall (fun f => is_fin f = true) fs ->
    wrap v = Ok (NDA k TFloat sh (map EF fs)).
