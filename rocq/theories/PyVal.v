(** Python values, equality, truth, hashing, and the conversions
    [int()], [float()], [complex()], [bool()], [list()] used by basic.py. *)
From Verif Require Import PyBase PyFloat.
Open Scope Z_scope.

(** A naive [datetime.datetime]; timezone-aware values are outside the model (basic.py:1225-1263). *)
Record datetime := DT { dyear : Z; dmonth : Z; dday : Z; dhour : Z; dmin : Z; dsec : Z; dmicro : Z }.

(** Python objects.  [VUndef] is utils.py:185 [undefined]; [VInst l] is the
    HasProperties instance at heap location [l]; [VObj n] is any other opaque
    object.  Containers are immutable mathematical values here (their heap
    identity matters only for containers.py and is modelled in Observable.v);
    [VSet] and [VDict] list their elements in iteration order.  Two nan values
    cannot be told apart by identity. *)
Inductive val :=
| VNone | VUndef
| VBool (b : bool) | VInt (z : Z) | VFloat (f : float) | VComplex (re im : float)
| VStr (s : string) | VDate (d : datetime) | VUuid (n : N) | VObj (n : nat)
| VTuple (l : list val) | VList (l : list val) | VSet (l : list val)
| VDict (l : list (val * val))
| VInst (l : nat).

(** [==] of datetimes (basic.py:264-275) *)
Definition dt_eqb (a b : datetime) : bool :=
  (dyear a =? dyear b) && (dmonth a =? dmonth b) && (dday a =? dday b) &&
  (dhour a =? dhour b) && (dmin a =? dmin b) && (dsec a =? dsec b) && (dmicro a =? dmicro b).

(** The numeric view used by [==] and arithmetic: bool is a subclass of int (basic.py:813-823). *)
Definition as_num (v : val) : option num :=
  match v with
  | VBool b => Some (NZ (if b then 1 else 0))
  | VInt z => Some (NZ z)
  | VFloat f => Some (NF f)
  | _ => None
  end.

(** [a == b]. HasProperties defines no [__eq__], so instances compare by identity (basic.py:264-275). *)
Fixpoint py_eq (a b : val) {struct a} : bool :=
  let fix eql (l1 l2 : list val) {struct l1} : bool :=
    match l1, l2 with
    | [], [] => true
    | x :: r1, y :: r2 => py_eq x y && eql r1 r2
    | _, _ => false
    end in
  match a, b with
  | VNone, VNone | VUndef, VUndef => true
  | VStr s, VStr t => String.eqb s t
  | VDate d, VDate e => dt_eqb d e
  | VUuid m, VUuid n => N.eqb m n
  | VObj m, VObj n => Nat.eqb m n
  | VInst m, VInst n => Nat.eqb m n
  | VTuple l, VTuple k => eql l k
  | VList l, VList k => eql l k
  | VSet l, VSet k => Nat.eqb (length l) (length k) && forallb (fun x => existsb (fun y => py_eq x y) k) l
  | VDict l, VDict k =>
      Nat.eqb (length l) (length k) &&
      forallb (fun p => existsb (fun q => py_eq (fst p) (fst q) && py_eq (snd p) (snd q)) k) l
  | VComplex r i, VComplex r' i' => feq r r' && feq i i'
  | VComplex r i, _ =>
      match as_num b with
      | Some n => neq_num (NF r) n && neq_num (NF i) (NZ 0)
      | None => false
      end
  | _, VComplex r i =>
      match as_num a with
      | Some n => neq_num n (NF r) && neq_num (NF i) (NZ 0)
      | None => false
      end
  | _, _ =>
      match as_num a, as_num b with
      | Some m, Some n => neq_num m n
      | _, _ => false
      end
  end.

(** [a is b] for the values where identity is determined by the value
    (singletons, instances); for other immutable values identity is
    represented by equality of contents (basic.py:740-741). *)
Definition py_is (a b : val) : bool :=
  match a, b with
  | VNone, VNone | VUndef, VUndef => true
  | VBool x, VBool y => Bool.eqb x y
  | VInt x, VInt y => x =? y
  | VInst m, VInst n => Nat.eqb m n
  | VObj m, VObj n => Nat.eqb m n
  | VBool _, _ | _, VBool _ | VInt _, _ | _, VInt _ | VInst _, _ | _, VInst _ => false
  | VObj _, _ | _, VObj _ | VNone, _ | _, VNone | VUndef, _ | _, VUndef => false
  | _, _ => py_eq a b
  end.

(** [v is None] (basic.py:298) *)
Definition is_none (v : val) : bool := match v with VNone => true | _ => false end.
(** [v is undefined] (utils.py:185) *)
Definition is_undef (v : val) : bool := match v with VUndef => true | _ => false end.

(** [bool(v)] (basic.py:732-738) *)
Definition truthy (v : val) : bool :=
  match v with
  | VNone => false
  | VUndef => true
  | VBool b => b
  | VInt z => negb (z =? 0)
  | VFloat f => negb (feq f fzero)
  | VComplex r i => negb (feq r fzero && feq i fzero)
  | VStr s => negb (String.eqb s "")
  | VTuple [] | VList [] | VSet [] | VDict [] => false
  | _ => true
  end.

(** [hash(v)] does not raise TypeError (base/containers.py:281). *)
Fixpoint hashable (v : val) : bool :=
  match v with
  | VList _ | VSet _ | VDict _ => false
  | VTuple l => forallb hashable l
  | _ => true
  end.

(** Iteration over a value, as [list(v)] / [for x in v]; TypeError if the
    value is not iterable (base/containers.py:276). *)
Definition py_iter (v : val) : res (list val) :=
  match v with
  | VTuple l | VList l | VSet l => Ok l
  | VDict l => Ok (map fst l)
  | VStr s => Ok (map (fun c => VStr (String c EmptyString)) (chars s))
  | _ => Exc ExType
  end.

(** [v in l] (basic.py:747-749) *)
Definition mem_val (v : val) (l : list val) : bool := existsb (fun x => py_eq x v) l.

(** [set(iterable)] on a list of elements: first occurrences, TypeError on an
    unhashable element (base/containers.py:281). *)
Fixpoint dedup (l : list val) (acc : list val) : list val :=
  match l with
  | [] => acc
  | x :: r => dedup r (if mem_val x acc then acc else acc ++ [x])
  end.
(** [set(l)] (base/containers.py:281) *)
Definition py_set (l : list val) : res (list val) :=
  if forallb hashable l then Ok (dedup l []) else Exc ExType.

(** [d[k] = v] on an insertion-ordered dict whose keys compare with [==];
    an existing key is kept and its value replaced. *)
Fixpoint vd_set (d : list (val * val)) (k v : val) : list (val * val) :=
  match d with
  | [] => [(k, v)]
  | (k', v') :: r => if py_eq k' k then (k', v) :: r else (k', v') :: vd_set r k v
  end.
(** [d.get(k)] *)
Fixpoint vd_get (d : list (val * val)) (k : val) : option val :=
  match d with
  | [] => None
  | (k', v') :: r => if py_eq k' k then Some v' else vd_get r k
  end.

(** Behaviour of CPython that the library calls and the model does not define:
    [float(str)], [complex(str)], [str(complex)], whether the platform's
    [strftime] pads [%Y] to four digits (glibc does not), and random choices.
    Theorems quantify over every such record. *)
Record env := Env {
  e_fparse : string -> option float;
  e_cparse : string -> option (float * float);
  e_cstr : float -> float -> string;
  e_padyear : bool;
  e_rand : nat -> nat
}.

(** [int(v)] (basic.py:814) *)
Definition py_int (v : val) : res Z :=
  match v with
  | VBool b => Ok (if b then 1 else 0)
  | VInt z => Ok z
  | VFloat f => if is_nan f then Exc ExValue else if is_inf f then Exc ExOverflow else Ok (ftrunc f)
  | VStr s => match parse_int 10 s with Some z => Ok z | None => Exc ExValue end
  | VUuid n => Ok (Z.of_N n)
  | _ => Exc ExType
  end.

(** [float(n)] of an int or a float (basic.py:868) *)
Definition py_float_num (n : num) : res float :=
  match n with
  | NF f => Ok f
  | NZ z => match fofZ z with Some f => Ok f | None => Exc ExOverflow end
  end.

(** [float(v)] (basic.py:868, 894) *)
Definition py_float (E : env) (v : val) : res float :=
  match v with
  | VStr s => match e_fparse E s with Some f => Ok f | None => Exc ExValue end
  | _ => match as_num v with Some n => py_float_num n | None => Exc ExType end
  end.

(** [complex(v)] (basic.py:915, 943) *)
Definition py_complex (E : env) (v : val) : res (float * float) :=
  match v with
  | VComplex r i => Ok (r, i)
  | VStr s => match e_cparse E s with Some c => Ok c | None => Exc ExValue end
  | _ =>
      match as_num v with
      | Some n => rbind (py_float_num n) (fun f => Ok (f, fzero))
      | None => Exc ExType
      end
  end.

(** [abs(a - b)] for int and float operands; mixed operands convert the int
    with [float()], which may overflow (basic.py:815, 869, 882). *)
Definition absdiff (a b : num) : res num :=
  match a, b with
  | NZ x, NZ y => Ok (NZ (Z.abs (x - y)))
  | _, _ =>
      rbind (py_float_num a) (fun x =>
      rbind (py_float_num b) (fun y => Ok (NF (fabs (fsub x y)))))
  end.

(** * Size, for induction over nested values *)
Section ValInd.
  Variable P : val -> Prop.
  Hypothesis Hleaf : forall v,
    match v with VTuple _ | VList _ | VSet _ | VDict _ => False | _ => True end -> P v.
  Hypothesis Htup : forall l, Forall P l -> P (VTuple l).
  Hypothesis Hlist : forall l, Forall P l -> P (VList l).
  Hypothesis Hset : forall l, Forall P l -> P (VSet l).
  Hypothesis Hdict : forall l, Forall (fun p => P (fst p) /\ P (snd p)) l -> P (VDict l).
  Fixpoint val_ind' (v : val) : P v :=
    let fix go (l : list val) : Forall P l :=
      match l with
      | [] => Forall_nil _
      | x :: r => Forall_cons x (val_ind' x) (go r)
      end in
    let fix god (l : list (val * val)) : Forall (fun p => P (fst p) /\ P (snd p)) l :=
      match l with
      | [] => Forall_nil _
      | p :: r => Forall_cons p (conj (val_ind' (fst p)) (val_ind' (snd p))) (god r)
      end in
    match v with
    | VTuple l => Htup l (go l)
    | VList l => Hlist l (go l)
    | VSet l => Hset l (go l)
    | VDict l => Hdict l (god l)
    | VNone => Hleaf VNone I
    | VUndef => Hleaf VUndef I
    | VBool b => Hleaf (VBool b) I
    | VInt b => Hleaf (VInt b) I
    | VFloat b => Hleaf (VFloat b) I
    | VComplex a b => Hleaf (VComplex a b) I
    | VStr b => Hleaf (VStr b) I
    | VDate b => Hleaf (VDate b) I
    | VUuid b => Hleaf (VUuid b) I
    | VObj b => Hleaf (VObj b) I
    | VInst b => Hleaf (VInst b) I
    end.
End ValInd.
