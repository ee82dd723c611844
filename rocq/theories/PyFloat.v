(** IEEE-754 binary64 numbers as Coq's [spec_float] (stdlib SpecFloat, plain
    Gallina, no primitive floats and no axioms), and Python's mixed int/float
    arithmetic used by basic.py. *)
From Verif Require Import PyBase.
From Coq Require Export Floats.SpecFloat.
Open Scope Z_scope.

(** IEEE double: precision. *)
Definition prec : Z := 53.
(** IEEE double: largest exponent. *)
Definition emax : Z := 1024.
(** A Python float. *)
Definition float := spec_float.

(** Python [a - b], [abs(a)], [a < b], [a <= b], [a == b] on floats. *)
Definition fsub (a b : float) : float := SFsub prec emax a b.
(** [abs] *)
Definition fabs (a : float) : float := SFabs a.
(** [a < b] *)
Definition flt (a b : float) : bool := SFltb a b.
(** [a <= b] *)
Definition fle (a b : float) : bool := SFleb a b.
(** [a == b] *)
Definition feq (a b : float) : bool := SFeqb a b.

(** [math.isnan] (basic.py:888) *)
Definition is_nan (a : float) : bool := match a with S754_nan => true | _ => false end.
(** [math.isinf] (basic.py:888) *)
Definition is_inf (a : float) : bool := match a with S754_infinity _ => true | _ => false end.
(** Neither nan nor infinite. *)
Definition is_fin (a : float) : bool := negb (is_nan a || is_inf a).
(** A [spec_float] that is a binary64 datum. *)
Definition valid_float (a : float) : bool := valid_binary prec emax a.

(** [0.0] *)
Definition fzero : float := S754_zero false.

(** [float(z)] for a Python int: round to nearest even; values that round past
    the largest double raise OverflowError (here [None]). *)
Definition fofZ (z : Z) : option float :=
  match binary_normalize prec emax z 0 false with
  | S754_infinity _ => None
  | f => Some f
  end.

(** [int(f)] for a finite float: truncation towards zero. *)
Definition ftrunc (f : float) : Z :=
  match f with
  | S754_finite s m e =>
      let a := if 0 <=? e then Z.pos m * 2 ^ e else Z.pos m / 2 ^ (- e) in
      if s then - a else a
  | _ => 0
  end.

(** basic.py:19 [TOL = 1e-9], the nearest double (0x1.12e0be826d695p-30). *)
Definition TOL : float := S754_finite false 4835703278458517 (-82).

(** Exact comparison of a float with an int, as CPython's [float_richcompare]. *)
Definition fcmpZ (f : float) (z : Z) : option comparison :=
  match f with
  | S754_nan => None
  | S754_infinity s => Some (if s then Lt else Gt)
  | S754_zero _ => Some (0 ?= z)
  | S754_finite s m e =>
      let sm := if s then Z.neg m else Z.pos m in
      Some (if 0 <=? e then sm * 2 ^ e ?= z else sm ?= z * 2 ^ (- e))
  end.

(** Python numbers that occur as bounds: int or float. *)
Inductive num := NZ (z : Z) | NF (f : float).

(** Comparing ints and floats exactly; [None] with nan. *)
Definition ncmp (a b : num) : option comparison :=
  match a, b with
  | NZ x, NZ y => Some (x ?= y)
  | NF x, NF y => SFcompare x y
  | NF x, NZ y => fcmpZ x y
  | NZ x, NF y => option_map CompOpp (fcmpZ y x)
  end.

(** [a < b], ints and floats *)
Definition nlt (a b : num) : bool := match ncmp a b with Some Lt => true | _ => false end.
(** [a <= b], ints and floats *)
Definition nle (a b : num) : bool := match ncmp a b with Some Lt | Some Eq => true | _ => false end.
(** [a > b], ints and floats *)
Definition ngt (a b : num) : bool := nlt b a.
(** [a == b], ints and floats *)
Definition neq_num (a b : num) : bool := match ncmp a b with Some Eq => true | _ => false end.

(** [math.isnan(x) or math.isinf(x)] (basic.py:888). *)
Definition is_special (f : float) : bool := is_nan f || is_inf f.
(** [str(f)] for nan and infinities (basic.py:889). *)
Definition special_str (f : float) : string :=
  match f with
  | S754_nan => "nan"
  | S754_infinity true => "-inf"
  | _ => "inf"
  end%string.

(** * Facts *)
Lemma ncmp_Z x y : ncmp (NZ x) (NZ y) = Some (x ?= y).
Proof. reflexivity. Qed.

Lemma nlt_Z x y : nlt (NZ x) (NZ y) = (x <? y).
Proof. unfold nlt, Z.ltb. simpl. destruct (x ?= y); reflexivity. Qed.
Lemma nle_Z x y : nle (NZ x) (NZ y) = (x <=? y).
Proof. unfold nle, Z.leb. simpl. destruct (x ?= y); reflexivity. Qed.

(** [f - f] is zero for finite floats and nan otherwise. *)
Lemma fsub_self f : is_fin f = true -> exists s, fsub f f = S754_zero s.
Proof.
  destruct f as [s|s| |s m e]; simpl; try discriminate; intros _.
  - destruct s; eexists; reflexivity.
  - unfold fsub, SFsub. rewrite Z.min_id. unfold cond_Zopp.
    replace (if s then - Z.pos (fst (shl_align m e e)) else Z.pos (fst (shl_align m e e)))
      with (if s then - Z.pos (fst (shl_align m e e)) else Z.pos (fst (shl_align m e e))) by reflexivity.
    rewrite Z.sub_diag. unfold binary_normalize. eexists; reflexivity.
Qed.

Lemma fsub_self_special f : is_fin f = false -> fsub f f = S754_nan.
Proof.
  destruct f as [s|s| |s m e]; simpl; try discriminate; intros _; auto.
  destruct s; reflexivity.
Qed.
