(** Specifications for the JSON of complex arrays. *)
From Verif Require Import CArrays ContentsSpec BasicSpec.
Local Open Scope string_scope.
Local Open Scope list_scope.
Local Open Scope nat_scope.

(** As many items as the shape says *)
Definition c_wf (a : carr) : Prop := length (c_data a) = fold_right Nat.mul 1 (c_shape a).
(** One of the parts is nan or infinite. *)
Definition unusual (c : float * float) : Prop := is_fin (fst c) = false \/ is_fin (snd c) = false.
(** [complex(str(c))] is [c], for the items of the array. *)
Definition reads_complex (E : env) (a : carr) : Prop :=
  forall re im, In (re, im) (c_data a) -> e_cparse E (e_cstr E re im) = Some (re, im).
(** The item in the lists *)
Inductive c_written (E : env) : float * float -> val -> Prop :=
| cw_text re im : unusual (re, im) -> c_written E (re, im) (VStr (e_cstr E re im))
| cw_same re im : ~ unusual (re, im) -> c_written E (re, im) (VComplex re im).
