(** Histories of an instance with a File or ImagePNG. *)
From Verif Require Import Files.
Local Open Scope string_scope.
Local Open Scope list_scope.
Local Open Scope nat_scope.

(** Assignments and deletions, with the exception of a listener if one raises *)
Inductive fop := FSet (v : val) (veto : option exn) | FDel (veto : option exn).
(** basic.py:673-677, 1368-1372: one of them *)
Definition fstep (validate : val -> fheap -> lres * fheap) (a : fop) (s : fstate) : fstate :=
  match a with FSet v veto => snd (file_set validate v veto s) | FDel veto => snd (file_del veto s) end.
Fixpoint fruns (validate : val -> fheap -> lres * fheap) (l : list fop) (s : fstate) : fstate :=
  match l with [] => s | a :: t => fruns validate t (fstep validate a s) end.
(** The history closed the object [i] by deleting the property [n] times. *)
Inductive deletions (validate : val -> fheap -> lres * fheap) (i : nat) : list fop -> fstate -> nat -> Prop :=
| D_nil s : deletions validate i [] s 0
| D_set v veto t s n : deletions validate i t (fstep validate (FSet v veto) s) n -> deletions validate i (FSet v veto :: t) s n
| D_del veto t s n : fs_slot s = Some (VObj i) -> deletions validate i t (fstep validate (FDel veto) s) n -> deletions validate i (FDel veto :: t) s (S n)
| D_other veto t s n : fs_slot s <> Some (VObj i) -> deletions validate i t (fstep validate (FDel veto) s) n -> deletions validate i (FDel veto :: t) s n.
(** The same file, closed [n] times more *)
Definition closed_times (n : nat) (f g : fobj) : Prop :=
  f_closes g = n + f_closes f /\ f_closed g = (if n =? 0 then f_closed f else match f_closed f with Some _ => Some true | None => None end) /\
  f_bytes g = f_bytes f /\ f_pos g = f_pos f /\ f_mode g = f_mode f /\ f_marked g = f_marked f /\
  f_read g = f_read f /\ f_seek g = f_seek f /\ f_close g = f_close f.
