(** Property theorems about the lists in VECTOR_DIRECTIONS, [C80]. *)
From Verif Require Import Rows RowsSpec RowsFacts.
Local Open Scope string_scope.
Local Open Scope list_scope.
Local Open Scope nat_scope.

(** While the rows of the module are as imported, names have their meaning, for
    vectors and for arrays of vectors; other strings are errors. *)
Theorem C80_vector : forall s two x v, intact s -> (vector s two x = Some v <-> means two x v).
Proof. exact vector_iff. Qed.
Print Assumptions C80_vector.
Theorem C80_array : forall s two n l rows, intact s -> exist s -> nth_error (rs_lists s) n = Some l ->
  (fst (array s two n) = Some rows <-> Forall2 (reads s two) l rows).
Proof. exact array_iff. Qed.
Print Assumptions C80_array.
(** A list assigned to an array of vectors gets rows in place of its names: in three
    dimensions the rows of the module, in two new ones.  No row is changed. *)
Theorem C80_effect : forall s two n l, intact s -> exist s -> nth_error (rs_lists s) n = Some l ->
  let s' := snd (array s two n) in
  (forall r x, nth_error (rs_rows s) r = Some x -> nth_error (rs_rows s') r = Some x) /\
  (forall m, m <> n -> nth_error (rs_lists s') m = nth_error (rs_lists s) m) /\
  (fst (array s two n) <> None -> exists u, nth_error (rs_lists s') n = Some u /\ Forall2 (becomes s two) l u).
Proof. exact array_effect. Qed.
Print Assumptions C80_effect.
(** The rows of the module change by the hand of the caller only ... *)
Theorem C80_untouched : forall l s, intact s ->
  Forall (fun a => forall r w, a = RChange r w -> ~ of_module r) l -> intact (acts l s).
Proof. exact untouched. Qed.
Print Assumptions C80_untouched.
(** ... who has none of them unless a list was assigned to a Vector3Array. *)
Theorem C80_private : forall l, callers imported l -> (forall n, ~ In (RArray false n) l) -> intact (acts l imported).
Proof. exact private. Qed.
Print Assumptions C80_private.

(** v = ['x', [7, 8, 9], 'Down'], and w = ['south', 'zero'] *)
Definition X_acts : list ract :=
  [RNewRow [7; 8; 9]%Z; RNewList [RStr "x"; RRow 13; RStr "Down"]; RNewList [RStr "south"; RStr "zero"]].
Definition X : rstate := acts X_acts imported.
Example C80_ex : intact X /\ exist X /\ callers imported X_acts /\
  fst (array X false 0) = Some [[1; 0; 0]; [7; 8; 9]; [0; 0; -1]]%Z /\ fst (array X true 0) = None /\
  fst (array X true 1) = Some [[0; -1]; [0; 0]]%Z /\
  rs_lists (snd (array X false 0)) = [[RRow 1; RRow 13; RRow 12]; [RStr "south"; RStr "zero"]] /\
  rs_lists (snd (array X true 1)) = [[RStr "x"; RRow 13; RStr "Down"]; [RRow 14; RRow 15]] /\
  vector X false "Up" = Some [0; 0; 1]%Z /\ vector X true "Up" = None /\ vector X true "West" = Some [-1; 0]%Z.
Proof.
  split; [apply C80_untouched; [intros r l _ H; exact H|repeat constructor; discriminate]|].
  split; [intros l r [<-|[<-|[]]] H; vm_compute in H; vm_compute; intuition; try discriminate; match goal with H : _ = RRow _ |- _ => injection H as <- end; repeat constructor|].
  split; [vm_compute; intuition; try discriminate; match goal with H : _ = RRow _ |- _ => injection H as <- end; left; intros H; repeat apply le_S_n in H; inversion H|].
  repeat split; vm_compute; reflexivity.
Qed.
(** Changes of its own rows, after assignments to two-dimensional arrays *)
Example C80_private_ex :
  callers imported [RNewList [RStr "x"; RStr "y"]; RArray true 0; RChange 13 [5; 5]%Z; RVector false "x"] /\
  rs_lists (acts [RNewList [RStr "x"; RStr "y"]; RArray true 0; RChange 13 [5; 5]%Z] imported) = [[RRow 13; RRow 14]].
Proof.
  split; [|vm_compute; reflexivity]. cbn [callers caller]. split; [intros r [H|[H|[]]]; discriminate|]. split; [exact I|].
  split; [|auto]. right. exists [RRow 13; RRow 14]. split; [left; vm_compute; reflexivity|now left].
Qed.
(** After v = ['x'] was assigned to a Vector3Array, v[0][0] = 5 changes what 'x' means
    for all vectors. *)
Theorem C80_shared_refuted : exists l, callers imported l /\
  vector (acts l imported) false "x" = Some [5; 0; 0]%Z /\ vector (acts l imported) true "X" = Some [5; 0]%Z /\
  ~ means false "x" [5; 0; 0]%Z.
Proof.
  exists [RNewList [RStr "x"]; RArray false 0; RChange 1 [5; 0; 0]%Z].
  split.
  - cbn [callers caller]. split; [intros r [H|[]]; discriminate|]. split; [exact I|]. split; [|exact I].
    right. exists [RRow 1]. split; [left; vm_compute; reflexivity|now left].
  - split; [vm_compute; reflexivity|]. split; [vm_compute; reflexivity|].
    intros H. rewrite <- (C80_vector imported false "x" _ (fun r l _ H => H)) in H. vm_compute in H. discriminate.
Qed.
Print Assumptions C80_shared_refuted.
