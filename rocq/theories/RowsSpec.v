(** Specifications for the rows of VECTOR_DIRECTIONS. *)
From Verif Require Import Rows.
Local Open Scope string_scope.
Local Open Scope list_scope.
Local Open Scope nat_scope.

(** What a direction name means, in three and in two dimensions *)
Definition means3 (x : string) (v : list Z) : Prop :=
  let name := str_upper x in
  (name = "ZERO" /\ v = [0; 0; 0]%Z) \/
  (In name ["X"; "EAST"] /\ v = [1; 0; 0]%Z) \/ (In name ["-X"; "WEST"] /\ v = [-1; 0; 0]%Z) \/
  (In name ["Y"; "NORTH"] /\ v = [0; 1; 0]%Z) \/ (In name ["-Y"; "SOUTH"] /\ v = [0; -1; 0]%Z) \/
  (In name ["Z"; "UP"] /\ v = [0; 0; 1]%Z) \/ (In name ["-Z"; "DOWN"] /\ v = [0; 0; -1]%Z).
Definition means (two : bool) (x : string) (v : list Z) : Prop :=
  if two then exists a b, v = [a; b] /\ means3 x [a; b; 0%Z] else means3 x v.
(** The module has 13 rows. *)
Definition of_module (r : nat) : Prop := r < 13.
(** They are as they were at the import. *)
Definition intact (s : rstate) : Prop := forall r l, of_module r -> nth_error (rs_rows imported) r = Some l -> nth_error (rs_rows s) r = Some l.
(** The rows that the caller has: not of the module, or in one of the caller's lists *)
Definition has (s : rstate) (r : nat) : Prop := ~ of_module r \/ exists l, In l (rs_lists s) /\ In (RRow r) l.
(** The caller uses and changes such rows only. *)
Definition caller (s : rstate) (a : ract) : Prop :=
  match a with
  | RNewList l | RChangeList _ l => forall r, In (RRow r) l -> has s r
  | RChange r _ => has s r
  | _ => True
  end.
Fixpoint callers (s : rstate) (l : list ract) : Prop :=
  match l with [] => True | a :: t => caller s a /\ callers (act s a) t end.
(** What an item of the caller's list stands for *)
Definition reads (s : rstate) (two : bool) (i : ritem) (v : list Z) : Prop :=
  match i with RStr x => means two x v | RRow r => nth_error (rs_rows s) r = Some v end.
(** The item of the caller's list afterwards: rows stay, names become rows, of the
    module in three dimensions, new ones in two. *)
Definition becomes (s : rstate) (two : bool) (i j : ritem) : Prop :=
  match i with
  | RRow r => j = i
  | RStr x => exists r, j = RRow r /\ if two then length (rs_rows s) <= r else of_module r
  end.
(** All rows in the caller's lists exist. *)
Definition exist (s : rstate) : Prop := forall l r, In l (rs_lists s) -> In (RRow r) l -> r < length (rs_rows s).
