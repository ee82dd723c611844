(** Property theorems about histories of File properties, [C50]. *)
From Verif Require Import Files FileRunsSpec FileRunsFacts.
Local Open Scope string_scope.
Local Open Scope list_scope.
Local Open Scope nat_scope.

(** In every history of assignments and deletions, a file is closed once for every
    deletion of the property while it is stored, and otherwise stays as it was. *)
Theorem C50_history : forall fs o i l s f, nth_error (fs_heap s) i = Some f -> f_close f = true ->
  exists n g, deletions (file_validate fs o) i l s n /\
    nth_error (fs_heap (fruns (file_validate fs o) l s)) i = Some g /\ closed_times n f g.
Proof.
  intros fs o i l s f F C. destruct (deletions_exist (file_validate fs o) i l s) as (n & D).
  destruct (history fs o i l s n D f F C) as (g & G & K). exists n, g. auto.
Qed.
Print Assumptions C50_history.
(** So assignments alone close no file. *)
Theorem C50_assignments : forall fs o l s i f, (forall veto, ~ In (FDel veto) l) -> nth_error (fs_heap s) i = Some f ->
  nth_error (fs_heap (fruns (file_validate fs o) l s)) i = Some f.
Proof. exact assignments_keep. Qed.
Print Assumptions C50_assignments.
(** ImagePNG takes a copy of the whole file, and closes the file. *)
Theorem C50_png_takes : forall fs o i f h r h', nth_error h i = Some f -> f_marked f = false -> png_validate fs o (VObj i) h = (LOk r, h') ->
  r = VObj (length h) /\
  (exists g, nth_error h' i = Some g /\ f_closes g = S (f_closes f) /\ (f_closed f <> None -> f_closed g = Some true)) /\
  (exists c, nth_error h' (length h) = Some c /\ f_bytes c = f_bytes f /\ f_pos c = 0 /\ f_closed c = Some false /\ f_closes c = 0) /\
  (forall j, j <> i -> j < length h -> nth_error h' j = nth_error h j).
Proof. exact png_takes. Qed.
Print Assumptions C50_png_takes.

Definition X_fs (name mode : string) : opened := if String.eqb name "missing" then OpenFails else Opened mode [1; 2]%Z 0.
Definition X_val := file_validate X_fs (MO (Some "r") None).
Definition X_file (closed : bool) (closes : nat) : fobj := FO true true true (Some (VStr "r")) (Some closed) false [1; 2]%Z 0 closes.
(** Stored, deleted with a veto, deleted, stored again (it is rejected, being closed) *)
Example C50_history_ex :
  let l := [FSet (VObj 0) None; FDel (Some (ExUser 1)); FDel None; FSet (VObj 0) None; FSet (VStr "a") None; FSet (VStr "missing") None; FDel None] in
  deletions X_val 0 l (FS None [X_file false 0]) 2 /\
  fruns X_val l (FS None [X_file false 0]) = FS None [X_file true 2; X_file true 1].
Proof.
  cbv zeta. split; [|reflexivity].
  apply D_set, D_del; [reflexivity|]. apply D_del; [reflexivity|]. apply D_set, D_set, D_set.
  apply D_other; [discriminate|]. constructor.
Qed.
Example C50_png_takes_ex :
  let bs := [137; 80; 78; 71; 13; 10; 26; 10; 5]%Z in
  png_validate X_fs (MO (Some "rb") None) (VObj 0) [FO true true true None (Some false) false bs 0 0] =
  (LOk (VObj 1), [FO true true true None (Some true) false bs 9 1; FO true true true None (Some false) true bs 0 0]).
Proof. reflexivity. Qed.
(** A file opened for an assignment stays open when another is assigned, and nothing
    leads to it any more: it is not what the property holds, nor what the caller gave. *)
Theorem C50_replaced_refuted : exists fs o a b f,
  let s := fruns (file_validate fs o) [FSet (VStr a) None; FSet (VStr b) None; FDel None] (FS None []) in
  fs_slot s = None /\ nth_error (fs_heap s) 0 = Some f /\ f_closed f = Some false.
Proof. exists X_fs, (MO (Some "r") None), "a", "b", (X_file false 0). repeat split. Qed.
Print Assumptions C50_replaced_refuted.
