(** Property theorems about the small parts modelled in Utils.v: [C21], [C43]
    and the context objects of [C06]. *)
From Verif Require Import World Utils UtilsSpec UtilsFacts.
Local Open Scope string_scope.
Local Open Scope list_scope.
Local Open Scope nat_scope.

(** * C21: filter_props partitions its input *)

(** The input is an interleaving of the two results, so values and order are
    unchanged; the first has exactly the keys that name a property (a Property
    or a Renamed one, if immutable ones are not included), the second the rest. *)
Theorem C21_filter_props_partition : forall A props (input : dict A) incl, NoDup (dkeys input) ->
  let r := filter_props props input incl in
  interleaved (fst r) (snd r) input /\
  (forall k, In k (dkeys (fst r)) <->
     In k (dkeys input) /\ exists d, dget props k = Some d /\ (incl = true \/ pd_kind d = KProp \/ exists nn, pd_kind d = KRenamed nn)) /\
  (forall k, In k (dkeys (snd r)) <-> In k (dkeys input) /\ ~ In k (dkeys (fst r))).
Proof. exact @filter_props_ok. Qed.
Print Assumptions C21_filter_props_partition.
Example C21_filter_props_partition_ex :
  let decl k := PD k (PLeaf LfAny) false DUndef in
  let props := [("a", decl KProp); ("b", decl (KRenamed "a")); ("c", decl KGettable)] in
  let input := [("z", 1); ("c", 2); ("a", 3); ("b", 4)] in
  filter_props props input true = ([("c", 2); ("a", 3); ("b", 4)], [("z", 1)]) /\
  filter_props props input false = ([("a", 3); ("b", 4)], [("z", 1); ("c", 2)]) /\
  interleaved [("a", 3); ("b", 4)] [("z", 1); ("c", 2)] input.
Proof. cbv zeta. split; [reflexivity|]. split; [reflexivity|]. repeat constructor. Qed.

(** * C43: stop_recursion_with *)

(** A method that has returned or raised has released exactly the objects it
    held; in between no body was started for an object that was running, the
    backup was used for running ones only, and bodies were left in reverse
    order. *)
Theorem C43_held_released : forall body backup fuel o a s r s',
  run_once body backup fuel o a s = Some (r, s') ->
  r_held s' = r_held s /\
  exists t, r_trace s' = rev t ++ r_trace s /\ nested (rev (r_held s)) t (rev (r_held s)).
Proof. exact run_proper. Qed.
Print Assumptions C43_held_released.
(** 0 calls 1, which calls 0 again and then raises; 0 handles that and calls 1 again. *)
Definition C43_body (o : nat) (a : val) : rprog :=
  match o with
  | 0 => RCall 1 a (fun r => match r with Ok v => RRet v | Exc _ => RCall 1 (VInt 5) (fun r => match r with Ok v => RRet v | Exc e => RRaise e end) end)
  | _ => RCall 0 a (fun r => match a with VInt _ => RRet (VTuple [a; match r with Ok v => v | Exc _ => VNone end]) | _ => RRaise ExType end)
  end.
Example C43_held_released_ex :
  run_once C43_body (fun _ _ => RRet (VBool true)) 3 0 VNone (RS [] []) =
  Some (Ok (VTuple [VInt 5; VBool true]),
        RS [] (rev [RBody 0; RBody 1; RBackup 0; RDone 1; RBody 1; RBackup 0; RDone 1; RDone 0])) /\
  nested [] [RBody 0; RBody 1; RBackup 0; RDone 1; RBody 1; RBackup 0; RDone 1; RDone 0] [].
Proof. split; [reflexivity|]. repeat (constructor; simpl; try (intuition discriminate)). Qed.
(** Called on an object that is running: exactly the backup. *)
Theorem C43_backup_on_recursion : forall body backup fuel o a s, In o (r_held s) ->
  run_once body backup (S fuel) o a s =
  meaning (run_once body backup fuel) (backup o a) (RS (r_held s) (RBackup o :: r_trace s)).
Proof. exact once_backup. Qed.
Print Assumptions C43_backup_on_recursion.
Example C43_backup_on_recursion_ex :
  run_once C43_body (fun _ _ => RRaise ExSelfRef) 1 1 VNone (RS [0; 1] []) = Some (Exc ExSelfRef, RS [0; 1] [RBackup 1]).
Proof. reflexivity. Qed.
(** Called on any other object: the outcome of the body, run with the object held. *)
Theorem C43_body_otherwise : forall body backup fuel o a s, ~ In o (r_held s) -> forall r s',
  run_once body backup (S fuel) o a s = Some (r, s') <->
  exists s2, meaning (run_once body backup fuel) (body o a) (RS (r_held s ++ [o]) (RBody o :: r_trace s)) = Some (r, s2) /\
    s' = RS (r_held s) (RDone o :: r_trace s2).
Proof. exact once_body. Qed.
Print Assumptions C43_body_otherwise.
Example C43_body_otherwise_ex :
  meaning (run_once C43_body (fun _ _ => RRet VNone) 1) (C43_body 1 VNone) (RS [0; 1] [RBody 1]) =
    Some (Exc ExType, RS [0; 1] [RBackup 0; RBody 1]) /\
  run_once C43_body (fun _ _ => RRet VNone) 2 1 VNone (RS [0] []) = Some (Exc ExType, RS [0] [RDone 1; RBackup 0; RBody 1]).
Proof. split; reflexivity. Qed.
(** With a backup that makes no calls the method ends on every finite graph
    of objects, after at most one level of calls per object and one more. *)
Theorem C43_terminates : forall body backup objs,
  (forall o a, In o objs -> calls_within objs (body o a)) -> (forall o a, constant (backup o a)) ->
  forall o a s, In o objs -> run_once body backup (S (length objs)) o a s <> None.
Proof. exact once_terminates. Qed.
Print Assumptions C43_terminates.
Example C43_terminates_ex :
  (forall o a, In o [0; 1] -> calls_within [0; 1] (C43_body o a)) /\ constant (RRet (VBool true)).
Proof.
  split; [|exact I]. intros o a [<-|[<-|[]]]; simpl; (constructor; [simpl; auto|]); intros [v|e]; try (constructor; fail).
  - constructor; [simpl; auto|]. intros [v|e']; constructor.
  - destruct a; constructor.
  - destruct a; constructor.
Qed.
(** A callable backup that calls the method again never ends. *)
Theorem C43_callable_backup_refuted : exists body backup o,
  (forall o a, calls_within [0] (body o a)) /\ forall fuel a s, run_once body backup fuel o a s = None.
Proof.
  exists (fun _ a => RCall 0 a (fun _ => RRet VNone)), (fun _ a => RCall 0 a (fun _ => RRet VNone)), 0.
  split; [intros; constructor; [simpl; auto|intros; constructor]|]. exact (callable_backup_diverges _ eq_refl).
Qed.
Print Assumptions C43_callable_backup_refuted.

(** * C06: the context objects behind the with statement *)

(** Any code run after any earlier code, where no context object is used inside
    its own block: the modes disabled at each point are those of the enclosing
    blocks, exceptions propagate as usual, and afterwards no mode is disabled. *)
Theorem C06_context_objects : forall types before p, Forall (not_reentered []) before -> not_reentered [] p ->
  let s := fold_left (fun s q => snd (l_run types q s)) before ls_start in
  let '(ok, t, s') := l_run types p s in
  (ok, t) = scoped types p [] /\ ls_modes s' = [] /\ ls_modes s = [].
Proof. exact history. Qed.
Print Assumptions C06_context_objects.
Example C06_context_objects_ex :
  let types c := match c with 0 => Some [MSet] | 1 => None | _ => Some [MValidate] end in
  let before := [LWith 1 LRaise; LWith 0 (LWith 2 LLook)] in
  let p := LSeq (LWith 2 (LSeq (LTry (LWith 0 (LSeq (LWith 1 LLook) (LSeq LLook LRaise)))) LLook)) (LSeq (LWith 0 LLook) LLook) in
  Forall (not_reentered []) before /\ not_reentered [] p /\
  scoped types p [] = (true, [all_modes; [MValidate; MSet]; [MValidate]; [MSet]; []]).
Proof. cbv zeta. split; [repeat constructor; simpl; intuition discriminate|]. split; [simpl; intuition discriminate|reflexivity]. Qed.
(** Used inside its own block, a context object forgets what to go back to:
    all modes stay disabled for good. *)
Theorem C06_reentered_refuted : exists types p,
  let '(ok, t, s) := l_run types p ls_start in ok = true /\ ls_modes s = all_modes /\ all_modes <> [].
Proof. exists (fun _ => None), (LWith 0 (LWith 0 LLook)). simpl. repeat split. discriminate. Qed.
Print Assumptions C06_reentered_refuted.
