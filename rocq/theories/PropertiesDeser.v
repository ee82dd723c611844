(** Property theorems about the silence of deserialization (C20).  [unheard w w'] says that no
    listener was called between the states, and that the same modes are disabled in both. *)
From Verif Require Import World WorldSpec WorldExample DeserSpec DeserFacts DeserExample.
Local Open Scope string_scope.
Local Open Scope list_scope.
Local Open Scope nat_scope.

(** ** C20: deserialization is silent *)
(** No listener is called by deserialize without [assert_valid], whether it
    succeeds or raises, whatever the input and the listeners and validators are,
    if Unions that hold instances are not strict about them, dynamic and
    gettable properties hold no instances and their default factories only
    compute a value. *)
Theorem C20_deserialize_is_silent : forall E C U, wf_ctab C -> calm_table C -> calm_defaults C U ->
  forall n cid v o w r w', o_valid o = false -> exec E C U n (COp (ODeser cid v o)) w = (r, w') -> unheard w w'.
Proof. exact deserialize_unheard. Qed.
Print Assumptions C20_deserialize_is_silent.
Example C20_deserialize_is_silent_ex :
  wf_ctab C1 /\ calm_table C1 /\ calm_defaults C1 U1 /\ wf_ctab C8 /\ calm_table C8 /\ calm_defaults C8 U7 /\
  fst (exec E1 C1 U1 20 (COp (ODeser 0 j_pt (DOpt false false false))) w_empty) = Ok (VInst 2) /\
  fst (exec E1 C1 U1 20 (COp (ODeser 0 (VDict [(VStr "x", VInt 11)]) (DOpt false false false))) w_empty) =
    Exc (ExValidation [ET (Some "invalid") (Some "x") (Some 0)]) /\
  fst (exec E1 C8 U7 20 (COp (ODeser 1 (VDict [(VStr "a", j_leaf 5)]) (DOpt false false false))) w_empty) = Ok (VInst 1) /\
  (* the constructor calls them *)
  (exists r w', exec E1 C1 U1 20 (COp (ONew 0 (Some [("x", VInt 5)]))) w_empty = (r, w') /\ ~ unheard w_empty w').
Proof.
  split; [exact wf_C1|]. split; [exact calm_C1|]. split; [exact calm_U1|]. split; [exact wf_C8|]. split; [exact calm_C8|]. split; [exact calm_U8|].
  split; [vm_compute; reflexivity|]. split; [vm_compute; reflexivity|]. split; [vm_compute; reflexivity|].
  eexists _, _. split; [vm_compute; reflexivity|]. intros (_ & new & S & F). unfold since in S. cbn in S. rewrite app_nil_r in S. subst new.
  rewrite Forall_forall in F. eapply F; [left; reflexivity|exact I].
Qed.

(** copy() calls none once it has serialized the original. *)
Theorem C20_copy_is_silent : forall E C U, wf_ctab C -> calm_table C -> calm_defaults C U -> forall n l i w r1 w1 r w',
  nth_error (w_heap w) l = Some i ->
  exec E C U n (COp (OSer l (SOpt true false))) w = (r1, w1) ->
  exec E C U (S n) (COp (OCopy l)) w = (r, w') -> unheard w1 w'.
Proof. exact copy_unheard. Qed.
Print Assumptions C20_copy_is_silent.
Example C20_copy_is_silent_ex :
  (exists i, nth_error (w_heap w_one) 0 = Some i) /\ fst (exec E1 C1 U1 20 (COp (OCopy 0)) w_one) = Ok (VInst 1).
Proof. split; [eexists; vm_compute; reflexivity|vm_compute; reflexivity]. Qed.

(** With [assert_valid] the result is validated after it was built silently. *)
Theorem C20_validated_after_building : forall E C U, wf_ctab C -> calm_table C -> calm_defaults C U -> forall n cid v t s w r w',
  exec E C U (S n) (COp (ODeser cid v (DOpt t s true))) w = (r, w') ->
  exists r1 w1, exec E C U (S n) (COp (ODeser cid v (DOpt t s false))) w = (r1, w1) /\ unheard w w1 /\
    match r1 with
    | Exc e => r = Exc e /\ w' = w1
    | Ok x => exists l r2, x = VInst l /\ exec E C U n (COp (OValidate l)) w1 = (r2, w') /\
        r = match r2 with Ok _ => Ok x | Exc e => Exc e end
    end.
Proof. exact deserialize_valid. Qed.
Print Assumptions C20_validated_after_building.
Example C20_validated_after_building_ex :
  fst (exec E1 C8 U7 20 (COp (ODeser 0 (j_leaf 5) (DOpt false false true))) w_empty) = Ok (VInst 0).
Proof. vm_compute; reflexivity. Qed.

(** The disabled modes are the same afterwards for all classes and defaults. *)
Theorem C20_suppression_restored : forall E C U n cid v o w r w', wf_ctab C ->
  exec E C U n (COp (ODeser cid v o)) w = (r, w') -> w_quar w' = w_quar w.
Proof. exact deserialize_restores. Qed.
Print Assumptions C20_suppression_restored.
Example C20_suppression_restored_ex :
  wf_ctab C7 /\ fst (exec E1 C7 U7 20 (COp (ODeser 2 (VInt 3) (DOpt false false true))) (W [] [MChange] [] [] 0)) = Exc ExValue.
Proof. split; [exact wf_C7|vm_compute; reflexivity]. Qed.

(** A dynamic property of Instance type: the value is converted after the block
    in which listeners are disabled. *)
Theorem C20_dynamic_instance_refuted : exists E C U n cid v o w r w',
  wf_ctab C /\ calm_defaults C U /\ o_valid o = false /\
  exec E C U n (COp (ODeser cid v o)) w = (r, w') /\ ~ unheard w w'.
Proof.
  exists E1, C7, U7, 20, 1, (VDict [(VStr "d", VDict [(VStr "x", VInt 5)])]), (DOpt false false false), w_empty.
  eexists _, _. split; [exact wf_C7|]. split; [exact calm_U7|]. split; [reflexivity|]. split; [vm_compute; reflexivity|].
  intros (_ & new & S & F). unfold since in S. cbn in S. rewrite app_nil_r in S. subst new.
  rewrite Forall_forall in F. eapply F; [left; reflexivity|exact I].
Qed.
Print Assumptions C20_dynamic_instance_refuted.
(** A strict Union validates the instances it deserializes, so class validators
    run, and what they assign is observed, before the graph is complete. *)
Theorem C20_strict_union_refuted : exists E C U n cid v o w r w',
  wf_ctab C /\ calm_defaults C U /\ o_valid o = false /\
  exec E C U n (COp (ODeser cid v o)) w = (r, w') /\ ~ unheard w w'.
Proof.
  exists E1, C7, U7, 20, 2, (VDict [(VStr "a", j_leaf 5)]), (DOpt false false false), w_empty.
  eexists _, _. split; [exact wf_C7|]. split; [exact calm_U7|]. split; [reflexivity|]. split; [vm_compute; reflexivity|].
  intros (_ & new & S & F). unfold since in S. cbn in S. rewrite app_nil_r in S. subst new.
  rewrite Forall_forall in F. eapply F; [right; right; left; reflexivity|exact I].
Qed.
Print Assumptions C20_strict_union_refuted.
