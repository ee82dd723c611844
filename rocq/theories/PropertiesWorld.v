(** Property theorems about instances: assignment, deletion, notification,
    suppression, typing, immutability and guards.  [exec E C U (S n) (COp o)]
    performs one public operation; [run_prog E C U n p] runs an arbitrary user
    program.  [n] bounds the nesting of calls (Python's recursion limit); all
    statements hold for every bound. *)
From Verif Require Import World WorldSpec WorldFacts NewFlags WorldExample WorldExampleFacts.
Local Open Scope string_scope.
Local Open Scope list_scope.
Local Open Scope nat_scope.

(** ** C01: assignment stores exactly the validated value *)
Theorem C01_assignment_stores : forall E C U, wf_ctab C -> forall n l name d v w r w',
  declares C w l name d -> pd_kind d = KProp -> is_undef v = false ->
  exec E C U (S n) (COp (OSet l name v)) w = (Ok r, w') ->
  exists v0 w1 new sid v1 fv ev,
    p_validate E C (exec E C U n) (pd_type d) (Some l) name v w = (Ok v0, w1) /\
    since w w' new /\
    calls (left_by E C U l name MValidate (unset_or (stored w1 l name))) sid l name MValidate
          (unset_or (stored w1 l name)) v0 fv v1 ev /\
    prefix fv (registered w' l name MValidate) /\
    In (EWrite sid l name v1) new /\
    ((forall s x, In (EWrite s l name x) new -> s = sid) -> stored w' l name = when_set v1) /\
    (forall l' n', l' < length (w_heap w) -> ~ Exists (is_write l' n') new -> stored w' l' n' = stored w l' n').
Proof. exact set_stores. Qed.
Print Assumptions C01_assignment_stores.
Example C01_assignment_stores_ex :
  declares C1 w_one 0 "x" d_x /\ pd_kind d_x = KProp /\
  fst (exec E1 C1 U1 20 (COp (OSet 0 "x" (VInt 8))) w_one) = Ok VNone /\
  stored (snd (exec E1 C1 U1 20 (COp (OSet 0 "x" (VInt 8))) w_one)) 0 "x" = Some (VInt 7) /\
  stored (snd (exec E1 C1 U1 20 (COp (OSet 0 "x" (VInt 5))) w_one)) 0 "x" = Some (VInt 5).
Proof. split; [apply declares_one; reflexivity|]. vm_compute. auto. Qed.

(** With no listener for the property and a type without HasProperties
    classes, the store is the whole effect. *)
Theorem C01_plain_assignment : forall E C U n l name d v w r w',
  declares C w l name d -> pd_kind d = KProp -> is_undef v = false ->
  inst_free (pd_type d) -> (forall m, registered w l name m = []) ->
  exec E C U (S n) (COp (OSet l name v)) w = (Ok r, w') ->
  exists v0 w1, p_validate E C (exec E C U n) (pd_type d) (Some l) name v w = (Ok v0, w1) /\ hooks_only w w1 /\
    (forall l' n', stored w' l' n' = if Nat.eqb l l' && String.eqb name n' then when_set v0 else stored w l' n').
Proof. exact set_plain. Qed.
Print Assumptions C01_plain_assignment.
Example C01_plain_assignment_ex :
  declares C1 w_one 0 "tag" d_tag /\ inst_free (pd_type d_tag) /\ (forall m, registered w_one 0 "tag" m = []) /\
  fst (exec E1 C1 U1 20 (COp (OSet 0 "tag" (VStr "a"))) w_one) = Ok VNone.
Proof.
  split; [apply declares_one; reflexivity|]. split; [exact I|].
  split; [intros []; reflexivity|reflexivity].
Qed.

(** ** C02: a rejected assignment changes nothing *)
Theorem C02_rejected_by_property : forall E C U n l name d v w e w1,
  declares C w l name d -> pd_kind d = KProp -> is_undef v = false ->
  p_validate E C (exec E C U n) (pd_type d) (Some l) name v w = (Exc e, w1) ->
  exec E C U (S n) (COp (OSet l name v)) w = (Exc e, w1) /\ (inst_free (pd_type d) -> hooks_only w w1).
Proof. exact set_rejected. Qed.
Print Assumptions C02_rejected_by_property.
Example C02_rejected_by_property_ex :
  declares C1 w_one 0 "x" d_x /\ inst_free (pd_type d_x) /\
  fst (p_validate E1 C1 (exec E1 C1 U1 19) (pd_type d_x) (Some 0) "x" (VInt 11) w_one) =
    Exc (ExValidation [ET (Some "invalid") (Some "x") (Some 0)]).
Proof. split; [apply declares_one; reflexivity|]. split; [exact I|reflexivity]. Qed.

(** If the exception comes later, either only validators were called and
    nothing was written by this assignment, or the value was stored and an
    observer (or the comparison) raised.  Stored values changed only by writes
    of the callbacks (and this one write). *)
Theorem C02_rejected_by_listener : forall E C U, wf_ctab C -> forall n l name d v w v0 w1 e w',
  declares C w l name d -> pd_kind d = KProp -> is_undef v = false ->
  p_validate E C (exec E C U n) (pd_type d) (Some l) name v w = (Ok v0, w1) ->
  exec E C U (S n) (COp (OSet l name v)) w = (Exc e, w') ->
  exists new, since w1 w' new /\
    let sid := w_clock w1 in let prev := unset_or (stored w1 l name) in
    (Forall (call_of sid l name MValidate prev) (of_sid sid new) \/
     exists ev v1 rest, of_sid sid new = ev ++ EWrite sid l name v1 :: rest /\
       Forall (call_of sid l name MValidate prev) ev /\ Forall (observer_call sid l name prev) rest) /\
    (forall l' n', l' < length (w_heap w1) -> stored w' l' n' = replay new l' n' (stored w1 l' n')).
Proof. exact set_failed. Qed.
Print Assumptions C02_rejected_by_listener.
Example C02_rejected_by_listener_ex :
  declares C1 w_one 0 "x" d_x /\
  fst (p_validate E1 C1 (exec E1 C1 U1 19) (pd_type d_x) (Some 0) "x" (VInt 9) w_one) = Ok (VInt 9) /\
  fst (exec E1 C1 U1 20 (COp (OSet 0 "x" (VInt 9))) w_one) = Exc (ExValidation []) /\
  stored (snd (exec E1 C1 U1 20 (COp (OSet 0 "x" (VInt 9))) w_one)) 0 "x" = Some (VInt 3).
Proof. split; [apply declares_one; reflexivity|]. vm_compute. auto. Qed.

(** ** C03: notification order and contents *)
Theorem C03_notification_order : forall E C U, wf_ctab C -> forall n l name d v w r w',
  declares C w l name d -> pd_kind d = KProp -> is_undef v = false ->
  exec E C U (S n) (COp (OSet l name v)) w = (Ok r, w') ->
  exists v0 w1 new sid v1 changed fv fc fs,
    p_validate E C (exec E C U n) (pd_type d) (Some l) name v w = (Ok v0, w1) /\
    assignment (fun m prev => left_by E C U l name m prev) (own_equal E C U (pd_type d)) l name v0 w1 w' new
      sid v1 changed fv fc fs.
Proof.
  intros E C U HC n l name d v w r w' H1 H2 H3 H4.
  destruct (set_decompose E C U HC n l name d v w r w' H1 H2 H3 H4) as (v0 & w1 & new0 & new & v1 & ch & fv & fc & fs & Hv & _ & _ & A).
  exists v0, w1, new, (w_clock w1), v1, ch, fv, fc, fs. auto.
Qed.
Print Assumptions C03_notification_order.
Example C03_notification_order_ex :
  declares C1 w_one 0 "x" d_x /\
  w_trace (snd (exec E1 C1 U1 20 (COp (OSet 0 "x" (VInt 8))) w_one)) =
    [ECall 6 0 "x" MSet (LCb 2) (VInt 3) (VInt 7);
     EWrite 8 0 "tag" (VStr "changed");
     ECall 6 0 "x" MChange (LCb 1) (VInt 3) (VInt 7);
     EWrite 6 0 "x" (VInt 7);
     ECall 6 0 "x" MValidate (LCb 0) (VInt 3) (VInt 8)] ++ w_trace w_one.
Proof. split; [apply declares_one; reflexivity|]. vm_compute. auto. Qed.

(** ** C04: change_only observers fire exactly on change *)
Theorem C04_change_only : forall lb eq l name v0 w w' new sid v1 changed fv fc fs,
  assignment lb eq l name v0 w w' new sid v1 changed fv fc fs ->
  ((exists f p x, In (ECall sid l name MChange f p x) new) -> changed = true) /\
  (changed = true -> ~ In MChange (w_quar w) -> forall f, In f (registered w l name MChange) ->
     exists x, In (ECall sid l name MChange f (unset_or (stored w l name)) x) new).
Proof. exact change_iff. Qed.
Print Assumptions C04_change_only.
(** For types without HasProperties classes, where equality depends on the two
    values only: *)
Theorem C04_change_only_values : forall E C U, wf_ctab C -> forall n l name d v w r w',
  declares C w l name d -> pd_kind d = KProp -> is_undef v = false ->
  inst_free (pd_type d) -> exec E C U (S n) (COp (OSet l name v)) w = (Ok r, w') ->
  exists new sid v1 e, since w w' new /\ In (EWrite sid l name v1) new /\
    let prev := unset_or (stored w l name) in
    (forall rec wa, p_equal rec (pd_type d) prev v1 wa = (e, wa)) /\
    let differs := is_undef prev <> is_undef v1 \/ is_undef prev = false /\ is_undef v1 = false /\ e = Ok false in
    ((exists f p x, In (ECall sid l name MChange f p x) new) -> differs) /\
    (differs -> ~ In MChange (w_quar w) -> forall f, In f (registered w l name MChange) ->
      exists x, In (ECall sid l name MChange f prev x) new).
Proof. exact change_free. Qed.
Print Assumptions C04_change_only_values.
Example C04_change_only_ex :
  declares C1 w_one 0 "x" d_x /\ inst_free (pd_type d_x) /\ In (LCb 1) (registered w_one 0 "x" MChange) /\
  (* 3 again: no change observer; 5: called *)
  w_trace (snd (exec E1 C1 U1 20 (COp (OSet 0 "x" (VInt 3))) w_one)) =
    [ECall 6 0 "x" MSet (LCb 2) (VInt 3) (VInt 3); EWrite 6 0 "x" (VInt 3);
     ECall 6 0 "x" MValidate (LCb 0) (VInt 3) (VInt 3)] ++ w_trace w_one /\
  In (ECall 6 0 "x" MChange (LCb 1) (VInt 3) (VInt 5))
     (w_trace (snd (exec E1 C1 U1 20 (COp (OSet 0 "x" (VInt 5))) w_one))).
Proof.
  split; [apply declares_one; reflexivity|]. split; [exact I|].
  vm_compute. intuition.
Qed.

(** ** C05: disabled listeners stay silent *)
Theorem C05_block_silent : forall E C U, wf_ctab C -> forall n types body w r w' new m,
  run_prog E C U n (With types body finish) w = (r, w') -> since w w' new ->
  disables types m -> Forall (fun e => ~ calls_mode m e) new.
Proof. exact block_silent. Qed.
Print Assumptions C05_block_silent.
(** ... and modes that were disabled outside stay silent inside any program. *)
Theorem C05_inherited_silent : forall E C U, wf_ctab C -> forall n p w r w' new m,
  run_prog E C U n p w = (r, w') -> since w w' new ->
  In m (w_quar w) -> Forall (fun e => ~ calls_mode m e) new.
Proof. exact inherited_silent. Qed.
Print Assumptions C05_inherited_silent.
Theorem C05_validation_unaffected : forall E C U n p io name v w q, inst_free p ->
  fst (p_validate E C (exec E C U n) p io name v (w_setquar q w)) = fst (p_validate E C (exec E C U n) p io name v w).
Proof. exact validate_any_quar. Qed.
Print Assumptions C05_validation_unaffected.
Example C05_block_silent_ex :
  (* only the validator and the set observer run: change observers are disabled *)
  snd (run_prog E1 C1 U1 20 (With (Some [MChange]) (Do (OSet 0 "x" (VInt 5)) finish) finish) w_one) =
    W (w_heap (snd (run_prog E1 C1 U1 20 (With None (Do (OSet 0 "x" (VInt 5)) finish) finish) w_one))) [] []
      ([ECall 6 0 "x" MSet (LCb 2) (VInt 3) (VInt 5); EWrite 6 0 "x" (VInt 5);
        ECall 6 0 "x" MValidate (LCb 0) (VInt 3) (VInt 5)] ++ w_trace w_one) 7 /\
  disables (Some [MChange]) MChange /\
  (* validation still applies *)
  fst (run_prog E1 C1 U1 20 (With None (Do (OSet 0 "x" (VInt 11)) finish) finish) w_one) =
    Exc (ExValidation [ET (Some "invalid") (Some "x") (Some 0)]).
Proof. vm_compute. auto. Qed.

(** ** C06: suppression is scoped *)
Theorem C06_scoped : forall E C U, wf_ctab C -> forall n p w,
  w_quar (snd (run_prog E C U n p w)) = w_quar w.
Proof. exact quar_program. Qed.
Print Assumptions C06_scoped.
Theorem C06_calls : forall E C U, wf_ctab C -> forall n o w,
  w_quar (snd (exec E C U n (COp o) w)) = w_quar w.
Proof. exact quar_exec. Qed.
Print Assumptions C06_calls.
Example C06_scoped_ex :
  fst (run_prog E1 C1 U1 20 (With None (With (Some [MSet]) (Raise ExKey) finish) finish) (w_setquar [MChange] w_one)) = Exc ExKey /\
  w_quar (snd (run_prog E1 C1 U1 20 (With None (With (Some [MSet]) (Raise ExKey) finish) finish) (w_setquar [MChange] w_one))) = [MChange].
Proof. vm_compute. auto. Qed.

(** ** C07: stored values always satisfy their property's type *)
Theorem C07_well_typed : forall E C U, wf_ctab C -> forall n p w,
  wf_mro C -> validators_keep U -> well_typed C w ->
  well_typed C (snd (run_prog E C U n p w)).
Proof. exact typed_program. Qed.
Print Assumptions C07_well_typed.
Example C07_well_typed_ex : wf_ctab C1 /\ wf_mro C1 /\ validators_keep U2 /\ well_typed C1 w_empty /\
  stored (snd (run_prog E1 C1 U2 20 (Do (ONew 0 (Some [("x", VInt 4)])) finish) w_empty)) 0 "x" = Some (VInt 4).
Proof.
  split; [exact wf_C1|]. split; [exact mro_C1|]. split; [exact keep_U2|]. split; [apply typed_empty|reflexivity].
Qed.

(** Without the condition on validators the claim fails: a validator callback
    can replace change['value'] by anything. *)
Theorem C07_validator_can_break_typing_refuted : exists E C U n p w l name d v,
  wf_ctab C /\ wf_mro C /\ well_typed C w /\ declares C w l name d /\ pd_kind d = KProp /\
  pd_type d = PLeaf (LfInt false (Some (NZ 0)) (Some (NZ 10))) /\
  stored (snd (run_prog E C U n p w)) l name = Some v /\ v = VStr "seven".
Proof.
  exists E1, C1, (UC (fun _ _ _ _ _ _ => Ret (VStr "seven")) (u_default U1) (u_get U1) (u_set U1) (u_del U1) (u_cval U1) (u_trans U1)),
    20, (Do (OSet 0 "x" (VInt 5)) finish), w_one, 0, "x", d_x, (VStr "seven").
  split; [exact wf_C1|]. split; [exact mro_C1|]. split.
  - exact typed_one.
  - split; [apply declares_one; reflexivity|]. repeat split.
Qed.
Print Assumptions C07_validator_can_break_typing_refuted.

(** ** C08: deletion and undefined *)
Theorem C08_deletion : forall E C U, wf_ctab C -> forall n l name d w r w',
  declares C w l name d -> pd_kind d = KProp ->
  exec E C U (S n) (COp (ODel l name)) w = (Ok r, w') ->
  exists new sid v1 changed fv fc fs,
    assignment (fun m prev => left_by E C U l name m prev) (own_equal E C U (pd_type d)) l name VUndef w w' new
      sid v1 changed fv fc fs.
Proof. exact del_assignment. Qed.
Print Assumptions C08_deletion.
Theorem C08_assigning_undefined : forall E C U n l name d w,
  declares C w l name d -> pd_kind d = KProp ->
  exec E C U (S n) (COp (OSet l name VUndef)) w = exec E C U (S n) (COp (ODel l name)) w.
Proof. exact set_undefined. Qed.
Print Assumptions C08_assigning_undefined.
Theorem C08_read_unset : forall E C U n l name d w,
  declares C w l name d -> pd_kind d = KProp \/ pd_kind d = KGettable ->
  exec E C U (S n) (COp (OGet l name)) w = (Ok (match stored w l name with Some v => v | None => VNone end), w).
Proof. exact get_prop. Qed.
Print Assumptions C08_read_unset.
Theorem C08_unset_not_serialized : forall E C U n l b w r w',
  exec E C U (S n) (COp (OSer l (SOpt b false))) w = (Ok r, w') ->
  exists d, r = VDict d /\ forall k v, In (k, v) d ->
    k = VStr "__class__" \/ exists name, k = VStr name /\ stored w l name <> None.
Proof. exact serialized_keys. Qed.
Print Assumptions C08_unset_not_serialized.
Example C08_deletion_ex :
  declares C1 w_one 0 "x" d_x /\
  fst (exec E1 C1 U1 20 (COp (ODel 0 "x")) w_one) = Ok VNone /\
  stored (snd (exec E1 C1 U1 20 (COp (ODel 0 "x")) w_one)) 0 "x" = None /\
  hd_error (w_trace (snd (exec E1 C1 U1 20 (COp (ODel 0 "x")) w_one))) = Some (ECall 5 0 "x" MSet (LCb 2) (VInt 3) VUndef) /\
  fst (exec E1 C1 U1 20 (COp (OSer 0 (SOpt true false))) (snd (exec E1 C1 U1 20 (COp (ODel 0 "x")) w_one))) =
    Ok (VDict [(VStr "u", VStr "00000000-0000-0000-0000-000000000007"); (VStr "tag", VStr "changed"); (VStr "__class__", VStr "Pt")]).
Proof. split; [apply declares_one; reflexivity|]. vm_compute. auto. Qed.

(** ** C11: immutable properties never change *)
Theorem C11_never_changes : forall E C U, wf_ctab C -> forall n p l name d w,
  declares C w l name d -> pd_kind d <> KProp ->
  stored (snd (run_prog E C U n p w)) l name = stored w l name.
Proof. exact imm_program. Qed.
Print Assumptions C11_never_changes.
Theorem C11_assignment_refused : forall E C U n l name d v w,
  declares C w l name d -> pd_kind d = KGettable ->
  exec E C U (S n) (COp (OSet l name v)) w = (Exc ExAttr, w) /\
  exec E C U (S n) (COp (ODel l name)) w = (Exc ExAttr, w).
Proof. exact imm_refuse. Qed.
Print Assumptions C11_assignment_refused.
Example C11_never_changes_ex :
  declares C1 w_one 0 "u" d_u /\ pd_kind d_u = KGettable /\ stored w_one 0 "u" = Some (VUuid 7) /\
  stored (snd (run_prog E1 C1 U1 20 (Do (OReset 0 None) finish) w_one)) 0 "u" = Some (VUuid 7).
Proof. split; [apply declares_one; reflexivity|]. vm_compute. auto. Qed.

(** ** Recursion guards (C15, C16, C18) and link guards (C34) are restored *)
Theorem C15_guards_restored : forall E C U, wf_ctab C -> forall n p w l i,
  nth_error (w_heap w) l = Some i ->
  exists i', nth_error (w_heap (snd (run_prog E C U n p w))) l = Some i' /\
    i_sflag i' = i_sflag i /\ i_eflag i' = i_eflag i /\
    (i_vflag i' = i_vflag i \/ (i_vflag i = None /\ i_vflag i' = Some false)).
Proof. exact guards_program. Qed.
Print Assumptions C15_guards_restored.
(** and the ones of instances that the program creates are down *)
Theorem C15_new_guards : forall E C U, wf_ctab C -> forall n p w l i,
  length (w_heap w) <= l -> nth_error (w_heap (snd (run_prog E C U n p w))) l = Some i ->
  i_sflag i = false /\ i_eflag i = false.
Proof. exact new_guards. Qed.
Print Assumptions C15_new_guards.
Example C15_new_guards_ex :
  (* a copy fails in the new instance's serialize, another is compared *)
  let w2 := snd (run_prog E1 C1 U1 40 (Do (ONew 0 (Some [])) (fun _ => Do (OSet 1 "kids" (VList [VInst 1])) (fun _ => Do (OCopy 1) (fun _ =>
     Do (OEqual (VInst 1) (VInst 0)) finish)))) w_one) in
  length (w_heap w_one) = 1 /\ map i_sflag (w_heap w2) = [false; false] /\ map i_eflag (w_heap w2) = [false; false] /\
  fst (run_prog E1 C1 U1 40 (Do (OCopy 1) finish) w2) = Exc ExSelfRef.
Proof. vm_compute. auto. Qed.
Theorem C34_link_guard_restored : forall E C U, wf_ctab C -> forall n p w k d,
  nth_error (w_links w) k = Some d ->
  exists d', nth_error (w_links (snd (run_prog E C U n p w))) k = Some d' /\
    d_src d' = d_src d /\ d_tgt d' = d_tgt d /\ d_trans d' = d_trans d /\ d_updating d' = d_updating d.
Proof. exact links_program. Qed.
Print Assumptions C34_link_guard_restored.
Example C15_guards_restored_ex :
  let w := snd (run_prog E1 C1 U1 40 (Do (OLink (0, "x") (0, "tag") false false None) finish) w_one) in
  (* the linked string property refuses an int; serialize and validate fail too *)
  fst (run_prog E1 C1 U1 40 (Do (OSet 0 "x" (VInt 4)) finish) w) = Exc (ExValidation [ET (Some "invalid") (Some "tag") (Some 0)]) /\
  map d_updating (w_links (snd (run_prog E1 C1 U1 40 (Do (OSet 0 "x" (VInt 4)) finish) w))) = [false] /\
  let w2 := snd (run_prog E1 C1 U1 40 (Do (OSet 0 "kids" (VList [VInst 0])) finish) w_one) in
  fst (run_prog E1 C1 U1 40 (Do (OSer 0 (SOpt true false)) finish) w2) = Exc ExSelfRef /\
  map i_sflag (w_heap (snd (run_prog E1 C1 U1 40 (Do (OSer 0 (SOpt true false)) finish) w2))) = [false].
Proof. vm_compute. auto. Qed.
