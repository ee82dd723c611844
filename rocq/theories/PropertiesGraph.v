(** Property theorems about operations on object graphs.  They are about
    settled states (GraphSpec.v): user code that runs during the operation only
    reads.  [ends] and [answers] say that the operation ends, with which
    outcome, however deep the stack may be beyond some depth. *)
From Verif Require Import World WorldSpec AccessSpec GraphRequired WorldExample GraphSpec GraphConv GraphValidate GraphSerial GraphValid GraphLimits GraphAssign GraphCycle GraphEqual GraphExample GraphExampleFacts.
Local Open Scope string_scope.
Local Open Scope list_scope.
Local Open Scope nat_scope.

(** ** C14: validate accepts exactly the valid object graphs *)
Theorem C14_validate_accepts_valid_graphs : forall E C U, wf_ctab C -> forall w,
  settled E C U w -> initialized w -> idle w -> forall l, l < length (w_heap w) ->
  exists r, answers (fun n => exec E C U n (COp (OValidate l))) w r /\
    (r = Ok (VBool true) \/ exists e, r = Exc e) /\
    (r = Ok (VBool true) -> valid_graph E C U w l) /\
    (valid_graph E C U w l -> r = Ok (VBool true) \/ exists e, r = Exc e /\ is_generic e = false).
Proof. exact validate_accepts. Qed.
Print Assumptions C14_validate_accepts_valid_graphs.
Example C14_validate_accepts_valid_graphs_ex :
  wf_ctab C4 /\ settled E1 C4 U3 w_loose /\ initialized w_loose /\ idle w_loose /\
  fst (exec E1 C4 U3 30 (COp (OValidate 0)) w_loose) = Exc (ExValidation [ET (Some "missing") (Some "x") (Some 0)]) /\
  fst (exec E1 C4 U3 30 (COp (OValidate 1)) w_loose) = Ok (VBool true).
Proof. split; [exact wf_C4|]. destruct settled_loose as (A & B & D). split; [exact A|]. split; [exact B|].
  split; [exact D|]. split; vm_compute; reflexivity. Qed.

(** without Union properties there is no other exception *)
Theorem C14_validate_exact : forall E C U, wf_ctab C -> union_free C -> forall w,
  settled E C U w -> initialized w -> idle w -> forall l, l < length (w_heap w) ->
  exists r, answers (fun n => exec E C U n (COp (OValidate l))) w r /\
    (r = Ok (VBool true) \/ exists e, r = Exc e) /\ (r = Ok (VBool true) <-> valid_graph E C U w l).
Proof. exact validate_exact. Qed.
Print Assumptions C14_validate_exact.
Example C14_validate_exact_ex :
  wf_ctab C3 /\ union_free C3 /\ (settled E1 C3 U3 w_ring /\ initialized w_ring /\ idle w_ring) /\
  (settled E1 C3 U3 w_nine /\ initialized w_nine /\ idle w_nine) /\
  stored w_ring 0 "next" = Some (VInst 1) /\ stored w_ring 1 "next" = Some (VInst 0) /\
  fst (exec E1 C3 U3 30 (COp (OValidate 0)) w_ring) = Ok (VBool true) /\
  fst (exec E1 C3 U3 30 (COp (OValidate 1)) w_nine) = Exc (ExValidation [ET None None (Some 2)]).
Proof.
  split; [exact wf_C3|]. split; [exact union_free_C3|]. split; [exact settled_ring|]. split; [exact settled_nine|].
  split; [|split; [|split]]; vm_compute; reflexivity.
Qed.

(** and a graph is valid exactly if each reachable instance is, by itself *)
Theorem C14_valid_graphs_are_valid_everywhere : forall E C U, wf_ctab C -> union_free C -> checks_props C -> forall w l,
  valid_graph E C U w l <-> forall m, reachable C w l m -> valid_at E C U w (fun _ => True) m.
Proof. exact valid_reachable. Qed.
Print Assumptions C14_valid_graphs_are_valid_everywhere.
Example C14_valid_graphs_are_valid_everywhere_ex :
  wf_ctab C3 /\ union_free C3 /\ checks_props C3 /\
  valid_graph E1 C3 U3 w_ring 1 /\ reachable C3 w_ring 1 2 /\
  reachable C3 w_hole 1 2 /\ ~ valid_at E1 C3 U3 w_hole (fun _ => True) 2 /\ ~ valid_graph E1 C3 U3 w_hole 1.
Proof.
  split; [exact wf_C3|]. split; [exact union_free_C3|]. split; [exact checks_C3|]. exact ring_and_hole.
Qed.

(** With a Union the reachable instances need not all be valid: another
    alternative of the Union may accept the value as it is. *)
Theorem C14_union_hides_invalid_instance_refuted : exists E C U w l m,
  wf_ctab C /\ checks_props C /\ settled E C U w /\ initialized w /\ idle w /\
  answers (fun n => exec E C U n (COp (OValidate l))) w (Ok (VBool true)) /\
  reachable C w l m /\ ~ valid_at E C U w (fun _ => True) m /\
  exists e, answers (fun n => exec E C U n (COp (OValidate m))) w (Exc e).
Proof. exact loose_hides. Qed.
Print Assumptions C14_union_hides_invalid_instance_refuted.

(** [required] decides only what becomes of an attribute that is not set.
    What a container or a Union holds is checked while the attribute is set,
    so [required] of a contained property decides nothing, not even for None:
    whatever user code may do ([rec]), the outcome is the same. *)
Theorem C14_required_of_contained : forall E C rec p l name v w i, nth_error (w_heap w) l = Some i ->
  v <> VNone \/ (exists x, dget (i_back i) name = Some x /\ x <> VNone) ->
  forall r1 r2, p_assert E C rec r1 p l name v w = p_assert E C rec r2 p l name v w.
Proof. exact required_irrelevant. Qed.
Print Assumptions C14_required_of_contained.
Example C14_required_of_contained_ex : exists i, nth_error (w_heap w_many) 1 = Some i /\ dget (i_back i) "kids" <> None /\
  (let check r p v := fst (p_assert E1 C3 (exec E1 C3 U3 30) r p 1 "kids" v w_many) in
   check true (PLeaf LfAny) VNone = Ok tt /\ check false (PLeaf LfAny) VNone = Ok tt /\
   check true (PLeaf (LfBool false)) (VInt 3) = check false (PLeaf (LfBool false)) (VInt 3) /\
   check true (PLeaf (LfBool false)) (VInt 3) <> Ok tt) /\
  fst (p_assert E1 C3 (exec E1 C3 U3 30) true (PLeaf LfAny) 1 "gone" VNone w_many) <>
  fst (p_assert E1 C3 (exec E1 C3 U3 30) false (PLeaf LfAny) 1 "gone" VNone w_many).
Proof.
  destruct (nth_error (w_heap w_many) 1) as [i|] eqn:E; [|vm_compute in E; discriminate]. exists i. split; [reflexivity|].
  split; [revert E; vm_compute; intros E; injection E as <-; discriminate|].
  split; [|vm_compute; discriminate]. split; [vm_compute; reflexivity|]. split; [vm_compute; reflexivity|].
  split; [vm_compute; reflexivity|]. vm_compute. discriminate.
Qed.

(** ** C15: validate ends and leaves every object as it was *)
Theorem C15_validate_ends : forall E C U, wf_ctab C -> forall w, settled E C U w -> initialized w ->
  forall l, l < length (w_heap w) ->
  exists r, ends (fun n => exec E C U n (COp (OValidate l))) w r /\ (r = Ok (VBool true) \/ exists e, r = Exc e).
Proof. exact validate_ends. Qed.
Print Assumptions C15_validate_ends.
Example C15_validate_ends_ex :
  wf_ctab C3 /\ settled E1 C3 U3 w_many /\ initialized w_many /\ 0 < length (w_heap w_many) /\
  fst (exec E1 C3 U3 30 (COp (OValidate 0)) w_many) = Exc (ExValidation [ET (Some "invalid") (Some "kids") (Some 1)]) /\
  w_heap (snd (exec E1 C3 U3 30 (COp (OValidate 0)) w_many)) = w_heap w_many.
Proof. split; [exact wf_C3|]. destruct settled_many as (A & B & _). split; [exact A|]. split; [exact B|].
  split; [vm_compute; lia|]. split; vm_compute; reflexivity. Qed.

(** ** C46: length limits are checked by validate, and by nothing else *)
Theorem C46_assignment_ignores_limits : forall E C U n l name d v w, declares C w l name d -> pd_kind d = KProp ->
  exec E C U (S n) (COp (OSet l name v)) w = prop_fset E C (exec E C U n) (no_limits (pd_type d)) l name v w.
Proof. exact assign_no_limits. Qed.
Print Assumptions C46_assignment_ignores_limits.
Example C46_assignment_ignores_limits_ex :
  declares C3 w_ring 1 "kids" (PD KProp t_kids false DUndef) /\ no_limits t_kids = PSeq KList t_node None None false /\
  fst (exec E1 C3 U3 30 (COp (OSet 1 "kids" (VList [VInst 2; VInst 2; VInst 2]))) w_ring) = Ok VNone /\
  stored w_many 1 "kids" = Some (VList [VInst 2; VInst 2; VInst 2]).
Proof. split; [eexists; split; [eexists; split|]; vm_compute; reflexivity|]. vm_compute. auto. Qed.

Theorem C46_validate_checks_lengths : forall E C U, wf_ctab C -> checks_props C -> forall w,
  settled E C U w -> initialized w -> idle w -> forall l, l < length (w_heap w) ->
  answers (fun n => exec E C U n (COp (OValidate l))) w (Ok (VBool true)) ->
  forall name d v, declares C w l name d -> pd_kind d = KProp -> has_value w l name v -> sizes_ok (pd_type d) v.
Proof. exact validate_sizes. Qed.
Print Assumptions C46_validate_checks_lengths.
Example C46_validate_checks_lengths_ex :
  wf_ctab C3 /\ checks_props C3 /\ settled E1 C3 U3 w_ring /\ initialized w_ring /\ idle w_ring /\
  answers (fun n => exec E1 C3 U3 n (COp (OValidate 0))) w_ring (Ok (VBool true)) /\
  declares C3 w_ring 0 "kids" (PD KProp t_kids false DUndef) /\ has_value w_ring 0 "kids" (VList [VInst 2; VInst 2]) /\
  ~ sizes_ok t_kids (VList [VInst 2; VInst 2; VInst 2]) /\
  fst (exec E1 C3 U3 30 (COp (OValidate 1)) w_many) = Exc (ExValidation [ET (Some "invalid") (Some "kids") (Some 1)]).
Proof.
  split; [exact wf_C3|]. split; [exact checks_C3|]. destruct settled_ring as (A & B & D). split; [exact A|]. split; [exact B|]. split; [exact D|].
  split; [exact ring_valid|]. split; [eexists; split; [eexists; split|]; vm_compute; reflexivity|].
  split; [split; [vm_compute; reflexivity|discriminate]|]. split; [|vm_compute; reflexivity].
  intros (items & Hi & [_ Hm] & _). injection Hi as <-. specialize (Hm 2 eq_refl). cbn in Hm. lia.
Qed.

(** ** C16: serialize detects self references *)
(** It ends and leaves every object as it was, its guard included. *)
Theorem C16_serialize_ends : forall E C U o w, settled E C U w -> s_idle w -> forall l, l < length (w_heap w) ->
  exists r, ends (fun n => exec E C U n (COp (OSer l o))) w r.
Proof. exact serialize_ends. Qed.
Print Assumptions C16_serialize_ends.
Example C16_serialize_ends_ex : settled E1 C3 U3 w_ring /\ s_idle w_ring /\ 0 < length (w_heap w_ring) /\
  fst (exec E1 C3 U3 30 (COp (OSer 0 both)) w_ring) = Exc ExSelfRef /\
  w_heap (snd (exec E1 C3 U3 30 (COp (OSer 0 both)) w_ring)) = w_heap w_ring.
Proof. split; [exact (proj1 settled_ring)|]. split; [apply s_idle_intro; vm_compute; reflexivity|].
  split; [vm_compute; lia|]. split; vm_compute; reflexivity. Qed.

(** It returns the JSON of the instance and of everything below it, shared
    instances included, whenever there is one. *)
Theorem C16_serialize_exact : forall E C U o w l, settled E C U w -> s_idle w -> l < length (w_heap w) -> forall j,
  ends (fun n => exec E C U n (COp (OSer l o))) w (Ok j) <-> encodes E C U o w l j.
Proof. exact serialize_exact. Qed.
Print Assumptions C16_serialize_exact.
Example C16_serialize_exact_ex : settled E1 C3 U3 w_tree /\ s_idle w_tree /\ 0 < length (w_heap w_tree) /\
  let two := VDict [(VStr "x", VInt 7); (VStr "__class__", VStr "Node")] in
  fst (exec E1 C3 U3 30 (COp (OSer 0 both)) w_tree) =
    Ok (VDict [(VStr "x", VInt 3); (VStr "next", VDict [(VStr "x", VInt 3); (VStr "next", two); (VStr "__class__", VStr "Node")]);
               (VStr "kids", VList [two; two]); (VStr "__class__", VStr "Node")]).
Proof. split; [exact (proj1 settled_tree)|]. split; [apply s_idle_intro; vm_compute; reflexivity|].
  split; [vm_compute; lia|]. vm_compute. reflexivity. Qed.

(** On a cycle it raises an exception; if each instance by itself has JSON,
    that is SelfReferenceError, and without a cycle there is none.
    SelfReferenceError is raised for cycles only, unless a getter raises it. *)
Theorem C16_self_references : forall E C U o w l, settled E C U w -> s_idle w -> l < length (w_heap w) ->
  (cyclic E C U w l -> exists e, ends (fun n => exec E C U n (COp (OSer l o))) w (Exc e)) /\
  ((forall m, sreach E C U w l m -> encodable E C U o w m) -> cyclic E C U w l ->
     ends (fun n => exec E C U n (COp (OSer l o))) w (Exc ExSelfRef)) /\
  ((forall m, sreach E C U w l m -> encodable E C U o w m) -> ~ cyclic E C U w l ->
     exists j, ends (fun n => exec E C U n (COp (OSer l o))) w (Ok j)) /\
  ((forall m name, ~ answers (fun n => exec E C U n (COp (OGet m name))) w (Exc ExSelfRef)) ->
   ends (fun n => exec E C U n (COp (OSer l o))) w (Exc ExSelfRef) -> cyclic E C U w l).
Proof. exact serialize_cycles. Qed.
Print Assumptions C16_self_references.
Example C16_self_references_ex : settled E1 C3 U3 w_ring /\ s_idle w_ring /\ 0 < length (w_heap w_ring) /\
  cyclic E1 C3 U3 w_ring 0 /\ (forall m, sreach E1 C3 U3 w_ring 0 m -> encodable E1 C3 U3 both w_ring m) /\
  fst (exec E1 C3 U3 30 (COp (OSer 0 both)) w_ring) = Exc ExSelfRef /\
  fst (exec E1 C3 U3 30 (COp (OSer 2 both)) w_ring) = Ok (VDict [(VStr "x", VInt 7); (VStr "__class__", VStr "Node")]).
Proof. split; [exact (proj1 settled_ring)|]. split; [apply s_idle_intro; vm_compute; reflexivity|].
  split; [vm_compute; lia|]. split; [exact ring_cyclic|]. split; [exact ring_encodable|]. split; vm_compute; reflexivity. Qed.

(** ** C18: equal is a sound comparison *)
(** It ends and leaves every object as it was, its guard included. *)
Theorem C18_equal_ends : forall E C U w l m, settled E C U w -> l < length (w_heap w) -> m < length (w_heap w) ->
  exists r, ends (fun n => exec E C U n (COp (OEqual (VInst l) (VInst m)))) w r /\
    ((exists t, r = Ok (VBool t)) \/ exists e, r = Exc e).
Proof. exact equal_ends. Qed.
Print Assumptions C18_equal_ends.
Example C18_equal_ends_ex : settled E1 C3 U3 w_ring /\ 0 < length (w_heap w_ring) /\ 1 < length (w_heap w_ring) /\
  fst (exec E1 C3 U3 30 (COp (OEqual (VInst 0) (VInst 1))) w_ring) = Ok (VBool false) /\
  w_heap (snd (exec E1 C3 U3 30 (COp (OEqual (VInst 0) (VInst 1))) w_ring)) = w_heap w_ring.
Proof. split; [exact (proj1 settled_ring)|]. split; [vm_compute; lia|]. split; [vm_compute; lia|]. split; vm_compute; reflexivity. Qed.

(** An instance that is not being compared equals itself. *)
Theorem C18_equal_reflexive : forall E C U w l i, nth_error (w_heap w) l = Some i -> i_eflag i = false ->
  ends (fun n => exec E C U n (COp (OEqual (VInst l) (VInst l)))) w (Ok (VBool true)).
Proof. exact equal_reflexive. Qed.
Print Assumptions C18_equal_reflexive.
Example C18_equal_reflexive_ex : exists i, nth_error (w_heap w_ring) 0 = Some i /\ i_eflag i = false /\ dget (i_back i) "next" = Some (VInst 1).
Proof. eexists. split; [vm_compute; reflexivity|split; vm_compute; reflexivity]. Qed.

(** It is True only for the same instance, or instances of the same class whose
    properties are pairwise equal, down to finite depth. *)
Theorem C18_equal_sound : forall E C U w l m, settled E C U w -> l < length (w_heap w) -> m < length (w_heap w) ->
  ends (fun n => exec E C U n (COp (OEqual (VInst l) (VInst m)))) w (Ok (VBool true)) -> equals E C U w l m.
Proof. exact equal_sound. Qed.
Print Assumptions C18_equal_sound.
Example C18_equal_sound_ex : settled E1 C3 U3 w_knot /\ 1 < length (w_heap w_knot) /\ 0 < length (w_heap w_knot) /\
  ends (fun n => exec E1 C3 U3 n (COp (OEqual (VInst 1) (VInst 0)))) w_knot (Ok (VBool true)).
Proof. split; [exact settled_knot|]. split; [vm_compute; lia|]. split; [vm_compute; lia|].
  apply equal_at; [exact settled_knot|vm_compute; lia|vm_compute; lia|]. apply answers_at with (k := 30). intros n. vm_compute. reflexivity. Qed.

(** If nothing below the first instance refers back to itself, and there are no
    Set and Union properties, it decides that. *)
Theorem C18_equal_decides : forall E C U w l m, settled E C U w -> e_idle w -> simple_types C ->
  l < length (w_heap w) -> m < length (w_heap w) -> acyclic E C U w l ->
  (ends (fun n => exec E C U n (COp (OEqual (VInst l) (VInst m)))) w (Ok (VBool true)) <-> equals E C U w l m).
Proof. exact equal_decides. Qed.
Print Assumptions C18_equal_decides.
Example C18_equal_decides_ex : settled E1 C3 U3 w_twins /\ e_idle w_twins /\ simple_types C3 /\
  0 < length (w_heap w_twins) /\ 4 < length (w_heap w_twins) /\ acyclic E1 C3 U3 w_twins 0 /\ acyclic E1 C3 U3 w_twins 2 /\
  stored w_twins 0 "kids" = Some (VList [VInst 2; VInst 2]) /\ stored w_twins 1 "kids" = Some (VList [VInst 3; VInst 2]) /\
  fst (exec E1 C3 U3 30 (COp (OEqual (VInst 0) (VInst 1))) w_twins) = Ok (VBool true) /\
  fst (exec E1 C3 U3 30 (COp (OEqual (VInst 2) (VInst 4))) w_twins) = Ok (VBool false).
Proof. split; [exact settled_twins|]. split; [apply e_idle_intro; vm_compute; reflexivity|]. split; [exact simple_C3|].
  split; [vm_compute; lia|]. split; [vm_compute; lia|]. split; [apply acyclic_twins|]. split; [apply acyclic_twins|].
  split; [|split; [|split]]; vm_compute; reflexivity. Qed.

(** Then it is symmetric, too, if dictionaries have distinct strings as keys and
    occur only as values of Dictionary properties. *)
Theorem C18_equal_symmetric : forall E C U w l m, settled E C U w -> e_idle w -> simple_types C -> comparable_state E C U w ->
  l < length (w_heap w) -> m < length (w_heap w) -> acyclic E C U w l -> acyclic E C U w m ->
  (ends (fun n => exec E C U n (COp (OEqual (VInst l) (VInst m)))) w (Ok (VBool true)) <->
   ends (fun n => exec E C U n (COp (OEqual (VInst m) (VInst l)))) w (Ok (VBool true))).
Proof. exact equal_symmetric. Qed.
Print Assumptions C18_equal_symmetric.
Example C18_equal_symmetric_ex : settled E1 C3 U3 w_twins /\ e_idle w_twins /\ simple_types C3 /\ comparable_state E1 C3 U3 w_twins /\
  0 < length (w_heap w_twins) /\ 1 < length (w_heap w_twins) /\ acyclic E1 C3 U3 w_twins 0 /\ acyclic E1 C3 U3 w_twins 1 /\
  fst (exec E1 C3 U3 30 (COp (OEqual (VInst 0) (VInst 1))) w_twins) = Ok (VBool true) /\
  fst (exec E1 C3 U3 30 (COp (OEqual (VInst 1) (VInst 0))) w_twins) = Ok (VBool true).
Proof. split; [exact settled_twins|]. split; [apply e_idle_intro; vm_compute; reflexivity|]. split; [exact simple_C3|]. split; [exact comparable_twins|].
  split; [vm_compute; lia|]. split; [vm_compute; lia|]. split; [apply acyclic_twins|]. split; [apply acyclic_twins|].
  split; vm_compute; reflexivity. Qed.

(** With cycles it is not: an instance that refers to itself is not equal to one
    that refers to it, but that one is equal to it. *)
Theorem C18_symmetric_on_cycles_refuted : exists E C U w l m,
  settled E C U w /\ e_idle w /\ simple_types C /\ comparable_state E C U w /\
  ends (fun n => exec E C U n (COp (OEqual (VInst l) (VInst m)))) w (Ok (VBool false)) /\
  ends (fun n => exec E C U n (COp (OEqual (VInst m) (VInst l)))) w (Ok (VBool true)).
Proof. exact knot_asymmetric. Qed.
Print Assumptions C18_symmetric_on_cycles_refuted.

(** Sets of floats may be reported different although their elements are equal
    one to one within the tolerance: each element takes the first partner that
    it finds. *)
Theorem C18_sets_of_floats_refuted : exists E C U w l m,
  settled E C U w /\ e_idle w /\ acyclic E C U w l /\ acyclic E C U w m /\
  equals E C U w l m /\ ends (fun n => exec E C U n (COp (OEqual (VInst l) (VInst m)))) w (Ok (VBool false)).
Proof. exact bags_greedy. Qed.
Print Assumptions C18_sets_of_floats_refuted.

(** ** C01, C02: assigning values that hold instances *)
(** On settled states, for values that need no construction: the property
    refuses, and no object changes, or validation gives a value. *)
Theorem C02_rejected_on_graphs : forall E C U w, settled E C U w -> forall l name d v,
  declares C w l name d -> pd_kind d = KProp -> is_undef v = false -> below (length (w_heap w)) v = true -> calm E (pd_type d) v ->
  (exists v0, ends (fun n => p_validate E C (exec E C U n) (pd_type d) (Some l) name v) w (Ok v0)) \/
  (exists e, ends (fun n => exec E C U n (COp (OSet l name v))) w (Exc e)).
Proof. exact assign_decided. Qed.
Print Assumptions C02_rejected_on_graphs.
(** That value is what is stored, and nothing else changes, in the absence of
    listeners for the property; an exception can only come from comparing the old
    value with the new one, after the new one has been stored. *)
Theorem C01_assignment_on_graphs : forall E C U w, settled E C U w -> forall l name d v,
  declares C w l name d -> pd_kind d = KProp -> is_undef v = false -> below (length (w_heap w)) v = true -> calm E (pd_type d) v ->
  (forall m, registered w l name m = []) ->
  forall v0, ends (fun n => p_validate E C (exec E C U n) (pd_type d) (Some l) name v) w (Ok v0) -> calm E (pd_type d) v0 ->
  let put w' := forall l' n', l' < length (w_heap w) -> stored w' l' n' = if Nat.eqb l l' && String.eqb name n' then when_set v0 else stored w l' n' in
  exists r depth, (forall n, depth <= n -> exists w', exec E C U n (COp (OSet l name v)) w = (r, w') /\ put w') /\
    (r = Ok VNone \/ exists e x w2, r = Exc e /\ stored w l name = Some x /\ put w2 /\
       answers (fun n => p_equal (exec E C U n) (pd_type d) x v0) w2 (Exc e)).
Proof. exact assign_graph_stored. Qed.
Print Assumptions C01_assignment_on_graphs.
Example C01_assignment_on_graphs_ex :
  settled E1 C3 U3 w_ring /\ declares C3 w_ring 0 "kids" (PD KProp t_kids false DUndef) /\
  (forall m, registered w_ring 0 "kids" m = []) /\
  below (length (w_heap w_ring)) (VList [VInst 1; VInst 0]) = true /\ calm E1 t_kids (VList [VInst 1; VInst 0]) /\
  fst (p_validate E1 C3 (exec E1 C3 U3 30) t_kids (Some 0) "kids" (VList [VInst 1; VInst 0]) w_ring) = Ok (VList [VInst 1; VInst 0]) /\
  stored (snd (exec E1 C3 U3 30 (COp (OSet 0 "kids" (VList [VInst 1; VInst 0]))) w_ring)) 0 "kids" = Some (VList [VInst 1; VInst 0]) /\
  fst (exec E1 C3 U3 30 (COp (OSet 0 "kids" (VList [VInst 1; VInt 0]))) w_ring) = Exc (ExValidation [ET (Some "invalid") (Some "kids") (Some 0)]).
Proof.
  split; [apply settled_ring|]. split; [eexists; split; [eexists; split|]; vm_compute; reflexivity|].
  split; [intros []; vm_compute; reflexivity|]. split; [vm_compute; reflexivity|].
  split; [|split; [vm_compute; reflexivity|]; split; vm_compute; reflexivity].
  cbn. split; [|discriminate]. intros l Hl. injection Hl as <-. repeat constructor; discriminate.
Qed.
