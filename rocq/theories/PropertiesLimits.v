(** Property theorems about validating twice, and limits of other claims. *)
From Verif Require Import World WorldSpec WorldFacts WorldExample AccessSpec GraphSpec LimitsSpec IdemFacts LimitsFacts.
Local Open Scope string_scope.
Local Open Scope list_scope.
Local Open Scope nat_scope.

(** ** C22: validating an accepted value again, also later and for another
    instance, gives the same value and changes nothing. *)
Theorem C22_container_idempotent : forall E C U, wf_ctab C -> wf_mro C -> forall n m p io name v w v' w',
  coherent_type p -> p_validate E C (exec E C U n) p io name v w = (Ok v', w') ->
  forall io2 name2 w2, still_there w' w2 ->
  exists w3, p_validate E C (exec E C U m) p io2 name2 v' w2 = (Ok v', w3) /\ untouched w2 w3.
Proof. exact validate_twice. Qed.
Print Assumptions C22_container_idempotent.
Example C22_container_idempotent_ex :
  let p := PSeq KTuple (PDict (PLeaf (LfInt true None None)) (PSeq KSet (PInst 0) None None true) true) None None true in
  let go v w := p_validate E1 C8 (exec E1 C8 U8 20) p (Some 0) "x" v w in
  let r := go (VDict [(VStr "5", VTuple [VInst 1; VDict [(VStr "x", VInt 4)]; VInst 1])]) w_lim in
  let v' := VTuple [VDict [(VInt 5, VSet [VInst 1; VInst 4])]] in
  wf_ctab C8 /\ wf_mro C8 /\ coherent_type p /\ fst r = Ok v' /\ length (w_heap w_lim) = 4 /\ fst (go v' (snd r)) = Ok v' /\
  still_there (snd r) (snd (exec E1 C8 U8 20 (COp (OSet 4 "x" (VInt 6))) (snd r))).
Proof.
  split; [exact wf_C8|]. split; [exact mro_C8|]. split; [repeat split|]. split; [vm_compute; reflexivity|].
  split; [vm_compute; reflexivity|]. split; [vm_compute; reflexivity|].
  intros [|[|[|[|[|l]]]]] i H; vm_compute in H; try (injection H as <-; eexists; split; [vm_compute; reflexivity|reflexivity]).
  destruct l; discriminate.
Qed.

(** So in every state that a program can reach, every stored value of such a type
    is accepted as it is, if validators leave the values alone. *)
Theorem C22_stored_values_accepted : forall E C U, wf_ctab C -> wf_mro C -> forall n p w,
  validators_keep U -> values_accepted E C U w -> values_accepted E C U (snd (run_prog E C U n p w)).
Proof. exact accepted_program. Qed.
Print Assumptions C22_stored_values_accepted.
Example C22_stored_values_accepted_ex : wf_ctab C8 /\ wf_mro C8 /\ validators_keep U8 /\ values_accepted E1 C8 U8 w_empty /\
  (let w := snd (run_prog E1 C8 U8 20 (Do (ONew 0 (Some [("d", VDict [(VStr "#F00", VInt 4)]); ("x", VInt 5)])) finish) w_empty) in
   stored w 0 "d" = Some (VDict [(VTuple [VInt 255; VInt 0; VInt 0], VInt 4)]) /\ declares C8 w 0 "d" (d_of t_colors) /\ coherent_type t_colors).
Proof.
  split; [exact wf_C8|]. split; [exact mro_C8|]. split; [exact keep_U8|].
  split; [intros l name d v (c & (i & H & _) & _); destruct l; discriminate|].
  split; [vm_compute; reflexivity|]. split; [vm_compute; eauto 8|repeat split].
Qed.

(** ** C14: what can be wrong with such a value when validate() checks it: parts
    that are not equal to themselves, lengths, and nested instances. *)
Theorem C14_accepted_values : forall E C U, wf_ctab C -> wf_mro C -> forall w S l name d v,
  values_accepted E C U w -> declares C w l name d -> stored w l name = Some v -> coherent_type (decl_type d) ->
  (valid_value E C U w S (decl_type d) l name v <-> faultless E C U w S (decl_type d) v).
Proof. exact accepted_faultless. Qed.
Print Assumptions C14_accepted_values.
Example C14_accepted_values_ex :
  wf_ctab C8 /\ wf_mro C8 /\ values_accepted E1 C8 U8 w_near /\ declares C8 w_near 1 "f" (d_of (PLeaf (LfFloat false None None))) /\
  stored w_near 1 "f" = Some (VFloat TOL) /\ coherent_type (PLeaf (LfFloat false None None)) /\
  self_equal E1 C8 U8 w_near (PLeaf (LfFloat false None None)) (VFloat TOL) /\
  ~ self_equal E1 C8 U8 w_near (PLeaf (LfFloat false None None)) (VFloat S754_nan).
Proof.
  split; [exact wf_C8|]. split; [exact mro_C8|]. split; [exact accepted_near|]. split; [vm_compute; eauto 8|].
  split; [vm_compute; reflexivity|]. split; [exact I|]. split; [exists 0; intros n _; eexists; vm_compute; reflexivity|].
  intros (k & H). destruct (H k (le_n k)) as (w' & H'). vm_compute in H'. discriminate.
Qed.

(** An instance is invalid right after nan, or infinity, was assigned to a Float. *)
Theorem C14_special_floats_refuted : exists E C U w l name d, wf_ctab C /\ declares C w l name d /\ pd_kind d = KProp /\
  pd_type d = PLeaf (LfFloat false None None) /\
  forall n f, f = S754_nan \/ f = S754_infinity false -> exists w1 e, exec E C U (20 + n) (COp (OSet l name (VFloat f))) w = (Ok VNone, w1) /\
    fst (exec E C U (20 + n) (COp (OValidate l)) w) = Ok (VBool true) /\
    fst (exec E C U (20 + n) (COp (OValidate l)) w1) = Exc (ExValidation [e]).
Proof.
  exists E1, C8, U8, w_lim, 0, "f", (d_of (PLeaf (LfFloat false None None))). split; [exact wf_C8|].
  split; [vm_compute; eauto 8|]. split; [reflexivity|]. split; [reflexivity|].
  intros n f [-> | ->]; do 2 eexists; (split; [vm_compute; reflexivity|split; vm_compute; reflexivity]).
Qed.
Print Assumptions C14_special_floats_refuted.

(** A Union need not be: Union('', [StringChoice('', {'AB': ['cd']}), String('',
    change_case='lower')]) takes 'CD' as 'cd', and 'cd' as 'AB'.  The instance
    is invalid right after the assignment. *)
Theorem C22_union_refuted : exists E C U w l name d v v1 v2, wf_ctab C /\ declares C w l name d /\ pd_kind d = KProp /\
  (forall n, exists w1 w2 e, exec E C U (20 + n) (COp (OSet l name v)) w = (Ok VNone, w1) /\ stored w1 l name = Some v1 /\
     p_validate E C (exec E C U (20 + n)) (pd_type d) (Some l) name v1 w1 = (Ok v2, w2) /\
     fst (exec E C U (20 + n) (COp (OValidate l)) w1) = Exc (ExValidation [e])) /\ v1 <> v2.
Proof.
  exists E1, C8, U8, w_lim, 0, "u", (d_of t_choose), (VStr "CD"), (VStr "cd"), (VStr "AB"). split; [exact wf_C8|].
  split; [vm_compute; eauto 8|]. split; [reflexivity|]. split; [|discriminate].
  intros n. do 3 eexists. split; [vm_compute; reflexivity|]. split; [vm_compute; reflexivity|]. split; vm_compute; reflexivity.
Qed.
Print Assumptions C22_union_refuted.

(** ** C29: an alternative that raises neither ValueError, KeyError, TypeError nor
    AttributeError hides the later ones: infinity is rejected with OverflowError by
    Union('', [Integer('', cast=True), Float('')]), though Float takes it. *)
Theorem C29_overflow_refuted : exists E C U w l name d si p q v, wf_ctab C /\ declares C w l name d /\ pd_kind d = KProp /\ pd_type d = PUnion si [p; q] /\
  forall n, (exists w', exec E C U (20 + n) (COp (OSet l name v)) w = (Exc ExOverflow, w')) /\
    exists w', p_validate E C (exec E C U (20 + n)) q (Some l) name v w = (Ok v, w').
Proof.
  exists E1, C8, U8, w_lim, 0, "n", (d_of t_number), false, (PLeaf (LfInt true None None)), (PLeaf (LfFloat true None None)), (VFloat (S754_infinity false)).
  split; [exact wf_C8|]. split; [vm_compute; eauto 8|]. split; [reflexivity|]. split; [reflexivity|].
  intros n. split; eexists; vm_compute; reflexivity.
Qed.
Print Assumptions C29_overflow_refuted.

(** ** C12: Renamed properties that lead to each other recurse whatever the limit
    on the depth is.  [S] holds of names that lead to each other. *)
Theorem C12_renamed_loop : forall E C U l w (S : string -> Prop),
  (forall a, S a -> exists d b, declares C w l a d /\ pd_kind d = KRenamed b /\ S b) -> forall n a, S a ->
  exec E C U n (COp (OGet l a)) w = (Exc ExRecursion, w) /\
  (forall v, exec E C U n (COp (OSet l a v)) w = (Exc ExRecursion, w)) /\
  exec E C U n (COp (ODel l a)) w = (Exc ExRecursion, w).
Proof.
  intros E C U l w S HS n a Ha. split; [exact (loop_get E C U l w S HS n a Ha)|].
  split; [intros v; exact (loop_set E C U l w S HS n v a Ha)|exact (loop_del E C U l w S HS n a Ha)].
Qed.
Print Assumptions C12_renamed_loop.
Example C12_renamed_loop_ex : forall a, a = "a" \/ a = "b" -> exists d b, declares C8 w_lim 3 a d /\ pd_kind d = KRenamed b /\ (b = "a" \/ b = "b").
Proof.
  intros a [-> | ->]; do 2 eexists; (split; [vm_compute; eauto 8|]);
    (split; [reflexivity|auto]).
Qed.

(** ** C18: equality is not transitive for floats, which are compared with a tolerance. *)
Theorem C18_transitive_refuted : exists E C U w a b c, wf_ctab C /\ forall n,
  let eq x y := fst (exec E C U (20 + n) (COp (OEqual (VInst x) (VInst y))) w) in
  eq a b = Ok (VBool true) /\ eq b c = Ok (VBool true) /\ eq a c = Ok (VBool false).
Proof.
  exists E1, C8, U8, w_near, 0, 1, 2. split; [exact wf_C8|]. intros n. split; [vm_compute; reflexivity|]. split; vm_compute; reflexivity.
Qed.
Print Assumptions C18_transitive_refuted.

(** ** C17: a valid instance whose dictionary has colours as keys cannot be serialized. *)
Theorem C17_color_keys_refuted : exists E C U w l name d v, wf_ctab C /\ declares C w l name d /\ forall n, exists w1,
  exec E C U (20 + n) (COp (OSet l name v)) w = (Ok VNone, w1) /\
  fst (exec E C U (20 + n) (COp (OValidate l)) w1) = Ok (VBool true) /\
  forall o, fst (exec E C U (20 + n) (COp (OSer l o)) w1) = Exc ExType.
Proof.
  exists E1, C8, U8, w_lim, 0, "d", (d_of t_colors), (VDict [(VStr "red", VInt 3)]). split; [exact wf_C8|].
  split; [vm_compute; eauto 8|].
  intros n. eexists. split; [vm_compute; reflexivity|]. split; [vm_compute; reflexivity|]. intros [[|] [|]]; vm_compute; reflexivity.
Qed.
Print Assumptions C17_color_keys_refuted.

(** ** C03: a listener that is registered during an assignment is called by it. *)
Theorem C03_listeners_at_start_refuted : exists E C U w l name d v f, wf_ctab C /\ declares C w l name d /\ pd_kind d = KProp /\
  (forall m, ~ In f (registered w l name m)) /\
  forall n, exists sid new, exec E C U (20 + n) (COp (OSet l name v)) w = (Ok VNone, new) /\
    In (ECall sid l name MSet f VUndef v) (w_trace new) /\ ~ In (ECall sid l name MSet f VUndef v) (w_trace w).
Proof.
  exists E1, C8, U8, w_lim, 0, "x", (d_of t_x), (VInt 3), (LCb 9). split; [exact wf_C8|].
  split; [vm_compute; eauto 8|]. split; [reflexivity|].
  split; [intros [| |] H; vm_compute in H; intuition discriminate|].
  intros n. do 2 eexists. split; [vm_compute; reflexivity|]. split; [left; reflexivity|].
  intros H. vm_compute in H. intuition discriminate.
Qed.
Print Assumptions C03_listeners_at_start_refuted.
