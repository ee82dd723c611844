(** Property theorems about [deserialize] with [_instance] (C74): the values are
    put into an existing instance [l] instead of a new one.  [deser_into] is that
    call, and [k] is the output class that the class name in the input selects. *)
From Verif Require Import World WorldSpec WorldExample WorldExampleFacts GraphSpec DeserSpec DeserInto IntoSpec IntoFacts IntoFrame IntoNew IntoExample.
Local Open Scope string_scope.
Local Open Scope list_scope.
Local Open Scope nat_scope.

(** ** C74: deserializing into an existing instance *)
(** What it does, for properties without HasProperties classes in their types:
    no listener is called, no link, no other instance and nothing else of the
    instance changes.  There is a list of properties that were stored, each from
    the input by its declaration; it has all of them if the call returns, and
    every other property keeps its value. *)
Theorem C74_stores_the_values : forall E C U n cid d o l k c ci w r w',
  has_class C w l ci -> deser_class C cid (vd_get d class_key) o w = (Ok k, w) -> nth_error (ct_cls C) k = Some c ->
  (forall key j, In (VStr key, j) d -> ordinary_key c ci key) -> NoDup (map fst d) -> o_valid o = false ->
  deser_into E C U (exec E C U n) cid (VDict d) o l w = (r, w') ->
  only_values l w w' /\
  exists done,
    (forall key j, In (key, j) done -> In (VStr key, j) d /\ exists d0 d1, dget (c_props c) key = Some d0 /\
       (pd_kind d0 = KProp -> dget (c_props ci) key = Some d1) /\ stores E C U n o d0 d1 l key j (stored w' l key)) /\
    (forall v, r = Ok v -> forall key j, In (VStr key, j) d -> dhas (c_props c) key = true -> In (key, j) done) /\
    (forall name, ~ In name (map fst done) -> stored w' l name = stored w l name).
Proof. exact into_stores. Qed.
Print Assumptions C74_stores_the_values.
Example C74_stores_the_values_ex :
  has_class C_in w_four 2 c_inear /\ deser_class C_in 0 (vd_get j_good class_key) o_plain w_four = (Ok 0, w_four) /\
  (forall key j, In (VStr key, j) j_good -> ordinary_key c_ibase c_inear key) /\ NoDup (map fst j_good) /\
  exists w', deser_into E1 C_in U2 (exec E1 C_in U2 9) 0 (VDict j_good) o_plain 2 w_four = (Ok (VInst 2), w') /\
    stored w' 2 "x" = Some (VInt 5) /\ stored w' 2 "tag" = Some (VStr "t") /\ stored w' 2 "u" = Some (VInt 9) /\ stored w' 2 "more" = None /\
    stored w_four 2 "x" = Some (VInt 3) /\ stored w_four 2 "u" = None.
Proof.
  split; [eexists; split; vm_compute; reflexivity|]. split; [vm_compute; reflexivity|]. split.
  { intros key j H. destruct H as [[= <- <-]|[[= <- <-]|[[= <- <-]|[]]]]; intros d0 Hd; cbn in Hd; injection Hd as <-; (split; [split; [exact I|discriminate]|]);
      try discriminate; intros _; eexists; (split; [reflexivity|]); (split; [reflexivity|]); (split; [exact I|discriminate]). }
  split; [repeat constructor; simpl; intuition discriminate|].
  eexists. split; [vm_compute; reflexivity|]. vm_compute. repeat split.
Qed.

(** It returns the instance it was given, which is one of the output class or of
    a subclass. *)
Theorem C74_returns_the_instance : forall E C U n cid v o l w x w',
  deser_into E C U (exec E C U n) cid v o l w = (Ok x, w') ->
  x = VInst l /\ exists d k ci, v = VDict d /\ deser_class C cid (vd_get d class_key) o w = (Ok k, w) /\ has_class C w l ci /\ In k (c_mro ci).
Proof. exact into_instance. Qed.
Print Assumptions C74_returns_the_instance.
Example C74_returns_the_instance_ex :
  (exists w', deser_into E1 C_in U2 (exec E1 C_in U2 9) 0 (VDict j_good) o_plain 2 w_four = (Ok (VInst 2), w')) /\
  c_mro c_inear = [2; 0] /\
  fst (deser_into E1 C_in U2 (exec E1 C_in U2 9) 2 (VDict ((class_key, VStr "Base") :: j_good)) (DOpt true false false) 0 w_four) = Ok (VInst 0).
Proof. split; [eexists; vm_compute; reflexivity|]. split; vm_compute; reflexivity. Qed.

(** An instance of another class is refused before anything happens. *)
Theorem C74_refuses_other_classes : forall E C U n cid d o l k c ci w,
  deser_class C cid (vd_get d class_key) o w = (Ok k, w) -> nth_error (ct_cls C) k = Some c ->
  has_class C w l ci -> ~ In k (c_mro ci) -> deser_into E C U (exec E C U n) cid (VDict d) o l w = (Exc ExValue, w).
Proof. exact into_other. Qed.
Print Assumptions C74_refuses_other_classes.
Example C74_refuses_other_classes_ex :
  deser_class C_in 0 (vd_get j_good class_key) o_plain w_four = (Ok 0, w_four) /\ has_class C_in w_four 3 c_alien /\ ~ In 0 (c_mro c_alien) /\
  (* the subclass takes the superclass's instance for none of its own *)
  deser_class C_in 2 (vd_get j_good class_key) o_plain w_four = (Ok 2, w_four) /\ has_class C_in w_four 0 c_ibase /\ ~ In 2 (c_mro c_ibase).
Proof.
  split; [vm_compute; reflexivity|]. split; [eexists; split; vm_compute; reflexivity|]. split; [simpl; intuition discriminate|].
  split; [vm_compute; reflexivity|]. split; [eexists; split; vm_compute; reflexivity|simpl; intuition discriminate].
Qed.

(** With [assert_valid] the instance is validated after everything is stored. *)
Theorem C74_validated_last : forall E C U n cid v t s l w r w',
  deser_into E C U (exec E C U n) cid v (DOpt t s true) l w = (r, w') ->
  exists r1 w1, deser_into E C U (exec E C U n) cid v (DOpt t s false) l w = (r1, w1) /\ match r1 with
    | Exc e => r = Exc e /\ w' = w1
    | Ok x => exists r2, exec E C U n (COp (OValidate l)) w1 = (r2, w') /\ r = match r2 with Ok _ => Ok (VInst l) | Exc e => Exc e end
    end.
Proof. exact into_valid. Qed.
Print Assumptions C74_validated_last.
Example C74_validated_last_ex :
  fst (deser_into E1 C_in U2 (exec E1 C_in U2 9) 0 (VDict j_good) (DOpt false false true) 0 w_four) = Ok (VInst 0) /\
  (* more is required *)
  fst (deser_into E1 C_in U2 (exec E1 C_in U2 9) 0 (VDict j_good) (DOpt false false false) 2 w_four) = Ok (VInst 2) /\
  fst (deser_into E1 C_in U2 (exec E1 C_in U2 9) 0 (VDict j_good) (DOpt false false true) 2 w_four) =
    Exc (ExValidation [ET (Some "missing") (Some "more") (Some 2)]).
Proof. repeat split; vm_compute; reflexivity. Qed.

(** Deserializing is creating an instance of the output class without arguments
    and deserializing into that, with all listeners disabled: one returns exactly
    when the other does, and then instance and state are the same, also with
    listeners, links and other instances around.  (This is for properties
    without HasProperties classes and Unions in their types.) *)
Theorem C74_like_a_new_instance : forall E C U, wf_ctab C -> forall n cid d o k c w x w',
  deser_class C cid (vd_get d class_key) o w = (Ok k, w) -> nth_error (ct_cls C) k = Some c -> In k (c_mro c) ->
  (forall key j d0, In (VStr key, j) d -> dget (c_props c) key = Some d0 ->
     (inst_free (pd_type d0) /\ no_union (pd_type d0)) /\ (forall s, pd_kind d0 <> KRenamed s)) ->
  o_valid o = false ->
  (exec E C U (S n) (COp (ODeser cid (VDict d) o)) w = (Ok x, w') <->
   disabled None (let* y := exec E C U (S n) (COp (ONew k (Some []))) in
     match y with VInst l => deser_into E C U (exec E C U n) cid (VDict d) o l | _ => throw ExType end) w = (Ok x, w')).
Proof. exact into_new. Qed.
Print Assumptions C74_like_a_new_instance.
Example C74_like_a_new_instance_ex :
  wf_ctab C_in /\ deser_class C_in 0 (vd_get j_good class_key) o_plain w_four = (Ok 0, w_four) /\ In 0 (c_mro c_ibase) /\
  (forall key j d0, In (VStr key, j) j_good -> dget (c_props c_ibase) key = Some d0 ->
     (inst_free (pd_type d0) /\ no_union (pd_type d0)) /\ (forall s, pd_kind d0 <> KRenamed s)) /\
  exists w', exec E1 C_in U2 10 (COp (ODeser 0 (VDict j_good) o_plain)) w_four = (Ok (VInst 4), w') /\
    stored w' 4 "x" = Some (VInt 5) /\ stored w' 4 "u" = Some (VInt 9).
Proof.
  split; [exact wf_C_in|]. split; [vm_compute; reflexivity|]. split; [now left|]. split.
  { intros key j d0 H Hd. destruct H as [[= <- <-]|[[= <- <-]|[[= <- <-]|[]]]]; cbn in Hd; injection Hd as <-; repeat split; discriminate. }
  eexists. split; [vm_compute; reflexivity|]. vm_compute. repeat split.
Qed.

(** Whatever the types, listeners and callbacks are: the suppressed modes are
    restored and every instance keeps its class. *)
Theorem C74_keeps_classes : forall E C U, wf_ctab C -> forall n cid v o l c w r w', has_class C w l c ->
  deser_into E C U (exec E C U n) cid v o l w = (r, w') ->
  w_quar w' = w_quar w /\ forall l' c', has_class C w l' c' -> has_class C w' l' c'.
Proof. exact into_keeps_classes. Qed.
Print Assumptions C74_keeps_classes.
Example C74_keeps_classes_ex : wf_ctab C_in /\ has_class C_in w_four 1 c_isub /\ has_class C_in w_four 3 c_alien /\
  exists w', deser_into E1 C_in U2 (exec E1 C_in U2 9) 0 (VDict j_half) o_plain 1 w_four = (Exc (ExValidation [ET (Some "invalid") (Some "tag") (Some 1)]), w').
Proof. split; [exact wf_C_in|]. split; [eexists; split; vm_compute; reflexivity|]. split; [eexists; split; vm_compute; reflexivity|]. eexists. vm_compute. reflexivity. Qed.

(** Stored values stay well typed, also when it raises, if the class of the
    instance declares the properties without setter as the output class does. *)
Theorem C74_keeps_types : forall E C U, wf_ctab C -> forall n cid d o l k ck ci w r w', wf_mro C -> validators_keep U ->
  has_class C w l ci -> deser_class C cid (vd_get d class_key) o w = (Ok k, w) -> nth_error (ct_cls C) k = Some ck -> same_unset ck ci ->
  deser_into E C U (exec E C U n) cid (VDict d) o l w = (r, w') -> well_typed C w -> well_typed C w'.
Proof. exact into_typed. Qed.
Print Assumptions C74_keeps_types.
Example C74_keeps_types_ex : wf_ctab C_in /\ wf_mro C_in /\ validators_keep U2 /\ has_class C_in w_four 2 c_inear /\
  deser_class C_in 0 (vd_get j_good class_key) o_plain w_four = (Ok 0, w_four) /\ same_unset c_ibase c_inear /\ well_typed C_in w_four /\
  fst (deser_into E1 C_in U2 (exec E1 C_in U2 9) 0 (VDict j_good) o_plain 2 w_four) = Ok (VInst 2).
Proof.
  split; [exact wf_C_in|]. split; [exact mro_C_in|]. split; [exact keep_U2|]. split; [eexists; split; vm_compute; reflexivity|].
  split; [vm_compute; reflexivity|]. split; [exact near_same|]. split; [exact typed_four|vm_compute; reflexivity].
Qed.

(** A subclass that redeclares a property without setter: the superclass's
    deserialize stores a value that the subclass's declaration refuses. *)
Theorem C74_subclass_type_refuted : exists E C U n cid d o l w x w', wf_ctab C /\ wf_mro C /\ validators_keep U /\
  deser_into E C U (exec E C U n) cid (VDict d) o l w = (Ok x, w') /\ well_typed C w /\ ~ well_typed C w'.
Proof.
  exists E1, C_in, U2, 9, 0, j_good, o_plain, 1, w_four. eexists _, _.
  split; [exact wf_C_in|]. split; [exact mro_C_in|]. split; [exact keep_U2|]. split; [vm_compute; reflexivity|]. split; [exact typed_four|].
  intros W. assert (H : has_type C_in [0; 1; 2; 3] (pd_type d_u) (VInt 9)).
  { apply (W 1 "u" d_u (VInt 9)); [exists c_isub; split; [eexists; split; vm_compute; reflexivity|reflexivity]|discriminate|reflexivity]. }
  cbn in H. destruct H as [u H]. discriminate H.
Qed.
Print Assumptions C74_subclass_type_refuted.
(** It is not all or nothing: x has its new value although tag was refused. *)
Theorem C74_atomic_refuted : exists E C U n cid d o l w e w', has_class C w l c_ibase /\
  deser_into E C U (exec E C U n) cid (VDict d) o l w = (Exc e, w') /\
  stored w l "x" = Some (VInt 3) /\ stored w' l "x" = Some (VInt 5).
Proof.
  exists E1, C_in, U2, 9, 0, j_half, o_plain, 0, w_four. eexists _, _. split; [eexists; split; vm_compute; reflexivity|]. split; [vm_compute; reflexivity|]. vm_compute. split; reflexivity.
Qed.
Print Assumptions C74_atomic_refuted.
(** It changes properties that cannot be assigned, on an instance that is in use. *)
Theorem C74_unassignable_refuted : exists E C U n cid d o l w x w1 w2, declares C w l "u" d_any /\
  (forall v, fst (exec E C U n (COp (OSet l "u" v)) w) = Exc ExAttr) /\
  deser_into E C U (exec E C U n) cid (VDict d) o l w = (Ok x, w1) /\ stored w1 l "u" = Some (VInt 9) /\
  deser_into E C U (exec E C U n) cid (VDict [(VStr "u", VInt 8)]) o l w1 = (Ok x, w2) /\ stored w2 l "u" = Some (VInt 8).
Proof.
  exists E1, C_in, U2, 9, 0, j_good, o_plain, 0, w_four. eexists _, _, _. split; [exists c_ibase; split; [eexists; split; vm_compute; reflexivity|reflexivity]|].
  split; [intros v; vm_compute; reflexivity|]. split; [vm_compute; reflexivity|]. split; [reflexivity|]. split; [vm_compute; reflexivity|reflexivity].
Qed.
Print Assumptions C74_unassignable_refuted.
