(** The property theorems about class creation.  Every theorem is followed by
    its assumptions and a concrete case. *)
From Verif Require Import World WorldSpec WorldExample AccessSpec Meta MetaSpec MetaExample MetaFacts MetaCheck.
Local Open Scope string_scope.
Local Open Scope list_scope.
Local Open Scope nat_scope.

(** ** C30: inherited properties follow the MRO *)
Theorem C30_single_inheritance : forall E U reg T, built E U reg T -> single_inheritance T ->
  forall id c key d, class_at T id c -> m_meta c = true ->
  (dget (m_props c) key = Some d <-> found_in T (m_mro c) key (MProp d)).
Proof. exact props_single. Qed.
Print Assumptions C30_single_inheritance.
Example C30_single_inheritance_ex :
  built E1 U1 [] T_chain /\ single_inheritance T_chain /\ length T_chain = 4 /\
  (exists c, class_at T_chain 3 c /\ m_meta c = true /\ m_mro c = [3; 2; 1; 0] /\ dkeys (m_props c) = ["x"; "old"; "y"] /\
     lookup T_chain (m_mro c) "y" = Some (3, prop_int) /\ lookup T_chain (m_mro c) "x" = Some (1, prop_int)).
Proof.
  split; [exact built_chain|]. split.
  - intros [|[|[|[|[|k]]]]] c H; try discriminate H; injection H as <-; simpl; auto.
  - split; [reflexivity|]. eexists. split; [reflexivity|]. repeat split.
Qed.
Theorem C30_multiple_inheritance : forall E U reg T, built E U reg T ->
  (forall id c, class_at T id c -> m_meta c = true -> in_order T c /\ none_hidden m_props MProp T c) ->
  forall id c key d, class_at T id c -> m_meta c = true ->
  (dget (m_props c) key = Some d <-> found_in T (m_mro c) key (MProp d)).
Proof. exact props_mro. Qed.
Print Assumptions C30_multiple_inheritance.
Theorem C30_handlers : forall E U reg T, built E U reg T ->
  (forall id c, class_at T id c -> m_meta c = true ->
     in_order T c /\ none_hidden m_obs MObs T c /\ none_hidden m_vals MCval T c) ->
  forall id c key, class_at T id c -> m_meta c = true ->
  (forall o, dget (m_obs c) key = Some o <-> found_in T (m_mro c) key (MObs o)) /\
  (forall v, dget (m_vals c) key = Some v <-> found_in T (m_mro c) key (MCval v)).
Proof. exact handlers_mro. Qed.
Print Assumptions C30_handlers.
Example C30_multiple_inheritance_ex :
  built E1 U1 [] T_pair /\ length T_pair = 4 /\
  (forall id c, class_at T_pair id c -> m_meta c = true ->
     in_order T_pair c /\ none_hidden m_props MProp T_pair c /\ none_hidden m_obs MObs T_pair c /\ none_hidden m_vals MCval T_pair c) /\
  (exists c, class_at T_pair 3 c /\ m_mro c = [3; 1; 2; 0] /\
     lookup T_pair (m_mro c) "x" = Some (1, prop_int) /\ lookup T_pair (m_mro c) "y" = Some (2, prop_str)).
Proof.
  split; [exact built_pair|]. split; [reflexivity|]. split.
  - assert (N : forall (A : Type) (attr : mcls -> dict A) wrap c, forallb (fun b => match nth_error T_pair b with
        | Some cb => forallb (fun k => match lookup T_pair (tl (m_mro c)) k with Some (k', m) => match nth_error T_pair k' with Some c' => m_meta c' | None => false end | None => false end) (dkeys (attr cb)) | None => true end) (b_bases (m_body c)) = true ->
        (forall k i m, lookup T_pair (tl (m_mro c)) k = Some (i, m) -> (exists b cb, In b (b_bases (m_body c)) /\ nth_error T_pair b = Some cb /\ In k (dkeys (attr cb))) -> exists a, m = wrap a) ->
        none_hidden attr wrap T_pair c).
    { intros A attr wrap c H1 H2 b cb key a Hb Hcb Ha. rewrite forallb_forall in H1. specialize (H1 b Hb). unfold class_at in Hcb. rewrite Hcb in H1.
      rewrite forallb_forall in H1. assert (Hk : In key (dkeys (attr cb))) by (apply in_map_iff; exists (key, a); split; auto; now apply dget_in).
      specialize (H1 key Hk). destruct (lookup T_pair (tl (m_mro c)) key) as [[k' m]|] eqn:El; [|discriminate].
      destruct (H2 key k' m El) as [a' ->]; [eauto 6|]. exists a'. exists k'. destruct (nth_error T_pair k') as [c'|] eqn:Ec; [|discriminate]. eauto. }
    intros [|[|[|[|[|k]]]]] c H _; try discriminate H; injection H as <-; (split; [reflexivity|]);
      (split; [|split]); apply N; try reflexivity; simpl;
      intros k i m Hl (b & cb & Hb & Hcb & Hk);
      repeat (destruct Hb as [<-|Hb]; [injection Hcb as <-; simpl in Hk;
        repeat (destruct Hk as [<-|Hk]; [vm_compute in Hl; injection Hl as <- <-; eexists; reflexivity|]); destruct Hk|]);
      destruct Hb.
  - eexists. split; [reflexivity|]. repeat split.
Qed.
(** The ancestors are not applied in MRO order: class D has x, class E has x,
    class C(D, F), class B(D, E), class A(B, C): the MRO finds the x of D, the
    property table has the x of E. *)
Theorem C30_order_refuted : exists T c d, built E1 U1 [] T /\ class_at T 6 c /\ m_meta c = true /\
  m_mro c = [6; 5; 4; 1; 2; 3; 0] /\ lookup T (m_mro c) "x" = Some (1, prop_int) /\
  dget (m_props c) "x" = Some d /\ MProp d = prop_str.
Proof. exists T_order. eexists _, _. split; [exact built_order|]. split; [reflexivity|]. repeat split. Qed.
Print Assumptions C30_order_refuted.
(** class A: x; class B(A): x = None; class C(A); class D(B, C): attribute lookup
    on D finds None, the property table has x. *)
Theorem C30_hidden_refuted : exists T c d, built E1 U1 [] T /\ class_at T 4 c /\ m_meta c = true /\
  lookup T (m_mro c) "x" = Some (2, MOther) /\ dget (m_props c) "x" = Some d.
Proof. exists T_diamond. eexists _, _. split; [exact built_diamond|]. split; [reflexivity|]. repeat split. Qed.
Print Assumptions C30_hidden_refuted.
(** class M: x = None, not a HasProperties class; class A: x; class B(M, A). *)
Theorem C30_mixin_refuted : exists T c d, built E1 U1 [] T /\ class_at T 3 c /\ m_meta c = true /\
  lookup T (m_mro c) "x" = Some (1, MOther) /\ dget (m_props c) "x" = Some d.
Proof. exists T_mixin. eexists _, _. split; [exact built_mixin|]. split; [reflexivity|]. repeat split. Qed.
Print Assumptions C30_mixin_refuted.
(** For every hierarchy: the names in the property table are those defined in
    the body, and those of a base that the body does not mention. *)
Theorem C30_names : forall E U reg T b n w c w', built E U reg T -> wf_body T b ->
  create E U reg n T b w = (Ok c, w') -> m_meta c = true ->
  forall key, In key (dkeys (m_props c)) <-> names_property T b key.
Proof. exact names_of_class. Qed.
Print Assumptions C30_names.
(** The class tables built by class statements satisfy the assumptions of the
    theorems about instances. *)
Theorem C30_tables_well_formed : forall E U reg T, built E U reg T -> wf_ctab (to_ctab T reg) /\ wf_mro (to_ctab T reg).
Proof. exact table_wf. Qed.
Print Assumptions C30_tables_well_formed.
Example C30_names_ex :
  let b := Body "E" [5; 4] false [("x", MOther); ("z", prop_int)] None in
  built E1 U1 [] T_order /\ wf_body T_order b /\
  (exists c w', create E1 U1 [] 20 T_order b w_empty = (Ok c, w') /\ m_meta c = true /\ dkeys (m_props c) = ["z"]).
Proof.
  split; [exact built_order|]. split; [apply wf_bodyb_ok; reflexivity|]. eexists _, _. split; [vm_compute; reflexivity|]. split; reflexivity.
Qed.

(** ** C31: class defaults follow the MRO and are checked *)
Theorem C31_single_inheritance : forall E U reg T, built E U reg T -> plain_mixins T -> single_inheritance T ->
  forall id c defs key, class_at T id c -> m_meta c = true -> m_def c = Some defs ->
  dget defs key = body_default T (m_mro c) key.
Proof. exact defaults_single. Qed.
Print Assumptions C31_single_inheritance.
(** Instances are given that default, or else the one of the property. *)
Theorem C31_instances : forall E U reg T id c key d, built E U reg T -> plain_mixins T -> single_inheritance T ->
  class_at T id c -> m_meta c = true -> dget (m_props c) key = Some d ->
  exists rc, nth_error (ct_cls (to_ctab T reg)) id = Some rc /\ dget (c_props rc) key = Some d /\
    chosen_default rc key d = match body_default T (m_mro c) key with Some x => x | None => pd_default d end.
Proof. exact instance_default. Qed.
Print Assumptions C31_instances.
Example C31_instances_ex : exists c d, class_at T_chain 3 c /\ dget (m_props c) "y" = Some d /\ m_meta c = true /\
  body_default T_chain (m_mro c) "y" = Some (DVal (VInt 1)).
Proof. eexists _, _. split; [reflexivity|]. repeat split. Qed.
(** Creation succeeds only if every default, own or inherited, names a property
    and is undefined or valid; the table it stores is the own one over those of
    the ancestors. *)
Theorem C31_checked : forall E U reg T b n w c w', built E U reg T -> plain_mixins T -> wf_body T b ->
  create E U reg n T b w = (Ok c, w') -> m_meta c = true ->
  exists defs vs, m_def c = Some defs /\ defaults_are T b (tl (m_mro c)) defs /\
    each (default_accepted E (to_ctab T reg) U n (m_props c)) defs w vs w'.
Proof. exact defaults_checked. Qed.
Print Assumptions C31_checked.
(** When creation fails, it is a TypeError for a dangling name or an impossible
    MRO, or the first default that is not accepted: AttributeError for an
    unknown name and for a ValueError of the validation. *)
Theorem C31_rejected : forall E U reg T b n w e w', built E U reg T -> plain_mixins T -> wf_body T b ->
  create E U reg n T b w = (Exc e, w') ->
  exists props, (forall key, In key (dkeys props) <-> names_property T b key) /\
  (w' = w /\ e = ExType /\
    ((exists key d nn, dget (b_dict b) key = Some (MProp d) /\ pd_kind d = KRenamed nn /\ ~ names_property T b nn) \/
     (exists key o ns nm, dget (b_dict b) key = Some (MObs o) /\ od_names o = Some ns /\ In nm ns /\
        forall d, dget props nm = Some d -> pd_kind d <> KProp) \/
     c3 T (b_bases b) = None) \/
  exists mro defs pre kx post vs w1, c3 T (b_bases b) = Some mro /\ defaults_are T b mro defs /\ defs = pre ++ kx :: post /\
    each (default_accepted E (to_ctab T reg) U n props) pre w vs w1 /\
    default_fails E (to_ctab T reg) U n props kx w1 e w').
Proof. exact creation_fails. Qed.
Print Assumptions C31_rejected.
Example C31_ex :
  let go defs := create E1 U1 [] 20 T_chain (Body "D" [2] false [] (Some defs)) w_empty in
  built E1 U1 [] T_chain /\ plain_mixins T_chain /\ single_inheritance T_chain /\
  (exists c w', go [("x", DVal (VInt 9))] = (Ok c, w') /\ m_def c = Some [("x", DVal (VInt 9)); ("y", DVal (VStr "b"))]) /\
  fst (go [("q", DVal (VInt 9))]) = Exc ExAttr /\ fst (go [("x", DVal (VStr "a"))]) = Exc ExAttr /\
  (exists c, class_at T_chain 3 c /\ m_def c = Some [("x", DVal (VInt 6)); ("y", DVal (VInt 1))]).
Proof.
  assert (H : forall k c, class_at T_chain k c -> m_meta c = true /\ length (b_bases (m_body c)) <= 1).
  { intros [|[|[|[|[|k]]]]] c H; try discriminate H; injection H as <-; simpl; auto. }
  cbv zeta. split; [exact built_chain|]. split; [intros k c Hc Hm; destruct (H k c Hc); congruence|].
  split; [intros k c Hc; apply (H k c Hc)|]. split; [eexists _, _; split; [vm_compute; reflexivity|reflexivity]|].
  split; [vm_compute; reflexivity|]. split; [vm_compute; reflexivity|]. eexists. split; reflexivity.
Qed.
(** The default inf of an Integer is not reported as AttributeError. *)
Theorem C31_error_refuted : exists T b n w e w', built E1 U1 [] T /\ plain_mixins T /\ wf_body T b /\
  names_property T b "x" /\ b_defaults b = Some [("x", DVal (VFloat (S754_infinity false)))] /\
  create E1 U1 [] n T b w = (Exc e, w') /\ e <> ExAttr.
Proof.
  assert (H : forall k c, class_at T_chain k c -> m_meta c = true).
  { intros [|[|[|[|[|k]]]]] c H; try discriminate H; injection H as <-; simpl; auto. }
  exists T_chain, (Body "D" [2] false [] (Some [("x", DVal (VFloat (S754_infinity false)))])), 20, w_empty, ExOverflow. eexists.
  split; [exact built_chain|]. split; [intros k c Hc Hm; rewrite (H k c Hc) in Hm; discriminate|].
  split; [split; [constructor|]; split; [repeat constructor; intros []|]; split; [repeat constructor; simpl; lia|repeat constructor; intros []]|].
  split; [right; split; [reflexivity|]; eexists 2, _; split; [now left|]; split; [reflexivity|vm_compute; auto]|].
  split; [reflexivity|]. split; [vm_compute; reflexivity|discriminate].
Qed.
Print Assumptions C31_error_refuted.
(** class Base: default k = 1; class P1(Base); class P2(Base): default k = 2;
    class D(P1, P2): the bodies along the MRO of D give 2, the table has 1. *)
Theorem C31_diamond_refuted : exists T c defs, built E1 U1 [] T /\ plain_mixins T /\ class_at T 4 c /\ m_meta c = true /\
  m_def c = Some defs /\ body_default T (m_mro c) "k" = Some (DVal (VInt 2)) /\ dget defs "k" = Some (DVal (VInt 1)).
Proof.
  exists T_def. eexists _, _. split; [exact built_def|]. split.
  - intros [|[|[|[|[|[|k]]]]]] c H; try discriminate H; injection H as <-; simpl; discriminate.
  - split; [reflexivity|]. repeat split.
Qed.
Print Assumptions C31_diamond_refuted.

(** ** C32: class creation rejects dangling names *)
Theorem C32_renamed_rejected : forall E U reg T b n w key d nn, built E U reg T -> wf_body T b ->
  b_meta b = true \/ (exists k c, In k (b_bases b) /\ class_at T k c /\ m_meta c = true) ->
  dget (b_dict b) key = Some (MProp d) -> pd_kind d = KRenamed nn -> ~ names_property T b nn ->
  create E U reg n T b w = (Exc ExType, w).
Proof. exact renamed_dangling. Qed.
Print Assumptions C32_renamed_rejected.
Theorem C32_observer_rejected : forall E U reg T b n w key o ns nm, built E U reg T -> wf_body T b ->
  b_meta b = true \/ (exists k c, In k (b_bases b) /\ class_at T k c /\ m_meta c = true) ->
  dget (b_dict b) key = Some (MObs o) -> od_names o = Some ns -> In nm ns ->
  ~ names_property T b nm \/ (exists d, dget (b_dict b) nm = Some (MProp d) /\ pd_kind d <> KProp) ->
  create E U reg n T b w = (Exc ExType, w).
Proof. exact observer_dangling. Qed.
Print Assumptions C32_observer_rejected.
Theorem C32_names_checked : forall E U reg T b n w c w', wf_body T b -> create E U reg n T b w = (Ok c, w') -> m_meta c = true ->
  (forall key d nn, dget (b_dict b) key = Some (MProp d) -> pd_kind d = KRenamed nn -> In nn (dkeys (m_props c))) /\
  (forall key o ns nm, dget (b_dict b) key = Some (MObs o) -> od_names o = Some ns -> In nm ns ->
     exists d, dget (m_props c) nm = Some d /\ pd_kind d = KProp).
Proof. exact names_checked. Qed.
Print Assumptions C32_names_checked.
Example C32_names_ex :
  let go dict := fst (create E1 U1 [] 20 T_chain (Body "D" [3] false dict None) w_empty) in
  let ren nn := ("r", MProp (PD (KRenamed nn) (PLeaf LfAny) true DUndef)) in
  let obs ns := ("o", MObs (OD (Some ns) MSet (LCb 1))) in
  wf_body T_chain (Body "D" [3] false [ren "q"; obs ["x"]] None) /\
  go [ren "q"; obs ["x"]] = Exc ExType /\ go [ren "x"; ("x", MOther)] = Exc ExType /\ go [obs ["x"; "old"]] = Exc ExType /\
  go [obs ["r"]; ren "y"] = Exc ExType /\
  exists c, go [ren "x"; obs ["x"; "y"]] = Ok c /\ m_meta c = true.
Proof.
  cbv zeta. split; [apply wf_bodyb_ok; reflexivity|]. repeat (split; [vm_compute; reflexivity|]).
  eexists. split; vm_compute; reflexivity.
Qed.
(** Every declared observer is called when one of its names is set on an
    instance of the class, at any later time. *)
Theorem C32_observers_called : forall E U reg T n cid c kw w r wn m p r2 w2 n3 name d v r3 w3 key o,
  built E U reg T -> class_at T cid c -> let l := length (w_heap w) in let C := to_ctab T reg in
  exec E C U (S n) (COp (ONew cid kw)) w = (Ok r, wn) -> run_prog E C U m p wn = (r2, w2) ->
  In (key, o) (m_obs c) -> observes c o name ->
  declares C w2 l name d -> pd_kind d = KProp -> is_undef v = false -> ~ In (od_mode o) (w_quar w2) ->
  exec E C U (S n3) (COp (OSet l name v)) w2 = (Ok r3, w3) ->
  exists v0 w1 new sid v1 changed fv fc fs,
    p_validate E C (exec E C U n3) (pd_type d) (Some l) name v w2 = (Ok v0, w1) /\
    assignment (fun m prev => left_by E C U l name m prev) (own_equal E C U (pd_type d)) l name v0 w1 w3 new
      sid v1 changed fv fc fs /\
    (changed = true \/ od_mode o <> MChange -> exists prev x, In (ECall sid l name (od_mode o) (od_func o) prev x) new).
Proof. exact table_called. Qed.
Print Assumptions C32_observers_called.
Example C32_observers_called_ex :
  let C := to_ctab T_chain [] in
  let w0 := snd (exec E1 C U1 20 (COp (ONew 3 (Some []))) w_empty) in
  fst (exec E1 C U1 20 (COp (ONew 3 (Some []))) w_empty) = Ok (VInst 0) /\
  (exists c, class_at T_chain 3 c /\ map fst (m_obs c) = ["on_x"; "all"]) /\
  filter (fun e => match e with ECall _ _ _ _ _ _ _ => true | _ => false end)
    (firstn 5 (w_trace (snd (exec E1 C U1 20 (COp (OSet 0 "x" (VInt 8))) w0)))) =
  [ECall 5 0 "x" MSet (LCb 6) (VInt 6) (VInt 8); ECall 5 0 "x" MValidate (LCb 7) (VInt 6) (VInt 8)].
Proof. cbv zeta. split; [vm_compute; reflexivity|]. split; [eexists; split; reflexivity|]. vm_compute. reflexivity. Qed.
(** Inherited names are not checked again: class A: x, old = Renamed('x'), an
    observer of x; class B(A): x = None is created although both point nowhere. *)
Theorem C32_inherited_refuted : exists T c d o, built E1 U1 [] T /\ class_at T 2 c /\ m_meta c = true /\
  dget (m_props c) "old" = Some d /\ pd_kind d = KRenamed "x" /\ dget (m_obs c) "on_x" = Some o /\ od_names o = Some ["x"] /\
  ~ In "x" (dkeys (m_props c)).
Proof.
  exists T_dangling. eexists _, _, _. split; [exact built_dangling|]. split; [reflexivity|].
  repeat split. simpl. intuition discriminate.
Qed.
Print Assumptions C32_inherited_refuted.
