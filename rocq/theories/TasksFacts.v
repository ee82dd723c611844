(** Proofs about extras/task.py *)
From Verif Require Import World WorldFrame WorldSpec WorldInv WorldSet WorldFacts ContainerFacts AccessFacts Tasks.
Local Open Scope string_scope.
Local Open Scope list_scope.
Local Open Scope nat_scope.

Section Facts.
  Variable E : env.
  Variable C : ctable.
  Variable U : ucode.
  Hypothesis HC : wf_ctab C.
  Local Notation ex := (exec E C U).

  Definition Rg := (fun (_ : nat) w w' => grows w w' /\ irel guard_rel w w' /\ link_rel w w').

  Lemma guard_false w w' l i : irel guard_rel w w' -> nth_error (w_heap w) l = Some i -> i_vflag i = Some false ->
    exists i', nth_error (w_heap w') l = Some i' /\ i_vflag i' = Some false.
  Proof.
    intros H Hi Hv. destruct (H l i Hi) as (i' & Hi' & _ & _ & K). exists i'. split; auto.
    destruct K as [K|[K _]]; congruence.
  Qed.

  (** A new instance is not being validated. *)
  Lemma new_unflagged n cid kw w v w' : ex (S n) (COp (ONew cid kw)) w = (Ok v, w') ->
    exists l i, v = VInst l /\ nth_error (w_heap w') l = Some i /\ i_vflag i = Some false.
  Proof.
    intros H. pose proof H as H0. cbn [exec step] in H0. unfold has_new in H0.
    apply bind_ok in H0 as (c & w1 & Hc & _). unfold class_of, lift in Hc. injection Hc as Hc _.
    destruct (nth_error (ct_cls C) cid) as [c0|] eqn:Ec; [|discriminate]. injection Hc as ->.
    destruct (frame_exec E C U _ _ (frame_ext E C U) HC (S n) (COp (ONew cid kw)) 0 w) as [_ P]; [lia|exact I|].
    rewrite H in P. cbn [fst snd cpost] in P. destruct P as (l' & -> & _ & Hsh & _).
    rewrite (new_split E C U n cid c kw w Ec) in H.
    destruct (prelude E C U n c (length (w_heap w)) (blank cid w)) as [[?|?] wk]; [|discriminate].
    destruct kw as [kw|]; [|discriminate].
    apply bind_ok in H as ([] & w2 & Hi & H). injection H as H3 <-. subst l'.
    exists (length (w_heap w)).
    unfold has_init in Hi. apply bind_ok in Hi as ([] & w3 & _ & Hi). unfold fin in Hi.
    match type of Hi with (let (_, _) := ?m ?x in _) = _ => destruct (m x) as [r3 w4] end.
    injection Hi as -> <-.
    unfold shape in Hsh. rewrite nth_error_map, w_upd_nth_same in Hsh.
    destruct (nth_error (w_heap w4) (length (w_heap w))) as [i|] eqn:Ei; [|discriminate].
    exists (i_setv (Some false) i). rewrite w_upd_nth_same, Ei. auto.
  Qed.

  Lemma deser_unflagged n cid v o w r w' : ex (S (S n)) (COp (ODeser cid v o)) w = (Ok r, w') ->
    exists l i, r = VInst l /\ nth_error (w_heap w') l = Some i /\ i_vflag i = Some false.
  Proof.
    cbn [exec step]. unfold has_deserialize. destruct v; try discriminate. rename l into d. intros H.
    apply bind_ok in H as (k & w1 & H1 & H). apply bind_ok in H as (c & w2 & H2 & H).
    destruct (has_unused c d && o_strict o); [discriminate|].
    apply bind_ok in H as (ns & w3 & H3 & H). apply bind_ok in H as (iv & w4 & H4 & H).
    apply disabled_none in H4 as (w5 & H4 & ->).
    apply (new_unflagged (S n)) in H4 as (l & i & -> & Hi & Hv).
    pose proof (frame_guard E C U) as FG. pose proof (frame_exec E C U _ _ FG HC (S n)) as Hrec.
    apply bind_ok in H as ([] & w6 & H5 & H). apply bind_ok in H as ([] & w7 & H6 & H). injection H as <- <-.
    assert (Qr : forall i, guard_rel i i) by (intros; repeat split; auto).
    assert (Rr : forall s w, Rg s w w) by (intros; apply (f_refl _ _ _ _ _ FG 0)).
    assert (Rt : forall s a b c, Rg s a b -> Rg s b c -> Rg s a c) by (intros s a b c0; apply (f_trans _ _ _ _ _ FG 0)).
    assert (G2 : Rg 0 (w_setquar (w_quar w3) w5) w6).
    { match type of H5 with iterM ?f ?xs ?wx = _ =>
        assert (G : good Rg 0 wx (iterM f xs) wx (fun _ _ => True)) end.
      { apply good_iterM; [apply Rr|]. intros x wx _ Rx Gx. destruct (dget (c_props c) (fst x)) as [pd|]; [|apply good_throw; auto].
        eapply good_bind; [apply (good_validate' E C U _ _ FG _ Hrec); [exact Rx|lia]|].
        intros b wy Ry Gy _.
        apply good_mod; auto; [|apply ext_upd; reflexivity].
        eapply Rt; [exact Ry|]. split; [apply ext_upd; reflexivity|]. split; [|apply link_rel_same, w_upd_links].
        apply irel_upd; auto. intros i0 _. repeat split; auto. }
      destruct G as (G & _). rewrite H5 in G. exact G. }
    assert (G3 : irel guard_rel w6 w7).
    { destruct (o_valid o); [|injection H6 as <-; now apply irel_heap].
      apply bind_ok in H6 as (x & w8 & H6 & H7). injection H7 as <-.
      destruct (Hrec (COp (OValidate l)) 0 w6) as [G _]; [lia|exact I|]. change (Rg 0 w6 (snd (ex (S n) (COp (OValidate l)) w6))) in G.
      cbn [exec] in G. rewrite H6 in G. apply G. }
    destruct (guard_false _ _ l i (proj1 (proj2 G2)) Hi Hv) as (i2 & Hi2 & Hv2).
    destruct (guard_false _ _ l i2 G3 Hi2 Hv2) as (i3 & Hi3 & Hv3).
    exists l, i3. auto.
  Qed.

  Lemma validate_true n l w v w' : ex (S n) (COp (OValidate l)) w = (Ok v, w') -> v = VBool true.
  Proof.
    cbn [exec step]. unfold has_validate. intros H. apply bind_ok in H as (i & w1 & _ & H).
    destruct (i_vflag i) as [[|]|]; [now injection H as <- _| |];
      apply bind_ok in H as ([] & w2 & _ & H); unfold fin in H;
      match type of H with (let (_, _) := ?m ?x in _) = _ => destruct (m x) as [r3 w4] eqn:Em end;
      injection H as -> _; apply bind_ok in Em as (c & w5 & _ & Em); apply bind_ok in Em as (a & w6 & _ & Em);
      apply bind_ok in Em as (b & w7 & _ & Em); now injection Em as <- _.
  Qed.

  Lemma tbind_inv {A B} (m : TM A) (k : A -> TM B) s r s' : tbind m k s = (r, s') ->
    (exists a s1, m s = (Ok a, s1) /\ k a s1 = (r, s')) \/ (exists e, m s = (Exc e, s') /\ r = Exc e).
  Proof.
    unfold tbind. destruct (m s) as [[a|e] s1]; intros H; [left; eauto|]. right. injection H as <- <-. eauto.
  Qed.
  Lemma low_inv {A} (m : M A) w t r s : low m (w, t) = (r, s) -> exists w1, m w = (r, w1) /\ s = (w1, t).
  Proof. unfold low. simpl. destruct (m w) as [r0 w1]. intros [= -> <-]. eauto. Qed.
  Lemma logged_inv {A} c (m : M A) w t r s : logged c m (w, t) = (r, s) ->
    exists w1, m w = (r, w1) /\ s = (w1, c w :: t).
  Proof. unfold logged. simpl. destruct (m w) as [r0 w1]. intros [= -> <-]. eauto. Qed.

  Lemma validated_here n l w v w' : ex (S n) (COp (OValidate l)) w = (Ok v, w') -> grows w w'.
  Proof. intros H. pose proof (exec_ext E C U (S n) (OValidate l) w HC) as G. now rewrite H in G. Qed.

  Lemma task_ok n t kw w r w' cs : task_call E C U (S (S n)) t kw (w, []) = (r, (w', cs)) ->
    (forall v w1, In (TRun v w1) cs -> exists l w0 i, v = VInst l /\ length (w_heap w) <= l /\
       nth_error (w_heap w0) l = Some i /\ i_vflag i = Some false /\ i_cls i = tk_input t /\
       ex (S (S n)) (COp (OValidate l)) w0 = (Ok (VBool true), w1)) /\
    (forall v w1, In (TProcess v w1) cs -> exists l w0 c, v = VInst l /\
       has_class C w1 l c /\ In (tk_output t) (c_mro c) /\
       ex (S (S n)) (COp (OValidate l)) w0 = (Ok (VBool true), w1)) /\
    (forall v, r = Ok v -> exists vi wi vo wo wr, cs = [TProcess vo wo; TRun vi wi] /\
       tk_run t vi wi = (Ok vo, wr) /\ tk_process t vo wo = (r, w')) /\
    (forall v w1, In (TProcess v w1) cs -> exists vi wi wr, In (TRun vi wi) cs /\ tk_run t vi wi = (Ok v, wr)).
  Proof.
    unfold task_call. intros H.
    apply tbind_inv in H as [(input & s1 & H1 & H)|(e & H1 & ->)].
    2:{ apply low_inv in H1 as (w1 & _ & [= <- ->]). repeat split; try (intros v w2 []); discriminate. }
    apply low_inv in H1 as (w1 & H1 & ->).
    pose proof H1 as Hd. apply (deser_result E C U HC) in Hd as (d & k & l & _ & -> & Hl & Hk & [->|[Ht _]]); [|discriminate].
    apply deser_unflagged in H1 as (l' & i & [= <-] & Hi & Hv).
    apply tbind_inv in H as [(b1 & s1 & H2 & H)|(e & H2 & ->)].
    2:{ apply low_inv in H2 as (w2 & _ & [= <- ->]). repeat split; try (intros v w3 []); discriminate. }
    apply low_inv in H2 as (w2 & H2 & ->). cbn [validate_val] in H2.
    pose proof (validate_true _ _ _ _ _ H2) as ->.
    assert (K1 : exists l' w0 i0, VInst l = VInst l' /\ length (w_heap w) <= l' /\
       nth_error (w_heap w0) l' = Some i0 /\ i_vflag i0 = Some false /\ i_cls i0 = tk_input t /\
       ex (S (S n)) (COp (OValidate l')) w0 = (Ok (VBool true), w2)).
    { exists l, w1, i. repeat split; auto. rewrite nth_error_map, Hi in Hk. now injection Hk. }
    apply tbind_inv in H as [(out & s1 & H3 & H)|(e & H3 & ->)].
    2:{ apply logged_inv in H3 as (w3 & _ & [= <- ->]). repeat split; try discriminate.
        - intros v w4 [[= <- <-]|[]]. exact K1.
        - intros v w4 [K|[]]; discriminate K.
        - intros v w4 [K|[]]; discriminate K. }
    apply logged_inv in H3 as (w3 & H3 & ->).
    assert (K2 : forall r0 ww, (r, (w', cs)) = (r0, (ww, [TRun (VInst l) w2])) -> (forall v, r0 <> Ok v) ->
       (forall v w4, In (TRun v w4) cs -> exists l' w0 i0, v = VInst l' /\ length (w_heap w) <= l' /\
       nth_error (w_heap w0) l' = Some i0 /\ i_vflag i0 = Some false /\ i_cls i0 = tk_input t /\
       ex (S (S n)) (COp (OValidate l')) w0 = (Ok (VBool true), w4)) /\
    (forall v w4, In (TProcess v w4) cs -> exists l' w0 c, v = VInst l' /\
       has_class C w4 l' c /\ In (tk_output t) (c_mro c) /\
       ex (S (S n)) (COp (OValidate l')) w0 = (Ok (VBool true), w4)) /\
    (forall v, r = Ok v -> exists vi wi vo wo wr, cs = [TProcess vo wo; TRun vi wi] /\
       tk_run t vi wi = (Ok vo, wr) /\ tk_process t vo wo = (r, w')) /\
    (forall v w4, In (TProcess v w4) cs -> exists vi wi wr, In (TRun vi wi) cs /\ tk_run t vi wi = (Ok v, wr))).
    { intros r0 ww [= -> -> ->] Hr. repeat split.
      - intros v w4 [[= <- <-]|[]]. exact K1.
      - intros v w4 [K|[]]; discriminate K.
      - intros v Hv'. destruct (Hr v Hv').
      - intros v w4 [K|[]]; discriminate K. }
    apply tbind_inv in H as [(b & s1 & H4 & H)|(e & H4 & ->)].
    2:{ apply low_inv in H4 as (w4 & _ & [= -> ->]). eapply K2; [reflexivity|discriminate]. }
    apply low_inv in H4 as (w4 & H4 & ->).
    destruct b.
    2:{ apply low_inv in H as (w5 & H5 & [= -> ->]). eapply K2; [reflexivity|].
        intros v ->. unfold wrong_output in H5. cbv zeta in H5. apply bind_ok in H5 as (a & w6 & _ & H5). discriminate H5. }
    apply tbind_inv in H as [(b2 & s1 & H5 & H)|(e & H5 & ->)].
    2:{ apply low_inv in H5 as (w5 & _ & [= -> ->]). eapply K2; [reflexivity|discriminate]. }
    apply low_inv in H5 as (w5 & H5 & ->).
    destruct out as [| | | | | | | | | | | | | |l2]; try discriminate H5. cbn [validate_val] in H5.
    pose proof (validate_true _ _ _ _ _ H5) as ->.
    pose proof (validated_here _ _ _ _ _ H5) as G5.
    apply logged_inv in H as (w6 & H6 & [= -> ->]).
    assert (K3 : exists c, has_class C w5 l2 c /\ In (tk_output t) (c_mro c)).
    { cbn [isinstance] in H4. unfold inst_class in H4. apply bind_ok in H4 as (c & w7 & H4 & H7).
      apply bind_ok in H4 as (i2 & w8 & H4 & H8). unfold get_inst in H4.
      destruct (nth_error (w_heap w3) l2) as [i3|] eqn:Ei; [|discriminate]. injection H4 as <- <-.
      unfold class_of, lift in H8. injection H8 as H8 <-. injection H7 as H7 <-.
      exists c. split.
      - pose proof (shape_nth _ _ _ Ei) as Es. eapply nth_shape_ext in Es; [|exact G5].
        unfold shape in Es. rewrite nth_error_map in Es. destruct (nth_error (w_heap w5) l2) as [i4|] eqn:E4; [|discriminate].
        injection Es as Es. exists i4. rewrite Es. split; auto.
        destruct (nth_error (ct_cls C) (i_cls i3)); [now injection H8 as ->|discriminate].
      - apply existsb_exists in H7 as (x & Hx & Hx'). apply Nat.eqb_eq in Hx'. now subst x. }
    destruct K3 as (c & K3 & K4).
    repeat split.
    - intros v w7 [K|[[= <- <-]|[]]]; [discriminate K|exact K1].
    - intros v w7 [[= <- <-]|[K|[]]]; [|discriminate K]. exists l2, w4, c. auto.
    - intros v ->. exists (VInst l), w2, (VInst l2), w5, w3. auto.
    - intros v w7 [[= <- <-]|[K|[]]]; [|discriminate K]. exists (VInst l), w2, w3. split; [right; now left|exact H3].
  Qed.

  Lemma task_input n t kw w r w' cs v w1 : task_call E C U (S (S n)) t kw (w, []) = (r, (w', cs)) -> In (TRun v w1) cs ->
    exists l w0 i, v = VInst l /\ length (w_heap w) <= l /\
    nth_error (w_heap w0) l = Some i /\ i_cls i = tk_input t /\ i_vflag i = Some false /\
    ex (S (S n)) (COp (OValidate l)) w0 = (Ok (VBool true), w1).
  Proof.
    intros H Hi. destruct (task_ok _ _ _ _ _ _ _ H) as (K & _). destruct (K v w1 Hi) as (l & w0 & i & H1 & H2 & H3 & H4 & H5 & H6).
    exists l, w0, i. auto 10.
  Qed.
  Lemma task_output n t kw w r w' cs v w1 : task_call E C U (S (S n)) t kw (w, []) = (r, (w', cs)) -> In (TProcess v w1) cs ->
    (exists l w0 c, v = VInst l /\ has_class C w1 l c /\ In (tk_output t) (c_mro c) /\
     ex (S (S n)) (COp (OValidate l)) w0 = (Ok (VBool true), w1)) /\
    (exists vi wi wr, In (TRun vi wi) cs /\ tk_run t vi wi = (Ok v, wr)).
  Proof. intros H Hi. destruct (task_ok _ _ _ _ _ _ _ H) as (_ & K & _ & K2). split; [exact (K v w1 Hi)|exact (K2 v w1 Hi)]. Qed.
  Lemma task_result n t kw w v w' cs : task_call E C U (S (S n)) t kw (w, []) = (Ok v, (w', cs)) ->
    exists vi wi vo wo wr, cs = [TProcess vo wo; TRun vi wi] /\
    tk_run t vi wi = (Ok vo, wr) /\ tk_process t vo wo = (Ok v, w').
  Proof. intros H. destruct (task_ok _ _ _ _ _ _ _ H) as (_ & _ & K & _). eauto. Qed.

  Lemma task_wrong_class n t kw w r w' cs vi wi vo wr : task_call E C U (S (S n)) t kw (w, []) = (r, (w', cs)) ->
    In (TRun vi wi) cs -> tk_run t vi wi = (Ok vo, wr) ->
    (forall l, vo = VInst l -> exists c, has_class C wr l c /\ ~ In (tk_output t) (c_mro c)) ->
    cs = [TRun vi wi] /\ exists io, r = Exc (ExValidation [ET (Some "invalid_class") None io]) /\ forall l, io = Some l <-> vo = VInst l.
  Proof.
    unfold task_call. intros H Hin Hrun Hcls.
    apply tbind_inv in H as [(input & s1 & H1 & H)|(e & H1 & ->)].
    2:{ apply low_inv in H1 as (w1 & _ & [= <- ->]). destruct Hin. }
    apply low_inv in H1 as (w1 & H1 & ->).
    apply tbind_inv in H as [(b1 & s1 & H2 & H)|(e & H2 & ->)].
    2:{ apply low_inv in H2 as (w2 & _ & [= <- ->]). destruct Hin. }
    apply low_inv in H2 as (w2 & H2 & ->).
    apply tbind_inv in H as [(out & s1 & H3 & H)|(e & H3 & ->)].
    2:{ apply logged_inv in H3 as (w3 & H3 & [= <- ->]). destruct Hin as [[= -> ->]|[]]. congruence. }
    apply logged_inv in H3 as (w3 & H3 & ->).
    assert (Hc : forall b wx, isinstance C vo (tk_output t) wr = (b, wx) -> b = Ok false /\ wx = wr).
    { intros b wx. destruct vo; try (intros [= <- <-]; auto). destruct (Hcls l eq_refl) as (c & (i & Hi & Hc) & Hn).
      cbn [isinstance]. unfold inst_class, bind, get_inst, class_of, lift. rewrite Hi, Hc. intros [= <- <-].
      split; [|reflexivity]. f_equal. destruct (existsb _ _) eqn:Ex; [|reflexivity].
      apply existsb_exists in Ex as (y & Hy & Hy'). apply Nat.eqb_eq in Hy'. now subst y. }
    assert (K : forall ww, (w', cs) = (ww, [TRun input w2]) -> cs = [TRun vi wi] /\ out = vo /\ w3 = wr).
    { intros ww [= _ ->]. destruct Hin as [[= -> ->]|[]]. rewrite Hrun in H3. injection H3 as <- <-. auto. }
    apply tbind_inv in H as [(b & s1 & H4 & H)|(e & H4 & ->)].
    2:{ apply low_inv in H4 as (w4 & H4 & Hs). destruct (K _ Hs) as (_ & -> & ->).
        destruct (Hc _ _ H4) as (X & _). discriminate X. }
    apply low_inv in H4 as (w4 & H4 & ->).
    destruct b.
    - exfalso. assert (Hin2 : In (TRun vi wi) [TRun input w2]).
      { apply tbind_inv in H as [(b2 & s1 & H5 & H)|(e & H5 & ->)].
        - apply low_inv in H5 as (w5 & H5 & ->). apply logged_inv in H as (w6 & _ & [= -> ->]).
          destruct Hin as [X|X]; [discriminate X|exact X].
        - apply low_inv in H5 as (w5 & _ & [= -> ->]). exact Hin. }
      destruct Hin2 as [[= -> ->]|[]]. rewrite Hrun in H3. injection H3 as <- <-.
      destruct (Hc _ _ H4) as (X & _). discriminate X.
    - apply low_inv in H as (w5 & H5 & Hs). destruct (K _ Hs) as (-> & -> & ->). split; [reflexivity|].
      destruct (Hc _ _ H4) as (_ & ->).
      unfold wrong_output in H5. cbv zeta in H5.
      unfold bind in H5. match type of H5 with context [hook ?io ?ts wr] =>
        assert (Hh : exists wz, hook io ts wr = (Ok tt, wz)) end.
      { destruct vo; try (eexists; reflexivity). destruct (Hcls l eq_refl) as (c & (i & Hi & _) & _).
        unfold hook, bind, get_inst. rewrite Hi. destruct (i_vflag i) as [[|]|]; eexists; reflexivity. }
      destruct Hh as (wz & Hh). rewrite Hh in H5. injection H5 as <- _. eexists. split; [reflexivity|].
      intros l0. destruct vo; split; congruence.
  Qed.

  Lemma task_runs n t kw w l w1 v w2 :
    ex n (COp (ODeser (tk_input t) (VDict (map (fun kv => (VStr (fst kv), snd kv)) kw)) (DOpt false false false))) w = (Ok (VInst l), w1) ->
    ex n (COp (OValidate l)) w1 = (Ok v, w2) ->
    exists r w' calls, task_call E C U n t kw (w, []) = (r, (w', calls ++ [TRun (VInst l) w2])).
  Proof.
    intros H1 H2. unfold task_call.
    assert (T : forall A B (m : TM A) (k : A -> TM B) s a s1, m s = (Ok a, s1) -> tbind m k s = k a s1).
    { intros A B m k s a s1 E0. unfold tbind. now rewrite E0. }
    assert (T2 : forall A B (m : TM A) (k : A -> TM B) s e s1, m s = (Exc e, s1) -> tbind m k s = (Exc e, s1)).
    { intros A B m k s a s1 E0. unfold tbind. now rewrite E0. }
    assert (L : forall A (m : M A) w0 c0 r0 w0', m w0 = (r0, w0') -> low m (w0, c0) = (r0, (w0', c0))).
    { intros A m w0 c0 r0 w0' E0. unfold low. cbn [fst snd]. now rewrite E0. }
    assert (G : forall A c (m : M A) w0 c0 r0 w0', m w0 = (r0, w0') -> logged c m (w0, c0) = (r0, (w0', c w0 :: c0))).
    { intros A c m w0 c0 r0 w0' E0. unfold logged. cbn [fst snd]. now rewrite E0. }
    rewrite (T _ _ _ _ _ _ _ (L _ _ _ _ _ _ H1)). rewrite (T _ _ _ _ _ _ _ (L _ (validate_val E C U n (VInst l)) _ _ _ _ H2)).
    destruct (tk_run t (VInst l) w2) as [[out|e] w3] eqn:H3.
    2:{ rewrite (T2 _ _ _ _ _ _ _ (G _ _ _ _ _ _ _ H3)). exists (Exc e), w3, []. reflexivity. }
    rewrite (T _ _ _ _ _ _ _ (G _ _ _ _ _ _ _ H3)).
    destruct (isinstance C out (tk_output t) w3) as [[b|e] w4] eqn:H4.
    2:{ rewrite (T2 _ _ _ _ _ _ _ (L _ _ _ _ _ _ H4)). exists (Exc e), w4, []. reflexivity. }
    rewrite (T _ _ _ _ _ _ _ (L _ _ _ _ _ _ H4)). destruct b.
    - destruct (validate_val E C U n out w4) as [[b|e] w5] eqn:H5.
      2:{ rewrite (T2 _ _ _ _ _ _ _ (L _ _ _ _ _ _ H5)). exists (Exc e), w5, []. reflexivity. }
      rewrite (T _ _ _ _ _ _ _ (L _ _ _ _ _ _ H5)). destruct (tk_process t out w5) as [r6 w6] eqn:H6.
      rewrite (G _ _ _ _ _ _ _ H6). exists r6, w6, [TProcess out w5]. reflexivity.
    - destruct (@wrong_output val out w4) as [r5 w5] eqn:H5. rewrite (L _ _ _ _ _ _ H5). exists r5, w5, []. reflexivity.
  Qed.
End Facts.
