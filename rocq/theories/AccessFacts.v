(** Lemmas behind the property theorems of PropertiesAccess.v: renamed and
    dynamic properties, construction, reset and deserialization. *)
From Verif Require Import World WorldFrame WorldSpec WorldInv WorldSet WorldFacts AccessSpec ContainerFacts.
Local Open Scope string_scope.
Local Open Scope list_scope.
Local Open Scope nat_scope.

Section Access.
  Variable E : env.
  Variable C : ctable.
  Variable U : ucode.
  Hypothesis HC : wf_ctab C.
  Notation ex := (exec E C U).

  Lemma inst_class_at w l c : has_class C w l c -> inst_class C l w = (Ok c, w).
  Proof. intros (i & Hi & Hc). unfold inst_class, class_of, get_inst, bind, lift. now rewrite Hi, Hc. Qed.

  (** ** Renamed *)
  Lemma renamed_get n l name d new_name w : declares C w l name d -> pd_kind d = KRenamed new_name ->
    ex (S n) (COp (OGet l name)) w = ex n (COp (OGet l new_name)) w.
  Proof.
    intros (c & Hc & Hd) Hk. cbn [exec step]. unfold has_getattr.
    rewrite (bind_eq _ _ _ _ _ (inst_class_at _ _ _ Hc)), Hd, Hk. reflexivity.
  Qed.
  Lemma renamed_set n l name d new_name v w : declares C w l name d -> pd_kind d = KRenamed new_name ->
    ex (S n) (COp (OSet l name v)) w = ex n (COp (OSet l new_name v)) w.
  Proof.
    intros (c & Hc & Hd) Hk. cbn [exec step]. unfold has_setattr.
    rewrite (bind_eq _ _ _ _ _ (inst_class_at _ _ _ Hc)), Hd, Hk. reflexivity.
  Qed.
  Lemma renamed_del n l name d new_name w : declares C w l name d -> pd_kind d = KRenamed new_name ->
    ex (S n) (COp (ODel l name)) w = ex n (COp (ODel l new_name)) w.
  Proof.
    intros (c & Hc & Hd) Hk. cbn [exec step]. unfold has_delattr.
    rewrite (bind_eq _ _ _ _ _ (inst_class_at _ _ _ Hc)), Hd, Hk. reflexivity.
  Qed.

  Definition nr (w : world) : Prop :=
    forall l i c n d k, nth_error (w_heap w) l = Some i -> nth_error (ct_cls C) (i_cls i) = Some c ->
      dget (c_props c) n = Some d -> pd_kind d = KRenamed k -> dget (i_back i) n = None.
  Lemma nr_upd l f w : (forall i, nth_error (w_heap w) l = Some i -> i_cls (f i) = i_cls i) ->
    (forall i c n d k, nth_error (w_heap w) l = Some i -> nth_error (ct_cls C) (i_cls i) = Some c ->
      dget (c_props c) n = Some d -> pd_kind d = KRenamed k -> dget (i_back i) n = None -> dget (i_back (f i)) n = None) ->
    nr w -> nr (w_upd l f w).
  Proof.
    intros Hc Hb Hn l' i' c n d k Hi. destruct (Nat.eq_dec l l') as [<-|Hne].
    - rewrite w_upd_nth_same in Hi. destruct (nth_error (w_heap w) l) as [i|] eqn:Ei; [|discriminate].
      injection Hi as <-. rewrite (Hc i eq_refl). intros. eapply Hb; eauto.
    - rewrite w_upd_nth_other in Hi by auto. eauto.
  Qed.
  Lemma nr_same l f w : (forall i, i_cls (f i) = i_cls i) -> (forall i, i_back (f i) = i_back i) -> nr w -> nr (w_upd l f w).
  Proof. intros H1 H2. apply nr_upd; auto. intros. rewrite H2. auto. Qed.
  Lemma nr_heap w w' : w_heap w' = w_heap w -> nr w -> nr w'.
  Proof. intros H Hn l i. rewrite H. apply Hn. Qed.

  Lemma frame_nr : renamed_no_default C -> frame E C U (fun _ w w' => grows w w' /\ (nr w -> nr w')) anyT.
  Proof.
    intros HD. pose proof (frame_ext E C U) as FE.
    constructor; intros; unfold anyT; try exact I; try (left; intros; exact I);
      repeat match goal with H : _ /\ _ |- _ => destruct H end.
    - split; auto using ext_refl.
    - split; [eapply ext_trans; eauto|auto].
    - auto.
    - split; [apply ext_tick|]. apply nr_heap. reflexivity.
    - split; [apply ext_emit|]. apply nr_heap. reflexivity.
    - split; [apply ext_emit|]. apply nr_heap. reflexivity.
    - split; [apply (f_write _ _ _ _ _ FE s _ _ _ d); auto; right; exact I|]. intros Hn.
      eapply nr_heap; [reflexivity|]. unfold write. apply nr_upd; [reflexivity| |auto].
      intros i c m e k Hi Hc He Hk Hnone. simpl.
      assert (m <> n) as Hmn.
      { intros ->. destruct H1 as (cid & c' & K1 & K2 & K3). rewrite (shape_nth _ _ _ Hi) in K1. injection K1 as <-.
        congruence. }
      destruct (is_undef v); [rewrite dget_ddel_other|rewrite dget_dset_other]; auto.
    - split; [now apply (ext_alloc cid)|]. intros Hn l i c n d k Hi Hc Hd Hk. simpl in Hi.
      destruct (Nat.lt_ge_cases l (length (w_heap w))) as [Hl|Hl].
      + rewrite nth_error_app1 in Hi by auto. eapply Hn; eauto.
      + rewrite nth_error_app2 in Hi by auto. destruct (l - length (w_heap w)) as [|[|x]]; simpl in Hi; try discriminate.
        injection Hi as <-. reflexivity.
    - split; [now apply ext_upd|]. apply nr_same; reflexivity.
    - split; [now apply ext_upd|]. apply nr_same; reflexivity.
    - split; [now apply ext_upd|]. apply nr_same; reflexivity.
    - split; [eapply (f_vbr _ _ _ _ _ FE 0); eauto|]. intros Hn. apply nr_same; try reflexivity.
      apply H2. apply nr_same; auto.
    - split; [eapply (f_initbr _ _ _ _ _ FE 0); eauto|]. intros Hn. apply nr_same; try reflexivity.
      apply H2. apply nr_same; auto.
    - split; [eapply (f_fresh _ _ _ _ _ FE 0); eauto|]. intros Hn. apply nr_upd; [reflexivity| |auto].
      intros i c m e k Hi Hc He Hk Hnone. simpl. rewrite dget_dset_other; auto. intros ->.
      destruct H1 as (cid & c' & K1 & K2 & K3). pose proof (shape_nth _ _ _ Hi) as K4. rewrite K1 in K4. injection K4 as ->.
      assert (c' = c) as -> by congruence. assert (e = d) as -> by congruence.
      destruct H4 as [H4|H4].
      + unfold is_mutable in H4. now rewrite Hk in H4.
      + apply (H4 _ _ K1 Hc). apply (HD _ _ _ _ _ Hc He Hk).
    - split; [eapply (f_sbr _ _ _ _ _ FE 0); eauto|]. intros Hn. apply nr_same; try reflexivity.
      apply H2. apply nr_same; auto.
    - split; [eapply (f_ebr _ _ _ _ _ FE 0); eauto|]. intros Hn. apply nr_same; try reflexivity.
      apply H2. apply nr_same; auto.
    - split; [eapply (f_quarbr _ _ _ _ _ FE 0); eauto|]. intros Hn. eapply nr_heap; [|apply H0]; [reflexivity|].
      eapply nr_heap; [|exact Hn]. reflexivity.
    - split; [apply ext_setlinks|]. apply nr_heap. reflexivity.
    - split; [apply ext_updlink|]. apply nr_heap. apply w_updlink_heap.
    - split; [eapply (f_linkbr _ _ _ _ _ FE 0); eauto|]. intros Hn. eapply nr_heap; [apply w_updlink_heap|].
      apply H2. eapply nr_heap; [apply w_updlink_heap|exact Hn].
  Qed.
  Lemma nr_old w : nr w <-> old_names_empty C w.
  Proof.
    split.
    - intros H l name d k (c & (i & Hi & Hc) & Hd) Hk. unfold stored. rewrite Hi. eapply H; eauto.
    - intros H l i c n d k Hi Hc Hd Hk. specialize (H l n d k). unfold stored in H. rewrite Hi in H. apply H; auto.
      exists c. split; auto. exists i. auto.
  Qed.
  Lemma old_program n p w : renamed_no_default C -> old_names_empty C w ->
    old_names_empty C (snd (run_prog E C U n p w)).
  Proof.
    intros HD H. apply nr_old. apply nr_old in H.
    apply (frame_run E C U _ _ (frame_nr HD) HC n p 0 w); auto. lia.
  Qed.

  (** ** Dynamic *)
  Lemma dynamic_get n l name d g st dl w : declares C w l name d -> pd_kind d = KDynamic g st dl ->
    ex (S n) (COp (OGet l name)) w =
    match run_prog E C U n (u_get U g l) w with
    | (Ok v, w1) => if is_none v || is_undef v then (Ok VNone, w1)
                    else p_validate E C (ex n) (pd_type d) (Some l) name v w1
    | (Exc e, w1) => (Exc e, w1)
    end.
  Proof.
    intros (c & Hc & Hd) Hk. cbn [exec step]. unfold has_getattr.
    rewrite (bind_eq _ _ _ _ _ (inst_class_at _ _ _ Hc)), Hd, Hk. unfold run_prog, bind.
    destruct (run (ex n) (u_get U g l) w) as [[v|e] w1]; [|reflexivity]. now destruct (is_none v || is_undef v).
  Qed.
  Lemma dynamic_set n l name d g s dl v w : declares C w l name d -> pd_kind d = KDynamic g (Some s) dl ->
    ex (S n) (COp (OSet l name v)) w =
    match p_validate E C (ex n) (pd_type d) (Some l) name v w with
    | (Ok v1, w1) => match run_prog E C U n (u_set U s l v1) w1 with
                     | (Ok _, w2) => (Ok VNone, w2)
                     | (Exc e, w2) => (Exc e, w2)
                     end
    | (Exc e, w1) => (Exc e, w1)
    end.
  Proof.
    intros (c & Hc & Hd) Hk. cbn [exec step]. unfold has_setattr.
    rewrite (bind_eq _ _ _ _ _ (inst_class_at _ _ _ Hc)), Hd, Hk. unfold run_prog, bind.
    destruct (p_validate _ _ _ _ _ _ _ _) as [[v1|e] w1]; [|reflexivity].
    destruct (run (ex n) (u_set U s l v1) w1) as [[v2|e] w2]; reflexivity.
  Qed.
  Lemma dynamic_del n l name d g st x w : declares C w l name d -> pd_kind d = KDynamic g st (Some x) ->
    ex (S n) (COp (ODel l name)) w =
    match run_prog E C U n (u_del U x l) w with
    | (Ok _, w2) => (Ok VNone, w2)
    | (Exc e, w2) => (Exc e, w2)
    end.
  Proof.
    intros (c & Hc & Hd) Hk. cbn [exec step]. unfold has_delattr.
    rewrite (bind_eq _ _ _ _ _ (inst_class_at _ _ _ Hc)), Hd, Hk. unfold run_prog, bind.
    destruct (run (ex n) (u_del U x l) w) as [[v2|e] w2]; reflexivity.
  Qed.
  Lemma dynamic_no_setter n l name d g dl v w : declares C w l name d -> pd_kind d = KDynamic g None dl ->
    ex (S n) (COp (OSet l name v)) w = (Exc ExAttr, w).
  Proof.
    intros (c & Hc & Hd) Hk. cbn [exec step]. unfold has_setattr.
    rewrite (bind_eq _ _ _ _ _ (inst_class_at _ _ _ Hc)), Hd, Hk. reflexivity.
  Qed.
  Lemma dynamic_no_deleter n l name d g st w : declares C w l name d -> pd_kind d = KDynamic g st None ->
    ex (S n) (COp (ODel l name)) w = (Exc ExAttr, w).
  Proof.
    intros (c & Hc & Hd) Hk. cbn [exec step]. unfold has_delattr.
    rewrite (bind_eq _ _ _ _ _ (inst_class_at _ _ _ Hc)), Hd, Hk. reflexivity.
  Qed.

  (** ** Construction *)
  Lemma set_nth_app {A} (l : list A) x y : set_nth (l ++ [x]) (length l) y = l ++ [y].
  Proof.
    unfold set_nth. rewrite firstn_app, firstn_all, Nat.sub_diag. simpl. rewrite app_nil_r. f_equal.
    rewrite skipn_app, skipn_all, Nat.sub_diag. reflexivity.
  Qed.
  Lemma nth_app_last {A} (l : list A) x : nth_error (l ++ [x]) (length l) = Some x.
  Proof. rewrite nth_error_app2, Nat.sub_diag by lia. reflexivity. Qed.
  Lemma born_class cid c w l wa : nth_error (ct_cls C) cid = Some c -> born cid w l wa -> has_class C wa l c.
  Proof.
    intros Hc (-> & ls & ->). eexists. split; [apply nth_app_last|]. exact Hc.
  Qed.
  Lemma observers_born cid c w l : nth_error (ct_cls C) cid = Some c -> forall obs wa, born cid w l wa ->
    exists wb, iterM (fun d => has_observe C l d ;; ret tt) obs wa = (Ok tt, wb) /\ born cid w l wb.
  Proof.
    intros Hc. induction obs as [|d obs IH]; intros wa Hb; simpl; [eexists; split; [reflexivity|exact Hb]|].
    set (wb := w_upd l (fun i => i_setlst (i_lst i ++ map (fun n => Lst n (od_mode d) (od_func d))
                 (match od_names d with Some ns => ns | None => dkeys (c_props c) end)) i) wa).
    assert (Hb' : born cid w l wb).
    { destruct Hb as (-> & ls & ->). split; [reflexivity|]. unfold wb, w_upd. cbn [w_heap]. rewrite nth_app_last, set_nth_app.
      eexists. reflexivity. }
    destruct (IH wb Hb') as (w2 & H2 & B2). exists w2. split; [|exact B2].
    rewrite (bind_eq _ _ wa tt wb); [exact H2|]. rewrite (bind_eq _ _ wa VNone wb); [reflexivity|].
    unfold has_observe. rewrite (bind_eq _ _ _ _ _ (inst_class_at _ _ _ (born_class _ _ _ _ _ Hc Hb))). reflexivity.
  Qed.

  Lemma eval_default_ok n x w v w' : eval_default U (ex n) x w = (Ok v, w') <-> evaluates E C U n x w v w'.
  Proof.
    destruct x; simpl; unfold run_prog.
    - split; [intros H; injection H as <- <-; auto|]. intros [-> ->]. reflexivity.
    - split; [intros H; injection H as <- <-; auto|]. intros [-> ->]. reflexivity.
    - reflexivity.
  Qed.
  Lemma default_chosen c name d : default_of c name d = chosen_default c name d.
  Proof. reflexivity. Qed.

  Lemma iterM_each {A B} (f : A -> M unit) (act : A -> world -> B -> world -> Prop) :
    (forall x w w', f x w = (Ok tt, w') -> exists b, act x w b w') ->
    forall l w w', iterM f l w = (Ok tt, w') -> exists bs, each act l w bs w'.
  Proof.
    intros Hf. induction l as [|x l IH]; simpl; intros w w' H.
    - injection H as <-. exists []. constructor.
    - apply bind_ok in H as ([] & w1 & H1 & H2). destruct (Hf _ _ _ H1) as [b Hb].
      destruct (IH _ _ H2) as [bs Hbs]. exists (b :: bs). econstructor; eauto.
  Qed.

  Lemma init_gettable_ok n c l nd w w' : init_gettable E C U (ex n) c l nd w = (Ok tt, w') ->
    exists o, gets_initial E C U n c l nd w o w'.
  Proof.
    destruct nd as [name d]. unfold init_gettable, gets_initial. cbn [fst snd].
    rewrite default_chosen. unfold decl_type.
    assert (G : forall x, (let* v := eval_default U (ex n) x in
         let* v1 := p_validate E C (ex n) (match pd_kind d with KRenamed _ => PLeaf LfAny | _ => pd_type d end) (Some l) name v in
         upd l (fun i => i_setback (dset (i_back i) name v1) i)) w = (Ok tt, w') ->
       exists o v wa v0 wb, evaluates E C U n x w v wa /\
        p_validate E C (ex n) (match pd_kind d with KRenamed _ => PLeaf LfAny | _ => pd_type d end) (Some l) name v wa = (Ok v0, wb) /\
        o = Some v0 /\ w' = w_upd l (fun i => i_setback (dset (i_back i) name v0) i) wb).
    { intros x H. apply bind_ok in H as (v & wa & H1 & H). apply bind_ok in H as (v0 & wb & H2 & H).
      apply eval_default_ok in H1. injection H as <-. exists (Some v0), v, wa, v0, wb. auto. }
    assert (S : (ret tt : M unit) w = (Ok tt, w') -> exists o : option val, o = None /\ w' = w).
    { intros H. injection H as <-. eauto. }
    destruct (pd_kind d) as [|g st dl| |k]; auto; destruct (chosen_default c name d) as [|v|cb]; auto;
      try (destruct v; auto); intros H; apply G in H; exact H.
  Qed.

  Lemma reset_prop_silent n c l name d w w' : (forall m, In m (w_quar w)) -> declares C w l name d -> pd_kind d = KProp ->
    reset_prop E C U (ex n) c l name d w = (Ok tt, w') ->
    exists v0, gets_default E C U n c l (name, d) w v0 w'.
  Proof.
    intros Hq Hd Hk H. unfold reset_prop in H. apply bind_ok in H as (v & wa & H1 & H).
    apply bind_ok in H as (r & w1 & H2 & H). injection H as <-. rename w1 into w'.
    rewrite default_chosen in H1.
    destruct (good_piece E C U (eval_default U (ex n) (chosen_default c name d)) (w_clock w) w) as [n1 P1].
    { intros R T F. apply (good_eval_default E C U R T F _ (frame_exec E C U R T F HC n)); auto. apply (f_refl _ _ _ _ _ F). }
    rewrite H1 in P1. simpl in P1. apply eval_default_ok in H1.
    unfold prop_fset in H2. apply bind_ok in H2 as (v0 & wb & H2 & H3).
    assert (Hv : validated E C U n (pd_type d) l name v wa v0 wb /\ exists n2, piece (w_clock wa) wa wb n2).
    { unfold validated. destruct (is_undef v).
      - injection H2 as <- <-. split; auto. exists []. apply piece_refl.
      - split; auto. destruct (validate_piece E C U HC n (pd_type d) (Some l) name v (w_clock wa) wa) as [n2 P2]; auto.
        rewrite H2 in P2. eauto. }
    destruct Hv as (Hv & n2 & P2).
    pose proof (heap_kept _ _ _ _ _ P1 (declares_heap C _ _ _ _ Hd)) as L1.
    pose proof (heap_kept _ _ _ _ _ P2 L1) as L2.
    destruct (has_set_ok E C U HC _ _ _ _ _ _ _ _ L2 H3) as (new & v1 & ch & fv & fc & fs & P3 & A).
    assert (Q : w_quar wb = w_quar w) by (rewrite (ext_quar _ _ (pc_grows _ _ _ _ P2)); apply (ext_quar _ _ (pc_grows _ _ _ _ P1))).
    destruct A as [A1 A2 A3 A4 A5 A6]. cbv zeta in A2. destruct A2 as (ev & ec & es & v2 & v3 & O & Cv & Cc & Cs).
    assert (fv = []) as -> by (apply A4; rewrite Q; apply Hq).
    assert (fs = []) as -> by (apply A6; rewrite Q; apply Hq).
    assert (fc = []) as -> by (destruct ch; [apply A5; rewrite Q; apply Hq|exact A5]).
    inversion Cv; subst. inversion Cc; subst. inversion Cs; subst.
    eexists. exists v, wa, wb, new, (w_clock wb). split; [exact H1|]. split; [exact Hv|]. split; [exact A1|exact O].
  Qed.

  Lemma disabled_none {A} (m : M A) w r w' : disabled None m w = (r, w') ->
    exists w1, m (w_setquar all_modes w) = (r, w1) /\ w' = w_setquar (w_quar w) w1.
  Proof.
    unfold disabled. simpl. destruct (m _) as [r1 w1]. intros H. injection H as <- <-. eauto.
  Qed.
  Lemma declares_grows w w' l name d : grows w w' -> declares C w l name d -> declares C w' l name d.
  Proof.
    intros G (c & (i & Hi & Hc) & Hd). pose proof (nth_shape_ext _ _ _ _ G (shape_nth _ _ _ Hi)) as K.
    unfold shape in K. rewrite nth_error_map in K. destruct (nth_error (w_heap w') l) as [i'|] eqn:Ei; [|discriminate].
    injection K as K. exists c. split; auto. exists i'. rewrite K. auto.
  Qed.
  Lemma has_class_grows w w' l c : grows w w' -> has_class C w l c -> has_class C w' l c.
  Proof.
    intros G (i & Hi & Hc). pose proof (nth_shape_ext _ _ _ _ G (shape_nth _ _ _ Hi)) as K.
    unfold shape in K. rewrite nth_error_map in K. destruct (nth_error (w_heap w') l) as [i'|] eqn:Ei; [|discriminate].
    injection K as K. exists i'. rewrite K. auto.
  Qed.
  Lemma reset_prop_grows n c l name d w r w' : declares C w l name d -> pd_kind d = KProp ->
    reset_prop E C U (ex n) c l name d w = (r, w') -> grows w w'.
  Proof.
    intros (k & (i & Hi & Hc) & Hd) Hk H.
    destruct (good_reset_prop E C U _ _ (frame_ext E C U) _ (frame_exec E C U _ _ (frame_ext E C U) HC n) 0 w c l name d w) as (G & _); auto.
    - apply ext_refl.
    - lia.
    - exists (i_cls i), k. split; [now apply shape_nth|]. auto.
    - now rewrite H in G.
  Qed.
  Lemma reset_all_silent n l w c w' : (forall m, In m (w_quar w)) -> has_class C w l c ->
    has_reset E C U (ex n) l None w = (Ok VNone, w') ->
    exists vs, each (gets_default E C U n c l) (filter is_property (c_props c)) w vs w'.
  Proof.
    intros Hq Hc H. unfold has_reset in H. rewrite (bind_eq _ _ _ _ _ (inst_class_at _ _ _ Hc)) in H.
    apply bind_ok in H as ([] & w1 & H & H'). injection H' as <-.
    destruct Hc as (i & Hi & Hcl). pose proof (HC _ _ Hcl) as ND.
    assert (K : forall ps w, (forall nd, In nd ps -> In nd (c_props c)) -> (forall m, In m (w_quar w)) -> has_class C w l c ->
      iterM (fun nd => match pd_kind (snd nd) with KProp => reset_prop E C U (ex n) c l (fst nd) (snd nd) | _ => ret tt end) ps w = (Ok tt, w1) ->
      exists vs, each (gets_default E C U n c l) (filter is_property ps) w vs w1).
    { clear H Hi Hq w i Hcl. induction ps as [|[name d] ps IH]; intros w Hin Hq Hc H; simpl in H.
      - injection H as <-. exists []. constructor.
      - apply bind_ok in H as ([] & w2 & H1 & H2). simpl. unfold is_property at 1. cbn [snd] in *.
        assert (Hd : declares C w l name d).
        { exists c. split; auto. apply dget_nodup_in; auto. apply Hin. now left. }
        destruct (pd_kind d) eqn:Hk; try (injection H1 as <-; eapply IH; eauto; intros nd Hnd; apply Hin; now right).
        cbn [fst snd] in H1. pose proof (reset_prop_grows _ _ _ _ _ _ _ _ Hd Hk H1) as G.
        destruct (reset_prop_silent _ _ _ _ _ _ _ Hq Hd Hk H1) as [v0 Hv].
        destruct (IH w2) as [vs Hvs]; auto.
        + intros nd Hnd. apply Hin. now right.
        + intros m. rewrite (ext_quar _ _ G). auto.
        + eapply has_class_grows; eauto.
        + exists (v0 :: vs). econstructor; eauto. }
    eapply K; eauto. exists i. auto.
  Qed.

  Lemma upd_upd l f g w : w_upd l f (w_upd l g w) = w_upd l (fun i => f (g i)) w.
  Proof.
    unfold w_upd at 1. rewrite w_upd_nth_same. unfold w_upd. destruct (nth_error (w_heap w) l) as [i|] eqn:Ei; simpl; auto.
    unfold w_setheap. simpl. f_equal. clear Ei. revert l. induction (w_heap w) as [|x h IH]; intros [|l]; try reflexivity.
    unfold set_nth in *. simpl. f_equal. apply IH.
  Qed.

  (** the part of construction before the keywords *)
  Definition prelude (n : nat) (c : cls) (l : loc) : M unit :=
    iterM (fun d => has_observe C l d ;; ret tt) (c_obs c) ;;
    iterM (init_gettable E C U (ex n) c l) (c_props c) ;;
    disabled None (has_reset E C U (ex n) l None) ;; ret tt.
  Definition blank (cid : nat) (w : world) : world := w_setheap (w_heap w ++ [Inst cid [] [] None false false []]) w.

  Lemma new_split n cid c kw w : nth_error (ct_cls C) cid = Some c ->
    ex (S n) (COp (ONew cid kw)) w =
    match prelude n c (length (w_heap w)) (blank cid w) with
    | (Ok _, wk) => match kw with
                    | Some kw => (has_init E C U (ex n) c (length (w_heap w)) kw ;; ret (VInst (length (w_heap w)))) wk
                    | None => (Exc ExType, wk)
                    end
    | (Exc e, wk) => (Exc e, wk)
    end.
  Proof.
    intros Hc. cbn [exec step]. unfold has_new, class_of. rewrite Hc. unfold bind at 1. cbn [lift].
    unfold bind at 1. cbn [alloc]. fold (blank cid w). unfold prelude, bind.
    destruct (iterM _ (c_obs c) (blank cid w)) as [[?|?] w1]; [|reflexivity].
    destruct (iterM _ (c_props c) w1) as [[?|?] w2]; [|reflexivity].
    destruct (disabled None _ w2) as [[?|?] w3]; [|reflexivity].
    destruct kw; reflexivity.
  Qed.

  Lemma since_trans a b c n1 n2 : since a b n1 -> since b c n2 -> since a c (n2 ++ n1).
  Proof. unfold since. intros H1 H2. now rewrite H2, H1, app_assoc. Qed.
  Lemma gettables_grow n c cid l : nth_error (ct_cls C) cid = Some c ->
    forall ps, (forall nd, In nd ps -> In nd (c_props c)) ->
    forall w r w', nth_error (shape w) l = Some cid -> iterM (init_gettable E C U (ex n) c l) ps w = (r, w') ->
    grows w w' /\ exists new, since w w' new.
  Proof.
    intros Hc. induction ps as [|nd ps IH]; intros Hin w r w' Hl H; simpl in H.
    { injection H as <- <-. split; [apply ext_refl|]. exists []. reflexivity. }
    set (w0 := W [] (w_quar w) [] (w_trace w) (w_clock w)).
    assert (G : grows w (snd (init_gettable E C U (ex n) c l nd w)) /\ exists new, since w (snd (init_gettable E C U (ex n) c l nd w)) new).
    { destruct (good_init_gettable E C U _ _ (frame_ev E C U) _ (frame_exec E C U _ _ (frame_ev E C U) HC n) HC 0 w0 c cid l nd w) as ((_ & new & Hn & _) & G & _); auto.
      - apply Rev_same; [|reflexivity]. split; simpl; auto. exists (shape w). reflexivity.
      - lia.
      - simpl. lia.
      - apply Hin. now left.
      - split; [exact G|]. exists new. exact Hn. }
    destruct G as [G [n1 S1]].
    destruct (init_gettable E C U (ex n) c l nd w) as [[u|e] w1] eqn:E1; simpl in *.
    - rewrite (bind_eq _ _ _ _ _ E1) in H. destruct (IH) with (w := w1) (r := r) (w' := w') as (G2 & n2 & S2); auto.
      { eapply nth_shape_ext; eauto. }
      split; [eapply ext_trans; eauto|]. exists (n2 ++ n1). eapply since_trans; eauto.
    - unfold bind in H. rewrite E1 in H. injection H as <- <-. eauto.
  Qed.

  Lemma all_in_modes m : In m all_modes.
  Proof. destruct m; simpl; auto. Qed.

  Lemma prelude_ok n cid c w wk : nth_error (ct_cls C) cid = Some c ->
    let l := length (w_heap w) in
    prelude n c l (blank cid w) = (Ok tt, wk) ->
    exists wa wb wc gs vs new1 new, born cid w l wa /\
      each (gets_initial E C U n c l) (c_props c) wa gs wb /\ grows wa wb /\ since wa wb new1 /\
      (grows (w_setquar all_modes wb) wc /\ irel (imm_rel C) (w_setquar all_modes wb) wc) /\
      each (gets_default E C U n c l) (filter is_property (c_props c)) (w_setquar all_modes wb) vs wc /\
      wk = w_setquar (w_quar w) wc /\ piece 0 (w_setquar all_modes wb) wc new.
  Proof.
    intros Hc l H. unfold prelude in H.
    assert (B0 : born cid w l (blank cid w)) by (split; [reflexivity|]; exists []; reflexivity).
    apply bind_ok in H as ([] & wa & H1 & H). apply bind_ok in H as ([] & wb & H2 & H).
    apply bind_ok in H as (u & w3 & H3 & H). injection H as <-.
    destruct (observers_born _ _ _ _ Hc (c_obs c) _ B0) as (wa' & K1 & B1).
    rewrite K1 in H1. injection H1 as ->.
    assert (G : grows wa wb /\ exists new, since wa wb new).
    { eapply gettables_grow; [exact Hc| | |exact H2]; auto.
      destruct B1 as (-> & ls & ->). unfold shape. cbn [w_heap]. rewrite map_app. simpl.
      rewrite nth_error_app2; rewrite map_length; [|auto]. now rewrite Nat.sub_diag. }
    destruct G as (G & new1 & S1).
    apply iterM_each with (act := gets_initial E C U n c l) in H2 as [gs H2]; [|apply init_gettable_ok].
    apply disabled_none in H3 as (wc & H3 & ->).
    assert (Hcl : has_class C (w_setquar all_modes wb) l c).
    { destruct (has_class_grows wa wb l c G (born_class _ _ _ _ _ Hc B1)) as (i & Hi & Hci). exists i. auto. }
    destruct (good_piece E C U (has_reset E C U (ex n) l None) 0 (w_setquar all_modes wb)) as [new P].
    { intros R T F. apply (good_reset E C U R T F _ (frame_exec E C U R T F HC n) HC); [apply (f_refl _ _ _ _ _ F)|lia]. }
    destruct (good_reset E C U _ _ (frame_imm E C U) _ (frame_exec E C U _ _ (frame_imm E C U) HC n) HC 0 (w_setquar all_modes wb) l None (w_setquar all_modes wb)) as (R1 & _);
      [apply (f_refl _ _ _ _ _ (frame_imm E C U) 0)|lia|].
    rewrite H3 in P, R1. cbn [snd] in P, R1.
    assert (u = VNone) as ->.
    { unfold has_reset in H3. rewrite (bind_eq _ _ _ _ _ (inst_class_at _ _ _ Hcl)) in H3.
      apply bind_ok in H3 as (? & ? & _ & H3). now injection H3 as <- _. }
    apply reset_all_silent with (c := c) in H3 as [vs H3]; [|intros m; apply all_in_modes|exact Hcl].
    exists wa, wb, wc, gs, vs, new1, new. split; [exact B1|]. split; [exact H2|]. split; [exact G|]. split; [exact S1|].
    split; [exact R1|]. split; [exact H3|].
    split; [|exact P]. rewrite (ext_quar _ _ G). destruct B1 as (_ & ls & ->). reflexivity.
  Qed.

  (** values of the properties that are not [Property] *)
  Lemma imm_stored w w' l name d : (grows w w' /\ irel (imm_rel C) w w') -> declares C w l name d -> pd_kind d <> KProp ->
    stored w' l name = stored w l name.
  Proof.
    intros [_ K] (c & (i & Hi & Hc) & Hd) Hk. destruct (K l i Hi) as (i' & Hi' & _ & K').
    unfold stored. rewrite Hi, Hi'. eauto.
  Qed.
  Lemma evaluates_imm n x w v w' : evaluates E C U n x w v w' -> grows w w' /\ irel (imm_rel C) w w'.
  Proof.
    intros H. apply eval_default_ok in H.
    destruct (good_eval_default E C U _ _ (frame_imm E C U) _ (frame_exec E C U _ _ (frame_imm E C U) HC n) 0 w x w) as (G & _).
    - apply (f_refl _ _ _ _ _ (frame_imm E C U) 0).
    - lia.
    - now rewrite H in G.
  Qed.
  Lemma validate_imm n p io name v w r w' : p_validate E C (ex n) p io name v w = (r, w') -> grows w w' /\ irel (imm_rel C) w w'.
  Proof.
    intros H.
    destruct (good_validate E C U _ _ (frame_imm E C U) _ (frame_exec E C U _ _ (frame_imm E C U) HC n) 0 p w io name v w) as (G & _).
    - apply (f_refl _ _ _ _ _ (frame_imm E C U) 0).
    - lia.
    - now rewrite H in G.
  Qed.
  Lemma initial_stored n c l nd w o w' : gets_initial E C U n c l nd w o w' -> has_class C w l c -> In nd (c_props c) ->
    grows w w' /\ forall name d, In (name, d) (c_props c) -> pd_kind d <> KProp ->
      stored w' l name = if String.eqb name (fst nd) then match o with Some v => Some v | None => stored w l name end else stored w l name.
  Proof.
    intros H Hc Hin. destruct nd as [nm d0]. cbn [fst].
    assert (S0 : o = None /\ w' = w -> grows w w' /\ forall name d, In (name, d) (c_props c) -> pd_kind d <> KProp ->
      stored w' l name = if String.eqb name nm then match o with Some v => Some v | None => stored w l name end else stored w l name).
    { intros [-> ->]. split; [apply ext_refl|]. intros. now destruct (String.eqb _ _). }
    assert (G : forall x, (exists v wa v0 wb, evaluates E C U n x w v wa /\
        p_validate E C (ex n) (match pd_kind d0 with KRenamed _ => PLeaf LfAny | _ => pd_type d0 end) (Some l) nm v wa = (Ok v0, wb) /\
        o = Some v0 /\ w' = w_upd l (fun i => i_setback (dset (i_back i) nm v0) i) wb) ->
      grows w w' /\ forall name d, In (name, d) (c_props c) -> pd_kind d <> KProp ->
      stored w' l name = if String.eqb name nm then match o with Some v => Some v | None => stored w l name end else stored w l name).
    { intros x (v & wa & v0 & wb & H1 & H2 & -> & ->). apply evaluates_imm in H1. apply validate_imm in H2.
      assert (Gr : grows w wb) by (eapply ext_trans; [apply H1|apply H2]). split; [eapply ext_trans; [exact Gr|apply ext_upd; reflexivity]|].
      intros name d Hd Hk.
      assert (Hdec : declares C w l name d).
      { exists c. split; auto. apply dget_nodup_in; auto. destruct Hc as (i & _ & Hci). exact (HC _ _ Hci). }
      pose proof (imm_stored _ _ _ _ _ H1 Hdec Hk) as E1.
      pose proof (imm_stored _ _ _ _ _ H2 (declares_grows _ _ _ _ _ (proj1 H1) Hdec) Hk) as E2.
      pose proof (has_class_grows _ _ _ _ Gr Hc) as (i & Hi & _).
      assert (E3 : stored wb l name = dget (i_back i) name) by (unfold stored; now rewrite Hi).
      rewrite <- E1, <- E2, E3. unfold stored. rewrite w_upd_nth_same, Hi. simpl.
      destruct (String.eqb_spec name nm) as [->|Hne]; [apply dget_dset_same|apply dget_dset_other; auto]. }
    unfold gets_initial in H. destruct (pd_kind d0) as [|g st dl| |k] eqn:Ek; auto;
      destruct (chosen_default c nm d0) as [|v|cb]; auto; try (destruct v; auto); eapply G; exact H.
  Qed.
  Lemma initials_stored n c l ps w os w' : each (gets_initial E C U n c l) ps w os w' -> has_class C w l c ->
    (forall nd, In nd ps -> In nd (c_props c)) -> NoDup (dkeys ps) ->
    (forall name d, In (name, d) (c_props c) -> pd_kind d <> KProp -> ~ In name (dkeys ps) -> stored w' l name = stored w l name) /\
    (forall name d o, In ((name, d), o) (combine ps os) -> pd_kind d <> KProp -> stored w l name = None -> stored w' l name = o).
  Proof.
    intros H. induction H as [w|nd ps w o w1 os w2 Ha Hr IH]; intros Hc Hin Hnd.
    - split; [auto|]. intros name d o [].
    - destruct nd as [nm d0]. simpl in Hnd. inversion Hnd as [|x xs Hx Hxs]; subst.
      destruct (initial_stored _ _ _ _ _ _ _ Ha Hc) as [G K]; [apply Hin; now left|]. cbn [fst] in K.
      destruct IH as [I1 I2]; auto.
      { eapply has_class_grows; eauto. }
      { intros nd Hin'. apply Hin. now right. }
      split.
      + intros name d Hd Hk Hn. simpl in Hn. rewrite (I1 name d Hd Hk) by tauto. rewrite (K name d Hd Hk).
        destruct (String.eqb_spec name nm); [exfalso; intuition|reflexivity].
      + intros name d o' [Heq|Hin'] Hk Hs.
        * injection Heq as <- <- <-. rewrite (I1 nm d0); auto; [|apply Hin; now left].
          rewrite (K nm d0); auto; [|apply Hin; now left]. rewrite String.eqb_refl, Hs. now destruct o.
        * assert (Hin2 : In (name, d) ps) by (eapply in_combine_l; eauto).
          apply I2 with (d := d); auto. rewrite (K name d); auto; [|apply Hin; now right].
          destruct (String.eqb_spec name nm) as [->|]; [|exact Hs]. exfalso. apply Hx.
          apply (in_map fst) in Hin2. exact Hin2.
  Qed.
  Lemma each_length {A B} (act : A -> world -> B -> world -> Prop) xs w ys w' : each act xs w ys w' -> length ys = length xs.
  Proof. induction 1; simpl; auto. Qed.
  Lemma combine_ex {A B} (xs : list A) (ys : list B) x : length ys = length xs -> In x xs -> exists y, In (x, y) (combine xs ys).
  Proof.
    revert ys. induction xs as [|a xs IH]; intros [|b ys] Hl Hin; simpl in *; try discriminate; [destruct Hin|].
    destruct Hin as [->|Hin]; [eauto|]. destruct (IH ys) as [y Hy]; auto. eauto.
  Qed.

  Lemma w_upd_stored l f w l' name : (forall i, i_back (f i) = i_back i) -> stored (w_upd l f w) l' name = stored w l' name.
  Proof.
    intros H. unfold stored. destruct (Nat.eq_dec l l') as [<-|Hn].
    - rewrite w_upd_nth_same. destruct (nth_error (w_heap w) l); simpl; auto. now rewrite H.
    - now rewrite w_upd_nth_other.
  Qed.

  Definition kwloop (n : nat) (c : cls) (l : loc) (kw : list (string * val)) : M unit :=
    let* a := foldM (init_kw E C U (ex n) c l) ([], None) kw in raise_collected l a.
  Lemma init_split n c l kw wk : has_init E C U (ex n) c l kw wk =
    (let (r, w1) := kwloop n c l kw (w_upd l (i_setv (Some true)) wk) in (r, w_upd l (i_setv (Some false)) w1)).
  Proof. reflexivity. Qed.

  Lemma writes_once_eq l name new s s0 x v : writes_once l name new -> In (EWrite s l name x) new -> In (EWrite s0 l name v) new -> x = v.
  Proof.
    intros H H1 H2. apply in_split in H1 as (a & b & ->).
    assert (I1 : is_write l name (EWrite s l name x)) by (now exists s, x).
    assert (I2 : is_write l name (EWrite s0 l name v)) by (now exists s0, v).
    apply in_app_or in H2 as [H2|[H2|H2]].
    - exfalso. apply in_split in H2 as (a1 & a2 & ->). apply (H a1 (EWrite s0 l name v) a2 (EWrite s l name x) b); auto. now rewrite <- app_assoc.
    - congruence.
    - exfalso. apply in_split in H2 as (b1 & b2 & ->). apply (H a (EWrite s l name x) b1 (EWrite s0 l name v) b2); auto.
  Qed.
  Lemma defaults_written n c l ps w vs w' : each (gets_default E C U n c l) ps w vs w' ->
    exists new, since w w' new /\
      forall name d v0, In ((name, d), v0) (combine ps vs) -> exists s, In (EWrite s l name v0) new.
  Proof.
    induction 1 as [w|nd ps w o w1 os w2 Ha Hr IH].
    { exists []. split; [reflexivity|]. intros name d v0 []. }
    destruct nd as [nm d0]. destruct Ha as (v & wa & wb & n1 & sid & K1 & K2 & K3 & K4). destruct IH as (n2 & S2 & W2).
    assert (exists m0, since w wb m0) as [m0 S0].
    { destruct (good_piece E C U (eval_default U (ex n) (chosen_default c nm d0)) 0 w) as [m1 P1].
      { intros R T F. apply (good_eval_default E C U R T F _ (frame_exec E C U R T F HC n)); [apply (f_refl _ _ _ _ _ F)|lia]. }
      apply eval_default_ok in K1. rewrite K1 in P1. unfold validated in K2. destruct (is_undef v).
      - destruct K2 as [-> ->]. exists m1. apply (pc_since _ _ _ _ P1).
      - destruct (validate_piece E C U HC n (pd_type d0) (Some l) nm v 0 wa) as [m2 P2]; [lia|].
        rewrite K2 in P2. exists (m2 ++ m1). eapply since_trans; [apply (pc_since _ _ _ _ P1)|apply (pc_since _ _ _ _ P2)]. }
    exists (n2 ++ n1 ++ m0). split; [eapply since_trans; [eapply since_trans|]; eauto|].
    intros name d v0 [Heq|Hin].
    - injection Heq as <- <- <-. exists sid. apply in_or_app. right. apply in_or_app. left. apply (of_sid_in sid).
      rewrite K4. now left.
    - destruct (W2 _ _ _ Hin) as [s Hs]. exists s. apply in_or_app. auto.
  Qed.

  Lemma defaults_new n cid c w l w' : nth_error (ct_cls C) cid = Some c ->
    ex (S n) (COp (ONew cid (Some []))) w = (Ok (VInst l), w') ->
    exists wa wb wc gs vs new1 new2,
      born cid w l wa /\
      each (gets_initial E C U n c l) (c_props c) wa gs wb /\
      each (gets_default E C U n c l) (filter is_property (c_props c)) (w_setquar all_modes wb) vs wc /\
      since wa wb new1 /\ since wb w' new2 /\ w_quar w' = w_quar w /\ Forall (fun e => ~ is_call e) new2 /\
      (forall l' name, stored w' l' name = stored wc l' name) /\
      (forall name d o, In ((name, d), o) (combine (c_props c) gs) -> pd_kind d <> KProp -> stored w' l name = o) /\
      (forall name d v0, In ((name, d), v0) (combine (filter is_property (c_props c)) vs) ->
         writes_once l name new2 ->
         stored w' l name = when_set v0).
  Proof.
    intros Hc H. rewrite (new_split n cid c _ w Hc) in H.
    destruct (prelude n c (length (w_heap w)) (blank cid w)) as [[[]|e] wk] eqn:Ep; [|discriminate].
    destruct (prelude_ok n cid c w wk Hc Ep) as (wa & wb & wc & gs & vs & new1 & new & B & H1 & G & S1 & R1 & H2 & -> & P).
    apply bind_ok in H as ([] & w1 & H3 & H4). injection H4 as <- <-.
    set (l := length (w_heap w)) in *. rewrite init_split in H3. cbn in H3. injection H3 as <-.
    assert (Tr : w_trace (w_upd l (i_setv (Some false)) (w_upd l (i_setv (Some true)) (w_setquar (w_quar w) wc))) = w_trace wc)
      by (rewrite !w_upd_trace; reflexivity).
    assert (St : forall l' name, stored (w_upd l (i_setv (Some false)) (w_upd l (i_setv (Some true)) (w_setquar (w_quar w) wc))) l' name = stored wc l' name).
    { intros. rewrite !w_upd_stored by reflexivity. reflexivity. }
    pose proof (born_class _ _ _ _ _ Hc B) as Hca.
    assert (Hcb : has_class C (w_setquar all_modes wb) l c).
    { destruct (has_class_grows _ _ _ _ G Hca) as (i & Hi & Hci). exists i. auto. }
    assert (Hnd : NoDup (dkeys (c_props c))) by (apply (HC _ _ Hc)).
    exists wa, wb, wc, gs, vs, new1, new. split; [exact B|]. split; [exact H1|]. split; [exact H2|]. split; [exact S1|].
    split; [unfold since; rewrite Tr; apply (pc_since _ _ _ _ P)|]. split; [rewrite !w_upd_quar; reflexivity|].
    split; [|split; [exact St|split]].
    - eapply Forall_impl; [|apply (pc_ev _ _ _ _ P)]. intros e He. destruct e; simpl; auto. simpl in He.
      destruct He as [_ He]. intros _. destruct m; simpl in He; discriminate.
    - intros name d o Hin Hk. rewrite St.
      assert (Hd : In (name, d) (c_props c)) by (eapply in_combine_l; eauto).
      rewrite (imm_stored _ _ l name d R1); auto.
      2:{ exists c. split; auto. now apply dget_nodup_in. }
      change (stored (w_setquar all_modes wb) l name) with (stored wb l name).
      destruct (initials_stored _ _ _ _ _ _ _ H1 Hca (fun _ h => h) Hnd) as [_ I2]. apply (I2 name d o Hin Hk).
      destruct B as (-> & ls & ->). unfold stored. cbn [w_heap]. now rewrite nth_app_last.
    - intros name d v0 Hin Hone. rewrite St.
      assert (W : exists s, In (EWrite s l name v0) new).
      { destruct (defaults_written _ _ _ _ _ _ _ H2) as (new' & S2 & W).
        assert (new' = new) as -> by (pose proof (pc_since _ _ _ _ P) as S3; unfold since in *; rewrite S2 in S3; now apply app_inv_tail in S3).
        eauto. }
      destruct Hcb as (i & Hi & _).
      rewrite (stored_replay _ _ _ _ l name P); [|apply nth_error_Some; congruence].
      apply replay_one; [exact W|]. intros s x Hx. destruct W as [s0 W].
      apply (writes_once_eq l name new s s0 x v0 Hone Hx W).
  Qed.

  Lemma each_combine {A B} (act : A -> world -> B -> world -> Prop) xs w ys w' x y : each act xs w ys w' ->
    In (x, y) (combine xs ys) -> exists wa wb, act x wa y wb.
  Proof.
    induction 1 as [|x0 xs w y0 w1 ys w2 Ha Hr IH]; simpl; [tauto|]. intros [Heq|Hin]; [injection Heq as <- <-; eauto|auto].
  Qed.
  Lemma kwloop_frame R T n c l kw w : frame E C U R T -> (forall l ts w, R 0 w (w_emit (EHook l ts) w)) ->
    R 0 w (snd (kwloop n c l kw w)).
  Proof.
    intros F Hk. pose proof (frame_exec E C U R T F HC n) as Hrec. unfold kwloop.
    assert (G : good R 0 w (kwloop n c l kw) w (fun _ _ => True)).
    { unfold kwloop. eapply good_bind.
      - apply good_foldM; [apply (f_refl _ _ _ _ _ F)|]. intros a x w1 _ R1 G1.
        apply (good_init_kw E C U R T F _ Hrec); [exact R1|lia].
      - intros a w1 R1 G1 _. unfold raise_collected. destruct (fst a).
        + destruct (snd a); [apply good_throw|apply good_ret]; auto.
        + eapply good_bind with (Q1 := fun _ _ => True); [|intros; apply good_throw; auto].
          apply good_mod; auto using ext_emit. eapply (f_trans _ _ _ _ _ F); [exact R1|apply Hk]. }
    apply G.
  Qed.
  Lemma kwloop_imm n c l kw w r w' : kwloop n c l kw w = (r, w') -> grows w w' /\ irel (imm_rel C) w w'.
  Proof. intros H. pose proof (kwloop_frame _ _ n c l kw w (frame_imm E C U)) as K. rewrite H in K. apply K.
    intros l0 ts w0. split; [apply ext_emit|]. apply irel_heap; [split; auto|reflexivity]. Qed.

  (** nothing is stored under a dynamic property's name by construction *)
  Lemma dynamic_new n cid c kw w l w' name d g st dl : nth_error (ct_cls C) cid = Some c ->
    dget (c_props c) name = Some d -> pd_kind d = KDynamic g st dl -> chosen_default c name d = DUndef ->
    ex (S n) (COp (ONew cid kw)) w = (Ok (VInst l), w') -> stored w' l name = None.
  Proof.
    intros Hc Hd Hk Hdef H. rewrite (new_split n cid c _ w Hc) in H.
    destruct (prelude n c (length (w_heap w)) (blank cid w)) as [[[]|e] wk] eqn:Ep; [|discriminate].
    destruct kw as [kw|]; [|discriminate].
    destruct (prelude_ok n cid c w wk Hc Ep) as (wa & wb & wc & gs & vs & new1 & new & B & H1 & G & S1 & R1 & H2 & -> & P).
    set (l0 := length (w_heap w)) in *.
    apply bind_ok in H as ([] & w1 & H3 & H4). injection H4 as <- <-.
    assert (Hnk : pd_kind d <> KProp) by congruence.
    pose proof (born_class _ _ _ _ _ Hc B) as Hca.
    assert (Hda : declares C wa l0 name d) by (exists c; auto).
    assert (Hdb : declares C (w_setquar all_modes wb) l0 name d).
    { destruct (declares_grows _ _ _ _ _ G Hda) as (c' & (i & Hi & Hci) & Hd'). exists c'. split; auto. exists i. auto. }
    assert (Hdc : declares C wc l0 name d) by (eapply declares_grows; [apply R1|exact Hdb]).
    assert (Hnd : NoDup (dkeys (c_props c))) by (apply (HC _ _ Hc)).
    assert (E0 : stored wa l0 name = None).
    { destruct B as (-> & ls & ->). unfold stored. cbn [w_heap]. now rewrite nth_app_last. }
    assert (E1 : stored wb l0 name = None).
    { destruct (initials_stored _ _ _ _ _ _ _ H1 Hca (fun _ h => h) Hnd) as [_ I2].
      destruct (combine_ex (c_props c) gs (name, d)) as [o Ho]; [eapply each_length; eauto|now apply dget_in|].
      rewrite (I2 _ _ _ Ho Hnk E0). destruct (each_combine _ _ _ _ _ _ _ H1 Ho) as (w2 & w3 & Ha).
      unfold gets_initial in Ha. rewrite Hk, Hdef in Ha. apply Ha. }
    rewrite init_split in H3. destruct (kwloop n c l0 kw _) as [r w2] eqn:Ek. injection H3 as -> <-.
    rewrite w_upd_stored by reflexivity.
    pose proof (kwloop_imm _ _ _ _ _ _ _ Ek) as R2.
    rewrite (imm_stored _ _ l0 name d R2); auto.
    - rewrite w_upd_stored by reflexivity. change (stored wc l0 name = None).
      rewrite (imm_stored _ _ l0 name d R1 Hdb Hnk). exact E1.
    - eapply declares_grows; [apply ext_upd; reflexivity|]. destruct Hdc as (c' & (i & Hi & Hci) & Hd'). exists c'. split; auto. exists i. auto.
  Qed.

  (** ** Reset *)
  Lemma reset_is_set n l name c d w : has_class C w l c -> dget (c_props c) name = Some d -> pd_kind d = KProp ->
    (forall v wa, evaluates E C U n (chosen_default c name d) w v wa ->
       ex (S n) (COp (OReset l (Some name))) w = ex (S n) (COp (OSet l name v)) wa) /\
    (forall cb e wa, chosen_default c name d = DCall cb -> run_prog E C U n (u_default U cb) w = (Exc e, wa) ->
       ex (S n) (COp (OReset l (Some name))) w = (Exc e, wa)).
  Proof.
    intros Hc Hd Hk. split.
    - intros v wa Hv. assert (Hd' : declares C wa l name d).
      { eapply declares_grows; [apply (evaluates_imm _ _ _ _ _ Hv)|]. exists c. auto. }
      rewrite (setattr_prop E C U n l name d v wa Hd' Hk). cbn [exec step]. unfold has_reset.
      rewrite (bind_eq _ _ _ _ _ (inst_class_at _ _ _ Hc)), Hd, Hk. unfold reset_prop. rewrite default_chosen.
      apply eval_default_ok in Hv. unfold bind at 1. rewrite (bind_eq _ _ _ _ _ Hv). unfold bind.
      destruct (prop_fset E C (ex n) (pd_type d) l name v wa) as [[r|e] w1] eqn:Ef; [|reflexivity].
      assert (r = VNone) as ->; [|reflexivity].
      unfold prop_fset in Ef. apply bind_ok in Ef as (v0 & w2 & _ & Ef). unfold has_set in Ef.
      repeat (apply bind_ok in Ef as (? & ? & _ & Ef)). now injection Ef as <- _.
    - intros cb e wa Hcb He. cbn [exec step]. unfold has_reset.
      rewrite (bind_eq _ _ _ _ _ (inst_class_at _ _ _ Hc)), Hd, Hk. unfold reset_prop. rewrite default_chosen, Hcb.
      unfold bind. cbn [eval_default]. unfold run_prog in He. now rewrite He.
  Qed.

  (** ** Keywords *)
  Lemma dhas_dget {A} (d : dict A) k : dhas d k = true <-> exists v, dget d k = Some v.
  Proof. unfold dhas. destruct (dget d k); split; eauto; try discriminate. intros [v H]; discriminate. Qed.

  Definition aerr (a : errs) (r : res val) : errs :=
    match r with
    | Ok _ => a
    | Exc (ExValidation ts) => (fst a ++ ts, snd a)
    | Exc e => (fst a, match snd a with Some e0 => Some e0 | None => Some e end)
    end.
  Lemma init_kw_cases n c l a k v w r w' : has_class C w l c -> init_kw E C U (ex n) c l a (k, v) w = (r, w') ->
    (exists r0, attempt E C U n c l (k, v) w r0 w' /\
       ((collectable r0 /\ r = Ok (aerr a r0)) \/ (exists e, r0 = Exc e /\ is_generic e = false /\ r = Exc e))) \/
    (~ assignable c w l k /\ r = Exc ExAttr /\ w' = w).
  Proof.
    intros (i & Hi & Hc) H. unfold init_kw in H.
    rewrite (bind_eq (get_inst l) _ w i w) in H by (unfold get_inst; now rewrite Hi).
    assert (G : assignable c w l k ->
      (let* r := outcome (has_setattr E C U (ex n) l k v) in match r with Ok _ => ret a | Exc e => add_err a e end) w = (r, w') ->
      exists r0, attempt E C U n c l (k, v) w r0 w' /\
       ((collectable r0 /\ r = Ok (aerr a r0)) \/ (exists e, r0 = Exc e /\ is_generic e = false /\ r = Exc e))).
    { intros Ha K. unfold bind, outcome in K. destruct (has_setattr E C U (ex n) l k v w) as [r0 w1] eqn:Es.
      assert (w' = w1) as ->.
      { destruct r0 as [x|e]; [now injection K|]. unfold add_err in K. destruct e; simpl in K; now injection K. }
      exists r0. split; [split; [exact Ha|exact Es]|].
      destruct r0 as [x|e]; [injection K as <-; left; split; [exact I|reflexivity]|].
      unfold add_err in K. destruct e; simpl in K; injection K as <-;
        first [left; split; reflexivity|right; eexists; split; [reflexivity|]; split; reflexivity]. }
    destruct (dget (c_props c) k) as [d|] eqn:Ed.
    - assert (Hno : forall g s x, pd_kind d = KDynamic g s x -> ~ assignable c w l k).
      { intros g s x Hk Ha. unfold assignable in Ha. rewrite Ed in Ha. eapply Ha; eauto. }
      assert (Hyes : (forall g s x, pd_kind d <> KDynamic g s x) -> assignable c w l k).
      { intros Hk. unfold assignable. now rewrite Ed. }
      destruct (pd_kind d) as [|g s x| |nn]; try (left; apply G; [apply Hyes; discriminate|exact H]).
      injection H as <- <-. right. split; [eapply Hno; reflexivity|auto].
    - destruct (dhas (i_attrs i) k || dhas (c_attrs c) k) eqn:Eo.
      + left. apply G; [|exact H]. unfold assignable. rewrite Ed. apply orb_true_iff in Eo as [Eo|Eo]; eauto.
      + injection H as <- <-. right. split; [|auto]. unfold assignable. rewrite Ed.
        apply orb_false_iff in Eo as [E1 E2]. intros [K|(i' & Hi' & K)]; [congruence|].
        rewrite Hi in Hi'. injection Hi' as <-. congruence.
  Qed.

  (** the collected errors, from an initial collection *)
  Definition collect (a : errs) (rs : list (res val)) : errs := fold_left aerr rs a.
  Lemma collect_spec rs : Forall collectable rs -> forall a,
    collect a rs = (fst a ++ all_tuples rs, match snd a with Some e => Some e | None => first_other rs end).
  Proof.
    intros H. induction H as [|r rs Hr H IH]; intros a.
    - simpl. rewrite app_nil_r. destruct a as [ts [e|]]; reflexivity.
    - simpl. rewrite IH. destruct r as [x|e]; [reflexivity|].
      destruct e; simpl in *; try discriminate; try (destruct a as [ts0 [e0|]]; reflexivity).
      destruct a as [ts0 o]. simpl. now rewrite app_assoc.
  Qed.

  Lemma attempt_class n c l kv w r w' : attempt E C U n c l kv w r w' -> has_class C w l c -> has_class C w' l c.
  Proof.
    intros [_ H] Hc. eapply has_class_grows; [|exact Hc].
    pose proof (exec_ext E C U (S n) (OSet l (fst kv) (snd kv)) w HC) as G. now rewrite H in G.
  Qed.

  (** the three ways the keyword loop ends *)
  Lemma kw_fold n c l : forall kw a w r w', has_class C w l c ->
    foldM (init_kw E C U (ex n) c l) a kw w = (r, w') ->
    (exists rs, all_tried E C U n c l kw w rs w' /\ r = Ok (collect a rs)) \/
    (exists pre k v post rs, kw = pre ++ (k, v) :: post /\ all_tried E C U n c l pre w rs w' /\
       ~ assignable c w' l k /\ r = Exc ExAttr) \/
    (exists pre k v post rs w1 e, kw = pre ++ (k, v) :: post /\ all_tried E C U n c l pre w rs w1 /\
       attempt E C U n c l (k, v) w1 (Exc e) w' /\ is_generic e = false /\ r = Exc e).
  Proof.
    induction kw as [|[k v] kw IH]; intros a w r w' Hc H; simpl in H.
    - injection H as <- <-. left. exists []. repeat split; constructor.
    - destruct (init_kw E C U (ex n) c l a (k, v) w) as [r1 w1] eqn:Ek.
      destruct (init_kw_cases _ _ _ _ _ _ _ _ _ Hc Ek) as [(r0 & Ha & Hr)|(Hn & -> & ->)].
      + destruct Hr as [[Hcol ->]|(e & -> & Hg & ->)].
        * rewrite (bind_eq _ _ _ _ _ Ek) in H.
          pose proof (attempt_class _ _ _ _ _ _ _ Ha Hc) as Hc1.
          destruct (IH _ _ _ _ Hc1 H) as [(rs & [K1 K2] & ->)|[(pre & k' & v' & post & rs & -> & [K1 K2] & K3 & ->)|
            (pre & k' & v' & post & rs & w2 & e & -> & [K1 K2] & K3 & K4 & ->)]].
          { left. exists (r0 :: rs). split; [split; [econstructor; eauto|constructor; auto]|reflexivity]. }
          { right. left. exists ((k, v) :: pre), k', v', post, (r0 :: rs). split; [reflexivity|].
            split; [split; [econstructor; eauto|constructor; auto]|]. auto. }
          { right. right. exists ((k, v) :: pre), k', v', post, (r0 :: rs), w2, e. split; [reflexivity|].
            split; [split; [econstructor; eauto|constructor; auto]|]. auto. }
        * rewrite (bind_eq_exc _ _ _ _ _ Ek) in H. injection H as <- <-. right. right.
          exists [], k, v, kw, [], w, e. split; [reflexivity|]. split; [split; constructor|]. auto.
      + rewrite (bind_eq_exc _ _ _ _ _ Ek) in H. injection H as <- <-. right. left.
        exists [], k, v, kw, []. split; [reflexivity|]. split; [split; constructor|]. auto.
  Qed.

  Lemma flagged_again l w : flagged l (w_upd l (i_setv (Some false)) (w_upd l (i_setv (Some true)) w)) = flagged l w.
  Proof. unfold flagged. rewrite !upd_upd. reflexivity. Qed.

  (** events of the keyword phase are those of the attempts, plus one hook call *)
  Lemma kw_new n cid c kw w l w0 r w' : nth_error (ct_cls C) cid = Some c ->
    ex (S n) (COp (ONew cid (Some []))) w = (Ok (VInst l), w0) ->
    ex (S n) (COp (ONew cid (Some kw))) w = (r, w') ->
    (exists rs w2, all_tried E C U n c l kw (flagged l w0) rs w2 /\
       match all_tuples rs with
       | _ :: _ => r = Exc (ExValidation (all_tuples rs)) /\ since w2 w' [EHook l (all_tuples rs)]
       | [] => since w2 w' [] /\ match first_other rs with Some e => r = Exc e | None => r = Ok (VInst l) end
       end /\ forall l' name, stored w' l' name = stored w2 l' name) \/
    (exists pre k v post rs w2, kw = pre ++ (k, v) :: post /\ all_tried E C U n c l pre (flagged l w0) rs w2 /\
       ~ assignable c w2 l k /\ r = Exc ExAttr /\ since w2 w' []) \/
    (exists pre k v post rs w1 w2 e, kw = pre ++ (k, v) :: post /\ all_tried E C U n c l pre (flagged l w0) rs w1 /\
       attempt E C U n c l (k, v) w1 (Exc e) w2 /\ is_generic e = false /\ r = Exc e /\ since w2 w' []).
  Proof.
    intros Hc H0 H. rewrite (new_split n cid c _ w Hc) in H0. rewrite (new_split n cid c _ w Hc) in H.
    destruct (prelude n c (length (w_heap w)) (blank cid w)) as [[[]|e] wk] eqn:Ep; [|discriminate].
    destruct (prelude_ok n cid c w wk Hc Ep) as (wa & wb & wc & gs & vs & new1 & new & B & H1 & G & S1 & R1 & H2 & Hwk & P).
    set (l0 := length (w_heap w)) in *.
    apply bind_ok in H0 as ([] & w1 & H3 & H4). injection H4 as <- <-. rewrite init_split in H3. cbn in H3. injection H3 as <-.
    rewrite flagged_again.
    assert (Hk : has_class C (flagged l0 wk) l0 c).
    { eapply has_class_grows; [apply ext_upd; reflexivity|]. subst wk.
      assert (Hb : has_class C (w_setquar all_modes wb) l0 c).
      { destruct (has_class_grows _ _ _ _ G (born_class _ _ _ _ _ Hc B)) as (i & Hi & Hci). exists i. auto. }
      destruct (has_class_grows _ _ _ _ (proj1 R1) Hb) as (i & Hi & Hci). exists i. auto. }
    unfold bind in H. rewrite init_split in H. fold (flagged l0 wk) in H. unfold kwloop, bind in H.
    destruct (foldM _ _ kw (flagged l0 wk)) as [[a|e] w2] eqn:Ef.
    - destruct (kw_fold _ _ _ _ _ _ _ _ Hk Ef) as [(rs & [K1 K2] & Ha)|[(pre & k' & v' & post & rs & _ & _ & _ & Ha)|
            (pre & k' & v' & post & rs & w3 & e & _ & _ & _ & _ & Ha)]]; try discriminate.
      injection Ha as ->. left. exists rs, w2. split; [split; auto|].
      rewrite (collect_spec rs K2) in H. cbn [fst snd app] in H. unfold raise_collected in H. cbn [fst snd] in H.
      destruct (all_tuples rs) as [|t ts] eqn:Et.
      + destruct (first_other rs) as [e|]; cbn in H; injection H as <- <-;
          (split; [split; [unfold since; now rewrite w_upd_trace|reflexivity]|intros; now apply w_upd_stored]).
      + cbn in H. injection H as <- <-. split; [split; [reflexivity|unfold since; now rewrite w_upd_trace]|].
        intros. now rewrite w_upd_stored.
    - injection H as <- <-. right.
      destruct (kw_fold _ _ _ _ _ _ _ _ Hk Ef) as [(rs & [K1 K2] & Ha)|[(pre & k' & v' & post & rs & -> & K1 & K2 & Ha)|
            (pre & k' & v' & post & rs & w3 & e' & -> & K1 & K2 & K3 & Ha)]]; [discriminate| |].
      + injection Ha as ->. left. exists pre, k', v', post, rs, w2. repeat split; auto; try apply K1.
        unfold since. now rewrite w_upd_trace.
      + injection Ha as ->. right. exists pre, k', v', post, rs, w3, w2, e'. split; [reflexivity|]. split; [exact K1|].
        split; [exact K2|]. split; [exact K3|]. split; [reflexivity|]. unfold since. now rewrite w_upd_trace.
  Qed.

  (** ** Deserialization *)
  Lemma deser_class_ok cid d o w k w' : deser_class C cid (vd_get d class_key) o w = (Ok k, w') ->
    w' = w /\ (k = cid \/ (o_trusted o = true /\ names_registered C d k)) /\
    (o_strict o = true -> exists c, nth_error (ct_cls C) cid = Some c /\ (names_class c d \/ (o_trusted o = true /\ names_registered C d k))).
  Proof.
    unfold deser_class. intros H. apply bind_ok in H as (c & w1 & Hc & H).
    unfold class_of, lift in Hc. destruct (nth_error (ct_cls C) cid) as [c0|] eqn:Ec; [|discriminate]. injection Hc as -> <-.
    unfold names_class, names_registered. change (VStr "__class__") with class_key.
    destruct (vd_get d class_key) as [nm|] eqn:En.
    - destruct (negb (truthy nm) || py_eq nm (VStr (c_name c))) eqn:Eb.
      + injection H as <- <-. split; [reflexivity|]. split; [auto|]. intros _. exists c. split; [reflexivity|]. left.
        apply orb_true_iff in Eb as [Eb|Eb]; auto. left. now apply negb_true_iff.
      + destruct (o_trusted o && negb (hashable nm)); [discriminate|].
        destruct (o_trusted o) eqn:Et.
        * destruct nm; try (destruct (o_strict o) eqn:Es; [discriminate|]; injection H as <- <-;
            split; [reflexivity|]; split; [now left|intros K; discriminate K]).
          destruct (dget (ct_reg C) s) as [k'|] eqn:Er.
          { injection H as <- <-. split; [reflexivity|]. split; [right; split; eauto|]. intros _. exists c. split; [reflexivity|]. right. split; eauto. }
          { destruct (o_strict o); [discriminate|]. injection H as <- <-.
            split; [reflexivity|]. split; [now left|intros K; discriminate K]. }
        * destruct (o_strict o); [discriminate|]. injection H as <- <-.
          split; [reflexivity|]. split; [now left|intros K; discriminate K].
    - injection H as <- <-. split; [reflexivity|]. split; [auto|]. intros _. exists c. split; auto.
  Qed.

  Lemma has_unused_known c d : has_unused c d = existsb (fun e => negb (known_entry c e)) d.
  Proof.
    unfold has_unused. induction d as [|[k v] d IH]; simpl; auto. rewrite IH. f_equal. unfold known_entry; simpl.
    destruct k; auto. unfold dhas. destruct (dget (c_props c) s); simpl; auto.
  Qed.

  Lemma deser_result n cid v o w r w' : ex (S n) (COp (ODeser cid v o)) w = (Ok r, w') ->
    exists d k l, v = VDict d /\ r = VInst l /\ length (w_heap w) <= l /\
      nth_error (map i_cls (w_heap w')) l = Some k /\
      (k = cid \/ (o_trusted o = true /\ names_registered C d k)).
  Proof.
    cbn [exec step]. unfold has_deserialize. destruct v; try discriminate. rename l into d. intros H.
    apply bind_ok in H as (k & w1 & H1 & H). apply deser_class_ok in H1 as (-> & Hk & _).
    apply bind_ok in H as (c & w1 & H2 & H). unfold class_of, lift in H2. injection H2 as H2 <-.
    destruct (has_unused c d && o_strict o); [discriminate|].
    apply bind_ok in H as (ns & w1 & H3 & H). apply bind_ok in H as (iv & w2 & H4 & H).
    pose proof (frame_ext E C U) as FE. pose proof (frame_exec E C U _ _ FE HC n) as Hrec.
    assert (G1 : grows w w1).
    { assert (G : good (fun _ => grows) 0 w (mapM (fun kv => match dget (c_props c) (fst kv) with
            | Some pd => let* x := decl_deserialize E C (ex n) (DOpt (o_trusted o) (o_strict o) false) pd (snd kv) in ret (fst kv, x)
            | None => throw ExKey end) (known_props c d)) w (fun w' bs => Forall (fun _ => True) bs)).
      { apply good_mapM; auto using ext_refl. intros x wx _ Rx Gx. destruct (dget (c_props c) (fst x)); [|apply good_throw; auto].
        eapply good_bind; [apply (good_decl_deserialize E C U _ _ FE _ Hrec); [exact Rx|lia]|].
        intros. apply good_ret; auto. }
      destruct G as (G & _). rewrite H3 in G. exact G. }
    apply disabled_none in H4 as (w3 & H4 & ->).
    destruct (good_new E C U _ _ FE _ Hrec HC 0 (w_setquar all_modes w1) k (Some (filter (fun kv => key_mutable c (fst kv)) ns)) (w_setquar all_modes w1)) as (_ & _ & Q);
      [apply ext_refl|lia|].
    rewrite H4 in Q. destruct (Q iv eq_refl) as (l & -> & Hl & Hsh & _). cbn [snd] in Hsh.
    apply bind_ok in H as ([] & w4 & H5 & H). apply bind_ok in H as ([] & w5 & H6 & H). injection H as <- <-.
    exists d, k, l. split; [reflexivity|]. split; [reflexivity|]. split.
    { apply ext_len in G1. simpl in Hl. lia. }
    split; [|exact Hk].
    assert (G2 : grows (w_setquar (w_quar w1) w3) w4).
    { match type of H5 with iterM ?f ?xs ?wx = _ =>
        assert (G : good (fun _ => grows) 0 wx (iterM f xs) wx (fun _ _ => True)) end.
      { apply good_iterM; [apply ext_refl|]. intros x wx _ Rx Gx. destruct (dget (c_props c) (fst x)) as [pd|]; [|apply good_throw; auto].
        eapply good_bind; [apply (good_validate' E C U _ _ FE _ Hrec); [exact Rx|lia]|].
        intros b wy Ry Gy _. apply good_mod; auto; [|apply ext_upd; reflexivity].
        eapply ext_trans; [exact Ry|apply ext_upd; reflexivity]. }
      destruct G as (G & _). rewrite H5 in G. exact G. }
    assert (G3 : grows w4 w5).
    { destruct (o_valid o); [|injection H6 as <-; apply ext_refl].
      apply bind_ok in H6 as (x & w6 & H6 & H7). injection H7 as <-.
      pose proof (exec_ext E C U n (OValidate l) w4 HC) as G. now rewrite H6 in G. }
    change (nth_error (shape w5) l = Some k).
    eapply nth_shape_ext; [exact G3|]. eapply nth_shape_ext; [exact G2|]. exact Hsh.
  Qed.

  Lemma deser_strict n cid c d o w : nth_error (ct_cls C) cid = Some c -> o_strict o = true ->
    (o_trusted o = true -> forall nm, vd_get d (VStr "__class__") = Some nm -> hashable nm = true) ->
    ~ names_class c d -> ~ (o_trusted o = true /\ exists k, names_registered C d k) ->
    ex (S n) (COp (ODeser cid (VDict d) o)) w = (Exc ExValue, w).
  Proof.
    intros Hc Hs Hh Hn Ht. cbn [exec step]. unfold has_deserialize.
    apply bind_eq_exc. unfold deser_class. rewrite (bind_eq (class_of C cid) _ w c w) by (unfold class_of; now rewrite Hc).
    unfold names_class, names_registered in *. change (VStr "__class__") with class_key in *.
    destruct (vd_get d class_key) as [nm|]; [|tauto].
    destruct (truthy nm) eqn:Etr; [|exfalso; apply Hn; auto]. destruct (py_eq nm (VStr (c_name c))) eqn:Ep; [exfalso; apply Hn; auto|].
    simpl. destruct (o_trusted o) eqn:Eo.
    - rewrite (Hh eq_refl nm eq_refl). simpl. destruct nm; rewrite Hs; try reflexivity.
      destruct (dget (ct_reg C) s) as [k|] eqn:Er; [|reflexivity]. exfalso. apply Ht. split; auto. exists k, s. auto.
    - simpl. now rewrite Hs.
  Qed.
  Lemma deser_unused n cid c d o w k ck : nth_error (ct_cls C) cid = Some c -> o_strict o = true ->
    (k = cid /\ names_class c d \/ ~ names_class c d /\ o_trusted o = true /\ names_registered C d k) ->
    nth_error (ct_cls C) k = Some ck ->
    Exists (fun e => known_entry ck e = false) d ->
    ex (S n) (COp (ODeser cid (VDict d) o)) w = (Exc ExValue, w).
  Proof.
    intros Hc Hs Hk Hck Hex. cbn [exec step]. unfold has_deserialize.
    assert (Hd : deser_class C cid (vd_get d class_key) o w = (Ok k, w)).
    { unfold deser_class. rewrite (bind_eq (class_of C cid) _ w c w) by (unfold class_of; now rewrite Hc).
      unfold names_class, names_registered in *. change (VStr "__class__") with class_key in *.
      destruct Hk as [[-> Hn]|(Hn & Ht & s & Hd & Hr)].
      - destruct (vd_get d class_key) as [nm|]; [|reflexivity]. destruct Hn as [->| ->]; [reflexivity|].
        rewrite orb_true_r. reflexivity.
      - rewrite Hd in *. destruct (truthy (VStr s)) eqn:Etr; [|exfalso; apply Hn; auto].
        destruct (py_eq (VStr s) (VStr (c_name c))) eqn:Ep; [exfalso; apply Hn; auto|].
        cbn [negb orb hashable]. rewrite Ht, Hr. reflexivity. }
    rewrite (bind_eq _ _ _ _ _ Hd). rewrite (bind_eq (class_of C k) _ w ck w) by (unfold class_of; now rewrite Hck).
    rewrite has_unused_known, Hs. assert (existsb (fun e => negb (known_entry ck e)) d = true) as ->.
    { apply existsb_exists. apply Exists_exists in Hex as (e & He & Hf). exists e. split; auto. now rewrite Hf. }
    reflexivity.
  Qed.

  Lemma bind_congr {A B} (m : M A) (k k' : A -> M B) w : (forall a w1, m w = (Ok a, w1) -> k a w1 = k' a w1) -> bind m k w = bind m k' w.
  Proof. intros H. unfold bind. destruct (m w) as [[a|e] w1]; auto. Qed.
  Lemma py_eq_class k : py_eq k class_key = true -> k = class_key.
  Proof. unfold class_key. destruct k; simpl; try discriminate. intros H. apply String.eqb_eq in H. now subst. Qed.
  Lemma known_not_class c k v : known_entry c (k, v) = false -> py_eq k class_key = false.
  Proof.
    intros H. destruct (py_eq k class_key) eqn:Ep; auto. apply py_eq_class in Ep as ->. unfold known_entry in H. simpl in H.
    now rewrite orb_true_r in H.
  Qed.
  Lemma vd_get_drop d1 k v d2 k0 : py_eq k k0 = false -> vd_get (d1 ++ (k, v) :: d2) k0 = vd_get (d1 ++ d2) k0.
  Proof.
    intros H. induction d1 as [|[k' v'] d1 IH]; simpl; [now rewrite H|]. now rewrite IH.
  Qed.
  Lemma known_props_drop c d1 e d2 : known_entry c e = false -> known_props c (d1 ++ e :: d2) = known_props c (d1 ++ d2).
  Proof.
    intros H. induction d1 as [|[k v] d1 IH]; simpl.
    - destruct e as [k v]. unfold known_entry in H. simpl in H. destruct k; auto. unfold dhas.
      destruct (dget (c_props c) s); [discriminate|reflexivity].
    - rewrite IH. reflexivity.
  Qed.
  Lemma deser_ignores n cid o d1 e d2 w : o_strict o = false ->
    (forall k c, (k = cid \/ (o_trusted o = true /\ names_registered C (d1 ++ d2) k)) -> nth_error (ct_cls C) k = Some c ->
       known_entry c e = false) ->
    ex (S n) (COp (ODeser cid (VDict (d1 ++ e :: d2)) o)) w = ex (S n) (COp (ODeser cid (VDict (d1 ++ d2)) o)) w.
  Proof.
    intros Hs Hu. cbn [exec step]. unfold has_deserialize.
    destruct (nth_error (ct_cls C) cid) as [c0|] eqn:Ec.
    - destruct e as [ek ev].
      rewrite (vd_get_drop d1 ek ev d2 class_key) by (eapply known_not_class; apply (Hu cid c0); auto).
      apply bind_congr. intros k w1 Ed. apply deser_class_ok in Ed as (-> & Hk & _). apply bind_congr. intros c w1 Hck.
      unfold class_of, lift in Hck. injection Hck as Hck <-.
      destruct (nth_error (ct_cls C) k) as [c'|] eqn:Eck; [|discriminate]. injection Hck as ->.
      rewrite Hs, !andb_false_r. rewrite known_props_drop by (eapply Hu; eauto). reflexivity.
    - assert (K : forall i, deser_class C cid i o w = (Exc ExAttr, w)).
      { intros i. unfold deser_class. apply bind_eq_exc. unfold class_of. now rewrite Ec. }
      rewrite !(bind_eq_exc _ _ _ _ _ (K _)). reflexivity.
  Qed.
  (** ** Registering a listener *)
  Lemma observe_registers n l d w c : has_class C w l c ->
    exists w', ex (S n) (COp (OObserve l d)) w = (Ok VNone, w') /\
      (forall l' name, stored w' l' name = stored w l' name) /\ w_trace w' = w_trace w /\ w_quar w' = w_quar w /\
      forall l' name m, registered w' l' name m =
        if Nat.eqb l' l && lmode_eqb (od_mode d) m
        then registered w l name m ++
             map (fun _ => od_func d) (filter (String.eqb name) (match od_names d with Some ns => ns | None => dkeys (c_props c) end))
        else registered w l' name m.
  Proof.
    intros Hc. cbn [exec step]. unfold has_observe. rewrite (bind_eq _ _ _ _ _ (inst_class_at _ _ _ Hc)).
    eexists. split; [reflexivity|]. cbn [snd]. split; [intros; apply w_upd_stored; reflexivity|].
    split; [apply w_upd_trace|]. split; [apply w_upd_quar|]. intros l' name m.
    destruct Hc as (i & Hi & Hc). unfold registered. destruct (Nat.eqb_spec l' l) as [->|Hl].
    - rewrite w_upd_nth_same, Hi. simpl. rewrite filter_app, map_app. destruct (lmode_eqb (od_mode d) m) eqn:Em.
      + f_equal. generalize (match od_names d with Some ns => ns | None => dkeys (c_props c) end) as ns.
        induction ns as [|x ns IH]; simpl; auto. rewrite Em, andb_true_r, (String.eqb_sym x name).
        destruct (String.eqb name x); simpl; auto. now rewrite IH.
      + replace (filter _ (map _ _)) with (@nil listener); [now rewrite app_nil_r|].
        generalize (match od_names d with Some ns => ns | None => dkeys (c_props c) end) as ns.
        induction ns as [|x ns IH]; simpl; auto. rewrite Em, andb_false_r. exact IH.
    - rewrite w_upd_nth_other by auto. reflexivity.
  Qed.
End Access.
