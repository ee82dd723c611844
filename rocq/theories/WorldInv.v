(** Invariants of the object layer, as instances of the frame rule. *)
From Verif Require Import World WorldFrame WorldSpec NumSpec BasicSpec BasicProofs LeafFacts.
Local Open Scope nat_scope.

Definition anyT : list nat -> ptype -> val -> Prop := fun _ _ _ => True.

Lemma ext_setquar w w2 q : grows (w_setquar q w) w2 -> grows w (w_setquar (w_quar w) w2).
Proof. intros [H1 H2 H3]. split; simpl in *; auto. Qed.
Lemma ext_br l f g w w2 : (forall i, i_cls (f i) = i_cls i) -> (forall i, i_cls (g i) = i_cls i) ->
  grows (w_upd l f w) w2 -> grows w (w_upd l g w2).
Proof.
  intros Hf Hg H. eapply ext_trans; [apply ext_upd; exact Hf|]. eapply ext_trans; [exact H|].
  apply ext_upd. exact Hg.
Qed.
Lemma ext_linkbr k f g w w2 : grows (w_updlink k f w) w2 -> grows w (w_updlink k g w2).
Proof.
  intros H. eapply ext_trans; [apply ext_updlink|]. eapply ext_trans; [exact H|]. apply ext_updlink.
Qed.
Lemma ext_alloc cid i w : i_cls i = cid -> grows w (w_setheap (w_heap w ++ [i]) w).
Proof.
  intros H. split; simpl; auto. exists [cid]. unfold shape; simpl. rewrite map_app. simpl. now rewrite H.
Qed.
Lemma ext_setlinks w ls : grows w (w_setlinks ls w).
Proof. split; auto. exists []. now rewrite app_nil_r. Qed.

(** * Suppression state, heap shape *)
Lemma frame_ext E C U : frame E C U (fun _ => grows) anyT.
Proof.
  constructor; intros; unfold write, set_updating, set_unlinked in *; unfold anyT; try exact I.
  - apply ext_refl.
  - eapply ext_trans; eassumption.
  - assumption.
  - apply ext_tick.
  - apply ext_emit.
  - apply ext_emit.
  - eapply ext_trans; [|apply ext_emit]. apply ext_upd. reflexivity.
  - now apply ext_alloc with (cid := cid).
  - apply ext_upd. reflexivity.
  - apply ext_upd. reflexivity.
  - apply ext_upd. reflexivity.
  - eapply ext_br; [| |exact H1]; reflexivity.
  - eapply ext_trans; [exact H|]. eapply ext_br; [| |exact H1]; reflexivity.
  - eapply ext_trans; [exact H|]. apply ext_upd. reflexivity.
  - eapply ext_br; [| |exact H1]; reflexivity.
  - eapply ext_br; [| |exact H1]; reflexivity.
  - eapply ext_setquar. exact H.
  - apply ext_setlinks.
  - apply ext_updlink.
  - eapply ext_linkbr. exact H1.
  - left. intros. exact I.
Qed.

Lemma exec_ext E C U n o w : wf_ctab C -> grows w (snd (exec E C U n (COp o) w)).
Proof.
  intros H. destruct (frame_exec E C U _ _ (frame_ext E C U) H n (COp o) 0 w) as [K _]; auto.
  - lia.
  - exact I.
Qed.
Lemma run_ext E C U n p w : wf_ctab C -> grows w (snd (run_prog E C U n p w)).
Proof. intros H. apply (frame_run E C U _ _ (frame_ext E C U) H n p 0 w). lia. Qed.

(** * Events *)
Definition ev_ok (s c : nat) (q : list lmode) (e : event) : Prop :=
  match e with
  | ECall sid _ _ m _ _ _ => s <= sid < c /\ mode_in m q = false
  | EWrite sid _ _ _ => s <= sid < c
  | EHook _ _ => True
  end.
Definition Rev (s : nat) (w w' : world) : Prop :=
  grows w w' /\ exists new, w_trace w' = new ++ w_trace w /\ Forall (ev_ok s (w_clock w') (w_quar w)) new.

Lemma ev_ok_mono s c c' q e : c <= c' -> ev_ok s c q e -> ev_ok s c' q e.
Proof. destruct e; simpl; intuition lia. Qed.
Lemma Rev_same s w w' : grows w w' -> w_trace w' = w_trace w -> Rev s w w'.
Proof. intros H1 H2. split; auto. exists []. rewrite H2. auto. Qed.
Lemma Rev_trans s a b c : Rev s a b -> Rev s b c -> Rev s a c.
Proof.
  intros [E1 (n1 & H1 & F1)] [E2 (n2 & H2 & F2)]. split; [eapply ext_trans; eauto|].
  exists (n2 ++ n1). rewrite H2, H1, app_assoc. split; auto. apply Forall_app. split.
  - destruct E1 as [_ _ Q]. rewrite Q in F2. exact F2.
  - destruct E2 as [_ C _]. eapply Forall_impl; [|exact F1]. intros e. now apply ev_ok_mono.
Qed.
Lemma mode_in_enter m ts q : mode_in m (quar_enter ts q) = false -> mode_in m q = false.
Proof.
  unfold quar_enter, mode_in. destruct ts as [ts|].
  - rewrite existsb_app. intros H. now apply orb_false_iff in H.
  - destruct m; simpl; discriminate.
Qed.

Lemma frame_ev E C U : frame E C U Rev anyT.
Proof.
  assert (Tr : forall s l f w, (forall i, i_cls (f i) = i_cls i) -> Rev s w (w_upd l f w)).
  { intros. apply Rev_same; [now apply ext_upd|apply w_upd_trace]. }
  assert (Br : forall s l f g w w2, (forall i, i_cls (f i) = i_cls i) -> (forall i, i_cls (g i) = i_cls i) ->
      Rev s (w_upd l f w) w2 -> Rev s w (w_upd l g w2)).
  { intros s l f g w w2 Hf Hg H. eapply Rev_trans; [apply Tr; exact Hf|]. eapply Rev_trans; [exact H|].
    apply Tr. exact Hg. }
  constructor; intros; unfold write, set_updating, set_unlinked in *; unfold anyT; try exact I;
    try (apply Tr; reflexivity).
  - apply Rev_same; auto using ext_refl.
  - eapply Rev_trans; eauto.
  - apply H.
  - apply Rev_same; auto using ext_tick.
  - split; [apply ext_emit|]. exists [EHook l ts]. split; auto. constructor; simpl; auto.
  - split; [apply ext_emit|]. exists [ECall sid l n m f p v]. split; auto. constructor; simpl; auto.
  - split; [eapply ext_trans; [|apply ext_emit]; apply ext_upd; reflexivity|].
    exists [EWrite sid l n v]. simpl. rewrite w_upd_trace, w_upd_clock. split; auto. constructor; [simpl; auto|constructor].
  - apply Rev_same; auto. now apply ext_alloc with (cid := cid).
  - eapply Br; [| |exact H1]; reflexivity.
  - eapply Rev_trans; [exact H|]. eapply Br; [| |exact H1]; reflexivity.
  - eapply Rev_trans; [exact H|]. apply Tr. reflexivity.
  - eapply Br; [| |exact H1]; reflexivity.
  - eapply Br; [| |exact H1]; reflexivity.
  - destruct H as [E1 (new & H1 & F1)]. split; [eapply ext_setquar; eauto|].
    exists new. simpl in *. split; auto. eapply Forall_impl; [|exact F1].
    intros [sid l nm m f p v|sid l nm v|l ts]; simpl; auto.
    intros [Hb Hm]. split; auto. eapply mode_in_enter; eauto.
  - apply Rev_same; auto using ext_setlinks.
  - apply Rev_same; [apply ext_updlink|apply w_updlink_trace].
  - eapply Rev_trans; [|eapply Rev_trans; [exact H1|]];
      (apply Rev_same; [apply ext_updlink|apply w_updlink_trace]).
  - left. intros. exact I.
Qed.

Lemma exec_ev E C U n c s w : wf_ctab C -> s <= w_clock w -> cpre c s w -> Rev s w (snd (exec E C U n c w)).
Proof. intros H Hs Hp. apply (frame_exec E C U _ _ (frame_ev E C U) H n c s w); auto. Qed.
Lemma run_ev E C U n p w : wf_ctab C -> Rev (w_clock w) w (snd (run_prog E C U n p w)).
Proof. intros H. apply (frame_run E C U _ _ (frame_ev E C U) H n p _ w). lia. Qed.

(** * Relations between corresponding instances *)
Section InstRel.
  Variable Q : inst -> inst -> Prop.
  Hypothesis Qrefl : forall i, Q i i.
  Hypothesis Qtrans : forall a b c, Q a b -> Q b c -> Q a c.

  Definition irel (w w' : world) : Prop :=
    forall l i, nth_error (w_heap w) l = Some i -> exists i', nth_error (w_heap w') l = Some i' /\ Q i i'.

  Lemma irel_heap w w' : w_heap w' = w_heap w -> irel w w'.
  Proof. intros H l i Hi. exists i. rewrite H. auto. Qed.
  Lemma irel_heap_l w w2 w' : w_heap w = w_heap w2 -> irel w2 w' -> irel w w'.
  Proof. intros H K l i Hi. rewrite H in Hi. auto. Qed.
  Lemma irel_heap_r w w2 w' : w_heap w2 = w_heap w' -> irel w w2 -> irel w w'.
  Proof. intros H K l i Hi. rewrite <- H. auto. Qed.
  Lemma irel_trans a b c : irel a b -> irel b c -> irel a c.
  Proof.
    intros H1 H2 l i Hi. destruct (H1 l i Hi) as (j & Hj & Q1). destruct (H2 l j Hj) as (k & Hk & Q2). eauto.
  Qed.
  Lemma irel_upd l f w : (forall i, nth_error (w_heap w) l = Some i -> Q i (f i)) -> irel w (w_upd l f w).
  Proof.
    intros H l' i Hi. destruct (Nat.eq_dec l l') as [<-|Hn].
    - rewrite w_upd_nth_same, Hi. simpl. eauto.
    - rewrite w_upd_nth_other by auto. eauto.
  Qed.
  Lemma irel_fresh l f w0 w : irel w0 w -> length (w_heap w0) <= l -> irel w0 (w_upd l f w).
  Proof.
    intros H Hl l' i Hi. assert (l' < length (w_heap w0)) by (apply nth_error_Some; congruence).
    rewrite w_upd_nth_other by lia. auto.
  Qed.
  Lemma irel_fresh_l l f w0 w w2 : irel w0 w -> length (w_heap w0) <= l -> irel (w_upd l f w) w2 -> irel w0 w2.
  Proof. intros H Hl K. eapply irel_trans; [apply (irel_fresh l f); eauto|exact K]. Qed.
  Lemma irel_alloc w i : irel w (w_setheap (w_heap w ++ [i]) w).
  Proof.
    intros l j Hj. exists j. split; auto. simpl. rewrite nth_error_app1; auto. apply nth_error_Some. congruence.
  Qed.
  (** set a flag, run, reset it *)
  Lemma irel_br l f g w w2 :
    (forall i j, nth_error (w_heap w) l = Some i -> Q (f i) j -> Q i (g j)) ->
    irel (w_upd l f w) w2 -> irel w (w_upd l g w2).
  Proof.
    intros H K l' i Hi. destruct (Nat.eq_dec l l') as [<-|Hn].
    - destruct (K l (f i)) as (j & Hj & Qj). { rewrite w_upd_nth_same, Hi. reflexivity. }
      rewrite w_upd_nth_same, Hj. simpl. eauto.
    - destruct (K l' i) as (j & Hj & Qj). { rewrite w_upd_nth_other by auto. exact Hi. }
      rewrite w_upd_nth_other by auto. eauto.
  Qed.
End InstRel.

(** * Immutable properties *)
Definition imm_rel (C : ctable) (i i' : inst) : Prop :=
  i_cls i' = i_cls i /\
  forall c n d, nth_error (ct_cls C) (i_cls i) = Some c -> dget (c_props c) n = Some d ->
    pd_kind d <> KProp -> dget (i_back i') n = dget (i_back i) n.

Lemma frame_imm E C U : frame E C U (fun _ w w' => grows w w' /\ irel (imm_rel C) w w') anyT.
Proof.
  assert (Qr : forall i, imm_rel C i i) by (split; auto).
  assert (Qt : forall a b c, imm_rel C a b -> imm_rel C b c -> imm_rel C a c).
  { intros a b c [H1 H2] [H3 H4]. split; [congruence|]. intros k n d Hk Hd Hn.
    rewrite (H4 k n d); auto; [eauto|congruence]. }
  pose proof (frame_ext E C U) as FE.
  constructor; intros; unfold anyT; try exact I.
  - split; [apply ext_refl|now apply irel_heap].
  - destruct H, H0. split; [eapply ext_trans; eauto|eapply irel_trans; eauto].
  - apply H.
  - split; [apply ext_tick|now apply irel_heap].
  - split; [apply ext_emit|now apply irel_heap].
  - split; [apply ext_emit|now apply irel_heap].
  - split; [now apply (f_write _ _ _ _ _ FE) with (s := s) (d := d)|].
    apply (irel_heap_r _ _ (write l n v w)); [reflexivity|]. unfold write.
    apply irel_upd; auto. intros i Hi. split; [reflexivity|]. intros c m e Hc He Hk.
    destruct H1 as (k & c' & K1 & K2 & K3). apply shape_nth in Hi. rewrite Hi in K1. injection K1 as <-.
    assert (c' = c) as -> by congruence.
    assert (n <> m) by (intros ->; congruence). simpl.
    destruct (is_undef v); [apply dget_ddel_other|apply dget_dset_other]; auto.
  - split; [now apply ext_alloc with (cid := cid)|now apply irel_alloc].
  - split; [apply ext_upd; reflexivity|]. apply irel_upd; auto. split; auto.
  - split; [apply ext_upd; reflexivity|]. apply irel_upd; auto. split; auto.
  - split; [apply ext_upd; reflexivity|]. apply irel_upd; auto. split; auto.
  - destruct H1. split; [eapply ext_br; [| |exact H1]; reflexivity|]. eapply irel_br; [|exact H2].
    intros j k _ [K1 K2]. split; auto.
  - destruct H, H1. split; [eapply ext_trans; [exact H|]; eapply ext_br; [| |exact H1]; reflexivity|].
    apply irel_fresh; auto. eapply irel_fresh_l; eauto.
  - destruct H. split; [eapply ext_trans; [exact H|]; apply ext_upd; reflexivity|].
    apply irel_fresh; auto.
  - destruct H1. split; [eapply ext_br; [| |exact H1]; reflexivity|]. eapply irel_br; [|exact H2].
    intros j k _ [K1 K2]. split; auto.
  - destruct H1. split; [eapply ext_br; [| |exact H1]; reflexivity|]. eapply irel_br; [|exact H2].
    intros j k _ [K1 K2]. split; auto.
  - destruct H. split; [eapply ext_setquar; eauto|exact H0].
  - split; [apply ext_setlinks|now apply irel_heap].
  - split; [apply ext_updlink|]. apply irel_heap; auto. apply w_updlink_heap.
  - destruct H1. split; [eapply ext_linkbr; eauto|].
    apply (irel_heap_r _ _ w2); [symmetry; apply w_updlink_heap|].
    eapply irel_heap_l; [|exact H2]. symmetry. apply w_updlink_heap.
  - left. intros. exact I.
Qed.

(** * Recursion guards and links *)
Definition guard_rel (i i' : inst) : Prop :=
  i_sflag i' = i_sflag i /\ i_eflag i' = i_eflag i /\
  (i_vflag i' = i_vflag i \/ (i_vflag i = None /\ i_vflag i' = Some false)).
Definition link_rel (w w' : world) : Prop :=
  forall k d, nth_error (w_links w) k = Some d ->
    exists d', nth_error (w_links w') k = Some d' /\ d_src d' = d_src d /\ d_tgt d' = d_tgt d /\
               d_trans d' = d_trans d /\ d_updating d' = d_updating d.

Lemma link_rel_refl w : link_rel w w.
Proof. intros k d Hd. exists d. auto. Qed.
Lemma link_rel_same w w' : w_links w' = w_links w -> link_rel w w'.
Proof. intros H k d Hd. exists d. rewrite H. auto. Qed.
Lemma link_rel_trans a b c : link_rel a b -> link_rel b c -> link_rel a c.
Proof.
  intros H1 H2 k d Hd. destruct (H1 k d Hd) as (d1 & K1 & A1 & A2 & A3 & A4).
  destruct (H2 k d1 K1) as (d2 & K2 & B1 & B2 & B3 & B4). exists d2. repeat split; congruence.
Qed.
Lemma w_updlink_nth k k' f w :
  nth_error (w_links (w_updlink k f w)) k' =
  if Nat.eqb k k' then option_map f (nth_error (w_links w) k') else nth_error (w_links w) k'.
Proof.
  unfold w_updlink. destruct (Nat.eqb_spec k k') as [<-|Hn].
  - destruct (nth_error (w_links w) k) eqn:Ek; simpl; [|exact Ek].
    apply set_nth_same. apply nth_error_Some. congruence.
  - destruct (nth_error (w_links w) k) eqn:Ek; simpl; [|reflexivity]. now apply set_nth_other.
Qed.

Lemma frame_guard E C U : frame E C U (fun _ w w' => grows w w' /\ irel guard_rel w w' /\ link_rel w w') anyT.
Proof.
  assert (Qr : forall i, guard_rel i i) by (intros; repeat split; auto).
  assert (Qt : forall a b c, guard_rel a b -> guard_rel b c -> guard_rel a c).
  { intros a b c (H1 & H2 & H3) (H4 & H5 & H6). repeat split; try congruence.
    destruct H3 as [H3|[H3 H3']], H6 as [H6|[H6 H6']].
    - left; congruence.
    - right; split; congruence.
    - right; split; congruence.
    - congruence. }
  assert (Lu : forall l f w, link_rel w (w_upd l f w)).
  { intros. apply link_rel_same. apply w_upd_links. }
  assert (Lb : forall l f g w w2, link_rel (w_upd l f w) w2 -> link_rel w (w_upd l g w2)).
  { intros. eapply link_rel_trans; [apply Lu|]. eapply link_rel_trans; [exact H|apply Lu]. }
  pose proof (frame_ext E C U) as FE.
  constructor; intros; unfold anyT; try exact I.
  - split; [apply ext_refl|]. split; [now apply irel_heap|apply link_rel_refl].
  - destruct H as (? & ? & ?), H0 as (? & ? & ?).
    split; [eapply ext_trans; eauto|]. split; [eapply irel_trans; eauto|eapply link_rel_trans; eauto].
  - apply H.
  - split; [apply ext_tick|]. split; [now apply irel_heap|now apply link_rel_same].
  - split; [apply ext_emit|]. split; [now apply irel_heap|now apply link_rel_same].
  - split; [apply ext_emit|]. split; [now apply irel_heap|now apply link_rel_same].
  - split; [now apply (f_write _ _ _ _ _ FE) with (s := s) (d := d)|]. split; [|apply Lu].
    apply (irel_heap_r _ _ (write l n v w)); [reflexivity|]. unfold write.
    apply irel_upd; auto. intros i Hi. repeat split; auto.
  - split; [now apply ext_alloc with (cid := cid)|]. split; [now apply irel_alloc|now apply link_rel_same].
  - split; [apply ext_upd; reflexivity|]. split; [|apply Lu]. apply irel_upd; auto. repeat split; auto.
  - split; [apply ext_upd; reflexivity|]. split; [|apply Lu]. apply irel_upd; auto. repeat split; auto.
  - split; [apply ext_upd; reflexivity|]. split; [|apply Lu]. apply irel_upd; auto. repeat split; auto.
  - destruct H1 as (? & ? & ?). split; [eapply ext_br; [| |exact H1]; reflexivity|]. split; [|eapply Lb; eauto].
    eapply irel_br; [|exact H2]. intros j k Hj (K1 & K2 & K3). rewrite H in Hj. injection Hj as <-.
    repeat split; auto. simpl in *. destruct (i_vflag i) as [[|]|]; auto. congruence.
  - destruct H as (? & ? & ?), H1 as (? & ? & ?).
    split; [eapply ext_trans; [exact H|]; eapply ext_br; [| |exact H1]; reflexivity|].
    split; [apply irel_fresh; auto; eapply irel_fresh_l; eauto|].
    eapply link_rel_trans; [exact H3|]. eapply Lb; eauto.
  - destruct H as (? & ? & ?). split; [eapply ext_trans; [exact H|]; apply ext_upd; reflexivity|].
    split; [apply irel_fresh; auto|]. eapply link_rel_trans; [exact H6|apply Lu].
  - destruct H1 as (? & ? & ?). split; [eapply ext_br; [| |exact H1]; reflexivity|]. split; [|eapply Lb; eauto].
    eapply irel_br; [|exact H2]. intros j k Hj (K1 & K2 & K3). rewrite H in Hj. injection Hj as <-.
    repeat split; auto.
  - destruct H1 as (? & ? & ?). split; [eapply ext_br; [| |exact H1]; reflexivity|]. split; [|eapply Lb; eauto].
    eapply irel_br; [|exact H2]. intros j k Hj (K1 & K2 & K3). rewrite H in Hj. injection Hj as <-.
    repeat split; auto.
  - destruct H as (? & ? & ?). split; [eapply ext_setquar; eauto|]. split; [exact H0|exact H1].
  - split; [apply ext_setlinks|]. split; [now apply irel_heap|].
    intros k d0 Hd. exists d0. simpl. rewrite nth_error_app1; auto. apply nth_error_Some. congruence.
  - split; [apply ext_updlink|]. split; [apply irel_heap; auto; apply w_updlink_heap|].
    intros k' d Hd. unfold set_unlinked. rewrite w_updlink_nth. destruct (Nat.eqb_spec k k') as [<-|Hn].
    + rewrite Hd. simpl. eexists. split; [reflexivity|]. auto.
    + exists d. auto.
  - destruct H1 as (? & ? & ?). split; [eapply ext_linkbr; eauto|]. split.
    + apply (irel_heap_r _ _ w2); [symmetry; apply w_updlink_heap|].
      eapply irel_heap_l; [|exact H2]. symmetry. apply w_updlink_heap.
    + intros k' d' Hd'. unfold set_updating. rewrite w_updlink_nth. destruct (Nat.eqb_spec k k') as [<-|Hn].
      * rewrite H in Hd'. injection Hd' as <-.
        destruct (H3 k (DL (d_src d) (d_tgt d) (d_trans d) (d_unlinked d) true)) as (d2 & K1 & K2 & K3 & K4 & K5).
        { unfold set_updating. rewrite w_updlink_nth, Nat.eqb_refl, H. reflexivity. }
        rewrite K1. simpl. eexists. split; [reflexivity|]. simpl. auto.
      * destruct (H3 k' d') as (d2 & K).
        { unfold set_updating. rewrite w_updlink_nth. destruct (Nat.eqb_spec k k'); [congruence|exact Hd']. }
        exists d2. exact K.
  - left. intros. exact I.
Qed.

(** * Stored values are well formed *)
Lemma rets_returns Q p : returns_only Q p -> rets Q p.
Proof. induction p; simpl; auto. Qed.
Lemma rets_weaken (Q Q' : val -> Prop) p : (forall v, Q v -> Q' v) -> rets Q p -> rets Q' p.
Proof. intros H. induction p; simpl; auto. Qed.

Lemma leaf_typed_ok E rc t v v' : leaf_validate E rc t v = LOk v' -> leaf_typed t v'.
Proof.
  destruct t as [|c|c mn mx|c mn mx|c|o|cs ch| | |]; simpl; intros H.
  - exact I.
  - unfold bool_validate in H. destruct c; [injection H as <-; eauto|]. destruct v; try discriminate.
    injection H as <-. eauto.
  - apply int_validate_ok in H as (z & -> & _ & B & _). exists z. split; auto. intros Vn Vx.
    apply in_bounds_within; simpl; auto.
  - apply float_validate_ok in H as (z & -> & _ & B & _). exists z. split; auto. intros V Vn Vx.
    apply in_bounds_within; simpl; auto.
  - unfold complex_validate in H. destruct (py_complex E v) as [[r i]|e]; [|destruct e; discriminate].
    destruct (if c then _ else _) as [[|]|e]; [discriminate| |destruct e; discriminate].
    injection H as <-. eauto.
  - apply string_spec in H as (s & t & _ & H1 & H2 & H3). exists s, t. auto.
  - destruct v; try discriminate. apply choice_validate_ok in H as ([k al] & H1 & H2 & ->). simpl. eauto.
  - now apply color_sound in H.
  - unfold date_validate in H. destruct v; try discriminate; [destruct date_of_string; try discriminate|];
      injection H as <-; eauto.
  - unfold uuid_validate in H. destruct v; try discriminate. injection H as <-. eauto.
Qed.

Lemma dedup_spec (P : val -> Prop) l : forall acc,
  Forall P l -> Forall P acc -> ForallOrdPairs (fun x y => py_eq x y = false) acc ->
  Forall P (dedup l acc) /\ ForallOrdPairs (fun x y => py_eq x y = false) (dedup l acc).
Proof.
  induction l as [|x l IH]; intros acc Hl Ha Hn; simpl; auto.
  inversion Hl; subst. destruct (mem_val x acc) eqn:Em; [apply IH; auto|]. apply IH; auto.
  - apply Forall_app. auto.
  - clear - Em Hn. induction acc as [|y acc IH]; simpl in *; [repeat constructor|].
    unfold mem_val in Em. simpl in Em. apply orb_false_iff in Em as [E1 E2]. inversion Hn; subst.
    constructor; [|apply IH; auto]. apply Forall_app. auto.
Qed.

Lemma has_type_mono C sh x p : forall v, has_type C sh p v -> has_type C (sh ++ x) p v.
Proof.
  induction p as [t|k q mn mx co IH|kp vp co IHk IHv|si ps IH|cid] using ptype_ind'; intros v H; simpl in *.
  - exact H.
  - destruct H as (l & H1 & H2). exists l. split; auto. eapply Forall_impl; eauto.
  - destruct H as (d & H1 & H2). exists d. split; auto. eapply Forall_impl; [|exact H2]. simpl. intuition.
  - induction IH as [|q ps Hq Hps IHps]; [exact H|]. destruct H as [H|H]; [left; exact (Hq _ H)|right; exact (IHps H)].
  - destruct H as (l & k & c & H1 & H2 & H3). exists l, k, c. split; [exact H1|]. split; [|exact H3].
    rewrite nth_error_app1; auto. apply nth_error_Some. congruence.
Qed.

Definition wt (T : list nat -> ptype -> val -> Prop) (C : ctable) (w : world) : Prop :=
  forall l i c n d v, nth_error (w_heap w) l = Some i -> nth_error (ct_cls C) (i_cls i) = Some c ->
    dget (c_props c) n = Some d -> dget (i_back i) n = Some v -> T (shape w) (decl_type d) v.

Lemma wt_shape T C w w' : shape w' = shape w ->
  (forall l i', nth_error (w_heap w') l = Some i' ->
     exists i, nth_error (w_heap w) l = Some i /\ i_cls i = i_cls i' /\ i_back i = i_back i') ->
  wt T C w -> wt T C w'.
Proof.
  intros Hs H W l i' c n d v Hi Hc Hd Hv. destruct (H l i' Hi) as (i & K1 & K2 & K3).
  rewrite Hs. eapply W; eauto; congruence.
Qed.
Lemma wt_upd T C l f w : (forall i, i_cls (f i) = i_cls i) -> (forall i, i_back (f i) = i_back i) ->
  wt T C w -> wt T C (w_upd l f w).
Proof.
  intros Hc Hb. apply wt_shape; [now apply w_upd_shape|]. intros l' i' Hi'.
  destruct (Nat.eq_dec l l') as [<-|Hn].
  - rewrite w_upd_nth_same in Hi'. destruct (nth_error (w_heap w) l) as [i|]; [|discriminate].
    injection Hi' as <-. exists i. auto.
  - rewrite w_upd_nth_other in Hi' by auto. eauto.
Qed.
Lemma wt_back (T : list nat -> ptype -> val -> Prop) C l n d v w b :
  decl_at C (shape w) l n d -> T (shape w) (decl_type d) v ->
  (forall i m, m <> n -> dget (b i) m = dget (i_back i) m) ->
  (forall i x, dget (b i) n = Some x -> x = v) ->
  wt T C w -> wt T C (w_upd l (fun i => i_setback (b i) i) w).
Proof.
  intros (cid & c0 & H1 & H2 & H3) Ht Ho Hn W l' i' c m e x Hi Hc Hd Hx.
  rewrite w_upd_shape by reflexivity. destruct (Nat.eq_dec l l') as [<-|Hne].
  - rewrite w_upd_nth_same in Hi. destruct (nth_error (w_heap w) l) as [i|] eqn:Ei; [|discriminate].
    injection Hi as <-. simpl in *. pose proof (shape_nth _ _ _ Ei) as Es.
    rewrite H1 in Es. injection Es as ->. assert (c = c0) as -> by congruence.
    destruct (string_dec m n) as [->|Hmn].
    + assert (e = d) as -> by congruence. apply Hn in Hx as ->. exact Ht.
    + rewrite Ho in Hx by auto. eapply W; eauto.
  - rewrite w_upd_nth_other in Hi by auto. eapply W; eauto.
Qed.
Lemma wt_del T C l n w : wt T C w -> wt T C (w_upd l (fun i => i_setback (ddel (i_back i) n) i) w).
Proof.
  intros W l' i' c m e x Hi Hc Hd Hx. rewrite w_upd_shape by reflexivity.
  destruct (Nat.eq_dec l l') as [<-|Hne].
  - rewrite w_upd_nth_same in Hi. destruct (nth_error (w_heap w) l) as [i|] eqn:Ei; [|discriminate].
    injection Hi as <-. simpl in *. destruct (string_dec n m) as [->|Hmn].
    + rewrite dget_ddel_same in Hx. discriminate.
    + rewrite dget_ddel_other in Hx by auto. eapply W; eauto.
  - rewrite w_upd_nth_other in Hi by auto. eapply W; eauto.
Qed.

(** What the values of every property satisfy, if validation guarantees it and
    listeners leave values alone. *)
Lemma frame_values E C U (T : list nat -> ptype -> val -> Prop) : validators_keep U ->
  (forall sh x p v, T sh p v -> T (sh ++ x) p v) ->
  (forall sh rc t v v', leaf_validate E rc t v = LOk v' -> T sh (PLeaf t) v') ->
  (forall sh k q mn mx c out v, build k out = Ok v -> Forall (T sh q) out -> T sh (PSeq k q mn mx c) v) ->
  (forall sh kp vp c d, Forall (fun kx => T sh kp (fst kx) /\ T sh vp (snd kx) /\ hashable (fst kx) = true) d ->
     ForallOrdPairs (fun a b : val * val => py_eq (fst a) (fst b) = false) d -> T sh (PDict kp vp c) (VDict d)) ->
  (forall sh si ps q v, In q ps -> T sh q v -> T sh (PUnion si ps) v) ->
  (forall sh l cid c k, nth_error sh l = Some k -> nth_error (ct_cls C) k = Some c ->
     existsb (Nat.eqb cid) (c_mro c) = true -> T sh (PInst cid) (VInst l)) ->
  (forall sh l cid, nth_error sh l = Some cid -> nth_error (ct_cls C) cid <> None -> T sh (PInst cid) (VInst l)) ->
  frame E C U (fun _ w w' => grows w w' /\ (wt T C w -> wt T C w')) T.
Proof.
  intros HU Tm Tl Ts Td Tu Ti Tn. pose proof (frame_ext E C U) as FE.
  constructor; intros.
  - split; [apply ext_refl|auto].
  - destruct H, H0. split; [eapply ext_trans; eauto|auto].
  - apply H.
  - split; [apply ext_tick|auto].
  - split; [apply ext_emit|auto].
  - split; [apply ext_emit|auto].
  - split; [apply (f_write _ _ _ _ _ FE) with (s := s) (d := d); auto; right; exact I|].
    intros W. change (wt T C (write l n v w)). unfold write.
    destruct (is_undef v) eqn:Eu; [now apply wt_del|].
    destruct H3 as [H3|H3]; [congruence|].
    apply wt_back with (n := n) (d := d) (v := v); auto.
    + unfold decl_type. now rewrite H2.
    + intros i m Hne. apply dget_dset_other. auto.
    + intros i x Hx. rewrite dget_dset_same in Hx. congruence.
  - split; [now apply ext_alloc with (cid := cid)|]. intros W l i c n d v Hi Hc Hd Hv.
    simpl in Hi. destruct (Nat.lt_ge_cases l (length (w_heap w))) as [Hl|Hl].
    + rewrite nth_error_app1 in Hi by auto.
      change (shape (w_setheap (w_heap w ++ [Inst cid [] [] None false false []]) w))
        with (map i_cls (w_heap w ++ [Inst cid [] [] None false false []])).
      rewrite map_app. apply Tm. eapply W; eauto.
    + rewrite nth_error_app2 in Hi by auto. destruct (l - length (w_heap w)) as [|k].
      * injection Hi as <-. discriminate.
      * simpl in Hi. rewrite nth_error_nil in Hi. discriminate.
  - split; [apply ext_upd; reflexivity|]. apply wt_upd; reflexivity.
  - split; [apply ext_upd; reflexivity|]. apply wt_upd; reflexivity.
  - split; [apply ext_upd; reflexivity|]. apply wt_upd; reflexivity.
  - destruct H1. split; [eapply ext_br; [| |exact H1]; reflexivity|]. intros W.
    apply wt_upd; try reflexivity. apply H2. apply wt_upd; auto; reflexivity.
  - destruct H, H1. split; [eapply ext_trans; [exact H|]; eapply ext_br; [| |exact H1]; reflexivity|].
    intros W. apply wt_upd; try reflexivity. apply H3. apply wt_upd; auto; reflexivity.
  - destruct H. split; [eapply ext_trans; [exact H|]; apply ext_upd; reflexivity|]. intros W.
    apply wt_back with (n := n) (d := d) (v := v); auto.
    + intros i m Hne. apply dget_dset_other. auto.
    + intros i x Hx. rewrite dget_dset_same in Hx. congruence.
  - destruct H1. split; [eapply ext_br; [| |exact H1]; reflexivity|]. intros W.
    apply wt_upd; try reflexivity. apply H2. apply wt_upd; auto; reflexivity.
  - destruct H1. split; [eapply ext_br; [| |exact H1]; reflexivity|]. intros W.
    apply wt_upd; try reflexivity. apply H2. apply wt_upd; auto; reflexivity.
  - destruct H. split; [eapply ext_setquar; eauto|exact H0].
  - split; [apply ext_setlinks|auto].
  - split; [apply ext_updlink|]. apply wt_shape.
    + unfold shape, set_unlinked. now rewrite w_updlink_heap.
    + unfold set_unlinked. rewrite w_updlink_heap. eauto.
  - destruct H1. split; [eapply ext_linkbr; eauto|]. intros W.
    eapply wt_shape with (w := w2); [| |apply H2].
    + unfold shape, set_updating. now rewrite w_updlink_heap.
    + unfold set_updating. rewrite w_updlink_heap. eauto.
    + eapply wt_shape with (w := w); [| |exact W].
      * unfold shape, set_updating. now rewrite w_updlink_heap.
      * unfold set_updating. rewrite w_updlink_heap. eauto.
  - now apply Tm.
  - eapply Tl; eauto.
  - eapply Ts; eauto.
  - now apply Td.
  - eapply Tu; eauto.
  - eapply Ti; eauto.
  - now apply Tn.
  - right. intros. eapply rets_weaken; [|apply rets_returns; apply HU]. auto.
Qed.

Lemma frame_typed E C U : wf_mro C -> validators_keep U ->
  frame E C U (fun _ w w' => grows w w' /\ (wt (has_type C) C w -> wt (has_type C) C w')) (has_type C).
Proof.
  intros Hm HU. apply frame_values; [exact HU|..]; intros.
  - now apply has_type_mono.
  - simpl. eapply leaf_typed_ok; eauto.
  - simpl. destruct k; simpl in H.
    + injection H as <-. eauto.
    + injection H as <-. eauto.
    + unfold py_set in H. destruct (forallb hashable out); [|discriminate]. injection H as <-.
      destruct (dedup_spec (has_type C sh q) out []) as [D1 D2]; auto; [constructor|]. eauto.
  - simpl. exists d. split; auto. eapply Forall_impl; [|exact H]. simpl. tauto.
  - simpl. induction ps as [|q' ps IH]; [destruct H|]. destruct H as [->|H]; [left; exact H0|right; exact (IH H)].
  - simpl. exists l, k, c. repeat split; auto. apply existsb_exists in H1 as (x & Hx & He).
    apply Nat.eqb_eq in He. now subst.
  - simpl. destruct (nth_error (ct_cls C) cid) as [c|] eqn:Ec; [|congruence].
    exists l, cid, c. repeat split; auto.
Qed.
