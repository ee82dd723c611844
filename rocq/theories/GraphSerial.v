(** [serialize] ends, and leaves every existing object as it is. *)
From Verif Require Import World WorldFrame WorldSpec AccessSpec GraphSpec GraphConv GraphFacts GraphValidate.
Local Open Scope string_scope.
Local Open Scope list_scope.
Local Open Scope nat_scope.

Section Serial.
  Variable E : env.
  Variable C : ctable.
  Variable U : ucode.
  Notation X := (exec E C U).

  Definition ends_serial (o : sopt) (w : world) : Prop := forall l, l < length (w_heap w) ->
    tot same (fun _ => True) (fun n => X n (COp (OSer l o))) w.
  Lemma there_none w : there w None.
  Proof. intros l H. discriminate. Qed.

  Lemma proper_to_json t v e : leaf_to_json E t v = Exc e -> proper e.
  Proof.
    destruct t; cbn [leaf_to_json]; try discriminate.
    - unfold float_to_json. destruct v; try discriminate; try (intros K; injection K as <-; discriminate).
      destruct fofZ; [discriminate|]. intros K; injection K as <-; discriminate.
    - unfold complex_to_json. destruct v; try discriminate; intros K; injection K as <-; discriminate.
    - destruct (py_iter v) as [l|e'] eqn:Ei; cbn [rbind]; [discriminate|]. intros K. injection K as <-. eapply proper_iter; eauto.
    - unfold date_to_json. destruct v; try discriminate; intros K; injection K as <-; discriminate.
    - unfold uuid_to_json. destruct v; try discriminate; intros K; injection K as <-; discriminate.
  Qed.

  Lemma tot_p_serialize o p : forall v w, settled E C U w -> ends_serial o w -> below (length (w_heap w)) v = true ->
    (v <> VNone -> calm E p v) -> tot same (fun _ => True) (fun n => p_serialize E C (X n) o p v) w.
  Proof.
    induction p as [t|k q mn mx co IH|kp vp co IHk IHv|si ps IH|cid] using ptype_ind'; intros v w S V Hv Hc;
      cbn [p_serialize]; (destruct (is_none v) eqn:En; [now apply tot_ret|]);
      (assert (Hn : v <> VNone) by (intros K; subst; discriminate)); specialize (Hc Hn).
    - apply tot_lift; [auto|apply proper_to_json].
    - destruct Hc as [Hc _].
      eapply tot_bind with (P := Forall (fun x => below (length (w_heap w)) x = true /\ calm E q x)).
      { apply tot_lift; [|apply proper_iter]. intros l Hl. specialize (Hc _ Hl). apply (below_iter (length (w_heap w))) in Hl; auto.
        rewrite Forall_forall in *. intros x Hx. split; auto. now apply Hc. }
      intros items Hi _. eapply tot_bind; [|intros; now apply tot_ret]. apply tot_mapM with (Q := fun _ => True).
      eapply Forall_impl; [|exact Hi]. intros x [H1 H2]. apply IH; auto.
    - destruct v as [| | | | | | | | | | | | |d|]; try (now apply tot_throw).
      specialize (Hc d eq_refl). apply below_dict in Hv.
      eapply tot_bind with (P := fun _ => True).
      { apply (tot_weaken same (Forall (fun _ : val * val => True))); auto. apply tot_mapM. rewrite Forall_forall in *. intros [a b] Hab.
        destruct (Hv _ Hab) as [H1 H2]. destruct (Hc _ Hab) as [[H3 H4] [H5 H6]]. cbn [fst snd] in *.
        eapply tot_bind; [apply IHk; auto|]. intros x _ _. eapply tot_bind; [apply IHv; auto|]. intros y _ _. now apply tot_ret. }
      intros out _ _. eapply tot_bind with (P := fun _ => True); [apply tot_lift; [auto|apply proper_pairs]|]. intros; now apply tot_ret.
    - apply calm_union in Hc. induction IH as [|q ps Hq Hps IHps].
      + destruct v; try (now apply tot_ret). cbn [below] in Hv. apply Nat.ltb_lt in Hv. now apply V.
      + inversion Hc as [|? ? Hc1 Hc2]; subst. eapply tot_bind.
        { apply tot_outcome. apply (tot_validate E C U same same_bare); auto using there_none. }
        intros [x|e] He _; [apply Hq; auto|]. destruct (is_generic e); [auto|now apply tot_throw].
    - destruct v; try (now apply tot_throw). cbn [below] in Hv. apply Nat.ltb_lt in Hv. now apply V.
  Qed.
  Lemma has_getattr_plain n l name i c d w : nth_error (w_heap w) l = Some i -> nth_error (ct_cls C) (i_cls i) = Some c ->
    dget (c_props c) name = Some d -> pd_kind d = KProp \/ pd_kind d = KGettable ->
    has_getattr E C U (X n) l name w = (Ok (value_or_none (stored w l name)), w).
  Proof.
    intros Hi Hc Hd Hk. unfold has_getattr, inst_class, bind, get_inst. rewrite Hi. unfold class_of, lift. rewrite Hc, Hd.
    unfold stored. rewrite Hi. destruct Hk as [Hk|Hk]; rewrite Hk; unfold back_get, bind, get_inst; now rewrite Hi.
  Qed.
  Lemma tot_serialize_key o w l i c k : settled E C U w -> ends_serial o w -> nth_error (w_heap w) l = Some i ->
    nth_error (ct_cls C) (i_cls i) = Some c ->
    tot same (fun _ => True) (fun n => match dget (c_props c) k with
             | Some d => let* v := has_getattr E C U (X n) l k in
                         let* x := decl_serialize E C (X n) o d v in
                         ret (k, x)
             | None => throw ExKey
             end) w.
  Proof.
    intros S V Hi Hc. assert (Hl : l < length (w_heap w)) by (apply nth_error_Some; congruence).
    destruct (dget (c_props c) k) as [d|] eqn:Ed; [|now apply tot_throw].
    eapply tot_bind; [apply (tot_getattr E C U same same_bare); auto|]. intros v Hv T.
    eapply tot_bind with (P := fun _ => True); [|intros; now apply tot_ret]. unfold decl_serialize.
    assert (G : pd_kind d = KProp \/ pd_kind d = KGettable -> tot same (fun _ => True) (fun n => p_serialize E C (X n) o (pd_type d) v) w).
    { intros Hk. apply tot_p_serialize; auto. intros Hn.
      assert (Hs : v = value_or_none (stored w l k)).
      { destruct T as [n0 T]. destruct (T n0 (le_n _) w (like_refl same w)) as (w2 & E2 & _).
        rewrite (has_getattr_plain n0 l k i c d w Hi Hc Ed Hk) in E2. now injection E2. }
      destruct (stored w l k) as [x|] eqn:Es; [|cbn in Hs; congruence]. cbn in Hs. subst x.
      eapply st_calm; [exact S| | |exact Es]; [exists c; split; [now exists i|exact Ed]|].
      intros nn Hnn. destruct Hk; congruence. }
    destruct (pd_kind d) eqn:Ek; auto; now apply tot_ret.
  Qed.
  Definition open_s (i : inst) : bool := negb (i_sflag i).
  Lemma tot_serial_inst o : forall k w, count open_s w = k -> settled E C U w -> ends_serial o w.
  Proof.
    induction k as [k IH] using lt_wf_ind. intros w Hk S l Hl. apply tot_step. cbn [step]. unfold has_serialize.
    destruct (get_in w l Hl) as (i & Hi). eapply tot_get; [exact Hi| |].
    { intros n i1 H1. unfold same in H1. now subst. }
    destruct (i_sflag i) eqn:Es; [now apply tot_throw|]. set (w' := w_upd l (i_sets true) w).
    assert (Al : alike w w') by (apply alike_upd; reflexivity).
    assert (S' : settled E C U w') by (eapply settled_alike; eauto). pose proof (alike_len _ _ Al) as Len.
    apply tot_flag; auto.
    - unfold same. intros; congruence.
    - intros x y Hx Hy. unfold same in Hy. subst y. rewrite Hi in Hx. injection Hx as <-. destruct i. cbn in *. now subst.
    - fold w'. destruct (get_in w' l) as (i' & Hi'); [lia|].
      destruct (nth_error (ct_cls C) (i_cls i')) as [c|] eqn:Hc; [|now destruct (st_class _ _ _ _ S' _ _ Hi')].
      eapply tot_bind with (P := fun c' => c' = c).
      { eexists. split; [apply (conv_cls C same same_bare); eauto|]. now rewrite Hc. }
      intros c' -> _. eapply tot_get; [exact Hi'| |].
      { intros n i1 H1. unfold same in H1. now subst. }
      cbv zeta. assert (V' : ends_serial o w').
      { eapply IH; [|reflexivity|exact S'].
        pose proof (count_upd open_s l (i_sets true) w i Hi) as K. unfold open_s in K at 1 2. cbn in K. rewrite Es in K.
        specialize (K eq_refl eq_refl). unfold w'. lia. }
      eapply tot_bind with (P := fun _ => True); [|intros; now apply tot_ret].
      apply (tot_weaken same (Forall (fun _ : string * val => True))); auto. apply tot_mapM. apply Forall_forall. intros key _.
      eapply tot_serialize_key; eauto.
  Qed.
  Lemma ends_serial_settled o w : settled E C U w -> ends_serial o w.
  Proof. intros. eapply tot_serial_inst; eauto. Qed.
End Serial.
