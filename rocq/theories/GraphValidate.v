(** [validate] ends, and leaves every existing object as it is. *)
From Verif Require Import World WorldFrame WorldSpec AccessSpec GraphSpec GraphConv GraphFacts.
Local Open Scope string_scope.
Local Open Scope list_scope.
Local Open Scope nat_scope.

Section Validate.
  Variable E : env.
  Variable C : ctable.
  Variable U : ucode.
  Notation X := (exec E C U).

  (** * Validators *)
  Section Notify.
  Variable f : inst -> inst.
  Hypothesis Hf : forall i j, f i = f j -> bare i = bare j.

  Lemma listeners_of_bare i j name m : bare i = bare j -> listeners_of i name m = listeners_of j name m.
  Proof. intros H. apply bare_eq in H. destruct H as (_ & _ & H & _). unfold listeners_of. now rewrite H. Qed.
  Lemma skipn_nth {A} (l : list A) : forall j x, nth_error l j = Some x -> skipn j l = x :: skipn (S j) l.
  Proof. induction l as [|a l IH]; intros [|j] x H; try discriminate; [now injection H as ->|]. apply (IH j x H). Qed.
  Lemma leave_end w l name prev v v' : Ok v = Ok v' <-> leave E C U w l name prev [] v v'.
  Proof. split; [intros K; injection K as <-; constructor|]. intros K. now inversion K. Qed.
  (** the rest of a notification, whatever its number *)
  Lemma notify_from w l i name prev : settled E C U w -> nth_error (w_heap w) l = Some i ->
    below (length (w_heap w)) prev = true ->
    forall k j v, length (listeners_of i name MValidate) - j <= k -> below (length (w_heap w)) v = true ->
    exists r, okres (fun a => below (length (w_heap w)) a = true) r /\
      (forall v', r = Ok v' <-> leave E C U w l name prev (skipn j (listeners_of i name MValidate)) v v') /\ exists n0, forall n, n0 <= n -> forall sid w1, like f w w1 ->
      exists w2, X n (CNotify sid l name prev v MValidate j) w1 = (r, w2) /\ unchanged w1 w2.
  Proof.
    intros S Hi Hp. induction k as [|k IH]; intros j v Hk Hv.
    - exists (Ok v). split; [exact Hv|]. split.
      { intros v'. rewrite skipn_all2 by lia. apply leave_end. }
      exists 1. intros [|n] Hn sid w1 Hw; [lia|]. exists w1. split; [|apply unchanged_refl].
      cbn [exec step]. unfold bind, get_inst. destruct (like_get f Hf _ _ _ _ Hw Hi) as (i1 & H1 & H2). rewrite H1.
      rewrite (listeners_of_bare _ _ _ _ H2). destruct (nth_error (listeners_of i name MValidate) j) eqn:Ej; [|reflexivity].
      assert (j < length (listeners_of i name MValidate)) by (apply nth_error_Some; congruence). lia.
    - destruct (nth_error (listeners_of i name MValidate) j) as [g|] eqn:Ej.
      + assert (HL : exists cb, g = LCb cb /\ forall v, below (length (w_heap w)) v = true ->
          reader C (length (w_heap w)) (fun _ => True) (u_listen U cb l name prev v MValidate)).
        { apply nth_error_In in Ej. unfold listeners_of in Ej. apply in_map_iff in Ej. destruct Ej as (x & <- & Hx).
          apply filter_In in Hx. destruct Hx as (Hx & Hb). apply andb_true_iff in Hb. destruct Hb as [_ Hb].
          destruct (st_validators _ _ _ _ S l i x Hi Hx) as (cb & H1 & H2).
          - destruct (l_mode x); try discriminate; reflexivity.
          - exists cb. split; auto. }
        destruct HL as (cb & -> & Hr). destruct (tot_run E C U f Hf _ w _ S (Hr v Hv)) as ([v1|e] & T0 & HT);
          pose proof (conv_answers f _ _ _ T0) as TA; destruct T0 as [n1 T]; rewrite (skipn_nth _ _ _ Ej).
        * destruct (IH (Datatypes.S j) v1) as (r & Hbr & Hlv & n2 & K).
          { assert (j < length (listeners_of i name MValidate)) by (apply nth_error_Some; congruence). lia. }
          { apply HT. }
          exists r. split; auto. split.
          { intros v'. rewrite Hlv. split; intros L; [econstructor; eauto|].
            inversion L as [|cb' fs a b c A1 L1]; subst. pose proof (answers_fun _ _ _ _ TA A1) as Q. injection Q as ->. exact L1. }
          exists (Datatypes.S (max n1 n2)). intros [|n] Hn sid w1 Hw; [lia|].
          cbn [exec step]. unfold bind at 1, get_inst. destruct (like_get f Hf _ _ _ _ Hw Hi) as (i1 & H1 & H2). rewrite H1.
          rewrite (listeners_of_bare _ _ _ _ H2), Ej. unfold bind, mod_w.
          set (w2 := w_emit _ w1). assert (U2 : unchanged w1 w2) by apply unchanged_emit.
          destruct (T n ltac:(lia) w2 (like_unchanged f _ _ _ Hw U2)) as (w3 & E3 & U3). rewrite E3.
          pose proof (unchanged_trans _ _ _ U2 U3) as U13.
          destruct (K n ltac:(lia) sid w3 (like_unchanged f _ _ _ Hw U13)) as (w4 & E4 & U4).
          exists w4. split; [exact E4|]. exact (unchanged_trans _ _ _ U13 U4).
        * exists (Exc e). split; [exact HT|]. split.
          { intros v'. split; [discriminate|]. intros L. inversion L as [|cb' fs a b c A1 L1]; subst.
            pose proof (answers_fun _ _ _ _ TA A1). discriminate. }
          exists (Datatypes.S n1). intros [|n] Hn sid w1 Hw; [lia|].
          cbn [exec step]. unfold bind at 1, get_inst. destruct (like_get f Hf _ _ _ _ Hw Hi) as (i1 & H1 & H2). rewrite H1.
          rewrite (listeners_of_bare _ _ _ _ H2), Ej. unfold bind, mod_w.
          set (w2 := w_emit _ w1). assert (U2 : unchanged w1 w2) by apply unchanged_emit.
          destruct (T n ltac:(lia) w2 (like_unchanged f _ _ _ Hw U2)) as (w3 & E3 & U3). rewrite E3.
          exists w3. split; [reflexivity|]. exact (unchanged_trans _ _ _ U2 U3).
      + exists (Ok v). split; [exact Hv|]. split.
        { intros v'. apply nth_error_None in Ej. rewrite skipn_all2 by lia. apply leave_end. }
        exists 1. intros [|n] Hn sid w1 Hw; [lia|]. exists w1. split; [|apply unchanged_refl].
        cbn [exec step]. unfold bind, get_inst. destruct (like_get f Hf _ _ _ _ Hw Hi) as (i1 & H1 & H2). rewrite H1.
        now rewrite (listeners_of_bare _ _ _ _ H2), Ej.
  Qed.
  Definition told (l : loc) (name : string) (prev v : val) (n : nat) : M val :=
    let* sid := tick in notify (X n) sid l name prev v MValidate.
  Lemma tot_notify_leave w l name prev v : settled E C U w -> l < length (w_heap w) ->
    below (length (w_heap w)) prev = true -> below (length (w_heap w)) v = true ->
    exists r, conv f (told l name prev v) w r /\ okres (fun a => below (length (w_heap w)) a = true) r /\
      forall v', r = Ok v' <-> leave E C U w l name prev (if mode_in MValidate (w_quar w) then [] else registered w l name MValidate) v v'.
  Proof.
    intros S Hl Hp Hv. destruct (get_in w l Hl) as (i & Hi). unfold told.
    destruct (mode_in MValidate (w_quar w)) eqn:Em.
    - exists (Ok v). split; [|split; [exact Hv|intros; apply leave_end]].
      exists 0. intros n _ w1 Hw. exists (w_tick w1). split; [|apply unchanged_tick].
      unfold notify, bind, tick, get_w. cbn [w_tick w_quar]. destruct Hw as (_ & Hq & _). now rewrite Hq, Em.
    - destruct (notify_from w l i name prev S Hi Hp _ 0 v (le_n _) Hv) as (r & Hr & Hlv & n0 & K).
      exists r. split; [|split; [exact Hr|]].
      + exists n0. intros n Hn w1 Hw. unfold notify, bind, tick, get_w. cbn [w_tick w_quar].
        pose proof Hw as (_ & Hq & _). rewrite Hq, Em.
        destruct (K n Hn (w_clock w1) (w_tick w1)) as (w2 & E2 & U2); [exact (like_unchanged f _ _ _ Hw (unchanged_tick w1))|].
        exists w2. split; [exact E2|]. exact (unchanged_trans _ _ _ (unchanged_tick w1) U2).
      + unfold registered. rewrite Hi. exact Hlv.
  Qed.
  Lemma tot_notify w l name prev v : settled E C U w -> l < length (w_heap w) ->
    below (length (w_heap w)) prev = true -> below (length (w_heap w)) v = true ->
    tot f (fun a => below (length (w_heap w)) a = true) (told l name prev v) w.
  Proof. intros S Hl Hp Hv. destruct (tot_notify_leave w l name prev v S Hl Hp Hv) as (r & H1 & H2 & _). exists r. auto. Qed.
  End Notify.

  (** * assert_valid, if nested validation ends *)
  Definition same (i : inst) : inst := i.
  Lemma tot_same {A} f Q (m : nat -> M A) w : tot f Q m w -> tot same Q m w.
  Proof. apply tot_finer. unfold same. intros; congruence. Qed.
  Lemma conv_same {A} f (m : nat -> M A) w r : conv f m w r -> conv same m w r.
  Proof. apply conv_finer. unfold same. intros; congruence. Qed.
  Lemma same_bare i j : same i = same j -> bare i = bare j.
  Proof. unfold same. congruence. Qed.

  Definition ends_valid (w : world) : Prop := forall l, l < length (w_heap w) ->
    tot same (fun v => v = VBool true) (fun n => X n (COp (OValidate l))) w.
  (** the value that [assert_valid] looks at *)
  Definition looked (w : world) (l : loc) (name : string) (v : val) : val :=
    if is_none v then value_or_none (stored w l name) else v.
  Definition ready (w : world) (p : ptype) (l : loc) (name : string) (v : val) : Prop :=
    looked w l name v <> VNone -> calm E p (looked w l name v).
  Lemma is_none_spec v : is_none v = true <-> v = VNone.
  Proof. destruct v; cbn; split; congruence. Qed.
  Lemma looked_below w l name v : settled E C U w -> below (length (w_heap w)) v = true ->
    below (length (w_heap w)) (looked w l name v) = true.
  Proof.
    intros S Hv. unfold looked. destruct is_none; auto. destruct (stored w l name) as [x|] eqn:Es; [|reflexivity].
    eapply st_stored; eauto.
  Qed.
  Lemma looked_looked w l name v : looked w l name (looked w l name v) = looked w l name v.
  Proof.
    unfold looked. destruct (is_none v) eqn:Ev; [|now rewrite Ev].
    destruct (is_none (value_or_none (stored w l name))) eqn:Es; auto.
  Qed.
  Lemma conv_reread f (Hf : forall i j, f i = f j -> bare i = bare j) w l name v : l < length (w_heap w) ->
    conv f (fun _ => reread l name v) w (Ok (looked w l name v)).
  Proof. intros Hl. unfold reread, looked. destruct is_none; [now apply conv_back|apply conv_ret]. Qed.
  Lemma there_some w l : l < length (w_heap w) -> there w (Some l).
  Proof. intros H l' K. now injection K as <-. Qed.

  Lemma tot_base_assert w p l name v : settled E C U w -> l < length (w_heap w) -> below (length (w_heap w)) v = true ->
    ready w p l name v -> tot no_vs (fun _ => True) (fun n => base_assert E C (X n) p l name v) w.
  Proof.
    intros S Hl Hv Hr. unfold base_assert. eapply tot_bind with (P := fun a => a = looked w l name v).
    { eexists. split; [now apply (conv_reread _ no_vs_bare)|reflexivity]. }
    intros v1 -> _. destruct is_none eqn:En; [now apply tot_ret|]. pose proof (looked_below w l name v S Hv) as Hb.
    assert (Hc : calm E p (looked w l name v)) by (apply Hr; intros K; rewrite K in En; discriminate).
    eapply tot_bind; [apply (tot_validate E C U no_vs no_vs_bare); auto using there_some|]. intros v2 Hv2 _.
    eapply tot_bind; [now apply tot_p_equal_settled|]. intros [|] _ _; [now apply tot_ret|].
    apply tot_verror. now apply there_some.
  Qed.
  Lemma ready_looked w p l name v : ready w p l name v -> ready w p l name (looked w l name v).
  Proof. unfold ready. now rewrite looked_looked. Qed.
  Lemma tot_prop_assert w rq p l name v : settled E C U w -> l < length (w_heap w) -> below (length (w_heap w)) v = true ->
    ready w p l name v -> tot no_vs (fun _ => True) (fun n => prop_assert E C (X n) rq p l name v) w.
  Proof.
    intros S Hl Hv Hr. unfold prop_assert. eapply tot_bind with (P := fun a => a = looked w l name v).
    { eexists. split; [now apply (conv_reread _ no_vs_bare)|reflexivity]. }
    intros v1 -> _. destruct (_ && _); [apply tot_verror; now apply there_some|].
    apply tot_base_assert; auto using looked_below, ready_looked.
  Qed.
  Lemma looked_item w l name v : v <> VNone -> looked w l name v = v.
  Proof. intros H. unfold looked. destruct (is_none v) eqn:Ev; auto. now apply is_none_spec in Ev. Qed.
  Lemma ready_item w p l name v : v <> VNone -> calm E p v -> ready w p l name v.
  Proof. intros H Hc. unfold ready. now rewrite looked_item. Qed.
  Lemma tot_reread w l name v : l < length (w_heap w) ->
    tot same (fun a => a = looked w l name v) (fun _ => reread l name v) w.
  Proof. intros Hl. eexists. split; [now apply (conv_reread _ same_bare)|reflexivity]. Qed.

  Lemma tot_p_assert p : forall rq l name v w, settled E C U w -> ends_valid w -> l < length (w_heap w) ->
    below (length (w_heap w)) v = true -> ready w p l name v ->
    tot same (fun _ => True) (fun n => p_assert E C (X n) rq p l name v) w.
  Proof.
    induction p as [t|k q mn mx co IH|kp vp co IHk IHv|si ps IH|cid] using ptype_ind'; intros rq l name v w S V Hl Hv Hr;
      cbn [p_assert]; (eapply tot_bind; [eapply tot_same; now apply tot_prop_assert|]); intros _ _ _; [now apply tot_ret|..];
      (eapply tot_bind; [now apply tot_reread|]); intros v1 -> _; pose proof (looked_below w l name v S Hv) as Hb; cbv beta.
    - destruct is_none eqn:En; [now apply tot_ret|].
      assert (Hc : calm E (PSeq k q mn mx co) (looked w l name v)) by (apply Hr; intros K; rewrite K in En; discriminate).
      destruct Hc as [Hc _].
      eapply tot_bind with (P := fun items => Forall (fun x => below (length (w_heap w)) x = true /\ x <> VNone /\ calm E q x) items).
      { apply tot_lift; [|apply proper_iter]. intros items Hi. specialize (Hc _ Hi). apply (below_iter (length (w_heap w))) in Hi; auto.
        rewrite Forall_forall in *. intros x Hx. split; auto. }
      intros items Hi _. cbv zeta. eapply tot_bind with (P := fun _ => True).
      { destruct (_ || _); [apply tot_perror; now apply there_some|now apply tot_ret]. }
      intros _ _ _. induction Hi as [|x items (H1 & H2 & H3) Hi IHi]; [now apply tot_ret|].
      eapply tot_bind; [apply IH; auto using ready_item|]. intros _ _ _. exact IHi.
    - destruct is_none eqn:En; [now apply tot_ret|].
      assert (Hc : calm E (PDict kp vp co) (looked w l name v)) by (apply Hr; intros K; rewrite K in En; discriminate).
      destruct (looked w l name v) as [| | | | | | | | | | | | |d|]; try (now apply tot_throw).
      cbn [calm py_dict] in Hc. specialize (Hc d eq_refl). apply below_dict in Hb.
      induction d as [|[a b] d IHd]; [now apply tot_ret|]. inversion Hb as [|? ? [Hb1 Hb2] Hb3]; subst.
      inversion Hc as [|? ? [[Hc1 Hc2] [Hc3 Hc4]] Hc5]; subst. cbn [fst snd] in *.
      eapply tot_bind; [apply IHk; auto using ready_item|]. intros _ _ _.
      eapply tot_bind; [apply IHv; auto using ready_item|]. intros _ _ _. apply IHd; auto.
    - destruct is_none eqn:En; [now apply tot_ret|].
      assert (Hn : looked w l name v <> VNone) by (intros K; rewrite K in En; discriminate).
      specialize (Hr Hn). apply calm_union in Hr.
      induction IH as [|q ps Hq Hps IHps]; [apply tot_perror; now apply there_some|]. inversion Hr; subst.
      apply tot_try; [apply Hq; auto using ready_item|]. intros e He. destruct (is_generic e); [auto|now apply tot_throw].
    - destruct (looked w l name v); try (now apply tot_ret). cbn [below] in Hb. apply Nat.ltb_lt in Hb.
      eapply tot_bind; [now apply V|]. intros; now apply tot_ret.
  Qed.

  (** * validate *)
  Lemma tot_decl_assert w l name d : settled E C U w -> ends_valid w -> l < length (w_heap w) -> declares C w l name d ->
    tot same (fun _ => True) (fun n => decl_assert E C (X n) d l name) w.
  Proof.
    intros S V Hl Hd. unfold decl_assert.
    assert (R : (forall nn, pd_kind d <> KRenamed nn) -> ready w (pd_type d) l name VNone).
    { intros Hk. unfold ready, looked. cbn [is_none]. destruct (stored w l name) as [v|] eqn:Es; [|cbn; congruence].
      intros _. eapply st_calm; eauto. }
    destruct (pd_kind d) as [|g s x| |nn] eqn:Ek.
    - eapply tot_same. apply tot_base_assert; auto. apply R. congruence.
    - eapply tot_same. apply tot_base_assert; auto. apply R. congruence.
    - apply tot_p_assert; auto. apply R. congruence.
    - eapply tot_same. apply tot_base_assert; auto. intros _ r r'. reflexivity.
  Qed.
  Lemma tot_check_prop w l name d : settled E C U w -> ends_valid w -> l < length (w_heap w) -> declares C w l name d ->
    tot same (fun _ => True) (fun n => check_prop E C (X n) l (name, d)) w.
  Proof.
    intros S V Hl Hd. unfold check_prop. eapply tot_bind; [now apply (tot_back E C U same same_bare)|]. intros v [Hs Hv] _.
    eapply tot_bind with (P := fun _ => True); [|intros; now apply tot_decl_assert].
    destruct (is_none v); [now apply tot_ret|].
    eapply tot_ext with (m := fun n => let* v1 := told l name v v n in
      let* b := p_equal (X n) (decl_type d) v v1 in if b then ret tt else verror "invalid" name (Some l)).
    { intros n w1. unfold told, bind. now destruct (tick w1) as [[?|?] ?]. }
    eapply tot_bind; [now apply (tot_notify same same_bare)|]. intros v1 Hv1 _.
    eapply tot_bind; [eapply tot_same; now apply tot_p_equal_settled|]. intros [|] _ _; [now apply tot_ret|].
    apply tot_verror. now apply there_some.
  Qed.
  (** a collected exception is a proper one *)
  Definition fair (a : errs) : Prop := forall e, snd a = Some e -> proper e.
  Lemma tot_validate_props w l ps : settled E C U w -> ends_valid w -> l < length (w_heap w) ->
    Forall (fun nd => declares C w l (fst nd) (snd nd)) ps ->
    tot same fair (fun n => validate_props E C (X n) l ps) w.
  Proof.
    intros S V Hl H. induction H as [|[name d] ps Hd Hps IH]; cbn [validate_props]; [now apply tot_ret|].
    eapply tot_bind; [apply tot_outcome; now apply tot_check_prop|]. intros [[]|e] He _; [exact IH|].
    assert (F : tot same fair (fun _ => ret ([], Some e)) w) by (apply tot_ret; intros e' K; injection K as <-; exact He).
    destruct e; try exact F. eapply tot_bind; [exact IH|]. intros a Ha _. now apply tot_ret.
  Qed.
  Lemma tot_add_err w a e : fair a -> proper e -> tot same fair (fun _ => add_err a e) w.
  Proof.
    intros Ha He. assert (F : tot same fair (fun _ => ret (fst a, match snd a with Some e0 => Some e0 | None => Some e end)) w).
    { apply tot_ret. unfold fair. cbn [snd]. destruct (snd a) as [e0|] eqn:K; intros e' Q; injection Q as <-; auto. }
    unfold add_err. destruct e; try (now apply tot_throw); cbn [is_generic]; try exact F. now apply tot_ret.
  Qed.
  Lemma tot_run_cval w l i c a cv : settled E C U w -> ends_valid w -> fair a ->
    (forall name d, In (name, d) (c_props c) -> declares C w l name d) ->
    nth_error (w_heap w) l = Some i -> nth_error (ct_cls C) (i_cls i) = Some c -> In cv (c_cvals c) ->
    tot same fair (fun n => run_cval E C U (X n) c l a cv) w.
  Proof.
    intros S V Hfa Hd Hi Hc Hcv. assert (Hl : l < length (w_heap w)) by (apply nth_error_Some; congruence).
    unfold run_cval. destruct cv as [|cb].
    - eapply tot_bind; [apply tot_validate_props; auto|].
      + apply Forall_forall. intros [name d] Hin. now apply Hd.
      + intros b Hb _. cbv zeta. destruct (snd b) eqn:Eb; [apply tot_add_err; auto|now apply tot_ret].
    - eapply tot_bind with (P := okres (fun _ : unit => True)).
      + apply tot_outcome. eapply tot_bind; [apply (tot_run E C U same same_bare); auto; eapply st_cvals; eauto|].
        intros v _ _. cbv beta. destruct v as [| |[|]| | | | | | | | | | | |]; try (now apply tot_ret).
        eapply tot_bind with (P := fun _ => True); [|intros; now apply tot_throw].
        eexists. split; [apply conv_hook; now apply there_some|exact I].
      + intros [[]|e] He _; [now apply tot_ret|now apply tot_add_err].
  Qed.
  Lemma tot_raise_collected w l a : fair a -> tot same (fun _ => True) (fun _ => raise_collected l a) w.
  Proof.
    intros Ha. unfold raise_collected. destruct (fst a) as [|t ts].
    - destruct (snd a) eqn:K; [apply tot_throw; auto|now apply tot_ret].
    - eapply tot_bind with (P := fun _ => True); [|intros; now apply tot_throw].
      eexists. split; [apply conv_emit|exact I].
  Qed.
  Definition open_v (i : inst) : bool := match i_vflag i with Some true => false | _ => true end.
  Lemma initialized_upd w l : initialized w -> initialized (w_upd l (i_setv (Some true)) w).
  Proof.
    intros H m j Hj. destruct (nth_error (w_heap w) l) as [i|] eqn:Hi.
    - destruct (Nat.eq_dec m l) as [->|Hm].
      + unfold w_upd in Hj. rewrite Hi in Hj. cbn [w_setheap w_heap] in Hj.
        rewrite set_nth_same in Hj by (apply nth_error_Some; congruence). injection Hj as <-. discriminate.
      + unfold w_upd in Hj. rewrite Hi in Hj. cbn [w_setheap w_heap] in Hj. rewrite set_nth_other in Hj by auto. eapply H; eauto.
    - unfold w_upd in Hj. rewrite Hi in Hj. eapply H; eauto.
  Qed.
  Lemma wf_declares (WF : wf_ctab C) w l i c name d : nth_error (w_heap w) l = Some i -> nth_error (ct_cls C) (i_cls i) = Some c ->
    In (name, d) (c_props c) -> declares C w l name d.
  Proof.
    intros Hi Hc Hin. exists c. split; [now exists i|]. apply dget_nodup_in; auto. eapply WF; eauto.
  Qed.
  Lemma tot_valid_inst (WF : wf_ctab C) : forall k w, count open_v w = k -> settled E C U w -> initialized w -> ends_valid w.
  Proof.
    induction k as [k IH] using lt_wf_ind. intros w Hk S In l Hl. apply tot_step. cbn [step]. unfold has_validate.
    destruct (get_in w l Hl) as (i & Hi). eapply tot_get; [exact Hi| |].
    { intros n i1 H1. unfold same in H1. now subst. }
    assert (G : i_vflag i = Some false -> tot same (fun v => v = VBool true) (fun n =>
        upd l (i_setv (Some true)) ;;
        fin (let* c := inst_class C l in
             let* a := foldM (run_cval E C U (X n) c l) ([], None) (c_cvals c) in
             raise_collected l a ;; ret (VBool true))
            (w_upd l (i_setv (Some false)))) w).
    { intros Ev. set (w' := w_upd l (i_setv (Some true)) w).
      assert (Al : alike w w') by (apply alike_upd; reflexivity).
      assert (S' : settled E C U w') by (eapply settled_alike; eauto). pose proof (alike_len _ _ Al) as Len.
      apply tot_flag; auto.
      - unfold same. intros; congruence.
      - intros x y Hx Hy. unfold same in Hy. subst y. rewrite Hi in Hx. injection Hx as <-. destruct i. cbn in *. now subst.
      - fold w'. destruct (get_in w' l) as (i' & Hi'); [lia|].
        destruct (nth_error (ct_cls C) (i_cls i')) as [c|] eqn:Hc; [|now destruct (st_class _ _ _ _ S' _ _ Hi')].
        eapply tot_bind with (P := fun c' => c' = c).
        { eexists. split; [apply (conv_cls C same same_bare); eauto|]. now rewrite Hc. }
        intros c' -> _. assert (V' : ends_valid w').
        { eapply IH; [|reflexivity|exact S'|now apply initialized_upd].
          pose proof (count_upd open_v l (i_setv (Some true)) w i Hi) as K. unfold open_v in K at 1 2. cbn in K. rewrite Ev in K.
          specialize (K eq_refl eq_refl). unfold w'. lia. }
        eapply tot_bind with (P := fair).
        { apply (tot_foldM same fair); [intros e K; discriminate|]. apply Forall_forall. intros cv Hcv a Ha. eapply tot_run_cval; eauto.
          intros name d Hnd. eapply wf_declares; eauto. }
        intros a Ha _. eapply tot_bind; [now apply tot_raise_collected|]. intros; now apply tot_ret. }
    destruct (i_vflag i) as [[|]|] eqn:Ev; [now apply tot_ret|now apply G|]. now destruct (In _ _ Hi).
  Qed.
  Lemma ends_valid_settled (WF : wf_ctab C) w : settled E C U w -> initialized w -> ends_valid w.
  Proof. intros. eapply tot_valid_inst; eauto. Qed.
End Validate.
