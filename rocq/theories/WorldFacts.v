(** Lemmas behind the property theorems of PropertiesWorld.v. *)
From Verif Require Import World WorldFrame WorldSpec WorldInv WorldSet.
Local Open Scope string_scope.
Local Open Scope list_scope.
Local Open Scope nat_scope.

Section Facts.
  Variable E : env.
  Variable C : ctable.
  Variable U : ucode.
  Hypothesis HC : wf_ctab C.
  Notation ex := (exec E C U).

  (** ** Setting *)
  Lemma setattr_prop n l name d v w : declares C w l name d -> pd_kind d = KProp ->
    ex (S n) (COp (OSet l name v)) w = prop_fset E C (ex n) (pd_type d) l name v w.
  Proof.
    intros (c & (i & Hi & Hc) & Hd) Hk. cbn [exec step]. unfold has_setattr, inst_class, class_of, get_inst, bind, lift.
    rewrite Hi, Hc, Hd, Hk. reflexivity.
  Qed.
  Lemma delattr_prop n l name d w : declares C w l name d -> pd_kind d = KProp ->
    ex (S n) (COp (ODel l name)) w = has_set (ex n) (pd_type d) l name VUndef w.
  Proof.
    intros (c & (i & Hi & Hc) & Hd) Hk. cbn [exec step]. unfold has_delattr, inst_class, class_of, get_inst, bind, lift.
    rewrite Hi, Hc, Hd, Hk. reflexivity.
  Qed.
  Lemma declares_heap w l name d : declares C w l name d -> nth_error (w_heap w) l <> None.
  Proof. intros (c & (i & Hi & _) & _). congruence. Qed.

  Lemma validate_piece n p io name v s w : s <= w_clock w ->
    exists new, piece s w (snd (p_validate E C (ex n) p io name v w)) new.
  Proof.
    intros Hs. apply (good_piece E C U). intros R T F.
    apply (good_validate E C U R T F _ (frame_exec E C U R T F HC n) s); auto. apply (f_refl _ _ _ _ _ F).
  Qed.

  Lemma set_decompose n l name d v w r w' : declares C w l name d -> pd_kind d = KProp -> is_undef v = false ->
    ex (S n) (COp (OSet l name v)) w = (Ok r, w') ->
    exists v0 w1 new0 new v1 changed fv fc fs,
      p_validate E C (ex n) (pd_type d) (Some l) name v w = (Ok v0, w1) /\
      piece (w_clock w) w w1 new0 /\ piece (w_clock w1) w1 w' new /\
      assignment (fun m prev => left_by E C U l name m prev) (own_equal E C U (pd_type d)) l name v0 w1 w' new
        (w_clock w1) v1 changed fv fc fs.
  Proof.
    intros Hd Hk Hu H. rewrite (setattr_prop n l name d v w Hd Hk) in H. unfold prop_fset in H. rewrite Hu in H.
    apply bind_ok in H as (v0 & w1 & Hv & H).
    destruct (validate_piece n (pd_type d) (Some l) name v (w_clock w) w) as [new0 P0]; auto. rewrite Hv in P0. simpl in P0.
    pose proof (heap_kept _ _ _ _ _ P0 (declares_heap _ _ _ _ Hd)) as Hl.
    destruct (has_set_ok E C U HC _ _ _ _ _ _ _ _ Hl H) as (new & v1 & ch & fv & fc & fs & P & A).
    exists v0, w1, new0, new, v1, ch, fv, fc, fs. auto.
  Qed.

  Lemma calls_ecall lb sid l name m prev v fs v' evs : calls lb sid l name m prev v fs v' evs ->
    forall s l' n' x, ~ In (EWrite s l' n' x) evs.
  Proof. induction 1; intros s l' n' x; simpl; [tauto|]. intros [K|K]; [discriminate|eapply IHcalls; eauto]. Qed.
  Lemma in_of_sid sid e new : has_sid sid e = true -> In e new -> In e (of_sid sid new).
  Proof. intros H1 H2. unfold of_sid. apply filter_In. split; auto. now apply -> in_rev. Qed.
  Lemma of_sid_in sid e new : In e (of_sid sid new) -> In e new.
  Proof. unfold of_sid. intros H. apply filter_In in H as [H _]. now apply in_rev. Qed.

  Lemma assignment_write lb eq l name v0 w w' new sid v1 ch fv fc fs :
    assignment lb eq l name v0 w w' new sid v1 ch fv fc fs ->
    In (EWrite sid l name v1) new /\
    forall l' n' x, In (EWrite sid l' n' x) new -> l' = l /\ n' = name /\ x = v1.
  Proof.
    intros [_ A _ _ _ _]. cbv zeta in A. destruct A as (ev & ec & es & v2 & v3 & Ho & Hv & Hc & Hs). split.
    - apply (of_sid_in sid). rewrite Ho. apply in_or_app. right. left. reflexivity.
    - intros l' n' x Hin. apply (in_of_sid sid) in Hin; [|apply Nat.eqb_refl]. rewrite Ho in Hin.
      apply in_app_or in Hin as [Hin|Hin]; [exfalso; exact (calls_ecall _ _ _ _ _ _ _ _ _ _ Hv _ _ _ _ Hin)|].
      simpl in Hin. destruct Hin as [Hin|Hin]; [injection Hin; auto|].
      apply in_app_or in Hin as [Hin|Hin]; exfalso;
        [exact (calls_ecall _ _ _ _ _ _ _ _ _ _ Hc _ _ _ _ Hin)|exact (calls_ecall _ _ _ _ _ _ _ _ _ _ Hs _ _ _ _ Hin)].
  Qed.

  Lemma replay_none new l name o : ~ Exists (is_write l name) new -> replay new l name o = o.
  Proof.
    induction new as [|e new IH]; intros H; simpl; auto.
    assert (H' : ~ Exists (is_write l name) new) by (intros K; apply H; now constructor 2).
    destruct e as [| s l' n' x |]; auto. destruct (Nat.eqb_spec l l') as [<-|]; auto.
    destruct (String.eqb_spec name n') as [<-|]; auto. exfalso. apply H. constructor. now exists s, x.
  Qed.
  Lemma replay_one new l name o v : (exists s, In (EWrite s l name v) new) ->
    (forall s x, In (EWrite s l name x) new -> x = v) -> replay new l name o = when_set v.
  Proof.
    intros [s Hin] H. induction new as [|e new IH]; [destruct Hin|].
    destruct e as [| s' l' n' x |]; simpl.
    - destruct Hin as [Hin|Hin]; [discriminate|]. apply IH; auto. intros. eapply H. right. eauto.
    - destruct (Nat.eqb_spec l l') as [<-|Hl].
      + destruct (String.eqb_spec name n') as [<-|Hn].
        * assert (x = v) as -> by (eapply H; left; reflexivity). reflexivity.
        * destruct Hin as [Hin|Hin]; [congruence|]. apply IH; auto. intros. eapply H. right. eauto.
      + destruct Hin as [Hin|Hin]; [congruence|]. apply IH; auto. intros. eapply H. right. eauto.
    - destruct Hin as [Hin|Hin]; [discriminate|]. apply IH; auto. intros. eapply H. right. eauto.
  Qed.
  Lemma stored_replay s w w' new l name : piece s w w' new -> l < length (w_heap w) ->
    stored w' l name = replay new l name (stored w l name).
  Proof.
    intros P Hl. unfold stored. apply nth_error_Some in Hl. destruct (nth_error (w_heap w) l) as [i|] eqn:Ei; [|congruence].
    destruct (pc_log _ _ _ _ P l i name Ei) as (i' & -> & ->). reflexivity.
  Qed.

  Theorem set_stores n l name d v w r w' : declares C w l name d -> pd_kind d = KProp -> is_undef v = false ->
    ex (S n) (COp (OSet l name v)) w = (Ok r, w') ->
    exists v0 w1 new sid v1 fv ev,
      p_validate E C (ex n) (pd_type d) (Some l) name v w = (Ok v0, w1) /\
      since w w' new /\
      calls (left_by E C U l name MValidate (unset_or (stored w1 l name))) sid l name MValidate
            (unset_or (stored w1 l name)) v0 fv v1 ev /\
      prefix fv (registered w' l name MValidate) /\
      In (EWrite sid l name v1) new /\
      ((forall s x, In (EWrite s l name x) new -> s = sid) -> stored w' l name = when_set v1) /\
      (forall l' n', l' < length (w_heap w) -> ~ Exists (is_write l' n') new -> stored w' l' n' = stored w l' n').
  Proof.
    intros Hd Hk Hu H.
    destruct (set_decompose _ _ _ _ _ _ _ _ Hd Hk Hu H) as (v0 & w1 & new0 & new & v1 & ch & fv & fc & fs & Hv & P0 & P1 & A).
    destruct (assignment_write _ _ _ _ _ _ _ _ _ _ _ _ _ _ A) as [W1 W2].
    destruct A as [A1 A2 _ Av _ _]. cbv zeta in A2. destruct A2 as (ev & ec & es & v2 & v3 & Ho & Cv & _).
    assert (P : piece (w_clock w) w w' (new ++ new0)).
    { eapply piece_trans; [exact P0|]. eapply piece_weaken; [|exact P1]. apply (pc_grows _ _ _ _ P0). }
    exists v0, w1, (new ++ new0), (w_clock w1), v1, fv, ev.
    split; [exact Hv|]. split; [apply (pc_since _ _ _ _ P)|]. split; [exact Cv|].
    split; [|split; [apply in_or_app; auto|split]].
    - destruct Av as [Av1 Av2]. destruct (in_dec (fun a b : lmode => ltac:(decide equality)) MValidate (w_quar w1)) as [Hq|Hq].
      + rewrite (Av1 Hq). now exists (registered w' l name MValidate).
      + apply Av2, Hq.
    - intros Ho'. rewrite (stored_replay _ _ _ _ l name P).
      + apply replay_one; [exists (w_clock w1); apply in_or_app; auto|].
        intros s x Hin. assert (s = w_clock w1) as -> by eauto. apply in_app_or in Hin as [Hin|Hin]; [now apply W2 in Hin|].
        pose proof (pc_ev _ _ _ _ P0) as F. rewrite Forall_forall in F. apply F in Hin. simpl in Hin. lia.
      + apply nth_error_Some. eapply declares_heap; eauto.
    - intros l' n' Hl' Hn'. rewrite (stored_replay _ _ _ _ l' n' P Hl'). now apply replay_none.
  Qed.

  Lemma prefix_nil_r {A} (a : list A) : prefix a [] -> a = [].
  Proof. intros [c H]. destruct a; [auto|discriminate]. Qed.

  Lemma notify_silent n sid l name prev v m w : registered w l name m = [] ->
    nth_error (w_heap w) l <> None ->
    notify (ex n) sid l name prev v m w = (Ok v, w) \/ notify (ex n) sid l name prev v m w = (Exc ExRecursion, w).
  Proof.
    intros Hr Hl. unfold notify, bind, get_w. destruct (mode_in m (w_quar w)); [left; reflexivity|].
    destruct n as [|n]; [right; reflexivity|]. left. cbn [exec step]. unfold bind, get_inst.
    unfold registered in Hr. destruct (nth_error (w_heap w) l) as [i|]; [|congruence].
    unfold listeners_of. rewrite Hr. reflexivity.
  Qed.

  (** The plain case: no listeners for the property and no instance types *)
  Theorem set_plain n l name d v w r w' : declares C w l name d -> pd_kind d = KProp -> is_undef v = false ->
    inst_free (pd_type d) -> (forall m, registered w l name m = []) ->
    ex (S n) (COp (OSet l name v)) w = (Ok r, w') ->
    exists v0 w1, p_validate E C (ex n) (pd_type d) (Some l) name v w = (Ok v0, w1) /\ hooks_only w w1 /\
      (forall l' n', stored w' l' n' = if Nat.eqb l l' && String.eqb name n' then when_set v0 else stored w l' n').
  Proof.
    intros Hd Hk Hu Hf Hr H. rewrite (setattr_prop n l name d v w Hd Hk) in H. unfold prop_fset in H. rewrite Hu in H.
    apply bind_ok in H as (v0 & w1 & Hv & H).
    pose proof (validate_free E C (ex n) _ Hf (Some l) name v w) as Q. rewrite Hv in Q. simpl in Q.
    exists v0, w1. split; [exact Hv|]. split; [exact Q|].
    pose proof (declares_heap _ _ _ _ Hd) as Hl.
    assert (Hl1 : nth_error (w_heap w1) l <> None) by (now rewrite (ho_heap _ _ Q)).
    assert (Hr1 : forall m, registered w1 l name m = []) by (intros m; unfold registered; rewrite (ho_heap _ _ Q); apply Hr).
    unfold has_set in H. apply bind_ok in H as (sid & w2 & Ht & H). injection Ht as <- <-.
    apply bind_ok in H as (i & w2 & Hi & H). apply get_inst_ok in Hi as [-> Hi].
    simpl in Hi. destruct (nth_error (w_heap w1) l) as [i'|] eqn:Ei; [|congruence]. injection Hi as ->.
    apply bind_ok in H as (v1 & w2 & Hn & H).
    destruct (notify_silent n (w_clock w1) l name (match dget (i_back i') name with Some x => x | None => VUndef end) v0 MValidate (w_tick w1)) as [K|K];
      [exact (Hr1 MValidate)|simpl; congruence| |congruence].
    rewrite K in Hn. injection Hn as <- <-.
    apply bind_ok in H as (u & w2 & Hw & H). injection Hw as Hw1 Hw2. subst u.
    apply bind_ok in H as (u & w3 & Hw & H). injection Hw as Hw1' Hw3. subst u.
    assert (Hst : forall l' n', stored w3 l' n' = if Nat.eqb l l' && String.eqb name n' then when_set v0 else stored w l' n').
    { intros l' n'. rewrite <- Hw3, <- Hw2. unfold stored. simpl. rewrite <- (ho_heap _ _ Q).
      destruct (Nat.eqb_spec l l') as [<-|Hne].
      - rewrite w_upd_nth_same. simpl. rewrite Ei. simpl. unfold when_set.
        destruct (String.eqb_spec name n') as [<-|Hnn].
        + destruct (is_undef v0); [apply dget_ddel_same|apply dget_dset_same].
        + destruct (is_undef v0); [apply dget_ddel_other|apply dget_dset_other]; auto.
      - rewrite w_upd_nth_other by auto. reflexivity. }
    assert (Hr3 : forall m, registered w3 l name m = []).
    { intros m. rewrite <- Hw3, <- Hw2. specialize (Hr1 m). unfold registered in *. simpl.
      rewrite w_upd_nth_same. simpl. rewrite Ei in *. simpl. exact Hr1. }
    assert (Hl3 : nth_error (w_heap w3) l <> None).
    { rewrite <- Hw3, <- Hw2. simpl. rewrite w_upd_nth_same. simpl. rewrite Ei. simpl. congruence. }
    clear Hw2 Hw3.
    apply bind_ok in H as (b & w4 & Hc & H).
    assert (w4 = w3).
    { destruct (is_undef _ && is_undef _) in Hc; [injection Hc; auto|].
      destruct (is_undef _ || is_undef _) in Hc; [injection Hc; auto|].
      apply bind_ok in Hc as (b' & w5 & He & Hc). injection Hc as _ <-.
      destruct (equal_free _ Hf (match dget (i_back i') name with Some x => x | None => VUndef end) v0) as [rr Hrr].
      rewrite Hrr in He. now injection He. }
    subst w4.
    apply bind_ok in H as (v2 & w4 & Hn & H).
    assert (w4 = w3).
    { destruct b; [|injection Hn; auto].
      destruct (notify_silent n (w_clock w1) l name (match dget (i_back i') name with Some x => x | None => VUndef end) v0 MChange w3) as [K'|K']; auto; congruence. }
    subst w4. apply bind_ok in H as (v3 & w4 & Hn' & H). injection H as _ <-.
    destruct (notify_silent n (w_clock w1) l name (match dget (i_back i') name with Some x => x | None => VUndef end) v2 MSet w3) as [K'|K']; auto; try congruence.
    rewrite K' in Hn'. injection Hn' as _ <-. exact Hst.
  Qed.

  (** ** Change observers *)
  Lemma calls_in lb sid l name m prev v fs v' evs f : calls lb sid l name m prev v fs v' evs -> In f fs ->
    exists x, In (ECall sid l name m f prev x) evs.
  Proof.
    induction 1; [intros []|]. intros [<-|Hin]; [eexists; left; reflexivity|].
    destruct (IHcalls Hin) as [x Hx]. exists x. now right.
  Qed.
  Lemma calls_mode_of lb sid l name m prev v fs v' evs s l' n' m' f p x : calls lb sid l name m prev v fs v' evs ->
    In (ECall s l' n' m' f p x) evs -> m' = m /\ In f fs.
  Proof.
    induction 1; [intros []|]. intros [H1|H1]; [injection H1; intros; subst; split; simpl; auto|].
    destruct (IHcalls H1). split; simpl; auto.
  Qed.
  Theorem change_iff lb eq l name v0 w w' new sid v1 ch fv fc fs :
    assignment lb eq l name v0 w w' new sid v1 ch fv fc fs ->
    ((exists f p x, In (ECall sid l name MChange f p x) new) -> ch = true) /\
    (ch = true -> ~ In MChange (w_quar w) -> forall f, In f (registered w l name MChange) ->
       exists x, In (ECall sid l name MChange f (unset_or (stored w l name)) x) new).
  Proof.
    intros [_ A _ _ Ac _]. cbv zeta in A. destruct A as (ev & ec & es & v2 & v3 & Ho & Hv & Hc & Hs). split.
    - intros (f & p & x & Hin). apply (in_of_sid sid) in Hin; [|apply Nat.eqb_refl]. rewrite Ho in Hin.
      apply in_app_or in Hin as [Hin|Hin]; [destruct (calls_mode_of _ _ _ _ _ _ _ _ _ _ _ _ _ _ _ _ _ Hv Hin); discriminate|].
      simpl in Hin. destruct Hin as [Hin|Hin]; [discriminate|].
      apply in_app_or in Hin as [Hin|Hin]; [|destruct (calls_mode_of _ _ _ _ _ _ _ _ _ _ _ _ _ _ _ _ _ Hs Hin); discriminate].
      destruct ch; auto. subst fc. inversion Hc; subst. destruct Hin.
    - intros -> Hq f Hf. destruct Ac as [_ Ac]. destruct (Ac Hq) as [[c Hp] _]. subst fc.
      destruct (calls_in _ _ _ _ _ _ _ _ _ _ f Hc) as [x Hx]; [apply in_or_app; auto|].
      exists x. apply (of_sid_in sid). rewrite Ho. apply in_or_app. right. simpl. right. apply in_or_app. auto.
  Qed.
  Theorem change_free n l name d v w r w' : declares C w l name d -> pd_kind d = KProp -> is_undef v = false ->
    inst_free (pd_type d) -> ex (S n) (COp (OSet l name v)) w = (Ok r, w') ->
    exists new sid v1 e, since w w' new /\ In (EWrite sid l name v1) new /\
      let prev := unset_or (stored w l name) in
      (forall rec wa, p_equal rec (pd_type d) prev v1 wa = (e, wa)) /\
      let differs := is_undef prev <> is_undef v1 \/ is_undef prev = false /\ is_undef v1 = false /\ e = Ok false in
      ((exists f p x, In (ECall sid l name MChange f p x) new) -> differs) /\
      (differs -> ~ In MChange (w_quar w) -> forall f, In f (registered w l name MChange) ->
        exists x, In (ECall sid l name MChange f prev x) new).
  Proof.
    intros Hd Hk Hu Hf H.
    destruct (set_decompose _ _ _ _ _ _ _ _ Hd Hk Hu H) as (v0 & w1 & new0 & new & v1 & ch & fv & fc & fs & Hv & P0 & P1 & A).
    pose proof (validate_free E C (ex n) _ Hf (Some l) name v w) as Q. rewrite Hv in Q. simpl in Q.
    destruct (assignment_write _ _ _ _ _ _ _ _ _ _ _ _ _ _ A) as [W1 _].
    destruct (change_iff _ _ _ _ _ _ _ _ _ _ _ _ _ _ A) as [C1 C2].
    assert (Hst : stored w1 l name = stored w l name) by (unfold stored; now rewrite (ho_heap _ _ Q)).
    destruct (equal_free _ Hf (unset_or (stored w l name)) v1) as [e He].
    assert (P : piece (w_clock w) w w' (new ++ new0)).
    { eapply piece_trans; [exact P0|]. eapply piece_weaken; [|exact P1]. apply (pc_grows _ _ _ _ P0). }
    exists (new ++ new0), (w_clock w1), v1, e. split; [apply (pc_since _ _ _ _ P)|]. split; [apply in_or_app; auto|].
    cbv zeta. split; [exact He|]. pose proof (as_changed _ _ _ _ _ _ _ _ _ _ _ _ _ _ A) as Hch. rewrite Hst in *.
    assert (Hiff : ch = true <-> (is_undef (unset_or (stored w l name)) <> is_undef v1 \/
        is_undef (unset_or (stored w l name)) = false /\ is_undef v1 = false /\ e = Ok false)).
    { unfold changes in Hch. destruct (is_undef (unset_or (stored w l name))), (is_undef v1).
      - subst ch. intuition congruence.
      - subst ch. split; intros; [left; discriminate|reflexivity].
      - subst ch. split; intros; [left; discriminate|reflexivity].
      - destruct Hch as (k & wa & wb & Hch). rewrite He in Hch. injection Hch as -> _.
        destruct ch; simpl; intuition congruence. }
    split.
    - intros (f & p & x & Hin). apply Hiff, C1. apply in_app_or in Hin as [Hin|Hin]; [eauto|].
      exfalso. pose proof (pc_ev _ _ _ _ P0) as F. rewrite Forall_forall in F. apply F in Hin. simpl in Hin. lia.
    - intros Hdf Hq f Hfin. apply Hiff in Hdf. rewrite <- (ho_quar _ _ Q) in Hq.
      assert (Hr : registered w1 l name MChange = registered w l name MChange) by (unfold registered; now rewrite (ho_heap _ _ Q)).
      rewrite <- Hr in Hfin. destruct (C2 Hdf Hq f Hfin) as [x Hx]. exists x. apply in_or_app. auto.
  Qed.

  (** ** Rejection *)
  Theorem set_rejected n l name d v w e w1 : declares C w l name d -> pd_kind d = KProp -> is_undef v = false ->
    p_validate E C (ex n) (pd_type d) (Some l) name v w = (Exc e, w1) ->
    ex (S n) (COp (OSet l name v)) w = (Exc e, w1) /\ (inst_free (pd_type d) -> hooks_only w w1).
  Proof.
    intros Hd Hk Hu H. split.
    - rewrite (setattr_prop n l name d v w Hd Hk). unfold prop_fset. rewrite Hu. unfold bind. now rewrite H.
    - intros Hf. pose proof (validate_free E C (ex n) _ Hf (Some l) name v w) as Q. now rewrite H in Q.
  Qed.

  Theorem set_failed n l name d v w v0 w1 e w' : declares C w l name d -> pd_kind d = KProp -> is_undef v = false ->
    p_validate E C (ex n) (pd_type d) (Some l) name v w = (Ok v0, w1) ->
    ex (S n) (COp (OSet l name v)) w = (Exc e, w') ->
    exists new, since w1 w' new /\
      let sid := w_clock w1 in let prev := unset_or (stored w1 l name) in
      (Forall (call_of sid l name MValidate prev) (of_sid sid new) \/
       exists ev v1 rest, of_sid sid new = ev ++ EWrite sid l name v1 :: rest /\
         Forall (call_of sid l name MValidate prev) ev /\ Forall (observer_call sid l name prev) rest) /\
      (forall l' n', l' < length (w_heap w1) -> stored w' l' n' = replay new l' n' (stored w1 l' n')).
  Proof.
    intros Hd Hk Hu Hv H. rewrite (setattr_prop n l name d v w Hd Hk) in H. unfold prop_fset in H. rewrite Hu in H.
    unfold bind in H. rewrite Hv in H.
    destruct (validate_piece n (pd_type d) (Some l) name v (w_clock w) w) as [new0 P0]; auto. rewrite Hv in P0. simpl in P0.
    pose proof (heap_kept _ _ _ _ _ P0 (declares_heap _ _ _ _ Hd)) as Hl.
    destruct (has_set_exc E C U HC _ _ _ _ _ _ _ _ Hl H) as (new & P & K). exists new.
    split; [apply (pc_since _ _ _ _ P)|]. split; [exact K|]. intros l' n' Hl'. eapply stored_replay; eauto.
  Qed.

  (** ** Deletion *)
  Theorem del_assignment n l name d w r w' : declares C w l name d -> pd_kind d = KProp ->
    ex (S n) (COp (ODel l name)) w = (Ok r, w') ->
    exists new sid v1 changed fv fc fs,
      assignment (fun m prev => left_by E C U l name m prev) (own_equal E C U (pd_type d)) l name VUndef w w' new sid v1 changed fv fc fs.
  Proof.
    intros Hd Hk H. rewrite (delattr_prop n l name d w Hd Hk) in H.
    destruct (has_set_ok E C U HC _ _ _ _ _ _ _ _ (declares_heap _ _ _ _ Hd) H) as (new & v1 & ch & fv & fc & fs & P & A).
    exists new, (w_clock w), v1, ch, fv, fc, fs. exact A.
  Qed.
  Lemma set_undefined n l name d w : declares C w l name d -> pd_kind d = KProp ->
    ex (S n) (COp (OSet l name VUndef)) w = ex (S n) (COp (ODel l name)) w.
  Proof.
    intros Hd Hk. rewrite (setattr_prop n l name d VUndef w Hd Hk), (delattr_prop n l name d w Hd Hk). reflexivity.
  Qed.
  Lemma get_prop n l name d w : declares C w l name d -> pd_kind d = KProp \/ pd_kind d = KGettable ->
    ex (S n) (COp (OGet l name)) w = (Ok (match stored w l name with Some v => v | None => VNone end), w).
  Proof.
    intros (c & (i & Hi & Hc) & Hd) Hk. cbn [exec step].
    unfold has_getattr, inst_class, class_of, back_get, get_inst, bind, lift, stored.
    rewrite Hi, Hc, Hd. destruct Hk as [-> | ->]; rewrite Hi; reflexivity.
  Qed.

  Lemma mapM_keys (f : string -> M (string * val)) ks : (forall k w x w', f k w = (Ok x, w') -> fst x = k) ->
    forall w xs w', mapM f ks w = (Ok xs, w') -> map fst xs = ks.
  Proof.
    intros Hf. induction ks as [|k ks IH]; simpl; intros w xs w' H.
    - injection H as <- <-. reflexivity.
    - apply bind_ok in H as (y & w1 & Hy & H). apply bind_ok in H as (ys & w2 & Hys & H). injection H as <- <-.
      simpl. f_equal; eauto.
  Qed.
  Lemma in_vd_set k v d k' v' : In (k', v') (vd_set d k v) -> k' = k \/ In (k', v') d \/ exists x, In (k', x) d.
  Proof.
    induction d as [|[a b] d IH]; simpl.
    - intros [H|[]]. left. congruence.
    - destruct (py_eq a k); simpl.
      + intros [H|H]; [|auto]. injection H as <- <-. right. right. exists b. auto.
      + intros [H|H]; [auto|]. apply IH in H as [H|[H|[x H]]]; eauto.
  Qed.
  Lemma serialized_keys n l b w r w' : ex (S n) (COp (OSer l (SOpt b false))) w = (Ok r, w') ->
    exists d, r = VDict d /\ forall k v, In (k, v) d ->
      k = class_key \/ exists name, k = VStr name /\ stored w l name <> None.
  Proof.
    cbn [exec step]. unfold has_serialize. intros H.
    apply bind_ok in H as (i & w1 & Hi & H). apply get_inst_ok in Hi as [-> Hi].
    destruct (nth_error (w_heap w) l) as [i'|] eqn:Ei; [|discriminate]. injection Hi as ->.
    destruct (i_sflag i'); [discriminate|].
    apply bind_ok in H as (u & w1 & Hu & H). unfold upd, mod_w in Hu. injection Hu as <- <-.
    unfold fin in H. destruct (bind (inst_class C l) _ _) as [r1 w1] eqn:Eb. injection H as -> <-.
    apply bind_ok in Eb as (c & w2 & Hc & H).
    assert (w2 = w_upd l (i_sets true) w) as ->.
    { unfold inst_class, class_of, lift in Hc. apply bind_ok in Hc as (x & w3 & Hx & Hc).
      apply get_inst_ok in Hx as [-> _]. now injection Hc. }
    apply bind_ok in H as (j & w2 & Hj & H). apply get_inst_ok in Hj as [-> Hj].
    rewrite w_upd_nth_same, Ei in Hj. simpl in Hj. injection Hj as ->. cbv zeta in H. cbn [s_dyn s_class] in H.
    apply bind_ok in H as (data & w2 & Hd & H). injection H as <- <-.
    apply mapM_keys in Hd.
    2:{ intros k w0 x w3 Hk. destruct (dget (c_props c) k) as [pd|]; [|discriminate].
        apply bind_ok in Hk as (v & w4 & _ & Hk). apply bind_ok in Hk as (y & w5 & _ & Hk). injection Hk as <- <-. reflexivity. }
    eexists. split; [reflexivity|]. intros k v Hin.
    assert (Hent : forall k v, In (k, v) (map (fun kx => (VStr (fst kx), snd kx))
                          (filter (fun kx : string * val => negb (is_none (snd kx))) data)) ->
              exists name, k = VStr name /\ stored w l name <> None).
    { clear k v Hin. intros k v Hin. apply in_map_iff in Hin as ([nm x] & Hx & Hin). injection Hx as <- <-.
      exists nm. split; [reflexivity|]. apply filter_In in Hin as [Hin _].
      assert (In nm (dkeys (i_back i'))).
      { change (dkeys (i_back (i_sets true i'))) with (dkeys (i_back i')) in Hd. rewrite <- Hd.
        apply (in_map fst) in Hin. exact Hin. }
      unfold stored. rewrite Ei. intros Hn. apply dget_none in Hn. contradiction. }
    destruct b.
    - apply in_vd_set in Hin as [->|[Hin|[x Hin]]]; [now left| |]; right; eauto.
    - right. eauto.
  Qed.

  (** ** Immutable properties *)
  Lemma imm_program n p l name d w : declares C w l name d -> pd_kind d <> KProp ->
    stored (snd (run_prog E C U n p w)) l name = stored w l name.
  Proof.
    intros (c & (i & Hi & Hc) & Hd) Hk.
    destruct (frame_run E C U _ _ (frame_imm E C U) HC n p 0 w) as [_ K]; [lia|].
    destruct (K l i Hi) as (i' & Hi' & _ & K').
    unfold stored. unfold run_prog in *. rewrite Hi, Hi'. eauto.
  Qed.
  Lemma imm_refuse n l name d v w : declares C w l name d -> pd_kind d = KGettable ->
    ex (S n) (COp (OSet l name v)) w = (Exc ExAttr, w) /\ ex (S n) (COp (ODel l name)) w = (Exc ExAttr, w).
  Proof.
    intros (c & (i & Hi & Hc) & Hd) Hk. cbn [exec step].
    unfold has_setattr, has_delattr, inst_class, class_of, get_inst, bind, lift.
    rewrite Hi, Hc, Hd, Hk. auto.
  Qed.

  (** ** Suppression *)
  Lemma quar_program n p w : w_quar (snd (run_prog E C U n p w)) = w_quar w.
  Proof. apply (run_ext E C U n p w HC). Qed.
  Lemma quar_exec n o w : w_quar (snd (ex n (COp o) w)) = w_quar w.
  Proof. apply (exec_ext E C U n o w HC). Qed.

  Lemma block_silent n types body w r w' new m : run_prog E C U n (With types body finish) w = (r, w') ->
    since w w' new -> disables types m -> Forall (fun e => ~ calls_mode m e) new.
  Proof.
    intros H Hs Hm. unfold run_prog in H. cbn [run] in H. unfold disabled in H.
    destruct (run (ex n) body (w_setquar (quar_enter types (w_quar w)) w)) as [r1 w1] eqn:E1.
    pose proof (run_ev E C U n body (w_setquar (quar_enter types (w_quar w)) w) HC) as [_ (new' & K1 & K2)].
    unfold run_prog in K1, K2. rewrite E1 in K1, K2. simpl in K1, K2.
    assert (Hw : w_trace w' = w_trace w1).
    { destruct r1; simpl in H; injection H as _ <-; reflexivity. }
    assert (new = new') as ->.
    { unfold since in Hs. rewrite Hw, K1 in Hs. now apply app_inv_tail in Hs. }
    eapply Forall_impl; [|exact K2]. intros [sid l nm m' f p v| |] He; simpl; auto.
    intros ->. destruct He as [_ He].
    assert (mode_in m (quar_enter types (w_quar w)) = true); [|congruence].
    apply mode_in_In. destruct types as [ts|]; simpl in *.
    - apply in_or_app. auto.
    - destruct m; auto.
  Qed.
  Lemma inherited_silent n p w r w' new m : run_prog E C U n p w = (r, w') ->
    since w w' new -> In m (w_quar w) -> Forall (fun e => ~ calls_mode m e) new.
  Proof.
    intros H Hs Hm. pose proof (run_ev E C U n p w HC) as [_ (new' & K1 & K2)]. rewrite H in K1, K2. simpl in *.
    assert (new = new') as ->. { unfold since in Hs. rewrite K1 in Hs. now apply app_inv_tail in Hs. }
    eapply Forall_impl; [|exact K2]. intros [sid l nm m' f q v| |] He; simpl; auto.
    intros ->. destruct He as [_ He]. apply mode_in_In in Hm. congruence.
  Qed.

  (** Validation does not look at the suppressed modes. *)
  Definition blind {A} (m : M A) : Prop := forall q w, m (w_setquar q w) = (fst (m w), w_setquar q (snd (m w))).
  Lemma bl_ret {A} (a : A) : blind (ret a).
  Proof. intros q w. reflexivity. Qed.
  Lemma bl_throw {A} e : blind (@throw A e).
  Proof. intros q w. reflexivity. Qed.
  Lemma bl_lift {A} (r : res A) : blind (lift r).
  Proof. intros q w. reflexivity. Qed.
  Lemma bl_bind {A B} (m : M A) (k : A -> M B) : blind m -> (forall a, blind (k a)) -> blind (bind m k).
  Proof.
    intros H K q w. unfold bind. rewrite (H q w). destruct (m w) as [[a|e] w1]; simpl; auto. apply K.
  Qed.
  Lemma bl_try {A} (m : M A) h : blind m -> (forall e, blind (h e)) -> blind (try_ m h).
  Proof.
    intros H K q w. unfold try_. rewrite (H q w). destruct (m w) as [[a|e] w1]; simpl; auto. apply K.
  Qed.
  Lemma bl_mapM {A B} (f : A -> M B) l : (forall x, blind (f x)) -> blind (mapM f l).
  Proof.
    intros H. induction l; simpl; [apply bl_ret|]. apply bl_bind; auto. intros. apply bl_bind; auto. intros. apply bl_ret.
  Qed.
  Lemma bl_hook io ts : blind (hook io ts).
  Proof.
    unfold hook. destruct io as [l|]; [|apply bl_ret]. intros q w. unfold bind, get_inst. simpl.
    destruct (nth_error (w_heap w) l) as [i|]; [|reflexivity].
    destruct (i_vflag i) as [[|]|]; reflexivity.
  Qed.
  Lemma bl_perror {A} name io : blind (@perror A name io).
  Proof. unfold perror, verror. apply bl_bind; [apply bl_hook|intros; apply bl_throw]. Qed.
  Lemma bl_hooks k name io : blind (hooks k name io).
  Proof. induction k; simpl; [apply bl_ret|]. apply bl_bind; [apply bl_hook|auto]. Qed.
  Lemma bl_leaf t io name v : blind (leaf_val E t io name v).
  Proof.
    unfold leaf_val. apply bl_bind.
    - intros q w. reflexivity.
    - intros k. destruct (leaf_validate E (e_rand E k) t v); [apply bl_ret| |apply bl_throw].
      apply bl_bind; [apply bl_hooks|intros; apply bl_perror].
  Qed.
  Lemma validate_blind rec p : inst_free p -> forall io name v, blind (p_validate E C rec p io name v).
  Proof.
    induction p as [t|k q mn mx co IH|kp vp co IHk IHv|si ps IH|cid] using ptype_ind'; intros Hf io name v; simpl in *.
    - apply bl_leaf.
    - apply bl_bind. { destruct (_ && _); [apply bl_perror|apply bl_ret]. }
      intros _. apply bl_bind; [apply bl_lift|]. intros items. apply bl_bind; [|intros; apply bl_lift].
      apply bl_mapM. intros x. apply bl_try; [apply IH; auto|]. intros e. destruct (is_value_error e); [apply bl_perror|apply bl_throw].
    - destruct Hf as [Hk Hv]. apply bl_bind; [destruct (_ && _); [apply bl_perror|apply bl_ret]|].
      intros _. apply bl_bind.
      { destruct (py_dict v) as [d|[]]; try apply bl_ret; try apply bl_perror; apply bl_throw. }
      intros d. apply bl_bind; [|intros; apply bl_ret]. generalize (@nil (val * val)) as acc.
      induction d as [|[k x] d IHd]; intros acc; [apply bl_ret|].
      apply bl_bind. { apply bl_try; [apply IHk; auto|]. intros e. destruct (is_value_error e); [apply bl_perror|apply bl_throw]. }
      intros k'. apply bl_bind. { apply bl_try; [apply IHv; auto|]. intros e. destruct (is_value_error e); [apply bl_perror|apply bl_throw]. }
      intros x'. destruct (hashable k'); [apply IHd|apply bl_throw].
    - induction IH as [|q ps Hq Hps IHps]; [apply bl_perror|]. destruct Hf as [H1 H2].
      apply bl_try; [apply Hq; auto|]. intros e. destruct (is_generic e); [exact (IHps H2)|apply bl_throw].
    - destruct Hf.
  Qed.
  Lemma validate_any_quar n p io name v w q : inst_free p ->
    fst (p_validate E C (ex n) p io name v (w_setquar q w)) = fst (p_validate E C (ex n) p io name v w).
  Proof. intros Hf. now rewrite (validate_blind (ex n) p Hf io name v q w). Qed.

  (** ** Typing *)
  Lemma wt_well_typed w : wt (has_type C) C w <-> well_typed C w.
  Proof.
    split.
    - intros W l name d v (c & (i & Hi & Hc) & Hd) Hk Hv. unfold stored in Hv. rewrite Hi in Hv.
      specialize (W l i c name d v Hi Hc Hd Hv). unfold decl_type in W. unfold shape in W.
      destruct (pd_kind d) eqn:Ek; auto. exfalso. eapply Hk. reflexivity.
    - intros W l i c name d v Hi Hc Hd Hv. unfold decl_type. destruct (pd_kind d) eqn:Ek.
      4: exact I.
      all: apply (W l name d v); [exists c; split; auto; exists i; auto|intros nn; rewrite Ek; discriminate|
             unfold stored; now rewrite Hi].
  Qed.
  Lemma typed_program n p w : wf_mro C -> validators_keep U -> well_typed C w ->
    well_typed C (snd (run_prog E C U n p w)).
  Proof.
    intros Hm HU W. apply wt_well_typed. apply wt_well_typed in W.
    apply (frame_run E C U _ _ (frame_typed E C U Hm HU) HC n p 0 w); auto. lia.
  Qed.

  (** ** Guards *)
  Lemma guards_program n p w l i : nth_error (w_heap w) l = Some i ->
    exists i', nth_error (w_heap (snd (run_prog E C U n p w))) l = Some i' /\
      i_sflag i' = i_sflag i /\ i_eflag i' = i_eflag i /\
      (i_vflag i' = i_vflag i \/ (i_vflag i = None /\ i_vflag i' = Some false)).
  Proof.
    intros Hi. destruct (frame_run E C U _ _ (frame_guard E C U) HC n p 0 w) as (_ & K & _); [lia|].
    destruct (K l i Hi) as (i' & Hi' & K'). exists i'. auto.
  Qed.
  Lemma links_program n p w k d : nth_error (w_links w) k = Some d ->
    exists d', nth_error (w_links (snd (run_prog E C U n p w))) k = Some d' /\
      d_src d' = d_src d /\ d_tgt d' = d_tgt d /\ d_trans d' = d_trans d /\ d_updating d' = d_updating d.
  Proof.
    intros Hi. destruct (frame_run E C U _ _ (frame_guard E C U) HC n p 0 w) as (_ & _ & K); [lia|]. eauto.
  Qed.
End Facts.
