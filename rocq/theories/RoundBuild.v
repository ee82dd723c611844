(** Construction of classes whose defaults are constants. *)
From Verif Require Import World WorldFrame WorldSpec WorldInv WorldSet WorldFacts AccessSpec ContainerFacts BasicSpec GraphSpec GraphHelp RoundSpec RoundFacts.
Local Open Scope string_scope.
Local Open Scope list_scope.
Local Open Scope nat_scope.

Section Build.
  Variable E : env.
  Variable C : ctable.
  Variable U : ucode.
  Variable c : cls.
  Variable w0 : world.
  Let l0 := length (w_heap w0).

  (** what a value in the new instance must be *)
  Definition started (i : inst) : Prop := forall name x, dget (i_back i) name = Some x ->
    exists d t, In (name, d) (c_props c) /\ pd_type d = PLeaf t /\ leaf_typed t x /\ default_of c name d <> DUndef.

  Lemma started_set i name x d t : started i -> In (name, d) (c_props c) -> pd_type d = PLeaf t -> leaf_typed t x -> default_of c name d <> DUndef ->
    started (i_setback (dset (i_back i) name x) i).
  Proof.
    intros H H1 H2 H3 H4 k y. cbn [i_back i_setback]. destruct (string_dec k name) as [->|Hn].
    - rewrite dget_dset_same. intros [= <-]. exists d, t. auto.
    - rewrite dget_dset_other by congruence. apply H.
  Qed.

  Lemma set_more rec p name v q i w : more w0 q i w -> (forall m, mode_in m q = true) -> dget (i_back i) name = None ->
    exists w', has_set rec p l0 name v w = (Ok VNone, w') /\
      more w0 q (i_setback (if is_undef v then ddel (i_back i) name else dset (i_back i) name v) i) w'.
  Proof.
    intros H Q B. unfold has_set.
    set (f := fun i0 : inst => i_setback (if is_undef v then ddel (i_back i0) name else dset (i_back i0) name v) i0).
    set (w1 := w_emit (EWrite (w_clock w) l0 name v) (w_upd l0 f (w_tick w))).
    assert (H1 : more w0 q i (w_tick w)) by exact H.
    assert (H2 : more w0 q (f i) w1) by (apply (more_upd w0 _ _ _ f H1)).
    assert (Nt : forall w2 i2 sid prev x m, more w0 q i2 w2 -> notify rec sid l0 name prev x m w2 = (Ok x, w2)).
    { intros w2 i2 sid prev x m (_ & K & _). unfold notify, bind, get_w. now rewrite K, Q. }
    exists w1. split; [|exact H2].
    rewrite (bind_ok _ _ _ _ _ (eq_refl : tick w = (Ok (w_clock w), w_tick w))).
    rewrite (bind_ok _ _ _ _ _ (more_get w0 _ _ _ H1)). rewrite B. cbv zeta. cbn [is_undef].
    rewrite (bind_ok _ _ _ _ _ (Nt _ _ _ _ _ _ H1)).
    rewrite (bind_ok _ _ _ _ _ (eq_refl : upd l0 f (w_tick w) = (Ok tt, w_upd l0 f (w_tick w)))).
    rewrite (bind_ok (mod_w (w_emit (EWrite (w_clock w) l0 name v))) _ _ _ _ (eq_refl : _ = (Ok tt, w1))).
    destruct (is_undef v); cbn [andb orb].
    + rewrite (bind_ok (ret false) _ _ _ _ eq_refl). cbv beta iota.
      rewrite (bind_ok (ret v) _ _ _ _ eq_refl). now rewrite (bind_ok _ _ _ _ _ (Nt _ _ _ _ _ _ H2)).
    + rewrite (bind_ok (ret true) _ _ _ _ eq_refl). cbv beta iota.
      rewrite (bind_ok _ _ _ _ _ (Nt _ _ _ _ _ _ H2)). now rewrite (bind_ok _ _ _ _ _ (Nt _ _ _ _ _ _ H2)).
  Qed.
  Lemma dget_set_undef (d : list (string * val)) name k x : dget d name = None -> dget (ddel d name) k = Some x -> dget d k = Some x.
  Proof.
    intros H. destruct (string_dec k name) as [->|Hn]; [|rewrite dget_ddel_other; congruence]. rewrite dget_ddel_same. discriminate.
  Qed.
  Lemma reset_started rec name d q i w : more w0 q i w -> (forall m, mode_in m q = true) -> dget (i_back i) name = None -> started i ->
    In (name, d) (c_props c) -> plain_default E d (default_of c name d) ->
    exists i' w', reset_prop E C U rec c l0 name d w = (Ok tt, w') /\ more w0 q i' w' /\
      i_cls i' = i_cls i /\ started i' /\ forall k, k <> name -> dget (i_back i') k = dget (i_back i) k.
  Proof.
    intros H Q B HS Hin D. unfold reset_prop, eval_default, prop_fset. destruct D as [D|(v & t & D & Hv & _ & Ht & Hl)]; rewrite D.
    - rewrite (bind_ok (ret VUndef) _ _ _ _ eq_refl). cbn [is_undef].
      destruct (set_more rec (pd_type d) name VUndef q i w H Q B) as (w' & K & R). cbn [is_undef] in R. eexists _, w'. split; [|split; [exact R|split; [reflexivity|split]]].
      + apply (bind_ok _ (fun _ => ret tt) w w' VNone). rewrite (bind_ok (ret VUndef) _ _ _ _ eq_refl). exact K.
      + intros k x Hx. apply HS. cbn [i_back i_setback] in Hx. eapply dget_set_undef; eauto.
      + intros k Hk. cbn [i_back i_setback]. rewrite dget_ddel_other; congruence.
    - rewrite Ht. rewrite (bind_ok (ret v) _ _ _ _ eq_refl). destruct (is_undef v) eqn:Eu; [now destruct v|].
      cbn [p_validate]. destruct (Hl (e_rand E (w_clock w))) as (v' & Hv'). assert (Hy : leaf_typed t v') by (eapply leaf_typed_ok; eauto).
      destruct (set_more rec (PLeaf t) name v' q i (w_tick w)) as (w' & K & R); auto.
      eexists _, w'. split; [|split; [exact R|split; [reflexivity|split]]].
      + apply (bind_ok _ (fun _ => ret tt) w w' VNone).
        rewrite (bind_ok (leaf_val E t (Some l0) name v) _ w (w_tick w) v'); [exact K|].
        unfold leaf_val. rewrite (bind_ok _ _ _ _ _ (eq_refl : tick w = (Ok (w_clock w), w_tick w))). now rewrite Hv'.
      + destruct (is_undef v'); [intros k x Hx; apply HS; cbn [i_back i_setback] in Hx; eapply dget_set_undef; eauto|].
        eapply started_set; eauto. rewrite D. discriminate.
      + intros k Hk. cbn [i_back i_setback]. destruct (is_undef v'); [rewrite dget_ddel_other|rewrite dget_dset_other]; congruence.
  Qed.
  Lemma resets_started rec q ps : forall i w, more w0 q i w -> (forall m, mode_in m q = true) -> NoDup (dkeys ps) -> started i ->
    (forall name d, In (name, d) ps -> pd_kind d = KProp -> dget (i_back i) name = None) ->
    (forall name d, In (name, d) ps -> In (name, d) (c_props c) /\ plain_default E d (default_of c name d)) ->
    exists i' w', iterM (fun nd => match pd_kind (snd nd) with
                         | KProp => reset_prop E C U rec c l0 (fst nd) (snd nd)
                         | _ => ret tt
                         end) ps w = (Ok tt, w') /\ more w0 q i' w' /\ i_cls i' = i_cls i /\ started i'.
  Proof.
    induction ps as [|[name d] ps IH]; intros i w H Q Hn HS Hb Hd; cbn [iterM].
    - exists i, w. auto.
    - cbn [dkeys map fst] in Hn. inversion Hn as [|? ? Hx Hn']; subst. destruct (Hd name d (or_introl eq_refl)) as [Hin D].
      assert (G : exists i' w', (match pd_kind (snd (name, d)) with
                         | KProp => reset_prop E C U rec c l0 (fst (name, d)) (snd (name, d))
                         | _ => ret tt
                         end) w = (Ok tt, w') /\ more w0 q i' w' /\ i_cls i' = i_cls i /\ started i' /\ forall k, k <> name -> dget (i_back i') k = dget (i_back i) k).
      { cbn [fst snd]. destruct (pd_kind d) eqn:Ek; try (exists i, w; repeat split; auto; apply H).
        apply reset_started; auto. apply (Hb name d); [now left|exact Ek]. }
      destruct G as (i' & w' & K1 & K2 & K3 & K4 & K5). rewrite (bind_ok _ _ _ _ _ K1).
      destruct (IH i' w') as (i2 & w2 & J1 & J2 & J3 & J4); auto.
      + intros k d' Hk Ek. rewrite K5; [apply (Hb k d'); [now right|exact Ek]|]. intros ->. apply Hx. apply (in_map fst) in Hk. exact Hk.
      + intros k d' Hk. apply Hd. now right.
      + exists i2, w2. split; [exact J1|]. split; [exact J2|]. split; [congruence|exact J4].
  Qed.
  Lemma gettables_started rec q ps : forall i w, more w0 q i w -> started i -> (forall name d, In (name, d) ps -> In (name, d) (c_props c) /\ plain_default E d (default_of c name d)) ->
    exists i' w', iterM (init_gettable E C U rec c l0) ps w = (Ok tt, w') /\ more w0 q i' w' /\ i_cls i' = i_cls i /\ started i' /\
      forall k, dget (i_back i') k <> None -> dget (i_back i) k <> None \/ exists d, In (k, d) ps /\ pd_kind d = KGettable.
  Proof.
    induction ps as [|[name d] ps IH]; intros i w H HS Hd; cbn [iterM].
    - exists i, w. split; [reflexivity|]. auto.
    - destruct (Hd name d (or_introl eq_refl)) as [Hin D].
      assert (G : exists i' w', init_gettable E C U rec c l0 (name, d) w = (Ok tt, w') /\ more w0 q i' w' /\ i_cls i' = i_cls i /\ started i' /\
        forall k, dget (i_back i') k <> None -> dget (i_back i) k <> None \/ k = name /\ pd_kind d = KGettable).
      { unfold init_gettable. cbn [fst snd].
        destruct D as [D|(v & t & D & Hv & Hk & Ht & Hl)].
        - rewrite D. exists i, w. split; [destruct (pd_kind d); reflexivity|]. auto.
        - rewrite D. destruct Hk as [Hk|Hk]; rewrite Hk; [exists i, w; split; [reflexivity|auto]|].
          destruct (Hl (e_rand E (w_clock w))) as (v' & Hv').
          exists (i_setback (dset (i_back i) name v') i), (w_upd l0 (fun i => i_setback (dset (i_back i) name v') i) (w_tick w)).
          assert (K : (let* v0 := eval_default U rec (DVal v) in let* v1 := p_validate E C rec (decl_type d) (Some l0) name v0 in
                       upd l0 (fun i0 => i_setback (dset (i_back i0) name v1) i0)) w = (Ok tt, w_upd l0 (fun i => i_setback (dset (i_back i) name v') i) (w_tick w))).
          { unfold eval_default. rewrite (bind_ok (ret v) _ _ _ _ eq_refl). unfold decl_type. rewrite Hk, Ht. cbn [p_validate]. rewrite (bind_ok _ _ w (w_tick w) v'); [reflexivity|].
            unfold leaf_val. rewrite (bind_ok _ _ _ _ _ (eq_refl : tick w = (Ok (w_clock w), w_tick w))). now rewrite Hv'. }
          split; [destruct v; try contradiction; exact K|]. split; [exact (more_upd w0 _ _ _ (fun i => i_setback (dset (i_back i) name v') i) (H : more w0 q i (w_tick w)))|]. split; [reflexivity|].
          split; [apply (started_set i name v' d t); auto; [eapply leaf_typed_ok; eauto|rewrite D; discriminate]|].
          intros k Hkk. cbn [i_back i_setback] in Hkk. destruct (string_dec k name) as [->|Hn]; [right; auto|]. rewrite dget_dset_other in Hkk by congruence. now left. }
      destruct G as (i' & w' & K1 & K2 & K3 & K4 & K5). rewrite (bind_ok _ _ _ _ _ K1).
      destruct (IH i' w') as (i2 & w2 & J1 & J2 & J3 & J4 & J5); auto.
      + intros k d' Hk. apply Hd. now right.
      + exists i2, w2. split; [exact J1|]. split; [exact J2|]. split; [congruence|]. split; [exact J4|].
        intros k Hk. destruct (J5 k Hk) as [J|(d' & J & J')]; [|right; exists d'; split; [now right|exact J']].
        destruct (K5 k J) as [K|[-> K]]; auto. right. exists d. split; [now left|exact K].
  Qed.
End Build.

Theorem plain_constructs E C U cid c : nth_error (ct_cls C) cid = Some c -> NoDup (dkeys (c_props c)) ->
  (forall name d, In (name, d) (c_props c) -> plain_default E d (default_of c name d)) -> constructs E C U cid (started c).
Proof.
  intros Hc ND H. exists 1. intros n w Hn. destruct n as [|n]; [lia|]. cbn [exec step]. unfold has_new.
  set (i0 := Inst cid [] [] None false false []). set (w1 := w_setheap (w_heap w ++ [i0]) w).
  assert (H1 : more w (w_quar w) i0 w1) by (repeat split).
  destruct (easy_observe C w (c_obs c) _ _ _ H1) as (i2 & w2 & K2 & H2 & Ec & Eb); [cbn; now rewrite Hc|].
  assert (S2 : started c i2) by (intros k x; rewrite Eb; discriminate).
  destruct (gettables_started E C U c w (exec E C U n) _ (c_props c) i2 w2 H2 S2) as (i3 & w3 & K3 & H3 & Ec3 & S3 & N3); [auto|].
  set (w3' := w_setquar all_modes w3). assert (H3' : more w all_modes i3 w3') by (split; [apply H3|split; [reflexivity|apply H3]]).
  destruct (resets_started E C U c w (exec E C U n) all_modes (c_props c) i3 w3' H3') as (i4 & w4 & K4 & H4 & Ec4 & S4); auto.
  { intros []; reflexivity. }
  { intros name d Hin Hk. destruct (dget (i_back i3) name) eqn:Ex; auto. exfalso. destruct (N3 name) as [N|(d' & N & N')]; [congruence|now rewrite Eb in N|].
    apply (dget_nodup_in _ _ _ ND) in N. apply (dget_nodup_in _ _ _ ND) in Hin. congruence. }
  set (w5 := w_setquar (w_quar w) w4). assert (H5 : more w (w_quar w) i4 w5) by (split; [apply H4|split; [reflexivity|apply H4]]).
  set (w6 := w_upd (length (w_heap w)) (i_setv (Some true)) w5). assert (H6 : more w (w_quar w) (i_setv (Some true) i4) w6) by (apply more_upd; exact H5).
  set (w7 := w_upd (length (w_heap w)) (i_setv (Some false)) w6). assert (H7 : more w (w_quar w) (i_setv (Some false) (i_setv (Some true) i4)) w7) by (apply more_upd; exact H6).
  exists (i_setv (Some false) (i_setv (Some true) i4)), w7. split; [|split; [|split; [|split]]].
  - rewrite (bind_ok (class_of C cid) _ w w c) by (unfold class_of, lift; now rewrite Hc).
    rewrite (bind_ok (alloc cid) _ w w1 (length (w_heap w))) by reflexivity.
    rewrite (bind_ok _ _ _ _ _ K2). rewrite (bind_ok _ _ _ _ _ K3).
    rewrite (bind_ok _ _ w3 w5 VNone).
    2: { unfold disabled. replace (quar_enter None (w_quar w3)) with all_modes by reflexivity.
      fold w3'. unfold has_reset. rewrite (bind_ok (inst_class C (length (w_heap w))) _ w3' w3' c).
      + rewrite (bind_ok _ _ _ _ _ K4). cbn [ret]. f_equal. unfold w5. f_equal. apply H3.
      + unfold inst_class. rewrite (bind_ok _ _ _ _ _ (more_get _ _ _ _ H3')). unfold class_of, lift. rewrite Ec3, Ec. cbn [i_cls i0]. now rewrite Hc. }
    reflexivity.
  - split; [exists [i_setv (Some false) (i_setv (Some true) i4)]; apply H7|]. split; apply H7.
  - exact (more_nth _ _ _ _ H7).
  - cbn [i_cls i_setv]. rewrite Ec4, Ec3, Ec. reflexivity.
  - exact S4.
Qed.

Theorem plain_portable E C U so d_o w l : plain_graph E C U so d_o w l -> portable_graph E C U so d_o w l.
Proof.
  intros [Ht H]. split; [exact Ht|]. intros m Hm. destruct (H m Hm) as (i & c & Hi & Hc & N1 & N2 & Hn & Hv & Hd).
  exists i, c. split; [exact Hi|]. split; [exact Hc|]. split; [exact N1|]. split; [exact Hn|]. split; [exact Hv|].
  destruct (plain_constructs E C U (i_cls i) c Hc N2) as (n0 & K); [intros name d Hin; apply Hd; exact Hin|]. exists n0. intros n w1 Hle.
  destruct (K n w1 Hle) as (i' & w2 & K1 & K2 & K3 & K4 & K5). exists i', w2. split; [exact K1|]. split; [exact K2|]. split; [exact K3|]. split; [exact K4|].
  intros name x Hx. destruct (K5 name x Hx) as (d & t & Hin & Hty & Hx' & Hdef). right. split; [now apply (proj2 (Hd name d Hin))|].
  exists d. rewrite Hty. split; [now apply dget_nodup_in|]. cbn. auto.
Qed.

Theorem copied_level C N w w' l m : copied C N w w' l m ->
  N <= m /\ exists i k, nth_error (w_heap w) l = Some i /\ nth_error (w_heap w') m = Some k /\ i_cls k = i_cls i /\
    forall name d, declares C w l name d ->
      held w l name = VNone /\ held w' m name = VNone \/
      held w l name <> VNone /\ copies_value (copied C N w w') (pd_type d) (held w l name) (held w' m name).
Proof.
  intros [G l' m' i k HG Hm Hi Hk Hc Hp]. split; [exact Hm|]. exists i, k. split; [exact Hi|]. split; [exact Hk|]. split; [exact Hc|].
  intros name d Hd. destruct (Hp name d Hd) as [H|[H1 H2]]; [now left|]. right. split; [exact H1|]. eapply copies_mono; [|exact H2]. exact HG.
Qed.
