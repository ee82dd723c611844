(** One instance survives, if the instances it refers to do. *)
From Verif Require Import World WorldFrame WorldSpec WorldSet WorldFacts AccessSpec ContainerFacts BasicSpec GraphSpec GraphConv GraphFacts GraphSerial GraphHelp RoundSpec RoundLeaf RoundFacts RoundValue RoundSend.
Local Open Scope string_scope.
Local Open Scope list_scope.
Local Open Scope nat_scope.

(** every instance of [a] is the same in [b] *)
Definition grows (a b : world) : Prop := forall x i, nth_error (w_heap a) x = Some i -> nth_error (w_heap b) x = Some i.
Lemma grows_trans a b c : grows a b -> grows b c -> grows a c.
Proof. unfold grows. auto. Qed.
Lemma grows_unchanged a b : unchanged a b -> grows a b.
Proof. intros H x i. now apply unchanged_nth. Qed.
Lemma grows_heap a b : grows a b -> exists more, w_heap b = w_heap a ++ more.
Proof.
  unfold grows. generalize (w_heap a) (w_heap b). clear. intros a. induction a as [|x a IH]; intros b H; [exists b; reflexivity|].
  destruct b as [|y b]; [specialize (H 0 x eq_refl); discriminate|]. pose proof (H 0 x eq_refl) as K. injection K as ->.
  destruct (IH b) as (m & ->); [intros k i Hk; apply (H (S k) i Hk)|]. exists m. reflexivity.
Qed.
Lemma copied_grows C N N' w w' w'' l m : N' <= N -> grows w' w'' -> copied C N w w' l m -> copied C N' w w'' l m.
Proof.
  intros HN HU. induction 1 as [G l m i k HG IH Hm Hi Hk Hc Hp].
  apply (copied_intro C N' w w'' G l m i k); auto; [lia|].
  intros name d Hd. specialize (Hp name d Hd).
  assert (K : held w'' m name = held w' m name).
  { unfold held, stored. rewrite Hk. now rewrite (HU _ _ Hk). }
  rewrite K. exact Hp.
Qed.

Section Node.
  Variable E : env.
  Variable C : ctable.
  Variable U : ucode.
  Variable so : sopt.
  Variable d_o : dopt.
  Variable w : world.
  Hypothesis HS : reads_special E.
  Hypothesis HN : o_trusted d_o = true -> names_known C.
  Hypothesis Hdyn : s_dyn so = false.
  Notation X := (exec E C U).
  Notation portable := (portable E C U so d_o w).
  Notation restorable := (restorable C so d_o w).
  Notation descends := (descends C w).
  Notation child := (child C w).
  Notation looks := (looks w).
  Notation clear_below := (clear_below C w).
  Notation ready := (ready E C U so d_o w).
  Notation value_ready := (value_ready E C U so d_o w).

  (** * The new instance *)
  Section New.
    Variable w1 : world.
    Let l0 := length (w_heap w1).
    (** [wk] is [w1] with a new instance [ik], and others *)
    Definition near (q : list lmode) (wk : world) (ik : inst) : Prop :=
      grows w1 wk /\ nth_error (w_heap wk) l0 = Some ik /\ w_quar wk = q /\ w_links wk = w_links w1.
    Lemma near_unchanged q wk ik wk' : near q wk ik -> unchanged wk wk' -> near q wk' ik.
    Proof.
      intros (H1 & H2 & H3 & H4) HU. split; [eapply grows_trans; [exact H1|now apply grows_unchanged]|].
      split; [eapply unchanged_nth; eauto|]. destruct HU as (_ & Q & L). split; congruence.
    Qed.
    Lemma grows_upd wk f : grows w1 wk -> grows w1 (w_upd l0 f wk).
    Proof.
      intros H x i Hx. rewrite w_upd_nth_other; [auto|]. unfold l0. intros <-.
      assert (K : nth_error (w_heap w1) (length (w_heap w1)) <> None) by congruence. apply nth_error_Some in K. lia.
    Qed.
    Lemma near_upd q wk ik f : near q wk ik -> near q (w_upd l0 f wk) (f ik).
    Proof.
      intros (H1 & H2 & H3 & H4). split; [now apply grows_upd|]. split; [rewrite w_upd_nth_same, H2; reflexivity|].
      rewrite w_upd_quar, w_upd_links. auto.
    Qed.
    Lemma near_get q wk ik : near q wk ik -> get_inst l0 wk = (Ok ik, wk).
    Proof. intros (_ & H & _). unfold get_inst. now rewrite H. Qed.
    Lemma near_inside q wk ik : near q wk ik -> inside (Some l0) wk.
    Proof. intros (_ & H & _) l [= <-]. apply nth_error_Some. congruence. Qed.

    Lemma near_set rec p name v q wk ik : near q wk ik -> (forall m, mode_in m q = true) -> is_undef v = false ->
      (forall x w2, dget (i_back ik) name = Some x -> exists t, p_equal rec p x v w2 = (Ok t, w2)) ->
      exists wk', has_set rec p l0 name v wk = (Ok VNone, wk') /\ near q wk' (i_setback (dset (i_back ik) name v) ik).
    Proof.
      intros H Q Hv He. unfold has_set.
      set (f := fun i0 : inst => i_setback (if is_undef v then ddel (i_back i0) name else dset (i_back i0) name v) i0).
      set (w2 := w_emit (EWrite (w_clock wk) l0 name v) (w_upd l0 f (w_tick wk))).
      assert (H1 : near q (w_tick wk) ik) by exact H.
      assert (H2 : near q w2 (f ik)) by (apply (near_upd _ _ _ f H1)).
      assert (Nt : forall w3 i3 sid prev x m, near q w3 i3 -> notify rec sid l0 name prev x m w3 = (Ok x, w3)).
      { intros w3 i3 sid prev x m (_ & _ & K & _). unfold notify, bind, get_w. now rewrite K, Q. }
      exists w2. split; [|unfold f in H2; rewrite Hv in H2; exact H2].
      rewrite (bind_ok _ _ _ _ _ (eq_refl : tick wk = (Ok (w_clock wk), w_tick wk))).
      rewrite (bind_ok _ _ _ _ _ (near_get _ _ _ H1)). cbv zeta.
      set (prev := match dget (i_back ik) name with Some x => x | None => VUndef end).
      rewrite (bind_ok _ _ _ _ _ (Nt _ _ _ _ _ _ H1)).
      rewrite (bind_ok _ _ _ _ _ (eq_refl : upd l0 f (w_tick wk) = (Ok tt, w_upd l0 f (w_tick wk)))).
      rewrite (bind_ok (mod_w (w_emit (EWrite (w_clock wk) l0 name v))) _ _ _ _ (eq_refl : _ = (Ok tt, w2))).
      rewrite Hv, andb_false_r, orb_false_r.
      assert (Kc : exists t, (if is_undef prev then ret true else let* b := p_equal rec p prev v in ret (negb b)) w2 = (Ok t, w2)).
      { destruct (is_undef prev) eqn:Ep; [exists true; reflexivity|]. unfold prev in *. destruct (dget (i_back ik) name) as [x|]; [|discriminate].
        destruct (He x w2 eq_refl) as (t & Ht). exists (negb t). now rewrite (bind_ok _ _ _ _ _ Ht). }
      destruct Kc as (t & Kc). rewrite (bind_ok _ _ _ _ _ Kc). destruct t.
      - rewrite (bind_ok _ _ _ _ _ (Nt _ _ _ _ _ _ H2)). now rewrite (bind_ok _ _ _ _ _ (Nt _ _ _ _ _ _ H2)).
      - rewrite (bind_ok (ret v) _ _ _ _ eq_refl). now rewrite (bind_ok _ _ _ _ _ (Nt _ _ _ _ _ _ H2)).
    Qed.

    (** calling the class with keywords starts as calling it without *)
    Lemma new_split n cid v w2 i0 : X (S n) (COp (ONew cid (Some []))) w1 = (Ok v, w2) -> unchanged w1 w2 ->
      nth_error (w_heap w2) l0 = Some i0 ->
      exists c wa, nth_error (ct_cls C) cid = Some c /\
        near (w_quar w1) wa (i_setv (Some true) i0) /\
        forall kw, has_new E C U (X n) cid (Some kw) w1 =
          (fin (let* a := foldM (init_kw E C U (X n) c l0) ([], None) kw in raise_collected l0 a)
               (w_upd l0 (i_setv (Some false))) ;; ret (VInst l0)) wa.
    Proof.
      cbn [exec step]. intros H HU Hi. unfold has_new in *. unfold bind at 1 in H. unfold class_of, lift in H.
      destruct (nth_error (ct_cls C) cid) as [c|] eqn:Hc; [|discriminate].
      set (wb := w_setheap (w_heap w1 ++ [Inst cid [] [] None false false []]) w1) in *.
      rewrite (bind_ok (alloc cid) _ w1 wb l0) in H by reflexivity.
      apply WorldSet.bind_ok in H as ([] & w3 & H3 & H). apply WorldSet.bind_ok in H as ([] & w4 & H4 & H).
      apply WorldSet.bind_ok in H as (v5 & w5 & H5 & H). apply WorldSet.bind_ok in H as ([] & w6 & H6 & H).
      unfold has_init, upd, mod_w, bind, fin, ret in H6. cbn [foldM raise_collected fst snd] in H6. injection H6 as H6.
      injection H as _ H. subst w2 w6. exists c, (w_upd l0 (i_setv (Some true)) w5). split; [reflexivity|]. split.
      - set (wa := w_upd l0 (i_setv (Some true)) w5) in *. destruct HU as (Hg & Hq & Hl).
        rewrite w_upd_quar in Hq. rewrite w_upd_links in Hl.
        assert (Hn : exists ia, nth_error (w_heap wa) l0 = Some ia /\ i0 = i_setv (Some false) ia).
        { rewrite w_upd_nth_same in Hi. destruct (nth_error (w_heap wa) l0) as [ia|]; [|discriminate]. injection Hi as <-. eauto. }
        destruct Hn as (ia & Hia & ->).
        assert (Hv : i_setv (Some true) ia = ia).
        { unfold wa in Hia. rewrite w_upd_nth_same in Hia. destruct (nth_error (w_heap w5) l0) as [i5|]; [|discriminate]. injection Hia as <-. reflexivity. }
        split; [|split; [|split; auto]].
        + intros x i Hx. assert (x <> l0) by (intros ->; unfold l0 in Hx; assert (K : nth_error (w_heap w1) (length (w_heap w1)) <> None) by congruence; apply nth_error_Some in K; lia).
          destruct Hg as (m & Hm). rewrite <- (w_upd_nth_other l0 x (i_setv (Some false)) wa) by auto. rewrite Hm.
          rewrite nth_error_app1; auto. apply nth_error_Some. congruence.
        + rewrite Hia. f_equal. rewrite <- Hv at 1. reflexivity.
      - intros kw. rewrite (bind_ok _ _ w1 w1 c) by (unfold class_of, lift; now rewrite Hc).
        rewrite (bind_ok (alloc cid) _ w1 wb l0) by reflexivity.
        rewrite (bind_ok _ _ _ _ _ H3), (bind_ok _ _ _ _ _ H4), (bind_ok _ _ _ _ _ H5). reflexivity.
    Qed.

    (** what is to be written: [v] was carried to [b] *)
    Definition entry_ok (c : cls) (i0 : inst) (N : nat) (kb : string * val) : Prop :=
      exists d v, dget (c_props c) (fst kb) = Some d /\ v <> VUndef /\ portable (pd_type d) v /\ carried (copied C N w w1) (pd_type d) v (snd kb) /\
        (pd_kind d = KProp \/ pd_kind d = KGettable) /\
        forall x, dget (i_back i0) (fst kb) = Some x -> inst_free (pd_type d) /\ no_union (pd_type d) /\ has_type C [] (pd_type d) x.
    Lemma carried_defined G p v b : portable p v -> v <> VUndef -> carried G p v b -> is_undef b = false.
    Proof.
      intros Hp Hv. destruct p as [t|k q mn mx co|kp vp co|si ps|cid]; cbn [carried RoundSpec.portable] in *.
      - intros ->. destruct v; auto. congruence.
      - intros (xs & ys & _ & -> & _). destruct k; reflexivity.
      - intros (da & db & _ & -> & _). reflexivity.
      - intros [(-> & _)|(l & m & cid & _ & -> & _)]; [destruct v; auto; congruence|reflexivity].
      - intros (l & m & _ & -> & _). reflexivity.
    Qed.
    Lemma set_entries n cid c i0 N q : 2 <= n -> nth_error (ct_cls C) cid = Some c -> (forall m, mode_in m q = true) ->
      forall kws wk ik, near q wk ik -> i_cls ik = cid -> NoDup (dkeys kws) ->
        Forall (fun kb => entry_ok c i0 N kb /\ key_mutable c (fst kb) = true /\ dget (i_back ik) (fst kb) = dget (i_back i0) (fst kb)) kws ->
        exists wz iz, foldM (init_kw E C U (X n) c l0) ([], None) kws wk = (Ok ([], None), wz) /\ near q wz iz /\ i_cls iz = cid /\
          (forall k b, In (k, b) kws -> dget (i_back iz) k = Some b) /\
          (forall k, ~ In k (dkeys kws) -> dget (i_back iz) k = dget (i_back ik) k).
    Proof.
      intros Hn Hc Hq. induction kws as [|[k b] kws IH]; intros wk ik Hk Hcls Hd HF; cbn [foldM].
      - exists wk, ik. split; [reflexivity|]. split; [exact Hk|]. split; [exact Hcls|]. split; [intros k b []|auto].
      - cbn [dkeys map fst] in Hd. inversion Hd as [|? ? Hd1 Hd2]; subst. inversion HF as [|? ? [(d & v & Hp & Hv & Hpo & Hca & Hki & Hdef) [Hmu Hba]] HF']; subst. cbn [fst snd] in *.
        assert (Hkind : pd_kind d = KProp).
        { unfold key_mutable in Hmu. rewrite Hp in Hmu. unfold is_mutable in Hmu. destruct Hki as [K|K]; auto. rewrite K in Hmu. discriminate. }
        destruct (validate_copy E C U so d_o w (pd_type d) n Hn v b N wk (Some l0) k) as (wv & Kv & Uv); auto.
        { eapply carried_mono; [|exact Hca]. intros x y. apply copied_grows; [lia|apply Hk]. }
        { eapply near_inside; eauto. }
        assert (Hnv : near q wv ik) by (eapply near_unchanged; eauto).
        destruct (near_set (X n) (pd_type d) k b q wv ik Hnv Hq) as (ws & Ks & Hns).
        { eapply carried_defined; eauto. }
        { intros x w2 Hx. rewrite Hba in Hx. destruct (Hdef x Hx) as (Hif & Hnu & Hty).
          apply carried_copies, (copies_free _ _ Hif Hnu) in Hca. subst b. apply equal_total; auto.
          - eapply shaped_typed; eauto.
          - eapply shaped_portable; eauto. }
        set (is := i_setback (dset (i_back ik) k b) ik) in *.
        assert (Ki : init_kw E C U (X n) c l0 ([], None) (k, b) wk = (Ok ([], None), ws)).
        { unfold init_kw. rewrite (bind_ok _ _ _ _ _ (near_get _ _ _ Hk)). rewrite Hp, Hkind.
          rewrite (bind_ok _ _ wk ws (Ok VNone)); [reflexivity|]. unfold outcome.
          assert (Ka : has_setattr E C U (X n) l0 k b wk = (Ok VNone, ws)).
          { unfold has_setattr. rewrite (bind_ok _ _ wk wk c).
            - rewrite Hp, Hkind. unfold prop_fset. rewrite (carried_defined _ _ _ _ Hpo Hv Hca). rewrite (bind_ok _ _ _ _ _ Kv). exact Ks.
            - unfold inst_class. rewrite (bind_ok _ _ _ _ _ (near_get _ _ _ Hk)). unfold class_of, lift. now rewrite Hc. }
          now rewrite Ka. }
        destruct (IH ws is Hns eq_refl Hd2) as (wz & iz & Kz & Hz & Hcz & Hin & Hout).
        { rewrite Forall_forall in *. intros kb Hkb. destruct (HF' kb Hkb) as (H1 & H2 & H3). split; [exact H1|]. split; [exact H2|]. unfold is. cbn [i_back i_setback].
          rewrite dget_dset_other; [exact H3|]. intros ->. apply Hd1. apply in_map_iff. eauto. }
        exists wz, iz. rewrite (bind_ok _ _ _ _ _ Ki). split; [exact Kz|]. split; [exact Hz|]. split; [exact Hcz|]. split.
        + intros k' b' [K|K]; [|eauto]. injection K as <- <-. rewrite Hout by exact Hd1. unfold is. cbn [i_back i_setback]. apply dget_dset_same.
        + intros k' Hk'. cbn [dkeys map fst] in Hk'. rewrite Hout by (intros K; apply Hk'; now right). unfold is. cbn [i_back i_setback].
          apply dget_dset_other. intros ->. apply Hk'. now left.
    Qed.
    Lemma write_entries n c i0 N q : 2 <= n ->
      forall kws wk ik, near q wk ik -> NoDup (dkeys kws) ->
        Forall (fun kb => entry_ok c i0 N kb) kws ->
        exists wz iz, iterM (fun kv =>
                match dget (c_props c) (fst kv) with
                | Some pd =>
                    let* x := p_validate E C (X n) (decl_type pd) (Some l0) (fst kv) (snd kv) in
                    upd l0 (fun i => i_setback (dset (i_back i) (fst kv) x) i)
                | None => throw ExKey
                end) kws wk = (Ok tt, wz) /\ near q wz iz /\ i_cls iz = i_cls ik /\
          (forall k b, In (k, b) kws -> dget (i_back iz) k = Some b) /\
          (forall k, ~ In k (dkeys kws) -> dget (i_back iz) k = dget (i_back ik) k).
    Proof.
      intros Hn. induction kws as [|[k b] kws IH]; intros wk ik Hk Hd HF; cbn [iterM].
      - exists wk, ik. split; [reflexivity|]. split; [exact Hk|]. split; [reflexivity|]. split; [intros k b []|auto].
      - cbn [dkeys map fst] in Hd. inversion Hd as [|? ? Hd1 Hd2]; subst. inversion HF as [|? ? (d & v & Hp & Hv & Hpo & Hca & Hki & _) HF']; subst. cbn [fst snd] in *.
        destruct (validate_copy E C U so d_o w (pd_type d) n Hn v b N wk (Some l0) k) as (wv & Kv & Uv); auto.
        { eapply carried_mono; [|exact Hca]. intros x y. apply copied_grows; [lia|apply Hk]. }
        { eapply near_inside; eauto. }
        assert (Hnv : near q wv ik) by (eapply near_unchanged; eauto).
        set (f := fun i => i_setback (dset (i_back i) k b) i).
        assert (Hns : near q (w_upd l0 f wv) (f ik)) by now apply near_upd.
        destruct (IH (w_upd l0 f wv) (f ik) Hns Hd2 HF') as (wz & iz & Kz & Hz & Hcz & Hin & Hout).
        exists wz, iz. split; [|split; [exact Hz|split; [exact Hcz|split]]].
        + rewrite Hp. replace (decl_type d) with (pd_type d) by (unfold decl_type; destruct Hki as [-> | ->]; reflexivity).
          erewrite bind_ok; [|rewrite (bind_ok _ _ _ _ _ Kv); reflexivity]. exact Kz.
        + intros k' b' [K|K]; [|eauto]. injection K as <- <-. rewrite Hout by exact Hd1. apply dget_dset_same.
        + intros k' Hk'. cbn [dkeys map fst] in Hk'. rewrite Hout by (intros K; apply Hk'; now right).
          apply dget_dset_other. intros ->. apply Hk'. now left.
    Qed.
  End New.

  (** * The entries *)
  Section Entries.
    Variable l : loc.
    Variable i : inst.
    Variable c : cls.
    Hypothesis Hi : nth_error (w_heap w) l = Some i.
    Hypothesis Hc : nth_error (ct_cls C) (i_cls i) = Some c.
    Definition entry_ready (kv : string * val) : Prop := exists d, dget (c_props c) (fst kv) = Some d /\ (pd_kind d = KProp \/ pd_kind d = KGettable) /\
      dget (i_back i) (fst kv) = Some (snd kv) /\
      (snd kv <> VNone -> value_ready (pd_type d) (snd kv)).
    Definition not_none (kv : string * val) : bool := negb (is_none (snd kv)).
    Lemma back_send back : Forall entry_ready back -> exists n0 js,
      map fst js = map fst (filter not_none back) /\
      (forall n w1 i1, n0 <= n -> looks w1 -> nth_error (w_heap w1) l = Some i1 -> i_cls i1 = i_cls i -> i_back i1 = i_back i ->
         (forall m, child l m -> clear_below m w1) ->
         exists w2 data, mapM (fun k =>
             match dget (c_props c) k with
             | Some d => let* v := has_getattr E C U (X n) l k in
                         let* x := decl_serialize E C (X n) so d v in
                         ret (k, x)
             | None => throw ExKey
             end) (dkeys back) w1 = (Ok data, w2) /\ filter (fun kx => negb (is_none (snd kx))) data = js /\ unchanged w1 w2) /\
      (forall n w1 o, n0 <= n -> o_trusted o = o_trusted d_o -> o_valid o = false ->
         exists ns w2, mapM (fun kv =>
            match dget (c_props c) (fst kv) with
            | Some pd => let* x := decl_deserialize E C (X n) o pd (snd kv) in ret (fst kv, x)
            | None => throw ExKey
            end) js w1 = (Ok ns, w2) /\ unchanged w1 w2 /\
           Forall2 (fun kv kb => fst kb = fst kv /\ exists d, dget (c_props c) (fst kv) = Some d /\
             carried (copied C (length (w_heap w1)) w w2) (pd_type d) (snd kv) (snd kb)) (filter not_none back) ns).
    Proof.
      induction 1 as [|[k v] back (d & Hd & Hk & Hv & Hr) HF (n2 & js & Hjs & S2 & D2)]; cbn [fst snd] in *.
      - exists 0, []. split; [reflexivity|]. split.
        + intros n w1 i1 _ _ _ _ _ _. exists w1, []. split; [reflexivity|]. split; [reflexivity|apply unchanged_refl].
        + intros n w1 o _ _ _. exists [], w1. split; [reflexivity|]. split; [apply unchanged_refl|constructor].
      - assert (Hst : forall w1 i1, nth_error (w_heap w1) l = Some i1 -> i_back i1 = i_back i -> stored w1 l k = Some v).
        { intros w1 i1 H1 H2. unfold stored. now rewrite H1, H2. }
        cbn [dkeys map filter fst]. replace (not_none (k, v)) with (negb (is_none v)) by reflexivity. destruct (is_none v) eqn:En; cbn [negb].
        + assert (v = VNone) as -> by (destruct v; try discriminate; reflexivity).
          exists n2, js. split; [exact Hjs|]. split; [|exact D2].
          intros n w1 i1 Hn Hl H1 H2 H3 Hcl. destruct (S2 n w1 i1 Hn Hl H1 H2 H3 Hcl) as (w2 & data & K & Hf & HU).
          exists w2, ((k, VNone) :: data). split; [|split; [exact Hf|exact HU]]. cbn [mapM].
          erewrite bind_ok; [|rewrite Hd, (bind_ok _ _ _ _ _ (has_getattr_plain E C U n l k i1 c d w1 H1 ltac:(congruence) Hd Hk)), (Hst w1 i1 H1 H3);
            cbn [value_or_none]; rewrite (bind_ok _ _ w1 w1 VNone); [reflexivity|unfold decl_serialize; destruct Hk as [-> | ->]; destruct (pd_type d); reflexivity]].
          fold (dkeys back). rewrite (bind_ok _ _ _ _ _ K). reflexivity.
        + assert (Hvn : v <> VNone) by (intros ->; discriminate). destruct (Hr Hvn) as (n1 & j & S1 & D1 & Hjn). specialize (Hjn Hvn).
          exists (max n1 n2), ((k, j) :: js). split; [cbn [map fst]; now f_equal|]. split.
          * intros n w1 i1 Hn Hl H1 H2 H3 Hcl. destruct (S1 n w1) as (wa & Ka & Ua); [lia|exact Hl| |].
            { intros m Hm. apply Hcl. exists k, d. split; [exists c; split; [now exists i|exact Hd]|].
              unfold held, stored. rewrite Hi, Hv. auto. }
            destruct (S2 n wa i1) as (w2 & data & K & Hf & HU); auto.
            { lia. }
            { eapply looks_unchanged; eauto. }
            { eapply unchanged_nth; eauto. }
            { intros m Hm. eapply clear_unchanged; eauto. }
            exists w2, ((k, j) :: data). split; [|split; [|eapply unchanged_trans; eauto]].
            -- cbn [mapM]. erewrite bind_ok; [|rewrite Hd, (bind_ok _ _ _ _ _ (has_getattr_plain E C U n l k i1 c d w1 H1 ltac:(congruence) Hd Hk)), (Hst w1 i1 H1 H3);
                 cbn [value_or_none]; rewrite (bind_ok _ _ w1 wa j); [reflexivity|unfold decl_serialize; destruct Hk as [-> | ->]; exact Ka]].
               fold (dkeys back). rewrite (bind_ok _ _ _ _ _ K). reflexivity.
            -- cbn [filter snd]. rewrite (is_none_false _ Hjn). cbn [negb]. now f_equal.
          * intros n w1 o Hn Ht Ho. destruct (D1 n w1 o) as (b & wa & Ka & Ua & Ca); [lia|exact Ht|exact Ho|].
            destruct (D2 n wa o) as (ns & w2 & K2 & U2 & C2); [lia|exact Ht|exact Ho|].
            exists ((k, b) :: ns), w2. split; [|split; [eapply unchanged_trans; eauto|]].
            -- cbn [mapM fst snd]. erewrite bind_ok; [|rewrite Hd; rewrite (bind_ok _ _ w1 wa b); [reflexivity|unfold decl_deserialize; destruct Hk as [-> | ->]; exact Ka]].
               rewrite (bind_ok _ _ _ _ _ K2). reflexivity.
            -- constructor.
               ++ cbn [fst snd]. split; [reflexivity|]. exists d. split; [exact Hd|]. eapply carried_after; eauto.
               ++ clear - C2 Ua U2. induction C2 as [|? ? ? ? (H1 & d & H2 & H3)]; constructor; auto. split; auto. exists d. split; auto. eapply carried_later; eauto.
    Qed.
  End Entries.
End Node.
