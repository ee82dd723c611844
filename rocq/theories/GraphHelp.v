(** Conditions that imply the hypotheses of the graph theorems, most of them
    computable; used by the examples. *)
From Verif Require Import World WorldFrame WorldSpec AccessSpec GraphSpec.
Local Open Scope string_scope.
Local Open Scope list_scope.
Local Open Scope nat_scope.

Lemma bind_ok {A B} (m : M A) (k : A -> M B) w w' a : m w = (Ok a, w') -> bind m k w = k a w'.
Proof. intros H. unfold bind. now rewrite H. Qed.

(** * Classes whose construction does nothing but set defaults of leaf type *)
Definition easy_default (E : env) (d : pdecl) (x : dflt) : Prop :=
  x = DUndef \/ exists v t, x = DVal v /\ pd_kind d = KProp /\ pd_type d = PLeaf t /\
    v <> VUndef /\ forall r, exists v', leaf_validate E r t v = LOk v' /\ v' <> VUndef.

Section Spare.
  Variable E : env.
  Variable C : ctable.
  Variable U : ucode.
  Variable w0 : world.
  Let l0 := length (w_heap w0).
  (** [w] is [w0] with a further instance, [i] *)
  Definition more (q : list lmode) (i : inst) (w : world) : Prop :=
    w_heap w = w_heap w0 ++ [i] /\ w_quar w = q /\ w_links w = w_links w0.
  Lemma more_nth q i w : more q i w -> nth_error (w_heap w) l0 = Some i.
  Proof. intros [-> _]. unfold l0. rewrite nth_error_app2 by lia. now rewrite Nat.sub_diag. Qed.
  Lemma more_upd q i w f : more q i w -> more q (f i) (w_upd l0 f w).
  Proof.
    intros H. pose proof (more_nth _ _ _ H) as K. destruct H as (H & Q & L). unfold w_upd. rewrite K. split; [|now split].
    cbn [w_setheap w_heap]. rewrite H. unfold set_nth, l0. rewrite firstn_app, Nat.sub_diag, firstn_all, app_nil_r. cbn [firstn].
    rewrite skipn_app, Nat.sub_diag, skipn_all. reflexivity.
  Qed.
  Lemma more_get q i w : more q i w -> get_inst l0 w = (Ok i, w).
  Proof. intros H. unfold get_inst. now rewrite (more_nth _ _ _ H). Qed.

  Lemma easy_set rec p name v q i w : more q i w -> (forall m, mode_in m q = true) -> dget (i_back i) name = None ->
    exists i' w', has_set rec p l0 name v w = (Ok VNone, w') /\ more q i' w' /\
      i_cls i' = i_cls i /\ forall k, k <> name -> dget (i_back i') k = dget (i_back i) k.
  Proof.
    intros H Q B. unfold has_set.
    set (f := fun i0 : inst => i_setback (if is_undef v then ddel (i_back i0) name else dset (i_back i0) name v) i0).
    set (w1 := w_emit (EWrite (w_clock w) l0 name v) (w_upd l0 f (w_tick w))).
    assert (H1 : more q i (w_tick w)) by exact H.
    assert (H2 : more q (f i) w1) by (apply (more_upd _ _ _ f H1)).
    assert (Nt : forall w2 i2 sid prev x m, more q i2 w2 -> notify rec sid l0 name prev x m w2 = (Ok x, w2)).
    { intros w2 i2 sid prev x m (_ & K & _). unfold notify, bind, get_w. now rewrite K, Q. }
    exists (f i), w1. split; [|split; [exact H2|]].
    - rewrite (bind_ok _ _ _ _ _ (eq_refl : tick w = (Ok (w_clock w), w_tick w))).
      rewrite (bind_ok _ _ _ _ _ (more_get _ _ _ H1)). rewrite B. cbv zeta. cbn [is_undef].
      rewrite (bind_ok _ _ _ _ _ (Nt _ _ _ _ _ _ H1)).
      rewrite (bind_ok _ _ _ _ _ (eq_refl : upd l0 f (w_tick w) = (Ok tt, w_upd l0 f (w_tick w)))).
      rewrite (bind_ok (mod_w (w_emit (EWrite (w_clock w) l0 name v))) _ _ _ _ (eq_refl : _ = (Ok tt, w1))).
      destruct (is_undef v); cbn [andb orb].
      + rewrite (bind_ok (ret false) _ _ _ _ eq_refl). cbv beta iota.
        rewrite (bind_ok (ret v) _ _ _ _ eq_refl). now rewrite (bind_ok _ _ _ _ _ (Nt _ _ _ _ _ _ H2)).
      + rewrite (bind_ok (ret true) _ _ _ _ eq_refl). cbv beta iota.
        rewrite (bind_ok _ _ _ _ _ (Nt _ _ _ _ _ _ H2)). now rewrite (bind_ok _ _ _ _ _ (Nt _ _ _ _ _ _ H2)).
    - split; [reflexivity|]. intros k Hk. unfold f. cbn [i_setback i_back]. destruct (is_undef v).
      + rewrite dget_ddel_other; congruence.
      + rewrite dget_dset_other; congruence.
  Qed.
  Lemma easy_reset rec c name d q i w : more q i w -> (forall m, mode_in m q = true) -> dget (i_back i) name = None ->
    easy_default E d (default_of c name d) ->
    exists i' w', reset_prop E C U rec c l0 name d w = (Ok tt, w') /\ more q i' w' /\
      i_cls i' = i_cls i /\ forall k, k <> name -> dget (i_back i') k = dget (i_back i) k.
  Proof.
    intros H Q B D. unfold reset_prop, eval_default, prop_fset. destruct D as [-> |(v & t & -> & _ & -> & Hv & Hl)].
    - rewrite (bind_ok (ret VUndef) _ _ _ _ eq_refl). cbn [is_undef].
      destruct (easy_set rec (pd_type d) name VUndef q i w H Q B) as (i' & w' & K & R). exists i', w'. split; [|exact R].
      apply (bind_ok _ (fun _ => ret tt) w w' VNone). rewrite (bind_ok (ret VUndef) _ _ _ _ eq_refl). exact K.
    - rewrite (bind_ok (ret v) _ _ _ _ eq_refl). destruct (is_undef v) eqn:Eu; [now destruct v|].
      cbn [p_validate]. destruct (Hl (e_rand E (w_clock w))) as (v' & Hv' & _).
      destruct (easy_set rec (PLeaf t) name v' q i (w_tick w)) as (i' & w' & K & R); auto.
      exists i', w'. split; [|exact R]. apply (bind_ok _ (fun _ => ret tt) w w' VNone).
      rewrite (bind_ok (leaf_val E t (Some l0) name v) _ w (w_tick w) v'); [exact K|].
      unfold leaf_val. rewrite (bind_ok _ _ _ _ _ (eq_refl : tick w = (Ok (w_clock w), w_tick w))). now rewrite Hv'.
  Qed.
  Lemma easy_resets rec c q ps : forall i w, more q i w -> (forall m, mode_in m q = true) ->
    NoDup (dkeys ps) -> (forall name d, In (name, d) ps -> dget (i_back i) name = None /\ easy_default E d (default_of c name d)) ->
    exists i' w', iterM (fun nd => match pd_kind (snd nd) with
                         | KProp => reset_prop E C U rec c l0 (fst nd) (snd nd)
                         | _ => ret tt
                         end) ps w = (Ok tt, w') /\ more q i' w'.
  Proof.
    induction ps as [|[name d] ps IH]; intros i w H Q Hn Hd; cbn [iterM].
    - exists i, w. split; auto.
    - cbn [dkeys map fst] in Hn. inversion Hn as [|? ? Hx Hn']; subst. destruct (Hd name d (or_introl eq_refl)) as [B D].
      assert (G : exists i' w', (match pd_kind (snd (name, d)) with
                         | KProp => reset_prop E C U rec c l0 (fst (name, d)) (snd (name, d))
                         | _ => ret tt
                         end) w = (Ok tt, w') /\ more q i' w' /\ forall k, k <> name -> dget (i_back i') k = dget (i_back i) k).
      { cbn [fst snd]. destruct (pd_kind d); try (exists i, w; split; [reflexivity|split; auto]).
        destruct (easy_reset rec c name d q i w H Q B D) as (i' & w' & K1 & K2 & _ & K3). eauto. }
      destruct G as (i' & w' & K1 & K2 & K3). rewrite (bind_ok _ _ _ _ _ K1). apply (IH i'); auto.
      intros name' d' Hin. destruct (Hd name' d' (or_intror Hin)) as [B' D']. split; auto. rewrite K3; auto.
      intros ->. apply Hx. apply (in_map fst) in Hin. exact Hin.
  Qed.
  Lemma easy_observe os : forall q i w, more q i w -> nth_error (ct_cls C) (i_cls i) <> None ->
    exists i' w', iterM (fun d => has_observe C l0 d ;; ret tt) os w = (Ok tt, w') /\ more q i' w' /\
      i_cls i' = i_cls i /\ i_back i' = i_back i.
  Proof.
    induction os as [|d os IH]; intros q i w H Hc; cbn [iterM].
    - exists i, w. split; auto.
    - destruct (nth_error (ct_cls C) (i_cls i)) as [c|] eqn:Ec; [|contradiction].
      set (f := fun i0 => i_setlst (i_lst i0 ++ map (fun n => Lst n (od_mode d) (od_func d)) (match od_names d with Some ns => ns | None => dkeys (c_props c) end)) i0).
      assert (K : (has_observe C l0 d ;; ret tt) w = (Ok tt, w_upd l0 f w)).
      { apply (bind_ok _ (fun _ => ret tt) w (w_upd l0 f w) VNone). unfold has_observe.
        rewrite (bind_ok _ _ w w c); [reflexivity|]. unfold inst_class. rewrite (bind_ok _ _ _ _ _ (more_get _ _ _ H)).
        unfold class_of, lift. now rewrite Ec. }
      rewrite (bind_ok _ _ _ _ _ K). destruct (IH q (f i) (w_upd l0 f w)) as (i' & w' & K1 & K2 & K3 & K4).
      + now apply more_upd.
      + cbn. now rewrite Ec.
      + exists i', w'. split; auto.
  Qed.
End Spare.

Lemma spare_easy E C U : wf_ctab C ->
  (forall cid c name d, nth_error (ct_cls C) cid = Some c -> In (name, d) (c_props c) -> easy_default E d (default_of c name d)) ->
  forall cid, spare E C U cid.
Proof.
  intros WF H cid n w. change (exec E C U (S (S n)) (COp (ONew cid None)) w) with (has_new E C U (exec E C U (S n)) cid None w).
  unfold has_new. destruct (nth_error (ct_cls C) cid) as [c|] eqn:Hc.
  2: { exists ExAttr, w. split; [|split; [reflexivity|]].
       - unfold bind, class_of, lift. now rewrite Hc.
       - split; [exists []; now rewrite app_nil_r|auto]. }
  set (i0 := Inst cid [] [] None false false []). set (w1 := w_setheap (w_heap w ++ [i0]) w).
  assert (H1 : more w (w_quar w) i0 w1) by (repeat split).
  destruct (easy_observe C w (c_obs c) _ _ _ H1) as (i2 & w2 & K2 & H2 & Ec & Eb); [cbn; now rewrite Hc|].
  assert (Ig : forall ps, incl ps (c_props c) -> iterM (init_gettable E C U (exec E C U (S n)) c (length (w_heap w))) ps w2 = (Ok tt, w2)).
  { induction ps as [|[name d] ps IH]; intros Hi; cbn [iterM]; [reflexivity|].
    rewrite (bind_ok _ _ w2 w2 tt); [apply IH; intros x Hx; apply Hi; now right|].
    unfold init_gettable. cbn [fst snd]. destruct (H cid c name d Hc (Hi _ (or_introl eq_refl))) as [-> |(v & t & _ & -> & _)];
      [destruct (pd_kind d); reflexivity|reflexivity]. }
  set (w2' := w_setquar all_modes w2). assert (H2' : more w all_modes i2 w2') by (split; [apply H2|split; [reflexivity|apply H2]]).
  destruct (easy_resets E C U w (exec E C U (S n)) c all_modes (c_props c) i2 w2' H2') as (i3 & w3 & K3 & H3).
  { intros []; reflexivity. }
  { eapply WF; eauto. }
  { intros name d Hin. split; [now rewrite Eb|eauto]. }
  exists ExType, (w_setquar (w_quar w) w3). split; [|split; [reflexivity|]].
  - rewrite (bind_ok (class_of C cid) _ w w c) by (unfold class_of, lift; now rewrite Hc).
    rewrite (bind_ok (alloc cid) _ w w1 (length (w_heap w))) by reflexivity.
    rewrite (bind_ok _ _ _ _ _ K2). rewrite (bind_ok _ _ _ _ _ (Ig (c_props c) (incl_refl _))).
    rewrite (bind_ok _ _ w2 (w_setquar (w_quar w) w3) VNone); [reflexivity|].
    unfold disabled. replace (quar_enter None (w_quar w2)) with all_modes by reflexivity.
    fold w2'. unfold has_reset. rewrite (bind_ok (inst_class C (length (w_heap w))) _ w2' w2' c).
    + rewrite (bind_ok _ _ _ _ _ K3). cbn [ret]. f_equal. f_equal. apply H2.
    + unfold inst_class. rewrite (bind_ok _ _ _ _ _ (more_get _ _ _ _ H2')). unfold class_of, lift. rewrite Ec. cbn [i_cls i0]. now rewrite Hc.
  - destruct H3 as (H3 & _ & L3). split; [|split; [reflexivity|exact L3]]. exists [i3]. exact H3.
Qed.

(** * Settled states *)
Fixpoint calmb (p : ptype) (v : val) : bool :=
  match p with
  | PLeaf LfColor => match v with VStr _ => false | _ => true end
  | PLeaf _ => true
  | PSeq _ q _ _ _ =>
      match py_iter v with Ok l => forallb (fun x => negb (is_none x) && calmb q x) l | Exc _ => true end &&
      match elements v with None => calmb q v | Some _ => true end
  | PDict kp vp _ =>
      match py_dict v with
      | Ok d => forallb (fun kx => (negb (is_none (fst kx)) && calmb kp (fst kx)) && (negb (is_none (snd kx)) && calmb vp (snd kx))) d
      | Exc _ => true
      end
  | PUnion _ ps => forallb (fun q => calmb q v) ps
  | PInst _ => match v with VDict _ => false | _ => true end
  end.
Lemma is_none_not v : negb (is_none v) = true -> v <> VNone.
Proof. intros H ->. discriminate. Qed.
Lemma calmb_sound E p : forall v, calmb p v = true -> calm E p v.
Proof.
  induction p as [t|k q mn mx co IH|kp vp co IHk IHv|si ps IH|cid] using ptype_ind'; intros v H; cbn [calmb calm] in *.
  - intros r r'. destruct t; try reflexivity. destruct v; try discriminate; reflexivity.
  - apply andb_true_iff in H. destruct H as [H1 H2]. split.
    + intros l Hl. rewrite Hl in H1. apply Forall_forall. intros x Hx. rewrite forallb_forall in H1. specialize (H1 x Hx).
      apply andb_true_iff in H1. destruct H1. split; [now apply is_none_not|auto].
    + intros He. rewrite He in H2. auto.
  - intros d Hd. rewrite Hd in H. apply Forall_forall. intros [a b] Hx. rewrite forallb_forall in H. specialize (H _ Hx).
    cbn [fst snd] in *. rewrite !andb_true_iff in H. destruct H as [[Ha Hb] [Hc Hd']].
    repeat split; try (now apply is_none_not); auto.
  - induction IH as [|q ps Hq Hps IHps]; [exact I|]. cbn [forallb] in H. apply andb_true_iff in H. destruct H. split; [now apply Hq|]. now apply IHps.
  - intros d ->. discriminate.
Qed.
Definition is_renamed (d : pdecl) : bool := match pd_kind d with KRenamed _ => true | _ => false end.
Definition datab (C : ctable) (w : world) : bool :=
  let N := length (w_heap w) in
  forallb (fun i =>
    match nth_error (ct_cls C) (i_cls i) with
    | None => false
    | Some c => forallb (fun nd => is_renamed (snd nd) ||
                   match dget (i_back i) (fst nd) with Some v => calmb (pd_type (snd nd)) v | None => true end) (c_props c)
    end &&
    forallb (fun kv => below N (snd kv)) (i_back i) && forallb (fun kv => below N (snd kv)) (i_attrs i)) (w_heap w) &&
  forallb (fun c => forallb (fun kv => below N (snd kv)) (c_attrs c) &&
    forallb (fun nd => match pd_kind (snd nd) with
                       | KRenamed nn => match dget (c_props c) nn with Some d => negb (is_renamed d) | None => true end
                       | _ => true
                       end) (c_props c)) (ct_cls C).
Lemma dget_forallb {A} (f : string * A -> bool) d name v : forallb f d = true -> dget d name = Some v -> f (name, v) = true.
Proof. intros H K. rewrite forallb_forall in H. apply H. now apply dget_in. Qed.
Lemma settled_intro E C U w : datab C w = true -> (forall cid, spare E C U cid) ->
  (forall cid c name d g s x l, nth_error (ct_cls C) cid = Some c -> dget (c_props c) name = Some d ->
    pd_kind d = KDynamic g s x -> l < length (w_heap w) ->
    reader C (length (w_heap w)) (calm E (pd_type d)) (u_get U g l)) ->
  (forall l i x, nth_error (w_heap w) l = Some i -> In x (i_lst i) -> l_mode x = MValidate ->
    exists cb, l_func x = LCb cb /\
      forall name prev v, below (length (w_heap w)) prev = true -> below (length (w_heap w)) v = true ->
        reader C (length (w_heap w)) (fun _ => True) (u_listen U cb l name prev v MValidate)) ->
  (forall cid c cb l, nth_error (ct_cls C) cid = Some c -> In (CVUser cb) (c_cvals c) ->
    l < length (w_heap w) -> reader C (length (w_heap w)) (fun _ => True) (u_cval U cb l)) ->
  settled E C U w.
Proof.
  intros D Sp Ge Va Cv. unfold datab in D. apply andb_true_iff in D. destruct D as [D1 D2].
  rewrite forallb_forall in D1, D2.
  assert (H1 : forall l i, nth_error (w_heap w) l = Some i -> exists c, nth_error (ct_cls C) (i_cls i) = Some c /\
    forallb (fun nd => is_renamed (snd nd) ||
      match dget (i_back i) (fst nd) with Some v => calmb (pd_type (snd nd)) v | None => true end) (c_props c) = true /\
    forallb (fun kv => below (length (w_heap w)) (snd kv)) (i_back i) = true /\ forallb (fun kv => below (length (w_heap w)) (snd kv)) (i_attrs i) = true).
  { intros l i Hi. apply nth_error_In, D1 in Hi. rewrite !andb_true_iff in Hi. destruct Hi as [[Hi K2] K3].
    destruct (nth_error (ct_cls C) (i_cls i)) as [c|]; [|discriminate]. exists c. auto. }
  constructor; auto.
  - intros l i Hi. destruct (H1 l i Hi) as (c & -> & _). discriminate.
  - intros l i name v Hi Hv. destruct (H1 l i Hi) as (c & _ & _ & K & _). now apply (dget_forallb _ _ _ _ K) in Hv.
  - intros l i name v Hi Hv. destruct (H1 l i Hi) as (c & _ & _ & _ & K). now apply (dget_forallb _ _ _ _ K) in Hv.
  - intros cid c name v Hc Hv. apply nth_error_In, D2 in Hc. apply andb_true_iff in Hc. destruct Hc as [Hc _].
    now apply (dget_forallb _ _ _ _ Hc) in Hv.
  - intros l name d v (c & (i & Hi & Hc) & Hd) Hk Hs. destruct (H1 l i Hi) as (c' & Hc' & K & _). rewrite Hc in Hc'. injection Hc' as <-.
    apply (dget_forallb _ _ _ _ K) in Hd. cbn [fst snd] in Hd. unfold stored in Hs. rewrite Hi in Hs. rewrite Hs in Hd.
    apply orb_true_iff in Hd. destruct Hd as [Hd|Hd]; [|now apply calmb_sound].
    unfold is_renamed in Hd. destruct (pd_kind d) as [| | |nn] eqn:Ek; try discriminate. now destruct (Hk nn).
  - intros cid c name d nn d' Hc Hd Hk Hd' nn' Hk'. apply nth_error_In, D2 in Hc. apply andb_true_iff in Hc. destruct Hc as [_ Hc].
    apply (dget_forallb _ _ _ _ Hc) in Hd. cbn [snd] in Hd. rewrite Hk, Hd' in Hd. unfold is_renamed in Hd. rewrite Hk' in Hd. discriminate.
Qed.
Definition initializedb (w : world) : bool := forallb (fun i => match i_vflag i with None => false | _ => true end) (w_heap w).
Lemma initialized_intro w : initializedb w = true -> initialized w.
Proof. intros H l i Hi. unfold initializedb in H. rewrite forallb_forall in H. apply nth_error_In, H in Hi. now destruct (i_vflag i). Qed.
Definition idleb (w : world) : bool := forallb (fun i => match i_vflag i with Some false => true | _ => false end) (w_heap w).
Lemma idle_intro w : idleb w = true -> idle w.
Proof. intros H l i Hi. unfold idleb in H. rewrite forallb_forall in H. apply nth_error_In, H in Hi. now destruct (i_vflag i) as [[|]|]. Qed.
