(** Facts about the checks of class creation and about the listeners of a new
    instance. *)
From Verif Require Import World WorldFrame WorldInv WorldSpec WorldSet WorldFacts AccessSpec ContainerFacts AccessFacts Meta MetaSpec MetaFacts.
From Coq Require Import Lia.
Local Open Scope string_scope.
Local Open Scope list_scope.
Local Open Scope nat_scope.

Lemma subseq_in l m x : subseq l m -> In x l -> In x m.
Proof. induction 1; simpl; [tauto|intros [->|]; auto|auto]. Qed.

Section Check.
  Variable E : env.
  Variable U : ucode.
  Variable reg : dict nat.
  Notation built := (built E U reg).

  Lemma merged_are T b mro : built T -> plain_mixins T -> match b_defaults b with Some d => NoDup (dkeys d) | None => True end ->
    defaults_are T b mro (merged_defaults T (b_defaults b) mro).
  Proof.
    intros HB HP Hd key. rewrite merged_get; [|intros; eapply def_nodup; eauto|exact Hd].
    rewrite (tables E U reg T HB HP). destruct (b_defaults b) as [d|].
    - replace (attr_defaults T (Some d) mro) with d by (destruct mro; reflexivity). reflexivity.
    - apply own_or_table.
  Qed.
  Lemma check_default_ok n T props kx w w' : check_default E U reg n T props kx w = (Ok tt, w') ->
    exists v, default_accepted E (to_ctab T reg) U n props kx w v w'.
  Proof.
    destruct kx as [key x]. unfold check_default, default_accepted. cbn [fst snd]. destruct (dget props key) as [d|]; [|discriminate].
    intros H. unfold try_ in H.
    set (m := let* v := match x with DUndef => ret VUndef | DVal v => ret v | DCall cb => run_prog E (to_ctab T reg) U n (u_default U cb) end in
              if is_undef v then ret tt
              else p_validate E (to_ctab T reg) (exec E (to_ctab T reg) U n) (decl_type d) None key v ;; ret tt) in *.
    destruct (m w) as [[[]|e] w1] eqn:Em; [|destruct (is_value_error e); discriminate]. injection H as <-.
    unfold m in Em. apply bind_ok in Em as (v & wa & H1 & H2). exists v, d, wa. split; auto. split.
    { destruct x; simpl; [injection H1 as <- <-; auto|injection H1 as <- <-; auto|exact H1]. }
    destruct (is_undef v) eqn:Ev.
    - left. injection H2 as <-. destruct v; try discriminate. auto.
    - right. split; auto. apply bind_ok in H2 as (v0 & wb & H2 & H3). injection H3 as <-. eauto.
  Qed.
  Lemma check_default_exc n T props kx w e w' : check_default E U reg n T props kx w = (Exc e, w') ->
    default_fails E (to_ctab T reg) U n props kx w e w'.
  Proof.
    destruct kx as [key x]. unfold check_default, default_fails. cbn [fst snd]. destruct (dget props key) as [d|].
    2:{ intros H. injection H as <- <-. auto. }
    intros H. unfold try_ in H.
    set (m := let* v := match x with DUndef => ret VUndef | DVal v => ret v | DCall cb => run_prog E (to_ctab T reg) U n (u_default U cb) end in
              if is_undef v then ret tt
              else p_validate E (to_ctab T reg) (exec E (to_ctab T reg) U n) (decl_type d) None key v ;; ret tt) in *.
    destruct (m w) as [[[]|e0] w1] eqn:Em; [discriminate|]. right. exists d, e0. split; auto.
    assert (w' = w1 /\ e = (if is_value_error e0 then ExAttr else e0)) as [-> ->].
    { destruct (is_value_error e0); injection H as <- <-; auto. }
    split; auto. unfold m in Em. unfold bind in Em at 1.
    destruct x as [|v|cb]; cbn [ret] in Em.
    - right. discriminate.
    - right. exists v, w. split; [split; reflexivity|]. destruct (is_undef v); [discriminate|]. split; auto.
      unfold bind in Em. destruct (p_validate _ _ _ _ _ _ _ w) as [[?|?] ?]; [discriminate|]. now injection Em as -> ->.
    - destruct (run_prog E (to_ctab T reg) U n (u_default U cb) w) as [[v|e1] wa] eqn:Er.
      + right. exists v, wa. split; [exact Er|]. destruct (is_undef v); [discriminate|]. split; auto.
        unfold bind in Em. destruct (p_validate _ _ _ _ _ _ _ wa) as [[?|?] ?]; [discriminate|]. now injection Em as -> ->.
      + left. exists cb. split; auto. now injection Em as -> ->.
  Qed.
  Lemma iterM_exc {A B} (f : A -> M unit) (act : A -> world -> B -> world -> Prop) (bad : A -> world -> exn -> world -> Prop) :
    (forall x w w', f x w = (Ok tt, w') -> exists b, act x w b w') ->
    (forall x w e w', f x w = (Exc e, w') -> bad x w e w') ->
    forall l w e w', iterM f l w = (Exc e, w') ->
    exists pre x post bs w1, l = pre ++ x :: post /\ each act pre w bs w1 /\ bad x w1 e w'.
  Proof.
    intros Hok Hbad. induction l as [|x l IH]; simpl; intros w e w' H; [discriminate|].
    unfold bind in H. destruct (f x w) as [[[]|e1] w1] eqn:Ef.
    - destruct (Hok _ _ _ Ef) as [b Hb]. destruct (IH _ _ _ H) as (pre & y & post & bs & w2 & -> & H1 & H2).
      exists (x :: pre), y, post, (b :: bs), w2. split; auto. split; auto. econstructor; eauto.
    - injection H as <- <-. exists [], x, l, [], w. split; auto. split; [constructor|]. now apply Hbad.
  Qed.

  Lemma defaults_checked T b n w c w' : built T -> plain_mixins T -> wf_body T b ->
    create E U reg n T b w = (Ok c, w') -> m_meta c = true ->
    exists defs vs, m_def c = Some defs /\ defaults_are T b (tl (m_mro c)) defs /\
      each (default_accepted E (to_ctab T reg) U n (m_props c)) defs w vs w'.
  Proof.
    intros HB HP (_ & _ & _ & Hd) H Hm. unfold create in H. destruct (b_meta b || existsb (is_meta T) (b_bases b)) eqn:Em.
    - destruct (renamed_ok _ _); [|discriminate]. destruct (observed_ok _ _); [|discriminate]. cbn [negb] in H.
      destruct (c3 T (b_bases b)) as [mro|]; [|discriminate].
      apply bind_ok in H as ([] & w1 & H1 & H2). injection H2 as <- <-. cbn [m_def m_mro m_props tl].
      apply iterM_each with (act := default_accepted E (to_ctab T reg) U n
         (build_from_bases T m_props (b_bases b) (dkeys (b_dict b)) (own_props b))) in H1 as [vs H1]; [|intros; eapply check_default_ok; eauto].
      eexists _, vs. split; [reflexivity|]. split; [now apply merged_are|exact H1].
    - destruct (c3 T (b_bases b)); [|discriminate]. injection H as <- <-. discriminate.
  Qed.

  Lemma own_prop b key d : NoDup (dkeys (b_dict b)) -> dget (own_props b) key = Some d <-> dget (b_dict b) key = Some (MProp d).
  Proof.
    intros HN. rewrite own_props_of, own_get by exact HN. destruct (dget (b_dict b) key) as [m|]; [|split; discriminate].
    rewrite pick_prop_wrap. split; congruence.
  Qed.
  Lemma own_ob b key d : NoDup (dkeys (b_dict b)) -> dget (own_obs b) key = Some d <-> dget (b_dict b) key = Some (MObs d).
  Proof.
    intros HN. rewrite own_obs_of, own_get by exact HN. destruct (dget (b_dict b) key) as [m|]; [|split; discriminate].
    rewrite pick_obs_wrap. split; congruence.
  Qed.
  Lemma own_props_nodup b : NoDup (dkeys (b_dict b)) -> NoDup (dkeys (own_props b)).
  Proof. rewrite own_props_of. apply own_nodup. Qed.
  Lemma own_obs_nodup b : NoDup (dkeys (b_dict b)) -> NoDup (dkeys (own_obs b)).
  Proof. rewrite own_obs_of. apply own_nodup. Qed.

  Definition body_props T b := build_from_bases T m_props (b_bases b) (dkeys (b_dict b)) (own_props b).
  Lemma mem_str_In k l : mem_str k l = true <-> In k l.
  Proof.
    unfold mem_str. rewrite existsb_exists. split.
    - intros (x & H & Ex). apply String.eqb_eq in Ex. now subst.
    - intros H. exists k. split; auto. apply String.eqb_refl.
  Qed.
  Lemma props_names T b key d : built T -> NoDup (dkeys (b_dict b)) -> dget (body_props T b) key = Some d ->
    dget (b_dict b) key = Some (MProp d) \/
    dget (b_dict b) key = None /\ exists k c, In k (b_bases b) /\ class_at T k c /\ In key (dkeys (m_props c)).
  Proof.
    intros HB HN H. unfold body_props in H. rewrite build_get in H;
      [|exact (attr_nodup E U reg m_props pick_prop props_made T HB)|now apply own_props_nodup].
    destruct (dget (own_props b) key) as [d0|] eqn:Eo.
    - injection H as ->. left. now apply own_prop.
    - right. destruct (mem_str key (dkeys (b_dict b))) eqn:Em; [discriminate|]. split.
      { apply dget_none. intros K. apply mem_str_In in K. congruence. }
      assert (K : key_kept T m_props (b_bases b) key = true).
      { revert H. generalize (rev (all_bases T (b_bases b))) as L. induction L as [|k L IH]; simpl; [discriminate|].
        unfold contrib at 1. destruct (nth_error T k) as [c|]; auto. destruct (key_kept T m_props (b_bases b) key); auto.
        rewrite andb_false_r. auto. }
      unfold key_kept in K. apply existsb_exists in K as (k & Hk & K). unfold get_cls in K.
      destruct (nth_error T k) as [c|] eqn:Ek; [|discriminate]. apply andb_prop in K as [_ K].
      exists k, c. split; auto. split; auto. apply dhas_dget in K as [x Hx]. eapply dget_in in Hx. apply in_map_iff. exists (key, x). auto.
  Qed.

  Lemma prop_origin T : built T -> forall id c key, class_at T id c -> In key (dkeys (m_props c)) ->
    m_meta c = true /\ exists a ca, In a (m_mro c) /\ class_at T a ca /\ m_meta ca = true /\ dhas (b_dict (m_body ca)) key = true /\
      In key (dkeys (m_props ca)).
  Proof.
    intros HB id. induction id as [id IH] using lt_wf_ind. intros c key Hid Hin.
    pose proof (built_made E U reg T HB id c Hid) as M. pose proof (props_made _ _ _ M) as P.
    destruct (m_meta c) eqn:Em; [|rewrite P in Hin; destruct Hin]. split; auto.
    destruct (dget (m_props c) key) as [d|] eqn:Ed; [|apply dget_none in Ed; contradiction].
    destruct (md_wf _ _ _ M) as (HN & _ & F). rewrite P, <- own_props_of in Ed.
    assert (HB' : built (firstn id T)) by now apply built_prefix.
    destruct (props_names (firstn id T) (m_body c) key d HB' HN Ed) as [K|(_ & k & ck & Hk & Hck & Kk)].
    - exists id, c. destruct (mro_below E U reg T HB id c Hid) as (r & -> & _). split; [now left|]. repeat split; auto.
      unfold dhas. now rewrite K.
    - rewrite Forall_forall in F. specialize (F k Hk). unfold class_at in Hck. rewrite firstn_nth in Hck by auto.
      destruct (IH k F ck key Hck Kk) as (_ & a & ca & Ha & R). exists a, ca. split; auto.
      destruct (mro_sub E U reg T id c k ck HB Hid Hk Hck) as [Hs _].
      destruct (mro_below E U reg T HB id c Hid) as (r & Er & _). rewrite Er in *. right. simpl in Hs.
      eapply subseq_in; eauto.
  Qed.
  Lemma names_props T b key : built T -> NoDup (dkeys (b_dict b)) -> names_property T b key -> dget (body_props T b) key <> None.
  Proof.
    intros HB HN H. unfold body_props. rewrite build_get;
      [|exact (attr_nodup E U reg m_props pick_prop props_made T HB)|now apply own_props_nodup].
    destruct H as [(d & Hd)|(Hn & k & c & Hk & Hc & Hin)].
    - apply own_prop in Hd; auto. rewrite Hd. discriminate.
    - destruct (dget (own_props b) key) as [d|] eqn:Eo; [discriminate|].
      destruct (mem_str key (dkeys (b_dict b))) eqn:Em.
      { apply mem_str_In in Em. apply dget_none in Hn. contradiction. }
      destruct (prop_origin T HB k c key Hc Hin) as (Hm & a & ca & Ha & Hca & Hma & Hd & Hp).
      assert (Hab : In a (rev (all_bases T (b_bases b)))).
      { rewrite all_bases_flat, all_bases_order. unfold metas. apply filter_In. unfold class_at in Hca. rewrite Hca. split; auto.
        rewrite keep_last_in. apply in_concat. exists (m_mro c). split; auto. apply in_map_iff. exists k. split; auto.
        unfold mro_at. unfold class_at in Hc. now rewrite Hc. }
      assert (Hkk : key_kept T m_props (b_bases b) key = true).
      { unfold key_kept. apply existsb_exists. exists k. split; auto. unfold get_cls. unfold class_at in Hc. rewrite Hc, Hm. simpl.
        apply dhas_dget. destruct (dget (m_props c) key) eqn:Ed; [eauto|]. apply dget_none in Ed. contradiction. }
      revert Hab. generalize (rev (all_bases T (b_bases b))) as L. induction L as [|x L IH]; simpl; [tauto|].
      intros [->|Hx]; [|destruct (contrib T m_props (b_bases b) key x); [discriminate|auto]].
      unfold contrib at 1. unfold class_at in Hca. rewrite Hca, Hd, Hkk. simpl.
      destruct (dget (m_props ca) key) eqn:Ed; [discriminate|]. apply dget_none in Ed. contradiction.
  Qed.
  Lemma props_iff T b key : built T -> NoDup (dkeys (b_dict b)) -> (names_property T b key <-> In key (dkeys (body_props T b))).
  Proof.
    intros HB HN. split.
    - intros H. apply names_props in H; auto. destruct (dget (body_props T b) key) as [d|] eqn:Ed; [|congruence].
      apply in_map_iff. exists (key, d). split; auto. now apply dget_in.
    - intros H. destruct (dget (body_props T b) key) as [d|] eqn:Ed; [|apply dget_none in Ed; contradiction].
      destruct (props_names T b key d HB HN Ed) as [K|K]; [left; eauto|right; exact K].
  Qed.
  Lemma names_of_class T b n w c w' : built T -> wf_body T b -> create E U reg n T b w = (Ok c, w') -> m_meta c = true ->
    forall key, In key (dkeys (m_props c)) <-> names_property T b key.
  Proof.
    intros HB Hwf H Hm key. destruct (create_made _ _ _ _ _ _ _ _ _ Hwf H) as [M Hb]. pose proof (props_made _ _ _ M) as P.
    rewrite Hm, Hb in P. rewrite P, <- own_props_of. symmetry. apply props_iff; auto. apply Hwf.
  Qed.

  Lemma renamed_dangling T b n w key d nn : built T -> wf_body T b -> b_meta b = true \/ (exists k c, In k (b_bases b) /\ class_at T k c /\ m_meta c = true) ->
    dget (b_dict b) key = Some (MProp d) -> pd_kind d = KRenamed nn -> ~ names_property T b nn ->
    create E U reg n T b w = (Exc ExType, w).
  Proof.
    intros HB (HN & _ & _ & _) Hm Hd Hk Hn. unfold create.
    assert (Em : b_meta b || existsb (is_meta T) (b_bases b) = true).
    { destruct Hm as [->|(k & c & H1 & H2 & H3)]; auto. apply orb_true_intro. right. apply existsb_exists. exists k. split; auto.
      unfold is_meta, get_cls. unfold class_at in H2. now rewrite H2. }
    rewrite Em. destruct (renamed_ok _ _) eqn:Er; [|reflexivity]. exfalso. unfold renamed_ok in Er. rewrite forallb_forall in Er.
    specialize (Er (key, d)). simpl in Er. rewrite Hk in Er.
    assert (K : dhas (build_from_bases T m_props (b_bases b) (dkeys (b_dict b)) (own_props b)) nn = true).
    { apply Er. apply dget_in. now apply own_prop. }
    apply dhas_dget in K as [x Hx]. apply Hn. destruct (props_names T b nn x HB HN Hx) as [K|K]; [left; eauto|right; exact K].
  Qed.
  Lemma observer_dangling T b n w key o ns nm : built T -> wf_body T b -> b_meta b = true \/ (exists k c, In k (b_bases b) /\ class_at T k c /\ m_meta c = true) ->
    dget (b_dict b) key = Some (MObs o) -> od_names o = Some ns -> In nm ns ->
    ~ names_property T b nm \/ (exists d, dget (b_dict b) nm = Some (MProp d) /\ pd_kind d <> KProp) ->
    create E U reg n T b w = (Exc ExType, w).
  Proof.
    intros HB (HN & _ & _ & _) Hm Ho Hns Hin Hbad. unfold create.
    assert (Em : b_meta b || existsb (is_meta T) (b_bases b) = true).
    { destruct Hm as [->|(k & c & H1 & H2 & H3)]; auto. apply orb_true_intro. right. apply existsb_exists. exists k. split; auto.
      unfold is_meta, get_cls. unfold class_at in H2. now rewrite H2. }
    rewrite Em. destruct (renamed_ok _ _); [|reflexivity]. cbn [negb].
    destruct (observed_ok _ _) eqn:Er; [|reflexivity]. exfalso. unfold observed_ok in Er. rewrite forallb_forall in Er.
    specialize (Er (key, o)). simpl in Er. rewrite Hns in Er.
    assert (K : forallb (fun nm => match dget (build_from_bases T m_props (b_bases b) (dkeys (b_dict b)) (own_props b)) nm with
                                   | Some d => match pd_kind d with KProp => true | _ => false end
                                   | None => false end) ns = true).
    { apply Er. apply dget_in. now apply own_ob. }
    rewrite forallb_forall in K. specialize (K nm Hin). fold (body_props T b) in K.
    destruct (dget (body_props T b) nm) as [d|] eqn:Ed; [|discriminate]. destruct (props_names T b nm d HB HN Ed) as [P|P].
    - destruct Hbad as [Hbad|(d' & Hd' & Hk)]; [apply Hbad; left; eauto|]. assert (d' = d) by congruence. subst d'. destruct (pd_kind d); congruence.
    - destruct Hbad as [Hbad|(d' & Hd' & Hk)]; [apply Hbad; right; exact P|]. destruct P. congruence.
  Qed.
  Lemma names_checked T b n w c w' : wf_body T b -> create E U reg n T b w = (Ok c, w') -> m_meta c = true ->
    (forall key d nn, dget (b_dict b) key = Some (MProp d) -> pd_kind d = KRenamed nn -> In nn (dkeys (m_props c))) /\
    (forall key o ns nm, dget (b_dict b) key = Some (MObs o) -> od_names o = Some ns -> In nm ns ->
       exists d, dget (m_props c) nm = Some d /\ pd_kind d = KProp).
  Proof.
    intros Hwf H Hm. destruct (create_made _ _ _ _ _ _ _ _ _ Hwf H) as [M Hb]. pose proof (md_attr _ _ _ M) as A. rewrite Hm, Hb in A.
    destruct A as (_ & _ & _ & _ & Hr & Ho). destruct Hwf as (HN & _). split.
    - intros key d nn Hd Hk. unfold renamed_ok in Hr. rewrite forallb_forall in Hr. specialize (Hr (key, d)). simpl in Hr. rewrite Hk in Hr.
      assert (K : dhas (m_props c) nn = true) by (apply Hr; apply dget_in; now apply own_prop).
      apply dhas_dget in K as [x Hx]. apply in_map_iff. exists (nn, x). split; auto. now apply dget_in.
    - intros key o ns nm Hd Hn Hin. unfold observed_ok in Ho. rewrite forallb_forall in Ho. specialize (Ho (key, o)). simpl in Ho. rewrite Hn in Ho.
      assert (K := Ho (dget_in _ _ _ (proj2 (own_ob b key o HN) Hd))). rewrite forallb_forall in K. specialize (K nm Hin).
      destruct (dget (m_props c) nm) as [d|]; [|discriminate]. exists d. split; auto. destruct (pd_kind d); congruence.
  Qed.
  (** the ways in which creation fails *)
  Lemma creation_fails T b n w e w' : built T -> plain_mixins T -> wf_body T b -> create E U reg n T b w = (Exc e, w') ->
    exists props, (forall key, In key (dkeys props) <-> names_property T b key) /\
    (w' = w /\ e = ExType /\
      ((exists key d nn, dget (b_dict b) key = Some (MProp d) /\ pd_kind d = KRenamed nn /\ ~ names_property T b nn) \/
       (exists key o ns nm, dget (b_dict b) key = Some (MObs o) /\ od_names o = Some ns /\ In nm ns /\
          forall d, dget props nm = Some d -> pd_kind d <> KProp) \/
       c3 T (b_bases b) = None) \/
    exists mro defs pre kx post vs w1, c3 T (b_bases b) = Some mro /\ defaults_are T b mro defs /\ defs = pre ++ kx :: post /\
      each (default_accepted E (to_ctab T reg) U n props) pre w vs w1 /\
      default_fails E (to_ctab T reg) U n props kx w1 e w').
  Proof.
    intros HB HP (HN & _ & _ & Hd) H. exists (body_props T b).
    split; [intros key; symmetry; now apply props_iff|]. unfold create in H. fold (body_props T b) in H.
    destruct (b_meta b || existsb (is_meta T) (b_bases b)).
    2:{ destruct (c3 T (b_bases b)); [discriminate|]. injection H as <- <-. left. auto. }
    destruct (renamed_ok _ _) eqn:Er; cbn [negb] in H.
    2:{ injection H as <- <-. left. split; auto. split; auto. left. unfold renamed_ok in Er.
        assert (K : exists kv, In kv (own_props b) /\ match pd_kind (snd kv) with KRenamed nn => dhas (body_props T b) nn | _ => true end = false).
        { revert Er. generalize (own_props b) as L. induction L as [|kv L IH]; simpl; [discriminate|].
          destruct (match pd_kind (snd kv) with KRenamed nn => dhas (body_props T b) nn | _ => true end) eqn:E1.
          - intros K. destruct (IH K) as (x & Hx & E2). exists x. auto.
          - intros _. exists kv. auto. }
        destruct K as ([key d] & Hin & K). simpl in K. destruct (pd_kind d) as [| | |new] eqn:Ek; try discriminate.
        exists key, d, new. split; [|split; [exact Ek|]].
        - apply own_prop; auto. apply dget_nodup_in; auto. now apply own_props_nodup.
        - rewrite props_iff by auto. intros K1. apply dget_none in K1; auto. unfold dhas in K. now destruct (dget _ new). }
    destruct (observed_ok _ _) eqn:Eo; cbn [negb] in H.
    2:{ injection H as <- <-. left. split; auto. split; auto. right. left. unfold observed_ok in Eo.
        assert (Fb : forall {A} (p : A -> bool) L, forallb p L = false -> exists x, In x L /\ p x = false).
        { intros A p. induction L as [|x L IH]; simpl; [discriminate|]. destruct (p x) eqn:Ex; simpl.
          - intros K. destruct (IH K) as (y & Hy & E2). exists y. auto.
          - intros _. exists x. auto. }
        apply Fb in Eo as ([key o] & Hin & K). simpl in K. destruct (od_names o) as [ns|] eqn:En; [|discriminate].
        apply Fb in K as (nm & Hnm & K). exists key, o, ns, nm. split; [|split; [exact En|split; [exact Hnm|]]].
        - apply own_ob; auto. apply dget_nodup_in; auto. now apply own_obs_nodup.
        - intros d Ed. rewrite Ed in K. destruct (pd_kind d); congruence. }
    destruct (c3 T (b_bases b)) as [mro|] eqn:E3; [|injection H as <- <-; left; auto].
    right. unfold bind in H. destruct (iterM _ _ w) as [[[]|e1] w1] eqn:Ei; [discriminate|]. injection H as <- <-.
    eapply iterM_exc in Ei; [|intros; eapply check_default_ok; eauto|intros; eapply check_default_exc; eauto].
    destruct Ei as (pre & x & post & bs & w2 & H1 & H2 & H3).
    exists mro, (merged_defaults T (b_defaults b) mro), pre, x, post, bs, w2. split; auto. split; [now apply merged_are|]. auto.
  Qed.
End Check.

(** ** Listeners of a new instance *)
Section Born.
  Variable E : env.
  Variable C : ctable.
  Variable U : ucode.
  Hypothesis HC : wf_ctab C.
  Notation ex := (exec E C U).

  Definition wants (c : cls) (od : obsdecl) (name : string) : Prop :=
    match od_names od with Some ns => In name ns | None => In name (dkeys (c_props c)) end.
  Definition hears (c : cls) (w : world) (l : loc) (od : obsdecl) : Prop :=
    exists i, nth_error (w_heap w) l = Some i /\ forall name, wants c od name -> In (Lst name (od_mode od) (od_func od)) (i_lst i).
  Lemma hears_grow c w w' l od : irel lst_rel w w' -> hears c w l od -> hears c w' l od.
  Proof.
    intros HR (i & Hi & H). destruct (HR l i Hi) as (i' & Hi' & x & Hx). exists i'. split; auto. intros name Hn. rewrite Hx.
    apply in_or_app. left. auto.
  Qed.
  Lemma lst_upd l f w : (forall i, i_lst (f i) = i_lst i) -> irel lst_rel w (w_upd l f w).
  Proof.
    intros H. apply irel_upd; [apply lst_rel_refl|]. intros i _. exists []. rewrite H. now rewrite app_nil_r.
  Qed.
  Lemma observers_hear cid c w l : nth_error (ct_cls C) cid = Some c -> forall obs wa wb, born cid w l wa ->
    iterM (fun d => has_observe C l d ;; ret tt) obs wa = (Ok tt, wb) ->
    irel lst_rel wa wb /\ forall od, In od obs -> hears c wb l od.
  Proof.
    intros Hc. induction obs as [|d obs IH]; intros wa wb Hb H; simpl in H.
    - injection H as <-. split; [apply irel_heap; [apply lst_rel_refl|reflexivity]|]. intros od [].
    - apply bind_ok in H as ([] & w1 & H1 & H2). apply bind_ok in H1 as (u & w2 & H1 & H3). injection H3 as <-.
      unfold has_observe in H1. rewrite (bind_eq _ _ _ _ _ (inst_class_at _ _ _ _ (born_class _ _ _ _ _ _ Hc Hb))) in H1.
      set (f := fun i => i_setlst (i_lst i ++ map (fun n => Lst n (od_mode d) (od_func d))
                 (match od_names d with Some ns => ns | None => dkeys (c_props c) end)) i) in *.
      assert (E2 : w2 = w_upd l f wa) by (injection H1 as <- <-; reflexivity). subst w2.
      assert (R1 : irel lst_rel wa (w_upd l f wa)).
      { apply irel_upd; [apply lst_rel_refl|]. intros i _. eexists. reflexivity. }
      assert (Hb' : born cid w l (w_upd l f wa)).
      { destruct Hb as (-> & ls & ->). split; [reflexivity|]. unfold w_upd. cbn [w_heap]. rewrite nth_app_last, set_nth_app.
        eexists. reflexivity. }
      destruct (IH _ _ Hb' H2) as [R2 K]. split; [eapply irel_trans; eauto using lst_rel_trans|].
      intros od [<-|Hin]; [|auto]. eapply hears_grow; [exact R2|].
      destruct Hb as (-> & ls & ->). unfold w_upd. cbn [w_heap]. rewrite nth_app_last, set_nth_app.
      eexists. split; [cbn [w_heap w_setheap]; apply nth_app_last|]. intros name Hn. unfold f. cbn [i_lst i_setlst]. apply in_or_app. right.
      apply in_map_iff. exists name. split; auto. unfold wants in Hn. destruct (od_names d); exact Hn.
  Qed.
  Lemma gettables_lst n c l : forall ps w w', iterM (init_gettable E C U (ex n) c l) ps w = (Ok tt, w') -> irel lst_rel w w'.
  Proof.
    induction ps as [|nd ps IH]; simpl; intros w w' H.
    - injection H as <-. apply irel_heap; [apply lst_rel_refl|reflexivity].
    - apply bind_ok in H as ([] & w1 & H1 & H2). eapply irel_trans; [apply lst_rel_trans| |apply (IH _ _ H2)]. clear IH H2 w'.
      apply init_gettable_ok in H1 as [o H1]. destruct nd as [name d]. unfold gets_initial in H1.
      assert (S : o = None /\ w1 = w -> irel lst_rel w w1) by (intros [_ ->]; apply irel_heap; [apply lst_rel_refl|reflexivity]).
      assert (G : forall x p, (exists v wa v0 wb, evaluates E C U n x w v wa /\
          p_validate E C (ex n) p (Some l) name v wa = (Ok v0, wb) /\
          o = Some v0 /\ w1 = w_upd l (fun i => i_setback (dset (i_back i) name v0) i) wb) -> irel lst_rel w w1).
      { intros x p (v & wa & v0 & wb & K1 & K2 & _ & ->).
        eapply irel_trans; [apply lst_rel_trans| |apply lst_upd; reflexivity].
        eapply irel_trans; [apply lst_rel_trans| |].
        - apply eval_default_ok in K1.
          destruct (good_eval_default E C U _ _ (frame_lst E C U) _ (frame_exec E C U _ _ (frame_lst E C U) HC n) 0 w x w) as ((_ & R) & _).
          + split; [apply ext_refl|apply irel_heap; [apply lst_rel_refl|reflexivity]].
          + lia.
          + rewrite K1 in R. exact R.
        - destruct (validate_piece E C U HC n p (Some l) name v 0 wa) as [new P]; [lia|]. rewrite K2 in P. apply (pc_lst _ _ _ _ P). }
      destruct (pd_kind d) as [|g st dl| |k]; auto; destruct (chosen_default c name d) as [|v|cb]; auto;
        try (destruct v; auto); eapply G; eauto.
  Qed.
  Lemma new_hears n cid c kw w r w' : nth_error (ct_cls C) cid = Some c ->
    ex (S n) (COp (ONew cid kw)) w = (Ok r, w') ->
    r = VInst (length (w_heap w)) /\ forall od, In od (c_obs c) -> hears c w' (length (w_heap w)) od.
  Proof.
    intros Hc H. rewrite (new_split _ _ _ _ _ _ _ _ Hc) in H. set (l := length (w_heap w)) in *.
    destruct (prelude E C U n c l (blank cid w)) as [[[]|e] wk] eqn:Ep; [|discriminate].
    destruct kw as [kw|]; [|discriminate]. apply bind_ok in H as ([] & w2 & H1 & H2). injection H2 as <- <-. split; auto.
    intros od Hod. unfold prelude in Ep.
    assert (B0 : born cid w l (blank cid w)) by (split; [reflexivity|]; exists []; reflexivity).
    apply bind_ok in Ep as ([] & wa & K1 & Ep). apply bind_ok in Ep as ([] & wb & K2 & Ep).
    apply bind_ok in Ep as (u & w3 & K3 & Ep). injection Ep as <-.
    destruct (observers_hear _ _ _ _ Hc _ _ _ B0 K1) as [_ Ha].
    pose proof (gettables_lst _ _ _ _ _ _ K2) as Rb.
    apply disabled_none in K3 as (wc & K3 & ->).
    assert (Rc : irel lst_rel (w_setquar all_modes wb) wc).
    { destruct (good_reset E C U _ _ (frame_lst E C U) _ (frame_exec E C U _ _ (frame_lst E C U) HC n) HC 0 (w_setquar all_modes wb) l None (w_setquar all_modes wb)) as ((_ & R) & _).
      - split; [apply ext_refl|apply irel_heap; [apply lst_rel_refl|reflexivity]].
      - lia.
      - rewrite K3 in R. exact R. }
    rewrite init_split in H1. destruct (kwloop E C U n c l kw _) as [r1 w4] eqn:Ek. injection H1 as -> <-.
    pose proof (kwloop_frame E C U HC _ _ n c l kw (w_upd l (i_setv (Some true)) (w_setquar (w_quar wb) wc)) (frame_lst E C U)) as Rd0.
    destruct Rd0 as [_ Rd]. { intros. split; [apply ext_emit|apply irel_heap; [apply lst_rel_refl|reflexivity]]. }
    rewrite Ek in Rd. simpl in Rd.
    eapply hears_grow; [apply lst_upd; reflexivity|].
    eapply hears_grow; [exact Rd|]. eapply hears_grow; [apply lst_upd; reflexivity|].
    assert (Hc3 : hears c wc l od).
    { eapply hears_grow; [exact Rc|]. assert (Hb3 : hears c wb l od) by (eapply hears_grow; [exact Rb|auto]). exact Hb3. }
    exact Hc3.
  Qed.
  Lemma new_registers n cid c kw w r w' : nth_error (ct_cls C) cid = Some c ->
    ex (S n) (COp (ONew cid kw)) w = (Ok r, w') ->
    r = VInst (length (w_heap w)) /\ forall od name, In od (c_obs c) -> wants c od name ->
      In (od_func od) (registered w' (length (w_heap w)) name (od_mode od)).
  Proof.
    intros Hc H. destruct (new_hears _ _ _ _ _ _ _ Hc H) as [-> K]. split; auto. intros od name Ho Hw.
    destruct (K od Ho) as (i & Hi & Hl). unfold registered. rewrite Hi. apply in_map_iff.
    exists (Lst name (od_mode od) (od_func od)). split; auto. apply filter_In. split; [auto|]. simpl. rewrite String.eqb_refl.
    now destruct (od_mode od).
  Qed.
End Born.

Section Called.
  Variable E : env.
  Variable C : ctable.
  Variable U : ucode.
  Hypothesis HC : wf_ctab C.

  Lemma calls_in lb sid l name m prev v fs v' evs f : calls lb sid l name m prev v fs v' evs -> In f fs ->
    exists x, In (ECall sid l name m f prev x) evs.
  Proof.
    induction 1 as [|v f0 v1 fs v' evs H1 H2 IH]; simpl; [tauto|]. intros [->|Hf]; [eauto|]. destruct (IH Hf) as [x Hx]. eauto.
  Qed.
  Lemma declared_called n cid c kw w r wn m p r2 w2 n3 name d v r3 w3 od :
    nth_error (ct_cls C) cid = Some c -> let l := length (w_heap w) in
    exec E C U (S n) (COp (ONew cid kw)) w = (Ok r, wn) -> run_prog E C U m p wn = (r2, w2) ->
    In od (c_obs c) -> wants c od name ->
    declares C w2 l name d -> pd_kind d = KProp -> is_undef v = false -> ~ In (od_mode od) (w_quar w2) ->
    exec E C U (S n3) (COp (OSet l name v)) w2 = (Ok r3, w3) ->
    exists v0 w1 new sid v1 changed fv fc fs,
      p_validate E C (exec E C U n3) (pd_type d) (Some l) name v w2 = (Ok v0, w1) /\
      assignment (fun m prev => left_by E C U l name m prev) (own_equal E C U (pd_type d)) l name v0 w1 w3 new
        sid v1 changed fv fc fs /\
      (changed = true \/ od_mode od <> MChange -> exists prev x, In (ECall sid l name (od_mode od) (od_func od) prev x) new).
  Proof.
    intros Hc l HN HR Ho Hw Hd Hk Hu Hq HS.
    destruct (new_registers E C U HC _ _ _ _ _ _ _ Hc HN) as [_ Hreg]. specialize (Hreg od name Ho Hw). fold l in Hreg.
    destruct (set_decompose E C U HC n3 l name d v w2 r3 w3 Hd Hk Hu HS) as (v0 & w1 & new0 & new & v1 & ch & fv & fc & fs & Hv & P0 & _ & A).
    exists v0, w1, new, (w_clock w1), v1, ch, fv, fc, fs. split; auto. split; auto. intros Hch.
    assert (Hl : nth_error (w_heap wn) l <> None).
    { unfold registered in Hreg. destruct (nth_error (w_heap wn) l); [discriminate|destruct Hreg]. }
    assert (R1 : irel lst_rel wn w2).
    { destruct (frame_run E C U _ _ (frame_lst E C U) HC m p 0 wn) as [_ K]; [lia|]. unfold run_prog in HR. rewrite HR in K. exact K. }
    assert (Hreg1 : In (od_func od) (registered w1 l name (od_mode od))).
    { assert (R2 : irel lst_rel wn w1) by (eapply irel_trans; [apply lst_rel_trans|exact R1|apply (pc_lst _ _ _ _ P0)]).
      destruct (lst_grow wn w1 l name (od_mode od) R2 Hl) as [x ->]. apply in_or_app. auto. }
    assert (Q : w_quar w1 = w_quar w2) by apply (ext_quar _ _ (pc_grows _ _ _ _ P0)).
    destruct A as [A1 A2 A3 A4 A5 A6]. cbv zeta in A2. destruct A2 as (ev & ec & es & v2 & v3 & O & Cv & Cc & Cs).
    assert (Hsub : forall e, In e (ev ++ [EWrite (w_clock w1) l name v1] ++ ec ++ es) -> In e new).
    { intros e He. rewrite <- O in He. unfold of_sid in He. apply filter_In in He as [He _]. now apply in_rev. }
    assert (Hcase : forall mm gs, notified w1 w3 l name mm gs -> od_mode od = mm -> In (od_func od) gs).
    { intros mm gs [_ G] <-. rewrite Q in G. destruct (G Hq) as [[x ->] _]. apply in_or_app. auto. }
    destruct (od_mode od) eqn:Em.
    - destruct (calls_in _ _ _ _ _ _ _ _ _ _ _ Cv (Hcase _ _ A4 eq_refl)) as [x Hx]. exists (unset_or (stored w1 l name)), x. apply Hsub. rewrite !in_app_iff. tauto.
    - destruct (calls_in _ _ _ _ _ _ _ _ _ _ _ Cs (Hcase _ _ A6 eq_refl)) as [x Hx]. exists (unset_or (stored w1 l name)), x. apply Hsub. rewrite !in_app_iff. tauto.
    - destruct ch; [|destruct Hch; congruence].
      destruct (calls_in _ _ _ _ _ _ _ _ _ _ _ Cc (Hcase _ _ A5 eq_refl)) as [x Hx]. exists (unset_or (stored w1 l name)), x. apply Hsub. rewrite !in_app_iff. tauto.
  Qed.
End Called.

Lemma to_cls_at T reg cid c : class_at T cid c -> nth_error (ct_cls (to_ctab T reg)) cid = Some (to_cls c).
Proof. intros H. simpl. unfold class_at in H. now rewrite nth_error_map, H. Qed.
Lemma table_called E U reg T n cid c kw w r wn m p r2 w2 n3 name d v r3 w3 key o :
  built E U reg T -> class_at T cid c -> let l := length (w_heap w) in let C := to_ctab T reg in
  exec E C U (S n) (COp (ONew cid kw)) w = (Ok r, wn) -> run_prog E C U m p wn = (r2, w2) ->
  In (key, o) (m_obs c) -> observes c o name ->
  declares C w2 l name d -> pd_kind d = KProp -> is_undef v = false -> ~ In (od_mode o) (w_quar w2) ->
  exec E C U (S n3) (COp (OSet l name v)) w2 = (Ok r3, w3) ->
  exists v0 w1 new sid v1 changed fv fc fs,
    p_validate E C (exec E C U n3) (pd_type d) (Some l) name v w2 = (Ok v0, w1) /\
    assignment (fun m prev => left_by E C U l name m prev) (own_equal E C U (pd_type d)) l name v0 w1 w3 new
      sid v1 changed fv fc fs /\
    (changed = true \/ od_mode o <> MChange -> exists prev x, In (ECall sid l name (od_mode o) (od_func o) prev x) new).
Proof.
  intros HB Hc l C HN HR Ho Hw Hd Hk Hu Hq HS.
  eapply (declared_called E C U (proj1 (table_wf E U reg T HB)) n cid (to_cls c)); eauto.
  - now apply to_cls_at.
  - simpl. apply in_map_iff. exists (key, o). auto.
Qed.

Lemma instance_default E U reg T id c key d : built E U reg T -> plain_mixins T -> single_inheritance T ->
  class_at T id c -> m_meta c = true -> dget (m_props c) key = Some d ->
  exists rc, nth_error (ct_cls (to_ctab T reg)) id = Some rc /\ dget (c_props rc) key = Some d /\
    chosen_default rc key d = match body_default T (m_mro c) key with Some x => x | None => pd_default d end.
Proof.
  intros HB HP HS Hc Hm Hd. exists (to_cls c). split; [now apply to_cls_at|]. split; [exact Hd|].
  assert (exists defs, m_def c = Some defs) as [defs Hdef].
  { pose proof (md_attr _ _ _ (built_made E U reg T HB id c Hc)) as H. rewrite Hm in H. destruct H as (_ & _ & _ & H & _). eauto. }
  unfold chosen_default, to_cls. cbn [c_defaults]. rewrite Hdef.
  now rewrite (defaults_single E U reg T HB HP HS id c defs key Hc Hm Hdef).
Qed.
