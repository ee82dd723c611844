(** Facts about deserializing into an existing instance. *)
From Verif Require Import World WorldFrame WorldSpec WorldInv WorldSet WorldFacts AccessSpec AccessFacts DeserSpec DeserFacts DeserInto IntoSpec.
From Coq Require Import Lia.
Local Open Scope string_scope.
Local Open Scope list_scope.
Local Open Scope nat_scope.

Lemma setback_again b b' i : i_setback b (i_setback b' i) = i_setback b i.
Proof. now destruct i. Qed.
Lemma setback_same i : i_setback (i_back i) i = i.
Proof. now destruct i. Qed.
Lemma ov_refl l w : only_values l w w.
Proof.
  split; [apply unheard_refl|]. repeat split; auto. intros i Hi. exists (i_back i). now rewrite setback_same.
Qed.
Lemma ov_trans l a b c : only_values l a b -> only_values l b c -> only_values l a c.
Proof.
  intros (A1 & A2 & A3 & A4 & A5) (B1 & B2 & B3 & B4 & B5). split; [eapply unheard_trans; eauto|]. split; [congruence|]. split; [congruence|].
  split; [intros l' H; now rewrite B4, A4|]. intros i Hi. destruct (A5 _ Hi) as [x Hx]. destruct (B5 _ Hx) as [y Hy]. exists y. now rewrite Hy, setback_again.
Qed.
Lemma ov_quiet {A} l (m : M A) w : quietM m -> only_values l w (snd (m w)).
Proof.
  intros H. pose proof (hu_quiet m H w) as Hu. destruct (H w) as [Hh _ Hl _ _]. split; [exact Hu|]. split; [exact Hl|]. rewrite Hh. split; [reflexivity|].
  split; [reflexivity|]. intros i Hi. exists (i_back i). now rewrite setback_same.
Qed.
Lemma ov_class C l w w' c : only_values l w w' -> has_class C w l c -> has_class C w' l c.
Proof. intros (_ & _ & _ & _ & H) (i & Hi & Hc). destruct (H _ Hi) as [b Hb]. exists (i_setback b i). split; [exact Hb|]. now destruct i. Qed.
Lemma ov_upd l f w : (forall i, exists b, f i = i_setback b i) -> only_values l w (w_upd l f w).
Proof.
  intros H. split; [apply unheard_same; [apply w_upd_quar|apply w_upd_trace]|]. split; [apply w_upd_links|]. split; [apply w_upd_len|].
  split; [intros; apply w_upd_nth_other; auto|]. intros i Hi. rewrite w_upd_nth_same, Hi. destruct (H i) as [b Hb]. exists b. cbn [option_map]. now rewrite Hb.
Qed.
Lemma ov_quar l w w' : only_values l w w' -> w_quar w' = w_quar w.
Proof. intros ((H & _) & _). exact H. Qed.
(** Only property [k] of [l] may differ. *)
Definition but (l : loc) (k : string) (x : option val) (w w' : world) : Prop :=
  forall n, stored w' l n = if String.eqb k n then x else stored w l n.
Definition keeps (l : loc) (w w' : world) : Prop := forall n, stored w' l n = stored w l n.

Section Into.
  Variables (E : env) (C : ctable) (U : ucode).
  Notation ex := (exec E C U).

  Lemma q_outcome {A} (m : M A) : quietM m -> quietM (outcome m).
  Proof. intros H w. unfold outcome. specialize (H w). destruct (m w). exact H. Qed.
  Lemma q_deserialize rec p : inst_free p -> forall o v, quietM (p_deserialize E C rec o p v).
  Proof.
    induction p as [t|k q mn mx co IH|kp vp co IHk IHv|si ps IH|cid] using ptype_ind'; intros Hp o v; cbn [p_deserialize];
      (destruct (is_none v); [apply q_ret|]); cbn [inst_free] in Hp.
    - apply q_lift.
    - apply q_bind; [apply q_lift|]. intros items. apply q_bind; [|intros; apply q_lift]. apply q_mapM. intros; now apply IH.
    - destruct v; try apply q_throw. destruct Hp. apply q_bind; [|intros; apply q_bind; [apply q_lift|intros; apply q_ret]].
      apply q_mapM. intros kx. apply q_bind; [now apply IHk|]. intros. apply q_bind; [now apply IHv|]. intros. apply q_ret.
    - set (o1 := DOpt _ _ _). clearbody o1.
      match goal with |- quietM (match ?m with Some _ => _ | None => ?f end) => assert (Hall : quietM f) end.
      { revert Hp. induction IH as [|q ps Hq Hps IHps]; intros Hp; [apply q_ret|]. destruct Hp as [H1 H2].
        apply q_bind.
        - apply q_outcome. apply q_bind; [now apply Hq|]. intros out. apply q_bind; [now apply validate_free|]. intros; apply q_ret.
        - intros [out|e]; [apply q_ret|]. destruct (is_generic e); [exact (IHps H2)|apply q_throw]. }
      destruct (match v with VDict d => _ | _ => None end) as [cn|]; [|exact Hall].
      match type of Hall with quietM ?f => set (all0 := f) in *; clearbody all0 end.
      clear IH. revert Hp Hall. generalize all0. induction ps as [|q ps IHps]; intros all1 Hp Hall; [exact Hall|]. destruct Hp as [H1 H2].
      destruct q; try exact (IHps all1 H2 Hall). destruct H1.
    - destruct Hp.
  Qed.
  Lemma q_decl rec d o v : ordinary d -> quietM (decl_deserialize E C rec o d v).
  Proof. intros [Hf _]. unfold decl_deserialize. destruct (pd_kind d); try apply q_ret; now apply q_deserialize. Qed.

  (** one assignment while listeners are disabled *)
  Lemma set_off n l ci name d v w r w' : has_class C w l ci -> dget (c_props ci) name = Some d -> pd_kind d = KProp -> inst_free (pd_type d) ->
    w_quar w = all_modes -> has_setattr E C U (ex n) l name v w = (r, w') ->
    only_values l w w' /\
    ((exists e, r = Exc e) /\ keeps l w w' \/
     exists v0, (v = VUndef /\ v0 = VUndef \/ v <> VUndef /\ exists wa wb, p_validate E C (ex n) (pd_type d) (Some l) name v wa = (Ok v0, wb)) /\
       but l name (when_set v0) w w').
  Proof.
    intros Hc Hd Hk Hf Hq. unfold has_setattr. destruct Hc as (i & Hi & Hci).
    unfold bind at 1, inst_class. unfold bind at 1, get_inst. rewrite Hi. unfold class_of, lift. rewrite Hci, Hd, Hk.
    unfold prop_fset.
    assert (V : exists rv w1, (if is_undef v then ret v else p_validate E C (ex n) (pd_type d) (Some l) name v) w = (rv, w1) /\ only_values l w w1 /\ keeps l w w1 /\
      forall v0, rv = Ok v0 -> v = VUndef /\ v0 = VUndef \/ v <> VUndef /\ exists wa wb, p_validate E C (ex n) (pd_type d) (Some l) name v wa = (Ok v0, wb)).
    { destruct (is_undef v) eqn:Eu.
      - exists (Ok v), w. split; [reflexivity|]. split; [apply ov_refl|]. split; [intros ?; reflexivity|]. destruct v; try discriminate. intros v0 [= <-]. auto.
      - destruct (p_validate E C (ex n) (pd_type d) (Some l) name v w) as [rv w1] eqn:Ev. exists rv, w1. split; [reflexivity|].
        pose proof (ov_quiet l _ w (validate_free E C (ex n) _ Hf (Some l) name v)) as Q1.
        pose proof (validate_free E C (ex n) _ Hf (Some l) name v w) as Q2. rewrite Ev in Q1, Q2. cbn [snd] in Q1, Q2. split; [exact Q1|].
        split; [intros k; unfold stored; now rewrite (ho_heap _ _ Q2)|]. intros v0 ->. right. split; [intros ->; discriminate|eauto]. }
    destruct V as (rv & w1 & Ev & Q1 & K1 & HV). unfold bind at 1. rewrite Ev.
    destruct rv as [v0|e]; [|intros [= <- <-]; split; [exact Q1|]; left; eauto].
    specialize (HV v0 eq_refl). unfold has_set. unfold bind at 1, tick.
    set (w2 := w_tick w1).
    assert (Q2 : only_values l w w2). { eapply ov_trans; [exact Q1|]. split; [now apply unheard_same|]. repeat split; auto. intros j Hj. exists (i_back j). now rewrite setback_same. }
    assert (K2 : keeps l w w2) by exact K1.
    destruct Q2 as (U2 & L2 & N2 & O2 & H2). destruct (H2 _ Hi) as [b2 Hi2].
    unfold bind at 1, get_inst. rewrite Hi2. set (prev := match dget (i_back (i_setback b2 i)) name with Some x => x | None => VUndef end).
    assert (Hq2 : w_quar w2 = all_modes) by (rewrite <- Hq; apply U2).
    assert (Off : forall sid p x m wz, w_quar wz = all_modes -> notify (ex n) sid l name p x m wz = (Ok x, wz)).
    { intros sid p x m wz Hz. unfold notify, bind, get_w. rewrite Hz. now destruct m. }
    unfold bind at 1. rewrite (Off _ _ _ _ _ Hq2).
    unfold bind at 1, upd, mod_w. unfold bind at 1.
    set (f := fun i0 => i_setback (if is_undef v0 then ddel (i_back i0) name else dset (i_back i0) name v0) i0).
    set (w3 := w_emit _ (w_upd l f w2)).
    assert (Q3 : only_values l w2 w3).
    { eapply ov_trans; [apply (ov_upd l f); intros j; unfold f; eauto|]. split.
      - split; [reflexivity|]. eexists [_]. split; [reflexivity|]. constructor; [cbn; tauto|constructor].
      - repeat split; auto. intros j Hj. exists (i_back j). now rewrite setback_same. }
    assert (B3 : but l name (when_set v0) w w3).
    { intros k. unfold stored at 1. change (w_heap w3) with (w_heap (w_upd l f w2)). rewrite w_upd_nth_same, Hi2. cbn [option_map]. unfold f, when_set.
      change (i_back (i_setback ?b ?j)) with b.
      destruct (String.eqb_spec name k) as [->|Hne].
      - destruct (is_undef v0); [apply dget_ddel_same|apply dget_dset_same].
      - rewrite <- K2. unfold stored. rewrite Hi2. change (i_back (i_setback b2 i)) with b2.
        destruct (is_undef v0); [apply dget_ddel_other|apply dget_dset_other]; auto. }
    assert (Q : only_values l w w3). { eapply ov_trans; [|exact Q3]. split; [exact U2|]. split; [exact L2|]. split; [exact N2|]. split; [exact O2|exact H2]. }
    assert (Hq3 : w_quar w3 = all_modes) by (rewrite <- Hq2; exact (ov_quar _ _ _ Q3)).
    clearbody w3 prev. intros H.
    assert (w' = w3); [|subst w'; split; [exact Q|]; right; exists v0; split; [exact HV|exact B3]].
    assert (Ec : exists rc, (if is_undef prev && is_undef v0 then ret false else if is_undef prev || is_undef v0 then ret true
       else let* b := p_equal (ex n) (pd_type d) prev v0 in ret (negb b)) w3 = (rc, w3)).
    { destruct (_ && _); [eexists; reflexivity|]. destruct (_ || _); [eexists; reflexivity|].
      destruct (equal_free _ Hf prev v0) as [rr Hrr]. unfold bind. rewrite Hrr. destruct rr; eexists; reflexivity. }
    destruct Ec as [rc Ec]. unfold bind at 1 in H. rewrite Ec in H. destruct rc as [ch|e]; [|now injection H].
    unfold bind at 1 in H. rewrite (match ch as c return (if c then notify (ex n) _ l name prev v0 MChange else ret v0) w3 = (Ok v0, w3) with true => Off _ _ _ _ _ Hq3 | false => eq_refl end) in H.
    unfold bind in H. rewrite (Off _ _ _ _ _ Hq3) in H. now injection H.
  Qed.

  (** one value stored directly *)
  Lemma store_direct n (l : loc) c name d v w r w' : nth_error (w_heap w) l <> None -> dget (c_props c) name = Some d -> ordinary d ->
    into_immutable E C (ex n) c l (name, v) w = (r, w') ->
    only_values l w w' /\
    ((exists e, r = Exc e) /\ keeps l w w' \/
     exists v0, (exists wa wb, p_validate E C (ex n) (pd_type d) (Some l) name v wa = (Ok v0, wb)) /\ but l name (Some v0) w w').
  Proof.
    intros Hl Hd [Hf Hk]. unfold into_immutable. cbn [fst snd]. rewrite Hd.
    assert (decl_type d = pd_type d) as ->. { unfold decl_type. destruct (pd_kind d); try reflexivity. exfalso. eapply Hk. reflexivity. }
    unfold bind, upd, mod_w. destruct (p_validate E C (ex n) (pd_type d) (Some l) name v w) as [rv w1] eqn:Ev.
    pose proof (ov_quiet l _ w (validate_free E C (ex n) _ Hf (Some l) name v)) as Q1.
    pose proof (validate_free E C (ex n) _ Hf (Some l) name v w) as Q2. rewrite Ev in Q1, Q2. cbn [snd] in Q1, Q2.
    destruct rv as [v0|e]; cbv beta iota; intros H; injection H as <- <-.
    - split; [eapply ov_trans; [exact Q1|apply ov_upd; eauto]|]. right. exists v0. split; [eauto|]. intros k. unfold stored at 1. rewrite w_upd_nth_same.
      unfold stored. rewrite (ho_heap _ _ Q2). destruct (nth_error (w_heap w) l) as [i|]; [|congruence]. cbn [option_map]. change (i_back (i_setback ?b ?j)) with b.
      destruct (String.eqb_spec name k) as [->|Hne]; [apply dget_dset_same|now apply dget_dset_other].
    - split; [exact Q1|]. left. split; [eauto|]. intros k. unfold stored. now rewrite (ho_heap _ _ Q2).
  Qed.

  Lemma steps (f : string * val -> M unit) (l : loc) (inv : world -> Prop) (P : string * val -> option val -> Prop) kvs : NoDup (map fst kvs) ->
    (forall kv w r w', In kv kvs -> inv w -> f kv w = (r, w') -> only_values l w w' /\ inv w' /\
       ((exists e, r = Exc e) /\ keeps l w w' \/ exists x, P kv x /\ but l (fst kv) x w w')) ->
    forall w r w', inv w -> iterM f kvs w = (r, w') -> only_values l w w' /\ inv w' /\
      exists done, incl done kvs /\ (r = Ok tt -> incl kvs done) /\
        (forall kv, In kv done -> exists x, P kv x /\ stored w' l (fst kv) = x) /\
        (forall n, ~ In n (map fst done) -> stored w' l n = stored w l n).
  Proof.
    induction kvs as [|kv kvs IH]; intros Hn Hf w r w' Hi H; cbn [iterM] in H.
    - injection H as <- <-. split; [apply ov_refl|]. split; [exact Hi|]. exists []. split; [intros ? []|]. split; [intros _ ? []|]. split; [intros ? []|reflexivity].
    - inversion Hn as [|a b Hn1 Hn2]; subst. unfold bind in H. destruct (f kv w) as [r1 w1] eqn:E1.
      destruct (Hf kv w r1 w1 (or_introl eq_refl) Hi E1) as (Q1 & I1 & S1).
      destruct r1 as [[]|e].
      + assert (Hf' : forall kv0 w r w', In kv0 kvs -> inv w -> f kv0 w = (r, w') -> only_values l w w' /\ inv w' /\
          ((exists e, r = Exc e) /\ keeps l w w' \/ exists x, P kv0 x /\ but l (fst kv0) x w w')) by (intros; eapply Hf; eauto; now right).
        destruct (IH Hn2 Hf' w1 r w' I1 H) as (Q2 & I2 & done & D1 & D2 & D3 & D4). split; [eapply ov_trans; eauto|]. split; [exact I2|].
        destruct S1 as [[[e Ke] _]|(x & Px & Bx)]; [discriminate|].
        assert (Hnd : ~ In (fst kv) (map fst done)). { intros K. apply Hn1. apply in_map_iff in K as (y & Ky & Iy). rewrite <- Ky. apply in_map. now apply D1. }
        exists (kv :: done). split; [intros y [<-|Hy]; [now left|right; now apply D1]|]. split; [intros Hr y [<-|Hy]; [now left|right; now apply D2]|]. split.
        * intros y [<-|Hy]; [|now apply D3]. exists x. split; [exact Px|]. rewrite (D4 _ Hnd), (Bx (fst kv)). now rewrite String.eqb_refl.
        * intros m Hm. cbn [map] in Hm. rewrite D4 by (intros K; apply Hm; now right). rewrite (Bx m).
          destruct (String.eqb_spec (fst kv) m); [exfalso; apply Hm; now left|reflexivity].
      + injection H as <- <-. split; [exact Q1|]. split; [exact I1|]. destruct S1 as [[_ K]|(x & Px & Bx)].
        * exists []. split; [intros ? []|]. split; [discriminate|]. split; [intros ? []|]. intros m _. apply K.
        * exists [kv]. split; [intros y [<-|[]]; now left|]. split; [discriminate|]. split.
          -- intros y [<-|[]]. exists x. split; [exact Px|]. rewrite (Bx (fst kv)). now rewrite String.eqb_refl.
          -- intros m Hm. rewrite (Bx m). destruct (String.eqb_spec (fst kv) m); [exfalso; apply Hm; now left|reflexivity].
  Qed.

  Lemma known_in c d k j : In (k, j) (known_props c d) <-> In (VStr k, j) d /\ dhas (c_props c) k = true.
  Proof.
    induction d as [|[a b] d IH]; cbn [known_props]; [simpl; tauto|].
    assert (T : forall t, t <> VStr k -> (In (VStr k, j) ((t, b) :: d) <-> In (VStr k, j) d)).
    { intros t Ht. simpl. split; [intros [H|H]; [congruence|exact H]|auto]. }
    destruct a; try (rewrite T by discriminate; exact IH).
    destruct (dhas (c_props c) s) eqn:Eh.
    - cbn [In]. rewrite IH. split; [intros [[= -> ->]|[H1 H2]]; auto|intros [[[= -> ->]|H] K]; auto].
    - cbn [In]. rewrite IH. split; [tauto|]. intros [[[= -> ->]|H] K]; [congruence|auto].
  Qed.
  Lemma known_nodup c d : NoDup (map fst d) -> NoDup (map fst (known_props c d)).
  Proof.
    induction d as [|[a b] d IH]; cbn [known_props map fst]; [constructor|]. intros H. inversion H as [|x y H1 H2]; subst. specialize (IH H2).
    destruct a; auto. destruct (dhas (c_props c) s); [|exact IH]. cbn [map fst]. constructor; [|exact IH].
    intros K. apply H1. apply in_map_iff in K as ([k j] & Ek & Hk). cbn in Ek. subst k. apply known_in in Hk as [Hk _].
    apply in_map_iff. exists (VStr s, j). auto.
  Qed.
  Lemma mapM_spec {A B} (f : A -> M B) (R : A -> B -> Prop) l0 xs : (forall x, In x xs -> quietM (f x)) ->
    (forall x w y w', In x xs -> f x w = (Ok y, w') -> R x y) ->
    forall w r w', mapM f xs w = (r, w') -> only_values l0 w w' /\ keeps l0 w w' /\ (forall ys, r = Ok ys -> Forall2 R xs ys).
  Proof.
    intros Hq HR w r w' H.
    assert (Q : quietM (mapM f xs)).
    { clear - Hq. induction xs as [|x xs IH]; cbn [mapM]; [apply q_ret|]. apply q_bind; [apply Hq; now left|]. intros y. apply q_bind; [apply IH; intros; apply Hq; now right|]. intros; apply q_ret. }
    pose proof (ov_quiet l0 _ w Q) as Q1. pose proof (Q w) as Q2. rewrite H in Q1, Q2. cbn [snd] in *. split; [exact Q1|].
    split; [intros k; unfold stored; now rewrite (ho_heap _ _ Q2)|]. clear Q Q1 Q2 Hq. revert w r w' H. induction xs as [|x xs IH]; intros w r w' H ys ->; cbn [mapM] in H.
    - injection H as <- <-. constructor.
    - apply bind_ok in H as (y & w1 & H1 & H). apply bind_ok in H as (ys' & w2 & H2 & H). injection H as <- <-.
      constructor; [eapply HR; [now left|exact H1]|]. eapply IH; eauto. intros; eapply HR; eauto. now right.
  Qed.

  Theorem into_stores n cid d o (l : loc) k c ci w r w' : has_class C w l ci ->
    deser_class C cid (vd_get d class_key) o w = (Ok k, w) -> nth_error (ct_cls C) k = Some c ->
    (forall key j, In (VStr key, j) d -> ordinary_key c ci key) -> NoDup (map fst d) -> o_valid o = false ->
    deser_into E C U (ex n) cid (VDict d) o l w = (r, w') ->
    only_values l w w' /\ exists done : list (string * val),
      (forall key j, In (key, j) done -> In (VStr key, j) d /\ exists d0 d1, dget (c_props c) key = Some d0 /\
          (pd_kind d0 = KProp -> dget (c_props ci) key = Some d1) /\ stores E C U n o d0 d1 l key j (stored w' l key)) /\
      (forall v, r = Ok v -> forall key j, In (VStr key, j) d -> dhas (c_props c) key = true -> In (key, j) done) /\
      (forall name, ~ In name (map fst done) -> stored w' l name = stored w l name).
  Proof.
    intros Hc Hk Hcl Ho Hnd Hv H. unfold deser_into in H. unfold bind at 1 in H. rewrite Hk in H.
    unfold bind at 1, class_of, lift in H. rewrite Hcl in H.
    assert (Stop : forall e, (Exc e, w) = (r, w') -> only_values l w w' /\ exists done : list (string * val),
      (forall key j, In (key, j) done -> In (VStr key, j) d /\ exists d0 d1, dget (c_props c) key = Some d0 /\
          (pd_kind d0 = KProp -> dget (c_props ci) key = Some d1) /\ stores E C U n o d0 d1 l key j (stored w' l key)) /\
      (forall v, r = Ok v -> forall key j, In (VStr key, j) d -> dhas (c_props c) key = true -> In (key, j) done) /\
      (forall name, ~ In name (map fst done) -> stored w' l name = stored w l name)).
    { intros e [= <- <-]. split; [apply ov_refl|]. exists []. split; [intros ? ? []|]. split; [discriminate|reflexivity]. }
    unfold bind at 1, isinstance in H. unfold bind at 1, inst_class in H. destruct Hc as (i & Hi & Hci).
    unfold bind at 1, get_inst in H. rewrite Hi in H. unfold class_of, lift in H. rewrite Hci in H. unfold ret at 1 in H.
    destruct (negb _); [exact (Stop _ H)|]. destruct (_ && _); [exact (Stop _ H)|]. clear Stop.
    assert (Hc : has_class C w l ci) by (exists i; auto).
    set (o1 := DOpt (o_trusted o) (o_strict o) false) in *.
    pose (R := fun (kj ky : string * val) => fst ky = fst kj /\ exists d0 wa wb, dget (c_props c) (fst kj) = Some d0 /\
      decl_deserialize E C (ex n) o1 d0 (snd kj) wa = (Ok (snd ky), wb)).
    assert (HO : forall key j d0, In (key, j) (known_props c d) -> dget (c_props c) key = Some d0 -> ordinary d0 /\
      (pd_kind d0 = KProp -> exists d, dget (c_props ci) key = Some d /\ pd_kind d = KProp /\ ordinary d)).
    { intros key j d0 Hin Hd0. apply known_in in Hin as [Hin _]. exact (Ho key j Hin d0 Hd0). }
    unfold bind at 1 in H. destruct (into_state E C (ex n) c o d w) as [rs w1] eqn:Es.
    unfold into_state in Es. fold o1 in Es.
    match type of Es with mapM ?f _ _ = _ => pose proof (mapM_spec f R l (known_props c d)) as MS end. destruct MS with (3 := Es) as (Q1 & K1 & F1).
    { intros [key j] Hin. cbn [fst snd]. destruct (dget (c_props c) key) as [d0|] eqn:Ed; [|apply q_throw].
      destruct (HO key j d0 Hin Ed) as [Od _]. apply q_bind; [now apply q_decl|]. intros; apply q_ret. }
    { intros [key j] wx y wy Hin. cbn [fst snd]. destruct (dget (c_props c) key) as [d0|] eqn:Ed; [|discriminate].
      intros K. apply bind_ok in K as (z & wz & Kz & K). injection K as <- <-. split; [reflexivity|]. exists d0, wx, wz. auto. }
    clear Es. destruct rs as [ns|e].
    2:{ injection H as <- <-. split; [exact Q1|]. exists []. split; [intros ? ? []|]. split; [discriminate|]. intros name _. apply K1. }
    specialize (F1 ns eq_refl).
    assert (Hfst : map fst ns = map fst (known_props c d)). { clear - F1. induction F1 as [|a b xs ys [H _] _ IH]; cbn [map]; congruence. }
    assert (Hns : NoDup (map fst ns)) by (rewrite Hfst; now apply known_nodup).
    assert (Hfil : forall p : string * val -> bool, NoDup (map fst (filter p ns))).
    { intros p. clear - Hns. induction ns as [|a ns IH]; cbn [filter map] in *; [constructor|]. inversion Hns as [|x y N1 N2]; subst.
      destruct (p a); [|now apply IH]. cbn [map]. constructor; [|now apply IH]. intros K. apply N1. apply in_map_iff in K as (z & <- & Hz). apply filter_In in Hz as [Hz _]. now apply in_map. }
    assert (Back : forall ky, In ky ns -> exists j, In (fst ky, j) (known_props c d) /\ R (fst ky, j) ky).
    { clear - F1. induction F1 as [|[key j] b xs ys H _ IH]; intros ky; [intros []|]. intros [<-|Hin].
      - exists j. destruct H as [H1 H2]. cbn in H1. rewrite H1. split; [now left|]. split; auto.
      - destruct (IH _ Hin) as (j' & A & B). exists j'. split; [now right|exact B]. }
    set (q0 := w_quar w1).
    (* what is assigned *)
    set (mut := filter (fun kv => key_mutable c (fst kv)) ns) in *. set (imm := filter (fun kv => negb (key_mutable c (fst kv))) ns) in *.
    pose (P := fun (ky : string * val) (x : option val) => exists d0 d1, dget (c_props c) (fst ky) = Some d0 /\
      (pd_kind d0 = KProp -> dget (c_props ci) (fst ky) = Some d1) /\
      match pd_kind d0 with
      | KProp => snd ky = VUndef /\ x = None \/
          snd ky <> VUndef /\ exists v wc wd, p_validate E C (ex n) (pd_type d1) (Some l) (fst ky) (snd ky) wc = (Ok v, wd) /\ x = when_set v
      | _ => exists v wc wd, p_validate E C (ex n) (pd_type d0) (Some l) (fst ky) (snd ky) wc = (Ok v, wd) /\ x = Some v
      end).
    assert (Hc1 : has_class C w1 l ci) by exact (ov_class _ _ _ _ _ Q1 Hc).
    unfold bind at 1, disabled in H. fold q0 in H. change (quar_enter None q0) with all_modes in H.
    destruct (iterM (into_mutable E C U (ex n) l) mut (w_setquar all_modes w1)) as [rm w2] eqn:Em.
    assert (SM : only_values l (w_setquar all_modes w1) w2 /\ (has_class C w2 l ci /\ w_quar w2 = all_modes) /\
      exists done, incl done mut /\ (rm = Ok tt -> incl mut done) /\
        (forall kv, In kv done -> exists x, P kv x /\ stored w2 l (fst kv) = x) /\
        (forall m, ~ In m (map fst done) -> stored w2 l m = stored (w_setquar all_modes w1) l m)).
    { eapply (steps (into_mutable E C U (ex n) l) l (fun w => has_class C w l ci /\ w_quar w = all_modes) P mut); [apply Hfil| |split; [exact Hc1|reflexivity]|exact Em].
      intros [key y] wx rx wy Hin [Ix1 Ix2] Hx. apply filter_In in Hin as [Hin Hmu]. destruct (Back _ Hin) as (j & Hkn & HR). cbn [fst snd] in *.
      unfold key_mutable in Hmu. destruct (dget (c_props c) key) as [d0|] eqn:Ed; [|discriminate].
      destruct (HO key j d0 Hkn Ed) as [[Of Or] Op]. assert (Kp : pd_kind d0 = KProp). { unfold is_mutable in Hmu. destruct (pd_kind d0) eqn:Kd; try discriminate; [reflexivity|]. exfalso. eapply Or. reflexivity. }
      destruct (Op Kp) as (d1 & Hd1 & Kd1 & [Of1 _]).
      unfold into_mutable in Hx. cbn [fst snd] in Hx. unfold bind in Hx.
      destruct (has_setattr E C U (ex n) l key y wx) as [ry wz] eqn:Ey. assert (wz = wy) as -> by (destruct ry; now injection Hx).
      destruct (set_off n l ci key d1 y wx ry wy Ix1 Hd1 Kd1 Of1 Ix2 Ey) as (Qx & Dx). split; [exact Qx|].
      split; [split; [exact (ov_class _ _ _ _ _ Qx Ix1)|rewrite <- Ix2; exact (ov_quar _ _ _ Qx)]|].
      destruct Dx as [[[e ->] Dx]|(v0 & Dv & Dx)]; [left; split; [injection Hx as <-; eauto|exact Dx]|]. right. exists (when_set v0). split; [|exact Dx].
      exists d0, d1. cbn [fst snd]. split; [exact Ed|]. split; [auto|]. rewrite Kp. destruct Dv as [[-> ->]|(Hu & wa & wb & Dv)]; [now left|]. right. split; [exact Hu|]. exists v0, wa, wb. auto. }
    destruct SM as (Q2 & [Ic2 Iq2] & dm & M1 & M2 & M3 & M4).
    set (w3 := w_setquar q0 w2) in *.
    assert (Q3 : only_values l w1 w3).
    { destruct Q2 as ((_ & new & Sn & Fn) & L2 & N2 & O2 & H2). split; [split; [reflexivity|exists new; split; [exact Sn|exact Fn]]|].
      split; [exact L2|]. split; [exact N2|]. split; [exact O2|exact H2]. }
    assert (Mk : forall kv, In kv dm -> exists x, P kv x /\ stored w3 l (fst kv) = x) by exact M3.
    assert (Mo : forall m, ~ In m (map fst dm) -> stored w3 l m = stored w1 l m) by exact M4.
    assert (Fin : forall rr ww di, (rr, ww) = (r, w') -> only_values l w ww -> incl di imm ->
      (forall v, rr = Ok v -> incl mut dm /\ incl imm di) ->
      (forall kv, In kv di -> exists x, P kv x /\ stored ww l (fst kv) = x) ->
      (forall m, ~ In m (map fst di) -> stored ww l m = stored w3 l m) ->
      only_values l w w' /\ exists done : list (string * val),
      (forall key j, In (key, j) done -> In (VStr key, j) d /\ exists d0 d1, dget (c_props c) key = Some d0 /\
          (pd_kind d0 = KProp -> dget (c_props ci) key = Some d1) /\ stores E C U n o d0 d1 l key j (stored w' l key)) /\
      (forall v, r = Ok v -> forall key j, In (VStr key, j) d -> dhas (c_props c) key = true -> In (key, j) done) /\
      (forall name, ~ In name (map fst done) -> stored w' l name = stored w l name)).
    { intros rr ww di [= <- <-] Qw I1 I2 I3 I4. split; [exact Qw|].
      assert (Dis : forall kv, In kv dm -> ~ In (fst kv) (map fst di)).
      { intros kv K1' K2'. apply in_map_iff in K2' as (kv' & Ek & Hk'). apply M1, filter_In in K1' as [_ K1']. apply I1, filter_In in Hk' as [_ Hk'].
        rewrite Ek, K1' in Hk'. discriminate. }
      assert (Got : forall kv, In kv (dm ++ di) -> P kv (stored ww l (fst kv))).
      { intros kv Hin. apply in_app_or in Hin as [Hin|Hin].
        - destruct (Mk _ Hin) as (x & Px & Sx). rewrite (I4 _ (Dis _ Hin)), Sx. exact Px.
        - destruct (I3 _ Hin) as (x & Px & Sx). now rewrite Sx. }
      exists (filter (fun kj => existsb (String.eqb (fst kj)) (map fst (dm ++ di))) (known_props c d)).
      assert (HF : forall key j, In (key, j) (filter (fun kj => existsb (String.eqb (fst kj)) (map fst (dm ++ di))) (known_props c d)) <->
        In (key, j) (known_props c d) /\ In key (map fst (dm ++ di))).
      { intros key j. rewrite filter_In. cbn [fst]. rewrite existsb_exists. split; intros [A B]; (split; [exact A|]).
        - destruct B as (z & Hz & Ez). apply String.eqb_eq in Ez. now subst.
        - exists key. split; [exact B|apply String.eqb_refl]. }
      assert (Sub : forall ky, In ky (dm ++ di) -> In ky ns).
      { intros ky Hin. apply in_app_or in Hin as [Hin|Hin]; [apply M1 in Hin|apply I1 in Hin]; apply filter_In in Hin; apply Hin. }
      split; [|split].
      - intros key j Hin. apply HF in Hin as [Hkn Hin]. split; [now apply known_in in Hkn|]. apply in_map_iff in Hin as ([key' y] & Ek & Hin). cbn in Ek. subst key'.
        destruct (Back _ (Sub _ Hin)) as (j' & Hkn' & [_ (d0 & wa & wb & Ed & Hy)]). cbn [fst snd] in *.
        assert (j' = j) as ->.
        { pose proof (known_nodup c d Hnd) as Nk. clear - Nk Hkn Hkn'. induction (known_props c d) as [|[a b] t IH]; [destruct Hkn|].
          cbn [map fst] in Nk. inversion Nk as [|x z N1 N2]; subst. destruct Hkn as [[= -> ->]|Hkn], Hkn' as [[= K]|Hkn']; auto.
          - exfalso. apply N1. apply (in_map fst) in Hkn'. exact Hkn'.
          - subst. exfalso. apply N1. apply (in_map fst) in Hkn. exact Hkn. }
        destruct (Got _ Hin) as (d0' & d1 & Ed' & Hd1 & Pm). cbn [fst snd] in *. rewrite Ed in Ed'. injection Ed' as <-.
        exists d0, d1. split; [exact Ed|]. split; [exact Hd1|]. exists y, wa, wb. split; [exact Hy|exact Pm].
      - intros v Hv' key j Hin Hdh. apply HF. assert (Hkn : In (key, j) (known_props c d)) by now apply known_in. split; [exact Hkn|].
        destruct (I2 v Hv') as [J1 J2]. assert (Hkk : In key (map fst ns)) by (rewrite Hfst; apply (in_map fst) in Hkn; exact Hkn).
        apply in_map_iff in Hkk as (ky & Ek & Hky). subst key. apply in_map. apply in_or_app.
        destruct (key_mutable c (fst ky)) eqn:Emu; [left; apply J1; apply filter_In; auto|right; apply J2; apply filter_In; split; [exact Hky|now rewrite Emu]].
      - intros name Hname.
        assert (Hno : ~ In name (map fst (dm ++ di))).
        { intros K. apply Hname. apply in_map_iff in K as (ky & Ek & Hky). destruct (Back _ (Sub _ Hky)) as (j' & Hkn' & _). subst name.
          apply in_map_iff. exists (fst ky, j'). split; [reflexivity|]. apply HF. split; [exact Hkn'|]. now apply in_map. }
        rewrite map_app in Hno. rewrite I4 by (intros K; apply Hno, in_or_app; auto). rewrite Mo by (intros K; apply Hno, in_or_app; auto). apply K1. }
    assert (Q13 : only_values l w w3) by (eapply ov_trans; eauto).
    destruct rm as [[]|e].
    2:{ apply (Fin (Exc e) w3 []); auto; [intros ? []|discriminate|intros ? []]. }
    unfold bind at 1 in H. destruct (iterM (into_immutable E C (ex n) c l) imm w3) as [ri w4] eqn:Ei.
    assert (SI : only_values l w3 w4 /\ has_class C w4 l ci /\
      exists done, incl done imm /\ (ri = Ok tt -> incl imm done) /\
        (forall kv, In kv done -> exists x, P kv x /\ stored w4 l (fst kv) = x) /\
        (forall m, ~ In m (map fst done) -> stored w4 l m = stored w3 l m)).
    { eapply (steps (into_immutable E C (ex n) c l) l (fun w => has_class C w l ci) P imm); [apply Hfil| |exact Ic2|exact Ei].
      intros [key y] wx rx wy Hin Ix1 Hx. apply filter_In in Hin as [Hin Hmu]. destruct (Back _ Hin) as (j & Hkn & HR). cbn [fst snd] in *.
      unfold key_mutable in Hmu. destruct (dget (c_props c) key) as [d0|] eqn:Ed; [|apply known_in in Hkn as [_ Hkn]; unfold dhas in Hkn; rewrite Ed in Hkn; discriminate].
      destruct (HO key j d0 Hkn Ed) as [Od _].
      destruct (store_direct n l c key d0 y wx rx wy) as (Qx & Dx); auto; [destruct Ix1 as (ix & Hix & _); congruence|]. split; [exact Qx|].
      split; [exact (ov_class _ _ _ _ _ Qx Ix1)|].
      destruct Dx as [Dx|(v0 & (wa & wb & Dv) & Dx)]; [left; exact Dx|]. right. exists (Some v0). split; [|exact Dx].
      exists d0, d0. cbn [fst snd]. split; [exact Ed|].
      assert (Kn : pd_kind d0 <> KProp) by (intros Kd; unfold is_mutable in Hmu; rewrite Kd in Hmu; discriminate). split; [intros Kd; now destruct Kn|].
      destruct (pd_kind d0); try (exists v0, wa, wb; auto). now destruct Kn. }
    destruct SI as (Q4 & _ & di & I1 & I2 & I3 & I4).
    assert (Q14 : only_values l w w4) by (eapply ov_trans; eauto).
    destruct ri as [[]|e].
    - rewrite Hv in H. unfold bind, ret in H. apply (Fin (Ok (VInst l)) w4 di); auto.
    - apply (Fin (Exc e) w4 di); auto. discriminate.
  Qed.
End Into.
