(** The copy of a valid object graph is valid. *)
From Verif Require Import World WorldFrame WorldInv WorldSpec WorldFacts AccessSpec ContainerFacts BasicSpec GraphSpec GraphConv GraphHelp GraphValid RoundSpec RoundLeaf RoundFacts RoundValue RoundGraph RoundEqual NewFlags.
Local Open Scope string_scope.
Local Open Scope list_scope.
Local Open Scope nat_scope.

Lemma copies_carried (G : loc -> loc -> Prop) p : no_union p -> forall a b, copies_value G p a b -> carried G p a b.
Proof.
  induction p as [t|k q mn mx co IH|kp vp co IHk IHv|si ps IH|cid] using ptype_ind'; cbn [no_union copies_value carried]; intros Hu a b.
  - auto.
  - intros (xs & ys & Ha & Hb & HF & Hd). exists xs, ys. split; [exact Ha|]. split; [exact Hb|]. split; [|exact Hd].
    specialize (IH Hu). clear - HF IH. induction HF; constructor; auto.
  - intros (da & db & Ha & Hb & HF). exists da, db. split; [exact Ha|]. split; [exact Hb|]. destruct Hu as [_ Hu]. specialize (IHv Hu).
    clear - HF IHv. induction HF as [|x y l l' [H1 H2] HF IHF]; constructor; auto.
  - destruct Hu.
  - auto.
Qed.

Section Moved.
  Variable E : env.
  Variable C : ctable.
  Variable U : ucode.
  Variable so : sopt.
  Variable d_o : dopt.
  Variables w w' : world.
  Variable N : nat.
  Notation cp := (copied C N w w').

  Lemma portable_moved p : no_union p -> forall a b, portable E C U so d_o w p a -> copies_value cp p a b -> portable E C U so d_o w' p b.
  Proof.
    induction p as [t|k q mn mx co IH|kp vp co IHk IHv|si ps IH|cid] using ptype_ind'; cbn [no_union copies_value portable]; intros Hu a b.
    - intros H ->. exact H.
    - intros (xs & Hv & HF & Hs) (xs' & ys & Hv' & Hb & HC & Hd).
      assert (xs' = xs) by (unfold of_kind in *; destruct k; congruence). subst xs'.
      exists ys. split; [exact Hb|]. split.
      + specialize (IH Hu). clear - HF HC IH. induction HC; inversion HF; subst; constructor; eauto.
      + intros Hk. destruct (Hs Hk) as (_ & Hh & _). split; [exact Hu|]. split; [|now apply Hd].
        clear - HC Hh. induction HC; constructor; inversion Hh; subst; auto. rewrite <- (copies_hashable _ _ _ _ H). auto.
    - intros (t & da & -> & Ht & -> & Hdk & HF) (da' & db & Ha & -> & HC). injection Ha as <-. destruct Hu as [_ Hu].
      assert (Hk : map fst db = map fst da) by (clear - HC; induction HC as [|? ? ? ? [H ?] HC IH]; cbn; congruence).
      exists t, db. split; [reflexivity|]. split; [exact Ht|]. split; [reflexivity|]. split; [rewrite distinct_keys_map in *; now rewrite Hk|].
      specialize (IHv Hu). clear - HF HC IHv. induction HC as [|x y l l' [H1 H2] HC IH]; inversion HF as [|? ? [K1 K2] HF']; subst; constructor; auto.
      rewrite H1. split; [exact K1|]. eauto.
    - destruct Hu.
    - intros (m & -> & HR) (l & m' & Hl & -> & HG). injection Hl as <-. exists m'. split; [reflexivity|].
      apply copied_at in HG as (_ & i & k & Hi & Hk & Hck). destruct HR as (i' & c & H1 & H2 & H3 & H4 & H5).
      rewrite Hi in H1. injection H1 as <-. exists k, c. rewrite Hck. auto.
  Qed.
  Lemma itself_moved p : no_union p -> forall a b, equals_itself p a -> copies_value cp p a b -> equals_itself p b.
  Proof.
    induction p as [t|k q mn mx co IH|kp vp co IHk IHv|si ps IH|cid] using ptype_ind'; cbn [no_union copies_value equals_itself]; intros Hu a b.
    - intros H ->. exact H.
    - intros [Hs He] (xs & ys & Ha & Hb & HF & _). split; [exact Hs|]. intros items Hit.
      assert (items = ys) by (unfold of_kind in *; destruct k; congruence). subst items. specialize (He xs Ha). specialize (IH Hu).
      clear - HF He IH. induction HF; inversion He; subst; constructor; eauto.
    - intros H (da & db & -> & -> & HF) d [= <-]. specialize (H da eq_refl). destruct Hu as [_ Hu]. specialize (IHv Hu).
      clear - HF H IHv. induction HF as [|x y l l' [H1 H2] HF IHF]; inversion H; subst; constructor; eauto.
    - destruct Hu.
    - auto.
  Qed.
  Lemma copies_self (G : loc -> loc -> Prop) p : no_union p -> forall b, portable E C U so d_o w' p b ->
    (forall y, holds_inst p b y -> G y y) -> copies_value G p b b.
  Proof.
    induction p as [t|k q mn mx co IH|kp vp co IHk IHv|si ps IH|cid] using ptype_ind'; cbn [no_union copies_value portable holds_inst]; intros Hu b.
    - auto.
    - intros (ys & Hb & HF & Hs) HG. exists ys, ys. split; [exact Hb|]. split; [exact Hb|]. split; [|intros Hk; now destruct (Hs Hk) as (_ & _ & K)].
      assert (Hi : py_iter b = Ok ys) by (rewrite Hb; now destruct k).
      assert (K : forall x, In x ys -> copies_value G q x x).
      { intros x Hx. apply IH; auto; [rewrite Forall_forall in HF; auto|]. intros y Hy. apply HG. exists ys, x. auto. }
      clear - K. induction ys as [|x ys IHy]; constructor; [apply K; now left|]. apply IHy. intros z Hz. apply K. now right.
    - intros (t & d & -> & Ht & -> & Hdk & HF) HG. exists d, d. split; [reflexivity|]. split; [reflexivity|]. destruct Hu as [_ Hu].
      assert (K : forall x, In x d -> copies_value G vp (snd x) (snd x)).
      { intros [k x] Hx. apply IHv; auto; [rewrite Forall_forall in HF; now apply (HF _ Hx)|]. intros y Hy. apply HG. exists d, k, x. auto. }
      clear - K. induction d as [|x d IHy]; constructor; [split; auto; apply K; now left|]. apply IHy. intros z Hz. apply K. now right.
    - destruct Hu.
    - intros (m & -> & HR) HG. exists m, m. auto.
  Qed.
  Lemma holds_exists p : no_union p -> forall b y, portable E C U so d_o w' p b -> holds_inst p b y -> exists i, nth_error (w_heap w') y = Some i.
  Proof.
    induction p as [t|k q mn mx co IH|kp vp co IHk IHv|si ps IH|cid] using ptype_ind'; cbn [no_union portable holds_inst]; intros Hu b y.
    - intros _ [].
    - intros (ys & Hb & HF & _) (items & x & Hi & Hx & Hh). assert (Hi' : py_iter b = Ok ys) by (rewrite Hb; now destruct k).
      rewrite Hi in Hi'. injection Hi' as <-. rewrite Forall_forall in HF. eauto.
    - intros (t & d & -> & Ht & -> & Hdk & HF) (d' & k & x & [= <-] & Hx & [[]|Hh]). destruct Hu as [_ Hu].
      rewrite Forall_forall in HF. destruct (HF _ Hx) as [_ K]. eauto.
    - destruct Hu.
    - intros (m & -> & i & c & Hi & _) [= <-]. eauto.
  Qed.

  Lemma self_value p b n : no_union p -> portable E C U so d_o w' p b -> equals_itself p b -> e_idle w' ->
    p_equal (exec E C U (S n)) p b b w' = (Ok true, w').
  Proof.
    intros Hu Hp He Hi.
    assert (K : forall y, holds_inst p b y -> same_to (exec E C U (S n)) w' y y).
    { intros y Hy. destruct (holds_exists p Hu b y Hp Hy) as (i & Hn). apply self_equal with (i := i); [exact Hn|]. eapply Hi; eauto. }
    apply (equal_copies E C U so d_o w'); auto.
    - intros a0 b0 H. now apply other_equal.
    - now apply copies_self.
  Qed.
  Lemma fixed_moved p a b l name : no_union p -> portable E C U so d_o w p a -> equals_itself p a -> copies_value cp p a b -> e_idle w' ->
    l < length (w_heap w') -> fixed_point E C U w' p l name b.
  Proof.
    intros Hu Hp He Hc Hi Hl. exists b. split.
    - exists 2. intros n Hn. destruct (validate_copy E C U so d_o w p n Hn a b N w' (Some l) name) as (w2 & K & _); eauto.
      + now apply copies_carried.
      + intros k [= <-]. exact Hl.
    - exists 1. intros [|n] Hn; [lia|]. exists w'. apply self_value; auto; [eapply portable_moved; eauto|eapply itself_moved; eauto].
  Qed.
  (** a leaf that validation leaves as it is and that is valid is equal to itself *)
  Lemma leaf_fixed_self t l name v : (forall r, leaf_validate E r t v = LOk v) -> fixed_point E C U w (PLeaf t) l name v -> leaf_equal t v v = Ok true.
  Proof.
    intros Hv (v' & (d & H1) & (d2 & H2)). destruct (H1 d) as (w1 & K1); [lia|]. destruct (H2 d2) as (w2 & K2); [lia|].
    cbn [p_validate] in K1. unfold leaf_val in K1. rewrite (bind_ok _ _ _ _ _ (eq_refl : tick w = (Ok (w_clock w), w_tick w))), Hv in K1.
    injection K1 as <- <-. cbn [p_equal] in K2. unfold lift in K2. destruct (leaf_equal t v v); congruence.
  Qed.

  Lemma valid_moved (S : loc -> Prop) p : no_union p -> forall (G : loc -> loc -> Prop) a b l m name, portable E C U so d_o w p a -> equals_itself p a ->
    valid_value E C U w (fun _ => True) p l name a -> (forall x y, G x y -> cp x y) -> copies_value G p a b ->
    e_idle w' -> m < length (w_heap w') -> (forall x y, holds_inst p a x -> G x y -> S y) ->
    valid_value E C U w' S p m name b.
  Proof.
    induction p as [t|k q mn mx co IH|kp vp co IHk IHv|si ps IH|cid] using ptype_ind'; intros Hu G a b l m name Hp He Hv HG Hc Hi Hm HS;
      (assert (FP : forall p, no_union p -> portable E C U so d_o w p a -> equals_itself p a -> copies_value G p a b -> fixed_point E C U w' p m name b)
         by (intros p0 U0 P0 E0 C0; eapply fixed_moved; eauto; eapply copies_mono; eauto));
      (split; [now apply FP|]); clear FP; cbn [no_union copies_value portable equals_itself valid_value holds_inst] in *.
    - exact I.
    - destruct Hp as (xs & Ha & HF & _), Hc as (xs' & ys & Ha' & Hb & HC & _), He as [_ He], Hv as (_ & items & Hit & Hlim & HV).
      assert (xs' = xs) by (unfold of_kind in *; destruct k; congruence). subst xs'. specialize (He xs Ha).
      assert (Ia : py_iter a = Ok xs) by (rewrite Ha; now destruct k). rewrite Ia in Hit. injection Hit as <-.
      exists ys. split; [rewrite Hb; now destruct k|]. split; [now rewrite <- (forall2_length _ _ _ HC)|].
      assert (HS' : forall x x0 y, In x xs -> holds_inst q x x0 -> G x0 y -> S y) by (intros x x0 y Hx Hh Hg; apply (HS x0 y); eauto).
      clear Ha Ha' Hb Ia Hlim HS. induction HC as [|x y l1 l2 H1 HC IHC]; constructor.
      + inversion HF; inversion He; inversion HV; subst. apply (IH Hu G x y l m name); auto. intros x0 y0. apply HS'. now left.
      + inversion HF; inversion He; inversion HV; subst. apply IHC; auto. intros z x0 y0 Hz. apply HS'. now right.
    - destruct Hp as (t & da & -> & Ht & -> & Hdk & HF), Hc as (da' & db & Ha & -> & HC), Hv as (_ & d & Hd & HV). injection Ha as <-. injection Hd as <-.
      destruct Hu as [_ Hu]. specialize (He da eq_refl). exists db. split; [reflexivity|].
      assert (HS' : forall k x x0 y, In (k, x) da -> holds_inst vp x x0 -> G x0 y -> S y).
      { intros k x x0 y Hx Hh Hg. apply (HS x0 y); auto. exists da, k, x. auto. }
      clear Hdk HS. induction HC as [|x y l1 l2 [H1 H2] HC IHC]; constructor.
      + inversion HF as [|? ? [[Hl _] Hpx] HF']; inversion He; inversion HV as [|? ? [V1 V2] V3]; subst. rewrite H1. split.
        * split; [|exact I]. apply (fixed_moved (PLeaf t) (fst x) (fst x)); cbn; auto.
          eapply leaf_fixed_self; [apply Hl|]. destruct V1 as [V1 _]. exact V1.
        * apply (IHv Hu G (snd x) (snd y) l m name); auto. intros x0 y0. apply (HS' (fst x) (snd x)). destruct x. now left.
      + inversion HF as [|? ? [[Hl _] Hpx] HF']; inversion He; inversion HV as [|? ? [V1 V2] V3]; subst. apply IHC; auto.
        intros k z x0 y0 Hz. apply (HS' k z). now right.
    - destruct Hu.
    - destruct Hc as (x & y & -> & -> & Hg). intros m0 [= <-]. apply (HS x y); auto.
  Qed.
End Moved.

(** No property has a Union in its type, and classes have only the built-in
    class validator. *)
Lemma copy_valid E C U so d_o w w' l m :
  wf_ctab C -> (forall cid c name d, nth_error (ct_cls C) cid = Some c -> dget (c_props c) name = Some d -> no_union (pd_type d)) ->
  (forall cid c cv, nth_error (ct_cls C) cid = Some c -> In cv (c_cvals c) -> cv = CVProps) -> checks_props C ->
  (forall x, descends C w l x -> portable_node E C U so d_o w x /\ comparable_node C w x) ->
  e_idle w' -> (forall y name, length (w_heap w) <= y -> registered w' y name MValidate = []) ->
  valid_graph E C U w l -> copied C (length (w_heap w)) w w' l m -> valid_graph E C U w' m.
Proof.
  intros Hwf Hnu Hcv Hck Hn Hi Hreg HV Hc.
  assert (Huf : union_free C) by (intros cid c name d H1 H2 _; eauto).
  pose proof (proj1 (valid_reachable E C U Hwf Huf Hck w l) HV) as HR. clear HV.
  exists (fun y => exists x, descends C w l x /\ valid_at E C U w (fun _ => True) x /\ (forall z, reachable C w x z -> valid_at E C U w (fun _ => True) z) /\ copied C (length (w_heap w)) w w' x y).
  split; [exists l; split; [apply descends_here|]; split; [apply HR; constructor|split; [exact HR|exact Hc]]|].
  clear m Hc HR. intros m (x & Hd & (c & (i & Hxi & Hxc) & Hval) & HR & Hc).
  destruct (Hn x Hd) as [(ip & cp & Hip & Hcp & _ & _ & Hst & _) (ic & cc & Hic & Hcc & _ & Hq)].
  rewrite Hxi in Hip, Hic. injection Hip as <-. injection Hic as <-. rewrite Hxc in Hcp, Hcc. injection Hcp as <-. injection Hcc as <-.
  inversion Hc as [G x0 m0 i0 k HG Hm Hi0 Hk Hcls Hp]; subst x0 m0. rewrite Hxi in Hi0. injection Hi0 as <-.
  assert (Hml : m < length (w_heap w')) by (apply nth_error_Some; congruence).
  exists c. split; [exists k; split; [exact Hk|congruence]|]. intros cv Hcvin. rewrite (Hcv _ _ _ Hxc Hcvin). intros name d Hdg.
  pose proof (Hval CVProps (Hck _ _ Hxc) name d Hdg) as Hpr.
  assert (Hu : no_union (pd_type d)) by eauto.
  assert (Hdec : declares C w x name d) by (exists c; split; [exists i; auto|exact Hdg]).
  assert (Hin : In (name, d) (c_props c)) by now apply dget_in.
  assert (Hv' : forall v, has_value w' m name v -> held w x name <> VNone /\ copies_value G (pd_type d) (held w x name) v).
  { intros v [Hs Hnn]. assert (Hh : held w' m name = v) by (unfold held; now rewrite Hs). destruct (Hp name d Hdec) as [[_ K]|K]; [congruence|].
    now rewrite Hh in K. }
  assert (Hx : held w x name <> VNone -> has_value w x name (held w x name)).
  { intros Hnn. split; [|exact Hnn]. unfold held in *. destruct (stored w x name); [reflexivity|congruence]. }
  assert (Hport : held w x name <> VNone -> portable E C U so d_o w (pd_type d) (held w x name) /\ equals_itself (pd_type d) (held w x name)).
  { intros Hnn. split; [|now apply (Hq name d Hin)]. destruct (Hx Hnn) as [Hs _]. unfold stored in Hs. rewrite Hxi in Hs.
    destruct (Hst _ _ Hs) as (d' & Hd' & _ & K). rewrite Hdg in Hd'. injection Hd' as <-. now apply K. }
  assert (Hfix : forall v, has_value w' m name v -> fixed_point E C U w' (pd_type d) m name v).
  { intros v Hv. destruct (Hv' v Hv) as [Hnn K]. destruct (Hport Hnn). eapply fixed_moved; eauto. eapply copies_mono; eauto. }
  assert (Hag : forall v, has_value w' m name v -> validators_agree E C U w' (pd_type d) m name v).
  { intros v Hv. exists v. split.
    - rewrite (Hreg m name Hm). destruct (mode_in MValidate (w_quar w')); constructor.
    - destruct (Hv' v Hv) as [Hnn K]. destruct (Hport Hnn). exists 1. intros [|n] Hn1; [lia|]. exists w'.
      apply (self_value E C U so d_o); auto; [eapply portable_moved|eapply itself_moved]; eauto; eapply copies_mono; eauto. }
  unfold valid_prop in *. destruct (proj1 (Hq name d Hin)) as [Hkd|Hkd]; rewrite Hkd in *.
  - destruct Hpr as [Hreq Hvv]. split.
    + intros Hr. destruct (Hreq Hr) as (v & Hs & Hnn). assert (Hh : held w x name = v) by (unfold held; now rewrite Hs).
      destruct (Hp name d Hdec) as [[K _]|[_ K]]; [congruence|]. exists (held w' m name).
      assert (K3 : held w' m name <> VNone) by (intros K3; rewrite K3 in K; apply copies_none in K; congruence).
      split; [|exact K3]. unfold held in *. destruct (stored w' m name); [reflexivity|congruence].
    + intros v Hv. split; [now apply Hag|]. destruct (Hv' v Hv) as [Hnn K]. destruct (Hport Hnn) as [P1 P2].
      apply (valid_moved E C U so d_o w w' (length (w_heap w)) _ (pd_type d) Hu G (held w x name) v x m name); auto.
      * now apply Hvv, Hx.
      * intros y z Hh Hg. assert (Rf : refers C w x y) by (exists name, d, (held w x name); auto).
        assert (Ch : child C w x y) by (exists name, d; auto).
        assert (Ry : forall z0, reachable C w y z0 -> reachable C w x z0).
        { intros z0 H. induction H as [|a b H IH Hr]; [eapply reach_step; [constructor|exact Rf]|eapply reach_step; eauto]. }
        exists y. split; [|split; [apply HR, Ry; constructor|split; [auto|auto]]].
        clear - Hd Ch. induction Hd as [l|l a b H1 H2 IH]; [exact (descends_step _ _ _ _ _ Ch (descends_here _ _ _))|exact (descends_step _ _ _ _ _ H1 (IH Ch))].
  - intros v Hv. split; [now apply Hag|now apply Hfix].
Qed.

Theorem copy_is_valid E C U w l i : reads_special E -> names_known C -> wf_ctab C -> e_idle w ->
  (forall cid c name d, nth_error (ct_cls C) cid = Some c -> dget (c_props c) name = Some d -> no_union (pd_type d)) ->
  (forall cid c, nth_error (ct_cls C) cid = Some c -> c_cvals c = [CVProps]) ->
  portable_graph E C U (SOpt true false) (DOpt true false false) w l -> unguarded C w l ->
  nth_error (w_heap w) l = Some i -> restorable C (SOpt true false) (DOpt true false false) w (i_cls i) l ->
  (forall m, descends C w l m -> comparable_node C w m) -> valid_graph E C U w l ->
  exists depth, forall n, depth <= n -> exists m w1, exec E C U n (COp (OCopy l)) w = (Ok (VInst m), w1) /\ m <> l /\
    ((forall y name, length (w_heap w) <= y -> registered w1 y name MValidate = []) -> valid_graph E C U w1 m).
Proof.
  intros HS HN Hwf Hidle Hnu Hcv HG Hu Hi Hr Hc HV. destruct (copy_copies E C U w l i HS HN HG Hu Hi Hr) as (d & K). exists d. intros n Hle.
  destruct (K n Hle) as (m & w1 & H1 & H2 & H3). exists m, w1. split; [exact H1|]. split.
  - apply copied_at in H3 as [H3 _]. intros ->. assert (l < length (w_heap w)) by (apply nth_error_Some; congruence). lia.
  - intros Hreg. eapply (copy_valid E C U (SOpt true false) (DOpt true false false) w w1 l m); eauto.
    + intros cid c cv Hcc Hin. rewrite (Hcv _ _ Hcc) in Hin. destruct Hin as [<-|[]]. reflexivity.
    + intros cid c Hcc. rewrite (Hcv _ _ Hcc). now left.
    + intros x Hx. split; [now apply HG|now apply Hc].
    + pose proof (flags_exec E C U n (OCopy l) w Hwf) as Hf. rewrite H1 in Hf. cbn [snd] in Hf. intros y iy Hy. specialize (Hf y). unfold flags_at in Hf. rewrite Hy in Hf.
      destruct (nth_error (w_heap w) y) as [iy0|] eqn:Ey; [|congruence]. specialize (Hidle _ _ Ey). congruence.
Qed.
