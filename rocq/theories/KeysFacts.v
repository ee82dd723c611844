(** Proofs for PropertiesKeys.v: dictionaries with containers or instances as keys. *)
From Verif Require Import World WorldSpec WorldFrame ReadSpec ReadFacts KeysSpec.
Local Open Scope string_scope.
Local Open Scope list_scope.
Local Open Scope nat_scope.

Lemma bind_ok {A B} (m : M A) (k : A -> M B) w b w' : bind m k w = (Ok b, w') -> exists a w1, m w = (Ok a, w1) /\ k a w1 = (Ok b, w').
Proof. unfold bind. destruct (m w) as [[a|e] w1]; [eauto|discriminate]. Qed.
Lemma mapM_ok {A B} (f : A -> M B) l : forall w ys w', mapM f l w = (Ok ys, w') ->
  forall x, In x l -> exists w1 y w2, f x w1 = (Ok y, w2) /\ In y ys.
Proof.
  induction l as [|a l IH]; intros w ys w' H x Hx; [destruct Hx|]. cbn [mapM] in H.
  apply bind_ok in H. destruct H as (y & w1 & H1 & H). apply bind_ok in H. destruct H as (zs & w2 & H2 & H). injection H as <- <-.
  destruct Hx as [->|Hx]; [exists w, y, w1; split; [auto|now left]|]. destruct (IH _ _ _ H2 x Hx) as (u1 & z & u2 & Hz & Iz).
  exists u1, z, u2. split; [auto|now right].
Qed.
(** the worlds in between have the same instances *)
Lemma mapM_calm {A B} (f : A -> M B) l : (forall x, In x l -> calm true (f x)) -> forall w ys w', mapM f l w = (Ok ys, w') ->
  forall x, In x l -> exists w1 y w2, f x w1 = (Ok y, w2) /\ w_heap w1 = w_heap w.
Proof.
  induction l as [|a l IH]; intros Hc w ys w' H x Hx; [destruct Hx|]. cbn [mapM] in H.
  apply bind_ok in H. destruct H as (y & w1 & H1 & H). apply bind_ok in H. destruct H as (zs & w2 & H2 & H).
  destruct Hx as [->|Hx]; [exists w, y, w1; auto|].
  destruct (IH (fun x Hx => Hc x (or_intror Hx)) _ _ _ H2 x Hx) as (u1 & z & u2 & Hz & Hh).
  exists u1, z, u2. split; [auto|]. rewrite Hh. destruct (Hc a (or_introl eq_refl) w) as [K _]. rewrite H1 in K. apply K.
Qed.
Lemma pairs_hash ps : forall acc r, dict_of_pairs ps acc = Ok r -> forall k x, In (k, x) ps -> hashable k = true.
Proof.
  induction ps as [|[k x] ps IH]; intros acc r H k1 x1 Hi; [destruct Hi|]. cbn in H. destruct (hashable k) eqn:Hk; [|discriminate].
  destruct Hi as [[= <- <-]|Hi]; eauto.
Qed.
Lemma set_at {A} (l : list A) : forall n x y, nth_error l n = Some y -> nth_error (set_nth l n x) n = Some x.
Proof. induction l as [|a l IH]; intros [|n] x y H; try discriminate; [reflexivity|]. rewrite set_nth_cons. cbn in *. eauto. Qed.
Section Keys.
  Variables (E : env) (C : ctable) (U : ucode).
  Lemma ser_dict n l o w v w' : exec E C U n (COp (OSer l o)) w = (Ok v, w') -> hashable v = false.
  Proof.
    destruct n as [|n]; [discriminate|]. cbn [exec step]. unfold has_serialize. intros H.
    apply bind_ok in H. destruct H as (i & w1 & _ & H). destruct (i_sflag i); [discriminate|].
    apply bind_ok in H. destruct H as ([] & w2 & _ & H). unfold fin in H.
    match type of H with (let (_, _) := ?m in _) = _ => destruct m as [r w3] eqn:K end. injection H as -> <-.
    apply bind_ok in K. destruct K as (c & w4 & _ & K). apply bind_ok in K. destruct K as (j & w5 & _ & K).
    apply bind_ok in K. destruct K as (data & w6 & _ & K). injection K as <- <-. reflexivity.
  Qed.
  Lemma composite_json n o p v w r w' : composite p -> is_none v = false -> p_serialize E C (exec E C U n) o p v w = (Ok r, w') -> hashable r = false.
  Proof.
    intros Hp Hv H. destruct p; try destruct Hp; cbn [p_serialize] in H; rewrite Hv in H.
    - apply bind_ok in H. destruct H as (xs & w1 & _ & H). apply bind_ok in H. destruct H as (ys & w2 & _ & H). injection H as <- <-. reflexivity.
    - destruct v; try discriminate. apply bind_ok in H. destruct H as (xs & w1 & _ & H). apply bind_ok in H. destruct H as (ys & w2 & _ & H).
      injection H as <- <-. reflexivity.
    - destruct v; try discriminate. now apply ser_dict in H.
  Qed.
  Lemma dict_fails n o kp vp co d k x w r w' : composite kp -> In (k, x) d -> is_none k = false ->
    p_serialize E C (exec E C U n) o (PDict kp vp co) (VDict d) w <> (Ok r, w').
  Proof.
    intros Hp Hi Hk H. cbn [p_serialize is_none] in H. apply bind_ok in H. destruct H as (out & w1 & H1 & H).
    apply bind_ok in H. destruct H as (sd & w2 & H2 & _). unfold lift in H2. injection H2 as H2 _.
    destruct (mapM_ok _ _ _ _ _ H1 (k, x) Hi) as (u1 & [k' x'] & u2 & Hf & Io). cbn [fst snd] in Hf.
    apply bind_ok in Hf. destruct Hf as (a & u3 & Ha & Hf). apply bind_ok in Hf. destruct Hf as (b & u4 & Hb & Hf). injection Hf as -> -> _.
    pose proof (pairs_hash _ _ _ H2 _ _ Io) as T. rewrite (composite_json _ _ _ _ _ _ _ Hp Hk Ha) in T. discriminate.
  Qed.
End Keys.

Section Instance.
  Variables (E : env) (C : ctable) (U : ucode).
  Hypothesis Hc : harmless C U.
  Theorem no_json w l name dd kp vp co d k x : declares C w l name dd -> pd_kind dd = KProp -> pd_type dd = PDict kp vp co -> composite kp ->
    stored w l name = Some (VDict d) -> In (k, x) d -> is_none k = false ->
    forall n o v w', exec E C U n (COp (OSer l o)) w <> (Ok v, w').
  Proof.
    intros (c & (i & Ni & Nc) & D) Hk Ht Hp Hs Hi Hn n o v w' H. unfold stored in Hs. rewrite Ni in Hs.
    destruct n as [|n]; [discriminate|]. cbn [exec step] in H. unfold has_serialize in H.
    apply bind_ok in H. destruct H as (i0 & w1 & H0 & H). unfold get_inst in H0. rewrite Ni in H0. injection H0 as <- <-.
    destruct (i_sflag i); [discriminate|].
    apply bind_ok in H. destruct H as ([] & w2 & H2 & H). unfold upd, mod_w in H2. injection H2 as <-. unfold fin in H.
    match type of H with (let (_, _) := ?m in _) = _ => destruct m as [r w3] eqn:K end. injection H as -> <-.
    set (ws := w_upd l (i_sets true) w) in *.
    assert (Ns : nth_error (w_heap ws) l = Some (i_sets true i)).
    { unfold ws, w_upd. rewrite Ni. cbn. eapply set_at. exact Ni. }
    apply bind_ok in K. destruct K as (c1 & w4 & K1 & K).
    assert (c1 = c /\ w4 = ws) as [-> ->].
    { unfold inst_class, bind, get_inst, class_of, lift in K1. rewrite Ns in K1. cbn in K1. destruct i. cbn in *. rewrite Nc in K1. now injection K1 as <- <-. }
    apply bind_ok in K. destruct K as (j & w5 & K2 & K). unfold get_inst in K2. rewrite Ns in K2. injection K2 as <- <-.
    apply bind_ok in K. destruct K as (data & w6 & K3 & _).
    assert (IN : In name (if s_dyn o then dkeys (c_props c) else dkeys (i_back (i_sets true i)))).
    { destruct (s_dyn o); apply dget_in in D; apply dget_in in Hs; unfold dkeys; [now apply (in_map fst) in D|]. destruct i. cbn in *. now apply (in_map fst) in Hs. }
    assert (Ic : In c (ct_cls C)) by eauto using nth_error_In.
    eapply mapM_calm in K3; [|clear K3 IN|exact IN].
    - destruct K3 as (u1 & y & u2 & F & Hh). rewrite D in F. apply bind_ok in F. destruct F as (z & u3 & F1 & F).
      assert (z = VDict d) as ->.
      { unfold has_getattr, inst_class, back_get, bind, get_inst, class_of, lift in F1. rewrite Hh, Ns in F1. destruct i. cbn in *.
        rewrite Nc, D, Hk in F1. rewrite Hh, Ns in F1. cbn in F1. rewrite Hs in F1. now injection F1 as <- _. }
      apply bind_ok in F. destruct F as (q & u4 & F2 & _). unfold decl_serialize in F2. rewrite Hk, Ht in F2.
      exact (dict_fails E C U n o kp vp co d k x _ _ _ Hp Hi Hn F2).
    - intros key _. assert (R : forall q, reading q -> calm true (exec E C U n (COp q))) by (intros; apply reads_calm; auto; discriminate).
      destruct (dget (c_props c) key) as [d1|] eqn:D1; [|apply c_throw]. apply dget_in in D1. destruct (Hc c key d1 Ic D1) as [T _].
      apply c_bind; [apply c_getattr; auto; discriminate|]. intros v1. apply c_bind; [|intros; apply c_ret]. unfold decl_serialize.
      destruct (pd_kind d1); try apply c_ret; apply c_serialize; auto.
  Qed.
End Instance.
