(** Values of one property survive, if the instances they hold do. *)
From Verif Require Import World WorldFrame WorldSpec WorldFacts AccessSpec ContainerFacts BasicSpec GraphSpec GraphConv GraphHelp RoundSpec RoundLeaf RoundFacts RoundValue.
Local Open Scope string_scope.
Local Open Scope list_scope.
Local Open Scope nat_scope.

Lemma py_eq_str a s : py_eq a (VStr s) = true -> a = VStr s.
Proof. destruct a; cbn; try discriminate. intros H. apply String.eqb_eq in H. now subst. Qed.
Lemma py_str_eq s b : py_eq (VStr s) b = true -> b = VStr s.
Proof. destruct b; cbn; try discriminate. intros H. apply String.eqb_eq in H. now subst. Qed.
Lemma is_none_false v : v <> VNone -> is_none v = false.
Proof. destruct v; auto; congruence. Qed.

Section Send.
  Variable E : env.
  Variable C : ctable.
  Variable U : ucode.
  Variable so : sopt.
  Variable d_o : dopt.
  Variable w : world.
  Hypothesis HS : reads_special E.
  Notation X := (exec E C U).
  Notation portable := (portable E C U so d_o w).
  Notation restorable := (restorable C so d_o w).
  Notation descends := (descends C w).

  (** what serialization reads is as in [w] *)
  Definition looks (w1 : world) : Prop := forall l i, nth_error (w_heap w) l = Some i ->
    exists i1, nth_error (w_heap w1) l = Some i1 /\ i_cls i1 = i_cls i /\ i_back i1 = i_back i.
  (** nothing below [l] is being serialized *)
  Definition clear_below (l : loc) (w1 : world) : Prop := forall m, descends l m ->
    exists i, nth_error (w_heap w1) m = Some i /\ i_sflag i = false.
  Lemma looks_unchanged w1 w2 : looks w1 -> unchanged w1 w2 -> looks w2.
  Proof. intros H HU l i Hi. destruct (H l i Hi) as (i1 & K1 & K2). exists i1. split; [eapply unchanged_nth; eauto|exact K2]. Qed.
  Lemma clear_unchanged l w1 w2 : clear_below l w1 -> unchanged w1 w2 -> clear_below l w2.
  Proof. intros H HU m Hm. destruct (H m Hm) as (i & K1 & K2). exists i. split; [eapply unchanged_nth; eauto|exact K2]. Qed.

  Definition ready (l : loc) : Prop := exists n0 dj,
    (forall n w1, n0 <= n -> looks w1 -> clear_below l w1 ->
       exists w2, X n (COp (OSer l so)) w1 = (Ok (VDict dj), w2) /\ unchanged w1 w2) /\
    (forall n w1 cid o, n0 <= n -> restorable cid l -> o_trusted o = o_trusted d_o -> o_valid o = false ->
       exists m w2, X n (COp (ODeser cid (VDict dj) o)) w1 = (Ok (VInst m), w2) /\ unchanged w1 w2 /\
         copied C (length (w_heap w1)) w w2 l m) /\
    (s_class so = true -> forall i c, nth_error (w_heap w) l = Some i -> nth_error (ct_cls C) (i_cls i) = Some c ->
       vd_get dj class_key = Some (VStr (c_name c))).
  Definition value_ready (p : ptype) (v : val) : Prop := exists n0 j,
    (forall n w1, n0 <= n -> looks w1 -> (forall m, holds_inst p v m -> clear_below m w1) ->
       exists w2, p_serialize E C (X n) so p v w1 = (Ok j, w2) /\ unchanged w1 w2) /\
    (forall n w1 o, n0 <= n -> o_trusted o = o_trusted d_o -> o_valid o = false ->
       exists b w2, p_deserialize E C (X n) o p j w1 = (Ok b, w2) /\ unchanged w1 w2 /\
         carried (copied C (length (w_heap w1)) w w2) p v b) /\
    (v <> VNone -> j <> VNone).

  Lemma carried_later w1 w2 w3 p a b : unchanged w1 w2 -> unchanged w2 w3 ->
    carried (copied C (length (w_heap w2)) w w3) p a b -> carried (copied C (length (w_heap w1)) w w3) p a b.
  Proof.
    intros H1 H2. apply carried_mono. intros l m. apply copied_mono; [now apply unchanged_len|apply unchanged_refl].
  Qed.
  Lemma carried_after N w2 w3 p a b : unchanged w2 w3 ->
    carried (copied C N w w2) p a b -> carried (copied C N w w3) p a b.
  Proof. intros H. apply carried_mono. intros l m. now apply copied_mono. Qed.

  (** * Leaves *)
  Lemma leaf_send t v : portable_leaf E t v -> exists j,
    (forall rec w1, p_serialize E C rec so (PLeaf t) v w1 = (Ok j, w1)) /\
    (forall rec o w1, p_deserialize E C rec o (PLeaf t) j w1 = (Ok v, w1)) /\
    (v <> VNone -> j <> VNone) /\
    (t <> LfColor -> (hashable v = true -> hashable j = true) /\ (j = v \/ exists s, j = VStr s)) /\
    leaf_to_json E t v = Ok j /\ leaf_from_json E t j = Ok v.
  Proof.
    intros H. destruct (leaf_round E HS t v H) as (j & H1 & H2 & H3 & H4). exists j. split; [|split; [|split; [|auto]]].
    - intros rec w1. cbn [p_serialize]. destruct (is_none v) eqn:En.
      + destruct v; try discriminate. rewrite (proj2 H3 eq_refl). reflexivity.
      + unfold lift. now rewrite H1.
    - intros rec o w1. cbn [p_deserialize]. destruct (is_none j) eqn:En.
      + destruct j; try discriminate. rewrite (proj1 H3 eq_refl). reflexivity.
      + unfold lift. now rewrite H2.
    - intros Hv Hj. now apply Hv, H3.
  Qed.

  (** * Lists *)
  Lemma list_send q xs : Forall (value_ready q) xs -> exists n0 js,
    (forall n w1, n0 <= n -> looks w1 -> (forall x m, In x xs -> holds_inst q x m -> clear_below m w1) ->
       exists w2, mapM (p_serialize E C (X n) so q) xs w1 = (Ok js, w2) /\ unchanged w1 w2) /\
    (forall n w1 o, n0 <= n -> o_trusted o = o_trusted d_o -> o_valid o = false ->
       exists ys w2, mapM (p_deserialize E C (X n) o q) js w1 = (Ok ys, w2) /\ unchanged w1 w2 /\
         Forall2 (carried (copied C (length (w_heap w1)) w w2) q) xs ys /\
         (no_union q -> Forall (fun x => hashable x = true) xs -> ForallOrdPairs (fun x y => py_eq x y = false) xs ->
          ForallOrdPairs (fun x y => py_eq x y = false) ys)).
  Proof.
    induction 1 as [|x xs (n1 & j & S1 & D1 & _) HF (n2 & js & S2 & D2)].
    - exists 0, []. split; intros; cbn [mapM]; [exists w1; split; [reflexivity|apply unchanged_refl]|].
      exists [], w1. split; [reflexivity|]. split; [apply unchanged_refl|]. split; [constructor|]. intros; constructor.
    - exists (max n1 n2), (j :: js). split.
      + intros n w1 Hn Hl Hc. cbn [mapM]. destruct (S1 n w1) as (wa & K1 & U1); [lia|exact Hl|intros m Hm; eapply Hc; [now left|exact Hm]|].
        destruct (S2 n wa) as (w2 & K2 & U2); [lia|eapply looks_unchanged; eauto| |].
        { intros y m Hy Hm. eapply clear_unchanged; [|exact U1]. eapply Hc; [right; exact Hy|exact Hm]. }
        exists w2. rewrite (bind_ok _ _ _ _ _ K1), (bind_ok _ _ _ _ _ K2). split; [reflexivity|eapply unchanged_trans; eauto].
      + intros n w1 o Hn Ht Hv. cbn [mapM]. destruct (D1 n w1 o) as (y & wa & K1 & U1 & C1); [lia|exact Ht|exact Hv|].
        destruct (D2 n wa o) as (ys & w2 & K2 & U2 & C2 & P2); [lia|exact Ht|exact Hv|].
        exists (y :: ys), w2. rewrite (bind_ok _ _ _ _ _ K1), (bind_ok _ _ _ _ _ K2). split; [reflexivity|].
        split; [eapply unchanged_trans; eauto|]. split.
        * constructor; [eapply carried_after; eauto|]. clear - C2 U1 U2. induction C2; constructor; auto. eapply carried_later; eauto.
        * intros Hu Hh Hp. inversion Hh as [|? ? Hh1 Hh2]; inversion Hp as [|? ? Hp1 Hp2]; subst. constructor; [|auto].
          clear - C1 C2 Hu Hh1 Hp1. induction C2 as [|x' y' xs ys HC C2 IH]; constructor; inversion Hp1 as [|? ? Hn Hp']; subst.
          { destruct (py_eq y y') eqn:Ey; auto. rewrite <- Hn. symmetry. eapply copies_apart; [exact Hu|exact Hh1| | |exact Ey].
            - apply carried_copies. exact C1.
            - apply carried_copies. exact HC. }
          { apply IH; auto. }
  Qed.

  (** * Dictionaries *)
  Definition key_json (t : leaf) (k j : val) : Prop :=
    leaf_from_json E t j = Ok k /\ hashable j = true /\ (j = k \/ exists s, j = VStr s).
  Lemma keys_apart t k j k' j' : key_json t k j -> key_json t k' j' -> py_eq k k = true -> py_eq k k' = false -> py_eq j j' = false.
  Proof.
    intros (F1 & _ & H1) (F2 & _ & H2) Hr Hd. destruct (py_eq j j') eqn:Ej; auto. exfalso.
    assert (S : j = j' -> False) by (intros ->; rewrite F2 in F1; injection F1 as ->; congruence).
    destruct H1 as [->|(s & ->)]; [destruct H2 as [->|(s' & ->)]|].
    - congruence.
    - apply py_eq_str in Ej. auto.
    - apply py_str_eq in Ej. auto.
  Qed.
  Lemma dict_send t vp d : t <> LfColor ->
    Forall (fun kx => (portable_leaf E t (fst kx) /\ hashable (fst kx) = true /\ py_eq (fst kx) (fst kx) = true) /\ value_ready vp (snd kx)) d ->
    distinct_keys d -> exists n0 js, distinct_keys js /\ Forall (fun kx => hashable (fst kx) = true) js /\
    (forall n w1, n0 <= n -> looks w1 -> (forall k x m, In (k, x) d -> holds_inst vp x m -> clear_below m w1) ->
       exists w2, mapM (fun kx => let* k := p_serialize E C (X n) so (PLeaf t) (fst kx) in
              let* x := p_serialize E C (X n) so vp (snd kx) in ret (k, x)) d w1 = (Ok js, w2) /\ unchanged w1 w2) /\
    (forall n w1 o, n0 <= n -> o_trusted o = o_trusted d_o -> o_valid o = false ->
       exists ys w2, mapM (fun kx => let* k := p_deserialize E C (X n) o (PLeaf t) (fst kx) in
              let* x := p_deserialize E C (X n) o vp (snd kx) in ret (k, x)) js w1 = (Ok ys, w2) /\ unchanged w1 w2 /\
         Forall2 (fun x y => fst y = fst x /\ carried (copied C (length (w_heap w1)) w w2) vp (snd x) (snd y)) d ys).
  Proof.
    intros Ht HF Hd. assert (G : exists n0 js, Forall2 (fun kx jx => key_json t (fst kx) (fst jx)) d js /\
      (forall n w1, n0 <= n -> looks w1 -> (forall k x m, In (k, x) d -> holds_inst vp x m -> clear_below m w1) ->
       exists w2, mapM (fun kx => let* k := p_serialize E C (X n) so (PLeaf t) (fst kx) in
              let* x := p_serialize E C (X n) so vp (snd kx) in ret (k, x)) d w1 = (Ok js, w2) /\ unchanged w1 w2) /\
      (forall n w1 o, n0 <= n -> o_trusted o = o_trusted d_o -> o_valid o = false ->
       exists ys w2, mapM (fun kx => let* k := p_deserialize E C (X n) o (PLeaf t) (fst kx) in
              let* x := p_deserialize E C (X n) o vp (snd kx) in ret (k, x)) js w1 = (Ok ys, w2) /\ unchanged w1 w2 /\
         Forall2 (fun x y => fst y = fst x /\ carried (copied C (length (w_heap w1)) w w2) vp (snd x) (snd y)) d ys)).
    { clear Hd. induction HF as [|[k x] d [(Hk & Hh & _) (n1 & j & S1 & D1 & _)] HF (n2 & js & Kj & S2 & D2)]; cbn [fst snd] in *.
      - exists 0, []. split; [constructor|]. split; intros; cbn [mapM]; [exists w1; split; [reflexivity|apply unchanged_refl]|].
        exists [], w1. split; [reflexivity|]. split; [apply unchanged_refl|constructor].
      - destruct (leaf_send t k Hk) as (jk & Sk & Dk & _ & Hj & _ & Fk). destruct (Hj Ht) as [Hj1 Hj2].
        exists (max n1 n2), ((jk, j) :: js). split; [|split].
        + constructor; [split; [exact Fk|split; auto]|exact Kj].
        + intros n w1 Hn Hl Hc. cbn [mapM]. cbn [fst snd]. destruct (S1 n w1) as (wa & K1 & U1); [lia|exact Hl|intros m Hm; eapply Hc; [now left|exact Hm]|].
          destruct (S2 n wa) as (w2 & K2 & U2); [lia|eapply looks_unchanged; eauto| |].
          { intros k' y m Hy Hm. eapply clear_unchanged; [|exact U1]. eapply Hc; [right; exact Hy|exact Hm]. }
          exists w2. split; [|eapply unchanged_trans; eauto].
          erewrite bind_ok; [|rewrite (bind_ok _ _ _ _ _ (Sk (X n) w1)), (bind_ok _ _ _ _ _ K1); reflexivity].
          rewrite (bind_ok _ _ _ _ _ K2). reflexivity.
        + intros n w1 o Hn Ho Hv. cbn [mapM]. cbn [fst snd]. destruct (D1 n w1 o) as (y & wa & K1 & U1 & C1); [lia|exact Ho|exact Hv|].
          destruct (D2 n wa o) as (ys & w2 & K2 & U2 & C2); [lia|exact Ho|exact Hv|].
          exists ((k, y) :: ys), w2. split; [|split; [eapply unchanged_trans; eauto|]].
          * erewrite bind_ok; [|rewrite (bind_ok _ _ _ _ _ (Dk (X n) o w1)), (bind_ok _ _ _ _ _ K1); reflexivity].
            rewrite (bind_ok _ _ _ _ _ K2). reflexivity.
          * constructor; [split; [reflexivity|eapply carried_after; eauto]|]. clear - C2 U1 U2. induction C2 as [|? ? ? ? [? ?]]; constructor; auto.
            split; auto. eapply carried_later; eauto. }
    destruct G as (n0 & js & Kj & S0 & D0). exists n0, js. split; [|split; [|auto]].
    - clear - Kj Hd HF. induction Kj as [|kx jx d js K Kj IH]; [constructor|]. inversion HF as [|? ? [(_ & _ & Hr) _] HF']; subst.
      inversion Hd as [|? ? Hd1 Hd2]; subst. constructor; [|apply IH; auto]. clear - K Kj Hr Hd1.
      induction Kj as [|kx' jx' d js K' Kj IH]; constructor; inversion Hd1; subst; auto. eapply keys_apart; eauto.
    - clear - Kj. induction Kj as [|kx jx d js (_ & K & _) Kj IH]; constructor; auto.
  Qed.

  (** * Unions *)
  Lemma unread_done x j n o w1 : unread E x j -> j <> VNone -> 1 <= n ->
    exists e w2, (let* out := p_deserialize E C (X n) o x j in p_validate E C (X n) x None "" out ;; ret out) w1 = (Exc e, w2) /\
      is_generic e = true /\ unchanged w1 w2.
  Proof.
    intros H Hj Hn. destruct x as [t| | | |cid]; cbn [unread] in H; try contradiction; try destruct H as [(e & He & Hg)|(y & Hy & Hr)].
    - exists e, w1. cbn [p_deserialize]. rewrite (is_none_false _ Hj). unfold lift, bind at 1. rewrite He. split; [reflexivity|]. split; [exact Hg|apply unchanged_refl].
    - destruct (leaf_refused E C U t y n None "" w1 Hr (inside_none w1)) as (e & w2 & K & Hg & HU).
      exists e, w2. split; [|auto]. rewrite (bind_ok _ _ w1 w1 y) by (cbn [p_deserialize]; rewrite (is_none_false _ Hj); unfold lift; now rewrite Hy).
      unfold bind. now rewrite K.
    - exists ExValue, w1. split; [|split; [reflexivity|apply unchanged_refl]]. cbn [p_deserialize]. rewrite (is_none_false _ Hj).
      destruct n as [|n]; [lia|]. cbn [exec step]. unfold bind at 1. unfold has_deserialize. destruct j as [| | | | | | | | | | | | |d0|]; try reflexivity. now destruct (H d0).
  Qed.

  Lemma value_send p : forall v, portable p v -> (forall m, holds_inst p v m -> ready m) -> value_ready p v.
  Proof.
    induction p as [t|k q mn mx co IH|kp vp co IHk IHv|si ps IH|cid] using ptype_ind'; intros v Hp Hr; cbn [RoundSpec.portable holds_inst] in *.
    - destruct (leaf_send t v Hp) as (j & S1 & D1 & Hn & _). exists 0, j. split; [|split; [|exact Hn]].
      + intros n w1 _ _ _. exists w1. split; [apply S1|apply unchanged_refl].
      + intros n w1 o _ _ _. exists v, w1. split; [apply D1|]. split; [apply unchanged_refl|reflexivity].
    - destruct Hp as (xs & Hv & HF & Hs). assert (Hit : py_iter v = Ok xs) by (unfold of_kind in Hv; subst v; destruct k; reflexivity).
      assert (Hvn : is_none v = false) by (unfold of_kind in Hv; subst v; destruct k; reflexivity).
      destruct (list_send q xs) as (n0 & js & S1 & D1).
      { apply Forall_forall. intros x Hx. rewrite Forall_forall in HF. apply IH; auto. intros m Hm. apply Hr. eauto. }
      exists n0, (VList js). split; [|split; [|discriminate]].
      + intros n w1 Hn Hl Hc. destruct (S1 n w1 Hn Hl) as (w2 & K & HU); [intros x m Hx Hm; apply Hc; cbn [holds_inst]; eauto|].
        exists w2. split; [|exact HU]. cbn [p_serialize]. rewrite Hvn. rewrite (bind_ok _ _ w1 w1 xs) by (unfold lift; now rewrite Hit).
        rewrite (bind_ok _ _ _ _ _ K). reflexivity.
      + intros n w1 o Hn Ht Ho. destruct (D1 n w1 o Hn Ht Ho) as (ys & w2 & K & HU & HC & HP).
        set (b := match k with KTuple => VTuple ys | KList => VList ys | KSet => VSet ys end).
        assert (Hb : of_kind k b ys) by (unfold of_kind, b; reflexivity).
        exists b, w2. split; [|split; [exact HU|]].
        * cbn [p_deserialize is_none]. rewrite (bind_ok _ _ w1 w1 js) by reflexivity. rewrite (bind_ok _ _ _ _ _ K).
          unfold lift. rewrite (build_id k ys b Hb); [reflexivity|]. intros Hk. destruct (Hs Hk) as (Hu & Hh & Hd). split; [|auto].
          clear - HC Hh. induction HC; constructor; inversion Hh; subst; auto.
          rewrite <- (copies_hashable _ _ _ _ (carried_copies _ _ _ _ H)). auto.
        * exists xs, ys. split; [exact Hv|]. split; [exact Hb|]. split; [exact HC|]. intros Hk. destruct (Hs Hk) as (Hu & Hh & Hd). auto.
    - destruct Hp as (t & d & -> & Ht & -> & Hd & HF). destruct (dict_send t vp d Ht) as (n0 & js & Hdj & Hhj & S1 & D1); auto.
      { apply Forall_forall. intros [k x] Hx. rewrite Forall_forall in HF. destruct (HF _ Hx) as [H1 H2]. split; auto. apply IHv; auto.
        intros m Hm. apply Hr. eauto 8. }
      exists n0, (VDict js). split; [|split; [|discriminate]].
      + intros n w1 Hn Hl Hc. destruct (S1 n w1 Hn Hl) as (w2 & K & HU); [intros k x m Hx Hm; apply Hc; cbn [holds_inst]; eauto 8|].
        exists w2. split; [|exact HU]. cbn [p_serialize is_none]. cbn [p_serialize] in K. rewrite (bind_ok _ _ _ _ _ K).
        rewrite (bind_ok _ _ w2 w2 js); [reflexivity|]. unfold lift. now rewrite pairs_id.
      + intros n w1 o Hn Ho Hv. destruct (D1 n w1 o Hn Ho Hv) as (ys & w2 & K & HU & HC). exists (VDict ys), w2. split; [|split; [exact HU|]].
        * cbn [p_deserialize is_none]. cbn [p_deserialize] in K. rewrite (bind_ok _ _ _ _ _ K).
          assert (Hk : map fst ys = map fst d) by (clear - HC; induction HC as [|? ? ? ? [H ?] HC IH]; cbn; congruence).
          rewrite (bind_ok _ _ w2 w2 ys); [reflexivity|]. unfold lift. rewrite pairs_id; auto.
          { apply Forall_forall. intros [k x] Hx. apply (in_map fst) in Hx. rewrite Hk in Hx. apply in_map_iff in Hx as ([k' x'] & Hk' & Hx).
            rewrite Forall_forall in HF. destruct (HF _ Hx) as [(_ & H1 & _) _]. cbn in *. now subst. }
          { cbn [app]. rewrite distinct_keys_map in *. now rewrite Hk. }
        * exists d, ys. auto.
    - clear IH. destruct Hp as (before & q & after & -> & Hb & Hq).
      assert (In q (before ++ q :: after)) as Hin by (apply in_app_iff; right; now left).
      assert (HI : forall m, q = PInst m -> forall l, v = VInst l -> (fix some (ps : list ptype) : Prop :=
                        match ps with [] => False | q :: r => holds_inst q v l \/ some r end) (before ++ q :: after)).
      { intros cid -> l ->. clear. induction before as [|x before IH]; [left; reflexivity|right; exact IH]. }
      destruct Hq as [(t & j & -> & Hl & Hv & Hj & Hjd & Hun)|(cid & m & i & c & -> & -> & HR & -> & Hsc & Hi & Hci & Hcc & Hcn & Hnm)].
      + destruct (leaf_send t v Hl) as (j' & S1 & D1 & Hn1 & _ & Hj1 & _). rewrite Hj in Hj1. injection Hj1 as <-.
        exists 2, j. split; [|split; [|exact Hn1]].
        * intros n w1 Hn Hlk _. destruct (before_refused E C U w before v v n None "" Hb) with (w1 := w1) as (w2 & K & HU); auto.
          { intros l i ->. now destruct (leaf_no_inst E t _ l Hl). }
          { left. split; auto. intros l. now apply (leaf_no_inst E t). }
          { apply inside_none. }
          exists (w_tick w2). split; [|eapply unchanged_trans; [exact HU|apply unchanged_tick]].
          cbn [p_serialize]. rewrite (is_none_false _ Hv). match goal with |- ?g _ w1 = _ => set (go := g) end.
          assert (G : forall before w1, each (fun p wa (_ : unit) wb => rejects (p_validate E C (X n) p None "" v) wa wb) before w1 (map (fun _ => tt) before) w2 ->
            go (before ++ PLeaf t :: after) w1 = go (PLeaf t :: after) w2).
          { clear. induction before as [|x before IH]; intros w1 H; inversion H; subst; [reflexivity|].
            match goal with HH : rejects _ _ _ |- _ => destruct HH as (e & He & Hg) end. cbn [app].
            change (go (x :: before ++ PLeaf t :: after) w1) with ((let* r := outcome (p_validate E C (X n) x None "" v) in
              match r with Ok _ => p_serialize E C (X n) so x v | Exc e => if is_generic e then go (before ++ PLeaf t :: after) else throw e end) w1).
            unfold bind, outcome. rewrite He, Hg. now apply IH. }
          rewrite (G _ _ K). change (go (PLeaf t :: after) w2) with ((let* r := outcome (p_validate E C (X n) (PLeaf t) None "" v) in
              match r with Ok _ => p_serialize E C (X n) so (PLeaf t) v | Exc e => if is_generic e then go after else throw e end) w2).
          unfold bind, outcome. rewrite (leaf_kept E C U t v n None "" w2 (proj1 Hl)). apply S1.
        * intros n w1 o Hn Ht Ho. specialize (Hn1 Hv).
          set (o1 := DOpt (o_trusted o) (o_strict o || si) si).
          assert (K : exists w2, p_deserialize E C (X n) o (PUnion si (before ++ PLeaf t :: after)) j w1 = (Ok v, w2) /\ unchanged w1 w2).
          { cbn [p_deserialize]. rewrite (is_none_false _ Hn1). fold o1. cbv zeta.
            match goal with |- exists w2, (match ?cn with None => ?g _ | Some _ => _ end) w1 = _ /\ _ => set (go := g); replace cn with (@None val) by (destruct j as [| | | | | | | | | | | | |d0|]; auto; now destruct (Hjd d0)) end.
            clear Hb HI Hin Hr. revert w1. induction Hun as [|x before Hx Hun IH]; intros w1; cbn [app].
            - exists (w_tick w1). split; [|apply unchanged_tick].
              change (go (PLeaf t :: after) w1) with ((let* r := outcome (let* out := p_deserialize E C (X n) o1 (PLeaf t) j in p_validate E C (X n) (PLeaf t) None "" out ;; ret out) in
                match r with Ok out => ret out | Exc e => if is_generic e then go after else throw e end) w1).
              unfold outcome. unfold bind at 1. rewrite (bind_ok _ _ _ _ _ (D1 (X n) o1 w1)). rewrite (bind_ok _ _ _ _ _ (leaf_kept E C U t v n None "" w1 (proj1 Hl))). reflexivity.
            - destruct (unread_done x j n o1 w1 Hx Hn1) as (e & w2 & K & Hg & HU); [lia|].
              destruct (IH w2) as (w3 & K3 & HU3).
              exists w3. split; [|eapply unchanged_trans; eauto].
              change (go (x :: before ++ PLeaf t :: after) w1) with ((let* r := outcome (let* out := p_deserialize E C (X n) o1 x j in p_validate E C (X n) x None "" out ;; ret out) in
                match r with Ok out => ret out | Exc e => if is_generic e then go (before ++ PLeaf t :: after) else throw e end) w1).
              unfold outcome. unfold bind at 1. rewrite K, Hg. exact K3. }
          destruct K as (w2 & K & HU). exists v, w2. split; [exact K|]. split; [exact HU|]. left. split; auto. split; [intros l; now apply (leaf_no_inst E t)|]. eauto.
      + destruct (Hr m (HI cid eq_refl m eq_refl)) as (n0 & dj & S1 & D1 & Hcl).
        exists (max 2 n0), (VDict dj). split; [|split; [|discriminate]].
        * intros n w1 Hn Hlk Hclr. destruct (Hlk m i Hi) as (i1 & Hi1 & Hi1c & _).
          destruct (restorable_class C so d_o w _ _ _ HR Hi) as (c' & Hc1 & Hc2).
          destruct (before_refused E C U w before (VInst m) (VInst m) n None "" Hb) with (w1 := w1) as (w2 & K & HU); auto.
          { intros l i0 [= <-] Hi0. rewrite Hi in Hi0. injection Hi0 as <-. congruence. }
          { lia. }
          { right. exists m, m, i, i1. auto. }
          { apply inside_none. }
          destruct (S1 n w2) as (w3 & K3 & HU3); [lia|eapply looks_unchanged; eauto|eapply clear_unchanged; [apply Hclr; cbn [holds_inst]; apply (HI cid eq_refl m eq_refl)|exact HU]|].
          exists w3. split; [|eapply unchanged_trans; eauto].
          cbn [p_serialize is_none]. match goal with |- ?g _ w1 = _ => set (go := g) end.
          assert (G : forall before w1, each (fun p wa (_ : unit) wb => rejects (p_validate E C (X n) p None "" (VInst m)) wa wb) before w1 (map (fun _ => tt) before) w2 ->
            go (before ++ PInst cid :: after) w1 = go (PInst cid :: after) w2).
          { clear. induction before as [|x before IH]; intros w1 H; inversion H; subst; [reflexivity|].
            match goal with HH : rejects _ _ _ |- _ => destruct HH as (e & He & Hg) end. cbn [app].
            change (go (x :: before ++ PInst cid :: after) w1) with ((let* r := outcome (p_validate E C (X n) x None "" (VInst m)) in
              match r with Ok _ => p_serialize E C (X n) so x (VInst m) | Exc e => if is_generic e then go (before ++ PInst cid :: after) else throw e end) w1).
            unfold bind, outcome. rewrite He, Hg. now apply IH. }
          rewrite (G _ _ K). change (go (PInst cid :: after) w2) with ((let* r := outcome (p_validate E C (X n) (PInst cid) None "" (VInst m)) in
              match r with Ok _ => p_serialize E C (X n) so (PInst cid) (VInst m) | Exc e => if is_generic e then go after else throw e end) w2).
          unfold bind, outcome. rewrite (inst_kept E C U cid m i1 i c' None "" n w2 (unchanged_nth _ _ _ _ HU Hi1) Hi1c Hc1 Hc2).
          cbn [p_serialize is_none]. exact K3.
        * intros n w1 o Hn Ht Ho. set (o1 := DOpt (o_trusted o) (o_strict o || false) false).
          destruct (D1 n w1 cid o1) as (m' & w2 & K & HU & HC); [lia|exact HR|exact Ht|reflexivity|].
          exists (VInst m'), w2. split; [|split; [exact HU|]].
          2: { right. exists m, m', cid. auto. }
          cbn [p_deserialize is_none]. fold o1. cbv zeta. subst cid. rewrite (Hcl Hsc i c Hi Hcc).
          replace (truthy (VStr (c_name c))) with true by (cbn [truthy]; destruct (c_name c); [congruence|reflexivity]).
          assert (G : forall fallback pre, Forall (fun x => RoundSpec.refused E C U w x (VInst m)) pre ->
            Forall (fun x => forall k c', x = PInst k -> nth_error (ct_cls C) k = Some c' -> c_name c' <> c_name c) pre ->
            (fix go (qs : list ptype) : M val :=
               match qs with
               | [] => fallback
               | q :: r =>
                   match q with
                   | PInst cid =>
                       let* k := class_of C cid in
                       if py_eq (VStr (c_name c)) (VStr (c_name k)) then p_deserialize E C (X n) o1 q (VDict dj) else go r
                   | _ => go r
                   end
               end) (pre ++ PInst (i_cls i) :: after) w1 = (Ok (VInst m'), w2)).
          { intros fallback pre. match goal with |- _ -> _ -> ?g _ w1 = _ => set (go := g) end. clear Hb Hnm.
            intros Hb. induction Hb as [|x pre Hx Hb IH]; intros Hnm; cbn [app].
            - change (go (PInst (i_cls i) :: after) w1) with ((let* k := class_of C (i_cls i) in
                 if py_eq (VStr (c_name c)) (VStr (c_name k)) then p_deserialize E C (X n) o1 (PInst (i_cls i)) (VDict dj) else go after) w1).
              rewrite (bind_ok _ _ w1 w1 c) by (unfold class_of, lift; now rewrite Hcc). cbn [py_eq]. rewrite String.eqb_refl.
              cbn [p_deserialize is_none]. exact K.
            - inversion Hnm as [|? ? Hx' Hnm']; subst. destruct x as [t| | | |cid]; cbn [RoundSpec.refused] in Hx; try contradiction.
              + change (go (PLeaf t :: pre ++ PInst (i_cls i) :: after) w1) with (go (pre ++ PInst (i_cls i) :: after) w1). now apply IH.
              + change (go (PInst cid :: pre ++ PInst (i_cls i) :: after) w1) with ((let* k := class_of C cid in
                 if py_eq (VStr (c_name c)) (VStr (c_name k)) then p_deserialize E C (X n) o1 (PInst cid) (VDict dj) else go (pre ++ PInst (i_cls i) :: after)) w1).
                destruct Hx as (Hk & _). destruct (nth_error (ct_cls C) cid) as [ck|] eqn:Eck; [|contradiction].
                rewrite (bind_ok _ _ w1 w1 ck) by (unfold class_of, lift; now rewrite Eck). cbn [py_eq].
                destruct (String.eqb (c_name c) (c_name ck)) eqn:En; [|now apply IH]. apply String.eqb_eq in En.
                exfalso. eapply Hx'; eauto. }
          apply (G _ before); auto.
    - destruct Hp as (m & -> & HR). destruct (Hr m eq_refl) as (n0 & dj & S1 & D1 & _). exists n0, (VDict dj). split; [|split; [|discriminate]].
      + intros n w1 Hn Hl Hc. cbn [p_serialize is_none]. apply S1; auto. apply Hc. reflexivity.
      + intros n w1 o Hn Ht Ho. destruct (D1 n w1 cid o Hn HR Ht Ho) as (m' & w2 & K & HU & HC). exists (VInst m'), w2.
        split; [exact K|]. split; [exact HU|]. exists m, m'. auto.
  Qed.
End Send.
