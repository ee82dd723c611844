(** Facts about links: creating them, with and without updating the target. *)
From Verif Require Import World WorldFrame WorldSpec WorldInv WorldSet WorldFacts ContainerFacts AccessFacts LinkSpec LinkFacts LinkHalt LinkSync LinkNet.
Local Open Scope string_scope.
Local Open Scope list_scope.
Local Open Scope nat_scope.

Section Now.
  Variables (E : env) (C : ctable) (U : ucode).
  Notation ex := (exec E C U).

  (** ** Rejected items *)
  Lemma item_eqb_spec (s t : item) : Bool.reflect (s = t) (item_eqb s t).
  Proof.
    destruct s as [l n], t as [l' n']. unfold item_eqb. cbn [fst snd]. destruct (Nat.eqb_spec l l') as [->|H]; cbn [andb]; [|constructor; congruence].
    destruct (String.eqb_spec n n') as [->|H]; constructor; congruence.
  Qed.
  Lemma lacks_item w a : lacks C w a -> forall rec, link_item E C U rec a w = (Exc ExValue, w).
  Proof.
    intros (c & i & Hi & Hc & H1 & H2 & H3) rec. unfold link_item, outcome, bind, has_getattr, inst_class, class_of, get_inst, bind, lift, get_inst.
    rewrite Hi, Hc, H1, Hi, H2, H3. reflexivity.
  Qed.
  Lemma link_rejected n s t now chg f w : linkable C w s \/ lacks C w s -> linkable C w t \/ lacks C w t ->
    lacks C w s \/ lacks C w t \/ s = t -> ex (S n) (COp (OLink s t now chg f)) w = (Exc ExValue, w).
  Proof.
    intros Hs Ht H. cbn [exec step]. unfold dlink_new. unfold bind at 1.
    destruct Hs as [(p & Hs)|Hs]; [|now rewrite (lacks_item w s Hs)]. rewrite (proj2 (settable_item E C U w s p Hs)).
    unfold bind at 1. destruct Ht as [(q & Ht)|Ht]; [|now rewrite (lacks_item w t Ht)]. rewrite (proj2 (settable_item E C U w t q Ht)).
    assert (s = t) as ->.
    { destruct H as [H|[H| ->]]; [| |reflexivity].
      - pose proof (lacks_item w s H (ex n)) as K. rewrite (proj2 (settable_item E C U w s p Hs)) in K. discriminate.
      - pose proof (lacks_item w t H (ex n)) as K. rewrite (proj2 (settable_item E C U w t q Ht)) in K. discriminate. }
    destruct (item_eqb_spec t t); [reflexivity|congruence].
  Qed.
  Lemma link_too_few n items now chg w : length items < 2 -> ex (S n) (COp (OLinkAll items now chg)) w = (Exc ExValue, w).
  Proof. intros H. cbn [exec step]. unfold link_all. unfold item in *. apply Nat.ltb_lt in H. now rewrite H. Qed.

  (** ** One link, updating now *)
  Definition with_link (w : world) (d : dlink) : world := w_setlinks (w_links w ++ [d]) w.
  Definition with_listener (w : world) (a : item) (m : lmode) (k : nat) : world :=
    w_upd (fst a) (fun i => i_setlst (i_lst i ++ map (fun n => Lst n m (LLink k)) [snd a]) i) w.
  Lemma with_link_old w d k d' : nth_error (w_links w) k = Some d' -> nth_error (w_links (with_link w d)) k = Some d'.
  Proof. intros H. cbn [with_link w_setlinks w_links]. rewrite nth_error_app1; [exact H|]. apply nth_error_Some. congruence. Qed.
  Lemma with_link_new w d : nth_error (w_links (with_link w d)) (length (w_links w)) = Some d.
  Proof. cbn [with_link w_setlinks w_links]. now rewrite nth_error_app2, Nat.sub_diag by reflexivity. Qed.

  Lemma with_link_consistent w d P f : network C U w -> consistent E C U w P f -> consistent E C U (with_link w d) P f.
  Proof.
    intros Hw [A B Cc D L]. constructor; auto.
    - intros a k m Ha Hin. destruct (nw_wired _ _ _ Hw a m k Hin) as (d' & Hd' & _). exists d'. now apply with_link_old.
    - intros a k d' m Ha (Hk & Hu & Hr). apply (L a k d' m Ha). split; [|split; [exact Hu|exact Hr]].
      destruct (nw_wired _ _ _ Hw a m k Hr) as (d2 & Hd2 & _). pose proof (with_link_old w d k d2 Hd2). congruence.
  Qed.
  Lemma with_link_drives w d m a b k0 : network C U w -> k0 = length (w_links w) -> drives w m a b -> drives (set_updating k0 true (with_link w d)) m a b.
  Proof.
    intros Hw -> (k & d' & (Hk & Hu & Hr) & Ht & Hup & Hq).
    assert (k < length (w_links w)) by (apply nth_error_Some; congruence).
    exists k, d'. split; [split; [|split; [exact Hu|]]|split; [exact Ht|split; [exact Hup|]]].
    - rewrite upd_other by lia. now apply with_link_old.
    - rewrite (net_registered (with_link w d)) by apply set_updating_net. exact Hr.
    - unfold set_updating. rewrite w_updlink_quar. exact Hq.
  Qed.
  Lemma with_link_spreads w d f a b k0 : network C U w -> k0 = length (w_links w) -> spreads C w f a b -> spreads C (set_updating k0 true (with_link w d)) f a b.
  Proof.
    intros Hw H0 H. induction H as [a|a b c m Hd Hm Hl _ IH]; [constructor|].
    apply (spread_next _ _ _ a b c m); auto; [|now apply with_link_drives].
    apply (differs_same C (with_link w d)); [apply set_updating_net|apply upd_value|exact Hd].
  Qed.
  Lemma with_link_reaches w d a b k0 : network C U w -> reaches (set_updating k0 true (with_link w d)) a b -> reaches w a b.
  Proof.
    intros Hw H. induction H as [a|a b c (k & d' & m & (Hk & Hu & Hr) & Ht) _ IH]; [constructor|].
    eapply reach_next; [|exact IH]. rewrite (net_registered (with_link w d)) in Hr by apply set_updating_net. change (registered (with_link w d)) with (registered w) in Hr.
    destruct (nw_wired _ _ _ Hw a m k Hr) as (d2 & Hd2 & _). pose proof (with_link_old w d k d2 Hd2) as K.
    destruct (net_link _ _ _ _ (set_updating_net k0 true (with_link w d)) K) as (d3 & Hd3 & _ & Et & _ & Eu).
    rewrite Hk in Hd3. injection Hd3 as <-. exists k, d2, m. split; [split; [exact Hd2|split; [congruence|exact Hr]]|congruence].
  Qed.

  Lemma dlink_now w P f s t p q chg g u : network C U w -> consistent E C U w P f -> P t -> s <> t ->
    settable C w s p -> settable C w t q -> match g with Some x => forall v, computes (u_trans U x v) | None => True end ->
    value_of w s = Some u -> carries E C U w (DL s t g false false) u (f t) ->
    let k := length (w_links w) in let d := DL s t g false false in
    exists depth w4, same_links (with_link w d) w4 /\
      (forall n, depth <= n -> dlink_new E C U (ex n) s t true chg g w = (Ok (VObj k), with_listener w4 s (lmd chg) k)) /\
      (forall b, ~ reaches w t b -> value_of w4 b = value_of w b) /\
      (forall b, P b -> value_of w4 b = value_of w b \/ value_of w4 b = Some (f b)) /\
      (forall b, drives w MSet t b -> value_of w4 b = Some (f b)) /\
      forall b, spreads C w f t b -> value_of w4 b = Some (f b).
  Proof.
    intros Hw Hc HP Hne Hs Ht Hg Hu (v1 & q' & Htr & Hv1 & Hq' & Hval) k d. cbn [d_tgt d_trans] in *.
    set (w1 := with_link w d). assert (Hw1 : network C U w1) by (eapply add_link; eauto).
    assert (Hk : nth_error (w_links w1) k = Some d) by apply with_link_new.
    set (w2 := set_updating k true w1). assert (N2 : same_net w1 w2) by apply set_updating_net.
    assert (V2 : forall b, value_of w2 b = value_of w b) by (intros b; exact (upd_value k true w1 b)).
    assert (Hc2 : consistent E C U w2 P f).
    { eapply cons_keep; [exact N2|intros b _; left; rewrite V2; reflexivity|]. now apply with_link_consistent. }
    assert (Ho2 : only_links C U w2) by (eapply net_only; [exact N2|apply Hw1]).
    assert (Hs2 : settable C w2 s p) by (eapply net_settable; [exact N2|exact Hs]).
    assert (Ht2 : settable C w2 t q') by (eapply net_settable; [exact N2|exact Hq']).
    destruct (assign_spreads E C U w2 P f t q' v1 Ho2 Hc2 HP Hv1 Ht2 Hval) as (depth & r & w3 & H1 & H2 & H3 & H4 & H5 & H6).
    set (w4 := set_updating k false w3). assert (V4 : forall b, value_of w4 b = value_of w3 b) by (intros; apply upd_value).
    exists (S depth), w4.
    assert (S4 : same_links w1 w4).
    { destruct (updating_touch (fun _ => True) k d w1 w3 Hk eq_refl) as [S _]; [|exact S]. split; [exact H2|]. intros b Hb. destruct (Hb I). }
    split; [exact S4|]. split; [|split; [|split; [|split]]].
    - intros n Hn. rewrite (dlink_eq E C U _ s t p q) by assumption. unfold dlink_rest. destruct (item_eqb_spec s t); [contradiction|].
      unfold bind at 1, get_w. cbv zeta. unfold bind at 1, mod_w. change (w_setlinks (w_links w ++ [DL s t g false false]) w) with w1.
      assert (G : link_update U (ex n) (length (w_links w)) w1 = (Ok r, w4)).
      { unfold link_update. unfold bind at 1, get_w. fold k. rewrite Hk. cbn [d d_unlinked d_updating orb d_src d_tgt d_trans]. unfold bind at 1, mod_w, fin.
        change (w_updlink k (fun d0 => DL (d_src d0) (d_tgt d0) (d_trans d0) (d_unlinked d0) true) w1) with w2.
        destruct n as [|n]; [lia|]. unfold bind at 1. rewrite (get_settable E C U n s p w2 Hs2), V2, Hu.
        assert (R : (let* v1 := match g with Some t => run (ex (S n)) (u_trans U t u) | None => ret u end in ex (S n) (COp (OSet (fst t) (snd t) v1))) w2 = (Ok r, w3)).
        { unfold bind. destruct g as [x|]; [rewrite Htr; cbn [run]; unfold ret|subst v1; unfold ret]; apply H1; lia. }
        rewrite R. reflexivity. }
      assert (G2 : (link_update U (ex n) (length (w_links w)) ;; ret tt) w1 = (Ok tt, w4)) by (unfold bind; now rewrite G).
      rewrite (bind_eq _ _ _ _ _ G2). unfold has_observe.
      assert (Hs4 : settable C w4 s p) by (eapply net_settable; [apply links_net; exact S4|exact Hs]).
      destruct Hs4 as (_ & d0 & (c & (i & Hi & Hci) & _) & _).
      assert (Hcl : inst_class C (fst s) w4 = (Ok c, w4)). { unfold inst_class, class_of, get_inst, bind, lift. now rewrite Hi, Hci. }
      unfold bind at 1. unfold bind at 1. rewrite Hcl. reflexivity.
    - intros b Hb. rewrite V4, H3, V2; [reflexivity|]. intros K. apply Hb. eapply with_link_reaches; eauto.
    - intros b Hb. rewrite V4, <- (V2 b). auto.
    - intros b Hb. rewrite V4. apply H5. apply with_link_drives; auto.
    - intros b Hb. rewrite V4. apply H6. apply with_link_spreads; auto.
  Qed.
  Lemma with_listener_value w a m k b : value_of (with_listener w a m k) b = value_of w b.
  Proof. unfold value_of, with_listener. now rewrite w_upd_stored. Qed.
  Lemma with_listener_links w a m k : w_links (with_listener w a m k) = w_links w.
  Proof. unfold with_listener, w_upd. destruct nth_error; reflexivity. Qed.
  Lemma with_listener_reg w a m k p b m' g : settable C w a p -> In g (registered (with_listener w a m k) (fst b) (snd b) m') <->
    In g (registered w (fst b) (snd b) m') \/ (m' = m /\ b = a /\ g = LLink k).
  Proof.
    intros (_ & d & (c & (i & Hi & Hc) & _) & _). unfold with_listener. rewrite registered_add, Hi. cbn [filter].
    destruct (Nat.eqb_spec (fst b) (fst a)) as [E1|E1]; cbn [andb].
    - destruct (lmode_eqb m m') eqn:E2.
      + apply lmode_eqb_eq in E2. rewrite in_app_iff. destruct (String.eqb_spec (snd b) (snd a)) as [E3|E3]; cbn [map In].
        * split; [intros [H|[<-|[]]]; [auto|right; split; [auto|split; [|reflexivity]]]|intros [H|(_ & _ & ->)]; auto]. destruct a, b; cbn in *; congruence.
        * split; [intros [H|[]]; auto|intros [H|(_ & -> & _)]; [auto|congruence]].
      + split; [auto|]. intros [H|(-> & _)]; [exact H|]. destruct m; discriminate.
    - split; [auto|]. intros [H|(_ & -> & _)]; [exact H|congruence].
  Qed.
  Lemma link_now w P f s t p q chg g u : network C U w -> consistent E C U w P f -> P t -> s <> t ->
    settable C w s p -> settable C w t q -> match g with Some x => forall v, computes (u_trans U x v) | None => True end ->
    value_of w s = Some u -> carries E C U w (DL s t g false false) u (f t) ->
    exists depth k w', (forall n, depth <= n -> ex n (COp (OLink s t true chg g)) w = (Ok (VObj k), w')) /\
      listens w' k (DL s t g false false) (if chg then MChange else MSet) s /\
      (forall b, ~ reaches w t b -> value_of w' b = value_of w b) /\
      (forall b, P b -> value_of w' b = value_of w b \/ value_of w' b = Some (f b)) /\
      (forall b, drives w MSet t b -> value_of w' b = Some (f b)) /\
      forall b, spreads C w f t b -> value_of w' b = Some (f b).
  Proof.
    intros Hw Hc HP Hne Hs Ht Hg Hu Hca. destruct (dlink_now w P f s t p q chg g u) as (depth & w4 & S4 & H1 & H2 & H3 & H4 & H5); auto.
    exists (S depth), (length (w_links w)), (with_listener w4 s (lmd chg) (length (w_links w))).
    split. { intros [|n] Hn; [lia|]. cbn [exec step]. apply H1. lia. }
    assert (Hs4 : settable C w4 s p) by (eapply net_settable; [apply links_net; exact S4|exact Hs]).
    split. { split; [|split; [reflexivity|]].
      - rewrite with_listener_links. destruct S4 as (_ & -> & _). apply with_link_new.
      - apply (with_listener_reg w4 s (lmd chg) _ p); auto. }
    repeat split; intros; rewrite with_listener_value; auto.
  Qed.
  Lemma link_later n w s t p q chg g : settable C w s p -> settable C w t q -> s <> t ->
    exists k w', ex (S n) (COp (OLink s t false chg g)) w = (Ok (VObj k), w') /\ listens w' k (DL s t g false false) (if chg then MChange else MSet) s /\
      forall b, value_of w' b = value_of w b.
  Proof.
    intros Hs Ht Hne. pose (k := length (w_links w)). pose (d := DL s t g false false). pose (w1 := with_link w d).
    assert (Hs1 : settable C w1 s p) by exact Hs.
    exists k, (with_listener w1 s (lmd chg) k). split.
    - cbn [exec step]. rewrite (dlink_eq E C U _ s t p q) by assumption. unfold dlink_rest. destruct (item_eqb_spec s t); [contradiction|].
      destruct Hs1 as (_ & d0 & (c & (i & Hi & Hci) & _) & _).
      assert (Hcl : inst_class C (fst s) w1 = (Ok c, w1)). { unfold inst_class, class_of, get_inst, bind, lift. now rewrite Hi, Hci. }
      unfold bind at 1, get_w. cbv zeta. unfold bind at 1, mod_w. change (w_setlinks (w_links w ++ [DL s t g false false]) w) with w1.
      unfold bind at 1, ret at 1. unfold has_observe. unfold bind at 1. unfold bind at 1. rewrite Hcl. reflexivity.
    - split.
      + split; [rewrite with_listener_links; apply with_link_new|]. split; [reflexivity|]. apply (with_listener_reg w1 s (lmd chg) k p); auto.
      + intros b. rewrite with_listener_value. reflexivity.
  Qed.

  (** ** All links, updating now *)
  Section All.
    Variables (items : list item) (v0 : val).
    Hypothesis Hv0 : v0 <> VUndef.
    Let P := fun b => In b items.
    Let f := fun _ : item => v0.
    Definition ready_for (w : world) : Prop := network C U w /\ consistent E C U w P f /\
      forall b, In b items -> exists p, settable C w b p /\ validated E C p v0 v0.
    Lemma step_now w s t chg : ready_for w -> In s items -> In t items -> s <> t -> value_of w s = Some v0 ->
      exists depth w', (forall n, depth <= n -> dlink_new E C U (ex n) s t true chg None w = (Ok (VObj (length (w_links w))), w')) /\ ready_for w' /\
        length (w_links w') = S (length (w_links w)) /\ value_of w' t = Some v0 /\
        (forall b, In b items -> value_of w b = Some v0 -> value_of w' b = Some v0) /\ (forall b, ~ In b items -> value_of w' b = value_of w b).
    Proof.
      intros (Hw & Hc & Hi) Hs Ht Hne Hv. destruct (Hi s Hs) as (p & Hp & Hvp). destruct (Hi t Ht) as (q & Hq & Hvq).
      destruct (dlink_now w P f s t p q chg None v0) as (depth & w4 & S4 & H1 & H2 & H3 & H4 & H5); auto.
      { exists v0, q. split; [reflexivity|]. split; [exact Hv0|]. split; [exact Hq|exact Hvq]. }
      set (k := length (w_links w)) in *. set (d := DL s t None false false) in *. set (w1 := with_link w d) in *.
      assert (Hw1 : network C U w1) by (eapply add_link; eauto).
      assert (Hc1 : consistent E C U w1 P f) by now apply with_link_consistent.
      assert (N4 : same_net w1 w4) by now apply links_net.
      assert (Hc4 : consistent E C U w4 P f) by (eapply cons_keep; [exact N4|exact H3|exact Hc1]).
      assert (Hs4 : settable C w4 s p) by (eapply net_settable; [exact N4|exact Hp]).
      set (w5 := with_listener w4 s (lmd chg) k) in *.
      assert (G5 : grown w w5). { change (grown w1 w5). eapply grown_trans; [apply grown_links; exact S4|]. apply grown_setlst. reflexivity. }
      assert (L5 : w_links w5 = w_links w ++ [d]). { unfold w5. rewrite with_listener_links. destruct S4 as (_ & -> & _). reflexivity. }
      exists depth, w5. split; [exact H1|]. split; [|split; [|split; [|split]]].
      - split; [|split].
        + pose proof (dlink_network E C U (ex depth) s t p q true chg None w (ex_intro _ depth eq_refl) Hw Hp Hq I) as [K _]. rewrite H1 in K by apply Nat.le_refl. exact K.
        + destruct Hc4 as [A B Cc D L]. constructor.
          * intros a Ha. destruct (A a Ha) as (Hu & p' & Hp' & Hcm & Hcu). split; [exact Hu|]. exists p'. split; [eapply grown_settable; [|exact Hp']; apply grown_setlst; reflexivity|].
            split; [exact Hcm|]. intros u. unfold w5. rewrite with_listener_value. apply Hcu.
          * intros a Ha. destruct (registered w5 (fst a) (snd a) MValidate) as [|g r] eqn:Er; [reflexivity|]. exfalso.
            assert (Hg : In g (registered w5 (fst a) (snd a) MValidate)) by (rewrite Er; now left). apply (with_listener_reg w4 s (lmd chg) k p) in Hg; [|exact Hs4].
            rewrite (B a Ha) in Hg. destruct Hg as [[]|(Hg & _)]. destruct chg; discriminate.
          * intros a cb m prev v Ha Hin. apply (with_listener_reg w4 s (lmd chg) k p) in Hin; [|exact Hs4]. destruct Hin as [Hin|(_ & _ & K)]; [eauto|discriminate].
          * intros a k' m Ha Hin. apply (with_listener_reg w4 s (lmd chg) k p) in Hin; [|exact Hs4]. unfold w5. rewrite with_listener_links.
            destruct Hin as [Hin|(_ & _ & [= ->])]; [eauto|]. exists d. destruct S4 as (_ & -> & _). apply with_link_new.
          * intros a k' d' m Ha (Hk & Hu & Hin). unfold w5 in Hk. rewrite with_listener_links in Hk. apply (with_listener_reg w4 s (lmd chg) k p) in Hin; [|exact Hs4].
            destruct Hin as [Hin|(-> & -> & [= ->])].
            { destruct (L a k' d' m Ha) as (L1 & L2 & u & q2 & L3 & L4 & L6 & L7); [split; auto|]. split; [exact L1|]. split; [exact L2|].
              exists u, q2. split; [exact L3|]. split; [exact L4|]. split; [|exact L7]. eapply grown_settable; [|exact L6]. apply grown_setlst; reflexivity. }
            assert (d' = d) as ->. { destruct S4 as (_ & S4 & _). rewrite S4 in Hk. unfold w1, k in Hk. rewrite with_link_new in Hk. congruence. }
            split; [reflexivity|]. split; [exact Ht|]. exists v0, q. split; [reflexivity|]. split; [exact Hv0|]. split; [|exact Hvq]. eapply grown_settable; eauto.
        + intros b Hb. destruct (Hi b Hb) as (p' & Hp' & Hval). exists p'. split; [eapply grown_settable; eauto|exact Hval].
      - rewrite L5, app_length. cbn. lia.
      - unfold w5. rewrite with_listener_value. apply (H5 t). constructor.
      - intros b Hb Hvb. unfold w5. rewrite with_listener_value. destruct (H3 b Hb) as [K|K]; [congruence|exact K].
      - intros b Hb. unfold w5. rewrite with_listener_value. apply H2. intros K. apply Hb. revert Ht. apply (reaches_in w P) with (2 := K).
        intros x y Hx (k' & d' & m' & Hl & <-). now apply (co_link _ _ _ _ _ _ Hc x k' d' m').
    Qed.
    (** each source is known to hold the value when its link is made *)
    Fixpoint ordered (hs : list item) (ps : list (item * item)) : Prop :=
      match ps with [] => True | (a, b) :: r => In a hs /\ ordered (b :: hs) r end.
    Lemma ordered_all hs ps : (forall a b, In (a, b) ps -> In a hs) -> ordered hs ps.
    Proof.
      revert hs. induction ps as [|[a b] r IH]; intros hs H; [exact I|]. split; [apply (H a b); now left|]. apply IH. intros x y Hx. right. apply (H x y). now right.
    Qed.
    Lemma ordered_app hs ps qs : ordered hs ps -> (forall hs', (forall a, In a hs \/ In a (map snd ps) -> In a hs') -> ordered hs' qs) -> ordered hs (ps ++ qs).
    Proof.
      revert hs. induction ps as [|[a b] r IH]; intros hs Ho H; [apply H; intros x [Hx|[]]; exact Hx|]. destruct Ho as [Ha Ho]. split; [exact Ha|].
      apply IH; [exact Ho|]. intros hs' Hh. apply H. intros x [Hx|[<-|Hx]]; apply Hh; [left; now right|left; now left|now right].
    Qed.
    Lemma all_now chg : forall ps hs w, ready_for w -> (forall a b, In (a, b) ps -> In a items /\ In b items /\ a <> b) -> ordered hs ps ->
      incl hs items -> (forall a, In a hs -> value_of w a = Some v0) ->
      exists depth w', (forall n, depth <= n -> mapM (fun ab => dlink_new E C U (ex n) (fst ab) (snd ab) true chg None) ps w = (Ok (map VObj (seq (length (w_links w)) (length ps))), w')) /\
        ready_for w' /\ (forall b, In b hs \/ In b (map snd ps) -> value_of w' b = Some v0) /\ (forall b, ~ In b items -> value_of w' b = value_of w b).
    Proof.
      induction ps as [|[a b] ps IH]; intros hs w Hr Hps Ho Hincl Hh.
      - exists 0, w. split; [reflexivity|]. split; [exact Hr|]. split; [intros x [Hx|[]]; auto|reflexivity].
      - destruct Ho as [Ha Ho]. destruct (Hps a b (or_introl eq_refl)) as (Ia & Ib & Hne).
        destruct (step_now w a b chg Hr Ia Ib Hne (Hh a Ha)) as (depth & w1 & H1 & H2 & H3 & H4 & H5 & H6).
        destruct (IH (b :: hs) w1 H2) as (depth' & w2 & K1 & K2 & K3 & K4).
        { intros x y Hx. apply Hps. now right. }
        { exact Ho. }
        { intros x [<-|Hx]; [exact Ib|now apply Hincl]. }
        { intros x [<-|Hx]; [exact H4|]. apply H5; [now apply Hincl|now apply Hh]. }
        exists (depth + depth'), w2. split; [|split; [exact K2|split]].
        + intros n Hn. cbn [mapM fst snd]. assert (E1 := H1 n ltac:(lia)). assert (E2 := K1 n ltac:(lia)). unfold item in *. rewrite (bind_eq _ _ _ _ _ E1), (bind_eq _ _ _ _ _ E2).
          rewrite H3. reflexivity.
        + intros x [Hx|[<-|Hx]]; apply K3; [left; now right|left; now left|now right].
        + intros x Hx. rewrite K4, H6; auto.
    Qed.
  End All.
  Lemma pairs_ordered a rest : NoDup (a :: rest) -> ordered [a] (all_pairs_of (a :: rest)).
  Proof.
    intros Hnd. unfold all_pairs_of. cbn [length seq flat_map]. apply ordered_app.
    - apply ordered_all. intros x y H. apply in_app_iff in H as [H|H]; [destruct H|]. apply in_flat_map in H as (j & _ & H). destruct (Nat.eqb 0 j); [destruct H|].
      cbn [nth_error] in H. destruct (@nth_error item (a :: rest) j); [|destruct H]. destruct H as [[= <- _]|[]]. now left.
    - intros hs Hh. apply ordered_all. intros x y H.
      assert (Hx : In x (a :: rest)).
      { apply in_flat_map in H as (i & _ & H). apply in_app_iff in H as [H|H].
        - destruct (Nat.eqb i 0); [destruct H|]. destruct (@nth_error item (a :: rest) i) eqn:Ei; [|destruct H]. cbn [nth_error] in H. destruct H as [[= <- _]|[]]. eapply nth_error_In; eauto.
        - apply in_flat_map in H as (j & _ & H). destruct (Nat.eqb i j); [destruct H|]. destruct (@nth_error item (a :: rest) i) eqn:Ei; [|destruct H].
          destruct (@nth_error item (a :: rest) j); [|destruct H]. destruct H as [[= <- _]|[]]. eapply nth_error_In; eauto. }
      apply Hh. destruct Hx as [<-|Hx]; [left; now left|right].
      apply In_nth_error in Hx as (j & Hj). apply in_map_iff. exists (a, x). split; [reflexivity|]. apply in_app_iff. right. apply in_flat_map.
      exists (S j). split; [apply in_seq; split; [lia|]; assert (j < length rest) by (apply nth_error_Some; congruence); lia|]. cbn [Nat.eqb nth_error]. unfold item in *. rewrite Hj. now left.
  Qed.
  Lemma fresh_ready items w v0 : network C U w -> v0 <> VUndef ->
    (forall b, In b items -> (forall m, registered w (fst b) (snd b) m = []) /\ exists p, settable C w b p /\ validated E C p v0 v0 /\
       (exists r, compares p v0 v0 r) /\ forall u, value_of w b = Some u -> u <> VUndef -> exists r, compares p u v0 r) ->
    ready_for items v0 w.
  Proof.
    intros Hw Hv H. split; [exact Hw|]. split.
    - constructor.
      + intros a Ha. split; [exact Hv|]. destruct (H a Ha) as (_ & p & Hp & _ & Hc & Hu). exists p. auto.
      + intros a Ha. apply (H a Ha).
      + intros a cb m prev v Ha. rewrite (proj1 (H a Ha)). intros [].
      + intros a k m Ha. rewrite (proj1 (H a Ha)). intros [].
      + intros a k d m Ha (_ & _ & Hin). rewrite (proj1 (H a Ha)) in Hin. destruct Hin.
    - intros b Hb. destruct (H b Hb) as (_ & p & Hp & Hval & _). eauto.
  Qed.
  Lemma link_all_now a rest chg w v0 : network C U w -> NoDup (a :: rest) -> rest <> [] -> v0 <> VUndef -> value_of w a = Some v0 ->
    (forall b, In b (a :: rest) -> (forall m, registered w (fst b) (snd b) m = []) /\ exists p, settable C w b p /\ validated E C p v0 v0 /\
       (exists r, compares p v0 v0 r) /\ forall u, value_of w b = Some u -> u <> VUndef -> exists r, compares p u v0 r) ->
    exists depth r w', (forall n, depth <= n -> ex n (COp (OLinkAll (a :: rest) true chg)) w = (Ok r, w')) /\
      (forall b, In b (a :: rest) -> value_of w' b = Some v0) /\ (forall b, ~ In b (a :: rest) -> value_of w' b = value_of w b).
  Proof.
    intros Hw Hnd Hre Hv0 Hva H.
    destruct (all_now (a :: rest) v0 Hv0 chg (all_pairs_of (a :: rest)) [a] w) as (depth & w' & H1 & H2 & H3 & H4).
    - now apply fresh_ready.
    - intros x y Hin. apply pairs_in in Hin as (i & j & Hn & Hi & Hj). split; [eapply nth_error_In; eauto|]. split; [eapply nth_error_In; eauto|]. intros ->. apply Hn.
      apply (proj1 (NoDup_nth_error (a :: rest)) Hnd); [apply nth_error_Some; congruence|congruence].
    - now apply pairs_ordered.
    - intros x [<-|[]]. now left.
    - intros x [<-|[]]. exact Hva.
    - exists (S depth). eexists _, w'. split; [|split; [|exact H4]].
      + intros [|n] Hn; [lia|]. cbn [exec step]. unfold link_all. destruct rest as [|b rest]; [congruence|].
        change (@length (loc * string) (a :: b :: rest) <? 2) with false. cbv zeta iota. exact (bind_eq _ _ _ _ _ (H1 n ltac:(lia))).
      + intros b [<-|Hb]; [apply H3; left; now left|]. apply H3. right. apply in_map_iff. exists (a, b). split; [reflexivity|].
        apply pairs_drive; [now left|now right|]. inversion Hnd; subst. intros ->. contradiction.
  Qed.

  (** ** Links that fail *)
  Lemma link_failed n w s t p q now chg g e w' : network C U w -> settable C w s p -> settable C w t q ->
    match g with Some x => forall v, computes (u_trans U x v) | None => True end ->
    ex n (COp (OLink s t now chg g)) w = (Exc e, w') -> forall a m, registered w' (fst a) (snd a) m = registered w (fst a) (snd a) m.
  Proof.
    intros Hw Hs Ht Hg Hx a m. destruct n as [|n]; [cbn in Hx; unfold throw in Hx; injection Hx as _ <-; reflexivity|]. cbn [exec step] in Hx.
    rewrite (dlink_eq E C U _ s t p q) in Hx by assumption. unfold dlink_rest in Hx. destruct (item_eqb s t); [unfold throw in Hx; injection Hx as _ <-; reflexivity|].
    unfold bind at 1, get_w in Hx. cbv zeta in Hx. unfold bind at 1, mod_w in Hx.
    change (w_setlinks (w_links w ++ [DL s t g false false]) w) with (with_link w (DL s t g false false)) in Hx. set (w1 := with_link w _) in *. set (k := length (w_links w)) in *.
    assert (Hw1 : network C U w1) by (eapply add_link; eauto).
    assert (G : exists r w2, (if now then link_update U (ex n) k ;; ret tt else ret tt) w1 = (r, w2) /\ same_links w1 w2).
    { destruct now; [|do 2 eexists; split; [reflexivity|apply links_refl]].
      pose proof (link_touch_gen E C U n k (fun _ => True) w1 (reach_all E C U n) (nw_only _ _ _ Hw1)) as T. unfold bind.
      destruct (link_update U (ex n) k w1) as [[y|e0] w2]; cbn [snd] in T; do 2 eexists; (split; [reflexivity|]); now apply T. }
    destruct G as ([u|e0] & w2 & G & S2).
    - exfalso. rewrite (bind_eq _ _ _ _ _ G) in Hx. unfold has_observe in Hx.
      assert (Hs2 : settable C w2 s p) by (eapply net_settable; [apply links_net; exact S2|exact Hs]).
      destruct Hs2 as (_ & d0 & (c & (i & Hi & Hci) & _) & _).
      assert (Hcl : inst_class C (fst s) w2 = (Ok c, w2)). { unfold inst_class, class_of, get_inst, bind, lift. now rewrite Hi, Hci. }
      unfold bind at 1 in Hx. unfold bind at 1 in Hx. rewrite Hcl in Hx. discriminate.
    - rewrite (bind_eq_exc _ _ _ _ _ G) in Hx. injection Hx as _ <-. rewrite (net_registered w1 w2) by now apply links_net. reflexivity.
  Qed.
End Now.
