(** Facts about links: networks of links. *)
From Verif Require Import World WorldFrame WorldSpec WorldInv WorldSet WorldFacts ContainerFacts AccessFacts LinkSpec LinkFacts LinkHalt LinkSync.
Local Open Scope string_scope.
Local Open Scope list_scope.
Local Open Scope nat_scope.

Section Net.
  Variables (E : env) (C : ctable) (U : ucode).
  Notation ex := (exec E C U).

  (** ** Assignments *)
  Lemma assign_spreads w P f a p v : only_links C U w -> consistent E C U w P f -> P a -> v <> VUndef -> settable C w a p -> validated E C p v (f a) ->
    exists depth r w', (forall n, depth <= n -> ex n (COp (OSet (fst a) (snd a) v)) w = (Ok r, w')) /\
      same_links w w' /\ (forall b, ~ reaches w a b -> value_of w' b = value_of w b) /\
      (forall b, P b -> value_of w' b = value_of w b \/ value_of w' b = Some (f b)) /\
      (forall b, drives w MSet a b -> value_of w' b = Some (f b)) /\
      forall b, spreads C w f a b -> value_of w' b = Some (f b).
  Proof.
    intros Hw Hc Ha Hv Hp Hval. destruct (halt_assign E C U w (OSet (fst a) (snd a) v) a p Hw) as (depth & r & w' & Hr & Hm); [right; eauto|exact Hp|].
    pose proof (proj1 (sync_all E C U P f depth) w Hc a v p Ha Hv Hp Hval) as F.
    rewrite (Hm depth (Nat.le_refl _)) in F. unfold fine in F. cbn [fst snd] in F. destruct r as [r|e]; [|congruence].
    destruct F as (F1 & F2 & F3 & F4 & F5). exists depth, r, w'. split; [exact Hm|]. split; [exact F1|]. split.
    { pose proof (proj1 (reach_all E C U depth w Hw) (OSet (fst a) (snd a) v) a p) as T. rewrite (Hm depth (Nat.le_refl _)) in T. apply T; [right; eauto|exact Hp]. }
    split; [exact F2|]. split; [exact F5|].
    intros b Hb. revert Ha F4. clear - Hb F3 Hc. induction Hb as [a|a b c m Hd Hm Hl Hb IH]; intros Ha Hh; [exact Hh|].
    apply IH; [eapply drives_P; eauto|]. now apply (F3 a b m).
  Qed.
  Lemma assign_alone w a p o : only_links C U w -> writes o a -> settable C w a p -> (forall b, ~ feeds w a b) ->
    forall n b, b <> a -> value_of (snd (ex n (COp o) w)) b = value_of w b.
  Proof.
    intros Hw Ho Hp Hf n b Hb. apply (proj1 (reach_all E C U n w Hw) o a p Ho Hp). intros Hr. destruct Hr; [congruence|]. eapply Hf; eauto.
  Qed.

  (** ** Histories *)
  Lemma net_network w w' : same_links w w' -> network C U w -> network C U w'.
  Proof.
    intros S [A B D]. pose proof (links_net _ _ S) as N. constructor.
    - eapply net_only; eauto.
    - intros a m k. rewrite (net_registered w w') by exact N. destruct S as (_ & -> & _). apply B.
    - destruct S as (_ & -> & _). exact D.
  Qed.
  Lemma settable_item w a p : settable C w a p -> link_item E C U (ex 0) a w = (Ok tt, w) /\ forall rec, link_item E C U rec a w = (Ok tt, w).
  Proof.
    intros (_ & d & (c & (i & Hi & Hc) & Hd) & Hk & _).
    assert (G : forall rec, link_item E C U rec a w = (Ok tt, w)).
    { intros rec. unfold link_item, outcome, bind, has_getattr, inst_class, class_of, get_inst, bind, lift, back_get, get_inst, bind.
      rewrite Hi, Hc, Hd, Hk, Hi. reflexivity. }
    auto.
  Qed.
  (** what follows the checks of the two items *)
  Definition dlink_rest (rec : call -> M val) (src tgt : item) (now chg : bool) (t : option nat) : M val :=
    if item_eqb src tgt then throw ExValue
    else
      let* w := get_w in
      let k := length (w_links w) in
      mod_w (fun w => w_setlinks (w_links w ++ [DL src tgt t false false]) w) ;;
      (if now then link_update U rec k ;; ret tt else ret tt) ;;
      has_observe C (fst src) (OD (Some [snd src]) (if chg then MChange else MSet) (LLink k)) ;;
      ret (VObj k).
  Lemma dlink_eq rec s t p q now chg f w : settable C w s p -> settable C w t q ->
    dlink_new E C U rec s t now chg f w = dlink_rest rec s t now chg f w.
  Proof.
    intros Hs Ht. unfold dlink_new. destruct (settable_item w s p Hs) as [_ G]. unfold bind at 1. rewrite G. clear G.
    destruct (settable_item w t q Ht) as [_ G]. unfold bind at 1. rewrite G. reflexivity.
  Qed.
  Definition grown (w w' : world) : Prop := forall l i, nth_error (w_heap w) l = Some i -> exists j, nth_error (w_heap w') l = Some j /\ i_cls j = i_cls i.
  Lemma grown_refl w : grown w w.
  Proof. intros l i H. eauto. Qed.
  Lemma grown_trans a b c : grown a b -> grown b c -> grown a c.
  Proof. intros H K l i Hi. destruct (H l i Hi) as (j & Hj & E1). destruct (K l j Hj) as (k & Hk & E2). exists k. split; congruence. Qed.
  Lemma grown_links w w' : same_links w w' -> grown w w'.
  Proof. intros S l i Hi. destruct (net_inst _ _ _ _ (links_net _ _ S) Hi) as (j & Hj & Hc & _). eauto. Qed.
  Lemma grown_settable w w' a p : grown w w' -> settable C w a p -> settable C w' a p.
  Proof.
    intros G (Hf & d & (c & (i & Hi & Hc) & Hd) & K). destruct (G _ _ Hi) as (j & Hj & Ej). split; [exact Hf|]. exists d. split; [|exact K].
    exists c. split; [|exact Hd]. exists j. rewrite Ej. auto.
  Qed.

  (** a link is added, without a listener *)
  Lemma add_link w s t p q f : network C U w -> settable C w s p -> settable C w t q ->
    match f with Some x => forall v, computes (u_trans U x v) | None => True end ->
    network C U (w_setlinks (w_links w ++ [DL s t f false false]) w).
  Proof.
    intros [[A1 A2] B D] Hs Ht Hf. set (w1 := w_setlinks _ w). assert (Hd : forall k d, nth_error (w_links w1) k = Some d -> nth_error (w_links w) k = Some d \/ d = DL s t f false false).
    { intros k d Hd. cbn [w1 w_setlinks w_links] in Hd. destruct (Nat.lt_ge_cases k (length (w_links w))) as [H|H].
      - rewrite nth_error_app1 in Hd by exact H. auto.
      - rewrite nth_error_app2 in Hd by exact H. destruct (k - length (w_links w)) as [|[|]]; cbn in Hd; try discriminate. injection Hd as <-. auto. }
    constructor; [split|..].
    - exact A1.
    - intros k d Hk. destruct (Hd k d Hk) as [K| ->]; [exact (A2 k d K)|]. cbn [d_src d_tgt d_trans]. split; [exists p; exact Hs|]. split; [exists q; exact Ht|exact Hf].
    - intros a m k Hin. destruct (B a m k Hin) as (d & K & Hsrc). exists d. split; [|exact Hsrc]. cbn [w1 w_setlinks w_links].
      rewrite nth_error_app1; [exact K|]. apply nth_error_Some. congruence.
    - intros k d Hk. destruct (Hd k d Hk) as [K| ->]; [eauto|reflexivity].
  Qed.
  Lemma registered_add l names m0 g w a m : registered (w_upd l (fun i => i_setlst (i_lst i ++ map (fun n => Lst n m0 g) names) i) w) (fst a) (snd a) m =
    match nth_error (w_heap w) l with Some _ =>
      if Nat.eqb (fst a) l && lmode_eqb m0 m then registered w (fst a) (snd a) m ++ map (fun _ => g) (filter (String.eqb (snd a)) names) else registered w (fst a) (snd a) m
    | None => registered w (fst a) (snd a) m end.
  Proof.
    unfold registered. destruct (nth_error (w_heap w) l) as [i|] eqn:Hi.
    2:{ unfold w_upd. rewrite Hi. reflexivity. }
    destruct (Nat.eqb_spec (fst a) l) as [->|Hl].
    - rewrite w_upd_nth_same, Hi. simpl. rewrite filter_app, map_app. destruct (lmode_eqb m0 m) eqn:Em.
      + f_equal. induction names as [|x ns IH]; simpl; auto. rewrite Em, andb_true_r, (String.eqb_sym x (snd a)).
        destruct (String.eqb (snd a) x); simpl; auto. now rewrite IH.
      + replace (filter _ (map _ _)) with (@nil listener); [now rewrite app_nil_r|].
        induction names as [|x ns IH]; simpl; auto. rewrite Em, andb_false_r. exact IH.
    - rewrite w_upd_nth_other by auto. reflexivity.
  Qed.
  Lemma add_listener w l names m0 g : network C U w ->
    match g with LCb cb => forall l n p v m, computes (u_listen U cb l n p v m)
      | LLink k => exists d, nth_error (w_links w) k = Some d /\ forall n, In n names -> d_src d = (l, n) end ->
    network C U (w_upd l (fun i => i_setlst (i_lst i ++ map (fun n => Lst n m0 g) names) i) w).
  Proof.
    intros [[A1 A2] B D] Hg. set (w1 := w_upd _ _ w).
    assert (G : grown w w1).
    { intros l' i Hi. unfold w1. destruct (Nat.eq_dec l l') as [<-|Hn]; [|rewrite w_upd_nth_other by auto; eauto].
      rewrite w_upd_nth_same, Hi. eexists. split; [reflexivity|]. reflexivity. }
    assert (HL : w_links w1 = w_links w) by (unfold w1, w_upd; destruct nth_error; reflexivity).
    constructor; [split|..].
    - intros l' i x Hi Hx. unfold w1 in Hi. destruct (Nat.eq_dec l l') as [<-|Hn]; [|rewrite w_upd_nth_other in Hi by auto; eapply A1; eauto].
      rewrite w_upd_nth_same in Hi. destruct (nth_error (w_heap w) l) as [i0|] eqn:Hi0; [|discriminate]. injection Hi as <-. cbn [i_setlst i_lst] in Hx.
      apply in_app_iff in Hx as [Hx|Hx]; [eapply A1; eauto|]. apply in_map_iff in Hx as (n & <- & _). cbn [l_func]. destruct g; [exact Hg|exact I].
    - intros k d Hk. rewrite HL in Hk. destruct (A2 k d Hk) as ((p & Hp) & (q & Hq) & Ht). split; [exists p; eapply grown_settable; eauto|].
      split; [exists q; eapply grown_settable; eauto|exact Ht].
    - intros a m k. rewrite HL. unfold w1. rewrite registered_add. destruct (nth_error (w_heap w) l); [|apply B].
      destruct (Nat.eqb_spec (fst a) l) as [El|El]; [|apply B]. destruct (lmode_eqb m0 m); [|apply B].
      cbn [andb]. intros Hin. apply in_app_iff in Hin as [Hin|Hin]; [now apply (B a m)|].
      apply in_map_iff in Hin as (n & -> & Hn). apply filter_In in Hn as [Hn He]. apply String.eqb_eq in He. subst n.
      destruct Hg as (d & Hd & Hsrc). exists d. split; [exact Hd|]. rewrite (Hsrc _ Hn). destruct a; cbn [fst snd] in *. congruence.
    - intros k d. rewrite HL. apply D.
  Qed.
  Lemma grown_setlst w l h : (forall i, i_cls (h i) = i_cls i) -> grown w (w_upd l h w).
  Proof.
    intros H l' i Hi. destruct (Nat.eq_dec l l') as [<-|Hn]; [|rewrite w_upd_nth_other by auto; eauto].
    rewrite w_upd_nth_same, Hi. eexists. split; [reflexivity|]. apply H.
  Qed.

  Lemma dlink_network rec0 s t p q now chg f w : (exists n, rec0 = ex n) -> network C U w -> settable C w s p -> settable C w t q ->
    match f with Some x => forall v, computes (u_trans U x v) | None => True end ->
    network C U (snd (dlink_new E C U rec0 s t now chg f w)) /\ grown w (snd (dlink_new E C U rec0 s t now chg f w)).
  Proof.
    intros (n & ->) Hw Hs Ht Hf. rewrite (dlink_eq _ s t p q) by assumption.
    pose (Q := fun w' => network C U w' /\ grown w w'). change (Q (snd (dlink_rest (ex n) s t now chg f w))). unfold dlink_rest.
    destruct (item_eqb s t); [split; [exact Hw|apply grown_refl]|]. unfold bind at 1, get_w. cbv zeta.
    set (k := length (w_links w)). set (w1 := w_setlinks (w_links w ++ [DL s t f false false]) w).
    assert (Hw1 : network C U w1) by (eapply add_link; eauto).
    unfold bind at 1, mod_w. fold w1.
    assert (Hk : nth_error (w_links w1) k = Some (DL s t f false false)) by (cbn [w1 w_setlinks w_links]; rewrite nth_error_app2, Nat.sub_diag by reflexivity; reflexivity).
    assert (G1 : grown w w1) by exact (grown_refl w).
    assert (G : exists w2, same_links w1 w2 /\ ((if now then link_update U (ex n) k ;; ret tt else ret tt) w1 = (Ok tt, w2) \/ exists e, (if now then link_update U (ex n) k ;; ret tt else ret tt) w1 = (Exc e, w2))).
    { destruct now; [|exists w1; split; [apply links_refl|now left]].
      pose proof (link_touch_gen E C U n k (fun _ => True) w1 (reach_all E C U n) (nw_only _ _ _ Hw1)) as T. unfold bind.
      destruct (link_update U (ex n) k w1) as [[y|e] w2]; cbn [snd] in T; exists w2; (split; [now apply T|]); [now left|right; eauto]. }
    destruct G as (w2 & S2 & [G|(e & G)]).
    - rewrite (bind_eq _ _ _ _ _ G). unfold has_observe.
      assert (Hw2 : network C U w2) by (eapply net_network; eauto).
      assert (Hk2 : nth_error (w_links w2) k = Some (DL s t f false false)) by (destruct S2 as (_ & -> & _); exact Hk).
      assert (Hs2 : settable C w2 s p). { eapply grown_settable; [|exact Hs]. eapply grown_trans; [exact G1|]. now apply grown_links. }
      destruct Hs2 as (_ & d & (c & (i & Hi & Hc) & _) & _).
      assert (Hci : inst_class C (fst s) w2 = (Ok c, w2)).
      { unfold inst_class, class_of, get_inst, bind, lift. now rewrite Hi, Hc. }
      unfold bind at 1. unfold bind at 1. rewrite Hci. cbn [od_names od_mode od_func]. unfold bind at 1, upd, ret. cbn [snd].
      split.
      + apply (add_listener w2 (fst s) [snd s] (if chg then MChange else MSet) (LLink k) Hw2). eexists. split; [exact Hk2|]. cbn [d_src]. intros x [<-|[]]. destruct s; reflexivity.
      + eapply grown_trans; [exact G1|]. eapply grown_trans; [apply grown_links; exact S2|].
        apply (grown_setlst w2 (fst s) (fun i => i_setlst (i_lst i ++ map (fun n => Lst n (if chg then MChange else MSet) (LLink k)) [snd s]) i)). reflexivity.
    - rewrite (bind_eq_exc _ _ _ _ _ G). cbn [snd]. split; [eapply net_network; eauto|]. eapply grown_trans; [exact G1|]. now apply grown_links.
  Qed.

  Lemma unlink_network k b w : network C U w -> network C U (set_unlinked k b w).
  Proof.
    intros [[A1 A2] B D]. assert (Hh : w_heap (set_unlinked k b w) = w_heap w) by apply w_updlink_heap.
    assert (Hd : forall k' d', nth_error (w_links (set_unlinked k b w)) k' = Some d' ->
      exists d, nth_error (w_links w) k' = Some d /\ d_src d' = d_src d /\ d_tgt d' = d_tgt d /\ d_trans d' = d_trans d /\ d_updating d' = d_updating d).
    { intros k' d'. unfold set_unlinked. rewrite w_updlink_nth. destruct (Nat.eqb k k'); [|intros H; exists d'; auto].
      destruct (nth_error (w_links w) k') as [d|]; [|discriminate]. intros H. injection H as <-. exists d. auto. }
    assert (Hs : forall a p, settable C w a p -> settable C (set_unlinked k b w) a p).
    { intros a p. apply grown_settable. intros l i. rewrite Hh. eauto. }
    assert (Hr : forall l n m, registered (set_unlinked k b w) l n m = registered w l n m) by (intros; unfold registered; now rewrite Hh).
    constructor; [split|..].
    - intros l i x. rewrite Hh. apply A1.
    - intros k' d' H'. destruct (Hd k' d' H') as (d & H & -> & -> & -> & _). destruct (A2 k' d H) as ((p & Hp) & (q & Hq) & Ht). eauto 8.
    - intros a m k' Hin. rewrite Hr in Hin. destruct (B a m k' Hin) as (d & H & Hsrc). unfold set_unlinked. rewrite w_updlink_nth, H.
      destruct (Nat.eqb k k'); cbn [option_map]; eexists; (split; [reflexivity|exact Hsrc]).
    - intros k' d' H'. destruct (Hd k' d' H') as (d & H & _ & _ & _ & ->). eauto.
  Qed.

  Lemma network_step w o n : network C U w -> does C U w o -> network C U (snd (ex n (COp o) w)).
  Proof.
    intros Hw Hd. destruct n as [|n]; [exact Hw|]. destruct Hd as [o a p Ho Hp|l c names m cb Hc Hcb|s t p q now chg f Hs Ht Hf|items now chg Hi|k|k].
    - eapply net_network; [|exact Hw]. apply (proj1 (reach_all E C U (S n) w (nw_only _ _ _ Hw)) o a p Ho Hp).
    - cbn [exec step]. unfold has_observe. destruct Hc as (i & Hi & Hc).
      assert (Hci : inst_class C l w = (Ok c, w)).
      { unfold inst_class, class_of, get_inst, bind, lift. now rewrite Hi, Hc. }
      unfold bind at 1. rewrite Hci. cbn [od_names od_mode od_func]. unfold bind at 1, upd, ret. cbn [snd]. apply add_listener; auto.
    - cbn [exec step]. eapply dlink_network; eauto.
    - cbn [exec step]. unfold link_all. destruct (Nat.ltb _ _); [exact Hw|]. cbv zeta.
      set (pairs := flat_map _ _).
      assert (HP : forall ab, In ab pairs -> In (fst ab) items /\ In (snd ab) items).
      { unfold pairs. intros ab H. apply in_flat_map in H as (i & _ & H). apply in_flat_map in H as (j & _ & H). cbn beta in H.
        destruct (Nat.eqb i j); [destruct H|]. destruct (@nth_error (loc * string) items i) eqn:Hx; [|destruct H]. destruct (@nth_error (loc * string) items j) eqn:Hy; [|destruct H].
        destruct H as [<-|[]]. split; eapply nth_error_In; eauto. }
      set (h := fun ab : (loc * string) * (loc * string) => dlink_new E C U (ex n) (fst ab) (snd ab) now chg None).
      assert (Hh : forall ab w0, In (fst ab) items -> In (snd ab) items -> network C U w0 -> grown w w0 -> network C U (snd (h ab w0)) /\ grown w0 (snd (h ab w0))).
      { intros ab w0 H1 H2 Hw0 G0. destruct (Hi _ H1) as (p1 & Hp1). destruct (Hi _ H2) as (p2 & Hp2).
        apply (dlink_network (ex n) (fst ab) (snd ab) p1 p2 now chg None w0 (ex_intro _ n eq_refl) Hw0);
          [eapply grown_settable; eauto|eapply grown_settable; eauto|exact I]. }
      clearbody h.
      assert (G : forall ps w0, (forall ab, In ab ps -> In (fst ab) items /\ In (snd ab) items) -> network C U w0 -> grown w w0 -> network C U (snd (mapM h ps w0))).
      { induction ps as [|ab ps IH]; intros w0 Hps Hw0 G0; [exact Hw0|]. cbn [mapM].
        destruct (Hps ab (or_introl eq_refl)) as [H1 H2]. destruct (Hh ab w0 H1 H2 Hw0 G0) as [K1 K2].
        unfold bind at 1. destruct (h ab w0) as [[y|e] w1]; cbn [snd] in *; [|exact K1].
        assert (K : network C U (snd (mapM h ps w1))).
        { apply IH; [intros; apply Hps; now right|exact K1|eapply grown_trans; eauto]. }
        unfold bind. destruct (mapM h ps w1) as [[ys|e] w2]; exact K. }
      unfold bind at 1. specialize (G pairs w HP Hw (grown_refl w)). destruct (mapM h pairs w) as [[ys|e] w1]; exact G.
    - now apply unlink_network.
    - now apply unlink_network.
  Qed.
  Lemma network_history w w' : history E C U w w' -> network C U w -> network C U w'.
  Proof. induction 1; auto. intros Hw. apply IHhistory. now apply network_step. Qed.

  (** ** Links in all directions *)
  Definition lmd (chg : bool) : lmode := if chg then MChange else MSet.
  Record joined (w w' : world) (pairs : list (item * item)) (m : lmode) : Prop := {
    jn_value : forall b, value_of w' b = value_of w b;
    jn_quar : w_quar w' = w_quar w;
    jn_grown : grown w w';
    jn_links : w_links w' = w_links w ++ map (fun ab => DL (fst ab) (snd ab) None false false) pairs;
    jn_reg : forall a m' g, In g (registered w' (fst a) (snd a) m') <->
      In g (registered w (fst a) (snd a) m') \/ (m' = m /\ exists j ab, nth_error pairs j = Some ab /\ fst ab = a /\ g = LLink (length (w_links w) + j)) }.
  Lemma lmode_eqb_eq a b : lmode_eqb a b = true <-> a = b.
  Proof. destruct a, b; cbn; split; congruence. Qed.
  Lemma joined_one rec s t p q chg w : settable C w s p -> settable C w t q -> s <> t ->
    exists w', dlink_new E C U rec s t false chg None w = (Ok (VObj (length (w_links w))), w') /\ joined w w' [(s, t)] (lmd chg).
  Proof.
    intros Hs Ht Hne. rewrite (dlink_eq _ s t p q) by assumption. unfold dlink_rest.
    destruct (item_eqb s t) eqn:He.
    { exfalso. apply Hne. unfold item_eqb in He. apply andb_true_iff in He as [H1 H2]. apply Nat.eqb_eq in H1. apply String.eqb_eq in H2. destruct s, t; cbn in *; congruence. }
    destruct Hs as (_ & d & (c & (i & Hi & Hc) & _) & _).
    set (w1 := w_setlinks (w_links w ++ [DL s t None false false]) w).
    assert (Hci : inst_class C (fst s) w1 = (Ok c, w1)).
    { unfold inst_class, class_of, get_inst, bind, lift. change (w_heap w1) with (w_heap w). now rewrite Hi, Hc. }
    set (h := fun i => i_setlst (i_lst i ++ map (fun n => Lst n (lmd chg) (LLink (length (w_links w)))) [snd s]) i).
    exists (w_upd (fst s) h w1). split.
    - unfold bind at 1, get_w. cbv zeta. unfold bind at 1, mod_w. fold w1. unfold bind at 1, ret at 1. unfold has_observe. unfold bind at 1. unfold bind at 1. rewrite Hci.
      reflexivity.
    - assert (HL : w_links (w_upd (fst s) h w1) = w_links w1) by (unfold w_upd; destruct nth_error; reflexivity).
      constructor.
      + intros b. unfold value_of. rewrite w_upd_stored; reflexivity.
      + rewrite w_upd_quar. reflexivity.
      + apply (grown_setlst w1). reflexivity.
      + exact HL.
      + intros a m' g. unfold h. rewrite registered_add. change (nth_error (w_heap w1) (fst s)) with (nth_error (w_heap w) (fst s)). rewrite Hi.
        change (registered w1) with (registered w). cbn [filter].
        assert (X : (exists j ab, nth_error [(s, t)] j = Some ab /\ fst ab = a /\ g = LLink (length (w_links w) + j)) <-> (s = a /\ g = LLink (length (w_links w)))).
        { split.
          - intros (j & ab & Hj & Hab & ->). destruct j as [|[|]]; cbn in Hj; try discriminate. injection Hj as <-. cbn in Hab. split; [exact Hab|]. f_equal. lia.
          - intros (-> & ->). exists 0, (a, t). split; [reflexivity|]. split; [reflexivity|]. f_equal. lia. }
        rewrite X. destruct (Nat.eqb_spec (fst a) (fst s)) as [E1|E1]; cbn [andb].
        * destruct (lmode_eqb (lmd chg) m') eqn:E2.
          -- apply lmode_eqb_eq in E2. rewrite in_app_iff. destruct (String.eqb_spec (snd a) (snd s)) as [E3|E3]; cbn [map In].
             ++ split; [intros [H|[<-|[]]]; [auto|right; split; [auto|split; [|reflexivity]]]|intros [H|(_ & _ & ->)]; auto]. destruct s, a; cbn in *; congruence.
             ++ split; [intros [H|[]]; auto|intros [H|(_ & -> & _)]; [auto|congruence]].
          -- split; [auto|]. intros [H|(-> & _)]; [exact H|]. destruct (lmd chg); discriminate.
        * split; [auto|]. intros [H|(_ & -> & _)]; [exact H|congruence].
  Qed.
  Lemma joined_trans w w1 w2 ab ps m : joined w w1 [ab] m -> joined w1 w2 ps m -> joined w w2 (ab :: ps) m.
  Proof.
    intros [A1 A2 A3 A4 A5] [B1 B2 B3 B4 B5]. constructor.
    - intros b. now rewrite B1, A1.
    - now rewrite B2.
    - eapply grown_trans; eauto.
    - rewrite B4, A4. cbn [map]. now rewrite <- app_assoc.
    - intros a m' g. rewrite B5, A5. rewrite A4, app_length. cbn [map length]. split.
      + intros [[H|(-> & j & ab' & Hj & Ha & ->)]|(-> & j & ab' & Hj & Ha & ->)]; [now left| |].
        * right. split; [reflexivity|]. destruct j as [|[|]]; cbn in Hj; try discriminate. injection Hj as <-. exists 0, ab. auto.
        * right. split; [reflexivity|]. exists (S j), ab'. split; [exact Hj|]. split; [exact Ha|]. f_equal. lia.
      + intros [H|(-> & [|j] & ab' & Hj & Ha & ->)]; [auto| |].
        * cbn in Hj. injection Hj as <-. left. right. split; [reflexivity|]. exists 0, ab. auto.
        * right. split; [reflexivity|]. exists j, ab'. split; [exact Hj|]. split; [exact Ha|]. f_equal. lia.
  Qed.
  Lemma joined_all rec chg : forall ps w, (forall ab, In ab ps -> (exists p, settable C w (fst ab) p) /\ (exists q, settable C w (snd ab) q) /\ fst ab <> snd ab) ->
    exists w', mapM (fun ab => dlink_new E C U rec (fst ab) (snd ab) false chg None) ps w = (Ok (map VObj (seq (length (w_links w)) (length ps))), w') /\ joined w w' ps (lmd chg).
  Proof.
    induction ps as [|ab ps IH]; intros w Hps.
    - exists w. split; [reflexivity|]. constructor; auto; [apply grown_refl|now rewrite app_nil_r|].
      intros a m' g. split; [auto|]. intros [H|(_ & j & ab & Hj & _)]; [exact H|]. destruct j; discriminate.
    - destruct (Hps ab (or_introl eq_refl)) as ((p & Hp) & (q & Hq) & Hne).
      destruct (joined_one rec (fst ab) (snd ab) p q chg w Hp Hq Hne) as (w1 & E1 & J1). rewrite <- surjective_pairing in J1.
      destruct (IH w1) as (w2 & E2 & J2).
      { intros ab' Hin. destruct (Hps ab' (or_intror Hin)) as ((p' & Hp') & (q' & Hq') & Hne'). pose proof (jn_grown _ _ _ _ J1) as G.
        split; [exists p'; eapply grown_settable; eauto|]. split; [exists q'; eapply grown_settable; eauto|exact Hne']. }
      exists w2. split; [|eapply joined_trans; eauto].
      rewrite (jn_links _ _ _ _ J1), app_length in E2. cbn [map length] in E2. rewrite Nat.add_1_r in E2.
      cbn [mapM]. unfold item in *. rewrite (bind_eq _ _ _ _ _ E1), (bind_eq _ _ _ _ _ E2). reflexivity.
  Qed.
  Definition all_pairs_of (items : list item) : list (item * item) :=
    flat_map (fun i => flat_map (fun j =>
        if Nat.eqb i j then [] else
        match nth_error items i, nth_error items j with
        | Some a, Some b => [(a, b)]
        | _, _ => []
        end) (seq 0 (length items))) (seq 0 (length items)).
  Lemma pairs_in items a b : In (a, b) (all_pairs_of items) <->
    exists i j, i <> j /\ nth_error items i = Some a /\ nth_error items j = Some b.
  Proof.
    unfold all_pairs_of. split.
    - intros H. apply in_flat_map in H as (i & _ & H). apply in_flat_map in H as (j & _ & H). cbn beta in H.
      destruct (Nat.eqb_spec i j) as [|Hn]; [destruct H|]. exists i, j. split; [exact Hn|].
      destruct (nth_error items i); [|destruct H]. destruct (nth_error items j); [|destruct H]. destruct H as [H|[]]. injection H as <- <-. auto.
    - intros (i & j & Hn & Hi & Hj). apply in_flat_map. exists i. split; [apply in_seq; split; [lia|]; apply nth_error_Some; congruence|].
      apply in_flat_map. exists j. split; [apply in_seq; split; [lia|]; apply nth_error_Some; congruence|].
      destruct (Nat.eqb_spec i j); [contradiction|]. rewrite Hi, Hj. now left.
  Qed.
  Lemma link_all_joined n items chg w : NoDup items -> 2 <= length items -> (forall a, In a items -> exists p, settable C w a p) ->
    exists w', ex (S n) (COp (OLinkAll items false chg)) w = (Ok (VList (map VObj (seq (length (w_links w)) (length (all_pairs_of items))))), w') /\
      joined w w' (all_pairs_of items) (lmd chg).
  Proof.
    intros Hnd Hlen Hs. cbn [exec step]. unfold link_all.
    assert (@length (loc * string) items <? 2 = false) as -> by (apply Nat.ltb_ge; exact Hlen). cbv zeta.
    destruct (joined_all (ex n) chg (all_pairs_of items) w) as (w' & E1 & J1).
    { intros [a b] Hin. apply pairs_in in Hin as (i & j & Hn & Hi & Hj). cbn [fst snd].
      split; [apply Hs; eapply nth_error_In; eauto|]. split; [apply Hs; eapply nth_error_In; eauto|]. intros ->. apply Hn.
      apply (proj1 (NoDup_nth_error items) Hnd); [apply nth_error_Some; congruence|congruence]. }
    exists w'. split; [|exact J1]. exact (bind_eq _ _ _ _ _ E1).
  Qed.

  Lemma pairs_drive items a b : In a items -> In b items -> a <> b -> In (a, b) (all_pairs_of items).
  Proof.
    intros Ha Hb Hn. apply In_nth_error in Ha as (i & Hi). apply In_nth_error in Hb as (j & Hj). apply pairs_in. exists i, j. split; [congruence|auto].
  Qed.
  Lemma joined_drives w w' items m a b : joined w w' (all_pairs_of items) m -> In a items -> In b items -> a <> b -> ~ In m (w_quar w) -> drives w' m a b.
  Proof.
    intros [J1 J2 J3 J4 J5] Ha Hb Hn Hm. destruct (In_nth_error _ _ (pairs_drive items a b Ha Hb Hn)) as (j & Hj).
    exists (length (w_links w) + j), (DL a b None false false). split; [split; [|split; [reflexivity|]]|split; [reflexivity|split; [reflexivity|now rewrite J2]]].
    - rewrite J4, nth_error_app2 by lia. replace (length (w_links w) + j - length (w_links w)) with j by lia. now rewrite (map_nth_error _ _ _ Hj).
    - apply J5. right. split; [reflexivity|]. exists j, (a, b). auto.
  Qed.
  (** items without listeners, whose types accept [v0], once joined *)
  Lemma joined_consistent w w' items m v0 : network C U w -> joined w w' (all_pairs_of items) m -> m <> MValidate -> v0 <> VUndef ->
    (forall b, In b items -> (forall m, registered w (fst b) (snd b) m = []) /\ exists p, settable C w b p /\ validated E C p v0 v0 /\
       (exists r, compares p v0 v0 r) /\ forall u, value_of w b = Some u -> u <> VUndef -> exists r, compares p u v0 r) ->
    consistent E C U w' (fun b => In b items) (fun _ => v0).
  Proof.
    intros Hw [J1 J2 J3 J4 J5] Hm Hv H. constructor.
    - intros a Ha. split; [exact Hv|]. destruct (H a Ha) as (_ & p & Hp & _ & Hc & Hu). exists p. split; [eapply grown_settable; eauto|]. split; [exact Hc|].
      intros u. rewrite J1. apply Hu.
    - intros a Ha. destruct (registered w' (fst a) (snd a) MValidate) as [|g r] eqn:Er; [reflexivity|]. exfalso.
      assert (Hg : In g (registered w' (fst a) (snd a) MValidate)) by (rewrite Er; now left). apply J5 in Hg. rewrite (proj1 (H a Ha)) in Hg.
      destruct Hg as [[]|(Hg & _)]. congruence.
    - intros a cb m' prev v Ha Hin. apply J5 in Hin. rewrite (proj1 (H a Ha)) in Hin. destruct Hin as [[]|(_ & j & ab & _ & _ & K)]. discriminate.
    - intros a k m' Ha Hin. apply J5 in Hin. rewrite (proj1 (H a Ha)) in Hin. destruct Hin as [[]|(_ & j & ab & Hj & _ & [= ->])].
      rewrite J4, nth_error_app2 by lia. replace (length (w_links w) + j - length (w_links w)) with j by lia. rewrite (map_nth_error _ _ _ Hj). eauto.
    - intros a k d m' Ha (Hk & Hu & Hin). apply J5 in Hin. rewrite (proj1 (H a Ha)) in Hin. destruct Hin as [[]|(_ & j & [a' b] & Hj & Ha' & [= ->])].
      cbn [fst] in Ha'. subst a'. rewrite J4, nth_error_app2 in Hk by lia. replace (length (w_links w) + j - length (w_links w)) with j in Hk by lia.
      rewrite (map_nth_error _ _ _ Hj) in Hk. injection Hk as <-. cbn [d_src d_tgt]. split; [reflexivity|].
      apply nth_error_In in Hj. apply pairs_in in Hj as (i1 & j1 & _ & _ & Hb). apply nth_error_In in Hb. split; [exact Hb|].
      destruct (H b Hb) as (_ & p & Hp & Hval & _). exists v0, p. split; [reflexivity|]. split; [exact Hv|]. split; [eapply grown_settable; eauto|exact Hval].
  Qed.
  Lemma reaches_in w (Q : item -> Prop) : (forall a b, Q a -> feeds w a b -> Q b) -> forall a b, reaches w a b -> Q a -> Q b.
  Proof. intros H a b. induction 1; eauto. Qed.
  Lemma in_sync w items m v0 a p v : only_links C U w -> consistent E C U w (fun b => In b items) (fun _ => v0) ->
    (forall a b, In a items -> In b items -> a <> b -> drives w m a b) -> m <> MValidate ->
    In a items -> settable C w a p -> v <> VUndef -> validated E C p v v0 -> (m = MChange -> differs C w a v0) ->
    exists depth r w', (forall n, depth <= n -> ex n (COp (OSet (fst a) (snd a) v)) w = (Ok r, w')) /\ same_links w w' /\
      (forall b, In b items -> value_of w' b = Some v0) /\ (forall b, ~ In b items -> value_of w' b = value_of w b).
  Proof.
    intros Hw Hc Hd Hm Ha Hp Hv Hval Hch.
    destruct (assign_spreads w (fun b => In b items) (fun _ => v0) a p v Hw Hc Ha Hv Hp Hval) as (depth & r & w' & H1 & H2 & H3 & H4 & H5 & H6).
    exists depth, r, w'. split; [exact H1|]. split; [exact H2|]. split.
    - intros b Hb. destruct (item_dec a b) as [<-|Hn]; [apply (H6 a); constructor|]. specialize (Hd a b Ha Hb Hn).
      destruct m; [congruence|now apply H5|]. apply (H6 b). econstructor; [now apply Hch| |exact Hd|constructor]. discriminate.
    - intros b Hb. apply H3. intros Hr. apply Hb. revert Ha. apply (reaches_in w (fun b => In b items)) with (2 := Hr).
      intros x y Hx (k & d & m' & Hl & <-). now apply (co_link _ _ _ _ _ _ Hc x k d m').
  Qed.
  Lemma link_in_sync n items chg w a p v v0 : network C U w -> NoDup items -> 2 <= length items -> v0 <> VUndef ->
    (forall b, In b items -> (forall m, registered w (fst b) (snd b) m = []) /\ exists p, settable C w b p /\ validated E C p v0 v0 /\
       (exists r, compares p v0 v0 r) /\ forall u, value_of w b = Some u -> u <> VUndef -> exists r, compares p u v0 r) ->
    ~ In (lmd chg) (w_quar w) -> In a items -> settable C w a p -> v <> VUndef -> validated E C p v v0 -> (chg = true -> differs C w a v0) ->
    exists r w1, ex (S n) (COp (OLinkAll items false chg)) w = (Ok r, w1) /\ (forall b, value_of w1 b = value_of w b) /\
    exists depth r2 w2, (forall n, depth <= n -> ex n (COp (OSet (fst a) (snd a) v)) w1 = (Ok r2, w2)) /\
      (forall b, In b items -> value_of w2 b = Some v0) /\ (forall b, ~ In b items -> value_of w2 b = value_of w b).
  Proof.
    intros Hw Hnd Hlen Hv0 Hi Hq Ha Hp Hv Hval Hch.
    destruct (link_all_joined n items chg w Hnd Hlen) as (w1 & E1 & J). { intros b Hb. destruct (Hi b Hb) as (_ & q & Hs & _). eauto. }
    eexists _, w1. split; [exact E1|]. split; [apply J|].
    assert (Hm : lmd chg <> MValidate) by (destruct chg; discriminate).
    assert (Hw1 : network C U w1).
    { pose proof (network_step w (OLinkAll items false chg) (S n) Hw) as K. rewrite E1 in K. apply K. constructor. intros b Hb. destruct (Hi b Hb) as (_ & q & Hs & _). eauto. }
    destruct (in_sync w1 items (lmd chg) v0 a p v) as (depth & r2 & w2 & H1 & _ & H2 & H3); auto.
    - apply Hw1.
    - exact (joined_consistent w w1 items (lmd chg) v0 Hw J Hm Hv0 Hi).
    - intros x y Hx Hy Hn. eapply joined_drives; eauto.
    - eapply grown_settable; [apply J|exact Hp].
    - intros Hc. assert (chg = true) as -> by (destruct chg; [reflexivity|discriminate]). specialize (Hch eq_refl).
      unfold differs in *. rewrite (jn_value _ _ _ _ J). destruct (value_of w a); [|exact I]. destruct Hch as [Hne [->|(q & Hq1 & Hq2)]]; split; auto.
      right. exists q. split; [eapply grown_settable; [apply J|exact Hq1]|exact Hq2].
    - exists depth, r2, w2. split; [exact H1|]. split; [exact H2|]. intros b Hb. rewrite H3, (jn_value _ _ _ _ J); auto.
  Qed.

  (** ** Unlinking *)
  Lemma unlink_stops n k w a p : network C U w -> settable C w a p ->
    (forall m k', In (LLink k') (registered w (fst a) (snd a) m) -> k' = k) ->
    forall n2 o b, writes o a -> b <> a -> value_of (snd (ex n2 (COp o) (snd (ex (S n) (COp (OUnlink k)) w)))) b = value_of w b.
  Proof.
    intros Hw Hp Hk n2 o b Ho Hb. change (snd (ex (S n) (COp (OUnlink k)) w)) with (set_unlinked k true w). set (w1 := set_unlinked k true w).
    assert (Hh : w_heap w1 = w_heap w) by apply w_updlink_heap.
    assert (Hw1 : network C U w1) by now apply unlink_network.
    rewrite (assign_alone w1 a p o (nw_only _ _ _ Hw1) Ho); auto.
    - unfold value_of, stored. now rewrite Hh.
    - eapply grown_settable; [|exact Hp]. intros l i. rewrite Hh. eauto.
    - intros c (k' & d & m & (Hd & Hu & Hr) & _). unfold registered in Hr. rewrite Hh in Hr. apply (Hk m k') in Hr. subst k'.
      unfold w1, set_unlinked in Hd. rewrite w_updlink_nth, Nat.eqb_refl in Hd. destruct (nth_error (w_links w) k); [|discriminate]. injection Hd as <-. discriminate.
  Qed.
  Lemma relink_restores n k d w : nth_error (w_links w) k = Some d -> d_unlinked d = false ->
    ex (S n) (COp (ORelink k)) (snd (ex (S n) (COp (OUnlink k)) w)) = (Ok VNone, w).
  Proof.
    intros Hd Hu. change (snd (ex (S n) (COp (OUnlink k)) w)) with (set_unlinked k true w).
    change (ex (S n) (COp (ORelink k)) (set_unlinked k true w)) with (@Ok val VNone, set_unlinked k false (set_unlinked k true w)). f_equal.
    unfold set_unlinked at 1. unfold w_updlink. assert (nth_error (w_links (set_unlinked k true w)) k = Some (DL (d_src d) (d_tgt d) (d_trans d) true (d_updating d))) as ->.
    { unfold set_unlinked. rewrite w_updlink_nth, Nat.eqb_refl, Hd. reflexivity. }
    unfold set_unlinked, w_updlink. rewrite Hd. destruct w as [h q l t cl], d as [s tg tr un up]. cbn in *. subst un. unfold w_setlinks. cbn. f_equal. now apply set_nth_twice.
  Qed.
End Net.
