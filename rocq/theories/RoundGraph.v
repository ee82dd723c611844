(** Object graphs survive the way through JSON. *)
From Verif Require Import World WorldFrame WorldSpec WorldSet WorldFacts AccessSpec ContainerFacts BasicSpec GraphSpec GraphConv GraphFacts GraphSerial GraphHelp RoundSpec RoundLeaf RoundFacts RoundValue RoundSend RoundNode.
Local Open Scope string_scope.
Local Open Scope list_scope.
Local Open Scope nat_scope.

Lemma nodup_filter {A} (f : string * A -> bool) (d : list (string * A)) : NoDup (map fst d) -> NoDup (map fst (filter f d)).
Proof.
  induction d as [|x d IH]; cbn [map filter]; intros H; [constructor|]. inversion H as [|? ? H1 H2]; subst.
  destruct (f x); auto. cbn [map]. constructor; auto. intros K. apply H1. apply in_map_iff in K as (y & <- & K).
  apply filter_In in K. apply in_map. now destruct K.
Qed.

Section Graph.
  Variable E : env.
  Variable C : ctable.
  Variable U : ucode.
  Variable so : sopt.
  Variable d_o : dopt.
  Variable w : world.
  Hypothesis HS : reads_special E.
  Hypothesis HN : o_trusted d_o = true -> names_known C.
  Hypothesis Hdyn : s_dyn so = false.
  Notation X := (exec E C U).
  Notation restorable := (restorable C so d_o w).
  Notation descends := (descends C w).
  Notation child := (child C w).
  Notation looks := (looks w).
  Notation clear_below := (clear_below C w).
  Notation ready := (ready E C U so d_o w).
  Notation value_ready := (value_ready E C U so d_o w).

  Lemma class_chosen l i c cid d o w1 : nth_error (w_heap w) l = Some i -> nth_error (ct_cls C) (i_cls i) = Some c -> restorable cid l ->
    o_trusted o = o_trusted d_o -> vd_get d class_key = (if s_class so then Some (VStr (c_name c)) else None) ->
    deser_class C cid (vd_get d class_key) o w1 = (Ok (i_cls i), w1).
  Proof.
    intros Hi Hc (i' & c' & Hi' & Hc' & _ & Hcid & Hr) Ho ->. rewrite Hi in Hi'. injection Hi' as <-. rewrite Hc in Hc'. injection Hc' as <-.
    unfold deser_class. destruct (nth_error (ct_cls C) cid) as [k|] eqn:Ek; [|contradiction].
    rewrite (bind_ok _ _ w1 w1 k) by (unfold class_of, lift; now rewrite Ek).
    destruct Hr as [Hr|(Hs & Ht)].
    - destruct (s_class so); [|now subst]. rewrite <- Hr in Ek. rewrite Hc in Ek. injection Ek as <-. cbn [py_eq]. rewrite String.eqb_refl, orb_true_r. now rewrite Hr.
    - rewrite Hs. destruct (HN Ht _ _ Hc) as [Hne Hreg].
      replace (truthy (VStr (c_name c))) with true by (cbn [truthy]; destruct (c_name c); [congruence|reflexivity]). cbn [negb orb py_eq hashable].
      destruct (String.eqb (c_name c) (c_name k)) eqn:En.
      + apply String.eqb_eq in En. destruct (HN Ht _ _ Ek) as [_ Hk]. rewrite <- En, Hreg in Hk. injection Hk as <-. reflexivity.
      + rewrite Ho, Ht. cbn [andb negb]. now rewrite Hreg.
  Qed.

  Lemma node_ready l : portable_node E C U so d_o w l -> (forall m, child l m -> ready m) -> (forall m, child l m -> ~ descends m l) -> ready l.
  Proof.
    intros (i & c & Hi & Hc & Hnd & Hcn & Hst & (nd & Hcon)) Hch Hcyc.
    assert (Hdecl : forall name d, dget (c_props c) name = Some d -> declares C w l name d) by (intros name d Hd; exists c; split; [now exists i|exact Hd]).
    assert (Hheld : forall name, held w l name = match dget (i_back i) name with Some v => v | None => VNone end) by (intros; unfold held, stored; now rewrite Hi).
    assert (HR : Forall (entry_ready E C U so d_o w i c) (i_back i)).
    { apply Forall_forall. intros [k v] Hkv. apply dget_nodup_in in Hkv; auto. destruct (Hst k v Hkv) as (d & Hd & Hk & Hv). exists d. cbn [fst snd].
      split; [exact Hd|]. split; [exact Hk|]. split; [exact Hkv|]. intros Hn. apply value_send; auto; [now apply Hv|].
      intros m Hm. apply Hch. exists k, d. split; [now apply Hdecl|]. rewrite Hheld, Hkv. auto. }
    destruct (back_send E C U so d_o w l i c Hi Hc (i_back i) HR) as (n0 & js & Hjs & S0 & D0).
    assert (Hkeys : forall k j, In (k, j) js -> dhas (c_props c) k = true /\ k <> "__class__").
    { intros k j Hkj. apply (in_map fst) in Hkj. cbn [fst] in Hkj. rewrite Hjs in Hkj. apply in_map_iff in Hkj as ([k' v] & <- & Hkv). apply filter_In in Hkv as [Hkv _].
      apply dget_nodup_in in Hkv; auto. destruct (Hst k' v Hkv) as (d & Hd & _). cbn [fst]. unfold dhas. rewrite Hd. split; [reflexivity|].
      intros ->. apply Hcn. apply dget_in in Hd. apply (in_map fst) in Hd. exact Hd. }
    set (entries := map (fun kx : string * val => (VStr (fst kx), snd kx)) js).
    set (dj := if s_class so then entries ++ [(class_key, VStr (c_name c))] else entries).
    assert (Hno : Forall (fun k' => py_eq k' class_key = false) (map fst entries)).
    { apply Forall_forall. intros x Hx. unfold entries in Hx. rewrite map_map in Hx. apply in_map_iff in Hx as ([k j] & <- & Hx). cbn [fst py_eq class_key].
      destruct (String.eqb_spec k "__class__"); auto. now destruct (Hkeys _ _ Hx). }
    assert (Hget : vd_get dj class_key = if s_class so then Some (VStr (c_name c)) else None).
    { assert (K : forall r, vd_get (entries ++ r) class_key = vd_get r class_key).
      { intros r. clear - Hno. induction entries as [|[a b] en IH]; cbn [app vd_get]; auto. cbn [map fst] in Hno. inversion Hno; subst. rewrite H1. auto. }
      unfold dj. destruct (s_class so); [now rewrite K|]. rewrite <- (app_nil_r entries). now rewrite K. }
    exists (S (S (max 2 (max n0 nd)))), dj. split; [|split].
    - intros n w1 Hn Hl Hcl. destruct n as [|n]; [lia|]. cbn [exec step]. unfold has_serialize.
      destruct (Hl l i Hi) as (i1 & Hi1 & Hic & Hib). destruct (Hcl l (descends_here _ _ _)) as (i1' & Hi1' & Hfl). rewrite Hi1 in Hi1'. injection Hi1' as <-.
      rewrite (bind_ok _ _ w1 w1 i1) by (unfold get_inst; now rewrite Hi1). rewrite Hfl.
      set (w1' := w_upd l (i_sets true) w1). rewrite (bind_ok (upd l (i_sets true)) _ w1 w1' tt) by reflexivity.
      assert (Hn' : nth_error (w_heap w1') l = Some (i_sets true i1)) by (unfold w1'; rewrite w_upd_nth_same, Hi1; reflexivity).
      destruct (S0 n w1' (i_sets true i1)) as (w2 & data & K & Hf & HU); auto.
      { lia. }
      { intros x ix Hx. destruct (Nat.eq_dec l x) as [<-|Hne].
        - exists (i_sets true i1). rewrite Hi in Hx. injection Hx as <-. auto.
        - unfold w1'. rewrite w_upd_nth_other by auto. now apply Hl. }
      { intros m Hm x Hx. assert (l <> x) by (intros <-; exact (Hcyc m Hm Hx)). destruct (Hcl x) as (ix & Hix & Hfx); [eapply descends_step; eauto|].
        exists ix. split; [|exact Hfx]. unfold w1'. rewrite w_upd_nth_other; auto. }
      exists (w_upd l (i_sets false) w2). split; [|eapply unchanged_back; [exact Hi1| |exact HU]; destruct i1; cbn in *; now subst].
      unfold fin. rewrite (bind_ok (inst_class C l) _ w1' w1' c).
      2: { unfold inst_class. rewrite (bind_ok _ _ w1' w1' (i_sets true i1)) by (unfold get_inst; now rewrite Hn'). unfold class_of, lift. cbn [i_cls i_sets]. now rewrite Hic, Hc. }
      rewrite (bind_ok _ _ w1' w1' (i_sets true i1)) by (unfold get_inst; now rewrite Hn'). rewrite Hdyn. cbv zeta. cbn [i_back i_sets]. rewrite Hib.
      rewrite (bind_ok _ _ _ _ _ K). rewrite Hf. cbn [ret]. f_equal. f_equal. f_equal. fold entries. unfold dj. destruct (s_class so); auto. now apply vd_set_new.
    - intros n w1 cid o Hn Hr Ht Ho. destruct n as [|n]; [lia|]. cbn [exec step]. unfold has_deserialize.
      rewrite (bind_ok _ _ _ _ _ (class_chosen l i c cid dj o w1 Hi Hc Hr Ht Hget)).
      rewrite (bind_ok (class_of C (i_cls i)) _ w1 w1 c) by (unfold class_of, lift; now rewrite Hc).
      assert (Hk : known_props c dj = js).
      { assert (K : forall js r, (forall k j, In (k, j) js -> dhas (c_props c) k = true /\ k <> "__class__") ->
          known_props c (map (fun kx : string * val => (VStr (fst kx), snd kx)) js ++ r) = js ++ known_props c r).
        { clear. induction js as [|[k j] js IH]; intros r H; cbn [map app known_props fst snd]; auto. destruct (H k j (or_introl eq_refl)) as [-> _].
          f_equal. apply IH. intros k' j' Hk. apply (H k' j'). now right. }
        unfold dj, entries. destruct (s_class so).
        - rewrite K by exact Hkeys. cbn [known_props class_key]. replace (dhas (c_props c) "__class__") with false; [now rewrite app_nil_r|].
          symmetry. unfold dhas. destruct (dget (c_props c) "__class__") as [d|] eqn:Ed; auto. exfalso. apply Hcn. apply dget_in in Ed. apply (in_map fst) in Ed. exact Ed.
        - rewrite <- (app_nil_r (map _ js)). rewrite K by exact Hkeys. now rewrite app_nil_r. }
      assert (Hun : has_unused c dj = false).
      { unfold has_unused. destruct (existsb _ dj) eqn:Ex; auto. apply existsb_exists in Ex as ([x y] & Hx & Hb). exfalso.
        assert (Hx' : In (x, y) entries \/ (x, y) = (class_key, VStr (c_name c))).
        { unfold dj in Hx. destruct (s_class so); auto. apply in_app_iff in Hx as [Hx|[Hx|[]]]; auto. }
        destruct Hx' as [Hx'|Hx'].
        - unfold entries in Hx'. apply in_map_iff in Hx' as ([k j] & [= <- <-] & Hx'). cbn [fst] in Hb. destruct (Hkeys _ _ Hx') as [Kd _]. rewrite Kd in Hb. discriminate.
        - injection Hx' as -> ->. cbn [fst class_key] in Hb. rewrite andb_false_r in Hb. discriminate. }
      rewrite Hun, Hk. cbn [andb]. cbv zeta. set (o1 := DOpt (o_trusted o) (o_strict o) false).
      destruct (D0 n w1 o1) as (ns & w2 & K & HU & HF); [lia|exact Ht|reflexivity|]. rewrite (bind_ok _ _ _ _ _ K).
      set (w2q := w_setquar all_modes w2). destruct (Hcon (S n) w2q) as (i0 & w3 & Kc & Uc & Hi0 & Hi0c & Hok); [lia|].
      change (length (w_heap w2q)) with (length (w_heap w2)) in *. set (l0 := length (w_heap w2)) in *.
      destruct (new_split E C U w2q n (i_cls i) _ w3 i0 Kc Uc Hi0) as (c' & wa & Hc' & Hna & Knew). rewrite Hc in Hc'. injection Hc' as <-.
      assert (Hgq : grows w2 w2q) by (intros x ix Hx; exact Hx).
      assert (Hent : Forall (entry_ok E C U so d_o w w2q c i0 (length (w_heap w1))) ns).
      { assert (Hb : Forall (fun kv => dget (i_back i) (fst kv) = Some (snd kv) /\ snd kv <> VNone) (filter not_none (i_back i))).
        { apply Forall_forall. intros [k v] Hkv. apply filter_In in Hkv as [Hkv Hn']. apply dget_nodup_in in Hkv; auto. cbn [fst snd]. split; auto.
          intros ->. discriminate. }
        clear - HF Hb Hst Hok Hgq Hheld. induction HF as [|[k v] [k' b] bs ns (Hk & d & Hd & Hca) HF IH]; constructor; inversion Hb as [|? ? [Hb1 Hb2] Hb']; subst; auto.
        cbn [fst snd] in *. subst k'. destruct (Hst k v Hb1) as (d' & Hd' & Hkd & Hv). rewrite Hd in Hd'. injection Hd' as <-. destruct (Hv Hb2) as [Hv1 Hv2].
        exists d, v. cbn [fst snd]. split; [exact Hd|]. split; [exact Hv1|]. split; [exact Hv2|]. split; [|split; [exact Hkd|]].
        - eapply carried_mono; [|exact Hca]. intros x y. apply copied_grows; [lia|exact Hgq].
        - intros x Hx. destruct (Hok k x Hx) as [[_ K]|(_ & d' & Hd' & H1 & H2 & H3)].
          + rewrite Hheld, Hb1 in K. contradiction.
          + rewrite Hd in Hd'. injection Hd' as <-. auto. }
      assert (Hkns : dkeys ns = map fst (filter not_none (i_back i))).
      { clear - HF. unfold dkeys. induction HF as [|? ? ? ? [H ?] HF IH]; cbn [map]; congruence. }
      assert (Hnns : NoDup (dkeys ns)) by (rewrite Hkns; now apply nodup_filter).
      set (mut := fun kv : string * val => key_mutable c (fst kv)).
      destruct (set_entries E C U so d_o w w2q n (i_cls i) c i0 (length (w_heap w1)) all_modes ltac:(lia) Hc) with (kws := filter mut ns) (wk := wa) (ik := i_setv (Some true) i0)
        as (wz & iz & Kz & Hz & Hcz & Hinz & Houtz); auto.
      { intros []; reflexivity. }
      { now apply nodup_filter. }
      { rewrite Forall_forall in *. intros kb Hkb. apply filter_In in Hkb as [H1 H2]. auto. }
      pose proof (near_upd w2q _ _ _ (i_setv (Some false)) Hz) as Hz'.
      change (length (w_heap w2q)) with l0 in *. set (wz' := w_upd l0 (i_setv (Some false)) wz) in *.
      assert (Kn : disabled None (has_new E C U (X n) (i_cls i) (Some (filter mut ns))) w2 = (Ok (VInst l0), w_setquar (w_quar w2) wz')).
      { unfold disabled. change (w_setquar (quar_enter None (w_quar w2)) w2) with w2q. rewrite Knew. unfold fin. unfold bind at 1.
        rewrite (bind_ok _ _ _ _ _ Kz). reflexivity. }
      unfold mut in Kn. rewrite (bind_ok _ _ _ _ _ Kn).
      assert (Hz2 : near w2q (w_quar w2) (w_setquar (w_quar w2) wz') (i_setv (Some false) iz)).
      { destruct Hz' as (H1 & H2 & _ & H4). split; [exact H1|]. split; [exact H2|]. split; [reflexivity|exact H4]. }
      destruct (write_entries E C U so d_o w w2q n c i0 (length (w_heap w1)) (w_quar w2) ltac:(lia)) with (kws := filter (fun kv => negb (mut kv)) ns) (wk := w_setquar (w_quar w2) wz') (ik := i_setv (Some false) iz)
        as (wf & i_f & Kf & Hf & Hcf & Hinf & Houtf); auto.
      { now apply nodup_filter. }
      { rewrite Forall_forall in *. intros kb Hkb. apply filter_In in Hkb as [H1 H2]. auto. }
      unfold mut in Kf. change (length (w_heap w2q)) with l0 in *. rewrite (bind_ok _ _ _ _ _ Kf). rewrite Ho.
      exists l0, wf. split; [reflexivity|].
      assert (Hgf : grows w2 wf) by (destruct Hf as (H1 & _); exact H1).
      split.
      { destruct Hf as (H1 & H2 & H3 & H4). eapply unchanged_trans; [exact HU|]. split; [now apply grows_heap|]. split; [exact H3|exact H4]. }
      destruct Hf as (_ & Hlf & _). change (length (w_heap w2q)) with l0 in Hlf.
      assert (Hfin : forall k b, In (k, b) ns -> dget (i_back i_f) k = Some b).
      { intros k b Hkb. destruct (mut (k, b)) eqn:Em.
        - rewrite Houtf.
          + cbn [i_back i_setv]. apply Hinz. apply filter_In. auto.
          + intros Hx. apply in_map_iff in Hx as ([k' b'] & Hk' & Hx). apply filter_In in Hx as [_ Hx]. cbn [fst] in Hk'. subst k'. unfold mut in *. cbn [fst] in *. rewrite Em in Hx. discriminate.
        - apply Hinf. apply filter_In. rewrite Em. auto. }
      assert (Hfout : forall k, ~ In k (dkeys ns) -> dget (i_back i_f) k = dget (i_back i0) k).
      { intros k Hk'. rewrite Houtf.
        - cbn [i_back i_setv]. rewrite Houtz; [reflexivity|]. intros Hx. apply Hk'. apply in_map_iff in Hx as (y & <- & Hx). apply filter_In in Hx as [Hx _]. now apply in_map.
        - intros Hx. apply Hk'. apply in_map_iff in Hx as (y & <- & Hx). apply filter_In in Hx as [Hx _]. now apply in_map. }
      apply (copied_intro C _ w wf (copied C (length (w_heap w1)) w wf) l l0 i i_f); auto.
      { apply unchanged_len in HU. exact HU. }
      { rewrite Hcf. cbn [i_cls i_setv]. exact Hcz. }
      intros name d (c' & (i' & Hi' & Hc') & Hd). rewrite Hi in Hi'. injection Hi' as <-. rewrite Hc in Hc'. injection Hc' as <-.
      assert (Hheld' : held wf l0 name = match dget (i_back i_f) name with Some v => v | None => VNone end) by (unfold held, stored; now rewrite Hlf).
      rewrite Hheld'.
      assert (Hcase : (exists v, dget (i_back i) name = Some v /\ v <> VNone) \/ held w l name = VNone).
      { rewrite Hheld. destruct (dget (i_back i) name) as [v|]; auto. destruct (is_none v) eqn:En; [right; destruct v; try discriminate; reflexivity|].
        left. exists v. split; auto. intros ->. discriminate. }
      destruct Hcase as [(v & Hv & Hvn)|Hv].
      + right. rewrite Hheld, Hv. split; [exact Hvn|].
        assert (Hin : In (name, v) (filter not_none (i_back i))) by (apply filter_In; split; [now apply dget_in|unfold not_none; cbn [snd]; now rewrite is_none_false]).
        clear - Hin HF Hfin Hgf Hd. assert (G : exists b, In (name, b) ns /\ carried (copied C (length (w_heap w1)) w w2) (pd_type d) v b).
        { clear - Hin HF Hd. induction HF as [|[k x] [k' b] bs ns (Hk & d' & Hd' & Hca) HF IH]; [destruct Hin|]. cbn [fst snd] in *. subst k'. destruct Hin as [Hin|Hin].
          - injection Hin as -> ->. rewrite Hd in Hd'. injection Hd' as <-. exists b. split; [now left|exact Hca].
          - destruct (IH Hin) as (b' & H1 & H2). exists b'. split; [now right|exact H2]. }
        destruct G as (b & Hb & Hca). rewrite (Hfin _ _ Hb). apply carried_copies. eapply carried_mono; [|exact Hca]. intros x y. apply copied_grows; [lia|exact Hgf].
      + left. split; [exact Hv|]. rewrite Hfout.
        * destruct (dget (i_back i0) name) as [x|] eqn:Ex; auto. destruct (Hok name x Ex) as [[Hx _]|[Hx _]]; [exact Hx|contradiction].
        * rewrite Hkns. intros Hx. apply in_map_iff in Hx as ([k' v'] & Hk' & Hx). cbn [fst] in Hk'. subst k'. apply filter_In in Hx as [Hx Hn']. apply dget_nodup_in in Hx; auto.
          rewrite Hheld, Hx in Hv. subst v'. discriminate.
    - intros Hs i' c' Hi' Hc'. rewrite Hi in Hi'. injection Hi' as <-. rewrite Hc in Hc'. injection Hc' as <-. rewrite Hget, Hs. reflexivity.
  Qed.

  Lemma descends_trans l m k : descends l m -> descends m k -> descends l k.
  Proof. induction 1 as [|l m' m Hc _ IH]; auto. intros Hk. eapply descends_step; [exact Hc|auto]. Qed.
  Lemma descends_child l m k : descends l m -> child m k -> descends l k.
  Proof. intros H K. eapply descends_trans; [exact H|]. eapply descends_step; [exact K|constructor]. Qed.

  Lemma graph_ready_avoid n : forall l avoid, portable_graph E C U so d_o w l ->
    NoDup avoid -> (forall a, In a avoid -> a < length (w_heap w) /\ ~ descends l a) -> length (w_heap w) <= n + length avoid -> ready l.
  Proof.
    induction n as [|n IH]; intros l avoid (Ht & Hp) Ha Hd Hn;
      destruct (Hp l (descends_here _ _ _)) as (i & c & Hi & _);
      assert (Hl : l < length (w_heap w)) by (apply nth_error_Some; congruence);
      assert (Ha' : NoDup (l :: avoid)) by (constructor; [intros K; destruct (Hd l K) as [_ K']; apply K'; constructor|exact Ha]).
    - exfalso. assert (K : length (l :: avoid) <= length (seq 0 (length (w_heap w)))).
      { apply NoDup_incl_length; auto. intros x [<-|Hx]; apply in_seq; (split; [apply Nat.le_0_l|]); [exact Hl|exact (proj1 (Hd x Hx))]. }
      rewrite seq_length in K. cbn [length] in K. unfold loc in *. lia.
    - apply node_ready; [apply Hp; constructor| |intros m Hm; apply (Ht l m); [constructor|exact Hm]].
      intros m Hm. assert (Hlm : descends l m) by (eapply descends_child; [constructor|exact Hm]). apply (IH m (l :: avoid)); auto.
      + split; [intros x k Hx; apply Ht; eapply descends_trans; eauto|intros x Hx; apply Hp; eapply descends_trans; eauto].
      + intros a [<-|Hx].
        * split; [exact Hl|]. apply (Ht l m); [constructor|exact Hm].
        * destruct (Hd a Hx) as [H1 H2]. split; [exact H1|]. intros K. apply H2. eapply descends_trans; eauto.
      + cbn [length]. lia.
  Qed.
  Lemma graph_ready l : portable_graph E C U so d_o w l -> ready l.
  Proof. intros H. apply (graph_ready_avoid (length (w_heap w)) l []); auto; [constructor|intros a []|lia]. Qed.

  Lemma looks_self : looks w.
  Proof. intros l i Hi. exists i. auto. Qed.

  Theorem round_trip l cid : o_valid d_o = false -> portable_graph E C U so d_o w l -> unguarded C w l -> restorable cid l ->
    exists depth j,
      (forall n, depth <= n -> exists w1, X n (COp (OSer l so)) w = (Ok j, w1) /\ unchanged w w1) /\
      (forall n w1, depth <= n -> exists m w2, X n (COp (ODeser cid j d_o)) w1 = (Ok (VInst m), w2) /\ unchanged w1 w2 /\
         copied C (length (w_heap w1)) w w2 l m).
  Proof.
    intros Hv HG Hu Hr. destruct (graph_ready l HG) as (n0 & dj & S0 & D0 & _). exists n0, (VDict dj). split.
    - intros n Hn. apply S0; auto; [apply looks_self|]. intros m Hm. destruct HG as [_ Hp]. destruct (Hp m Hm) as (i & c & Hi & _). exists i. split; eauto.
    - intros n w1 Hn. apply D0; auto.
  Qed.
End Graph.

Theorem copy_copies E C U w l i : reads_special E -> names_known C -> portable_graph E C U (SOpt true false) (DOpt true false false) w l -> unguarded C w l ->
  nth_error (w_heap w) l = Some i -> restorable C (SOpt true false) (DOpt true false false) w (i_cls i) l ->
  exists depth, forall n, depth <= n -> exists m w1, exec E C U n (COp (OCopy l)) w = (Ok (VInst m), w1) /\ unchanged w w1 /\
    copied C (length (w_heap w)) w w1 l m.
Proof.
  intros HS HN HG Hu Hi Hr. destruct (round_trip E C U (SOpt true false) (DOpt true false false) w HS (fun _ => HN) eq_refl l (i_cls i) eq_refl HG Hu Hr) as (n0 & j & S0 & D0).
  exists (S n0). intros n Hn. destruct n as [|n]; [lia|]. cbn [exec step]. unfold has_copy.
  rewrite (bind_ok _ _ w w i) by (unfold get_inst; now rewrite Hi). destruct (S0 n ltac:(lia)) as (w1 & K & HU). rewrite (bind_ok _ _ _ _ _ K).
  destruct (D0 n w1 ltac:(lia)) as (m & w2 & K2 & HU2 & HC). exists m, w2. split; [exact K2|]. split; [eapply unchanged_trans; eauto|].
  eapply copied_mono; [apply (unchanged_len _ _ HU)|apply unchanged_refl|exact HC].
Qed.
