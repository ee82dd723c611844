(** Facts about unlinking and relinking a whole link. *)
From Verif Require Import World WorldFrame WorldSpec WorldInv WorldSet WorldFacts ContainerFacts AccessFacts LinkSpec LinkFacts LinkHalt LinkSync LinkNet LinkGroup.
Local Open Scope string_scope.
Local Open Scope list_scope.
Local Open Scope nat_scope.

Section Group.
  Variables (E : env) (C : ctable) (U : ucode).
  Notation ex := (exec E C U).

  Fixpoint set_all (b : bool) (ks : list nat) (w : world) : world :=
    match ks with [] => w | k :: r => set_all b r (set_unlinked k b w) end.
  Lemma unlink_eq n ks : forall w, link_unlink (ex (S n)) ks w = (Ok VNone, set_all true ks w).
  Proof. unfold link_unlink. induction ks as [|k ks IH]; intros w; [reflexivity|]. exact (IH (set_unlinked k true w)). Qed.
  Lemma relink_eq n ks : forall w, link_relink (ex (S n)) ks w = (Ok VNone, set_all false ks w).
  Proof. unfold link_relink. induction ks as [|k ks IH]; intros w; [reflexivity|]. exact (IH (set_unlinked k false w)). Qed.
  Lemma set_all_heap b ks : forall w, w_heap (set_all b ks w) = w_heap w.
  Proof. induction ks as [|k ks IH]; intros w; [reflexivity|]. cbn [set_all]. rewrite IH. apply w_updlink_heap. Qed.
  Lemma set_all_network b ks : forall w, network C U w -> network C U (set_all b ks w).
  Proof. induction ks as [|k ks IH]; intros w H; [exact H|]. apply IH. now apply unlink_network. Qed.
  Definition with_un (b : bool) (d : dlink) : dlink := DL (d_src d) (d_tgt d) (d_trans d) b (d_updating d).
  Lemma set_all_nth b ks : forall w k, nth_error (w_links (set_all b ks w)) k =
    if in_dec Nat.eq_dec k ks then option_map (with_un b) (nth_error (w_links w) k) else nth_error (w_links w) k.
  Proof.
    induction ks as [|x ks IH]; intros w k; [reflexivity|]. cbn [set_all]. rewrite IH. unfold set_unlinked. rewrite w_updlink_nth.
    destruct (in_dec Nat.eq_dec k ks) as [Hin|Hin], (in_dec Nat.eq_dec k (x :: ks)) as [Hi|Hi]; cbn [In] in Hi; try tauto;
      destruct (Nat.eqb_spec x k) as [->|Hn]; try tauto; try reflexivity.
    destruct (nth_error (w_links w) k); reflexivity.
  Qed.
  Lemma updlink_rest k f w : w_quar (w_updlink k f w) = w_quar w /\ w_trace (w_updlink k f w) = w_trace w /\ w_clock (w_updlink k f w) = w_clock w.
  Proof. unfold w_updlink. destruct (nth_error (w_links w) k); auto. Qed.
  Lemma set_all_rest b ks : forall w, w_quar (set_all b ks w) = w_quar w /\ w_trace (set_all b ks w) = w_trace w /\ w_clock (set_all b ks w) = w_clock w.
  Proof.
    induction ks as [|k ks IH]; intros w; [auto|]. cbn [set_all]. destruct (IH (set_unlinked k b w)) as (-> & -> & ->). apply updlink_rest.
  Qed.
  Lemma world_ext (w w' : world) : w_heap w = w_heap w' -> w_quar w = w_quar w' -> w_trace w = w_trace w' -> w_clock w = w_clock w' ->
    (forall k, nth_error (w_links w) k = nth_error (w_links w') k) -> w = w'.
  Proof.
    destruct w as [h q l t c], w' as [h' q' l' t' c']. cbn. intros -> -> -> -> H. f_equal. revert l' H.
    induction l as [|x l IH]; intros [|y l'] H; [reflexivity|specialize (H 0); discriminate|specialize (H 0); discriminate|].
    f_equal; [specialize (H 0); now injection H|]. apply IH. intros k. exact (H (S k)).
  Qed.

  Lemma group_unlink_stops n ks w a p : network C U w -> settable C w a p ->
    (forall m k, In (LLink k) (registered w (fst a) (snd a) m) -> In k ks) ->
    exists w', link_unlink (ex (S n)) ks w = (Ok VNone, w') /\ (forall b, value_of w' b = value_of w b) /\
    forall n2 o b, writes o a -> b <> a -> value_of (snd (ex n2 (COp o) w')) b = value_of w b.
  Proof.
    intros Hw Hp Hk. exists (set_all true ks w). split; [apply unlink_eq|]. pose proof (set_all_heap true ks w) as Hh.
    split; [intros b; unfold value_of, stored; now rewrite Hh|]. intros n2 o b Ho Hb.
    pose proof (set_all_network true ks w Hw) as Hw1.
    rewrite (assign_alone E C U _ a p o (nw_only _ _ _ Hw1) Ho); auto.
    - unfold value_of, stored. now rewrite Hh.
    - eapply grown_settable; [|exact Hp]. intros l i. rewrite Hh. eauto.
    - intros c (k & d & m & (Hd & Hu & Hr) & _). unfold registered in Hr. rewrite Hh in Hr. apply (Hk m k) in Hr.
      rewrite set_all_nth in Hd. destruct (in_dec Nat.eq_dec k ks); [|contradiction]. destruct (nth_error (w_links w) k); [|discriminate]. injection Hd as <-. discriminate.
  Qed.
  Lemma group_relink_restores n n2 ks w : (forall k, In k ks -> exists d, nth_error (w_links w) k = Some d /\ d_unlinked d = false) ->
    link_relink (ex (S n2)) ks (snd (link_unlink (ex (S n)) ks w)) = (Ok VNone, w).
  Proof.
    intros H. rewrite unlink_eq. cbn [snd]. rewrite relink_eq. f_equal.
    destruct (set_all_rest false ks (set_all true ks w)) as (Q1 & T1 & K1). destruct (set_all_rest true ks w) as (Q2 & T2 & K2).
    apply world_ext; try congruence; [now rewrite !set_all_heap|]. intros k. rewrite !set_all_nth.
    destruct (in_dec Nat.eq_dec k ks) as [Hin|]; [|reflexivity]. destruct (H k Hin) as (d & -> & Hu). cbn [option_map]. f_equal. destruct d; cbn in *. now subst.
  Qed.
  Lemma link_unlink_relink n items chg w : network C U w -> NoDup items -> 2 <= length items ->
    (forall b, In b items -> (forall m k, ~ In (LLink k) (registered w (fst b) (snd b) m)) /\ exists p, settable C w b p) ->
    exists ks w1 w2, ex (S n) (COp (OLinkAll items false chg)) w = (Ok (VList (map VObj ks)), w1) /\
      link_unlink (ex (S n)) ks w1 = (Ok VNone, w2) /\
      (forall a o b n2, In a items -> writes o a -> b <> a -> value_of (snd (ex n2 (COp o) w2)) b = value_of w b) /\
      link_relink (ex (S n)) ks w2 = (Ok VNone, w1).
  Proof.
    intros Hw Hnd Hlen Hi. destruct (link_all_joined E C U n items chg w Hnd Hlen) as (w1 & E1 & J). { intros b Hb. apply (Hi b Hb). }
    set (ks := seq (length (w_links w)) (length (all_pairs_of items))) in *.
    assert (Hw1 : network C U w1).
    { pose proof (network_step E C U w (OLinkAll items false chg) (S n) Hw) as K. rewrite E1 in K. apply K. constructor. intros b Hb. apply (Hi b Hb). }
    exists ks, w1, (set_all true ks w1). split; [exact E1|]. split; [apply unlink_eq|]. split.
    - intros a o b n2 Ha Ho Hb. destruct (Hi a Ha) as (Hnone & p & Hp).
      destruct (group_unlink_stops n ks w1 a p Hw1) as (w2 & K1 & _ & K2).
      + eapply grown_settable; [apply J|exact Hp].
      + intros m k Hin. apply (jn_reg _ _ _ _ J) in Hin as [Hin|(_ & j & ab & Hj & _ & [= ->])]; [now apply Hnone in Hin|].
        apply in_seq. assert (j < length (all_pairs_of items)) by (apply nth_error_Some; congruence). lia.
      + rewrite unlink_eq in K1. injection K1 as <-. rewrite K2; auto. apply J.
    - pose proof (group_relink_restores n n ks w1) as K. rewrite unlink_eq in K. apply K. intros k Hk. apply in_seq in Hk as [H1 H2].
      rewrite (jn_links _ _ _ _ J), nth_error_app2 by exact H1.
      destruct (nth_error (all_pairs_of items) (k - length (w_links w))) as [ab|] eqn:Hab; [|apply nth_error_None in Hab; lia].
      rewrite (map_nth_error _ _ _ Hab). eexists. split; reflexivity.
  Qed.
End Group.
