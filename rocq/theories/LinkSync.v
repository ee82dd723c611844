(** Facts about links: values spread along them. *)
From Verif Require Import World WorldFrame WorldSpec WorldInv WorldSet WorldFacts LinkSpec LinkFacts LinkHalt.
Local Open Scope string_scope.
Local Open Scope list_scope.
Local Open Scope nat_scope.

Section Sync.
  Variables (E : env) (C : ctable) (U : ucode) (P : item -> Prop) (f : item -> val).
  Notation ex := (exec E C U).
  Notation cons w := (consistent E C U w P f).

  Definition vals (w w' : world) : Prop := forall b, P b -> value_of w' b = value_of w b \/ value_of w' b = Some (f b).
  Definition holds (w : world) (b : item) : Prop := value_of w b = Some (f b).
  Lemma vals_refl w : vals w w.
  Proof. intros b _. auto. Qed.
  Lemma vals_trans w1 w2 w3 : vals w1 w2 -> vals w2 w3 -> vals w1 w3.
  Proof. intros H K b Hb. destruct (K b Hb) as [->|]; auto. Qed.
  Lemma vals_holds w w' b : vals w w' -> P b -> holds w b -> holds w' b.
  Proof. unfold holds. intros H Hb Hv. destruct (H b Hb) as [->|]; auto. Qed.
  Lemma vals_same w w' : (forall b, value_of w' b = value_of w b) -> vals w w'.
  Proof. intros H b _. auto. Qed.

  Lemma settable_fun w a p q : settable C w a p -> settable C w a q -> p = q.
  Proof.
    intros (_ & d & (c & (i & Hi & Hc) & Hd) & _ & <-) (_ & d' & (c' & (i' & Hi' & Hc') & Hd') & _ & <-). congruence.
  Qed.
  Lemma cons_keep w w' : same_net w w' -> vals w w' -> cons w -> cons w'.
  Proof.
    intros N V [A B Cc D L]. pose proof (net_sym _ _ N) as N'. constructor.
    - intros a Ha. destruct (A a Ha) as (Hu & p & Hp & Hs & Hc). split; [exact Hu|]. exists p. split; [eapply net_settable; eauto|]. split; [exact Hs|].
      intros u Hv Hn. destruct (V a Ha) as [K|K]; [rewrite K in Hv; auto|]. rewrite K in Hv. injection Hv as <-. exact Hs.
    - intros a Ha. rewrite (net_registered w w') by exact N. auto.
    - intros a cb m prev v Ha Hin. rewrite (net_registered w w') in Hin by exact N. eauto.
    - intros a k m Ha Hin. rewrite (net_registered w w') in Hin by exact N. destruct (D a k m Ha Hin) as (d & Hd).
      destruct (net_link _ _ _ _ N Hd) as (d' & Hd' & _). eauto.
    - intros a k d m Ha (Hk & Hu & Hr). rewrite (net_registered w w') in Hr by exact N.
      destruct (net_link _ _ _ _ N' Hk) as (d' & Hk' & Es & Et & Etr & Eu).
      destruct (L a k d' m Ha) as (Hs & Ht & u & q & Hq1 & Hq2 & Hq3 & Hq4); [split; [exact Hk'|split; [congruence|exact Hr]]|].
      rewrite <- Es, <- Et. split; [exact Hs|]. split; [exact Ht|]. exists u, q. rewrite <- Etr, <- Et. split; [exact Hq1|]. split; [exact Hq2|].
      split; [eapply net_settable; eauto|]. exact Hq4.
  Qed.

  (** items that changed have passed their value on *)
  Definition closed (w w' : world) : Prop := forall a b m, P a -> differs C w a (f a) -> holds w' a -> m <> MValidate -> drives w m a b -> holds w' b.
  Lemma drives_P w m a b : cons w -> P a -> drives w m a b -> P b.
  Proof. intros Hc Ha (k & d & Hl & <- & _). now apply (co_link _ _ _ _ _ _ Hc a k d m). Qed.
  Lemma drives_links w w' m a b : same_links w w' -> drives w m a b -> drives w' m a b.
  Proof.
    intros S (k & d & (Hk & Hu & Hr) & Ht & Hup & Hq). pose proof (links_net _ _ S) as N. destruct S as (_ & Sl & Sq).
    exists k, d. split; [split; [congruence|split; [exact Hu|]]|]. { now rewrite (net_registered w w'). }
    split; [exact Ht|]. split; [exact Hup|]. now rewrite Sq.
  Qed.
  Lemma differs_same w w' a v : same_net w w' -> value_of w' a = value_of w a -> differs C w a v -> differs C w' a v.
  Proof.
    intros N Hv. unfold differs. rewrite Hv. destruct (value_of w a); [|auto]. intros [Hn [H|(p & Hp & Hc)]]; [auto|]. split; [exact Hn|].
    right. exists p. split; [eapply net_settable; eauto|exact Hc].
  Qed.
  Lemma differs_not w a : differs C w a (f a) -> ~ holds w a.
  Proof. unfold differs, holds. destruct (value_of w a) as [u|]; [|discriminate]. intros [H _] [= K]. auto. Qed.
  Lemma closed_still w w' : (forall b, value_of w' b = value_of w b) -> closed w w'.
  Proof. intros H a b m Ha Hd Hh. exfalso. apply (differs_not w a Hd). unfold holds in *. now rewrite <- H. Qed.
  Lemma closed_trans w1 w2 w3 : cons w1 -> same_links w1 w2 -> vals w1 w2 -> vals w2 w3 -> closed w1 w2 -> closed w2 w3 -> closed w1 w3.
  Proof.
    intros Hc S V V' H K a b m Ha Hd Hh Hm Hl. pose proof (drives_P _ _ _ _ Hc Ha Hl) as Hb.
    destruct (V a Ha) as [Hs|Hs].
    - apply (K a b m Ha); auto; [|eapply drives_links; eauto]. eapply differs_same; eauto. now apply links_net.
    - apply (vals_holds w2 w3 b V' Hb). apply (H a b m); auto.
  Qed.

  Definition fine {A} (w : world) (rw : res A * world) (Q : A -> world -> Prop) : Prop :=
    match fst rw with
    | Ok x => same_links w (snd rw) /\ vals w (snd rw) /\ closed w (snd rw) /\ Q x (snd rw)
    | Exc e => e = ExRecursion
    end.
  Lemma fine_weaken {A} w (rw : res A * world) (Q Q' : A -> world -> Prop) :
    fine w rw Q -> (forall x, same_links w (snd rw) -> vals w (snd rw) -> Q x (snd rw) -> Q' x (snd rw)) -> fine w rw Q'.
  Proof. unfold fine. destruct (fst rw); [|auto]. intros (H1 & H2 & H3 & H4) K. auto. Qed.
  Lemma fine_bind {A B} w (m : M A) (k : A -> M B) (Q : A -> world -> Prop) (Q' : B -> world -> Prop) : cons w -> fine w (m w) Q ->
    (forall x w', cons w' -> same_links w w' -> vals w w' -> Q x w' -> fine w' (k x w') (fun y w'' => vals w' w'' -> Q' y w'')) ->
    fine w (bind m k w) Q'.
  Proof.
    intros Hc H K. unfold bind. unfold fine in H. destruct (m w) as [[x|e] w1]; cbn [fst snd] in H; [|exact H].
    destruct H as (H1 & H2 & H3 & H4).
    assert (Hc1 : cons w1) by (eapply cons_keep; eauto; now apply links_net).
    specialize (K x w1 Hc1 H1 H2 H4). unfold fine in *. destruct (k x w1) as [[y|e] w2]; cbn [fst snd] in *; [|exact K].
    destruct K as (K1 & K2 & K3 & K4). split; [eapply links_trans; eauto|]. split; [eapply vals_trans; eauto|].
    split; [eapply closed_trans; eauto|]. auto.
  Qed.
  Lemma fine_still {A} w (x : A) w' (Q : A -> world -> Prop) : same_links w w' -> (forall b, value_of w' b = value_of w b) -> Q x w' -> fine w (Ok x, w') Q.
  Proof. intros H1 H2 H3. unfold fine. cbn [fst snd]. split; [exact H1|]. split; [now apply vals_same|]. split; [now apply closed_still|exact H3]. Qed.
  Lemma fine_ret {A} w (x : A) (Q : A -> world -> Prop) : Q x w -> fine w (ret x w) Q.
  Proof. intros H. apply fine_still; auto. apply links_refl. Qed.
  Lemma fine_fuel {A} w Q : fine w (@throw A ExRecursion w) Q.
  Proof. reflexivity. Qed.

  Definition sync_set (n : nat) : Prop := forall w, cons w -> forall a v p, P a -> v <> VUndef -> settable C w a p -> validated E C p v (f a) ->
    fine w (ex n (COp (OSet (fst a) (snd a) v)) w) (fun _ w' => holds w' a /\ forall b, drives w MSet a b -> holds w' b).
  Definition sync_notify (n : nat) : Prop := forall w, cons w -> forall sid a prev v m i, P a -> holds w a ->
    fine w (ex n (CNotify sid (fst a) (snd a) prev v m i) w) (fun _ w' =>
      forall j k d, i <= j -> nth_error (registered w (fst a) (snd a) m) j = Some (LLink k) -> nth_error (w_links w) k = Some d ->
        d_unlinked d = false -> d_updating d = false -> holds w' (d_tgt d)).

  Lemma upd_value k b w a : value_of (set_updating k b w) a = value_of w a.
  Proof. unfold value_of, stored, set_updating. now rewrite w_updlink_heap. Qed.
  Lemma upd_other k b w k' : k' <> k -> nth_error (w_links (set_updating k b w)) k' = nth_error (w_links w) k'.
  Proof. intros H. unfold set_updating. rewrite w_updlink_nth. destruct (Nat.eqb_spec k k'); congruence. Qed.

  Lemma sync_link n k a m w : sync_set n -> cons w -> P a -> holds w a -> In (LLink k) (registered w (fst a) (snd a) m) ->
    fine w (link_update U (ex n) k w) (fun _ w' => forall d, nth_error (w_links w) k = Some d ->
      d_unlinked d = false -> d_updating d = false -> holds w' (d_tgt d)).
  Proof.
    intros IH Hc Ha Hh Hin. destruct (co_made _ _ _ _ _ _ Hc a k m Ha Hin) as (d & Hk).
    match goal with |- fine _ _ ?Q => set (Q0 := Q) end.
    unfold link_update, bind at 1, get_w. rewrite Hk. destruct (d_unlinked d || d_updating d) eqn:Hu.
    { apply fine_ret. intros d' Hd'. rewrite Hk in Hd'. injection Hd' as <-. intros Hx Hy. rewrite Hx, Hy in Hu. discriminate. }
    apply orb_false_iff in Hu as [Hu Hup].
    destruct (co_link _ _ _ _ _ _ Hc a k d m Ha) as (Hs & Ht & u & q & Hq1 & Hq2 & Hq3 & Hq4); [split; auto|].
    set (w1 := set_updating k true w). assert (N1 : same_net w w1) by apply set_updating_net.
    assert (V1 : forall b, value_of w1 b = value_of w b) by (intros; apply upd_value).
    assert (Hc1 : cons w1) by (eapply cons_keep; eauto; now apply vals_same).
    unfold bind at 1, mod_w, fin. change (w_updlink k (fun d0 => DL (d_src d0) (d_tgt d0) (d_trans d0) (d_unlinked d0) true) w) with w1.
    rewrite Hs.
    assert (G : exists rw, rw = ex n (COp (OSet (fst (d_tgt d)) (snd (d_tgt d)) u)) w1 /\
      ((let* v := ex n (COp (OGet (fst a) (snd a))) in
               let* v1 := match d_trans d with Some t => run (ex n) (u_trans U t v) | None => ret v end in
               ex n (COp (OSet (fst (d_tgt d)) (snd (d_tgt d)) v1))) w1 = rw \/ n = 0)).
    { eexists. split; [reflexivity|]. destruct n as [|n]; [auto|left]. unfold bind at 1.
      destruct (co_item _ _ _ _ _ _ Hc1 a Ha) as (_ & p & Hp & _). rewrite (get_settable E C U n a p) by exact Hp.
      unfold holds in Hh. rewrite V1, Hh. unfold bind. destruct (d_trans d) as [t|]; [rewrite Hq1; reflexivity|rewrite Hq1; reflexivity]. }
    destruct G as (rw & Hrw & [G|G]); [|subst n; reflexivity].
    change (fine w (let (r, w') := (let* v := ex n (COp (OGet (fst a) (snd a))) in
               let* v1 := match d_trans d with Some t => run (ex n) (u_trans U t v) | None => ret v end in
               ex n (COp (OSet (fst (d_tgt d)) (snd (d_tgt d)) v1))) w1 in (r, set_updating k false w')) Q0).
    rewrite G. subst rw.
    pose proof (IH w1 Hc1 (d_tgt d) u q Ht Hq2 (net_settable _ _ _ _ _ N1 Hq3) Hq4) as F. unfold fine in *.
    destruct (ex n _ w1) as [[y|e] w2]; cbn [fst snd] in *; [|exact F].
    destruct F as (F1 & F2 & F3 & F4 & _).
    assert (V3 : forall b, value_of (set_updating k false w2) b = value_of w2 b) by (intros; apply upd_value).
    assert (HQ : holds (set_updating k false w2) (d_tgt d)) by (unfold holds in *; now rewrite V3).
    split. { destruct (updating_touch (fun _ => True) k d w w2 Hk Hup) as [S _]; [|exact S]. split; [exact F1|]. intros b Hb. destruct (Hb I). }
    split. { intros b Hb. rewrite V3, <- V1. apply F2, Hb. }
    split.
    - intros a' b m' Ha' Hd Hh' Hm' (k' & d' & (Hk' & Hu' & Hr') & Ht' & Hup' & Hq').
      destruct (Nat.eq_dec k' k) as [->|Hn]; [rewrite Hk in Hk'; injection Hk' as <-; now rewrite <- Ht'|].
      unfold holds. rewrite V3. apply (F3 a' b m'); auto.
      + eapply differs_same; eauto.
      + unfold holds in *. now rewrite V3 in Hh'.
      + exists k', d'. split; [split; [unfold w1; rewrite upd_other; auto|split; [exact Hu'|now rewrite (net_registered w w1)]]|].
        split; [exact Ht'|]. split; [exact Hup'|]. unfold w1, set_updating. now rewrite w_updlink_quar.
    - intros d' Hd'. rewrite Hk in Hd'. injection Hd' as <-. auto.
  Qed.

  Lemma sync_notify_step n : sync_set n -> sync_notify n -> sync_notify (S n).
  Proof.
    intros IHs IH w Hc sid a prev v m i Ha Hh. cbn [exec step].
    destruct (co_item _ _ _ _ _ _ Hc a Ha) as (_ & p & (_ & d0 & (c & (x & Hx & _) & _) & _) & _).
    unfold bind at 1, get_inst. rewrite Hx.
    assert (Hreg : registered w (fst a) (snd a) m = listeners_of x (snd a) m) by (unfold registered; rewrite Hx; reflexivity).
    destruct (nth_error (listeners_of x (snd a) m) i) as [g|] eqn:Eg.
    2:{ apply fine_ret. intros j k d Hj Hn. rewrite Hreg in Hn. apply nth_error_None in Eg. assert (j < length (listeners_of x (snd a) m)) by (apply nth_error_Some; congruence). lia. }
    assert (Hin : In g (registered w (fst a) (snd a) m)). { rewrite Hreg. eapply nth_error_In; eauto. }
    eapply (fine_bind _ _ _ (fun _ w' => same_links w w' /\ holds w' a)); [exact Hc| |].
    { apply fine_still; [split; [|split]; reflexivity|reflexivity|]. split; [split; [|split]; reflexivity|exact Hh]. }
    intros _ w1 Hc1 S1 V1 [_ Hh1]. pose proof (links_net _ _ S1) as N1.
    eapply (fine_bind _ _ _ (fun _ w' => holds w' a /\ forall k d, g = LLink k -> nth_error (w_links w) k = Some d -> d_unlinked d = false -> d_updating d = false -> holds w' (d_tgt d))).
    - exact Hc1.
    - destruct g as [cb|k].
      + destruct (co_call _ _ _ _ _ _ Hc a cb m prev v Ha Hin) as (v' & Hv'). rewrite Hv'. apply fine_ret. split; [exact Hh1|]. discriminate.
      + eapply fine_bind; [exact Hc1| |].
        * apply (sync_link n k a m w1 IHs Hc1 Ha Hh1). now rewrite (net_registered w w1).
        * intros y w2 Hc2 S2 V2 Q2. apply fine_ret. intros _. split; [eapply vals_holds; eauto|].
          intros k' d Hk' Hd Hu Hup. injection Hk' as <-. apply Q2; auto. destruct S1 as (_ & -> & _). exact Hd.
    - intros v1 w2 Hc2 S2 V2 [Hh2 Q2]. eapply fine_weaken; [apply (IH w2 Hc2 sid a prev v1 m (S i) Ha Hh2)|].
      cbn beta. intros y S3 V3 Q3 V13 V03 j k d Hj Hn Hd Hu Hup. pose proof (links_net _ _ S2) as N2.
      assert (Hd2 : nth_error (w_links w2) k = Some d). { destruct S1 as (_ & S1 & _), S2 as (_ & S2 & _). congruence. }
      destruct (Nat.eq_dec j i) as [->|Hne].
      + rewrite Hreg, Eg in Hn. injection Hn as ->.
        assert (P (d_tgt d)). { apply (co_link _ _ _ _ _ _ Hc a k d m Ha). split; auto. }
        eapply vals_holds; [exact V3|assumption|]. eapply Q2; eauto.
      + apply (Q3 j k d); auto; [lia|]. rewrite (net_registered w1 w2), (net_registered w w1); auto.
  Qed.

  Lemma item_dec (a b : item) : {a = b} + {a <> b}.
  Proof. destruct a as [l n], b as [l' n']. destruct (Nat.eq_dec l l') as [->|]; [|right; congruence]. destruct (string_dec n n') as [->|]; [left|right]; congruence. Qed.
  Lemma fine_written {A} w w5 a (rw : res A * world) : P a -> cons w -> same_links w w5 -> holds w5 a ->
    (forall b, b <> a -> value_of w5 b = value_of w b) ->
    fine w5 rw (fun _ w' => (differs C w a (f a) -> forall m b, m <> MValidate -> drives w m a b -> holds w' b) /\ forall b, drives w MSet a b -> holds w' b) ->
    fine w rw (fun _ w' => holds w' a /\ forall b, drives w MSet a b -> holds w' b).
  Proof.
    intros Ha Hc S Hh Ho. unfold fine. destruct rw as [[y|e] w']; cbn [fst snd]; [|auto].
    intros (F1 & F2 & F3 & F4 & F5). pose proof (links_net _ _ S) as N.
    assert (Hh' : holds w' a) by (eapply vals_holds; eauto).
    split; [eapply links_trans; eauto|]. split.
    { intros b Hb. destruct (item_dec b a) as [->|Hn]; [now right|]. rewrite <- (Ho b Hn). apply F2, Hb. }
    split; [|split; [exact Hh'|exact F5]].
    intros a' b m Ha' Hd Hk Hm Hl. destruct (item_dec a' a) as [->|Hn]; [now apply (F4 Hd m b)|].
    apply (F3 a' b m); auto; [|eapply drives_links; eauto]. eapply differs_same; eauto.
  Qed.

  Lemma drives_registered w m a b : drives w m a b -> exists j k d, nth_error (registered w (fst a) (snd a) m) j = Some (LLink k) /\
    nth_error (w_links w) k = Some d /\ d_unlinked d = false /\ d_updating d = false /\ d_tgt d = b /\ ~ In m (w_quar w).
  Proof.
    intros (k & d & (Hk & Hu & Hr) & Ht & Hup & Hq). apply In_nth_error in Hr as (j & Hj). exists j, k, d. auto 8.
  Qed.
  Lemma notify_fine n sid a prev v m w : sync_notify n -> cons w -> P a -> holds w a ->
    fine w (notify (ex n) sid (fst a) (snd a) prev v m w) (fun _ w' => forall b, drives w m a b -> holds w' b).
  Proof.
    intros IH Hc Ha Hh. unfold notify, bind, get_w. destruct (mode_in m (w_quar w)) eqn:Em.
    - apply fine_ret. intros b (k & d & _ & _ & _ & Hq). apply mode_in_In in Em. contradiction.
    - eapply fine_weaken; [apply (IH w Hc sid a prev v m 0 Ha Hh)|]. cbn beta. intros y S V Q b Hb.
      destruct (drives_registered _ _ _ _ Hb) as (j & k & d & H1 & H2 & H3 & H4 & <- & _). apply (Q j k d); auto. lia.
  Qed.
  Lemma notify_before n sid a prev v w : cons w -> P a ->
    notify (ex n) sid (fst a) (snd a) prev v MValidate w = (Ok v, w) \/ notify (ex n) sid (fst a) (snd a) prev v MValidate w = (Exc ExRecursion, w).
  Proof.
    intros Hc Ha. unfold notify, bind, get_w. destruct (mode_in _ _); [now left|]. destruct n as [|n]; [now right|]. left. cbn [exec step].
    destruct (co_item _ _ _ _ _ _ Hc a Ha) as (_ & p & (_ & d0 & (c & (x & Hx & _) & _) & _) & _).
    unfold bind at 1, get_inst. rewrite Hx. pose proof (co_before _ _ _ _ _ _ Hc a Ha) as B. unfold registered in B. rewrite Hx in B.
    change (match nth_error (listeners_of x (snd a) MValidate) 0 with None => ret v | Some f0 => bind (mod_w (w_emit (ECall sid (fst a) (snd a) MValidate f0 prev v))) (fun _ =>
      bind (match f0 with LCb cb => run (ex n) (u_listen U cb (fst a) (snd a) prev v MValidate) | LLink k => bind (link_update U (ex n) k) (fun _ => ret v) end)
       (fun v1 => ex n (CNotify sid (fst a) (snd a) prev v1 MValidate 1))) end w = (Ok v, w)).
    replace (listeners_of x (snd a) MValidate) with (@nil lfunc). reflexivity.
  Qed.

  Lemma has_set_fine n a p w : sync_notify n -> cons w -> P a -> settable C w a p ->
    fine w (has_set (ex n) p (fst a) (snd a) (f a) w) (fun _ w' => holds w' a /\ forall b, drives w MSet a b -> holds w' b).
  Proof.
    intros IH Hc Ha Hp. unfold has_set. destruct (co_item _ _ _ _ _ _ Hc a Ha) as (Hu & p' & Hp' & Hs & Hv).
    rewrite <- (settable_fun w a p p' Hp Hp') in *. clear p' Hp'.
    unfold bind at 1, tick. set (w1 := w_tick w). set (sid := w_clock w).
    assert (S1 : same_links w w1) by (split; [|split]; reflexivity).
    assert (V1 : forall b, value_of w1 b = value_of w b) by reflexivity.
    assert (Hc1 : cons w1) by (eapply cons_keep; eauto; [now apply links_net|now apply vals_same]).
    destruct Hp as (Hf & d0 & (c & (x & Hx & Hcl) & Hd0) & Hk0 & Hp0).
    unfold bind at 1, get_inst. change (w_heap w1) with (w_heap w). rewrite Hx. cbv zeta.
    set (prev := match dget (i_back x) (snd a) with Some x => x | None => VUndef end).
    assert (Hprev : prev = match value_of w a with Some u => u | None => VUndef end) by (unfold prev, value_of, stored; now rewrite Hx).
    unfold bind at 1. destruct (notify_before n sid a prev (f a) w1 Hc1 Ha) as [-> | ->]; [|reflexivity].
    unfold bind at 1, upd, mod_w. fold (write_val (fst a) (snd a) (f a)).
    unfold bind at 1. set (w5 := w_emit _ _).
    assert (S5 : same_links w w5).
    { eapply links_trans; [exact S1|]. apply (links_trans _ (w_upd (fst a) (write_val (fst a) (snd a) (f a)) w1)); [apply write_links|split; [|split]; reflexivity]. }
    assert (O5 : forall b, b <> a -> value_of w5 b = value_of w b).
    { intros b Hb. rewrite <- V1. apply (write_value (fst a) (snd a) (f a) w1 b). destruct a; exact Hb. }
    assert (Hundef : is_undef (f a) = false) by (destruct (f a); try reflexivity; congruence).
    assert (H5 : holds w5 a).
    { unfold holds, value_of, stored. change (w_heap w5) with (w_heap (w_upd (fst a) (write_val (fst a) (snd a) (f a)) w1)).
      rewrite w_upd_nth_same. change (w_heap w1) with (w_heap w). rewrite Hx. cbn [option_map]. unfold write_val, i_setback. cbn [i_back].
      rewrite Hundef. apply dget_dset_same. }
    assert (Hc5 : cons w5).
    { eapply cons_keep; [apply links_net, S5| |exact Hc]. intros b Hb. destruct (item_dec b a) as [->|Hn]; [now right|left; now apply O5]. }
    apply (fine_written w w5 a); auto.
    eapply (fine_bind _ _ _ (fun ch w' => w' = w5 /\ (differs C w a (f a) -> ch = true))); [exact Hc5| |].
    - assert (G : exists ch, (if is_undef prev && is_undef (f a) then ret false
         else if is_undef prev || is_undef (f a) then ret true
         else let* b := p_equal (ex n) p prev (f a) in ret (negb b)) w5 = (Ok ch, w5) /\ (differs C w a (f a) -> ch = true)).
      { rewrite Hundef, andb_false_r, orb_false_r. destruct (is_undef prev) eqn:Eu; [exists true; auto|].
        destruct (value_of w a) as [u|] eqn:Ev; [|rewrite Hprev in Eu; discriminate]. subst prev. rewrite Hprev in *.
        destruct (Hv u eq_refl) as (b & Hb); [intros ->; discriminate|]. exists (negb b). unfold bind. rewrite Hb. split; [reflexivity|].
        unfold differs. rewrite Ev. intros [_ [->|(q & Hq & Hcmp)]]; [discriminate|].
        rewrite <- (settable_fun w a p q) in Hcmp; [|split; [exact Hf|exists d0; split; [exists c; split; [exists x; auto|exact Hd0]|auto]]|exact Hq].
        specialize (Hb (ex n) w). rewrite Hcmp in Hb. injection Hb as <-. reflexivity. }
      destruct G as (ch & G & Hch). match goal with |- fine _ (?m w5) _ => change (fine w5 (m w5) (fun ch w' => w' = w5 /\ (differs C w a (f a) -> ch = true))) end.
      rewrite G. apply fine_still; [apply links_refl|reflexivity|auto].
    - intros ch w6 Hc6 S6 V6 [-> Hch].
      eapply (fine_bind _ _ _ (fun _ w' => holds w' a /\ (differs C w a (f a) -> forall b, drives w MChange a b -> holds w' b))); [exact Hc6| |].
      + destruct ch.
        * eapply fine_weaken; [apply notify_fine; auto|]. cbn beta. intros y S V Q. split; [eapply vals_holds; eauto|].
          intros _ b Hb. apply Q. exact (drives_links w w5 MChange a b S5 Hb).
        * apply fine_ret. split; [exact H5|]. intros Hd. specialize (Hch Hd). discriminate.
      + intros v2 w7 Hc7 S7 V7 [H7 Q7].
        eapply fine_bind; [exact Hc7|apply (notify_fine n sid a prev v2 MSet w7); auto|].
        intros y w8 Hc8 S8 V8 Q8. apply fine_ret. intros _ _ _.
        assert (QS : forall b, drives w MSet a b -> holds w8 b).
        { intros b Hb. apply Q8. eapply drives_links; [exact S7|]. eapply drives_links; [exact S5|exact Hb]. }
        split; [|exact QS]. intros Hd m b Hm Hb. destruct m; try congruence; try (now apply QS).
        apply (vals_holds w7 w8 b V8 (drives_P w MChange a b Hc Ha Hb)). now apply Q7.
  Qed.

  Lemma sync_all n : sync_set n /\ sync_notify n.
  Proof.
    induction n as [|n [IHs IHn]]; [split; repeat intro; reflexivity|]. split; [|now apply sync_notify_step].
    intros w Hc a v p Ha Hv Hp Hval. pose proof Hp as (Hf & d & Hd & Hk & Ht).
    rewrite (setattr_prop E C U n (fst a) (snd a) d v w Hd Hk). rewrite Ht. unfold prop_fset.
    assert (is_undef v = false) as -> by (destruct v; try reflexivity; congruence).
    unfold bind at 1. destruct (Hval (ex n) (Some (fst a)) (snd a) w) as (w1 & Hw1). rewrite Hw1.
    pose proof (validate_free E C (ex n) p Hf (Some (fst a)) (snd a) v w) as Q. rewrite Hw1 in Q. apply (touch_hooks (fun _ => False)) in Q.
    destruct Q as [S1 V1]. assert (V1' : forall b, value_of w1 b = value_of w b) by (intros; apply V1; auto).
    assert (Hc1 : cons w1) by (eapply cons_keep; eauto; [now apply links_net|now apply vals_same]).
    pose proof (has_set_fine n a p w1 IHn Hc1 Ha (net_settable _ _ _ _ _ (links_net _ _ S1) Hp)) as F. unfold fine in *.
    destruct (has_set _ _ _ _ _ w1) as [[y|e] w2]; cbn [fst snd] in *; [|exact F]. destruct F as (F1 & F2 & F3 & F4 & F5).
    split; [eapply links_trans; eauto|]. split; [eapply vals_trans; [now apply vals_same|exact F2]|].
    split; [eapply (closed_trans w w1 w2); eauto; [now apply vals_same|now apply closed_still]|].
    split; [exact F4|]. intros b Hb. apply F5. eapply drives_links; eauto.
  Qed.
End Sync.
