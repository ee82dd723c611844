(** Facts about links: which properties an assignment can change, and
    termination. *)
From Verif Require Import World WorldFrame WorldSpec WorldInv WorldSet WorldFacts LinkSpec.
Local Open Scope string_scope.
Local Open Scope list_scope.
Local Open Scope nat_scope.

Notation istat := (fun i => (i_cls i, i_lst i)).
Definition dstat (d : dlink) := (d_src d, d_tgt d, d_trans d, d_unlinked d).
(** the same up to the [_updating] flags *)
Definition same_net (w w' : world) : Prop :=
  map istat (w_heap w') = map istat (w_heap w) /\ map dstat (w_links w') = map dstat (w_links w).
Lemma net_refl w : same_net w w.
Proof. split; reflexivity. Qed.
Lemma net_sym a b : same_net a b -> same_net b a.
Proof. intros [H K]. split; congruence. Qed.
Lemma net_trans a b c : same_net a b -> same_net b c -> same_net a c.
Proof. intros [H K] [H' K']. split; congruence. Qed.
Lemma links_net w w' : same_links w w' -> same_net w w'.
Proof. intros (H & K & _). split; congruence. Qed.
Lemma links_refl w : same_links w w.
Proof. split; [|split]; reflexivity. Qed.
Lemma links_trans a b c : same_links a b -> same_links b c -> same_links a c.
Proof. intros (H & K & L) (H' & K' & L'). split; [|split]; congruence. Qed.

Lemma map_nth_eq {A B} (f : A -> B) l l' n x : map f l' = map f l -> nth_error l n = Some x ->
  exists y, nth_error l' n = Some y /\ f y = f x.
Proof.
  intros H K. apply (map_nth_error f) in K. rewrite <- H in K. rewrite nth_error_map in K.
  destruct (nth_error l' n) as [y|]; [|discriminate]. exists y. split; [reflexivity|]. cbn [option_map] in K. congruence.
Qed.
Lemma net_inst w w' l i : same_net w w' -> nth_error (w_heap w) l = Some i ->
  exists j, nth_error (w_heap w') l = Some j /\ i_cls j = i_cls i /\ i_lst j = i_lst i.
Proof. intros [H _] K. destruct (map_nth_eq _ _ _ _ _ H K) as (j & Hj & [= E1 E2]). eauto. Qed.
Lemma net_link w w' k d : same_net w w' -> nth_error (w_links w) k = Some d ->
  exists d', nth_error (w_links w') k = Some d' /\ d_src d' = d_src d /\ d_tgt d' = d_tgt d /\ d_trans d' = d_trans d /\ d_unlinked d' = d_unlinked d.
Proof. intros [_ H] K. destruct (map_nth_eq _ _ _ _ _ H K) as (j & Hj & Hd). unfold dstat in Hd. injection Hd as E1 E2 E3 E4. eauto 10. Qed.
Lemma net_declares C w w' l name d : same_net w w' -> declares C w l name d -> declares C w' l name d.
Proof.
  intros H (c & (i & Hi & Hc) & Hd). destruct (net_inst _ _ _ _ H Hi) as (j & Hj & Hcl & _). exists c. split; [|exact Hd]. exists j. rewrite Hcl. auto.
Qed.
Lemma net_settable C w w' a p : same_net w w' -> settable C w a p -> settable C w' a p.
Proof. intros H (Hp & d & Hd & K). split; [exact Hp|]. exists d. split; [|exact K]. eapply net_declares; eauto. Qed.
Lemma net_registered w w' l name m : same_net w w' -> registered w' l name m = registered w l name m.
Proof.
  intros H. unfold registered. destruct (nth_error (w_heap w) l) as [i|] eqn:Ei.
  - destruct (net_inst _ _ _ _ H Ei) as (j & -> & _ & ->). reflexivity.
  - destruct (nth_error (w_heap w') l) as [j|] eqn:Ej; [|reflexivity].
    destruct (net_inst _ _ _ _ (net_sym _ _ H) Ej) as (i & Hi & _). congruence.
Qed.
Lemma net_only C U w w' : same_net w w' -> only_links C U w -> only_links C U w'.
Proof.
  intros H [A B]. pose proof (net_sym _ _ H) as H'. split.
  - intros l j x Hj Hx. destruct (net_inst _ _ _ _ H' Hj) as (i & Hi & _ & El). apply (A l i x Hi). now rewrite El.
  - intros k d Hd. destruct (net_link _ _ _ _ H' Hd) as (d' & Hd' & <- & <- & <- & _). destruct (B k d' Hd') as ((p & Hp) & (q & Hq) & Ht).
    split; [exists p; eapply net_settable; eauto|]. split; [exists q; eapply net_settable; eauto|exact Ht].
Qed.
Lemma net_feeds w w' a b : same_net w w' -> feeds w a b -> feeds w' a b.
Proof.
  intros H (k & d & m & (Hk & Hu & Hr) & Ht). destruct (net_link _ _ _ _ H Hk) as (d' & Hk' & _ & Et & _ & Eu).
  exists k, d', m. split; [|congruence]. split; [exact Hk'|]. split; [congruence|]. now rewrite (net_registered w w').
Qed.
Lemma net_reaches w w' a b : same_net w w' -> reaches w a b -> reaches w' a b.
Proof. intros H. induction 1; [constructor|]. econstructor; [eapply net_feeds; eauto|assumption]. Qed.

(** * What can change *)
(** [w'] has the same links as [w], and the same values outside [P] *)
Definition touch (P : item -> Prop) (w w' : world) : Prop :=
  same_links w w' /\ forall b, ~ P b -> value_of w' b = value_of w b.
Lemma touch_refl P w : touch P w w.
Proof. split; [apply links_refl|reflexivity]. Qed.
Lemma touch_trans P a b c : touch P a b -> touch P b c -> touch P a c.
Proof. intros [A1 A2] [B1 B2]. split; [eapply links_trans; eauto|]. intros x Hx. rewrite B2, A2; auto. Qed.
Lemma touch_weaken (P Q : item -> Prop) w w' : (forall b, P b -> Q b) -> touch P w w' -> touch Q w w'.
Proof. intros H [A B]. split; [exact A|]. intros b Hb. apply B. auto. Qed.
Lemma touch_hooks P w w' : hooks_only w w' -> touch P w w'.
Proof. intros [H1 H2 H3 H4 _]. split; [split; [congruence|auto]|]. intros b _. unfold value_of, stored. now rewrite H1. Qed.
Lemma touch_same P w w' : w_heap w' = w_heap w -> w_links w' = w_links w -> w_quar w' = w_quar w -> touch P w w'.
Proof. intros H1 H2 H3. split; [split; [congruence|auto]|]. intros b _. unfold value_of, stored. now rewrite H1. Qed.

Section Links.
  Variables (E : env) (C : ctable) (U : ucode).
  Notation ex := (exec E C U).

  Definition next (w : world) (a b : item) : Prop := exists c, feeds w a c /\ reaches w c b.
  Lemma next_reaches w a b : next w a b -> reaches w a b.
  Proof. intros (c & H & K). econstructor; eauto. Qed.
  Lemma net_next w w' a b : same_net w w' -> next w a b -> next w' a b.
  Proof. intros H (c & F & R). exists c. split; [eapply net_feeds|eapply net_reaches]; eauto. Qed.

  Definition write_val (l : loc) (name : string) (v : val) : inst -> inst :=
    fun i => i_setback (if is_undef v then ddel (i_back i) name else dset (i_back i) name v) i.
  Lemma write_links l name v w : same_links w (w_upd l (write_val l name v) w).
  Proof.
    unfold w_upd. destruct (nth_error (w_heap w) l) as [i|] eqn:Ei; [|apply links_refl]. split; [|split; reflexivity].
    cbn [w_setheap w_heap]. apply set_nth_map. intros x Hx. rewrite Ei in Hx. now injection Hx as <-.
  Qed.
  Lemma write_value l name v w b : b <> (l, name) -> value_of (w_upd l (write_val l name v) w) b = value_of w b.
  Proof.
    destruct b as [l' name']. intros Hb. unfold value_of, stored. cbn [fst snd]. destruct (Nat.eq_dec l l') as [<-|Hn].
    - rewrite w_upd_nth_same. destruct (nth_error (w_heap w) l) as [i|] eqn:Ei; [|reflexivity]. cbn [option_map].
      unfold write_val, i_setback. cbn [i_back].
      destruct (is_undef v); [apply dget_ddel_other|apply dget_dset_other]; congruence.
    - now rewrite w_upd_nth_other.
  Qed.
  Lemma write_touch (P : item -> Prop) l name v w : P (l, name) -> touch P w (w_upd l (write_val l name v) w).
  Proof. intros H. split; [apply write_links|]. intros b Hb. apply write_value. congruence. Qed.

  (** ** The pieces of an assignment *)
  Lemma set_cases n a p o : writes o a -> forall w, settable C w a p ->
    (exists v, ex (S n) (COp o) w = prop_fset E C (ex n) p (fst a) (snd a) v w) \/
    ex (S n) (COp o) w = has_set (ex n) p (fst a) (snd a) VUndef w.
  Proof.
    intros Ho w (_ & d & Hd & Hk & <-). destruct Ho as [->|(v & ->)].
    - right. cbn [exec step]. eapply delattr_prop; eauto.
    - left. exists v. cbn [exec step]. eapply setattr_prop; eauto.
  Qed.
  Lemma get_settable n a p w : settable C w a p ->
    ex (S n) (COp (OGet (fst a) (snd a))) w = (Ok (match value_of w a with Some v => v | None => VNone end), w).
  Proof.
    intros (_ & d & (c & (i & Hi & Hc) & Hd) & Hk & _). cbn [exec step]. unfold has_getattr, inst_class, class_of, get_inst, bind, lift, back_get, value_of, stored, get_inst, bind.
    rewrite Hi, Hc, Hd, Hk, Hi. reflexivity.
  Qed.
  Lemma computes_run q : computes q -> exists r, r <> Exc ExRecursion /\ forall n w, run (ex n) q w = (r, w).
  Proof. destruct q as [v|e| |]; cbn [computes]; intros H; try contradiction; [exists (Ok v)|exists (Exc e)]; (split; [congruence|reflexivity]). Qed.

  Lemma tb {A B} P (m : M A) (k : A -> M B) w : touch P w (snd (m w)) ->
    (forall a w', m w = (Ok a, w') -> touch P w w' -> touch P w' (snd (k a w'))) -> touch P w (snd (bind m k w)).
  Proof.
    intros H K. unfold bind. destruct (m w) as [[a|e] w1] eqn:Em; cbn [snd] in *; [|exact H].
    eapply touch_trans; [exact H|]. now apply K.
  Qed.
  Lemma touch_only P w w' : touch P w w' -> only_links C U w -> only_links C U w'.
  Proof. intros [H _]. apply net_only. now apply links_net. Qed.

  Lemma set_updating_net k b w : same_net w (set_updating k b w).
  Proof.
    unfold set_updating, w_updlink. destruct (nth_error (w_links w) k) as [d|] eqn:Ed; [|apply net_refl]. split; [reflexivity|].
    cbn [w_setlinks w_links]. apply set_nth_map. intros x Hx. rewrite Ed in Hx. now injection Hx as <-.
  Qed.
  Lemma set_nth_twice {A} (l : list A) n x : nth_error l n = Some x -> forall y, set_nth (set_nth l n y) n x = l.
  Proof.
    revert n. induction l as [|z l IH]; intros [|n] H y; try discriminate; unfold set_nth in *; cbn [firstn skipn app nth_error] in *; [congruence|].
    f_equal. now apply IH.
  Qed.
  (** setting and clearing the flag around something that keeps the links *)
  Lemma updating_touch P k d w w' : nth_error (w_links w) k = Some d -> d_updating d = false ->
    touch P (set_updating k true w) w' -> touch P w (set_updating k false w').
  Proof.
    intros Hd Hu [(H1 & H2 & H3) H4].
    assert (Hh : forall b v, w_heap (set_updating k b v) = w_heap v) by (intros; apply w_updlink_heap).
    split; [|intros b Hb; specialize (H4 b Hb); unfold value_of, stored in *; rewrite Hh in *; exact H4].
    rewrite Hh in H1. split; [now rewrite Hh|]. split; [|unfold set_updating in *; rewrite w_updlink_quar in *; congruence].
    unfold set_updating at 1. unfold w_updlink. rewrite H2. unfold set_updating. rewrite w_updlink_nth, Nat.eqb_refl, Hd. cbn [option_map w_setlinks w_links].
    unfold w_updlink. rewrite Hd. cbn [w_setlinks w_links]. destruct d as [sr tg tr un up]. cbn in *. subst up.
    now apply set_nth_twice.
  Qed.

  (** ** Assignments reach only what links reach *)
  Definition reach_ok (n : nat) : Prop := forall w, only_links C U w ->
    (forall o a p, writes o a -> settable C w a p -> touch (reaches w a) w (snd (ex n (COp o) w))) /\
    (forall sid a prev v m i, touch (next w a) w (snd (ex n (CNotify sid (fst a) (snd a) prev v m i) w))).

  Lemma notify_touch n sid a prev v m w : reach_ok n -> only_links C U w ->
    touch (next w a) w (snd (notify (ex n) sid (fst a) (snd a) prev v m w)).
  Proof.
    intros IH Hw. unfold notify, bind, get_w. destruct (mode_in m (w_quar w)); [apply touch_refl|]. now apply IH.
  Qed.
  Lemma touch_next_to w w0 a w' : same_net w w0 -> touch (next w0 a) w0 w' -> touch (reaches w a) w0 w'.
  Proof. intros H. apply touch_weaken. intros b Hb. apply next_reaches. eapply net_next; [|exact Hb]. now apply net_sym. Qed.

  Lemma has_set_touch n a p v w : reach_ok n -> only_links C U w -> inst_free p ->
    touch (reaches w a) w (snd (has_set (ex n) p (fst a) (snd a) v w)).
  Proof.
    intros IH Hw Hp. unfold has_set. set (P := reaches w a).
    assert (N : forall w1 sid prev v m, touch P w w1 -> touch P w1 (snd (notify (ex n) sid (fst a) (snd a) prev v m w1))).
    { intros w1 sid prev v1 m H1. apply touch_next_to; [apply links_net, H1|]. apply notify_touch; auto. eapply touch_only; eauto. }
    assert (tb' : forall {A B} (m : M A) (k : A -> M B) w1, touch P w w1 -> touch P w1 (snd (m w1)) ->
      (forall a w', m w1 = (Ok a, w') -> touch P w w' -> touch P w' (snd (k a w'))) -> touch P w1 (snd (bind m k w1))).
    { intros A B m k w1 H1 H2 H3. apply tb; [exact H2|]. intros x w2 Hm H4. apply H3 with (a := x); auto. eapply touch_trans; eauto. }
    apply tb'; [apply touch_refl|now apply touch_same|]. intros sid w1 _ T1.
    apply tb'; [exact T1|unfold get_inst; destruct nth_error; apply touch_refl|]. intros i w2 _ T2.
    apply tb'; [exact T2|now apply N|]. intros v1 w3 _ T3.
    apply tb'; [exact T3|apply (write_touch P (fst a) (snd a) v1); unfold P; destruct a; constructor|]. intros _ w4 _ T4.
    apply tb'; [exact T4|now apply touch_same|]. intros _ w5 _ T5.
    apply tb'; [exact T5| |].
    { destruct (_ && _); [apply touch_refl|]. destruct (_ || _); [apply touch_refl|].
      apply tb; [|intros; apply touch_refl]. destruct (equal_free p Hp (match dget (i_back i) (snd a) with Some x => x | None => VUndef end) v1) as (r & Hr).
      rewrite Hr. apply touch_refl. }
    intros ch w6 _ T6. apply tb'; [exact T6|destruct ch; [now apply N|apply touch_refl]|]. intros v2 w7 _ T7.
    apply tb'; [exact T7|now apply N|]. intros. apply touch_refl.
  Qed.

  Lemma link_touch_gen n k (P : item -> Prop) w : reach_ok n -> only_links C U w ->
    (forall d b, nth_error (w_links w) k = Some d -> d_unlinked d = false -> reaches w (d_tgt d) b -> P b) ->
    touch P w (snd (link_update U (ex n) k w)).
  Proof.
    intros IH Hw Hf. unfold link_update, bind at 1, get_w. destruct (nth_error (w_links w) k) as [d|] eqn:Hk; [|apply touch_refl].
    destruct (d_unlinked d) eqn:Hu; [apply touch_refl|]. destruct (d_updating d) eqn:Hup; [apply touch_refl|]. cbn [orb].
    unfold bind at 1, mod_w, fin. fold (set_updating k true w). set (w1 := set_updating k true w).
    assert (N1 : same_net w w1) by apply set_updating_net.
    assert (G : touch P w1 (snd ((let* v := ex n (COp (OGet (fst (d_src d)) (snd (d_src d)))) in
               let* v1 := match d_trans d with Some t => run (ex n) (u_trans U t v) | None => ret v end in
               ex n (COp (OSet (fst (d_tgt d)) (snd (d_tgt d)) v1))) w1))).
    { destruct (proj2 Hw k d Hk) as ((p & Hp) & (q & Hq) & Ht).
      apply tb.
      - destruct n as [|n]; [apply touch_refl|]. rewrite (get_settable n (d_src d) p); [apply touch_refl|eapply net_settable; eauto].
      - intros v w2 Hv T2. assert (w2 = w1) as ->.
        { destruct n as [|n]; [discriminate|]. rewrite (get_settable n (d_src d) p) in Hv; [congruence|eapply net_settable; eauto]. }
        apply tb.
        + destruct (d_trans d) as [t|]; [|apply touch_refl]. destruct (computes_run _ (Ht v)) as (r & _ & Hr). rewrite Hr. apply touch_refl.
        + intros v1 w3 Hv1 _. assert (w3 = w1) as ->.
          { destruct (d_trans d) as [t|]; [|unfold ret in Hv1; congruence]. destruct (computes_run _ (Ht v)) as (r & _ & Hr). rewrite Hr in Hv1. congruence. }
          eapply touch_weaken; [|eapply (proj1 (IH w1 (net_only _ _ _ _ N1 Hw))); [right; eauto|eapply net_settable; eauto]].
          intros b Hb. apply (Hf d b eq_refl Hu). eapply net_reaches; [apply net_sym; exact N1|exact Hb]. }
    match type of G with touch _ _ (snd (?m w1)) => change (touch P w (snd (let (r, w') := m w1 in (r, set_updating k false w')))); destruct (m w1) as [r w2] end. cbn [snd] in *. now apply updating_touch with (d := d).
  Qed.
  Lemma link_touch n k a w : reach_ok n -> only_links C U w ->
    (forall d, nth_error (w_links w) k = Some d -> d_unlinked d = false -> feeds w a (d_tgt d)) ->
    touch (next w a) w (snd (link_update U (ex n) k w)).
  Proof. intros IH Hw Hf. apply link_touch_gen; auto. intros d b Hd Hu Hb. exists (d_tgt d). split; [now apply Hf|exact Hb]. Qed.

  Lemma reach_all n : reach_ok n.
  Proof.
    induction n as [|n IH]; intros w Hw; [split; intros; apply touch_refl|]. split.
    - intros o a p Ho Ha. assert (Hp : inst_free p) by apply Ha. destruct (set_cases n a p o Ho w Ha) as [(v & ->)| ->].
      + unfold prop_fset. apply tb.
        * destruct (is_undef v); [apply touch_refl|]. apply touch_hooks. now apply validate_free.
        * intros v1 w1 _ T1. eapply touch_weaken; [|apply has_set_touch; auto; eapply touch_only; eauto].
          intros b. apply net_reaches. apply net_sym, links_net, T1.
      + now apply has_set_touch.
    - intros sid a prev v m i. cbn [exec step]. apply tb; [unfold get_inst; destruct nth_error; apply touch_refl|].
      intros x w1 Hx T1. unfold get_inst in Hx. destruct (nth_error (w_heap w) (fst a)) as [x'|] eqn:Ex; [|discriminate]. injection Hx as -> <-.
      destruct (nth_error (listeners_of x (snd a) m) i) as [f|] eqn:Ef; [|apply touch_refl].
      assert (Hreg : In f (registered w (fst a) (snd a) m)).
      { unfold registered. rewrite Ex. eapply nth_error_In. exact Ef. }
      apply tb; [now apply touch_same|]. intros tt0 w2 Hw2 T2. assert (only_links C U w2) as Hw2o by (eapply touch_only; eauto).
      assert (N2 : same_net w w2) by (apply links_net, T2).
      apply tb.
      + destruct f as [cb|k].
        * assert (Hc : computes (u_listen U cb (fst a) (snd a) prev v m)).
          { unfold registered in Hreg. rewrite Ex in Hreg. apply in_map_iff in Hreg as (y & Hy & Hin). apply filter_In in Hin as [Hin _].
            pose proof (proj1 Hw (fst a) x y Ex Hin) as K. rewrite Hy in K. apply K. }
          destruct (computes_run _ Hc) as (r & _ & Hr). rewrite Hr. apply touch_refl.
        * apply tb; [|intros; apply touch_refl].
          eapply touch_weaken; [intros b; apply net_next, net_sym, N2|]. apply link_touch; auto.
          intros d Hd Hu. exists k, d, m. split; [|reflexivity]. split; [exact Hd|]. split; [exact Hu|]. now rewrite (net_registered w w2).
      + intros v1 w3 _ T3. assert (N3 : same_net w w3) by (eapply net_trans; [exact N2|apply links_net, T3]).
        eapply touch_weaken; [intros b; apply net_next, net_sym, N3|]. apply (proj2 (IH w3 (net_only _ _ _ _ N3 Hw))).
  Qed.
End Links.
