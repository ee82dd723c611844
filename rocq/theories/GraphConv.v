(** Calls that end with the same outcome in all states that look alike, and
    leave every existing object as it is. *)
From Verif Require Import World WorldFrame WorldSpec AccessSpec GraphSpec.
Local Open Scope string_scope.
Local Open Scope list_scope.
Local Open Scope nat_scope.

Lemma unchanged_refl w : unchanged w w.
Proof. repeat split. exists []. now rewrite app_nil_r. Qed.
Lemma unchanged_trans a b c : unchanged a b -> unchanged b c -> unchanged a c.
Proof.
  intros ((x & Hx) & Q1 & L1) ((y & Hy) & Q2 & L2). repeat split; try congruence.
  exists (x ++ y). now rewrite Hy, Hx, app_assoc.
Qed.

Lemma map_set_nth {A B} (f : A -> B) l n a : map f (set_nth l n a) = set_nth (map f l) n (f a).
Proof.
  unfold set_nth. rewrite map_app, firstn_map, skipn_map. destruct (skipn n l); reflexivity.
Qed.

Section Conv.
  (** what is ignored about instances *)
  Variable f : inst -> inst.
  Definition keeps : Prop := forall i, i_cls (f i) = i_cls i /\ i_back (f i) = i_back i /\
    i_lst (f i) = i_lst i /\ i_attrs (f i) = i_attrs i.
  (** [w1] looks like [w], and may have more objects *)
  Definition like (w w1 : world) : Prop :=
    (exists h g, w_heap w1 = h ++ g /\ map f h = map f (w_heap w)) /\
    w_quar w1 = w_quar w /\ w_links w1 = w_links w.
  Lemma like_refl w : like w w.
  Proof. repeat split. exists (w_heap w), []. now rewrite app_nil_r. Qed.
  Lemma like_unchanged w w1 w2 : like w w1 -> unchanged w1 w2 -> like w w2.
  Proof.
    intros ((h & g & H & M) & Q & L) ((x & Hx) & Q2 & L2). repeat split; try congruence.
    exists h, (g ++ x). split; auto. now rewrite Hx, H, app_assoc.
  Qed.
  Lemma like_nth w w1 l i : like w w1 -> nth_error (w_heap w) l = Some i ->
    exists i1, nth_error (w_heap w1) l = Some i1 /\ f i1 = f i.
  Proof.
    intros ((h & g & H & M) & _) Hi.
    assert (K : nth_error (map f h) l = Some (f i)) by (rewrite M; apply map_nth_error; auto).
    rewrite nth_error_map in K. destruct (nth_error h l) as [i1|] eqn:E1; [|discriminate].
    injection K as K. exists i1. split; auto. rewrite H. rewrite nth_error_app1; auto. apply nth_error_Some. congruence.
  Qed.
  Lemma like_len w w1 : like w w1 -> length (w_heap w) <= length (w_heap w1).
  Proof.
    intros ((h & g & H & M) & _). apply (f_equal (@length inst)) in M. rewrite !map_length in M.
    rewrite H, app_length. lia.
  Qed.

  Definition conv {A} (m : nat -> M A) (w : world) (r : res A) : Prop :=
    exists n0, forall n, n0 <= n -> forall w1, like w w1 -> exists w2, m n w1 = (r, w2) /\ unchanged w1 w2.
  Definition okres {A} (Q : A -> Prop) (r : res A) : Prop := match r with Ok a => Q a | Exc e => proper e end.
  Definition tot {A} (Q : A -> Prop) (m : nat -> M A) (w : world) : Prop := exists r, conv m w r /\ okres Q r.

  Lemma conv_answers {A} (m : nat -> M A) w r : conv m w r -> answers m w r.
  Proof. intros [n0 H]. exists n0. intros n Hn. destruct (H n Hn w (like_refl w)) as (w2 & K & _). eauto. Qed.
  Lemma answers_fun {A} (m : nat -> M A) w r r' : answers m w r -> answers m w r' -> r = r'.
  Proof.
    intros [a H] [b K]. destruct (H (max a b)) as (x & Hx); [lia|]. destruct (K (max a b)) as (y & Hy); [lia|]. congruence.
  Qed.
  Lemma conv_fun {A} (m : nat -> M A) w r r' : conv m w r -> conv m w r' -> r = r'.
  Proof. intros H K. eapply answers_fun; eapply conv_answers; eauto. Qed.
  Lemma conv_answer {A} (m : nat -> M A) w Q r : tot Q m w -> answers m w r -> conv m w r.
  Proof. intros (r0 & H & _) K. rewrite (answers_fun m w r r0); auto. eapply conv_answers; eauto. Qed.
  Lemma conv_ext {A} (m m' : nat -> M A) w r : (forall n w1, m n w1 = m' n w1) -> conv m w r -> conv m' w r.
  Proof. intros He [n0 H]. exists n0. intros n Hn w1 Hw. rewrite <- He. auto. Qed.
  Lemma tot_ext {A} Q (m m' : nat -> M A) w : (forall n w1, m n w1 = m' n w1) -> tot Q m w -> tot Q m' w.
  Proof. intros He (r & H & HQ). exists r. split; auto. eapply conv_ext; eauto. Qed.
  Lemma tot_weaken {A} (Q Q' : A -> Prop) m w : (forall a, Q a -> Q' a) -> tot Q m w -> tot Q' m w.
  Proof. intros H (r & Hr & HQ). exists r. split; auto. destruct r; cbn in *; auto. Qed.
  Lemma tot_conv {A} (Q : A -> Prop) m w r : tot Q m w -> conv m w r -> okres Q r.
  Proof. intros (r0 & H & HQ) K. now rewrite (conv_fun m w r r0). Qed.

  Lemma conv_ret {A} (a : A) w : conv (fun _ => ret a) w (Ok a).
  Proof. exists 0. intros n _ w1 H. exists w1. split; [reflexivity|apply unchanged_refl]. Qed.
  Lemma conv_throw {A} e w : conv (fun _ => @throw A e) w (Exc e).
  Proof. exists 0. intros n _ w1 H. exists w1. split; [reflexivity|apply unchanged_refl]. Qed.
  Lemma conv_lift {A} (r : res A) w : conv (fun _ => lift r) w r.
  Proof. exists 0. intros n _ w1 H. exists w1. split; [reflexivity|apply unchanged_refl]. Qed.
  Lemma conv_bind {A B} (m : nat -> M A) (k : nat -> A -> M B) w a r :
    conv m w (Ok a) -> conv (fun n => k n a) w r -> conv (fun n => bind (m n) (k n)) w r.
  Proof.
    intros [x H] [y K]. exists (max x y). intros n Hn w1 Hw.
    destruct (H n ltac:(lia) w1 Hw) as (w2 & E1 & U1).
    destruct (K n ltac:(lia) w2 (like_unchanged _ _ _ Hw U1)) as (w3 & E2 & U2).
    exists w3. unfold bind. rewrite E1. split; auto. eapply unchanged_trans; eauto.
  Qed.
  Lemma conv_bind_exc {A B} (m : nat -> M A) (k : nat -> A -> M B) w e :
    conv m w (Exc e) -> conv (fun n => bind (m n) (k n)) w (Exc e).
  Proof.
    intros [x H]. exists x. intros n Hn w1 Hw. destruct (H n Hn w1 Hw) as (w2 & E1 & U1).
    exists w2. unfold bind. rewrite E1. auto.
  Qed.
  Lemma conv_try {A} (m : nat -> M A) (h : nat -> exn -> M A) w a :
    conv m w (Ok a) -> conv (fun n => try_ (m n) (h n)) w (Ok a).
  Proof.
    intros [x H]. exists x. intros n Hn w1 Hw. destruct (H n Hn w1 Hw) as (w2 & E1 & U1).
    exists w2. unfold try_. rewrite E1. auto.
  Qed.
  Lemma conv_try_exc {A} (m : nat -> M A) (h : nat -> exn -> M A) w e r :
    conv m w (Exc e) -> conv (fun n => h n e) w r -> conv (fun n => try_ (m n) (h n)) w r.
  Proof.
    intros [x H] [y K]. exists (max x y). intros n Hn w1 Hw.
    destruct (H n ltac:(lia) w1 Hw) as (w2 & E1 & U1).
    destruct (K n ltac:(lia) w2 (like_unchanged _ _ _ Hw U1)) as (w3 & E2 & U2).
    exists w3. unfold try_. rewrite E1. split; auto. eapply unchanged_trans; eauto.
  Qed.
  Lemma conv_outcome {A} (m : nat -> M A) w r : conv m w r -> conv (fun n => outcome (m n)) w (Ok r).
  Proof.
    intros [x H]. exists x. intros n Hn w1 Hw. destruct (H n Hn w1 Hw) as (w2 & E1 & U1).
    exists w2. unfold outcome. rewrite E1. auto.
  Qed.

  Lemma tot_ret {A} (Q : A -> Prop) a w : Q a -> tot Q (fun _ => ret a) w.
  Proof. intros H. exists (Ok a). split; [apply conv_ret|exact H]. Qed.
  Lemma tot_throw {A} (Q : A -> Prop) e w : proper e -> tot Q (fun _ => throw e) w.
  Proof. intros H. exists (Exc e). split; [apply conv_throw|exact H]. Qed.
  Lemma tot_lift {A} (Q : A -> Prop) (r : res A) w : (forall a, r = Ok a -> Q a) -> (forall e, r = Exc e -> proper e) ->
    tot Q (fun _ => lift r) w.
  Proof. intros H K. exists r. split; [apply conv_lift|]. destruct r; cbn; auto. Qed.
  Lemma tot_bind {A B} (P : A -> Prop) (Q : B -> Prop) (m : nat -> M A) (k : nat -> A -> M B) w :
    tot P m w -> (forall a, P a -> conv m w (Ok a) -> tot Q (fun n => k n a) w) -> tot Q (fun n => bind (m n) (k n)) w.
  Proof.
    intros ([a|e] & H & HP) K.
    - destruct (K a HP H) as (r & Hr & HQ). exists r. split; auto. eapply conv_bind; eauto.
    - exists (Exc e). split; auto. now apply conv_bind_exc.
  Qed.
  Lemma tot_try {A} (Q : A -> Prop) (m : nat -> M A) (h : nat -> exn -> M A) w :
    tot Q m w -> (forall e, proper e -> tot Q (fun n => h n e) w) -> tot Q (fun n => try_ (m n) (h n)) w.
  Proof.
    intros ([a|e] & H & HP) K.
    - exists (Ok a). split; auto. now apply conv_try.
    - destruct (K e HP) as (r & Hr & HQ). exists r. split; auto. eapply conv_try_exc; eauto.
  Qed.
  Lemma tot_outcome {A} (Q : A -> Prop) (m : nat -> M A) w : tot Q m w ->
    tot (okres Q) (fun n => outcome (m n)) w.
  Proof. intros (r & H & HP). exists (Ok r). split; auto. now apply conv_outcome. Qed.
  Lemma tot_mapM {A B} (Q : B -> Prop) (g : nat -> A -> M B) l w :
    Forall (fun x => tot Q (fun n => g n x) w) l -> tot (Forall Q) (fun n => mapM (g n) l) w.
  Proof.
    induction 1 as [|x r Hx Hr IH]; cbn [mapM]; [apply tot_ret; constructor|].
    eapply tot_bind; [exact Hx|]. intros y Hy _. eapply tot_bind; [exact IH|]. intros ys Hys _.
    apply tot_ret. now constructor.
  Qed.
  Lemma tot_iterM {A} (g : nat -> A -> M unit) l w :
    Forall (fun x => tot (fun _ => True) (fun n => g n x) w) l -> tot (fun _ => True) (fun n => iterM (g n) l) w.
  Proof.
    induction 1 as [|x r Hx Hr IH]; cbn [iterM]; [now apply tot_ret|].
    eapply tot_bind; [exact Hx|]. intros y _ _. exact IH.
  Qed.
  Lemma tot_foldM {A B} (P : A -> Prop) (g : nat -> A -> B -> M A) l w : forall a, P a ->
    Forall (fun x => forall a, P a -> tot P (fun n => g n a x) w) l -> tot P (fun n => foldM (g n) a l) w.
  Proof.
    induction l as [|x r IH]; intros a Ha H; cbn [foldM]; [now apply tot_ret|]. inversion H as [|? ? Hx Hr]; subst.
    eapply tot_bind; [now apply Hx|]. intros b Hb _. now apply IH.
  Qed.
  Lemma tot_fix {A B} (Q : B -> Prop) (g : nat -> A -> M B) w x :
    (forall x, tot Q (fun n => g n x) w) -> tot Q (fun n => g n x) w.
  Proof. auto. Qed.


  (** the clock and the trace do not matter *)
  Lemma unchanged_tick w : unchanged w (w_tick w).
  Proof. repeat split. exists []. now rewrite app_nil_r. Qed.
  Lemma unchanged_emit e w : unchanged w (w_emit e w).
  Proof. repeat split. exists []. now rewrite app_nil_r. Qed.
  Lemma conv_emit e w : conv (fun _ => mod_w (w_emit e)) w (Ok tt).
  Proof. exists 0. intros n _ w1 H. exists (w_emit e w1). split; [reflexivity|apply unchanged_emit]. Qed.
  Lemma conv_ticked {B} (k : nat -> M B) w r :
    conv k w r -> conv (fun n => let* _ := tick in k n) w r.
  Proof.
    intros [x H]. exists x. intros n Hn w1 Hw. unfold bind, tick.
    destruct (H n Hn (w_tick w1)) as (w2 & E1 & U1); [eapply like_unchanged; [exact Hw|apply unchanged_tick]|].
    exists w2. split; [exact E1|]. eapply unchanged_trans; [apply unchanged_tick|exact U1].
  Qed.
  Lemma conv_tick {B} (k : nat -> nat -> M B) (k' : nat -> M B) w r :
    (forall n t, k n t = k' n) -> conv k' w r -> conv (fun n => bind tick (k n)) w r.
  Proof.
    intros He H. apply conv_ticked in H. eapply conv_ext; [|exact H]. intros n w1. unfold bind, tick. now rewrite He.
  Qed.
  Lemma conv_quar {B} (k : nat -> list lmode -> M B) w r :
    conv (fun n => k n (w_quar w)) w r -> conv (fun n => let* x := get_w in k n (w_quar x)) w r.
  Proof.
    intros [x H]. exists x. intros n Hn w1 Hw. destruct (H n Hn w1 Hw) as (w2 & E1 & U1).
    exists w2. unfold bind, get_w. destruct Hw as (_ & Q & _). rewrite Q. auto.
  Qed.
  Lemma conv_get {B} (k : nat -> inst -> M B) w r l i :
    nth_error (w_heap w) l = Some i -> (forall n i1, f i1 = f i -> k n i1 = k n i) ->
    conv (fun n => k n i) w r -> conv (fun n => bind (get_inst l) (k n)) w r.
  Proof.
    intros Hi He [x H]. exists x. intros n Hn w1 Hw. destruct (H n Hn w1 Hw) as (w2 & E1 & U1).
    destruct (like_nth _ _ _ _ Hw Hi) as (i1 & Hi1 & Hf).
    exists w2. unfold bind, get_inst. rewrite Hi1, (He n i1 Hf). auto.
  Qed.
  Lemma tot_get {B} Q (k : nat -> inst -> M B) w l i :
    nth_error (w_heap w) l = Some i -> (forall n i1, f i1 = f i -> k n i1 = k n i) ->
    tot Q (fun n => k n i) w -> tot Q (fun n => bind (get_inst l) (k n)) w.
  Proof. intros Hi He (r & H & HQ). exists r. split; auto. eapply conv_get; eauto. Qed.
  Lemma tot_quar {B} Q (k : nat -> list lmode -> M B) w :
    tot Q (fun n => k n (w_quar w)) w -> tot Q (fun n => let* x := get_w in k n (w_quar x)) w.
  Proof. intros (r & H & HQ). exists r. split; auto. now apply conv_quar. Qed.
  Lemma tot_ticked {B} Q (k : nat -> M B) w :
    tot Q k w -> tot Q (fun n => let* _ := tick in k n) w.
  Proof. intros (r & H & HQ). exists r. split; auto. now apply conv_ticked. Qed.

  Lemma conv_if {A} (Q : A -> Prop) (b : bool) (m m' : nat -> M A) w :
    tot Q m w -> tot Q m' w -> tot Q (fun n => if b then m n else m' n) w.
  Proof. destruct b; auto. Qed.

  (** running with a flag of one instance set *)
  Lemma like_upd w w1 l g : l < length (w_heap w) ->
    (forall i j, f i = f j -> f (g i) = f (g j)) -> like w w1 -> like (w_upd l g w) (w_upd l g w1).
  Proof.
    intros Hl Hg Hw. destruct (nth_error (w_heap w) l) as [i|] eqn:Hi; [|apply nth_error_None in Hi; lia].
    destruct (like_nth _ _ _ _ Hw Hi) as (i1 & Hi1 & Hf). destruct Hw as ((h & x & H & M) & Q & L).
    unfold like, w_upd. rewrite Hi, Hi1. unfold w_setheap. cbn [w_heap w_quar w_links]. split; [|split; assumption].
    assert (Hlh : l < length h).
    { apply (f_equal (@length inst)) in M. rewrite !map_length in M. lia. }
    exists (set_nth h l (g i1)), x. split.
    - rewrite H. unfold set_nth. rewrite firstn_app, skipn_app.
      replace (l - length h) with 0 by lia. rewrite firstn_O, app_nil_r.
      destruct (skipn l h) as [|y t] eqn:S.
      + apply (f_equal (@length inst)) in S. rewrite skipn_length in S. simpl in S. lia.
      + cbn [app]. rewrite <- app_assoc. reflexivity.
    - rewrite !map_set_nth, M. rewrite (Hg _ _ Hf). reflexivity.
  Qed.
  Lemma unchanged_back w1 w2 l g g' i : nth_error (w_heap w1) l = Some i -> g' (g i) = i ->
    unchanged (w_upd l g w1) w2 -> unchanged w1 (w_upd l g' w2).
  Proof.
    intros Hi Hg ((x & Hx) & Q & L). unfold w_upd in Hx, Q, L. rewrite Hi in Hx, Q, L. cbn [w_setheap w_heap w_quar w_links] in Hx, Q, L.
    assert (Hl : l < length (w_heap w1)) by (apply nth_error_Some; congruence).
    assert (N2 : nth_error (w_heap w2) l = Some (g i)).
    { rewrite Hx, nth_error_app1 by (rewrite set_nth_length; auto). now apply set_nth_same. }
    unfold unchanged, w_upd. rewrite N2. unfold w_setheap. cbn [w_heap w_quar w_links]. split; [|split; assumption].
    exists x. rewrite Hx, Hg. unfold set_nth at 1.
    assert (Len : length (firstn l (w_heap w1)) = l) by (rewrite firstn_length; lia).
    unfold set_nth. destruct (skipn l (w_heap w1)) as [|y t] eqn:S.
    { apply (f_equal (@length inst)) in S. rewrite skipn_length in S. simpl in S. lia. }
    assert (Hy : y = i).
    { assert (K : nth_error (w_heap w1) l = Some y).
      { rewrite <- (firstn_skipn l (w_heap w1)) at 1. rewrite nth_error_app2 by lia. rewrite Len, Nat.sub_diag, S. reflexivity. }
      congruence. }
    rewrite <- app_assoc. rewrite firstn_app, skipn_app, Len, Nat.sub_diag, firstn_O, app_nil_r.
    rewrite (firstn_all2 (firstn l (w_heap w1))) by lia. rewrite (skipn_all2 (firstn l (w_heap w1))) by lia.
    cbn [app skipn]. subst y. rewrite <- (firstn_skipn l (w_heap w1)) at 2. rewrite S, <- app_assoc. reflexivity.
  Qed.
  Lemma conv_flag {A} (m : nat -> M A) w l g g' r : l < length (w_heap w) ->
    (forall i j, f i = f j -> f (g i) = f (g j)) ->
    (forall i j, nth_error (w_heap w) l = Some i -> f j = f i -> g' (g j) = j) ->
    conv m (w_upd l g w) r -> conv (fun n => upd l g ;; fin (m n) (w_upd l g')) w r.
  Proof.
    intros Hl Hg Hgg [x H]. exists x. intros n Hn w1 Hw.
    destruct (H n Hn (w_upd l g w1) (like_upd _ _ _ _ Hl Hg Hw)) as (w2 & E1 & U1).
    destruct (nth_error (w_heap w) l) as [i|] eqn:Hi; [|apply nth_error_None in Hi; lia].
    destruct (like_nth _ _ _ _ Hw Hi) as (i1 & Hi1 & Hf).
    exists (w_upd l g' w2). unfold bind, upd, mod_w, fin. rewrite E1. split; auto.
    eapply unchanged_back; eauto.
  Qed.
  Lemma conv_disabled {A} ts (m : nat -> M A) w r :
    conv m (w_setquar (quar_enter ts (w_quar w)) w) r -> conv (fun n => disabled ts (m n)) w r.
  Proof.
    intros [x H]. exists x. intros n Hn w1 Hw. unfold disabled.
    assert (Hq : like (w_setquar (quar_enter ts (w_quar w)) w) (w_setquar (quar_enter ts (w_quar w1)) w1)).
    { destruct Hw as (Hh & Q & L). split; [exact Hh|]. cbn. rewrite Q. auto. }
    destruct (H n Hn _ Hq) as (w2 & E1 & U1). rewrite E1. exists (w_setquar (w_quar w1) w2). split; auto.
    destruct U1 as (Hh & Q & L). split; [exact Hh|]. cbn. auto.
  Qed.
  Lemma like_trans a b c : like a b -> like b c -> like a c.
  Proof.
    intros ((h & g & H & M) & Q & L) ((h2 & g2 & H2 & M2) & Q2 & L2). repeat split; try congruence.
    rewrite H, map_app in M2. assert (Len : length h <= length h2).
    { apply (f_equal (@length inst)) in M2. rewrite app_length, !map_length in M2. lia. }
    exists (firstn (length h) h2), (skipn (length h) h2 ++ g2). split.
    - rewrite app_assoc, firstn_skipn. exact H2.
    - rewrite <- M. rewrite <- firstn_map, M2. rewrite <- (map_length f h), firstn_app, Nat.sub_diag, firstn_O, app_nil_r.
      apply firstn_all.
  Qed.
  (** the same in every state that looks alike *)
  Lemma conv_like {A} (m : nat -> M A) w w1 r : like w w1 -> conv m w r -> conv m w1 r.
  Proof. intros Hw [x H]. exists x. intros n Hn w2 H2. apply H; auto. eapply like_trans; eauto. Qed.
  Lemma tot_like {A} Q (m : nat -> M A) w w1 : like w w1 -> tot Q m w -> tot Q m w1.
  Proof. intros Hw (r & H & HQ). exists r. split; auto. eapply conv_like; eauto. Qed.
End Conv.

(** ignoring less *)
Lemma conv_finer {A} f g (m : nat -> M A) w r : (forall i j, g i = g j -> f i = f j) -> conv f m w r -> conv g m w r.
Proof.
  intros Hfg [x H]. exists x. intros n Hn w1 ((h & y & Hh & M) & Q). apply H; auto. split; auto. exists h, y. split; auto.
  clear -M Hfg. revert M. generalize (w_heap w). induction h as [|a h IH]; intros [|b l] M; try discriminate; auto.
  cbn in *. injection M as M1 M2. f_equal; auto.
Qed.
Lemma tot_finer {A} f g Q (m : nat -> M A) w : (forall i j, g i = g j -> f i = f j) -> tot f Q m w -> tot g Q m w.
Proof. intros Hfg (r & H & HQ). exists r. split; auto. eapply conv_finer; eauto. Qed.
