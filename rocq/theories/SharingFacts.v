(** Proofs about the sharing of containers. *)
From Verif Require Import PyBase Sharing SharingSpec.
From Coq Require Import Lia.
Local Open Scope list_scope.
Local Open Scope nat_scope.

(** ** what a view depends on *)
Lemma parts_agree h h2 p : forall v, (forall a, In a (parts h p v) -> nth_error h2 a = nth_error h a) -> parts h2 p v = parts h p v.
Proof.
  induction p as [|t|k co q IH]; intros v H; try reflexivity. destruct v as [n|a]; [reflexivity|]. cbn [parts] in *.
  rewrite (H a) by now left. destruct (nth_error h a) as [c|]; [|reflexivity]. f_equal.
  assert (G : forall xs, (forall x, In x xs -> In x (c_items c)) -> flat_map (parts h2 q) xs = flat_map (parts h q) xs).
  { induction xs as [|x xs IHx]; intros S; [reflexivity|]. cbn. rewrite IHx by (intros; apply S; now right). f_equal.
    apply IH. intros b Hb. apply H. right. apply in_flat_map. exists x. split; auto. apply S. now left. }
  apply G. auto.
Qed.
Lemma view_agree h h2 p : forall v, (forall a, In a (parts h p v) -> nth_error h2 a = nth_error h a) -> view h2 p v = view h p v.
Proof.
  induction p as [|t|k co q IH]; intros v H; try reflexivity. destruct v as [n|a]; [reflexivity|]. cbn [view parts] in *.
  rewrite (H a) by now left. destruct (nth_error h a) as [c|]; [|reflexivity]. f_equal. apply map_ext_in. intros x Hx.
  apply IH. intros b Hb. apply H. right. apply in_flat_map. eauto.
Qed.
Lemma agree_app (h x : list cell) (l : list nat) : (forall a, In a l -> a < length h) -> forall a, In a l -> nth_error (h ++ x) a = nth_error h a.
Proof. intros H a Ha. apply nth_error_app1. auto. Qed.
Lemma nodup_app (l m : list nat) : NoDup l -> NoDup m -> (forall a, In a l -> ~ In a m) -> NoDup (l ++ m).
Proof.
  induction l as [|x l IH]; intros L M D; [exact M|]. inversion L; subst. cbn. constructor.
  - rewrite in_app_iff. intros [|]; [auto|]. apply (D x); auto. now left.
  - apply IH; auto. intros a Ha. apply D. now right.
Qed.

(** ** copies are new *)
Section Copy.
  Variables (leaf : nat -> nat -> option nat) (takes : nat -> bool -> nat -> bool) (wraps : bool -> bool) (kind : nat -> nat).
  Notation cp := (copy leaf takes wraps kind).
  Definition within (lo hi : nat) (l : list nat) : Prop := forall a, In a l -> lo <= a < hi.
  Lemma copy_new p : forall v h r h', cp p v h = (r, h') -> exists new, h' = h ++ new /\
    forall v', r = Some v' -> NoDup (parts h' p v') /\ within (length h) (length h') (parts h' p v').
  Proof.
    induction p as [|t|k co q IH]; intros v h r h' H; cbn [copy] in H.
    - injection H as <- <-. exists []. rewrite app_nil_r. split; [reflexivity|]. intros v' _. split; [constructor|intros a []].
    - injection H as <- <-. exists []. rewrite app_nil_r. split; [reflexivity|]. intros v' _. split; [destruct v'; constructor|intros a Ha; destruct v'; destruct Ha].
    - destruct (source takes wraps k co v h) as [[ks xs]|]; [|injection H as <- <-; exists []; rewrite app_nil_r; split; [reflexivity|discriminate]].
      assert (G : forall xs h r h', each (cp q) xs h = (r, h') -> exists new, h' = h ++ new /\
        forall ys, r = Some ys -> NoDup (flat_map (parts h' q) ys) /\ within (length h) (length h') (flat_map (parts h' q) ys)).
      { clear - IH. induction xs as [|x xs IHx]; intros h r h' H; cbn [each] in H.
        - injection H as <- <-. exists []. rewrite app_nil_r. split; [reflexivity|]. intros ys [= <-]. split; [constructor|intros a []].
        - destruct (cp q x h) as [[y|] h1] eqn:E1; [|injection H as <- <-; destruct (IH _ _ _ _ E1) as (n1 & -> & _); exists n1; split; [reflexivity|discriminate]].
          destruct (IH _ _ _ _ E1) as (n1 & -> & P1). destruct (P1 y eq_refl) as [D1 W1].
          destruct (each (cp q) xs (h ++ n1)) as [[zs|] h2] eqn:E2; injection H as <- <-; destruct (IHx _ _ _ E2) as (n2 & -> & P2).
          2: { exists (n1 ++ n2). rewrite app_assoc. split; [reflexivity|discriminate]. }
          destruct (P2 zs eq_refl) as [D2 W2]. exists (n1 ++ n2). rewrite app_assoc. split; [reflexivity|]. intros ys [= <-]. cbn [flat_map].
          assert (A : parts ((h ++ n1) ++ n2) q y = parts (h ++ n1) q y) by (apply parts_agree, agree_app; intros a Ha; apply W1 in Ha; lia).
          rewrite A. split.
          + apply nodup_app; auto. intros a Ha Hb. apply W1 in Ha. apply W2 in Hb. lia.
          + intros a Ha. apply in_app_iff in Ha as [Ha|Ha]; [apply W1 in Ha|apply W2 in Ha]; rewrite !app_length in *; lia. }
      destruct (each (cp q) xs h) as [[ys|] h1] eqn:E; injection H as <- <-; destruct (G _ _ _ _ E) as (n1 & -> & P).
      2: { exists n1. split; [reflexivity|discriminate]. }
      destruct (P ys eq_refl) as [D W]. exists (n1 ++ [Cell (kind k) ks ys]). rewrite app_assoc. split; [reflexivity|]. intros v' [= <-]. cbn [parts].
      rewrite nth_error_app2, Nat.sub_diag by lia. cbn [nth_error c_items].
      assert (A : flat_map (parts ((h ++ n1) ++ [Cell (kind k) ks ys]) q) ys = flat_map (parts (h ++ n1) q) ys).
      { clear - W. generalize [Cell (kind k) ks ys] as z. intros z. induction ys as [|y ys IHy]; [reflexivity|]. cbn. rewrite IHy by (intros a Ha; apply W; cbn; apply in_app_iff; now right).
        f_equal. apply parts_agree, agree_app. intros a Ha. apply W. cbn. apply in_app_iff. now left. }
      rewrite A. split.
      + constructor; auto. intros Ha. apply W in Ha. lia.
      + intros a [<-|Ha]; [|apply W in Ha]; rewrite !app_length in *; cbn; lia.
  Qed.
End Copy.

(** ** what is stored *)
Section Content.
  Variable V : senv.
  Notation ok := exists_in.
  Lemma ok_app h x v : ok h v -> ok (h ++ x) v.
  Proof. destruct v; cbn; auto. rewrite app_length. lia. Qed.
  Lemma closed_app h x : closed h -> Forall (fun c => Forall (ok (h ++ x)) (c_items c)) x -> closed (h ++ x).
  Proof.
    intros H X. apply Forall_app. split; auto. eapply Forall_impl; [|exact H]. cbn. intros c Hc. eapply Forall_impl; [|exact Hc]. intros v. apply ok_app.
  Qed.
  Lemma closed_cell h a c : closed h -> nth_error h a = Some c -> Forall (ok h) (c_items c).
  Proof. intros H N. apply nth_error_In in N. unfold closed in H. rewrite Forall_forall in H. auto. Qed.
  (** what a value stands for does not depend on later containers *)
  Lemma stands_app h x p : closed h -> forall v t, ok h v -> (stands_for V (h ++ x) p v t <-> stands_for V h p v t).
  Proof.
    intros C. induction p as [|u|k co q IH]; intros v t O.
    - split; inversion 1; subst; constructor.
    - split; inversion 1; subst; constructor; auto.
    - assert (G : forall vs ts, Forall (ok h) vs -> (Forall2 (stands_for V (h ++ x) q) vs ts <-> Forall2 (stands_for V h q) vs ts)).
      { induction vs as [|y vs IHv]; intros ts F; [split; inversion 1; constructor|]. inversion F; subst.
        split; inversion 1; subst; constructor; try (now apply IH); now apply IHv. }
      split; inversion 1; subst.
      + cbn in O. match goal with N : nth_error (h ++ x) _ = Some _ |- _ => rewrite nth_error_app1 in N by exact O end.
        econstructor; eauto. apply G; auto. eapply closed_cell; eauto.
      + constructor. now apply IH.
      + econstructor; eauto; [rewrite nth_error_app1 by exact O; eassumption|]. apply G; auto. eapply closed_cell; eauto.
      + constructor. now apply IH.
  Qed.
  Lemma validate_content p : forall v h r h', closed h -> ok h v -> s_validate V p v h = (r, h') ->
    closed h' /\ match r with
    | Some v' => ok h' v' /\ stands_for V h p v (view h' p v')
    | None => forall t, ~ stands_for V h p v t
    end.
  Proof.
    unfold s_validate. induction p as [|u|k co q IH]; intros v h r h' C O H; cbn [copy] in H.
    - injection H as <- <-. split; auto. split; auto. constructor.
    - destruct v as [n|a]; [|injection H as <- <-; split; auto; intros t X; inversion X].
      destruct (e_validate V u n) as [m|] eqn:E; injection H as <- <-; split; auto.
      + split; [exact I|]. now constructor.
      + intros t X. inversion X; subst. congruence.
    - destruct (source _ _ k co v h) as [[ks xs]|] eqn:S.
      2: { injection H as <- <-. split; auto. intros t X. inversion X; subst; cbn in S.
           - match goal with N : nth_error h _ = Some _ |- _ => rewrite N in S end.
             assert (K : co || (c_kind c =? k) = true)
               by (match goal with D : co = true \/ _ |- _ => destruct D as [D|D]; rewrite D; [reflexivity|now rewrite Nat.eqb_refl, Bool.orb_true_r] end).
             rewrite K in S. discriminate.
           - discriminate. }
      assert (Ox : Forall (ok h) xs).
      { destruct v as [n|a]; cbn in S; [destruct co; [|discriminate]; injection S as <- <-; constructor; [exact I|constructor]|].
        destruct (nth_error h a) as [c|] eqn:N; [|discriminate]. destruct (_ || _); [|discriminate]. injection S as <- <-. eapply closed_cell; eauto. }
      match type of H with context [each ?f _ _] => set (f0 := f) in * end.
      assert (G : forall xs h0 r h', closed h0 -> (exists x, h0 = h ++ x) -> Forall (ok h) xs -> each f0 xs h0 = (r, h') ->
        closed h' /\ match r with
        | Some ys => Forall (ok h') ys /\ Forall2 (stands_for V h q) xs (map (view h' q) ys)
        | None => forall ts, ~ Forall2 (stands_for V h q) xs ts
        end).
      { clear S Ox H xs ks r h'. induction xs as [|x xs IHx]; intros h0 r h' C0 [e ->] Ox H; cbn [each] in H.
        - injection H as <- <-. split; auto. split; constructor.
        - inversion Ox; subst. destruct (f0 x (h ++ e)) as [[y|] h1] eqn:E1.
          + destruct (IH x _ _ _ C0 (ok_app _ _ _ H2) E1) as (C1 & O1 & S1).
            destruct (copy_new _ _ _ _ q _ _ _ _ E1) as (n1 & En & P1). destruct (P1 y eq_refl) as [_ W1].
            destruct (each f0 xs h1) as [[zs|] h2] eqn:E2; injection H as <- <-.
            * destruct (IHx h1 (Some zs) h2 C1 ltac:(exists (e ++ n1); rewrite En, app_assoc; reflexivity) H3 E2) as (C2 & O2 & S2). split; auto.
              assert (En2 : exists n2, h2 = h1 ++ n2).
              { clear - E2. revert h1 zs h2 E2. induction xs as [|z xs IHz]; intros h1 zs h2 E; cbn in E; [injection E as <- <-; exists []; now rewrite app_nil_r|].
                destruct (f0 z h1) as [[u|] h3] eqn:F; [|discriminate]. destruct (copy_new _ _ _ _ q _ _ _ _ F) as (n & -> & _).
                destruct (each f0 xs (h1 ++ n)) as [[us|] h4] eqn:G; [|discriminate]. injection E as <- <-. destruct (IHz _ _ _ G) as [m ->].
                exists (n ++ m). now rewrite app_assoc. }
              destruct En2 as [n2 ->]. split; [constructor; auto; now apply ok_app|]. cbn [map]. constructor; auto.
              rewrite (view_agree h1) by (apply agree_app; intros a Ha; apply W1 in Ha; lia). now apply (stands_app h e q C) in S1.
            * destruct (IHx h1 None h2 C1 ltac:(exists (e ++ n1); rewrite En, app_assoc; reflexivity) H3 E2) as (C2 & S2). split; auto.
              intros ts X. inversion X; subst. eapply S2; eauto.
          + injection H as <- <-. destruct (IH x _ _ _ C0 (ok_app _ _ _ H2) E1) as (C1 & S1). split; auto. intros ts X. inversion X; subst.
            eapply S1. apply (stands_app h e q C); eauto. }
      destruct (each f0 xs h) as [[ys|] h1] eqn:E; injection H as <- <-.
      + destruct (G xs h (Some ys) h1 C ltac:(exists []; now rewrite app_nil_r) Ox E) as (C1 & O1 & S1).
        assert (C2 : closed (h1 ++ [Cell k ks ys])).
        { apply closed_app; auto. constructor; [|constructor]. cbn. eapply Forall_impl; [|exact O1]. intros z. apply ok_app. }
        split; auto. split; [cbn; rewrite app_length; cbn; lia|]. cbn [view]. rewrite nth_error_app2, Nat.sub_diag by lia. cbn [nth_error c_kind c_keys c_items].
        assert (A : map (view (h1 ++ [Cell k ks ys]) q) ys = map (view h1 q) ys).
        { assert (H0 : copy (e_validate V) (fun k co kd => co || Nat.eqb kd k) (fun co => co) (fun k => k) (TCont k co q) v h = (Some (SRef (length h1)), h1 ++ [Cell k ks ys])).
          { cbn [copy]. rewrite S. fold f0. now rewrite E. }
          destruct (copy_new _ _ _ _ _ _ _ _ _ H0) as (_ & _ & P). destruct (P _ eq_refl) as [D W]. cbn [parts] in D, W.
          rewrite nth_error_app2, Nat.sub_diag in D, W by lia. cbn [nth_error c_items] in D, W.
          apply map_ext_in. intros y Hy. symmetry. apply view_agree. intros a Ha. symmetry. apply nth_error_app1.
          assert (Hin : In a (flat_map (parts (h1 ++ [Cell k ks ys]) q) ys)) by (apply in_flat_map; eauto).
          inversion D; subst. specialize (W a (or_intror Hin)). rewrite app_length in W. cbn in W.
          assert (a <> length h1) by (intros ->; auto). lia. }
        rewrite A. destruct v as [n|a]; cbn in S.
        * destruct co; [|discriminate]. injection S as <- <-. clear A. destruct ys as [|z [|z2 zs]]; cbn [map] in *.
          -- inversion S1.
          -- constructor. now inversion S1.
          -- inversion S1 as [|? ? ? ? _ X2]. inversion X2.
        * destruct (nth_error h a) as [c|] eqn:N; [|discriminate]. destruct (co || (c_kind c =? k)) eqn:K; [|discriminate]. injection S as <- <-.
          econstructor; eauto. apply Bool.orb_true_iff in K as [K|K]; auto. right. now apply Nat.eqb_eq.
      + destruct (G xs h None h1 C ltac:(exists []; now rewrite app_nil_r) Ox E) as (C1 & S1). split; auto. intros t X.
        inversion X; subst; cbn in S.
        * match goal with N : nth_error h _ = Some _ |- _ => rewrite N in S end. destruct (_ || _) in S; [|discriminate]. injection S as <- <-. eapply S1; eauto.
        * injection S as <- <-. eapply S1. constructor; eauto.
  Qed.
End Content.

(** ** histories *)
Lemma set_cell_length h : forall a c, length (set_cell h a c) = length h.
Proof. induction h as [|x h IH]; intros [|a] c; cbn; auto. Qed.
Lemma set_cell_nth h : forall a c b, nth_error (set_cell h a c) b =
  if Nat.eqb b a then match nth_error h a with Some _ => Some c | None => None end else nth_error h b.
Proof.
  induction h as [|x h IH]; intros [|a] c [|b]; cbn; auto; try (destruct (_ =? _); reflexivity).
Qed.
Lemma parts_change h a c : forall p v, (forall c0, nth_error h a = Some c0 -> forall b, In (SRef b) (c_items c) -> In (SRef b) (c_items c0)) ->
  forall b, In b (parts (set_cell h a c) p v) -> In b (parts h p v).
Proof.
  intros p v H. revert v. induction p as [|t|k co q IH]; intros v b Hb; try (destruct v; exact Hb). destruct v as [n|r]; [exact Hb|].
  cbn [parts] in *. destruct Hb as [->|Hb]; [now left|]. right. rewrite set_cell_nth in Hb. destruct (Nat.eqb_spec r a) as [->|N].
  - destruct (nth_error h a) as [c0|]; [|destruct Hb]. apply in_flat_map in Hb as (x & Hx & Hb). apply in_flat_map.
    destruct x as [n|y]; [destruct q; destruct Hb|]. exists (SRef y). split; [eapply H; eauto|auto].
  - destruct (nth_error h r) as [c0|]; [|destruct Hb]. apply in_flat_map in Hb as (x & Hx & Hb). apply in_flat_map. eauto.
Qed.

Section History.
  Variables (V : senv) (T : nat -> stype).
  Record inv (s : sstate) : Prop := {
    iv_len : length (s_made s) = length (s_heap s);
    iv_own : forall k v, s_store s k = Some v -> forall a, In a (parts (s_heap s) (T k) v) -> made_for s a k
  }.
  Lemma inv_lt s k v a : inv s -> s_store s k = Some v -> In a (parts (s_heap s) (T k) v) -> a < length (s_heap s).
  Proof. intros I S A. rewrite <- (iv_len s I). apply nth_error_Some. rewrite (iv_own s I k v S a A). discriminate. Qed.
  (** new containers, the rest as it was *)
  Lemma inv_grow s new o f : inv s -> (forall k, f k = s_store s k \/ f k = None) ->
    inv (ST (s_heap s ++ new) (s_made s ++ repeat o (length new)) f).
  Proof.
    intros I F. split; cbn [s_heap s_made s_store].
    - rewrite !app_length, repeat_length. now rewrite (iv_len s I).
    - intros k v S a A. destruct (F k) as [Fk|Fk]; [|congruence]. rewrite Fk in S.
      rewrite (parts_agree (s_heap s)) in A by (apply agree_app; intros b Hb; eapply inv_lt; eauto).
      unfold made_for. cbn. rewrite nth_error_app1 by (rewrite (iv_len s I); eapply inv_lt; eauto). eapply iv_own; eauto.
  Qed.
  Lemma grown_app s new o : grown s (s_heap s ++ new) o = s_made s ++ repeat o (length new).
  Proof. unfold grown. rewrite app_length. replace (length (s_heap s) + length new - length (s_heap s)) with (length new) by lia. reflexivity. Qed.
  Lemma nth_repeat_in {A} (o : A) n i : i < n -> nth_error (repeat o n) i = Some o.
  Proof. revert i. induction n; intros [|i] H; cbn; try lia; auto. apply IHn. lia. Qed.
  Lemma inv_assign s k v : inv s -> inv (assign V T k v s).
  Proof.
    intros I. unfold assign. destruct (s_validate V (T k) v (s_heap s)) as [r h] eqn:E.
    destruct (copy_new _ _ _ _ _ _ _ _ _ E) as (new & -> & P). rewrite grown_app.
    destruct r as [v'|]; [|apply inv_grow; auto]. destruct (P v' eq_refl) as [_ W].
    pose proof (inv_grow s new (Some k) (put k None (s_store s)) I ltac:(intros j; unfold put; destruct (Nat.eqb j k); auto)) as G.
    split; [apply (iv_len _ G)|]. intros j u S a A. cbn [s_heap s_store] in *. unfold put in S. destruct (Nat.eqb_spec j k) as [->|N].
    - injection S as <-. apply W in A. unfold made_for. cbn. rewrite nth_error_app2 by (rewrite (iv_len s I); lia).
      apply nth_repeat_in. rewrite app_length, (iv_len s I) in *. lia.
    - apply (iv_own _ G j u); cbn; auto. unfold put. destruct (Nat.eqb_spec j k); [contradiction|auto].
  Qed.
  Lemma inv_act s x : inv s -> tame s x -> inv (snd (act V T x s)).
  Proof.
    intros I Tm. destruct x as [c|a c|k v|k|k|k v|k c]; cbn [act snd].
    - apply (inv_grow s [c] None); auto.
    - split; cbn [s_heap s_made s_store]; [rewrite set_cell_length; apply (iv_len s I)|]. intros k v S b B. unfold made_for. cbn.
      destruct (in_dec Nat.eq_dec a (parts (s_heap s) (T k) v)) as [Ia|Na].
      + eapply iv_own; eauto. eapply parts_change; [|exact B]. intros c0 N. cbn in Tm. apply (Tm k c0); auto. eapply iv_own; eauto.
      + rewrite (parts_agree (s_heap s)) in B; [eapply iv_own; eauto|]. intros d D. rewrite set_cell_nth. destruct (Nat.eqb_spec d a) as [->|]; [contradiction|auto].
    - now apply inv_assign.
    - split; cbn [s_heap s_made s_store]; [apply (iv_len s I)|]. intros j v S a A. unfold put in S. destruct (Nat.eqb j k); [discriminate|]. exact (iv_own s I j v S a A).
    - destruct (s_store s k) as [v|]; [|exact I]. destruct (s_serialize V (T k) v (s_heap s)) as [r h] eqn:E.
      destruct (copy_new _ _ _ _ _ _ _ _ _ E) as (new & -> & _). rewrite grown_app. apply inv_grow; auto.
    - destruct (s_deserialize V (T k) v (s_heap s)) as [r h] eqn:E. destruct (copy_new _ _ _ _ _ _ _ _ _ E) as (new & -> & _). rewrite grown_app.
      assert (G : inv (ST (s_heap s ++ new) (s_made s ++ repeat None (length new)) (s_store s))) by (apply inv_grow; auto).
      destruct r; [now apply inv_assign|exact G].
    - destruct (s_store s k) as [[n|a]|]; try exact I. cbn [snd].
      assert (G : inv (ST (s_heap s ++ [c]) (s_made s ++ [None]) (s_store s))) by (apply (inv_grow s [c] None); auto). now apply inv_assign.
  Qed.
  Lemma inv_from s xs : inv s -> tame_from V T s xs -> inv (fold_left (fun s x => snd (act V T x s)) xs s).
  Proof. revert s. induction xs as [|x xs IH]; intros s I H; [exact I|]. destruct H as [H1 H2]. cbn. apply IH; auto. now apply inv_act. Qed.
  Lemma inv_after xs : tame_from V T nothing xs -> inv (after V T xs).
  Proof. intros H. apply inv_from; auto. split; [reflexivity|]. intros k v S. discriminate. Qed.

  Theorem private xs k v : tame_from V T nothing xs -> let s := after V T xs in s_store s k = Some v ->
    forall a, In a (parts (s_heap s) (T k) v) -> made_for s a k.
  Proof. intros H s. apply iv_own. now apply inv_after. Qed.

  Theorem disjoint xs k j v u : tame_from V T nothing xs -> k <> j -> let s := after V T xs in
    s_store s k = Some v -> s_store s j = Some u -> forall a, In a (parts (s_heap s) (T k) v) -> ~ In a (parts (s_heap s) (T j) u).
  Proof.
    intros H N s Sk Sj a Ak Aj. pose proof (private xs k v H Sk a Ak) as P. pose proof (private xs j u H Sj a Aj) as Q.
    unfold made_for in P, Q. fold s in P, Q. congruence.
  Qed.

  Lemma seen_grow s new m k : inv s -> seen T (ST (s_heap s ++ new) m (s_store s)) k = seen T s k.
  Proof.
    intros I. unfold seen. cbn [s_heap s_store]. destruct (s_store s k) as [v|] eqn:S; [|reflexivity]. cbn. f_equal.
    apply view_agree, agree_app. intros a A. eapply inv_lt; eauto.
  Qed.
  Lemma seen_assign s j v k : inv s -> j <> k -> seen T (assign V T j v s) k = seen T s k.
  Proof.
    intros I N. unfold assign. destruct (s_validate V (T j) v (s_heap s)) as [r h] eqn:E. destruct (copy_new _ _ _ _ _ _ _ _ _ E) as (new & -> & _).
    rewrite <- (seen_grow s new (grown s (s_heap s ++ new) (Some j)) k I). unfold seen. cbn [s_heap s_store].
    destruct r; [|reflexivity]. unfold put. destruct (Nat.eqb_spec k j); [congruence|reflexivity].
  Qed.
  Theorem isolated xs x k : tame_from V T nothing xs -> let s := after V T xs in ~ concerns s x k ->
    seen T (snd (act V T x s)) k = seen T s k.
  Proof.
    intros H s N. assert (I : inv s) by now apply inv_after. clearbody s. clear H. destruct x as [c|a c|j v|j|j|j v|j c]; cbn [act snd concerns] in *.
    - now apply seen_grow.
    - unfold seen. cbn [s_heap s_store]. destruct (s_store s k) as [v|] eqn:S; [|reflexivity]. cbn. f_equal. apply view_agree.
      intros d D. rewrite set_cell_nth. destruct (Nat.eqb_spec d a) as [->|]; [|reflexivity]. exfalso. apply N. eapply iv_own; eauto.
    - now apply seen_assign.
    - unfold seen. cbn [s_heap s_store]. unfold put. destruct (Nat.eqb_spec k j); [congruence|reflexivity].
    - destruct (s_store s j) as [v|]; [|reflexivity]. destruct (s_serialize V (T j) v (s_heap s)) as [r h] eqn:E.
      destruct (copy_new _ _ _ _ _ _ _ _ _ E) as (new & -> & _). now apply seen_grow.
    - destruct (s_deserialize V (T j) v (s_heap s)) as [r h] eqn:E. destruct (copy_new _ _ _ _ _ _ _ _ _ E) as (new & -> & _).
      assert (G : inv (ST (s_heap s ++ new) (grown s (s_heap s ++ new) None) (s_store s))) by (rewrite grown_app; apply inv_grow; auto).
      destruct r; [|now apply seen_grow]. cbn [snd]. rewrite seen_assign; auto. now apply seen_grow.
    - destruct (s_store s j) as [[n|a]|]; try reflexivity. cbn [snd].
      assert (G : inv (ST (s_heap s ++ [c]) (s_made s ++ [None]) (s_store s))) by (apply (inv_grow s [c] None); auto). rewrite seen_assign; auto. now apply seen_grow.
  Qed.
  (** JSON *)
  Theorem json_new xs k r s' : tame_from V T nothing xs -> let s := after V T xs in act V T (ASerialize k) s = (Some r, s') ->
    NoDup (parts (s_heap s') (T k) r) /\ forall a, In a (parts (s_heap s') (T k) r) -> length (s_heap s) <= a /\ forall j, ~ made_for s' a j.
  Proof.
    intros H s E. assert (I : inv s) by now apply inv_after. clearbody s. cbn [act] in E. destruct (s_store s k) as [v|]; [|discriminate].
    destruct (s_serialize V (T k) v (s_heap s)) as [r' h] eqn:F. injection E as -> <-. cbn [s_heap].
    destruct (copy_new _ _ _ _ _ _ _ _ _ F) as (new & -> & P). destruct (P r eq_refl) as [D W]. split; auto. intros a A. apply W in A. split; [lia|].
    intros j M. unfold made_for in M. cbn in M. rewrite grown_app, nth_error_app2, nth_repeat_in in M by (rewrite (iv_len s I); rewrite ?app_length in *; lia). discriminate.
  Qed.
End History.
(** one validation *)
Theorem copied V p v h v' h' : closed h -> exists_in h v -> s_validate V p v h = (Some v', h') ->
  stands_for V h p v (view h' p v') /\ NoDup (parts h' p v') /\ (forall a, In a (parts h' p v') -> length h <= a) /\
  exists new, h' = h ++ new.
Proof.
  intros C O H. destruct (validate_content V p v h (Some v') h' C O H) as (_ & _ & S). destruct (copy_new _ _ _ _ _ _ _ _ _ H) as (new & E & P).
  destruct (P v' eq_refl) as [D W]. split; auto. split; auto. split; [intros a A; now apply W in A|eauto].
Qed.
Theorem refused V p v h h' : closed h -> exists_in h v -> s_validate V p v h = (None, h') -> forall t, ~ stands_for V h p v t.
Proof. intros C O H. now destruct (validate_content V p v h None h' C O H). Qed.
