(** Proofs about operators of observable containers. *)
From Verif Require Import PyBase Operators OperatorsSpec.
Local Open Scope list_scope.
Local Open Scope nat_scope.

Section Facts.
  Variable V : opers.
  Lemma like_refl r : like r r.
  Proof. now destruct r. Qed.
  Lemma binary_like op a b : (forall l k x, a = OObservable l k -> b = OAlien x -> op_right V op x l = Declines) ->
    like (binary V op a b) (binary V op (builtin_of a) (builtin_of b)).
  Proof.
    intros H. destruct a as [l|l k|x], b as [r|r j|y]; cbn [builtin_of]; try apply like_refl; unfold binary, trials.
    - destruct (op_refl V op); [|apply like_refl]. cbn. destruct (op_base V op (ACont l) (ACont r)); cbn; auto.
    - destruct (op_base V op (ACont l) (ACont r)); cbn; auto.
    - destruct (op_base V op (ACont l) (ACont r)); cbn; auto.
    - rewrite (H l k y eq_refl eq_refl). destruct (op_base V op (ACont l) (AAlien y)), (op_number V op); cbn; auto.
    - cbn. destruct (op_left V op x r); cbn; auto. destruct (op_refl V op); cbn; auto.
      destruct (op_base V op (AAlien x) (ACont r)); cbn; auto.
  Qed.
  Lemma binary_alien op l k x : match op_base V op (ACont l) (AAlien x) with
    | Gives xs => binary V op (OObservable l k) (OAlien x) = Ok (OObservable xs None)
    | Declines => binary V op (OObservable l k) (OAlien x) = Exc ExType
    | Raises e => binary V op (OObservable l k) (OAlien x) = Exc e
    end.
  Proof. unfold binary. cbn. now destruct (op_base V op (ACont l) (AAlien x)). Qed.
  Lemma builtin_idem a : builtin_of (builtin_of a) = builtin_of a.
  Proof. now destruct a. Qed.
  Lemma method_like m a : like (method V m a) (method V m (builtin_of a)).
  Proof. destruct a as [l|l k|x]; cbn; try apply like_refl. destruct (op_meth V m l); cbn; auto. Qed.
  Lemma like_ok r a : like r (Ok a) -> exists b, r = Ok b /\ builtin_of b = builtin_of a.
  Proof. destruct r; cbn; intros H; [eauto|destruct H]. Qed.
  Lemma builtin_fix e : forall a, eval V (with_builtins e) = Ok a -> returns_no_observable V -> is_observable a = false.
  Proof.
    intros a H (R1 & R2 & R3 & R4). revert a H. induction e as [o|op x IHx y IHy|m x IHx]; intros a H; cbn in H.
    - injection H as <-. now destruct o.
    - destruct (eval V (with_builtins x)) as [u|]; [|discriminate]. destruct (eval V (with_builtins y)) as [v|]; [|discriminate].
      specialize (IHx u eq_refl). specialize (IHy v eq_refl). cbn in H. unfold binary, trials in H.
      destruct u as [l|l k|z], v as [r|r j|t]; try discriminate; cbn in H.
      + destruct (op_base V op (ACont l) (ACont r)); try discriminate. now injection H as <-.
      + destruct (op_number V op); cbn in H.
        * destruct (op_base V op (ACont l) (AAlien t)); cbn in H; try discriminate; [now injection H as <-|].
          destruct (op_right V op t l) eqn:E; try discriminate. injection H as <-. eauto.
        * destruct (op_right V op t l) eqn:E; try discriminate; [injection H as <-; eauto|].
          destruct (op_base V op (ACont l) (AAlien t)); cbn in H; try discriminate. now injection H as <-.
      + destruct (op_left V op z r) eqn:E; try discriminate; [injection H as <-; eauto|]. destruct (op_refl V op); cbn in H; [|discriminate].
        destruct (op_base V op (AAlien z) (ACont r)); cbn in H; try discriminate. now injection H as <-.
      + destruct (op_both V op z t) eqn:E; try discriminate. injection H as <-. eauto.
    - destruct (eval V (with_builtins x)) as [u|]; [|discriminate]. specialize (IHx u eq_refl). cbn in H. destruct u as [l|l k|z]; cbn in H; try discriminate.
      + destruct (op_meth V m l); cbn in H; try discriminate. now injection H as <-.
      + eauto.
  Qed.
  Lemma builtin_plain a : is_observable a = false -> builtin_of a = a.
  Proof. now destruct a. Qed.
  Theorem eval_like e : passive V -> returns_no_observable V -> like (eval V e) (eval V (with_builtins e)).
  Proof.
    intros P R. induction e as [o|op x IHx y IHy|m x IHx]; cbn [eval with_builtins].
    - cbn. now rewrite builtin_idem.
    - destruct (eval V (with_builtins x)) as [u'|e'] eqn:Ex; [|destruct (eval V x); cbn in *; [destruct IHx|auto]].
      apply like_ok in IHx as (u & -> & U). cbn [rbind].
      destruct (eval V (with_builtins y)) as [v'|e'] eqn:Ey; [|destruct (eval V y); cbn in *; [destruct IHy|auto]].
      apply like_ok in IHy as (v & -> & W). cbn [rbind].
      rewrite (builtin_plain u') in U by (eapply builtin_fix; eauto). rewrite (builtin_plain v') in W by (eapply builtin_fix; eauto).
      subst. apply binary_like. intros. apply P.
    - destruct (eval V (with_builtins x)) as [u'|e'] eqn:Ex; [|destruct (eval V x); cbn in *; [destruct IHx|auto]].
      apply like_ok in IHx as (u & -> & U). cbn [rbind].
      rewrite (builtin_plain u') in U by (eapply builtin_fix; eauto). subst. apply method_like.
  Qed.

  (** ** classes and owners of results *)
  Lemma binary_class op a b c : (exists xs, builtin_of a = OBuiltin xs) -> (exists ys, builtin_of b = OBuiltin ys) -> binary V op a b = Ok c ->
    (exists zs, builtin_of c = OBuiltin zs) /\ is_observable c = is_observable a || (is_observable b && op_refl V op) /\ attached c = false.
  Proof.
    intros [xs A] [ys B] H. destruct a as [l|l k|x], b as [r|r j|y]; try discriminate; unfold binary, trials in H.
    - cbn in H. destruct (op_base V op (ACont l) (ACont r)); try discriminate. injection H as <-. cbn. eauto.
    - destruct (op_refl V op); cbn in H; destruct (op_base V op (ACont l) (ACont r)); try discriminate; injection H as <-; cbn; eauto.
    - cbn in H. destruct (op_base V op (ACont l) (ACont r)); try discriminate. injection H as <-. cbn. eauto.
    - cbn in H. destruct (op_base V op (ACont l) (ACont r)); try discriminate. injection H as <-. cbn. eauto.
  Qed.
  Theorem eval_class e : containers_only e -> forall a, eval V e = Ok a ->
    is_observable a = observable_result V e /\ ((forall o, e <> EObj o) -> attached a = false).
  Proof.
    intros C. assert (G : forall a, eval V e = Ok a -> (exists xs, builtin_of a = OBuiltin xs) /\ is_observable a = observable_result V e /\
      ((forall o, e <> EObj o) -> attached a = false)).
    { induction e as [o|op x IHx y IHy|m x IHx]; intros a H; cbn [eval containers_only observable_result] in *.
      - injection H as <-. split; [destruct o; cbn; eauto; destruct C|]. split; auto. intros N. now destruct (N o).
      - destruct C as [C1 C2]. destruct (eval V x) as [u|]; [|discriminate]. destruct (eval V y) as [v|]; [|discriminate]. cbn in H.
        destruct (IHx C1 u eq_refl) as (X1 & X2 & _). destruct (IHy C2 v eq_refl) as (Y1 & Y2 & _).
        destruct (binary_class op u v a X1 Y1 H) as (Z1 & Z2 & Z3). rewrite <- X2, <- Y2. auto.
      - destruct (eval V x) as [u|]; [|discriminate]. cbn in H. destruct (IHx C u eq_refl) as ([xs X1] & X2 & _). rewrite <- X2.
        destruct u as [l|l k|z]; try discriminate; cbn in H; destruct (op_meth V m l); try discriminate; injection H as <-; cbn; eauto. }
    intros a H. now apply G.
  Qed.
End Facts.
