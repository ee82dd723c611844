(** Validation and comparison of types without HasProperties classes never
    raise a ValidationError without error tuples. *)
From Verif Require Import World WorldFrame WorldSpec GraphSpec GraphFacts.
Local Open Scope string_scope.
Local Open Scope list_scope.
Local Open Scope nat_scope.

Definition pvr {A} (m : M A) : Prop := forall w e w', m w = (Exc e, w') -> proper e.
Lemma pvr_ret {A} (a : A) : pvr (ret a).
Proof. intros w e w' K. discriminate. Qed.
Lemma pvr_throw {A} e : proper e -> pvr (@throw A e).
Proof. intros H w e' w' K. injection K as <- _. exact H. Qed.
Lemma pvr_lift {A} (r : res A) : (forall e, r = Exc e -> proper e) -> pvr (lift r).
Proof. intros H w e w' K. injection K as K _. auto. Qed.
Lemma pvr_bind {A B} (m : M A) (k : A -> M B) : pvr m -> (forall a, pvr (k a)) -> pvr (bind m k).
Proof. intros H K w e w' Em. unfold bind in Em. destruct (m w) as [[a|e1] w1] eqn:E1; [eapply K; eauto|]. injection Em as <- _. eapply H; eauto. Qed.
Lemma pvr_try {A} (m : M A) h : pvr m -> (forall e, proper e -> pvr (h e)) -> pvr (try_ m h).
Proof. intros H K w e w' Em. unfold try_ in Em. destruct (m w) as [[a|e1] w1] eqn:E1; [discriminate|]. eapply K; [eapply H|]; eauto. Qed.
Lemma pvr_mapM {A B} (f : A -> M B) l : (forall x, pvr (f x)) -> pvr (mapM f l).
Proof. intros H. induction l; cbn [mapM]; [apply pvr_ret|]. apply pvr_bind; auto. intros. apply pvr_bind; auto. intros. apply pvr_ret. Qed.
Lemma pvr_hook io ts : pvr (hook io ts).
Proof.
  unfold hook. destruct io; [|apply pvr_ret]. apply pvr_bind.
  - intros w e w' K. unfold get_inst in K. destruct nth_error; [discriminate|]. injection K as <- _. discriminate.
  - intros i. destruct (i_vflag i) as [[|]|]; try apply pvr_ret. intros w e w' K. discriminate.
Qed.
Lemma pvr_verror {A} r name io : pvr (@verror A r name io).
Proof. unfold verror. apply pvr_bind; [apply pvr_hook|]. intros _. apply pvr_throw. discriminate. Qed.
Lemma pvr_perror {A} name io : pvr (@perror A name io).
Proof. apply pvr_verror. Qed.
Lemma pvr_hooks n name io : pvr (hooks n name io).
Proof. induction n; cbn [hooks]; [apply pvr_ret|]. apply pvr_bind; [apply pvr_hook|auto]. Qed.
Lemma pvr_rescue {A} (m : M A) (g : exn -> bool) name io : pvr m -> pvr (try_ m (fun e => if g e then perror name io else throw e)).
Proof. intros H. apply pvr_try; [exact H|]. intros e He. destruct (g e); [apply pvr_perror|now apply pvr_throw]. Qed.
Lemma pvr_take (f : val -> M bool) l : (forall x, pvr (f x)) -> pvr (take_first f l).
Proof.
  intros H. induction l as [|y l IH]; cbn [take_first]; [apply pvr_ret|]. apply pvr_bind; [apply H|]. intros [|]; [apply pvr_ret|].
  apply pvr_bind; [exact IH|]. intros. apply pvr_ret.
Qed.

Section Pure.
  Variables (E : env) (C : ctable).
  Lemma pvr_leaf t io name v : pvr (leaf_val E t io name v).
  Proof.
    unfold leaf_val. apply pvr_bind; [intros w e w' K; discriminate|]. intros k.
    destruct (leaf_validate E (e_rand E k) t v) as [v'|j|e] eqn:El; [apply pvr_ret| |].
    - apply pvr_bind; [apply pvr_hooks|]. intros _. apply pvr_perror.
    - apply pvr_throw. eapply leaf_proper; eauto.
  Qed.
  Lemma pvr_validate rec p : inst_free p -> forall io name v, pvr (p_validate E C rec p io name v).
  Proof.
    induction p as [t|k q mn mx co IH|kp vp co IHk IHv|si ps IH|cid] using ptype_ind'; intros Hf io name v; simpl in *.
    - apply pvr_leaf.
    - apply pvr_bind. { destruct (_ && _); [apply pvr_perror|apply pvr_ret]. }
      intros _. apply pvr_bind; [apply pvr_lift, proper_iter|]. intros items. apply pvr_bind; [|intros; apply pvr_lift, proper_build].
      apply pvr_mapM. intros x. apply pvr_rescue. now apply IH.
    - destruct Hf as [Hk Hv]. apply pvr_bind; [destruct (_ && _); [apply pvr_perror|apply pvr_ret]|].
      intros _. apply pvr_bind.
      { destruct (py_dict v) as [d|e] eqn:Ed; [apply pvr_ret|]. apply proper_pydict in Ed. destruct e; try apply pvr_perror; now apply pvr_throw. }
      intros d. apply pvr_bind; [|intros; apply pvr_ret]. generalize (@nil (val * val)) as acc.
      induction d as [|[k x] d IHd]; intros acc; [apply pvr_ret|].
      apply pvr_bind; [apply pvr_rescue; now apply IHk|]. intros k'. apply pvr_bind; [apply pvr_rescue; now apply IHv|].
      intros x'. destruct (hashable k'); [apply IHd|apply pvr_throw; discriminate].
    - induction IH as [|q ps Hq Hps IHps]; [apply pvr_perror|]. destruct Hf as [H1 H2].
      apply pvr_try; [now apply Hq|]. intros e He. destruct (is_generic e); [exact (IHps H2)|now apply pvr_throw].
    - destruct Hf.
  Qed.
  Lemma pvr_equal rec p : inst_free p -> forall a b, pvr (p_equal rec p a b).
  Proof.
    induction p as [t|k q mn mx co IH|kp vp co IHk IHv|si ps IH|cid] using ptype_ind'; intros Hf a b; cbn [p_equal inst_free] in *.
    - apply pvr_lift, proper_leaf_equal.
    - specialize (IH Hf).
      destruct k; (apply pvr_try; [|intros [] He; try apply pvr_ret; now apply pvr_throw]);
        (apply pvr_bind; [apply pvr_lift, proper_iter|]; intros la; apply pvr_bind; [apply pvr_lift, proper_iter|]; intros lb; destruct (negb _); [apply pvr_ret|]).
      1,2: apply pvr_bind; [apply pvr_mapM; auto|intros; apply pvr_ret].
      destruct b; try (apply pvr_throw; discriminate); try apply pvr_ret.
      all: apply pvr_bind; [|intros; apply pvr_ret]; clear - IH; revert lb; induction la as [|x la IHl]; intros copy; [apply pvr_ret|];
        apply pvr_bind; [apply pvr_take; auto|intros; apply IHl].
    - apply pvr_try; [|intros [] He; try apply pvr_ret; now apply pvr_throw].
      destruct a; try (apply pvr_throw; discriminate). destruct b; try (apply pvr_throw; discriminate). destruct (negb _); [apply pvr_ret|].
      apply pvr_bind; [|intros; apply pvr_ret]. apply pvr_mapM. intros kx. destruct vd_get; [now apply IHv|apply pvr_throw; discriminate].
    - induction IH as [|q ps Hq Hps IHps]; cbn [map anyM]; [apply pvr_ret|]. destruct Hf as [H1 H2].
      apply pvr_bind; [now apply Hq|]. intros [|]; [apply pvr_ret|exact (IHps H2)].
    - destruct Hf.
  Qed.
End Pure.
