(** Proofs about operations that only read. *)
From Verif Require Import World WorldFrame WorldSpec WorldInv WorldSet ReadSpec.
From Coq Require Import Lia.
Local Open Scope string_scope.
Local Open Scope list_scope.
Local Open Scope nat_scope.

Lemma set_nth_cons {A} (x : A) l n a : set_nth (x :: l) (S n) a = x :: set_nth l n a.
Proof. reflexivity. Qed.
Lemma set_nth_again {A} (l : list A) : forall n a b, set_nth (set_nth l n a) n b = set_nth l n b.
Proof. induction l as [|x l IH]; intros [|n] a b; auto. rewrite !set_nth_cons. now rewrite IH. Qed.
Lemma set_nth_same {A} (l : list A) : forall n a, nth_error l n = Some a -> set_nth l n a = l.
Proof.
  induction l as [|x l IH]; intros [|n] a H; try discriminate; [now injection H as <-|]. rewrite set_nth_cons. f_equal. auto.
Qed.

(** [b]: may error hooks be called? *)
Definition calm (b : bool) {A} (m : M A) : Prop := forall w, hooks_only w (snd (m w)) /\ (b = false -> w_trace (snd (m w)) = w_trace w).
Section Calm.
  Variable b : bool.
  Lemma c_ret {A} (a : A) : calm b (ret a).
  Proof. intros w. split; auto. apply ho_refl. Qed.
  Lemma c_throw {A} e : calm b (@throw A e).
  Proof. intros w. split; auto. apply ho_refl. Qed.
  Lemma c_lift {A} (r : res A) : calm b (lift r).
  Proof. intros w. split; auto. apply ho_refl. Qed.
  Lemma c_get_inst l : calm b (get_inst l).
  Proof. intros w. unfold get_inst. destruct (nth_error (w_heap w) l); split; auto; apply ho_refl. Qed.
  Lemma c_bind {A B} (m : M A) (k : A -> M B) : calm b m -> (forall a, calm b (k a)) -> calm b (bind m k).
  Proof.
    intros H K w. unfold bind. destruct (H w) as [H1 H2]. destruct (m w) as [[a|e] w1]; cbn in *; auto.
    destruct (K a w1) as [K1 K2]. split; [eapply ho_trans; eauto|]. intros F. now rewrite K2, H2.
  Qed.
  Lemma c_try {A} (m : M A) h : calm b m -> (forall e, calm b (h e)) -> calm b (try_ m h).
  Proof.
    intros H K w. unfold try_. destruct (H w) as [H1 H2]. destruct (m w) as [[a|e] w1]; cbn in *; auto.
    destruct (K e w1) as [K1 K2]. split; [eapply ho_trans; eauto|]. intros F. now rewrite K2, H2.
  Qed.
  Lemma c_outcome {A} (m : M A) : calm b m -> calm b (outcome m).
  Proof. intros H w. unfold outcome. specialize (H w). now destruct (m w). Qed.
  Lemma c_mapM {A B} (f : A -> M B) l : (forall x, calm b (f x)) -> calm b (mapM f l).
  Proof.
    intros H. induction l; cbn [mapM]; [apply c_ret|]. apply c_bind; auto. intros. apply c_bind; auto. intros. apply c_ret.
  Qed.
  Lemma c_mapM_in {A B} (f : A -> M B) l : (forall x, In x l -> calm b (f x)) -> calm b (mapM f l).
  Proof.
    induction l; intros H; cbn [mapM]; [apply c_ret|]. apply c_bind; [apply H; now left|]. intros.
    apply c_bind; [apply IHl; intros; apply H; now right|]. intros. apply c_ret.
  Qed.
  Lemma c_anyM l : Forall (calm b) l -> calm b (anyM l).
  Proof. induction 1; cbn [anyM]; [apply c_ret|]. apply c_bind; auto. intros []; [apply c_ret|auto]. Qed.
  Lemma c_take f l : (forall x, calm b (f x)) -> calm b (take_first f l).
  Proof.
    intros H. induction l; cbn [take_first]; [apply c_ret|]. apply c_bind; auto. intros []; [apply c_ret|]. apply c_bind; auto. intros. apply c_ret.
  Qed.
  Lemma c_get {B} l (k : inst -> M B) :
    (forall w i, nth_error (w_heap w) l = Some i -> hooks_only w (snd (k i w)) /\ (b = false -> w_trace (snd (k i w)) = w_trace w)) ->
    calm b (bind (get_inst l) k).
  Proof.
    intros K w. unfold bind, get_inst. destruct (nth_error (w_heap w) l) as [i|] eqn:N; [now apply K|]. split; auto. apply ho_refl.
  Qed.
  Lemma c_get_at {B} l (k : inst -> M B) w :
    (forall i, nth_error (w_heap w) l = Some i -> hooks_only w (snd (k i w)) /\ (b = false -> w_trace (snd (k i w)) = w_trace w)) ->
    hooks_only w (snd (bind (get_inst l) k w)) /\ (b = false -> w_trace (snd (bind (get_inst l) k w)) = w_trace w).
  Proof.
    intros K. unfold bind, get_inst. destruct (nth_error (w_heap w) l) as [i|] eqn:N; [now apply K|]. split; auto. apply ho_refl.
  Qed.
  (** a flag that is set during the operation *)
  Lemma c_flag {A} l f g (m : M A) i w : nth_error (w_heap w) l = Some i -> g (f i) = i -> calm b m ->
    hooks_only w (snd ((upd l f ;; fin m (w_upd l g)) w)) /\ (b = false -> w_trace (snd ((upd l f ;; fin m (w_upd l g)) w)) = w_trace w).
  Proof.
    intros N G H. unfold upd, mod_w, bind, fin. cbn [snd].
    assert (E1 : w_upd l f w = w_setheap (set_nth (w_heap w) l (f i)) w) by (unfold w_upd; now rewrite N).
    destruct (H (w_upd l f w)) as [H1 H2]. destruct (m (w_upd l f w)) as [r w1]. cbn [snd] in *.
    destruct H1 as [A1 A2 A3 A4 A5]. rewrite E1 in *. cbn in A1, A2, A3, A4, A5.
    assert (N1 : nth_error (w_heap w1) l = Some (f i)).
    { rewrite A1. pose proof (w_upd_nth_same l f w) as S. rewrite E1, N in S. exact S. }
    assert (E2 : w_upd l g w1 = w_setheap (w_heap w) w1).
    { unfold w_upd. rewrite N1, A1, G, set_nth_again. f_equal. now apply set_nth_same. }
    rewrite E2. cbn. split; [split; auto|]. intros F. now rewrite H2.
  Qed.
End Calm.

Section Read.
  Variables (E : env) (C : ctable) (U : ucode) (b : bool).
  Hypothesis Hc : harmless C U.
  Hypothesis Hd : b = false -> no_dynamic C.
  Notation ex := (exec E C U).

  Lemma c_perror_none {A} name : calm b (@perror A name None).
  Proof. intros w. split; auto. apply ho_refl. Qed.
  Lemma c_hooks_none n name : calm b (hooks n name None).
  Proof. induction n; cbn [hooks]; [apply c_ret|]. apply c_bind; [apply c_ret|auto]. Qed.
  Lemma c_leaf t name v : calm b (leaf_val E t None name v).
  Proof.
    unfold leaf_val. apply c_bind.
    - intros w. split; auto. split; cbn; auto. exists []. split; [reflexivity|constructor].
    - intros k. destruct (leaf_validate E (e_rand E k) t v); [apply c_ret|apply c_bind; [apply c_hooks_none|intros; apply c_perror_none]|apply c_throw].
  Qed.
  Lemma c_validate rec p : inst_free p -> forall name v, calm b (p_validate E C rec p None name v).
  Proof.
    induction p as [t|k q mn mx co IH|kp vp co IHk IHv|si ps IH|cid] using ptype_ind'; intros Hf name v; cbn [p_validate inst_free] in *.
    - apply c_leaf.
    - apply c_bind; [destruct (_ && _); [apply c_perror_none|apply c_ret]|]. intros _. apply c_bind; [apply c_lift|]. intros items.
      apply c_bind; [|intros; apply c_lift]. apply c_mapM. intros x. apply c_try; auto. intros e. destruct (is_value_error e); [apply c_perror_none|apply c_throw].
    - destruct Hf as [Hk Hv]. apply c_bind; [destruct (_ && _); [apply c_perror_none|apply c_ret]|]. intros _. apply c_bind.
      + destruct (py_dict v) as [d|e]; [apply c_ret|]. destruct e; try apply c_throw; apply c_perror_none.
      + intros d. apply c_bind; [|intros; apply c_ret]. generalize (@nil (val * val)) as acc.
        induction d as [|[k x] d IHd]; intros acc; [apply c_ret|].
        apply c_bind; [apply c_try; auto; intros e; destruct (is_value_error e); [apply c_perror_none|apply c_throw]|]. intros k'.
        apply c_bind; [apply c_try; auto; intros e; destruct (is_value_error e); [apply c_perror_none|apply c_throw]|]. intros x'.
        destruct (hashable k'); [apply IHd|apply c_throw].
    - revert Hf. induction IH as [|q ps Hq Hps IHps]; intros Hf; [apply c_perror_none|]. destruct Hf as [H1 H2].
      apply c_try; auto. intros e. destruct (is_generic e); [auto|apply c_throw].
    - destruct Hf.
  Qed.

  Section Step.
    Variable n : nat.
    Hypothesis IHr : forall o, reading o -> calm b (ex n (COp o)).

    Lemma c_serialize_free o p : inst_free p -> forall v, calm b (p_serialize E C (ex n) o p v).
    Proof.
      induction p as [t|k q mn mx co IH|kp vp co IHk IHv|si ps IH|cid] using ptype_ind'; intros Hf v; cbn [p_serialize inst_free] in *;
        (destruct (is_none v); [apply c_ret|]).
      - apply c_lift.
      - apply c_bind; [apply c_lift|]. intros items. apply c_bind; [|intros; apply c_ret]. apply c_mapM. auto.
      - destruct Hf. destruct v; try apply c_throw. apply c_bind; [|intros; apply c_bind; [apply c_lift|intros; apply c_ret]].
        apply c_mapM. intros kx. apply c_bind; auto. intros. apply c_bind; auto. intros. apply c_ret.
      - revert Hf. induction IH as [|q ps Hq Hps IHps]; intros Hf; [destruct v; try apply c_ret; now apply IHr|]. destruct Hf as [H1 H2].
        apply c_bind; [apply c_outcome; now apply c_validate|]. intros [x|e]; [now apply Hq|]. destruct (is_generic e); [auto|apply c_throw].
      - destruct Hf.
    Qed.
    Lemma c_serialize o p : trial_free p -> forall v, calm b (p_serialize E C (ex n) o p v).
    Proof.
      induction p as [t|k q mn mx co IH|kp vp co IHk IHv|si ps IH|cid] using ptype_ind'; intros Hf v.
      - apply c_serialize_free. exact I.
      - cbn [p_serialize trial_free] in *. destruct (is_none v); [apply c_ret|].
        apply c_bind; [apply c_lift|]. intros items. apply c_bind; [|intros; apply c_ret]. apply c_mapM. auto.
      - cbn [p_serialize trial_free] in *. destruct (is_none v); [apply c_ret|].
        destruct Hf. destruct v; try apply c_throw. apply c_bind; [|intros; apply c_bind; [apply c_lift|intros; apply c_ret]].
        apply c_mapM. intros kx. apply c_bind; auto. intros. apply c_bind; auto. intros. apply c_ret.
      - apply c_serialize_free. exact Hf.
      - cbn [p_serialize]. destruct (is_none v); [apply c_ret|]. destruct v; try apply c_throw. now apply IHr.
    Qed.
    Lemma c_equal p : forall x y, calm b (p_equal (ex n) p x y).
    Proof.
      induction p as [t|k q mn mx co IH|kp vp co IHk IHv|si ps IH|cid] using ptype_ind'; intros x y; cbn [p_equal].
      - apply c_lift.
      - destruct k.
        1, 2: apply c_try; [|intros []; first [apply c_ret|apply c_throw]]; apply c_bind; [apply c_lift|]; intros la; apply c_bind; [apply c_lift|];
          intros lb; destruct (negb _); [apply c_ret|]; apply c_bind; [apply c_mapM; auto|]; intros; apply c_ret.
        apply c_try; [|intros []; first [apply c_ret|apply c_throw]]. apply c_bind; [apply c_lift|]. intros la. apply c_bind; [apply c_lift|].
        intros lb. destruct (negb _); [apply c_ret|].
        assert (G : forall la copy, calm b ((fix go (la copy : list val) : M (list val) :=
                         match la with
                         | [] => ret copy
                         | x :: r =>
                             let* o := take_first (fun y => p_equal (ex n) q x y) copy in
                             go r (match o with Some c => c | None => copy end)
                         end) la copy)).
        { clear la lb. intros la. induction la as [|z la IHla]; intros copy; [apply c_ret|]. apply c_bind; [apply c_take; intros; apply IH|]. intros. apply IHla. }
        destruct y; try apply c_throw; try apply c_ret; apply c_bind; auto; intros; apply c_ret.
      - apply c_try; [|intros []; first [apply c_ret|apply c_throw]]. destruct x; try apply c_throw. destruct y; try apply c_throw.
        destruct (negb _); [apply c_ret|]. apply c_bind; [|intros; apply c_ret]. apply c_mapM. intros kx. destruct (vd_get _ _); [auto|apply c_throw].
      - apply c_anyM. induction IH; cbn; constructor; auto.
      - apply c_bind; [now apply IHr|]. intros. apply c_ret.
    Qed.
    Lemma c_run p : reader p -> calm b (run (ex n) p).
    Proof.
      induction 1 as [v|e|o k R K IH]; cbn [run]; [apply c_ret|apply c_throw|].
      intros w. destruct (IHr o R w) as [A1 A2]. destruct (ex n (COp o) w) as [r w1]. destruct (IH r w1) as [B1 B2]. cbn [snd] in *.
      split; [eapply ho_trans; eauto|]. intros F. now rewrite B2, A2.
    Qed.
    Lemma c_class l (k : cls -> M val) : (forall c, In c (ct_cls C) -> calm b (k c)) -> calm b (bind (inst_class C l) k).
    Proof.
      intros K w. unfold inst_class, bind, get_inst, class_of, lift. destruct (nth_error (w_heap w) l) as [i|]; [|split; auto; apply ho_refl].
      destruct (nth_error (ct_cls C) (i_cls i)) as [c|] eqn:X; [|split; auto; apply ho_refl]. apply K. eauto using nth_error_In.
    Qed.
    Lemma c_getattr l name : calm b (has_getattr E C U (ex n) l name).
    Proof.
      unfold has_getattr. apply c_class. intros c Ic. destruct (dget (c_props c) name) as [d|] eqn:D.
      - apply dget_in in D. destruct (Hc c name d Ic D) as [_ HD]. destruct (pd_kind d) as [|g st dl| |m] eqn:K.
        + unfold back_get. apply c_bind; [apply c_get_inst|intros; apply c_ret].
        + destruct (HD g st dl eq_refl) as [R F]. destruct (Bool.bool_dec b true) as [B|B]; [|exfalso; apply Bool.not_true_is_false in B; exact (Hd B c name d g st dl Ic D K)].
          apply c_bind; [now apply c_run|]. intros v. destruct (_ || _); [apply c_ret|].
          intros w. split; [now apply validate_free|congruence].
        + unfold back_get. apply c_bind; [apply c_get_inst|intros; apply c_ret].
        + now apply IHr.
      - apply c_bind; [apply c_get_inst|]. intros i. destruct (dget (i_attrs i) name); [apply c_ret|]. destruct (dget (c_attrs c) name); [apply c_ret|apply c_throw].
    Qed.
    Lemma c_equal_props la lb ps : calm b (equal_props E C U (ex n) la lb ps).
    Proof.
      induction ps as [|[name d] ps IH]; cbn [equal_props]; [apply c_ret|]. apply c_bind; [apply c_getattr|]. intros x. apply c_bind; [apply c_getattr|].
      intros y. destruct (_ && _); [auto|]. destruct (_ && _); [|apply c_ret]. apply c_bind; [apply c_equal|]. intros []; [auto|apply c_ret].
    Qed.
    Lemma c_step o : reading o -> calm b (ex (S n) (COp o)).
    Proof.
      intros R. cbn [exec step]. destruct o; try destruct R.
      - apply c_getattr.
      - unfold has_serialize. apply c_get. intros w i N.
        destruct (i_sflag i) eqn:F; [split; auto; apply ho_refl|]. apply (c_flag b l _ _ _ i); auto; [destruct i; cbn in *; now subst|].
        apply c_class. intros c Ic. apply c_bind; [apply c_get_inst|]. intros i'. apply c_bind; [|intros; apply c_ret].
        apply c_mapM. intros k. destruct (dget (c_props c) k) as [d|] eqn:D; [|apply c_throw]. apply dget_in in D. destruct (Hc c k d Ic D) as [T _].
        apply c_bind; [apply c_getattr|]. intros v. apply c_bind; [|intros; apply c_ret]. unfold decl_serialize.
        destruct (pd_kind d); try apply c_ret; now apply c_serialize.
      - apply c_bind; [|intros; apply c_ret]. unfold has_equal. destruct a; try apply c_ret. destruct b0; try apply c_ret.
        apply c_get. intros w i N. apply c_get_at. intros j _.
        destruct (i_eflag i) eqn:F; [split; auto; apply ho_refl|]. apply (c_flag b l _ _ _ i); auto; [destruct i; cbn in *; now subst|].
        destruct (Nat.eqb l l0); [apply c_ret|]. destruct (negb _); [apply c_ret|]. apply c_bind; [apply c_lift|]. intros; apply c_equal_props.
    Qed.
  End Step.
  Theorem reads_calm n : forall o, reading o -> calm b (ex n (COp o)).
  Proof.
    induction n as [|n IH]; intros o R; [apply c_throw|]. now apply c_step.
  Qed.
End Read.
Theorem reads_hooks_only E C U : harmless C U -> forall n o w r w', reading o -> exec E C U n (COp o) w = (r, w') -> hooks_only w w'.
Proof.
  intros Hc n o w r w' R H. destruct (reads_calm E C U true Hc ltac:(discriminate) n o R w) as [A _]. now rewrite H in A.
Qed.
Theorem reads_unchanged E C U : harmless C U -> no_dynamic C -> forall n o w r w', reading o -> exec E C U n (COp o) w = (r, w') -> unchanged w w'.
Proof.
  intros Hc Hd n o w r w' R H. destruct (reads_calm E C U false Hc (fun _ => Hd) n o R w) as [[A1 A2 A3 _ _] B]. rewrite H in *. cbn in *.
  repeat split; auto.
Qed.
