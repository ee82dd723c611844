(** Length limits play no part in assignment. *)
From Verif Require Import World WorldFrame WorldSpec AccessSpec GraphSpec.
Local Open Scope string_scope.
Local Open Scope list_scope.
Local Open Scope nat_scope.

Lemma bind_ext {A B} (m m' : M A) (k k' : A -> M B) w : m w = m' w -> (forall a w1, k a w1 = k' a w1) -> bind m k w = bind m' k' w.
Proof. intros H K. unfold bind. rewrite H. destruct (m' w) as [[a|e] w1]; auto. Qed.
Lemma try_ext {A} (m m' : M A) (h h' : exn -> M A) w : m w = m' w -> (forall e w1, h e w1 = h' e w1) -> try_ m h w = try_ m' h' w.
Proof. intros H K. unfold try_. rewrite H. destruct (m' w) as [[a|e] w1]; auto. Qed.
Lemma mapM_ext {A B} (f g : A -> M B) l : forall w, (forall a w1, f a w1 = g a w1) -> mapM f l w = mapM g l w.
Proof. induction l as [|x l IH]; intros w H; cbn [mapM]; [reflexivity|]. apply bind_ext; auto. intros y w1. apply bind_ext; auto. Qed.

Section Limits.
  Variable E : env.
  Variable C : ctable.
  Variable rec : call -> M val.
  Lemma validate_no_limits p : forall io name v w,
    p_validate E C rec p io name v w = p_validate E C rec (no_limits p) io name v w.
  Proof.
    induction p as [t|k q mn mx co IH|kp vp co IHk IHv|si ps IH|cid] using ptype_ind'; intros io name v w; cbn [no_limits p_validate]; auto.
    - apply bind_ext; auto. intros _ w1. cbv zeta. apply bind_ext; auto. intros items w2. apply bind_ext; auto.
      apply mapM_ext. intros x w3. now apply try_ext.
    - apply bind_ext; auto. intros _ w1. apply bind_ext; auto. intros d w2. apply bind_ext; auto.
      generalize (@nil (val * val)). revert w2. induction d as [|[a b] d IHd]; intros w2 acc; auto.
      apply bind_ext; [now apply try_ext|]. intros k' w3. apply bind_ext; [now apply try_ext|]. intros x' w4.
      destruct (hashable k'); auto.
    - revert w. induction IH as [|q ps Hq Hps IHps]; intros w; cbn [map]; auto. apply try_ext; auto. intros e w1.
      destruct (is_generic e); auto.
  Qed.
  Lemma take_first_ext (f g : val -> M bool) l : forall w, (forall a w1, f a w1 = g a w1) -> take_first f l w = take_first g l w.
  Proof.
    induction l as [|y l IH]; intros w H; cbn [take_first]; [reflexivity|]. apply bind_ext; auto. intros [|] w1; auto. apply bind_ext; auto.
  Qed.
  Lemma equal_no_limits p : forall a b w, p_equal rec p a b w = p_equal rec (no_limits p) a b w.
  Proof.
    induction p as [t|k q mn mx co IH|kp vp co IHk IHv|si ps IH|cid] using ptype_ind'; intros a b w; cbn [no_limits p_equal]; auto.
    - assert (G : try_ (let* la := lift (py_iter a) in
              let* lb := lift (py_iter b) in
              if negb (Nat.eqb (length la) (length lb)) then ret false
              else let* bs := mapM (fun xy => p_equal rec q (fst xy) (snd xy)) (combine la lb) in
                   ret (forallb (fun b => b) bs))
             (fun e => match e with ExType => ret false | _ => throw e end) w =
        try_ (let* la := lift (py_iter a) in
              let* lb := lift (py_iter b) in
              if negb (Nat.eqb (length la) (length lb)) then ret false
              else let* bs := mapM (fun xy => p_equal rec (no_limits q) (fst xy) (snd xy)) (combine la lb) in
                   ret (forallb (fun b => b) bs))
             (fun e => match e with ExType => ret false | _ => throw e end) w).
      { apply try_ext; auto. apply bind_ext; auto. intros la w1. apply bind_ext; auto. intros lb w2. destruct negb; auto.
        apply bind_ext; auto. apply mapM_ext. intros xy w3. apply IH. }
      destruct k; try exact G. clear G. apply try_ext; auto. apply bind_ext; auto. intros la w1. apply bind_ext; auto. intros lb w2.
      destruct negb; auto.
      assert (G : (let* rest := (fix go (la copy : list val) : M (list val) :=
                         match la with
                         | [] => ret copy
                         | x :: r =>
                             let* o := take_first (fun y => p_equal rec q x y) copy in
                             go r (match o with Some c => c | None => copy end)
                         end) la lb in
                       ret (Nat.eqb (length rest) 0)) w2 =
        (let* rest := (fix go (la copy : list val) : M (list val) :=
                         match la with
                         | [] => ret copy
                         | x :: r =>
                             let* o := take_first (fun y => p_equal rec (no_limits q) x y) copy in
                             go r (match o with Some c => c | None => copy end)
                         end) la lb in
                       ret (Nat.eqb (length rest) 0)) w2).
      { apply bind_ext; auto. revert lb w2. induction la as [|x la IHla]; intros lb w2; auto. apply bind_ext; auto.
        apply take_first_ext. intros y w3. apply IH. }
      destruct b; auto.
    - apply try_ext; auto. destruct a; auto. destruct b; auto. destruct negb; auto. apply bind_ext; auto. apply mapM_ext.
      intros [k x] w1. destruct vd_get; auto.
    - revert w. induction IH as [|q ps Hq Hps IHps]; intros w; cbn [map anyM]; auto. apply bind_ext; auto. intros [|] w1; auto.
  Qed.
  Lemma set_no_limits p l name v w : prop_fset E C rec p l name v w = prop_fset E C rec (no_limits p) l name v w.
  Proof.
    unfold prop_fset. apply bind_ext.
    - destruct (is_undef v); auto. apply validate_no_limits.
    - intros v1 w1. unfold has_set. apply bind_ext; auto. intros sid w2. apply bind_ext; auto. intros i w3. cbv zeta.
      apply bind_ext; auto. intros v2 w4. apply bind_ext; auto. intros _ w5. apply bind_ext; auto. intros _ w6. apply bind_ext; auto.
      destruct (_ && _); auto. destruct (_ || _); auto. apply bind_ext; auto. apply equal_no_limits.
  Qed.
End Limits.
Lemma assign_no_limits E C U n l name d v w : declares C w l name d -> pd_kind d = KProp ->
  exec E C U (S n) (COp (OSet l name v)) w = prop_fset E C (exec E C U n) (no_limits (pd_type d)) l name v w.
Proof.
  intros (c & (i & Hi & Hc) & Hd) Hk. rewrite <- set_no_limits. change (exec E C U (S n) (COp (OSet l name v)) w) with (has_setattr E C U (exec E C U n) l name v w).
  unfold has_setattr, inst_class, bind at 1 2, get_inst, class_of, lift. rewrite Hi, Hc, Hd, Hk. reflexivity.
Qed.
