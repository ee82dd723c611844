(** Lemmas about container and union validation. *)
From Verif Require Import World WorldFrame WorldSpec AccessSpec WorldInv WorldSet.
Local Open Scope string_scope.
Local Open Scope list_scope.
Local Open Scope nat_scope.

Lemma bind_eq {A B} (m : M A) (k : A -> M B) w a w1 : m w = (Ok a, w1) -> bind m k w = k a w1.
Proof. intros H. unfold bind. now rewrite H. Qed.
Lemma bind_eq_exc {A B} (m : M A) (k : A -> M B) w e w1 : m w = (Exc e, w1) -> bind m k w = (Exc e, w1).
Proof. intros H. unfold bind. now rewrite H. Qed.

Lemma mapM_each {A B} (f : A -> M B) l w bs w' :
  mapM f l w = (Ok bs, w') <-> each (fun x wa y wb => f x wa = (Ok y, wb)) l w bs w'.
Proof.
  split.
  - revert w bs w'. induction l as [|x l IH]; intros w bs w' H; simpl in H.
    + injection H as <- <-. constructor.
    + apply bind_ok in H as (y & w1 & H1 & H). apply bind_ok in H as (ys & w2 & H2 & H).
      injection H as <- <-. econstructor; eauto.
  - induction 1; simpl; [reflexivity|]. rewrite (bind_eq _ _ _ _ _ H), (bind_eq _ _ _ _ _ IHeach). reflexivity.
Qed.
Lemma mapM_exc {A B} (f : A -> M B) xs x ys w bs w1 e w2 :
  each (fun x wa y wb => f x wa = (Ok y, wb)) xs w bs w1 -> f x w1 = (Exc e, w2) ->
  mapM f (xs ++ x :: ys) w = (Exc e, w2).
Proof.
  induction 1 as [w|x' xs w y w1' ys' w3 H1 H2 IH]; intros Hx; simpl.
  - now apply bind_eq_exc.
  - rewrite (bind_eq _ _ _ _ _ H1). apply bind_eq_exc. auto.
Qed.
Lemma try_ok {A} (m : M A) h w a w' :
  (forall e w1, m w = (Exc e, w1) -> forall b w2, h e w1 <> (Ok b, w2)) ->
  (try_ m h w = (Ok a, w') <-> m w = (Ok a, w')).
Proof.
  intros H. unfold try_. destruct (m w) as [[b|e] w1] eqn:Em; [reflexivity|].
  split; intros K; [exfalso; eapply H; eauto|discriminate].
Qed.
Lemma hook_ok io ts w r w' : hook io ts w = (r, w') -> exists r0 : res unit, r = r0.
Proof. eauto. Qed.
Lemma verror_not_ok {A} s n io w (b : A) w2 : verror s n io w <> (Ok b, w2).
Proof.
  unfold verror. intros H. apply bind_ok in H as (a & w1 & _ & H). discriminate.
Qed.
Lemma each_impl {A B} (f g : A -> world -> B -> world -> Prop) l w bs w' :
  (forall x wa y wb, f x wa y wb -> g x wa y wb) -> each f l w bs w' -> each g l w bs w'.
Proof. intros H. induction 1; econstructor; eauto. Qed.

Lemma py_set_distinct l s : py_set l = Ok s -> distinct_of l s.
Proof.
  unfold py_set. destruct (forallb hashable l); [|discriminate]. intros [= <-].
  assert (G : forall l acc, let s := dedup l acc in
     (forall x, In x s -> In x acc \/ In x l) /\
     (forall x, In x acc -> In x s) /\
     (forall x, In x l -> exists y, In y s /\ (y = x \/ py_eq y x = true))).
  { clear. induction l as [|x l IH]; intros acc; simpl; [intuition|].
    destruct (mem_val x acc) eqn:Em.
    - destruct (IH acc) as (H1 & H2 & H3). split; [intros y Hy; destruct (H1 y Hy); auto|]. split; auto.
      intros y [<-|Hy]; auto. unfold mem_val in Em. apply existsb_exists in Em as (z & Hz & Ez). exists z. split; [apply H2; exact Hz|right; exact Ez].
    - destruct (IH (acc ++ [x])) as (H1 & H2 & H3). split.
      + intros y Hy. destruct (H1 y Hy) as [H|H]; auto. apply in_app_iff in H as [H|[<-|[]]]; auto.
      + split; [intros y Hy; apply H2; apply in_app_iff; auto|].
        intros y [<-|Hy]; auto. exists x. split; auto. apply H2. apply in_app_iff. right. now left. }
  destruct (G l []) as (H1 & _ & H3). destruct (dedup_spec (fun _ => True) l []) as [_ D]; [apply Forall_forall; auto|constructor|constructor|].
  split; [exact D|]. split; auto. intros x Hx. destruct (H1 x Hx) as [[]|]; auto.
Qed.

Section Containers.
  Variable E : env.
  Variable C : ctable.
  Variable rec : call -> M val.
  Notation validate := (p_validate E C rec).

  Definition item_try (q : ptype) (io : option loc) (name : string) (x : val) : M val :=
    try_ (validate q io name x) (fun e => if is_value_error e then perror name io else throw e).
  Lemma item_ok q io name x w y w' :
    item_try q io name x w = (Ok y, w') <-> validate q io name x w = (Ok y, w').
  Proof.
    apply try_ok. intros e w1 _ b w2. destruct (is_value_error e); [apply verror_not_ok|discriminate].
  Qed.

  Lemma offered_items k co v :
    (exists items, offered k co v items /\ py_iter (if co && negb (is_container v) then VList [v] else v) = Ok items /\
       negb co && negb (is_kind k v) = false) \/
    (co = false /\ is_kind k v = false /\ forall items, ~ offered k co v items).
  Proof.
    destruct co.
    - left. destruct v; simpl; eexists; (split; [reflexivity|split; reflexivity]).
    - destruct k, v; simpl; try (right; split; [reflexivity|]; split; [reflexivity|]; intros items; unfold offered, of_kind; discriminate);
        left; eexists; (split; [reflexivity|split; reflexivity]).
  Qed.
  Lemma offered_fun k co v a b : offered k co v a -> offered k co v b -> a = b.
  Proof.
    unfold offered. destruct co; [destruct (elements v); congruence|].
    unfold of_kind. intros -> H. destruct k; congruence.
  Qed.

  Lemma seq_step k q mn mx co io name v w items :
    offered k co v items ->
    validate (PSeq k q mn mx co) io name v w =
      (let* out := mapM (item_try q io name) items in lift (build k out)) w.
  Proof.
    intros Ho. destruct (offered_items k co v) as [(it & H1 & H2 & H3)|(-> & _ & H)]; [|exfalso; eapply H; eauto].
    rewrite (offered_fun _ _ _ _ _ Ho H1). simpl. rewrite H3. unfold bind at 1. simpl.
    unfold bind at 1, lift at 1. rewrite H2. reflexivity.
  Qed.
  Lemma seq_unoffered k q mn mx co io name v w : (forall items, ~ offered k co v items) ->
    exists r w', validate (PSeq k q mn mx co) io name v w = (Exc r, w') /\
      (perror name io : M val) w = (Exc r, w').
  Proof.
    intros Hn. destruct (offered_items k co v) as [(it & H1 & _)|(-> & Hk & _)]; [exfalso; eapply Hn; eauto|].
    simpl. rewrite Hk. simpl. unfold bind at 1.
    destruct ((perror name io : M unit) w) as [[x|r] w1] eqn:Ep.
    - exfalso. eapply verror_not_ok. exact Ep.
    - exists r, w1. split; auto. unfold perror, verror, bind in *.
      destruct (hook io _ w) as [[[]|e] w2]; injection Ep as <- <-; reflexivity.
  Qed.

  Lemma seq_valid k q mn mx co io name v w v' w' :
    validate (PSeq k q mn mx co) io name v w = (Ok v', w') <->
    exists items outs, offered k co v items /\
      each (fun x wa y wb => validate q io name x wa = (Ok y, wb)) items w outs w' /\ build k outs = Ok v'.
  Proof.
    split.
    - intros H. destruct (offered_items k co v) as [(it & H1 & _)|(-> & Hk & Hn)].
      + rewrite (seq_step _ _ _ _ _ _ _ _ _ _ H1) in H. apply bind_ok in H as (outs & w1 & H2 & H3).
        injection H3 as H3 <-. exists it, outs. split; [exact H1|]. split; [|exact H3].
        apply mapM_each in H2. eapply each_impl; [|exact H2]. intros x wa y wb. apply item_ok.
      + destruct (seq_unoffered k q mn mx false io name v w Hn) as (e & w1 & K & _). congruence.
    - intros (items & outs & H1 & H2 & H3). rewrite (seq_step _ _ _ _ _ _ _ _ _ _ H1).
      assert (H4 : mapM (item_try q io name) items w = (Ok outs, w')).
      { apply mapM_each. eapply each_impl; [|exact H2]. intros x wa y wb. apply item_ok. }
      rewrite (bind_eq _ _ _ _ _ H4). unfold lift. now rewrite H3.
  Qed.
  Lemma build_holds k outs v : build k outs = Ok v -> holds k outs v.
  Proof.
    destruct k; simpl; [congruence|congruence|]. destruct (py_set outs) eqn:Es; [|discriminate].
    intros [= <-]. eexists. split; [reflexivity|]. now apply py_set_distinct.
  Qed.

  Lemma seq_bad_item k q mn mx co io name v xs bad ys w outs w1 e w2 :
    offered k co v (xs ++ bad :: ys) ->
    each (fun x wa y wb => validate q io name x wa = (Ok y, wb)) xs w outs w1 ->
    validate q io name bad w1 = (Exc e, w2) ->
    if is_value_error e
    then exists r w3, (perror name io : M val) w2 = (Exc r, w3) /\ validate (PSeq k q mn mx co) io name v w = (Exc r, w3)
    else validate (PSeq k q mn mx co) io name v w = (Exc e, w2).
  Proof.
    intros Ho H1 H2. rewrite (seq_step _ _ _ _ _ _ _ _ _ _ Ho).
    assert (H3 : each (fun x wa y wb => item_try q io name x wa = (Ok y, wb)) xs w outs w1).
    { eapply each_impl; [|exact H1]. intros x wa y wb. apply item_ok. }
    assert (H4 : item_try q io name bad w1 = (if is_value_error e then (perror name io : M val) w2 else (Exc e, w2))).
    { unfold item_try, try_. rewrite H2. now destruct (is_value_error e). }
    destruct (is_value_error e).
    - destruct ((perror name io : M val) w2) as [[b|r] w3] eqn:Ep; [exfalso; eapply verror_not_ok; exact Ep|].
      exists r, w3. split; auto. apply bind_eq_exc. eapply mapM_exc; eauto.
    - apply bind_eq_exc. eapply mapM_exc; eauto.
  Qed.

  (** ** Dictionaries *)
  Notation entry_act := (entry_accepted E C rec).
  Fixpoint add_all (ps : list (val * val)) (acc : list (val * val)) : list (val * val) :=
    match ps with [] => acc | (k, v) :: r => add_all r (vd_set acc k v) end.

  Lemma vd_set_in d k v : forall k0 v0, In (k0, v0) (vd_set d k v) ->
    In (k0, v0) d \/ (v0 = v /\ (k0 = k \/ In k0 (map fst d))).
  Proof.
    induction d as [|[k' v'] d IH]; simpl; intros k0 v0 H.
    - destruct H as [[= <- <-]|[]]. auto.
    - destruct (py_eq k' k); destruct H as [H|H].
      + injection H as <- <-. auto.
      + auto.
      + injection H as <- <-. auto.
      + destruct (IH _ _ H) as [K|(-> & [->|K])]; auto.
  Qed.
  Lemma vd_set_keys d k v : map fst (vd_set d k v) =
    if existsb (fun k' => py_eq k' k) (map fst d) then map fst d else map fst d ++ [k].
  Proof.
    induction d as [|[k' v'] d IH]; simpl; auto. destruct (py_eq k' k); simpl; auto.
    rewrite IH. now destruct (existsb _ _).
  Qed.
  Lemma distinct_keys_map d : distinct_keys d <-> ForallOrdPairs (fun a b => py_eq a b = false) (map fst d).
  Proof.
    unfold distinct_keys. induction d as [|[k v] d IH]; simpl; [split; constructor|].
    split; intros H; inversion H; subst; constructor.
    - apply Forall_map. exact H2.
    - now apply IH.
    - now apply Forall_map in H2.
    - now apply IH.
  Qed.
  Lemma fop_snoc (P : val -> val -> Prop) l x : ForallOrdPairs P (l ++ [x]) <-> ForallOrdPairs P l /\ Forall (fun y => P y x) l.
  Proof.
    induction l as [|y l IH]; simpl.
    - split; [intros _; split; constructor|intros _; repeat constructor].
    - split.
      + intros H; inversion H; subst. apply Forall_app in H2 as [H2 H4]. apply IH in H3 as [H3 H5].
        inversion H4; subst. split; constructor; auto.
      + intros [H K]; inversion H; inversion K; subst. constructor; [apply Forall_app; auto|]. apply IH. auto.
  Qed.
  Lemma vd_set_distinct d k v : distinct_keys d -> distinct_keys (vd_set d k v).
  Proof.
    rewrite !distinct_keys_map, vd_set_keys. intros H. destruct (existsb _ _) eqn:Ex; auto.
    apply fop_snoc. split; auto. apply Forall_forall. intros y Hy. destruct (py_eq y k) eqn:Ey; auto.
    exfalso. assert (existsb (fun k' => py_eq k' k) (map fst d) = true) by (apply existsb_exists; eauto). congruence.
  Qed.
  Lemma vd_set_new d k v : Forall (fun k' => py_eq k' k = false) (map fst d) -> vd_set d k v = d ++ [(k, v)].
  Proof.
    induction d as [|[k' v'] d IH]; simpl; intros H; auto. inversion H; subst. rewrite H2, IH; auto.
  Qed.
  Lemma add_all_from ps : forall acc, distinct_keys acc ->
    distinct_keys (add_all ps acc) /\
    (forall k v, In (k, v) (add_all ps acc) ->
       (In k (map fst acc) \/ In k (map fst ps)) /\ (In v (map snd acc) \/ In v (map snd ps))) /\
    (forall k, In k (map fst acc) -> In k (map fst (add_all ps acc))) /\
    (forall k, In k (map fst ps) -> exists k', In k' (map fst (add_all ps acc)) /\ (k' = k \/ py_eq k' k = true)) /\
    (distinct_keys (acc ++ ps) -> add_all ps acc = acc ++ ps).
  Proof.
    induction ps as [|[k v] ps IH]; intros acc Ha; simpl.
    - split; [exact Ha|]. split; [intros k v H; split; left; [apply (in_map fst _ _ H)|apply (in_map snd _ _ H)]|].
      split; auto. split; [intros k []|]. now rewrite app_nil_r.
    - destruct (IH (vd_set acc k v)) as (H1 & H2 & H3 & H4 & H5); [now apply vd_set_distinct|].
      split; [exact H1|]. split; [|split; [|split]].
      + intros k0 v0 H0. destruct (H2 _ _ H0) as [A B]. split.
        * destruct A as [A|A]; auto. rewrite vd_set_keys in A. destruct (existsb _ _); auto.
          apply in_app_iff in A as [A|[<-|[]]]; auto.
        * destruct B as [B|B]; auto. apply in_map_iff in B as ([k1 v1] & <- & B).
          apply vd_set_in in B as [B|(-> & _)]; simpl; auto. left. apply (in_map snd _ _ B).
      + intros k0 H0. apply H3. rewrite vd_set_keys. destruct (existsb _ _); auto. apply in_app_iff. auto.
      + intros k0 [<-|H0]; auto. destruct (existsb (fun k' => py_eq k' k) (map fst acc)) eqn:Ex.
        * pose proof Ex as Ex'. apply existsb_exists in Ex' as (k' & K1 & K2). exists k'. split; auto.
          apply H3. rewrite vd_set_keys, Ex. auto.
        * exists k. split; auto. apply H3. rewrite vd_set_keys, Ex. apply in_app_iff. right. now left.
      + intros Hd. assert (Hn : vd_set acc k v = acc ++ [(k, v)]).
        { apply vd_set_new. clear - Hd. induction acc as [|[k' v'] acc IH]; simpl; constructor.
          - unfold distinct_keys in Hd. simpl in Hd. inversion Hd; subst. apply Forall_app in H1 as [_ H1]. now inversion H1.
          - apply IH. unfold distinct_keys in *. simpl in Hd. now inversion Hd. }
        rewrite H5; rewrite Hn; rewrite <- app_assoc; auto.
  Qed.

  Lemma vd_set_last d k v : exists k', In (k', v) (vd_set d k v) /\ (k' = k \/ py_eq k' k = true).
  Proof.
    induction d as [|[k1 v1] d (k' & H1 & H2)]; simpl; [eauto|].
    destruct (py_eq k1 k) eqn:Ek; [exists k1; simpl; auto|]. exists k'. simpl. auto.
  Qed.
  Lemma add_all_app ps qs : forall acc, add_all (ps ++ qs) acc = add_all qs (add_all ps acc).
  Proof. induction ps as [|[k v] ps IH]; simpl; auto. Qed.
  Lemma add_all_dict out : dict_from out (add_all out []).
  Proof.
    destruct (add_all_from out []) as (A & B & _ & D & F); [constructor|].
    split; [exact A|]. split; [|split; [exact D|split; [exact F|]]].
    - intros k v Hk. destruct (B k v Hk) as [[[]|K1] [[]|K2]]. auto.
    - intros before k v ->. rewrite add_all_app. simpl. apply vd_set_last.
  Qed.
  Lemma dict_valid kp vp co io name d w v' w' :
    validate (PDict kp vp co) io name (VDict d) w = (Ok v', w') <->
    exists out, each (entry_act kp vp io name) d w out w' /\ v' = VDict (add_all out []).
  Proof.
    simpl. rewrite andb_false_r. unfold bind at 1. simpl. unfold bind at 1. simpl.
    match goal with |- bind (?f d []) _ w = _ <-> _ => set (go := f) end.
    assert (G : forall d acc w r w', go d acc w = (Ok r, w') <->
              exists out, each (entry_act kp vp io name) d w out w' /\ r = add_all out acc).
    { clear. induction d as [|[k x] d IH]; intros acc w r w'.
      - split; [intros H; injection H as <- <-; exists []; split; [constructor|reflexivity]|].
        intros (out & H1 & ->). inversion H1; subst. reflexivity.
      - simpl. fold (item_try kp io name k) (item_try vp io name x). split.
        + intros H. apply bind_ok in H as (k' & w1 & H1 & H). apply bind_ok in H as (x' & w2 & H2 & H).
          apply item_ok in H1, H2. destruct (hashable k') eqn:Eh; [|discriminate].
          apply IH in H as (out & H3 & ->). exists ((k', x') :: out). split; [|reflexivity].
          econstructor; [|exact H3]. exists w1. auto.
        + intros (out & H1 & ->). inversion H1 as [|x0 xs w0 [k' x'] w1 ys w2 Ha Hr]; subst.
          destruct Ha as (wm & A1 & A2 & A3). apply item_ok in A1, A2. cbn [fst snd] in *.
          rewrite (bind_eq _ _ _ _ _ A1), (bind_eq _ _ _ _ _ A2), A3. apply IH. eauto. }
    split.
    - intros H. apply bind_ok in H as (out & w1 & H1 & H2). injection H2 as <- <-.
      apply G in H1 as (o & H1 & ->). eauto.
    - intros (out & H1 & ->). rewrite (bind_eq (go d []) _ w (add_all out []) w'); [reflexivity|]. apply G. eauto.
  Qed.

  Lemma dict_from_valid kp vp co io name d w v' w' :
    validate (PDict kp vp co) io name (VDict d) w = (Ok v', w') ->
    exists out d', each (entry_act kp vp io name) d w out w' /\ v' = VDict d' /\ dict_from out d'.
  Proof.
    intros H. apply dict_valid in H as (out & H1 & ->). exists out, (add_all out []). split; [exact H1|].
    split; [reflexivity|]. apply add_all_dict.
  Qed.

  (** ** Union *)
  Lemma union_valid si ps io name v w v' w' :
    validate (PUnion si ps) io name v w = (Ok v', w') <->
    exists pre q post w1, ps = pre ++ q :: post /\
      each (fun p wa (_ : unit) wb => rejects (validate p io name v) wa wb) pre w (map (fun _ => tt) pre) w1 /\
      validate q io name v w1 = (Ok v', w').
  Proof.
    simpl. match goal with |- ?f ps w = _ <-> _ => set (go := f) end.
    revert w. induction ps as [|q ps IH]; intros w.
    - split; [intros H; exfalso; eapply verror_not_ok; exact H|].
      intros (pre & q & post & w1 & H & _). destruct pre; discriminate.
    - simpl. unfold try_. destruct (validate q io name v w) as [[b|e] w1] eqn:Eq.
      + split.
        * intros [= <- <-]. exists [], q, ps, w. split; [reflexivity|]. split; [constructor|exact Eq].
        * intros (pre & q' & post & w2 & H1 & H2 & H3). destruct pre as [|p pre].
          { injection H1 as <- <-. inversion H2; subst. congruence. }
          injection H1 as <- ->. simpl in H2. inversion H2 as [|x0 xs w0 y w3 ys w4 (e & Ha & _) Hr]; subst. congruence.
      + destruct (is_generic e) eqn:Eg.
        * rewrite IH. split.
          { intros (pre & q' & post & w2 & -> & H2 & H3). exists (q :: pre), q', post, w2. split; [reflexivity|].
            split; [|exact H3]. simpl. econstructor; [|exact H2]. exists e. auto. }
          { intros (pre & q' & post & w2 & H1 & H2 & H3). destruct pre as [|p pre].
            - injection H1 as <- <-. inversion H2; subst. congruence.
            - injection H1 as <- ->. exists pre, q', post, w2. split; [reflexivity|]. split; [|exact H3].
              simpl in H2. inversion H2 as [|x0 xs w0 y w3 ys w4 (e' & Ha & _) Hr]; subst. congruence. }
        * split; [discriminate|]. intros (pre & q' & post & w2 & H1 & H2 & H3). exfalso.
          destruct pre as [|p pre].
          { injection H1 as <- <-. inversion H2; subst. congruence. }
          injection H1 as <- ->. simpl in H2. inversion H2 as [|x0 xs w0 y w3 ys w4 (e' & Ha & Hg) Hr]; subst. congruence.
  Qed.

  (** all alternatives reject: [self.error] *)
  Lemma union_rejects si ps io name v w w1 :
    each (fun p wa (_ : unit) wb => rejects (validate p io name v) wa wb) ps w (map (fun _ => tt) ps) w1 ->
    validate (PUnion si ps) io name v w = (perror name io : M val) w1.
  Proof.
    simpl. match goal with |- _ -> ?f ps w = _ => set (go := f) end.
    revert w. induction ps as [|q ps IH]; intros w H; simpl in H.
    - inversion H; subst. reflexivity.
    - inversion H as [|x0 xs w0 y w3 ys w4 (e & Ha & Hg) Hr]; subst. simpl. unfold try_. rewrite Ha, Hg. auto.
  Qed.
  (** any other exception comes from an alternative and passes through *)
  Lemma union_exc si ps io name v w e w' :
    validate (PUnion si ps) io name v w = (Exc e, w') ->
    (exists w1, each (fun p wa (_ : unit) wb => rejects (validate p io name v) wa wb) ps w (map (fun _ => tt) ps) w1 /\
       (perror name io : M val) w1 = (Exc e, w')) \/
    (is_generic e = false /\ exists pre q post w1, ps = pre ++ q :: post /\
      each (fun p wa (_ : unit) wb => rejects (validate p io name v) wa wb) pre w (map (fun _ => tt) pre) w1 /\
      validate q io name v w1 = (Exc e, w')).
  Proof.
    simpl. match goal with |- ?f ps w = _ -> _ => set (go := f) end.
    revert w. induction ps as [|q ps IH]; intros w H; simpl in H.
    - left. exists w. split; [constructor|exact H].
    - unfold try_ in H. destruct (validate q io name v w) as [[b|e0] w1] eqn:Eq; [discriminate|].
      destruct (is_generic e0) eqn:Eg.
      + apply IH in H as [(w2 & H1 & H2)|(Hg & pre & q' & post & w2 & -> & H2 & H3)].
        * left. exists w2. split; [|exact H2]. simpl. econstructor; [|exact H1]. exists e0. auto.
        * right. split; [exact Hg|]. exists (q :: pre), q', post, w2. split; [reflexivity|]. split; [|exact H3].
          simpl. econstructor; [|exact H2]. exists e0. auto.
      + injection H as <- <-. right. split; [exact Eg|]. exists [], q, ps, w. split; [reflexivity|].
        split; [constructor|exact Eq].
  Qed.

  (** ** Errors *)
  Lemma perror_says {A} name l w : nth_error (w_heap w) l <> None ->
    exists w', (perror name (Some l) : M A) w = (Exc (ExValidation [ET (Some "invalid") (Some name) (Some l)]), w') /\ hooks_only w w'.
  Proof.
    intros Hl. unfold perror, verror, bind, hook, get_inst, bind, throw. destruct (nth_error (w_heap w) l) as [i|] eqn:Ei; [|congruence].
    assert (K : hooks_only w w) by (split; auto; exists []; split; [reflexivity|constructor]).
    destruct (i_vflag i) as [[]|]; eexists; (split; [reflexivity|]); auto.
    split; simpl; auto. eexists [_]. split; [reflexivity|]. constructor; [exact I|constructor].
  Qed.
  Lemma seq_complete k q mn mx co io name v w items outs w' :
    offered k co v items ->
    each (fun x wa y wb => validate q io name x wa = (Ok y, wb)) items w outs w' ->
    (k = KSet -> Forall (fun y => hashable y = true) outs) ->
    exists v', validate (PSeq k q mn mx co) io name v w = (Ok v', w') /\ holds k outs v'.
  Proof.
    intros H1 H2 H3. assert (exists v', build k outs = Ok v') as [v' Hb].
    { destruct k; simpl; eauto. unfold py_set.
      assert (forallb hashable outs = true) as -> by (apply forallb_forall; intros x Hx; specialize (H3 eq_refl); rewrite Forall_forall in H3; auto).
      simpl. eauto. }
    exists v'. split; [|now apply build_holds]. apply seq_valid. eauto.
  Qed.
  Lemma seq_sound k q mn mx co io name v w v' w' :
    validate (PSeq k q mn mx co) io name v w = (Ok v', w') ->
    exists items outs, offered k co v items /\
      each (fun x wa y wb => validate q io name x wa = (Ok y, wb)) items w outs w' /\ holds k outs v'.
  Proof. intros H. apply seq_valid in H as (i & o & H1 & H2 & H3). exists i, o. eauto using build_holds. Qed.
  Lemma seq_wrong k q mn mx co name l v w : nth_error (w_heap w) l <> None -> (forall items, ~ offered k co v items) ->
    exists w', validate (PSeq k q mn mx co) (Some l) name v w =
      (Exc (ExValidation [ET (Some "invalid") (Some name) (Some l)]), w') /\ hooks_only w w'.
  Proof.
    intros Hl Hn. destruct (seq_unoffered k q mn mx co (Some l) name v w Hn) as (r & w' & H1 & H2).
    destruct (@perror_says val name l w Hl) as (w2 & H3 & H4). rewrite H2 in H3. injection H3 as -> ->. eauto.
  Qed.
  Lemma seq_item_error k q mn mx co name l v xs bad ys w outs w1 e w2 : nth_error (w_heap w2) l <> None ->
    offered k co v (xs ++ bad :: ys) ->
    each (fun x wa y wb => validate q (Some l) name x wa = (Ok y, wb)) xs w outs w1 ->
    validate q (Some l) name bad w1 = (Exc e, w2) ->
    exists e' w', validate (PSeq k q mn mx co) (Some l) name v w = (Exc e', w') /\ hooks_only w2 w' /\
      e' = if is_value_error e then ExValidation [ET (Some "invalid") (Some name) (Some l)] else e.
  Proof.
    intros Hl H1 H2 H3. pose proof (seq_bad_item k q mn mx co (Some l) name v xs bad ys w outs w1 e w2 H1 H2 H3) as H.
    destruct (is_value_error e).
    - destruct H as (r & w3 & K1 & K2). destruct (@perror_says val name l w2 Hl) as (w4 & K3 & K4). rewrite K1 in K3.
      injection K3 as -> ->. eauto.
    - exists e, w2. split; [exact H|]. split; [|reflexivity]. split; auto. exists []. split; [reflexivity|constructor].
  Qed.
  Lemma dict_complete kp vp co io name d w out w' :
    each (entry_act kp vp io name) d w out w' ->
    exists d', validate (PDict kp vp co) io name (VDict d) w = (Ok (VDict d'), w') /\ dict_from out d'.
  Proof.
    intros H. assert (Hv : validate (PDict kp vp co) io name (VDict d) w = (Ok (VDict (add_all out [])), w')) by (apply dict_valid; eauto).
    exists (add_all out []). split; [exact Hv|]. apply add_all_dict.
  Qed.
  Lemma dict_wrong kp vp name l v w : nth_error (w_heap w) l <> None -> (forall d, v <> VDict d) ->
    exists w', validate (PDict kp vp false) (Some l) name v w =
      (Exc (ExValidation [ET (Some "invalid") (Some name) (Some l)]), w') /\ hooks_only w w'.
  Proof.
    intros Hl Hn. destruct (@perror_says unit name l w Hl) as (w2 & H3 & H4). exists w2. split; [|exact H4].
    destruct v; simpl; try (apply bind_eq_exc; exact H3). exfalso. eapply Hn; reflexivity.
  Qed.
  Lemma union_wrong si ps name l v w w1 : nth_error (w_heap w1) l <> None ->
    each (fun p wa (_ : unit) wb => rejects (validate p (Some l) name v) wa wb) ps w (map (fun _ => tt) ps) w1 ->
    exists w', validate (PUnion si ps) (Some l) name v w =
      (Exc (ExValidation [ET (Some "invalid") (Some name) (Some l)]), w') /\ hooks_only w1 w'.
  Proof.
    intros Hl H. rewrite (union_rejects si ps (Some l) name v w w1 H). apply perror_says. exact Hl.
  Qed.
  Lemma union_failure si ps io name v w e w' :
    validate (PUnion si ps) io name v w = (Exc e, w') ->
    (exists w1, each (fun p wa (_ : unit) wb => rejects (validate p io name v) wa wb) ps w (map (fun _ => tt) ps) w1) \/
    is_generic e = false /\
    (exists pre q post w1, ps = pre ++ q :: post /\
       each (fun p wa (_ : unit) wb => rejects (validate p io name v) wa wb) pre w (map (fun _ => tt) pre) w1 /\
       validate q io name v w1 = (Exc e, w')).
  Proof. intros H. apply union_exc in H as [(w1 & H & _)|H]; eauto. Qed.

  (** ** values that are made dictionaries *)
  Lemma iter_iff v l : py_iter v = Ok l <-> iterates v l.
  Proof. destruct v; simpl; split; intros H; try discriminate; try contradiction; try congruence. Qed.
  Lemma iter_exc v e : py_iter v = Exc e -> e = ExType.
  Proof. destruct v; simpl; congruence. Qed.
  Lemma pair_iff x p : pair_of x = Ok p <-> iterates x [fst p; snd p].
  Proof.
    unfold pair_of. rewrite <- iter_iff. destruct (py_iter x) as [[|a [|b [|]]]|]; destruct p as [c d]; simpl; split; congruence.
  Qed.
  Lemma all_pairs_iff l ps : all_pairs l = Ok ps <-> Forall2 (fun x p => iterates x [fst p; snd p]) l ps.
  Proof.
    revert ps. induction l as [|x l IH]; intros ps; simpl.
    - split; [intros [= <-]; constructor|inversion 1; reflexivity].
    - destruct (pair_of x) as [p|e] eqn:Ep; simpl.
      + destruct (all_pairs l) as [qs|e]; simpl.
        * split.
          -- intros [= <-]. constructor; [now apply pair_iff|now apply IH].
          -- inversion 1 as [|a b c d Ha Hr]; subst. apply pair_iff in Ha. apply IH in Hr. congruence.
        * split; [discriminate|]. inversion 1 as [|a b c d Ha Hr]; subst. apply IH in Hr. discriminate.
      + split; [discriminate|]. inversion 1 as [|a b c d Ha Hr]; subst. apply pair_iff in Ha. congruence.
  Qed.
  Lemma dict_of_pairs_iff ps : forall acc d, dict_of_pairs ps acc = Ok d <-> Forall (fun p => hashable (fst p) = true) ps /\ d = add_all ps acc.
  Proof.
    induction ps as [|[k x] ps IH]; intros acc d; simpl.
    - split; [intros [= <-]; auto|intros [_ ->]; reflexivity].
    - destruct (hashable k) eqn:Eh.
      + rewrite IH. split; intros [H1 H2]; (split; [|exact H2]); [now constructor|now inversion H1].
      + split; [discriminate|]. intros [H _]. inversion H; subst. simpl in *. congruence.
  Qed.
  Lemma py_dict_iff v d : (forall d, v <> VDict d) -> (py_dict v = Ok d <-> exists ps, gives_pairs v ps /\ d = add_all ps []).
  Proof.
    intros Hn. assert (H : py_dict v = rbind (py_iter v) (fun l => rbind (all_pairs l) (fun ps => dict_of_pairs ps []))).
    { destruct v; try reflexivity. now destruct (Hn l). }
    rewrite H. unfold gives_pairs. split.
    - destruct (py_iter v) as [l|] eqn:E1; [|discriminate]. simpl. destruct (all_pairs l) as [ps|] eqn:E2; [|discriminate]. simpl.
      intros E3. apply dict_of_pairs_iff in E3 as [E3 ->]. exists ps. split; [|reflexivity]. exists l.
      apply iter_iff in E1. apply all_pairs_iff in E2. auto.
    - intros (ps & (l & E1 & E2 & E3) & ->). apply iter_iff in E1. apply all_pairs_iff in E2. rewrite E1. simpl. rewrite E2. simpl.
      now apply dict_of_pairs_iff.
  Qed.
  Lemma py_dict_exc v e : py_dict v = Exc e -> e = ExType \/ e = ExValue.
  Proof.
    assert (G : rbind (py_iter v) (fun l => rbind (all_pairs l) (fun ps => dict_of_pairs ps [])) = Exc e -> e = ExType \/ e = ExValue).
    { destruct (py_iter v) as [l|e1] eqn:E1; simpl; [|apply iter_exc in E1; intros [= <-]; auto].
      destruct (all_pairs l) as [ps|e2] eqn:E2; simpl.
      - clear. generalize (@nil (val * val)). induction ps as [|[k x] ps IH]; intros acc; simpl; [discriminate|].
        destruct (hashable k); [apply IH|]. intros [= <-]. auto.
      - intros [= <-]. clear E1. revert e2 E2. induction l as [|x l IH]; simpl; intros e2 E2; [discriminate|].
        destruct (pair_of x) as [p|e1] eqn:E1; simpl in E2.
        + destruct (all_pairs l) as [ps|e3]; simpl in E2; [discriminate|]. injection E2 as <-. now apply IH.
        + injection E2 as <-. unfold pair_of in E1. destruct (py_iter x) as [[|a [|b [|]]]|e3] eqn:E3; try (injection E1 as <-; auto); try discriminate.
          apply iter_exc in E3. auto. }
    destruct v; try exact G. discriminate.
  Qed.
  Lemma dict_pairs kp vp io name v ps : (forall d, v <> VDict d) -> gives_pairs v ps ->
    exists d, dict_from ps d /\ forall w, validate (PDict kp vp true) io name v w = validate (PDict kp vp true) io name (VDict d) w.
  Proof.
    intros Hn Hp. exists (add_all ps []). split; [apply add_all_dict|]. intros w.
    assert (H : py_dict v = Ok (add_all ps [])) by (apply py_dict_iff; eauto).
    cbn [p_validate negb andb]. unfold bind at 1 4. cbn [ret]. rewrite H. reflexivity.
  Qed.
  Lemma dict_no_pairs kp vp name l v w : nth_error (w_heap w) l <> None -> (forall d, v <> VDict d) -> (forall ps, ~ gives_pairs v ps) ->
    exists w', validate (PDict kp vp true) (Some l) name v w =
      (Exc (ExValidation [ET (Some "invalid") (Some name) (Some l)]), w') /\ hooks_only w w'.
  Proof.
    intros Hl Hn Hp. destruct (py_dict v) as [d|e] eqn:Ed.
    { exfalso. apply py_dict_iff in Ed as (ps & Ed & _); [|exact Hn]. eapply Hp; eauto. }
    destruct (@perror_says (list (val * val)) name l w Hl) as (w' & H1 & H2). exists w'. split; [|exact H2].
    cbn [p_validate negb andb]. unfold bind at 1. cbn [ret]. rewrite Ed.
    apply py_dict_exc in Ed as [-> | ->]; apply bind_eq_exc; exact H1.
  Qed.
  (** one bad entry *)
  Definition blamed (e : exn) (name : string) (l : loc) : exn :=
    if is_value_error e then ExValidation [ET (Some "invalid") (Some name) (Some l)] else e.
  Lemma item_error q name l x w e w1 : nth_error (w_heap w1) l <> None -> validate q (Some l) name x w = (Exc e, w1) ->
    exists w', item_try q (Some l) name x w = (Exc (blamed e name l), w') /\ hooks_only w1 w'.
  Proof.
    intros Hl H. unfold item_try, try_, blamed. rewrite H. destruct (is_value_error e).
    - apply perror_says. exact Hl.
    - exists w1. split; [reflexivity|]. split; auto. exists []. split; [reflexivity|constructor].
  Qed.
  Lemma dict_entry_error kp vp co name l xs k x ys w outs w1 e w2 : nth_error (w_heap w2) l <> None ->
    each (entry_act kp vp (Some l) name) xs w outs w1 ->
    (validate kp (Some l) name k w1 = (Exc e, w2) \/
     exists k' wk, validate kp (Some l) name k w1 = (Ok k', wk) /\ validate vp (Some l) name x wk = (Exc e, w2)) ->
    exists w', validate (PDict kp vp co) (Some l) name (VDict (xs ++ (k, x) :: ys)) w = (Exc (blamed e name l), w') /\ hooks_only w2 w'.
  Proof.
    intros Hl H1 H2. simpl. rewrite andb_false_r. unfold bind at 1. simpl. unfold bind at 1. simpl.
    match goal with |- context [bind (?f _ []) _ w] => set (go := f) end.
    assert (G : forall acc, exists w', go (xs ++ (k, x) :: ys) acc w = (Exc (blamed e name l), w') /\ hooks_only w2 w').
    { induction H1 as [w|[k0 x0] xs w [k1 x1] wm outs w1 Ha Hr IH]; intros acc.
      - simpl. fold (item_try kp (Some l) name k) (item_try vp (Some l) name x). destruct H2 as [H2|(k' & wk & H2 & H3)].
        + destruct (item_error _ _ _ _ _ _ _ Hl H2) as (w' & A & B). exists w'. split; [|exact B]. now apply bind_eq_exc.
        + apply item_ok in H2. destruct (item_error _ _ _ _ _ _ _ Hl H3) as (w' & A & B). exists w'. split; [|exact B].
          rewrite (bind_eq _ _ _ _ _ H2). now apply bind_eq_exc.
      - destruct Ha as (wk & A1 & A2 & A3). apply item_ok in A1, A2. cbn [fst snd] in *.
        destruct (IH H2 (vd_set acc k1 x1)) as (w' & A & B). exists w'. split; [|exact B]. simpl.
        fold (item_try kp (Some l) name k0) (item_try vp (Some l) name x0).
        rewrite (bind_eq _ _ _ _ _ A1), (bind_eq _ _ _ _ _ A2), A3. exact A. }
    destruct (G []) as (w' & A & B). exists w'. split; [|exact B]. now apply bind_eq_exc.
  Qed.
End Containers.
