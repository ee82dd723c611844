(** Facts about links: assignments terminate whatever the links are. *)
From Verif Require Import World WorldFrame WorldSpec WorldInv WorldSet WorldFacts LeafFacts LinkSpec LinkFacts.
Local Open Scope string_scope.
Local Open Scope list_scope.
Local Open Scope nat_scope.

(** * Exceptions other than RecursionError *)
Definition nr (e : exn) : Prop := e <> ExRecursion.
Lemma nr_iter v e : py_iter v = Exc e -> nr e.
Proof. destruct v; cbn [py_iter]; try discriminate; intros K; injection K as <-; discriminate. Qed.
Lemma nr_build k l e : build k l = Exc e -> nr e.
Proof.
  destruct k; cbn [build]; try discriminate. unfold py_set. destruct forallb; cbn [rbind]; [discriminate|].
  intros K. injection K as <-. discriminate.
Qed.
Lemma nr_pairs ps : forall acc e, dict_of_pairs ps acc = Exc e -> nr e.
Proof.
  induction ps as [|[k v] ps IH]; intros acc e; cbn [dict_of_pairs]; [discriminate|]. destruct hashable; [apply IH|].
  intros K. injection K as <-. discriminate.
Qed.
Lemma nr_pair v e : pair_of v = Exc e -> nr e.
Proof.
  unfold pair_of. destruct (py_iter v) as [l|e'] eqn:K; [|intros Q; injection Q as <-; eapply nr_iter; eauto].
  destruct l as [|a [|b [|? ?]]]; try discriminate; intros Q; injection Q as <-; discriminate.
Qed.
Lemma nr_all_pairs l : forall e, all_pairs l = Exc e -> nr e.
Proof.
  induction l as [|x l IH]; intros e; cbn [all_pairs]; [discriminate|].
  destruct (pair_of x) as [p|e'] eqn:Ep; cbn [rbind]; [|intros Q; injection Q as <-; eapply nr_pair; eauto].
  destruct (all_pairs l) as [qs|e'] eqn:Eq; cbn [rbind]; [discriminate|]. intros Q. injection Q as <-. auto.
Qed.
Lemma nr_pydict v e : py_dict v = Exc e -> nr e.
Proof.
  assert (G : rbind (py_iter v) (fun l => rbind (all_pairs l) (fun ps => dict_of_pairs ps [])) = Exc e -> nr e).
  { destruct (py_iter v) as [l|e'] eqn:K; cbn [rbind]; [|intros Q; injection Q as <-; eapply nr_iter; eauto].
    destruct (all_pairs l) as [ps|e'] eqn:Kp; cbn [rbind]; [|intros Q; injection Q as <-; eapply nr_all_pairs; eauto].
    apply nr_pairs. }
  destruct v; cbn [py_dict]; try exact G. discriminate.
Qed.
Lemma nr_cast e k e' : nr e -> catch_cast e k = LExc e' -> nr e'.
Proof. intros H. destruct e; cbn; try discriminate; intros K; injection K as <-; exact H. Qed.
Lemma nr_complex e e' : nr e -> catch_complex e = LExc e' -> nr e'.
Proof. intros H. destruct e; cbn; try discriminate; intros K; injection K as <-; exact H. Qed.
Lemma nr_float_num n e : py_float_num n = Exc e -> nr e.
Proof. destruct n; cbn [py_float_num]; [|discriminate]. destruct fofZ; [discriminate|]. intros K; injection K as <-; discriminate. Qed.
Lemma nr_int v e : py_int v = Exc e -> nr e.
Proof.
  destruct v; cbn [py_int]; try discriminate; try (intros K; injection K as <-; discriminate).
  - destruct is_nan; [intros K; injection K as <-; discriminate|]. destruct is_inf; [intros K; injection K as <-; discriminate|discriminate].
  - destruct parse_int; [discriminate|intros K; injection K as <-; discriminate].
Qed.
Lemma nr_float E v e : py_float E v = Exc e -> nr e.
Proof.
  assert (G : match as_num v with Some n => py_float_num n | None => Exc ExType end = Exc e -> nr e).
  { destruct as_num; [apply nr_float_num|intros K; injection K as <-; discriminate]. }
  destruct v; try exact G. cbn [py_float]. destruct e_fparse; [discriminate|intros K; injection K as <-; discriminate].
Qed.
Lemma nr_cplx E v e : py_complex E v = Exc e -> nr e.
Proof.
  assert (G : match as_num v with Some n => rbind (py_float_num n) (fun f => Ok (f, fzero)) | None => Exc ExType end = Exc e -> nr e).
  { destruct as_num as [n|]; [|intros K; injection K as <-; discriminate].
    destruct (py_float_num n) eqn:En; cbn [rbind]; [discriminate|]. intros K; injection K as <-. eapply nr_float_num; eauto. }
  destruct v; try exact G; [discriminate|]. cbn [py_complex]. destruct e_cparse; [discriminate|intros K; injection K as <-; discriminate].
Qed.
Lemma nr_tolerance v n e : off_tolerance v n = Exc e -> nr e.
Proof. intros H. apply off_tolerance_exc in H. destruct H; subst; discriminate. Qed.
Lemma nr_cap v r i e : rbind (re_im v) (fun p =>
             rbind (absdiff (fst p) (NF r)) (fun d =>
             if ngt d (NF TOL) then Ok true else
             rbind (absdiff (snd p) (NF i)) (fun d' => Ok (ngt d' (NF TOL))))) = Exc e -> nr e.
Proof.
  destruct (re_im v) as [p|e'] eqn:Er; cbn [rbind].
  - destruct (absdiff (fst p) (NF r)) eqn:Ea; cbn [rbind]; [|intros K; injection K as <-; apply absdiff_exc in Ea; subst; discriminate].
    destruct (ngt _ _); [discriminate|]. destruct (absdiff (snd p) (NF i)) eqn:Eb; cbn [rbind]; [discriminate|].
    intros K; injection K as <-; apply absdiff_exc in Eb; subst; discriminate.
  - intros K; injection K as <-. destruct v; try discriminate; injection Er as <-; discriminate.
Qed.
Lemma leaf_nr E r t v e : leaf_validate E r t v = LExc e -> nr e.
Proof.
  destruct t; cbn [leaf_validate].
  - discriminate.
  - unfold bool_validate. destruct cast; [discriminate|]. destruct v; discriminate.
  - unfold int_validate. destruct (py_int v) as [z|e'] eqn:Ei; [|apply nr_cast; eapply nr_int; eauto].
    destruct (if cast then _ else _) as [[|]|e'] eqn:Et; [discriminate| |].
    + destruct in_bounds; discriminate.
    + destruct cast; [discriminate|]. apply nr_cast. eapply nr_tolerance; eauto.
  - unfold float_validate. destruct (py_float E v) as [z|e'] eqn:Ei; [|apply nr_cast; eapply nr_float; eauto].
    destruct (if cast then _ else _) as [[|]|e'] eqn:Et; [discriminate| |].
    + destruct in_bounds; discriminate.
    + destruct cast; [discriminate|]. apply nr_cast. eapply nr_tolerance; eauto.
  - unfold complex_validate. destruct (py_complex E v) as [[r0 i0]|e'] eqn:Ei; [|apply nr_complex; eapply nr_cplx; eauto].
    destruct (if cast then _ else _) as [[|]|e'] eqn:Et; [discriminate|discriminate|].
    destruct cast; [discriminate|]. apply nr_complex. eapply nr_cap; eauto.
  - unfold string_validate. destruct v; try discriminate. destruct (match so_regex o with Some _ => _ | None => _ end); discriminate.
  - unfold choice_validate. destruct v; try discriminate. destruct find as [[? ?]|]; discriminate.
  - assert (G : forall l, color_components l = LExc e -> nr e).
    { intros l. unfold color_components. destruct Nat.eqb; [|discriminate]. destruct forallb; discriminate. }
    unfold color_validate. destruct v; try discriminate; try apply G. cbv zeta. destruct hex_triple; [apply G|discriminate].
  - unfold date_validate. destruct v; try discriminate. destruct date_of_string; discriminate.
  - unfold uuid_validate. destruct v; discriminate.
Qed.
Lemma nr_leaf_equal t a b e : leaf_equal t a b = Exc e -> nr e.
Proof.
  assert (A : forall a b e, absdiff a b = Exc e -> nr e) by (intros x y e0 H; apply absdiff_exc in H; subst; discriminate).
  destruct t; cbn [leaf_equal]; try discriminate.
  - unfold float_equal. destruct (as_num a); [|discriminate]. destruct (as_num b); [|discriminate].
    destruct absdiff eqn:K; cbn [rbind]; [discriminate|]. intros Q. injection Q as <-. eapply A; eauto.
  - unfold complex_equal. destruct (re_im a) as [[ra ia]|]; [|discriminate]. destruct (re_im b) as [[rb ib]|]; [|discriminate].
    destruct (absdiff ra rb) eqn:K; cbn [rbind]; [|intros Q; injection Q as <-; eapply A; eauto].
    destruct (absdiff ia ib) eqn:K2; cbn [rbind]; [discriminate|]. intros Q. injection Q as <-. eapply A; eauto.
Qed.

(** * Validation and comparison do not recurse *)
Definition nvr {A} (m : M A) : Prop := forall w e w', m w = (Exc e, w') -> nr e.
Lemma nvr_ret {A} (a : A) : nvr (ret a).
Proof. intros w e w' K. discriminate. Qed.
Lemma nvr_throw {A} e : nr e -> nvr (@throw A e).
Proof. intros H w e' w' K. injection K as <- _. exact H. Qed.
Lemma nvr_lift {A} (r : res A) : (forall e, r = Exc e -> nr e) -> nvr (lift r).
Proof. intros H w e w' K. injection K as K _. auto. Qed.
Lemma nvr_bind {A B} (m : M A) (k : A -> M B) : nvr m -> (forall a, nvr (k a)) -> nvr (bind m k).
Proof. intros H K w e w' Em. unfold bind in Em. destruct (m w) as [[a|e1] w1] eqn:E1; [eapply K; eauto|]. injection Em as <- _. eapply H; eauto. Qed.
Lemma nvr_try {A} (m : M A) h : nvr m -> (forall e, nr e -> nvr (h e)) -> nvr (try_ m h).
Proof. intros H K w e w' Em. unfold try_ in Em. destruct (m w) as [[a|e1] w1] eqn:E1; [discriminate|]. eapply K; [eapply H|]; eauto. Qed.
Lemma nvr_mapM {A B} (f : A -> M B) l : (forall x, nvr (f x)) -> nvr (mapM f l).
Proof. intros H. induction l; cbn [mapM]; [apply nvr_ret|]. apply nvr_bind; auto. intros. apply nvr_bind; auto. intros. apply nvr_ret. Qed.
Lemma nvr_hook io ts : nvr (hook io ts).
Proof.
  unfold hook. destruct io; [|apply nvr_ret]. apply nvr_bind.
  - intros w e w' K. unfold get_inst in K. destruct nth_error; [discriminate|]. injection K as <- _. discriminate.
  - intros i. destruct (i_vflag i) as [[|]|]; try apply nvr_ret. intros w e w' K. discriminate.
Qed.
Lemma nvr_verror {A} r name io : nvr (@verror A r name io).
Proof. unfold verror. apply nvr_bind; [apply nvr_hook|]. intros _. apply nvr_throw. discriminate. Qed.
Lemma nvr_perror {A} name io : nvr (@perror A name io).
Proof. apply nvr_verror. Qed.
Lemma nvr_hooks n name io : nvr (hooks n name io).
Proof. induction n; cbn [hooks]; [apply nvr_ret|]. apply nvr_bind; [apply nvr_hook|auto]. Qed.
Lemma nvr_rescue {A} (m : M A) (g : exn -> bool) name io : nvr m -> nvr (try_ m (fun e => if g e then perror name io else throw e)).
Proof. intros H. apply nvr_try; [exact H|]. intros e He. destruct (g e); [apply nvr_perror|now apply nvr_throw]. Qed.
Lemma nvr_take (f : val -> M bool) l : (forall x, nvr (f x)) -> nvr (take_first f l).
Proof.
  intros H. induction l as [|y l IH]; cbn [take_first]; [apply nvr_ret|]. apply nvr_bind; [apply H|]. intros [|]; [apply nvr_ret|].
  apply nvr_bind; [exact IH|]. intros. apply nvr_ret.
Qed.

Section Pure.
  Variables (E : env) (C : ctable).
  Lemma nvr_leaf t io name v : nvr (leaf_val E t io name v).
  Proof.
    unfold leaf_val. apply nvr_bind; [intros w e w' K; discriminate|]. intros k.
    destruct (leaf_validate E (e_rand E k) t v) as [v'|j|e] eqn:El; [apply nvr_ret| |].
    - apply nvr_bind; [apply nvr_hooks|]. intros _. apply nvr_perror.
    - apply nvr_throw. eapply leaf_nr; eauto.
  Qed.
  Lemma nvr_validate rec p : inst_free p -> forall io name v, nvr (p_validate E C rec p io name v).
  Proof.
    induction p as [t|k q mn mx co IH|kp vp co IHk IHv|si ps IH|cid] using ptype_ind'; intros Hf io name v; simpl in *.
    - apply nvr_leaf.
    - apply nvr_bind. { destruct (_ && _); [apply nvr_perror|apply nvr_ret]. }
      intros _. apply nvr_bind; [apply nvr_lift, nr_iter|]. intros items. apply nvr_bind; [|intros; apply nvr_lift, nr_build].
      apply nvr_mapM. intros x. apply nvr_rescue. now apply IH.
    - destruct Hf as [Hk Hv]. apply nvr_bind; [destruct (_ && _); [apply nvr_perror|apply nvr_ret]|].
      intros _. apply nvr_bind.
      { destruct (py_dict v) as [d|e] eqn:Ed; [apply nvr_ret|]. apply nr_pydict in Ed. destruct e; try apply nvr_perror; now apply nvr_throw. }
      intros d. apply nvr_bind; [|intros; apply nvr_ret]. generalize (@nil (val * val)) as acc.
      induction d as [|[k x] d IHd]; intros acc; [apply nvr_ret|].
      apply nvr_bind; [apply nvr_rescue; now apply IHk|]. intros k'. apply nvr_bind; [apply nvr_rescue; now apply IHv|].
      intros x'. destruct (hashable k'); [apply IHd|apply nvr_throw; discriminate].
    - induction IH as [|q ps Hq Hps IHps]; [apply nvr_perror|]. destruct Hf as [H1 H2].
      apply nvr_try; [now apply Hq|]. intros e He. destruct (is_generic e); [exact (IHps H2)|now apply nvr_throw].
    - destruct Hf.
  Qed.
  Lemma nvr_equal rec p : inst_free p -> forall a b, nvr (p_equal rec p a b).
  Proof.
    induction p as [t|k q mn mx co IH|kp vp co IHk IHv|si ps IH|cid] using ptype_ind'; intros Hf a b; cbn [p_equal inst_free] in *.
    - apply nvr_lift, nr_leaf_equal.
    - specialize (IH Hf).
      destruct k; (apply nvr_try; [|intros [] He; try apply nvr_ret; now apply nvr_throw]);
        (apply nvr_bind; [apply nvr_lift, nr_iter|]; intros la; apply nvr_bind; [apply nvr_lift, nr_iter|]; intros lb; destruct (negb _); [apply nvr_ret|]).
      1,2: apply nvr_bind; [apply nvr_mapM; auto|intros; apply nvr_ret].
      destruct b; try (apply nvr_throw; discriminate); try apply nvr_ret.
      all: apply nvr_bind; [|intros; apply nvr_ret]; clear - IH; revert lb; induction la as [|x la IHl]; intros copy; [apply nvr_ret|];
        apply nvr_bind; [apply nvr_take; auto|intros; apply IHl].
    - apply nvr_try; [|intros [] He; try apply nvr_ret; now apply nvr_throw].
      destruct a; try (apply nvr_throw; discriminate). destruct b; try (apply nvr_throw; discriminate). destruct (negb _); [apply nvr_ret|].
      apply nvr_bind; [|intros; apply nvr_ret]. apply nvr_mapM. intros kx. destruct vd_get; [now apply IHv|apply nvr_throw; discriminate].
    - induction IH as [|q ps Hq Hps IHps]; cbn [map anyM]; [apply nvr_ret|]. destruct Hf as [H1 H2].
      apply nvr_bind; [now apply Hq|]. intros [|]; [apply nvr_ret|exact (IHps H2)].
    - destruct Hf.
  Qed.

  (** the same whatever nested calls would do *)
  Definition alikeM {A} (m m' : M A) : Prop := forall w, m w = m' w.
  Lemma al_bind {A B} (m m' : M A) (k k' : A -> M B) : alikeM m m' -> (forall a, alikeM (k a) (k' a)) -> alikeM (bind m k) (bind m' k').
  Proof. intros H K w. unfold bind. rewrite H. destruct (m' w) as [[a|e] w1]; [apply K|reflexivity]. Qed.
  Lemma al_try {A} (m m' : M A) (h h' : exn -> M A) : alikeM m m' -> (forall a, alikeM (h a) (h' a)) -> alikeM (try_ m h) (try_ m' h').
  Proof. intros H K w. unfold try_. rewrite H. destruct (m' w) as [[a|e] w1]; [reflexivity|apply K]. Qed.
  Lemma al_refl {A} (m : M A) : alikeM m m.
  Proof. intros w. reflexivity. Qed.
  Lemma al_mapM {A B} (f f' : A -> M B) l : (forall x, alikeM (f x) (f' x)) -> alikeM (mapM f l) (mapM f' l).
  Proof. intros H. induction l; cbn [mapM]; [apply al_refl|]. apply al_bind; auto. intros. apply al_bind; auto. intros. apply al_refl. Qed.
  Lemma validate_any rec rec' p : inst_free p -> forall io name v, alikeM (p_validate E C rec p io name v) (p_validate E C rec' p io name v).
  Proof.
    induction p as [t|k q mn mx co IH|kp vp co IHk IHv|si ps IH|cid] using ptype_ind'; intros Hf io name v; simpl in *.
    - apply al_refl.
    - apply al_bind; [apply al_refl|]. intros _. apply al_bind; [apply al_refl|]. intros items. apply al_bind; [|intros; apply al_refl].
      apply al_mapM. intros x. apply al_try; [now apply IH|intros; apply al_refl].
    - destruct Hf as [Hk Hv]. apply al_bind; [apply al_refl|]. intros _. apply al_bind; [apply al_refl|].
      intros d. apply al_bind; [|intros; apply al_refl]. generalize (@nil (val * val)) as acc.
      induction d as [|[k x] d IHd]; intros acc; [apply al_refl|].
      apply al_bind; [apply al_try; [now apply IHk|intros; apply al_refl]|]. intros k'. apply al_bind; [apply al_try; [now apply IHv|intros; apply al_refl]|].
      intros x'. destruct (hashable k'); [apply IHd|apply al_refl].
    - induction IH as [|q ps Hq Hps IHps]; [apply al_refl|]. destruct Hf as [H1 H2].
      apply al_try; [now apply Hq|]. intros e. destruct (is_generic e); [exact (IHps H2)|apply al_refl].
    - destruct Hf.
  Qed.
End Pure.

(** * Calls that end *)
Lemma halts_const {A} (m : M A) w : nvr m -> halts (fun _ => m) w.
Proof.
  intros H. exists 0. destruct (m w) as [r w'] eqn:Em. exists r, w'. split; [|auto]. intros ->. exact (H _ _ _ Em eq_refl).
Qed.
Lemma halts_ext {A} (m m' : nat -> M A) w : (forall n, m n w = m' n w) -> halts m w -> halts m' w.
Proof. intros H (d & r & w' & Hr & K). exists d, r, w'. split; [exact Hr|]. intros n Hn. now rewrite <- H, K. Qed.
Lemma halts_shift {A} (m : nat -> M A) w : halts (fun n => m (S n)) w -> halts m w.
Proof. intros (d & r & w' & Hr & K). exists (S d), r, w'. split; [exact Hr|]. intros [|n] Hn; [lia|]. apply K. lia. Qed.
Definition leads {A} (m : nat -> M A) w (r : res A) w' : Prop := exists depth, forall n, depth <= n -> m n w = (r, w').
Lemma halts_bind {A B} (m : nat -> M A) (k : nat -> A -> M B) w : halts m w ->
  (forall a w', leads m w (Ok a) w' -> halts (fun n => k n a) w') -> halts (fun n => bind (m n) (k n)) w.
Proof.
  intros (d & [a|e] & w1 & Hr & Hm) K.
  - destruct (K a w1) as (d2 & r & w2 & Hr2 & Hk); [now exists d|]. exists (d + d2), r, w2. split; [exact Hr2|].
    intros n Hn. unfold bind. rewrite Hm by lia. apply Hk. lia.
  - exists d, (Exc e), w1. split; [congruence|]. intros n Hn. unfold bind. now rewrite Hm.
Qed.
Lemma halts_fin {A} (m : nat -> M A) f w : halts m w -> halts (fun n => fin (m n) f) w.
Proof. intros (d & r & w1 & Hr & Hm). exists d, r, (f w1). split; [exact Hr|]. intros n Hn. unfold fin. now rewrite Hm. Qed.

Section Halt.
  Variables (E : env) (C : ctable) (U : ucode).
  Notation ex := (exec E C U).
  Definition free (w : world) : nat := length (filter (fun d => negb (d_updating d)) (w_links w)).
  Lemma free_links w w' : same_links w w' -> free w' = free w.
  Proof. intros (_ & H & _). unfold free. now rewrite H. Qed.
  Lemma free_less k d w : nth_error (w_links w) k = Some d -> d_updating d = false -> free (set_updating k true w) < free w.
  Proof.
    intros Hd Hu. unfold set_updating, w_updlink, free. rewrite Hd. cbn [w_setlinks w_links]. set (d' := DL _ _ _ _ true).
    assert (Hu' : d_updating d' = true) by reflexivity. clearbody d'. revert k Hd. induction (w_links w) as [|x l IH]; intros [|k] Hd; try discriminate; unfold set_nth in *; cbn [nth_error firstn skipn app filter] in *.
    - injection Hd as ->. rewrite Hu, Hu'. cbn [negb length]. lia.
    - specialize (IH k Hd). destruct (negb (d_updating x)); cbn [length]; lia.
  Qed.

  Definition halt_write (N : nat) : Prop := forall w, only_links C U w -> free w <= N ->
    forall o a p, writes o a -> settable C w a p -> halts (fun n => ex n (COp o)) w.
  Definition halt_notify (N : nat) : Prop := forall w, only_links C U w -> free w <= N ->
    forall sid a prev v m i, halts (fun n => ex n (CNotify sid (fst a) (snd a) prev v m i)) w.

  Lemma halt_link N w k : (forall N', N' < N -> halt_write N') -> only_links C U w -> free w <= N ->
    halts (fun n => link_update U (ex n) k) w.
  Proof.
    intros IH Hw HN. destruct (nth_error (w_links w) k) as [d|] eqn:Hk.
    2:{ exists 0, (Exc ExAttr), w. split; [discriminate|]. intros n _. unfold link_update, bind, get_w. now rewrite Hk. }
    destruct (d_unlinked d || d_updating d) eqn:Hu.
    { exists 0, (Ok VNone), w. split; [discriminate|]. intros n _. unfold link_update, bind, get_w. now rewrite Hk, Hu. }
    apply orb_false_iff in Hu as [Hu Hup].
    set (m := fun n => let* v := ex n (COp (OGet (fst (d_src d)) (snd (d_src d)))) in
               let* v1 := match d_trans d with Some t => run (ex n) (u_trans U t v) | None => ret v end in
               ex n (COp (OSet (fst (d_tgt d)) (snd (d_tgt d)) v1))).
    set (w1 := set_updating k true w).
    assert (N1 : same_net w w1) by apply set_updating_net.
    assert (Hm : halts m w1).
    { destruct (proj2 Hw k d Hk) as ((p & Hp) & (q & Hq) & Ht). apply (net_settable _ _ _ _ _ N1) in Hp. apply (net_settable _ _ _ _ _ N1) in Hq.
      assert (G : forall n, 1 <= n -> ex n (COp (OGet (fst (d_src d)) (snd (d_src d)))) w1 = (Ok (match value_of w1 (d_src d) with Some v => v | None => VNone end), w1)).
      { intros [|n] Hn; [lia|]. eapply get_settable; eauto. }
      unfold m. apply halts_bind; [exists 1; do 2 eexists; split; [|exact G]; discriminate|].
      intros v w2 (dd & L). assert (w2 = w1) as ->. { specialize (L (S dd) ltac:(lia)). rewrite G in L by lia. congruence. }
      apply halts_bind.
      { destruct (d_trans d) as [t|]; [|apply halts_const, nvr_ret]. destruct (computes_run E C U _ (Ht v)) as (r & Hr & Hrun).
        exists 0, r, w1. split; [exact Hr|]. intros n _. apply Hrun. }
      intros v1 w3 (dd2 & L2). assert (w3 = w1) as ->.
      { specialize (L2 dd2 (Nat.le_refl _)). destruct (d_trans d) as [t|]; [|unfold ret in L2; congruence].
        destruct (computes_run E C U _ (Ht v)) as (r & Hr & Hrun). rewrite Hrun in L2. congruence. }
      eapply (IH (free w1)); [|eapply net_only; eauto|reflexivity|right; eauto|exact Hq].
      pose proof (free_less k d w Hk Hup). unfold w1. lia. }
    apply (halts_fin m (fun w => set_updating k false w)) in Hm.
    destruct Hm as (dep & r & w' & Hr & Hm). exists dep, r, w'. split; [exact Hr|]. intros n Hn. rewrite <- (Hm n Hn).
    unfold link_update, bind at 1, get_w. rewrite Hk, Hu, Hup. reflexivity.
  Qed.

  Lemma halt_notify_all N : (forall N', N' < N -> halt_write N') -> halt_notify N.
  Proof.
    intros IH w Hw HN sid a prev v m i.
    remember (length (registered w (fst a) (snd a) m) - i) as j eqn:Hj. revert w Hw HN v i Hj.
    induction j as [j IHj] using lt_wf_ind. intros w Hw HN v i Hj.
    apply halts_shift. cbn [exec step]. apply halts_bind.
    { apply halts_const. intros w0 e w' K. unfold get_inst in K. destruct nth_error; [discriminate|]. injection K as <- _. discriminate. }
    intros x w1 (_d & Lx). specialize (Lx _d (Nat.le_refl _)). unfold get_inst in Lx. destruct (nth_error (w_heap w) (fst a)) as [x'|] eqn:Ex; [|discriminate]. injection Lx as -> <-.
    destruct (nth_error (listeners_of x (snd a) m) i) as [f|] eqn:Ef; [|apply halts_const, nvr_ret].
    assert (Hreg : registered w (fst a) (snd a) m = listeners_of x (snd a) m) by (unfold registered; rewrite Ex; reflexivity).
    assert (Hlt : i < length (registered w (fst a) (snd a) m)). { rewrite Hreg. apply nth_error_Some. congruence. }
    assert (Hin : In f (registered w (fst a) (snd a) m)). { rewrite Hreg. eapply nth_error_In; eauto. }
    apply halts_bind; [apply halts_const; intros w0 e w' K; discriminate|]. intros tt0 w2 (dd & L2). specialize (L2 dd (Nat.le_refl _)).
    assert (T2 : touch (fun _ => False) w w2). { injection L2 as _ <-. now apply touch_same. } clear L2.
    assert (Hw2 : only_links C U w2) by (eapply touch_only; eauto). assert (HN2 : free w2 <= N) by (rewrite (free_links w w2); [exact HN|apply T2]).
    assert (N2 : same_net w w2) by (apply links_net, T2).
    assert (Hcb : match f with LCb cb => computes (u_listen U cb (fst a) (snd a) prev v m) | LLink _ => True end).
    { destruct f as [cb|k]; [|exact I]. rewrite Hreg in Hin. apply in_map_iff in Hin as (y & Hy & Hin). apply filter_In in Hin as [Hin _].
      pose proof (proj1 Hw (fst a) x y Ex Hin) as K. rewrite Hy in K. apply K. }
    assert (Hlink : forall k, f = LLink k -> halts (fun n => link_update U (ex n) k) w2) by (intros; eapply halt_link; eauto).
    apply halts_bind.
    - destruct f as [cb|k].
      + destruct (computes_run E C U _ Hcb) as (r & Hr & Hrun). exists 0, r, w2. split; [exact Hr|]. intros n _. apply Hrun.
      + apply halts_bind; [now apply Hlink|]. intros. apply halts_const, nvr_ret.
    - intros v1 w3 (dd3 & L3). specialize (L3 dd3 (Nat.le_refl _)).
      assert (S3 : same_links w2 w3).
      { destruct f as [cb|k].
        - destruct (computes_run E C U _ Hcb) as (r & Hr & Hrun). rewrite Hrun in L3. injection L3 as _ <-. apply links_refl.
        - pose proof (link_touch E C U dd3 k a w2 (reach_all E C U dd3) Hw2) as LT. unfold bind in L3.
          assert (F : forall d, nth_error (w_links w2) k = Some d -> d_unlinked d = false -> feeds w2 a (d_tgt d)).
          { intros d Hd Hu. exists k, d, m. split; [|reflexivity]. split; [exact Hd|]. split; [exact Hu|]. now rewrite (net_registered w w2). }
          specialize (LT F). destruct (link_update U (ex dd3) k w2) as [[?|?] w3'] eqn:El; cbn [snd ret] in *; [|discriminate].
          injection L3 as _ <-. apply LT. }
      assert (N3 : same_net w w3) by (eapply net_trans; [exact N2|now apply links_net]).
      eapply IHj; [| |rewrite (free_links w2 w3); [exact HN2|exact S3]|reflexivity].
      + rewrite (net_registered w w3) by exact N3. lia.
      + eapply net_only; eauto.
  Qed.

  Lemma halt_write_all N : halt_notify N -> halt_write N.
  Proof.
    intros HN w Hw Hf o a p Ho Ha. assert (Hp : inst_free p) by apply Ha.
    assert (G : forall w2 v, same_links w w2 -> halts (fun n => has_set (ex n) p (fst a) (snd a) v) w2).
    { assert (Nt : forall w2 sid prev v m, same_links w w2 -> halts (fun n => notify (ex n) sid (fst a) (snd a) prev v m) w2).
      { intros w2 sid prev v m H2. apply halts_bind; [apply halts_const; intros ? ? ? K; discriminate|].
        intros w2' w2'' (d0 & L). specialize (L d0 (Nat.le_refl _)). injection L as <- <-.
        destruct mode_in; [apply halts_const, nvr_ret|]. apply HN; [eapply net_only; [|exact Hw]; now apply links_net|]. now rewrite (free_links w w2). }
      assert (Nk : forall w2 sid prev v m r w3, same_links w w2 -> leads (fun n => notify (ex n) sid (fst a) (snd a) prev v m) w2 r w3 -> same_links w w3).
      { intros w2 sid prev v m r w3 H2 (d0 & L). specialize (L d0 (Nat.le_refl _)).
        pose proof (notify_touch E C U d0 sid a prev v m w2 (reach_all E C U d0)) as K. rewrite L in K. cbn [snd] in K.
        eapply links_trans; [exact H2|]. apply K. eapply net_only; [|exact Hw]; now apply links_net. }
      assert (Cn : forall A (m : M A) w2 r w3, leads (fun _ => m) w2 r w3 -> m w2 = (r, w3)).
      { intros A m w2 r w3 (d0 & L). exact (L d0 (Nat.le_refl _)). }
      intros w2 v H2. unfold has_set.
      apply halts_bind; [apply halts_const; intros ? ? ? K; discriminate|]. intros sid w3 L3. apply Cn in L3. injection L3 as <- <-.
      apply halts_bind. { apply halts_const. intros w0 e w' K. unfold get_inst in K. destruct nth_error; [discriminate|]. injection K as <- _. discriminate. }
      intros i w4 L4. apply Cn in L4. assert (S4 : same_links w w4).
      { unfold get_inst in L4. destruct nth_error; [|discriminate]. injection L4 as _ <-. exact H2. } clear L4.
      set (prev := match dget (i_back i) (snd a) with Some x => x | None => VUndef end). cbv zeta.
      apply halts_bind; [now apply Nt|]. intros v1 w5 L5. apply Nk in L5; [|exact S4].
      apply halts_bind; [apply halts_const; intros ? ? ? K; discriminate|]. intros tt0 w6 L6. apply Cn in L6.
      assert (S6 : same_links w w6). { injection L6 as _ <-. eapply links_trans; [exact L5|]. apply (write_links (fst a) (snd a) v1). } clear L6.
      apply halts_bind; [apply halts_const; intros ? ? ? K; discriminate|]. intros tt1 w7 L7. apply Cn in L7.
      assert (S7 : same_links w w7). { injection L7 as _ <-. exact S6. } clear L7.
      destruct (equal_free p Hp prev v1) as (r & Hr).
      assert (Hnr : r <> Exc ExRecursion).
      { intros ->. specialize (Hr (ex 0) w). exact (nvr_equal (ex 0) p Hp prev v1 w ExRecursion w Hr eq_refl). }
      set (cm := fun n => if is_undef prev && is_undef v1 then ret false
         else if is_undef prev || is_undef v1 then ret true
         else let* b := p_equal (ex n) p prev v1 in ret (negb b)).
      assert (Hcm : exists r', r' <> Exc ExRecursion /\ forall n w, cm n w = (r', w)).
      { unfold cm. destruct (_ && _); [exists (Ok false); split; [discriminate|reflexivity]|].
        destruct (_ || _); [exists (Ok true); split; [discriminate|reflexivity]|].
        destruct r as [b|e]; [exists (Ok (negb b))|exists (Exc e)]; (split; [congruence|]); intros n w0; unfold bind; now rewrite Hr. }
      destruct Hcm as (r' & Hr' & Hcm).
      apply (halts_bind cm); [exists 0, r', w7; auto|]. intros ch w8 (d8 & L8). specialize (L8 d8 (Nat.le_refl _)). rewrite Hcm in L8. injection L8 as Hch <-.
      apply halts_bind; [destruct ch; [now apply Nt|apply halts_const, nvr_ret]|]. intros v2 w9 L9.
      assert (S9 : same_links w w9).
      { destruct ch; [eapply Nk; eauto|]. apply Cn in L9. injection L9 as _ <-. exact S7. }
      apply halts_bind; [now apply Nt|]. intros. apply halts_const, nvr_ret. }
    apply halts_shift. destruct Ho as [->|(v & ->)].
    - destruct Ha as (_ & d & Hd & Hk & Hpt). subst p. eapply halts_ext; [|apply (G w VUndef); apply links_refl].
      intros n. cbn [exec step]. symmetry. apply delattr_prop; assumption.
    - pose proof Ha as (_ & d & Hd & Hk & Hpt). subst p. eapply (halts_ext (fun n => prop_fset E C (ex n) (pd_type d) (fst a) (snd a) v)).
      { intros n. cbn [exec step]. symmetry. apply setattr_prop; assumption. }
      unfold prop_fset. apply (halts_bind (fun n => if is_undef v then ret v else p_validate E C (ex n) (pd_type d) (Some (fst a)) (snd a) v)).
      + destruct (is_undef v); [apply halts_const, nvr_ret|].
        apply (halts_ext (fun _ => p_validate E C (ex 0) (pd_type d) (Some (fst a)) (snd a) v)); [intros n; now apply validate_any|]. apply halts_const. now apply nvr_validate.
      + intros v1 w1 (d1 & L1). specialize (L1 d1 (Nat.le_refl _)). apply G.
        destruct (is_undef v); [injection L1 as _ <-; apply links_refl|].
        pose proof (validate_free E C (ex d1) (pd_type d) Hp (Some (fst a)) (snd a) v w) as Q. rewrite L1 in Q. apply (touch_hooks (fun _ => False) w w1 Q).
  Qed.

  Lemma halt_all N : halt_write N /\ halt_notify N.
  Proof.
    induction N as [N IH] using lt_wf_ind. assert (Hn : halt_notify N) by (apply halt_notify_all; intros N' H; apply IH, H).
    split; [now apply halt_write_all|exact Hn].
  Qed.
  Lemma halt_assign w o a p : only_links C U w -> writes o a -> settable C w a p -> halts (fun n => ex n (COp o)) w.
  Proof. intros Hw. exact (proj1 (halt_all (free w)) w Hw (Nat.le_refl _) o a p). Qed.
End Halt.
