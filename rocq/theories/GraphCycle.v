(** [serialize] detects cycles and encodes everything else. *)
From Verif Require Import World WorldFrame WorldSpec AccessSpec GraphSpec GraphConv GraphFacts GraphValidate GraphSerial GraphValid LeafFacts.
Local Open Scope string_scope.
Local Open Scope list_scope.
Local Open Scope nat_scope.

(** * Exceptions other than SelfReferenceError *)
Definition other (e : exn) : Prop := e <> ExSelfRef.
Definition never {A} (m : M A) : Prop := forall w e w', m w = (Exc e, w') -> other e.
Lemma never_ret {A} (a : A) : never (ret a).
Proof. intros w e w' H. discriminate. Qed.
Lemma never_throw {A} e : other e -> never (@throw A e).
Proof. intros H w e' w' K. injection K as <- _. exact H. Qed.
Lemma never_lift {A} (r : res A) : (forall e, r = Exc e -> other e) -> never (lift r).
Proof. intros H w e w' K. injection K as K _. auto. Qed.
Lemma never_bind {A B} (m : M A) (k : A -> M B) : never m -> (forall a, never (k a)) -> never (bind m k).
Proof.
  intros H K w e w' E. unfold bind in E. destruct (m w) as [[a|e1] w1] eqn:Em.
  - eapply K; eauto.
  - injection E as <- _. eapply H; eauto.
Qed.
Lemma never_try {A} (m : M A) (h : exn -> M A) : (forall e, (exists w w', m w = (Exc e, w')) -> never (h e)) -> never (try_ m h).
Proof.
  intros K w e w' E. unfold try_ in E. destruct (m w) as [[a|e1] w1] eqn:Em; [discriminate|]. eapply K; eauto.
Qed.
Lemma never_mapM {A B} (f : A -> M B) l : Forall (fun x => never (f x)) l -> never (mapM f l).
Proof.
  induction 1; cbn [mapM]; [apply never_ret|]. apply never_bind; auto. intros y. apply never_bind; auto. intros ys. apply never_ret.
Qed.
Lemma never_get l : never (get_inst l).
Proof. intros w e w' H. unfold get_inst in H. destruct nth_error; [discriminate|]. injection H as <- _. discriminate. Qed.
Lemma never_hook io ts : never (hook io ts).
Proof.
  destruct io; [|apply never_ret]. apply never_bind; [apply never_get|]. intros i. destruct (i_vflag i) as [[|]|]; try apply never_ret.
  intros w e w' H. discriminate.
Qed.
Lemma never_verror {A} r n io : never (@verror A r n io).
Proof. apply never_bind; [apply never_hook|]. intros _. apply never_throw. discriminate. Qed.
Lemma never_cls C cid : never (class_of C cid).
Proof. apply never_lift. intros e H. destruct nth_error; [discriminate|]. injection H as <-. discriminate. Qed.
Lemma other_iter v e : py_iter v = Exc e -> other e.
Proof. destruct v; cbn [py_iter]; try discriminate; intros K; injection K as <-; discriminate. Qed.
Lemma other_build k l e : build k l = Exc e -> other e.
Proof.
  destruct k; cbn [build]; try discriminate. unfold py_set. destruct forallb; cbn [rbind]; [discriminate|].
  intros K. injection K as <-. discriminate.
Qed.
Lemma other_pairs ps : forall acc e, dict_of_pairs ps acc = Exc e -> other e.
Proof.
  induction ps as [|[k v] ps IH]; intros acc e; cbn [dict_of_pairs]; [discriminate|]. destruct hashable; [apply IH|].
  intros K. injection K as <-. discriminate.
Qed.
Lemma other_pair v e : pair_of v = Exc e -> other e.
Proof.
  unfold pair_of. destruct (py_iter v) as [l|e'] eqn:K; [|intros Q; injection Q as <-; eapply other_iter; eauto].
  destruct l as [|a [|b [|? ?]]]; try discriminate; intros Q; injection Q as <-; discriminate.
Qed.
Lemma other_all_pairs l : forall e, all_pairs l = Exc e -> other e.
Proof.
  induction l as [|x l IH]; intros e; cbn [all_pairs]; [discriminate|].
  destruct (pair_of x) as [p|e'] eqn:Ep; cbn [rbind]; [|intros Q; injection Q as <-; eapply other_pair; eauto].
  destruct (all_pairs l) as [qs|e'] eqn:Eq; cbn [rbind]; [discriminate|]. intros Q. injection Q as <-. auto.
Qed.
Lemma other_pydict v e : py_dict v = Exc e -> other e.
Proof.
  assert (G : rbind (py_iter v) (fun l => rbind (all_pairs l) (fun ps => dict_of_pairs ps [])) = Exc e -> other e).
  { destruct (py_iter v) as [l|e'] eqn:K; cbn [rbind]; [|intros Q; injection Q as <-; eapply other_iter; eauto].
    destruct (all_pairs l) as [ps|e'] eqn:Kp; cbn [rbind]; [|intros Q; injection Q as <-; eapply other_all_pairs; eauto].
    apply other_pairs. }
  destruct v; cbn [py_dict]; try exact G. discriminate.
Qed.
Lemma other_cast e k e' : other e -> catch_cast e k = LExc e' -> other e'.
Proof. intros H. destruct e; cbn; try discriminate; intros K; injection K as <-; exact H. Qed.
Lemma other_complex e e' : other e -> catch_complex e = LExc e' -> other e'.
Proof. intros H. destruct e; cbn; try discriminate; intros K; injection K as <-; exact H. Qed.
Lemma other_float_num n e : py_float_num n = Exc e -> other e.
Proof. destruct n; cbn [py_float_num]; [|discriminate]. destruct fofZ; [discriminate|]. intros K; injection K as <-; discriminate. Qed.
Lemma other_int v e : py_int v = Exc e -> other e.
Proof.
  destruct v; cbn [py_int]; try discriminate; try (intros K; injection K as <-; discriminate).
  - destruct is_nan; [intros K; injection K as <-; discriminate|]. destruct is_inf; [intros K; injection K as <-; discriminate|discriminate].
  - destruct parse_int; [discriminate|intros K; injection K as <-; discriminate].
Qed.
Lemma other_float E v e : py_float E v = Exc e -> other e.
Proof.
  assert (G : match as_num v with Some n => py_float_num n | None => Exc ExType end = Exc e -> other e).
  { destruct as_num; [apply other_float_num|intros K; injection K as <-; discriminate]. }
  destruct v; try exact G. cbn [py_float]. destruct e_fparse; [discriminate|intros K; injection K as <-; discriminate].
Qed.
Lemma other_cplx E v e : py_complex E v = Exc e -> other e.
Proof.
  assert (G : match as_num v with Some n => rbind (py_float_num n) (fun f => Ok (f, fzero)) | None => Exc ExType end = Exc e -> other e).
  { destruct as_num as [n|]; [|intros K; injection K as <-; discriminate].
    destruct (py_float_num n) eqn:En; cbn [rbind]; [discriminate|]. intros K; injection K as <-. eapply other_float_num; eauto. }
  destruct v; try exact G; [discriminate|]. cbn [py_complex]. destruct e_cparse; [discriminate|intros K; injection K as <-; discriminate].
Qed.
Lemma other_tolerance v n e : off_tolerance v n = Exc e -> other e.
Proof. intros H. apply off_tolerance_exc in H. destruct H; subst; discriminate. Qed.
Lemma other_cap v r i e : rbind (re_im v) (fun p =>
             rbind (absdiff (fst p) (NF r)) (fun d =>
             if ngt d (NF TOL) then Ok true else
             rbind (absdiff (snd p) (NF i)) (fun d' => Ok (ngt d' (NF TOL))))) = Exc e -> other e.
Proof.
  destruct (re_im v) as [p|e'] eqn:Er; cbn [rbind].
  - destruct (absdiff (fst p) (NF r)) eqn:Ea; cbn [rbind]; [|intros K; injection K as <-; apply absdiff_exc in Ea; subst; discriminate].
    destruct (ngt _ _); [discriminate|]. destruct (absdiff (snd p) (NF i)) eqn:Eb; cbn [rbind]; [discriminate|].
    intros K; injection K as <-; apply absdiff_exc in Eb; subst; discriminate.
  - intros K; injection K as <-. destruct v; try discriminate; injection Er as <-; discriminate.
Qed.
Lemma leaf_other E r t v e : leaf_validate E r t v = LExc e -> other e.
Proof.
  destruct t; cbn [leaf_validate].
  - discriminate.
  - unfold bool_validate. destruct cast; [discriminate|]. destruct v; discriminate.
  - unfold int_validate. destruct (py_int v) as [z|e'] eqn:Ei; [|apply other_cast; eapply other_int; eauto].
    destruct (if cast then _ else _) as [[|]|e'] eqn:Et; [discriminate| |].
    + destruct in_bounds; discriminate.
    + destruct cast; [discriminate|]. apply other_cast. eapply other_tolerance; eauto.
  - unfold float_validate. destruct (py_float E v) as [z|e'] eqn:Ei; [|apply other_cast; eapply other_float; eauto].
    destruct (if cast then _ else _) as [[|]|e'] eqn:Et; [discriminate| |].
    + destruct in_bounds; discriminate.
    + destruct cast; [discriminate|]. apply other_cast. eapply other_tolerance; eauto.
  - unfold complex_validate. destruct (py_complex E v) as [[r0 i0]|e'] eqn:Ei; [|apply other_complex; eapply other_cplx; eauto].
    destruct (if cast then _ else _) as [[|]|e'] eqn:Et; [discriminate|discriminate|].
    destruct cast; [discriminate|]. apply other_complex. eapply other_cap; eauto.
  - unfold string_validate. destruct v; try discriminate. destruct (match so_regex o with Some _ => _ | None => _ end); discriminate.
  - unfold choice_validate. destruct v; try discriminate. destruct find as [[? ?]|]; discriminate.
  - assert (G : forall l, color_components l = LExc e -> other e).
    { intros l. unfold color_components. destruct Nat.eqb; [|discriminate]. destruct forallb; discriminate. }
    unfold color_validate. destruct v; try discriminate; try apply G. cbv zeta. destruct hex_triple; [apply G|discriminate].
  - unfold date_validate. destruct v; try discriminate. destruct date_of_string; discriminate.
  - unfold uuid_validate. destruct v; discriminate.
Qed.
Lemma other_to_json E t v e : leaf_to_json E t v = Exc e -> other e.
Proof.
  destruct t; cbn [leaf_to_json]; try discriminate.
  - unfold float_to_json. destruct v; try discriminate; try (intros K; injection K as <-; discriminate).
    destruct fofZ; [discriminate|]. intros K; injection K as <-; discriminate.
  - unfold complex_to_json. destruct v; try discriminate; intros K; injection K as <-; discriminate.
  - destruct (py_iter v) as [l|e'] eqn:Ei; cbn [rbind]; [discriminate|]. intros K. injection K as <-. eapply other_iter; eauto.
  - unfold date_to_json. destruct v; try discriminate; intros K; injection K as <-; discriminate.
  - unfold uuid_to_json. destruct v; try discriminate; intros K; injection K as <-; discriminate.
Qed.

Section Never.
  Variable E : env.
  Variable C : ctable.
  Variable U : ucode.
  Notation X := (exec E C U).
  Lemma never_hooks k name io : never (hooks k name io).
  Proof. induction k; cbn [hooks]; [apply never_ret|]. apply never_bind; [apply never_hook|auto]. Qed.
  Lemma never_rescue {A} (m : M A) (g : exn -> bool) name io : never m ->
    never (try_ m (fun e => if g e then perror name io else throw e)).
  Proof.
    intros H. apply never_try. intros e (w & w' & K). destruct (g e); [apply never_verror|apply never_throw; eapply H; eauto].
  Qed.
  Lemma never_bind_ok {A B} (m : M A) (k : A -> M B) : never m -> (forall a, (exists w w', m w = (Ok a, w')) -> never (k a)) -> never (bind m k).
  Proof.
    intros H K w e w' Em. unfold bind in Em. destruct (m w) as [[a|e1] w1] eqn:E1.
    - eapply K; eauto.
    - injection Em as <- _. eapply H; eauto.
  Qed.
  Lemma never_inst l : never (inst_class C l).
  Proof. apply never_bind; [apply never_get|]. intros i. apply never_cls. Qed.
  (** [validate] never raises SelfReferenceError *)
  Lemma never_validate n p : (forall cid, spare E C U cid) -> forall io name v, calm E p v ->
    never (p_validate E C (X (S (S n))) p io name v).
  Proof.
    intros Hs. induction p as [t|k q mn mx co IH|kp vp co IHk IHv|si ps IH|cid] using ptype_ind'; intros io name v Hc; cbn [p_validate].
    - unfold leaf_val. apply never_bind; [intros w e w' K; discriminate|]. intros k.
      destruct (leaf_validate E (e_rand E k) t v) as [v'|j|e] eqn:El; [apply never_ret| |].
      + apply never_bind; [apply never_hooks|]. intros _. apply never_verror.
      + apply never_throw. eapply leaf_other; eauto.
    - apply never_bind; [destruct (_ && _); [apply never_verror|apply never_ret]|]. intros _. cbv zeta. destruct Hc as [Hc1 Hc2].
      set (v1 := if co && negb (is_container v) then VList [v] else v).
      assert (H1 : forall l, py_iter v1 = Ok l -> Forall (fun x => calm E q x) l).
      { intros l Hl. subst v1. destruct (co && negb (is_container v)) eqn:Ec.
        - injection Hl as <-. constructor; [|constructor]. apply Hc2.
          apply andb_true_iff in Ec. destruct Ec as [_ Ec]. destruct v; try discriminate; reflexivity.
        - eapply Forall_impl; [|exact (Hc1 l Hl)]. cbn. tauto. }
      apply never_bind_ok; [apply never_lift, other_iter|]. intros items (w & w' & Hi). injection Hi as Hi _.
      apply never_bind; [|intros out; apply never_lift, other_build]. apply never_mapM. eapply Forall_impl; [|exact (H1 _ Hi)].
      intros x Hx. apply never_rescue. now apply IH.
    - apply never_bind; [destruct (_ && _); [apply never_verror|apply never_ret]|]. intros _. cbn [calm] in Hc.
      apply never_bind_ok.
      { destruct (py_dict v) as [d|e] eqn:Ed; [apply never_ret|]. apply other_pydict in Ed.
        destruct e; try apply never_verror; now apply never_throw. }
      intros d (w & w' & Hd). assert (Ed : py_dict v = Ok d).
      { destruct (py_dict v) as [d0|e]; [injection Hd as -> _; reflexivity|].
        assert (N : forall A w0 (a : A) w1, @perror A name io w0 <> (Ok a, w1)).
        { intros A w0 a w1 K. unfold perror, verror, bind in K. destruct (hook _ _ w0) as [[?|?] ?]; discriminate. }
        destruct e; try discriminate Hd; now apply N in Hd. }
      specialize (Hc d Ed). apply never_bind; [|intros out; apply never_ret]. generalize (@nil (val * val)). clear Hd Ed.
      induction Hc as [|[k x] d ((_ & Hk) & (_ & Hx)) Hd IHd]; intros acc; [apply never_ret|]. cbn [fst snd] in *.
      apply never_bind; [apply never_rescue; now apply IHk|]. intros k'.
      apply never_bind; [apply never_rescue; now apply IHv|]. intros x'. destruct (hashable k'); [apply IHd|apply never_throw; discriminate].
    - apply calm_union in Hc. induction IH as [|q ps Hq Hps IHps]; [apply never_verror|]. inversion Hc as [|? ? Hc1 Hc2]; subst.
      apply never_try. intros e (w & w' & K). destruct (is_generic e); [now apply IHps|]. apply never_throw. eapply Hq; eauto.
    - assert (Hnew : never (X (S (S n)) (COp (ONew cid None)))).
      { intros w e w' K. destruct (Hs cid n w) as (e1 & w1 & K1 & K2 & _). rewrite K1 in K. injection K as <- _. intros ->. discriminate. }
      apply never_try. intros e (w & w' & K). destruct (is_generic e) eqn:Eg; [apply never_verror|]. apply never_throw.
      revert K. apply never_bind; [destruct v; try apply never_ret; apply never_bind; [apply never_inst|intros; apply never_ret]|].
      intros [|]; [apply never_ret|]. destruct v; try apply Hnew. exfalso. now eapply Hc.
  Qed.
End Never.

(** * Outcomes *)
Section Outcomes.
  (** an Ok outcome has [Q], an exception has [B] *)
  Definition gives {A} (Q : A -> Prop) (B : exn -> Prop) (m : nat -> M A) (w : world) : Prop :=
    exists r, conv same m w r /\ match r with Ok a => Q a | Exc e => B e end.
  Lemma gives_weaken {A} (Q Q' : A -> Prop) (B B' : exn -> Prop) m w : (forall a, Q a -> Q' a) -> (forall e, B e -> B' e) ->
    gives Q B m w -> gives Q' B' m w.
  Proof. intros H K (r & Hr & HQ). exists r. split; auto. destruct r; auto. Qed.
  Lemma gives_ret {A} (Q : A -> Prop) B a w : Q a -> gives Q B (fun _ => ret a) w.
  Proof. intros H. exists (Ok a). split; [apply conv_ret|exact H]. Qed.
  Lemma gives_throw {A} (Q : A -> Prop) (B : exn -> Prop) e w : B e -> gives Q B (fun _ => throw e) w.
  Proof. intros H. exists (Exc e). split; [apply conv_throw|exact H]. Qed.
  Lemma gives_lift {A} (Q : A -> Prop) (B : exn -> Prop) (r : res A) w : match r with Ok a => Q a | Exc e => B e end ->
    gives Q B (fun _ => lift r) w.
  Proof. intros H. exists r. split; [apply conv_lift|exact H]. Qed.
  Lemma gives_bind {A A'} (P : A -> Prop) (Q : A' -> Prop) (B : exn -> Prop) (m : nat -> M A) (k : nat -> A -> M A') w :
    gives P B m w -> (forall a, P a -> gives Q B (fun n => k n a) w) -> gives Q B (fun n => bind (m n) (k n)) w.
  Proof.
    intros ([a|e] & H & HP) K.
    - destruct (K a HP) as (r & Hr & HQ). exists r. split; auto. eapply conv_bind; eauto.
    - exists (Exc e). split; auto. now apply conv_bind_exc.
  Qed.
  Lemma gives_mapM {A A'} (R : A -> A' -> Prop) (B : exn -> Prop) (g : nat -> A -> M A') l w :
    Forall (fun x => gives (R x) B (fun n => g n x) w) l -> gives (Forall2 R l) B (fun n => mapM (g n) l) w.
  Proof.
    induction 1 as [|x r Hx Hr IH]; cbn [mapM]; [apply gives_ret; constructor|].
    eapply gives_bind; [exact Hx|]. intros y Hy. eapply gives_bind; [exact IH|]. intros ys Hys. apply gives_ret. now constructor.
  Qed.
End Outcomes.

Section Cycle.
  Variable E : env.
  Variable C : ctable.
  Variable U : ucode.
  Variable o : sopt.
  Variable b : world.
  Notation X := (exec E C U).
  Notation N := (length (w_heap b)).
  Notation snd_to := (sends E C U b).
  Notation ser_to := (serializes E C U b).
  Notation reach := (sreach E C U b).
  Notation cyc := (on_cycle E C U b).
  Notation enc := (encodes E C U o b).
  Notation encv := (encodes_value E C U b).

  (** ** Facts about the specification *)
  Lemma accepts_refuses p v : accepts E C U b p v -> refuses E C U b p v -> False.
  Proof. intros (v' & H) (e & K & _). pose proof (answers_fun _ _ _ _ H K). discriminate. Qed.
  Lemma sends_none p : forall m, snd_to p VNone m -> False.
  Proof.
    induction p as [t|k q mn mx co IH|kp vp co IHk IHv|si ps IH|cid] using ptype_ind'; intros m; cbn [sends].
    - auto.
    - intros (l & x & H & _). discriminate.
    - intros (d & k & x & H & _). discriminate.
    - induction IH as [|q ps Hq Hps IHps]; [discriminate|]. intros [[_ K]|[_ K]]; [now apply Hq in K|now apply IHps].
    - discriminate.
  Qed.
  Lemma encv_sends G p : forall v j m, encv G p v j -> snd_to p v m -> exists x, G m x.
  Proof.
    induction p as [t|k q mn mx co IH|kp vp co IHk IHv|si ps IH|cid] using ptype_ind'; intros v j m He Hs;
      (destruct He as [[-> _]|[Hn He]]; [exfalso; eapply sends_none; exact Hs|]); cbn [sends] in Hs.
    - contradiction.
    - destruct Hs as (l & x & Hl & Hx & Hs). destruct He as (l' & js & Hl' & HF & _). rewrite Hl in Hl'. injection Hl' as <-.
      induction HF as [|a c l js Ha HF IHF]; [destruct Hx|]. destruct Hx as [->|Hx]; [eapply IH; eauto|].
      clear -IH HF Hx Hs. induction HF as [|a c l js Ha HF IHF]; [destruct Hx|]. destruct Hx as [->|Hx]; eauto.
    - destruct Hs as (d & k & x & -> & Hx & Hs). destruct He as (d' & js & sd & Hd & HF & _). injection Hd as <-.
      clear Hn. induction HF as [|a c l js Ha HF IHF]; [destruct Hx|]. destruct Hx as [->|Hx]; [|auto].
      cbn [fst snd] in Ha. destruct Ha as [H1 H2]. destruct Hs as [Hs|Hs]; eauto.
    - induction IH as [|q ps Hq Hps IHps].
      + subst v. destruct He as [(m' & K & Hg)|[K _]]; [injection K as <-; eauto|]. now destruct (K m).
      + destruct He as [[A1 He]|[A1 He]], Hs as [[A2 Hs]|[A2 Hs]]; eauto; exfalso; eapply accepts_refuses; eauto.
    - subst v. destruct He as (m' & K & Hg). injection K as <-. eauto.
  Qed.
  Lemma encv_fun (G1 G2 : loc -> val -> Prop) p : (forall m x y, G1 m x -> G2 m y -> x = y) ->
    forall v j j', encv G1 p v j -> encv G2 p v j' -> j = j'.
  Proof.
    intros HG. induction p as [t|k q mn mx co IH|kp vp co IHk IHv|si ps IH|cid] using ptype_ind'; intros v j j' H K;
      (destruct H as [[-> ->]|[Hn H]]; [destruct K as [[_ ->]|[K _]]; [reflexivity|congruence]|];
       destruct K as [[-> _]|[_ K]]; [congruence|]).
    - congruence.
    - destruct H as (l & js & Hl & HF & ->), K as (l' & js' & Hl' & KF & ->). rewrite Hl in Hl'. injection Hl' as <-. f_equal.
      clear -IH HF KF. revert js' KF. induction HF; intros js' KF; inversion KF; subst; f_equal; eauto.
    - destruct H as (d & js & sd & -> & HF & Hs & ->), K as (d' & js' & sd' & Hd & KF & Ks & ->). injection Hd as <-.
      assert (js = js').
      { clear -IHk IHv HF KF. revert js' KF. induction HF as [|x y l js Hxy HF IHF]; intros js' KF; inversion KF as [|? y' ? ? Kxy KF2]; subst; [reflexivity|].
        f_equal; [|eauto]. destruct y, y'. cbn [fst snd] in *. destruct Hxy, Kxy. f_equal; eauto. }
      subst js'. congruence.
    - induction IH as [|q ps Hq Hps IHps].
      + destruct H as [(m & -> & H)|[H ->]], K as [(m' & Km & K)|[K ->]]; auto; try (injection Km as <-; eauto).
        * now destruct (K m).
        * exfalso. eapply H. exact Km.
      + destruct H as [[A1 H]|[A1 H]], K as [[A2 K]|[A2 K]]; eauto; exfalso; eapply accepts_refuses; eauto.
    - destruct H as (m & -> & H), K as (m' & Km & K). injection Km as <-. eauto.
  Qed.
  Lemma declares_fun w l name d d' : declares C w l name d -> declares C w l name d' -> d = d'.
  Proof. intros (c & (i & Hi & Hc) & Hd) (c' & (i' & Hi' & Hc') & Hd'). congruence. Qed.
  Lemma entry_fun (G1 G2 : loc -> val -> Prop) l name : (forall m x y, G1 m x -> G2 m y -> x = y) ->
    forall j j', encodes_entry E C U b G1 l name j -> encodes_entry E C U b G2 l name j' -> j = j'.
  Proof.
    intros HG j j' (d & Hd & H) (d' & Hd' & K). rewrite <- (declares_fun _ _ _ _ _ Hd Hd') in K.
    destruct (pd_kind d); try (eapply encv_fun; eauto; fail); pose proof (answers_fun _ _ _ _ H K) as Q; congruence.
  Qed.
  Lemma enc_fun l j j' : enc l j -> enc l j' -> j = j'.
  Proof.
    intros H. revert j'. induction H as [G l j HG IH (i & c & js & Hi & Hc & HF & ->)].
    intros j' K. destruct K as [G' l j' HG' (i' & c' & js' & Hi' & Hc' & KF & ->)].
    rewrite Hi in Hi'. injection Hi' as <-. rewrite Hc in Hc'. injection Hc' as <-.
    assert (js = js'); [|now subst].
    cbv zeta in HF, KF. revert HF js' KF. generalize (if s_dyn o then dkeys (c_props c) else dkeys (i_back i)). intros keys HF.
    induction HF as [|k y keys js Hy HF IHF]; intros js' KF; inversion KF; subst; [reflexivity|]. f_equal; [|eauto].
    eapply entry_fun; [|exact Hy|eassumption]. intros m x z M1 M2. eapply IH; eauto.
  Qed.
  Lemma dget_key {A} (d : dict A) k v : dget d k = Some v -> In k (dkeys d).
  Proof. intros H. apply dget_in in H. apply in_map_iff. now exists (k, v). Qed.
  Lemma node_child (G : loc -> val -> Prop) l m j : encodes_node E C U o b G l j -> ser_to l m -> exists x, G m x.
  Proof.
    intros (i & c & js & Hi & Hc & HF & _) (name & d & v & Hd & Hk & [Hv Hn] & Hs). cbv zeta in HF.
    assert (In name (if s_dyn o then dkeys (c_props c) else dkeys (i_back i))) as Hin.
    { destruct (s_dyn o).
      - destruct Hd as (c' & (i' & Hi' & Hc') & Hd). rewrite Hi in Hi'. injection Hi' as <-. rewrite Hc in Hc'. injection Hc' as <-. eapply dget_key; eauto.
      - unfold stored in Hv. rewrite Hi in Hv. eapply dget_key; eauto. }
    revert HF Hin. generalize (if s_dyn o then dkeys (c_props c) else dkeys (i_back i)). intros keys HF Hin.
    induction HF as [|k y keys js Hy HF IHF]; [destruct Hin|]. destruct Hin as [->|Hin]; [|auto].
    destruct Hy as (d' & Hd' & Hy). rewrite <- (declares_fun _ _ _ _ _ Hd Hd') in Hy. rewrite Hv in Hy.
    destruct Hk as [Hk|Hk]; rewrite Hk in Hy; eapply encv_sends; eauto.
  Qed.
  (** JSON exists for acyclic graphs only. *)
  Lemma enc_acyclic l j : enc l j -> forall m, reach l m -> ~ cyc m.
  Proof.
    induction 1 as [G l j HG IH Hn].
    assert (K : forall k m, ser_to l k -> reach k m -> ~ cyc m).
    { intros k m Hk Hm. destruct (node_child G l k j Hn Hk) as (x & Hx). eapply IH; eauto. }
    intros m Hm. inversion Hm as [|k m' Hk Hkm]; subst; [|eauto].
    intros (k & Hk & Hkm). apply (K k m Hk Hkm). now exists k.
  Qed.

  Lemma encv_mono (G1 G2 : loc -> val -> Prop) p : (forall m x, G1 m x -> G2 m x) -> forall v j, encv G1 p v j -> encv G2 p v j.
  Proof.
    intros HG. induction p as [t|k q mn mx co IH|kp vp co IHk IHv|si ps IH|cid] using ptype_ind'; intros v j [H|[Hn H]];
      try (left; exact H); right; (split; [exact Hn|]).
    - exact H.
    - destruct H as (l & js & Hl & HF & ->). exists l, js. split; [auto|]. split; [|auto].
      clear -IH HF. induction HF; constructor; auto.
    - destruct H as (d & js & sd & -> & HF & Hs & ->). exists d, js, sd. split; [auto|]. split; [|auto].
      clear -IHk IHv HF. induction HF as [|x y l js [] HF IHF]; constructor; auto.
    - induction IH as [|q ps Hq Hps IHps].
      + destruct H as [(m & -> & H)|H]; [left; eauto|right; auto].
      + destruct H as [[A H]|[A H]]; [left; split; [exact A|now apply Hq]|right; split; [exact A|exact (IHps H)]].
    - destruct H as (m & -> & H). eauto.
  Qed.
  Lemma entry_mono (G1 G2 : loc -> val -> Prop) l name j : (forall m x, G1 m x -> G2 m x) ->
    encodes_entry E C U b G1 l name j -> encodes_entry E C U b G2 l name j.
  Proof.
    intros HG (d & Hd & H). exists d. split; auto. destruct (pd_kind d); auto; eapply encv_mono; eauto.
  Qed.

  (** ** Serialization of one state, up to flags *)
  Hypothesis Sb : settled E C U b.
  Definition base (w : world) : Prop := alike b w /\ w_quar w = w_quar b /\ w_links w = w_links b.
  Lemma base_like w : base w -> like bare b w.
  Proof. intros (H & Q & L). split; [|auto]. exists (w_heap w), []. split; [now rewrite app_nil_r|auto]. Qed.
  Lemma tell {A} (Q : A -> Prop) (m : nat -> M A) w : base w -> tot bare Q m b ->
    exists r, conv bare m b r /\ conv same m w r /\ okres Q r.
  Proof.
    intros Hw (r & Hc & HQ). exists r. split; auto. split; auto.
    eapply (conv_finer bare same); [unfold same; intros; now subst|]. eapply conv_like; [|exact Hc]. now apply base_like.
  Qed.
  (** no getter raises SelfReferenceError *)
  Definition quiet : Prop := forall l name, ~ answers (fun n => X n (COp (OGet l name))) b (Exc ExSelfRef).

  Definition via (l : loc) (name : string) (m : loc) : Prop :=
    exists d v, declares C b l name d /\ (pd_kind d = KProp \/ pd_kind d = KGettable) /\ has_value b l name v /\ snd_to (pd_type d) v m.
  Lemma via_ser l name m : via l name m -> ser_to l m.
  Proof. intros (d & v & H). exists name, d, v. exact H. Qed.
  Lemma ser_via l m : ser_to l m -> exists name, via l name m.
  Proof. intros (name & d & v & H). exists name, d, v. exact H. Qed.
  Definition safe (F : loc -> Prop) (l : loc) : Prop := forall m, reach l m -> ~ F m /\ ~ cyc m.
  Definition bad (F : loc -> Prop) (l : loc) : Prop := exists m, reach l m /\ (F m \/ cyc m).
  (** why an exception may be raised: something bad, or no JSON *)
  Definition fails (Bad : Prop) (NoJson : Prop) (e : exn) : Prop := (quiet -> e = ExSelfRef -> Bad) /\ (Bad /\ e = ExSelfRef \/ NoJson).
  Definition dicts (m : loc) (x : val) : Prop := exists d, x = VDict d.
  Definition lack (l : loc) : Prop := exists m, reach l m /\ ~ encodable E C U o b m.
  Lemma fails_weaken (Bad Bad' NJ NJ' : Prop) e : (Bad -> Bad') -> (NJ -> NJ') -> fails Bad NJ e -> fails Bad' NJ' e.
  Proof. unfold fails. tauto. Qed.
  Lemma fails_other (Bad NJ : Prop) e : other e -> NJ -> fails Bad NJ e.
  Proof. intros H K. split; [|auto]. intros _ ->. now destruct H. Qed.

  Definition serial (F : loc -> Prop) (l : loc) (w : world) : Prop :=
    gives (fun j => enc l j /\ safe F l) (fails (bad F l) (lack l)) (fun n => X n (COp (OSer l o))) w.

  Lemma enc_dict l j : enc l j -> dicts l j.
  Proof. intros [G l' j' _ (i & c & js & _ & _ & _ & ->)]. eexists. reflexivity. Qed.
  Lemma enc_reach l m : reach l m -> forall j, enc l j -> exists x, enc m x.
  Proof.
    induction 1 as [l|l k m Hk Hm IH]; intros j Hj; [eauto|]. destruct Hj as [G l j HG Hn]. destruct (node_child G l k j Hn Hk) as (x & Hx).
    eapply IH. apply HG. exact Hx.
  Qed.
  Lemma node_mono (G1 G2 : loc -> val -> Prop) l j : (forall m x, G1 m x -> G2 m x) ->
    encodes_node E C U o b G1 l j -> encodes_node E C U o b G2 l j.
  Proof.
    intros HG (i & c & js & Hi & Hc & HF & ->). exists i, c, js. split; [exact Hi|]. split; [exact Hc|]. split; [|reflexivity].
    revert HF. generalize (if s_dyn o then dkeys (c_props c) else dkeys (i_back i)). intros keys HF.
    clear -HF HG. induction HF; constructor; auto. eapply entry_mono; eauto.
  Qed.
  Lemma enc_lack l j : enc l j -> lack l -> False.
  Proof.
    intros H (m & Hm & K). destruct (enc_reach l m Hm j H) as (x & Hx). apply K. exists x. destruct Hx as [G m x HG Hn].
    eapply node_mono; [|exact Hn]. intros k y Hk. exact (enc_dict _ _ (HG _ _ Hk)).
  Qed.
  Lemma encv_hashable (G1 G2 : loc -> val -> Prop) p : (forall m x, G1 m x -> dicts m x) -> (forall m x, G2 m x -> dicts m x) ->
    forall v j j', encv G1 p v j -> encv G2 p v j' -> hashable j = hashable j'.
  Proof.
    intros H1 H2. induction p as [t|k q mn mx co IH|kp vp co IHk IHv|si ps IH|cid] using ptype_ind'; intros v j j' H K;
      (destruct H as [[-> ->]|[Hn H]]; [destruct K as [[_ ->]|[K _]]; [reflexivity|congruence]|];
       destruct K as [[-> _]|[_ K]]; [congruence|]).
    - congruence.
    - destruct H as (l & js & Hl & HF & ->), K as (l' & js' & Hl' & KF & ->). reflexivity.
    - destruct H as (d & js & sd & -> & HF & Hs & ->), K as (d' & js' & sd' & Hd & KF & Ks & ->). reflexivity.
    - induction IH as [|q ps Hq Hps IHps].
      + destruct H as [(m & -> & H)|[H ->]], K as [(m' & Km & K)|[K ->]]; auto.
        * apply H1 in H. apply H2 in K. destruct H as (? & ->), K as (? & ->). reflexivity.
        * now destruct (K m).
        * exfalso. eapply H. exact Km.
      + destruct H as [[A1 H]|[A1 H]], K as [[A2 K]|[A2 K]]; eauto; exfalso; eapply accepts_refuses; eauto.
    - destruct H as (m & -> & H), K as (m' & Km & K). apply H1 in H. apply H2 in K. destruct H as (? & ->), K as (? & ->). reflexivity.
  Qed.
  Lemma pairs_alike js js' : forall acc acc' e sd, Forall2 (fun a a' : val * val => hashable (fst a) = hashable (fst a')) js js' ->
    dict_of_pairs js acc = Exc e -> dict_of_pairs js' acc' = Ok sd -> False.
  Proof.
    intros acc acc' e sd H. revert acc acc'. induction H as [|[k x] [k' x'] js js' Hk H IH]; intros acc acc'; cbn [dict_of_pairs]; [discriminate|].
    cbn [fst] in Hk. rewrite <- Hk. destruct (hashable k); [apply IH|discriminate].
  Qed.

  Lemma Forall2_left {A B} (R : A -> B -> Prop) l r x : Forall2 R l r -> In x l -> exists y, R x y.
  Proof. induction 1; intros K; destruct K; subst; eauto. Qed.

  Section Values.
  Variable w : world.
  Variable F : loc -> Prop.
  Hypothesis Hw : base w.
  Hypothesis Hs : forall m, m < N -> serial F m w.
  Definition vbad (p : ptype) (v : val) : Prop := exists m, snd_to p v m /\ bad F m.
  Definition vlack (p : ptype) (v : val) : Prop := (exists m, snd_to p v m /\ lack m) \/ forall j, ~ encv dicts p v j.
  Lemma serial_value p : forall v, below N v = true -> (v <> VNone -> calm E p v) ->
    gives (fun j => encv enc p v j /\ forall m, snd_to p v m -> safe F m)
      (fails (vbad p v) (vlack p v)) (fun n => p_serialize E C (X n) o p v) w.
  Proof.
    induction p as [t|k q mn mx co IH|kp vp co IHk IHv|si ps IH|cid] using ptype_ind'; intros v Hv Hc;
      cbn [p_serialize]; (destruct (is_none v) eqn:En;
        [assert (v = VNone) as -> by (destruct v; try discriminate; reflexivity); apply gives_ret; split; [now left|];
         intros m K; exfalso; eapply sends_none; exact K|]);
      (assert (Hn : v <> VNone) by (intros K; subst; discriminate)); specialize (Hc Hn).
    - apply gives_lift. destruct (leaf_to_json E t v) as [j|e] eqn:Ej.
      + split; [right; auto|]. intros m [].
      + apply fails_other; [eapply other_to_json; eauto|]. right. intros j [[K _]|[_ K]]; congruence.
    - destruct Hc as [Hc _].
      eapply gives_bind with (P := fun l => py_iter v = Ok l).
      { apply gives_lift. destruct (py_iter v) as [l|e] eqn:Ei; [reflexivity|].
        apply fails_other; [eapply other_iter; eauto|]. right. intros j [[K _]|[_ (l & js & K & _)]]; congruence. }
      intros items Hi. specialize (Hc _ Hi). pose proof (below_iter _ _ _ Hv Hi) as Hb. rewrite Forall_forall in Hc, Hb.
      eapply gives_bind with (P := Forall2 (fun x j => encv enc q x j /\ forall m, snd_to q x m -> safe F m) items).
      { apply gives_mapM. apply Forall_forall. intros x Hx. eapply gives_weaken; [intros a Ha; exact Ha| |apply IH; [auto|intros _; now apply Hc]].
        intros e. apply fails_weaken.
        - intros (m & Hm & K). exists m. split; auto. exists items, x. auto.
        - intros [(m & Hm & K)|K]; [left; exists m; split; [exists items, x; auto|exact K]|right].
          intros j [[K1 _]|[_ (l & js & K1 & K2 & _)]]; [congruence|]. rewrite Hi in K1. injection K1 as <-.
          destruct (Forall2_left _ _ _ _ K2 Hx) as (y & Hy). now apply (K y). }
      intros js HF. apply gives_ret. split.
      + right. split; auto. exists items, js. split; [auto|]. split; [|auto]. clear -HF. induction HF as [|x y l js [] HF IHF]; constructor; auto.
      + intros m (l & x & Hl & Hx & Hm). rewrite Hi in Hl. injection Hl as <-. destruct (Forall2_left _ _ _ _ HF Hx) as (y & _ & Hy). auto.
    - destruct v as [| | | | | | | | | | | | |d|]; try (apply gives_throw; apply fails_other; [discriminate|];
        right; intros j [[K _]|[_ (d9 & js9 & sd9 & K & _)]]; discriminate).
      specialize (Hc d eq_refl). apply below_dict in Hv. rewrite Forall_forall in Hc, Hv.
      eapply gives_bind with (P := Forall2 (fun kx jx => (encv enc kp (fst kx) (fst jx) /\ encv enc vp (snd kx) (snd jx)) /\
          forall m, snd_to kp (fst kx) m \/ snd_to vp (snd kx) m -> safe F m) d).
      { apply gives_mapM. apply Forall_forall. intros [k x] Hx. destruct (Hv _ Hx) as [Hb1 Hb2]. destruct (Hc _ Hx) as [[H1 H2] [H3 H4]]. cbn [fst snd] in *.
        eapply gives_bind.
        { eapply gives_weaken; [intros a Ha; exact Ha| |apply IHk; auto]. intros e. apply fails_weaken.
          - intros (m & Hm & K). exists m. split; auto. exists d, k, x. auto.
          - intros [(m & Hm & K)|K]; [left; exists m; split; [exists d, k, x; auto|exact K]|right].
            intros j [[K1 _]|[_ (d' & js & sd & K1 & K2 & _)]]; [congruence|]. injection K1 as <-.
            destruct (Forall2_left _ _ _ _ K2 Hx) as (y & Hy & _). now apply (K (fst y)). }
        intros k' [Hk1 Hk2]. eapply gives_bind.
        { eapply gives_weaken; [intros a Ha; exact Ha| |apply IHv; auto]. intros e. apply fails_weaken.
          - intros (m & Hm & K). exists m. split; auto. exists d, k, x. auto.
          - intros [(m & Hm & K)|K]; [left; exists m; split; [exists d, k, x; auto|exact K]|right].
            intros j [[K1 _]|[_ (d' & js & sd & K1 & K2 & _)]]; [congruence|]. injection K1 as <-.
            destruct (Forall2_left _ _ _ _ K2 Hx) as (y & _ & Hy). now apply (K (snd y)). }
        intros x' [Hx1 Hx2]. apply gives_ret. cbn [fst snd]. split; auto. intros m [K|K]; auto. }
      intros js HF. assert (HF' : Forall2 (fun kx jx => encv enc kp (fst kx) (fst jx) /\ encv enc vp (snd kx) (snd jx)) d js)
        by (clear -HF; induction HF as [|x y l js [] HF IHF]; constructor; auto).
      eapply gives_bind with (P := fun sd => dict_of_pairs js [] = Ok sd).
      { apply gives_lift. destruct (dict_of_pairs js []) as [sd|e] eqn:Ep; [reflexivity|].
        apply fails_other; [eapply other_pairs; eauto|]. right. intros j [[K _]|[_ (d' & js' & sd & K1 & K2 & K3 & _)]]; [congruence|]. injection K1 as <-.
        apply (pairs_alike js js' [] [] e sd); auto. clear -HF' K2. revert js' K2.
        induction HF' as [|x y l js Hxy HF IHF]; intros js' K2; inversion K2 as [|? y' ? ? Kxy KF2]; subst; constructor; auto.
        destruct Hxy as [Hxy _], Kxy as [Kxy _]. eapply encv_hashable; [apply enc_dict| |exact Hxy|exact Kxy]. auto. }
      intros sd Hsd. apply gives_ret. split.
      + right. split; auto. exists d, js, sd. auto.
      + intros m (d' & k & x & Hd & Hx & Hm). injection Hd as <-. destruct (Forall2_left _ _ _ _ HF Hx) as (y & _ & Hy). apply Hy. exact Hm.
    - apply calm_union in Hc. unfold vbad. cbn [sends encodes_value]. induction IH as [|q ps Hq Hps IHps].
      + destruct v; try (apply gives_ret; split; [right; split; [exact Hn|]; right; split; [discriminate|reflexivity]|intros m K; discriminate K]).
        cbn [below] in Hv. apply Nat.ltb_lt in Hv. eapply gives_weaken; [| |exact (Hs _ Hv)].
        * intros j [K1 K2]. split; [right; split; [exact Hn|]; left; eauto|]. intros m K. injection K as <-. exact K2.
        * intros e. apply fails_weaken; [eauto|]. intros K. left. exists l. split; [reflexivity|exact K].
      + inversion Hc as [|? ? Hc1 Hc2]; subst. specialize (IHps Hc2).
        destruct (tell _ _ _ Hw (tot_validate E C U bare (fun i j K => K) q None "" v b Sb (there_none b) Hv Hc1)) as (r & R1 & R2 & _).
        eapply gives_bind with (P := fun t => t = r); [exists (Ok r); split; [now apply conv_outcome|reflexivity]|]. intros t ->.
        destruct r as [v'|e].
        * assert (A : accepts E C U b q v) by (exists v'; eapply conv_answers; eauto).
          eapply gives_weaken; [| |apply Hq; auto].
          -- intros j [K1 K2]. split; [right; split; [exact Hn|left; auto]|]. intros m [[_ K]|[K _]]; [auto|]. exfalso. eapply accepts_refuses; eauto.
          -- intros e. apply fails_weaken; [intros (m & Hm & K); exists m; auto|].
             intros [(m & Hm & K)|K]; [left; exists m; split; [left; auto|exact K]|right].
             intros j [[K1 _]|[_ [[_ K1]|[K1 _]]]]; [congruence|now apply (K j)|]. eapply accepts_refuses; eauto.
        * destruct (is_generic e) eqn:Eg.
          -- assert (A : refuses E C U b q v) by (exists e; split; [eapply conv_answers; eauto|exact Eg]).
             eapply gives_weaken; [| |exact IHps].
             ++ intros j [[K1|[_ K1]] K2]; (split; [|intros m [[K _]|[_ K]]; [exfalso; eapply accepts_refuses; eauto|auto]]).
                ** left. exact K1.
                ** right. split; auto.
             ++ intros e'. apply fails_weaken; [intros (m & Hm & K); exists m; auto|].
                intros [(m & Hm & K)|K]; [left; exists m; split; [right; auto|exact K]|right].
                intros j [K1|[_ [[K1 _]|[_ K1]]]]; [apply (K j); now left|eapply accepts_refuses; eauto|]. apply (K j). right. auto.
          -- apply gives_throw. apply fails_other.
             ++ destruct R1 as [n0 R1]. destruct (R1 (S (S n0)) ltac:(lia) b (like_refl bare b)) as (w2 & R3 & _).
                eapply never_validate; [|exact Hc1|exact R3]. exact (st_spare _ _ _ _ Sb).
             ++ assert (A : answers (fun n => p_validate E C (X n) q None "" v) b (Exc e)) by (eapply conv_answers; eauto).
                right. intros j [[K _]|[_ [[(v' & K) _]|[(e' & K & K2) _]]]]; [congruence| |]; pose proof (answers_fun _ _ _ _ A K) as Q; [discriminate|].
                injection Q as <-. congruence.
    - destruct v; try (apply gives_throw; apply fails_other; [discriminate|]; right; intros j [[K _]|[_ (m & K & _)]]; discriminate).
      cbn [below] in Hv. apply Nat.ltb_lt in Hv. eapply gives_weaken; [| |exact (Hs _ Hv)].
      + intros j [K1 K2]. split; [right; split; [exact Hn|]; eauto|]. intros m K. injection K as <-. exact K2.
      + intros e. apply fails_weaken; [intros K; exists l; split; [reflexivity|exact K]|]. intros K. left. exists l. split; [reflexivity|exact K].
  Qed.

  (** ** Entries *)
  Lemma serial_key l i c k : nth_error (w_heap b) l = Some i -> nth_error (ct_cls C) (i_cls i) = Some c ->
    gives (fun kx => fst kx = k /\ encodes_entry E C U b enc l k (snd kx) /\ forall m, via l k m -> safe F m)
      (fails (exists m, via l k m /\ bad F m) ((exists m, via l k m /\ lack m) \/ forall j, ~ encodes_entry E C U b dicts l k j))
      (fun n => match dget (c_props c) k with
             | Some d => let* v := has_getattr E C U (X n) l k in
                         let* x := decl_serialize E C (X n) o d v in
                         ret (k, x)
             | None => throw ExKey
             end) w.
  Proof.
    intros Hi Hc. assert (Hl : l < N) by (apply nth_error_Some; congruence).
    destruct (dget (c_props c) k) as [d|] eqn:Ed.
    2:{ apply gives_throw. apply fails_other; [discriminate|]. right. intros j (d & (c' & (i' & Hi' & Hc') & Hd) & _). congruence. }
    assert (Hd : declares C b l k d) by (exists c; split; [now exists i|exact Ed]).
    destruct (tell _ _ _ Hw (tot_getattr E C U bare (fun i j K => K) l k b Sb Hl)) as (r & R1 & R2 & R3).
    assert (R4 : answers (fun n => X n (COp (OGet l k))) b r).
    { eapply conv_answers. eapply conv_step. exact R1. }
    assert (Plain : pd_kind d = KProp \/ pd_kind d = KGettable ->
      gives (fun kx => fst kx = k /\ encodes_entry E C U b enc l k (snd kx) /\ forall m, via l k m -> safe F m)
        (fails (exists m, via l k m /\ bad F m) ((exists m, via l k m /\ lack m) \/ forall j, ~ encodes_entry E C U b dicts l k j))
        (fun n => let* v := has_getattr E C U (X n) l k in let* x := p_serialize E C (X n) o (pd_type d) v in ret (k, x)) w).
    { intros Hk. assert (r = Ok (value_or_none (stored b l k))) as ->.
      { destruct R1 as [n0 T]. destruct (T n0 (le_n _) b (like_refl bare b)) as (w2 & E2 & _).
        rewrite (has_getattr_plain E C U n0 l k i c d b Hi Hc Ed Hk) in E2. now injection E2. }
      eapply gives_bind with (P := fun v => v = value_or_none (stored b l k)); [eexists; split; [exact R2|reflexivity]|]. intros v ->.
      assert (V : forall m, via l k m <-> snd_to (pd_type d) (value_or_none (stored b l k)) m).
      { intros m. split.
        - intros (d' & v & Hd' & _ & [Hv _] & Hm). rewrite <- (declares_fun _ _ _ _ _ Hd Hd') in Hm. rewrite Hv. exact Hm.
        - intros Hm. destruct (stored b l k) as [v|] eqn:Es; [|exfalso; eapply sends_none; exact Hm]. exists d, v. repeat split; auto.
          intros ->. eapply sends_none; exact Hm. }
      assert (Ee : forall G j, encodes_entry E C U b G l k j <-> encv G (pd_type d) (value_or_none (stored b l k)) j).
      { intros G j. split.
        - intros (d' & Hd' & K). rewrite <- (declares_fun _ _ _ _ _ Hd Hd') in K. destruct Hk as [Hk|Hk]; rewrite Hk in K; exact K.
        - intros K. exists d. split; [exact Hd|]. destruct Hk as [Hk|Hk]; rewrite Hk; exact K. }
      eapply gives_bind.
      { eapply gives_weaken; [intros a Ha; exact Ha| |apply serial_value].
        - intros e. apply fails_weaken.
          + intros (m & Hm & K). exists m. split; [now apply V|exact K].
          + intros [(m & Hm & K)|K]; [left; exists m; split; [now apply V|exact K]|right]. intros j Kj. apply (K j). now apply Ee.
        - exact R3.
        - intros Hn. destruct (stored b l k) as [v|] eqn:Es; [|now destruct Hn]. eapply st_calm; [exact Sb|exact Hd| |exact Es].
          intros nn Hnn. destruct Hk; congruence. }
      intros j [K1 K2]. apply gives_ret. cbn [fst snd]. split; [reflexivity|]. split; [now apply Ee|]. intros m Hm. apply K2. now apply V. }
    assert (Raw : (forall x, declares C b l k x -> pd_kind x <> KProp /\ pd_kind x <> KGettable) ->
      (forall G j, encodes_entry E C U b G l k j <-> answers (fun n => X n (COp (OGet l k))) b (Ok j)) ->
      gives (fun kx => fst kx = k /\ encodes_entry E C U b enc l k (snd kx) /\ forall m, via l k m -> safe F m)
        (fails (exists m, via l k m /\ bad F m) ((exists m, via l k m /\ lack m) \/ forall j, ~ encodes_entry E C U b dicts l k j))
        (fun n => let* v := has_getattr E C U (X n) l k in let* x := ret v in ret (k, x)) w).
    { intros Hk He. eapply gives_bind with (P := fun v => r = Ok v).
      - exists r. split; [exact R2|]. destruct r as [v|e]; [reflexivity|]. split.
        + intros Hq ->. exfalso. exact (Hq l k R4).
        + right. right. intros j Hj. apply He in Hj. pose proof (answers_fun _ _ _ _ R4 Hj). discriminate.
      - intros v ->. eapply gives_bind with (P := fun x => x = v); [now apply gives_ret|]. intros x ->. apply gives_ret. cbn [fst snd].
        split; [reflexivity|]. split; [now apply He|]. intros m (d' & v' & Hd' & Hk' & _). destruct (Hk _ Hd'). destruct Hk'; contradiction. }
    unfold decl_serialize. destruct (pd_kind d) as [|g0 s0 x0| |nn] eqn:Ek; [now apply Plain; auto| |now apply Plain; auto|].
    - apply Raw.
      + intros x Hx. rewrite <- (declares_fun _ _ _ _ _ Hd Hx), Ek. split; discriminate.
      + intros G j. split; [|intros K; exists d; split; [exact Hd|]; rewrite Ek; exact K].
        intros (d' & Hd' & K). rewrite <- (declares_fun _ _ _ _ _ Hd Hd'), Ek in K. exact K.
    - apply Raw.
      + intros x Hx. rewrite <- (declares_fun _ _ _ _ _ Hd Hx), Ek. split; discriminate.
      + intros G j. split; [|intros K; exists d; split; [exact Hd|]; rewrite Ek; exact K].
        intros (d' & Hd' & K). rewrite <- (declares_fun _ _ _ _ _ Hd Hd'), Ek in K. exact K.
  Qed.
  End Values.

  (** ** Instances *)
  Definition sflagged (w : world) (m : loc) : Prop := exists i, nth_error (w_heap w) m = Some i /\ i_sflag i = true.
  Lemma sflagged_upd w l i m : nth_error (w_heap w) l = Some i ->
    sflagged (w_upd l (i_sets true) w) m <-> sflagged w m \/ m = l.
  Proof.
    intros Hi. unfold sflagged, w_upd. rewrite Hi. cbn [w_setheap w_heap].
    assert (Hl : l < length (w_heap w)) by (apply nth_error_Some; congruence).
    destruct (Nat.eq_dec m l) as [->|Hm].
    - rewrite set_nth_same by exact Hl. split; [auto|]. intros _. eexists. split; [reflexivity|]. reflexivity.
    - rewrite set_nth_other by auto. split; [auto|]. intros [K|K]; [exact K|contradiction].
  Qed.
  Lemma base_upd w l : base w -> base (w_upd l (i_sets true) w).
  Proof.
    intros (H & Q & L). split; [|unfold w_upd; destruct (nth_error (w_heap w) l); auto].
    unfold alike in *. rewrite H. apply alike_upd. reflexivity.
  Qed.
  Lemma gives_get {A} (Q : A -> Prop) B (k : nat -> inst -> M A) w l i :
    nth_error (w_heap w) l = Some i -> gives Q B (fun n => k n i) w -> gives Q B (fun n => bind (get_inst l) (k n)) w.
  Proof. intros Hi (r & H & HQ). exists r. split; auto. eapply conv_get; eauto. unfold same. intros n i1 ->. reflexivity. Qed.
  Lemma serial_inst : forall k w, count open_s w = k -> base w -> forall l, l < N -> serial (sflagged w) l w.
  Proof.
    induction k as [k IH] using lt_wf_ind. intros w Hk Hw l Hl.
    pose proof (alike_len _ _ (proj1 Hw)) as Len. destruct (get_in w l) as (i & Hi); [lia|].
    unfold serial.
    assert (G : gives (fun j => enc l j /\ safe (sflagged w) l) (fails (bad (sflagged w) l) (lack l))
      (fun n => has_serialize E C U (X n) l o) w).
    2:{ destruct G as (r & R & K). exists r. split; [|exact K]. apply conv_step. exact R. }
    unfold has_serialize. eapply gives_get; [exact Hi|]. cbv beta. destruct (i_sflag i) eqn:Es.
    { assert (Bad : bad (sflagged w) l) by (exists l; split; [constructor|left; now exists i]). apply gives_throw. split; [auto|left; auto]. }
    assert (NF : ~ sflagged w l) by (intros (i' & Hi' & K); congruence).
    set (w' := w_upd l (i_sets true) w). assert (Hw' : base w') by (now apply base_upd).
    assert (IH' : forall m, m < N -> serial (sflagged w') m w').
    { intros m Hm. eapply IH; [|reflexivity|exact Hw'|exact Hm].
      pose proof (count_upd open_s l (i_sets true) w i Hi) as K. unfold open_s in K at 1 2. cbn in K. rewrite Es in K.
      specialize (K eq_refl eq_refl). unfold w'. lia. }
    assert (Fl : forall m, sflagged w' m <-> sflagged w m \/ m = l) by (intros m; eapply sflagged_upd; eauto).
    destruct (alike_nth _ _ _ _ (alike_sym _ _ (proj1 Hw)) Hi) as (ib & Hib & Kib).
    destruct (alike_nth _ _ _ _ (proj1 Hw') Hib) as (i' & Hi' & Ki'). apply bare_eq in Ki'. destruct Ki' as (Ki1 & Ki2 & _).
    destruct (nth_error (ct_cls C) (i_cls ib)) as [c|] eqn:Hc; [|now destruct (st_class _ _ _ _ Sb _ _ Hib)].
    assert (G : gives (fun j => enc l j /\ safe (sflagged w) l) (fails (bad (sflagged w) l) (lack l))
      (fun n => let* c := inst_class C l in
           let* i := get_inst l in
           let keys := if s_dyn o then dkeys (c_props c) else dkeys (i_back i) in
           let* data := mapM (fun k =>
             match dget (c_props c) k with
             | Some d => let* v := has_getattr E C U (X n) l k in
                         let* x := decl_serialize E C (X n) o d v in
                         ret (k, x)
             | None => throw ExKey
             end) keys in
           let entries := map (fun kx => (VStr (fst kx), snd kx))
                              (filter (fun kx => negb (is_none (snd kx))) data) in
           ret (VDict (if s_class o then vd_set entries class_key (VStr (c_name c)) else entries))) w').
    { eapply gives_bind with (P := fun c' => c' = c).
      { eexists. split; [apply (conv_cls C same same_bare); exact Hi'|]. now rewrite Ki1, Hc. }
      intros c' ->. eapply gives_get; [exact Hi'|]. cbv zeta. rewrite Ki2.
      set (keys := if s_dyn o then dkeys (c_props c) else dkeys (i_back ib)).
      assert (Bad : forall m, ser_to l m -> bad (sflagged w') m -> bad (sflagged w) l).
      { intros m Hm (q & Hq & K). destruct K as [K|K].
        - apply Fl in K. destruct K as [K| ->]; [exists q; split; [eapply sreach_step; eauto|auto]|].
          exists l. split; [constructor|]. right. now exists m.
        - exists q. split; [eapply sreach_step; eauto|auto]. }
      eapply gives_bind with (P := Forall2 (fun k kx => fst kx = k /\ encodes_entry E C U b enc l k (snd kx) /\
          forall m, via l k m -> safe (sflagged w') m) keys).
      { apply gives_mapM. apply Forall_forall. intros key Hkey.
        eapply gives_weaken; [intros a Ha; exact Ha| |eapply serial_key; eauto].
        intros e. apply fails_weaken.
        - intros (m & Hm & K). apply (Bad m); [eapply via_ser; eauto|exact K].
        - intros [(m & Hm & q & Hq & K)|K].
          + exists q. split; [|exact K]. eapply sreach_step; [eapply via_ser; eauto|exact Hq].
          + exists l. split; [constructor|]. intros (j & i2 & c2 & js & Hi2 & Hc2 & HF & _).
            rewrite Hib in Hi2. injection Hi2 as <-. rewrite Hc in Hc2. injection Hc2 as <-.
            destruct (Forall2_left _ _ _ _ HF Hkey) as (y & Hy). now apply (K y). }
      intros data HF. apply gives_ret.
      assert (HF2 : Forall2 (encodes_entry E C U b enc l) keys (map snd data) /\ data = combine keys (map snd data)).
      { clear -HF. induction HF as [|k [k' x] keys data (K1 & K2 & _) HF [IH1 IH2]]; [split; [constructor|reflexivity]|].
        cbn [fst snd] in *. subst k'. split; [constructor; auto|]. cbn [map combine snd]. now rewrite <- IH2. }
      destruct HF2 as [HF2 Hdata]. split.
      - apply (encodes_intro E C U o b enc); [auto|]. exists ib, c, (map snd data). split; [exact Hib|]. split; [exact Hc|].
        cbv zeta. fold keys. split; [exact HF2|]. now rewrite <- Hdata.
      - assert (Ch : forall m, ser_to l m -> safe (sflagged w') m).
        { intros m Hm. apply ser_via in Hm. destruct Hm as (name & Hm).
          assert (In name keys) as Hin.
          { destruct Hm as (d & v & Hd & _ & [Hv _] & _). unfold keys. destruct (s_dyn o).
            - destruct Hd as (c' & (i2 & Hi2 & Hc2) & Hd). rewrite Hib in Hi2. injection Hi2 as <-. rewrite Hc in Hc2. injection Hc2 as <-. eapply dget_key; eauto.
            - unfold stored in Hv. rewrite Hib in Hv. eapply dget_key; eauto. }
          destruct (Forall2_left _ _ _ _ HF Hin) as (y & _ & _ & Hy). auto. }
        intros m Hm. inversion Hm as [|q m' Hq Hqm]; subst.
        + split; [exact NF|]. intros (q & Hq & Hqm). destruct (Ch q Hq m Hqm) as [K _]. apply K. apply Fl. now right.
        + destruct (Ch q Hq m Hqm) as [K1 K2]. split; [|exact K2]. intros K. apply K1. apply Fl. now left. }
    destruct G as (r & R & K). exists r. split; [|exact K]. apply conv_flag.
    - lia.
    - unfold same. intros; congruence.
    - intros x y Hx Hy. unfold same in Hy. subst y. rewrite Hi in Hx. injection Hx as <-. destruct i. cbn in *. now subst.
    - exact R.
  Qed.
End Cycle.

(** * Theorems *)
Lemma sends_below E C U b N p : forall v m, below N v = true -> sends E C U b p v m -> m < N.
Proof.
  induction p as [t|k q mn mx co IH|kp vp co IHk IHv|si ps IH|cid] using ptype_ind'; intros v m Hv; cbn [sends].
  - contradiction.
  - intros (l & x & Hl & Hx & Hm). pose proof (below_iter _ _ _ Hv Hl) as K. rewrite Forall_forall in K. exact (IH x m (K x Hx) Hm).
  - intros (d & k & x & -> & Hx & Hm). apply below_dict in Hv. rewrite Forall_forall in Hv. destruct (Hv _ Hx) as [K1 K2].
    destruct Hm as [Hm|Hm]; [exact (IHk k m K1 Hm)|exact (IHv x m K2 Hm)].
  - induction IH as [|q ps Hq Hps IHps]; [intros ->; now apply Nat.ltb_lt|]. intros [[_ K]|[_ K]]; [exact (Hq v m Hv K)|exact (IHps K)].
  - intros ->. now apply Nat.ltb_lt.
Qed.
Lemma sreach_below E C U w l m : settled E C U w -> l < length (w_heap w) -> sreach E C U w l m -> m < length (w_heap w).
Proof.
  intros S Hl H. revert Hl. induction H as [|l k m (name & d & v & _ & _ & [Hv _] & Hs) _ IH]; auto.
  intros _. apply IH. eapply sends_below; [|exact Hs]. eapply st_stored; eauto.
Qed.
Lemma s_idle_intro w : forallb (fun i => negb (i_sflag i)) (w_heap w) = true -> s_idle w.
Proof.
  intros H l i Hi. apply nth_error_In in Hi. rewrite forallb_forall in H. specialize (H _ Hi). now destruct (i_sflag i).
Qed.
Lemma serialize_outcome E C U o w l : settled E C U w -> s_idle w -> l < length (w_heap w) ->
  exists r, ends (fun n => exec E C U n (COp (OSer l o))) w r /\
    match r with
    | Ok j => encodes E C U o w l j /\ ~ cyclic E C U w l
    | Exc e => (cyclic E C U w l /\ e = ExSelfRef \/ exists m, sreach E C U w l m /\ ~ encodable E C U o w m) /\
        ((forall m name, ~ answers (fun n => exec E C U n (COp (OGet m name))) w (Exc ExSelfRef)) -> e = ExSelfRef -> cyclic E C U w l)
    end.
Proof.
  intros S I Hl. assert (B : base w w) by (repeat split).
  destruct (serial_inst E C U o w S _ w eq_refl B l Hl) as (r & R & K). exists r. split; [eapply conv_ends; exact R|].
  assert (NF : forall m, ~ sflagged w m) by (intros m (i & Hi & Hs); rewrite (I _ _ Hi) in Hs; discriminate).
  assert (Bad : bad E C U w (sflagged w) l -> cyclic E C U w l) by (intros (m & Hm & [H|H]); [now destruct (NF m)|now exists m]).
  destruct r as [j|e].
  - destruct K as [K1 K2]. split; [exact K1|]. intros (m & Hm & Hc). now destruct (K2 m Hm).
  - destruct K as [K1 K2]. split.
    + destruct K2 as [[K2 K3]|K2]; [left; auto|right; exact K2].
    + intros Hq He. apply Bad. now apply K1.
Qed.
Lemma ends_fun {A} (m : nat -> M A) w r r' : ends m w r -> ends m w r' -> r = r'.
Proof. intros H K. eapply answers_fun; eapply ends_answers; eauto. Qed.
Lemma serialize_exact E C U o w l : settled E C U w -> s_idle w -> l < length (w_heap w) -> forall j,
  ends (fun n => exec E C U n (COp (OSer l o))) w (Ok j) <-> encodes E C U o w l j.
Proof.
  intros S I Hl j. destruct (serialize_outcome E C U o w l S I Hl) as (r & R & K). split.
  - intros H. rewrite (ends_fun _ _ _ _ R H) in K. now destruct K.
  - intros H. destruct r as [j'|e].
    + destruct K as [K _]. now rewrite (enc_fun E C U o w l j j' H K).
    + exfalso. destruct K as [[[(m & Hm & Hc) _]|K] _]; [eapply enc_acyclic; eauto|]. eapply enc_lack; eauto.
Qed.
Lemma serialize_cycles E C U o w l : settled E C U w -> s_idle w -> l < length (w_heap w) ->
  (cyclic E C U w l -> exists e, ends (fun n => exec E C U n (COp (OSer l o))) w (Exc e)) /\
  ((forall m, sreach E C U w l m -> encodable E C U o w m) -> cyclic E C U w l ->
     ends (fun n => exec E C U n (COp (OSer l o))) w (Exc ExSelfRef)) /\
  ((forall m, sreach E C U w l m -> encodable E C U o w m) -> ~ cyclic E C U w l ->
     exists j, ends (fun n => exec E C U n (COp (OSer l o))) w (Ok j)) /\
  ((forall m name, ~ answers (fun n => exec E C U n (COp (OGet m name))) w (Exc ExSelfRef)) ->
   ends (fun n => exec E C U n (COp (OSer l o))) w (Exc ExSelfRef) -> cyclic E C U w l).
Proof.
  intros S I Hl. destruct (serialize_outcome E C U o w l S I Hl) as (r & R & K). split; [|split; [|split]].
  - intros Hc. destruct r as [j|e]; [now destruct K|]. now exists e.
  - intros He Hc. destruct r as [j|e]; [now destruct K|]. destruct K as [[[_ ->]|(m & Hm & K)] _]; [exact R|]. now destruct K; auto.
  - intros He Hc. destruct r as [j|e]; [eauto|]. destruct K as [[[K _]|(m & Hm & K)] _]; [contradiction|]. now destruct K; auto.
  - intros Hq H. rewrite (ends_fun _ _ _ _ R H) in K. destruct K as [_ K]. now apply K.
Qed.
Lemma serialize_ends E C U o w : settled E C U w -> s_idle w -> forall l, l < length (w_heap w) ->
  exists r, ends (fun n => exec E C U n (COp (OSer l o))) w r.
Proof. intros S I l Hl. destruct (serialize_outcome E C U o w l S I Hl) as (r & R & _). eauto. Qed.
