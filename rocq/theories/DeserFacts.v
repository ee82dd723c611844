(** Facts about deserialization. *)
From Verif Require Import World WorldFrame WorldSpec WorldInv WorldSet WorldFacts AccessSpec ContainerFacts AccessFacts DeserSpec.
Local Open Scope string_scope.
Local Open Scope list_scope.
Local Open Scope nat_scope.

Lemma unheard_refl w : unheard w w.
Proof. split; [reflexivity|]. exists []. split; [reflexivity|constructor]. Qed.
Lemma unheard_trans a b c : unheard a b -> unheard b c -> unheard a c.
Proof.
  intros (Q1 & n1 & S1 & F1) (Q2 & n2 & S2 & F2). split; [congruence|]. exists (n2 ++ n1).
  split; [unfold since in *; now rewrite S2, S1, app_assoc|]. apply Forall_app. auto.
Qed.
Lemma unheard_same w w' : w_quar w' = w_quar w -> w_trace w' = w_trace w -> unheard w w'.
Proof. intros H K. split; [exact H|]. exists []. split; [exact K|constructor]. Qed.

Definition hushed {A} (m : M A) : Prop := forall w, unheard w (snd (m w)).
Lemma hu_same {A} (m : M A) : (forall w, snd (m w) = w) -> hushed m.
Proof. intros H w. rewrite H. apply unheard_refl. Qed.
Lemma hu_ret {A} (a : A) : hushed (ret a).
Proof. now apply hu_same. Qed.
Lemma hu_throw {A} e : hushed (@throw A e).
Proof. now apply hu_same. Qed.
Lemma hu_lift {A} (r : res A) : hushed (lift r).
Proof. now apply hu_same. Qed.
Lemma hu_upd l f : hushed (upd l f).
Proof. intros w. apply unheard_same; [apply w_upd_quar|apply w_upd_trace]. Qed.
Lemma hu_bind {A B} (m : M A) (k : A -> M B) : hushed m -> (forall a, hushed (k a)) -> hushed (bind m k).
Proof. intros H K w. unfold bind. specialize (H w). destruct (m w) as [[a|e] w1]; cbn [snd] in *; [|exact H]. eapply unheard_trans; [exact H|apply K]. Qed.
(** the continuation sees only values that the first part can give *)
Lemma hu_bind' {A B} (m : M A) (k : A -> M B) : hushed m -> (forall w a w', m w = (Ok a, w') -> hushed (k a)) -> hushed (bind m k).
Proof. intros H K w. unfold bind. specialize (H w). destruct (m w) as [[a|e] w1] eqn:Em; cbn [snd] in *; [|exact H]. eapply unheard_trans; [exact H|eapply K; eauto]. Qed.
Lemma hu_try {A} (m : M A) h : hushed m -> (forall e, hushed (h e)) -> hushed (try_ m h).
Proof. intros H K w. unfold try_. specialize (H w). destruct (m w) as [[a|e] w1]; cbn [snd] in *; [exact H|]. eapply unheard_trans; [exact H|apply K]. Qed.
Lemma hu_outcome {A} (m : M A) : hushed m -> hushed (outcome m).
Proof. intros H w. unfold outcome. specialize (H w). destruct (m w). exact H. Qed.
Lemma hu_mapM {A B} (f : A -> M B) l : (forall x, In x l -> hushed (f x)) -> hushed (mapM f l).
Proof.
  induction l as [|x l IH]; intros H; cbn [mapM]; [apply hu_ret|]. apply hu_bind; [apply H; now left|]. intros y.
  apply hu_bind; [apply IH; intros; apply H; now right|]. intros. apply hu_ret.
Qed.
Lemma hu_iterM {A} (f : A -> M unit) l : (forall x, In x l -> hushed (f x)) -> hushed (iterM f l).
Proof.
  induction l as [|x l IH]; intros H; cbn [iterM]; [apply hu_ret|]. apply hu_bind; [apply H; now left|]. intros _.
  apply IH; intros; apply H; now right.
Qed.
Lemma hu_quiet {A} (m : M A) : quietM m -> hushed m.
Proof.
  intros H w. destruct (H w) as [_ Q _ _ (hs & S & F)]. split; [exact Q|]. exists hs. split; [exact S|].
  eapply Forall_impl; [|exact F]. intros [] K; simpl in *; tauto.
Qed.
Lemma hu_get_inst l : hushed (get_inst l).
Proof. apply hu_same. intros w. unfold get_inst. destruct nth_error; reflexivity. Qed.
Lemma hu_class_of C cid : hushed (class_of C cid).
Proof. apply hu_same. intros w. unfold class_of. reflexivity. Qed.
Lemma hu_inst_class C l : hushed (inst_class C l).
Proof. unfold inst_class. apply hu_bind; [apply hu_get_inst|]. intros. apply hu_class_of. Qed.
Lemma class_of_ok C cid w c w' : class_of C cid w = (Ok c, w') -> nth_error (ct_cls C) cid = Some c.
Proof. unfold class_of. destruct (nth_error (ct_cls C) cid); simpl; [now intros [= <- <-]|discriminate]. Qed.

Section Deser.
  Variables (E : env) (C : ctable) (U : ucode).
  Hypothesis HC : wf_ctab C.
  Hypothesis HT : calm_table C.
  Hypothesis HD : calm_defaults C U.
  Notation ex := (exec E C U).

  Lemma hu_block n o : hushed (disabled None (ex n (COp o))).
  Proof.
    intros w. unfold disabled. set (w1 := w_setquar (quar_enter None (w_quar w)) w).
    pose proof (exec_ev E C U n (COp o) 0 w1 HC) as (G & new & S & F); [lia|exact I|].
    destruct (ex n (COp o) w1) as [r w2]. cbn [snd] in *. split; [reflexivity|]. exists new. split; [exact S|].
    eapply Forall_impl; [|exact F]. intros e He K. destruct e as [sid l nm m f p v| |]; simpl in K; try tauto.
    destruct He as [_ He]. revert He. unfold w1, quar_enter. simpl. now destruct m.
  Qed.

  Lemma type_free p : inst_free p -> forall rec io name v, hushed (p_validate E C rec p io name v).
  Proof. intros H rec io name v. apply hu_quiet. now apply validate_free. Qed.

  (** A constructor called with a positional argument fails after assigning the
      defaults. *)
  Lemma hu_new_none n cid : hushed (ex n (COp (ONew cid None))).
  Proof.
    destruct n as [|n]; [now apply hu_same|]. cbn [exec step]. unfold has_new.
    apply hu_bind'; [apply hu_class_of|]. intros w c w' Hc. apply class_of_ok in Hc.
    apply hu_bind. { intros w0. apply unheard_same; reflexivity. } intros l.
    apply hu_bind.
    { apply hu_iterM. intros d _. apply hu_bind; [|intros; apply hu_ret]. unfold has_observe. apply hu_bind; [apply hu_inst_class|].
      intros c0. apply hu_bind; [apply hu_upd|]. intros. apply hu_ret. }
    intros _. apply hu_bind.
    { apply hu_iterM. intros [name d] Hin. unfold init_gettable. cbn [fst snd].
      assert (Hk : pd_kind d <> KProp -> hushed (match default_of c name d with
        | DUndef | DVal VUndef => ret tt
        | x => let* v := eval_default U (ex n) x in
               let* v1 := p_validate E C (ex n) (decl_type d) (Some l) name v in
               upd l (fun i => i_setback (dset (i_back i) name v1) i) end)).
      { intros Hk.
        assert (Hf : inst_free (decl_type d)).
        { pose proof (HT cid c name d Hc Hin) as K. unfold decl_type. destruct (pd_kind d); try exact K; try congruence; try exact I. }
        assert (G : forall x, x = default_of c name d -> hushed (let* v := eval_default U (ex n) x in
               let* v1 := p_validate E C (ex n) (decl_type d) (Some l) name v in
               upd l (fun i => i_setback (dset (i_back i) name v1) i))).
        { intros x Ex. apply hu_bind.
          - destruct x as [|v|cb]; cbn [eval_default]; try apply hu_ret. pose proof (HD cid c name d cb Hc Hin Hk (eq_sym Ex)) as HDc. destruct (u_default U cb); cbn [run]; try contradiction; [apply hu_ret|apply hu_throw].
          - intros v. apply hu_bind; [now apply type_free|]. intros. apply hu_upd. }
        destruct (default_of c name d) as [|v|cb]; [apply hu_ret| |now apply G]. destruct v; try (now apply G). apply hu_ret. }
      destruct (pd_kind d); [apply Hk; discriminate|apply Hk; discriminate|apply hu_ret|apply Hk; discriminate]. }
    intros _. apply hu_bind; [apply (hu_block (S n) (OReset l None))|]. intros _. apply hu_throw.
  Qed.

  Lemma deser_inst n cid v o w x w' : ex n (COp (ODeser cid v o)) w = (Ok x, w') -> exists l, x = VInst l.
  Proof.
    destruct n as [|n]; [discriminate|]. cbn [exec step]. unfold has_deserialize. destruct v; try discriminate.
    intros H. apply bind_ok in H as (k & w1 & _ & H). apply bind_ok in H as (c & w2 & _ & H).
    destruct (_ && _); [discriminate|]. apply bind_ok in H as (ns & w3 & _ & H). apply bind_ok in H as (iv & w4 & _ & H).
    destruct iv; try discriminate. apply bind_ok in H as (u & w5 & _ & H). apply bind_ok in H as (u' & w6 & _ & H). injection H as <- _. eauto.
  Qed.
  Lemma hu_validate_inst n cid v name : match v with VDict _ => False | _ => True end ->
    hushed (p_validate E C (ex n) (PInst cid) None name v).
  Proof.
    intros Hv. cbn [p_validate]. apply hu_try.
    - apply hu_bind.
      + unfold isinstance. destruct v; try apply hu_ret. apply hu_bind; [apply hu_inst_class|]. intros. apply hu_ret.
      + intros [|]; [apply hu_ret|]. destruct v; try apply hu_new_none. destruct Hv.
    - intros e. destruct (is_generic e); [|apply hu_throw]. unfold perror, verror. apply hu_bind; [apply hu_ret|]. intros. apply hu_throw.
  Qed.

  Lemma hu_p_deserialize n : (forall cid v o, o_valid o = false -> hushed (ex n (COp (ODeser cid v o)))) ->
    forall p, calm p -> forall o v, o_valid o = false -> hushed (p_deserialize E C (ex n) o p v).
  Proof.
    intros Hrec p.
    assert (Free : forall p, inst_free p -> forall o v, hushed (p_deserialize E C (ex n) o p v)).
    { clear p. induction p as [t|k q mn mx co IH|kp vp co IHk IHv|si ps IH|cid] using ptype_ind'; intros Hp o v; cbn [p_deserialize];
        (destruct (is_none v); [apply hu_ret|]); cbn [inst_free] in Hp.
      - apply hu_lift.
      - apply hu_bind; [apply hu_lift|]. intros items. apply hu_bind; [|intros; apply hu_lift]. apply hu_mapM. intros; now apply IH.
      - destruct v; try apply hu_throw. destruct Hp. apply hu_bind; [|intros; apply hu_bind; [apply hu_lift|intros; apply hu_ret]].
        apply hu_mapM. intros kx _. apply hu_bind; [now apply IHk|]. intros. apply hu_bind; [now apply IHv|]. intros. apply hu_ret.
      - set (o1 := DOpt _ _ _). clearbody o1.
        match goal with |- hushed (match ?m with Some _ => _ | None => ?f end) => assert (Hall : hushed f) end.
        { revert Hp. induction IH as [|q ps Hq Hps IHps]; intros Hp; [apply hu_ret|]. destruct Hp as [H1 H2].
          apply hu_bind.
          - apply hu_outcome. apply hu_bind; [now apply Hq|]. intros out. apply hu_bind; [now apply type_free|]. intros; apply hu_ret.
          - intros [out|e]; [apply hu_ret|]. destruct (is_generic e); [exact (IHps H2)|apply hu_throw]. }
        destruct (match v with VDict d => _ | _ => None end) as [cn|]; [|exact Hall].
        match type of Hall with hushed ?f => set (all0 := f) in *; clearbody all0 end.
        clear IH. revert Hp Hall. generalize all0. induction ps as [|q ps IHps]; intros all1 Hp Hall; [exact Hall|]. destruct Hp as [H1 H2].
        destruct q; try exact (IHps all1 H2 Hall). destruct H1.
      - destruct Hp. }
    induction p as [t|k q mn mx co IH|kp vp co IHk IHv|si ps IH|cid] using ptype_ind'; intros Hp o v Ho.
    - now apply Free.
    - cbn [p_deserialize]. destruct (is_none v); [apply hu_ret|]. apply hu_bind; [apply hu_lift|]. intros items. apply hu_bind; [|intros; apply hu_lift]. apply hu_mapM. intros; now apply IH.
    - cbn [p_deserialize]. destruct (is_none v); [apply hu_ret|]. destruct v; try apply hu_throw. destruct Hp. apply hu_bind; [|intros; apply hu_bind; [apply hu_lift|intros; apply hu_ret]].
      apply hu_mapM. intros kx _. apply hu_bind; [now apply IHk|]. intros. apply hu_bind; [now apply IHv|]. intros. apply hu_ret.
    - destruct Hp as [Hp|[-> Hp]]; [now apply Free|]. clear IH. cbn [p_deserialize]. destruct (is_none v) eqn:Hnv; [apply hu_ret|].
      set (o1 := DOpt _ _ false). assert (Ho1 : o_valid o1 = false) by reflexivity. clearbody o1.
      match goal with |- hushed (match ?m with Some _ => _ | None => ?f end) => assert (Hall : hushed f) end.
      { revert Hp. induction ps as [|q ps IHps]; intros Hp; [apply hu_ret|]. destruct Hp as [H1 H2].
        apply hu_bind.
        - apply hu_outcome. destruct H1 as [H1|[cid ->]].
          + apply hu_bind; [now apply Free|]. intros out. apply hu_bind; [now apply type_free|]. intros; apply hu_ret.
          + cbn [p_deserialize]. rewrite Hnv. apply hu_bind'; [now apply Hrec|]. intros w out w' Eo. apply deser_inst in Eo as (l & ->).
            apply hu_bind; [now apply hu_validate_inst|]. intros; apply hu_ret.
        - intros [out|e]; [apply hu_ret|]. destruct (is_generic e); [exact (IHps H2)|apply hu_throw]. }
      destruct (match v with VDict d => _ | _ => None end) as [cn|]; [|exact Hall].
      match type of Hall with hushed ?f => set (all0 := f) in *; clearbody all0 end.
      revert Hp Hall. generalize all0. induction ps as [|q ps IHps]; intros all1 Hp Hall; [exact Hall|]. destruct Hp as [H1 H2].
      destruct q as [| | | |cid]; try exact (IHps all1 H2 Hall).
      apply hu_bind; [apply hu_class_of|]. intros k. destruct (py_eq cn (VStr (c_name k))); [|exact (IHps all1 H2 Hall)].
      cbn [p_deserialize]. rewrite Hnv. now apply Hrec.
    - cbn [p_deserialize]. destruct (is_none v); [apply hu_ret|]. now apply Hrec.
  Qed.

  Lemma hu_deserialize n : forall cid v o, o_valid o = false -> hushed (ex n (COp (ODeser cid v o))).
  Proof.
    induction n as [|n IH]; intros cid v o Ho; [now apply hu_same|]. cbn [exec step]. unfold has_deserialize.
    destruct v as [| | | | | | | | | | | | |d|]; try apply hu_throw.
    apply hu_bind.
    { unfold deser_class. apply hu_bind; [apply hu_class_of|]. intros c. destruct (vd_get d class_key) as [nm|]; [|apply hu_ret].
      destruct (_ || _); [apply hu_ret|]. destruct (_ && _); [apply hu_throw|].
      match goal with |- hushed (match ?m with Some _ => _ | None => _ end) => destruct m end; [apply hu_ret|]. destruct (o_strict o); [apply hu_throw|apply hu_ret]. }
    intros k. apply hu_bind'; [apply hu_class_of|]. intros w0 c w1 Hc. apply class_of_ok in Hc.
    destruct (_ && _); [apply hu_throw|].
    apply hu_bind.
    { apply hu_mapM. intros kv _. destruct (dget (c_props c) (fst kv)) as [pd|] eqn:Hd; [|apply hu_throw].
      apply dget_in in Hd. pose proof (HT _ _ _ _ Hc Hd) as K. apply hu_bind; [|intros; apply hu_ret]. unfold decl_deserialize.
      destruct (pd_kind pd).
      - apply hu_p_deserialize; [exact IH| |reflexivity]. clear - K. induction (pd_type pd) as [|? ? ? ? ? IHq|? ? ? IHa IHb| |] using ptype_ind'; cbn [calm inst_free] in *; auto; tauto.
      - apply hu_ret.
      - apply hu_p_deserialize; [exact IH|exact K|reflexivity].
      - apply hu_ret. }
    intros ns. apply hu_bind.
    { apply (hu_block (S n) (ONew k (Some (filter (fun kv => key_mutable c (fst kv)) ns)))). }
    intros iv. destruct iv as [| | | | | | | | | | | | | |l]; try apply hu_throw.
    apply hu_bind.
    { apply hu_iterM. intros kv Hin. apply filter_In in Hin as [_ Hm]. unfold key_mutable in Hm.
      destruct (dget (c_props c) (fst kv)) as [pd|] eqn:Hd; [|apply hu_throw].
      apply hu_bind; [|intros; apply hu_upd]. apply type_free. apply dget_in in Hd. pose proof (HT _ _ _ _ Hc Hd) as K.
      unfold is_mutable in Hm. unfold decl_type. destruct (pd_kind pd); try exact K; discriminate. }
    intros _. rewrite Ho. apply hu_bind; [apply hu_ret|]. intros _. apply hu_ret.
  Qed.

  Theorem deserialize_unheard n cid v o w r w' : o_valid o = false ->
    ex n (COp (ODeser cid v o)) w = (r, w') -> unheard w w'.
  Proof. intros Ho H. pose proof (hu_deserialize n cid v o Ho w) as K. now rewrite H in K. Qed.
  Theorem copy_unheard n l i w r1 w1 r w' : nth_error (w_heap w) l = Some i ->
    ex n (COp (OSer l (SOpt true false))) w = (r1, w1) -> ex (S n) (COp (OCopy l)) w = (r, w') -> unheard w1 w'.
  Proof.
    intros Hi Hs. cbn [exec step]. unfold has_copy. unfold bind at 1. unfold get_inst. rewrite Hi.
    unfold bind. rewrite Hs. intros H.
    destruct r1 as [j|e]; [|injection H as <- <-; apply unheard_refl]. eapply deserialize_unheard; [|exact H]. reflexivity.
  Qed.
  (** with [assert_valid=True] the result is validated once it is complete *)
  Theorem deserialize_valid n cid v t s w r w' : ex (S n) (COp (ODeser cid v (DOpt t s true))) w = (r, w') ->
    exists r1 w1, ex (S n) (COp (ODeser cid v (DOpt t s false))) w = (r1, w1) /\ unheard w w1 /\ match r1 with
      | Exc e => r = Exc e /\ w' = w1
      | Ok x => exists l r2, x = VInst l /\ ex n (COp (OValidate l)) w1 = (r2, w') /\ r = match r2 with Ok _ => Ok x | Exc e => Exc e end
      end.
  Proof.
    destruct (ex (S n) (COp (ODeser cid v (DOpt t s false))) w) as [r1 w1] eqn:H1. intros H. exists r1, w1. split; [reflexivity|].
    split; [eapply deserialize_unheard; [|exact H1]; reflexivity|]. revert H H1. cbn [exec step]. unfold has_deserialize.
    destruct v as [| | | | | | | | | | | | |d|]; try (intros [= <- <-] [= <- <-]; now split). cbn [o_trusted o_strict o_valid].
    unfold bind at 1. intros H H1. unfold bind at 1 in H1. change (deser_class C cid (vd_get d class_key) (DOpt t s true)) with (deser_class C cid (vd_get d class_key) (DOpt t s false)) in H.
    destruct (deser_class _ _ _ _ w) as [[k|e] wa]; [|injection H as <- <-; injection H1 as <- <-; now split].
    unfold bind at 1 in H. unfold bind at 1 in H1. destruct (class_of C k wa) as [[c|e] wb]; [|injection H as <- <-; injection H1 as <- <-; now split].
    destruct (_ && _); [injection H as <- <-; injection H1 as <- <-; now split|].
    unfold bind at 1 in H. unfold bind at 1 in H1.
    match type of H with (match ?m with _ => _ end) = _ => destruct m as [[ns|e] wc] end; [|injection H as <- <-; injection H1 as <- <-; now split].
    unfold bind at 1 in H. unfold bind at 1 in H1.
    match type of H with (match ?m with _ => _ end) = _ => destruct m as [[iv|e] wd] end; [|injection H as <- <-; injection H1 as <- <-; now split].
    destruct iv as [| | | | | | | | | | | | | |l]; try (injection H as <- <-; injection H1 as <- <-; now split).
    unfold bind at 1 in H. unfold bind at 1 in H1.
    match type of H with (match ?m with _ => _ end) = _ => destruct m as [[u|e] we] end; [|injection H as <- <-; injection H1 as <- <-; now split].
    unfold bind, ret in H1. injection H1 as <- <-. exists l. unfold bind, ret in H.
    destruct (ex n (COp (OValidate l)) we) as [[x|e] wf]; injection H as <- <-; eexists; repeat split; reflexivity.
  Qed.
End Deser.

Theorem deserialize_restores E C U n cid v o w r w' : wf_ctab C -> exec E C U n (COp (ODeser cid v o)) w = (r, w') -> w_quar w' = w_quar w.
Proof.
  intros HC H. pose proof (exec_ev E C U n (COp (ODeser cid v o)) 0 w HC) as (G & _); [lia|exact I|]. rewrite H in G. apply G.
Qed.
