(** Facts about the calls of [_error_hook]. *)
From Verif Require Import World WorldFrame WorldSpec WorldInv WorldSet WorldFacts AccessSpec ContainerFacts AccessFacts HookSpec.
Local Open Scope string_scope.
Local Open Scope list_scope.
Local Open Scope nat_scope.

Lemma hook_calls_app l a b : hook_calls l (a ++ b) = hook_calls l a ++ hook_calls l b.
Proof. induction a as [|[] a IH]; simpl; auto. destruct Nat.eqb; simpl; now rewrite IH. Qed.
Lemma reported_refl l w : reported l w w [].
Proof. exists []. split; reflexivity. Qed.
Lemma reported_trans l a b c x y : reported l a b x -> reported l b c y -> reported l a c (y ++ x).
Proof. intros (n1 & S1 & <-) (n2 & S2 & <-). exists (n2 ++ n1). split; [unfold since in *; now rewrite S2, S1, app_assoc|apply hook_calls_app]. Qed.
Lemma reported_trace l a b : w_trace b = w_trace a -> reported l a b [].
Proof. intros H. exists []. split; [exact H|reflexivity]. Qed.
Lemma reported_trace_l l a b c x : w_trace b = w_trace a -> reported l b c x -> reported l a c x.
Proof. intros H K. rewrite <- (app_nil_r x). eapply reported_trans; [|exact K]. now apply reported_trace. Qed.
Lemma reported_trace_r l a b c x : w_trace c = w_trace b -> reported l a b x -> reported l a c x.
Proof. intros H K. change x with ([] ++ x). eapply reported_trans; [exact K|]. now apply reported_trace. Qed.

(** While an instance is being validated or initialised, its hook is silent. *)
Definition hush (w w' : world) : Prop :=
  forall l, validating w l (Some true) -> validating w' l (Some true) /\ reported l w w' [].

Lemma validating_heap w w' l b : w_heap w' = w_heap w -> validating w l b -> validating w' l b.
Proof. intros H (i & Hi & K). exists i. now rewrite H. Qed.
Lemma validating_upd w l f l' b : (forall i, i_vflag (f i) = i_vflag i) -> validating w l' b -> validating (w_upd l f w) l' b.
Proof.
  intros Hf (i & Hi & K). destruct (Nat.eq_dec l l') as [<-|Hn].
  - exists (f i). rewrite w_upd_nth_same, Hi. simpl. now rewrite Hf.
  - exists i. now rewrite w_upd_nth_other.
Qed.
Lemma validating_other w l f l' b : l <> l' -> validating w l' b -> validating (w_upd l f w) l' b.
Proof. intros Hn (i & Hi & K). exists i. now rewrite w_upd_nth_other. Qed.
Lemma validating_len w l b : validating w l b -> l < length (w_heap w).
Proof. intros (i & Hi & _). apply nth_error_Some. congruence. Qed.

Lemma hush_refl w : hush w w.
Proof. intros l H. split; [exact H|apply reported_refl]. Qed.
Lemma hush_trans a b c : hush a b -> hush b c -> hush a c.
Proof. intros H K l V. destruct (H l V) as [V1 R1]. destruct (K l V1) as [V2 R2]. split; [exact V2|]. exact (reported_trans _ _ _ _ _ _ R1 R2). Qed.
Lemma hush_same w w' : w_heap w' = w_heap w -> w_trace w' = w_trace w -> hush w w'.
Proof. intros H K l V. split; [eapply validating_heap; eauto|now apply reported_trace]. Qed.
Lemma hush_upd w l f : (forall i, i_vflag (f i) = i_vflag i) -> hush w (w_upd l f w).
Proof. intros H l' V. split; [now apply validating_upd|apply reported_trace, w_upd_trace]. Qed.

Lemma frame_hush E C U : frame E C U (fun _ w w' => grows w w' /\ hush w w') anyT.
Proof.
  pose proof (frame_ext E C U) as FE.
  assert (Br : forall l f g w w2, (forall i, i_vflag (f i) = i_vflag i) -> (forall i, i_vflag (g i) = i_vflag i) ->
     hush (w_upd l f w) w2 -> hush w (w_upd l g w2)).
  { intros l f g w w2 Hf Hg H. eapply hush_trans; [apply (hush_upd w l f Hf)|]. eapply hush_trans; [exact H|]. now apply hush_upd. }
  constructor; intros; unfold anyT; try exact I.
  - split; [apply ext_refl|apply hush_refl].
  - destruct H, H0. split; [eapply ext_trans; eauto|eapply hush_trans; eauto].
  - apply H.
  - split; [apply ext_tick|now apply hush_same].
  - split; [apply ext_emit|]. intros l' V. split; [exact V|]. exists [EHook l ts]. split; [reflexivity|]. simpl.
    destruct (Nat.eqb_spec l l') as [->|]; [|reflexivity]. destruct V as (j & Hj & Kj). congruence.
  - split; [apply ext_emit|]. intros l' V. split; [exact V|]. exists [ECall sid l n m f p v]. split; reflexivity.
  - split; [now apply (f_write _ _ _ _ _ FE) with (s := s) (d := d)|].
    eapply hush_trans; [apply (hush_upd w l (fun i => i_setback (if is_undef v then ddel (i_back i) n else dset (i_back i) n v) i)); reflexivity|].
    intros l' V. split; [exact V|]. exists [EWrite sid l n v]. split; reflexivity.
  - split; [now apply (f_alloc _ _ _ _ _ FE)|]. intros l' V. split; [|now apply reported_trace].
    destruct V as (i & Hi & K). exists i. simpl. rewrite nth_error_app1; [auto|]. apply nth_error_Some. congruence.
  - split; [apply (f_lst _ _ _ _ _ FE 0)|apply hush_upd; reflexivity].
  - split; [eapply (f_attr _ _ _ _ _ FE 0); eauto|apply hush_upd; reflexivity].
  - split; [eapply (f_attrdel _ _ _ _ _ FE 0); eauto|apply hush_upd; reflexivity].
  - destruct H1 as [G K]. split; [eapply (f_vbr _ _ _ _ _ FE 0); eauto|].
    intros l' V. assert (Hn : l <> l') by (intros ->; destruct V as (j & Hj & Kj); congruence).
    destruct (K l') as [V2 R2]; [now apply validating_other|]. split; [now apply validating_other|].
    eapply reported_trace_l; [|eapply reported_trace_r; [|exact R2]]; apply w_upd_trace.
  - destruct H as [G0 K0], H1 as [G K]. split; [eapply (f_initbr _ _ _ _ _ FE 0); eauto|].
    intros l' V. assert (Hn : l <> l') by (apply validating_len in V; lia).
    destruct (K0 l' V) as [V1 R1]. destruct (K l') as [V2 R2]; [now apply validating_other|]. split; [now apply validating_other|].
    refine (reported_trans _ _ w _ _ [] R1 _). eapply reported_trace_l; [|eapply reported_trace_r; [|exact R2]]; apply w_upd_trace.
  - destruct H as [G0 K0]. split; [eapply (f_fresh _ _ _ _ _ FE 0); eauto|]. eapply hush_trans; [exact K0|apply hush_upd; reflexivity].
  - destruct H1 as [G K]. split; [eapply (f_sbr _ _ _ _ _ FE 0); eauto|]. eapply Br; [| |exact K]; reflexivity.
  - destruct H1 as [G K]. split; [eapply (f_ebr _ _ _ _ _ FE 0); eauto|]. eapply Br; [| |exact K]; reflexivity.
  - destruct H as [G K]. split; [eapply (f_quarbr _ _ _ _ _ FE 0); eauto|]. exact K.
  - split; [apply (f_newlink _ _ _ _ _ FE 0); auto|now apply hush_same].
  - split; [apply (f_unlink _ _ _ _ _ FE 0)|]. apply hush_same; [apply w_updlink_heap|apply w_updlink_trace].
  - destruct H1 as [G K]. split; [eapply (f_linkbr _ _ _ _ _ FE 0); eauto|].
    eapply hush_trans; [|eapply hush_trans; [exact K|]]; (apply hush_same; [apply w_updlink_heap|apply w_updlink_trace]).
  - left. intros. exact I.
Qed.

(** ** What the loops collect *)
Definition kept (a : errs) : Prop := forall e, snd a = Some e -> is_validation e = false.
Definition collects (m : M errs) : Prop :=
  forall w, match fst (m w) with Ok a => kept a | Exc e => is_validation e = false end.
Lemma collects_ret a : kept a -> collects (ret a).
Proof. intros H w. exact H. Qed.
Lemma collects_add a e : kept a -> collects (add_err a e).
Proof.
  intros H w. unfold add_err. destruct e; simpl; try exact H; try reflexivity;
    intros e' K; cbn [snd] in K; destruct (snd a) as [e0|] eqn:Ka; injection K as <-; auto.
Qed.
Lemma collects_bind {A} (m : M A) k : (forall w e, fst (m w) = Exc e -> is_validation e = false) -> (forall a, collects (k a)) -> collects (bind m k).
Proof. intros Hm Hk w. unfold bind. specialize (Hm w). destruct (m w) as [[a|e] w1]; [apply Hk|]. apply Hm. reflexivity. Qed.
Lemma collects_outcome {A} (m : M A) k : (forall r, collects (k r)) -> collects (bind (outcome m) k).
Proof. intros Hk w. unfold bind, outcome. destruct (m w) as [r w1]. apply Hk. Qed.
Lemma collects_foldM {A} (f : errs -> A -> M errs) l : (forall a x, kept a -> collects (f a x)) -> forall a, kept a -> collects (foldM f a l).
Proof.
  intros Hf. induction l as [|x l IH]; intros a Ha; cbn [foldM]; [now apply collects_ret|].
  intros w. pose proof (Hf a x Ha w) as K. unfold bind. destruct (f a x w) as [[a'|e] w1]; [now apply IH|exact K].
Qed.
Lemma get_inst_nv l w e : fst (get_inst l w) = Exc e -> is_validation e = false.
Proof. unfold get_inst. destruct nth_error; [discriminate|]. simpl. now intros [= <-]. Qed.

Section Hook.
  Variables (E : env) (C : ctable) (U : ucode).
  Hypothesis HC : wf_ctab C.
  Notation ex := (exec E C U).

  Lemma collects_init_kw rec c l a kv : kept a -> collects (init_kw E C U rec c l a kv).
  Proof.
    intros Ha. destruct kv as [k v]. cbn [init_kw]. apply collects_bind; [intros; eapply get_inst_nv; eauto|]. intros i.
    assert (K : collects (let* r := outcome (has_setattr E C U rec l k v) in match r with Ok _ => ret a | Exc e => add_err a e end)).
    { apply collects_outcome. intros [x|e]; [now apply collects_ret|now apply collects_add]. }
    assert (T : collects (throw ExAttr)) by (intros w; reflexivity).
    destruct (dget (c_props c) k) as [d|]; [destruct (pd_kind d); assumption|]. destruct (_ || _); assumption.
  Qed.
  Lemma collects_validate_props rec l ps w : exists a w', validate_props E C rec l ps w = (Ok a, w') /\ kept a.
  Proof.
    revert w. induction ps as [|nd ps IH]; intros w; cbn [validate_props].
    - exists ([], None), w. split; [reflexivity|discriminate].
    - unfold bind at 1, outcome. destruct (check_prop E C rec l nd w) as [[[]|e] w1]; [apply IH|].
      assert (O : is_validation e = false -> exists a w', (Ok ([], Some e), w1) = (Ok a, w') /\ kept a).
      { intros He. exists ([], Some e), w1. split; [reflexivity|]. intros e' K. now injection K as <-. }
      destruct e; try (apply O; reflexivity).
      destruct (IH w1) as (a & w2 & K & Ka). unfold bind. rewrite K. eexists _, _. split; [reflexivity|]. exact Ka.
  Qed.
  Lemma collects_run_cval rec c l a cv : kept a -> collects (run_cval E C U rec c l a cv).
  Proof.
    intros Ha. destruct cv as [|cb]; cbn [run_cval].
    - intros w. unfold bind. destruct (collects_validate_props rec l (c_props c) w) as (b & w1 & K & Kb). rewrite K.
      assert (Ka : kept (fst a ++ fst b, snd a)) by exact Ha. destruct (snd b) as [e|]; [now apply collects_add|exact Ka].
    - apply collects_outcome. intros [x|e]; [now apply collects_ret|now apply collects_add].
  Qed.

  (** Reporting what was collected, with the flag up throughout. *)
  Lemma report_spec (m : M errs) l w1 : collects m -> validating w1 l (Some true) ->
    (grows w1 (snd (m w1)) /\ hush w1 (snd (m w1))) ->
    forall r w', (let* a := m in raise_collected l a) w1 = (r, w') -> reported l w1 w' (failure r).
  Proof.
    intros Hm V [_ H] r w' Eq. specialize (Hm w1). unfold bind in Eq. destruct (m w1) as [[a|e] w2]; cbn [fst snd] in *.
    - destruct (H l V) as [_ R]. unfold raise_collected in Eq. destruct (fst a) as [|t ts].
      + destruct (snd a) as [e|] eqn:Ea.
        * injection Eq as <- <-. specialize (Hm e Ea). now destruct e.
        * now injection Eq as <- <-.
      + injection Eq as <- <-. cbn [failure]. change [t :: ts] with ([t :: ts] ++ []).
        eapply reported_trans; [exact R|]. exists [EHook l (t :: ts)]. split; [reflexivity|]. simpl. now rewrite Nat.eqb_refl.
    - injection Eq as <- <-. destruct (H l V) as [_ R]. now destruct e.
  Qed.

  Lemma validating_raise w l b : validating w l b -> validating (w_upd l (i_setv (Some true)) w) l (Some true).
  Proof. intros (i & Hi & _). exists (i_setv (Some true) i). now rewrite w_upd_nth_same, Hi. Qed.

  Theorem validate_hook n l b w r w' : validating w l b -> b <> Some true ->
    ex (S n) (COp (OValidate l)) w = (r, w') -> reported l w w' (failure r).
  Proof.
    intros V Hb H. cbn [exec step] in H. unfold has_validate in H. unfold bind at 1 in H.
    pose proof V as (i & Hi & Kb). unfold get_inst in H. rewrite Hi in H.
    set (w1 := w_upd l (i_setv (Some true)) w) in *.
    assert (H' : (upd l (i_setv (Some true)) ;;
        fin (let* c := inst_class C l in
             let* a := foldM (run_cval E C U (ex n) c l) ([], None) (c_cvals c) in
             raise_collected l a ;; ret (VBool true))
            (w_upd l (i_setv (Some false)))) w = (r, w')).
    { destruct (i_vflag i) as [[|]|]; [congruence|exact H|exact H]. }
    clear H. unfold bind at 1, upd, mod_w in H'. fold w1 in H'. unfold fin in H'.
    set (m := let* c := inst_class C l in foldM (run_cval E C U (ex n) c l) ([], None) (c_cvals c)).
    destruct ((let* a := m in raise_collected l a) w1) as [r1 w2] eqn:Em.
    assert (K : reported l w1 w2 (failure r1)).
    { apply (report_spec m l w1) with (r := r1); [| | |exact Em].
      - unfold m. apply collects_bind.
        + intros wa e. unfold inst_class, bind, get_inst. destruct (nth_error (w_heap wa) l) as [j|]; simpl; [|now intros [= <-]].
          unfold class_of. destruct (nth_error (ct_cls C) (i_cls j)); simpl; [discriminate|now intros [= <-]].
        + intros c. apply collects_foldM; [intros; now apply collects_run_cval|discriminate].
      - eapply validating_raise; eauto.
      - pose proof (frame_hush E C U) as F. pose proof (frame_exec E C U _ _ F HC n) as Hrec.
        assert (G : good (fun _ w w' => grows w w' /\ hush w w') 0 w1 m w1 (fun _ _ => True)).
        { eapply good_bind; [apply good_inst_class; apply (f_refl _ _ _ _ _ F 0)|]. intros c w3 R3 E3 _.
          apply good_foldM; auto. intros a x w4 _ R4 E4. apply (good_run_cval E C U _ _ F _ Hrec); auto. lia. }
        apply G. }
    assert (Er : r = match r1 with Ok _ => Ok (VBool true) | Exc e => Exc e end /\ w' = w_upd l (i_setv (Some false)) w2).
    { unfold bind in H', Em. unfold m, bind in Em. destruct (inst_class C l w1) as [[c|e] wa]; [|injection H' as <- <-; injection Em as <- <-; auto].
      destruct (foldM _ _ _ wa) as [[a|e] wb]; [|injection H' as <- <-; injection Em as <- <-; auto].
      rewrite Em in H'. destruct r1; injection H' as <- <-; auto. }
    destruct Er as [-> ->]. replace (failure (match r1 with Ok _ => Ok (VBool true) | Exc e => Exc e end)) with (failure r1) by now destruct r1.
    eapply reported_trace_l; [|eapply reported_trace_r; [|exact K]]; apply w_upd_trace.
  Qed.

  Theorem init_hook n cid c kw w l w0 r w' : nth_error (ct_cls C) cid = Some c ->
    ex (S n) (COp (ONew cid (Some []))) w = (Ok (VInst l), w0) ->
    ex (S n) (COp (ONew cid (Some kw))) w = (r, w') -> reported l w0 w' (failure r).
  Proof.
    intros Hc H0 H. rewrite (new_split E C U n cid c _ w Hc) in H0. rewrite (new_split E C U n cid c _ w Hc) in H.
    destruct (prelude E C U n c (length (w_heap w)) (blank cid w)) as [[[]|e] wk] eqn:Ep; [|discriminate].
    set (l0 := length (w_heap w)) in *.
    apply bind_ok in H0 as ([] & w1 & H3 & H4). injection H4 as <- <-. rewrite init_split in H3. cbn in H3. injection H3 as <-.
    unfold bind in H. rewrite init_split in H. set (w1 := w_upd l0 (i_setv (Some true)) wk) in *.
    assert (V : validating w1 l0 (Some true)).
    { destruct (prelude_ok E C U HC n cid c w wk Hc Ep) as (wa & wb & wc & gs & vs & new1 & new & B & _ & G & _ & R1 & _ & Hwk & _).
      assert (Hb : has_class C (w_setquar all_modes wb) l0 c).
      { destruct (has_class_grows C _ _ _ _ G (born_class C _ _ _ _ _ Hc B)) as (i & Hi & Hci). exists i. auto. }
      destruct (has_class_grows C _ _ _ _ (proj1 R1) Hb) as (i & Hi & Hci).
      apply (validating_raise wk l0 (i_vflag i)). exists i. rewrite Hwk. auto. }
    destruct (kwloop E C U n c l0 kw w1) as [r1 w2] eqn:Ek.
    assert (K : reported l0 w1 w2 (failure r1)).
    { apply (report_spec (foldM (init_kw E C U (ex n) c l0) ([], None) kw) l0 w1) with (r := r1); [| | |exact Ek].
      - apply collects_foldM; [intros; now apply collects_init_kw|discriminate].
      - exact V.
      - pose proof (frame_hush E C U) as F. pose proof (frame_exec E C U _ _ F HC n) as Hrec.
        assert (G : good (fun _ w w' => grows w w' /\ hush w w') 0 w1 (foldM (init_kw E C U (ex n) c l0) ([], None) kw) w1 (fun _ _ => True)).
        { apply good_foldM; [apply (f_refl _ _ _ _ _ F 0)|]. intros a x w4 _ R4 E4. apply (good_init_kw E C U _ _ F _ Hrec); auto. lia. }
        apply G. }
    assert (Er : failure r = failure r1 /\ w' = w_upd l0 (i_setv (Some false)) w2).
    { destruct r1 as [[]|e]; injection H as <- <-; auto. }
    destruct Er as [-> ->]. eapply reported_trace_l; [|eapply reported_trace_r; [|exact K]]; [|apply w_upd_trace].
    unfold w1. now rewrite !w_upd_trace.
  Qed.

  (** ** Assignments *)
  Lemma py_iter_nv v e : py_iter v = Exc e -> is_validation e = false.
  Proof. destruct v; simpl; try discriminate; now intros [= <-]. Qed.
  Lemma build_nv k l e : build k l = Exc e -> is_validation e = false.
  Proof. destruct k; simpl; try discriminate. unfold rbind, py_set. destruct (forallb hashable l); [discriminate|now intros [= <-]]. Qed.
  Lemma py_dict_nv v e : py_dict v = Exc e -> is_validation e = false.
  Proof.
    unfold py_dict. assert (K : forall v, rbind (py_iter v) (fun l => rbind (all_pairs l) (fun ps => dict_of_pairs ps [])) = Exc e -> is_validation e = false).
    { intros v0. unfold rbind. destruct (py_iter v0) as [l|e0] eqn:Ei; [|intros [= <-]; eapply py_iter_nv; eauto].
      assert (P : forall l e0, all_pairs l = Exc e0 -> is_validation e0 = false).
      { clear. induction l as [|x l IH]; simpl; intros e0; [discriminate|]. unfold rbind.
        destruct (pair_of x) as [p|e1] eqn:Ep.
        - destruct (all_pairs l) as [?|e2] eqn:E2; [discriminate|]. intros [= <-]. eauto.
        - intros [= <-]. revert Ep. unfold pair_of. destruct (py_iter x) as [[|a [|b [|]]]|e2] eqn:Ei; try discriminate; try (now intros [= <-]).
          intros [= <-]. eapply py_iter_nv; eauto. }
      assert (D : forall ps acc e0, dict_of_pairs ps acc = Exc e0 -> is_validation e0 = false).
      { clear. induction ps as [|[k x] ps IH]; simpl; intros acc e0; [discriminate|]. destruct (hashable k); [apply IH|now intros [= <-]]. }
      destruct (all_pairs l) as [ps|e1] eqn:Ep; [apply D|]. intros [= <-]. eapply P; eauto. }
    destruct v; try discriminate; apply K.
  Qed.
  Lemma cast_nv e k : forall e', catch_cast e k = LExc e' -> is_validation e' = false.
  Proof. destruct e; simpl; intros e'; try discriminate; now intros [= <-]. Qed.
  Lemma leaf_nv rc t v e : leaf_validate E rc t v = LExc e -> is_validation e = false.
  Proof.
    destruct t; simpl.
    - discriminate.
    - unfold bool_validate. destruct (if cast then _ else v); discriminate.
    - unfold int_validate. destruct (py_int v); [|apply cast_nv]. destruct (if cast then _ else _) as [[]|]; [discriminate| |apply cast_nv]. destruct in_bounds; discriminate.
    - unfold float_validate. destruct (py_float E v); [|apply cast_nv]. destruct (if cast then _ else _) as [[]|]; [discriminate| |apply cast_nv]. destruct in_bounds; discriminate.
    - unfold complex_validate, catch_complex.
      assert (K : forall e0, match e0 with ExAttr => LErr 0 | _ => catch_cast e0 0 end = LExc e -> is_validation e = false).
      { intros e0. destruct e0; simpl; try discriminate; now intros [= <-]. }
      destruct (py_complex E v) as [[r i]|]; [|apply K]. destruct (if cast then _ else _) as [[]|]; [discriminate|discriminate|apply K].
    - unfold string_validate. destruct v; try discriminate. destruct (match so_regex o with Some r => _ | None => _ end); discriminate.
    - unfold choice_validate. destruct v; try discriminate. destruct find as [[]|]; discriminate.
    - unfold color_validate, color_components. destruct v; try discriminate; try (destruct Nat.eqb; [destruct forallb|]; discriminate).
      destruct hex_triple; [|discriminate]. destruct Nat.eqb; [destruct forallb|]; discriminate.
    - unfold date_validate. destruct v; try discriminate. destruct date_of_string; discriminate.
    - unfold uuid_validate. destruct v; discriminate.
  Qed.
  Lemma leaf_once rc t v n : leaf_validate E rc t v = LErr n -> n = 0 \/ n = 1 /\ numeric t.
  Proof.
    assert (C2 : forall e n, catch_cast e 0 = LErr n -> n = 0 \/ n = 1).
    { intros e n0. destruct e; simpl; try discriminate; intros [= <-]; auto. }
    assert (K : n = 0 \/ n = 1 -> n = 0 \/ n = 1 /\ True) by tauto.
    destruct t; simpl.
    - discriminate.
    - unfold bool_validate. destruct (if cast then _ else v); try discriminate; intros [= <-]; auto.
    - intros H. apply K. revert H. unfold int_validate. destruct (py_int v); [|apply C2]. destruct (if cast then _ else _) as [[]|]; [intros [= <-]; auto| |apply C2]. destruct in_bounds; [discriminate|intros [= <-]; auto].
    - intros H. apply K. revert H. unfold float_validate. destruct (py_float E v); [|apply C2]. destruct (if cast then _ else _) as [[]|]; [intros [= <-]; auto| |apply C2]. destruct in_bounds; [discriminate|intros [= <-]; auto].
    - intros H. apply K. revert H. unfold complex_validate, catch_complex.
      assert (K2 : forall e0, match e0 with ExAttr => LErr 0 | _ => catch_cast e0 0 end = LErr n -> n = 0 \/ n = 1).
      { intros e0. destruct e0; simpl; try discriminate; intros [= <-]; auto. }
      destruct (py_complex E v) as [[r i]|]; [|apply K2]. destruct (if cast then _ else _) as [[]|]; [intros [= <-]; auto|discriminate|apply K2].
    - unfold string_validate. destruct v; try discriminate; try (intros [= <-]; auto). destruct (match so_regex o with Some r => _ | None => _ end); [intros [= <-]; auto|discriminate].
    - unfold choice_validate. destruct v; try (intros [= <-]; auto). destruct find as [[]|]; [discriminate|intros [= <-]; auto].
    - unfold color_validate, color_components. destruct v; try (intros [= <-]; now auto); try (destruct Nat.eqb; [destruct forallb; [discriminate|]|]; intros [= <-]; auto).
      destruct hex_triple; [|intros [= <-]; auto]. destruct Nat.eqb; [destruct forallb; [discriminate|]|]; intros [= <-]; auto.
    - unfold date_validate. destruct v; try discriminate; try (intros [= <-]; auto). destruct date_of_string; [discriminate|intros [= <-]; auto].
    - unfold uuid_validate. destruct v; try discriminate; intros [= <-]; auto.
  Qed.

  (** [m] keeps the flag of [l] down and only adds events. *)
  Definition steady (l : loc) {A} (m : M A) : Prop := forall w, validating w l (Some false) ->
    validating (snd (m w)) l (Some false) /\ exists new, since w (snd (m w)) new.
  (** If it fails with a ValidationError, that was reported last. *)
  Definition tells (l : loc) (name : string) {A} (m : M A) : Prop := forall w, validating w l (Some false) ->
    validating (snd (m w)) l (Some false) /\ (exists new, since w (snd (m w)) new) /\
    forall ts, fst (m w) = Exc (ExValidation ts) -> ts = rejected l name /\ exists rest, since w (snd (m w)) (EHook l ts :: rest).
  Lemma since_trans a b c x y : since a b x -> since b c y -> since a c (y ++ x).
  Proof. unfold since. intros H K. now rewrite K, H, app_assoc. Qed.
  Lemma tells_steady l name {A} (m : M A) : tells l name m -> steady l m.
  Proof. intros H w V. destruct (H w V) as (? & ? & _). auto. Qed.
  Lemma steady_same l {A} (m : M A) : (forall w, w_heap (snd (m w)) = w_heap w /\ w_trace (snd (m w)) = w_trace w) -> steady l m.
  Proof. intros H w V. destruct (H w) as [K1 K2]. split; [eapply validating_heap; eauto|exists []; exact K2]. Qed.
  Lemma tells_same l name {A} (m : M A) : (forall w, w_heap (snd (m w)) = w_heap w /\ w_trace (snd (m w)) = w_trace w) ->
    (forall w e, fst (m w) = Exc e -> is_validation e = false) -> tells l name m.
  Proof. intros H K w V. destruct (steady_same l m H w V). split; [assumption|]. split; [assumption|]. intros ts Hts. now apply K in Hts. Qed.
  Lemma tells_ret l name {A} (a : A) : tells l name (ret a).
  Proof. apply tells_same; [auto|discriminate]. Qed.
  Lemma tells_throw l name {A} e : is_validation e = false -> tells l name (@throw A e).
  Proof. intros H. apply tells_same; [auto|]. now intros w e' [= <-]. Qed.
  Lemma tells_lift l name {A} (r : res A) : (forall e, r = Exc e -> is_validation e = false) -> tells l name (lift r).
  Proof. intros H. apply tells_same; [auto|]. intros w e K. now apply H. Qed.
  Lemma tells_bind l name {A B} (m : M A) (k : A -> M B) : tells l name m -> (forall a, tells l name (k a)) -> tells l name (bind m k).
  Proof.
    intros Hm Hk w V. unfold bind. destruct (Hm w V) as (V1 & (n1 & S1) & T1). destruct (m w) as [[a|e] w1]; cbn [fst snd] in *.
    - destruct (Hk a w1 V1) as (V2 & (n2 & S2) & T2). split; [exact V2|]. split; [eexists; eapply since_trans; eauto|].
      intros ts K. destruct (T2 ts K) as [-> (rest & R)]. split; [reflexivity|]. exists (rest ++ n1). exact (since_trans _ _ _ _ _ S1 R).
    - split; [exact V1|]. split; [eauto|]. intros ts [= ->]. auto.
  Qed.
  Lemma tells_try l name {A} (m : M A) h : steady l m -> (forall e, tells l name (h e)) -> tells l name (try_ m h).
  Proof.
    intros Hm Hh w V. unfold try_. destruct (Hm w V) as (V1 & n1 & S1). destruct (m w) as [[a|e] w1]; cbn [fst snd] in *.
    - split; [exact V1|]. split; [eauto|discriminate].
    - destruct (Hh e w1 V1) as (V2 & (n2 & S2) & T2). split; [exact V2|]. split; [eexists; eapply since_trans; eauto|].
      intros ts K. destruct (T2 ts K) as [-> (rest & R)]. split; [reflexivity|]. exists (rest ++ n1). exact (since_trans _ _ _ _ _ S1 R).
  Qed.
  Lemma tells_hook l name ts : tells l name (hook (Some l) ts).
  Proof.
    intros w V. destruct V as (i & Hi & Ki). unfold hook, bind, get_inst. rewrite Hi, Ki. cbn.
    split; [exists i; auto|]. split; [exists [EHook l ts]; reflexivity|discriminate].
  Qed.
  Lemma tells_hooks l name n nm : tells l name (hooks n nm (Some l)).
  Proof. induction n; cbn [hooks]; [apply tells_ret|]. apply tells_bind; [apply tells_hook|auto]. Qed.
  Lemma tells_perror l name {A} : tells l name (@perror A name (Some l)).
  Proof.
    intros w V. destruct V as (i & Hi & Ki). unfold perror, verror, hook, bind, get_inst. rewrite Hi, Ki. cbn.
    split; [exists i; auto|]. split; [eexists [_]; reflexivity|]. intros ts [= <-]. split; [reflexivity|]. exists []. reflexivity.
  Qed.
  Lemma tells_mapM l name {A B} (f : A -> M B) xs : (forall x, tells l name (f x)) -> tells l name (mapM f xs).
  Proof.
    intros H. induction xs as [|x xs IH]; cbn [mapM]; [apply tells_ret|]. apply tells_bind; [apply H|]. intros y.
    apply tells_bind; [exact IH|]. intros ys. apply tells_ret.
  Qed.
  Lemma tells_leaf l name t v : tells l name (leaf_val E t (Some l) name v).
  Proof.
    unfold leaf_val. apply tells_bind; [apply tells_same; [auto|discriminate]|]. intros k.
    destruct (leaf_validate E (e_rand E k) t v) as [x|n|e] eqn:El; [apply tells_ret| |apply tells_throw; eapply leaf_nv; eauto].
    apply tells_bind; [apply tells_hooks|]. intros _. apply tells_perror.
  Qed.
  Lemma steady_rec n l c : match c with COp _ => True | _ => False end -> steady l (ex n c).
  Proof.
    intros Hc w V. destruct c as [o|]; [|destruct Hc].
    pose proof (frame_exec E C U _ _ (frame_guard E C U) HC n (COp o) 0 w) as (K1 & _); [lia|exact I|].
    destruct K1 as (_ & K & _). destruct V as (i & Hi & Ki). split.
    - destruct (K l i Hi) as (i' & Hi' & _ & _ & Hv). exists i'. split; [exact Hi'|]. rewrite Ki in Hv. destruct Hv as [Hv|[Hv _]]; congruence.
    - pose proof (exec_ev E C U n (COp o) 0 w HC) as (_ & new & S & _); [lia|exact I|]. exists new. exact S.
  Qed.
  Lemma tells_validate n l name p : forall v, tells l name (p_validate E C (ex n) p (Some l) name v).
  Proof.
    induction p as [t|k q mn mx co IH|kp vp co IHk IHv|si ps IH|cid] using ptype_ind'; intros v; cbn [p_validate].
    - apply tells_leaf.
    - apply tells_bind; [destruct (_ && _); [apply tells_perror|apply tells_ret]|]. intros _.
      apply tells_bind; [apply tells_lift; intros e; apply py_iter_nv|]. intros items.
      apply tells_bind; [|intros out; apply tells_lift; intros e; apply build_nv].
      apply tells_mapM. intros x. apply tells_try; [eapply tells_steady; apply IH|].
      intros e. destruct (is_value_error e) eqn:He; [apply tells_perror|apply tells_throw; now destruct e].
    - apply tells_bind; [destruct (_ && _); [apply tells_perror|apply tells_ret]|]. intros _.
      apply tells_bind.
      { destruct (py_dict v) as [d|e] eqn:Ed; [apply tells_ret|]. apply py_dict_nv in Ed. destruct e; try apply tells_perror; now apply tells_throw. }
      intros d. apply tells_bind; [|intros; apply tells_ret]. generalize (@nil (val * val)) as acc.
      induction d as [|[k x] d IHd]; intros acc; [apply tells_ret|].
      apply tells_bind. { apply tells_try; [eapply tells_steady; apply IHk|]. intros e. destruct (is_value_error e) eqn:He; [apply tells_perror|apply tells_throw; now destruct e]. }
      intros k'. apply tells_bind. { apply tells_try; [eapply tells_steady; apply IHv|]. intros e. destruct (is_value_error e) eqn:He; [apply tells_perror|apply tells_throw; now destruct e]. }
      intros x'. destruct (hashable k'); [apply IHd|now apply tells_throw].
    - induction IH as [|q ps Hq Hps IHps]; [apply tells_perror|].
      apply tells_try; [eapply tells_steady; apply Hq|]. intros e. destruct (is_generic e) eqn:He; [exact IHps|apply tells_throw; now destruct e].
    - apply tells_try; [|intros e; destruct (is_generic e) eqn:He; [apply tells_perror|apply tells_throw; now destruct e]].
      assert (Sb : forall A B (m : M A) (k : A -> M B), steady l m -> (forall a, steady l (k a)) -> steady l (bind m k)).
      { intros A B m k Hm Hk w V. unfold bind. destruct (Hm w V) as (V1 & n1 & S1). destruct (m w) as [[a|e] w1]; cbn [snd] in *; [|eauto].
        destruct (Hk a w1 V1) as (V2 & n2 & S2). split; [exact V2|eexists; eapply since_trans; eauto]. }
      apply Sb.
      + apply steady_same. intros w. unfold isinstance. destruct v; try (split; reflexivity). unfold bind, inst_class, bind, get_inst.
        destruct (nth_error (w_heap w) l0) as [i|]; [|split; reflexivity]. unfold class_of, lift, ret. destruct (nth_error (ct_cls C) (i_cls i)); split; reflexivity.
      + intros [|]; [eapply tells_steady; apply (tells_ret l name)|].
        destruct v; try (apply steady_rec; exact I). apply Sb; [apply steady_same; auto|]. intros kw. apply steady_rec. exact I.
  Qed.

  Theorem set_reports n l name d v w ts w' : declares C w l name d -> pd_kind d = KProp -> is_undef v = false ->
    validating w l (Some false) ->
    p_validate E C (ex n) (pd_type d) (Some l) name v w = (Exc (ExValidation ts), w') ->
    ex (S n) (COp (OSet l name v)) w = (Exc (ExValidation ts), w') /\ ts = rejected l name /\
    exists earlier, since w w' (EHook l ts :: earlier).
  Proof.
    intros Hd Hk Hu V H. split; [now apply (set_rejected E C U n l name d v w)|].
    destruct (tells_validate n l name (pd_type d) v w V) as (_ & _ & K). rewrite H in K. now apply K.
  Qed.

  (** ** Basic properties *)
  Lemma hooks_repeat n l name w : validating w l (Some false) ->
    exists w', hooks n name (Some l) w = (Ok tt, w') /\ since w w' (repeat (EHook l (rejected l name)) n) /\ w_heap w' = w_heap w.
  Proof.
    revert w. induction n as [|n IH]; intros w V; cbn [hooks].
    - exists w. split; [reflexivity|]. split; reflexivity.
    - pose proof V as (i & Hi & Ki). unfold bind, hook, get_inst at 1, bind. rewrite Hi, Ki. cbn [mod_w].
      destruct (IH (w_emit (EHook l (rejected l name)) w) V) as (w' & K1 & K2 & K3). exists w'. split; [exact K1|]. split; [|exact K3].
      unfold since in *. rewrite K2. cbn [w_emit w_trace repeat]. change (EHook l (rejected l name) :: w_trace w) with ([EHook l (rejected l name)] ++ w_trace w).
      now rewrite app_assoc, <- repeat_cons.
  Qed.
  Theorem basic_reports n l name d t v w r w' : declares C w l name d -> pd_kind d = KProp -> is_undef v = false ->
    pd_type d = PLeaf t -> validating w l (Some false) ->
    p_validate E C (ex n) (pd_type d) (Some l) name v w = (r, w') ->
    match r with
    | Exc (ExValidation ts) => ts = rejected l name /\
        (since w w' [EHook l ts] \/ since w w' [EHook l ts; EHook l ts] /\ numeric t)
    | _ => since w w' []
    end.
  Proof.
    intros Hd Hk Hu Ht V. rewrite Ht. cbn [p_validate]. unfold leaf_val, bind at 1, tick.
    destruct (leaf_validate E _ t v) as [x|k|e] eqn:El.
    - intros [= <- <-]. reflexivity.
    - unfold bind. destruct (hooks_repeat k l name (w_tick w) V) as (w1 & K1 & K2 & K3). rewrite K1.
      pose proof V as (i & Hi & Ki). unfold perror, verror, hook, bind, get_inst. rewrite K3. cbn [w_tick w_heap]. rewrite Hi, Ki. cbn.
      intros [= <- <-]. split; [reflexivity|]. unfold since in *. simpl in *. rewrite K2.
      destruct (leaf_once _ _ _ _ El) as [->|[-> Hn]]; [left; reflexivity|right; split; [reflexivity|exact Hn]].
    - intros [= <- <-]. apply leaf_nv in El. destruct e; try reflexivity. discriminate.
  Qed.

  (** ** Success *)
  Definition mute {A} (m : M A) : Prop := forall w a w', m w = (Ok a, w') -> w_trace w' = w_trace w.
  Lemma mute_ret {A} (a : A) : mute (ret a).
  Proof. now intros w b w' [= <- <-]. Qed.
  Lemma mute_throw {A} e : mute (@throw A e).
  Proof. discriminate. Qed.
  Lemma mute_lift {A} (r : res A) : mute (lift r).
  Proof. intros w b w'. unfold lift. now intros [= -> <-]. Qed.
  Lemma mute_perror {A} name io : mute (@perror A name io).
  Proof. intros w a w'. unfold perror, verror, bind. destruct (hook io _ w) as [[]]; discriminate. Qed.
  Lemma mute_bind {A B} (m : M A) (k : A -> M B) : mute m -> (forall a, mute (k a)) -> mute (bind m k).
  Proof. intros Hm Hk w b w'. unfold bind. destruct (m w) as [[a|e] w1] eqn:Em; [|discriminate]. intros H. rewrite (Hk _ _ _ _ H). eapply Hm; eauto. Qed.
  Lemma mute_try {A} (m : M A) h : mute m -> (forall e w a w', h e w <> (Ok a, w')) -> mute (try_ m h).
  Proof. intros Hm Hh w b w'. unfold try_. destruct (m w) as [[a|e] w1] eqn:Em; [intros [= <- <-]; eapply Hm; eauto|]. intros K. now apply Hh in K. Qed.
  Lemma mute_mapM {A B} (f : A -> M B) xs : (forall x, mute (f x)) -> mute (mapM f xs).
  Proof. intros H. induction xs; cbn [mapM]; [apply mute_ret|]. apply mute_bind; [apply H|]. intros y. apply mute_bind; [exact IHxs|]. intros; apply mute_ret. Qed.
  Lemma perror_fails {A} name io w (a : A) w' : perror name io w <> (Ok a, w').
  Proof. unfold perror, verror, bind. destruct (hook io _ w) as [[]]; discriminate. Qed.
  Lemma mute_validate rec p : plain_type p -> forall io name v, mute (p_validate E C rec p io name v).
  Proof.
    assert (Hh : forall io name (e : exn) w (a : val) w', (if is_value_error e then perror name io else throw e) w <> (Ok a, w')).
    { intros io name e w a w'. destruct (is_value_error e); [apply perror_fails|discriminate]. }
    induction p as [t|k q mn mx co IH|kp vp co IHk IHv|si ps IH|cid] using ptype_ind'; intros Hp io name v; cbn [p_validate]; try destruct Hp.
    - unfold leaf_val. apply mute_bind; [now intros w a w' [= <- <-]|]. intros k.
      destruct leaf_validate; [apply mute_ret| |apply mute_throw]. intros w a w'. unfold bind. destruct (hooks _ _ _ w) as [[|] w1]; [|discriminate].
      intros K. now apply perror_fails in K.
    - apply mute_bind; [destruct (_ && _); [apply mute_perror|apply mute_ret]|]. intros _. apply mute_bind; [apply mute_lift|]. intros items.
      apply mute_bind; [|intros; apply mute_lift]. apply mute_mapM. intros x. apply mute_try; [now apply IH|]. apply Hh.
    - apply mute_bind; [destruct (_ && _); [apply mute_perror|apply mute_ret]|]. intros _.
      apply mute_bind. { destruct (py_dict v) as [d|e]; [apply mute_ret|]. destruct e; first [apply mute_perror|apply mute_throw]. }
      intros d. apply mute_bind; [|intros; apply mute_ret]. generalize (@nil (val * val)) as acc.
      induction d as [|[k x] d IHd]; intros acc; [apply mute_ret|].
      apply mute_bind; [apply mute_try; [now apply IHk|apply Hh]|]. intros k'.
      apply mute_bind; [apply mute_try; [now apply IHv|apply Hh]|]. intros x'. destruct (hashable k'); [apply IHd|apply mute_throw].
  Qed.
  Lemma plain_free p : plain_type p -> inst_free p.
  Proof. induction p using ptype_ind'; simpl; try tauto. Qed.

  Theorem set_silent n l name d v w r w' : declares C w l name d -> pd_kind d = KProp -> is_undef v = false ->
    plain_type (pd_type d) -> (forall m, registered w l name m = []) ->
    ex (S n) (COp (OSet l name v)) w = (Ok r, w') ->
    exists sid v0, since w w' [EWrite sid l name v0].
  Proof.
    intros Hd Hk Hu Hp Hr H. pose proof (plain_free _ Hp) as Hf. rewrite (setattr_prop E C U n l name d v w Hd Hk) in H. unfold prop_fset in H. rewrite Hu in H.
    apply bind_ok in H as (v0 & w1 & Hv & H).
    pose proof (validate_free E C (ex n) _ Hf (Some l) name v w) as Q. rewrite Hv in Q. simpl in Q.
    pose proof (mute_validate (ex n) _ Hp (Some l) name v _ _ _ Hv) as T1.
    exists (w_clock w1), v0. unfold since. rewrite <- T1. clear Hv T1.
    pose proof (declares_heap C _ _ _ _ Hd) as Hl.
    assert (Hl1 : nth_error (w_heap w1) l <> None) by (now rewrite (ho_heap _ _ Q)).
    assert (Hr1 : forall m, registered w1 l name m = []) by (intros m; unfold registered; rewrite (ho_heap _ _ Q); apply Hr).
    unfold has_set in H. apply bind_ok in H as (sid & w2 & Ht & H). injection Ht as <- <-.
    apply bind_ok in H as (i & w2 & Hi & H). apply get_inst_ok in Hi as [-> Hi].
    simpl in Hi. destruct (nth_error (w_heap w1) l) as [i'|] eqn:Ei; [|congruence]. injection Hi as ->.
    apply bind_ok in H as (v1 & w2 & Hn & H).
    destruct (notify_silent E C U n (w_clock w1) l name (match dget (i_back i') name with Some x => x | None => VUndef end) v0 MValidate (w_tick w1)) as [K|K];
      [exact (Hr1 MValidate)|simpl; congruence| |congruence].
    rewrite K in Hn. injection Hn as <- <-.
    apply bind_ok in H as (u & w2 & Hw & H). injection Hw as Hw1 Hw2. subst u.
    apply bind_ok in H as (u & w3 & Hw & H). injection Hw as Hw1' Hw3. subst u.
    assert (Tr : w_trace w3 = EWrite (w_clock w1) l name v0 :: w_trace w1).
    { rewrite <- Hw3, <- Hw2. simpl. now rewrite w_upd_trace. }
    assert (Hr3 : forall m, registered w3 l name m = []).
    { intros m. rewrite <- Hw3, <- Hw2. specialize (Hr1 m). unfold registered in *. simpl.
      rewrite w_upd_nth_same. simpl. rewrite Ei in *. simpl. exact Hr1. }
    assert (Hl3 : nth_error (w_heap w3) l <> None).
    { rewrite <- Hw3, <- Hw2. simpl. rewrite w_upd_nth_same. simpl. rewrite Ei. simpl. congruence. }
    clear Hw2 Hw3.
    apply bind_ok in H as (b & w4 & Hc & H).
    assert (w4 = w3).
    { destruct (is_undef _ && is_undef _) in Hc; [injection Hc; auto|].
      destruct (is_undef _ || is_undef _) in Hc; [injection Hc; auto|].
      apply bind_ok in Hc as (b' & w5 & He & Hc). injection Hc as _ <-.
      destruct (equal_free _ Hf (match dget (i_back i') name with Some x => x | None => VUndef end) v0) as [rr Hrr].
      rewrite Hrr in He. now injection He. }
    subst w4.
    apply bind_ok in H as (v2 & w4 & Hn & H).
    assert (w4 = w3).
    { destruct b; [|injection Hn; auto].
      destruct (notify_silent E C U n (w_clock w1) l name (match dget (i_back i') name with Some x => x | None => VUndef end) v0 MChange w3) as [K'|K']; auto; congruence. }
    subst w4. apply bind_ok in H as (v3 & w4 & Hn' & H). injection H as _ <-.
    destruct (notify_silent E C U n (w_clock w1) l name (match dget (i_back i') name with Some x => x | None => VUndef end) v2 MSet w3) as [K'|K']; auto; try congruence.
    rewrite K' in Hn'. injection Hn' as _ <-. exact Tr.
  Qed.
End Hook.
