(** Validating twice: containers of leaves and instances. *)
From Verif Require Import World WorldFrame WorldSpec WorldFacts WorldInv WorldSet AccessSpec BasicSpec BasicProofs ContainerFacts RoundValue GraphSpec GraphConv LimitsSpec.
Local Open Scope string_scope.
Local Open Scope list_scope.
Local Open Scope nat_scope.

Section Idem.
  Variable E : env.
  Variable C : ctable.
  Variable U : ucode.
  Notation X := (exec E C U).

  (** Values that validation gives back as they are. *)
  Fixpoint stable (sh : list nat) (p : ptype) (v : val) : Prop :=
    match p with
    | PLeaf t => forall rc, leaf_validate E rc t v = LOk v
    | PSeq k q _ _ _ => exists l, of_kind k v l /\ Forall (stable sh q) l /\
        (k = KSet -> Forall (fun x => hashable x = true) l /\ ForallOrdPairs (fun x y => py_eq x y = false) l)
    | PDict kp vp _ => exists d, v = VDict d /\ distinct_keys d /\
        Forall (fun kx => (stable sh kp (fst kx) /\ hashable (fst kx) = true) /\ stable sh vp (snd kx)) d
    | PUnion _ _ => False
    | PInst cid => exists l k c, v = VInst l /\ nth_error sh l = Some k /\ nth_error (ct_cls C) k = Some c /\ In cid (c_mro c)
    end.
  Definition sub_shape (a b : list nat) : Prop := forall l k, nth_error a l = Some k -> nth_error b l = Some k.
  Lemma stable_mono a b p : sub_shape a b -> forall v, stable a p v -> stable b p v.
  Proof.
    intros Hs. induction p as [t|k q mn mx co IH|kp vp co IHk IHv|si ps IH|cid] using ptype_ind'; intros v H; cbn [stable] in *.
    - exact H.
    - destruct H as (l & H1 & H2 & H3). exists l. split; [exact H1|]. split; [|exact H3]. eapply Forall_impl; [|exact H2]. auto.
    - destruct H as (d & H1 & H2 & H3). exists d. split; [exact H1|]. split; [exact H2|]. eapply Forall_impl; [|exact H3].
      cbn. intros kx ((A & B) & D). auto.
    - exact H.
    - destruct H as (l & k & c & H1 & H2 & H3). exists l, k, c. auto.
  Qed.
  Lemma grows_sub w w' : grows w w' -> sub_shape (shape w) (shape w').
  Proof. intros [(x & ->) _ _] l k H. rewrite nth_error_app1; auto. apply nth_error_Some. congruence. Qed.
  Lemma still_sub w w' : still_there w w' -> sub_shape (shape w) (shape w').
  Proof.
    intros H l k Hk. unfold shape in *. rewrite nth_error_map in *. destruct (nth_error (w_heap w) l) as [i|] eqn:Ei; [|discriminate].
    destruct (H l i Ei) as (i' & -> & Hc). cbn in *. congruence.
  Qed.

  (** A stable value is given back. *)
  Lemma untouched_refl w : untouched w w.
  Proof. repeat split. Qed.
  Lemma untouched_trans a b c : untouched a b -> untouched b c -> untouched a c.
  Proof. unfold untouched. intuition congruence. Qed.
  Lemma untouched_shape a b : untouched a b -> shape b = shape a.
  Proof. intros (H & _). unfold shape. now rewrite H. Qed.
  Lemma stable_valid n p : forall v io name w, stable (shape w) p v ->
    exists w', p_validate E C (X n) p io name v w = (Ok v, w') /\ untouched w w'.
  Proof.
    induction p as [t|k q mn mx co IH|kp vp co IHk IHv|si ps IH|cid] using ptype_ind'; intros v io name w H; cbn [stable] in H.
    - exists (w_tick w). split; [now apply leaf_kept|repeat split].
    - destruct H as (l & Hk & HF & Hs).
      assert (G : forall w, Forall (stable (shape w) q) l -> exists w', each (fun x wa y wb => p_validate E C (X n) q io name x wa = (Ok y, wb)) l w l w' /\ untouched w w').
      { clear - IH. induction l as [|x l IHl]; intros w HF; [exists w; split; [constructor|apply untouched_refl]|].
        inversion HF as [|? ? H1 H2]; subst. destruct (IH x io name w H1) as (w1 & K1 & U1).
        destruct (IHl w1) as (w2 & K2 & U2); [now rewrite (untouched_shape _ _ U1)|].
        exists w2. split; [econstructor; eauto|eapply untouched_trans; eauto]. }
      destruct (G w HF) as (w' & K & HU). exists w'. split; [|exact HU]. apply seq_valid. exists l, l.
      split; [|split; [exact K|now apply build_id]].
      unfold offered. destruct co; [|exact Hk]. unfold of_kind in Hk. subst v. destruct k; reflexivity.
    - destruct H as (d & -> & Hd & HF).
      assert (G : forall w, Forall (fun kx => (stable (shape w) kp (fst kx) /\ hashable (fst kx) = true) /\ stable (shape w) vp (snd kx)) d ->
        exists w', each (entry_accepted E C (X n) kp vp io name) d w d w' /\ untouched w w').
      { clear - IHk IHv. induction d as [|[k x] d IHd]; intros w HF; [exists w; split; [constructor|apply untouched_refl]|].
        inversion HF as [|? ? [[H1 Hh] H2] H3]; subst. cbn [fst snd] in *.
        destruct (IHk k io name w H1) as (w1 & K1 & U1).
        destruct (IHv x io name w1) as (w2 & K2 & U2); [now rewrite (untouched_shape _ _ U1)|].
        pose proof (untouched_trans _ _ _ U1 U2) as U12.
        destruct (IHd w2) as (w3 & K3 & U3); [now rewrite (untouched_shape _ _ U12)|].
        exists w3. split; [|eapply untouched_trans; eauto]. econstructor; [|exact K3]. exists w1. cbn [fst snd]. auto. }
      destruct (G w HF) as (w' & K & HU). exists w'. split; [|exact HU]. apply dict_valid. exists d. split; [exact K|].
      now rewrite add_all_id.
    - destruct H.
    - destruct H as (l & k & c & -> & H1 & H2 & H3). exists w. split; [|apply untouched_refl].
      unfold shape in H1. rewrite nth_error_map in H1. destruct (nth_error (w_heap w) l) as [i|] eqn:Ei; [|discriminate].
      cbn in H1. injection H1 as <-. eapply inst_kept; eauto.
  Qed.

  (** An accepted value is stable. *)
  Hypothesis HC : wf_ctab C.
  Hypothesis HM : wf_mro C.
  Lemma exec_spec n : rspec C (fun _ => grows) anyT (X n).
  Proof. intros c s w Hs Hp. now apply (frame_exec E C U _ _ (frame_ext E C U) HC n c s w). Qed.
  Lemma validate_grows n p io name v w : grows w (snd (p_validate E C (X n) p io name v w)).
  Proof.
    destruct (good_validate' E C U _ _ (frame_ext E C U) _ (exec_spec n) 0 p w io name v w) as (_ & H & _);
      [apply ext_refl|lia|exact H].
  Qed.
  Lemma each_grows {A B} (act : A -> world -> B -> world -> Prop) xs w ys w' :
    (forall x a y b, act x a y b -> grows a b) -> each act xs w ys w' -> grows w w'.
  Proof. intros H. induction 1; [apply ext_refl|]. eapply ext_trans; eauto. Qed.
  Lemma each_stable {A B} (act : A -> world -> B -> world -> Prop) (P : list nat -> B -> Prop) xs w ys w' :
    (forall a b y, sub_shape a b -> P a y -> P b y) ->
    (forall x a y b, act x a y b -> grows a b /\ P (shape b) y) -> each act xs w ys w' -> Forall (P (shape w')) ys.
  Proof.
    intros HP H HE. induction HE as [|x xs w y w1 ys w2 Ha He IH]; constructor; auto.
    destruct (H _ _ _ _ Ha) as [_ K]. eapply HP; [|exact K]. apply grows_sub. eapply each_grows; [|exact He]. intros. eapply H; eauto.
  Qed.
  Lemma valid_stable n p : coherent_type p -> forall io name v w v' w',
    p_validate E C (X n) p io name v w = (Ok v', w') -> stable (shape w') p v'.
  Proof.
    induction p as [t|k q mn mx co IH|kp vp co IHk IHv|si ps IH|cid] using ptype_ind'; intros Hc io name v w v' w' H; cbn [coherent_type stable] in *.
    - cbn [p_validate] in H. unfold leaf_val, bind, tick in H.
      destruct (leaf_validate E (e_rand E (w_clock w)) t v) as [b|k|e] eqn:El.
      + injection H as <- _. intros rc. eapply leaf_idempotent; eauto.
      + destruct (hooks k name io _) as [[[]|e] w1]; [|discriminate]. exfalso. eapply verror_not_ok; exact H.
      + discriminate.
    - apply seq_valid in H as (items & outs & _ & H & Hb).
      assert (HF : Forall (stable (shape w') q) outs).
      { eapply (each_stable _ (fun sh => stable sh q)); [intros a b y Hs; now apply stable_mono| |exact H].
        intros x a y b K. cbv beta in K. split; [|eapply IH; eauto]. pose proof (validate_grows n q io name x a) as G. now rewrite K in G. }
      destruct k; cbn [build] in Hb.
      + injection Hb as <-. exists outs. split; [reflexivity|]. split; [exact HF|]. discriminate.
      + injection Hb as <-. exists outs. split; [reflexivity|]. split; [exact HF|]. discriminate.
      + unfold py_set in Hb. destruct (forallb hashable outs) eqn:Eh; [|discriminate]. injection Hb as <-.
        rewrite forallb_forall in Eh.
        destruct (dedup_spec (stable (shape w') q) outs []) as [D1 D2]; [exact HF|constructor|constructor|].
        destruct (dedup_spec (fun x => hashable x = true) outs []) as [D3 _]; [apply Forall_forall; exact Eh|constructor|constructor|].
        exists (dedup outs []). split; [reflexivity|]. auto.
    - destruct Hc as [Hk Hv].
      assert (K : exists d, p_validate E C (X n) (PDict kp vp co) io name (VDict d) w = (Ok v', w')).
      { destruct v as [| | | | | | | | | | | | |d|]; try (exists d; exact H);
          (destruct co; [|cbn in H; exfalso; apply bind_ok in H as (u & w1 & K1 & _); eapply verror_not_ok; exact K1]);
          match type of H with p_validate _ _ _ _ _ _ ?v _ = _ => destruct (py_dict v) as [dd|e] eqn:Ed end;
          try (exists dd; rewrite <- H; cbn [p_validate negb andb]; unfold bind at 1 4; cbn [ret]; rewrite Ed; reflexivity);
          exfalso; cbn [p_validate negb andb] in H; unfold bind at 1 in H; cbn [ret] in H; rewrite Ed in H;
          apply py_dict_exc in Ed as [-> | ->]; apply bind_ok in H as (u & w1 & K1 & _); eapply verror_not_ok; exact K1. }
      destruct K as (d & K). apply dict_valid in K as (out & K & ->).
      assert (HF : Forall (fun kx => (stable (shape w') kp (fst kx) /\ hashable (fst kx) = true) /\ stable (shape w') vp (snd kx)) out).
      { eapply (each_stable _ (fun sh kx => (stable sh kp (fst kx) /\ hashable (fst kx) = true) /\ stable sh vp (snd kx))); [| |exact K].
        - intros a b y Hs ((A & B) & D). repeat split; auto; eapply stable_mono; eauto.
        - intros x a y b (w1 & K1 & K2 & Hh). pose proof (validate_grows n kp io name (fst x) a) as G1. rewrite K1 in G1. cbn [snd] in G1.
          pose proof (validate_grows n vp io name (snd x) w1) as G2. rewrite K2 in G2. cbn [snd] in G2.
          split; [eapply ext_trans; eauto|]. split; [split; [|exact Hh]|].
          + eapply stable_mono; [apply grows_sub; exact G2|]. eapply IHk; eauto.
          + eapply IHv; eauto. }
      exists (add_all out []). split; [reflexivity|]. destruct (add_all_dict out) as (A & B & _). split; [exact A|].
      apply Forall_forall. intros [k x] Hin. destruct (B k x Hin) as [B1 B2]. rewrite Forall_forall in HF. cbn [fst snd].
      apply in_map_iff in B1 as (y1 & <- & Y1). apply in_map_iff in B2 as (y2 & <- & Y2).
      split; [apply (HF y1 Y1)|apply (HF y2 Y2)].
    - destruct Hc.
    - assert (N : forall kw, X n (COp (ONew cid kw)) w = (Ok v', w') -> exists l k c, v' = VInst l /\
        nth_error (shape w') l = Some k /\ nth_error (ct_cls C) k = Some c /\ In cid (c_mro c)).
      { intros kw K. destruct (exec_spec n (COp (ONew cid kw)) 0 w) as [_ P]; [lia|exact I|]. rewrite K in P.
        destruct P as (l & -> & _ & P1 & P2). destruct (nth_error (ct_cls C) cid) as [c|] eqn:Ec; [|congruence].
        exists l, cid, c. repeat split; auto. }
      cbn [p_validate] in H. unfold try_ in H.
      match type of H with match ?m w with _ => _ end = _ => destruct (m w) as [[b|e] w1] eqn:Em end.
      2: { destruct (is_generic e); [exfalso; eapply verror_not_ok; exact H|discriminate]. }
      injection H as -> ->. apply bind_ok in Em as (b & w1 & K1 & K2).
      assert (w1 = w) as ->.
      { destruct v; cbn in K1; try (now injection K1 as _ <-). unfold bind, inst_class, bind, get_inst, class_of, lift in K1.
        destruct (nth_error (w_heap w) l) as [i|]; [|discriminate]. destruct (nth_error (ct_cls C) (i_cls i)); [|discriminate]. now injection K1 as _ <-. }
      destruct b.
      + injection K2 as <- <-. destruct v; cbn in K1; try discriminate. unfold bind, inst_class, bind, get_inst, class_of, lift in K1.
        destruct (nth_error (w_heap w) l) as [i|] eqn:Ei; [|discriminate]. destruct (nth_error (ct_cls C) (i_cls i)) as [c|] eqn:Ec; [|discriminate].
        injection K1 as K1. apply existsb_exists in K1 as (x & Hx & Ex). apply Nat.eqb_eq in Ex. subst x.
        exists l, (i_cls i), c. split; [reflexivity|]. split; [|auto]. unfold shape. now rewrite nth_error_map, Ei.
      + destruct v; try (eapply N; exact K2). apply bind_ok in K2 as (kw & w2 & K3 & K4).
        unfold lift in K3. injection K3 as _ <-. eapply N; exact K4.
  Qed.
  Theorem validate_twice n m p io name v w v' w' : coherent_type p -> p_validate E C (X n) p io name v w = (Ok v', w') ->
    forall io2 name2 w2, still_there w' w2 -> exists w3, p_validate E C (X m) p io2 name2 v' w2 = (Ok v', w3) /\ untouched w2 w3.
  Proof.
    intros Hc H io2 name2 w2 Hs. apply stable_valid. eapply stable_mono; [apply still_sub; exact Hs|]. eapply valid_stable; eauto.
  Qed.

  (** ** Every stored value *)
  Definition steady (sh : list nat) (p : ptype) (v : val) : Prop := coherent_type p -> stable sh p v.
  Lemma frame_steady : validators_keep U -> frame E C U (fun _ w w' => grows w w' /\ (wt steady C w -> wt steady C w')) steady.
  Proof.
    intros HU. apply frame_values; [exact HU|..]; unfold steady; cbn [coherent_type]; intros; cbn [stable].
    - eapply stable_mono; [|apply H; assumption]. intros l k Hl. rewrite nth_error_app1; auto. apply nth_error_Some. congruence.
    - intros rc'. eapply leaf_idempotent; eauto.
    - assert (HF : Forall (stable sh q) out) by (eapply Forall_impl; [|exact H0]; auto).
      destruct k; cbn [build] in H.
      + injection H as <-. exists out. split; [reflexivity|]. split; [exact HF|]. discriminate.
      + injection H as <-. exists out. split; [reflexivity|]. split; [exact HF|]. discriminate.
      + unfold py_set in H. destruct (forallb hashable out) eqn:Eh; [|discriminate]. injection H as <-.
        rewrite forallb_forall in Eh.
        destruct (dedup_spec (stable sh q) out []) as [D1 D2]; [exact HF|constructor|constructor|].
        destruct (dedup_spec (fun x => hashable x = true) out []) as [D3 _]; [apply Forall_forall; exact Eh|constructor|constructor|].
        exists (dedup out []). split; [reflexivity|]. auto.
    - destruct H1 as [H1 H2]. exists d. split; [reflexivity|]. split; [exact H0|]. eapply Forall_impl; [|exact H].
      cbn. intros kx (A & B & D). auto.
    - destruct H1.
    - exists l, k, c. repeat split; auto. apply existsb_exists in H1 as (x & Hx & He). apply Nat.eqb_eq in He. now subst.
    - destruct (nth_error (ct_cls C) cid) as [c|] eqn:Ec; [|congruence]. exists l, cid, c. repeat split; auto.
  Qed.
  Lemma accepted_steady w : values_accepted E C U w <-> wt steady C w.
  Proof.
    split.
    - intros H l i c n d v H1 H2 H3 H4 Hc. destruct (fun A B D => H l n d v A B D 0) as (w' & K & HU); auto.
      { exists c. split; [exists i; auto|exact H3]. }
      { unfold stored. now rewrite H1. }
      rewrite <- (untouched_shape _ _ HU). eapply valid_stable; eauto.
    - intros H l n d v (c & (i & H1 & H2) & H3) H4 Hc. unfold stored in H4. rewrite H1 in H4.
      intros m. apply stable_valid. eapply H; eauto.
  Qed.
  Theorem accepted_program n p w : validators_keep U -> values_accepted E C U w -> values_accepted E C U (snd (run_prog E C U n p w)).
  Proof.
    intros HU H. apply accepted_steady. apply accepted_steady in H.
    apply (frame_run E C U _ _ (frame_steady HU) HC n p 0 w); auto. lia.
  Qed.

  (** ** What validate() checks of such values *)
  Lemma stable_fixed w p l name v : stable (shape w) p v -> (fixed_point E C U w p l name v <-> self_equal E C U w p v).
  Proof.
    intros H. assert (A : answers (fun n => p_validate E C (X n) p (Some l) name v) w (Ok v)).
    { exists 0. intros n _. destruct (stable_valid n p v (Some l) name w H) as (w' & K & _). exists w'. exact K. }
    split.
    - intros (v' & H1 & H2). pose proof (answers_fun _ _ _ _ A H1) as Q. injection Q as <-. exact H2.
    - intros K. exists v. split; [exact A|exact K].
  Qed.
  Lemma stable_faultless w S p l name : coherent_type p -> forall v, stable (shape w) p v ->
    (valid_value E C U w S p l name v <-> faultless E C U w S p v).
  Proof.
    induction p as [t|k q mn mx co IH|kp vp co IHk IHv|si ps IH|cid] using ptype_ind'; intros Hc v Hv; cbn [valid_value faultless];
      rewrite (stable_fixed w _ l name v Hv); (apply and_iff_compat_l); cbn [coherent_type stable] in *.
    - tauto.
    - destruct Hv as (xs & Hk & HF & _).
      assert (Q : Forall (valid_value E C U w S q l name) xs <-> Forall (faultless E C U w S q) xs).
      { clear - IH Hc HF. induction HF as [|x xs Hx HF IHx]; [split; constructor|]. specialize (IH Hc x Hx).
        split; intros K; inversion K; subst; constructor; tauto. }
      assert (P : py_iter v = Ok xs /\ elements v = Some xs) by (unfold of_kind in Hk; subst v; destruct k; split; reflexivity).
      destruct P as [P1 P2]. split.
      + intros (items & H1 & H2 & H3) it Hi. assert (items = xs) by congruence. assert (it = xs) by congruence. subst. tauto.
      + intros H. specialize (H xs P2). exists xs. tauto.
    - destruct Hv as (d & -> & _ & HF). destruct Hc as [Hk Hv].
      assert (Q : Forall (fun kx => valid_value E C U w S kp l name (fst kx) /\ valid_value E C U w S vp l name (snd kx)) d <->
                  Forall (fun kx => faultless E C U w S kp (fst kx) /\ faultless E C U w S vp (snd kx)) d).
      { clear - IHk IHv Hk Hv HF. induction HF as [|x xs [[Hx _] Hy] HF IHx]; [split; constructor|].
        specialize (IHk Hk (fst x) Hx). specialize (IHv Hv (snd x) Hy). split; intros K; inversion K; subst; constructor; tauto. }
      split.
      + intros (d' & [= <-] & K) d2 [= <-]. tauto.
      + intros H. exists d. split; [reflexivity|]. apply Q. auto.
    - destruct Hc.
    - tauto.
  Qed.
  Theorem accepted_faultless w S l name d v : values_accepted E C U w -> declares C w l name d -> stored w l name = Some v ->
    coherent_type (decl_type d) -> (valid_value E C U w S (decl_type d) l name v <-> faultless E C U w S (decl_type d) v).
  Proof.
    intros HA (c & (i & H1 & H2) & H3) H4 Hc. apply stable_faultless; auto. apply accepted_steady in HA.
    unfold stored in H4. rewrite H1 in H4. eapply HA; eauto.
  Qed.
End Idem.
