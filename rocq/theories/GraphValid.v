(** [validate] accepts exactly the valid object graphs. *)
From Verif Require Import World WorldFrame WorldSpec AccessSpec GraphSpec GraphConv GraphFacts GraphValidate.
Local Open Scope string_scope.
Local Open Scope list_scope.
Local Open Scope nat_scope.

Section Valid.
  Variable E : env.
  Variable C : ctable.
  Variable U : ucode.
  Notation X := (exec E C U).

  (** * Validity among more instances *)
  Lemma valid_union b S si ps l name v : valid_value E C U b S (PUnion si ps) l name v <->
    fixed_point E C U b (PUnion si ps) l name v /\ Exists (fun q => valid_value E C U b S q l name v) ps.
  Proof.
    cbn [valid_value]. apply and_iff_compat_l. induction ps as [|q ps IH]; [split; [tauto|]; intros K; inversion K|].
    rewrite IH. split; [intros [K|K]; [now left|now right]|]. intros K. inversion K; auto.
  Qed.
  Lemma valid_value_mono b (S S' : loc -> Prop) : (forall m, S m -> S' m) ->
    forall p l name v, valid_value E C U b S p l name v -> valid_value E C U b S' p l name v.
  Proof.
    intros H. induction p as [t|k q mn mx co IH|kp vp co IHk IHv|si ps IH|cid] using ptype_ind'; intros l name v.
    - auto.
    - intros (F & items & Hi & Hl & Hf). split; auto. exists items. repeat split; try apply Hl; auto.
      eapply Forall_impl; [|exact Hf]. intros x. apply IH.
    - intros (F & d & Hd & Hf). split; auto. exists d. split; auto. eapply Forall_impl; [|exact Hf]. intros x [Ha Hb]. split; auto.
    - rewrite !valid_union. intros (F & Hx). split; auto. rewrite Forall_forall in IH. apply Exists_exists in Hx.
      destruct Hx as (q & Hq & Hv). apply Exists_exists. exists q. split; auto.
    - intros (F & Hm). split; auto.
  Qed.
  Lemma valid_at_mono b (S S' : loc -> Prop) l : (forall m, S m -> S' m) -> valid_at E C U b S l -> valid_at E C U b S' l.
  Proof.
    intros H (c & Hc & Hv). exists c. split; auto. intros cv Hcv. specialize (Hv cv Hcv). destruct cv; auto.
    intros name d Hd. specialize (Hv name d Hd). unfold valid_prop in *. destruct (pd_kind d); auto.
    destruct Hv as [Hr Hv]. split; auto. intros v Hx. destruct (Hv v Hx). split; auto. eapply valid_value_mono; eauto.
  Qed.
  (** valid, taking the instances in [F] for granted *)
  Definition valid_given (b : world) (F : loc -> Prop) (l : loc) : Prop :=
    exists S : loc -> Prop, S l /\ forall m, S m -> F m \/ valid_at E C U b S m.
  Lemma valid_given_unfold b (F F' : loc -> Prop) l : ~ F l -> (forall m, F' m <-> F m \/ m = l) ->
    valid_given b F l <-> valid_at E C U b (valid_given b F') l.
  Proof.
    intros Hl HF. split.
    - intros (S & Sl & HS). destruct (HS l Sl) as [K|K]; [contradiction|]. eapply valid_at_mono; [|exact K].
      intros m Sm. exists S. split; auto. intros m' Sm'. destruct (HS m' Sm') as [K'|K']; [left; apply HF; auto|auto].
    - intros H. exists (fun m => m = l \/ valid_given b F' m). split; auto.
      assert (G : valid_at E C U b (fun m => m = l \/ valid_given b F' m) l) by (eapply valid_at_mono; [|exact H]; auto).
      intros m [->|(S & Sm & HS)]; auto. destruct (HS m Sm) as [K|K].
      + apply HF in K. destruct K as [K| ->]; auto.
      + right. eapply valid_at_mono; [|exact K]. intros m' Sm'. right. now exists S.
  Qed.
  Lemma valid_given_ext b (F F' : loc -> Prop) l : (forall m, F m <-> F' m) -> valid_given b F l -> valid_given b F' l.
  Proof. intros H (S & Sl & HS). exists S. split; auto. intros m Sm. destruct (HS m Sm); auto. left. now apply H. Qed.

  (** * Verdicts *)
  Definition passed {A} (r : res A) : Prop := exists a, r = Ok a.
  (** whether an exception that is not collected may hide a valid alternative *)
  Variable Z : Prop.
  Definition odd {A} (r : res A) : Prop := Z /\ exists e, r = Exc e /\ is_generic e = false.
  Definition verdict {A} (m : nat -> M A) (w : world) (P : Prop) : Prop :=
    exists r, conv same m w r /\ okres (fun _ => True) r /\ (passed r -> P) /\ (P -> passed r \/ odd r).
  Lemma v_iff {A} (m : nat -> M A) w P P' : (P <-> P') -> verdict m w P -> verdict m w P'.
  Proof. intros H (r & Hc & Ho & H1 & H2). exists r. repeat split; auto; intros; [apply H|apply H2, H]; auto. Qed.
  Lemma v_ret {A} (a : A) w (P : Prop) : P -> verdict (fun _ => ret a) w P.
  Proof. intros H. exists (Ok a). repeat split; auto; [apply conv_ret|]. left. now exists a. Qed.
  Lemma v_fail {A} (m : nat -> M A) w e (P : Prop) : conv same m w (Exc e) -> proper e -> (P -> Z /\ is_generic e = false) -> verdict m w P.
  Proof.
    intros H He HP. exists (Exc e). repeat split; auto; [intros [a K]; discriminate|]. intros p. right. destruct (HP p) as [z Hg].
    split; [exact z|]. now exists e.
  Qed.
  Lemma v_bind {A B} (m : nat -> M A) (k : nat -> A -> M B) w P Q : verdict m w P ->
    (forall a, P -> conv same m w (Ok a) -> verdict (fun n => k n a) w Q) -> verdict (fun n => bind (m n) (k n)) w (P /\ Q).
  Proof.
    intros ([a|e] & Hc & Ho & H1 & H2) K.
    - assert (p : P) by (apply H1; now exists a). destruct (K a p Hc) as (r & Hc' & Ho' & H3 & H4). exists r.
      split; [eapply conv_bind; eauto|]. split; [exact Ho'|]. split; [auto|]. intros [_ q]. auto.
    - apply v_fail with (e := e); auto; [now apply conv_bind_exc|]. intros [p _]. destruct (H2 p) as [[a Ka]|(z & e' & Ke & Kg)];
        [discriminate|]. injection Ke as <-. auto.
  Qed.
  Lemma v_then {A B} (m : nat -> M A) (k : nat -> A -> M B) w a Q : conv same m w (Ok a) ->
    verdict (fun n => k n a) w Q -> verdict (fun n => bind (m n) (k n)) w Q.
  Proof.
    intros Hm (r & Hc & Ho & H1 & H2). exists r. split; [eapply conv_bind; eauto|]. auto.
  Qed.
  Lemma v_try {A} (m : nat -> M A) (h : nat -> M A) w (P Q : Prop) : Z -> verdict m w P -> verdict h w Q ->
    verdict (fun n => try_ (m n) (fun e => if is_generic e then h n else throw e)) w (P \/ Q).
  Proof.
    intros z ([a|e] & Hc & Ho & H1 & H2) (r & Hc' & Ho' & H3 & H4).
    - exists (Ok a). split; [now apply conv_try|]. split; [exact I|]. split; [left; apply H1; now exists a|]. left. now exists a.
    - destruct (is_generic e) eqn:Eg.
      + exists r. split; [eapply conv_try_exc; [exact Hc|]; cbv beta; now rewrite Eg|]. split; [exact Ho'|]. split; [auto|].
        intros [p|q]; auto. destruct (H2 p) as [[a K]|(_ & e' & K & Kg)]; [discriminate|]. injection K as <-. congruence.
      + exists (Exc e). split; [eapply conv_try_exc; [exact Hc|]; cbv beta; rewrite Eg; apply conv_throw|].
        split; [exact Ho|]. split; [intros [a K]; discriminate|]. right. split; [exact z|]. now exists e.
  Qed.
  Lemma v_ext {A} (m m' : nat -> M A) w P : (forall n w1, m n w1 = m' n w1) -> verdict m w P -> verdict m' w P.
  Proof. intros He (r & Hc & K). exists r. split; auto. eapply conv_ext; eauto. Qed.

  (** * One state, up to validation flags *)
  Variable b : world.
  Hypothesis Sb : settled E C U b.
  Definition vsame (w : world) : Prop := map no_vs (w_heap b) = map no_vs (w_heap w) /\ w_quar w = w_quar b /\ w_links w = w_links b.
  Lemma vsame_like w : vsame w -> like no_vs b w.
  Proof. intros (H & Q & L). split; [|auto]. exists (w_heap w), []. split; [now rewrite app_nil_r|auto]. Qed.
  Lemma vsame_alike w : vsame w -> alike b w.
  Proof.
    intros (H & _). unfold alike. assert (K : forall l, map bare l = map bare (map no_vs l)).
    { intros l. rewrite map_map. apply map_ext. reflexivity. }
    now rewrite (K (w_heap b)), (K (w_heap w)), H.
  Qed.
  Lemma ask {A} (Q : A -> Prop) (m : nat -> M A) w : vsame w -> tot no_vs Q m b ->
    exists r, answers m b r /\ conv same m w r /\ okres Q r.
  Proof.
    intros Hw (r & Hc & HQ). exists r. split; [eapply conv_answers; eauto|]. split; auto.
    eapply conv_same, conv_like; [|exact Hc]. now apply vsame_like.
  Qed.

  Section World.
  Variable w : world.
  Hypothesis Hw : vsame w.
  Let N := length (w_heap b).
  Lemma len_w : length (w_heap w) = N.
  Proof. symmetry. apply alike_len. now apply vsame_alike. Qed.
  Lemma settled_w : settled E C U w.
  Proof. eapply settled_alike; [|exact Sb]. now apply vsame_alike. Qed.
  Lemma looked_w l name v : looked w l name v = looked b l name v.
  Proof. unfold looked. now rewrite (alike_stored b w) by (now apply vsame_alike). Qed.

  Lemma v_verror {A} reason name l (P : Prop) : l < N -> ~ P -> verdict (fun _ => @verror A reason name (Some l)) w P.
  Proof.
    intros Hl HP. eapply v_fail; [apply conv_verror; apply there_some; now rewrite len_w|discriminate|intros p; now destruct (HP p)].
  Qed.
  Lemma v_reread l name v x : l < N -> looked b l name v = x -> conv same (fun _ => reread l name v) w (Ok x).
  Proof. intros Hl Hx. rewrite <- Hx, <- looked_w. apply (conv_reread _ same_bare). now rewrite len_w. Qed.
  Lemma v_base_assert p l name v0 v : l < N -> looked b l name v0 = v -> v <> VNone -> below N v = true -> calm E p v ->
    verdict (fun n => base_assert E C (X n) p l name v0) w (fixed_point E C U b p l name v).
  Proof.
    intros Hl Hx Hn Hb Hc. unfold base_assert. eapply v_then; [apply (v_reread _ _ _ _ Hl Hx)|].
    cbv beta. destruct (is_none v) eqn:En; [now apply is_none_spec in En|].
    destruct (ask _ _ w Hw (tot_validate E C U no_vs no_vs_bare p (Some l) name v b Sb (there_some b l Hl) Hb Hc)) as ([v2|e] & A1 & C1 & O1).
    - eapply v_then; [exact C1|].
      destruct (ask _ _ w Hw (tot_p_equal_settled E C U p v v2 b Sb Hb O1)) as ([[|]|e] & A2 & C2 & O2).
      + eapply v_then; [exact C2|]. apply v_ret. now exists v2.
      + eapply v_then; [exact C2|]. apply v_verror; auto. intros (v3 & A3 & A4).
        pose proof (answers_fun _ _ _ _ A1 A3) as K. injection K as <-.
        pose proof (answers_fun _ _ _ _ A2 A4) as K. discriminate.
      + eapply v_fail; [apply conv_bind_exc; exact C2|exact O2|]. intros (v3 & A3 & A4).
        pose proof (answers_fun _ _ _ _ A1 A3) as K. injection K as <-.
        pose proof (answers_fun _ _ _ _ A2 A4) as K. discriminate.
    - eapply v_fail; [apply conv_bind_exc; exact C1|exact O1|]. intros (v3 & A3 & A4).
      pose proof (answers_fun _ _ _ _ A1 A3). discriminate.
  Qed.

  Variable Sx : loc -> Prop.
  Hypothesis V : forall m, m < N -> verdict (fun n => X n (COp (OValidate m))) w (Sx m).

  Lemma v_p_assert p : forall rq l name v x, l < N -> looked b l name v = x -> x <> VNone -> below N x = true -> calm E p x ->
    Z \/ no_union p -> verdict (fun n => p_assert E C (X n) rq p l name v) w (valid_value E C U b Sx p l name x).
  Proof.
    assert (PA : forall rq p l name v x, l < N -> looked b l name v = x -> x <> VNone -> below N x = true -> calm E p x ->
      verdict (fun n => prop_assert E C (X n) rq p l name v) w (fixed_point E C U b p l name x)).
    { intros rq q l name v x Hl Hx Hn Hb Hc. unfold prop_assert. eapply v_then; [apply (v_reread _ _ _ _ Hl Hx)|]. cbv beta.
      destruct (is_none x) eqn:En; [now apply is_none_spec in En|]. cbn [andb]. apply v_base_assert; auto. now apply looked_item. }
    induction p as [t|k q mn mx co IH|kp vp co IHk IHv|si ps IH|cid] using ptype_ind'; intros rq l name v x Hl Hx Hn Hb Hc HZ;
      cbn [p_assert valid_value]; (eapply v_bind; [now apply PA|]); intros _ Hf _; [now apply v_ret|..];
      (eapply v_then; [apply (v_reread _ _ _ _ Hl Hx)|]); cbv beta.
    - destruct (is_none x) eqn:En; [now apply is_none_spec in En|]. destruct Hc as [Hc _].
      destruct (py_iter x) as [items|e] eqn:Ei.
      + apply v_then with (a := items); [apply conv_lift|]. cbv zeta. specialize (Hc items eq_refl).
        apply (below_iter N) in Ei; auto.
        apply v_iff with (P := within_limits mn mx (length items) /\ Forall (valid_value E C U b Sx q l name) items).
        { split; [intros [H1 H2]; exists items; auto|]. intros (it & K & H1 & H2). injection K as <-. auto. }
        eapply v_bind.
        * destruct (_ || _) eqn:Eo.
          -- apply v_verror; auto. intros [L1 L2]. apply orb_true_iff in Eo. destruct Eo as [Eo|Eo].
             ++ destruct mn as [m|]; [|discriminate]. apply Nat.ltb_lt in Eo. specialize (L1 m eq_refl). lia.
             ++ destruct mx as [m|]; [|discriminate]. apply Nat.ltb_lt in Eo. specialize (L2 m eq_refl). lia.
          -- apply v_ret. apply orb_false_iff in Eo. destruct Eo as [E1 E2]. split; intros m Hm; subst.
             ++ now apply Nat.ltb_ge in E1.
             ++ now apply Nat.ltb_ge in E2.
        * intros _ _ _. induction Ei as [|y items Hy Hi IHi]; [now apply v_ret|]. inversion Hc as [|? ? [Hc1 Hc2] Hc3]; subst.
          apply v_iff with (P := valid_value E C U b Sx q l name y /\ Forall (valid_value E C U b Sx q l name) items).
          { split; [intros [? ?]; now constructor|]. intros K. now inversion K. }
          eapply v_bind; [apply IH; auto using looked_item|]. intros _ _ _. now apply IHi.
      + eapply v_fail; [apply conv_bind_exc; apply conv_lift|eapply proper_iter; eauto|]. intros (it & K & _). congruence.
    - destruct (is_none x) eqn:En; [now apply is_none_spec in En|].
      assert (F : (forall d, x <> VDict d) -> verdict (fun _ => @throw unit ExAttr) w (exists d, x = VDict d /\
          Forall (fun kx => valid_value E C U b Sx kp l name (fst kx) /\ valid_value E C U b Sx vp l name (snd kx)) d)).
      { intros K. eapply v_fail; [apply conv_throw|discriminate|]. intros (d & Hd & _). now destruct (K d). }
      destruct x as [| | | | | | | | | | | | |d|]; try (apply F; discriminate). clear F.
      cbn [calm py_dict] in Hc. specialize (Hc d eq_refl). apply below_dict in Hb.
      apply v_iff with (P := Forall (fun kx => valid_value E C U b Sx kp l name (fst kx) /\ valid_value E C U b Sx vp l name (snd kx)) d).
      { split; [intros K; exists d; auto|]. intros (d' & K & K'). injection K as <-. exact K'. }
      clear Hx Hn En Hf. induction d as [|[y z] d IHd]; [now apply v_ret|]. inversion Hb as [|? ? [Hb1 Hb2] Hb3]; subst.
      inversion Hc as [|? ? [[Hc1 Hc2] [Hc3 Hc4]] Hc5]; subst. cbn [fst snd] in *.
      apply v_iff with (P := valid_value E C U b Sx kp l name y /\ valid_value E C U b Sx vp l name z /\
        Forall (fun kx => valid_value E C U b Sx kp l name (fst kx) /\ valid_value E C U b Sx vp l name (snd kx)) d).
      { split; [intros (K1 & K2 & K3); constructor; auto|]. intros K. inversion K as [|? ? [K1 K2] K3]; subst. auto. }
      eapply v_bind; [apply IHk; auto; [now apply looked_item|cbn [no_union] in HZ; tauto]|]. intros _ _ _.
      eapply v_bind; [apply IHv; auto; [now apply looked_item|cbn [no_union] in HZ; tauto]|]. intros _ _ _. apply IHd; auto.
    - destruct (is_none x) eqn:En; [now apply is_none_spec in En|]. apply calm_union in Hc.
      clear Hf. induction IH as [|q ps Hq Hps IHps]; [apply v_verror; auto|]. inversion Hc; subst.
      assert (z : Z) by (destruct HZ as [z|[]]; exact z). apply v_try; [exact z|apply Hq; auto using looked_item|auto].
    - assert (F : (forall m, x <> VInst m) -> verdict (fun _ => ret tt) w (forall m, x = VInst m -> Sx m)).
      { intros K. apply v_ret. intros m Hm. now destruct (K m). }
      destruct x; try (apply F; discriminate). cbn [below] in Hb. apply Nat.ltb_lt in Hb.
      eapply v_iff; [|eapply v_bind with (Q := True); [now apply V|]; intros; now apply v_ret].
      split; [intros [K _] m Hm; injection Hm as <-; auto|]. intros K. split; auto.
  Qed.

  (** * One property *)
  Lemma has_value_fun l name v v' : has_value b l name v -> has_value b l name v' -> v = v'.
  Proof. intros [H _] [K _]. congruence. Qed.
  Hypothesis HZ : forall l name d, declares C b l name d -> pd_kind d = KProp -> Z \/ no_union (pd_type d).
  Lemma v_check_prop l name d : l < N -> declares C b l name d ->
    verdict (fun n => check_prop E C (X n) l (name, d)) w (valid_prop E C U b Sx l name d).
  Proof.
    intros Hl Hd. unfold check_prop. eapply v_then.
    { apply (conv_back same same_bare). now rewrite len_w. }
    cbv beta. rewrite (alike_stored b w) by (now apply vsame_alike).
    assert (Hk : looked b l name VNone = value_or_none (stored b l name)) by reflexivity.
    set (x := value_or_none (stored b l name)) in *.
    destruct (is_none x) eqn:En.
    - apply is_none_spec in En. assert (NV : forall v, ~ has_value b l name v).
      { intros v [H1 H2]. subst x. rewrite H1 in En. now cbn in En. }
      apply v_then with (a := tt); [apply conv_ret|]. cbv beta. unfold decl_assert, valid_prop.
      assert (BA : forall p, conv same (fun n => base_assert E C (X n) p l name VNone) w (Ok tt)).
      { intros p. unfold base_assert. eapply conv_bind; [apply (conv_reread _ same_bare); now rewrite len_w|].
        rewrite looked_w, Hk, En. apply conv_ret. }
      assert (G : forall p (P : loc -> string -> val -> Prop), verdict (fun n => base_assert E C (X n) p l name VNone) w
          (forall v, has_value b l name v -> P l name v)).
      { intros p P. exists (Ok tt). split; [apply BA|]. split; [exact I|]. split; [intros _ v K; now destruct (NV v)|].
        intros _. left. now exists tt. }
      destruct (pd_kind d); try apply (G _ (fun l name v => _ l name v /\ _ l name v)); try (apply (G _ (fun l name v => _))).
      clear G. apply v_iff with (P := pd_required d = false).
      { split; [intros K; split; [congruence|intros v Hv; now destruct (NV v)]|].
        intros [K _]. destruct (pd_required d); auto. destruct (K eq_refl) as [v Hv]. now destruct (NV v). }
      assert (R : conv same (fun _ => reread l name VNone) w (Ok VNone)).
      { apply v_reread; [exact Hl|]. now rewrite Hk. }
      assert (PA : verdict (fun n => prop_assert E C (X n) (pd_required d) (pd_type d) l name VNone) w (pd_required d = false)).
      { unfold prop_assert. eapply v_then; [exact R|]. cbn [is_none andb]. destruct (pd_required d).
        - apply v_verror; auto. discriminate.
        - exists (Ok tt). split; [apply BA|]. split; [exact I|]. split; auto. left. now exists tt. }
      destruct (pd_type d) as [t|k q mn mx co|kp vp co|si ps|cid]; cbn [p_assert];
        (eapply v_iff; [|eapply v_bind with (Q := True); [exact PA|]; intros _ _ _]; [tauto|]);
        try (now apply v_ret); (eapply v_then; [exact R|]); now apply v_ret.
    - assert (Hn : x <> VNone) by (intros K; rewrite K in En; discriminate).
      assert (HV : has_value b l name x).
      { split; auto. subst x. destruct (stored b l name) as [v|]; [reflexivity|now destruct Hn]. }
      assert (Hb : below N x = true) by (eapply st_stored; [exact Sb|apply HV]).
      assert (TV : verdict (fun n => let* sid := tick in let* v1 := notify (X n) sid l name x x MValidate in
          let* b0 := p_equal (X n) (decl_type d) x v1 in if b0 then ret tt else verror "invalid" name (Some l)) w
          (validators_agree E C U b (decl_type d) l name x)).
      { eapply v_ext with (m := fun n => let* v1 := told E C U l name x x n in
          let* b0 := p_equal (X n) (decl_type d) x v1 in if b0 then ret tt else verror "invalid" name (Some l)).
        { intros n w1. unfold told, bind. now destruct (tick w1) as [[?|?] ?]. }
        destruct (tot_notify_leave E C U no_vs no_vs_bare b l name x x Sb Hl Hb Hb) as (r & C1 & O1 & L1).
        assert (C1' : conv same (told E C U l name x x) w r).
        { eapply conv_same, conv_like; [|exact C1]. now apply vsame_like. }
        destruct r as [v1|e].
        - eapply v_then; [exact C1'|]. pose proof (proj1 (L1 v1) eq_refl) as L.
          destruct (ask _ _ w Hw (tot_p_equal_settled E C U (decl_type d) x v1 b Sb Hb O1)) as ([[|]|e] & A2 & C2 & O2).
          + eapply v_then; [exact C2|]. apply v_ret. exists v1. auto.
          + eapply v_then; [exact C2|]. apply v_verror; auto. intros (v2 & L2 & A3). apply L1 in L2. injection L2 as <-.
            pose proof (answers_fun _ _ _ _ A2 A3). discriminate.
          + eapply v_fail; [apply conv_bind_exc; exact C2|exact O2|]. intros (v2 & L2 & A3). apply L1 in L2. injection L2 as <-.
            pose proof (answers_fun _ _ _ _ A2 A3). discriminate.
        - eapply v_fail; [apply conv_bind_exc; exact C1'|exact O1|]. intros (v2 & L2 & A3). apply L1 in L2. discriminate. }
      eapply v_iff; [|eapply v_bind with (Q := match pd_kind d with
         | KProp => valid_value E C U b Sx (pd_type d) l name x
         | _ => fixed_point E C U b (decl_type d) l name x end); [exact TV|]; intros _ _ _].
      { unfold valid_prop, decl_type. destruct (pd_kind d).
        - split; [intros [H1 H2] v K; rewrite (has_value_fun _ _ _ _ K HV); auto|]. intros K. now apply K.
        - split; [intros [H1 H2] v K; rewrite (has_value_fun _ _ _ _ K HV); auto|]. intros K. now apply K.
        - split.
          + intros [H1 H2]. split; [now exists x|]. intros v K. rewrite (has_value_fun _ _ _ _ K HV). auto.
          + intros [_ K]. now apply K.
        - split; [intros [H1 H2] v K; rewrite (has_value_fun _ _ _ _ K HV); auto|]. intros K. now apply K. }
      unfold decl_assert, decl_type.
      destruct (pd_kind d) as [|g s y| |nn] eqn:Ek.
      + apply v_base_assert; auto. eapply st_calm; eauto; [congruence|apply HV].
      + apply v_base_assert; auto. eapply st_calm; eauto; [congruence|apply HV].
      + apply v_p_assert; auto; [|eapply HZ; eauto]. eapply st_calm; eauto; [congruence|apply HV].
      + apply v_base_assert; auto. intros r r'. reflexivity.
  Qed.

  (** * All properties *)
  Definition clean (a : errs) : Prop := a = ([], None).
  Lemma v_validate_props l ps : l < N -> Forall (fun nd => declares C b l (fst nd) (snd nd)) ps ->
    exists a, conv same (fun n => validate_props E C (X n) l ps) w (Ok a) /\ fair a /\
      (clean a -> Forall (fun nd => valid_prop E C U b Sx l (fst nd) (snd nd)) ps) /\
      (Forall (fun nd => valid_prop E C U b Sx l (fst nd) (snd nd)) ps -> clean a \/ Z /\ exists e, snd a = Some e /\ is_generic e = false).
  Proof.
    intros Hl H. induction H as [|[name d] ps Hd Hps IH]; cbn [validate_props].
    { exists ([], None). split; [apply conv_ret|]. split; [discriminate|]. split; auto. intros _. now left. }
    destruct (v_check_prop l name d Hl Hd) as ([[]|e] & Hc & Ho & H1 & H2).
    - destruct IH as (a & Ca & Fa & A1 & A2). exists a. split.
      { eapply conv_bind; [apply conv_outcome; exact Hc|]. exact Ca. }
      split; auto. split; [intros K; constructor; auto; apply H1; now exists tt|]. intros K. inversion K. auto.
    - assert (G : (forall ts, e <> ExValidation ts) -> exists a, conv same (fun _ => ret ([], Some e)) w (Ok a) /\ fair a /\
        (clean a -> Forall (fun nd => valid_prop E C U b Sx l (fst nd) (snd nd)) ((name, d) :: ps)) /\
        (Forall (fun nd => valid_prop E C U b Sx l (fst nd) (snd nd)) ((name, d) :: ps) -> clean a \/ Z /\ exists e, snd a = Some e /\ is_generic e = false)).
      { intros _. exists ([], Some e). split; [apply conv_ret|]. split; [intros e' K; injection K as <-; exact Ho|].
        split; [discriminate|]. intros K. inversion K; subst. right.
        destruct (H2 H3) as [[a' K']|(z & e' & K' & Kg)]; [discriminate|]. injection K' as <-. split; auto. now exists e. }
      destruct e as [ts| | | | | | | | |]; try (destruct G as (a & G1 & G2); [discriminate|]; exists a; split; [eapply conv_bind; [apply conv_outcome; exact Hc|exact G1]|exact G2]).
      clear G. destruct IH as (a & Ca & Fa & A1 & A2). exists (ts ++ fst a, snd a). split.
      { eapply conv_bind; [apply conv_outcome; exact Hc|]. cbv beta iota. eapply conv_bind; [exact Ca|]. apply conv_ret. }
      split; [exact Fa|]. split.
      + intros K. unfold clean in K. injection K as K _. destruct ts; [|discriminate]. now destruct Ho.
      + intros K. inversion K; subst. destruct (H2 H3) as [[a' K']|(_ & e' & K' & Kg)]; [discriminate|]. injection K' as <-. discriminate.
  Qed.
  (** what one class validator asks for *)
  Definition asks (c : cls) (l : loc) (cv : cvalid) : Prop :=
    match cv with
    | CVProps => forall name d, dget (c_props c) name = Some d -> valid_prop E C U b Sx l name d
    | CVUser cb => exists v, answers (fun n => run_prog E C U n (u_cval U cb l)) b (Ok v) /\ v <> VBool false
    end.
  (** outcome of collecting: an exception that is not collected, or the errors *)
  Definition collects (m : nat -> M errs) (a : errs) (P : Prop) : Prop :=
    exists r, conv same m w r /\ match r with
      | Exc e => is_generic e = false /\ (clean a -> P -> Z)
      | Ok a' => fair a' /\ (clean a' -> clean a /\ P) /\ (clean a -> P -> clean a')
      end.
  Lemma c_add_err a a1 e (P : Prop) : fair a1 -> proper e -> (P -> clean a -> Z /\ is_generic e = false) ->
    collects (fun _ => add_err a1 e) a P.
  Proof.
    intros Fa He HP. unfold add_err.
    assert (G : is_generic e = true -> (forall ts, e <> ExValidation ts) -> collects (fun _ => ret (fst a1, match snd a1 with Some e0 => Some e0 | None => Some e end)) a P).
    { intros Hg _. eexists. split; [apply conv_ret|]. cbv beta iota. split.
      - unfold fair. cbn [snd]. destruct (snd a1) as [e0|] eqn:K; intros e' Q; injection Q as <-; auto.
      - split; [intros K; unfold clean in K; injection K as _ K; destruct (snd a1); discriminate|]. intros K1 K2. destruct (HP K2 K1) as [_ K3]. congruence. }
    destruct e as [ts| | | | | | | | |]; try (apply G; [reflexivity|discriminate]);
      try (eexists; split; [apply conv_throw|split; [reflexivity|intros K1 K2; now destruct (HP K2 K1)]]).
    eexists. split; [apply conv_ret|]. cbv beta iota. split; [exact Fa|]. split.
    - intros K. unfold clean in K. injection K as K _. apply app_eq_nil in K. destruct K as [_ ->]. now destruct He.
    - intros K1 K2. destruct (HP K2 K1) as [_ K3]. discriminate.
  Qed.
  Lemma v_run_cval l i c a cv (Hfa : fair a) :
    (forall name d, In (name, d) (c_props c) -> declares C b l name d) ->
    (forall name d, In (name, d) (c_props c) <-> dget (c_props c) name = Some d) ->
    nth_error (w_heap b) l = Some i -> nth_error (ct_cls C) (i_cls i) = Some c -> In cv (c_cvals c) ->
    collects (fun n => run_cval E C U (X n) c l a cv) a (asks c l cv).
  Proof.
    intros Hd Hg Hi Hc Hcv. assert (Hl : l < N) by (apply nth_error_Some; congruence).
    unfold run_cval. destruct cv as [|cb].
    - destruct (v_validate_props l (c_props c) Hl) as (a' & Ca & Fa & A1 & A2).
      { apply Forall_forall. intros [name d] Hin. now apply Hd. }
      assert (Eq : Forall (fun nd => valid_prop E C U b Sx l (fst nd) (snd nd)) (c_props c) <-> asks c l CVProps).
      { rewrite Forall_forall. split; [intros K name d Hnd; apply (K (name, d)); now apply Hg|].
        intros K [name d] Hnd. apply K. now apply Hg. }
      assert (G : collects (fun _ => match snd a' with None => ret (fst a ++ fst a', snd a) | Some e => add_err (fst a ++ fst a', snd a) e end) a (asks c l CVProps)).
      { destruct (snd a') as [e|] eqn:Es.
        - apply c_add_err; [exact Hfa|now apply Fa|]. intros Kp _. apply Eq, A2 in Kp. destruct Kp as [K|(z & e' & K & Kg')].
          + unfold clean in K. rewrite K in Es. discriminate.
          + injection K as <-. auto.
        - eexists. split; [apply conv_ret|]. cbv beta iota. split; [exact Hfa|]. split.
          + intros K. unfold clean in K. injection K as K1 K2. apply app_eq_nil in K1. destruct K1 as [K1 K3]. split.
            * destruct a; cbn in *. now subst.
            * apply Eq, A1. destruct a'; cbn in *. now subst.
          + intros K1 K2. apply Eq, A2 in K2. destruct K2 as [K2|(_ & e & K2 & _)]; [|discriminate]. unfold clean in *. now subst. }
      destruct G as (r & Cr & Hr). exists r. split; auto. eapply conv_bind; [exact Ca|]. exact Cr.
    - destruct (ask _ _ w Hw (tot_run E C U no_vs no_vs_bare (u_cval U cb l) b (fun _ => True) Sb
          (st_cvals _ _ _ _ Sb _ _ _ _ Hc Hcv Hl))) as (r & A1 & C1 & O1).
      assert (G : exists r', conv same (fun n => let* v := run (X n) (u_cval U cb l) in match v with
            | VBool false => let ts := [ET None None (Some l)] in hook (Some l) ts ;; throw (ExValidation ts)
            | _ => ret tt end) w r' /\ match r' with Ok _ => asks c l (CVUser cb) | Exc e => proper e /\ ~ asks c l (CVUser cb) end).
      { destruct r as [v|e].
        - destruct (match v with VBool false => true | _ => false end) eqn:Ev.
          + destruct v as [| |[|]| | | | | | | | | | | |]; try discriminate. exists (Exc (ExValidation [ET None None (Some l)])). split.
            * eapply conv_bind; [exact C1|]. cbv beta iota zeta. eapply conv_bind; [|apply conv_throw].
              apply conv_hook. apply there_some. now rewrite len_w.
            * split; [discriminate|]. intros (v & A2 & K). pose proof (answers_fun _ _ _ _ A1 A2) as Q. injection Q as <-. now apply K.
          + exists (Ok tt). split.
            * eapply conv_bind; [exact C1|]. destruct v as [| |[|]| | | | | | | | | | | |]; try discriminate; apply conv_ret.
            * exists v. split; [exact A1|]. intros ->. discriminate.
        - exists (Exc e). split; [now apply conv_bind_exc|]. split; [exact O1|]. intros (v & A2 & K).
          pose proof (answers_fun _ _ _ _ A1 A2). discriminate. }
      destruct G as ([[]|e] & C2 & H2).
      + exists (Ok a). split; [eapply conv_bind; [apply conv_outcome; exact C2|apply conv_ret]|]. split; auto.
      + destruct (c_add_err a a e (asks c l (CVUser cb)) Hfa (proj1 H2)) as (r' & C3 & H3).
        { intros K. now destruct (proj2 H2). }
        exists r'. split; auto. eapply conv_bind; [apply conv_outcome; exact C2|exact C3].
  Qed.
  Lemma v_cvals l i c : (forall name d, In (name, d) (c_props c) -> declares C b l name d) ->
    (forall name d, In (name, d) (c_props c) <-> dget (c_props c) name = Some d) ->
    nth_error (w_heap b) l = Some i -> nth_error (ct_cls C) (i_cls i) = Some c ->
    forall cvs a, fair a -> incl cvs (c_cvals c) ->
    collects (fun n => foldM (run_cval E C U (X n) c l) a cvs) a (Forall (asks c l) cvs).
  Proof.
    intros Hd Hg Hi Hc. induction cvs as [|cv cvs IH]; intros a Fa Hin; cbn [foldM].
    - eexists. split; [apply conv_ret|]. cbv beta iota. auto.
    - destruct (v_run_cval l i c a cv Fa Hd Hg Hi Hc) as ([a1|e] & C1 & H1); [apply Hin; now left| |].
      + destruct H1 as (F1 & H1 & H2). destruct (IH a1 F1) as (r & C2 & H3); [intros x Hx; apply Hin; now right|].
        exists r. split; [eapply conv_bind; eauto|]. destruct r as [a2|e].
        2: { split; [apply H3|]. intros K K'. inversion K'; subst. apply H3; auto. }
        destruct H3 as (F2 & H3 & H4).
        split; auto. split.
        * intros K. destruct (H3 K) as [K1 K2]. destruct (H1 K1) as [K3 K4]. split; auto.
        * intros K K'. inversion K'; subst. auto.
      + exists (Exc e). split; [now apply conv_bind_exc|]. split; [apply H1|]. intros K K'. inversion K'; subst. now apply H1.
  Qed.
  End World.

  (** * validate *)
  Definition flagged (w : world) (l : loc) : Prop := exists i, nth_error (w_heap w) l = Some i /\ i_vflag i = Some true.
  Lemma vsame_refl : vsame b.
  Proof. now split. Qed.
  Lemma vsame_upd w l : vsame w -> vsame (w_upd l (i_setv (Some true)) w).
  Proof.
    intros (H & Q & L). unfold w_upd. destruct (nth_error (w_heap w) l) as [i|] eqn:Hi; [|now split].
    cbn [w_setheap w_heap w_quar w_links]. split; [|auto]. rewrite H. symmetry. apply set_nth_map.
    intros x Hx. rewrite Hi in Hx. injection Hx as <-. reflexivity.
  Qed.
  Lemma flagged_upd w l i : nth_error (w_heap w) l = Some i ->
    forall m, flagged (w_upd l (i_setv (Some true)) w) m <-> flagged w m \/ m = l.
  Proof.
    intros Hi m. unfold flagged, w_upd. rewrite Hi. cbn [w_setheap w_heap].
    assert (Hl : l < length (w_heap w)) by (apply nth_error_Some; congruence).
    destruct (Nat.eq_dec m l) as [->|Hm].
    - rewrite set_nth_same by auto. split; auto. intros _. eexists. split; reflexivity.
    - rewrite set_nth_other by auto. split; [auto|]. intros [K|K]; [auto|contradiction].
  Qed.
  Lemma v_valid_inst (WF : wf_ctab C) (HZ : forall l name d, declares C b l name d -> pd_kind d = KProp -> Z \/ no_union (pd_type d)) :
    forall k w, count open_v w = k -> vsame w -> initialized w ->
    forall l, l < length (w_heap b) -> verdict (fun n => X n (COp (OValidate l))) w (valid_given b (flagged w) l).
  Proof.
    induction k as [k IH] using lt_wf_ind. intros w Hk Hw In l Hl.
    assert (Sw : settled E C U w) by (now apply settled_w). rewrite <- (len_w w Hw) in Hl.
    assert (T : forall P : Prop, (exists r, conv same (fun n => has_validate E C U (X n) l) w r /\ okres (fun _ => True) r /\ (passed r -> P) /\ (P -> passed r \/ odd r)) ->
       verdict (fun n => X n (COp (OValidate l))) w P).
    { intros P (r & Hc & Hr). exists r. split; auto. destruct Hc as (k0 & Hc). exists (S k0). intros [|n] Hn; [lia|].
      apply (Hc n). lia. }
    apply T. clear T. unfold has_validate. destruct (get_in w l Hl) as (i & Hi).
    assert (Get : forall (k : nat -> inst -> M val) r, conv same (fun n => k n i) w r -> conv same (fun n => let* i := get_inst l in k n i) w r).
    { intros k0 r Hc. eapply conv_get; [exact Hi| |exact Hc]. intros n i1 H1. unfold same in H1. now subst. }
    destruct (i_vflag i) as [[|]|] eqn:Ev; [| |now destruct (In _ _ Hi)].
    { exists (Ok (VBool true)). split; [apply Get; rewrite Ev; apply conv_ret|]. split; [exact I|].
      assert (F : flagged w l) by (now exists i). split; [intros _; exists (flagged w); split; auto|]. intros _. left. now eexists. }
    set (w' := w_upd l (i_setv (Some true)) w). assert (Hw' : vsame w') by (now apply vsame_upd).
    assert (In' : initialized w') by (now apply initialized_upd).
    assert (V' : forall m, m < length (w_heap b) -> verdict (fun n => X n (COp (OValidate m))) w' (valid_given b (flagged w') m)).
    { eapply IH; [|reflexivity|exact Hw'|exact In'].
      pose proof (count_upd open_v l (i_setv (Some true)) w i Hi) as K. unfold open_v in K at 1 2. cbn in K. rewrite Ev in K.
      specialize (K eq_refl eq_refl). unfold w'. lia. }
    rewrite (len_w w Hw) in Hl. destruct (get_in b l Hl) as (ib & Hib).
    destruct (nth_error (ct_cls C) (i_cls ib)) as [c|] eqn:Hc; [|now destruct (st_class _ _ _ _ Sb _ _ Hib)].
    assert (Hi' : exists i', nth_error (w_heap w') l = Some i' /\ i_cls i' = i_cls ib).
    { destruct (alike_nth _ _ _ _ (vsame_alike w' Hw') Hib) as (j & Hj & Kj). apply bare_eq in Kj. exists j. split; auto. apply Kj. }
    destruct Hi' as (i' & Hi' & Ec).
    destruct (v_cvals w' Hw' (valid_given b (flagged w')) V' HZ l ib c) with (cvs := c_cvals c) (a := (@nil etuple, @None exn))
      as (r & Cr & Hr); auto.
    { intros name d Hnd. eapply wf_declares; eauto. }
    { intros name d. split; [apply dget_nodup_in; eapply WF; eauto|apply dget_in]. }
    { discriminate. }
    { apply incl_refl. }
    assert (At : valid_given b (flagged w) l <-> Forall (asks (valid_given b (flagged w')) c l) (c_cvals c)).
    { rewrite (valid_given_unfold b (flagged w) (flagged w') l).
      - rewrite Forall_forall. split.
        + intros (c' & (i0 & H1 & H2) & H3). rewrite Hib in H1. injection H1 as <-. rewrite Hc in H2. injection H2 as <-. exact H3.
        + intros K. exists c. split; [now exists ib|]. exact K.
      - intros (j & Hj & Fj). congruence.
      - now apply flagged_upd with (i := i). }
    assert (Fold : exists r', conv same (fun n =>
             let* c := inst_class C l in
             let* a := foldM (run_cval E C U (X n) c l) ([], None) (c_cvals c) in
             raise_collected l a ;; ret (VBool true)) w' r' /\ okres (fun _ => True) r' /\
             (passed r' -> valid_given b (flagged w) l) /\ (valid_given b (flagged w) l -> passed r' \/ odd r')).
    { assert (Cl : conv same (fun _ => inst_class C l) w' (Ok c)).
      { pose proof (conv_cls C same same_bare l i' w' Hi') as K. rewrite Ec, Hc in K. exact K. }
      destruct r as [a|e].
      - destruct Hr as (Fa & H1 & H2). destruct a as [[|t ts] [e|]].
        + exists (Exc e). split; [|split; [now apply Fa|]].
          * eapply conv_bind; [exact Cl|]. eapply conv_bind; [exact Cr|]. apply conv_bind_exc. apply conv_throw.
          * split; [intros [a K]; discriminate|]. intros K. apply At in K. specialize (H2 eq_refl K). discriminate.
        + exists (Ok (VBool true)). split; [|split; [exact I|]].
          * eapply conv_bind; [exact Cl|]. eapply conv_bind; [exact Cr|]. eapply conv_bind; [apply conv_ret|apply conv_ret].
          * split; [intros _; apply At; now apply H1|]. intros _. left. now eexists.
        + exists (Exc (ExValidation (t :: ts))). split; [|split; [discriminate|]].
          * eapply conv_bind; [exact Cl|]. eapply conv_bind; [exact Cr|]. apply conv_bind_exc.
            eapply conv_bind; [apply conv_emit|apply conv_throw].
          * split; [intros [a K]; discriminate|]. intros K. apply At in K. specialize (H2 eq_refl K). discriminate.
        + exists (Exc (ExValidation (t :: ts))). split; [|split; [discriminate|]].
          * eapply conv_bind; [exact Cl|]. eapply conv_bind; [exact Cr|]. apply conv_bind_exc.
            eapply conv_bind; [apply conv_emit|apply conv_throw].
          * split; [intros [a K]; discriminate|]. intros K. apply At in K. specialize (H2 eq_refl K). discriminate.
      - destruct Hr as [Hr HrZ]. exists (Exc e). split; [|split; [destruct e; discriminate|]].
        + eapply conv_bind; [exact Cl|]. now apply conv_bind_exc.
        + split; [intros [a K]; discriminate|]. intros K. right. split; [apply HrZ; [reflexivity|now apply At]|]. now exists e. }
    destruct Fold as (r' & Cr' & Or' & Hr'). exists r'. split; [|split; [exact Or'|exact Hr']].
    apply Get. rewrite Ev. apply conv_flag; auto.
    - now rewrite (len_w w Hw).
    - unfold same. intros; congruence.
    - intros x y Hx Hy. unfold same in Hy. subst y. rewrite Hi in Hx. injection Hx as <-. destruct i. cbn in *. now subst.
  Qed.
End Valid.

Lemma conv_ends f {A} (m : nat -> M A) w r : conv f m w r -> ends m w r.
Proof. intros [n0 H]. exists n0. intros n Hn. now apply (H n Hn), like_refl. Qed.
Lemma ends_answers {A} (m : nat -> M A) w r : ends m w r -> answers m w r.
Proof. intros [d H]. exists d. intros n Hn. destruct (H n Hn) as (w' & K & _). now exists w'. Qed.

Lemma validate_ends E C U : wf_ctab C -> forall w, settled E C U w -> initialized w -> forall l, l < length (w_heap w) ->
  exists r, ends (fun n => exec E C U n (COp (OValidate l))) w r /\ (r = Ok (VBool true) \/ exists e, r = Exc e).
Proof.
  intros WF w S In l Hl. destruct (ends_valid_settled E C U WF w S In l Hl) as (r & Hc & Hr). exists r.
  split; [eapply conv_ends; eauto|]. destruct r; [left; now rewrite Hr|right; now eexists].
Qed.
Lemma valid_idle E C U w l : idle w -> valid_given E C U w (flagged w) l <-> valid_graph E C U w l.
Proof.
  intros I. assert (F : forall m, ~ flagged w m) by (intros m (i & Hi & K); rewrite (I _ _ Hi) in K; discriminate).
  split; intros (S & Sl & HS); exists S; (split; [exact Sl|]); intros m Sm.
  - destruct (HS m Sm) as [K|K]; [now destruct (F m)|exact K].
  - right. auto.
Qed.
Lemma validate_decides (Z : Prop) E C U : wf_ctab C -> forall w, settled E C U w -> initialized w -> idle w ->
  (forall l name d, declares C w l name d -> pd_kind d = KProp -> Z \/ no_union (pd_type d)) ->
  forall l, l < length (w_heap w) -> exists r, ends (fun n => exec E C U n (COp (OValidate l))) w r /\
    (r = Ok (VBool true) \/ exists e, r = Exc e) /\
    (r = Ok (VBool true) -> valid_graph E C U w l) /\
    (valid_graph E C U w l -> r = Ok (VBool true) \/ Z /\ exists e, r = Exc e /\ is_generic e = false).
Proof.
  intros WF w S In Id HZ l Hl. destruct (validate_ends E C U WF w S In l Hl) as (r & Er & Hr). exists r. split; auto. split; auto.
  destruct (v_valid_inst E C U Z w S WF HZ _ w eq_refl (vsame_refl w) In l Hl) as (r' & Cr & _ & H1 & H2).
  pose proof (answers_fun _ _ _ _ (ends_answers _ _ _ Er) (conv_answers _ _ _ _ Cr)) as K. subst r'.
  rewrite (valid_idle _ _ _ _ _ Id) in H1, H2. split; [intros ->; apply H1; now eexists|].
  intros K. destruct (H2 K) as [[a ->]|Ho]; [|now right]. left. destruct Hr as [Hr|[e Hr]]; [exact Hr|discriminate].
Qed.
Lemma validate_accepts E C U : wf_ctab C -> forall w, settled E C U w -> initialized w -> idle w ->
  forall l, l < length (w_heap w) -> exists r, answers (fun n => exec E C U n (COp (OValidate l))) w r /\
    (r = Ok (VBool true) \/ exists e, r = Exc e) /\
    (r = Ok (VBool true) -> valid_graph E C U w l) /\
    (valid_graph E C U w l -> r = Ok (VBool true) \/ exists e, r = Exc e /\ is_generic e = false).
Proof.
  intros WF w S In Id l Hl. destruct (validate_decides True E C U WF w S In Id) with (l := l) as (r & Er & Hr & H1 & H2); auto.
  exists r. split; [now apply ends_answers|]. split; auto. split; auto. intros K. destruct (H2 K) as [K'|[_ K']]; auto.
Qed.
Lemma validate_exact E C U : wf_ctab C -> union_free C -> forall w, settled E C U w -> initialized w -> idle w ->
  forall l, l < length (w_heap w) -> exists r, answers (fun n => exec E C U n (COp (OValidate l))) w r /\
    (r = Ok (VBool true) \/ exists e, r = Exc e) /\ (r = Ok (VBool true) <-> valid_graph E C U w l).
Proof.
  intros WF UF w S In Id l Hl. destruct (validate_decides False E C U WF w S In Id) with (l := l) as (r & Er & Hr & H1 & H2); auto.
  { intros m name d (c & (i & Hi & Hc) & Hd) Hk. right. eapply UF; eauto. }
  exists r. split; [now apply ends_answers|]. split; auto. split; auto. intros K. destruct (H2 K) as [K'|[[] _]]; auto.
Qed.

(** * Reachable instances *)
Lemma valid_value_holds E C U w (S : loc -> Prop) p : forall l name v m, no_union p ->
  valid_value E C U w S p l name v -> holds_inst p v m -> S m.
Proof.
  induction p as [t|k q mn mx co IH|kp vp co IHk IHv|si ps IH|cid] using ptype_ind'; intros l name v m Hn Hv Hh;
    cbn [no_union valid_value holds_inst] in *.
  - contradiction.
  - destruct Hv as (_ & items & Hi & _ & Hf). destruct Hh as (items' & x & Hi' & Hx & Hh). rewrite Hi in Hi'. injection Hi' as <-.
    rewrite Forall_forall in Hf. eauto.
  - destruct Hv as (_ & d & -> & Hf). destruct Hh as (d' & y & x & Hd & Hx & Hh). injection Hd as <-. rewrite Forall_forall in Hf.
    specialize (Hf _ Hx). cbn [fst snd] in Hf. destruct Hn, Hf, Hh; eauto.
  - contradiction.
  - destruct Hv as [_ Hv]. auto.
Qed.
Lemma holds_union si ps v m : holds_inst (PUnion si ps) v m <-> Exists (fun q => holds_inst q v m) ps.
Proof.
  cbn [holds_inst]. induction ps as [|q ps IH]; [split; [tauto|]; intros K; inversion K|].
  rewrite IH. split; [intros [K|K]; [now left|now right]|]. intros K. inversion K; auto.
Qed.
Lemma valid_value_local E C U w (S : loc -> Prop) p : forall l name v,
  valid_value E C U w (fun _ => True) p l name v -> (forall m, holds_inst p v m -> S m) -> valid_value E C U w S p l name v.
Proof.
  induction p as [t|k q mn mx co IH|kp vp co IHk IHv|si ps IH|cid] using ptype_ind'; intros l name v.
  - auto.
  - cbn [valid_value holds_inst]. intros (F & items & Hi & Hl & Hf) Hh. split; auto. exists items. split; auto. split; auto.
    rewrite Forall_forall in *. intros x Hx. apply IH; auto. intros m Hm. apply Hh. exists items, x. auto.
  - cbn [valid_value holds_inst]. intros (F & d & -> & Hf) Hh. split; auto. exists d. split; auto.
    rewrite Forall_forall in *. intros [y x] Hx. destruct (Hf _ Hx) as [K1 K2]. cbn [fst snd] in *.
    split; [apply IHk|apply IHv]; auto; intros m Hm; apply Hh; exists d, y, x; auto.
  - rewrite !valid_union. intros (F & Hx) Hh. split; auto. rewrite Exists_exists in *. destruct Hx as (q & Hq & Hv). exists q. split; auto.
    rewrite Forall_forall in IH. apply (IH q Hq); auto. intros m Hm. apply Hh. rewrite holds_union, Exists_exists. eauto.
  - cbn [valid_value holds_inst]. intros (F & _) Hh. split; auto.
Qed.
Lemma valid_reachable E C U : wf_ctab C -> union_free C -> checks_props C -> forall w l,
  valid_graph E C U w l <-> forall m, reachable C w l m -> valid_at E C U w (fun _ => True) m.
Proof.
  intros WF UF CP w l. split.
  - intros (S & Sl & HS) m Hm. assert (Sm : S m).
    { induction Hm as [|m k Hm IH Hr]; auto. destruct (HS m IH) as (c & Hc & Hv). destruct Hr as (name & d & v & Hd & Hk & Hx & Hh).
      destruct Hd as (c' & Hc' & Hd). assert (c' = c).
      { destruct Hc as (i & Hi & Hc), Hc' as (i' & Hi' & Hc'). congruence. }
      subst c'. destruct Hc as (i & Hi & Hc). specialize (Hv CVProps (CP _ _ Hc) name d Hd). unfold valid_prop in Hv. rewrite Hk in Hv.
      destruct (proj2 Hv v Hx) as [_ Hv']. eapply valid_value_holds; [|exact Hv'|exact Hh]. eapply UF; eauto. }
    eapply valid_at_mono; [|exact (HS m Sm)]. auto.
  - intros H. exists (reachable C w l). split; [constructor|]. intros m Hm. destruct (H m Hm) as (c & Hc & Hv). exists c. split; auto.
    intros cv Hcv. specialize (Hv cv Hcv). destruct cv; auto. intros name d Hd. specialize (Hv name d Hd). unfold valid_prop in *.
    destruct (pd_kind d) eqn:Hk; auto. destruct Hv as [Hr Hv]. split; auto. intros v Hx. destruct (Hv v Hx) as [Ha Hb]. split; auto.
    apply valid_value_local; auto. intros k Hh. apply reach_step with m; auto. exists name, d, v. repeat split; try apply Hx; auto.
    exists c. auto.
Qed.

(** * Lengths *)
Lemma sizes_union si ps v : sizes_ok (PUnion si ps) v <-> Exists (fun q => sizes_ok q v) ps.
Proof.
  cbn [sizes_ok]. induction ps as [|q ps IH]; [split; [tauto|]; intros K; inversion K|].
  rewrite IH. split; [intros [K|K]; [now left|now right]|]. intros K. inversion K; auto.
Qed.
Lemma valid_value_sizes E C U w S p : forall l name v, valid_value E C U w S p l name v -> sizes_ok p v.
Proof.
  induction p as [t|k q mn mx co IH|kp vp co IHk IHv|si ps IH|cid] using ptype_ind'; intros l name v.
  - cbn. auto.
  - cbn [valid_value sizes_ok]. intros (_ & items & Hi & Hl & Hf). exists items. split; auto. split; auto.
    eapply Forall_impl; [|exact Hf]. intros x. apply IH.
  - cbn [valid_value sizes_ok]. intros (_ & d & Hd & Hf). exists d. split; auto. eapply Forall_impl; [|exact Hf].
    intros x [K1 K2]. split; eauto.
  - rewrite valid_union, sizes_union, !Exists_exists. intros (_ & q & Hq & Hv). exists q. split; auto.
    rewrite Forall_forall in IH. eapply IH; eauto.
  - cbn. auto.
Qed.
Lemma validate_sizes E C U : wf_ctab C -> checks_props C -> forall w, settled E C U w -> initialized w -> idle w ->
  forall l, l < length (w_heap w) -> answers (fun n => exec E C U n (COp (OValidate l))) w (Ok (VBool true)) ->
  forall name d v, declares C w l name d -> pd_kind d = KProp -> has_value w l name v -> sizes_ok (pd_type d) v.
Proof.
  intros WF CP w S In Id l Hl Ha name d v Hd Hk Hv.
  destruct (validate_accepts E C U WF w S In Id l Hl) as (r & Hr & _ & H1 & _).
  pose proof (answers_fun _ _ _ _ Ha Hr) as K. subst r. destruct (H1 eq_refl) as (T & Tl & HT). destruct (HT l Tl) as (c & Hc & Hcv).
  destruct Hd as (c' & Hc' & Hd). destruct Hc as (i & Hi & Hc), Hc' as (i' & Hi' & Hc'). rewrite Hi in Hi'. injection Hi' as <-.
  rewrite Hc in Hc'. injection Hc' as <-. specialize (Hcv CVProps (CP _ _ Hc) name d Hd). unfold valid_prop in Hcv. rewrite Hk in Hcv.
  eapply valid_value_sizes. now apply (proj2 Hcv).
Qed.
