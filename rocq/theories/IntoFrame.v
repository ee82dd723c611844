(** Deserializing into an existing instance, for all classes. *)
From Verif Require Import World WorldFrame WorldSpec WorldInv WorldSet WorldFacts AccessSpec AccessFacts DeserSpec DeserFacts DeserInto IntoSpec IntoFacts.
From Coq Require Import Lia.
Local Open Scope string_scope.
Local Open Scope list_scope.
Local Open Scope nat_scope.

Ltac clk := repeat match goal with H : grows _ _ |- _ => destruct H as [_ ? _] end; simpl in *; lia.

Section Good.
  Variables (E : env) (C : ctable) (U : ucode).
  Variable R : nat -> world -> world -> Prop.
  Variable T : list nat -> ptype -> val -> Prop.
  Hypothesis F : frame E C U R T.
  Variable rec : call -> M val.
  Hypothesis Hrec : rspec C R T rec.
  Variable l : loc.
  Variable kl : nat.
  Variable P : nat -> Prop.
  (** storing a value directly in a property without setter of output class [k] *)
  Hypothesis Hdirect : forall s w0 w k c n d v, P k -> R s w0 w -> nth_error (shape w) l = Some kl ->
    nth_error (ct_cls C) k = Some c -> dget (c_props c) n = Some d -> is_mutable d = false -> T (shape w) (decl_type d) v ->
    R s w0 (w_upd l (fun i => i_setback (dset (i_back i) n v) i) w).

  Lemma good_into s w0 cid v o w : R s w0 w -> s <= w_clock w -> nth_error (shape w) l = Some kl ->
    (forall d k w', v = VDict d -> deser_class C cid (vd_get d class_key) o w = (Ok k, w') -> P k) ->
    good R s w0 (deser_into E C U rec cid v o l) w (fun _ _ => True).
  Proof.
    intros H Hs Hl Hk. unfold deser_into. destruct v as [| | | | | | | | | | | | |d|]; try (apply (good_throw R); now auto).
    eapply (good_bind R) with (Q1 := fun _ k => P k).
    { destruct (good_deser_class C R s w0 cid (vd_get d class_key) o w H) as (G1 & G2 & _). split; [exact G1|]. split; [exact G2|].
      intros k K. destruct (deser_class C cid (vd_get d class_key) o w) as [rk wk] eqn:Ek. cbn [fst] in K. subst rk. eapply Hk; [reflexivity|]. exact Ek. }
    intros k w1 R1 E1 Hkl.
    eapply (good_bind R) with (Q1 := fun _ c => nth_error (ct_cls C) k = Some c); [apply (good_class_of C R); auto|].
    intros c w2 R2 E2 Hc. eapply (good_bind R); [apply (good_isinstance E C U R T F); auto|]. intros b w2' R2' E2' _.
    destruct (negb b); [apply (good_throw R); auto|]. destruct (_ && _); [apply (good_throw R); auto|].
    eapply (good_bind R) with (Q1 := fun _ _ => True).
    { eapply (good_weaken R); [apply (good_mapM R) with (Q := fun _ _ => True); auto|auto].
      intros [key x] w3 _ R3 E3. simpl. destruct (dget (c_props c) key); [|apply (good_throw R); auto].
      eapply (good_bind R); [apply (good_decl_deserialize E C U R T F rec Hrec); auto; clk|]. intros. apply (good_ret R); auto. }
    intros ns w3 R3 E3 _.
    eapply (good_bind R) with (Q1 := fun _ _ => True).
    { apply (good_disabled E C U R T F) with (Q := fun _ _ => True); auto. cbv zeta.
      apply (good_iterM R); [apply (f_refl _ _ _ _ _ F)|]. intros [key x] w4 Hin R4 E4. unfold into_mutable. cbn [fst snd].
      eapply (good_bind R); [apply (good_setattr E C U R T F rec Hrec); auto; clk|]. intros. apply (good_ret R); auto. }
    intros [] w4 R4 E4 _.
    assert (Hl4 : nth_error (shape w4) l = Some kl).
    { eapply nth_shape_ext; [|exact Hl]. eauto using ext_trans. }
    eapply (good_bind R) with (Q1 := fun _ _ => True).
    { apply (good_iterM R); auto. intros [key x] w5 Hin R5 E5. unfold into_immutable. cbn [fst snd].
      apply filter_In in Hin. destruct Hin as [_ Hm]. cbn [fst] in Hm. apply negb_true_iff in Hm.
      destruct (dget (c_props c) key) as [pd|] eqn:Ed; [|apply (good_throw R); auto].
      eapply (good_bind R); [apply (good_validate E C U R T F rec Hrec); auto; clk|]. intros v1 w6 R6 E6 Hv.
      apply (good_mod R); auto; [|apply ext_upd; reflexivity].
      eapply Hdirect; eauto.
      - eapply nth_shape_ext; [|exact Hl4]. eauto using ext_trans.
      - unfold key_mutable in Hm. now rewrite Ed in Hm. }
    intros [] w5 R5 E5 _.
    eapply (good_bind R) with (Q1 := fun _ _ => True).
    { destruct (o_valid o); [|apply (good_ret R); auto]. eapply (good_bind R); [apply (good_op' E C U R T F rec Hrec); auto; clk|].
      intros. apply (good_ret R); auto. }
    intros. apply (good_ret R); auto.
  Qed.
End Good.

Section Into.
  Variables (E : env) (C : ctable) (U : ucode).
  Hypothesis HC : wf_ctab C.
  Notation ex := (exec E C U).

  Theorem into_grows n cid v o (l : loc) c w r w' : has_class C w l c -> deser_into E C U (ex n) cid v o l w = (r, w') -> grows w w'.
  Proof.
    intros (i & Hi & Hc) H. pose proof (frame_ext E C U) as FE.
    destruct (good_into E C U _ _ FE (ex n) (frame_exec E C U _ _ FE HC n) l (i_cls i) (fun _ => True)) with (s := 0) (w0 := w) (cid := cid) (v := v) (o := o) (w := w) as (G & _);
      auto using ext_refl, shape_nth; try lia.
    - intros. eapply ext_trans; [eassumption|]. apply ext_upd. reflexivity.
    - now rewrite H in G.
  Qed.
  Theorem into_keeps_classes n cid v o (l : loc) c w r w' : has_class C w l c -> deser_into E C U (ex n) cid v o l w = (r, w') ->
    w_quar w' = w_quar w /\ forall l' c', has_class C w l' c' -> has_class C w' l' c'.
  Proof.
    intros Hl H. pose proof (into_grows n cid v o l c w r w' Hl H) as G. split; [apply G|]. intros. eapply has_class_grows; eauto.
  Qed.
  Theorem into_typed n cid d o (l : loc) k ck ci w r w' : wf_mro C -> validators_keep U ->
    has_class C w l ci -> deser_class C cid (vd_get d class_key) o w = (Ok k, w) -> nth_error (ct_cls C) k = Some ck -> same_unset ck ci ->
    deser_into E C U (ex n) cid (VDict d) o l w = (r, w') -> well_typed C w -> well_typed C w'.
  Proof.
    intros Hm HU (i & Hi & Hci) Hk Hck Hs H W. apply wt_well_typed. apply wt_well_typed in W. pose proof (frame_typed E C U Hm HU) as FT.
    destruct (good_into E C U _ _ FT (ex n) (frame_exec E C U _ _ FT HC n) l (i_cls i) (fun k0 => k0 = k)) with (s := 0) (w0 := w) (cid := cid) (v := VDict d) (o := o) (w := w) as ([_ G] & _).
    - intros s0 w0 w1 k0 c0 name d0 x -> [G1 G2] Hl Hc0 Hd0 Hnp Ht. rewrite Hck in Hc0. injection Hc0 as <-.
      split; [eapply ext_trans; [exact G1|apply ext_upd; reflexivity]|]. intros W0. specialize (G2 W0).
      unfold is_mutable in Hnp. destruct (pd_kind d0) eqn:Kd; try discriminate.
      all: eapply wt_back with (n := name) (d := d0) (v := x) (b := fun i => dset (i_back i) name x);
        [exists (i_cls i), ci; repeat split; auto; apply Hs; rewrite ?Kd; [exact Hd0|discriminate|intros; discriminate]
        |exact Ht|intros; apply dget_dset_other; congruence|intros j y; rewrite dget_dset_same; congruence|exact G2].
    - split; auto using ext_refl.
    - lia.
    - now apply shape_nth.
    - intros d1 k1 w1 [= <-] K. rewrite Hk in K. now injection K as <- <-.
    - rewrite H in G. now apply G.
  Qed.

  Lemma class_pure cid i o w r w' : deser_class C cid i o w = (r, w') -> w' = w.
  Proof.
    unfold deser_class, bind, class_of, lift. destruct (nth_error (ct_cls C) cid) as [c|]; [|now intros [= _ <-]].
    destruct i as [x|]; [|now intros [= _ <-]]. destruct (_ || _); [now intros [= _ <-]|]. destruct (_ && _); [now intros [= _ <-]|].
    match goal with |- (match ?m with Some _ => _ | None => _ end) _ = _ -> _ => destruct m end; [now intros [= _ <-]|].
    destruct (o_strict o); now intros [= _ <-].
  Qed.
  Theorem into_instance n cid v o (l : loc) w x w' : deser_into E C U (ex n) cid v o l w = (Ok x, w') ->
    x = VInst l /\ exists d k ci, v = VDict d /\ deser_class C cid (vd_get d class_key) o w = (Ok k, w) /\ has_class C w l ci /\ In k (c_mro ci).
  Proof.
    unfold deser_into. destruct v as [| | | | | | | | | | | | |d|]; try discriminate. intros H.
    apply bind_ok in H as (k & w1 & Hk & H). pose proof (class_pure _ _ _ _ _ _ Hk) as ->. apply bind_ok in H as (c & w2 & Hc & H).
    unfold class_of, lift in Hc. destruct (nth_error (ct_cls C) k) eqn:Ek; [|discriminate]. injection Hc as -> <-.
    apply bind_ok in H as (b & w3 & Hb & H). destruct b; [|discriminate]. cbn [negb] in H.
    assert (Hi : exists ci, has_class C w l ci /\ In k (c_mro ci)).
    { revert Hb. unfold isinstance, inst_class, bind, get_inst. destruct (nth_error (w_heap w) l) as [i|] eqn:Ei; [|discriminate].
      unfold class_of, lift. destruct (nth_error (ct_cls C) (i_cls i)) as [ci|] eqn:Ec; [|discriminate]. intros [= Hex _]. exists ci.
      split; [exists i; auto|]. apply existsb_exists in Hex as (z & Hz & Ez). apply Nat.eqb_eq in Ez. now subst z. }
    destruct Hi as (ci & Hl & Hin). split; [|now exists d, k, ci].
    destruct (_ && _); [discriminate|]. apply bind_ok in H as (ns & w4 & _ & H). apply bind_ok in H as (u1 & w5 & _ & H). apply bind_ok in H as (u2 & w6 & _ & H).
    apply bind_ok in H as (u3 & w7 & _ & H). now injection H as <- <-.
  Qed.
  Theorem into_other n cid d o (l : loc) k c ci w : deser_class C cid (vd_get d class_key) o w = (Ok k, w) -> nth_error (ct_cls C) k = Some c ->
    has_class C w l ci -> ~ In k (c_mro ci) -> deser_into E C U (ex n) cid (VDict d) o l w = (Exc ExValue, w).
  Proof.
    intros Hk Hc (i & Hi & Hci) Hn. unfold deser_into, bind. rewrite Hk. unfold class_of, lift. rewrite Hc.
    unfold isinstance, inst_class, bind, get_inst. rewrite Hi. unfold class_of, lift. rewrite Hci. unfold ret.
    destruct (existsb (Nat.eqb k) (c_mro ci)) eqn:Ex; [|reflexivity]. exfalso. apply existsb_exists in Ex as (z & Hz & Ez). apply Nat.eqb_eq in Ez. now subst z.
  Qed.
  Theorem into_valid n cid v t s (l : loc) w r w' : deser_into E C U (ex n) cid v (DOpt t s true) l w = (r, w') ->
    exists r1 w1, deser_into E C U (ex n) cid v (DOpt t s false) l w = (r1, w1) /\ match r1 with
      | Exc e => r = Exc e /\ w' = w1
      | Ok x => exists r2, ex n (COp (OValidate l)) w1 = (r2, w') /\ r = match r2 with Ok _ => Ok (VInst l) | Exc e => Exc e end
      end.
  Proof.
    destruct (deser_into E C U (ex n) cid v (DOpt t s false) l w) as [r1 w1] eqn:H1. intros H. exists r1, w1. split; [reflexivity|].
    revert H H1. unfold deser_into.
    destruct v as [| | | | | | | | | | | | |d|]; try (intros [= <- <-] [= <- <-]; now split). cbn [o_trusted o_strict o_valid].
    unfold bind at 1. intros H H1. unfold bind at 1 in H1. change (deser_class C cid (vd_get d class_key) (DOpt t s true)) with (deser_class C cid (vd_get d class_key) (DOpt t s false)) in H.
    destruct (deser_class _ _ _ _ w) as [[k|e] wa]; [|injection H as <- <-; injection H1 as <- <-; now split].
    unfold bind at 1 in H. unfold bind at 1 in H1. destruct (class_of C k wa) as [[c|e] wb]; [|injection H as <- <-; injection H1 as <- <-; now split].
    unfold bind at 1 in H. unfold bind at 1 in H1. destruct (isinstance C (VInst l) k wb) as [[b|e] wb']; [|injection H as <- <-; injection H1 as <- <-; now split].
    destruct (negb b); [injection H as <- <-; injection H1 as <- <-; now split|].
    destruct (_ && _); [injection H as <- <-; injection H1 as <- <-; now split|].
    change (into_state E C (ex n) c (DOpt t s true) d) with (into_state E C (ex n) c (DOpt t s false) d) in H.
    unfold bind at 1 in H. unfold bind at 1 in H1.
    destruct (into_state E C (ex n) c (DOpt t s false) d wb') as [[ns|e] wc]; [|injection H as <- <-; injection H1 as <- <-; now split].
    unfold bind at 1 in H. unfold bind at 1 in H1.
    match type of H with (match ?m with _ => _ end) = _ => destruct m as [[iv|e] wd] end; [|injection H as <- <-; injection H1 as <- <-; now split].
    unfold bind at 1 in H. unfold bind at 1 in H1.
    match type of H with (match ?m with _ => _ end) = _ => destruct m as [[u|e] we] end; [|injection H as <- <-; injection H1 as <- <-; now split].
    unfold bind, ret in H1. injection H1 as <- <-. unfold bind, ret in H.
    destruct (ex n (COp (OValidate l)) we) as [[x|e] wf]; injection H as <- <-; eexists; repeat split; reflexivity.
  Qed.
End Into.
