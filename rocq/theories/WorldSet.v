(** One assignment: what is called, in which order, and what is stored. *)
From Verif Require Import World WorldFrame WorldSpec WorldInv.
Local Open Scope nat_scope.

(** * Registered listeners are never removed *)
Definition lst_rel (i i' : inst) : Prop := exists x, i_lst i' = i_lst i ++ x.
Lemma lst_rel_refl i : lst_rel i i.
Proof. exists []. now rewrite app_nil_r. Qed.
Lemma lst_rel_trans a b c : lst_rel a b -> lst_rel b c -> lst_rel a c.
Proof. intros [x H] [y K]. exists (x ++ y). now rewrite K, H, app_assoc. Qed.

Lemma frame_lst E C U : frame E C U (fun _ w w' => grows w w' /\ irel lst_rel w w') anyT.
Proof.
  pose proof lst_rel_refl as Qr. pose proof lst_rel_trans as Qt.
  pose proof (frame_ext E C U) as FE.
  constructor; intros; unfold anyT; try exact I.
  - split; [apply ext_refl|now apply irel_heap].
  - destruct H, H0. split; [eapply ext_trans; eauto|eapply irel_trans; eauto].
  - apply H.
  - split; [apply ext_tick|now apply irel_heap].
  - split; [apply ext_emit|now apply irel_heap].
  - split; [apply ext_emit|now apply irel_heap].
  - split; [now apply (f_write _ _ _ _ _ FE) with (s := s) (d := d)|].
    apply (irel_heap_r _ _ (write l n v w)); [reflexivity|]. unfold write.
    apply irel_upd; auto. intros i Hi. exists []. simpl. now rewrite app_nil_r.
  - split; [now apply ext_alloc with (cid := cid)|now apply irel_alloc].
  - split; [apply ext_upd; reflexivity|]. apply irel_upd; auto. intros i _. exists xs. reflexivity.
  - split; [apply ext_upd; reflexivity|]. apply irel_upd; auto. intros. exists []. simpl. now rewrite app_nil_r.
  - split; [apply ext_upd; reflexivity|]. apply irel_upd; auto. intros. exists []. simpl. now rewrite app_nil_r.
  - destruct H1. split; [eapply ext_br; [| |exact H1]; reflexivity|]. eapply irel_br; [|exact H2].
    intros j k _ K. exact K.
  - destruct H, H1. split; [eapply ext_trans; [exact H|]; eapply ext_br; [| |exact H1]; reflexivity|].
    apply irel_fresh; auto. eapply irel_fresh_l; eauto.
  - destruct H. split; [eapply ext_trans; [exact H|]; apply ext_upd; reflexivity|].
    apply irel_fresh; auto.
  - destruct H1. split; [eapply ext_br; [| |exact H1]; reflexivity|]. eapply irel_br; [|exact H2].
    intros j k _ K. exact K.
  - destruct H1. split; [eapply ext_br; [| |exact H1]; reflexivity|]. eapply irel_br; [|exact H2].
    intros j k _ K. exact K.
  - destruct H. split; [eapply ext_setquar; eauto|exact H0].
  - split; [apply ext_setlinks|now apply irel_heap].
  - split; [apply ext_updlink|]. apply irel_heap; auto. apply w_updlink_heap.
  - destruct H1. split; [eapply ext_linkbr; eauto|].
    apply (irel_heap_r _ _ w2); [symmetry; apply w_updlink_heap|].
    eapply irel_heap_l; [|exact H2]. symmetry. apply w_updlink_heap.
  - left. intros. exact I.
Qed.

(** * Stored values are the replay of the writes *)
Definition log_rel (w w' : world) : Prop :=
  exists new, since w w' new /\
  forall l i n, nth_error (w_heap w) l = Some i ->
    exists i', nth_error (w_heap w') l = Some i' /\ dget (i_back i') n = replay new l n (dget (i_back i) n).

Lemma replay_app a b l n o : replay (a ++ b) l n o = replay a l n (replay b l n o).
Proof.
  induction a as [|e a IH]; simpl; auto. destruct e; auto. destruct (_ && _); auto.
Qed.
Lemma log_quiet w w' : w_trace w' = w_trace w ->
  (forall l i, nth_error (w_heap w) l = Some i ->
     exists i', nth_error (w_heap w') l = Some i' /\ i_back i' = i_back i) -> log_rel w w'.
Proof.
  intros H1 H2. exists []. split; [exact H1|]. intros l i n Hi. destruct (H2 l i Hi) as (i' & K & Kb).
  exists i'. rewrite Kb. auto.
Qed.
Lemma log_trans a b c : log_rel a b -> log_rel b c -> log_rel a c.
Proof.
  intros (n1 & H1 & K1) (n2 & H2 & K2). exists (n2 ++ n1). split.
  { unfold since in *. now rewrite H2, H1, app_assoc. }
  intros l i n Hi. destruct (K1 l i n Hi) as (j & Hj & E1). destruct (K2 l j n Hj) as (k & Hk & E2).
  exists k. split; auto. now rewrite replay_app, E2, E1.
Qed.
Lemma log_upd l f w : (forall i, i_back (f i) = i_back i) -> log_rel w (w_upd l f w).
Proof.
  intros H. apply log_quiet; [apply w_upd_trace|]. intros l' i Hi.
  destruct (Nat.eq_dec l l') as [<-|Hn].
  - rewrite w_upd_nth_same, Hi. simpl. eauto.
  - rewrite w_upd_nth_other by auto. eauto.
Qed.
Lemma log_br l f g w w2 : (forall i, i_back (f i) = i_back i) -> (forall i, i_back (g i) = i_back i) ->
  log_rel (w_upd l f w) w2 -> log_rel w (w_upd l g w2).
Proof.
  intros Hf Hg H. eapply log_trans; [apply log_upd, Hf|]. eapply log_trans; [exact H|]. now apply log_upd.
Qed.
Lemma log_heap w w' : w_trace w' = w_trace w -> w_heap w' = w_heap w -> log_rel w w'.
Proof. intros H1 H2. apply log_quiet; auto. intros l i Hi. exists i. rewrite H2. auto. Qed.

Lemma frame_log E C U : frame E C U (fun _ w w' => grows w w' /\ log_rel w w') anyT.
Proof.
  pose proof (frame_ext E C U) as FE.
  constructor; intros; unfold anyT; try exact I.
  - split; [apply ext_refl|now apply log_heap].
  - destruct H, H0. split; [eapply ext_trans; eauto|eapply log_trans; eauto].
  - apply H.
  - split; [apply ext_tick|now apply log_heap].
  - split; [apply ext_emit|]. exists [EHook l ts]. split; [reflexivity|]. simpl. eauto.
  - split; [apply ext_emit|]. exists [ECall sid l n m f p v]. split; [reflexivity|]. simpl. eauto.
  - split; [now apply (f_write _ _ _ _ _ FE) with (s := s) (d := d)|].
    exists [EWrite sid l n v]. split; [unfold since, write; simpl; now rewrite w_upd_trace|].
    intros l' i m Hi. simpl. unfold write. destruct (Nat.eqb_spec l' l) as [->|Hn].
    + rewrite w_upd_nth_same, Hi. simpl. eexists. split; [reflexivity|]. simpl.
      destruct (String.eqb_spec m n) as [->|Hm]; simpl.
      * destruct (is_undef v); [apply dget_ddel_same|apply dget_dset_same].
      * destruct (is_undef v); [apply dget_ddel_other|apply dget_dset_other]; auto.
    + rewrite w_upd_nth_other by auto. simpl. eauto.
  - split; [now apply ext_alloc with (cid := cid)|]. apply log_quiet; auto. intros l i Hi.
    exists i. split; auto. simpl. rewrite nth_error_app1; auto. apply nth_error_Some. congruence.
  - split; [apply ext_upd; reflexivity|]. apply log_upd. reflexivity.
  - split; [apply ext_upd; reflexivity|]. apply log_upd. reflexivity.
  - split; [apply ext_upd; reflexivity|]. apply log_upd. reflexivity.
  - destruct H1. split; [eapply ext_br; [| |exact H1]; reflexivity|].
    eapply log_br; [| |exact H2]; reflexivity.
  - destruct H, H1. split; [eapply ext_trans; [exact H|]; eapply ext_br; [| |exact H1]; reflexivity|].
    eapply log_trans; [exact H2|]. eapply log_br; [| |exact H3]; reflexivity.
  - destruct H as [H (new & K1 & K2)]. split; [eapply ext_trans; [exact H|]; apply ext_upd; reflexivity|].
    exists new. split; [unfold since; now rewrite w_upd_trace|]. intros l' i m Hi.
    assert (l' < length (w_heap w0)) by (apply nth_error_Some; congruence).
    rewrite w_upd_nth_other by lia. auto.
  - destruct H1. split; [eapply ext_br; [| |exact H1]; reflexivity|].
    eapply log_br; [| |exact H2]; reflexivity.
  - destruct H1. split; [eapply ext_br; [| |exact H1]; reflexivity|].
    eapply log_br; [| |exact H2]; reflexivity.
  - destruct H. split; [eapply ext_setquar; eauto|exact H0].
  - split; [apply ext_setlinks|now apply log_heap].
  - split; [apply ext_updlink|]. apply log_heap; [apply w_updlink_trace|apply w_updlink_heap].
  - destruct H1. split; [eapply ext_linkbr; eauto|].
    eapply log_trans; [|eapply log_trans; [exact H2|]];
      (apply log_heap; [apply w_updlink_trace|apply w_updlink_heap]).
  - left. intros. exact I.
Qed.

(** * One notification *)
Section Set_.
  Variable E : env.
  Variable C : ctable.
  Variable U : ucode.
  Hypothesis HC : wf_ctab C.
  Notation ex := (exec E C U).

  Local Notation left_by := (left_by E C U).
  Local Notation own_equal := (own_equal E C U).

  Lemma of_sid_app sid a b : of_sid sid (a ++ b) = of_sid sid b ++ of_sid sid a.
  Proof. unfold of_sid. now rewrite rev_app_distr, filter_app. Qed.
  Lemma of_sid_later sid c q new : Forall (ev_ok (S sid) c q) new -> of_sid sid new = [].
  Proof.
    intros H. unfold of_sid. apply Forall_rev in H. induction H as [|e evs He H IH]; auto. simpl.
    destruct e as [s0 l0 n0 m0 f0 p0 v0|s0 l0 n0 v0|]; simpl in *; auto.
    - destruct (Nat.eqb_spec s0 sid); [lia|exact IH].
    - destruct (Nat.eqb_spec s0 sid); [lia|exact IH].
  Qed.

  Lemma lst_grow w w' l name m : irel lst_rel w w' -> nth_error (w_heap w) l <> None ->
    prefix (registered w l name m) (registered w' l name m).
  Proof.
    intros H Hl. unfold registered. destruct (nth_error (w_heap w) l) as [i|] eqn:Ei; [|congruence].
    destruct (H l i Ei) as (i' & -> & x & ->). rewrite filter_app, map_app. eexists. reflexivity.
  Qed.
  Lemma prefix_refl {A} (a : list A) : prefix a a.
  Proof. exists []. now rewrite app_nil_r. Qed.
  Lemma prefix_trans {A} (a b c : list A) : prefix a b -> prefix b c -> prefix a c.
  Proof. intros [x ->] [y ->]. exists (x ++ y). now rewrite app_assoc. Qed.

  (** facts about any piece of execution *)
  Record piece (s : nat) (w w' : world) (new : list event) : Prop := Piece {
    pc_since : since w w' new;
    pc_ev : Forall (ev_ok s (w_clock w') (w_quar w)) new;
    pc_grows : grows w w';
    pc_lst : irel lst_rel w w';
    pc_log : forall l i n, nth_error (w_heap w) l = Some i ->
      exists i', nth_error (w_heap w') l = Some i' /\ dget (i_back i') n = replay new l n (dget (i_back i) n)
  }.
  Lemma piece_of_frames s w w' : Rev s w w' -> irel lst_rel w w' -> log_rel w w' -> exists new, piece s w w' new.
  Proof.
    intros [G (new & H1 & H2)] HL (new' & H3 & H4). exists new.
    assert (new' = new) as -> by (unfold since in H3; rewrite H1 in H3; now apply app_inv_tail in H3).
    split; auto.
  Qed.
  Lemma exec_piece n c s w : s <= w_clock w -> cpre c s w -> exists new, piece s w (snd (ex n c w)) new.
  Proof.
    intros Hs Hp. apply piece_of_frames.
    - apply exec_ev; auto.
    - apply (frame_exec E C U _ _ (frame_lst E C U) HC n c s w); auto.
    - apply (frame_exec E C U _ _ (frame_log E C U) HC n c s w); auto.
  Qed.
  Lemma good_piece {A} (m : M A) s w :
    (forall R T, frame E C U R T -> R s w (snd (m w))) -> exists new, piece s w (snd (m w)) new.
  Proof.
    intros H. apply piece_of_frames.
    - apply (H _ _ (frame_ev E C U)).
    - apply (H _ _ (frame_lst E C U)).
    - apply (H _ _ (frame_log E C U)).
  Qed.
  Lemma piece_trans s a b c n1 n2 : piece s a b n1 -> piece s b c n2 -> piece s a c (n2 ++ n1).
  Proof.
    intros [A1 A2 A3 A4 A5] [B1 B2 B3 B4 B5]. split.
    - unfold since in *. now rewrite B1, A1, app_assoc.
    - apply Forall_app. split.
      + destruct A3 as [_ _ Q]. now rewrite Q in B2.
      + destruct B3 as [_ Cl _]. eapply Forall_impl; [|exact A2]. intros e. now apply ev_ok_mono.
    - eapply ext_trans; eauto.
    - eapply irel_trans; eauto using lst_rel_trans.
    - intros l i n Hi. destruct (A5 l i n Hi) as (j & Hj & E1). destruct (B5 l j n Hj) as (k & Hk & E2).
      exists k. split; auto. now rewrite replay_app, E2, E1.
  Qed.
  Lemma piece_weaken s s' w w' new : s' <= s -> piece s w w' new -> piece s' w w' new.
  Proof.
    intros H [A1 A2 A3 A4 A5]. split; auto. eapply Forall_impl; [|exact A2].
    intros []; simpl; intuition lia.
  Qed.
  Lemma piece_same s w w' : w_trace w' = w_trace w -> w_heap w' = w_heap w -> w_quar w' = w_quar w ->
    w_clock w <= w_clock w' -> piece s w w' [].
  Proof.
    intros H1 H2 H3 H4. split; auto.
    - split; auto. exists []. unfold shape. now rewrite H2, app_nil_r.
    - apply irel_heap; auto using lst_rel_refl.
    - intros l i n Hi. rewrite H2. simpl. eauto.
  Qed.
  Lemma piece_refl s w : piece s w w [].
  Proof. apply piece_same; auto. Qed.

  Lemma bind_ok {A B} (m : M A) (k : A -> M B) w b w' : bind m k w = (Ok b, w') ->
    exists a w1, m w = (Ok a, w1) /\ k a w1 = (Ok b, w').
  Proof. unfold bind. destruct (m w) as [[a|e] w1]; [eauto|discriminate]. Qed.
  Lemma bind_exc {A B} (m : M A) (k : A -> M B) w e w' : bind m k w = (Exc e, w') ->
    m w = (Exc e, w') \/ exists a w1, m w = (Ok a, w1) /\ k a w1 = (Exc e, w').
  Proof. unfold bind. destruct (m w) as [[a|e'] w1]; [eauto|]. intros H. injection H as -> ->. auto. Qed.
  Lemma get_inst_ok l w r w' : get_inst l w = (r, w') -> w' = w /\ r = match nth_error (w_heap w) l with Some i => Ok i | None => Exc ExAttr end.
  Proof. unfold get_inst. destruct (nth_error (w_heap w) l); intros H; injection H as <- <-; auto. Qed.

  (** The listener loop, when it ends normally: exactly the listeners that are
      registered when it ends, in order. *)
  Lemma notify_calls n : forall sid l name prev v m i w v' w',
    sid < w_clock w -> mode_in m (w_quar w) = false ->
    nth_error (w_heap w) l <> None ->
    ex n (CNotify sid l name prev v m i) w = (Ok v', w') ->
    exists new fs evs, piece sid w w' new /\ of_sid sid new = evs /\
      calls (left_by l name m prev) sid l name m prev v fs v' evs /\
      fs = skipn i (registered w' l name m).
  Proof.
    induction n as [|n IH]; intros sid l name prev v m i w v' w' Hsid Hm Hl Hex; [discriminate|].
    cbn [exec step] in Hex. apply bind_ok in Hex as (x & w0 & Hx & Hex).
    apply get_inst_ok in Hx as [-> Hx].
    destruct (nth_error (w_heap w) l) as [x'|] eqn:Ex; [|discriminate]. injection Hx as <-.
    destruct (nth_error (listeners_of x name m) i) as [f|] eqn:Ef.
    - apply bind_ok in Hex as (u & w1 & Hu & Hex). injection Hu as Hu1 Hu2. subst u.
      apply bind_ok in Hex as (v1 & w2 & Eb & Hrec).
      set (w1' := w_emit (ECall sid l name m f prev v) w) in *. subst w1. rename w1' into w1.
      assert (P1 : piece sid w w1 [ECall sid l name m f prev v]).
      { split.
        - reflexivity.
        - constructor; [simpl; auto|constructor].
        - apply ext_emit.
        - apply irel_heap; auto using lst_rel_refl.
        - intros l' i' n' Hi. simpl. eauto. }
      assert (Hp : exists new2, piece (S sid) w1 w2 new2).
      { change w2 with (snd (@pair (res val) world (Ok v1) w2)). rewrite <- Eb. apply good_piece. intros R T F.
        destruct f as [cb|k].
        - apply (frame_run E C U R T F HC n). unfold w1; simpl. lia.
        - pose proof (frame_exec E C U R T F HC n) as HR.
          refine (proj1 (good_bind R (S sid) w1 (link_update U (ex n) k) (fun _ => ret v) w1 (fun _ _ => True) (fun _ _ => True) _ _)).
          + apply (good_link_update E C U R T F _ HR); [apply (f_refl _ _ _ _ _ F)|unfold w1; simpl; lia].
          + intros. now apply good_ret. }
      destruct Hp as [new2 P2].
      assert (Hleft : left_by l name m prev f v v1).
      { destruct f as [cb|k]; simpl.
        - exists n, w1, w2. exact Eb.
        - apply bind_ok in Eb as (a & wb & _ & Eb). unfold ret in Eb. congruence. }
      assert (G12 : grows w w2) by (eapply ext_trans; [apply (pc_grows _ _ _ _ P1)|apply (pc_grows _ _ _ _ P2)]).
      destruct (IH sid l name prev v1 m (S i) w2 v' w') as (new3 & fs & evs & P3 & H3 & H4 & H5).
      { destruct G12; lia. }
      { destruct G12 as [_ _ Q]. now rewrite Q. }
      { pose proof (ext_len _ _ G12). apply nth_error_Some.
        assert (l < length (w_heap w)) by (apply nth_error_Some; congruence). lia. }
      { exact Hrec. }
      exists (new3 ++ new2 ++ [ECall sid l name m f prev v]), (f :: fs), (ECall sid l name m f prev v :: evs).
      split; [|split; [|split]].
      + eapply piece_trans; [|exact P3]. eapply piece_trans; [exact P1|].
        eapply piece_weaken; [|exact P2]. lia.
      + rewrite !of_sid_app. rewrite (of_sid_later sid _ _ _ (pc_ev _ _ _ _ P2)).
        unfold of_sid at 1. simpl. rewrite Nat.eqb_refl. simpl. now rewrite H3.
      + econstructor; eauto.
      + subst fs. assert (Hpre : prefix (registered w l name m) (registered w' l name m)).
        { apply lst_grow; [|congruence]. eapply irel_trans; [apply lst_rel_trans| |apply (pc_lst _ _ _ _ P3)].
          eapply irel_trans; [apply lst_rel_trans|apply (pc_lst _ _ _ _ P1)|apply (pc_lst _ _ _ _ P2)]. }
        unfold registered in Hpre at 1. rewrite Ex in Hpre. fold (listeners_of x name m) in Hpre.
        destruct Hpre as [c Hc]. rewrite Hc.
        assert (Hlt : i < length (listeners_of x name m)) by (apply nth_error_Some; congruence).
        clear - Ef Hlt. revert i Ef Hlt. generalize (listeners_of x name m) as L.
        induction L as [|a L IHL]; intros [|i] Ef Hlt; simpl in *; try lia; try congruence.
        apply IHL; auto. lia.
    - injection Hex as <- <-. exists [], [], []. split; [apply piece_refl|]. split; [reflexivity|].
      split; [constructor|]. unfold registered. rewrite Ex. fold (listeners_of x name m).
      apply nth_error_None in Ef. symmetry. apply skipn_all2. exact Ef.
  Qed.

  (** The listener loop in any case *)
  Lemma notify_events n : forall sid l name prev v m i w,
    sid < w_clock w -> mode_in m (w_quar w) = false ->
    exists new, piece sid w (snd (ex n (CNotify sid l name prev v m i) w)) new /\
      Forall (call_of sid l name m prev) (of_sid sid new).
  Proof.
    induction n as [|n IH]; intros sid l name prev v m i w Hsid Hm.
    { exists []. split; [apply piece_refl|constructor]. }
    cbn [exec step]. unfold bind at 1. destruct (get_inst l w) as [[x|e] w0] eqn:Hx;
      apply get_inst_ok in Hx as [-> _].
    2:{ exists []. split; [apply piece_refl|constructor]. }
    destruct (nth_error (listeners_of x name m) i) as [f|] eqn:Ef.
    2:{ exists []. split; [apply piece_refl|constructor]. }
    unfold bind at 1. unfold mod_w.
    set (w1 := w_emit (ECall sid l name m f prev v) w).
    assert (P1 : piece sid w w1 [ECall sid l name m f prev v]).
    { split.
      - reflexivity.
      - constructor; [simpl; auto|constructor].
      - apply ext_emit.
      - apply irel_heap; auto using lst_rel_refl.
      - intros l' i' n' Hi. simpl. eauto. }
    unfold bind at 1. destruct (match f with LCb cb => run (ex n) (u_listen U cb l name prev v m)
                         | LLink k => link_update U (ex n) k ;; ret v end w1) as [r w2] eqn:Eb.
    assert (Hp : exists new2, piece (S sid) w1 w2 new2).
    { change w2 with (snd (@pair (res val) world r w2)). rewrite <- Eb. apply good_piece. intros R T F.
      destruct f as [cb|k].
      - apply (frame_run E C U R T F HC n). unfold w1; simpl. lia.
      - pose proof (frame_exec E C U R T F HC n) as HR.
        refine (proj1 (good_bind R (S sid) w1 (link_update U (ex n) k) (fun _ => ret v) w1 (fun _ _ => True) (fun _ _ => True) _ _)).
        + apply (good_link_update E C U R T F _ HR); [apply (f_refl _ _ _ _ _ F)|unfold w1; simpl; lia].
        + intros. now apply good_ret. }
    destruct Hp as [new2 P2].
    assert (P12 : piece sid w w2 (new2 ++ [ECall sid l name m f prev v])).
    { eapply piece_trans; [exact P1|]. eapply piece_weaken; [|exact P2]. lia. }
    assert (O12 : of_sid sid (new2 ++ [ECall sid l name m f prev v]) = [ECall sid l name m f prev v]).
    { rewrite of_sid_app, (of_sid_later sid _ _ _ (pc_ev _ _ _ _ P2)). unfold of_sid; simpl.
      now rewrite Nat.eqb_refl. }
    destruct r as [v1|e].
    2:{ simpl. eexists. split; [exact P12|]. rewrite O12. constructor; [|constructor]. now exists f, v. }
    assert (G12 : grows w w2) by apply (pc_grows _ _ _ _ P12).
    destruct (IH sid l name prev v1 m (S i) w2) as (new3 & P3 & H3).
    { destruct G12; lia. }
    { destruct G12 as [_ _ Q]. now rewrite Q. }
    eexists. split; [eapply piece_trans; [exact P12|exact P3]|]. rewrite of_sid_app, O12.
    apply Forall_app. split; [|exact H3]. constructor; [|constructor]. now exists f, v.
  Qed.

  Lemma mode_in_In m q : mode_in m q = true <-> In m q.
  Proof.
    unfold mode_in. rewrite existsb_exists. split.
    - intros (x & Hx & He). destruct m, x; simpl in He; auto; discriminate.
    - intros H. exists m. split; auto. now destruct m.
  Qed.

  Lemma notify_any n sid l name prev v m w : sid < w_clock w ->
    exists new, piece sid w (snd (notify (ex n) sid l name prev v m w)) new /\
      Forall (call_of sid l name m prev) (of_sid sid new).
  Proof.
    intros Hs. unfold notify, bind, get_w. destruct (mode_in m (w_quar w)) eqn:Em.
    - exists []. split; [apply piece_refl|constructor].
    - now apply notify_events.
  Qed.
  Lemma notify_ok n sid l name prev v m w v' w' : sid < w_clock w -> nth_error (w_heap w) l <> None ->
    notify (ex n) sid l name prev v m w = (Ok v', w') ->
    exists new fs evs, piece sid w w' new /\ of_sid sid new = evs /\
      calls (left_by l name m prev) sid l name m prev v fs v' evs /\
      (if mode_in m (w_quar w) then fs = [] else fs = registered w' l name m).
  Proof.
    intros Hs Hl H. unfold notify, bind, get_w in H. destruct (mode_in m (w_quar w)) eqn:Em.
    - injection H as <- <-. exists [], [], []. split; [apply piece_refl|]. split; [reflexivity|].
      split; [constructor|reflexivity].
    - eapply notify_calls in H; eauto.
  Qed.

  (** ** The assignment *)
  Lemma heap_kept s w w' new l : piece s w w' new -> nth_error (w_heap w) l <> None -> nth_error (w_heap w') l <> None.
  Proof.
    intros P H. apply nth_error_Some in H. apply nth_error_Some. pose proof (ext_len _ _ (pc_grows _ _ _ _ P)). lia.
  Qed.
  Lemma notified_intro w wa wb w' s1 s2 s3 n1 n2 n3 l name m fs :
    nth_error (w_heap w) l <> None ->
    piece s1 w wa n1 -> piece s2 wa wb n2 -> piece s3 wb w' n3 ->
    (if mode_in m (w_quar wa) then fs = [] else fs = registered wb l name m) ->
    notified w w' l name m fs.
  Proof.
    intros Hl P1 P2 P3 H.
    assert (Hq : w_quar wa = w_quar w) by apply (pc_grows _ _ _ _ P1). rewrite Hq in H. split.
    - intros Hin. apply mode_in_In in Hin. now rewrite Hin in H.
    - intros Hin. destruct (mode_in m (w_quar w)) eqn:Em; [apply mode_in_In in Em; contradiction|]. subst fs.
      assert (Ha := heap_kept _ _ _ _ _ P1 Hl). assert (Hb := heap_kept _ _ _ _ _ P2 Ha).
      split; [|now apply lst_grow; [apply (pc_lst _ _ _ _ P3)|]].
      eapply prefix_trans; apply lst_grow; eauto using pc_lst.
  Qed.

  Lemma piece_write sid w l name v : sid < w_clock w -> piece sid w (w_emit (EWrite sid l name v) (write l name v w)) [EWrite sid l name v].
  Proof.
    intros Hs. split.
    - unfold since, write. simpl. now rewrite w_upd_trace.
    - constructor; [|constructor]. simpl. unfold write. rewrite w_upd_clock. lia.
    - eapply ext_trans; [|apply ext_emit]. apply ext_upd. reflexivity.
    - apply (irel_heap_r _ _ (write l name v w)); [reflexivity|]. unfold write.
      apply irel_upd; auto using lst_rel_refl. intros i Hi. exists []. simpl. now rewrite app_nil_r.
    - intros l' i m Hi. simpl. unfold write. destruct (Nat.eqb_spec l' l) as [->|Hn].
      + rewrite w_upd_nth_same, Hi. simpl. eexists. split; [reflexivity|]. simpl.
        destruct (String.eqb_spec m name) as [->|Hm]; simpl.
        * destruct (is_undef v); [apply dget_ddel_same|apply dget_dset_same].
        * destruct (is_undef v); [apply dget_ddel_other|apply dget_dset_other]; auto.
      + rewrite w_upd_nth_other by auto. simpl. eauto.
  Qed.

  Lemma equal_piece n p a b s w : s <= w_clock w -> exists new, piece s w (snd (p_equal (ex n) p a b w)) new.
  Proof.
    intros Hs. apply good_piece. intros R T F.
    apply (good_equal E C U R T F _ (frame_exec E C U R T F HC n) s); auto. apply (f_refl _ _ _ _ _ F).
  Qed.
  Lemma equal_sid n p a b sid w w1 r : sid < w_clock w -> p_equal (ex n) p a b w = (r, w1) ->
    exists new, piece sid w w1 new /\ of_sid sid new = [].
  Proof.
    intros Hs H. destruct (equal_piece n p a b (S sid) w Hs) as [new P]. rewrite H in P. exists new.
    split; [eapply piece_weaken; [|exact P]; lia|]. eapply of_sid_later. apply (pc_ev _ _ _ _ P).
  Qed.

  Lemma has_set_ok n p l name v0 w r w' : nth_error (w_heap w) l <> None ->
    has_set (ex n) p l name v0 w = (Ok r, w') ->
    exists new v1 changed fv fc fs, piece (w_clock w) w w' new /\
      assignment (fun m prev => left_by l name m prev) (own_equal p) l name v0 w w' new (w_clock w) v1 changed fv fc fs.
  Proof.
    intros Hl H. unfold has_set in H.
    apply bind_ok in H as (sid & w1 & Ht & H). injection Ht as <- <-.
    apply bind_ok in H as (i & w1 & Hi & H). apply get_inst_ok in Hi as [-> Hi].
    change (w_heap (w_tick w)) with (w_heap w) in Hi.
    destruct (nth_error (w_heap w) l) as [i'|] eqn:Ei; [|congruence]. injection Hi as ->.
    set (sid := w_clock w) in *.
    set (prev := match dget (i_back i') name with Some x => x | None => VUndef end) in *.
    assert (Hprev : prev = unset_or (stored w l name)) by (unfold stored; now rewrite Ei).
    assert (Pt : piece sid w (w_tick w) []) by (apply piece_same; simpl; auto).
    assert (Hl' : nth_error (w_heap w) l <> None) by congruence.
    apply bind_ok in H as (v1 & w2 & Hv & H).
    apply notify_ok in Hv as (nv & fv & ev & Pv & Ov & Cv & Fv); [|simpl; lia|simpl; congruence].
    apply bind_ok in H as (u & w3 & Hw & H). apply bind_ok in H as (u' & w4 & Hw' & H).
    unfold upd, mod_w in Hw, Hw'. injection Hw as <- <-. injection Hw' as <- <-.
    assert (Hs2 : sid < w_clock w2) by (destruct (pc_grows _ _ _ _ Pv); simpl in *; unfold sid; lia).
    pose proof (piece_write sid w2 l name v1 Hs2) as Pw. unfold write in Pw.
    set (w4 := w_emit (EWrite sid l name v1) _) in *.
    assert (Hs4 : sid < w_clock w4) by (destruct (pc_grows _ _ _ _ Pw); lia).
    apply bind_ok in H as (changed & w5 & Hc & H).
    assert (Hce : exists n5, piece sid w4 w5 n5 /\ of_sid sid n5 = [] /\ changes (own_equal p) prev v1 changed).
    { unfold changes. destruct (is_undef prev), (is_undef v1); simpl in Hc.
      - injection Hc as <- <-. exists []. auto using piece_refl.
      - injection Hc as <- <-. exists []. auto using piece_refl.
      - injection Hc as <- <-. exists []. auto using piece_refl.
      - apply bind_ok in Hc as (b & w6 & Hb & Hc). injection Hc as <- <-.
        destruct (equal_sid _ _ _ _ _ _ _ _ Hs4 Hb) as (n5 & P5 & O5). exists n5. split; [exact P5|]. split; [exact O5|].
        rewrite negb_involutive. exists n, w4, w6. exact Hb. }
    destruct Hce as (n5 & P5 & O5 & Hch).
    assert (Hs5 : sid < w_clock w5) by (destruct (pc_grows _ _ _ _ P5); lia).
    assert (L2 := heap_kept _ _ _ _ _ Pv Hl'). assert (L4 := heap_kept _ _ _ _ _ Pw L2).
    assert (L5 := heap_kept _ _ _ _ _ P5 L4).
    apply bind_ok in H as (v2 & w6 & Hn & H).
    assert (Hn' : exists nc fc ec, piece sid w5 w6 nc /\ of_sid sid nc = ec /\
       calls (left_by l name MChange prev) sid l name MChange prev v1 fc v2 ec /\
       (if changed then (if mode_in MChange (w_quar w5) then fc = [] else fc = registered w6 l name MChange) else fc = [])).
    { destruct changed.
      - apply notify_ok in Hn; auto.
      - injection Hn as <- <-. exists [], [], []. split; [apply piece_refl|]. split; [reflexivity|].
        split; [constructor|reflexivity]. }
    destruct Hn' as (nc & fc & ec & Pc & Oc & Cc & Fc).
    assert (Hs6 : sid < w_clock w6) by (destruct (pc_grows _ _ _ _ Pc); lia).
    assert (L6 := heap_kept _ _ _ _ _ Pc L5).
    apply bind_ok in H as (v3 & w7 & Hn3 & H). injection H as <- <-.
    apply notify_ok in Hn3 as (ns & fs & es & Ps & Os & Cs & Fs); auto.
    assert (Pa : piece sid w w2 (nv ++ [])) by (eapply piece_trans; eauto).
    assert (Pb : piece sid w w5 (n5 ++ [EWrite sid l name v1] ++ nv ++ [])).
    { eapply piece_trans; [|exact P5]. eapply piece_trans; [exact Pa|exact Pw]. }
    assert (Pd : piece sid w w6 (nc ++ n5 ++ [EWrite sid l name v1] ++ nv ++ [])).
    { eapply piece_trans; [exact Pb|exact Pc]. }
    exists (ns ++ nc ++ n5 ++ [EWrite sid l name v1] ++ nv ++ []), v1, changed, fv, fc, fs.
    assert (Pall : piece sid w w7 (ns ++ nc ++ n5 ++ [EWrite sid l name v1] ++ nv ++ [])).
    { eapply piece_trans; [exact Pd|exact Ps]. }
    split; [exact Pall|]. constructor.
    - apply (pc_since _ _ _ _ Pall).
    - exists ev, ec, es, v2, v3. rewrite <- Hprev. split; [|auto].
      rewrite !of_sid_app, O5, Ov, Oc, Os. unfold of_sid. simpl. rewrite Nat.eqb_refl. simpl.
      rewrite !app_nil_r, <- !app_assoc. reflexivity.
    - rewrite <- Hprev. exact Hch.
    - eapply (notified_intro w (w_tick w) w2 w7); eauto.
      eapply piece_trans; [|exact Ps]. eapply piece_trans; [|exact Pc]. eapply piece_trans; [exact Pw|exact P5].
    - destruct changed; auto. eapply (notified_intro w w5 w6 w7); eauto.
    - eapply (notified_intro w w6 w7 w7); eauto. apply (piece_refl sid).
  Qed.

  Lemma has_set_exc n p l name v0 w e w' : nth_error (w_heap w) l <> None ->
    has_set (ex n) p l name v0 w = (Exc e, w') ->
    exists new, piece (w_clock w) w w' new /\
      let sid := w_clock w in let prev := unset_or (stored w l name) in
      (Forall (call_of sid l name MValidate prev) (of_sid sid new) \/
       exists ev v1 rest, of_sid sid new = ev ++ EWrite sid l name v1 :: rest /\
         Forall (call_of sid l name MValidate prev) ev /\ Forall (observer_call sid l name prev) rest).
  Proof.
    intros Hl H. unfold has_set in H.
    apply bind_exc in H as [H|(sid & w1 & Ht & H)]; [discriminate|]. injection Ht as <- <-.
    apply bind_exc in H as [H|(i & w1 & Hi & H)].
    { apply get_inst_ok in H as [_ H]. simpl in H. destruct (nth_error (w_heap w) l); congruence. }
    apply get_inst_ok in Hi as [-> Hi].
    change (w_heap (w_tick w)) with (w_heap w) in Hi.
    destruct (nth_error (w_heap w) l) as [i'|] eqn:Ei; [|congruence]. injection Hi as ->.
    set (sid := w_clock w) in *.
    set (prev := match dget (i_back i') name with Some x => x | None => VUndef end) in *.
    assert (Hprev : unset_or (stored w l name) = prev) by (unfold stored; now rewrite Ei).
    rewrite Hprev. cbv zeta.
    assert (Pt : piece sid w (w_tick w) []) by (apply piece_same; simpl; auto).
    assert (Hl' : nth_error (w_heap w) l <> None) by congruence.
    destruct (notify_any n sid l name prev v0 MValidate (w_tick w)) as (nv & Pv & Cv); [simpl; lia|].
    apply bind_exc in H as [H|(v1 & w2 & Hv & H)].
    { rewrite H in Pv. exists (nv ++ []). split; [eapply piece_trans; [exact Pt|exact Pv]|].
      left. rewrite app_nil_r. exact Cv. }
    rewrite Hv in Pv. simpl in Pv.
    assert (Hs2 : sid < w_clock w2) by (destruct (pc_grows _ _ _ _ Pv); simpl in *; unfold sid; lia).
    pose proof (piece_write sid w2 l name v1 Hs2) as Pw. unfold write in Pw.
    apply bind_exc in H as [H|(u & w3 & Hw & H)]; [discriminate|]. injection Hw as <- <-.
    apply bind_exc in H as [H|(u' & w4 & Hw & H)]; [discriminate|]. injection Hw as <- <-.
    set (w4 := w_emit (EWrite sid l name v1) _) in *.
    assert (P4 : piece sid w w4 ([EWrite sid l name v1] ++ nv ++ [])).
    { eapply piece_trans; [|exact Pw]. eapply piece_trans; [exact Pt|exact Pv]. }
    assert (Hs4 : sid < w_clock w4) by (destruct (pc_grows _ _ _ _ Pw); lia).
    assert (Fin : forall m w', piece sid w4 w' m -> Forall (observer_call sid l name prev) (of_sid sid m) ->
       exists new, piece sid w w' new /\
        (Forall (call_of sid l name MValidate prev) (of_sid sid new) \/
         exists ev v1 rest, of_sid sid new = ev ++ EWrite sid l name v1 :: rest /\
           Forall (call_of sid l name MValidate prev) ev /\ Forall (observer_call sid l name prev) rest)).
    { intros m w5 Pm Om. exists (m ++ [EWrite sid l name v1] ++ nv ++ []). split; [eapply piece_trans; [exact P4|exact Pm]|].
      right. exists (of_sid sid nv), v1, (of_sid sid m). split; [|auto].
      rewrite !of_sid_app. unfold of_sid at 3. simpl. rewrite Nat.eqb_refl. simpl.
      rewrite <- app_assoc. reflexivity. }
    apply bind_exc in H as [H|(changed & w5 & Hc & H)].
    { destruct (is_undef prev && is_undef v1); [discriminate|].
      destruct (is_undef prev || is_undef v1); [discriminate|].
      apply bind_exc in H as [H|(b & w5 & _ & H)]; [|discriminate].
      destruct (equal_sid _ _ _ _ _ _ _ _ Hs4 H) as (n5 & P5 & O5). eapply Fin; [exact P5|]. rewrite O5. constructor. }
    assert (Hce : exists n5, piece sid w4 w5 n5 /\ of_sid sid n5 = []).
    { destruct (is_undef prev && is_undef v1).
      { injection Hc as <- <-. exists []. auto using piece_refl. }
      destruct (is_undef prev || is_undef v1).
      { injection Hc as <- <-. exists []. auto using piece_refl. }
      apply bind_ok in Hc as (b & w6 & Hb & Hc). injection Hc as <- <-.
      eapply equal_sid; eauto. }
    destruct Hce as (n5 & P5 & O5).
    assert (Hs5 : sid < w_clock w5) by (destruct (pc_grows _ _ _ _ P5); lia).
    assert (Hobs : forall m x l0, (m = MChange \/ m = MSet) -> Forall (call_of sid l name m x) l0 -> x = prev ->
              Forall (observer_call sid l name prev) l0).
    { intros m x l0 Hm Hf ->. eapply Forall_impl; [|exact Hf]. intros a Ha.
      destruct Hm as [->| ->]; [now left|now right]. }
    destruct (notify_any n sid l name prev v1 MChange w5 Hs5) as (nc & Pc & Cc).
    apply bind_exc in H as [H|(v2 & w6 & Hn & H)].
    { destruct changed; [|discriminate]. rewrite H in Pc. simpl in Pc.
      eapply Fin; [eapply piece_trans; [exact P5|exact Pc]|]. rewrite of_sid_app, O5. cbn [app]. apply (Hobs MChange prev); auto. }
    assert (Hn' : exists nc, piece sid w4 w6 nc /\ Forall (observer_call sid l name prev) (of_sid sid nc)).
    { destruct changed.
      - rewrite Hn in Pc. simpl in Pc. eexists. split; [eapply piece_trans; [exact P5|exact Pc]|].
        rewrite of_sid_app, O5. cbn [app]. apply (Hobs MChange prev); auto.
      - injection Hn as <- <-. exists n5. rewrite O5. auto. }
    clear nc Pc Cc. destruct Hn' as (nc & Pc & Cc).
    assert (Hs6 : sid < w_clock w6) by (destruct (pc_grows _ _ _ _ Pc); lia).
    destruct (notify_any n sid l name prev v2 MSet w6 Hs6) as (ns & Ps & Cs).
    apply bind_exc in H as [H|(v3 & w7 & _ & H)]; [|discriminate].
    rewrite H in Ps. simpl in Ps. eapply Fin; [eapply piece_trans; [exact Pc|exact Ps]|].
    rewrite of_sid_app. apply Forall_app. split; [exact Cc|]. apply (Hobs MSet prev); auto.
  Qed.
End Set_.

(** * Property types without instances *)
Section Free.
  Variable E : env.
  Variable C : ctable.

  Lemma ho_refl w : hooks_only w w.
  Proof. split; auto. exists []. split; [reflexivity|constructor]. Qed.
  Lemma ho_trans a b c : hooks_only a b -> hooks_only b c -> hooks_only a c.
  Proof.
    intros [A1 A2 A3 A4 (x & A5 & A6)] [B1 B2 B3 B4 (y & B5 & B6)]. split; try congruence; [lia|].
    exists (y ++ x). split; [unfold since in *; now rewrite B5, A5, app_assoc|]. now apply Forall_app.
  Qed.
  Definition quietM {A} (m : M A) : Prop := forall w, hooks_only w (snd (m w)).
  Lemma q_ret {A} (a : A) : quietM (ret a).
  Proof. intros w. apply ho_refl. Qed.
  Lemma q_throw {A} e : quietM (@throw A e).
  Proof. intros w. apply ho_refl. Qed.
  Lemma q_lift {A} (r : res A) : quietM (lift r).
  Proof. intros w. apply ho_refl. Qed.
  Lemma q_bind {A B} (m : M A) (k : A -> M B) : quietM m -> (forall a, quietM (k a)) -> quietM (bind m k).
  Proof.
    intros H K w. unfold bind. specialize (H w). destruct (m w) as [[a|e] w1]; simpl in *; auto.
    eapply ho_trans; [exact H|apply K].
  Qed.
  Lemma q_try {A} (m : M A) h : quietM m -> (forall e, quietM (h e)) -> quietM (try_ m h).
  Proof.
    intros H K w. unfold try_. specialize (H w). destruct (m w) as [[a|e] w1]; simpl in *; auto.
    eapply ho_trans; [exact H|apply K].
  Qed.
  Lemma q_mapM {A B} (f : A -> M B) l : (forall x, quietM (f x)) -> quietM (mapM f l).
  Proof.
    intros H. induction l; simpl; [apply q_ret|]. apply q_bind; auto. intros. apply q_bind; auto. intros. apply q_ret.
  Qed.
  Lemma q_hook io ts : quietM (hook io ts).
  Proof.
    unfold hook. destruct io as [l|]; [|apply q_ret]. intros w. unfold bind, get_inst.
    destruct (nth_error (w_heap w) l) as [i|]; [|apply ho_refl].
    destruct (i_vflag i) as [[|]|]; try apply ho_refl.
    split; simpl; auto. exists [EHook l ts]. split; [reflexivity|]. constructor; simpl; auto.
  Qed.
  Lemma q_perror {A} name io : quietM (@perror A name io).
  Proof. unfold perror, verror. apply q_bind; [apply q_hook|intros; apply q_throw]. Qed.
  Lemma q_hooks n name io : quietM (hooks n name io).
  Proof. induction n; simpl; [apply q_ret|]. apply q_bind; [apply q_hook|auto]. Qed.
  Lemma q_leaf t io name v : quietM (leaf_val E t io name v).
  Proof.
    unfold leaf_val. apply q_bind.
    - intros w. split; simpl; auto. exists []. split; [reflexivity|constructor].
    - intros k. destruct (leaf_validate E (e_rand E k) t v); [apply q_ret| |apply q_throw].
      apply q_bind; [apply q_hooks|intros; apply q_perror].
  Qed.

  Lemma validate_free rec p : inst_free p -> forall io name v, quietM (p_validate E C rec p io name v).
  Proof.
    induction p as [t|k q mn mx co IH|kp vp co IHk IHv|si ps IH|cid] using ptype_ind'; intros Hf io name v; simpl in *.
    - apply q_leaf.
    - apply q_bind. { destruct (_ && _); [apply q_perror|apply q_ret]. }
      intros _. apply q_bind; [apply q_lift|]. intros items. apply q_bind; [|intros; apply q_lift].
      apply q_mapM. intros x. apply q_try; [apply IH; auto|]. intros e. destruct (is_value_error e); [apply q_perror|apply q_throw].
    - destruct Hf as [Hk Hv]. apply q_bind; [destruct (_ && _); [apply q_perror|apply q_ret]|].
      intros _. apply q_bind.
      { destruct (py_dict v) as [d|[]]; try apply q_ret; try apply q_perror; apply q_throw. }
      intros d. apply q_bind; [|intros; apply q_ret]. generalize (@nil (val * val)) as acc.
      induction d as [|[k x] d IHd]; intros acc; [apply q_ret|].
      apply q_bind. { apply q_try; [apply IHk; auto|]. intros e. destruct (is_value_error e); [apply q_perror|apply q_throw]. }
      intros k'. apply q_bind. { apply q_try; [apply IHv; auto|]. intros e. destruct (is_value_error e); [apply q_perror|apply q_throw]. }
      intros x'. destruct (hashable k'); [apply IHd|apply q_throw].
    - induction IH as [|q ps Hq Hps IHps]; [apply q_perror|]. destruct Hf as [H1 H2].
      apply q_try; [apply Hq; auto|]. intros e. destruct (is_generic e); [exact (IHps H2)|apply q_throw].
    - destruct Hf.
  Qed.

  (** equality of such types is a function of the two values *)
  Definition pureM {A} (m : (call -> M val) -> M A) : Prop := exists r, forall rec w, m rec w = (r, w).
  Lemma pu_ret {A} (a : A) : pureM (fun _ => ret a).
  Proof. exists (Ok a). reflexivity. Qed.
  Lemma pu_throw {A} e : pureM (fun _ => @throw A e).
  Proof. exists (Exc e). reflexivity. Qed.
  Lemma pu_lift {A} (r : res A) : pureM (fun _ => lift r).
  Proof. exists r. reflexivity. Qed.
  Lemma pu_bind {A B} (m : (call -> M val) -> M A) (k : A -> (call -> M val) -> M B) :
    pureM m -> (forall a, pureM (k a)) -> pureM (fun rec => bind (m rec) (fun a => k a rec)).
  Proof.
    intros [[a|e] H] K.
    - destruct (K a) as [r Hr]. exists r. intros rec w. unfold bind. now rewrite H.
    - exists (Exc e). intros rec w. unfold bind. now rewrite H.
  Qed.
  Lemma pu_try {A} (m : (call -> M val) -> M A) h :
    pureM m -> (forall e, pureM (h e)) -> pureM (fun rec => try_ (m rec) (fun e => h e rec)).
  Proof.
    intros [[a|e] H] K.
    - exists (Ok a). intros rec w. unfold try_. now rewrite H.
    - destruct (K e) as [r Hr]. exists r. intros rec w. unfold try_. now rewrite H.
  Qed.
  Lemma pu_mapM {A B} (f : A -> (call -> M val) -> M B) l :
    (forall x, pureM (f x)) -> pureM (fun rec => mapM (fun x => f x rec) l).
  Proof.
    intros H. induction l as [|x l IH]; simpl; [apply pu_ret|].
    apply (pu_bind (f x) (fun y rec => bind (mapM (fun x => f x rec) l) (fun ys => ret (y :: ys)))); auto.
    intros y. apply (pu_bind (fun rec => mapM (fun x => f x rec) l) (fun ys _ => ret (y :: ys))); auto.
    intros. apply pu_ret.
  Qed.
  Lemma pu_take (f : val -> (call -> M val) -> M bool) l :
    (forall x, pureM (f x)) -> pureM (fun rec => take_first (fun y => f y rec) l).
  Proof.
    intros H. induction l as [|y l IH]; simpl; [apply pu_ret|].
    apply (pu_bind (f y) (fun b rec => if b then ret (Some l) else
      bind (take_first (fun y => f y rec) l) (fun o => ret (match o with Some r' => Some (y :: r') | None => None end)))); auto.
    intros [|]; [apply pu_ret|].
    apply (pu_bind (fun rec => take_first (fun y => f y rec) l) (fun o _ => ret (match o with Some r' => Some (y :: r') | None => None end))); auto.
    intros. apply pu_ret.
  Qed.

  Lemma equal_free p : inst_free p -> forall a b, pureM (fun rec => p_equal rec p a b).
  Proof.
    induction p as [t|k q mn mx co IH|kp vp co IHk IHv|si ps IH|cid] using ptype_ind'; intros Hf a b; simpl in *.
    - apply pu_lift.
    - destruct k.
      1,2: refine (pu_try (fun rec => bind (lift (py_iter a)) (fun la => bind (lift (py_iter b)) (fun lb =>
            if negb (Nat.eqb (length la) (length lb)) then ret false
            else bind (mapM (fun xy => p_equal rec q (fst xy) (snd xy)) (combine la lb))
                   (fun bs => ret (forallb (fun b => b) bs)))))
          (fun e _ => match e with ExType => ret false | _ => throw e end) _ _);
        [|intros []; first [apply pu_ret|apply pu_throw]];
        refine (pu_bind (fun _ => lift (py_iter a)) (fun la rec => bind (lift (py_iter b)) (fun lb =>
            if negb (Nat.eqb (length la) (length lb)) then ret false
            else bind (mapM (fun xy => p_equal rec q (fst xy) (snd xy)) (combine la lb))
                   (fun bs => ret (forallb (fun b => b) bs)))) (pu_lift _) _);
        intros la;
        refine (pu_bind (fun _ => lift (py_iter b)) (fun lb rec =>
            if negb (Nat.eqb (length la) (length lb)) then ret false
            else bind (mapM (fun xy => p_equal rec q (fst xy) (snd xy)) (combine la lb))
                   (fun bs => ret (forallb (fun b => b) bs))) (pu_lift _) _);
        intros lb; destruct (negb _); [apply pu_ret|];
        refine (pu_bind (fun rec => mapM (fun xy => p_equal rec q (fst xy) (snd xy)) (combine la lb))
                   (fun bs _ => ret (forallb (fun b => b) bs)) _ _);
        [apply (pu_mapM (fun xy rec => p_equal rec q (fst xy) (snd xy))); intros; apply IH; auto|intros; apply pu_ret].
      refine (pu_try (fun rec => bind (lift (py_iter a)) (fun la => bind (lift (py_iter b)) (fun lb => _))) 
          (fun e _ => match e with ExType | ExAttr => ret false | _ => throw e end) _ _);
        [|intros []; first [apply pu_ret|apply pu_throw]].
      refine (pu_bind (fun _ => lift (py_iter a)) (fun la rec => bind (lift (py_iter b)) (fun lb => _)) (pu_lift _) _).
      intros la. refine (pu_bind (fun _ => lift (py_iter b)) (fun lb rec => _) (pu_lift _) _). intros lb.
      destruct (negb _); [apply pu_ret|]. destruct b; try apply pu_throw; try apply pu_ret.
      all: refine (pu_bind (fun rec => (fix go (la copy : list val) : M (list val) :=
                         match la with
                         | [] => ret copy
                         | x :: r =>
                             let* o := take_first (fun y => p_equal rec q x y) copy in
                             go r (match o with Some c => c | None => copy end)
                         end) la lb) (fun rest _ => ret (Nat.eqb (length rest) 0)) _ _); [|intros; apply pu_ret];
        clear - IH Hf; revert lb; induction la as [|x la IHl]; intros copy; [apply pu_ret|];
        refine (pu_bind (fun rec => take_first (fun y => p_equal rec q x y) copy) (fun o rec => (fix go (la copy : list val) : M (list val) :=
                         match la with
                         | [] => ret copy
                         | x :: r =>
                             let* o := take_first (fun y => p_equal rec q x y) copy in
                             go r (match o with Some c => c | None => copy end)
                         end) la (match o with Some c => c | None => copy end)) _ _);
        [apply (pu_take (fun y rec => p_equal rec q x y)); intros; apply IH; auto|intros o; apply IHl].
    - destruct Hf as [Hk Hv].
      refine (pu_try (fun rec => _) (fun e _ => match e with ExKey | ExType | ExAttr => ret false | _ => throw e end) _ _);
        [|intros []; first [apply pu_ret|apply pu_throw]].
      destruct a; try apply pu_throw. destruct b; try apply pu_throw.
      destruct (negb _); [apply pu_ret|].
      refine (pu_bind (fun rec => mapM _ _) (fun bs _ => ret (forallb (fun b => b) bs)) _ _); [|intros; apply pu_ret].
      apply (pu_mapM (fun kx rec => match vd_get l0 (fst kx) with Some y => p_equal rec vp (snd kx) y | None => throw ExKey end)).
      intros kx. destruct (vd_get l0 (fst kx)); [apply IHv; auto|apply pu_throw].
    - induction IH as [|q ps Hq Hps IHps]; simpl; [apply pu_ret|]. destruct Hf as [H1 H2].
      refine (pu_bind (fun rec => p_equal rec q a b) (fun x rec => if x then ret true else anyM (map (fun q => p_equal rec q a b) ps)) _ _);
        [auto|]. intros [|]; [apply pu_ret|exact (IHps H2)].
    - destruct Hf.
  Qed.
End Free.
