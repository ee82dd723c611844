(** The guards of instances that a call creates. *)
From Verif Require Import World WorldFrame WorldInv WorldSpec WorldFacts.
Local Open Scope string_scope.
Local Open Scope list_scope.
Local Open Scope nat_scope.

(** The guards of serialize and equal at [l]; down if there is no instance. *)
Definition flags_at (w : world) (l : loc) : bool * bool :=
  match nth_error (w_heap w) l with Some i => (i_sflag i, i_eflag i) | None => (false, false) end.
Definition same_flags (w w' : world) : Prop := forall l, flags_at w' l = flags_at w l.

Lemma same_flags_heap w w' : w_heap w' = w_heap w -> same_flags w w'.
Proof. intros H l. unfold flags_at. now rewrite H. Qed.
Lemma same_flags_trans a b c : same_flags a b -> same_flags b c -> same_flags a c.
Proof. intros H1 H2 l. now rewrite H2, H1. Qed.
Lemma same_flags_upd l f w : (forall i, i_sflag (f i) = i_sflag i /\ i_eflag (f i) = i_eflag i) -> same_flags w (w_upd l f w).
Proof.
  intros H k. unfold flags_at. destruct (Nat.eq_dec l k) as [<-|N].
  - rewrite w_upd_nth_same. destruct (nth_error (w_heap w) l) as [i|]; cbn [option_map]; auto. destruct (H i) as [-> ->]. reflexivity.
  - now rewrite w_upd_nth_other.
Qed.
(** A bracket that raises a guard which is down and lowers it again. *)
Lemma same_flags_br l f g w w2 i : nth_error (w_heap w) l = Some i ->
  (forall j k, nth_error (w_heap w2) l = Some k -> flags_at (w_upd l f w) l = (i_sflag k, i_eflag k) ->
     j = g k -> (i_sflag j, i_eflag j) = (i_sflag i, i_eflag i)) ->
  grows (w_upd l f w) w2 -> same_flags (w_upd l f w) w2 -> same_flags w (w_upd l g w2).
Proof.
  intros Hi Hg HG H k. destruct (Nat.eq_dec l k) as [<-|N].
  - unfold flags_at at 1. rewrite w_upd_nth_same.
    assert (Hl : l < length (w_heap w2)).
    { destruct HG as [[x Hx] _ _]. apply (f_equal (@length nat)) in Hx. unfold shape in Hx. rewrite app_length, !map_length in Hx.
      assert (l < length (w_heap (w_upd l f w))); [|lia]. apply nth_error_Some. rewrite w_upd_nth_same, Hi. discriminate. }
    destruct (nth_error (w_heap w2) l) as [j|] eqn:Ej; [|apply nth_error_None in Ej; lia]. cbn [option_map].
    unfold flags_at. rewrite Hi. eapply Hg; eauto. rewrite <- H. unfold flags_at. now rewrite Ej.
  - unfold flags_at. rewrite w_upd_nth_other by auto. change (flags_at w2 k = flags_at w k). rewrite H.
    unfold flags_at. now rewrite w_upd_nth_other.
Qed.

Lemma frame_flags E C U : frame E C U (fun _ w w' => grows w w' /\ same_flags w w') anyT.
Proof.
  pose proof (frame_ext E C U) as FE.
  constructor; intros; unfold anyT; try exact I.
  - split; [apply ext_refl|now apply same_flags_heap].
  - destruct H as (? & ?), H0 as (? & ?). split; [eapply ext_trans; eauto|eapply same_flags_trans; eauto].
  - apply H.
  - split; [apply ext_tick|now apply same_flags_heap].
  - split; [apply ext_emit|now apply same_flags_heap].
  - split; [apply ext_emit|now apply same_flags_heap].
  - split; [now apply (f_write _ _ _ _ _ FE) with (s := s) (d := d)|].
    apply (same_flags_trans _ (write l n v w)); [|now apply same_flags_heap]. unfold write. apply same_flags_upd. auto.
  - split; [now apply ext_alloc with (cid := cid)|]. intros k. unfold flags_at. cbn [w_setheap w_heap].
    destruct (lt_dec k (length (w_heap w))) as [L|L].
    + now rewrite nth_error_app1.
    + rewrite nth_error_app2 by lia. assert (nth_error (w_heap w) k = None) as -> by (apply nth_error_None; lia).
      destruct (k - length (w_heap w)) as [|x]; [reflexivity|]. now destruct x.
  - split; [apply ext_upd; reflexivity|]. apply same_flags_upd. auto.
  - split; [apply ext_upd; reflexivity|]. apply same_flags_upd. auto.
  - split; [apply ext_upd; reflexivity|]. apply same_flags_upd. auto.
  - destruct H1 as (? & ?). split; [eapply ext_br; [| |exact H1]; reflexivity|].
    apply (same_flags_trans _ (w_upd l (i_setv (Some true)) w)); [apply same_flags_upd; auto|].
    apply (same_flags_trans _ w2); [exact H2|apply same_flags_upd; auto].
  - destruct H as (? & ?), H1 as (? & ?). split; [eapply ext_trans; [exact H|]; eapply ext_br; [| |exact H1]; reflexivity|].
    apply (same_flags_trans _ w); [exact H2|].
    apply (same_flags_trans _ (w_upd l (i_setv (Some true)) w)); [apply same_flags_upd; auto|].
    apply (same_flags_trans _ w2); [exact H3|apply same_flags_upd; auto].
  - destruct H as (? & ?). split; [eapply ext_trans; [exact H|]; apply ext_upd; reflexivity|].
    apply (same_flags_trans _ w); [assumption|apply same_flags_upd; auto].
  - destruct H1 as (? & ?). split; [eapply ext_br; [| |exact H1]; reflexivity|].
    eapply same_flags_br; eauto. intros j k Hk Hf ->. unfold flags_at in Hf. rewrite w_upd_nth_same, H in Hf. cbn in *. congruence.
  - destruct H1 as (? & ?). split; [eapply ext_br; [| |exact H1]; reflexivity|].
    eapply same_flags_br; eauto. intros j k Hk Hf ->. unfold flags_at in Hf. rewrite w_upd_nth_same, H in Hf. cbn in *. congruence.
  - destruct H as (? & ?). split; [exact (f_quarbr _ _ _ _ _ FE s w w2 types H)|].
    intros k. change (flags_at w2 k = flags_at w k). now rewrite H0.
  - split; [exact (f_newlink _ _ _ _ _ FE s w d H)|now apply same_flags_heap].
  - split; [apply ext_updlink|]. apply same_flags_heap. apply w_updlink_heap.
  - destruct H1. split; [eapply ext_linkbr; eauto|].
    apply (same_flags_trans _ (set_updating k true w)); [apply same_flags_heap; apply w_updlink_heap|].
    apply (same_flags_trans _ w2); [exact H2|]. apply same_flags_heap. apply w_updlink_heap.
  - left. intros. exact I.
Qed.
Lemma flags_program E C U n p w : wf_ctab C -> same_flags w (snd (run_prog E C U n p w)).
Proof. intros HC. apply (frame_run E C U _ _ (frame_flags E C U) HC n p 0 w). lia. Qed.
Lemma flags_exec E C U n o w : wf_ctab C -> same_flags w (snd (exec E C U n (COp o) w)).
Proof. intros HC. apply (frame_exec E C U _ _ (frame_flags E C U) HC n (COp o) 0 w); [lia|exact I]. Qed.
Lemma new_guards E C U : wf_ctab C -> forall n p w l i, length (w_heap w) <= l ->
  nth_error (w_heap (snd (run_prog E C U n p w))) l = Some i -> i_sflag i = false /\ i_eflag i = false.
Proof.
  intros HC n p w l i Hl Hi. pose proof (flags_program E C U n p w HC l) as H. unfold flags_at in H. rewrite Hi in H.
  assert (nth_error (w_heap w) l = None) as N by now apply nth_error_None. rewrite N in H. now injection H.
Qed.
