(** Proofs about histories of an instance with a File or ImagePNG. *)
From Verif Require Import Files FilesFacts FileRunsSpec.
From Coq Require Import Lia.
Local Open Scope string_scope.
Local Open Scope list_scope.
Local Open Scope nat_scope.

Lemma file_validate_keeps fs o v h i f : nth_error h i = Some f -> nth_error (snd (file_validate fs o v h)) i = Some f.
Proof.
  intros H. assert (L : i < length h) by (apply nth_error_Some; congruence).
  unfold file_validate. destruct v; cbn; auto. destruct (m_mode o); cbn; auto. destruct (fs _ _); cbn; auto. now rewrite nth_error_app1.
Qed.
Lemma set_keeps fs o v veto s i f : nth_error (fs_heap s) i = Some f -> nth_error (fs_heap (snd (file_set (file_validate fs o) v veto s))) i = Some f.
Proof.
  intros H. apply (file_validate_keeps fs o v) in H. unfold file_set. destruct (file_validate fs o v (fs_heap s)) as [[w|n|e] h]; cbn in *; auto.
  destruct veto; auto.
Qed.
Lemma del_keeps veto s i f : nth_error (fs_heap s) i = Some f -> fs_slot s <> Some (VObj i) -> nth_error (fs_heap (snd (file_del veto s))) i = Some f.
Proof.
  intros H N. unfold file_del. destruct (fs_slot s) as [v|]; [destruct v as [| | | | | | | | |j| | | | |]; auto|]; try (destruct veto; now cbn).
  destruct (nth_error (fs_heap s) j) as [g|]; auto. destruct (f_close g); auto.
  destruct veto; cbn; rewrite set_at_other; auto; congruence.
Qed.
Lemma del_closes veto s i f : nth_error (fs_heap s) i = Some f -> fs_slot s = Some (VObj i) -> f_close f = true ->
  nth_error (fs_heap (snd (file_del veto s))) i = Some (closed_file f).
Proof.
  intros H E C. assert (L : i < length (fs_heap s)) by (apply nth_error_Some; congruence).
  unfold file_del. rewrite E, H, C. destruct veto; cbn; now apply set_at_same.
Qed.
Theorem history fs o i l s n : deletions (file_validate fs o) i l s n -> forall f, nth_error (fs_heap s) i = Some f -> f_close f = true ->
  exists g, nth_error (fs_heap (fruns (file_validate fs o) l s)) i = Some g /\ closed_times n f g.
Proof.
  induction 1 as [s|v veto t s n D IH|veto t s n E D IH|veto t s n E D IH]; intros f F C; cbn [fruns].
  - exists f. split; auto. repeat split.
  - apply (set_keeps fs o v veto) in F. exact (IH f F C).
  - apply (del_closes veto) in F; auto. destruct (IH _ F C) as (g & G & K). exists g. split; auto.
    destruct K as (K1 & K2 & K3 & K4 & K5 & K6 & K7 & K8 & K9). cbn in *.
    repeat split; auto; [lia|]. rewrite K2. destruct (n =? 0), (f_closed f); auto.
  - apply (del_keeps veto) in F; auto.
Qed.
Lemma deletions_exist V i l : forall s, exists n, deletions V i l s n.
Proof.
  induction l as [|[v veto|veto] l IH]; intros s; [exists 0; constructor|destruct (IH (fstep V (FSet v veto) s)) as (n & D); exists n; now constructor|].
  destruct (IH (fstep V (FDel veto) s)) as (n & D).
  assert (X : fs_slot s = Some (VObj i) \/ fs_slot s <> Some (VObj i)).
  { destruct (fs_slot s) as [v|]; [|right; discriminate]. destruct v; try (right; discriminate). destruct (Nat.eq_dec n0 i); [subst; auto|right; congruence]. }
  destruct X; eexists; [apply D_del|apply D_other]; eauto.
Qed.
Theorem assignments_keep fs o l : forall s i f, (forall veto, ~ In (FDel veto) l) -> nth_error (fs_heap s) i = Some f ->
  nth_error (fs_heap (fruns (file_validate fs o) l s)) i = Some f.
Proof.
  induction l as [|[v veto|veto] l IH]; intros s i f N F; cbn [fruns]; auto.
  - apply IH; [intros w H; apply (N w); now right|]. now apply set_keeps.
  - destruct (N veto); now left.
Qed.
Theorem png_takes fs o i f h r h' : nth_error h i = Some f -> f_marked f = false -> png_validate fs o (VObj i) h = (LOk r, h') ->
  r = VObj (length h) /\
  (exists g, nth_error h' i = Some g /\ f_closes g = S (f_closes f) /\ (f_closed f <> None -> f_closed g = Some true)) /\
  (exists c, nth_error h' (length h) = Some c /\ f_bytes c = f_bytes f /\ f_pos c = 0 /\ f_closed c = Some false /\ f_closes c = 0) /\
  (forall j, j <> i -> j < length h -> nth_error h' j = nth_error h j).
Proof.
  intros H M P. assert (L : i < length h) by (apply nth_error_Some; congruence).
  unfold png_validate in P. rewrite H, M in P. unfold file_validate in P.
  destruct (file_checks o (VObj i) h) as [w|n|e] eqn:C; try discriminate.
  assert (w = VObj i).
  { unfold file_checks in C. rewrite H in C. destruct (negb _); try discriminate. destruct (match f_mode f with Some _ => _ | None => _ end); try discriminate.
    destruct (match f_closed f with Some b => b | None => false end); congruence. }
  subst w. rewrite H in P. destruct (list_eq_dec _ _ _); try discriminate. destruct (f_close f); try discriminate.
  injection P as <- <-. split; [reflexivity|]. split; [|split].
  - eexists. rewrite nth_error_app1 by (rewrite set_at_length; lia). split; [now apply set_at_same|]. split; [reflexivity|].
    intros N. cbn. destruct (f_closed f); auto. contradiction.
  - eexists. rewrite nth_error_app2 by (rewrite set_at_length; lia). rewrite set_at_length, Nat.sub_diag. split; [reflexivity|]. repeat split.
  - intros j N J. rewrite nth_error_app1 by (rewrite set_at_length; lia). rewrite set_at_other; auto.
Qed.
