(** [required] and [assert_valid]; proofs about World.v. *)
From Verif Require Import World.
Local Open Scope string_scope.
Local Open Scope list_scope.
Local Open Scope nat_scope.

Lemma bind_same {A B} (m m' : M A) (f : A -> M B) w : m w = m' w -> bind m f w = bind m' f w.
Proof. intros H. unfold bind. now rewrite H. Qed.
Lemma required_irrelevant : forall E C rec p l name v w i, nth_error (w_heap w) l = Some i ->
  v <> VNone \/ (exists x, dget (i_back i) name = Some x /\ x <> VNone) ->
  forall r1 r2, p_assert E C rec r1 p l name v w = p_assert E C rec r2 p l name v w.
Proof.
  intros E C rec p l name v w i Hi Hv r1 r2.
  assert (H : prop_assert E C rec r1 p l name v w = prop_assert E C rec r2 p l name v w).
  { unfold prop_assert, bind.
    destruct (reread l name v w) as [[x|e] w1] eqn:Er; [|reflexivity].
    destruct (is_none x) eqn:En; [|reflexivity]. exfalso.
    unfold reread, back_get, get_inst, bind, ret in Er. destruct (is_none v) eqn:Ev.
    - destruct v; try discriminate. destruct Hv as [Hv|(y & Hy & Hn)]; [congruence|].
      rewrite Hi in Er. rewrite Hy in Er. injection Er as <- <-. destruct y; try discriminate. congruence.
    - injection Er as <- <-. congruence. }
  destruct p; cbn [p_assert]; apply bind_same, H.
Qed.
