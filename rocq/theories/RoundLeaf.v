(** Leaf values survive the way through JSON. *)
From Verif Require Import World WorldFrame WorldSpec AccessSpec BasicSpec LeafFacts DateProofs UuidProofs GraphSpec RoundSpec.
Local Open Scope string_scope.
Local Open Scope list_scope.
Local Open Scope nat_scope.

Section Leaf.
  Variable E : env.
  Hypothesis HS : reads_special E.

  Lemma lok_inj a b : LOk a = LOk b -> a = b.
  Proof. now intros [= ->]. Qed.
  Lemma leaf_round t v : portable_leaf E t v ->
    exists j, leaf_to_json E t v = Ok j /\ leaf_from_json E t j = Ok v /\ (j = VNone <-> v = VNone) /\
      (t <> LfColor -> (hashable v = true -> hashable j = true) /\ (j = v \/ exists s, j = VStr s)).
  Proof.
    intros [Hv Hx]. specialize (Hv 0). destruct t; cbn [leaf_validate leaf_to_json leaf_from_json] in *.
    - exists v. repeat split; auto.
    - unfold bool_validate in Hv. exists v. destruct v as [| |b| | | | | | | | | | | |]; cbn in Hv; try (destruct cast; discriminate).
      repeat split; auto; discriminate.
    - unfold int_validate in Hv. destruct (py_int v) as [z|e] eqn:Ez; [|destruct e; discriminate].
      destruct (if cast then _ else _) as [[|]|e]; try discriminate; [|destruct e; discriminate].
      destruct in_bounds; [|discriminate]. apply lok_inj in Hv. subst v. exists (VInt z). cbn in *. repeat split; auto; discriminate.
    - unfold float_validate in Hv. destruct (py_float E v) as [z|e] eqn:Ez; [|destruct e; discriminate].
      destruct (if cast then _ else _) as [[|]|e]; try discriminate; [|destruct e; discriminate].
      destruct in_bounds; [|discriminate]. apply lok_inj in Hv. subst v.
      destruct (float_json E z HS) as (j & H1 & H2 & _). exists j. split; [exact H1|]. split; [exact H2|].
      cbn in H1. destruct (is_special z); injection H1 as <-; repeat split; auto; try discriminate; right; eauto.
    - unfold complex_validate in Hv. destruct (py_complex E v) as [[a b]|e] eqn:Ez; [|destruct e; discriminate].
      destruct (if cast then _ else _) as [[|]|e]; try discriminate; [|destruct e; discriminate].
      apply lok_inj in Hv. subst v. specialize (Hx a b eq_refl). exists (VStr (e_cstr E a b)). cbn. rewrite Hx. cbn.
      repeat split; auto; try discriminate; right; eauto.
    - unfold string_validate in Hv. destruct v; try discriminate. exists (VStr s). repeat split; auto; discriminate.
    - unfold choice_validate in Hv. destruct v; try discriminate. exists (VStr s). repeat split; auto; discriminate.
    - unfold color_validate in Hv.
      assert (G : forall l, v = VTuple l -> exists j, rbind (py_iter v) (fun l => Ok (VList l)) = Ok j /\ rbind (py_iter j) (fun l => Ok (VTuple l)) = Ok v /\
        (j = VNone <-> v = VNone) /\ (LfColor <> LfColor -> (hashable v = true -> hashable j = true) /\ (j = v \/ exists s, j = VStr s))).
      { intros l ->. exists (VList l). cbn. repeat split; auto; discriminate || congruence. }
      assert (K : forall l x, color_components l = LOk x -> x = VTuple l).
      { intros l x. unfold color_components. destruct Nat.eqb; [|discriminate]. destruct forallb; [|discriminate]. intros H. apply lok_inj in H. auto. }
      destruct v as [| | | | | |s| | | |l|l| | |]; try discriminate; [| |].
      + destruct hex_triple; [|discriminate]. apply K in Hv. congruence.
      + apply (G l eq_refl).
      + apply K in Hv. congruence.
    - destruct Hx as (x & -> & Hc & Hm & Hp). pose proof (date_json_round E x Hc Hp) as K. cbn [date_to_json rbind] in K.
      exists (VStr (date_to_string E x)). split; [reflexivity|]. split.
      { cbn [leaf_from_json]. rewrite K. unfold no_micro. rewrite <- Hm. now destruct x. }
      repeat split; auto; try discriminate; right; eauto.
    - destruct Hx as (x & -> & Hc). pose proof (uuid_json_round x Hc) as K. cbn [uuid_to_json rbind] in K.
      exists (VStr (uuid_str x)). split; [reflexivity|]. split; [exact K|]. repeat split; auto; try discriminate; right; eauto.
  Qed.
End Leaf.
