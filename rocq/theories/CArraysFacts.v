(** Lemmas behind the theorems on complex arrays. *)
From Verif Require Import CArrays CArraysSpec Contents ContentsSpec ContentsFacts BasicSpec.
Local Open Scope string_scope.
Local Open Scope list_scope.
Local Open Scope nat_scope.

Definition c_json (E : env) (c : float * float) : val :=
  if is_special (fst c) || is_special (snd c) then VStr (e_cstr E (fst c) (snd c)) else c_val c.
Lemma c_tolist_tree sh d : c_tolist sh d = tree c_val sh d.
Proof. revert d. induction sh as [|n r IH]; intros d; cbn; auto. f_equal. apply map_ext. auto. Qed.
Lemma c_json_flat E c l : c_json E c <> VList l.
Proof. unfold c_json. destruct (_ || _); discriminate. Qed.
Lemma special_unusual c : is_special (fst c) || is_special (snd c) = true <-> unusual c.
Proof.
  unfold unusual, is_fin. fold (is_special (fst c)). fold (is_special (snd c)). rewrite orb_true_iff.
  destruct (is_special (fst c)), (is_special (snd c)); cbn; intuition discriminate.
Qed.
Lemma c_json_written E c : c_written E c (c_json E c).
Proof.
  destruct c as [re im]. unfold c_json. cbn [fst snd].
  pose proof (special_unusual (re, im)) as S. cbn [fst snd] in S.
  destruct (is_special re || is_special im); constructor; intuition discriminate.
Qed.
Lemma c_json_tree E sh d : length d = size sh -> listable sh ->
  c_recurse E (tree c_val sh d) = Ok (tree (c_json E) sh d).
Proof.
  intros L K. revert d L K. induction sh as [|n r IH]; intros d L K; [destruct (listable_nil K)|].
  apply listable_cons in K. destruct K as [->|[K K']].
  - assert (length d = n) as Ln by (cbn in L; lia). rewrite !tree_one by auto. cbn [c_recurse].
    assert (match map c_val d with VList _ :: _ => map (c_recurse E) (map c_val d) | _ => map (c_number_json E) (map c_val d) end
            = map (c_number_json E) (map c_val d)) as -> by (destruct d; auto).
    rewrite map_map, (all_ok_map _ (c_json E)); auto.
  - cbn in L. change (fold_right Nat.mul 1 r) with (size r) in L.
    cbn [tree c_recurse].
    assert (match map (tree c_val r) (rows n (size r) d) with
            | VList _ :: _ => map (c_recurse E) (map (tree c_val r) (rows n (size r) d))
            | _ => map (c_number_json E) (map (tree c_val r) (rows n (size r) d)) end
            = map (c_recurse E) (map (tree c_val r) (rows n (size r) d))) as ->.
    { destruct n; [congruence|]. cbn [rows map]. destruct r; [destruct (listable_nil K')|]. cbn [tree]. auto. }
    rewrite map_map, (all_ok_map _ (tree (c_json E) r)); auto.
    intros x I. pose proof (rows_each n (size r) d L) as R. rewrite Forall_forall in R. apply IH; auto.
Qed.
Lemma tree_nested {A} (f : A -> val) sh d : length d = size sh -> listable sh -> (forall e l, f e <> VList l) ->
  nested sh (tree f sh d) (map f d).
Proof.
  intros L K N. apply nested_shape. split; [apply tree_shape; auto|apply tree_items; auto].
Qed.
Lemma plain_items v : plain_json v -> Forall plain_json (np_items v).
Proof.
  revert v. fix IH 2. intros v H. destruct H as [| | | |l Hl]; cbn [np_items];
    try (constructor; [constructor; assumption|constructor]).
  induction Hl as [|x r Hx Hr IHr]; [constructor|]. cbn [flat_map]. apply Forall_app. split; [apply IH; exact Hx|exact IHr].
Qed.
Theorem c_to_json_spec E a : c_wf a -> listable (c_shape a) ->
  exists j items, c_to_json E a = Ok j /\ nested (c_shape a) j items /\ Forall2 (c_written E) (c_data a) items /\
    (plain_json j <-> forall c, In c (c_data a) -> unusual c).
Proof.
  intros W K. unfold c_to_json. rewrite c_tolist_tree, c_json_tree by auto.
  exists (tree (c_json E) (c_shape a) (c_data a)), (map (c_json E) (c_data a)). split; [reflexivity|].
  split; [apply tree_nested; auto using c_json_flat|]. split.
  { induction (c_data a); constructor; auto. apply c_json_written. }
  split.
  - intros P c I. apply plain_items in P. rewrite tree_items in P; auto using c_json_flat.
    rewrite Forall_forall in P. specialize (P (c_json E c) (in_map _ _ _ I)).
    apply special_unusual. unfold c_json in P. destruct (is_special (fst c) || is_special (snd c)); auto. inversion P.
  - intros S. apply tree_json; auto. intros c I. apply S in I. apply special_unusual in I. unfold c_json. rewrite I. constructor.
Qed.
Theorem c_round_trip E fstr istr a o r : c_wf a -> listable (c_shape a) -> dtype_opt KArray o = DComplex :: r -> reads_complex E a ->
  exists j, c_to_json E a = Ok j /\ c_deserialize E fstr istr o j = Ok (Some a).
Proof.
  intros W K O R. unfold c_to_json. rewrite c_tolist_tree, c_json_tree by auto. eexists. split; [reflexivity|].
  unfold c_deserialize. rewrite O.
  assert (is_none (tree (c_json E) (c_shape a) (c_data a)) = false) as ->.
  { destruct (c_shape a); [destruct (listable_nil K)|reflexivity]. }
  rewrite tree_shape; auto using c_json_flat. rewrite tree_items; auto using c_json_flat. unfold c_items.
  destruct (existsb is_str (map (c_json E) (c_data a))) eqn:S.
  - rewrite map_map, (all_ok_map _ (fun c => e_cstr E (fst c) (snd c))).
    2: { intros [re im] _. unfold c_json. cbn [fst snd]. destruct (_ || _); reflexivity. }
    cbn [rbind]. rewrite map_map, (all_ok_map _ (fun c => c)).
    2: { intros [re im] I. cbn [fst snd]. rewrite (R re im I). reflexivity. }
    cbn [rbind]. rewrite map_id. destruct a; reflexivity.
  - rewrite map_map, (all_ok_map _ (fun c => c)).
    2: { intros [re im] I. unfold c_json. cbn [fst snd]. destruct (is_special re || is_special im) eqn:Q; [|reflexivity].
         assert (existsb is_str (map (c_json E) (c_data a)) = true); [|congruence].
         apply existsb_exists. exists (c_json E (re, im)). split; [apply in_map; exact I|]. unfold c_json. cbn [fst snd]. rewrite Q. reflexivity. }
    cbn [rbind]. rewrite map_id. destruct a; reflexivity.
Qed.

Theorem c_finite_not_json E a c : c_wf a -> listable (c_shape a) -> In c (c_data a) -> ~ unusual c ->
  exists j, c_to_json E a = Ok j /\ ~ plain_json j.
Proof.
  intros W K I U. destruct (c_to_json_spec E a W K) as (j & items & J & _ & _ & P). exists j. split; auto.
  intros Q. apply U, (proj1 P Q), I.
Qed.
