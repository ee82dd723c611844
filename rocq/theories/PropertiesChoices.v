(** Property theorems about the dictionary behind StringChoice.choices, [C79]. *)
From Verif Require Import Choices ChoicesSpec ChoicesFacts BasicSpec OptionsSpec.
Local Open Scope string_scope.
Local Open Scope list_scope.
Local Open Scope nat_scope.

(** A property is made exactly if the choices are strings without collisions. *)
Theorem C79_made : forall s cs v,
  length (cs_props (act s (ANew cs v))) = S (length (cs_props s)) <-> exists t, given s v t /\ no_collisions cs t.
Proof. exact made_iff. Qed.
Print Assumptions C79_made.
(** It then has these choices, in the very dictionary that was given. *)
Theorem C79_new : forall s cs v t, given s v t -> no_collisions cs t ->
  exists d, sound (act s (ANew cs v)) (length (cs_props s)) cs d t /\ forall d', v = CvDict d' -> d = d'.
Proof. exact new_sound. Qed.
Print Assumptions C79_new.
Theorem C79_set : forall s p q v t, nth_error (cs_props s) p = Some q -> given s v t -> no_collisions (cp_case q) t ->
  exists d, sound (act s (ASetChoices p v)) p (cp_case q) d t /\ forall d', v = CvDict d' -> d = d'.
Proof. exact set_sound. Qed.
Print Assumptions C79_set.
Theorem C79_refused : forall s p q v, nth_error (cs_props s) p = Some q ->
  (forall t, given s v t -> ~ no_collisions (cp_case q) t) ->
  cs_props (act s (ASetChoices p v)) = cs_props s.
Proof. exact set_refused. Qed.
Print Assumptions C79_refused.
(** An assignment, accepted or not, replaces the values of the caller's dictionary by
    lists, and changes no other dictionary. *)
Theorem C79_rewrites : forall s a v,
  (exists cs, a = ANew cs v) \/ (exists p, a = ASetChoices p v /\ p < length (cs_props s)) ->
  forall d c, nth_error (cs_dicts s) d = Some c ->
  exists c', nth_error (cs_dicts (act s a)) d = Some c' /\ (v = CvDict d -> rewritten c c') /\ (v <> CvDict d -> c' = c).
Proof. exact assignment_rewrites. Qed.
Print Assumptions C79_rewrites.
(** Whatever is done, if not to the dictionary and the options of the property, the
    choices stay the same. *)
Theorem C79_kept : forall l s p cs d t, sound s p cs d t -> Forall (leaves_alone d p) l -> sound (acts l s) p cs d t.
Proof. exact kept. Qed.
Print Assumptions C79_kept.
(** Validation then accepts exactly the names of the choices, and raises nothing else. *)
Theorem C79_validate : forall s p cs d t x, sound s p cs d t ->
  (exists r, validate s p (VStr x) = Ok r) /\
  (forall v, validate s p (VStr x) = Ok (Some v) <-> exists e, In e t /\ names_entry cs x e /\ v = VStr (fst e)).
Proof. exact validate_sound. Qed.
Print Assumptions C79_validate.

(** choices = {'red': 'crimson', 'blue': ('navy', 'azure')} *)
Definition X_dict : content := [(VStr "red", VStr "crimson"); (VStr "blue", VTuple [VStr "navy"; VStr "azure"])].
Definition X_table : table := [("red", ["crimson"]); ("blue", ["navy"; "azure"])].
Definition X_start : cstate := CS [X_dict; [(VStr "a", VList [VStr "A"])]] [].
Definition X_made : cstate := act X_start (ANew false (CvDict 0)).
(** Other properties with the same dictionary, and other dictionaries *)
Definition X_acts : list cact :=
  [ANew true (CvDict 0); ASetItem 1 (VStr "b") (VInt 3); ASetChoices 1 (CvSeq [VStr "x"; VStr "x"]); ASetChoices 1 (CvSeq [VStr "x"]);
   ASetCase 1 false; ADelItem 1 (VStr "a"); ANewDict []].
Lemma X_given : given X_start (CvDict 0) X_table.
Proof.
  exists X_dict. split; [reflexivity|]. right. exists X_dict. split; [reflexivity|].
  constructor; [split; [reflexivity|right; exists "crimson"; auto]|].
  constructor; [split; [reflexivity|left; right; right; reflexivity]|constructor].
Qed.
Lemma X_free : no_collisions false X_table.
Proof. unfold no_collisions. vm_compute. repeat constructor; simpl; intuition discriminate. Qed.
Example C79_ex :
  sound X_made 0 false 0 X_table /\ Forall (leaves_alone 0 0) X_acts /\
  nth_error (cs_dicts X_made) 0 = Some [(VStr "red", VList [VStr "crimson"]); (VStr "blue", VList [VStr "navy"; VStr "azure"])] /\
  validate X_made 0 (VStr "NAVY") = Ok (Some (VStr "blue")) /\ validate (acts X_acts X_made) 0 (VStr "Crimson") = Ok (Some (VStr "red")) /\
  validate (acts X_acts X_made) 0 (VStr "green") = Ok None /\
  cs_props (acts X_acts X_made) = [CP false 0; CP false 2] /\
  cs_dicts (acts X_acts X_made) = [map (fun e => (VStr (fst e), VList (map VStr (snd e)))) X_table; [(VStr "b", VInt 3)]; [(VStr "x", VList [])]; []].
Proof.
  split; [destruct (C79_new X_start false (CvDict 0) X_table X_given X_free) as (d & S & W); rewrite (W 0 eq_refl) in S; exact S|].
  split; [repeat constructor; discriminate|]. repeat split; vm_compute; reflexivity.
Qed.
Example C79_refused_ex : nth_error (cs_props X_made) 0 = Some (CP false 0) /\
  (forall t, given X_made (CvSeq [VStr "a"; VStr "A"]) t -> ~ no_collisions false t).
Proof.
  split; [reflexivity|]. intros t G N. cbn [given] in G. apply seq_gives in G.
  inversion G as [|? e1 ? ? [H1 H2] G1]; subst. inversion G1 as [|? e2 ? ? [H3 H4] G2]; subst. inversion G2; subst.
  destruct e1 as [k1 [|]], e2 as [k2 [|]]; try discriminate. cbn in H1, H3. injection H1 as <-. injection H3 as <-.
  unfold no_collisions in N. cbn in N. inversion N as [|? ? N1 _]. apply N1. now left.
Qed.
(** The caller who keeps the dictionary can put into it what the setter refuses: a
    string then names another choice, or validation raises AttributeError. *)
Theorem C79_shared_refuted : exists s a b x,
  validate s 0 (VStr x) = Ok (Some (VStr "red")) /\
  (exists p d t, sound s p false d t) /\
  validate (act s a) 0 (VStr x) = Ok (Some (VStr "pink")) /\
  validate (act s b) 0 (VStr "green") = Exc ExAttr.
Proof.
  exists (act (CS [[(VStr "pink", VList []); (VStr "red", VList [VStr "crimson"])]] []) (ANew false (CvDict 0))),
    (ASetItem 0 (VStr "pink") (VList [VStr "CRIMSON"])), (ASetItem 0 (VInt 1) (VList [])), "crimson".
  split; [vm_compute; reflexivity|]. split; [|split; vm_compute; reflexivity].
  destruct (C79_new (CS [[(VStr "pink", VList []); (VStr "red", VList [VStr "crimson"])]] []) false (CvDict 0)
              [("pink", []); ("red", ["crimson"])]) as (d & S & _).
  - eexists. split; [reflexivity|]. right. eexists. split; [reflexivity|].
    constructor; [split; [reflexivity|left; right; left; reflexivity]|].
    constructor; [split; [reflexivity|left; right; left; reflexivity]|constructor].
  - unfold no_collisions. vm_compute. repeat constructor; simpl; intuition discriminate.
  - eauto.
Qed.
Print Assumptions C79_shared_refuted.
(** Choices that are refused change the caller's dictionary. *)
Theorem C79_refused_refuted : exists s cs d c, nth_error (cs_dicts s) d = Some c /\
  cs_props (act s (ANew cs (CvDict d))) = cs_props s /\ nth_error (cs_dicts (act s (ANew cs (CvDict d)))) d <> Some c.
Proof.
  exists (CS [[(VStr "a", VStr "b"); (VStr "b", VInt 5)]] []), true, 0. eexists. split; [reflexivity|]. split; [reflexivity|]. discriminate.
Qed.
Print Assumptions C79_refused_refuted.
