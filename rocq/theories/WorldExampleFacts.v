(** Facts about the example states. *)
From Verif Require Import World WorldSpec WorldFacts WorldExample.
Local Open Scope string_scope.
Local Open Scope list_scope.
Local Open Scope nat_scope.

Lemma keep_U2 : validators_keep U2.
Proof.
  intros [|[|cb]] l n p v; simpl; auto.
  repeat (match goal with |- context [match ?x with _ => _ end] => destruct x end; simpl; auto).
Qed.
Lemma typed_empty C : well_typed C w_empty.
Proof. intros l name d v (c & (i & Hi & _) & _). destruct l; discriminate. Qed.
Lemma typed_one : well_typed C1 w_one.
Proof.
  assert (H : w_one = snd (run_prog E1 C1 U2 20 (Do (ONew 0 (Some [])) finish) w_empty)) by (vm_compute; reflexivity).
  rewrite H. apply typed_program; [exact wf_C1|exact mro_C1|exact keep_U2|apply typed_empty].
Qed.
Lemma declares_one name d : dget (c_props c_pt) name = Some d -> declares C1 w_one 0 name d.
Proof. intros H. exists c_pt. split; [eexists; split; reflexivity|exact H]. Qed.
