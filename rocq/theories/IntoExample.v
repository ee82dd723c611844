(** A concrete class table for the theorems about deserializing into an existing
    instance. *)
From Verif Require Import World WorldSpec WorldFacts WorldExample WorldExampleFacts DeserSpec DeserInto IntoSpec.
Local Open Scope string_scope.
Local Open Scope list_scope.
Local Open Scope nat_scope.

Definition d_any : pdecl := PD KGettable (PLeaf LfAny) true DUndef.
(** class Base: x is observed, u is a GettableProperty *)
Definition c_ibase : cls := Cls "Base" [("x", d_x); ("tag", d_tag); ("u", d_any)] [] [OD (Some ["x"]) MChange (LCb 1)] [CVProps] [0] [].
(** class Sub(Base): u is a Uuid *)
Definition c_isub : cls := Cls "Sub" [("x", d_x); ("tag", d_tag); ("u", d_u)] [] [OD (Some ["x"]) MChange (LCb 1)] [CVProps] [1; 0] [].
(** class Near(Base): one more property, which is required *)
Definition c_inear : cls := Cls "Near" [("x", d_x); ("tag", d_tag); ("u", d_any); ("more", PD KProp t_str true DUndef)] [] [] [CVProps] [2; 0] [].
(** another class *)
Definition c_alien : cls := Cls "Alien" [("x", d_x)] [] [] [CVProps] [3] [].
Definition C_in : ctable := CT [c_ibase; c_isub; c_inear; c_alien] [("Base", 0); ("Sub", 1); ("Near", 2); ("Alien", 3)].
(** one instance of each class, at locations 0 to 3 *)
Definition w_four : world := snd (run_prog E1 C_in U2 20
  (Do (ONew 0 (Some [])) (fun _ => Do (ONew 1 (Some [])) (fun _ => Do (ONew 2 (Some [])) (fun _ => Do (ONew 3 (Some [])) finish)))) w_empty).
Definition o_plain : dopt := DOpt false false false.
Definition j_good : list (val * val) := [(VStr "x", VInt 5); (VStr "tag", VStr "t"); (VStr "u", VInt 9)].
(** tag is wrong *)
Definition j_half : list (val * val) := [(VStr "x", VInt 5); (VStr "tag", VInt 1)].

Lemma wf_C_in : wf_ctab C_in.
Proof. intros [|[|[|[|[|k]]]]] c H; simpl in H; try discriminate; injection H as <-; simpl; repeat constructor; simpl; intuition discriminate. Qed.
Lemma mro_C_in : wf_mro C_in.
Proof. intros [|[|[|[|[|k]]]]] c H; simpl in H; try discriminate; injection H as <-; simpl; tauto. Qed.
Lemma typed_four : well_typed C_in w_four.
Proof. apply typed_program; [exact wf_C_in|exact mro_C_in|exact keep_U2|apply typed_empty]. Qed.
(** Base.u and Near.u are declared alike *)
Lemma near_same : same_unset c_ibase c_inear.
Proof.
  intros name d Hd Hk _. cbn in Hd. unfold c_inear. cbn [c_props dget].
  repeat match goal with
  | H : context [String.eqb ?a ?b] |- _ => destruct (String.eqb a b); cbn in *
  | H : context [if ?b then _ else _] |- _ => destruct b; cbn in *
  end; try congruence; injection Hd as <-; now destruct Hk.
Qed.
