(** Renamed properties that lead nowhere, and the states of the examples and
    counterexamples of PropertiesLimits.v. *)
From Verif Require Import World WorldSpec WorldFacts WorldExample AccessSpec AccessFacts IdemFacts.
Local Open Scope string_scope.
Local Open Scope list_scope.
Local Open Scope nat_scope.

Section Loop.
  Variables (E : env) (C : ctable) (U : ucode) (l : loc) (w : world) (S : string -> Prop).
  Hypothesis HS : forall a, S a -> exists d b, declares C w l a d /\ pd_kind d = KRenamed b /\ S b.
  Lemma loop_get n : forall a, S a -> exec E C U n (COp (OGet l a)) w = (Exc ExRecursion, w).
  Proof.
    induction n as [|n IH]; intros a Ha; [reflexivity|]. destruct (HS a Ha) as (d & b & H1 & H2 & H3).
    rewrite (renamed_get E C U n l a d b w H1 H2). auto.
  Qed.
  Lemma loop_set n v : forall a, S a -> exec E C U n (COp (OSet l a v)) w = (Exc ExRecursion, w).
  Proof.
    induction n as [|n IH]; intros a Ha; [reflexivity|]. destruct (HS a Ha) as (d & b & H1 & H2 & H3).
    rewrite (renamed_set E C U n l a d b v w H1 H2). auto.
  Qed.
  Lemma loop_del n : forall a, S a -> exec E C U n (COp (ODel l a)) w = (Exc ExRecursion, w).
  Proof.
    induction n as [|n IH]; intros a Ha; [reflexivity|]. destruct (HS a Ha) as (d & b & H1 & H2 & H3).
    rewrite (renamed_del E C U n l a d b w H1 H2). auto.
  Qed.
End Loop.

(** classes Lim and Loop *)
Definition t_choose : ptype := PUnion false [PLeaf (LfChoice true [("AB", ["cd"])]); PLeaf (LfString (SO "" CLower None))].
Definition t_number : ptype := PUnion false [PLeaf (LfInt true None None); PLeaf (LfFloat true None None)].
Definition t_colors : ptype := PDict (PLeaf LfColor) t_x false.
Definition t_points : ptype := PSeq KSet (PInst 0) None None true.
Definition d_to (b : string) : pdecl := PD (KRenamed b) (PLeaf LfAny) true DUndef.
Definition d_of (t : ptype) : pdecl := PD KProp t false DUndef.
Definition c_lim : cls :=
  Cls "Lim" [("u", d_of t_choose); ("n", d_of t_number); ("d", d_of t_colors);
             ("f", d_of (PLeaf (LfFloat false None None))); ("x", d_of t_x)]
      [] [OD (Some ["x"]) MSet (LCb 1)] [CVProps] [0] [].
Definition c_loop : cls := Cls "Loop" [("a", d_to "b"); ("b", d_to "a")] [] [] [CVProps] [1] [].
Definition C8 : ctable := CT [c_lim; c_loop] [("Lim", 0); ("Loop", 1)].
(** callback 1 registers callback 9 for x *)
Definition U8 : ucode := UC
  (fun cb l name prev v m =>
     match cb with
     | 1 => Do (OObserve l (OD (Some ["x"]) MSet (LCb 9))) (fun _ => Ret v)
     | _ => Ret v
     end)
  (fun _ => Ret VNone) (fun _ _ => Ret VNone) (fun _ _ _ => Ret VNone) (fun _ _ => Ret VNone) (fun _ _ => Ret VNone) (fun _ v => Ret v).
Definition w_lim : world := snd (run_prog E1 C8 U8 20
  (Do (ONew 0 (Some [])) (fun _ => Do (ONew 0 (Some [])) (fun _ => Do (ONew 0 (Some [])) (fun _ => Do (ONew 1 (Some [])) finish)))) w_empty).
(** the fourth object is a Loop; three floats, each within 1e-9 of the next *)
Definition w_near : world := snd (run_prog E1 C8 U8 20
  (Do (OSet 0 "f" (VFloat (S754_zero false))) (fun _ => Do (OSet 1 "f" (VFloat TOL)) (fun _ =>
   Do (OSet 2 "f" (VFloat (SFadd prec emax TOL TOL))) finish))) w_lim).
Lemma wf_C8 : wf_ctab C8.
Proof.
  intros [|[|[|k]]] c H; simpl in H; try discriminate; injection H as <-; simpl;
  repeat constructor; simpl; intuition discriminate.
Qed.
Lemma mro_C8 : wf_mro C8.
Proof. intros [|[|[|k]]] c H; simpl in H; try discriminate; injection H as <-; simpl; auto. Qed.
Lemma keep_U8 : validators_keep U8.
Proof. intros [|[|cb]] l n p v; simpl; auto. Qed.
Lemma accepted_near : values_accepted E1 C8 U8 w_near.
Proof.
  apply accepted_program; [exact wf_C8|exact mro_C8|exact keep_U8|].
  apply accepted_program; [exact wf_C8|exact mro_C8|exact keep_U8|].
  intros l name d v (c & (i & H & _) & _). destruct l; discriminate.
Qed.
