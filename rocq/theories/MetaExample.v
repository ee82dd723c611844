(** Concrete class statements used by the examples and refutations of
    PropertiesMeta.v. *)
From Verif Require Import World WorldSpec WorldExample AccessSpec Meta MetaSpec.
Local Open Scope string_scope.
Local Open Scope list_scope.
Local Open Scope nat_scope.

(** run the class statement; a failing one leaves the table as it is *)
Definition stmt (T : list mcls) (b : cbody) : list mcls :=
  match fst (create E1 U1 [] 20 T b w_empty) with Ok c => T ++ [c] | Exc _ => T end.
Definition run_stmts (bs : list cbody) : list mcls := fold_left stmt bs [].

Lemma built_stmt T b : built E1 U1 [] T -> wf_body T b -> built E1 U1 [] (stmt T b).
Proof.
  intros H1 H2. unfold stmt. destruct (create E1 U1 [] 20 T b w_empty) as [[c|e] w] eqn:Ec; [|exact H1]. simpl.
  econstructor; eauto.
Qed.
(** a check for [wf_body] *)
Fixpoint distinct {A} (eqb : A -> A -> bool) (l : list A) : bool :=
  match l with [] => true | x :: r => negb (existsb (eqb x) r) && distinct eqb r end.
Definition wf_bodyb (T : list mcls) (b : cbody) : bool :=
  distinct String.eqb (dkeys (b_dict b)) && distinct Nat.eqb (b_bases b) &&
  forallb (fun k => k <? length T) (b_bases b) &&
  match b_defaults b with Some d => distinct String.eqb (dkeys d) | None => true end.
Fixpoint stmts_ok (T : list mcls) (bs : list cbody) : bool :=
  match bs with [] => true | b :: r => wf_bodyb T b && stmts_ok (stmt T b) r end.
Lemma distinct_ok {A} (eqb : A -> A -> bool) (H : forall x y, eqb x y = true <-> x = y) l : distinct eqb l = true -> NoDup l.
Proof.
  induction l as [|x l IH]; simpl; [constructor|]. intros K. apply andb_prop in K as [K1 K2]. constructor; auto.
  intros Hin. apply negb_true_iff in K1. assert (existsb (eqb x) l = true); [|congruence].
  apply existsb_exists. exists x. split; auto. now apply H.
Qed.
Lemma wf_bodyb_ok T b : wf_bodyb T b = true -> wf_body T b.
Proof.
  unfold wf_bodyb. intros H. apply andb_prop in H as [H H4]. apply andb_prop in H as [H H3]. apply andb_prop in H as [H1 H2].
  split; [apply (distinct_ok _ String.eqb_eq); auto|]. split; [apply (distinct_ok _ Nat.eqb_eq); auto|]. split.
  - apply Forall_forall. intros k Hk. rewrite forallb_forall in H3. apply Nat.ltb_lt. auto.
  - destruct (b_defaults b); auto. apply (distinct_ok _ String.eqb_eq); auto.
Qed.
Lemma run_built bs : forall T, built E1 U1 [] T -> stmts_ok T bs = true -> built E1 U1 [] (fold_left stmt bs T).
Proof.
  induction bs as [|b bs IH]; intros T HT H; [exact HT|]. simpl in *. apply andb_prop in H as [H1 H2].
  apply IH; auto. apply built_stmt; auto. now apply wf_bodyb_ok.
Qed.
Lemma built_by bs T : stmts_ok [] bs = true -> fold_left stmt bs [] = T -> built E1 U1 [] T.
Proof. intros H <-. apply run_built; auto. constructor. Qed.

Definition prop_int : member := MProp (PD KProp (PLeaf (LfInt false None None)) true DUndef).
Definition prop_str : member := MProp (PD KProp t_str true DUndef).
Definition b_hp : cbody := Body "HasProperties" [] true [("_validate_props", MCval CVProps)] (Some []).

(** one chain: A, B(A), C(B) *)
Definition b_chain : list cbody :=
  [b_hp;
   Body "A" [0] false [("x", prop_int); ("old", MProp (PD (KRenamed "x") (PLeaf LfAny) true DUndef));
                       ("on_x", MObs (OD (Some ["x"]) MChange (LCb 5)))] (Some [("x", DVal (VInt 5))]);
   Body "B" [1] false [("y", prop_str); ("on_x", MObs (OD (Some ["x"; "y"]) MSet (LCb 6)))] (Some [("y", DVal (VStr "b"))]);
   Body "C" [2] false [("y", prop_int); ("all", MObs (OD None MValidate (LCb 7)))] (Some [("x", DVal (VInt 6)); ("y", DVal (VInt 1))])].
Definition T_chain : list mcls := Eval vm_compute in run_stmts b_chain.

(** two bases: A, B, C(A, B) *)
Definition b_pair : list cbody :=
  [b_hp; Body "A" [0] false [("x", prop_int)] None; Body "B" [0] false [("x", prop_str); ("y", prop_str)] None;
   Body "C" [1; 2] false [("z", prop_int)] None].
Definition T_pair : list mcls := Eval vm_compute in run_stmts b_pair.

(** class D: x; class E: x; class F; class C(D, F); class B(D, E); class A(B, C) *)
Definition b_order : list cbody :=
  [b_hp; Body "D" [0] false [("x", prop_int)] None; Body "E" [0] false [("x", prop_str)] None; Body "F" [0] false [] None;
   Body "C" [1; 3] false [] None; Body "B" [1; 2] false [] None; Body "A" [5; 4] false [] None].
Definition T_order : list mcls := Eval vm_compute in run_stmts b_order.

(** class A: x; class B(A): x = None; class C(A); class D(B, C) *)
Definition b_diamond : list cbody :=
  [b_hp; Body "A" [0] false [("x", prop_int)] None; Body "B" [1] false [("x", MOther)] None; Body "C" [1] false [] None;
   Body "D" [2; 3] false [] None].
Definition T_diamond : list mcls := Eval vm_compute in run_stmts b_diamond.

(** class M: x = None (plain); class A: x; class B(M, A) *)
Definition b_mixin : list cbody :=
  [b_hp; Body "M" [] false [("x", MOther)] None; Body "A" [0] false [("x", prop_int)] None; Body "B" [1; 2] false [] None].
Definition T_mixin : list mcls := Eval vm_compute in run_stmts b_mixin.

(** class Base: k, default 1; class P1(Base); class P2(Base), default 2; class D(P1, P2) *)
Definition b_def : list cbody :=
  [b_hp; Body "Base" [0] false [("k", prop_int)] (Some [("k", DVal (VInt 1))]); Body "P1" [1] false [] None;
   Body "P2" [1] false [] (Some [("k", DVal (VInt 2))]); Body "D" [2; 3] false [] None].
Definition T_def : list mcls := Eval vm_compute in run_stmts b_def.

(** class A: x, old = Renamed('x'), an observer of x; class B(A): x = None *)
Definition b_dangling : list cbody :=
  [b_hp;
   Body "A" [0] false [("x", prop_int); ("old", MProp (PD (KRenamed "x") (PLeaf LfAny) true DUndef));
                       ("on_x", MObs (OD (Some ["x"]) MChange (LCb 5)))] None;
   Body "B" [1] false [("x", MOther)] None].
Definition T_dangling : list mcls := Eval vm_compute in run_stmts b_dangling.

Lemma built_chain : built E1 U1 [] T_chain.
Proof. apply (built_by b_chain); vm_compute; reflexivity. Qed.
Lemma built_pair : built E1 U1 [] T_pair.
Proof. apply (built_by b_pair); vm_compute; reflexivity. Qed.
Lemma built_order : built E1 U1 [] T_order.
Proof. apply (built_by b_order); vm_compute; reflexivity. Qed.
Lemma built_diamond : built E1 U1 [] T_diamond.
Proof. apply (built_by b_diamond); vm_compute; reflexivity. Qed.
Lemma built_mixin : built E1 U1 [] T_mixin.
Proof. apply (built_by b_mixin); vm_compute; reflexivity. Qed.
Lemma built_def : built E1 U1 [] T_def.
Proof. apply (built_by b_def); vm_compute; reflexivity. Qed.
Lemma built_dangling : built E1 U1 [] T_dangling.
Proof. apply (built_by b_dangling); vm_compute; reflexivity. Qed.
