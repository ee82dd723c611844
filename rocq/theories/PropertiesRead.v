(** Property theorems about operations that only read, [C81]. *)
From Verif Require Import World WorldSpec WorldExample DeserExample ReadSpec ReadFacts.
Local Open Scope string_scope.
Local Open Scope list_scope.
Local Open Scope nat_scope.

(** Reading attributes, serializing and comparing, of any graph of instances and at any
    depth, changes nothing and calls no listener, if no Union has alternatives with
    HasProperties classes and the getters of dynamic properties only read: only error
    hooks may be called, by dynamic properties with invalid values. *)
Theorem C81_reads : forall E C U, harmless C U -> forall n o w r w', reading o ->
  exec E C U n (COp o) w = (r, w') -> hooks_only w w'.
Proof. exact reads_hooks_only. Qed.
Print Assumptions C81_reads.
(** Without dynamic properties not even these. *)
Theorem C81_unchanged : forall E C U, harmless C U -> no_dynamic C -> forall n o w r w', reading o ->
  exec E C U n (COp o) w = (r, w') -> unchanged w w'.
Proof. exact reads_unchanged. Qed.
Print Assumptions C81_unchanged.

(** Pt has a dynamic property that reads x, an old name of x and a list of Pts. *)
Lemma X_harmless : harmless C1 U1.
Proof.
  intros c name d [<-|[]] H. cbn [c_props c_pt In] in H.
  destruct H as [H|[H|[H|[H|[H|[H|[]]]]]]]; injection H as <- <-; (split; [cbn; auto|intros g st dl Hk]); try discriminate Hk.
  split; [intros l; constructor; [exact I|intros [v|e]; constructor]|exact I].
Qed.
(** two instances: the second holds the first *)
Definition X : world := snd (run_prog E1 C1 U1 30 (Do (ONew 0 (Some [("tag", VStr "a")])) (fun _ =>
  Do (ONew 0 (Some [("x", VInt 4); ("kids", VList [VInst 0])])) finish)) w_empty).
Example C81_reads_ex : harmless C1 U1 /\
  fst (exec E1 C1 U1 20 (COp (OSer 1 (SOpt false true))) X) =
    Ok (VDict [(VStr "x", VInt 4); (VStr "tag", VStr "changed"); (VStr "u", VStr "00000000-0000-0000-0000-000000000007");
               (VStr "kids", VList [VDict [(VStr "x", VInt 3); (VStr "tag", VStr "a");
                 (VStr "u", VStr "00000000-0000-0000-0000-000000000007"); (VStr "old", VInt 3); (VStr "sum", VInt 3)]]);
               (VStr "old", VInt 4); (VStr "sum", VInt 4)]) /\
  fst (exec E1 C1 U1 20 (COp (OGet 1 "sum")) X) = Ok (VInt 4) /\
  fst (exec E1 C1 U1 20 (COp (OEqual (VInst 0) (VInst 1))) X) = Ok (VBool false).
Proof. split; [exact X_harmless|]. repeat split; vm_compute; reflexivity. Qed.

(** class A observes x; class B has a list of As and a Union of strings and integers;
    class D has a Union of A and dictionaries *)
Definition c_a : cls := Cls "A" [("x", PD KProp t_x false DUndef); ("y", PD KProp t_x false DUndef)] []
  [OD (Some ["x"]) MSet (LCb 0)] [CVProps] [0] [].
Definition c_b : cls := Cls "B" [("as_", PD KProp (PSeq KList (PInst 0) None None false) false DUndef);
  ("u", PD KProp (PUnion true [t_str; t_x]) false DUndef)] [] [] [CVProps] [1] [].
Definition c_d : cls := Cls "D" [("u", PD KProp (PUnion false [PInst 0; PDict t_str (PLeaf LfAny) false]) false DUndef)]
  [] [] [CVProps] [2] [].
Definition C81 : ctable := CT [c_a; c_b] [("A", 0); ("B", 1)].
Lemma Y_harmless : harmless C81 U7 /\ no_dynamic C81.
Proof.
  split.
  - intros c name d Hc H. cbn [C81 ct_cls In] in Hc. destruct Hc as [<-|[<-|[]]]; cbn [c_props c_a c_b In] in H;
      destruct H as [[= <- <-]|[[= <- <-]|[]]]; (split; [cbn; auto|intros g st dl Hk; discriminate]).
  - intros c name d g st dl Hc H. cbn [C81 ct_cls In] in Hc. destruct Hc as [<-|[<-|[]]]; cbn [c_props c_a c_b In] in H;
      destruct H as [[= <- <-]|[[= <- <-]|[]]]; discriminate.
Qed.
Definition Y : world := snd (run_prog E1 C81 U7 30 (Do (ONew 0 (Some [("x", VInt 1)])) (fun _ =>
  Do (ONew 1 (Some [("as_", VList [VInst 0; VInst 0]); ("u", VInt 5)])) finish)) w_empty).
Example C81_unchanged_ex : harmless C81 U7 /\ no_dynamic C81 /\
  fst (exec E1 C81 U7 20 (COp (OSer 1 (SOpt true false))) Y) =
    Ok (VDict [(VStr "as_", VList [VDict [(VStr "x", VInt 1); (VStr "__class__", VStr "A")];
                                   VDict [(VStr "x", VInt 1); (VStr "__class__", VStr "A")]]);
               (VStr "u", VInt 5); (VStr "__class__", VStr "B")]) /\
  fst (exec E1 C81 U7 20 (COp (OEqual (VInst 1) (VInst 1))) Y) = Ok (VBool true).
Proof. split; [apply Y_harmless|]. split; [apply Y_harmless|]. split; vm_compute; reflexivity. Qed.

(** Not for other Unions: the dictionary is refused by A, since y is no integer, and
    stored as it is. Serializing tries A again: an A is made, its x is set, its
    listener is called with it. *)
Theorem C81_union_refuted : exists w r w' l,
  exec E1 (CT [c_a; c_b; c_d] [("A", 0); ("B", 1); ("D", 2)]) U7 20
    (COp (ONew 2 (Some [("u", VDict [(VStr "x", VInt 1); (VStr "y", VStr "bad")])]))) w_empty = (Ok (VInst 0), w) /\
  exec E1 (CT [c_a; c_b; c_d] [("A", 0); ("B", 1); ("D", 2)]) U7 20 (COp (OSer 0 (SOpt false false))) w = (Ok r, w') /\
  r = VDict [(VStr "u", VDict [(VStr "x", VInt 1); (VStr "y", VStr "bad")])] /\
  List.length (w_heap w') = S (List.length (w_heap w)) /\
  l = List.length (w_heap w) /\
  exists t, In (ECall t l "x" MSet (LCb 0) VUndef (VInt 1)) (w_trace w') /\
            ~ In (ECall t l "x" MSet (LCb 0) VUndef (VInt 1)) (w_trace w).
Proof.
  do 4 eexists. split; [vm_compute; reflexivity|]. split; [vm_compute; reflexivity|].
  split; [reflexivity|]. split; [reflexivity|]. split; [reflexivity|].
  eexists. split; [cbn; repeat (try (left; reflexivity); right)|]. cbn. intuition discriminate.
Qed.
Print Assumptions C81_union_refuted.
