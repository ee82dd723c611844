(** A concrete class table, user code and object graphs for the examples beside
    the graph theorems. *)
From Verif Require Import World WorldSpec AccessSpec WorldExample GraphSpec GraphHelp.
Local Open Scope string_scope.
Local Open Scope list_scope.
Local Open Scope nat_scope.

Definition t_node : ptype := PInst 0.
Definition t_kids : ptype := PSeq KList t_node (Some 0) (Some 2) false.
(** class Node: a required integer with a default, at most two children, a next
    node, a renamed and a computed property *)
Definition c_node : cls :=
  Cls "Node" [("x", PD KProp t_x true (DVal (VInt 3))); ("kids", PD KProp t_kids false DUndef);
              ("next", PD KProp t_node false DUndef); ("old", PD (KRenamed "x") (PLeaf LfAny) true DUndef);
              ("sum", PD (KDynamic 0 None None) t_x true DUndef)]
      [] [OD (Some ["x"]) MValidate (LCb 0)] [CVProps; CVUser 0] [0] [].
(** class Loose: a property that takes a node or anything else *)
Definition c_loose : cls :=
  Cls "Loose" [("any", PD KProp (PUnion false [t_node; PLeaf LfAny]) false DUndef)] [] [] [CVProps] [1] [].
Definition C3 : ctable := CT [c_node] [("Node", 0)].
Definition C4 : ctable := CT [c_node; c_loose] [("Node", 0); ("Loose", 1)].
(** the validator rejects 5, the class validator refuses 9, the computed property is x *)
Definition U3 : ucode := UC
  (fun cb l name prev v m => match cb, v with
                             | 0, VInt 5 => Raise ExValue
                             | _, _ => Ret v
                             end)
  (fun _ => Ret VNone)
  (fun _ l => Do (OGet l "x") (fun r => match r with Ok (VInt z) => Ret (VInt z) | Ok _ => Ret VNone | Exc e => Raise ExValue end))
  (fun _ _ _ => Ret VNone) (fun _ _ => Ret VNone)
  (fun _ l => Do (OGet l "x") (fun r => match r with Ok (VInt 9) => Ret (VBool false) | _ => Ret VNone end))
  (fun _ v => Ret v).

Fixpoint doing (os : list op) : prog := match os with [] => Ret VNone | o :: r => Do o (fun _ => doing r) end.
Definition after (C : ctable) (os : list op) : world := snd (run_prog E1 C U3 30 (doing os) w_empty).
(** nodes 0 and 1 refer to each other, 0 has the children 2 and 2 *)
Definition os_ring : list op :=
  [ONew 0 (Some []); ONew 0 (Some []); ONew 0 (Some [("x", VInt 7)]);
   OSet 0 "next" (VInst 1); OSet 1 "next" (VInst 0); OSet 0 "kids" (VList [VInst 2; VInst 2])].
Definition w_ring : world := after C3 os_ring.
(** without the way back: no cycle, and 2 is shared *)
Definition w_tree : world := after C3
  [ONew 0 (Some []); ONew 0 (Some []); ONew 0 (Some [("x", VInt 7)]);
   OSet 0 "next" (VInst 1); OSet 1 "next" (VInst 2); OSet 0 "kids" (VList [VInst 2; VInst 2])].
(** then the shared child loses its integer; or gets the value 9 *)
Definition w_hole : world := after C3 (os_ring ++ [ODel 2 "x"]).
Definition w_nine : world := after C3 (os_ring ++ [OSet 2 "x" (VInt 9)]).
(** three children are one too many *)
Definition w_many : world := after C3 (os_ring ++ [OSet 1 "kids" (VList [VInst 2; VInst 2; VInst 2])]).
(** node 0 without its integer, inside a Loose *)
Definition w_loose : world := after C4 [ONew 0 (Some []); ODel 0 "x"; ONew 1 (Some [("any", VInst 0)])].

(** 0 and 1 are equal, with different but equal nodes 2 and 3 below them *)
Definition w_twins : world := after C3
  [ONew 0 (Some []); ONew 0 (Some []); ONew 0 (Some [("x", VInt 7)]); ONew 0 (Some [("x", VInt 7)]); ONew 0 (Some [("x", VInt 8)]);
   OSet 0 "next" (VInst 2); OSet 1 "next" (VInst 3); OSet 0 "kids" (VList [VInst 2; VInst 2]); OSet 1 "kids" (VList [VInst 3; VInst 2])].
(** the next node of both is 0 *)
Definition w_knot : world := after C3
  [ONew 0 (Some []); ONew 0 (Some []); OSet 0 "next" (VInst 0); OSet 1 "next" (VInst 0)].

Lemma wf_C4 : wf_ctab C4.
Proof.
  intros [|[|[|k]]] c H; simpl in H; try discriminate; injection H as <-; simpl; repeat constructor; simpl; intuition discriminate.
Qed.
Lemma wf_C3 : wf_ctab C3.
Proof. intros [|k] c H; [|destruct k; discriminate]. exact (wf_C4 0 c H). Qed.
Lemma spare_C4 cid : spare E1 C4 U3 cid.
Proof.
  apply spare_easy; [exact wf_C4|]. intros [|[|[|k]]] c name d H; simpl in H; try discriminate; injection H as <-; cbn [c_props c_node c_loose In].
  - intros [K|[K|[K|[K|[K|[]]]]]]; injection K as <- <-; try (left; reflexivity).
    right. exists (VInt 3), (LfInt false (Some (NZ 0)) (Some (NZ 10))). repeat split; try discriminate.
    intros r. exists (VInt 3). split; [reflexivity|discriminate].
  - intros [K|[]]; injection K as <- <-. left. reflexivity.
Qed.
Lemma spare_C3 cid : spare E1 C3 U3 cid.
Proof.
  apply spare_easy; [exact wf_C3|]. intros [|[|k]] c name d H; simpl in H; try discriminate; injection H as <-; cbn [c_props c_node In].
  intros [K|[K|[K|[K|[K|[]]]]]]; injection K as <- <-; try (left; reflexivity).
  right. exists (VInt 3), (LfInt false (Some (NZ 0)) (Some (NZ 10))). repeat split; try discriminate.
  intros r. exists (VInt 3). split; [reflexivity|discriminate].
Qed.
Definition same_lst (w : world) : bool :=
  forallb (fun i => forallb (fun x => match l_func x with LCb 0 => true | _ => false end) (i_lst i)) (w_heap w).
Lemma plain_x C : C = C3 \/ C = C4 -> plain_name C "x".
Proof.
  intros [-> | ->] [|[|[|k]]] c d H K; simpl in H; try discriminate; injection H as <-; vm_compute in K; try discriminate; injection K as <-; auto.
Qed.
Lemma settled_U3 C w : C = C3 \/ C = C4 -> (forall cid, spare E1 C U3 cid) -> datab C w = true -> same_lst w = true -> settled E1 C U3 w.
Proof.
  intros HC Sp D L. apply settled_intro; auto.
  - intros cid c name d g s x l Hc Hd Hk Hl.
    assert (Ht : pd_type d = t_x).
    { destruct HC as [-> | ->]; destruct cid as [|[|[|cid]]]; simpl in Hc; try discriminate; injection Hc as <-; apply dget_in in Hd;
        cbn [c_props c_node c_loose In] in Hd; repeat (destruct Hd as [Hd|Hd]; [injection Hd as <- <-; try discriminate; reflexivity|]); contradiction. }
    rewrite Ht. cbn [u_get U3 reader]. split; [exists l, "x"; repeat split; auto; now apply plain_x|].
    intros [v|e] _; [|discriminate]. destruct v; cbn [reader below]; split; auto; intros r r'; reflexivity.
  - intros l i x Hi Hx Hm. exists 0. split.
    + apply nth_error_In in Hi. unfold same_lst in L. rewrite forallb_forall in L. specialize (L _ Hi). rewrite forallb_forall in L.
      specialize (L _ Hx). destruct (l_func x) as [[|k]|]; try discriminate. reflexivity.
    + intros name prev v Hp Hv. cbn [u_listen U3].
      repeat match goal with |- context [match ?y with _ => _ end] => destruct y end; cbn [reader]; auto; discriminate.
  - intros cid c cb l Hc Hcb Hl. cbn [u_cval U3 reader]. split; [exists l, "x"; repeat split; auto; now apply plain_x|].
    intros [v|e] _; repeat match goal with |- context [match ?y with _ => _ end] => destruct y end; cbn [reader below]; auto.
Qed.
Lemma union_free_C3 : union_free C3.
Proof.
  intros [|[|k]] c name d H K Hk; simpl in H; try discriminate. injection H as <-. apply dget_in in K. cbn [c_props c_node In] in K.
  repeat (destruct K as [K|K]; [injection K as <- <-; try discriminate; cbn; auto|]). contradiction.
Qed.
Lemma checks_C4 : checks_props C4.
Proof. intros [|[|[|k]]] c H; simpl in H; try discriminate; injection H as <-; cbn; auto. Qed.
Lemma checks_C3 : checks_props C3.
Proof. intros [|[|k]] c H; simpl in H; try discriminate; injection H as <-; cbn; auto. Qed.
Lemma settled_ring : settled E1 C3 U3 w_ring /\ initialized w_ring /\ idle w_ring.
Proof.
  split; [|split].
  - apply settled_U3; auto using spare_C3; vm_compute; reflexivity.
  - apply initialized_intro. vm_compute. reflexivity.
  - apply idle_intro. vm_compute. reflexivity.
Qed.
Lemma settled_tree : settled E1 C3 U3 w_tree /\ initialized w_tree /\ idle w_tree.
Proof.
  split; [|split].
  - apply settled_U3; auto using spare_C3; vm_compute; reflexivity.
  - apply initialized_intro. vm_compute. reflexivity.
  - apply idle_intro. vm_compute. reflexivity.
Qed.
Lemma settled_hole : settled E1 C3 U3 w_hole /\ initialized w_hole /\ idle w_hole.
Proof.
  split; [|split].
  - apply settled_U3; auto using spare_C3; vm_compute; reflexivity.
  - apply initialized_intro. vm_compute. reflexivity.
  - apply idle_intro. vm_compute. reflexivity.
Qed.
Lemma settled_nine : settled E1 C3 U3 w_nine /\ initialized w_nine /\ idle w_nine.
Proof.
  split; [|split].
  - apply settled_U3; auto using spare_C3; vm_compute; reflexivity.
  - apply initialized_intro. vm_compute. reflexivity.
  - apply idle_intro. vm_compute. reflexivity.
Qed.
Lemma settled_many : settled E1 C3 U3 w_many /\ initialized w_many /\ idle w_many.
Proof.
  split; [|split].
  - apply settled_U3; auto using spare_C3; vm_compute; reflexivity.
  - apply initialized_intro. vm_compute. reflexivity.
  - apply idle_intro. vm_compute. reflexivity.
Qed.
Lemma settled_loose : settled E1 C4 U3 w_loose /\ initialized w_loose /\ idle w_loose.
Proof.
  split; [|split].
  - apply settled_U3; auto using spare_C4; vm_compute; reflexivity.
  - apply initialized_intro. vm_compute. reflexivity.
  - apply idle_intro. vm_compute. reflexivity.
Qed.
Lemma settled_twins : settled E1 C3 U3 w_twins.
Proof. apply settled_U3; auto using spare_C3; vm_compute; reflexivity. Qed.
Lemma settled_knot : settled E1 C3 U3 w_knot.
Proof. apply settled_U3; auto using spare_C3; vm_compute; reflexivity. Qed.

(** class Bag: a set of floats *)
Definition t_floats : ptype := PSeq KSet (PLeaf (LfFloat false None None)) None None false.
Definition c_bag : cls := Cls "Bag" [("f", PD KProp t_floats false DUndef)] [] [] [CVProps] [0] [].
Definition C5 : ctable := CT [c_bag] [("Bag", 0)].
(** 2^-30, its negation, 3/2 of it: neighbours are within the tolerance 1e-9 *)
Definition f_one : float := S754_finite false 4503599627370496 (-82).
Definition f_minus : float := S754_finite true 4503599627370496 (-82).
Definition f_more : float := S754_finite false 6755399441055744 (-82).
Definition w_bags : world := snd (run_prog E1 C5 U3 30 (doing
  [ONew 0 (Some [("f", VSet [VFloat fzero; VFloat f_more])]); ONew 0 (Some [("f", VSet [VFloat f_one; VFloat f_minus])])]) w_empty).
Lemma wf_C5 : wf_ctab C5.
Proof. intros [|[|k]] c H; simpl in H; try discriminate; injection H as <-; simpl; repeat constructor; simpl; intuition discriminate. Qed.
Lemma settled_bags : settled E1 C5 U3 w_bags.
Proof.
  apply settled_intro.
  - vm_compute. reflexivity.
  - apply spare_easy; [exact wf_C5|]. intros [|[|k]] c name d H; simpl in H; try discriminate; injection H as <-.
    intros [K|[]]; injection K as <- <-. left. reflexivity.
  - intros [|[|k]] c name d g s x l H Hd; simpl in H; try discriminate; injection H as <-. apply dget_in in Hd.
    destruct Hd as [K|[]]; injection K as <- <-. discriminate.
  - intros l i x Hi Hx. assert (K : forallb (fun i => match i_lst i with [] => true | _ => false end) (w_heap w_bags) = true) by (vm_compute; reflexivity).
    rewrite forallb_forall in K. apply nth_error_In in Hi. specialize (K _ Hi). destruct (i_lst i); [destruct Hx|discriminate].
  - intros [|[|k]] c cb l H Hd; simpl in H; try discriminate; injection H as <-. destruct Hd as [K|[]]; discriminate.
Qed.
