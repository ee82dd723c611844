(** A concrete class table for the theorems about deserialization. *)
From Verif Require Import World WorldSpec WorldExample DeserSpec.
Local Open Scope string_scope.
Local Open Scope list_scope.
Local Open Scope nat_scope.

(** class Leaf: x is observed, and its validator sets x to 1 *)
Definition c_leaf : cls := Cls "Leaf" [("x", d_x)] [] [OD (Some ["x"]) MChange (LCb 0)] [CVProps; CVUser 0] [0] [].
(** class Dyn: a dynamic property whose values are Leafs *)
Definition c_dyn : cls := Cls "Dyn" [("d", PD (KDynamic 0 None None) (PInst 0) true DUndef)] [] [] [CVProps] [1] [].
(** class Alt: a strict Union of Leaf and strings *)
Definition c_alt : cls := Cls "Alt" [("a", PD KProp (PUnion true [PInst 0; t_str]) false DUndef)] [] [] [CVProps] [2] [].
(** class Lax: the same Union, not strict *)
Definition c_lax : cls := Cls "Lax" [("a", PD KProp (PUnion false [PInst 0; t_str]) false DUndef)] [] [] [CVProps] [1] [].
Definition C7 : ctable := CT [c_leaf; c_dyn; c_alt] [("Leaf", 0); ("Dyn", 1); ("Alt", 2)].
Definition C8 : ctable := CT [c_leaf; c_lax] [("Leaf", 0); ("Lax", 1)].
Definition U7 : ucode := UC
  (fun _ _ _ _ v _ => Ret v) (fun _ => Ret (VInt 0)) (fun _ _ => Ret VNone) (fun _ _ _ => Ret VNone) (fun _ _ => Ret VNone)
  (fun _ l => Do (OSet l "x" (VInt 1)) (fun _ => Ret (VBool true))) (fun _ v => Ret v).

Lemma wf_C7 : wf_ctab C7.
Proof. intros [|[|[|[|k]]]] c H; simpl in H; try discriminate; injection H as <-; simpl; repeat constructor; simpl; intuition discriminate. Qed.
Lemma wf_C8 : wf_ctab C8.
Proof. intros [|[|[|k]]] c H; simpl in H; try discriminate; injection H as <-; simpl; repeat constructor; simpl; intuition discriminate. Qed.
Lemma calm_C8 : calm_table C8.
Proof.
  intros [|[|[|k]]] c name d H Hd; simpl in H; try discriminate; injection H as <-; simpl in Hd; destruct Hd as [[= <- <-]|[]]; simpl; auto.
  right. split; [reflexivity|]. split; [right; eauto|]. split; [left; exact I|exact I].
Qed.
Lemma calm_U7 : calm_defaults C7 U7.
Proof. intros cid c name d cb _ _ _ _. exact I. Qed.
Lemma calm_U8 : calm_defaults C8 U7.
Proof. intros cid c name d cb _ _ _ _. exact I. Qed.
Lemma calm_C1 : calm_table C1.
Proof.
  intros [|[|k]] c name d H Hd; simpl in H; try discriminate; injection H as <-; simpl in Hd.
  repeat (destruct Hd as [[= <- <-]|Hd]; [simpl; exact I|]). destruct Hd.
Qed.
Lemma calm_U1 : calm_defaults C1 U1.
Proof. intros cid c name d cb _ _ _ _. exact I. Qed.

Definition j_leaf (n : Z) : val := VDict [(VStr "x", VInt n); (VStr "__class__", VStr "Leaf")].
(** nested Pts *)
Definition j_pt : val := VDict [(VStr "x", VInt 5); (VStr "kids", VList [VDict [(VStr "x", VInt 4)]; VDict [(VStr "x", VInt 6)]])].
