(** A concrete class table for the theorems about [_error_hook]. *)
From Verif Require Import World WorldSpec WorldExample HookSpec.
Local Open Scope string_scope.
Local Open Scope list_scope.
Local Open Scope nat_scope.

Definition t_int : ptype := PLeaf (LfInt false None None).
(** class Rec: two integers, a list of strings and an integer or string; the
    integers must differ *)
Definition c_rec : cls :=
  Cls "Rec" [("n", PD KProp t_int true DUndef); ("m", PD KProp t_int true DUndef);
             ("names", PD KProp (PSeq KList t_str None None false) false DUndef);
             ("u", PD KProp (PUnion true [t_int; t_str]) false DUndef)]
      [] [] [CVUser 0; CVProps] [0] [].
(** class Bad: the default is computed, and it is not an integer *)
Definition c_bad : cls := Cls "Bad" [("n", PD KProp t_int true (DCall 0))] [] [] [CVProps] [1] [].
Definition C6 : ctable := CT [c_rec; c_bad] [("Rec", 0); ("Bad", 1)].
Definition U6 : ucode := UC
  (fun _ _ _ _ v _ => Ret v) (fun _ => Ret (VStr "many")) (fun _ _ => Ret VNone) (fun _ _ _ => Ret VNone) (fun _ _ => Ret VNone)
  (fun _ l => Do (OGet l "n") (fun a => Do (OGet l "m") (fun b =>
     match a, b with Ok (VInt x), Ok (VInt y) => if Z.eqb x y then Ret (VBool false) else Ret (VBool true) | _, _ => Ret (VBool true) end)))
  (fun _ v => Ret v).
(** one instance (location 0) with nothing set *)
Definition w_rec : world := snd (exec E1 C6 U6 20 (COp (ONew 0 (Some []))) w_empty).
(** n and m set to the same number *)
Definition w_clash : world := snd (exec E1 C6 U6 20 (COp (ONew 0 (Some [("n", VInt 4); ("m", VInt 4)]))) w_empty).
Lemma wf_C6 : wf_ctab C6.
Proof. intros [|[|[|k]]] c H; simpl in H; try discriminate; injection H as <-; simpl; repeat constructor; simpl; intuition discriminate. Qed.
Lemma declares_rec name d : dget (c_props c_rec) name = Some d -> declares C6 w_rec 0 name d.
Proof. intros H. exists c_rec. split; [|exact H]. eexists. split; [vm_compute; reflexivity|reflexivity]. Qed.
