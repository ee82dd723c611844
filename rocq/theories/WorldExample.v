(** A small concrete class table, user code and states, used by the examples
    that accompany the property theorems. *)
From Verif Require Import World WorldSpec.
Local Open Scope string_scope.
Local Open Scope list_scope.
Local Open Scope nat_scope.

Definition E1 : env := Env (fun _ => None) (fun _ => None) (fun _ _ => "") false (fun n => n).

Definition t_x : ptype := PLeaf (LfInt false (Some (NZ 0)) (Some (NZ 10))).
Definition t_str : ptype := PLeaf (LfString (SO "" CNone None)).
Definition d_x : pdecl := PD KProp t_x true (DVal (VInt 3)).
Definition d_tag : pdecl := PD KProp t_str false DUndef.
Definition d_u : pdecl := PD KGettable (PLeaf LfUuid) true (DCall 0).
Definition d_kids : pdecl := PD KProp (PSeq KList (PInst 0) None (Some 2) false) false DUndef.
Definition d_old : pdecl := PD (KRenamed "x") (PLeaf LfAny) true DUndef.
Definition d_sum : pdecl := PD (KDynamic 0 None None) t_x true DUndef.

(** class Pt: x with a validator, a change observer and a set observer *)
Definition c_pt : cls :=
  Cls "Pt" [("x", d_x); ("tag", d_tag); ("u", d_u); ("kids", d_kids); ("old", d_old); ("sum", d_sum)]
      [] [OD (Some ["x"]) MValidate (LCb 0); OD (Some ["x"]) MChange (LCb 1); OD (Some ["x"]) MSet (LCb 2)]
      [CVProps] [0] [].
Definition C1 : ctable := CT [c_pt] [("Pt", 0)].

(** callback 0 rejects 9 and turns 8 into 7; callback 1 sets the tag; others do
    nothing *)
Definition U1 : ucode := UC
  (fun cb l name prev v m =>
     match cb with
     | 0 => match v with
            | VInt 9 => Raise (ExValidation [])
            | VInt 8 => Ret (VInt 7)
            | _ => Ret v
            end
     | 1 => Do (OSet l "tag" (VStr "changed")) (fun _ => Ret v)
     | _ => Ret v
     end)
  (fun _ => Ret (VUuid 7))
  (fun _ l => Do (OGet l "x") (fun r => match r with Ok v => Ret v | Exc e => Raise e end))
  (fun _ _ _ => Ret VNone) (fun _ _ => Ret VNone) (fun _ _ => Ret VNone) (fun _ v => Ret v).
(** the same with callbacks that leave the value alone *)
Definition U2 : ucode := UC
  (fun cb l name prev v m =>
     match cb with
     | 0 => match v with VInt 9 => Raise (ExValidation []) | _ => Ret v end
     | 1 => Do (OSet l "tag" (VStr "changed")) (fun _ => Ret v)
     | _ => Ret v
     end)
  (u_default U1) (u_get U1) (u_set U1) (u_del U1) (u_cval U1) (u_trans U1).

Definition w_empty : world := W [] [] [] [] 0.
(** one instance (location 0) *)
Definition w_one : world := snd (run_prog E1 C1 U1 20 (Do (ONew 0 (Some [])) finish) w_empty).

Lemma wf_C1 : wf_ctab C1.
Proof.
  intros [|[|k]] c H; simpl in H; try discriminate. injection H as <-. simpl.
  repeat constructor; simpl; intuition discriminate.
Qed.
Lemma mro_C1 : wf_mro C1.
Proof. intros [|[|k]] c H; simpl in H; try discriminate. injection H as <-. simpl. auto. Qed.
