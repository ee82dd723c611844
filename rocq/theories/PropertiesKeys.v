(** Property theorems about dictionaries with containers or instances as keys, [C17]. *)
From Verif Require Import World WorldSpec WorldExample DeserExample ReadSpec KeysSpec KeysFacts.
Local Open Scope string_scope.
Local Open Scope list_scope.
Local Open Scope nat_scope.

(** ** C17: an instance with such a key in a dictionary is never serialized, although
    the dictionary was accepted. *)
Theorem C17_container_keys : forall E C U, harmless C U -> forall w l name dd kp vp co d k x,
  declares C w l name dd -> pd_kind dd = KProp -> pd_type dd = PDict kp vp co -> composite kp ->
  stored w l name = Some (VDict d) -> In (k, x) d -> is_none k = false ->
  forall n o v w', exec E C U n (COp (OSer l o)) w <> (Ok v, w').
Proof. exact no_json. Qed.
Print Assumptions C17_container_keys.

(** class A with x; class K with d : Dictionary(Tuple(Integer)), e : Dictionary(Instance(A)) *)
Definition c_a : cls := Cls "A" [("x", PD KProp t_x false DUndef)] [] [] [CVProps] [0] [].
Definition t_tuples : ptype := PDict (PSeq KTuple t_x None None false) t_x false.
Definition t_insts : ptype := PDict (PInst 0) t_x false.
Definition c_k : cls := Cls "K" [("d", PD KProp t_tuples false DUndef); ("e", PD KProp t_insts false DUndef)] [] [] [CVProps] [1] [].
Definition C17 : ctable := CT [c_a; c_k] [("A", 0); ("K", 1)].
(** x.d = {(1, 2): 3, (): 4}; y.e = {A(x=1): 5} *)
Definition W17 : world := snd (run_prog E1 C17 U7 30
  (Do (ONew 0 (Some [("x", VInt 1)])) (fun _ =>
   Do (ONew 1 (Some [("d", VDict [(VTuple [VInt 1; VInt 2], VInt 3); (VTuple [], VInt 4)])])) (fun _ =>
   Do (ONew 1 (Some [("e", VDict [(VInst 0, VInt 5)])])) finish))) w_empty).
Lemma harmless_17 : harmless C17 U7.
Proof.
  intros c name d Hc H. cbn [C17 ct_cls In] in Hc. destruct Hc as [<-|[<-|[]]]; cbn [c_props c_a c_k In] in H;
    repeat (destruct H as [[= <- <-]|H]); try destruct H; (split; [cbn; auto|intros g st dl Hk; discriminate]).
Qed.
Example C17_container_keys_ex : harmless C17 U7 /\
  declares C17 W17 1 "d" (PD KProp t_tuples false DUndef) /\
  stored W17 1 "d" = Some (VDict [(VTuple [VInt 1; VInt 2], VInt 3); (VTuple [], VInt 4)]) /\
  fst (exec E1 C17 U7 20 (COp (OValidate 1)) W17) = Ok (VBool true) /\
  declares C17 W17 2 "e" (PD KProp t_insts false DUndef) /\ stored W17 2 "e" = Some (VDict [(VInst 0, VInt 5)]) /\
  fst (exec E1 C17 U7 20 (COp (OValidate 2)) W17) = Ok (VBool true) /\
  (forall o, fst (exec E1 C17 U7 20 (COp (OSer 1 o)) W17) = Exc ExType) /\
  forall o, fst (exec E1 C17 U7 20 (COp (OSer 2 o)) W17) = Exc ExType.
Proof.
  split; [exact harmless_17|]. split; [vm_compute; eauto 8|]. split; [reflexivity|]. split; [vm_compute; reflexivity|].
  split; [vm_compute; eauto 8|]. split; [reflexivity|]. split; [vm_compute; reflexivity|].
  split; intros [[|] [|]]; vm_compute; reflexivity.
Qed.
