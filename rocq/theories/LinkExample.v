(** Concrete states for the theorems about links. *)
From Verif Require Import World WorldSpec WorldFacts WorldExample LinkSpec LinkFacts LinkNet.
Local Open Scope string_scope.
Local Open Scope list_scope.
Local Open Scope nat_scope.

(** class Num: one Integer *)
Definition t_n : ptype := PLeaf (LfInt false None None).
Definition d_n : pdecl := PD KProp t_n false DUndef.
Definition c_num : cls := Cls "Num" [("v", d_n)] [] [] [CVProps] [0] [].
Definition C9 : ctable := CT [c_num] [("Num", 0)].
(** callback 0 does nothing; transform 0 adds 1 and transform 1 subtracts 1 *)
Definition plus (z : Z) (v : val) : prog := match v with VInt x => Ret (VInt (x + z)) | _ => Raise ExType end.
Definition U9 : ucode := UC
  (fun _ _ _ _ v _ => Ret v) (fun _ => Ret (VInt 0)) (fun _ _ => Ret VNone) (fun _ _ _ => Ret VNone) (fun _ _ => Ret VNone)
  (fun _ _ => Ret (VBool true)) (fun t v => match t with 0 => plus 1 v | _ => plus (-1) v end).
Definition num (z : Z) : inst := Inst 0 [("v", VInt z)] [] None false false [].
(** four instances; the last has no value *)
Definition w_nums : world := W [num 1; num 2; num 3; Inst 0 [] [] None false false []] [] [] [] 0.
Definition after (o : op) (w : world) : world := snd (exec E1 C9 U9 30 (COp o) w).
Definition n_ (l : nat) : item := (l, "v").
(** 0 and 1 linked in both directions, adding and subtracting 1; 1 linked to 2;
    a callback on 1 *)
Definition w_ring : world :=
  after (OObserve 1 (OD None MSet (LCb 0))) (after (OLink (n_ 1) (n_ 2) false false None)
    (after (OLink (n_ 1) (n_ 0) false true (Some 1)) (after (OLink (n_ 0) (n_ 1) false true (Some 0)) w_nums))).
Definition f_ring (a : item) : val := match fst a with 0 => VInt 10 | _ => VInt 11 end.
(** 0 to 1 unchanged, and 1 to 0 adding 1 *)
Definition w_twist : world :=
  after (OLink (n_ 1) (n_ 0) false true (Some 0)) (after (OLink (n_ 0) (n_ 1) false true None) w_nums).
(** 0 to 1 to 2 *)
Definition w_chain : world :=
  after (OLink (n_ 1) (n_ 2) false true None) (after (OLink (n_ 0) (n_ 1) false true None) w_nums).

Lemma settable_num w l i : nth_error (w_heap w) l = Some i -> i_cls i = 0 -> settable C9 w (l, "v") t_n.
Proof.
  intros H K. split; [exact I|]. exists d_n. split; [|split; reflexivity]. exists c_num. split; [|reflexivity].
  exists i. split; [exact H|]. rewrite K. reflexivity.
Qed.
Ltac settab := eapply settable_num; [vm_compute; reflexivity|reflexivity].
Lemma trans_computes t v : computes (u_trans U9 t v).
Proof. cbn. destruct t as [|t], v; cbn; try exact I; discriminate. Qed.
Lemma net_nums : network C9 U9 w_nums.
Proof.
  constructor; [split|..].
  - intros [|[|[|[|l]]]] i x H Hx; cbn in H; try (injection H as <-; destruct Hx). destruct l; discriminate.
  - intros k d H. destruct k; discriminate.
  - intros [[|[|[|[|l]]]] name] m k H; try destruct H. unfold registered in H. cbn in H. destruct l; destruct H.
  - intros k d H. destruct k; discriminate.
Qed.
Lemma does_nums w l l' i i' now chg f : nth_error (w_heap w) l = Some i -> i_cls i = 0 -> nth_error (w_heap w) l' = Some i' -> i_cls i' = 0 ->
  does C9 U9 w (OLink (n_ l) (n_ l') now chg f).
Proof.
  intros H1 H2 H3 H4. eapply does_link; [eapply settable_num; eauto|eapply settable_num; eauto|]. destruct f; [intros; apply trans_computes|exact I].
Qed.
Ltac dolink := eapply does_nums; [vm_compute; reflexivity|reflexivity|vm_compute; reflexivity|reflexivity].
Lemma hist_ring : history E1 C9 U9 w_nums w_ring.
Proof.
  eapply (hist_some _ _ _ _ _ 30); [eapply (does_nums _ 0 1) with (now := false) (chg := true) (f := Some 0); [vm_compute; reflexivity|reflexivity|vm_compute; reflexivity|reflexivity]|].
  eapply (hist_some _ _ _ _ _ 30); [eapply (does_nums _ 1 0) with (now := false) (chg := true) (f := Some 1); [vm_compute; reflexivity|reflexivity|vm_compute; reflexivity|reflexivity]|].
  eapply (hist_some _ _ _ _ _ 30); [eapply (does_nums _ 1 2) with (now := false) (chg := false) (f := None); [vm_compute; reflexivity|reflexivity|vm_compute; reflexivity|reflexivity]|].
  eapply (hist_some _ _ _ _ _ 30); [eapply (does_observe _ _ _ 1 c_num None MSet 0); [eexists; split; [vm_compute; reflexivity|reflexivity]|intros; exact I]|].
  apply hist_none.
Qed.
Lemma net_ring : network C9 U9 w_ring.
Proof. exact (network_history _ _ _ _ _ hist_ring net_nums). Qed.
Lemma net_twist : network C9 U9 w_twist.
Proof.
  apply network_step; [apply network_step; [exact net_nums|]|]; dolink.
Qed.
Lemma net_chain : network C9 U9 w_chain.
Proof.
  apply network_step; [apply network_step; [exact net_nums|]|]; dolink.
Qed.

Lemma valid_num z : (z = 10 \/ z = 11)%Z -> validated E1 C9 t_n (VInt z) (VInt z).
Proof. intros [-> | ->] rec io name w; eexists; vm_compute; reflexivity. Qed.
Lemma compares_num x y : exists b, compares t_n (VInt x) (VInt y) b.
Proof. eexists. intros rec w. vm_compute. reflexivity. Qed.
Lemma ring_cons : consistent E1 C9 U9 w_ring (fun a => In a [n_ 0; n_ 1; n_ 2]) f_ring.
Proof.
  constructor.
  - intros a Ha. destruct Ha as [<-|[<-|[<-|[]]]]; (split; [discriminate|]; exists t_n; split; [settab|]; split; [apply compares_num|]);
      intros u Hu _; vm_compute in Hu; injection Hu as <-; apply compares_num.
  - intros a Ha. destruct Ha as [<-|[<-|[<-|[]]]]; vm_compute; reflexivity.
  - intros a cb m prev v Ha Hin. exists v. reflexivity.
  - intros a k m Ha Hin. destruct Ha as [<-|[<-|[<-|[]]]], m; vm_compute in Hin; try destruct Hin as [Hin|Hin]; try destruct Hin as [Hin|Hin]; try contradiction; try discriminate; injection Hin as <-; eexists; vm_compute; reflexivity.
  - intros a k d m Ha (Hk & Hu & Hin).
    destruct Ha as [<-|[<-|[<-|[]]]], m; vm_compute in Hin; try destruct Hin as [Hin|Hin]; try destruct Hin as [Hin|Hin]; try contradiction; try discriminate; injection Hin as <-;
      vm_compute in Hk; injection Hk as <-; (split; [reflexivity|]); (split; [cbn [d_tgt]; unfold n_, In; tauto|]); do 2 eexists; cbn [d_trans d_tgt]; (split; [cbn; reflexivity|]);
      (split; [discriminate|]); (split; [settab|]); apply valid_num; auto.
Qed.
(** all four linked with each other, and then changed *)
Definition all4 : list item := [n_ 0; n_ 1; n_ 2; n_ 3].
Definition w_all : world := after (OSet 2 "v" (VInt 10)) (after (OLinkAll all4 false true) w_nums).
Lemma net_all : network C9 U9 w_all.
Proof.
  apply network_step; [apply network_step; [exact net_nums|]|].
  - constructor. intros x Hx. exists t_n. destruct Hx as [<-|[<-|[<-|[<-|[]]]]]; settab.
  - apply (does_write _ _ _ _ (n_ 2) t_n); [right; eexists; reflexivity|settab].
Qed.
Lemma all_cons : consistent E1 C9 U9 w_all (fun a => In a all4) (fun _ => VInt 11).
Proof.
  constructor.
  - intros a Ha. destruct Ha as [<-|[<-|[<-|[<-|[]]]]]; (split; [discriminate|]; exists t_n; split; [settab|]; split; [apply compares_num|]);
      intros u Hu _; vm_compute in Hu; injection Hu as <-; apply compares_num.
  - intros a Ha. destruct Ha as [<-|[<-|[<-|[<-|[]]]]]; vm_compute; reflexivity.
  - intros a cb m prev v Ha Hin. exists v. reflexivity.
  - intros a k m Ha Hin. destruct Ha as [<-|[<-|[<-|[<-|[]]]]], m; vm_compute in Hin; try contradiction; destruct Hin as [Hin|[Hin|[Hin|[]]]]; injection Hin as <-; eexists; vm_compute; reflexivity.
  - intros a k d m Ha (Hk & Hu & Hin).
    destruct Ha as [<-|[<-|[<-|[<-|[]]]]], m; vm_compute in Hin; try contradiction; destruct Hin as [Hin|[Hin|[Hin|[]]]]; injection Hin as <-;
      vm_compute in Hk; injection Hk as <-; (split; [reflexivity|]); (split; [cbn [d_tgt]; unfold all4, n_, In; tauto|]); exists (VInt 11), t_n; (split; [reflexivity|]);
      (split; [discriminate|]); (split; [settab|]); apply valid_num; auto.
Qed.
Lemma num_differs w a x y : value_of w a = Some (VInt x) -> settable C9 w a t_n -> x <> y -> leaf_equal (LfInt false None None) (VInt x) (VInt y) = Ok false ->
  differs C9 w a (VInt y).
Proof.
  intros H K N L. unfold differs. rewrite H. split; [congruence|]. right. exists t_n. split; [exact K|]. intros rec w'. cbn [p_equal t_n]. rewrite L. reflexivity.
Qed.
