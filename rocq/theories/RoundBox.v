(** An object graph without Unions, for the example beside the theorem that
    copies of valid graphs are valid. *)
From Verif Require Import World WorldSpec AccessSpec WorldExample BasicSpec GraphSpec GraphHelp GraphExample GraphValidate GraphValid RoundSpec RoundGraph RoundBuild RoundExample RoundValid.
Local Open Scope string_scope.
Local Open Scope list_scope.
Local Open Scope nat_scope.

(** class Item: a required number *)
Definition c_item : cls := Cls "Item" [("n", PD KProp (PLeaf t_int) true (DVal (VInt 3)))] [] [] [CVProps] [0] [].
(** class Box: a required item and at least one more *)
Definition t_items : ptype := PSeq KList (PInst 0) (Some 1) None false.
Definition c_box : cls := Cls "Box" [("main", PD KProp (PInst 0) true DUndef); ("items", PD KProp t_items false DUndef)] [] [] [CVProps] [1] [].
Definition C7 : ctable := CT [c_item; c_box] [("Item", 0); ("Box", 1)].
Definition w_box : world := snd (run_prog E5 C7 U5 30 (doing
  [ONew 0 (Some [("n", VInt 7)]); ONew 1 (Some [("main", VInst 0); ("items", VList [VInst 0; VInst 0])])]) w_empty).

Lemma wf_C7 : wf_ctab C7.
Proof. intros [|[|[|k]]] c H; simpl in H; try discriminate; injection H as <-; simpl; repeat constructor; simpl; intuition discriminate. Qed.
Lemma names_C7 : names_known C7.
Proof. intros [|[|[|k]]] c H; simpl in H; try discriminate; injection H as <-; split; try discriminate; reflexivity. Qed.
Lemma plain_C7 cid c name d : nth_error (ct_cls C7) cid = Some c -> dget (c_props c) name = Some d -> no_union (pd_type d).
Proof.
  intros H K. apply dget_in in K. destruct cid as [|[|[|k]]]; simpl in H; try discriminate; injection H as <-; cbn [c_props c_item c_box In] in K;
    repeat (destruct K as [K|K]; [injection K as <- <-; cbn; auto|]); contradiction.
Qed.
Lemma checks_C7 cid c : nth_error (ct_cls C7) cid = Some c -> c_cvals c = [CVProps].
Proof. intros H. destruct cid as [|[|[|k]]]; simpl in H; try discriminate; injection H as <-; reflexivity. Qed.
Lemma box_at l i : nth_error (w_heap w_box) l = Some i ->
  l = 0 /\ i_cls i = 0 /\ i_back i = [("n", VInt 7)] /\ i_sflag i = false /\ i_eflag i = false \/
  l = 1 /\ i_cls i = 1 /\ i_back i = [("main", VInst 0); ("items", VList [VInst 0; VInst 0])] /\ i_sflag i = false /\ i_eflag i = false.
Proof. destruct l as [|[|l]]; vm_compute; [intros [= <-]; left; repeat split|intros [= <-]; right; repeat split|intros H; exfalso; revert H; repeat (destruct l as [|l]; [discriminate|]); discriminate]. Qed.
Lemma idle_box : e_idle w_box.
Proof. intros l i H. apply box_at in H. intuition. Qed.
Lemma held_box0 name : held w_box 0 name = if String.eqb name "n" then VInt 7 else VNone.
Proof. unfold held, stored. destruct (nth_error (w_heap w_box) 0) as [i|] eqn:E; [|vm_compute in E; discriminate]. apply box_at in E as [(_ & _ & -> & _)|(? & _)]; [|discriminate].
  cbn [dget]. rewrite (String.eqb_sym name). now destruct (String.eqb _ _). Qed.
Lemma held_box1 name : held w_box 1 name = if String.eqb name "main" then VInst 0 else if String.eqb name "items" then VList [VInst 0; VInst 0] else VNone.
Proof. unfold held, stored. destruct (nth_error (w_heap w_box) 1) as [i|] eqn:E; [|vm_compute in E; discriminate]. apply box_at in E as [(? & _)|(_ & _ & -> & _)]; [discriminate|].
  cbn [dget]. rewrite (String.eqb_sym name "main"), (String.eqb_sym name "items"). destruct (String.eqb "main" name); [reflexivity|]. now destruct (String.eqb _ _). Qed.
Lemma restorable_box m : m < 2 -> restorable C7 so5 do5 w_box m m.
Proof. intros H. destruct m as [|[|m]]; [..|lia]; eexists _, _; (split; [vm_compute; reflexivity|]); (split; [reflexivity|]); cbn; repeat split; auto; discriminate. Qed.
Lemma child_box l m : child C7 w_box l m -> l = 1 /\ m = 0.
Proof.
  intros (k & d & (c & (i & Hi & Hc) & Hd) & Hn & Hh). pose proof (box_at l i Hi) as [(-> & Hcl & _)|(-> & Hcl & _)]; rewrite Hcl in Hc; simpl in Hc; injection Hc as <-;
    apply dget_in in Hd; cbn [c_props c_item c_box In] in Hd.
  - destruct Hd as [Hd|[]]. injection Hd as <- <-. destruct Hh.
  - split; [reflexivity|]. destruct Hd as [Hd|[Hd|[]]]; injection Hd as <- <-; rewrite held_box1 in Hh; cbn in Hh; [congruence|].
    destruct Hh as (items & x & [= <-] & [<-|[<-|[]]] & K); congruence.
Qed.
Lemma descends_box m : descends C7 w_box 1 m -> m = 0 \/ m = 1.
Proof.
  intros H. assert (K : forall l k, descends C7 w_box l k -> l = k \/ k = 0).
  { induction 1 as [l|l m0 k Hc Hd IH]; auto. apply child_box in Hc as [-> ->]. destruct IH as [<-|]; auto. }
  destruct (K _ _ H); auto.
Qed.
Lemma plain_box : plain_graph E5 C7 U5 so5 do5 w_box 1.
Proof.
  split.
  - intros m k _ Hc Hd. apply child_box in Hc as [-> ->]. inversion Hd as [|a b Hc Hd']; subst. apply child_box in Hc as [? _]. discriminate.
  - intros m Hm. apply descends_box in Hm. destruct (nth_error (w_heap w_box) m) as [i|] eqn:Hi; [|destruct Hm as [-> | ->]; vm_compute in Hi; discriminate].
    pose proof (box_at m i Hi) as [(-> & Hc & Hb & _)|(-> & Hc & Hb & _)]; rewrite <- ?Hi.
    + exists i, c_item. split; [exact Hi|]. split; [now rewrite Hc|]. rewrite Hb. split; [repeat constructor; intros []|]. split; [repeat constructor; intros []|].
      split; [cbn; intuition discriminate|]. split.
      * intros name v K. apply dget_in in K as [K|[]]. injection K as <- <-. eexists. split; [reflexivity|]. split; [now left|]. intros _. split; [discriminate|]. split; [intros r; reflexivity|exact I].
      * intros name d [K|[]]. injection K as <- <-. split; [|intros _; rewrite held_box0; discriminate].
        right. exists (VInt 3), t_int. repeat split; auto; try discriminate. intros r. exists (VInt 3). reflexivity.
    + exists i, c_box. split; [exact Hi|]. split; [now rewrite Hc|]. rewrite Hb. split; [repeat constructor; cbn; intuition discriminate|].
      split; [repeat constructor; cbn; intuition discriminate|]. split; [cbn; intuition discriminate|]. split.
      * intros name v K. apply dget_in in K as [K|[K|[]]]; injection K as <- <-; (eexists; split; [reflexivity|]; split; [now left|]; intros _; split; [discriminate|]); cbn [pd_type portable t_items].
        -- exists 0. split; [reflexivity|apply restorable_box; lia].
        -- exists [VInst 0; VInst 0]. split; [reflexivity|]. split; [|discriminate]. repeat constructor; (exists 0; split; [reflexivity|apply restorable_box; lia]).
      * intros name d [K|[K|[]]]; injection K as <- <-; (split; [now left|intros X; now destruct X]).
Qed.
Lemma unguarded_box : unguarded C7 w_box 1.
Proof. intros m i _ Hi. apply box_at in Hi. intuition. Qed.
Lemma comparable_box m : descends C7 w_box 1 m -> comparable_node C7 w_box m.
Proof.
  intros Hm. apply descends_box in Hm. destruct (nth_error (w_heap w_box) m) as [i|] eqn:Hi; [|destruct Hm as [-> | ->]; vm_compute in Hi; discriminate].
  pose proof (box_at m i Hi) as [(-> & Hc & _ & _ & He)|(-> & Hc & _ & _ & He)].
  - exists i, c_item. split; [exact Hi|]. split; [now rewrite Hc|]. split; [exact He|]. intros name d [K|[]]. injection K as <- <-. split; [now left|].
    intros _. rewrite held_box0. reflexivity.
  - exists i, c_box. split; [exact Hi|]. split; [now rewrite Hc|]. split; [exact He|]. intros name d [K|[K|[]]]; injection K as <- <-; (split; [now left|]); intros _; [exact I|].
    split; [discriminate|]. intros items _. apply Forall_forall. intros x _. exact I.
Qed.
Lemma spare_C7 cid : spare E5 C7 U5 cid.
Proof.
  apply spare_easy; [exact wf_C7|]. intros [|[|[|k]]] c name d H; simpl in H; try discriminate; injection H as <-; cbn [c_props c_item c_box In]; intros K;
    repeat (destruct K as [K|K]; [injection K as <- <-; first [left; reflexivity|right; exists (VInt 3), t_int; repeat split; try discriminate; intros r; exists (VInt 3); (split; [reflexivity|discriminate])]|]); contradiction.
Qed.
Definition no_lst (w : world) : bool := forallb (fun i => match i_lst i with [] => true | _ => false end) (w_heap w).
Lemma settled_C7 w : datab C7 w = true -> no_lst w = true -> settled E5 C7 U5 w.
Proof.
  intros D L. apply settled_intro; auto using spare_C7.
  - intros cid c name d g s x l Hc Hd Hk Hl. exfalso. apply dget_in in Hd. destruct cid as [|[|[|k]]]; simpl in Hc; try discriminate; injection Hc as <-;
      cbn [c_props c_item c_box In] in Hd; repeat (destruct Hd as [Hd|Hd]; [injection Hd as <- <-; discriminate|]); contradiction.
  - intros l i x Hi Hx Hm. exfalso. apply nth_error_In in Hi. unfold no_lst in L. rewrite forallb_forall in L. specialize (L _ Hi). destruct (i_lst i); [destruct Hx|discriminate].
  - intros cid c cb l Hc Hcb Hl. exfalso. rewrite (checks_C7 _ _ Hc) in Hcb. destruct Hcb as [Hcb|[]]. discriminate.
Qed.
Lemma valid_box : valid_graph E5 C7 U5 w_box 1.
Proof.
  assert (A : exists n, forall k, fst (exec E5 C7 U5 (n + k) (COp (OValidate 1)) w_box) = Ok (VBool true)) by (exists 30; intros k; vm_compute; reflexivity).
  destruct A as (n & A).
  destruct (validate_accepts E5 C7 U5 wf_C7 w_box) with (l := 1) as (r & (d & K) & _ & H & _).
  - apply settled_C7; vm_compute; reflexivity.
  - apply initialized_intro. vm_compute. reflexivity.
  - apply idle_intro. vm_compute. reflexivity.
  - vm_compute. lia.
  - apply H. specialize (K (n + d)). specialize (A d). assert (d <= n + d) as L by lia. specialize (K L). destruct K as (w' & K). rewrite K in A. exact A.
Qed.
Lemma box_copy : copy_gives E5 C7 U5 w_box 1 5 (after_copy C7 w_box 1).
Proof. apply gives_at with (k := 30). intros n. vm_compute. reflexivity. Qed.
Lemma box_unwatched y name : registered (after_copy C7 w_box 1) y name MValidate = [].
Proof.
  unfold registered. destruct (nth_error (w_heap (after_copy C7 w_box 1)) y) as [i|] eqn:E; [|reflexivity]. apply nth_error_In in E.
  assert (L : no_lst (after_copy C7 w_box 1) = true) by (vm_compute; reflexivity). unfold no_lst in L. rewrite forallb_forall in L. specialize (L _ E). destruct (i_lst i); [reflexivity|discriminate].
Qed.
