(** Facts about the example graphs. *)
From Verif Require Import World WorldSpec AccessSpec WorldExample GraphSpec GraphConv GraphValidate GraphValid GraphCycle GraphEqual GraphExample.
Local Open Scope string_scope.
Local Open Scope list_scope.
Local Open Scope nat_scope.

Lemma answers_at {A} (m : nat -> M A) w r k : (forall n, fst (m (k + n) w) = r) -> answers m w r.
Proof.
  intros H. exists k. intros n Hn. specialize (H (n - k)). replace (k + (n - k)) with n in H by lia.
  exists (snd (m n w)). rewrite <- H. now destruct (m n w).
Qed.
Lemma ring_valid : answers (fun n => exec E1 C3 U3 n (COp (OValidate 0))) w_ring (Ok (VBool true)).
Proof. apply answers_at with (k := 30). intros n. vm_compute. reflexivity. Qed.
Lemma ring_valid1 : answers (fun n => exec E1 C3 U3 n (COp (OValidate 1))) w_ring (Ok (VBool true)).
Proof. apply answers_at with (k := 30). intros n. vm_compute. reflexivity. Qed.
Lemma ring_reach w : stored w 1 "next" = Some (VInst 0) -> stored w 0 "kids" = Some (VList [VInst 2; VInst 2]) ->
  has_class C3 w 0 c_node -> has_class C3 w 1 c_node -> reachable C3 w 1 2.
Proof.
  intros H1 H0 Hc0 Hc1. apply reach_step with 0; [apply reach_step with 1; [constructor|]|].
  - exists "next", (PD KProp t_node false DUndef), (VInst 0). split; [exists c_node; split; [exact Hc1|reflexivity]|].
    split; [reflexivity|]. split; [split; [exact H1|discriminate]|reflexivity].
  - exists "kids", (PD KProp t_kids false DUndef), (VList [VInst 2; VInst 2]). split; [exists c_node; split; [exact Hc0|reflexivity]|].
    split; [reflexivity|]. split; [split; [exact H0|discriminate]|]. exists [VInst 2; VInst 2], (VInst 2). repeat split. now left.
Qed.
Lemma missing_x C w l : has_class C w l c_node -> stored w l "x" = None -> ~ valid_at E1 C U3 w (fun _ => True) l.
Proof.
  intros (i & Hi & Hc) Hs (c & (i' & Hi' & Hc') & Hv). rewrite Hi in Hi'. injection Hi' as <-. rewrite Hc in Hc'. injection Hc' as <-.
  specialize (Hv CVProps (or_introl eq_refl) "x" _ eq_refl). destruct Hv as [Hr _]. destruct (Hr eq_refl) as (v & Hx & _). congruence.
Qed.
Lemma ring_and_hole : valid_graph E1 C3 U3 w_ring 1 /\ reachable C3 w_ring 1 2 /\
  reachable C3 w_hole 1 2 /\ ~ valid_at E1 C3 U3 w_hole (fun _ => True) 2 /\ ~ valid_graph E1 C3 U3 w_hole 1.
Proof.
  assert (R : reachable C3 w_hole 1 2).
  { apply ring_reach; try (vm_compute; reflexivity); eexists; split; vm_compute; reflexivity. }
  assert (M : ~ valid_at E1 C3 U3 w_hole (fun _ => True) 2).
  { apply missing_x; [eexists; split; vm_compute; reflexivity|vm_compute; reflexivity]. }
  split.
  - destruct settled_ring as (A & B & D). destruct (validate_exact E1 C3 U3 wf_C3 union_free_C3 w_ring A B D 1) as (r & Hr & _ & H).
    { vm_compute. lia. }
    pose proof (answers_fun _ _ _ _ Hr ring_valid1) as K. subst r. now apply H.
  - split; [apply ring_reach; try (vm_compute; reflexivity); eexists; split; vm_compute; reflexivity|].
    split; [exact R|]. split; [exact M|]. intros K. apply M. now apply (valid_reachable E1 C3 U3 wf_C3 union_free_C3 checks_C3 w_hole 1).
Qed.
Lemma loose_hides : exists E C U w l m,
  wf_ctab C /\ checks_props C /\ settled E C U w /\ initialized w /\ idle w /\
  answers (fun n => exec E C U n (COp (OValidate l))) w (Ok (VBool true)) /\
  reachable C w l m /\ ~ valid_at E C U w (fun _ => True) m /\
  exists e, answers (fun n => exec E C U n (COp (OValidate m))) w (Exc e).
Proof.
  exists E1, C4, U3, w_loose, 1, 0. split; [exact wf_C4|]. split; [exact checks_C4|]. destruct settled_loose as (A & B & D).
  split; [exact A|]. split; [exact B|]. split; [exact D|]. split; [|split; [|split]].
  - apply answers_at with (k := 30). intros n. vm_compute. reflexivity.
  - apply reach_step with 1; [constructor|]. exists "any", (PD KProp (PUnion false [t_node; PLeaf LfAny]) false DUndef), (VInst 0).
    split; [exists c_loose; split; [eexists; split; vm_compute; reflexivity|reflexivity]|]. split; [reflexivity|].
    split; [split; [vm_compute; reflexivity|discriminate]|left; reflexivity].
  - apply missing_x; [eexists; split; vm_compute; reflexivity|vm_compute; reflexivity].
  - exists (ExValidation [ET (Some "missing") (Some "x") (Some 0)]). apply answers_at with (k := 30). intros n. vm_compute. reflexivity.
Qed.

Definition both : sopt := SOpt true false.
Lemma next_serializes w l m : has_class C3 w l c_node -> stored w l "next" = Some (VInst m) -> serializes E1 C3 U3 w l m.
Proof.
  intros Hc Hs. exists "next", (PD KProp t_node false DUndef), (VInst m). split; [exists c_node; split; [exact Hc|reflexivity]|].
  split; [now left|]. split; [split; [exact Hs|discriminate]|reflexivity].
Qed.
Lemma ring_cyclic : cyclic E1 C3 U3 w_ring 0.
Proof.
  exists 0. split; [constructor|]. exists 1. split.
  - apply next_serializes; [eexists; split; vm_compute; reflexivity|vm_compute; reflexivity].
  - apply sreach_step with 0; [|constructor]. apply next_serializes; [eexists; split; vm_compute; reflexivity|vm_compute; reflexivity].
Qed.
Lemma ring_encodable m : sreach E1 C3 U3 w_ring 0 m -> encodable E1 C3 U3 both w_ring m.
Proof.
  intros H. apply sreach_below in H; [|exact (proj1 settled_ring)|vm_compute; lia].
  assert (m = 0 \/ m = 1 \/ m = 2) as Hm by (assert (L : length (w_heap w_ring) = 3) by (vm_compute; reflexivity); rewrite L in H; lia). clear H.
  assert (D : forall l, l = 0 \/ l = 1 \/ l = 2 -> has_class C3 w_ring l c_node).
  { intros l [->|[->| ->]]; eexists; split; vm_compute; reflexivity. }
  assert (Lf : forall l j, l = 0 \/ l = 1 \/ l = 2 -> stored w_ring l "x" = Some j -> (exists z, j = VInt z) ->
    encodes_entry E1 C3 U3 w_ring (fun _ x => exists d, x = VDict d) l "x" j).
  { intros l j Hl Hs (z & ->). exists (PD KProp t_x true (DVal (VInt 3))). split; [exists c_node; split; [now apply D|reflexivity]|].
    cbn [pd_kind]. rewrite Hs. right. split; [discriminate|reflexivity]. }
  assert (Ln : forall l j, l = 0 \/ l = 1 \/ l = 2 -> stored w_ring l "next" = Some (VInst j) ->
    encodes_entry E1 C3 U3 w_ring (fun _ x => exists d, x = VDict d) l "next" (VDict [])).
  { intros l j Hl Hs. exists (PD KProp t_node false DUndef). split; [exists c_node; split; [now apply D|reflexivity]|].
    cbn [pd_kind]. rewrite Hs. right. split; [discriminate|]. exists j. split; [reflexivity|now exists []]. }
  destruct Hm as [->|[->| ->]]; eexists.
  - eexists _, c_node, [VInt 3; VDict []; VList [VDict []; VDict []]]. split; [vm_compute; reflexivity|]. split; [reflexivity|]. split; [|reflexivity].
    constructor; [apply Lf; [auto|vm_compute; reflexivity|now exists 3%Z]|]. constructor; [apply Ln with 1; [auto|vm_compute; reflexivity]|].
    constructor; [|constructor]. exists (PD KProp t_kids false DUndef). split; [exists c_node; split; [now apply D; auto|reflexivity]|].
    assert (Hs : stored w_ring 0 "kids" = Some (VList [VInst 2; VInst 2])) by (vm_compute; reflexivity).
    cbn [pd_kind fst]. rewrite Hs.
    right. split; [discriminate|]. exists [VInst 2; VInst 2], [VDict []; VDict []]. split; [reflexivity|]. split; [|reflexivity].
    assert (K : forall d, encodes_value E1 C3 U3 w_ring (fun _ x => exists d, x = VDict d) t_node (VInst 2) (VDict d)).
    { intros d. right. split; [discriminate|]. exists 2. split; [reflexivity|now exists d]. }
    constructor; [apply K|]. constructor; [apply K|constructor].
  - eexists _, c_node, [VInt 3; VDict []]. split; [vm_compute; reflexivity|]. split; [reflexivity|]. split; [|reflexivity].
    constructor; [apply Lf; [auto|vm_compute; reflexivity|now exists 3%Z]|]. constructor; [apply Ln with 0; [auto|vm_compute; reflexivity]|constructor].
  - eexists _, c_node, [VInt 7]. split; [vm_compute; reflexivity|]. split; [reflexivity|]. split; [|reflexivity].
    constructor; [apply Lf; [auto|vm_compute; reflexivity|now exists 7%Z]|constructor].
Qed.

(** ** Comparison *)
Lemma simple_C3 : simple_types C3.
Proof.
  intros [|[|k]] c name d H K; simpl in H; try discriminate. injection H as <-. cbn [c_props c_node In] in K.
  repeat (destruct K as [K|K]; [injection K as <- <-; cbn; repeat split; auto; discriminate|]). contradiction.
Qed.
Definition reads_all (w : world) (t : list (loc * string * val)) : Prop :=
  Forall (fun x => reads E1 C3 U3 w (fst (fst x)) (snd (fst x)) (snd x)) t.
Definition t_twins : list (loc * string * val) :=
  [(0, "x", VInt 3); (0, "kids", VList [VInst 2; VInst 2]); (0, "next", VInst 2); (0, "old", VInt 3); (0, "sum", VInt 3);
   (1, "x", VInt 3); (1, "kids", VList [VInst 3; VInst 2]); (1, "next", VInst 3); (1, "old", VInt 3); (1, "sum", VInt 3);
   (2, "x", VInt 7); (2, "kids", VNone); (2, "next", VNone); (2, "old", VInt 7); (2, "sum", VInt 7);
   (3, "x", VInt 7); (3, "kids", VNone); (3, "next", VNone); (3, "old", VInt 7); (3, "sum", VInt 7);
   (4, "x", VInt 8); (4, "kids", VNone); (4, "next", VNone); (4, "old", VInt 8); (4, "sum", VInt 8)].
Definition t_knot : list (loc * string * val) :=
  [(0, "x", VInt 3); (0, "kids", VNone); (0, "next", VInst 0); (0, "old", VInt 3); (0, "sum", VInt 3);
   (1, "x", VInt 3); (1, "kids", VNone); (1, "next", VInst 0); (1, "old", VInt 3); (1, "sum", VInt 3)].
Lemma reads_twins : reads_all w_twins t_twins.
Proof. repeat constructor; apply answers_at with (k := 30); intros n; vm_compute; reflexivity. Qed.
Lemma reads_knot : reads_all w_knot t_knot.
Proof. repeat constructor; apply answers_at with (k := 30); intros n; vm_compute; reflexivity. Qed.
Definition covers (n : nat) (t : list (loc * string * val)) : bool :=
  forallb (fun l => forallb (fun s => existsb (fun x => Nat.eqb (fst (fst x)) l && String.eqb (snd (fst x)) s) t) (dkeys (c_props c_node))) (seq 0 n).
Lemma table_reads (P : loc * string * val -> Prop) w t n : reads_all w t -> length (w_heap w) = n -> covers n t = true -> Forall P t ->
  forall l c name d v, has_class C3 w l c -> In (name, d) (c_props c) -> reads E1 C3 U3 w l name v ->
  In (name, d) (c_props c_node) /\ P (l, name, v).
Proof.
  intros Ht Hn Hc HP l c name d v (i & Hi & Hcl) Hd Hv.
  assert (Hl : l < n) by (rewrite <- Hn; apply nth_error_Some; congruence).
  assert (c = c_node) as ->.
  { destruct (i_cls i) as [|[|k]]; simpl in Hcl; try discriminate. now injection Hcl as <-. }
  split; [exact Hd|]. unfold covers in Hc. rewrite forallb_forall in Hc. assert (Hs : In l (seq 0 n)) by (apply in_seq; lia).
  specialize (Hc l Hs). rewrite forallb_forall in Hc. assert (Hk : In name (dkeys (c_props c_node))) by (apply in_map_iff; now exists (name, d)).
  specialize (Hc name Hk). apply existsb_exists in Hc. destruct Hc as (x & Hx & K). apply andb_true_iff in K. destruct K as [K1 K2].
  unfold reads_all in Ht. rewrite Forall_forall in Ht, HP. specialize (Ht x Hx). specialize (HP x Hx). destruct x as [[l' s'] v'].
  cbn [fst snd] in *. apply Nat.eqb_eq in K1. apply String.eqb_eq in K2. subst l' s'. now rewrite (reads_fun _ _ _ _ _ _ _ _ Hv Ht).
Qed.
Ltac each_decl := let K := fresh "K" in let d := fresh "d" in intros d K; cbn [c_props c_node In fst snd] in *;
  repeat (destruct K as [K|K]; [first [discriminate K|injection K as <-]|]); try contradiction.
Lemma comparable_tab w t n : reads_all w t -> length (w_heap w) = n -> covers n t = true ->
  Forall (fun x => forall d, In (snd (fst x), d) (c_props c_node) -> comparable (decl_type d) (snd x)) t -> comparable_state E1 C3 U3 w.
Proof.
  intros Ht Hn Hc HP l c name d v Hl Hd Hv.
  destruct (table_reads _ w t n Ht Hn Hc HP l c name d v Hl Hd Hv) as [K1 K2]. exact (K2 d K1).
Qed.
Ltac table := let xs := fresh "xs" in let Hxs := fresh "H" in repeat (constructor; [each_decl; cbn [decl_type pd_kind pd_type comparable t_x t_kids t_node]; try reflexivity;
  intros xs Hxs; cbn in Hxs; try discriminate; injection Hxs as <-; repeat constructor|]); constructor.
Lemma comparable_twins : comparable_state E1 C3 U3 w_twins.
Proof. apply (comparable_tab w_twins t_twins 5 reads_twins); [vm_compute; reflexivity|reflexivity|]. unfold t_twins. table. Qed.
Lemma comparable_knot : comparable_state E1 C3 U3 w_knot.
Proof. apply (comparable_tab w_knot t_knot 2 reads_knot); [vm_compute; reflexivity|reflexivity|]. unfold t_knot. table. Qed.
Lemma acyclic_rank E C U w (f : loc -> nat) l : (forall x y, compares E C U w x y -> f y < f x) -> acyclic E C U w l.
Proof.
  intros H m k _ Hk Hr. apply H in Hk. assert (K : f m <= f k); [|lia]. clear Hk. induction Hr as [|x y z Hxy Hyz IH]; [lia|]. apply H in Hxy. lia.
Qed.
Lemma acyclic_twins l : acyclic E1 C3 U3 w_twins l.
Proof.
  apply acyclic_rank with (f := fun l => 10 - l). intros x y (c & name & d & v & Hc & Hd & Hv & Hh).
  destruct (table_reads (fun t => forall d, In (snd (fst t), d) (c_props c_node) -> forall m, holds_inst (decl_type d) (snd t) m -> 10 - m < 10 - fst (fst t))
    w_twins t_twins 5 reads_twins ltac:(vm_compute; reflexivity) eq_refl) with (l := x) (c := c) (name := name) (d := d) (v := v) as [K1 K2]; auto.
  - unfold t_twins. repeat (constructor; [each_decl; cbn [decl_type pd_kind pd_type t_x t_kids t_node holds_inst]; intros m Hm; try contradiction; try discriminate;
      try (injection Hm as <-; lia); destruct Hm as (xs & z & Hxs & Hz & Hm); cbn in Hxs; try discriminate; injection Hxs as <-;
      cbn [In] in Hz; repeat (destruct Hz as [Hz|Hz]; [subst z; injection Hm as <-; lia|]); contradiction|]). constructor.
  - exact (K2 d K1 y Hh).
Qed.
Lemma equal_at w l m r : settled E1 C3 U3 w -> l < length (w_heap w) -> m < length (w_heap w) ->
  answers (fun n => exec E1 C3 U3 n (COp (OEqual (VInst l) (VInst m)))) w r ->
  ends (fun n => exec E1 C3 U3 n (COp (OEqual (VInst l) (VInst m)))) w r.
Proof.
  intros S Hl Hm A. destruct (equal_ends E1 C3 U3 w l m S Hl Hm) as (r' & R & _).
  now rewrite (answers_fun _ _ _ _ A (ends_answers _ _ _ R)).
Qed.
Lemma knot_asymmetric : exists E C U w l m, settled E C U w /\ e_idle w /\ simple_types C /\ comparable_state E C U w /\
  ends (fun n => exec E C U n (COp (OEqual (VInst l) (VInst m)))) w (Ok (VBool false)) /\
  ends (fun n => exec E C U n (COp (OEqual (VInst m) (VInst l)))) w (Ok (VBool true)).
Proof.
  exists E1, C3, U3, w_knot, 0, 1. split; [exact settled_knot|]. split; [apply e_idle_intro; vm_compute; reflexivity|].
  split; [exact simple_C3|]. split; [exact comparable_knot|].
  split; (apply equal_at; [exact settled_knot|vm_compute; lia|vm_compute; lia|apply answers_at with (k := 30); intros n; vm_compute; reflexivity]).
Qed.
(** The first float takes the only partner of the second. *)
Lemma bags_greedy : exists E C U w l m, settled E C U w /\ e_idle w /\ acyclic E C U w l /\ acyclic E C U w m /\
  equals E C U w l m /\ ends (fun n => exec E C U n (COp (OEqual (VInst l) (VInst m)))) w (Ok (VBool false)).
Proof.
  exists E1, C5, U3, w_bags, 0, 1. split; [exact settled_bags|]. split; [apply e_idle_intro; vm_compute; reflexivity|].
  assert (NC : forall x y, ~ compares E1 C5 U3 w_bags x y).
  { intros x y (c & name & d & v & (i & Hi & Hc) & Hd & _ & Hh). destruct (i_cls i) as [|[|k]]; simpl in Hc; try discriminate. injection Hc as <-.
    destruct Hd as [K|[]]. injection K as <- <-. destruct Hh as (xs & z & _ & _ & []). }
  assert (A : forall l, acyclic E1 C5 U3 w_bags l) by (intros l m k _ K; now apply NC in K).
  split; [apply A|]. split; [apply A|]. split.
  - apply (equals_intro E1 C5 U3 w_bags (fun _ _ => False)); [intros x y []|]. right.
    eexists _, _, c_bag. split; [vm_compute; reflexivity|]. split; [vm_compute; reflexivity|]. split; [reflexivity|]. split; [reflexivity|].
    intros name d Hd. destruct Hd as [K|[]]; injection K as <- <-.
    exists (VSet [VFloat fzero; VFloat f_more]), (VSet [VFloat f_one; VFloat f_minus]).
    split; [apply answers_at with (k := 30); intros n; vm_compute; reflexivity|].
    split; [apply answers_at with (k := 30); intros n; vm_compute; reflexivity|]. right. split; [discriminate|]. split; [discriminate|].
    exists [VFloat fzero; VFloat f_more], [VFloat f_one; VFloat f_minus], [VFloat f_minus; VFloat f_one].
    split; [reflexivity|]. split; [reflexivity|]. split; [right; split; [reflexivity|constructor]|].
    repeat constructor; vm_compute; reflexivity.
  - destruct (equal_ends E1 C5 U3 w_bags 0 1 settled_bags) as (r & R & _); [vm_compute; lia|vm_compute; lia|].
    assert (K : answers (fun n => exec E1 C5 U3 n (COp (OEqual (VInst 0) (VInst 1)))) w_bags (Ok (VBool false)))
      by (apply answers_at with (k := 30); intros n; vm_compute; reflexivity).
    now rewrite (answers_fun _ _ _ _ K (ends_answers _ _ _ R)).
Qed.
