(** Facts about the round trip: copies, and values of one property. *)
From Verif Require Import World WorldFrame WorldSpec WorldFacts AccessSpec ContainerFacts BasicSpec GraphSpec GraphConv GraphHelp RoundSpec RoundLeaf.
Local Open Scope string_scope.
Local Open Scope list_scope.
Local Open Scope nat_scope.

Lemma unchanged_nth w w' l i : unchanged w w' -> nth_error (w_heap w) l = Some i -> nth_error (w_heap w') l = Some i.
Proof. intros ((g & ->) & _) H. rewrite nth_error_app1; auto. apply nth_error_Some. congruence. Qed.
Lemma unchanged_len w w' : unchanged w w' -> length (w_heap w) <= length (w_heap w').
Proof. intros ((g & ->) & _). rewrite app_length. lia. Qed.

Lemma copies_mono (G G' : loc -> loc -> Prop) p : (forall l m, G l m -> G' l m) -> forall a b, copies_value G p a b -> copies_value G' p a b.
Proof.
  intros HG. induction p as [t|k q mn mx co IH|kp vp co IHk IHv|si ps IH|cid] using ptype_ind'; intros a b; cbn [copies_value].
  - auto.
  - intros (xs & ys & Ha & Hb & HF & Hd). exists xs, ys. split; [exact Ha|]. split; [exact Hb|]. split; [|exact Hd]. clear - HF IH. induction HF; constructor; auto.
  - intros (da & db & Ha & Hb & HF). exists da, db. split; [exact Ha|]. split; [exact Hb|]. clear - HF IHv. induction HF as [|x y l l' [H1 H2] HF IHF]; constructor; auto.
  - induction IH as [|q ps Hq Hps IHps]; [auto|]. intros [H|H]; [left; now apply Hq|right; now apply IHps].
  - intros (l & m & Ha & Hb & H). exists l, m. auto.
Qed.
Lemma copied_mono C N N' w w' w'' l m : N' <= N -> unchanged w' w'' -> copied C N w w' l m -> copied C N' w w'' l m.
Proof.
  intros HN HU. induction 1 as [G l m i k HG IH Hm Hi Hk Hc Hp].
  apply (copied_intro C N' w w'' G l m i k); auto; [lia|eapply unchanged_nth; eauto|].
  intros name d Hd. specialize (Hp name d Hd).
  assert (K : held w'' m name = held w' m name).
  { unfold held, stored. rewrite Hk. now rewrite (unchanged_nth _ _ _ _ HU Hk). }
  rewrite K. exact Hp.
Qed.
Lemma copied_at C N w w' l m : copied C N w w' l m -> N <= m < length (w_heap w') /\
  exists i k, nth_error (w_heap w) l = Some i /\ nth_error (w_heap w') m = Some k /\ i_cls k = i_cls i.
Proof.
  destruct 1 as [G l m i k HG Hm Hi Hk Hc Hp]. split; [|eauto 6]. split; auto. apply nth_error_Some. congruence.
Qed.

(** * Distinctness *)
Lemma copies_hashable (G : loc -> loc -> Prop) p : forall a b, copies_value G p a b -> hashable a = hashable b.
Proof.
  induction p as [t|k q mn mx co IH|kp vp co IHk IHv|si ps IH|cid] using ptype_ind'; intros a b; cbn [copies_value].
  - now intros ->.
  - intros (xs & ys & Ha & Hb & HF & _). unfold of_kind in *. subst. destruct k; cbn [hashable]; auto.
    induction HF as [|x y l l' H HF IHF]; cbn [forallb]; auto. now rewrite (IH _ _ H), IHF.
  - intros (da & db & -> & -> & _). reflexivity.
  - induction IH as [|q ps Hq Hps IHps]; [intros []|]. intros [H|H]; [now apply Hq|now apply IHps].
  - intros (l & m & -> & -> & _). reflexivity.
Qed.
Definition eq_list : list val -> list val -> bool :=
  fix eql (l1 l2 : list val) {struct l1} : bool :=
    match l1, l2 with
    | [], [] => true
    | x :: r1, y :: r2 => py_eq x y && eql r1 r2
    | _, _ => false
    end.
Lemma py_eq_tuple l k : py_eq (VTuple l) (VTuple k) = eq_list l k.
Proof. reflexivity. Qed.
(** copies at different places are equal only if the originals are *)
Lemma copies_apart C w w1 w2 N p : no_union p -> forall a b a' b', hashable a = true ->
  copies_value (copied C N w w1) p a b -> copies_value (copied C (length (w_heap w1)) w w2) p a' b' ->
  py_eq b b' = true -> py_eq a a' = true.
Proof.
  induction p as [t|k q mn mx co IH|kp vp co IHk IHv|si ps IH|cid] using ptype_ind'; intros Hu a b a' b' Hh; cbn [copies_value no_union] in *.
  - now intros -> ->.
  - intros (xs & ys & Ha & Hb & HF & _) (xs' & ys' & Ha' & Hb' & HF' & _). unfold of_kind in *. subst. destruct k; try discriminate Hh.
    rewrite !py_eq_tuple. cbn [hashable] in Hh. revert xs' ys' HF'. induction HF as [|x y l l' H HF IHF]; intros xs' ys' HF'; inversion HF'; subst; cbn [eq_list]; auto; try discriminate.
    cbn [forallb] in Hh. apply andb_prop in Hh as [Hh1 Hh2]. intros K. apply andb_prop in K as [K1 K2].
    apply andb_true_intro. split; [eapply IH; eauto|eapply IHF; eauto].
  - intros (da & db & -> & _). discriminate.
  - destruct Hu.
  - intros (l & m & -> & -> & H) (l' & m' & -> & -> & H'). cbn [py_eq]. intros K. apply Nat.eqb_eq in K. subst m'.
    apply copied_at in H as [H _]. apply copied_at in H' as [H' _]. lia.
Qed.

(** * Comparing with a default *)
Definition shaped_leaf (t : leaf) (v : val) : Prop :=
  match t with
  | LfFloat _ _ _ => exists f, v = VFloat f
  | LfComplex _ => exists a b, v = VComplex a b
  | _ => True
  end.
Fixpoint shaped (p : ptype) (v : val) : Prop :=
  match p with
  | PLeaf t => shaped_leaf t v
  | PSeq k q _ _ _ => exists items, of_kind k v items /\ Forall (shaped q) items
  | PDict _ vp _ => exists d, v = VDict d /\ Forall (fun kx => shaped vp (snd kx)) d
  | _ => False
  end.
Lemma shaped_typed C p : inst_free p -> no_union p -> forall v, has_type C [] p v -> shaped p v.
Proof.
  induction p as [t|k q mn mx co IH|kp vp co IHk IHv|si ps IH|cid] using ptype_ind'; intros Hi Hu v; cbn [has_type shaped inst_free no_union] in *.
  - destruct t; cbn [leaf_typed shaped_leaf]; auto. intros (f & -> & _). eauto.
  - intros (l & HF & Hk). exists l. split; [destruct k; cbn; intuition|]. eapply Forall_impl; [|exact HF]. auto.
  - destruct Hi, Hu. intros (d & -> & HF). exists d. split; auto. eapply Forall_impl; [|exact HF]. intros kx [_ K]. auto.
  - destruct Hu.
  - destruct Hi.
Qed.
Lemma mapM_const {A B} (f : A -> M B) l w : Forall (fun x => exists y, f x w = (Ok y, w)) l -> exists ys, mapM f l w = (Ok ys, w).
Proof.
  induction 1 as [|x l (y & Hy) HF (ys & IH)]; cbn [mapM]; [exists []; reflexivity|].
  exists (y :: ys). rewrite (bind_ok _ _ _ _ _ Hy), (bind_ok _ _ _ _ _ IH). reflexivity.
Qed.
Lemma equal_total rec w p : inst_free p -> no_union p -> forall a b, shaped p a -> shaped p b ->
  exists t, p_equal rec p a b w = (Ok t, w).
Proof.
  induction p as [t|k q mn mx co IH|kp vp co IHk IHv|si ps IH|cid] using ptype_ind'; intros Hi Hu a b Ha Hb; cbn [p_equal shaped inst_free no_union] in *.
  - unfold lift. destruct t; cbn [leaf_equal shaped_leaf] in *; try (eexists; reflexivity).
    + destruct Ha as (f & ->), Hb as (g & ->). eexists. reflexivity.
    + destruct Ha as (f & f' & ->), Hb as (g & g' & ->). eexists. reflexivity.
  - destruct Ha as (xs & Ha & Fa), Hb as (ys & Hb & Fb). unfold of_kind in *.
    assert (La : lift (py_iter a) w = (Ok xs, w)) by (subst a; destruct k; reflexivity).
    assert (Lb : lift (py_iter b) w = (Ok ys, w)) by (subst b; destruct k; reflexivity).
    assert (Seq : forall h, exists t, try_ (let* la := lift (py_iter a) in
              let* lb := lift (py_iter b) in
              if negb (Nat.eqb (length la) (length lb)) then ret false
              else let* bs := mapM (fun xy => p_equal rec q (fst xy) (snd xy)) (combine la lb) in
                   ret (forallb (fun b => b) bs)) h w = (Ok t, w)).
    { intros h. unfold try_. rewrite (bind_ok _ _ _ _ _ La), (bind_ok _ _ _ _ _ Lb). destruct (negb _); [eexists; reflexivity|].
      destruct (mapM_const (fun xy => p_equal rec q (fst xy) (snd xy)) (combine xs ys) w) as (bs & Hbs).
      { apply Forall_forall. intros [x y] Hin. rewrite Forall_forall in Fa, Fb. apply IH; auto; [apply Fa; eapply in_combine_l; eauto|apply Fb; eapply in_combine_r; eauto]. }
      rewrite (bind_ok _ _ _ _ _ Hbs). eexists. reflexivity. }
    destruct k; [apply Seq|apply Seq|]. clear Seq. unfold try_. rewrite (bind_ok _ _ _ _ _ La), (bind_ok _ _ _ _ _ Lb).
    destruct (negb _); [eexists; reflexivity|]. subst b.
    assert (Tk : forall x copy, shaped q x -> Forall (shaped q) copy -> exists o, take_first (fun y => p_equal rec q x y) copy w = (Ok o, w) /\
       match o with Some r => Forall (shaped q) r | None => True end).
    { intros x copy Hx. induction 1 as [|y copy Hy Hc IHc]; cbn [take_first]; [exists None; split; [reflexivity|exact I]|].
      destruct (IH Hi Hu x y Hx Hy) as (t & Ht). rewrite (bind_ok _ _ _ _ _ Ht). destruct t; [exists (Some copy); split; [reflexivity|exact Hc]|].
      destruct IHc as (o & Ho & Hr). rewrite (bind_ok _ _ _ _ _ Ho). eexists. split; [reflexivity|]. destruct o; auto. }
    match goal with |- exists t, (match bind (?g xs ys) _ w with _ => _ end) = _ => set (go := g) end.
    assert (Go : forall la, Forall (shaped q) la -> forall copy, Forall (shaped q) copy -> exists r, go la copy w = (Ok r, w)).
    { induction 1 as [|x la Hx Hla IHla]; intros copy Hc; [exists copy; reflexivity|].
      change (go (x :: la) copy) with (let* o := take_first (fun y => p_equal rec q x y) copy in go la (match o with Some c => c | None => copy end)).
      destruct (Tk x copy Hx Hc) as (o & Ho & Hr). rewrite (bind_ok _ _ _ _ _ Ho). apply IHla. destruct o; auto. }
    destruct (Go xs Fa ys Fb) as (r & Hr). rewrite (bind_ok _ _ _ _ _ Hr). eexists. reflexivity.
  - destruct Ha as (da & -> & Fa), Hb as (db & -> & Fb), Hi as [_ Hi], Hu as [_ Hu]. unfold try_. destruct (negb _); [eexists; reflexivity|].
    assert (K : (exists bs, mapM (fun kx => match vd_get db (fst kx) with Some y => p_equal rec vp (snd kx) y | None => throw ExKey end) da w = (Ok bs, w)) \/
                mapM (fun kx => match vd_get db (fst kx) with Some y => p_equal rec vp (snd kx) y | None => throw ExKey end) da w = (Exc ExKey, w)).
    { clear IHk. induction Fa as [|[k x] da Hx Fa IHa]; cbn [mapM]; [left; exists []; reflexivity|]. cbn [fst snd] in *.
      destruct (vd_get db k) as [y|] eqn:Ey; [|right; reflexivity].
      assert (Hy : shaped vp y).
      { clear - Ey Fb. induction Fb as [|[k' y'] db Hy Fb IHb]; cbn [vd_get] in Ey; [discriminate|]. destruct (py_eq k' k); [injection Ey as <-; exact Hy|auto]. }
      destruct (IHv Hi Hu x y Hx Hy) as (t & Ht). rewrite (bind_ok _ _ _ _ _ Ht). destruct IHa as [(bs & Hbs)|He].
      - left. rewrite (bind_ok _ _ _ _ _ Hbs). eexists. reflexivity.
      - right. unfold bind at 1. now rewrite He. }
    destruct K as [(bs & Hbs)|He]; [rewrite (bind_ok _ _ _ _ _ Hbs); eexists; reflexivity|]. unfold bind. rewrite He. eexists. reflexivity.
  - destruct Ha.
  - destruct Ha.
Qed.
Lemma shaped_leaf_portable E t v : portable_leaf E t v -> shaped_leaf t v.
Proof.
  intros [Hv _]. specialize (Hv 0). destruct t; cbn [shaped_leaf]; auto; cbn [leaf_validate] in Hv.
  - unfold float_validate in Hv. destruct (py_float E v) as [z|e]; [|destruct e; discriminate].
    destruct (if cast then _ else _) as [[|]|e]; try discriminate; [|destruct e; discriminate].
    destruct in_bounds; [|discriminate]. apply lok_inj in Hv. eauto.
  - unfold complex_validate in Hv. destruct (py_complex E v) as [[a b]|e]; [|destruct e; discriminate].
    destruct (if cast then _ else _) as [[|]|e]; try discriminate; [|destruct e; discriminate]. apply lok_inj in Hv. eauto.
Qed.
Lemma shaped_portable E C U so d_o w p : inst_free p -> no_union p -> forall v, portable E C U so d_o w p v -> shaped p v.
Proof.
  induction p as [t|k q mn mx co IH|kp vp co IHk IHv|si ps IH|cid] using ptype_ind'; intros Hi Hu v; cbn [portable shaped inst_free no_union] in *.
  - apply shaped_leaf_portable.
  - intros (l & Hl & HF & _). exists l. split; auto. eapply Forall_impl; [|exact HF]. auto.
  - destruct Hi, Hu. intros (t & d & _ & _ & -> & _ & HF). exists d. split; auto. eapply Forall_impl; [|exact HF]. intros kx [_ K]. auto.
  - destruct Hu.
  - destruct Hi.
Qed.
Lemma copies_free G p : inst_free p -> no_union p -> forall a b, copies_value G p a b -> b = a.
Proof.
  induction p as [t|k q mn mx co IH|kp vp co IHk IHv|si ps IH|cid] using ptype_ind'; intros Hi Hu a b; cbn [copies_value inst_free no_union] in *.
  - auto.
  - intros (xs & ys & Ha & Hb & HF & _). unfold of_kind in *. assert (xs = ys) by (clear - HF IH Hi Hu; induction HF; f_equal; auto; symmetry; auto). now subst.
  - destruct Hi, Hu. intros (da & db & -> & -> & HF). f_equal. clear - HF IHv H0 H2. induction HF as [|[] [] l l' [H1 H3] HF IHF]; f_equal; auto.
    cbn in *. subst. f_equal. auto.
  - destruct Hu.
  - destruct Hi.
Qed.
