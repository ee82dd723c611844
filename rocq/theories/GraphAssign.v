(** Assignments of values with instances that the property refuses. *)
From Verif Require Import World WorldFrame WorldSpec WorldInv WorldSet WorldFacts AccessSpec GraphSpec GraphConv GraphFacts GraphValidate GraphValid GraphSerial GraphCycle GraphEqual.
Local Open Scope string_scope.
Local Open Scope list_scope.
Local Open Scope nat_scope.

Lemma assign_decided E C U w : settled E C U w -> forall l name d v,
  declares C w l name d -> pd_kind d = KProp -> is_undef v = false -> below (length (w_heap w)) v = true -> calm E (pd_type d) v ->
  (exists v0, ends (fun n => p_validate E C (exec E C U n) (pd_type d) (Some l) name v) w (Ok v0)) \/
  (exists e, ends (fun n => exec E C U n (COp (OSet l name v))) w (Exc e)).
Proof.
  intros S l name d v D K U0 B Ca.
  assert (T : there w (Some l)).
  { intros m Q. injection Q as <-. apply nth_error_Some. eapply declares_heap; eauto. }
  destruct (tot_validate E C U (fun i => i) (fun i j Q => f_equal bare Q) (pd_type d) (Some l) name v w S T B Ca) as ([v0|e] & V & _).
  - left. exists v0. eapply conv_ends; eauto.
  - right. exists e. apply conv_ends in V as [n0 V]. exists (Datatypes.S n0). intros [|n] Hn; [lia|].
    destruct (V n ltac:(lia)) as (w' & V1 & V2). exists w'. split; [|exact V2].
    rewrite (setattr_prop E C U n l name d v w D K). unfold prop_fset. rewrite U0. unfold bind. now rewrite V1.
Qed.

Definition putting (name : string) (v : val) (i : inst) : inst :=
  i_setback (if is_undef v then ddel (i_back i) name else dset (i_back i) name v) i.
Lemma put_stored w l name v l' n' : nth_error (w_heap w) l <> None ->
  stored (w_upd l (putting name v) w) l' n' = if Nat.eqb l l' && String.eqb name n' then when_set v else stored w l' n'.
Proof.
  intros Hl. unfold stored. destruct (Nat.eqb_spec l l') as [<-|Hne].
  - rewrite w_upd_nth_same. destruct (nth_error (w_heap w) l) as [i|]; [|congruence]. unfold putting, when_set. simpl.
    destruct (String.eqb_spec name n') as [<-|Hnn].
    + destruct (is_undef v); [apply dget_ddel_same|apply dget_dset_same].
    + destruct (is_undef v); [apply dget_ddel_other|apply dget_dset_other]; auto.
  - rewrite w_upd_nth_other by auto. reflexivity.
Qed.
Lemma put_length w l name v : length (w_heap (w_upd l (putting name v) w)) = length (w_heap w).
Proof. unfold w_upd. destruct (nth_error (w_heap w) l) eqn:Q; [|reflexivity]. cbn. now apply set_nth_length. Qed.
(** every object but [l] is as before; [l] differs in what is stored *)
Lemma put_nth w l name v k j : nth_error (w_heap (w_upd l (putting name v) w)) k = Some j ->
  exists i, nth_error (w_heap w) k = Some i /\ i_cls j = i_cls i /\ i_lst j = i_lst i /\ i_attrs j = i_attrs i /\
    forall n x, dget (i_back j) n = Some x -> dget (i_back i) n = Some x \/ (k = l /\ n = name /\ x = v).
Proof.
  intros H. destruct (Nat.eq_dec l k) as [<-|Hne].
  - rewrite w_upd_nth_same in H. destruct (nth_error (w_heap w) l) as [i|]; [|discriminate]. injection H as <-. exists i.
    split; [reflexivity|]. unfold putting. simpl. repeat split; auto. intros n x Hx.
    destruct (String.eqb_spec name n) as [Q|Q].
    + subst n. destruct (is_undef v); [rewrite dget_ddel_same in Hx; discriminate|]. rewrite dget_dset_same in Hx. injection Hx as <-. auto.
    + left. destruct (is_undef v); [rewrite dget_ddel_other in Hx by auto|rewrite dget_dset_other in Hx by auto]; exact Hx.
  - rewrite w_upd_nth_other in H by auto. exists j. repeat split; auto.
Qed.
Lemma settled_put E C U w l name d v : settled E C U w -> declares C w l name d -> pd_kind d = KProp ->
  below (length (w_heap w)) v = true -> calm E (pd_type d) v -> settled E C U (w_upd l (putting name v) w).
Proof.
  intros S D K B Ca. constructor; rewrite ?put_length.
  - intros k j Hj. destruct (put_nth _ _ _ _ _ _ Hj) as (i & Hi & Hc & _). rewrite Hc. eapply st_class; eauto.
  - intros k j n x Hj Hx. destruct (put_nth _ _ _ _ _ _ Hj) as (i & Hi & _ & _ & _ & Hb).
    destruct (Hb n x Hx) as [Hb'|(_ & _ & ->)]; [eapply st_back; eauto|exact B].
  - intros k j n x Hj Hx. destruct (put_nth _ _ _ _ _ _ Hj) as (i & Hi & _ & _ & Ha & _). rewrite Ha in Hx. eapply st_attrs; eauto.
  - exact (st_cattrs _ _ _ _ S).
  - intros k n d' x (c & (j & Hj & Hc) & Hd) Hk Hx. destruct (put_nth _ _ _ _ _ _ Hj) as (i & Hi & Hcl & _ & _ & Hb). rewrite Hcl in Hc.
    unfold stored in Hx. rewrite Hj in Hx. destruct (Hb n x Hx) as [Hb'|(-> & -> & ->)].
    + eapply st_calm; [exact S|exists c; split; [exists i|]; eauto|exact Hk|]. unfold stored. now rewrite Hi.
    + destruct D as (c' & (i' & Hi' & Hc') & Hd'). assert (d' = d) as -> by congruence. exact Ca.
  - exact (st_spare _ _ _ _ S).
  - exact (st_renamed _ _ _ _ S).
  - exact (st_getters _ _ _ _ S).
  - intros k j x Hj Hx. destruct (put_nth _ _ _ _ _ _ Hj) as (i & Hi & _ & Hl & _). rewrite Hl in Hx. eapply st_validators; eauto.
  - exact (st_cvals _ _ _ _ S).
Qed.
Lemma like_same w w1 : like same w w1 -> unchanged w w1.
Proof.
  intros ((h & g & H & M) & Q & L). unfold same in M. rewrite !map_id in M. subst h. repeat split; auto. now exists g.
Qed.
Lemma unchanged_like w w1 : unchanged w w1 -> like same w w1.
Proof. intros H. eapply like_unchanged; [apply like_refl|exact H]. Qed.
Lemma notify_none E C U n sid l name prev v m w : registered w l name m = [] -> nth_error (w_heap w) l <> None ->
  notify (exec E C U (S n)) sid l name prev v m w = (Ok v, w).
Proof.
  intros Hr Hl. unfold notify, bind, get_w. destruct (mode_in m (w_quar w)); [reflexivity|].
  cbn [exec step]. unfold bind, get_inst. unfold registered in Hr. destruct (nth_error (w_heap w) l) as [i|]; [|congruence].
  unfold listeners_of. rewrite Hr. reflexivity.
Qed.
Lemma unchanged_stored w w' l n : unchanged w w' -> l < length (w_heap w) -> stored w' l n = stored w l n.
Proof. intros ((m & H) & _) Hl. unfold stored. now rewrite H, nth_error_app1. Qed.
Lemma unchanged_registered w w' l n m : unchanged w w' -> l < length (w_heap w) -> registered w' l n m = registered w l n m.
Proof. intros ((k & H) & _) Hl. unfold registered. now rewrite H, nth_error_app1. Qed.

Lemma assign_graph E C U w : settled E C U w -> forall l name d v,
  declares C w l name d -> pd_kind d = KProp -> is_undef v = false -> below (length (w_heap w)) v = true -> calm E (pd_type d) v ->
  (forall m, registered w l name m = []) ->
  forall v0, ends (fun n => p_validate E C (exec E C U n) (pd_type d) (Some l) name v) w (Ok v0) -> calm E (pd_type d) v0 ->
  exists r depth, forall n, depth <= n -> exists w', exec E C U n (COp (OSet l name v)) w = (r, w') /\
    unchanged (w_upd l (putting name v0) w) w' /\
    (r = Ok VNone \/ exists e x, r = Exc e /\ stored w l name = Some x /\
       answers (fun n => p_equal (exec E C U n) (pd_type d) x v0) (w_upd l (putting name v0) w) (Exc e)).
Proof.
  intros S l name d v D K U0 B Ca Reg v0 V C0.
  pose proof (declares_heap C w l name d D) as Hl. assert (Ll : l < length (w_heap w)) by (now apply nth_error_Some).
  assert (T : there w (Some l)) by (intros m Q; now injection Q as <-).
  assert (B0 : below (length (w_heap w)) v0 = true).
  { destruct (tot_validate E C U same (fun i j Q => f_equal bare Q) (pd_type d) (Some l) name v w S T B Ca) as (r & V1 & V2).
    destruct V as [a V]. destruct V1 as [b V1]. destruct (V (max a b)) as (x & Hx & _); [lia|].
    destruct (V1 (max a b) ltac:(lia) w (like_refl same w)) as (y & Hy & _). assert (r = Ok v0) as -> by congruence. exact V2. }
  set (b := w_upd l (putting name v0) w). pose proof (settled_put E C U w l name d v0 S D K B0 C0) as Sb. fold b in Sb.
  set (prev := match stored w l name with Some x => x | None => VUndef end).
  assert (Lb : length (w_heap b) = length (w_heap w)) by apply put_length.
  (* comparing *)
  assert (Q : exists r, conv same (fun n => if is_undef prev && is_undef v0 then ret false
      else if is_undef prev || is_undef v0 then ret true else let* e := p_equal (exec E C U n) (pd_type d) prev v0 in ret (negb e)) b r /\
      forall e, r = Exc e -> exists x, stored w l name = Some x /\ answers (fun n => p_equal (exec E C U n) (pd_type d) x v0) b (Exc e)).
  { destruct (is_undef prev && is_undef v0); [eexists; split; [apply conv_ret|discriminate]|].
    destruct (is_undef prev || is_undef v0) eqn:U1; [eexists; split; [apply conv_ret|discriminate]|].
    assert (P : stored w l name = Some prev).
    { unfold prev in *. destruct (stored w l name); [reflexivity|discriminate]. }
    assert (Bp : below (length (w_heap b)) prev = true).
    { rewrite Lb. unfold stored in P. destruct (nth_error (w_heap w) l) as [i|] eqn:Hi; [|discriminate]. eapply st_back; eauto. }
    assert (Bb : base b b) by (repeat split).
    destruct (equal_value_gives E C U b b _ (fun x y => equal_inst E C U b Sb _ b eq_refl Bb x y) (pd_type d) prev v0 Bp)
      as ([t|e] & R & _); [now rewrite Lb| |].
    - exists (Ok (negb t)). split; [|discriminate]. eapply conv_bind; [exact R|]. apply conv_ret.
    - exists (Exc e). split; [now apply conv_bind_exc|]. intros e' Q'. injection Q' as <-. exists prev. split; [exact P|]. eapply conv_answers; exact R. }
  destruct Q as (r & [n2 R] & Re). destruct V as [n1 V].
  exists (match r with Ok _ => Ok VNone | Exc e => Exc e end), (2 + max n1 n2). intros [|[|n]] Hn; [lia|lia|].
  destruct (V (Datatypes.S n) ltac:(lia)) as (w1 & V1 & Un). 
  rewrite (setattr_prop E C U (Datatypes.S n) l name d v w D K). unfold prop_fset. rewrite U0. unfold bind at 1. rewrite V1.
  unfold has_set. unfold bind at 1, tick.
  assert (Ut : unchanged w (w_tick w1)) by (eapply unchanged_trans; [exact Un|apply unchanged_tick]).
  assert (H1 : nth_error (w_heap (w_tick w1)) l = nth_error (w_heap w) l).
  { destruct Ut as ((m & Hm) & _). rewrite Hm. now apply nth_error_app1. }
  unfold bind at 1, get_inst. rewrite H1. destruct (nth_error (w_heap w) l) as [i|] eqn:Hi; [|congruence].
  assert (Hp : match dget (i_back i) name with Some x => x | None => VUndef end = prev) by (unfold prev, stored; now rewrite Hi).
  rewrite Hp. unfold bind at 1.
  rewrite notify_none; [|rewrite (unchanged_registered w); auto|rewrite H1; discriminate].
  set (w3 := w_emit (EWrite (w_clock w1) l name v0) (w_upd l (putting name v0) (w_tick w1))).
  assert (L3 : like same b w3).
  { eapply like_unchanged; [|apply unchanged_emit]. apply like_upd; [exact Ll| |now apply unchanged_like].
    unfold same. intros; now subst. }
  unfold bind at 1, upd at 1, mod_w at 1. unfold bind at 1, mod_w at 1.
  change (w_upd l _ (w_tick w1)) with (w_upd l (putting name v0) (w_tick w1)). fold w3.
  destruct (R (Datatypes.S n) ltac:(lia) w3 L3) as (w4 & R4 & U4).
  unfold bind at 1. unfold bind at 1 in R4. 
  assert (U3 : unchanged b w4) by (eapply unchanged_trans; [apply like_same; exact L3|exact U4]).
  assert (Hl4 : nth_error (w_heap w4) l <> None).
  { destruct U3 as ((m & Hm) & _). rewrite Hm, nth_error_app1 by lia. apply nth_error_Some. lia. }
  assert (R5 : forall m, registered w4 l name m = []).
  { intros m. rewrite (unchanged_registered b); [|exact U3|lia]. specialize (Reg m). unfold registered, b in *. rewrite w_upd_nth_same.
    rewrite Hi in *. exact Reg. }
  unfold bind in R4 |- *. rewrite R4. exists w4. destruct r as [c|e].
  - split; [|split; [exact U3|now left]].
    destruct c; [rewrite notify_none by auto|unfold ret at 1]; rewrite notify_none by auto; reflexivity.
  - split; [reflexivity|]. split; [exact U3|]. right. destruct (Re e eq_refl) as (x & X1 & X2). exists e, x. auto.
Qed.
Lemma assign_graph_stored E C U w : settled E C U w -> forall l name d v,
  declares C w l name d -> pd_kind d = KProp -> is_undef v = false -> below (length (w_heap w)) v = true -> calm E (pd_type d) v ->
  (forall m, registered w l name m = []) ->
  forall v0, ends (fun n => p_validate E C (exec E C U n) (pd_type d) (Some l) name v) w (Ok v0) -> calm E (pd_type d) v0 ->
  let put w' := forall l' n', l' < length (w_heap w) -> stored w' l' n' = if Nat.eqb l l' && String.eqb name n' then when_set v0 else stored w l' n' in
  exists r depth, (forall n, depth <= n -> exists w', exec E C U n (COp (OSet l name v)) w = (r, w') /\ put w') /\
    (r = Ok VNone \/ exists e x w2, r = Exc e /\ stored w l name = Some x /\ put w2 /\
       answers (fun n => p_equal (exec E C U n) (pd_type d) x v0) w2 (Exc e)).
Proof.
  intros S l name d v D K U0 B Ca Reg v0 V C0. cbv zeta. pose proof (declares_heap C w l name d D) as Hl.
  destruct (assign_graph E C U w S l name d v D K U0 B Ca Reg v0 V C0) as (r & depth & H). exists r, depth. split.
  - intros n Hn. destruct (H n Hn) as (w' & H1 & H2 & _). exists w'. split; [exact H1|]. intros l' n' Hl'.
    rewrite (unchanged_stored _ _ l' n' H2) by (now rewrite put_length). now apply put_stored.
  - destruct (H depth (le_n _)) as (w' & _ & _ & [->|(e & x & -> & Hx & A)]); [now left|right]. exists e, x, (w_upd l (putting name v0) w).
    repeat split; auto. intros l' n' _. now apply put_stored.
Qed.
