(** Facts about the comparison of a copy with the original. *)
From Verif Require Import World WorldFrame WorldSpec AccessSpec BasicSpec GraphSpec GraphFacts GraphConv GraphHelp RoundSpec RoundFacts RoundGraph.
Local Open Scope string_scope.
Local Open Scope list_scope.
Local Open Scope nat_scope.

(** * Leaves *)
Lemma leaf_equal_self t a : exists r, leaf_equal t a a = Ok r.
Proof.
  destruct t; cbn [leaf_equal]; eauto.
  - unfold float_equal. destruct (as_num a) as [[z|f]|]; cbn [absdiff rbind py_float_num]; eauto.
  - unfold complex_equal. destruct a; cbn [re_im absdiff rbind py_float_num]; eauto.
Qed.
Lemma leaf_equal_inst t l m : exists r, leaf_equal t (VInst l) (VInst m) = Ok r.
Proof. destruct t; cbn [leaf_equal]; eauto; unfold float_equal, complex_equal; cbn; eauto. Qed.
Lemma leaf_made E r t v v' N : t <> LfAny -> leaf_validate E r t v = LOk v' -> below N v' = true.
Proof.
  intros H. destruct t; cbn [leaf_validate]; [congruence|..].
  - unfold bool_validate. destruct cast; [intros K; now injection K as <-|]. destruct v; try discriminate; intros K; now injection K as <-.
  - unfold int_validate. destruct (py_int v) as [z|e]; [|destruct e; discriminate].
    destruct (if cast then _ else _) as [[|]|e]; [discriminate| |destruct e; discriminate].
    destruct in_bounds; [|discriminate]. intros K. now injection K as <-.
  - unfold float_validate. destruct (py_float E v) as [z|e]; [|destruct e; discriminate].
    destruct (if cast then _ else _) as [[|]|e]; [discriminate| |destruct e; discriminate].
    destruct in_bounds; [|discriminate]. intros K. now injection K as <-.
  - unfold complex_validate. destruct (py_complex E v) as [[r0 i0]|e]; [|destruct e; discriminate].
    destruct (if cast then _ else _) as [[|]|e]; [discriminate| |destruct e; discriminate].
    intros K. now injection K as <-.
  - unfold string_validate. destruct v; try discriminate. destruct (match so_regex o with Some _ => _ | None => _ end); [discriminate|].
    intros K. now injection K as <-.
  - unfold choice_validate. destruct v; try discriminate. destruct find as [[? ?]|]; [|discriminate]. intros K. now injection K as <-.
  - unfold color_validate. destruct v; try discriminate; try apply color_components_below.
    cbv zeta. destruct hex_triple; [apply color_components_below|discriminate].
  - unfold date_validate. destruct v; try discriminate; [|intros K; now injection K as <-].
    destruct date_of_string; [|discriminate]. intros K. now injection K as <-.
  - unfold uuid_validate. destruct v; try discriminate. intros K. now injection K as <-.
Qed.
Lemma portable_leaf_below E t v : portable_leaf E t v -> below 0 v = true.
Proof.
  intros [H K]. destruct (match t with LfAny => true | _ => false end) eqn:Et; [destruct t; try discriminate; exact K|].
  apply (leaf_made E 0 t v v 0); [now destruct t|apply H].
Qed.

(** * Copies without instances *)
Lemma copies_below (G : loc -> loc -> Prop) p : forall a b, below 0 a = true -> copies_value G p a b -> b = a.
Proof.
  induction p as [t|k q mn mx co IH|kp vp co IHk IHv|si ps IH|cid] using ptype_ind'; intros a b Hb; cbn [copies_value].
  - auto.
  - intros (xs & ys & -> & -> & HF & _). assert (Hx : Forall (fun x => below 0 x = true) xs).
    { apply below_list. now destruct k. }
    assert (ys = xs) as ->; [|reflexivity]. clear Hb. revert Hx. induction HF as [|x y l l' H HF IHF]; intros Hx; [reflexivity|].
    inversion Hx; subst. f_equal; auto.
  - intros (da & db & -> & -> & HF). apply below_dict in Hb. f_equal. induction HF as [|[k x] [k' y] l l' [H1 H2] HF IHF]; [reflexivity|].
    inversion Hb as [|? ? [Hp Hq] Hb']; subst. cbn [fst snd] in *. subst. f_equal; auto. f_equal. now apply IHv.
  - induction IH as [|q ps Hq Hps IHps]; [intros []|]. intros [H|H]; [now apply Hq|now apply IHps].
  - intros (l & m & -> & _). discriminate.
Qed.
Lemma copies_inst (G : loc -> loc -> Prop) p : forall l b, copies_value G p (VInst l) b -> b = VInst l \/ exists m, b = VInst m /\ G l m.
Proof.
  induction p as [t|k q mn mx co IH|kp vp co IHk IHv|si ps IH|cid] using ptype_ind'; intros l b; cbn [copies_value].
  - auto.
  - intros (xs & ys & H & _). unfold of_kind in H. now destruct k.
  - intros (da & db & H & _). discriminate.
  - induction IH as [|q ps Hq Hps IHps]; [intros []|]. intros [H|H]; [now apply Hq|now apply IHps].
  - intros (l' & m & [= <-] & -> & H). eauto.
Qed.
Lemma copies_none (G : loc -> loc -> Prop) p : forall a, copies_value G p a VNone -> a = VNone.
Proof.
  induction p as [t|k q mn mx co IH|kp vp co IHk IHv|si ps IH|cid] using ptype_ind'; intros a; cbn [copies_value].
  - auto.
  - intros (xs & ys & _ & H & _). unfold of_kind in H. now destruct k.
  - intros (da & db & _ & H & _). discriminate.
  - induction IH as [|q ps Hq Hps IHps]; [intros []|]. intros [H|H]; [now apply Hq|now apply IHps].
  - intros (l & m & _ & H & _). discriminate.
Qed.
Lemma forall2_in {A B} (R R' : A -> B -> Prop) xs ys : (forall x y, In x xs -> R x y -> R' x y) -> Forall2 R xs ys -> Forall2 R' xs ys.
Proof. intros H HF. induction HF as [|x y l k H1 HF IHF]; constructor; [apply H; [now left|exact H1]|]. apply IHF. intros a b Ha. apply H. now right. Qed.
Lemma forall2_length {A B} (R : A -> B -> Prop) xs ys : Forall2 R xs ys -> length xs = length ys.
Proof. induction 1; cbn; auto. Qed.
(** only instances that the value holds matter *)
Lemma copies_held (G : loc -> loc -> Prop) p : forall a b, copies_value G p a b -> copies_value (fun x y => G x y /\ holds_inst p a x) p a b.
Proof.
  induction p as [t|k q mn mx co IH|kp vp co IHk IHv|si ps IH|cid] using ptype_ind'; intros a b; cbn [copies_value].
  - auto.
  - intros (xs & ys & Ha & Hb & HF & Hd). exists xs, ys. split; [exact Ha|]. split; [exact Hb|]. split; [|exact Hd].
    assert (Hi : py_iter a = Ok xs) by (rewrite Ha; now destruct k). 
    eapply forall2_in; [|exact HF]. intros x y Hx H. eapply copies_mono; [|apply IH; exact H].
    intros l0 m0 [K1 K2]. split; [exact K1|]. cbn [holds_inst]. eauto.
  - intros (da & db & Ha & Hb & HF). exists da, db. split; [exact Ha|]. split; [exact Hb|].
    eapply forall2_in; [|exact HF]. intros [k x] [k' y] Hx [H1 H2]. split; [exact H1|]. cbn [snd] in *. eapply copies_mono; [|apply IHv; exact H2].
    intros l0 m0 [K1 K2]. split; [exact K1|]. cbn [holds_inst]. exists da, k, x. auto.
  - intros H. assert (Q : exists q, In q ps /\ copies_value G q a b).
    { clear IH. induction ps as [|q ps IHps]; [destruct H|]. destruct H as [H|H]; [exists q; split; [now left|exact H]|].
      destruct (IHps H) as (q' & Hq & Hc). exists q'. split; [now right|exact Hc]. }
    destruct Q as (q & Hq & Hc). pose proof (proj1 (Forall_forall _ _) IH q Hq a b Hc) as K.
    assert (K2 : copies_value (fun x y => G x y /\ (fix some (ps : list ptype) : Prop := match ps with [] => False | q :: r => holds_inst q a x \/ some r end) ps) q a b).
    { eapply copies_mono; [|exact K]. intros x y [K1 K2]. split; [exact K1|]. clear - Hq K2. induction ps as [|q' ps IHps]; [destruct Hq|].
      destruct Hq as [->|Hq]; [now left|right; exact (IHps Hq)]. }
    cbn [holds_inst]. revert K2. generalize (fun x y => G x y /\ (fix some (ps : list ptype) : Prop := match ps with [] => False | q :: r => holds_inst q a x \/ some r end) ps).
    intros G' K2. clear - Hq K2. induction ps as [|q' ps IHps]; [destruct Hq|]. destruct Hq as [->|Hq]; [now left|right; exact (IHps Hq)].
  - intros (l & m & -> & -> & H). exists l, m. cbn [holds_inst]. auto.
Qed.

(** * Eventually *)
Definition ev (P : nat -> Prop) : Prop := exists d, forall n, d <= n -> P n.
Lemma ev_and (P Q : nat -> Prop) : ev P -> ev Q -> ev (fun n => P n /\ Q n).
Proof. intros (d & H) (d' & H'). exists (max d d'). intros n Hn. split; [apply H|apply H']; lia. Qed.
Lemma ev_mono (P Q : nat -> Prop) : (forall n, P n -> Q n) -> ev P -> ev Q.
Proof. intros H (d & K). exists d. auto. Qed.
Lemma ev_all (P : Prop) : P -> ev (fun _ => P).
Proof. intros H. exists 0. auto. Qed.
Lemma ev_forall2 {A B} (P : nat -> A -> B -> Prop) xs ys : Forall2 (fun x y => ev (fun n => P n x y)) xs ys -> ev (fun n => Forall2 (P n) xs ys).
Proof.
  induction 1 as [|x y l l' H HF IHF]; [exists 0; constructor|]. eapply ev_mono; [|exact (ev_and _ _ H IHF)]. intros n [K1 K2]. now constructor.
Qed.
Lemma copies_ev (G : nat -> loc -> loc -> Prop) p : forall a b,
  copies_value (fun x y => ev (fun n => G n x y)) p a b -> ev (fun n => copies_value (G n) p a b).
Proof.
  induction p as [t|k q mn mx co IH|kp vp co IHk IHv|si ps IH|cid] using ptype_ind'; intros a b; cbn [copies_value].
  - intros ->. now apply ev_all.
  - intros (xs & ys & Ha & Hb & HF & Hd). assert (K : ev (fun n => Forall2 (copies_value (G n) q) xs ys)).
    { apply ev_forall2. clear - HF IH. induction HF; constructor; auto. }
    eapply ev_mono; [|exact K]. intros n Kn. exists xs, ys. auto.
  - intros (da & db & Ha & Hb & HF). assert (K : ev (fun n => Forall2 (fun x y => fst y = fst x /\ copies_value (G n) vp (snd x) (snd y)) da db)).
    { apply ev_forall2. clear - HF IHv. induction HF as [|x y l l' [H1 H2] HF IHF]; constructor; auto. apply ev_and; [now apply ev_all|now apply IHv]. }
    eapply ev_mono; [|exact K]. intros n Kn. exists da, db. auto.
  - induction IH as [|q ps Hq Hps IHps]; [intros []|]. intros [H|H].
    + eapply ev_mono; [|exact (Hq a b H)]. intros n Kn. now left.
    + eapply ev_mono; [|exact (IHps H)]. intros n Kn. now right.
  - intros (l & m & -> & -> & H). eapply ev_mono; [|exact H]. intros n Kn. exists l, m. auto.
Qed.

(** * Values *)
Lemma mapM_pure {A B} (f : A -> M B) (g : A -> B) l w : (forall x, In x l -> f x w = (Ok (g x), w)) -> mapM f l w = (Ok (map g l), w).
Proof.
  induction l as [|x l IH]; intros H; [reflexivity|]. cbn [mapM map]. rewrite (bind_ok _ _ w w (g x)) by (apply H; now left).
  rewrite (bind_ok _ _ w w (map g l)); [reflexivity|]. apply IH. intros y Hy. apply H. now right.
Qed.
Lemma all_true {A} (l : list A) : forallb (fun b : bool => b) (map (fun _ => true) l) = true.
Proof. induction l; cbn; auto. Qed.
Lemma combine_in {A B} (R : A -> B -> Prop) xs ys : Forall2 R xs ys -> forall x y, In (x, y) (combine xs ys) -> R x y.
Proof. induction 1 as [|x y l l' H HF IHF]; cbn [combine In]; [intros ? ? []|]. intros a b [[= <- <-]|K]; auto. Qed.

Section Values.
  Variable E : env.
  Variable C : ctable.
  Variable U : ucode.
  Variable so : sopt.
  Variable d_o : dopt.
  Variable w : world.
  Variable rec : call -> M val.
  Variable w2 : world.
  Definition same_to (x y : loc) : Prop := rec (COp (OEqual (VInst x) (VInst y))) w2 = (Ok (VBool true), w2).
  Hypothesis Hother : forall a b, (forall l, a <> VInst l) -> rec (COp (OEqual a b)) w2 = (Ok (VBool (py_eq a b)), w2).

  Lemma dict_gets (R : val -> val -> Prop) da : forall db, distinct_keys da -> Forall (fun kx => py_eq (fst kx) (fst kx) = true) da ->
    Forall2 (fun x y : val * val => fst y = fst x /\ R (snd x) (snd y)) da db ->
    forall kx, In kx da -> exists y, vd_get db (fst kx) = Some y /\ R (snd kx) y.
  Proof.
    induction da as [|[k x] da IH]; intros db Hd Hr HF [k0 x0] Hin; [destruct Hin|].
    inversion HF as [|? [k' y] ? db' [H1 H2] HF']; subst. cbn [fst snd] in *. subst k'. inversion Hr as [|? ? Hk Hr']; subst. inversion Hd as [|? ? Ho Hd']; subst.
    cbn [vd_get]. destruct Hin as [[= <- <-]|Hin].
    - cbn [fst] in Hk. rewrite Hk. eauto.
    - pose proof (proj1 (Forall_forall _ _) Ho _ Hin) as Hne. cbn [fst] in Hne. rewrite Hne. exact (IH db' Hd' Hr' HF' (k0, x0) Hin).
  Qed.

  Lemma equal_copies p : forall a b, portable E C U so d_o w p a -> equals_itself p a ->
    copies_value same_to p a b -> (forall x, holds_inst p a x -> same_to x x) -> p_equal rec p a b w2 = (Ok true, w2).
  Proof.
    induction p as [t|k q mn mx co IH|kp vp co IHk IHv|si ps IH|cid] using ptype_ind'; intros a b.
    - cbn [equals_itself copies_value p_equal]. intros _ H -> _. unfold lift. now rewrite H.
    - cbn [portable equals_itself copies_value holds_inst]. intros (items & Hit & Hp & _) [Hset He] (xs & ys & Ha & Hb & HF & _) Hs.
      assert (items = xs) as ->. { unfold of_kind in *. destruct k; congruence. }
      specialize (He xs Ha).
      assert (HI : forall x y, In (x, y) (combine xs ys) -> p_equal rec q x y w2 = (Ok true, w2)).
      { intros x y Hxy. pose proof (combine_in _ _ _ HF x y Hxy) as Hc. apply in_combine_l in Hxy.
        apply IH; [now apply (proj1 (Forall_forall _ _) Hp)|now apply (proj1 (Forall_forall _ _) He)|exact Hc|].
        intros l Hl. apply Hs. exists xs, x. split; [rewrite Ha; now destruct k|auto]. }
      pose proof (forall2_length _ _ _ HF) as HL.
      clear Hit. unfold of_kind in Ha, Hb. subst a b. destruct k; cbn [p_equal].
      + unfold try_. cbn [py_iter]. unfold lift. rewrite (bind_ok _ _ w2 w2 xs) by reflexivity. rewrite (bind_ok _ _ w2 w2 ys) by reflexivity.
        rewrite HL, Nat.eqb_refl. cbn [negb]. rewrite (bind_ok _ _ w2 w2 (map (fun _ => true) (combine xs ys))).
        * unfold ret. now rewrite all_true.
        * apply mapM_pure. intros [x y] Hxy. apply HI. exact Hxy.
      + unfold try_. cbn [py_iter]. unfold lift. rewrite (bind_ok _ _ w2 w2 xs) by reflexivity. rewrite (bind_ok _ _ w2 w2 ys) by reflexivity.
        rewrite HL, Nat.eqb_refl. cbn [negb]. rewrite (bind_ok _ _ w2 w2 (map (fun _ => true) (combine xs ys))).
        * unfold ret. now rewrite all_true.
        * apply mapM_pure. intros [x y] Hxy. apply HI. exact Hxy.
      + unfold try_. cbn [py_iter]. unfold lift. rewrite (bind_ok _ _ w2 w2 xs) by reflexivity. rewrite (bind_ok _ _ w2 w2 ys) by reflexivity.
        rewrite HL, Nat.eqb_refl. cbn [negb]. rewrite (bind_ok _ _ w2 w2 []); [reflexivity|].
        clear - HI HF. induction HF as [|x y l l' H HF IHF]; [reflexivity|].
        rewrite (bind_ok _ _ w2 w2 (Some l')).
        * apply IHF. intros x0 y0 Hin. apply HI. cbn [combine]. now right.
        * cbn [take_first]. rewrite (bind_ok _ _ w2 w2 true); [reflexivity|]. apply HI. cbn [combine]. now left.
    - cbn [portable equals_itself copies_value holds_inst]. intros (t & en & -> & _ & -> & Hd & Hp) He (da & db & [= <-] & -> & HF) Hs.
      specialize (He en eq_refl). cbn [p_equal]. unfold try_. rewrite (forall2_length _ _ _ HF), Nat.eqb_refl. cbn [negb].
      assert (Hk : Forall (fun kx : val * val => py_eq (fst kx) (fst kx) = true) en).
      { apply Forall_forall. intros kx Hin. now apply (proj1 (Forall_forall _ _) Hp kx Hin). }
      rewrite (bind_ok _ _ w2 w2 (map (fun _ => true) en)); [unfold ret; now rewrite all_true|].
      apply mapM_pure. intros kx Hin. destruct (dict_gets _ en db Hd Hk HF kx Hin) as (y & Hy & Hc). rewrite Hy.
      apply IHv; [now apply (proj1 (Forall_forall _ _) Hp kx Hin)|exact (proj1 (Forall_forall _ _) He kx Hin)|exact Hc|].
      intros l Hl. apply Hs. exists en, (fst kx), (snd kx). split; [reflexivity|]. split; [now destruct kx|now right].
    - intros Hp He Hc Hs. cbn [portable] in Hp. destruct Hp as (before & q & after & Hps & _ & [(t & j & -> & Hl & _)|(cid & m & i & c & -> & -> & _)]).
      + pose proof (portable_leaf_below _ _ _ Hl) as Hb. rewrite (copies_below _ _ _ _ Hb Hc).
        assert (Hn : forall l, a <> VInst l) by (intros l ->; discriminate Hb).
        cbn [equals_itself p_equal] in *. clear - He Hn Hother. induction ps as [|q ps IHps]; [destruct He|].
        cbn [map anyM]. destruct q as [t|?|?|?|cid]; try (now destruct He); cbn [p_equal].
        * destruct (leaf_equal_self t a) as [r Hr]. destruct r.
          -- rewrite (bind_ok _ _ w2 w2 true); [reflexivity|]. unfold lift. now rewrite Hr.
          -- rewrite (bind_ok _ _ w2 w2 false) by (unfold lift; now rewrite Hr). apply IHps. destruct He as [[He _]|He]; [congruence|exact He].
        * destruct He as [(m & He)|He]; [now destruct (Hn m)|].
          destruct (py_eq a a) eqn:Ep.
          -- rewrite (bind_ok _ _ w2 w2 true); [reflexivity|]. rewrite (bind_ok _ _ w2 w2 (VBool true)); [reflexivity|]. rewrite Hother by exact Hn. now rewrite Ep.
          -- rewrite (bind_ok _ _ w2 w2 false); [now apply IHps|]. rewrite (bind_ok _ _ w2 w2 (VBool false)); [reflexivity|]. rewrite Hother by exact Hn. now rewrite Ep.
      + assert (Hm : exists m', b = VInst m' /\ same_to m m').
        { destruct (copies_inst _ _ _ _ Hc) as [->|H]; [|exact H]. exists m. split; [reflexivity|]. apply Hs. rewrite Hps. cbn [holds_inst].
          clear. induction before as [|q before IHb]; [now left|right; exact IHb]. }
        destruct Hm as (m' & -> & Hm). unfold same_to in Hm.
        cbn [equals_itself p_equal] in *. clear - He Hm. induction ps as [|q ps IHps]; [destruct He|].
        cbn [map anyM]. destruct q as [t|?|?|?|cid']; try (now destruct He); cbn [p_equal].
        * destruct (leaf_equal_inst t m m') as [r Hr]. destruct r.
          -- rewrite (bind_ok _ _ w2 w2 true); [reflexivity|]. unfold lift. now rewrite Hr.
          -- rewrite (bind_ok _ _ w2 w2 false) by (unfold lift; now rewrite Hr). apply IHps.
             destruct He as [[_ He]|He]; [now destruct (He m)|exact He].
        * rewrite (bind_ok _ _ w2 w2 true); [reflexivity|]. rewrite (bind_ok _ _ w2 w2 (VBool true)); [reflexivity|exact Hm].
    - cbn [copies_value p_equal]. intros _ _ (l & m & -> & -> & H) _. rewrite (bind_ok _ _ w2 w2 (VBool true)); [reflexivity|exact H].
  Qed.
End Values.

(** * Instances *)
(** [w2] differs from [w'] in the flags of comparisons only *)
Definition alike (w' w2 : world) : Prop :=
  forall l i, nth_error (w_heap w') l = Some i -> exists i2, nth_error (w_heap w2) l = Some i2 /\ i_cls i2 = i_cls i /\ i_back i2 = i_back i.
Lemma nth_ext' {A} (l k : list A) : (forall n, nth_error l n = nth_error k n) -> l = k.
Proof.
  revert k. induction l as [|x l IH]; intros [|y k] H; [reflexivity|specialize (H 0); discriminate|specialize (H 0); discriminate|].
  pose proof (H 0) as H0. injection H0 as <-. f_equal. apply IH. intros n. exact (H (S n)).
Qed.
Lemma sete_twice w l i : nth_error (w_heap w) l = Some i -> i_eflag i = false -> w_upd l (i_sete false) (w_upd l (i_sete true) w) = w.
Proof.
  intros Hi He. pose proof (w_upd_nth_same l (i_sete true) w) as K. rewrite Hi in K. cbn [option_map] in K.
  unfold w_upd at 1. rewrite K. unfold w_upd. rewrite Hi. destruct w as [h q c k t]. unfold w_setheap. cbn in *. f_equal.
  assert (L : l < length h) by (apply nth_error_Some; congruence).
  apply nth_ext'. intros n. destruct (Nat.eq_dec n l) as [->|Hn].
  - rewrite set_nth_same by (rewrite set_nth_length; exact L). rewrite Hi. destruct i. cbn in *. now subst.
  - now rewrite !set_nth_other by auto.
Qed.

Section Instances.
  Variable E : env.
  Variable C : ctable.
  Variable U : ucode.
  Variable so : sopt.
  Variable d_o : dopt.
  Variables w w' : world.
  Hypothesis Hwf : wf_ctab C.
  Hypothesis Hun : unchanged w w'.

  Lemma other_equal n a b w2 : (forall l, a <> VInst l) -> exec E C U (S n) (COp (OEqual a b)) w2 = (Ok (VBool (py_eq a b)), w2).
  Proof.
    intros H. cbn [exec step]. rewrite (bind_ok _ _ w2 w2 (py_eq a b)); [reflexivity|]. unfold has_equal. destruct a; try reflexivity. now destruct (H l).
  Qed.
  Lemma self_equal n l i w2 : nth_error (w_heap w2) l = Some i -> i_eflag i = false ->
    exec E C U (S n) (COp (OEqual (VInst l) (VInst l))) w2 = (Ok (VBool true), w2).
  Proof.
    intros Hi He. cbn [exec step]. rewrite (bind_ok _ _ w2 w2 true); [reflexivity|]. unfold has_equal.
    rewrite (bind_ok _ _ w2 w2 i) by (unfold get_inst; now rewrite Hi). rewrite (bind_ok _ _ w2 w2 i) by (unfold get_inst; now rewrite Hi).
    rewrite He. rewrite (bind_ok _ _ w2 (w_upd l (i_sete true) w2) tt) by reflexivity. rewrite Nat.eqb_refl.
    unfold fin, ret. now rewrite (sete_twice _ _ _ Hi He).
  Qed.
  Lemma read_plain rec l i c name d w2 : nth_error (w_heap w2) l = Some i -> nth_error (ct_cls C) (i_cls i) = Some c ->
    dget (c_props c) name = Some d -> pd_kind d = KProp \/ pd_kind d = KGettable ->
    has_getattr E C U rec l name w2 = (Ok (match dget (i_back i) name with Some v => v | None => VNone end), w2).
  Proof.
    intros Hi Hc Hd Hk. unfold has_getattr. rewrite (bind_ok _ _ w2 w2 c).
    - rewrite Hd. assert (K : back_get l name w2 = (Ok (match dget (i_back i) name with Some v => v | None => VNone end), w2)).
      { unfold back_get. now rewrite (bind_ok _ _ w2 w2 i) by (unfold get_inst; now rewrite Hi). }
      destruct Hk as [-> | ->]; exact K.
    - unfold inst_class. rewrite (bind_ok _ _ w2 w2 i) by (unfold get_inst; now rewrite Hi). unfold class_of, lift. now rewrite Hc.
  Qed.

  Lemma copied_equal l m : copied C (length (w_heap w)) w w' l m -> forall w2, alike w' w2 ->
    treelike C w l -> (forall x, descends C w l x -> portable_node E C U so d_o w x /\ comparable_node C w x) ->
    (forall x i, descends C w l x -> nth_error (w_heap w2) x = Some i -> i_eflag i = false) ->
    ev (fun n => exec E C U n (COp (OEqual (VInst l) (VInst m))) w2 = (Ok (VBool true), w2)).
  Proof.
    induction 1 as [G l m i k HG IH Hm Hi Hk Hc Hp]. intros w2 Ha Ht Hn He.
    destruct (Hn l (descends_here _ _ _)) as [(ip & cp & Hip & Hcp & _ & _ & Hval & _) (ic & c & Hic & Hcc & Hef & Hq)].
    rewrite Hi in Hip, Hic. injection Hip as <-. injection Hic as <-. rewrite Hcc in Hcp. injection Hcp as <-.
    destruct (Ha l i (unchanged_nth _ _ _ _ Hun Hi)) as (i2 & Hi2 & Hci & Hbi). destruct (Ha m k Hk) as (k2 & Hk2 & Hck & Hbk).
    assert (Hne : l <> m). { intros <-. assert (l < length (w_heap w)) by (apply nth_error_Some; congruence). lia. }
    pose proof (He l i2 (descends_here _ _ _) Hi2) as Hf.
    set (w3 := w_upd l (i_sete true) w2).
    assert (Hi3 : nth_error (w_heap w3) l = Some (i_sete true i2)) by (unfold w3; now rewrite w_upd_nth_same, Hi2).
    assert (Hk3 : nth_error (w_heap w3) m = Some k2) by (unfold w3; now rewrite w_upd_nth_other).
    assert (Ha3 : alike w' w3).
    { intros x ix Hx. destruct (Ha x ix Hx) as (ix2 & Hx2 & Hx3 & Hx4). unfold w3. destruct (Nat.eq_dec l x) as [<-|Hd].
      - rewrite Hi2 in Hx2. injection Hx2 as <-. exists (i_sete true i2). auto.
      - exists ix2. now rewrite w_upd_nth_other. }
    (* the properties one after another *)
    assert (Hsub : forall x, child C w l x -> treelike C w x /\ (forall y, descends C w x y -> descends C w l y) /\ ~ descends C w x l).
    { intros x Hx. split; [|split].
      - intros a b Hd Hab. apply Ht; [|exact Hab]. eapply descends_step; eauto.
      - intros y Hy. eapply descends_step; eauto.
      - apply Ht; [apply descends_here|exact Hx]. }
    assert (Hprop : forall name d, In (name, d) (c_props c) -> held w l name <> VNone ->
      ev (fun n => p_equal (exec E C U n) (pd_type d) (held w l name) (held w' m name) w3 = (Ok true, w3))).
    { intros name d Hd Hnn. assert (Hdg : dget (c_props c) name = Some d) by (apply dget_nodup_in; [exact (Hwf _ _ Hcc)|exact Hd]).
      assert (Hdec : declares C w l name d) by (exists c; split; [exists i; auto|exact Hdg]).
      destruct (Hp name d Hdec) as [[K _]|[_ K]]; [contradiction|]. apply copies_held in K.
      assert (Hpo : portable E C U so d_o w (pd_type d) (held w l name)).
      { unfold held, stored in *. rewrite Hi in *. destruct (dget (i_back i) name) as [v|] eqn:Ev; [|congruence].
        destruct (Hval name v Ev) as (d' & Hd' & _ & Hv). rewrite Hdg in Hd'. injection Hd' as <-. now apply Hv. }
      assert (Hch : forall x, holds_inst (pd_type d) (held w l name) x -> child C w l x) by (intros x Hx; exists name, d; auto).
      assert (K2 : copies_value (fun x y => ev (fun n => same_to (exec E C U n) w3 x y)) (pd_type d) (held w l name) (held w' m name)).
      { eapply copies_mono; [|exact K]. intros x y [Hg Hx]. destruct (Hsub x (Hch x Hx)) as (S1 & S2 & S3). apply (IH x y Hg w3 Ha3 S1).
        - intros z Hz. apply Hn. auto.
        - intros z iz Hz Hiz. unfold w3 in Hiz. rewrite w_upd_nth_other in Hiz by (intros <-; contradiction). apply (He z); auto. }
      apply copies_ev in K2. destruct K2 as (d0 & K2). exists (S d0). intros n Hle. destruct n as [|n]; [lia|].
      apply (equal_copies E C U so d_o w (exec E C U (S n)) w3).
      - intros a b Hab. now apply other_equal.
      - exact Hpo.
      - now apply (proj2 (Hq name d Hd)).
      - apply K2. lia.
      - intros x Hx. destruct (Hsub x (Hch x Hx)) as (S1 & S2 & S3).
        destruct (Hn x (S2 x (descends_here _ _ _))) as [_ (ix & cx & Hix & _)].
        destruct (Ha3 x ix (unchanged_nth _ _ _ _ Hun Hix)) as (ix3 & Hix3 & _). apply self_equal with (i := ix3); [exact Hix3|].
        unfold w3 in Hix3. rewrite w_upd_nth_other in Hix3 by (intros <-; apply S3, descends_here). apply (He x); auto. apply S2, descends_here. }
    assert (Hall : forall ps, (forall nd, In nd ps -> In nd (c_props c)) -> ev (fun n => equal_props E C U (exec E C U n) l m ps w3 = (Ok true, w3))).
    { induction ps as [|[name d] ps IHps]; intros Hin; [exists 0; reflexivity|].
      assert (Hd : In (name, d) (c_props c)) by (apply Hin; now left).
      assert (Hdg : dget (c_props c) name = Some d) by (apply dget_nodup_in; [exact (Hwf _ _ Hcc)|exact Hd]).
      pose proof (IHps (fun nd H => Hin nd (or_intror H))) as Hrest.
      assert (R1 : forall n, has_getattr E C U (exec E C U n) l name w3 = (Ok (held w l name), w3)).
      { intros n. rewrite (read_plain _ l (i_sete true i2) c name d w3 Hi3); [|cbn; congruence|exact Hdg|apply (Hq name d Hd)].
        cbn [i_sete i_back]. rewrite Hbi. unfold held, stored. now rewrite Hi. }
      assert (R2 : forall n, has_getattr E C U (exec E C U n) m name w3 = (Ok (held w' m name), w3)).
      { intros n. rewrite (read_plain _ m k2 c name d w3 Hk3); [|congruence|exact Hdg|apply (Hq name d Hd)].
        rewrite Hbk. unfold held, stored. now rewrite Hk. }
      assert (Hdec : declares C w l name d) by (exists c; split; [exists i; auto|exact Hdg]).
      destruct (Hp name d Hdec) as [[K1 K2]|[K1 K2]].
      - eapply ev_mono; [|exact Hrest]. intros n Hr. cbn [equal_props]. rewrite (bind_ok _ _ _ _ _ (R1 n)), (bind_ok _ _ _ _ _ (R2 n)). rewrite K1, K2. exact Hr.
      - assert (K3 : held w' m name <> VNone).
        { intros K3. rewrite K3 in K2. now apply K1, (copies_none G (pd_type d)). }
        eapply ev_mono; [|exact (ev_and _ _ Hrest (Hprop name d Hd K1))]. intros n [Hr Hpe]. cbn [equal_props].
        rewrite (bind_ok _ _ _ _ _ (R1 n)), (bind_ok _ _ _ _ _ (R2 n)).
        assert (N1 : is_none (held w l name) = false) by (destruct (held w l name); try reflexivity; contradiction).
        assert (N2 : is_none (held w' m name) = false) by (destruct (held w' m name); try reflexivity; contradiction).
        rewrite N1, N2. cbn [andb negb]. unfold decl_type. destruct (proj1 (Hq name d Hd)) as [Hkd|Hkd]; rewrite Hkd; rewrite (bind_ok _ _ _ _ _ Hpe); exact Hr. }
    destruct (Hall (c_props c) (fun nd H => H)) as (n0 & H0). exists (S n0). intros n Hle. destruct n as [|n]; [lia|].
    cbn [exec step]. rewrite (bind_ok _ _ w2 w2 true); [reflexivity|]. unfold has_equal.
    rewrite (bind_ok _ _ w2 w2 i2) by (unfold get_inst; now rewrite Hi2). rewrite (bind_ok _ _ w2 w2 k2) by (unfold get_inst; now rewrite Hk2).
    rewrite Hf. rewrite (bind_ok _ _ w2 w3 tt) by reflexivity.
    assert (Eqb : Nat.eqb l m = false) by (now apply Nat.eqb_neq). rewrite Eqb. rewrite Hci, Hck, Hc, Nat.eqb_refl. cbn [negb].
    unfold fin. rewrite (bind_ok _ _ w3 w3 c) by (unfold class_of, lift; now rewrite Hcc).
    rewrite H0 by lia. unfold w3. now rewrite (sete_twice _ _ _ Hi2 Hf).
  Qed.
End Instances.

Theorem copy_is_equal E C U w l i : reads_special E -> names_known C -> wf_ctab C ->
  portable_graph E C U (SOpt true false) (DOpt true false false) w l -> unguarded C w l ->
  nth_error (w_heap w) l = Some i -> restorable C (SOpt true false) (DOpt true false false) w (i_cls i) l ->
  (forall m, descends C w l m -> comparable_node C w m) ->
  exists depth, forall n, depth <= n -> exists m w1, exec E C U n (COp (OCopy l)) w = (Ok (VInst m), w1) /\ m <> l /\
    ends (fun k => exec E C U k (COp (OEqual (VInst l) (VInst m)))) w1 (Ok (VBool true)).
Proof.
  intros HS HN Hwf HG Hu Hi Hr Hc. destruct (copy_copies E C U w l i HS HN HG Hu Hi Hr) as (d & K). exists d. intros n Hle.
  destruct (K n Hle) as (m & w1 & H1 & H2 & H3). exists m, w1. split; [exact H1|]. split.
  - apply copied_at in H3 as [H3 _]. intros ->. assert (l < length (w_heap w)) by (apply nth_error_Some; congruence). lia.
  - destruct (copied_equal E C U (SOpt true false) (DOpt true false false) w w1 Hwf H2 l m H3 w1) as (d2 & K2).
    + intros x ix Hx. eauto.
    + apply HG.
    + intros x Hx. split; [now apply HG|now apply Hc].
    + intros x ix Hx Hix. destruct (Hc x Hx) as (i' & c' & Hi' & _ & He & _). rewrite (unchanged_nth _ _ _ _ H2 Hi') in Hix. now injection Hix as <-.
    + exists d2. intros k Hk. exists w1. split; [now apply K2|apply unchanged_refl].
Qed.
