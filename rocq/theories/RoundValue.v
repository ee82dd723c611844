(** Values of one property on the way through JSON. *)
From Verif Require Import World WorldFrame WorldSpec WorldFacts AccessSpec ContainerFacts BasicSpec GraphSpec GraphConv GraphHelp RoundSpec RoundLeaf RoundFacts.
Local Open Scope string_scope.
Local Open Scope list_scope.
Local Open Scope nat_scope.

(** * Copies, with the alternative of a Union fixed by the value *)
Fixpoint carried (G : loc -> loc -> Prop) (p : ptype) (a b : val) : Prop :=
  match p with
  | PLeaf _ => b = a
  | PSeq k q _ _ _ => exists xs ys, of_kind k a xs /\ of_kind k b ys /\ Forall2 (carried G q) xs ys /\
      (k = KSet -> ForallOrdPairs (fun x y => py_eq x y = false) ys)
  | PDict _ vp _ => exists da db, a = VDict da /\ b = VDict db /\
      Forall2 (fun x y => fst y = fst x /\ carried G vp (snd x) (snd y)) da db
  | PUnion _ ps => (b = a /\ (forall l, a <> VInst l) /\ exists t, In (PLeaf t) ps) \/
                   (exists l m cid, a = VInst l /\ b = VInst m /\ G l m /\ In (PInst cid) ps)
  | PInst _ => exists l m, a = VInst l /\ b = VInst m /\ G l m
  end.
Lemma carried_copies G p : forall a b, carried G p a b -> copies_value G p a b.
Proof.
  induction p as [t|k q mn mx co IH|kp vp co IHk IHv|si ps IH|cid] using ptype_ind'; intros a b; cbn [copies_value carried]; auto.
  - intros (xs & ys & Ha & Hb & HF & Hd). exists xs, ys. split; [exact Ha|]. split; [exact Hb|]. split; [|exact Hd]. clear - HF IH. induction HF; constructor; auto.
  - intros (da & db & Ha & Hb & HF). exists da, db. split; [exact Ha|]. split; [exact Hb|]. clear - HF IHv. induction HF as [|x y l l' [H1 H2] HF IHF]; constructor; auto.
  - clear IH. induction ps as [|q ps IHps].
    + intros [(_ & _ & t & [])|(l & m & cid & _ & _ & _ & [])].
    + intros [(Hb & Hn & t & [K|K])|(l & m & cid & Ha & Hb & HG & [K|K])].
      * left. subst q. exact Hb.
      * right. apply IHps. left. eauto.
      * left. subst q. cbn [copies_value]. eauto.
      * right. apply IHps. right. eauto 8.
Qed.
Lemma carried_mono (G G' : loc -> loc -> Prop) p : (forall l m, G l m -> G' l m) -> forall a b, carried G p a b -> carried G' p a b.
Proof.
  intros HG. induction p as [t|k q mn mx co IH|kp vp co IHk IHv|si ps IH|cid] using ptype_ind'; intros a b; cbn [carried].
  - auto.
  - intros (xs & ys & Ha & Hb & HF & Hd). exists xs, ys. split; [exact Ha|]. split; [exact Hb|]. split; [|exact Hd]. clear - HF IH. induction HF; constructor; auto.
  - intros (da & db & Ha & Hb & HF). exists da, db. split; [exact Ha|]. split; [exact Hb|]. clear - HF IHv. induction HF as [|x y l l' [H1 H2] HF IHF]; constructor; auto.
  - intros [H|(l & m & cid & Ha & Hb & H & K)]; [now left|]. right. exists l, m, cid. auto.
  - intros (l & m & Ha & Hb & H). exists l, m. auto.
Qed.

(** * Building containers from distinct values *)
Lemma dedup_id l : forall acc, ForallOrdPairs (fun x y => py_eq x y = false) (acc ++ l) -> dedup l acc = acc ++ l.
Proof.
  induction l as [|x l IH]; intros acc H; cbn [dedup]; [now rewrite app_nil_r|].
  assert (M : mem_val x acc = false).
  { unfold mem_val. destruct (existsb _ acc) eqn:Ex; auto. apply existsb_exists in Ex as (y & Hy & He).
    clear - H Hy He. induction acc as [|z acc IH]; [destruct Hy|]. inversion H as [|? ? H1 H2]; subst.
    destruct Hy as [->|Hy]; [|auto]. rewrite Forall_forall in H1. rewrite (H1 x) in He; [discriminate|]. apply in_app_iff. right. now left. }
  rewrite M. replace (acc ++ x :: l) with ((acc ++ [x]) ++ l) in * by now rewrite <- app_assoc. now apply IH.
Qed.
Lemma build_id k l v : of_kind k v l -> (k = KSet -> Forall (fun x => hashable x = true) l /\ ForallOrdPairs (fun x y => py_eq x y = false) l) ->
  build k l = Ok v.
Proof.
  unfold of_kind. intros -> H. destruct k; cbn [build]; auto. destruct (H eq_refl) as [H1 H2].
  unfold py_set. replace (forallb hashable l) with true.
  - rewrite (dedup_id l []); auto.
  - symmetry. apply forallb_forall. now apply Forall_forall.
Qed.
Lemma pairs_id ps : forall acc, Forall (fun kx => hashable (fst kx) = true) ps -> distinct_keys (acc ++ ps) -> dict_of_pairs ps acc = Ok (acc ++ ps).
Proof.
  induction ps as [|[k x] ps IH]; intros acc Hh Hd; cbn [dict_of_pairs]; [now rewrite app_nil_r|].
  inversion Hh as [|? ? H1 H2]; subst. cbn [fst] in H1. rewrite H1. rewrite vd_set_new.
  - rewrite IH; auto; rewrite <- app_assoc; auto.
  - apply Forall_forall. intros k' Hk. apply in_map_iff in Hk as ([k1 x1] & <- & Hk). cbn [fst]. clear - Hd Hk.
    induction acc as [|z acc IH]; [destruct Hk|]. inversion Hd as [|? ? H1 H2]; subst. destruct Hk as [->|Hk]; [|auto].
    rewrite Forall_forall in H1. apply (H1 (k, x)). apply in_app_iff. right. now left.
Qed.
Lemma add_all_id ps : distinct_keys ps -> add_all ps [] = ps.
Proof. intros H. destruct (add_all_dict ps) as (_ & _ & _ & K & _). auto. Qed.

Section Value.
  Variable E : env.
  Variable C : ctable.
  Variable U : ucode.
  Variable so : sopt.
  Variable d_o : dopt.
  Variable w : world.
  Notation X := (exec E C U).
  Notation portable := (portable E C U so d_o w).
  Notation refused := (refused E C U w).

  Definition inside (io : option loc) (w1 : world) : Prop := forall l, io = Some l -> l < length (w_heap w1).
  Lemma inside_unchanged io w1 w2 : inside io w1 -> unchanged w1 w2 -> inside io w2.
  Proof. intros H HU l Hl. specialize (H l Hl). apply unchanged_len in HU. lia. Qed.
  Lemma inside_none w1 : inside None w1.
  Proof. intros l H. discriminate. Qed.

  Lemma unchanged_emit e w1 : unchanged w1 (w_emit e w1).
  Proof. split; [exists []; cbn; now rewrite app_nil_r|split; reflexivity]. Qed.
  Lemma unchanged_tick w1 : unchanged w1 (w_tick w1).
  Proof. split; [exists []; cbn; now rewrite app_nil_r|split; reflexivity]. Qed.
  Lemma hook_done io ts w1 : inside io w1 -> exists w2, hook io ts w1 = (Ok tt, w2) /\ unchanged w1 w2.
  Proof.
    intros H. destruct io as [l|]; [|exists w1; split; [reflexivity|apply unchanged_refl]].
    specialize (H l eq_refl). apply nth_error_Some in H. unfold hook, bind, get_inst.
    destruct (nth_error (w_heap w1) l) as [i|]; [|contradiction].
    destruct (i_vflag i) as [[|]|]; (eexists; split; [reflexivity|]); try apply unchanged_refl. apply unchanged_emit.
  Qed.
  Lemma perror_done {A} name io w1 : inside io w1 -> exists e w2, @perror A name io w1 = (Exc e, w2) /\ is_generic e = true /\ unchanged w1 w2.
  Proof.
    intros H. destruct (hook_done io [ET (Some "invalid") (Some name) io] w1 H) as (w2 & K & HU).
    unfold perror, verror. rewrite (bind_ok _ _ _ _ _ K). do 2 eexists. split; [reflexivity|]. split; [reflexivity|exact HU].
  Qed.
  Lemma hooks_done k name io : forall w1, inside io w1 -> exists w2, hooks k name io w1 = (Ok tt, w2) /\ unchanged w1 w2.
  Proof.
    induction k as [|k IH]; intros w1 H; cbn [hooks]; [exists w1; split; [reflexivity|apply unchanged_refl]|].
    destruct (hook_done io [ET (Some "invalid") (Some name) io] w1 H) as (w2 & K & HU). rewrite (bind_ok _ _ _ _ _ K).
    destruct (IH w2) as (w3 & K3 & HU3); [eapply inside_unchanged; eauto|]. exists w3. split; [exact K3|eapply unchanged_trans; eauto].
  Qed.
  Lemma leaf_refused t v n io name w1 : refused_leaf E t v -> inside io w1 ->
    exists e w2, p_validate E C (X n) (PLeaf t) io name v w1 = (Exc e, w2) /\ is_generic e = true /\ unchanged w1 w2.
  Proof.
    intros H Hio. cbn [p_validate]. unfold leaf_val. rewrite (bind_ok _ _ _ _ _ (eq_refl : tick w1 = (Ok (w_clock w1), w_tick w1))).
    destruct (H (e_rand E (w_clock w1))) as (k & ->).
    destruct (hooks_done k name io (w_tick w1) Hio) as (w2 & K & HU). rewrite (bind_ok _ _ _ _ _ K).
    destruct (@perror_done val name io w2) as (e & w3 & K3 & He & HU3); [eapply inside_unchanged; eauto|].
    exists e, w3. split; [exact K3|]. split; [exact He|]. eapply unchanged_trans; [apply unchanged_tick|]. eapply unchanged_trans; eauto.
  Qed.
  Lemma leaf_kept t v n io name w1 : (forall r, leaf_validate E r t v = LOk v) ->
    p_validate E C (X n) (PLeaf t) io name v w1 = (Ok v, w_tick w1).
  Proof.
    intros H. cbn [p_validate]. unfold leaf_val. rewrite (bind_ok _ _ _ _ _ (eq_refl : tick w1 = (Ok (w_clock w1), w_tick w1))). now rewrite H.
  Qed.
  Lemma leaf_no_inst t v l : portable_leaf E t v -> v <> VInst l.
  Proof.
    intros [Hv Hx] ->. specialize (Hv 0). destruct t; cbn in *; try discriminate; try (destruct cast; discriminate).
  Qed.
  Lemma leaf_inst_same t l m : refused_leaf E t (VInst l) -> refused_leaf E t (VInst m).
  Proof.
    intros H r. destruct (H r) as (k & Hk). exists k. destruct t; cbn in *; auto; try discriminate; destruct cast; auto.
  Qed.

  (** [v'] is [v], or an instance of the same class *)
  Definition stands (w1 : world) (v v' : val) : Prop :=
    (forall l, v <> VInst l) /\ v' = v \/
    exists l m i k, v = VInst l /\ v' = VInst m /\ nth_error (w_heap w) l = Some i /\ nth_error (w_heap w1) m = Some k /\ i_cls k = i_cls i.
  Lemma stands_unchanged w1 w2 v v' : stands w1 v v' -> unchanged w1 w2 -> stands w2 v v'.
  Proof.
    intros [H|(l & m & i & k & H1 & H2 & H3 & H4 & H5)] HU; [now left|]. right. exists l, m, i, k.
    split; [exact H1|]. split; [exact H2|]. split; [exact H3|]. split; [eapply unchanged_nth; eauto|exact H5].
  Qed.
  Lemma isinstance_at w1 m k c cid : nth_error (w_heap w1) m = Some k -> nth_error (ct_cls C) (i_cls k) = Some c ->
    isinstance C (VInst m) cid w1 = (Ok (existsb (Nat.eqb cid) (c_mro c)), w1).
  Proof. intros H1 H2. unfold isinstance, inst_class, bind, get_inst. rewrite H1. unfold class_of, lift. now rewrite H2. Qed.
  Lemma refused_done q v v' n io name w1 : refused q v -> stands w1 v v' ->
    (forall l i, v = VInst l -> nth_error (w_heap w) l = Some i -> nth_error (ct_cls C) (i_cls i) <> None) ->
    inside io w1 -> 2 <= n ->
    exists e w2, p_validate E C (X n) q io name v' w1 = (Exc e, w2) /\ is_generic e = true /\ unchanged w1 w2.
  Proof.
    destruct q as [t| | | |cid]; cbn [RoundSpec.refused]; try (now intros []).
    - intros H Hs _ Hio _. apply leaf_refused; auto. destruct Hs as [[_ ->]|(l & m & i & k & -> & -> & _)]; auto. now apply leaf_inst_same with l.
    - intros (Hc & Hsp & Hd & Hi) Hs Hcl Hio Hn. cbn [p_validate].
      assert (K : exists e w2, (let* b := isinstance C v' cid in
              if b then ret v'
              else match v' with
                   | VDict d => let* kw := lift (kwargs_of d) in X n (COp (ONew cid (Some kw)))
                   | _ => X n (COp (ONew cid None))
                   end) w1 = (Exc e, w2) /\ is_generic e = true /\ unchanged w1 w2).
      { assert (Hb : isinstance C v' cid w1 = (Ok false, w1)).
        { destruct Hs as [[Hv ->]|(l & m & i & k & -> & -> & H3 & H4 & H5)].
          - destruct v as [| | | | | | | | | | | | | |l0]; try reflexivity. now destruct (Hv l0).
          - destruct (nth_error (ct_cls C) (i_cls i)) as [c|] eqn:Ec; [|now destruct (Hcl l i eq_refl H3)].
            rewrite (isinstance_at w1 m k c cid); auto; [|congruence].
            specialize (Hi l c eq_refl (ex_intro _ i (conj H3 Ec))). f_equal. f_equal.
            destruct (existsb (Nat.eqb cid) (c_mro c)) eqn:Ex; auto. apply existsb_exists in Ex as (x & Hx & Ee).
            apply Nat.eqb_eq in Ee. subst x. contradiction. }
        rewrite (bind_ok _ _ _ _ _ Hb). destruct n as [|[|n]]; [lia|lia|]. destruct (Hsp n w1) as (e & w2 & K & He & HU).
        exists e, w2. split; [|auto]. destruct Hs as [[Hv ->]|(l & m & i & k & -> & -> & _)]; [|exact K].
        destruct v as [| | | | | | | | | | | | |d0|]; try exact K. now destruct (Hd d0). }
      destruct K as (e & w2 & K & He & HU). unfold try_. rewrite K, He.
      destruct (@perror_done val name io w2) as (e3 & w3 & K3 & He3 & HU3); [eapply inside_unchanged; eauto|].
      exists e3, w3. split; [exact K3|]. split; [exact He3|]. eapply unchanged_trans; eauto.
  Qed.
  Lemma before_refused before v v' n io name : Forall (fun q => refused q v) before ->
    (forall l i, v = VInst l -> nth_error (w_heap w) l = Some i -> nth_error (ct_cls C) (i_cls i) <> None) -> 2 <= n ->
    forall w1, stands w1 v v' -> inside io w1 ->
    exists w2, each (fun p wa (_ : unit) wb => rejects (p_validate E C (X n) p io name v') wa wb) before w1 (map (fun _ => tt) before) w2 /\ unchanged w1 w2.
  Proof.
    intros H Hcl Hn. induction H as [|q before Hq H IH]; intros w1 Hs Hio; [exists w1; split; [constructor|apply unchanged_refl]|].
    destruct (refused_done q v v' n io name w1 Hq Hs Hcl Hio Hn) as (e & w2 & K & He & HU).
    destruct (IH w2) as (w3 & K3 & HU3); [eapply stands_unchanged; eauto|eapply inside_unchanged; eauto|].
    exists w3. split; [|eapply unchanged_trans; eauto]. cbn [map]. econstructor; [|exact K3]. exists e. auto.
  Qed.

  Lemma restorable_class cid m i : restorable C so d_o w cid m -> nth_error (w_heap w) m = Some i ->
    exists c, nth_error (ct_cls C) (i_cls i) = Some c /\ In cid (c_mro c).
  Proof. intros (i' & c & H1 & H2 & H3 & _) H. rewrite H in H1. injection H1 as <-. eauto. Qed.
  Lemma inst_kept cid m k i c io name n w1 : nth_error (w_heap w1) m = Some k -> i_cls k = i_cls i ->
    nth_error (ct_cls C) (i_cls i) = Some c -> In cid (c_mro c) ->
    p_validate E C (X n) (PInst cid) io name (VInst m) w1 = (Ok (VInst m), w1).
  Proof.
    intros H1 H2 H3 H4. cbn [p_validate]. unfold try_. rewrite <- H2 in H3. rewrite (bind_ok _ _ _ _ _ (isinstance_at w1 m k c cid H1 H3)).
    replace (existsb (Nat.eqb cid) (c_mro c)) with true; [reflexivity|]. symmetry. apply existsb_exists. exists cid. split; auto. apply Nat.eqb_refl.
  Qed.
  Lemma validate_copy p n : 2 <= n -> forall v b N w1 io name, portable p v -> carried (copied C N w w1) p v b -> inside io w1 ->
    exists w2, p_validate E C (X n) p io name b w1 = (Ok b, w2) /\ unchanged w1 w2.
  Proof.
    intros Hn. induction p as [t|k q mn mx co IH|kp vp co IHk IHv|si ps IH|cid] using ptype_ind'; intros v b N w1 io name Hp Hc Hio; cbn [RoundSpec.portable carried] in *.
    - subst b. exists (w_tick w1). split; [now apply leaf_kept, Hp|apply unchanged_tick].
    - destruct Hp as (xs & Hv & HF & Hs), Hc as (xs' & ys & Hv' & Hb & HC & Hd).
      assert (xs' = xs) by (unfold of_kind in *; destruct k; congruence). subst xs'.
      assert (G : forall w1, (Forall2 (carried (copied C N w w1) q) xs ys) -> inside io w1 -> exists w2,
        each (fun x wa y wb => p_validate E C (X n) q io name x wa = (Ok y, wb)) ys w1 ys w2 /\ unchanged w1 w2).
      { clear - HF IH. intros w1 HC. revert HF. revert w1 HC. induction xs as [|x xs IHx] in ys |- *; intros w1 HC HF Hio; inversion HC as [|? y ? l' H1 H3]; subst.
        - exists w1. split; [constructor|apply unchanged_refl].
        - inversion HF as [|? ? Hx HF']; subst. destruct (IH x y N w1 io name) as (w2 & K & HU); auto.
          destruct (IHx l' w2) as (w3 & K3 & HU3); auto.
          { clear - H3 HU. induction H3; constructor; auto. eapply carried_mono; [|eassumption]. intros a0 b0 Hab. eapply copied_mono; eauto. }
          { eapply inside_unchanged; eauto. }
          exists w3. split; [econstructor; eauto|eapply unchanged_trans; eauto]. }
      destruct (G w1 HC Hio) as (w2 & K & HU). exists w2. split; [|exact HU]. apply seq_valid. exists ys, ys.
      split; [|split; [exact K|]].
      + unfold offered. destruct co; [|exact Hb]. unfold of_kind in Hb. subst b. destruct k; reflexivity.
      + apply build_id; auto. intros Hk. split; [|now apply Hd]. destruct (Hs Hk) as (_ & Hh & _).
        clear - HC Hh. induction HC; constructor; inversion Hh; subst; auto.
        rewrite <- (copies_hashable _ _ _ _ (carried_copies _ _ _ _ H)). auto.
    - destruct Hp as (t & da & -> & Ht & -> & Hdk & HF), Hc as (da' & db & Ha & -> & HC). injection Ha as <-.
      assert (Hk : map fst db = map fst da) by (clear - HC; induction HC as [|? ? ? ? [H ?] HC IH]; cbn; congruence).
      assert (G : forall w1, Forall2 (fun x y => fst y = fst x /\ carried (copied C N w w1) vp (snd x) (snd y)) da db -> inside io w1 -> exists w2,
        each (entry_accepted E C (X n) (PLeaf t) vp io name) db w1 db w2 /\ unchanged w1 w2).
      { clear - HF IHv. intros w1 HC. revert HF. revert w1 HC. induction da as [|x da IHx] in db |- *; intros w1 HC HF Hio; inversion HC as [|? y ? l' [H1 H2] H3]; subst.
        - exists w1. split; [constructor|apply unchanged_refl].
        - inversion HF as [|? ? [[Hl [Hh _]] Hx] HF']; subst. destruct (IHv (snd x) (snd y) N (w_tick w1) io name) as (w2 & K & HU); auto.
          { eapply carried_mono; [|eassumption]. intros a0 b0 Hab. eapply copied_mono; eauto. apply unchanged_tick. }
          assert (HU' : unchanged w1 w2) by (eapply unchanged_trans; [apply unchanged_tick|exact HU]).
          destruct (IHx l' w2) as (w3 & K3 & HU3); auto.
          { clear - H3 HU'. induction H3 as [|? ? ? ? [H4 H5] H3 IH]; constructor; auto. split; auto. eapply carried_mono; [|eassumption]. intros a0 b0 Hab. eapply copied_mono; eauto. }
          { eapply inside_unchanged; eauto. }
          exists w3. split; [|eapply unchanged_trans; eauto]. econstructor; [|exact K3]. exists (w_tick w1). split; [|split; [exact K|]].
          + rewrite H1. now apply leaf_kept, Hl.
          + now rewrite H1. }
      destruct (G w1 HC Hio) as (w2 & K & HU). exists w2. split; [|exact HU]. apply dict_valid. exists db. split; [exact K|].
      rewrite add_all_id; auto. rewrite distinct_keys_map in *. now rewrite Hk.
    - destruct Hp as (before & q & after & -> & Hr & Hq). clear IH.
      destruct Hq as [(t & j & -> & Hl & _)|(cid & m & i & c & -> & -> & HR & _ & _ & Hi & Hci & Hcc & _)].
      + destruct Hc as [(-> & Hni & _)|(l & m & cid & -> & _)]; [|now destruct (leaf_no_inst _ _ l Hl)].
        destruct (before_refused before v v n io name Hr) with (w1 := w1) as (w2 & K & HU); auto.
        { intros l i ->. now destruct (Hni l). }
        { now left. }
        exists (w_tick w2). split; [|eapply unchanged_trans; [exact HU|apply unchanged_tick]]. apply union_valid.
        exists before, (PLeaf t), after, w2. split; [reflexivity|]. split; [exact K|now apply leaf_kept, Hl].
      + destruct Hc as [(-> & Hni & _)|(l & m' & cid' & Hl & -> & HG & _)]; [now destruct (Hni m)|]. injection Hl as <-.
        apply copied_at in HG as (_ & i' & k & Hi' & Hk & Hck). rewrite Hi in Hi'. injection Hi' as <-.
        destruct (restorable_class _ _ _ HR Hi) as (c' & Hc1 & Hc2).
        destruct (before_refused before (VInst m) (VInst m') n io name Hr) with (w1 := w1) as (w2 & K & HU); auto.
        { intros l i0 [= <-] Hi0. rewrite Hi in Hi0. injection Hi0 as <-. congruence. }
        { right. exists m, m', i, k. auto. }
        exists w2. split; [|exact HU]. apply union_valid.
        exists before, (PInst cid), after, w2. split; [reflexivity|]. split; [exact K|]. eapply inst_kept; eauto. eapply unchanged_nth; eauto.
    - destruct Hp as (m & -> & HR), Hc as (l & m' & Hl & -> & HG). injection Hl as <-.
      apply copied_at in HG as (_ & i & k & Hi & Hk & Hck). destruct (restorable_class _ _ _ HR Hi) as (c' & Hc1 & Hc2).
      exists w1. split; [eapply inst_kept; eauto|apply unchanged_refl].
  Qed.
End Value.
