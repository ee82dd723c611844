(** When deserialization of a flat HasUID dictionary returns; proofs about Uid.v. *)
From Verif Require Import PyBase Uid LibrarySpec UidFacts.
Local Open Scope string_scope.
Local Open Scope list_scope.
Local Open Scope nat_scope.

(** a default instance was made for the uid and its fields are being read *)
Definition opened (s : dstate) (v : string) : Prop := dget (ds_inst s) v = None /\ exists m, at_key s v m.

Lemma json_before s s' k e : dext s s' -> dget (ds_reg s') k = Some (DJson e) -> dget (ds_reg s) k = Some (DJson e).
Proof.
  intros X H. destruct (dget (ds_reg s) k) as [[e'|m]|] eqn:E.
  - destruct (de_json _ _ X _ _ E) as [H'|(j & m & x & _ & H' & _)]; unfold at_key in *; congruence.
  - apply (de_inst _ _ X) in E. unfold at_key in E. congruence.
  - apply (de_none _ _ X) in E. congruence.
Qed.

Section Exact.
  Variable fresh : nat -> string.
  Variable v : string.

  (** ** A property of successful runs that is closed under composition *)
  Section Pass.
    Variable P : dstate -> dstate -> list string -> Prop.
    Variable I : dstate -> Prop.
    Variable K : string -> Prop.
    Hypothesis P_nil : forall s, I s -> P s s [].
    Hypothesis P_app : forall s s1 s2 xs ys, I s -> P s s1 xs -> P s1 s2 ys -> P s s2 (xs ++ ys).
    Hypothesis P_inv : forall s s' xs, I s -> P s s' xs -> I s'.
    Definition runs {A} (m : DM A) (xs : list string) : Prop :=
      forall s a s', I s -> (forall k, In k xs -> K k) -> m s = (Ok a, s') -> P s s' xs.
    Lemma runs_ret {A} (a : A) : runs (dret a) [].
    Proof. intros s b s' Hi _ H. injection H as _ <-. now apply P_nil. Qed.
    Lemma runs_bind {A B} (m : DM A) (g : A -> DM B) xs ys : runs m xs -> (forall a, runs (g a) ys) -> runs (dbind m g) (xs ++ ys).
    Proof.
      intros Hm Hg s b s' Hi Hk H. unfold dbind in H. destruct (m s) as [[a|e] s1] eqn:E; [|discriminate].
      assert (P1 : P s s1 xs) by (eapply Hm; eauto; intros k Hin; apply Hk, in_or_app; auto).
      apply P_app with s1; auto. apply (Hg a s1 b s'); auto; [eapply P_inv; eauto|]. intros k Hin. apply Hk, in_or_app; auto.
    Qed.
    Lemma runs_ext {A} (m m' : DM A) xs : (forall s, m s = m' s) -> runs m xs -> runs m' xs.
    Proof. intros He Hm s a s' Hi Hk H. apply (Hm s a s'); auto. now rewrite He. Qed.
    Lemma runs_val f : (forall k, runs (f k) [k]) -> forall j, runs (deser_val f j) (jrefs j).
    Proof.
      intros Hf. induction j as [d|k|js IH] using jval_rect'.
      - apply runs_ret.
      - change (jrefs (JKey k)) with ([k] ++ @nil string). apply runs_bind; [apply Hf|intros; apply runs_ret].
      - apply runs_ext with (m := dbind (deser_list f js) (fun ys => dret (UList ys))).
        { intros s. now rewrite deser_val_list. }
        rewrite <- (app_nil_r (jrefs (JList js))). apply runs_bind; [|intros; apply runs_ret]. simpl.
        induction IH as [|j js Hj Hjs IHjs]; [apply runs_ret|]. simpl. apply runs_bind; [exact Hj|]. intros y.
        rewrite <- (app_nil_r (flat_map jrefs js)). apply runs_bind; [exact IHjs|intros; apply runs_ret].
    Qed.
    Lemma runs_fields f : (forall k, runs (f k) [k]) -> forall fs, runs (deser_fields f fs) (flat_map (fun g => jrefs (snd g)) fs).
    Proof.
      intros Hf. induction fs as [|[m j] fs IH]; [apply runs_ret|]. simpl. apply runs_bind; [now apply runs_val|]. intros y.
      rewrite <- (app_nil_r (flat_map _ fs)). apply runs_bind; [exact IH|intros; apply runs_ret].
    Qed.
  End Pass.

  (** ** The steps of a successful call *)
  Definition opening (s : dstate) (k : string) (j : jnode) : dstate :=
    DS (ds_heap s ++ [UN (fresh (ds_next s)) (jn_cls j) []]) (dset (ds_inst s) (fresh (ds_next s)) (length (ds_heap s)))
       (dset (ds_reg s) k (DInst (length (ds_heap s)))) (S (ds_next s)).
  Lemma call_cases n k s m s' : no_default fresh s -> deser_inst fresh (S n) k s = (Ok m, s') ->
    (dget (ds_reg s) k = None /\ s' = s) \/
    (opened s k /\ s' = DS (ds_heap s) (dset (ds_inst s) k m) (ds_reg s) (ds_next s)) \/
    (exists j fs s2, dget (ds_inst s) k = None /\ dget (ds_reg s) k = Some (DJson (JNode j)) /\
       deser_fields (deser_inst fresh n) (jn_fields j) (opening s k j) = (Ok fs, s2) /\
       ds_reg s' = ds_reg s2 /\ ds_inst s' = dset (ds_inst s2) k m).
  Proof.
    intros Hn H. simpl in H. destruct (dget (ds_inst s) k) as [l|] eqn:Ei.
    { destruct (dget (ds_reg s) k) eqn:Er; [discriminate|]. injection H as _ <-. now left. }
    destruct (dget (ds_reg s) k) as [[[u| |j]|l]|] eqn:Er; try discriminate.
    - right. right. unfold dbind in H at 1 2 3. unfold new_node in H. fold (opening s k j) in H.
      destruct (deser_fields (deser_inst fresh n) (jn_fields j) (opening s k j)) as [[fs|e] s2] eqn:Ef; [|discriminate].
      exists j, fs, s2. simpl in H.
      assert (Hl : at_key s2 k (length (ds_heap s))).
      { assert (Hn1 : no_default fresh (opening s k j)).
        { intros i k' Hle Hk. apply Hn; [simpl in Hle; lia|]. simpl in Hk. destruct (String.string_dec k k') as [<-|Hne]; [congruence|].
          now rewrite dget_dset_other in Hk. }
        assert (X : dext (opening s k j) s2).
        { eapply (deser_fields_pass fresh (deser_inst fresh n)); [|exact Hn1|exact Ef].
          intros k0 t m0 t' Ht H0. destruct (deser_inst_ok fresh _ _ _ _ _ Ht H0) as (A & B & _). now split. }
        apply (de_inst _ _ X). unfold at_key. simpl. apply dget_dset_same. }
      unfold at_key in Hl. rewrite Hl in H. injection H as <- <-. auto.
    - right. left. simpl in H. rewrite Er in H. injection H as <- <-. split; [|reflexivity]. split; [exact Ei|now exists l].
  Qed.
  Lemma no_default_opening s k j : no_default fresh s -> dget (ds_reg s) k <> None -> no_default fresh (opening s k j).
  Proof.
    intros Hn Hk i k' Hle Hk'. apply Hn; [simpl in Hle; lia|]. simpl in Hk'.
    destruct (String.string_dec k k') as [<-|Hne]; [exact Hk|]. now rewrite dget_dset_other in Hk'.
  Qed.
  Lemma opening_inst s k j u : no_default fresh s -> dget (ds_reg s) u <> None -> dget (ds_inst (opening s k j)) u = dget (ds_inst s) u.
  Proof. intros Hn Hu. simpl. apply dget_dset_other. apply Hn; [lia|exact Hu]. Qed.
  Lemma call_dext n k s m s' : no_default fresh s -> deser_inst fresh n k s = (Ok m, s') -> dext s s'.
  Proof. intros Hn H. now destruct (deser_inst_ok fresh _ _ _ _ _ Hn H). Qed.
  Lemma fields_dext n fs s m s' : no_default fresh s -> deser_fields (deser_inst fresh n) fs s = (Ok m, s') -> dext s s'.
  Proof.
    intros Hn H. eapply (deser_fields_pass fresh (deser_inst fresh n)); [|exact Hn|exact H].
    intros k0 t m0 t' Ht H0. destruct (deser_inst_ok fresh _ _ _ _ _ Ht H0) as (A & B & _). now split.
  Qed.

  (** ** Any graph: a uid is called at most twice *)
  (** how many more calls of the uid can succeed *)
  Definition calls_left (s : dstate) : nat :=
    match dget (ds_inst s) v with
    | Some _ => 0
    | None => match dget (ds_reg s) v with Some (DInst _) => 1 | _ => 2 end
    end.
  Definition inv2 (s : dstate) : Prop := no_default fresh s /\ dget (ds_reg s) v <> None.
  Definition post2 (s s' : dstate) (xs : list string) : Prop :=
    (no_default fresh s -> dext s s') /\ calls_left s' + (count v xs + count v (pending (ds_reg s))) <= calls_left s + count v (pending (ds_reg s')).
  Lemma inv2_dext s s' : dext s s' -> inv2 s -> inv2 s'.
  Proof. intros X [A B]. split; [eapply no_default_ext; eauto|]. intros C. apply B. now apply (de_none _ _ X). Qed.
  Lemma calls_left_mono s s' : dext s s' -> dget (ds_reg s) v <> None -> calls_left s' <= calls_left s.
  Proof.
    intros X Hv. unfold calls_left. destruct (dget (ds_inst s) v) as [m|] eqn:E; [rewrite (de_reg _ _ X v m Hv E); lia|].
    destruct (dget (ds_inst s') v); [lia|]. destruct (dget (ds_reg s) v) as [[e|m]|] eqn:Er.
    - destruct (dget (ds_reg s') v) as [[?|?]|]; lia.
    - apply (de_inst _ _ X) in Er. unfold at_key in Er. now rewrite Er.
    - congruence.
  Qed.
  Lemma call_twice n k : runs post2 inv2 (fun _ => True) (deser_inst fresh n k) [k].
  Proof.
    revert k. induction n as [|n IH]; intros k s m s' (Hn & Hv) _ H; [discriminate|].
    split; [intros _; eapply call_dext; eauto|].
    destruct (call_cases n k s m s' Hn H) as [(Hk & ->)|[((Hi & l & Hl) & ->)|(j & fs & s2 & Hi & Hj & Hf & Hr & Hi2)]].
    - rewrite count_other by congruence. lia.
    - unfold calls_left. cbn [ds_inst ds_reg]. destruct (String.string_dec k v) as [->|Hne].
      + unfold at_key in Hl. rewrite dget_dset_same, Hi, Hl, count_one. lia.
      + rewrite dget_dset_other, count_other by exact Hne. lia.
    - assert (Hn1 : no_default fresh (opening s k j)) by (apply no_default_opening; [exact Hn|congruence]).
      assert (Hv1 : dget (ds_reg (opening s k j)) v <> None).
      { simpl. destruct (String.string_dec k v) as [->|Hne]; [rewrite dget_dset_same; discriminate|now rewrite dget_dset_other]. }
      assert (Hrun : post2 (opening s k j) s2 (jnode_refs j)).
      { apply (runs_fields post2 inv2 (fun _ => True)) with (f := deser_inst fresh n) (a := fs); auto.
        - intros t _. split; [intros _; apply (dext_refl fresh)|simpl; lia].
        - intros t t1 t2 xs ys (Ht & Htv) (P1 & P2) (Q1 & Q2). split.
          + intros _. specialize (P1 Ht). eapply (dext_trans fresh); [exact P1|]. apply Q1. eapply no_default_ext; eauto.
          + rewrite count_app. lia.
        - intros t t' xs (Ht & Htv) (P1 & _). apply (inv2_dext t t'); [now apply P1|now split].
        - split; assumption. }
      destruct Hrun as [X2 C2]. specialize (X2 Hn1). rewrite Hr.
      rewrite (pending_dset _ _ _ (length (ds_heap s)) v Hj). change (dset (ds_reg s) k (DInst (length (ds_heap s)))) with (ds_reg (opening s k j)).
      unfold calls_left at 1. rewrite Hi2. destruct (String.string_dec k v) as [->|Hne].
      + rewrite dget_dset_same, count_one. unfold calls_left in C2 at 2. rewrite opening_inst in C2 by assumption. rewrite Hi in C2.
        cbn [opening ds_reg] in C2. rewrite dget_dset_same in C2. unfold calls_left. rewrite Hi, Hj. cbn [opening ds_reg]. lia.
      + rewrite dget_dset_other, count_other by exact Hne. rewrite Hr.
        assert (E1 : calls_left (opening s k j) = calls_left s).
        { unfold calls_left. rewrite opening_inst by assumption. cbn [opening ds_reg]. now rewrite dget_dset_other. }
        rewrite E1 in C2. unfold calls_left in C2 at 1. lia.
  Qed.

  (** ** No cycle through the uid: it is called at most once *)
  (** a set of uids closed under references, none of which is to [v] *)
  Variable D : string -> Prop.
  Definition away (s : dstate) : Prop := forall k j, D k -> dget (ds_reg s) k = Some (DJson (JNode j)) ->
    (forall k', In k' (jnode_refs j) -> D k') /\ ~ In v (jnode_refs j).
  Lemma away_dext s s' : dext s s' -> away s -> away s'.
  Proof. intros X H k j Hk Hj. apply H with k; [exact Hk|]. eapply json_before; eauto. Qed.
  Lemma away_opening s k j : away s -> away (opening s k j).
  Proof.
    intros H k' j' Hk Hj. apply H with k'; [exact Hk|]. simpl in Hj. destruct (String.string_dec k k') as [<-|Hne].
    - rewrite dget_dset_same in Hj. discriminate.
    - now rewrite dget_dset_other in Hj.
  Qed.

  Definition inv0 (s : dstate) : Prop := no_default fresh s /\ away s.
  Definition post0 (s s' : dstate) (_ : list string) : Prop :=
    (no_default fresh s -> dext s s') /\ count v (pending (ds_reg s')) = count v (pending (ds_reg s)).
  Lemma call_away n k : runs post0 inv0 D (deser_inst fresh n k) [k].
  Proof.
    revert k. induction n as [|n IH]; intros k s m s' (Hn & Ha) Hk H; [discriminate|].
    assert (Dk : D k) by (apply Hk; now left).
    split; [intros _; eapply call_dext; eauto|].
    destruct (call_cases n k s m s' Hn H) as [(_ & ->)|[(_ & ->)|(j & fs & s2 & Hi & Hj & Hf & Hr & Hi2)]]; [reflexivity|reflexivity|].
    destruct (Ha k j Dk Hj) as [Hc Hv].
    assert (Hrun : post0 (opening s k j) s2 (jnode_refs j)).
    { apply (runs_fields post0 inv0 D) with (f := deser_inst fresh n) (a := fs); auto.
      - intros t _. split; [intros _; apply (dext_refl fresh)|reflexivity].
      - intros t t1 t2 xs ys (Ht & _) (P1 & P2) (Q1 & Q2). split; [|congruence].
        intros _. specialize (P1 Ht). eapply (dext_trans fresh); [exact P1|]. apply Q1. eapply no_default_ext; eauto.
      - intros t t' xs (Ht & Hta) (P1 & _). specialize (P1 Ht). split; [eapply no_default_ext; eauto|eapply away_dext; eauto].
      - split; [apply no_default_opening; [exact Hn|congruence]|now apply away_opening]. }
    destruct Hrun as [_ C]. rewrite Hr, C. rewrite (pending_dset _ _ _ (length (ds_heap s)) v Hj).
    assert (E0 : count v (jnode_refs j) = 0) by (apply count_occ_not_In; exact Hv). rewrite E0. reflexivity.
  Qed.

  Definition inv1 (s : dstate) : Prop := no_default fresh s /\ away s /\ dget (ds_reg s) v <> None /\ ~ opened s v.
  Definition post1 (s s' : dstate) (xs : list string) : Prop :=
    (no_default fresh s -> dext s s') /\ ~ opened s' v /\
    budget s' v + (count v xs + count v (pending (ds_reg s))) <= budget s v + count v (pending (ds_reg s')).
  Lemma call_once n k : D v -> runs post1 inv1 (fun _ => True) (deser_inst fresh n k) [k].
  Proof.
    intros Dv. revert k. induction n as [|n IH]; intros k s m s' (Hn & Ha & Hv & Ho) _ H; [discriminate|].
    assert (X : dext s s') by (eapply call_dext; eauto).
    split; [intros _; exact X|].
    destruct (call_cases n k s m s' Hn H) as [(Hk & ->)|[((Hi & l & Hl) & ->)|(j & fs & s2 & Hi & Hj & Hf & Hr & Hi2)]].
    - split; [exact Ho|]. rewrite count_other by congruence. lia.
    - assert (Hne : k <> v). { intros <-. apply Ho. split; [exact Hi|now exists l]. }
      split.
      + intros [O1 (l' & O2)]. cbn [ds_inst] in O1. rewrite dget_dset_other in O1 by exact Hne. apply Ho. split; [exact O1|now exists l'].
      + unfold budget. cbn [ds_inst ds_reg]. rewrite dget_dset_other, count_other by exact Hne. lia.
    - assert (Hn1 : no_default fresh (opening s k j)) by (apply no_default_opening; [exact Hn|congruence]).
      pose proof (away_opening s k j Ha) as Ha1.
      rewrite Hr. rewrite (pending_dset _ _ _ (length (ds_heap s)) v Hj).
      change (dset (ds_reg s) k (DInst (length (ds_heap s)))) with (ds_reg (opening s k j)).
      destruct (String.string_dec k v) as [->|Hne].
      + destruct (Ha v j Dv Hj) as [Hc Hnv]. split; [intros [O1 _]; rewrite Hi2, dget_dset_same in O1; discriminate|].
        assert (Hrun : post0 (opening s v j) s2 (jnode_refs j)).
        { apply (runs_fields post0 inv0 D) with (f := deser_inst fresh n) (a := fs); auto.
          - intros t _. split; [intros _; apply (dext_refl fresh)|reflexivity].
          - intros t t1 t2 xs ys (Ht & _) (P1 & P2) (Q1 & Q2). split; [|congruence].
            intros _. specialize (P1 Ht). eapply (dext_trans fresh); [exact P1|]. apply Q1. eapply no_default_ext; eauto.
          - intros t t' xs (Ht & Hta) (P1 & _). specialize (P1 Ht). split; [eapply no_default_ext; eauto|eapply away_dext; eauto].
          - intros k'. apply call_away.
          - split; assumption. }
        destruct Hrun as [_ C]. rewrite C. unfold budget. rewrite Hi2, dget_dset_same, Hi, count_one.
        assert (E0 : count v (jnode_refs j) = 0) by (apply count_occ_not_In; exact Hnv). rewrite E0. lia.
      + assert (Hrv : dget (ds_reg (opening s k j)) v = dget (ds_reg s) v) by (simpl; now rewrite dget_dset_other).
        assert (Hiv : dget (ds_inst (opening s k j)) v = dget (ds_inst s) v) by (now apply opening_inst).
        assert (Ho1 : ~ opened (opening s k j) v).
        { intros [O1 (l & O2)]. unfold at_key in O2. apply Ho. split; [congruence|]. exists l. unfold at_key. congruence. }
        assert (Hrun : post1 (opening s k j) s2 (jnode_refs j)).
        { apply (runs_fields post1 inv1 (fun _ => True)) with (f := deser_inst fresh n) (a := fs); auto.
          - intros t (_ & _ & _ & To). split; [intros _; apply (dext_refl fresh)|]. split; [exact To|simpl; lia].
          - intros t t1 t2 xs ys (Ht & _) (P1 & P2 & P3) (Q1 & Q2 & Q3). split; [|split; [exact Q2|rewrite count_app; lia]].
            intros _. specialize (P1 Ht). eapply (dext_trans fresh); [exact P1|]. apply Q1. eapply no_default_ext; eauto.
          - intros t t' xs (Ht & Hta & Htv & _) (P1 & P2 & _). specialize (P1 Ht).
            split; [eapply no_default_ext; eauto|]. split; [eapply away_dext; eauto|]. split; [|exact P2].
            intros C. apply Htv. now apply (de_none _ _ P1).
          - split; [exact Hn1|]. split; [exact Ha1|]. split; [congruence|exact Ho1]. }
        destruct Hrun as (_ & Ho2 & C2). split.
        * intros [O1 (l & O2)]. rewrite Hi2, dget_dset_other in O1 by exact Hne. apply Ho2. split; [exact O1|].
          exists l. unfold at_key in *. congruence.
        * rewrite count_other by exact Hne. unfold budget in *. rewrite Hi2, dget_dset_other by exact Hne. rewrite Hiv in C2. lia.
  Qed.
End Exact.

(** ** The keys of the dictionary stay *)
Definition invk (fresh : nat -> string) (s : dstate) : Prop := no_default fresh s.
Definition postk (fresh : nat -> string) (s s' : dstate) (_ : list string) : Prop :=
  (no_default fresh s -> dext s s') /\ dkeys (ds_reg s') = dkeys (ds_reg s).
Lemma call_keys fresh n k : runs (postk fresh) (invk fresh) (fun _ => True) (deser_inst fresh n k) [k].
Proof.
  revert k. induction n as [|n IH]; intros k s m s' Hn _ H; [discriminate|].
  split; [intros _; eapply call_dext; eauto|].
  destruct (call_cases fresh n k s m s' Hn H) as [(_ & ->)|[(_ & ->)|(j & fs & s2 & Hi & Hj & Hf & Hr & Hi2)]]; [reflexivity|reflexivity|].
  assert (Hrun : postk fresh (opening fresh s k j) s2 (jnode_refs j)).
  { apply (runs_fields (postk fresh) (invk fresh) (fun _ => True)) with (f := deser_inst fresh n) (a := fs); auto.
    - intros t _. split; [intros _; apply (dext_refl fresh)|reflexivity].
    - intros t t1 t2 xs ys Ht (P1 & P2) (Q1 & Q2). split; [|congruence].
      intros _. specialize (P1 Ht). eapply (dext_trans fresh); [exact P1|]. apply Q1. eapply no_default_ext; eauto.
    - intros t t' xs Ht (P1 & _). specialize (P1 Ht). eapply no_default_ext; eauto.
    - apply no_default_opening; [exact Hn|congruence]. }
  destruct Hrun as [_ C]. rewrite Hr, C. simpl. rewrite dkeys_dset. unfold dhas. now rewrite Hj.
Qed.

(** * Graphs *)
Lemma count_map (u : nat -> string) c r : count_occ Nat.eq_dec r c <= count (u c) (map u r).
Proof.
  unfold count. induction r as [|a r IH]; [apply le_n|]. simpl.
  destruct (Nat.eq_dec a c) as [->|Hne].
  - destruct (String.string_dec (u c) (u c)); [lia|congruence].
  - destruct (String.string_dec (u a) (u c)); lia.
Qed.
Lemma pending_ge h l v : (forall a b, reach h l a -> reach h l b -> uid_at h a = uid_at h b -> a = b) ->
  forall ls reg, NoDup ls -> Forall (reach h l) ls ->
    (forall a, In a ls -> exists x, nth_error h a = Some x /\ dget reg (uid_at h a) = Some (DJson (JNode (node_json (uid_at h) x)))) ->
    count v (map (uid_at h) (flat_map (refs_at h) ls)) <= count v (pending reg).
Proof.
  intros Hinj. induction ls as [|a ls IH]; intros reg Hnd Hr He; [simpl; unfold count; simpl; lia|].
  inversion Hnd as [|? ? Ha Hnd']; subst. inversion Hr as [|? ? Hra Hr']; subst.
  destruct (He a (or_introl eq_refl)) as (x & Ex & Hx). simpl. rewrite map_app, count_app.
  rewrite (pending_dset reg _ _ 0 v Hx), node_json_refs.
  assert (Hra' : refs_at h a = node_refs x) by (unfold refs_at; now rewrite Ex). rewrite Hra'.
  assert (Hle : count v (map (uid_at h) (flat_map (refs_at h) ls)) <= count v (pending (dset reg (uid_at h a) (DInst 0)))); [|lia].
  apply IH; auto. intros b Hb. destruct (He b (or_intror Hb)) as (y & Ey & Hy). exists y. split; [exact Ey|].
  rewrite dget_dset_other; [exact Hy|]. intros Hab. apply Hinj in Hab; [subst; contradiction|exact Hra|].
  rewrite Forall_forall in Hr'. auto.
Qed.

Section Run.
  Variables (fresh : nat -> string) (h : list unode) (l n : nat) (d : dict jentry) (h2 : list unode) (inst : dict nat)
            (next n2 l2 : nat) (s2 : dstate).
  Hypothesis Hg : graph h l.
  Hypothesis Hd : distinct_uids h l.
  Hypothesis Hs : uid_serialize h n l = Ok d.
  Hypothesis Hfr : forall i, next <= i -> dget d (fresh i) = None.
  Hypothesis H : uid_deserialize fresh n2 d h2 inst next = (Ok l2, s2).
  Let s := DS h2 inst (map (fun kv => (fst kv, DJson (snd kv))) d) next.

  Lemma run_get k : dget (ds_reg s) k = option_map DJson (dget d k).
  Proof. apply dget_map. Qed.
  Lemma run_inst : deser_inst fresh n2 (uid_at h l) s = (Ok l2, s2).
  Proof.
    destruct (serialize_entries h l n d Hg Hd Hs) as [_ He]. pose proof H as H'. unfold uid_deserialize in H'.
    rewrite (proj2 (He root_key (JRoot (uid_at h l)))) in H' by (left; auto). exact H'.
  Qed.
  Lemma run_fresh : no_default fresh s.
  Proof. intros i k Hi Hk <-. apply Hk. rewrite run_get, Hfr; auto. Qed.
  Lemma run_entry a : reach h l a ->
    exists x, nth_error h a = Some x /\ dget (ds_reg s) (uid_at h a) = Some (DJson (JNode (node_json (uid_at h) x))).
  Proof.
    intros Ha. destruct (serialize_entries h l n d Hg Hd Hs) as [_ He].
    destruct (dom_node h l Hg a Ha) as (x & Ex & Hu & _). exists x. split; [exact Ex|]. rewrite run_get.
    rewrite (proj2 (He (uid_at h a) (JNode (node_json (uid_at h) x)))); [reflexivity|]. right. exists a, x. auto.
  Qed.
  (** nothing is left in the dictionary *)
  Lemma run_done v : count v (pending (ds_reg s2)) = 0.
  Proof.
    destruct (serialize_entries h l n d Hg Hd Hs) as [Hnd He].
    destruct (deserialize_built _ _ _ _ _ _ _ _ _ _ _ Hg Hd Hs Hfr l (reach_refl h l) run_inst) as (X & _ & Hall).
    apply count_occ_not_In. intros Hin. unfold pending in Hin. apply in_flat_map in Hin as ([k e] & Hke & Hv). simpl in Hv.
    destruct e as [[u| |j]|m]; simpl in Hv; try contradiction.
    assert (Hk : dkeys (ds_reg s2) = dkeys d).
    { destruct (call_keys fresh n2 (uid_at h l) s l2 s2 run_fresh (fun _ _ => I) run_inst) as [_ ->].
      unfold dkeys. simpl. rewrite map_map. reflexivity. }
    apply dget_nodup_in in Hke; [|rewrite Hk; exact Hnd].
    pose proof (json_before _ _ _ _ X Hke) as Hb. change (dget (ds_reg s) k = Some (DJson (JNode j))) in Hb.
    rewrite run_get in Hb. destruct (dget d k) as [e|] eqn:E; [|discriminate]. injection Hb as ->.
    apply He in E as [[_ E]|(m & x & Hm & Ex & -> & _)]; [discriminate|].
    destruct (Hall m Hm) as (x' & m' & _ & Hm' & _). unfold uid_at, at_key in Hm'. rewrite Ex in Hm'. congruence.
  Qed.
  Lemma run_refs c ls : NoDup ls -> Forall (reach h l) ls ->
    count_occ Nat.eq_dec (flat_map (refs_at h) ls) c <= count (uid_at h c) (pending (ds_reg s)).
  Proof.
    intros Hnd Hr. eapply Nat.le_trans; [apply (count_map (uid_at h))|]. apply (pending_ge h l _ (proj1 Hd)); auto.
    intros a Ha. apply run_entry. rewrite Forall_forall in Hr. auto.
  Qed.

  Lemma run_twice c ls : reach h l c -> NoDup ls -> Forall (reach h l) ls ->
    count_occ Nat.eq_dec (flat_map (refs_at h) ls) c + (if Nat.eqb c l then 1 else 0) <= 2.
  Proof.
    intros Hc Hnd Hr. pose proof (run_refs c ls Hnd Hr) as Hle.
    assert (Hv : dget (ds_reg s) (uid_at h c) <> None) by (destruct (run_entry c Hc) as (x & _ & E); congruence).
    destruct (call_twice fresh (uid_at h c) n2 (uid_at h l) s l2 s2 (conj run_fresh Hv) (fun _ _ => I) run_inst) as [_ C].
    rewrite run_done in C.
    assert (Hleft : calls_left (uid_at h c) s <= 2).
    { unfold calls_left. destruct (dget (ds_inst s) (uid_at h c)); [lia|]. destruct (dget (ds_reg s) (uid_at h c)) as [[?|?]|]; lia. }
    destruct (Nat.eqb_spec c l) as [->|Hne]; [rewrite count_one in C|]; lia.
  Qed.
  Lemma run_once c ls : reach h l c -> (forall a, reach h c a -> ~ In c (refs_at h a)) -> NoDup ls -> Forall (reach h l) ls ->
    count_occ Nat.eq_dec (flat_map (refs_at h) ls) c <= 1.
  Proof.
    intros Hc Hcy Hnd Hr. pose proof (run_refs c ls Hnd Hr) as Hle.
    assert (Hv : dget (ds_reg s) (uid_at h c) <> None) by (destruct (run_entry c Hc) as (x & _ & E); congruence).
    set (D := fun k => exists a, reach h c a /\ k = uid_at h a).
    assert (Ha : away (uid_at h c) D s).
    { intros k j (a & Ha & ->) Hj. assert (Hla : reach h l a) by (eapply reach_trans; eauto).
      destruct (run_entry a Hla) as (x & Ex & E). rewrite E in Hj. injection Hj as <-. rewrite node_json_refs.
      assert (Hn : refs_at h a = node_refs x) by (unfold refs_at; now rewrite Ex). rewrite <- Hn. split.
      - intros k' Hk'. apply in_map_iff in Hk' as (b & <- & Hb). exists b. split; [econstructor; eauto|reflexivity].
      - intros Hin. apply in_map_iff in Hin as (b & Hbc & Hb). apply (proj1 Hd) in Hbc; [|econstructor; eauto|exact Hc].
        subst b. exact (Hcy a Ha Hb). }
    assert (Ho : ~ opened s (uid_at h c)).
    { intros [_ (m & Hm)]. destruct (run_entry c Hc) as (x & _ & E). unfold at_key in Hm. congruence. }
    assert (Dc : D (uid_at h c)) by (exists c; split; [constructor|reflexivity]).
    destruct (call_once fresh (uid_at h c) D n2 (uid_at h l) Dc s l2 s2
                (conj run_fresh (conj Ha (conj Hv Ho))) (fun _ _ => I) run_inst) as (_ & _ & C).
    rewrite run_done in C. assert (Hbu : budget s (uid_at h c) <= 1) by (unfold budget; destruct (dget (ds_inst s) (uid_at h c)); lia).
    lia.
  Qed.
  (** no uid was registered *)
  Lemma run_unused c : reach h l c -> dget inst (uid_at h c) = None.
  Proof.
    intros Hc. destruct (dget inst (uid_at h c)) as [m|] eqn:E; [|reflexivity]. exfalso.
    assert (Hv : dget (ds_reg s) (uid_at h c) <> None) by (destruct (run_entry c Hc) as (x & _ & E'); congruence).
    destruct (call_twice fresh (uid_at h c) n2 (uid_at h l) s l2 s2 (conj run_fresh Hv) (fun _ _ => I) run_inst) as [_ C].
    rewrite run_done in C.
    assert (Hleft : calls_left (uid_at h c) s = 0) by (unfold calls_left; cbn [s ds_inst]; now rewrite E).
    destruct Hc as [|a c Ha Hb].
    - rewrite count_one in C. lia.
    - assert (Hle : count_occ Nat.eq_dec (flat_map (refs_at h) [a]) c <= count (uid_at h c) (pending (ds_reg s))).
      { apply run_refs; repeat constructor; [intros []|exact Ha]. }
      cbn [flat_map] in Hle. rewrite app_nil_r in Hle. apply (count_occ_In Nat.eq_dec) in Hb. lia.
  Qed.
End Run.

Lemma acyclic_exact : forall fresh h l n d h2 inst next n2,
  graph h l -> distinct_uids h l -> uid_serialize h n l = Ok d ->
  (forall i, next <= i -> dget d (fresh i) = None) ->
  (forall c a, reach h l c -> reach h c a -> ~ In c (refs_at h a)) ->
  length d < n2 ->
  ((exists l2 s2, uid_deserialize fresh n2 d h2 inst next = (Ok l2, s2)) <->
   (forall a, reach h l a -> dget inst (uid_at h a) = None) /\
   (forall ls, NoDup ls -> Forall (reach h l) ls -> NoDup (flat_map (refs_at h) ls))).
Proof.
  intros fresh h l n d h2 inst next n2 Hg Hd Hs Hfr Hcy Hn2. split.
  - intros (l2 & s2 & H). split.
    + intros a Ha. eapply run_unused; eauto.
    + intros ls Hnd Hr. apply (NoDup_count_occ Nat.eq_dec). intros c.
      destruct (in_dec Nat.eq_dec c (flat_map (refs_at h) ls)) as [Hi|Hi].
      * assert (Hc : reach h l c).
        { apply in_flat_map in Hi as (a & Ha & Hi). rewrite Forall_forall in Hr. econstructor; eauto. }
        eapply run_once; eauto.
      * apply (count_occ_not_In Nat.eq_dec) in Hi. lia.
  - intros [Hi Hone]. eapply deserialize_succeeds; eauto.
Qed.

(** an entry of the dictionary that is registered *)
Lemma no_copy_at : forall fresh h l n d n2 h2 inst next c,
  graph h l -> distinct_uids h l -> uid_serialize h n l = Ok d -> reach h l c -> dget inst (uid_at h c) <> None ->
  exists s2, uid_deserialize_at fresh (S n2) (uid_at h c) d h2 inst next = (Exc ExValue, s2) /\ ds_heap s2 = h2 /\ ds_inst s2 = inst.
Proof.
  intros fresh h l n d n2 h2 inst next c Hg Hd Hs Hc Hi.
  destruct (run_entry h l n d h2 inst next Hg Hd Hs c Hc) as (x & _ & Ex). cbn [ds_reg] in Ex.
  unfold uid_deserialize_at. cbn [deser_inst ds_inst ds_reg]. rewrite Ex. destruct (dget inst (uid_at h c)); [|congruence].
  eexists. split; [reflexivity|]. split; reflexivity.
Qed.
Lemma no_copy : forall fresh h l n d n2 h2 inst next,
  graph h l -> distinct_uids h l -> uid_serialize h n l = Ok d -> dget inst (uid_at h l) <> None ->
  exists s2, uid_deserialize fresh (S n2) d h2 inst next = (Exc ExValue, s2) /\ ds_heap s2 = h2 /\ ds_inst s2 = inst.
Proof.
  intros fresh h l n d n2 h2 inst next Hg Hd Hs Hi. destruct (serialize_entries h l n d Hg Hd Hs) as [_ He].
  destruct (uid_deserialize fresh (S n2) d h2 inst next) as [r s2] eqn:E.
  destruct (deserialize_root _ _ _ _ _ _ _ _ E) as [_ R].
  assert (Hr : dget d "__root__" = Some (JRoot (uid_at h l))) by (apply He; left; auto).
  destruct (dom_node h l Hg l (reach_refl h l)) as (x & Ex & Hu & _).
  assert (Hx : dget d (uid_at h l) <> None).
  { rewrite (proj2 (He (uid_at h l) (JNode (node_json (uid_at h) x)))); [discriminate|]. right. exists l, x.
    split; [constructor|auto]. }
  destruct (R _ Hr) as (_ & R2 & _). destruct (R2 (or_introl (conj Hi Hx))) as (-> & A & B). exists s2. auto.
Qed.
