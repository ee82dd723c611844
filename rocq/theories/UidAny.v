(** When deserialization of any HasUID graph returns; proofs about Uid.v. *)
From Verif Require Import PyBase Uid LibrarySpec UidFacts UidExact UidTree.
Local Open Scope string_scope.
Local Open Scope list_scope.
Local Open Scope nat_scope.

Notation cnt := (count_occ Nat.eq_dec).

Lemma nn_dec {T} (dec : forall x y : T, {x = y} + {x <> y}) (P : T -> Prop) (ls : list T) :
  ~ ~ exists w : T -> bool, forall t, In t ls -> (w t = true <-> P t).
Proof.
  induction ls as [|t ls IH]; intros H.
  - apply H. exists (fun _ => true). intros t [].
  - apply IH. intros (w & Hw). assert (D : ~ ~ (P t \/ ~ P t)) by tauto. apply D. intros D'. apply H.
    assert (exists x : bool, x = true <-> P t) as (x & Hx).
    { destruct D' as [D'|D']; [exists true; tauto|exists false; split; [discriminate|contradiction]]. }
    exists (fun u => if dec u t then x else w u). intros u [<-|Hu].
    + destruct (dec t t); [exact Hx|congruence].
    + destruct (dec u t) as [->|Hne]; [exact Hx|now apply Hw].
Qed.

Section Any.
  Variable fresh : nat -> string.
  Variables (h : list unode) (l : nat) (L : list nat) (past : nat -> nat -> bool).
  Hypothesis Hinj : forall a b, reach h l a -> reach h l b -> uid_at h a = uid_at h b -> a = b.
  Hypothesis L_nodup : NoDup L.
  Hypothesis L_reach : forall a, In a L <-> reach h l a.
  Hypothesis Hpast : forall c a, reach h l c -> reach h l a -> (past c a = true <-> reach_past h l c a).
  Notation uid := (uid_at h).
  Notation refs := (refs_at h).

  Definition isclosed (s : dstate) (a : nat) : bool :=
    match dget (ds_reg s) (uid a) with Some (DJson _) => true | _ => false end.
  (** references to [c] in the dictionaries, by whether they are in what is reached past [c] *)
  Definition left (f : nat -> bool) (s : dstate) (c : nat) : nat :=
    cnt (flat_map (fun a => if isclosed s a && f a then refs a else []) L) c.
  Definition leftA s c := left (past c) s c.
  Definition leftB s c := left (fun a => negb (past c a)) s c.
  Definition callA a bs c := if past c a then cnt bs c else 0.
  Definition callB a bs c := if past c a then 0 else cnt bs c.
  Definition nclosed (s : dstate) : nat := length (filter (isclosed s) L).
  (** how many more calls of each kind can succeed; [K] are the instances being built *)
  Definition budA (s : dstate) (c : nat) : nat := if isclosed s c then 1 else 0.
  Definition budB (K : list nat) (s : dstate) (c : nat) : nat :=
    if in_dec Nat.eq_dec c K then match dget (ds_inst s) (uid c) with Some _ => 0 | None => 1 end else 1.
  Lemma budB_le K s c : budB K s c <= 1.
  Proof. unfold budB. destruct (in_dec Nat.eq_dec c K); [destruct (dget (ds_inst s) (uid c))|]; lia. Qed.

  Record inv (n : nat) (K : list nat) (s : dstate) : Prop := {
    i_inv : invt fresh h l s;
    i_fuel : nclosed s < n;
    i_open : forall b c, reach h l b -> reach h l c -> isclosed s b = false -> isclosed s c = true -> reach_past h l c b;
    i_done : forall b c, reach h l c -> isclosed s c = false -> ~ In c K -> In b K -> reach_past h l c b;
    i_inst : forall a, reach h l a -> isclosed s a = true -> dget (ds_inst s) (uid a) = None;
    i_stack : forall b, In b K -> reach h l b /\ isclosed s b = false }.

  Lemma isclosed_spec s a : invt fresh h l s -> reach h l a -> isclosed s a = true -> closed h s a.
  Proof.
    intros [_ H] Ha Hc. destruct (H a Ha) as [K|(m & K)]; [exact K|]. unfold isclosed in Hc. unfold at_key in K. rewrite K in Hc. discriminate.
  Qed.
  Lemma open_spec s a : invt fresh h l s -> reach h l a -> isclosed s a = false -> exists m, at_key s (uid a) m.
  Proof.
    intros [_ H] Ha Hc. destruct (H a Ha) as [(x & _ & K)|K]; [|exact K]. unfold isclosed in Hc. rewrite K in Hc. discriminate.
  Qed.
  Lemma isclosed_reg s s' a : ds_reg s = ds_reg s' -> isclosed s a = isclosed s' a.
  Proof. unfold isclosed. now intros ->. Qed.
  Lemma left_reg f s s' c : ds_reg s = ds_reg s' -> left f s c = left f s' c.
  Proof. unfold left, isclosed. now intros ->. Qed.
  Lemma open_stays s s' a : invt fresh h l s -> reach h l a -> dext s s' -> isclosed s a = false -> isclosed s' a = false.
  Proof.
    intros Hi Ha X Hc. destruct (open_spec s a Hi Ha Hc) as (m & Hm). apply (de_inst _ _ X) in Hm. unfold isclosed. unfold at_key in Hm.
    now rewrite Hm.
  Qed.

  (** ** Opening an entry *)
  Lemma flat_open s s1 b f c ls : NoDup ls -> isclosed s b = true -> isclosed s1 b = false ->
    (forall a, In a ls -> a <> b -> isclosed s1 a = isclosed s a) ->
    cnt (flat_map (fun a => if isclosed s a && f a then refs a else []) ls) c =
    (if in_dec Nat.eq_dec b ls then (if f b then cnt (refs b) c else 0) else 0) +
    cnt (flat_map (fun a => if isclosed s1 a && f a then refs a else []) ls) c.
  Proof.
    induction ls as [|a ls IH]; intros Hnd Hb Hb1 Ho; [reflexivity|]. inversion Hnd as [|? ? Ha Hnd']; subst.
    cbn [flat_map]. rewrite !count_occ_app. rewrite IH; auto; [|intros; apply Ho; [now right|assumption]].
    destruct (Nat.eq_dec a b) as [->|Hne].
    - rewrite Hb, Hb1. cbn [andb]. destruct (in_dec Nat.eq_dec b (b :: ls)) as [_|C]; [|destruct C; now left].
      destruct (in_dec Nat.eq_dec b ls) as [C|_]; [contradiction|]. destruct (f b); cbn [count_occ]; lia.
    - rewrite (Ho a) by (auto; now left).
      destruct (in_dec Nat.eq_dec b (a :: ls)) as [C|C]; destruct (in_dec Nat.eq_dec b ls) as [D|D]; try lia.
      + destruct C; [congruence|contradiction].
      + destruct C. now right.
  Qed.
  Lemma left_open s s1 b f c : reach h l b -> isclosed s b = true -> isclosed s1 b = false ->
    (forall a, reach h l a -> a <> b -> isclosed s1 a = isclosed s a) ->
    left f s c = (if f b then cnt (refs b) c else 0) + left f s1 c.
  Proof.
    intros Hr Hb Hb1 Ho. unfold left. rewrite (flat_open s s1 b f c L); auto.
    - destruct (in_dec Nat.eq_dec b L) as [_|C]; [reflexivity|]. destruct C. now apply L_reach.
    - intros a Ha. apply Ho. now apply L_reach.
  Qed.
  Lemma nclosed_open s s1 b : reach h l b -> isclosed s b = true -> isclosed s1 b = false ->
    (forall a, reach h l a -> a <> b -> isclosed s1 a = isclosed s a) -> nclosed s1 < nclosed s.
  Proof.
    intros Hr Hb Hb1 Ho. unfold nclosed.
    assert (G : forall ls, NoDup ls -> (forall a, In a ls -> reach h l a) ->
      length (filter (isclosed s1) ls) + (if in_dec Nat.eq_dec b ls then 1 else 0) = length (filter (isclosed s) ls)).
    { induction ls as [|a ls IH]; intros Hnd Hl; [reflexivity|]. inversion Hnd as [|? ? Ha Hnd']; subst.
      specialize (IH Hnd' (fun x Hx => Hl x (or_intror Hx))). cbn [filter]. destruct (Nat.eq_dec a b) as [->|Hne].
      - rewrite Hb, Hb1. cbn [length]. destruct (in_dec Nat.eq_dec b (b :: ls)) as [_|C]; [|destruct C; now left].
        destruct (in_dec Nat.eq_dec b ls) as [C|_]; [contradiction|]. lia.
      - rewrite (Ho a) by (auto; apply Hl; now left).
        destruct (in_dec Nat.eq_dec b (a :: ls)) as [C|C]; destruct (in_dec Nat.eq_dec b ls) as [D|D];
          destruct (isclosed s a); cbn [length]; try lia.
        + destruct C; [congruence|contradiction].
        + destruct C; [congruence|contradiction].
        + destruct C. now right.
        + destruct C. now right. }
    specialize (G L L_nodup (fun a Ha => proj1 (L_reach a) Ha)).
    destruct (in_dec Nat.eq_dec b L) as [_|C]; [lia|]. destruct C. now apply L_reach.
  Qed.

  (** ** Runs that return *)
  Definition acct (K : list nat) (s s' : dstate) (xa xb : nat -> nat) : Prop := forall c, reach h l c ->
    leftA s' c + budA s c <= xa c + leftA s c + budA s' c /\
    leftB s' c + budB K s c <= xb c + leftB s c + budB K s' c.
  Definition ok (n : nat) (K : list nat) (a : nat) {A} (m : DM A) (xs : list string) : Prop :=
    forall s bs, xs = map uid bs -> (forall b, In b bs -> In b (refs a)) -> inv n (a :: K) s ->
      (forall c, reach h l c -> callA a bs c + leftA s c <= budA s c /\ callB a bs c + leftB s c <= budB (a :: K) s c) ->
      exists r s', m s = (Ok r, s') /\ inv n (a :: K) s' /\ dext s s' /\ acct (a :: K) s s' (callA a bs) (callB a bs).

  Lemma call_app a bs cs c : callA a (bs ++ cs) c = callA a bs c + callA a cs c /\ callB a (bs ++ cs) c = callB a bs c + callB a cs c.
  Proof. unfold callA, callB. rewrite count_occ_app. destruct (past c a); lia. Qed.
  Lemma ok_ret n K a {A} (r : A) : ok n K a (dret r) [].
  Proof.
    intros s bs Eb _ Hi _. destruct bs; [|discriminate]. exists r, s. split; [reflexivity|]. split; [exact Hi|].
    split; [apply (dext_refl fresh)|]. intros c _. lia.
  Qed.
  Lemma ok_bind n K a {A B} (m : DM A) (g : A -> DM B) xs ys : ok n K a m xs -> (forall r, ok n K a (g r) ys) ->
    ok n K a (dbind m g) (xs ++ ys).
  Proof.
    intros Hm Hg s bs Eb Hb Hi Hpre. symmetry in Eb. apply map_eq_app in Eb as (b1 & b2 & -> & <- & <-).
    destruct (Hm s b1 eq_refl) as (r & s1 & E1 & I1 & X1 & A1); auto.
    { intros b H. apply Hb, in_or_app; auto. }
    { intros c Hc. destruct (Hpre c Hc). destruct (call_app a b1 b2 c). lia. }
    destruct (Hg r s1 b2 eq_refl) as (r2 & s2 & E2 & I2 & X2 & A2); auto.
    { intros b H. apply Hb, in_or_app; auto. }
    { intros c Hc. destruct (Hpre c Hc). destruct (call_app a b1 b2 c). destruct (A1 c Hc). lia. }
    exists r2, s2. unfold dbind. rewrite E1. split; [exact E2|]. split; [exact I2|]. split; [eapply (dext_trans fresh); eauto|].
    intros c Hc. destruct (A1 c Hc). destruct (A2 c Hc). destruct (call_app a b1 b2 c). lia.
  Qed.
  Lemma ok_ext n K a {A} (m m' : DM A) xs : (forall s, m s = m' s) -> ok n K a m xs -> ok n K a m' xs.
  Proof. intros He Hm s bs Eb Hb Hi Hp. destruct (Hm s bs Eb Hb Hi Hp) as (r & s' & E & R). exists r, s'. now rewrite <- He. Qed.
  Lemma ok_val n K a f : (forall k, ok n K a (f k) [k]) -> forall j, ok n K a (deser_val f j) (jrefs j).
  Proof.
    intros Hf. induction j as [d|k|js IH] using jval_rect'.
    - apply ok_ret.
    - change (jrefs (JKey k)) with ([k] ++ @nil string). apply ok_bind; [apply Hf|intros; apply ok_ret].
    - apply ok_ext with (m := dbind (deser_list f js) (fun ys => dret (UList ys))).
      { intros s. now rewrite deser_val_list. }
      rewrite <- (app_nil_r (jrefs (JList js))). apply ok_bind; [|intros; apply ok_ret]. simpl.
      induction IH as [|j js Hj Hjs IHjs]; [apply ok_ret|]. simpl. apply ok_bind; [exact Hj|]. intros y.
      rewrite <- (app_nil_r (flat_map jrefs js)). apply ok_bind; [exact IHjs|intros; apply ok_ret].
  Qed.
  Lemma ok_fields n K a f : (forall k, ok n K a (f k) [k]) -> forall fs,
    ok n K a (deser_fields f fs) (flat_map (fun g => jrefs (snd g)) fs).
  Proof.
    intros Hf. induction fs as [|[m j] fs IH]; [apply ok_ret|]. simpl. apply ok_bind; [now apply ok_val|]. intros y.
    rewrite <- (app_nil_r (flat_map _ fs)). apply ok_bind; [exact IH|intros; apply ok_ret].
  Qed.

  Definition one (p : bool) (b c : nat) : nat := if p then (if Nat.eqb c b then 1 else 0) else 0.
  Lemma call_ok n : forall K b s, inv n K s -> reach h l b ->
    (isclosed s b = true -> leftA s b = 0) ->
    (isclosed s b = false -> In b K /\ dget (ds_inst s) (uid b) = None) ->
    (forall c, reach h l c -> leftA s c <= budA s c /\ leftB s c <= budB K s c) ->
    (forall c, reach h l c -> c <> b -> isclosed s b = true -> (isclosed s c = true \/ ~ In c K) -> reach_past h l c b) ->
    exists m s', deser_inst fresh n (uid b) s = (Ok m, s') /\ inv n K s' /\ dext s s' /\
      acct K s s' (one (isclosed s b) b) (one (negb (isclosed s b)) b).
  Proof.
    induction n as [|n IH]; intros K b s Hi Hb H1 H2 H3 H4; [destruct Hi; lia|].
    assert (Hcall : forall K a k, ok n K a (deser_inst fresh n k) [k]).
    { intros K' a k t bs Eb Hbs Ht Hpre. destruct bs as [|x [|y bs]]; try discriminate. injection Eb as ->.
      assert (Hxr : In x (refs a)) by (apply Hbs; now left).
      destruct (i_stack _ _ _ Ht a (or_introl eq_refl)) as [Ha Hao].
      assert (Hx : reach h l x) by (econstructor; eauto).
      assert (Ex : cnt [x] x = 1) by (simpl; destruct (Nat.eq_dec x x); congruence).
      destruct (Hpre x Hx) as [P1 P2]. unfold callA, callB in P1, P2. rewrite Ex in P1, P2.
      assert (Hkind : isclosed t x = past x a).
      { destruct (isclosed t x) eqn:Ec; destruct (past x a) eqn:Ep; try reflexivity.
        - assert (C : past x a = true); [|congruence]. apply Hpast; auto. now apply (i_open _ _ _ Ht).
        - unfold budA in P1. rewrite Ec in P1. lia. }
      assert (Hone : forall c, one (isclosed t x) x c = callA a [x] c /\ one (negb (isclosed t x)) x c = callB a [x] c).
      { intros c. rewrite Hkind. unfold one, callA, callB. destruct (Nat.eqb_spec c x) as [->|Hne].
        - rewrite Ex. destruct (past x a); auto.
        - assert (E0 : cnt [x] c = 0) by (simpl; destruct (Nat.eq_dec x c); congruence). rewrite E0.
          destruct (past x a), (past c a); auto. }
      destruct (IH (a :: K') x t Ht Hx) as (m & t' & E & It & Xt & At).
      - intros Hc. rewrite Hkind in Hc. rewrite Hc in P1. unfold budA in P1. destruct (isclosed t x); lia.
      - intros Hc. rewrite Hkind in Hc. rewrite Hc in P2. unfold budB in P2.
        destruct (in_dec Nat.eq_dec x (a :: K')) as [Hin|Hin].
        + split; [exact Hin|]. destruct (dget (ds_inst t) (uid x)); [lia|reflexivity].
        + assert (C : past x a = true); [|congruence]. apply Hpast; auto. apply (i_done _ _ _ Ht); auto; [congruence|now left].
      - intros c Hc. destruct (Hpre c Hc). lia.
      - intros c Hc Hne _ Hor. apply past_step with a; [|exact Hxr|congruence]. destruct (isclosed t c) eqn:Ec.
        + now apply (i_open _ _ _ Ht).
        + destruct Hor as [Hor|Hor]; [discriminate|]. apply (i_done _ _ _ Ht); auto. now left.
      - exists m, t'. split; [exact E|]. split; [exact It|]. split; [exact Xt|].
        intros c Hc. destruct (At c Hc). destruct (Hone c). lia. }
    pose proof (i_inv _ _ _ Hi) as Hv. pose proof (proj1 Hv) as Hn.
    destruct (isclosed s b) eqn:Ec.
    - (* a dictionary *)
      clear H2. specialize (H1 eq_refl).
      pose proof (i_inst _ _ _ Hi b Hb Ec) as Hnone.
      destruct (isclosed_spec s b Hv Hb Ec) as (x & Ex & Er). set (j := node_json uid x) in *.
      set (s1 := opening fresh s (uid b) j).
      assert (Hne : forall a, reach h l a -> a <> b -> uid b <> uid a) by (intros a Ha Hab C; apply Hinj in C; auto; congruence).
      assert (Ho : forall a, reach h l a -> a <> b -> isclosed s1 a = isclosed s a).
      { intros a Ha Hab. unfold isclosed, s1. cbn [opening ds_reg]. rewrite dget_dset_other; auto. }
      assert (Hb1 : isclosed s1 b = false) by (unfold isclosed, s1; cbn [opening ds_reg]; now rewrite dget_dset_same).
      assert (Hin1 : forall a, reach h l a -> dget (ds_inst s1) (uid a) = dget (ds_inst s) (uid a)).
      { intros a Ha. apply opening_inst; [exact Hn|]. eapply invt_reg; eauto. }
      assert (Hreg : forall a, reach h l a -> isclosed s1 a = true -> a <> b /\ isclosed s a = true).
      { intros a Ha Hc. destruct (Nat.eq_dec a b) as [->|Hab]; [congruence|]. split; [exact Hab|]. now rewrite <- Ho. }
      assert (HbK : ~ In b K) by (intros C; destruct (i_stack _ _ _ Hi b C); congruence).
      assert (Hrefs : refs b = node_refs x) by (unfold refs_at; now rewrite Ex).
      assert (HA : forall c, leftA s c = callA b (refs b) c + leftA s1 c).
      { intros c. unfold leftA, callA. now apply left_open. }
      assert (HB : forall c, leftB s c = callB b (refs b) c + leftB s1 c).
      { intros c. unfold leftB, callB. rewrite (left_open s s1 b) by auto. destruct (past c b); reflexivity. }
      assert (HbudA : forall c, reach h l c -> c <> b -> budA s1 c = budA s c).
      { intros c Hc Hcb. unfold budA. now rewrite Ho. }
      assert (HbudB : forall c, reach h l c -> c <> b -> budB (b :: K) s1 c = budB K s c).
      { intros c Hc Hcb. unfold budB. rewrite Hin1 by exact Hc.
        destruct (in_dec Nat.eq_dec c (b :: K)) as [C|C]; destruct (in_dec Nat.eq_dec c K) as [D|D]; auto.
        - destruct C; [congruence|contradiction].
        - destruct C. now right. }
      assert (HbudB1 : budB (b :: K) s1 b = 1).
      { unfold budB. destruct (in_dec Nat.eq_dec b (b :: K)) as [_|C]; [|reflexivity]. now rewrite Hin1, Hnone. }
      assert (Hi1 : inv n (b :: K) s1).
      { constructor.
        - split; [apply no_default_opening; [exact Hn|congruence]|]. intros a Ha. unfold closed, at_key, s1. cbn [opening ds_reg].
          destruct (Nat.eq_dec a b) as [->|Hab]; [right; rewrite dget_dset_same; eauto|].
          rewrite dget_dset_other by auto. now apply Hv.
        - pose proof (nclosed_open s s1 b Hb Ec Hb1 Ho). pose proof (i_fuel _ _ _ Hi). lia.
        - intros a c Ha Hc Hao Hcc. destruct (Hreg c Hc Hcc) as [Hcb Hcs]. destruct (Nat.eq_dec a b) as [->|Hab].
          + apply H4; auto.
          + apply (i_open _ _ _ Hi); auto. now rewrite <- Ho.
        - intros a c Hc Hco Hck Hak. assert (Hcb : c <> b) by (intros ->; apply Hck; now left).
          assert (HcK : ~ In c K) by (intros C; apply Hck; now right).
          destruct Hak as [<-|Hak]; [apply H4; auto|]. apply (i_done _ _ _ Hi); auto. now rewrite <- Ho.
        - intros a Ha Hac. rewrite Hin1 by exact Ha. apply (i_inst _ _ _ Hi); [exact Ha|]. now apply Hreg.
        - intros a [<-|Ha]; [split; auto|]. destruct (i_stack _ _ _ Hi a Ha) as [Hra Hao]. split; [exact Hra|].
          rewrite Ho; auto. intros ->. contradiction. }
      destruct (ok_fields n K b (deser_inst fresh n) (fun k => Hcall K b k) (jn_fields j) s1 (refs b)) as (fs & s2 & Ef & I2 & X2 & A2).
      { change (jnode_refs j = map uid (refs b)). unfold j. now rewrite node_json_refs, Hrefs. }
      { auto. }
      { exact Hi1. }
      { intros c Hc. destruct (H3 c Hc) as [P1 P2]. rewrite HA in P1. rewrite HB in P2. destruct (Nat.eq_dec c b) as [->|Hcb].
        - rewrite HA in H1. rewrite HbudB1. pose proof (budB_le K s b). lia.
        - rewrite HbudA, HbudB by auto. lia. }
      set (q := length (ds_heap s)).
      assert (Hl : dget (ds_reg s2) (uid b) = Some (DInst q)).
      { apply (de_inst _ _ X2). unfold at_key, s1. cbn [opening ds_reg]. apply dget_dset_same. }
      set (s' := DS (replace_nth q (UN (jn_uid j) (jn_cls j) fs) (ds_heap s2)) (dset (ds_inst s2) (uid b) q) (ds_reg s2) (ds_next s2)).
      assert (Hrun : deser_inst fresh (S n) (uid b) s = (Ok q, s')).
      { simpl. rewrite Hnone, Er. unfold dbind at 1 2 3. unfold new_node. fold (opening fresh s (uid b) j). fold s1. rewrite Ef.
        simpl. now rewrite Hl. }
      pose proof (call_dext fresh _ _ _ _ _ Hn Hrun) as X.
      assert (Hcl : forall a, isclosed s' a = isclosed s2 a) by (intros a; now apply isclosed_reg).
      exists q, s'. split; [exact Hrun|]. split; [|split; [exact X|]].
      + constructor.
        * now apply (invt_dext fresh h l s).
        * unfold nclosed. rewrite (filter_ext _ _ Hcl). pose proof (i_fuel _ _ _ I2) as F. unfold nclosed in F. lia.
        * intros a c Ha Hc. rewrite !Hcl. apply (i_open _ _ _ I2 a c Ha Hc).
        * intros a c Hc. rewrite Hcl. intros Hco HcK Hak. destruct (Nat.eq_dec c b) as [->|Hcb].
          -- destruct (i_stack _ _ _ Hi a Hak). now apply (i_open _ _ _ Hi).
          -- apply (i_done _ _ _ I2); auto; [|now right]. intros [C|C]; [congruence|contradiction].
        * intros a Ha. rewrite Hcl. intros Hac. unfold s'. cbn [ds_inst].
          assert (Hab : a <> b). { intros ->. unfold isclosed in Hac. rewrite Hl in Hac. discriminate. }
          rewrite dget_dset_other by auto. now apply (i_inst _ _ _ I2).
        * intros a Ha. destruct (i_stack _ _ _ Hi a Ha) as [Hra Hao]. split; [exact Hra|]. now apply (open_stays s).
      + intros c Hc. destruct (A2 c Hc) as [QA QB].
        assert (EA : leftA s' c = leftA s2 c) by (now apply left_reg). assert (EB : leftB s' c = leftB s2 c) by (now apply left_reg).
        assert (Eb : budA s' c = budA s2 c) by (unfold budA; now rewrite Hcl).
        rewrite EA, EB, Eb, HA, HB. unfold one. cbn [negb]. destruct (Nat.eqb_spec c b) as [->|Hcb].
        * assert (E1 : budA s b = 1) by (unfold budA; now rewrite Ec).
          assert (E2 : budB K s b = 1 /\ budB K s' b = 1).
          { unfold budB. destruct (in_dec Nat.eq_dec b K); [contradiction|auto]. }
          assert (E3 : budA s1 b = 0) by (unfold budA; now rewrite Hb1).
          pose proof (budB_le (b :: K) s2 b). lia.
        * rewrite <- HbudA, <- HbudB by auto.
          assert (E2 : budB K s' c = budB (b :: K) s2 c).
          { unfold budB, s'. cbn [ds_inst]. rewrite dget_dset_other by auto.
            destruct (in_dec Nat.eq_dec c (b :: K)) as [C|C]; destruct (in_dec Nat.eq_dec c K) as [D|D]; auto.
            - destruct C; [congruence|contradiction].
            - destruct C. now right. }
          lia.
    - (* an instance being built *)
      destruct (H2 eq_refl) as [HbK Hnone]. destruct (open_spec s b Hv Hb Ec) as (m & Em). unfold at_key in Em.
      set (s' := DS (ds_heap s) (dset (ds_inst s) (uid b) m) (ds_reg s) (ds_next s)).
      assert (Hrun : deser_inst fresh (S n) (uid b) s = (Ok m, s')).
      { simpl. rewrite Hnone, Em. simpl. now rewrite Em. }
      pose proof (call_dext fresh _ _ _ _ _ Hn Hrun) as X.
      exists m, s'. split; [exact Hrun|]. split; [|split; [exact X|]].
      + destruct Hi as [i1 i2 i3 i4 i5 i6]. constructor; auto.
        intros a Ha Hac. assert (Hab : a <> b). { intros ->. change (isclosed s b = true) in Hac. congruence. }
        unfold s'. cbn [ds_inst]. rewrite dget_dset_other; [now apply i5|]. intros C. apply Hinj in C; auto.
      + intros c Hc. change (leftA s' c) with (leftA s c). change (leftB s' c) with (leftB s c). change (budA s' c) with (budA s c).
        split; [lia|]. unfold one. cbn [negb]. destruct (Nat.eqb_spec c b) as [->|Hcb].
        * pose proof (budB_le K s b). lia.
        * unfold budB, s'. cbn [ds_inst]. rewrite dget_dset_other; [lia|]. intros C. apply Hinj in C; auto.
  Qed.
End Any.

Lemma filter_true {A} (ls : list A) : filter (fun _ => true) ls = ls.
Proof. induction ls as [|a ls IH]; [reflexivity|]. simpl. now rewrite IH. Qed.
Lemma past_self h l a : ~ reach_past h l l a.
Proof. induction 1; auto. Qed.
Lemma flat_filter {A B} (p : A -> bool) (f : A -> list B) ls : flat_map (fun a => if p a then f a else []) ls = flat_map f (filter p ls).
Proof. induction ls as [|a ls IH]; [reflexivity|]. simpl. rewrite IH. destruct (p a); reflexivity. Qed.

Lemma any_returns : forall fresh h l n d h2 inst next n2,
  graph h l -> distinct_uids h l -> uid_serialize h n l = Ok d ->
  (forall i, next <= i -> dget d (fresh i) = None) ->
  length d < n2 ->
  (forall a, reach h l a -> dget inst (uid_at h a) = None) ->
  (forall c ls, reach h l c -> NoDup ls -> Forall (reach_past h l c) ls -> cnt (flat_map (refs_at h) ls) c <= 1) ->
  (forall c ls, reach h l c -> NoDup ls -> Forall (fun a => reach h l a /\ ~ reach_past h l c a) ls -> cnt (flat_map (refs_at h) ls) c <= 1) ->
  exists l2 s2, uid_deserialize fresh n2 d h2 inst next = (Ok l2, s2).
Proof.
  intros fresh h l n d h2 inst next n2 Hg Hd Hs Hfr Hn2 Hu HA HB.
  destruct (uid_deserialize fresh n2 d h2 inst next) as [[l2|e] s2] eqn:E; [eauto|]. exfalso.
  apply (nn_dec Nat.eq_dec (reach h l) (seq 0 (length h))). intros (w & Hw).
  set (L := filter w (seq 0 (length h))).
  assert (HL : forall a, In a L <-> reach h l a).
  { intros a. unfold L. rewrite filter_In. split; [intros [A B]; now apply Hw|]. intros Ha.
    assert (Hin : In a (seq 0 (length h))) by (apply in_seq; specialize (Hg a Ha); lia). split; [exact Hin|now apply Hw]. }
  assert (HLn : NoDup L) by (apply NoDup_filter, seq_NoDup).
  assert (dec : forall x y : nat * nat, {x = y} + {x <> y}) by (decide equality; apply Nat.eq_dec).
  apply (nn_dec dec (fun p => reach_past h l (fst p) (snd p)) (list_prod L L)). intros (p & Hp).
  assert (Hp' : forall c a, reach h l c -> reach h l a -> (p (c, a) = true <-> reach_past h l c a)).
  { intros c a Hc Ha. apply (Hp (c, a)). apply in_prod; now apply HL. }
  set (past := fun c a => p (c, a)).
  set (s := DS h2 inst (map (fun kv => (fst kv, DJson (snd kv))) d) next).
  assert (Hent : forall a, reach h l a -> closed h s a) by (intros a Ha; eapply run_entry; eauto).
  assert (Hcl : forall a, reach h l a -> isclosed h s a = true).
  { intros a Ha. destruct (Hent a Ha) as (x & _ & Ex). unfold isclosed. now rewrite Ex. }
  assert (Hleft : forall f c, left h L f s c = cnt (flat_map (refs_at h) (filter f L)) c).
  { intros f c. unfold left. rewrite <- flat_filter. f_equal.
    assert (G : forall ls, (forall a, In a ls -> reach h l a) ->
      flat_map (fun a => if isclosed h s a && f a then refs_at h a else []) ls = flat_map (fun a => if f a then refs_at h a else []) ls).
    { induction ls as [|a ls IH]; intros Hls; [reflexivity|]. simpl. rewrite (Hcl a) by (apply Hls; now left). simpl.
      rewrite IH; [reflexivity|]. intros b Hb. apply Hls. now right. }
    apply G. intros a. apply HL. }
  assert (Hzero : leftA h L past s l = 0).
  { unfold leftA. rewrite Hleft. assert (Ef : filter (past l) L = []); [|now rewrite Ef].
    assert (G : forall ls, (forall a, In a ls -> reach h l a) -> filter (past l) ls = []).
    { induction ls as [|a ls IH]; intros Hls; [reflexivity|]. simpl. destruct (past l a) eqn:Ea.
      - apply Hp' in Ea; [destruct (past_self _ _ _ Ea)|constructor|apply Hls; now left].
      - apply IH. intros b Hb. apply Hls. now right. }
    apply G. intros a. apply HL. }
  assert (Hi : inv fresh h l L n2 [] s).
  { constructor.
    - split; [eapply run_fresh; eauto|]. intros a Ha. left. now apply Hent.
    - assert (Hle : nclosed h L s <= length d); [|lia]. unfold nclosed. eapply Nat.le_trans; [apply (filter_le (isclosed h s) (fun _ => true)); auto|]. rewrite filter_true.
      assert (Hm : length (map (uid_at h) L) <= length (dkeys d)).
      { apply NoDup_incl_length.
        - clear -HLn HL Hd. assert (HL' : forall a, In a L -> reach h l a) by (intros a; apply HL). clear HL. revert HL'.
          induction HLn as [|a ls Ha Hls IH]; intros Hr; [constructor|]. simpl. constructor.
          + intros C. apply in_map_iff in C as (b & Hab & Hb). apply (proj1 Hd) in Hab; [subst; contradiction| |]; apply Hr; [now right|now left].
          + apply IH. intros b Hb. apply Hr. now right.
        - intros k Hk. apply in_map_iff in Hk as (a & <- & Ha). apply HL in Ha. destruct (Hent a Ha) as (x & _ & Ex).
          unfold s in Ex. cbn [ds_reg] in Ex. rewrite dget_map in Ex. destruct (dget d (uid_at h a)) as [v|] eqn:Ed; [|discriminate].
          apply dget_in in Ed. unfold dkeys. change (uid_at h a) with (fst (uid_at h a, v)). now apply in_map. }
      unfold dkeys in Hm. rewrite !map_length in Hm. exact Hm.
    - intros b c Hb Hc Hbo. rewrite (Hcl b Hb) in Hbo. discriminate.
    - intros b c _ _ _ [].
    - intros a Ha _. now apply Hu.
    - intros b []. }
  destruct (call_ok fresh h l L past (proj1 Hd) HLn HL Hp' n2 [] l s Hi (reach_refl h l)) as (m & s' & Er & _).
  - intros _. exact Hzero.
  - rewrite (Hcl l (reach_refl h l)). discriminate.
  - intros c Hc. unfold leftA, leftB. rewrite !Hleft. split.
    + unfold budA. rewrite (Hcl c Hc). apply HA; auto; [now apply NoDup_filter|]. apply Forall_forall. intros a Ha.
      apply filter_In in Ha as [Ha1 Ha2]. apply HL in Ha1. now apply Hp'.
    + unfold budB. destruct (in_dec Nat.eq_dec c []) as [[]|_]. apply HB; auto; [now apply NoDup_filter|]. apply Forall_forall. intros a Ha.
      apply filter_In in Ha as [Ha1 Ha2]. apply HL in Ha1. split; [exact Ha1|]. intros C. apply Hp' in C; auto.
      unfold past in Ha2. rewrite C in Ha2. discriminate.
  - intros c Hc Hne _ _. apply past_refl. congruence.
  - assert (H0 : uid_deserialize fresh n2 d h2 inst next = deser_inst fresh n2 (uid_at h l) s).
    { destruct (serialize_entries h l n d Hg Hd Hs) as [_ He]. unfold uid_deserialize.
      rewrite (proj2 (He root_key (JRoot (uid_at h l)))) by (left; auto). reflexivity. }
    rewrite H0, Er in E. discriminate.
Qed.

Lemma any_exact : forall fresh h l n d h2 inst next n2,
  graph h l -> distinct_uids h l -> uid_serialize h n l = Ok d ->
  (forall i, next <= i -> dget d (fresh i) = None) ->
  length d < n2 ->
  ((exists l2 s2, uid_deserialize fresh n2 d h2 inst next = (Ok l2, s2)) <->
   (forall a, reach h l a -> dget inst (uid_at h a) = None) /\
   (forall c ls, reach h l c -> NoDup ls -> Forall (reach_past h l c) ls -> cnt (flat_map (refs_at h) ls) c <= 1) /\
   (forall c ls, reach h l c -> NoDup ls -> Forall (fun a => reach h l a /\ ~ reach_past h l c a) ls ->
      cnt (flat_map (refs_at h) ls) c <= 1)).
Proof.
  intros fresh h l n d h2 inst next n2 Hg Hd Hs Hfr Hn2. split.
  - intros (l2 & s2 & H). split; [intros a Ha; eapply run_unused; eauto|]. split; intros c ls Hc Hnd Hls.
    + apply (proj1 (run_bounds fresh h l n d h2 inst next n2 l2 s2 Hg Hd Hs Hfr H c ls Hc Hnd)), Hls.
    + apply (proj2 (run_bounds fresh h l n d h2 inst next n2 l2 s2 Hg Hd Hs Hfr H c ls Hc Hnd)), Hls.
  - intros (Hu & HA & HB). eapply any_returns; eauto.
Qed.
