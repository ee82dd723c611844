(** Proofs about property objects. *)
From Coq Require Import Lia.
From Verif Require Import Names NamesSpec.
Local Open Scope string_scope.
Local Open Scope list_scope.
Local Open Scope nat_scope.

Lemma put_length h o p : length (put h o p) = length h.
Proof. revert o. induction h as [|x h IH]; intros [|o]; simpl; auto. Qed.
Lemma put_same h o p x : nth_error h o = Some x -> nth_error (put h o p) o = Some p.
Proof. revert o. induction h as [|y h IH]; intros [|o]; simpl; try discriminate; auto. Qed.
Lemma put_other h o p q : q <> o -> nth_error (put h o p) q = nth_error h q.
Proof. revert o q. induction h as [|y h IH]; intros [|o] [|q] H; simpl; auto; try congruence. Qed.
Lemma nth_lt {A} (l : list A) o x : nth_error l o = Some x -> o < length l.
Proof. intros H. apply nth_error_Some. congruence. Qed.

Lemma holds_children h o q : holds h o q <-> exists p, nth_error h o = Some p /\ In q (children (o_kind p)).
Proof.
  unfold holds. split; intros (p & Hp & H); exists p; (split; [exact Hp|]).
  - destruct (o_kind p) as [| | | |c|[c|]|[k|] [v|]|l]; simpl in *; intuition congruence.
  - destruct (o_kind p) as [| | | |c|[c|]|[k|] [v|]|l]; simpl in *; intuition congruence.
Qed.

Lemma sbn_refl h : same_but_names h h.
Proof. split; auto. intros o p H. exists p. auto. Qed.
Lemma sbn_trans a b c : same_but_names a b -> same_but_names b c -> same_but_names a c.
Proof.
  intros [L1 H1] [L2 H2]. split; [congruence|]. intros o p H. destruct (H1 _ _ H) as (p1 & E1 & A1 & B1 & C1 & D1).
  destruct (H2 _ _ E1) as (p2 & E2 & A2 & B2 & C2 & D2). exists p2. repeat split; auto; congruence.
Qed.
Lemma sbn_sym a b : same_but_names a b -> same_but_names b a.
Proof.
  intros [L1 H1]. split; [auto|]. intros o p H. destruct (nth_error a o) as [p1|] eqn:E.
  - destruct (H1 _ _ E) as (p2 & E2 & A2 & B2 & C2 & D2). rewrite H in E2. injection E2 as <-. exists p1. auto.
  - apply nth_error_None in E. apply nth_lt in H. lia.
Qed.
Lemma sbn_put h o p s : nth_error h o = Some p -> same_but_names h (put h o (with_name p s)).
Proof.
  intros H. split; [apply put_length|]. intros q x Hx. destruct (Nat.eq_dec q o) as [->|Hn].
  - rewrite H in Hx. injection Hx as <-. exists (with_name p s). split; [now apply put_same with p|]. auto.
  - exists x. rewrite put_other by auto. auto.
Qed.
Lemma sbn_holds h h' o q : same_but_names h h' -> holds h o q -> holds h' o q.
Proof.
  intros [_ H] (p & Hp & Hk). destruct (H _ _ Hp) as (p' & E & K & _). exists p'. split; auto. now rewrite K.
Qed.
Lemma sbn_inside h h' o q : same_but_names h h' -> inside h o q -> inside h' o q.
Proof. intros H. induction 1; [constructor|]. econstructor; [eapply sbn_holds; eauto|auto]. Qed.
Lemma inside_trans h a b c : inside h a b -> inside h b c -> inside h a c.
Proof. induction 1; auto. intros. econstructor; eauto. Qed.

(** What naming does to one object *)
Definition renamed_to (s : string) (h h' : heap) (q : nat) : Prop :=
  nth_error h' q = option_map (fun p => with_name p s) (nth_error h q).
Lemma with_name_twice p s t : with_name (with_name p s) t = with_name p t.
Proof. reflexivity. Qed.

Definition naming (s : string) (h h' : heap) (S : nat -> Prop) (r : res unit) : Prop :=
  same_but_names h h' /\
  (forall q, nth_error h' q = nth_error h q \/ (S q /\ renamed_to s h h' q)) /\
  (r = Ok tt -> forall q, S q -> nth_error h q <> None /\ renamed_to s h h' q).

Lemma naming_seq s h h1 h2 A B r1 r : naming s h h1 A r1 -> r1 = Ok tt -> naming s h1 h2 B r ->
  naming s h h2 (fun q => A q \/ B q) r.
Proof.
  intros (N1 & C1 & O1) E (N2 & C2 & O2). split; [eapply sbn_trans; eauto|]. split.
  - intros q. destruct (C2 q) as [H2|[HB H2]], (C1 q) as [H1|[HA H1]]; unfold renamed_to in *.
    + left. congruence.
    + right. split; auto. congruence.
    + right. split; auto. rewrite H2, H1. reflexivity.
    + right. split; auto. rewrite H2, H1. destruct (nth_error h q); reflexivity.
  - intros Er q [HA|HB].
    + destruct (O1 E _ HA) as [Hs H1]. split; [exact Hs|]. unfold renamed_to in *. destruct (C2 q) as [H2|[_ H2]].
      * congruence.
      * rewrite H2, H1. destruct (nth_error h q); reflexivity.
    + destruct (O2 Er _ HB) as [Hs H2]. unfold renamed_to in *. destruct (C1 q) as [H1|[_ H1]].
      * split; congruence.
      * split; [intros Hn; apply Hs; rewrite H1, Hn; reflexivity|]. rewrite H2, H1. destruct (nth_error h q); reflexivity.
Qed.
Lemma naming_weaken s h h' (A B : nat -> Prop) r : (forall q, A q -> B q) -> (r = Ok tt -> forall q, B q -> A q) -> naming s h h' A r -> naming s h h' B r.
Proof.
  intros HAB HBA (N & C & O). split; [exact N|]. split.
  - intros q. destruct (C q) as [H|[H H']]; auto.
  - intros E q HB. auto.
Qed.

Lemma each_spec s (f : heap -> nat -> heap * res unit) (IH : forall h o h' r, f h o = (h', r) -> naming s h h' (inside h o) r) :
  forall l h h' r, each f h l = (h', r) -> naming s h h' (fun q => exists c, In c l /\ inside h c q) r.
Proof.
  induction l as [|c l IHl]; simpl; intros h h' r H.
  - injection H as <- <-. split; [apply sbn_refl|]. split; [auto|]. intros _ q (c & [] & _).
  - destruct (f h c) as [h1 r1] eqn:E1. destruct r1 as [u|e].
    + destruct u. pose proof (IH _ _ _ _ E1) as N1. specialize (IHl _ _ _ H).
      pose proof (proj1 N1) as S1. eapply naming_weaken; [| |exact (naming_seq _ _ _ _ _ _ _ _ N1 eq_refl IHl)]; cbn.
      * intros q [Hq|(d & Hd & Hq)]; eauto. exists d. split; auto. eapply sbn_inside; [apply sbn_sym; exact S1|auto].
      * intros _ q (d & [<-|Hd] & Hq); auto. right. exists d. split; auto. eapply sbn_inside; eauto.
    + injection H as <- <-. pose proof (IH _ _ _ _ E1) as N1. eapply naming_weaken; [| |exact N1]; [eauto|discriminate].
Qed.
Lemma set_name_spec s : forall n h o h' r, set_name n s h o = (h', r) -> naming s h h' (inside h o) r.
Proof.
  induction n as [|n IH]; simpl; intros h o h' r H.
  - injection H as <- <-. split; [apply sbn_refl|]. split; [auto|discriminate].
  - destruct (nth_error h o) as [p|] eqn:Ep.
    2:{ injection H as <- <-. split; [apply sbn_refl|]. split; [auto|discriminate]. }
    destruct (each (set_name n s) h (children (o_kind p))) as [h1 r1] eqn:E1.
    pose proof (each_spec s _ IH _ _ _ _ E1) as N1. destruct r1 as [[]|e].
    + pose proof (proj1 N1) as S1.
      destruct (nth_error h1 o) as [p1|] eqn:Ep1.
      2:{ destruct S1 as [_ S1]. destruct (S1 _ _ Ep) as (x & Hx & _). congruence. }
      injection H as <- <-.
      assert (N2 : naming s h1 (put h1 o (with_name p1 s)) (fun q => q = o) (Ok tt)).
      { split; [now apply sbn_put|]. split.
        - intros q. destruct (Nat.eq_dec q o) as [->|Hn].
          + right. split; auto. unfold renamed_to. rewrite Ep1. simpl. now apply put_same with p1.
          + left. now apply put_other.
        - intros _ q ->. split; [congruence|]. unfold renamed_to. rewrite Ep1. simpl. now apply put_same with p1. }
      eapply naming_weaken; [| |exact (naming_seq _ _ _ _ _ _ _ _ N1 eq_refl N2)]; cbn.
      * intros q [(c & Hc & Hq)| ->]; [|constructor]. apply ins_step with c; auto. apply holds_children. eauto.
      * intros _ q Hq. inversion Hq; subst; auto. left. exists c. split; auto.
        apply holds_children in H. destruct H as (p' & Hp' & Hi). congruence.
    + injection H as <- <-. eapply naming_weaken; [| |exact N1]; [|discriminate].
      intros q (c & Hc & Hq). apply ins_step with c; auto. apply holds_children. eauto.
Qed.

(** Declaring a class *)
Lemma name_all_sbn n props : forall own h h' r, name_all n props h own = (h', r) -> same_but_names h h'.
Proof.
  induction own as [|[k o] own IH]; simpl; intros h h' r H; [injection H as <- <-; apply sbn_refl|].
  destruct (nth_error h o) as [p|]; [|injection H as <- <-; apply sbn_refl].
  destruct (match o_kind p with PkRenamed s => _ | _ => false end); [injection H as <- <-; apply sbn_refl|].
  destruct (set_name n k h o) as [h1 [u|e]] eqn:E.
  - eapply sbn_trans; [exact (proj1 (set_name_spec _ _ _ _ _ _ E))|eauto].
  - injection H as <- <-. exact (proj1 (set_name_spec _ _ _ _ _ _ E)).
Qed.
Lemma name_all_untouched n props q : forall own h h' r, name_all n props h own = (h', r) ->
  (forall k o, In (k, o) own -> ~ inside h o q) -> nth_error h' q = nth_error h q.
Proof.
  induction own as [|[k o] own IH]; simpl; intros h h' r H Hq; [injection H as <- <-; auto|].
  destruct (nth_error h o) as [p|]; [|injection H as <- <-; auto].
  destruct (match o_kind p with PkRenamed s => _ | _ => false end); [injection H as <- <-; auto|].
  destruct (set_name n k h o) as [h1 [u|e]] eqn:E; destruct (set_name_spec _ _ _ _ _ _ E) as (S1 & C1 & _).
  - rewrite (IH _ _ _ H).
    + destruct (C1 q) as [|[Hi _]]; auto. destruct (Hq k o); auto.
    + intros k2 o2 Hin Hi. apply (Hq k2 o2); auto. eapply sbn_inside; [apply sbn_sym; exact S1|auto].
  - injection H as <- <-. destruct (C1 q) as [|[Hi _]]; auto. destruct (Hq k o); auto.
Qed.
Lemma name_all_last n props q : forall l1 k o l2 h h', name_all n props h (l1 ++ (k, o) :: l2) = (h', Ok tt) ->
  inside h o q -> (forall k2 o2, In (k2, o2) l2 -> ~ inside h o2 q) ->
  exists p, nth_error h q = Some p /\ nth_error h' q = Some (with_name p k).
Proof.
  induction l1 as [|[k1 o1] l1 IH]; simpl; intros k o l2 h h' H Hi Hl.
  - destruct (nth_error h o) as [p|] eqn:Ep; [|discriminate].
    destruct (match o_kind p with PkRenamed s => _ | _ => false end); [discriminate|].
    destruct (set_name n k h o) as [h1 [[]|e]] eqn:E; [|discriminate].
    destruct (set_name_spec _ _ _ _ _ _ E) as (S1 & C1 & O1). destruct (O1 eq_refl q Hi) as [Hs Hr].
    rewrite (name_all_untouched _ _ q _ _ _ _ H).
    + unfold renamed_to in Hr. destruct (nth_error h q) as [x|]; [|congruence]. exists x. auto.
    + intros k2 o2 Hin Hi2. apply (Hl k2 o2); auto. eapply sbn_inside; [apply sbn_sym; exact S1|auto].
  - destruct (nth_error h o1) as [p|] eqn:Ep; [|discriminate].
    destruct (match o_kind p with PkRenamed s => _ | _ => false end); [discriminate|].
    destruct (set_name n k1 h o1) as [h1 [[]|e]] eqn:E; [|discriminate].
    destruct (set_name_spec _ _ _ _ _ _ E) as (S1 & C1 & _).
    destruct (IH _ _ _ _ _ H) as (p1 & Hp1 & Hp2).
    + eapply sbn_inside; eauto.
    + intros k2 o2 Hin Hi2. apply (Hl k2 o2); auto. eapply sbn_inside; [apply sbn_sym; exact S1|auto].
    + destruct (C1 q) as [Hq|[_ Hq]]; unfold renamed_to in Hq; rewrite Hp1 in Hq.
      * eauto.
      * destruct (nth_error h q) as [x|]; [|discriminate]. injection Hq as ->. exists x. auto.
Qed.
Lemma class_only_names n inh own h h' r : step n h (PClass inh own) = (h', r) -> same_but_names h h'.
Proof. apply name_all_sbn. Qed.
Lemma class_names n inh own h h' : step n h (PClass inh own) = (h', Ok tt) ->
  same_but_names h h' /\
  (forall q l1 k o l2, own = l1 ++ (k, o) :: l2 -> inside h o q ->
     (forall k2 o2, In (k2, o2) l2 -> ~ inside h o2 q) -> slot h' q = Some k) /\
  (forall q, (forall k o, In (k, o) own -> ~ inside h o q) -> slot h' q = slot h q).
Proof.
  cbn [step]. intros H. split; [exact (name_all_sbn _ _ _ _ _ _ H)|]. split.
  - intros q l1 k o l2 -> Hi Hl. destruct (name_all_last _ _ _ _ _ _ _ _ _ H Hi Hl) as (p & _ & Hp).
    unfold slot. now rewrite Hp.
  - intros q Hq. unfold slot. now rewrite (name_all_untouched _ _ _ _ _ _ _ H Hq).
Qed.

(** Ending *)
Lemma each_ok f l (P : heap -> Prop) : (forall h o, P h -> In o l -> exists h', f h o = (h', Ok tt) /\ P h') ->
  forall h, P h -> exists h', each f h l = (h', Ok tt) /\ P h'.
Proof.
  induction l as [|o l IH]; simpl; intros Hf h Hh; eauto.
  destruct (Hf h o Hh (or_introl eq_refl)) as (h1 & -> & H1). apply IH; auto.
Qed.
Lemma pigeon (l : list nat) m : NoDup l -> (forall x, In x l -> x < m) -> length l <= m.
Proof.
  intros Hn H. rewrite <- (seq_length m 0). apply NoDup_incl_length; auto.
  intros x Hx. apply in_seq. specialize (H x Hx). lia.
Qed.
Lemma inside_put_trans h v o c : inside h v o -> holds h o c -> inside h v c.
Proof. intros H1 H2. eapply inside_trans; [exact H1|]. econstructor; [exact H2|constructor]. Qed.
Lemma set_name_ends s h0 : acyclic h0 -> closed h0 -> forall n visited o h, same_but_names h0 h ->
  NoDup visited -> (forall v, In v visited -> v < length h0) ->
  (forall v, In v visited -> exists c, holds h0 v c /\ inside h0 c o) ->
  o < length h0 -> length h0 < n + length visited ->
  exists h', set_name n s h o = (h', Ok tt) /\ same_but_names h0 h'.
Proof.
  intros Ha Hc. induction n as [|n IH]; intros visited o h Hs Hnd Hlt Hv Ho Hn.
  - pose proof (pigeon visited (length h0) Hnd Hlt). lia.
  - cbn [set_name]. destruct (nth_error h o) as [p|] eqn:Ep.
    2:{ apply nth_error_None in Ep. destruct Hs as [L _]. lia. }
    assert (HnI : ~ In o visited).
    { intros Hin. destruct (Hv _ Hin) as (c & Hh & Hi). exact (Ha _ _ Hh Hi). }
    destruct (each_ok (set_name n s) (children (o_kind p)) (same_but_names h0)) with (h := h) as (h1 & E1 & S1); auto.
    { intros h2 c S2 Hin. assert (Hh : holds h0 o c).
      { eapply sbn_holds; [apply sbn_sym; exact Hs|]. apply holds_children. eauto. }
      apply IH with (o :: visited); auto.
      - constructor; auto.
      - intros v [<-|Hin2]; auto.
      - intros v [<-|Hin2].
        + exists c. split; auto. constructor.
        + destruct (Hv _ Hin2) as (d & Hd & Hi). exists d. split; auto. eapply inside_put_trans; eauto.
      - eapply Hc; eauto.
      - simpl. lia. }
    rewrite E1. destruct (nth_error h1 o) as [p1|] eqn:Ep1.
    2:{ apply nth_error_None in Ep1. destruct S1 as [L _]. lia. }
    eexists. split; [reflexivity|]. eapply sbn_trans; [exact S1|]. now apply sbn_put.
Qed.
Lemma renamed_check (s : string) (own : list (string * nat)) inh :
  existsb (String.eqb s) (inh ++ map fst own) = true <-> In s inh \/ exists q, In (s, q) own.
Proof.
  rewrite existsb_exists. split.
  - intros (x & Hx & E). apply String.eqb_eq in E. subst x. apply in_app_or in Hx. destruct Hx as [|Hx]; auto.
    apply in_map_iff in Hx. destruct Hx as ([k q] & Hk & Hin). simpl in Hk. subst k. eauto.
  - intros H. exists s. split; [|apply String.eqb_refl]. apply in_or_app. destruct H as [|[q H]]; auto.
    right. apply in_map_iff. exists (s, q). auto.
Qed.
Lemma name_all_ends n props h0 : acyclic h0 -> closed h0 -> length h0 < n ->
  forall own h, same_but_names h0 h -> (forall k o, In (k, o) own -> o < length h0) ->
  (forall k o p s, In (k, o) own -> nth_error h0 o = Some p -> o_kind p = PkRenamed s -> existsb (String.eqb s) props = true) ->
  exists h', name_all n props h own = (h', Ok tt).
Proof.
  intros Ha Hc Hn. induction own as [|[k o] own IH]; simpl; intros h Hs Hl Hr; eauto.
  assert (Ho : o < length h0) by eauto.
  destruct (nth_error h o) as [p|] eqn:Ep.
  2:{ apply nth_error_None in Ep. destruct Hs as [L _]. lia. }
  destruct (proj2 (sbn_sym _ _ Hs) _ _ Ep) as (p0 & Ep0 & K0 & _).
  assert (E : match o_kind p with PkRenamed s => negb (existsb (String.eqb s) props) | _ => false end = false).
  { destruct (o_kind p) eqn:Ek; auto. rewrite (Hr k o p0 new); auto; congruence. }
  rewrite E. destruct (set_name_ends k h0 Ha Hc n [] o h Hs) as (h1 & E1 & S1); auto; try (intros v []).
  - constructor.
  - simpl; lia.
  - rewrite E1. apply IH; eauto.
Qed.
Lemma name_all_renamed n props : forall own h h' k o p s, name_all n props h own = (h', Ok tt) ->
  In (k, o) own -> nth_error h o = Some p -> o_kind p = PkRenamed s -> existsb (String.eqb s) props = true.
Proof.
  induction own as [|[k1 o1] own IH]; simpl; [tauto|]. intros h h' k o p s H Hin Hp Hk.
  destruct (nth_error h o1) as [p1|] eqn:E1; [|discriminate].
  destruct (match o_kind p1 with PkRenamed s => _ | _ => false end) eqn:Er; [discriminate|].
  destruct (set_name n k1 h o1) as [h1 [[]|e]] eqn:E; [|discriminate].
  destruct Hin as [Hin|Hin].
  - injection Hin as <- <-. assert (p1 = p) by congruence. subst p1. rewrite Hk in Er. now apply Bool.negb_false_iff in Er.
  - destruct (proj2 (proj1 (set_name_spec _ _ _ _ _ _ E)) _ _ Hp) as (p2 & Hp2 & K2 & _).
    eapply IH; eauto. congruence.
Qed.
Lemma class_ends n inh own h : acyclic h -> closed h -> length h < n -> (forall k o, In (k, o) own -> o < length h) ->
  ((exists h', step n h (PClass inh own) = (h', Ok tt)) <-> renamed_ok h inh own).
Proof.
  intros Ha Hc Hn Hl. cbn [step]. split.
  - intros (h' & H) k o p s Hin Hp Hk. apply renamed_check. eapply name_all_renamed; eauto.
  - intros Hr. apply (name_all_ends n _ h Ha Hc Hn); auto; [apply sbn_refl|].
    intros k o p s Hin Hp Hk. apply renamed_check. eapply Hr; eauto.
Qed.
Lemma name_all_error n props h0 : acyclic h0 -> closed h0 -> length h0 < n ->
  forall own h h' e, same_but_names h0 h -> (forall k o, In (k, o) own -> o < length h0) ->
  name_all n props h own = (h', Exc e) -> e = ExType.
Proof.
  intros Ha Hc Hn. induction own as [|[k o] own IH]; simpl; intros h h' e Hs Hl H; [discriminate|].
  assert (Ho : o < length h0) by eauto.
  destruct (nth_error h o) as [p|] eqn:Ep.
  2:{ apply nth_error_None in Ep. destruct Hs as [L _]. lia. }
  destruct (match o_kind p with PkRenamed s => _ | _ => false end); [congruence|].
  destruct (set_name_ends k h0 Ha Hc n [] o h Hs) as (h1 & E1 & S1); auto; try (intros v []).
  - constructor.
  - simpl; lia.
  - rewrite E1 in H. eapply IH; eauto.
Qed.
Lemma class_error n inh own h h' e : acyclic h -> closed h -> length h < n -> (forall k o, In (k, o) own -> o < length h) ->
  step n h (PClass inh own) = (h', Exc e) -> e = ExType /\ ~ renamed_ok h inh own.
Proof.
  intros Ha Hc Hn Hl H. split.
  - eapply name_all_error; eauto. apply sbn_refl.
  - intros Hr. apply (class_ends n inh own h Ha Hc Hn Hl) in Hr. destruct Hr as (h2 & H2). congruence.
Qed.

(** Cycles *)
Lemma each_in f l : forall h h' , each f h l = (h', Ok tt) -> forall c, In c l -> exists h1 h2 l1, 
  each f h l1 = (h1, Ok tt) /\ (forall x, In x l1 -> In x l) /\ f h1 c = (h2, Ok tt).
Proof.
  induction l as [|o l IH]; simpl; intros h h' H c Hin; [tauto|].
  destruct (f h o) as [h1 [[]|e]] eqn:E; [|discriminate]. destruct Hin as [->|Hin].
  - exists h, h1, []. simpl. repeat split; auto; tauto.
  - destruct (IH _ _ H c Hin) as (h2 & h3 & l1 & E1 & Hsub & E2). exists h2, h3, (o :: l1). simpl. rewrite E.
    repeat split; auto. intros x [->|Hx]; auto.
Qed.
Lemma cycle_step s n h0 h o h' c : same_but_names h0 h -> set_name n s h o = (h', Ok tt) -> holds h0 o c ->
  exists m h1 h2, n = S m /\ same_but_names h0 h1 /\ set_name m s h1 c = (h2, Ok tt).
Proof.
  intros Hs H Hh. destruct n as [|m]; [discriminate|]. cbn [set_name] in H.
  apply (sbn_holds _ _ _ _ Hs), holds_children in Hh. destruct Hh as (p & Hp & Hin). rewrite Hp in H.
  destruct (each (set_name m s) h (children (o_kind p))) as [h1 [[]|e]] eqn:E; [|discriminate].
  destruct (each_in _ _ _ _ E c Hin) as (h2 & h3 & l1 & E1 & _ & E2). exists m, h2, h3. split; auto. split; auto.
  eapply sbn_trans; [exact Hs|]. exact (proj1 (each_spec s _ (set_name_spec s m) _ _ _ _ E1)).
Qed.
Lemma cycle_path s h0 : forall o q, inside h0 o q -> forall n h h', same_but_names h0 h -> set_name n s h o = (h', Ok tt) ->
  exists m h1 h2, m <= n /\ same_but_names h0 h1 /\ set_name m s h1 q = (h2, Ok tt).
Proof.
  induction 1 as [o|o c q Hh Hi IH]; intros n h h' Hs H; [exists n, h, h'; auto|].
  destruct (cycle_step _ _ _ _ _ _ _ Hs H Hh) as (m & h1 & h2 & -> & S1 & E1).
  destruct (IH _ _ _ S1 E1) as (m2 & h3 & h4 & Hm & S3 & E3). exists m2, h3, h4. split; [lia|auto].
Qed.
Lemma cycle_never s h0 o c : holds h0 o c -> inside h0 c o -> forall n h h', same_but_names h0 h ->
  set_name n s h o <> (h', Ok tt).
Proof.
  intros Hh Hi. induction n as [n IH] using (well_founded_induction Wf_nat.lt_wf). intros h h' Hs H.
  destruct (cycle_step _ _ _ _ _ _ _ Hs H Hh) as (m & h1 & h2 & -> & S1 & E1).
  destruct (cycle_path s h0 _ _ Hi _ _ _ S1 E1) as (m2 & h3 & h4 & Hm & S3 & E3). apply (IH m2) with h3 h4; auto. lia.
Qed.
Lemma class_cycle n inh own h k x o c : In (k, x) own -> inside h x o -> holds h o c -> inside h c o ->
  snd (step n h (PClass inh own)) <> Ok tt.
Proof.
  intros Hin Hx Hh Hi. cbn [step]. generalize (inh ++ map fst own) as props. intros props.
  assert (G : forall h1, same_but_names h h1 -> snd (name_all n props h1 own) <> Ok tt).
  { induction own as [|[k1 o1] own IH]; [destruct Hin|]. intros h1 S1. simpl.
    destruct (nth_error h1 o1) as [p|]; [|discriminate].
    destruct (match o_kind p with PkRenamed s => _ | _ => false end); [discriminate|].
    destruct (set_name n k1 h1 o1) as [h2 [[]|e]] eqn:E; [|discriminate]. destruct Hin as [Hin|Hin].
    - injection Hin as <- <-. exfalso. destruct (cycle_path k1 h _ _ Hx _ _ _ S1 E) as (m & h3 & h4 & _ & S3 & E3).
      exact (cycle_never k1 h o c Hh Hi m h3 h4 S3 E3).
    - apply IH; auto. eapply sbn_trans; [exact S1|]. exact (proj1 (set_name_spec _ _ _ _ _ _ E)). }
  apply G. apply sbn_refl.
Qed.

(** Programs *)
Lemma slot_app h x q : q < length h -> slot (h ++ x) q = slot h q.
Proof. intros H. unfold slot. now rewrite nth_error_app1. Qed.
Lemma slot_put_same h o p q x : nth_error h o = Some x -> o_name p = o_name x -> slot (put h o p) q = slot h q.
Proof.
  intros H E. unfold slot. destruct (Nat.eq_dec q o) as [->|Hn].
  - rewrite (put_same _ _ _ _ H), H. simpl. congruence.
  - now rewrite put_other.
Qed.
Lemma slot_lt h q s : slot h q = Some s -> q < length h.
Proof. unfold slot. intros H. apply nth_error_Some. destruct (nth_error h q); [discriminate|discriminate]. Qed.
(** an operation that keeps what exists, apart from one object whose name stays *)
Definition keeps_slots (h h' : heap) : Prop := forall q s, slot h q = Some s -> slot h' q = Some s.
Lemma vp_ext h a h' r : validate_prop h a = (h', r) -> exists t, h' = h ++ t.
Proof.
  unfold validate_prop. destruct a as [o|c|].
  - destruct (nth_error h o) as [p|]; [|intros H; injection H as <- _; exists []; now rewrite app_nil_r].
    destruct (is_property (o_kind p)); intros H; injection H as <- _; exists []; now rewrite app_nil_r.
  - intros H; injection H as <- _. eauto.
  - intros H; injection H as <- _; exists []; now rewrite app_nil_r.
Qed.
Lemma vps_ext : forall l h h' r, validate_props h l = (h', r) -> exists t, h' = h ++ t.
Proof.
  induction l as [|a l IH]; simpl; intros h h' r H; [injection H as <- _; exists []; now rewrite app_nil_r|].
  destruct (validate_prop h a) as [h1 [o|e]] eqn:E; destruct (vp_ext _ _ _ _ E) as (t1 & ->).
  - destruct (validate_props (h ++ t1) l) as [h2 [t|e]] eqn:E2; destruct (IH _ _ _ E2) as (t2 & ->);
      injection H as <- _; exists (t1 ++ t2); now rewrite app_assoc.
  - injection H as <- _. eauto.
Qed.
Lemma ext_slots h t : keeps_slots h (h ++ t).
Proof. intros q s H. rewrite slot_app; auto. now apply slot_lt in H. Qed.
Lemma keeps_refl h : keeps_slots h h.
Proof. intros q s H; auto. Qed.
Lemma keeps_trans a b c : keeps_slots a b -> keeps_slots b c -> keeps_slots a c.
Proof. intros H1 H2 q s H. auto. Qed.
Lemma nth_ext (h t : heap) o x : nth_error h o = Some x -> nth_error (h ++ t) o = Some x.
Proof. intros H. rewrite nth_error_app1; auto. now apply nth_lt in H. Qed.
Lemma set_child_slots h o a f h' r : set_child h o a f = (h', r) -> keeps_slots h h'.
Proof.
  unfold set_child. destruct (nth_error h o) as [p|] eqn:Ep; [|intros H; injection H as <- _; apply keeps_refl].
  destruct (f (o_kind p)) as [mk|]; [|intros H; injection H as <- _; apply keeps_refl].
  destruct (validate_prop h a) as [h1 [c|e]] eqn:E; destruct (vp_ext _ _ _ _ E) as (t & ->); intros H; injection H as <- _.
  - intros q s Hq. rewrite (slot_put_same _ _ _ _ p); [|now apply nth_ext|reflexivity]. now apply ext_slots.
  - apply ext_slots.
Qed.
Lemma set_props_slots h o l h' r : set_props h o l = (h', r) -> keeps_slots h h'.
Proof.
  unfold set_props. destruct (nth_error h o) as [p|] eqn:Ep; [|intros H; injection H as <- _; apply keeps_refl].
  destruct (o_kind p); try (intros H; injection H as <- _; apply keeps_refl).
  destruct l as [l|]; [|intros H; injection H as <- _; apply keeps_refl].
  destruct (validate_props h l) as [h1 [c|e]] eqn:E; destruct (vps_ext _ _ _ _ E) as (t & ->); intros H; injection H as <- _.
  - intros q s Hq. rewrite (slot_put_same _ _ _ _ p); [|now apply nth_ext|reflexivity]. now apply ext_slots.
  - apply ext_slots.
Qed.
Lemma tag_slots h o pos kw h' r : tag h o pos kw = (h', r) -> keeps_slots h h'.
Proof.
  unfold tag. destruct (nth_error h o) as [p|] eqn:Ep; [|intros H; injection H as <- _; apply keeps_refl].
  destruct pos as [|[d|] [|x pos]]; intros H; injection H as <- _; try apply keeps_refl;
    intros q s Hq; rewrite (slot_put_same _ _ _ _ p); auto.
Qed.
Lemma name_slots f s n h o h' r : set_name n s h o = (h', r) -> f o = s -> (forall a b, holds h a b -> f a = f b) ->
  forall q, slot h q = Some (f q) -> slot h' q = Some (f q).
Proof.
  intros H Hf He q Hq. destruct (set_name_spec _ _ _ _ _ _ H) as (_ & C & _). destruct (C q) as [E|[Hi Hr]].
  - unfold slot in *. now rewrite E.
  - assert (G : forall a b, inside h a b -> f a = f b). { induction 1; auto. erewrite He; eauto. }
    unfold slot, renamed_to in *. rewrite Hr. destruct (nth_error h q); [|discriminate]. simpl. f_equal.
    rewrite <- (G _ _ Hi). auto.
Qed.
Lemma holds_sbn_back h h' (P : nat -> nat -> Prop) : same_but_names h h' -> (forall a b, holds h' a b -> P a b) ->
  forall a b, holds h a b -> P a b.
Proof. intros S H a b Hh. apply H. eapply sbn_holds; eauto. Qed.
Lemma name_all_slots f n props : forall own h h' r, name_all n props h own = (h', r) ->
  (forall k o, In (k, o) own -> f o = k) -> (forall a b, holds h a b -> f a = f b) ->
  forall q, slot h q = Some (f q) -> slot h' q = Some (f q).
Proof.
  induction own as [|[k o] own IH]; simpl; intros h h' r H Hf He q Hq; [injection H as <- _; auto|].
  destruct (nth_error h o) as [p|]; [|injection H as <- _; auto].
  destruct (match o_kind p with PkRenamed s => _ | _ => false end); [injection H as <- _; auto|].
  destruct (set_name n k h o) as [h1 [u|e]] eqn:E; pose proof (name_slots f _ _ _ _ _ _ E (Hf _ _ (or_introl eq_refl)) He q Hq) as H1.
  - eapply IH; eauto. eapply holds_sbn_back; [apply sbn_sym; exact (proj1 (set_name_spec _ _ _ _ _ _ E))|auto].
  - injection H as <- _. auto.
Qed.
Lemma finish_slots args kw x o h' r : finish args kw x o = (h', r) -> keeps_slots (fst x) h'.
Proof.
  destruct x as [h1 [u|e]]; simpl.
  - destruct (nth_error h1 o) as [p|] eqn:Ep; intros H; injection H as <- _; [|apply keeps_refl].
    intros q s Hq. rewrite (slot_put_same _ _ _ _ p); auto.
  - intros H; injection H as <- _. apply keeps_refl.
Qed.
Lemma holds_put_terms h o p a kw x y : nth_error h o = Some p -> holds h x y -> holds (put h o (with_terms p a kw)) x y.
Proof.
  intros Hp (p1 & H1 & H2). destruct (Nat.eq_dec x o) as [->|Hn].
  - exists (with_terms p a kw). split; [now apply put_same with p|]. rewrite Hp in H1. injection H1 as <-. exact H2.
  - exists p1. now rewrite put_other.
Qed.
Lemma holds_put_meta h o p m x y : nth_error h o = Some p -> holds h x y -> holds (put h o (with_meta p m)) x y.
Proof.
  intros Hp (p1 & H1 & H2). destruct (Nat.eq_dec x o) as [->|Hn].
  - exists (with_meta p m). split; [now apply put_same with p|]. rewrite Hp in H1. injection H1 as <-. exact H2.
  - exists p1. now rewrite put_other.
Qed.
Lemma construct_slots f n h k args kw h' r : construct n h k args kw = (h', r) ->
  (forall s a, k = NDyn s a -> f (length h) = s) -> (forall a b, holds h' a b -> f a = f b) ->
  forall q, slot h q = Some (f q) -> slot h' q = Some (f q).
Proof.
  unfold construct. intros H Hf He q Hq.
  assert (Ha : forall x, slot (h ++ [fresh x]) q = Some (f q)) by (intros x; now apply ext_slots).
  destruct k; try (apply finish_slots in H; simpl in H; apply H; auto; fail).
  - destruct p as [c|c|]; try (injection H as <- _; auto).
    destruct (nth_error h c) as [pc|] eqn:Ec; [|injection H as <- _; auto].
    destruct (set_name n func_name (h ++ [fresh (PkDyn c)]) (length h)) as [h1 [u|e]] eqn:E;
      pose proof (proj1 (set_name_spec _ _ _ _ _ _ E)) as S1.
    + destruct (nth_error h1 c) as [qc|] eqn:Eqc.
      * pose proof (finish_slots _ _ _ _ _ _ H) as K1.
        destruct (tag h1 (length h) [TDict (o_meta qc)] []) as [h2 r2] eqn:Et. apply K1. cbn [fst].
        eapply tag_slots; [exact Et|]. eapply name_slots; [exact E|eauto| |auto].
        eapply holds_sbn_back; [exact S1|]. intros x y Hxy. apply He.
        unfold tag in Et. destruct (nth_error h1 (length h)) as [po|] eqn:Epo.
        -- injection Et as <- <-. unfold finish in H. rewrite (put_same _ _ _ _ Epo) in H. injection H as <- _.
           eapply holds_put_terms; [now apply put_same with po|]. now apply holds_put_meta.
        -- exfalso. apply nth_error_None in Epo. destruct S1 as [L _]. rewrite app_length in L. simpl in L. lia.
      * injection H as <- _. eapply name_slots; [exact E|eauto| |auto]. eapply holds_sbn_back; eauto.
    + injection H as <- _. eapply name_slots; [exact E|eauto| |auto]. eapply holds_sbn_back; eauto.
  - pose proof (finish_slots _ _ _ _ _ _ H) as K1. apply K1.
    destruct (set_prop (h ++ [fresh (PkTuple None)]) (length h) p) as [h2 r2] eqn:E. eapply set_child_slots; [exact E|auto].
  - pose proof (finish_slots _ _ _ _ _ _ H) as K1. apply K1.
    destruct (set_props (h ++ [fresh (PkUnion [])]) (length h) l) as [h2 r2] eqn:E. eapply set_props_slots; [exact E|auto].
Qed.
Lemma one_name_edges f n h ops : one_name f n h ops -> forall o q, holds h o q -> f o = f q.
Proof. destruct ops; simpl; tauto. Qed.
Lemma step_slots f n h a r : one_name f n h (a :: r) -> forall q, slot h q = Some (f q) -> slot (fst (step n h a)) q = Some (f q).
Proof.
  intros (He & Ha & Hr) q Hq. destruct (step n h a) as [h' x] eqn:E. cbn [fst] in *. pose proof (one_name_edges _ _ _ _ Hr) as He2.
  destruct a; cbn [step] in E.
  - eapply construct_slots; eauto. intros s a ->. exact Ha.
  - eapply name_slots; eauto.
  - eapply set_child_slots; eauto.
  - eapply set_child_slots; eauto.
  - eapply set_child_slots; eauto.
  - eapply set_props_slots; eauto.
  - eapply tag_slots; eauto.
  - eapply name_all_slots; eauto.
Qed.
Lemma run_slots f n : forall ops h, one_name f n h ops -> forall q, slot h q = Some (f q) -> slot (run n h ops) q = Some (f q).
Proof.
  induction ops as [|a ops IH]; intros h H q Hq; auto. cbn [run]. apply IH; [exact (proj2 (proj2 H))|].
  eapply step_slots; eauto.
Qed.
Lemma name_all_declared f n props q : forall own h h' k o, name_all n props h own = (h', Ok tt) ->
  (forall k o, In (k, o) own -> f o = k) -> (forall a b, holds h a b -> f a = f b) ->
  In (k, o) own -> inside h o q -> slot h' q = Some (f q).
Proof.
  induction own as [|[k1 o1] own IH]; simpl; intros h h' k o H Hf He Hin Hi; [tauto|].
  destruct (nth_error h o1) as [p|]; [|discriminate].
  destruct (match o_kind p with PkRenamed s => _ | _ => false end); [discriminate|].
  destruct (set_name n k1 h o1) as [h1 [[]|e]] eqn:E; [|discriminate].
  destruct (set_name_spec _ _ _ _ _ _ E) as (S1 & C1 & O1).
  assert (He1 : forall a b, holds h1 a b -> f a = f b) by (eapply holds_sbn_back; [apply sbn_sym; exact S1|auto]).
  destruct Hin as [Hin|Hin].
  - injection Hin as -> ->. eapply name_all_slots; eauto. destruct (O1 eq_refl q Hi) as [Hs Hr].
    assert (G : forall a b, inside h a b -> f a = f b). { induction 1; auto. erewrite He; eauto. }
    unfold slot, renamed_to in *. rewrite Hr. destruct (nth_error h q); [|congruence]. simpl. f_equal.
    rewrite <- (G _ _ Hi). symmetry. auto.
  - eapply IH; eauto. eapply sbn_inside; eauto.
Qed.
Lemma declared_names f n inh own ops h h1 : step n h (PClass inh own) = (h1, Ok tt) ->
  one_name f n h (PClass inh own :: ops) ->
  forall k o q, In (k, o) own -> inside h o q -> slot (run n h1 ops) q = Some k.
Proof.
  intros H Hn k o q Hin Hi. pose proof Hn as (He & Ho & Hr). rewrite H in Hr. cbn [fst] in Hr.
  assert (G : forall a b, inside h a b -> f a = f b). { induction 1; auto. erewrite He; eauto. }
  assert (Ek : f q = k). { rewrite <- (G _ _ Hi). now apply Ho. }
  rewrite <- Ek. apply run_slots; auto. eapply name_all_declared; eauto.
Qed.

(** * What may be contained *)
Lemma vp_spec h a h' r : exists_arg h a -> validate_prop h a = (h', r) ->
  match r with
  | Ok c => acceptable h a /\ stands_for h h' a c /\ c < length h'
  | Exc e => e = ExType /\ ~ acceptable h a
  end /\ exists t, h' = h ++ t.
Proof.
  intros Hx H. pose proof (vp_ext _ _ _ _ H) as Ht. split; [|exact Ht]. unfold validate_prop in H. destruct a as [o|c|].
  - destruct (nth_error h o) as [p|] eqn:Ep.
    2:{ exfalso. apply nth_error_None in Ep. specialize (Hx o eq_refl). lia. }
    pose proof (nth_lt _ _ _ Ep). destruct (is_property (o_kind p)) eqn:Ek; injection H as <- <-.
    + split; [|split; [reflexivity|auto]]. apply acc_obj with p; auto. destruct (o_kind p); try discriminate; eauto 8.
    + split; auto. intros Ha. inversion Ha as [|o0 p0 Hp0 Hd]; subst. assert (p0 = p) by congruence. subst p0.
      destruct (o_kind p); try discriminate; destruct Hd as [|[[]|[[]|[[? []]|[]]]]]; discriminate.
  - injection H as <- <-. split; [constructor|]. split; [|rewrite app_length; simpl; lia]. cbn. split; [lia|].
    eexists. rewrite nth_error_app2, Nat.sub_diag by lia. cbn. auto.
  - injection H as <- <-. split; auto. intros Ha. inversion Ha.
Qed.
Lemma sf_ext h h' t a c : stands_for h h' a c -> stands_for h (h' ++ t) a c.
Proof. destruct a; simpl; auto. intros (L & p & Hp & H). split; auto. exists p. split; auto. now apply nth_ext. Qed.
Lemma sf_put h h' a c o p : o < length h -> stands_for h h' a c -> stands_for h (put h' o p) a c.
Proof. destruct a; simpl; auto. intros Ho (L & x & Hx & H). split; auto. exists x. split; auto. rewrite put_other; auto. lia. Qed.
Lemma sf_weaken h t h' a c : exists_arg h a -> stands_for (h ++ t) h' a c -> stands_for h h' a c.
Proof. destruct a; simpl; auto. intros _ (L & H). split; auto. rewrite app_length in L. lia. Qed.
Lemma acc_ext h t a : exists_arg h a -> (acceptable (h ++ t) a <-> acceptable h a).
Proof.
  intros Hx. split; intros H; inversion H; subst; try constructor.
  - apply acc_obj with p; auto. rewrite nth_error_app1 in H0; auto.
  - apply acc_obj with p; auto. now apply nth_ext.
Qed.
Lemma vps_spec : forall l h h' r, (forall a, In a l -> exists_arg h a) -> validate_props h l = (h', r) ->
  match r with
  | Ok cs => (forall a, In a l -> acceptable h a) /\ Forall2 (stands_for h h') l cs
  | Exc e => e = ExType /\ exists a, In a l /\ ~ acceptable h a
  end.
Proof.
  induction l as [|a l IH]; simpl; intros h h' r Hx H; [injection H as <- <-; split; [tauto|constructor]|].
  destruct (validate_prop h a) as [h1 [c|e]] eqn:E;
    destruct (vp_spec _ _ _ _ (Hx a (or_introl eq_refl)) E) as [H1 (t & ->)].
  - destruct H1 as (A1 & S1 & _). destruct (validate_props (h ++ t) l) as [h2 r2] eqn:E2.
    assert (Hx2 : forall a, In a l -> exists_arg (h ++ t) a).
    { intros b Hb o Eo. rewrite app_length. specialize (Hx b (or_intror Hb) o Eo). lia. }
    specialize (IH _ _ _ Hx2 E2). destruct (vps_ext _ _ _ _ E2) as (t2 & ->). destruct r2 as [cs|e].
    + destruct IH as [A2 S2]. injection H as <- <-. split.
      * intros b [<-|Hb]; auto. apply (acc_ext h t b); auto.
      * constructor; [now apply sf_ext|]. clear - S2 Hx. revert S2. generalize ((h ++ t) ++ t2) as hh. intros hh.
        induction 1; constructor; auto.
        -- eapply sf_weaken; [|eauto]. apply Hx. simpl; auto.
        -- apply IHS2. intros b Hb. apply Hx. simpl in *. tauto.
    + destruct IH as (-> & b & Hb & Hn). injection H as <- <-. split; auto. exists b. split; auto.
      intros Ha. apply Hn. apply acc_ext; auto.
  - destruct H1 as [-> Hn]. injection H as <- <-. split; eauto.
Qed.
Lemma others_put h t o p : o < length h -> others_same h (put (h ++ t) o p) o.
Proof. intros Ho q x Hq Hn. rewrite put_other by auto. now apply nth_ext. Qed.
Lemma others_ext h t o : others_same h (h ++ t) o.
Proof. intros q x Hq Hn. now apply nth_ext. Qed.

Lemma set_child_spec h o a f p mk h' r : nth_error h o = Some p -> f (o_kind p) = Some mk -> exists_arg h a ->
  set_child h o a f = (h', r) ->
  (r = Ok tt <-> acceptable h a) /\
  (r = Ok tt -> exists c, stands_for h h' a c /\ same_but_kind h h' o (mk c)) /\
  (r <> Ok tt -> r = Exc ExType /\ h' = h) /\ others_same h h' o.
Proof.
  intros Hp Hf Hx. unfold set_child. rewrite Hp, Hf. pose proof (nth_lt _ _ _ Hp) as Ho.
  destruct (validate_prop h a) as [h1 [c|e]] eqn:E; destruct (vp_spec _ _ _ _ Hx E) as [H1 (t & ->)]; intros H; injection H as <- <-.
  - destruct H1 as (A & S & _). split; [tauto|]. split; [|split; [congruence|now apply others_put]].
    intros _. exists c. split; [now apply sf_put|]. exists p. split; auto. rewrite (put_same _ _ _ p); [reflexivity|now apply nth_ext].
  - destruct H1 as [-> Hn]. split; [split; [discriminate|tauto]|]. split; [discriminate|]. split; [|apply others_ext].
    intros _. split; auto. unfold validate_prop in E. destruct a as [x|x|]; [|discriminate|congruence].
    destruct (nth_error h x) as [px|]; [destruct (is_property (o_kind px))|]; congruence.
Qed.
Lemma set_prop_spec h o a p c0 h' r : nth_error h o = Some p -> o_kind p = PkTuple c0 -> exists_arg h a ->
  step 0 h (PProp o a) = (h', r) ->
  (r = Ok tt <-> acceptable h a) /\
  (r = Ok tt -> exists c, stands_for h h' a c /\ same_but_kind h h' o (PkTuple (Some c))) /\
  (r <> Ok tt -> r = Exc ExType /\ h' = h) /\ others_same h h' o.
Proof.
  intros Hp Hk Hx H. apply (set_child_spec h o a (fun k => match k with PkTuple _ => Some (fun c => PkTuple (Some c)) | _ => None end) p
    (fun c => PkTuple (Some c)) h' r Hp); auto. now rewrite Hk.
Qed.
Lemma set_key_spec h o a p k0 v0 h' r : nth_error h o = Some p -> o_kind p = PkDict k0 v0 -> exists_arg h a ->
  step 0 h (PKey o a) = (h', r) ->
  (r = Ok tt <-> acceptable h a) /\
  (r = Ok tt -> exists c, stands_for h h' a c /\ same_but_kind h h' o (PkDict (Some c) v0)) /\
  (r <> Ok tt -> r = Exc ExType /\ h' = h) /\ others_same h h' o.
Proof.
  intros Hp Hk Hx H. apply (set_child_spec h o a (fun k => match k with PkDict _ v => Some (fun c => PkDict (Some c) v) | _ => None end) p
    (fun c => PkDict (Some c) v0) h' r Hp); auto. now rewrite Hk.
Qed.
Lemma set_value_spec h o a p k0 v0 h' r : nth_error h o = Some p -> o_kind p = PkDict k0 v0 -> exists_arg h a ->
  step 0 h (PValue o a) = (h', r) ->
  (r = Ok tt <-> acceptable h a) /\
  (r = Ok tt -> exists c, stands_for h h' a c /\ same_but_kind h h' o (PkDict k0 (Some c))) /\
  (r <> Ok tt -> r = Exc ExType /\ h' = h) /\ others_same h h' o.
Proof.
  intros Hp Hk Hx H. apply (set_child_spec h o a (fun k => match k with PkDict k _ => Some (fun c => PkDict k (Some c)) | _ => None end) p
    (fun c => PkDict k0 (Some c)) h' r Hp); auto. now rewrite Hk.
Qed.
Lemma set_props_spec h o l p l0 h' r : nth_error h o = Some p -> o_kind p = PkUnion l0 ->
  (forall a, In a l -> exists_arg h a) -> step 0 h (PProps o (Some l)) = (h', r) ->
  (r = Ok tt <-> forall a, In a l -> acceptable h a) /\
  (r = Ok tt -> exists cs, Forall2 (stands_for h h') l cs /\ same_but_kind h h' o (PkUnion cs)) /\
  (r <> Ok tt -> r = Exc ExType /\ nth_error h' o = nth_error h o) /\ others_same h h' o.
Proof.
  intros Hp Hk Hx. cbn [step]. unfold set_props. rewrite Hp, Hk. pose proof (nth_lt _ _ _ Hp) as Ho.
  destruct (validate_props h l) as [h1 r1] eqn:E. pose proof (vps_spec _ _ _ _ Hx E) as H1.
  destruct (vps_ext _ _ _ _ E) as (t & ->). destruct r1 as [cs|e]; intros H; injection H as <- <-.
  - destruct H1 as [A S]. split; [tauto|]. split; [|split; [congruence|now apply others_put]].
    intros _. exists cs. split.
    + clear - S Ho. generalize (with_kind p (PkUnion cs)) as x. intros x. induction S; constructor; auto. now apply sf_put.
    + exists p. split; auto. rewrite (put_same _ _ _ p); [reflexivity|now apply nth_ext].
  - destruct H1 as (-> & a & Ha & Hn). split; [split; [discriminate|intros Hall; destruct (Hn (Hall a Ha))]|].
    split; [discriminate|]. split; [|apply others_ext]. intros _. split; auto. now apply nth_ext.
Qed.
Lemma set_props_none h o p l0 : nth_error h o = Some p -> o_kind p = PkUnion l0 -> step 0 h (PProps o None) = (h, Exc ExType).
Proof. intros Hp Hk. cbn [step]. unfold set_props. now rewrite Hp, Hk. Qed.

(** * Tags and terms *)
Lemma update_get e k : forall d, NoDup (dkeys e) -> dget (update d e) k = match dget e k with Some v => Some v | None => dget d k end.
Proof.
  unfold update. induction e as [|[k' v] e IH]; intros d HN; simpl; auto. inversion HN as [|? ? Hni HN']; subst.
  rewrite IH by exact HN'. destruct (String.eqb k k') eqn:E.
  - apply String.eqb_eq in E. subst k'. apply dget_none in Hni. unfold dkeys in *. rewrite Hni, dget_dset_same. reflexivity.
  - destruct (dget e k); auto. rewrite dget_dset_other; auto. intros ->. rewrite String.eqb_refl in E. discriminate.
Qed.
Lemma tag_spec n h o p pos kw h' r : nth_error h o = Some p -> NoDup (dkeys kw) ->
  step n h (PTag o pos kw) = (h', r) ->
  (r = Ok tt <-> pos = [] \/ exists d, pos = [TDict d]) /\
  (r <> Ok tt -> r = Exc ExType /\ h' = h) /\
  (r = Ok tt -> exists p', nth_error h' o = Some p' /\ o_kind p' = o_kind p /\ o_name p' = o_name p /\
     o_args p' = o_args p /\ o_kwargs p' = o_kwargs p /\
     (pos = [] -> forall k, dget (o_meta p') k = match dget kw k with Some v => Some v | None => dget (o_meta p) k end) /\
     (forall d, pos = [TDict d] -> NoDup (dkeys d) ->
        forall k, dget (o_meta p') k = match dget kw k with Some v => Some v
                                       | None => match dget d k with Some v => Some v | None => dget (o_meta p) k end end)) /\
  others_same h h' o.
Proof.
  intros Hp Hk. cbn [step]. unfold tag. rewrite Hp.
  assert (Ho : forall m, others_same h (put h o (with_meta p m)) o) by (intros m q x Hq Hn; now rewrite put_other).
  destruct pos as [|[d|] [|x pos]]; intros H; injection H as <- <-.
  - split; [tauto|]. split; [congruence|]. split; [|auto]. intros _. eexists. split; [now apply put_same with p|]. cbn.
    repeat split; auto; [|discriminate]. intros _ k. now apply update_get.
  - split; [split; eauto|]. split; [congruence|]. split; [|auto]. intros _. eexists. split; [now apply put_same with p|]. cbn.
    repeat split; auto; [discriminate|]. intros d' E Hd k. injection E as <-. now rewrite !update_get.
  - split; [split; [discriminate|intros [|[d' E]]; discriminate]|]. split; auto. split; [discriminate|]. intros q x0 Hq _; auto.
  - split; [split; [discriminate|intros [|[d' E]]; discriminate]|]. split; auto. split; [discriminate|]. intros q x0 Hq _; auto.
  - split; [split; [discriminate|intros [|[d' E]]; discriminate]|]. split; auto. split; [discriminate|]. intros q x0 Hq _; auto.
Qed.

(** What stays of an object whatever is done: its arguments, and its tags unless it is tagged *)
Definition keeps_terms (h h' : heap) (o : nat) : Prop :=
  forall p, nth_error h o = Some p -> exists p', nth_error h' o = Some p' /\ o_args p' = o_args p /\ o_kwargs p' = o_kwargs p.
Definition keeps_meta (h h' : heap) (o : nat) : Prop :=
  forall p, nth_error h o = Some p -> exists p', nth_error h' o = Some p' /\ o_args p' = o_args p /\ o_kwargs p' = o_kwargs p /\ o_meta p' = o_meta p.
Lemma km_refl h o : keeps_meta h h o.
Proof. intros p H. exists p. auto. Qed.
Lemma km_trans a b c o : keeps_meta a b o -> keeps_meta b c o -> keeps_meta a c o.
Proof.
  intros H1 H2 p H. destruct (H1 _ H) as (p1 & E1 & A1 & B1 & C1). destruct (H2 _ E1) as (p2 & E2 & A2 & B2 & C2).
  exists p2. repeat split; auto; congruence.
Qed.
Lemma km_ext h t o : keeps_meta h (h ++ t) o.
Proof. intros p H. exists p. split; auto. now apply nth_ext. Qed.
Lemma km_sbn h h' o : same_but_names h h' -> keeps_meta h h' o.
Proof. intros [_ S] p H. destruct (S _ _ H) as (p' & E & _ & M & A & K). exists p'. auto. Qed.
Lemma km_put h x p1 p2 o : nth_error h x = Some p1 -> o_args p2 = o_args p1 -> o_kwargs p2 = o_kwargs p1 -> o_meta p2 = o_meta p1 ->
  keeps_meta h (put h x p2) o.
Proof.
  intros H A K M p Hp. destruct (Nat.eq_dec o x) as [->|Hn].
  - exists p2. split; [now apply put_same with p1|]. assert (p1 = p) by congruence. subst. auto.
  - exists p. now rewrite put_other.
Qed.
Lemma km_put_other h x p2 o : o <> x -> keeps_meta h (put h x p2) o.
Proof. intros Hn p Hp. exists p. now rewrite put_other. Qed.
Lemma set_child_meta h x a f h' r o : set_child h x a f = (h', r) -> keeps_meta h h' o.
Proof.
  unfold set_child. destruct (nth_error h x) as [p|] eqn:Ep; [|intros H; injection H as <- _; apply km_refl].
  destruct (f (o_kind p)) as [mk|]; [|intros H; injection H as <- _; apply km_refl].
  destruct (validate_prop h a) as [h1 [c|e]] eqn:E; destruct (vp_ext _ _ _ _ E) as (t & ->); intros H; injection H as <- _.
  - eapply km_trans; [apply km_ext|]. eapply km_put; [apply nth_ext; exact Ep|reflexivity..].
  - apply km_ext.
Qed.
Lemma set_props_meta h x l h' r o : set_props h x l = (h', r) -> keeps_meta h h' o.
Proof.
  unfold set_props. destruct (nth_error h x) as [p|] eqn:Ep; [|intros H; injection H as <- _; apply km_refl].
  destruct (o_kind p); try (intros H; injection H as <- _; apply km_refl).
  destruct l as [l|]; [|intros H; injection H as <- _; apply km_refl].
  destruct (validate_props h l) as [h1 [c|e]] eqn:E; destruct (vps_ext _ _ _ _ E) as (t & ->); intros H; injection H as <- _.
  - eapply km_trans; [apply km_ext|]. eapply km_put; [apply nth_ext; exact Ep|reflexivity..].
  - apply km_ext.
Qed.
Lemma finish_meta args kw x a h' r o : finish args kw x a = (h', r) -> o <> a -> keeps_meta (fst x) h' o.
Proof.
  destruct x as [h1 [u|e]]; simpl.
  - destruct (nth_error h1 a) as [p|] eqn:Ep; intros H; injection H as <- _; intros Hn; [|apply km_refl]. now apply km_put_other.
  - intros H; injection H as <- _. intros _. apply km_refl.
Qed.
Lemma tag_meta h x pos kw h' r o : tag h x pos kw = (h', r) -> o <> x -> keeps_meta h h' o.
Proof.
  unfold tag. destruct (nth_error h x) as [p|] eqn:Ep; [|intros H; injection H as <- _; intros; apply km_refl].
  destruct pos as [|[d|] [|y pos]]; intros H; injection H as <- _; intros Hn; try apply km_refl; now apply km_put_other.
Qed.
Lemma construct_meta n h k args kw h' r o : construct n h k args kw = (h', r) -> o < length h -> keeps_meta h h' o.
Proof.
  unfold construct. intros H Ho. assert (Hn : o <> length h) by lia.
  destruct k; try (eapply km_trans; [apply km_ext|]; exact (finish_meta _ _ _ _ _ _ _ H Hn)).
  - destruct p as [c|c|]; try (injection H as <- _; apply km_refl).
    destruct (nth_error h c) as [pc|] eqn:Ec; [|injection H as <- _; apply km_refl].
    destruct (set_name n func_name (h ++ [fresh (PkDyn c)]) (length h)) as [h1 [u|e]] eqn:E;
      pose proof (proj1 (set_name_spec _ _ _ _ _ _ E)) as S1.
    + assert (K1 : keeps_meta h h1 o) by (eapply km_trans; [apply km_ext|]; apply km_sbn; exact S1).
      destruct (nth_error h1 c) as [qc|] eqn:Eqc; [|injection H as <- _; exact K1].
      pose proof (finish_meta _ _ _ _ _ _ _ H Hn) as K2. destruct (tag h1 (length h) [TDict (o_meta qc)] []) as [h2 r2] eqn:Et.
      eapply km_trans; [exact K1|]. eapply km_trans; [exact (tag_meta _ _ _ _ _ _ _ Et Hn)|exact K2].
    + injection H as <- _. eapply km_trans; [apply km_ext|]; apply km_sbn; exact S1.
  - pose proof (finish_meta _ _ _ _ _ _ _ H Hn) as K2. destruct (set_prop (h ++ [fresh (PkTuple None)]) (length h) p) as [h2 r2] eqn:E.
    eapply km_trans; [apply km_ext|]. eapply km_trans; [exact (set_child_meta _ _ _ _ _ _ _ E)|exact K2].
  - pose proof (finish_meta _ _ _ _ _ _ _ H Hn) as K2. destruct (set_props (h ++ [fresh (PkUnion [])]) (length h) l) as [h2 r2] eqn:E.
    eapply km_trans; [apply km_ext|]. eapply km_trans; [exact (set_props_meta _ _ _ _ _ _ E)|exact K2].
Qed.
Lemma step_meta n h a o : o < length h -> (forall pos kw, a <> PTag o pos kw) -> keeps_meta h (fst (step n h a)) o.
Proof.
  intros Ho Ha. destruct (step n h a) as [h' r] eqn:E. cbn [fst]. destruct a; cbn [step] in E.
  - eapply construct_meta; eauto.
  - apply km_sbn. exact (proj1 (set_name_spec _ _ _ _ _ _ E)).
  - eapply set_child_meta; eauto.
  - eapply set_child_meta; eauto.
  - eapply set_child_meta; eauto.
  - eapply set_props_meta; eauto.
  - eapply tag_meta; eauto. intros ->. eapply Ha; reflexivity.
  - apply km_sbn. eapply name_all_sbn; eauto.
Qed.
Lemma step_terms n h a o : keeps_terms h (fst (step n h a)) o.
Proof.
  intros p Hp. pose proof (nth_lt _ _ _ Hp) as Ho.
  assert (D : (exists pos kw, a = PTag o pos kw) \/ forall pos kw, a <> PTag o pos kw).
  { destruct a; try (right; intros; discriminate). destruct (Nat.eq_dec o0 o) as [->|]; [left; eauto|right; congruence]. }
  destruct D as [(pos & kw & ->)|Hn].
  - cbn [step]. unfold tag. rewrite Hp. destruct pos as [|[d|] [|y pos]]; cbn [fst];
      try (exists p; auto; fail); (eexists; split; [now apply put_same with p|auto]).
  - destruct (step_meta n h a o Ho Hn p Hp) as (p' & E & A & K & _). eauto.
Qed.
Lemma run_terms n o : forall ops h p, nth_error h o = Some p ->
  exists p', nth_error (run n h ops) o = Some p' /\ o_args p' = o_args p /\ o_kwargs p' = o_kwargs p.
Proof.
  induction ops as [|a ops IH]; intros h p Hp; [exists p; auto|]. cbn [run].
  destruct (step_terms n h a o p Hp) as (p1 & E1 & A1 & K1). destruct (IH _ _ E1) as (p2 & E2 & A2 & K2).
  exists p2. repeat split; auto; congruence.
Qed.
Lemma run_meta n o : forall ops h p, nth_error h o = Some p -> (forall pos kw, ~ In (PTag o pos kw) ops) ->
  exists p', nth_error (run n h ops) o = Some p' /\ o_meta p' = o_meta p.
Proof.
  induction ops as [|a ops IH]; intros h p Hp Hn; [exists p; auto|]. cbn [run].
  destruct (step_meta n h a o (nth_lt _ _ _ Hp)) with (p := p) as (p1 & E1 & A1 & K1 & M1); auto.
  { intros pos kw ->. eapply Hn; simpl; eauto. }
  destruct (IH _ _ E1) as (p2 & E2 & M2); [intros pos kw Hin; eapply Hn; simpl; eauto|]. exists p2. split; auto. congruence.
Qed.
Lemma finish_terms args kw x a h' : finish args kw x a = (h', Ok tt) ->
  exists p, nth_error (fst x) a = Some p /\ nth_error h' a = Some (with_terms p args kw).
Proof.
  destruct x as [h1 [u|e]]; simpl; [|discriminate]. destruct (nth_error h1 a) as [p|] eqn:Ep; intros H; [|discriminate].
  injection H as <-. exists p. split; auto. now apply put_same with p.
Qed.
Lemma new_spec n h k args kw h' : step n h (PNew k args kw) = (h', Ok tt) ->
  exists p, nth_error h' (length h) = Some p /\ o_args p = args /\ o_kwargs p = kw /\
    match k with
    | NDyn s (AObj c) =>
        o_kind p = PkDyn c /\ o_name p = s /\
        exists q q', nth_error h c = Some q /\ nth_error h' c = Some q' /\ o_name q' = s /\
          (NoDup (dkeys (o_meta q)) -> forall x, dget (o_meta p) x = dget (o_meta q) x)
    | _ => o_name p = "" /\ o_meta p = []
    end.
Proof.
  cbn [step]. unfold construct. intros H.
  assert (Hl : forall x, nth_error (h ++ [x]) (length h) = Some x).
  { intros x. rewrite nth_error_app2, Nat.sub_diag by lia. reflexivity. }
  destruct k; try (apply finish_terms in H; cbn [fst] in H; destruct H as (p0 & H1 & H2); rewrite Hl in H1;
                   injection H1 as <-; eexists; split; [exact H2|]; cbn; auto; fail).
  - destruct p as [c|c|]; try discriminate. destruct (nth_error h c) as [pc|] eqn:Ec; [|discriminate].
    destruct (set_name n func_name (h ++ [fresh (PkDyn c)]) (length h)) as [h1 [[]|e]] eqn:E; [|discriminate].
    destruct (set_name_spec _ _ _ _ _ _ E) as (S1 & C1 & O1).
    assert (Hc : nth_error (h ++ [fresh (PkDyn c)]) c = Some pc) by now apply nth_ext.
    assert (Ho : holds (h ++ [fresh (PkDyn c)]) (length h) c) by (eexists; split; [apply Hl|reflexivity]).
    assert (Hin : inside (h ++ [fresh (PkDyn c)]) (length h) c) by (econstructor; [exact Ho|constructor]).
    destruct (O1 eq_refl _ Hin) as [_ Hrc]. destruct (O1 eq_refl _ (ins_self _ _)) as [_ Hro].
    unfold renamed_to in *. rewrite Hc in Hrc. rewrite Hl in Hro. cbn [option_map] in *. rewrite Hrc in H.
    unfold tag in H. rewrite Hro in H. unfold finish in H. rewrite (put_same _ _ _ _ Hro) in H. injection H as <-.
    eexists. split; [eapply put_same, put_same; exact Hro|]. cbn. repeat split; auto.
    pose proof (nth_lt _ _ _ Ec) as Hlt. exists pc, (with_name pc func_name). split; auto. rewrite !put_other by lia.
    split; auto. split; auto. intros Hnd x. change (dget (update [] (o_meta pc)) x = dget (o_meta pc) x).
    rewrite update_get by exact Hnd. destruct (dget (o_meta pc) x); reflexivity.
  - apply finish_terms in H. destruct H as (p0 & H1 & H2).
    destruct (set_prop (h ++ [fresh (PkTuple None)]) (length h) p) as [h2 r2] eqn:E. cbn [fst] in H1.
    destruct (set_child_meta _ _ _ _ _ _ (length h) E _ (Hl _)) as (p1 & E1 & _ & _ & M1).
    pose proof (set_child_slots _ _ _ _ _ _ E (length h) "") as Hs. unfold slot in Hs. rewrite Hl, H1 in Hs.
    assert (p1 = p0) by congruence. subst p1. specialize (Hs eq_refl). injection Hs as Hs.
    eexists. split; [exact H2|]. cbn. auto.
  - apply finish_terms in H. destruct H as (p0 & H1 & H2).
    destruct (set_props (h ++ [fresh (PkUnion [])]) (length h) l) as [h2 r2] eqn:E. cbn [fst] in H1.
    destruct (set_props_meta _ _ _ _ _ (length h) E _ (Hl _)) as (p1 & E1 & _ & _ & M1).
    pose proof (set_props_slots _ _ _ _ _ E (length h) "") as Hs. unfold slot in Hs. rewrite Hl, H1 in Hs.
    assert (p1 = p0) by congruence. subst p1. specialize (Hs eq_refl). injection Hs as Hs.
    eexists. split; [exact H2|]. cbn. auto.
Qed.

(** * Construction *)
Lemma acceptable_ext h t a : exists_arg h a -> (acceptable (h ++ t) a <-> acceptable h a).
Proof.
  intros Hx. split; intros H; inversion H as [c|o p Hp Hk]; subst; try constructor.
  - specialize (Hx o eq_refl). rewrite nth_error_app1 in Hp by auto. eapply acc_obj; eauto.
  - eapply acc_obj; eauto. now apply nth_ext.
Qed.
Lemma exists_ext h t a : exists_arg h a -> exists_arg (h ++ t) a.
Proof. intros H o E. specialize (H o E). rewrite app_length. lia. Qed.
Lemma finish_result args kw x o h' r : finish args kw x o = (h', r) -> o < length (fst x) -> r = snd x.
Proof.
  destruct x as [h1 [[]|e]]; simpl.
  - destruct (nth_error h1 o) as [p|] eqn:Ep; intros H Hl; [injection H as _ <-; reflexivity|]. apply nth_error_None in Ep. lia.
  - intros H _. injection H as _ <-. reflexivity.
Qed.
Lemma sf_later h h0 h1 a c : length h <= length h0 -> stands_for h0 h1 a c -> forall o p args kw, nth_error h1 o = Some p -> o < length h0 ->
  stands_for h (put h1 o (with_terms p args kw)) a c.
Proof.
  intros Hl Hs o p args kw Hp Ho. destruct a as [q|k|]; simpl in *; auto. destruct Hs as [H1 (p' & H2 & H3)]. split; [lia|].
  exists p'. rewrite put_other by lia. auto.
Qed.
Lemma new_result n h k args kw h' r : not_dynamic k -> (forall a, In a (new_args k) -> exists_arg h a) ->
  step n h (PNew k args kw) = (h', r) ->
  (r = Ok tt <-> k <> NUnion None /\ forall a, In a (new_args k) -> acceptable h a) /\
  (r <> Ok tt -> r = Exc ExType) /\
  (r = Ok tt -> exists p, nth_error h' (length h) = Some p /\ new_kind h h' k (o_kind p)) /\
  (forall o p, nth_error h o = Some p -> nth_error h' o = Some p).
Proof.
  intros Hd Hx. cbn [step]. unfold construct. intros H.
  assert (Hl : forall x, nth_error (h ++ [x]) (length h) = Some x).
  { intros x. rewrite nth_error_app2, Nat.sub_diag by lia. reflexivity. }
  assert (Hsimple : forall x, finish args kw (h ++ [fresh x], Ok tt) (length h) = (h', r) ->
    r = Ok tt /\ nth_error h' (length h) = Some (PO x "" [] args kw) /\ forall o p, nth_error h o = Some p -> nth_error h' o = Some p).
  { intros x E. simpl in E. rewrite Hl in E. injection E as <- <-. split; auto. split; [now rewrite (put_same _ _ _ _ (Hl _))|].
    intros o p Hp. pose proof (nth_lt _ _ _ Hp). rewrite put_other by lia. now apply nth_ext. }
  destruct k; try (apply Hsimple in H; destruct H as (-> & Hp & Ho); split; [split; [intros _; split; [discriminate|intros a []]|auto]|];
    split; [congruence|]; split; [|exact Ho]; intros _; eexists; split; [exact Hp|reflexivity]).
  - destruct (Hd _ _ eq_refl).
  - destruct (set_prop (h ++ [fresh (PkTuple None)]) (length h) p) as [h1 r1] eqn:E.
    assert (Hxp : exists_arg h p) by (apply Hx; simpl; auto).
    destruct (set_prop_spec _ _ p _ None h1 r1 (Hl (fresh (PkTuple None))) eq_refl (exists_ext _ _ _ Hxp) E) as (A & B & C & D).
    rewrite acceptable_ext in A by exact Hxp.
    assert (Hpos : nth_error h1 (length h) <> None).
    { assert (Hr : r1 = Ok tt \/ r1 <> Ok tt) by (destruct r1 as [[]|]; [left|right]; congruence). destruct Hr as [Hr|Hr].
      - destruct (B Hr) as (c & _ & p1 & _ & ->). discriminate.
      - destruct (C Hr) as [_ ->]. rewrite Hl. discriminate. }
    assert (Er : r = r1).
    { refine (finish_result _ _ _ _ _ _ H _). simpl. now apply nth_error_Some. }
    subst r1. split; [|split; [|split]].
    + rewrite A. split; [intros Ha; split; [discriminate|]; intros a [<-|[]]; exact Ha|]. intros [_ Ha]. apply Ha. simpl; auto.
    + intros Hr. exact (proj1 (C Hr)).
    + intros Hr. destruct (B Hr) as (c & S & p1 & _ & Hp1). subst r. simpl in H. rewrite Hp1 in H. injection H as <-.
      eexists. split; [eapply put_same; exact Hp1|]. simpl. exists c. split; auto.
      eapply sf_later; [|exact S|exact Hp1|]; rewrite app_length; simpl; lia.
    + intros o q Hq. pose proof (nth_lt _ _ _ Hq). assert (Hq1 : nth_error h1 o = Some q) by (apply D; [now apply nth_ext|lia]).
      destruct r as [[]|e]; simpl in H.
      * destruct (nth_error h1 (length h)) as [pp|]; [|tauto]. injection H as <-. rewrite put_other by lia. exact Hq1.
      * injection H as <-. exact Hq1.
  - destruct l as [l|].
    2:{ unfold set_props in H. rewrite Hl in H. simpl in H. injection H as <- <-. split; [split; [discriminate|intros [C _]; congruence]|].
        split; [auto|]. split; [discriminate|]. intros o p Hp. now apply nth_ext. }
    destruct (set_props (h ++ [fresh (PkUnion [])]) (length h) (Some l)) as [h1 r1] eqn:E.
    assert (Hxp : forall a, In a l -> exists_arg h a) by (intros a Ha; apply Hx; exact Ha).
    destruct (set_props_spec _ _ l _ [] h1 r1 (Hl (fresh (PkUnion []))) eq_refl (fun a Ha => exists_ext _ _ _ (Hxp a Ha)) E) as (A & B & C & D).
    assert (Hpos : nth_error h1 (length h) <> None).
    { assert (Hr : r1 = Ok tt \/ r1 <> Ok tt) by (destruct r1 as [[]|]; [left|right]; congruence). destruct Hr as [Hr|Hr].
      - destruct (B Hr) as (c & _ & p1 & _ & ->). discriminate.
      - destruct (C Hr) as [_ ->]. rewrite Hl. discriminate. }
    assert (Er : r = r1).
    { refine (finish_result _ _ _ _ _ _ H _). simpl. now apply nth_error_Some. }
    subst r1. split; [|split; [|split]].
    + rewrite A. simpl. split; [intros Ha; split; [discriminate|]|intros [_ Ha]]; intros a Hin; specialize (Ha a Hin);
        apply (acceptable_ext h [fresh (PkUnion [])] a (Hxp a Hin)); exact Ha.
    + intros Hr. exact (proj1 (C Hr)).
    + intros Hr. destruct (B Hr) as (cs & S & p1 & _ & Hp1). subst r. simpl in H. rewrite Hp1 in H. injection H as <-.
      eexists. split; [eapply put_same; exact Hp1|]. simpl. exists l, cs. split; auto. split; auto.
      clear - S Hp1. match type of Hp1 with _ = Some ?x => generalize dependent x end. intros x Hp1.
      induction S; constructor; auto. eapply sf_later; [|eassumption|exact Hp1|]; rewrite app_length; simpl; lia.
    + intros o q Hq. pose proof (nth_lt _ _ _ Hq). assert (Hq1 : nth_error h1 o = Some q) by (apply D; [now apply nth_ext|lia]).
      destruct r as [[]|e]; simpl in H.
      * destruct (nth_error h1 (length h)) as [pp|]; [|tauto]. injection H as <-. rewrite put_other by lia. exact Hq1.
      * injection H as <-. exact Hq1.
Qed.
Lemma new_dynamic_other n h s a args kw : (forall o, a <> AObj o) -> step n h (PNew (NDyn s a) args kw) = (h, Exc ExType).
Proof. intros H. destruct a; try reflexivity. destruct (H o eq_refl). Qed.
