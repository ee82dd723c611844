(** Proofs about class registries. *)
From Coq Require Import Lia.
From Verif Require Import Registry RegistrySpec.
Local Open Scope string_scope.
Local Open Scope list_scope.
Local Open Scope nat_scope.

Lemma set_reg_length T o f : length (set_reg T o f) = length T.
Proof. revert o. induction T as [|x T IH]; intros [|o]; simpl; auto. Qed.
Lemma set_reg_nth T f : forall o c, nth_error (set_reg T o f) c =
  if Nat.eqb c o then option_map (fun x => RC (rc_name x) (rc_mro x) (option_map f (rc_reg x))) (nth_error T c) else nth_error T c.
Proof. induction T as [|x T IH]; intros [|o] [|c]; simpl; auto. now destruct (Nat.eqb c o). Qed.
Lemma set_reg_named T o f c s : named (set_reg T o f) c s <-> named T c s.
Proof.
  unfold named. rewrite set_reg_nth. destruct (Nat.eqb c o); [|tauto]. destruct (nth_error T c) as [x|]; simpl.
  - split; intros (y & E & H); injection E as <-; eauto.
  - split; intros (y & E & H); discriminate.
Qed.
Lemma set_reg_declares T o f c : declares (set_reg T o f) c <-> declares T c.
Proof.
  unfold declares. rewrite set_reg_nth. destruct (Nat.eqb c o); [|tauto]. destruct (nth_error T c) as [x|]; simpl.
  - split; intros (y & E & H); injection E as <-; eexists; (split; [reflexivity|]); destruct (rc_reg x); simpl in *; congruence.
  - split; intros (y & E & H); discriminate.
Qed.
Lemma set_reg_with T o f c d : registered_with (set_reg T o f) c d <-> registered_with T c d.
Proof.
  unfold registered_with. setoid_rewrite set_reg_declares. split.
  - intros (x & l1 & l2 & E & H). rewrite set_reg_nth in E. destruct (Nat.eqb c o).
    + destruct (nth_error T c) as [y|]; [|discriminate]. injection E as <-. exists y, l1, l2. auto.
    + exists x, l1, l2. auto.
  - intros (x & l1 & l2 & E & H). rewrite set_reg_nth. rewrite E. destruct (Nat.eqb c o); do 3 eexists; split; try reflexivity; eauto.
Qed.

Lemma first_reg_spec T : forall l o, first_reg T l = Some o <->
  exists l1 l2, l = l1 ++ o :: l2 /\ declares T o /\ forall d, In d l1 -> ~ declares T d.
Proof.
  induction l as [|c l IH]; intros o; simpl.
  - split; [discriminate|]. intros ([|? ?] & l2 & E & _); discriminate.
  - destruct (nth_error T c) as [[nm mro [d|]]|] eqn:E.
    + assert (Hc : declares T c) by (eexists; split; [exact E|simpl; discriminate]). split.
      * intros H. injection H as <-. exists [], l. auto.
      * intros ([|x l1] & l2 & El & Ho & Hl); injection El as -> ->; auto. destruct (Hl x); simpl; auto.
    + assert (Hc : ~ declares T c) by (intros (y & Ey & Hy); rewrite E in Ey; injection Ey as <-; apply Hy; reflexivity).
      rewrite IH. split.
      * intros (l1 & l2 & -> & Ho & Hl). exists (c :: l1), l2. repeat split; auto. intros d [<-|Hd]; auto.
      * intros ([|x l1] & l2 & El & Ho & Hl); injection El as -> ->; [tauto|]. exists l1, l2. repeat split; auto. intros d Hd. apply Hl. simpl; auto.
    + assert (Hc : ~ declares T c) by (intros (y & Ey & Hy); congruence).
      rewrite IH. split.
      * intros (l1 & l2 & -> & Ho & Hl). exists (c :: l1), l2. repeat split; auto. intros d [<-|Hd]; auto.
      * intros ([|x l1] & l2 & El & Ho & Hl); injection El as -> ->; [tauto|]. exists l1, l2. repeat split; auto. intros d Hd. apply Hl. simpl; auto.
Qed.
Lemma reg_owner_spec T c o : reg_owner T c = Some o <-> registered_with T c o.
Proof.
  unfold reg_owner, registered_with. destruct (nth_error T c) as [x|] eqn:E.
  - rewrite first_reg_spec. split; intros H.
    + destruct H as (l1 & l2 & H). exists x, l1, l2. auto.
    + destruct H as (y & l1 & l2 & Ey & H). injection Ey as <-. exists l1, l2. auto.
  - split; [discriminate|]. intros (y & l1 & l2 & Ey & _). discriminate.
Qed.
Lemma with_unique T c o o' : registered_with T c o -> registered_with T c o' -> o = o'.
Proof. rewrite <- !reg_owner_spec. congruence. Qed.

(** the dictionary of a class that declares one *)
Definition own_reg (T : rtable) (o : nat) : dict nat := match nth_error T o with Some (RC _ _ (Some d)) => d | _ => [] end.
Lemma registry_own T c o : registered_with T c o -> registry T c = own_reg T o.
Proof. intros H. apply reg_owner_spec in H. unfold registry. now rewrite H. Qed.

(** The invariant *)
Definition reg_inv (T : rtable) : Prop :=
  declares T 0 /\
  (forall c x, nth_error T c = Some x -> In 0 (rc_mro x) /\ forall p, In p (rc_mro x) -> p < length T) /\
  (forall o s d, declares T o -> (dget (own_reg T o) s = Some d <-> last_named T o s d)).
Lemma inv_start : reg_inv r_start.
Proof.
  split; [|split].
  - eexists. split; [reflexivity|discriminate].
  - intros [|[|c]] x H; try discriminate. injection H as <-. simpl. split; auto. intros p [<-|[]]. auto.
  - intros o s d Ho. assert (o = 0) as ->. { destruct Ho as (x & E & _). destruct o as [|[|o]]; auto; discriminate. }
    assert (W : registered_with r_start 0 0).
    { exists (RC "HasProperties" [0] (Some [("HasProperties", 0)])), [], []. repeat split; auto. }
    simpl. destruct (String.eqb s "HasProperties") eqn:E.
    + apply String.eqb_eq in E. subst s. split.
      * intros H. injection H as <-. split; [eexists; split; reflexivity|]. split; auto. intros e He (x & Ex & _).
        destruct e as [|[|e]]; try discriminate. lia.
      * intros (N & _). f_equal. destruct N as (x & Ex & _). destruct d as [|[|d]]; auto; discriminate.
    + split; [discriminate|]. intros (N & _). destruct N as (x & Ex & Hn). destruct d as [|[|d]]; try discriminate.
      injection Ex as <-. simpl in Hn. subst s. simpl in E. discriminate.
Qed.
Lemma nth_last {A} (l : list A) x : nth_error (l ++ [x]) (length l) = Some x.
Proof. rewrite nth_error_app2, Nat.sub_diag by lia. reflexivity. Qed.
Lemma app_named T x c s : c < length T -> (named (T ++ [x]) c s <-> named T c s).
Proof. intros H. unfold named. rewrite nth_error_app1 by auto. tauto. Qed.
Lemma app_declares T x c : c < length T -> (declares (T ++ [x]) c <-> declares T c).
Proof. intros H. unfold declares. rewrite nth_error_app1 by auto. tauto. Qed.
Lemma app_with T x c o : c < length T -> (forall y p, nth_error T c = Some y -> In p (rc_mro y) -> p < length T) ->
  (registered_with (T ++ [x]) c o <-> registered_with T c o).
Proof.
  intros Hc Hm. unfold registered_with. rewrite nth_error_app1 by auto. split.
  - intros (y & l1 & l2 & E & El & Ho & Hl). exists y, l1, l2.
    assert (Hb : forall p, In p (l1 ++ o :: l2) -> p < length T) by (intros p Hp; apply (Hm y p E); congruence).
    split; [auto|]; split; [auto|]; split.
    + apply (app_declares T x o); auto. apply Hb, in_or_app. simpl; auto.
    + intros d Hd Hdd. apply (Hl d Hd). apply app_declares; auto. apply Hb, in_or_app. auto.
  - intros (y & l1 & l2 & E & El & Ho & Hl). exists y, l1, l2.
    assert (Hb : forall p, In p (l1 ++ o :: l2) -> p < length T) by (intros p Hp; apply (Hm y p E); congruence).
    split; [auto|]; split; [auto|]; split.
    + apply app_declares; auto. apply Hb, in_or_app. simpl; auto.
    + intros d Hd Hdd. apply (Hl d Hd). apply (app_declares T x d) in Hdd; auto. apply Hb, in_or_app. auto.
Qed.
Lemma declares_lt T c : declares T c -> c < length T.
Proof. intros (x & E & _). apply nth_error_Some. congruence. Qed.
Lemma named_lt T c s : named T c s -> c < length T.
Proof. intros (x & E & _). apply nth_error_Some. congruence. Qed.
Lemma exists_owner T : forall l, In 0 l -> declares T 0 -> exists o, first_reg T l = Some o.
Proof.
  induction l as [|c l IH]; simpl; [tauto|]. intros H H0. destruct (nth_error T c) as [[nm mro [d|]]|] eqn:E; eauto.
  - destruct H as [->|H]; auto. destruct H0 as (x & Ex & Hx). rewrite E in Ex. injection Ex as <-. simpl in Hx. congruence.
  - destruct H as [->|H]; auto. destruct H0 as (x & Ex & Hx). congruence.
Qed.
Lemma own_reg_app T x o : o < length T -> own_reg (T ++ [x]) o = own_reg T o.
Proof. intros H. unfold own_reg. now rewrite nth_error_app1. Qed.
Lemma own_reg_set T o f c : declares T c -> own_reg (set_reg T o f) c = if Nat.eqb c o then f (own_reg T c) else own_reg T c.
Proof.
  intros (x & E & H). unfold own_reg. rewrite set_reg_nth, E. destruct (Nat.eqb c o); auto. destruct x as [n m [d|]]; simpl in *; congruence.
Qed.
Lemma declare_inv T name parents own : reg_inv T -> parents_ok T parents -> reg_inv (declare T name parents own).
Proof.
  intros (H0 & Hm & Hd) (P0 & Pl). unfold declare. set (c := length T).
  set (x := RC name (c :: parents) (if own then Some [] else None)). set (T1 := T ++ [x]).
  assert (L1 : length T1 = S c) by (unfold T1; rewrite app_length; simpl; unfold c; lia).
  assert (D0 : declares T1 0) by (apply app_declares; auto; now apply declares_lt).
  assert (Hx : nth_error T1 c = Some x) by apply nth_last.
  destruct (exists_owner T1 (c :: parents)) as (o & Eo); [simpl; auto|auto|].
  assert (Ec : reg_owner T1 c = Some o) by (unfold reg_owner; rewrite Hx; exact Eo).
  rewrite Ec. pose proof (proj1 (reg_owner_spec _ _ _) Ec) as Wc.
  assert (Do : declares T1 o) by (destruct Wc as (y & l1 & l2 & _ & _ & D & _); exact D).
  assert (Wold : forall d p, d < c -> (registered_with T1 d p <-> registered_with T d p)).
  { intros d p Hdc. apply app_with; auto. intros y q Ey Hq. exact (proj2 (Hm _ _ Ey) _ Hq). }
  assert (Wlt : forall d p, registered_with T1 d p -> d < S c).
  { intros d p (y & l1 & l2 & E & _). rewrite <- L1. apply nth_error_Some. congruence. }
  split; [now apply set_reg_declares|]. split.
  - intros d y Ey. rewrite set_reg_length, L1. rewrite set_reg_nth in Ey.
    assert (G : exists z, nth_error T1 d = Some z /\ rc_mro y = rc_mro z).
    { destruct (Nat.eqb d o); [|eauto]. destruct (nth_error T1 d) as [z|]; [|discriminate]. injection Ey as <-. eauto. }
    destruct G as (z & Ez & ->). unfold T1 in Ez. destruct (Nat.lt_ge_cases d c) as [Hlt|Hge].
    + rewrite nth_error_app1 in Ez by auto. destruct (Hm _ _ Ez) as [A B]. split; auto. intros p Hp. specialize (B p Hp). unfold c. lia.
    + assert (d = c) as -> by (assert (d < length T1) by (apply nth_error_Some; unfold T1; congruence); lia).
      change (nth_error T1 c = Some z) in Ez. rewrite Hx in Ez. injection Ez as <-. simpl. split; auto. intros p [<-|Hp]; [auto|]. specialize (Pl p Hp). unfold c. lia.
  - intros p s d Hp. apply (set_reg_declares T1) in Hp. rewrite own_reg_set by auto.
    unfold last_named. setoid_rewrite set_reg_named. setoid_rewrite set_reg_with.
    assert (Hpl : p < S c) by (rewrite <- L1; now apply declares_lt).
    (* what the table said before *)
    assert (Hold : forall s d, dget (own_reg T1 p) s = Some d <->
              (d < c /\ named T1 d s /\ registered_with T1 d p /\ forall e, d < e -> e < c -> named T1 e s -> ~ registered_with T1 e p)).
    { intros s' d'. destruct (Nat.eq_dec p c) as [->|Hn].
      - unfold own_reg. rewrite Hx. subst x. destruct own; simpl.
        + split; [discriminate|]. intros (Hlt & _ & W & _). apply Wold in W; auto.
          destruct W as (y & l1 & l2 & E & El & _). destruct (Hm _ _ E) as [_ B]. specialize (B c). rewrite El in B.
          unfold c in B. assert (In (length T) (l1 ++ length T :: l2)) by (apply in_or_app; simpl; auto). specialize (B H). lia.
        + destruct Hp as (y & E & Hy). rewrite Hx in E. injection E as <-. simpl in Hy. congruence.
      - assert (Hpc : p < c) by lia. unfold T1. rewrite own_reg_app by auto. rewrite Hd.
        2:{ unfold T1 in Hp. apply (app_declares T x p) in Hp; auto. }
        fold T1. unfold last_named. split.
        + intros (N & W & Hl). pose proof (named_lt _ _ _ N) as Hlt. fold c in Hlt. split; auto.
          split; [now apply app_named|]. split; [now apply Wold|]. intros e He Hec Ne We.
          apply (Hl e He); [now apply (app_named T x e)|now apply Wold].
        + intros (Hlt & N & W & Hl). split; [apply (app_named T x d'); auto|]. split; [now apply Wold|].
          intros e He Ne We. pose proof (named_lt _ _ _ Ne) as Hel. fold c in Hel. apply (Hl e He Hel); [now apply app_named|now apply Wold]. }
    assert (Nc : forall s, named T1 c s <-> s = name).
    { intros s'. split; [intros (y & E & <-); rewrite Hx in E; injection E as <-; reflexivity|intros ->; exists x; auto]. }
    destruct (Nat.eqb p o) eqn:Epo.
    + apply Nat.eqb_eq in Epo. subst p. destruct (String.eqb s name) eqn:Es.
      * apply String.eqb_eq in Es. subst s. rewrite dget_dset_same. split.
        -- intros H. injection H as <-. split; [now apply Nc|]. split; auto. intros e He _ We. apply Wlt in We. unfold c in *. lia.
        -- intros (N & W & Hl). f_equal. pose proof (Wlt _ _ W). destruct (Nat.eq_dec d c) as [|Hn]; [auto|].
           exfalso. apply (Hl c); auto; [unfold c in *; lia|]. now apply Nc.
      * rewrite dget_dset_other by (intros ->; rewrite String.eqb_refl in Es; discriminate). rewrite Hold. split.
        -- intros (Hlt & N & W & Hl). split; auto. split; auto. intros e He Ne We. pose proof (Wlt _ _ We).
           destruct (Nat.eq_dec e c) as [->|Hn]; [|apply (Hl e); auto; lia]. apply Nc in Ne. subst s. rewrite String.eqb_refl in Es. discriminate.
        -- intros (N & W & Hl). pose proof (Wlt _ _ W). split; [|split; auto].
           ++ destruct (Nat.eq_dec d c) as [->|Hn]; [|lia]. apply Nc in N. subst s. rewrite String.eqb_refl in Es. discriminate.
    + apply Nat.eqb_neq in Epo. rewrite Hold.
      assert (Wn : ~ registered_with T1 c p) by (intros W; apply Epo; exact (with_unique _ _ _ _ W Wc)). split.
      * intros (Hlt & N & W & Hl). split; auto. split; auto. intros e He Ne We. pose proof (Wlt _ _ We).
        destruct (Nat.eq_dec e c) as [->|Hn]; [tauto|]. apply (Hl e); auto. lia.
      * intros (N & W & Hl). pose proof (Wlt _ _ W). split; [|split; auto].
        destruct (Nat.eq_dec d c) as [->|Hn]; [tauto|lia].
Qed.
Lemma declare_all_inv : forall l T, reg_inv T -> program_ok T l -> reg_inv (declare_all T l).
Proof.
  induction l as [|[[name parents] own] l IH]; simpl; auto. intros T HT (Hp & Hl). apply IH; auto. now apply declare_inv.
Qed.
Lemma registry_spec l c o s d : program_ok r_start l -> registered_with (declare_all r_start l) c o ->
  (dget (registry (declare_all r_start l) c) s = Some d <-> last_named (declare_all r_start l) o s d).
Proof.
  intros Hp W. rewrite (registry_own _ _ _ W). apply declare_all_inv; auto using inv_start.
  destruct W as (y & l1 & l2 & _ & _ & D & _). exact D.
Qed.
Lemma has_owner l c : program_ok r_start l -> c < length (declare_all r_start l) ->
  exists o, registered_with (declare_all r_start l) c o.
Proof.
  intros Hp Hc. destruct (declare_all_inv l r_start inv_start Hp) as (D0 & Hm & _).
  destruct (nth_error (declare_all r_start l) c) as [x|] eqn:E; [|apply nth_error_None in E; lia].
  destruct (exists_owner _ (rc_mro x) (proj1 (Hm _ _ E)) D0) as (o & Eo). exists o. apply reg_owner_spec.
  unfold reg_owner. now rewrite E.
Qed.
Lemma class_spec l c o t s strict x : let T := declare_all r_start l in
  program_ok r_start l -> registered_with T c o -> named T c t ->
  deserialize_class T c (Some s) true strict = x ->
  (s = "" \/ s = t -> x = Ok c) /\
  (s <> "" -> s <> t -> forall d, last_named T o s d -> x = Ok d) /\
  (s <> "" -> s <> t -> (forall d, ~ last_named T o s d) -> x = if strict then Exc ExValue else Ok c).
Proof.
  intros T Hp W (y & Ey & Hn) <-. unfold deserialize_class. rewrite Ey, Hn.
  assert (B : String.eqb s "" || String.eqb s t = true <-> s = "" \/ s = t).
  { rewrite Bool.orb_true_iff, !String.eqb_eq. tauto. }
  destruct (String.eqb s "" || String.eqb s t) eqn:Eb.
  - split; [auto|]. split; intros H1 H2; exfalso; destruct (proj1 B eq_refl); tauto.
  - split; [intros H; apply B in H; discriminate|]. split; intros H1 H2 H.
    + intros Hd. apply (registry_spec l c o s H Hp W) in Hd. unfold T in *. now rewrite Hd.
    + destruct (dget (registry T c) s) as [d|] eqn:E; auto. exfalso. apply (H d). now apply (registry_spec l c o s d Hp W).
Qed.
Lemma class_untrusted T c t s strict x : named T c t -> deserialize_class T c s false strict = x ->
  (s = None \/ s = Some "" \/ s = Some t -> x = Ok c) /\
  (forall u, s = Some u -> u <> "" -> u <> t -> x = if strict then Exc ExValue else Ok c).
Proof.
  intros (y & Ey & Hn) <-. unfold deserialize_class. rewrite Ey, Hn. destruct s as [s|]; [|split; [auto|discriminate]].
  destruct (String.eqb s "" || String.eqb s t) eqn:Eb.
  - apply Bool.orb_true_iff in Eb. rewrite !String.eqb_eq in Eb. split; auto. intros u E. injection E as <-. tauto.
  - apply Bool.orb_false_iff in Eb. rewrite !String.eqb_neq in Eb. split; auto. intros [H|[H|H]]; try discriminate; injection H as ->; tauto.
Qed.
Lemma class_restored l c o d s strict : let T := declare_all r_start l in
  program_ok r_start l -> registered_with T c o -> named T d s -> s <> "" -> d <> c ->
  (deserialize_class T c (Some s) true strict = Ok d <-> ~ named T c s /\ last_named T o s d).
Proof.
  intros T Hp W Nd Hs Hdc. destruct W as (y & l1 & l2 & Ey & W'). assert (W : registered_with T c o) by (exists y, l1, l2; auto).
  assert (Nc : named T c (rc_name y)) by (exists y; auto). unfold deserialize_class. rewrite Ey.
  apply String.eqb_neq in Hs. rewrite Hs. cbn [orb]. destruct (String.eqb s (rc_name y)) eqn:E.
  - apply String.eqb_eq in E. subst s. split; [intros H; injection H as H; congruence|tauto].
  - apply String.eqb_neq in E. assert (Hn : ~ named T c s) by (intros (z & Ez & Hz); congruence). split.
    + intros H. split; auto. apply (registry_spec l c o s d Hp W). fold T. destruct (dget (registry T c) s) as [e|]; [congruence|].
      destruct strict; [discriminate|]. injection H as H. congruence.
    + intros [_ H]. apply (registry_spec l c o s d Hp W) in H. fold T in H. now rewrite H.
Qed.
