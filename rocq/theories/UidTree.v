(** The tree of calls of a successful deserialization; proofs about Uid.v. *)
From Verif Require Import PyBase Uid LibrarySpec UidFacts UidExact.
Local Open Scope string_scope.
Local Open Scope list_scope.
Local Open Scope nat_scope.

(** an instance that was built, with what became of the references in it, or
    a reference to an instance being built *)
Inductive tree := Node (a : nat) (ts : list tree) | Back (a : nat).
Section TreeInd.
  Variable P : tree -> Prop.
  Hypothesis HN : forall a ts, Forall P ts -> P (Node a ts).
  Hypothesis HB : forall a, P (Back a).
  Fixpoint tree_ind' (t : tree) : P t :=
    match t with
    | Node a ts => HN a ts ((fix go (ts : list tree) : Forall P ts :=
        match ts with [] => Forall_nil P | t :: r => Forall_cons t (tree_ind' t) (go r) end) ts)
    | Back a => HB a
    end.
End TreeInd.

Definition label (t : tree) : nat := match t with Node a _ | Back a => a end.
Fixpoint nodes (t : tree) : list nat := match t with Node a ts => a :: flat_map nodes ts | Back _ => [] end.
Fixpoint backs (t : tree) : list nat := match t with Node _ ts => flat_map backs ts | Back b => [b] end.
(** the instances outside, and inside, of what is below [c] *)
Fixpoint outside (c : nat) (t : tree) : list nat :=
  match t with Node a ts => if Nat.eqb a c then [] else a :: flat_map (outside c) ts | Back _ => [] end.
Fixpoint inside (c : nat) (t : tree) : list nat :=
  match t with Node a ts => if Nat.eqb a c then a :: flat_map nodes ts else flat_map (inside c) ts | Back _ => [] end.

Section Trees.
  Variable h : list unode.
  (** references follow the graph, and those not followed go back to an instance above or in [anc] *)
  Fixpoint wf (anc : nat -> Prop) (t : tree) : Prop :=
    match t with
    | Node a ts => map label ts = refs_at h a /\
        (fix all (ts : list tree) : Prop := match ts with [] => True | t :: r => wf (fun b => anc b \/ b = a) t /\ all r end) ts
    | Back b => anc b
    end.
  Lemma wf_node anc a ts : wf anc (Node a ts) <-> map label ts = refs_at h a /\ Forall (wf (fun b => anc b \/ b = a)) ts.
  Proof.
    simpl. apply and_iff_compat_l. induction ts as [|t ts IH]; [split; constructor|]. rewrite Forall_cons_iff, IH. reflexivity.
  Qed.
  Lemma wf_mono t : forall (p q : nat -> Prop), (forall b, p b -> q b) -> wf p t -> wf q t.
  Proof.
    induction t as [a ts IH|b] using tree_ind'; intros p q Hpq H; [|now apply Hpq].
    rewrite wf_node in *. destruct H as [H1 H2]. split; [exact H1|]. rewrite Forall_forall in *. intros t Ht.
    apply (IH t Ht (fun b => p b \/ b = a)); [|now apply H2]. intros b [Hb|Hb]; auto.
  Qed.

  Notation cnt := (count_occ Nat.eq_dec).
  Notation refs := (refs_at h).
  Definition sum (f : tree -> nat) (ts : list tree) : nat := fold_right (fun t n => f t + n) 0 ts.
  Lemma cnt_flat c (f : tree -> list nat) ts : cnt (flat_map f ts) c = sum (fun t => cnt (f t) c) ts.
  Proof. induction ts as [|t ts IH]; [reflexivity|]. simpl. now rewrite count_occ_app, IH. Qed.
  Lemma cnt_refs_flat c (f : tree -> list nat) ts :
    cnt (flat_map refs (flat_map f ts)) c = sum (fun t => cnt (flat_map refs (f t)) c) ts.
  Proof. induction ts as [|t ts IH]; [reflexivity|]. simpl. now rewrite flat_map_app, count_occ_app, IH. Qed.
  Lemma cnt_map c ts : cnt (map label ts) c = sum (fun t => cnt [label t] c) ts.
  Proof.
    induction ts as [|t ts IH]; [reflexivity|]. simpl in *. rewrite IH. destruct (Nat.eq_dec (label t) c); reflexivity.
  Qed.
  Lemma sum_eq f g ts : Forall (fun t => f t = g t) ts -> sum f ts = sum g ts.
  Proof. induction 1 as [|t ts H _ IH]; [reflexivity|]. simpl. now rewrite H, IH. Qed.
  Lemma sum_le f g ts : Forall (fun t => f t <= g t) ts -> sum f ts <= sum g ts.
  Proof. induction 1 as [|t ts H _ IH]; [apply le_n|]. simpl. lia. Qed.
  Lemma sum_add f g ts : sum (fun t => f t + g t) ts = sum f ts + sum g ts.
  Proof. induction ts as [|t ts IH]; [reflexivity|]. simpl. lia. Qed.
  Lemma sum_in f t ts : In t ts -> f t <= sum f ts.
  Proof. induction ts as [|u ts IH]; [intros []|]. intros [->|H]; simpl; [lia|]. specialize (IH H). lia. Qed.

  Lemma tree_total c t : forall anc, wf anc t ->
    cnt [label t] c + cnt (flat_map refs (nodes t)) c = cnt (nodes t) c + cnt (backs t) c.
  Proof.
    induction t as [a ts IH|b] using tree_ind'; intros anc H.
    - rewrite wf_node in H. destruct H as [H1 H2]. cbn [label nodes backs flat_map]. rewrite count_occ_app, <- H1, cnt_map, cnt_refs_flat.
      assert (E : sum (fun t => cnt [label t] c) ts + sum (fun t => cnt (flat_map refs (nodes t)) c) ts =
                  sum (fun t => cnt (nodes t) c) ts + sum (fun t => cnt (backs t) c) ts).
      { rewrite <- !sum_add. apply sum_eq. rewrite Forall_forall in *. intros t Ht. eapply IH; eauto. }
      change (a :: flat_map nodes ts) with ([a] ++ flat_map nodes ts). rewrite count_occ_app, !cnt_flat. lia.
    - cbn [label nodes backs flat_map]. simpl. lia.
  Qed.
  Lemma tree_outside c t : forall anc, wf anc t -> ~ anc c ->
    cnt [label t] c + cnt (flat_map refs (outside c t)) c <= cnt (nodes t) c.
  Proof.
    induction t as [a ts IH|b] using tree_ind'; intros anc H Hc.
    - rewrite wf_node in H. destruct H as [H1 H2]. cbn [label nodes outside]. destruct (Nat.eqb_spec a c) as [->|Hne].
      + simpl. destruct (Nat.eq_dec c c); [lia|congruence].
      + cbn [flat_map]. rewrite count_occ_app, <- H1, cnt_map, cnt_refs_flat.
        change (a :: flat_map nodes ts) with ([a] ++ flat_map nodes ts). rewrite count_occ_app, !cnt_flat.
        assert (E : sum (fun t => cnt [label t] c) ts + sum (fun t => cnt (flat_map refs (outside c t)) c) ts <= sum (fun t => cnt (nodes t) c) ts).
        { rewrite <- sum_add. apply sum_le. rewrite Forall_forall in *. intros t Ht. eapply IH; eauto. intros [K|K]; congruence. }
        lia.
    - cbn [label nodes outside flat_map]. simpl in *. destruct (Nat.eq_dec b c); [congruence|lia].
  Qed.
  Lemma tree_outside_ge c t : forall anc, wf anc t -> In c (nodes t) -> 1 <= cnt [label t] c + cnt (flat_map refs (outside c t)) c.
  Proof.
    induction t as [a ts IH|b] using tree_ind'; intros anc H Hc; [|destruct Hc].
    rewrite wf_node in H. destruct H as [H1 H2]. cbn [label outside]. destruct (Nat.eqb_spec a c) as [->|Hne].
    - simpl. destruct (Nat.eq_dec c c); [lia|congruence].
    - destruct Hc as [Hc|Hc]; [contradiction|]. apply in_flat_map in Hc as (t & Ht & Hc).
      cbn [flat_map]. rewrite count_occ_app, <- H1, cnt_map, cnt_refs_flat. rewrite Forall_forall in *.
      specialize (IH t Ht _ (H2 t Ht) Hc).
      pose proof (sum_in (fun t => cnt [label t] c) t ts Ht). pose proof (sum_in (fun t => cnt (flat_map refs (outside c t)) c) t ts Ht).
      cbv beta in *. lia.
  Qed.
  Lemma tree_split c t : cnt (flat_map refs (nodes t)) c = cnt (flat_map refs (outside c t)) c + cnt (flat_map refs (inside c t)) c.
  Proof.
    induction t as [a ts IH|b] using tree_ind'; [|reflexivity]. cbn [nodes outside inside]. destruct (Nat.eqb a c); [reflexivity|].
    cbn [flat_map]. rewrite !count_occ_app, !cnt_refs_flat.
    assert (E : sum (fun t => cnt (flat_map refs (nodes t)) c) ts =
      sum (fun t => cnt (flat_map refs (outside c t)) c) ts + sum (fun t => cnt (flat_map refs (inside c t)) c) ts).
    { rewrite <- sum_add. now apply sum_eq. }
    lia.
  Qed.
  Lemma nodes_split c a t : In a (nodes t) -> In a (outside c t) \/ In a (inside c t).
  Proof.
    induction t as [b ts IH|b] using tree_ind'; [|intros []]. cbn [nodes outside inside]. destruct (Nat.eqb_spec b c) as [->|Hne]; [now right|].
    intros [->|H]; [left; now left|]. apply in_flat_map in H as (t & Ht & H). rewrite Forall_forall in IH.
    destruct (IH t Ht H) as [K|K]; [left; right|right]; apply in_flat_map; eauto.
  Qed.

  Lemma tree_closed a b t : forall anc, wf anc t -> In a (nodes t) -> In b (refs a) -> In b (nodes t) \/ anc b.
  Proof.
    induction t as [a0 ts IH|b0] using tree_ind'; intros anc H Ha Hb; [|destruct Ha].
    rewrite wf_node in H. destruct H as [H1 H2]. rewrite Forall_forall in *. cbn [nodes] in *. destruct Ha as [->|Ha].
    - rewrite <- H1 in Hb. apply in_map_iff in Hb as (t & <- & Ht). destruct t as [b ts'|b].
      + left. right. apply in_flat_map. exists (Node b ts'). split; [exact Ht|now left].
      + specialize (H2 _ Ht). simpl in H2. destruct H2 as [K| ->]; [now right|left; now left].
    - apply in_flat_map in Ha as (t & Ht & Ha). destruct (IH t Ht _ (H2 t Ht) Ha Hb) as [K|[K| ->]].
      + left. right. apply in_flat_map. eauto.
      + now right.
      + left. now left.
  Qed.
  Lemma outside_closed c a b t : forall anc, wf anc t -> In a (outside c t) -> In b (refs a) -> b <> c -> In b (outside c t) \/ anc b.
  Proof.
    induction t as [a0 ts IH|b0] using tree_ind'; intros anc H Ha Hb Hbc; [|destruct Ha].
    rewrite wf_node in H. destruct H as [H1 H2]. rewrite Forall_forall in *. cbn [outside] in *.
    destruct (Nat.eqb_spec a0 c) as [->|Hne]; [destruct Ha|]. destruct Ha as [->|Ha].
    - rewrite <- H1 in Hb. apply in_map_iff in Hb as (t & <- & Ht). destruct t as [b ts'|b].
      + left. right. apply in_flat_map. exists (Node b ts'). split; [exact Ht|]. cbn [outside label] in *.
        destruct (Nat.eqb_spec b c); [contradiction|now left].
      + specialize (H2 _ Ht). simpl in H2. destruct H2 as [K| ->]; [now right|left; now left].
    - apply in_flat_map in Ha as (t & Ht & Ha). destruct (IH t Ht _ (H2 t Ht) Ha Hb Hbc) as [K|[K| ->]].
      + left. right. apply in_flat_map. eauto.
      + now right.
      + left. now left.
  Qed.
  Lemma outside_past l c a t : forall anc, wf anc t -> (label t <> c -> reach_past h l c (label t)) ->
    In a (outside c t) -> reach_past h l c a.
  Proof.
    induction t as [a0 ts IH|b0] using tree_ind'; intros anc H Hl Ha; [|destruct Ha].
    rewrite wf_node in H. destruct H as [H1 H2]. rewrite Forall_forall in *. cbn [outside label] in *.
    destruct (Nat.eqb_spec a0 c) as [->|Hne]; [destruct Ha|]. specialize (Hl Hne). destruct Ha as [->|Ha]; [exact Hl|].
    apply in_flat_map in Ha as (t & Ht & Ha). apply (IH t Ht _ (H2 t Ht)); [|exact Ha]. intros Hc.
    apply past_step with a0; [exact Hl| |exact Hc]. rewrite <- H1. apply in_map. exact Ht.
  Qed.

  Lemma cnt_incl c ls : forall ms, NoDup ls -> (forall a, In a ls -> In a ms) ->
    cnt (flat_map refs ls) c <= cnt (flat_map refs ms) c.
  Proof.
    induction ls as [|a ls IH]; intros ms Hnd Hin; [simpl; lia|]. inversion Hnd as [|? ? Ha Hnd']; subst.
    destruct (in_split a ms (Hin a (or_introl eq_refl))) as (m1 & m2 & ->).
    assert (Hle : cnt (flat_map refs ls) c <= cnt (flat_map refs (m1 ++ m2)) c).
    { apply IH; [exact Hnd'|]. intros b Hb. specialize (Hin b (or_intror Hb)). apply in_app_or in Hin as [K|[K|K]]; apply in_or_app; auto.
      subst b. contradiction. }
    rewrite flat_map_app in *. cbn [flat_map]. rewrite !count_occ_app in *. lia.
  Qed.

  (** what a tree of calls from the root says about the graph *)
  Lemma tree_bounds l c t ls : wf (fun _ => False) t -> label t = l -> (exists ts, t = Node l ts) -> NoDup (nodes t) -> NoDup (backs t) ->
    reach h l c -> NoDup ls ->
    (Forall (reach_past h l c) ls -> cnt (flat_map refs ls) c <= 1) /\
    (Forall (fun a => reach h l a /\ ~ reach_past h l c a) ls -> cnt (flat_map refs ls) c <= 1).
  Proof.
    intros Hw Hl (ts & Et) Hn Hb Hc Hnd.
    assert (Hreach : forall a, reach h l a -> In a (nodes t)).
    { induction 1 as [|m k Hm IH Hk]; [subst t; now left|]. destruct (tree_closed m k t _ Hw IH Hk) as [K|[]]; exact K. }
    assert (Hcn : cnt (nodes t) c <= 1) by (apply NoDup_count_occ; exact Hn).
    assert (Hcb : cnt (backs t) c <= 1) by (apply NoDup_count_occ; exact Hb).
    split; intros Hls; rewrite Forall_forall in Hls.
    - eapply Nat.le_trans; [apply (cnt_incl c ls (outside c t) Hnd)|].
      + intros a Ha. specialize (Hls a Ha). clear Ha. induction Hls as [Hlc|m k Hm IH Hk Hkc].
        * subst t. cbn [outside]. destruct (Nat.eqb_spec l c); [contradiction|now left].
        * destruct (outside_closed c m k t _ Hw IH Hk Hkc) as [K|[]]. exact K.
      + pose proof (tree_outside c t _ Hw (fun x => x)). lia.
    - eapply Nat.le_trans; [apply (cnt_incl c ls (inside c t) Hnd)|].
      + intros a Ha. destruct (Hls a Ha) as [Ha1 Ha2]. destruct (nodes_split c a t (Hreach a Ha1)) as [K|K]; [|exact K].
        destruct Ha2. apply (outside_past l c a t _ Hw); [|exact K]. rewrite Hl. intros Hlc. now constructor.
      + pose proof (tree_total c t _ Hw). pose proof (tree_outside_ge c t _ Hw (Hreach c Hc)).
        pose proof (tree_split c t). lia.
  Qed.
End Trees.

(** * A successful run has such a tree *)
Lemma opened_before s s' v : dext s s' -> dget (ds_reg s) v <> None -> opened s' v -> opened s v.
Proof.
  intros X Hv [O1 (m & O2)]. destruct (dget (ds_reg s) v) as [[e|m']|] eqn:E; [| |congruence].
  - destruct (de_json _ _ X _ _ E) as [K|(j & m' & x & _ & _ & _ & _ & _ & K)]; unfold at_key in *; congruence.
  - split; [|now exists m']. destruct (dget (ds_inst s) v) as [q|] eqn:Ei; [|reflexivity].
    rewrite (de_reg _ _ X v q) in O1; [discriminate|congruence|exact Ei].
Qed.

Section TreeRun.
  Variable fresh : nat -> string.
  Variables (h : list unode) (l : nat).
  Hypothesis Hinj : forall a b, reach h l a -> reach h l b -> uid_at h a = uid_at h b -> a = b.
  Notation uid := (uid_at h).

  Definition closed (s : dstate) (a : nat) : Prop :=
    exists x, nth_error h a = Some x /\ dget (ds_reg s) (uid a) = Some (DJson (JNode (node_json uid x))).
  Definition invt (s : dstate) : Prop :=
    no_default fresh s /\ forall a, reach h l a -> closed s a \/ exists m, at_key s (uid a) m.
  Definition above (s : dstate) (b : nat) : Prop := reach h l b /\ opened s (uid b).
  Definition forest (s s' : dstate) (ts : list tree) : Prop :=
    Forall (wf h (above s)) ts /\ NoDup (flat_map nodes ts) /\ NoDup (flat_map backs ts) /\
    (forall a, In a (flat_map nodes ts) -> reach h l a /\ closed s a /\ exists m, at_key s' (uid a) m) /\
    (forall b, In b (flat_map backs ts) -> reach h l b /\ dget (ds_inst s) (uid b) = None /\ dget (ds_inst s') (uid b) <> None).
  Definition postt (s s' : dstate) (xs : list string) : Prop :=
    dext s s' /\ forall bs, xs = map uid bs -> Forall (reach h l) bs -> exists ts, map label ts = bs /\ forest s s' ts.

  Lemma invt_reg s a : invt s -> reach h l a -> dget (ds_reg s) (uid a) <> None.
  Proof. intros [_ H] Ha. destruct (H a Ha) as [(x & _ & E)|(m & E)]; unfold at_key in *; congruence. Qed.
  Lemma invt_dext s s' : dext s s' -> invt s -> invt s'.
  Proof.
    intros X [A B]. split; [eapply no_default_ext; eauto|]. intros a Ha. destruct (B a Ha) as [(x & Ex & E)|(m & E)].
    - apply (de_json _ _ X) in E as [E|(j & m & _ & _ & E & _)]; [left; exists x; auto|right; eauto].
    - right. exists m. now apply (de_inst _ _ X).
  Qed.
  Lemma nodup_app {A} (xs ys : list A) : NoDup xs -> NoDup ys -> (forall a, In a xs -> ~ In a ys) -> NoDup (xs ++ ys).
  Proof.
    induction 1 as [|a xs Ha Hx IH]; intros Hy Hd; [exact Hy|]. simpl. constructor.
    - intros Hi. apply in_app_or in Hi as [Hi|Hi]; [contradiction|]. apply (Hd a); [now left|exact Hi].
    - apply IH; [exact Hy|]. intros b Hb. apply Hd. now right.
  Qed.
  Lemma forest_app s s1 s2 ts us : invt s -> dext s s1 -> dext s1 s2 -> forest s s1 ts -> forest s1 s2 us -> forest s s2 (ts ++ us).
  Proof.
    intros Hi X1 X2 (A1 & A2 & A3 & A4 & A5) (B1 & B2 & B3 & B4 & B5). unfold forest. rewrite !flat_map_app. repeat split.
    - apply Forall_app. split; [exact A1|]. eapply Forall_impl; [|exact B1]. intros t. apply wf_mono. intros b [Hb Ho].
      split; [exact Hb|]. apply (opened_before s s1); [exact X1|now apply invt_reg|exact Ho].
    - apply nodup_app; auto. intros a Ha Hb. destruct (A4 a Ha) as (_ & _ & m & E1). destruct (B4 a Hb) as (_ & (x & _ & E2) & _).
      unfold at_key in E1. congruence.
    - apply nodup_app; auto. intros b Ha Hb. destruct (A5 b Ha) as (_ & _ & E1). destruct (B5 b Hb) as (_ & E2 & _). contradiction.
    - apply in_app_or in H as [H|H]; [apply A4, H|apply B4, H].
    - apply in_app_or in H as [H|H]; [apply A4, H|]. destruct (B4 a H) as (_ & (x & Ex & E) & _). exists x. split; [exact Ex|].
      eapply json_before; eauto.
    - apply in_app_or in H as [H|H].
      + destruct (A4 a H) as (_ & _ & m & E). exists m. now apply (de_inst _ _ X2).
      + now apply B4.
    - apply in_app_or in H as [H|H]; [apply A5, H|apply B5, H].
    - apply in_app_or in H as [H|H]; [apply A5, H|]. destruct (B5 b H) as (Hb & E & _).
      destruct (dget (ds_inst s) (uid b)) as [m|] eqn:Ei; [|reflexivity].
      rewrite (de_reg _ _ X1 _ m) in E; [discriminate|now apply invt_reg|exact Ei].
    - apply in_app_or in H as [H|H]; [|apply B5, H]. destruct (A5 b H) as (Hb & _ & E).
      destruct (dget (ds_inst s1) (uid b)) as [m|] eqn:Ei; [|congruence].
      rewrite (de_reg _ _ X2 _ m); [discriminate| |exact Ei]. intros C. apply (invt_reg s b Hi Hb). now apply (de_none _ _ X1).
  Qed.

  Lemma call_tree n k : runs postt invt (fun _ => True) (deser_inst fresh n k) [k].
  Proof.
    revert k. induction n as [|n IH]; intros k s m s' Hi _ H; [discriminate|]. pose proof Hi as (Hn & Hc).
    assert (X : dext s s') by (eapply call_dext; eauto).
    split; [exact X|]. intros bs Ebs Hbs. destruct bs as [|a [|a' bs]]; try discriminate. injection Ebs as ->.
    inversion Hbs as [|? ? Ha _]; subst.
    destruct (call_cases fresh n (uid a) s m s' Hn H) as [(Hk & ->)|[((Ho & q & Hq) & ->)|(j & fs & s2 & Ho & Hj & Hf & Hr & Hi2)]].
    - destruct (invt_reg s a Hi Ha Hk).
    - exists [Back a]. split; [reflexivity|]. repeat split; simpl.
      + constructor; [|constructor]. split; [exact Ha|]. split; [exact Ho|now exists q].
      + constructor.
      + constructor; [intros []|constructor].
      + destruct H0.
      + destruct H0.
      + destruct H0.
      + destruct H0 as [<-|[]]. exact Ha.
      + destruct H0 as [<-|[]]. exact Ho.
      + destruct H0 as [<-|[]]. rewrite dget_dset_same. discriminate.
    - destruct (Hc a Ha) as [(x & Ex & E)|(q & E)]; [|unfold at_key in E; congruence].
      rewrite E in Hj. injection Hj as <-. set (j := node_json uid x) in *.
      assert (Hi1 : invt (opening fresh s (uid a) j)).
      { split; [apply no_default_opening; [exact Hn|congruence]|]. intros b Hb. unfold closed, at_key. cbn [opening ds_reg].
        destruct (String.string_dec (uid a) (uid b)) as [Hab|Hab].
        - right. rewrite Hab, dget_dset_same. eauto.
        - rewrite dget_dset_other by exact Hab. now apply Hc. }
      assert (Hrun : postt (opening fresh s (uid a) j) s2 (jnode_refs j)).
      { apply (runs_fields postt invt (fun _ => True)) with (f := deser_inst fresh n) (a := fs); auto.
        - intros t _. split; [apply (dext_refl fresh)|]. intros [|b bs] Eb _; [|discriminate].
          exists []. split; [reflexivity|]. repeat split; try constructor; destruct H0.
        - intros t t1 t2 xs ys It (X1 & P1) (X2 & P2). split; [eapply (dext_trans fresh); eauto|].
          intros bs Eb Hb. symmetry in Eb. apply map_eq_app in Eb as (b1 & b2 & -> & <- & <-). apply Forall_app in Hb as [Hb1 Hb2].
          destruct (P1 b1 eq_refl Hb1) as (ts & <- & F1). destruct (P2 b2 eq_refl Hb2) as (us & <- & F2).
          exists (ts ++ us). split; [apply map_app|]. eapply forest_app; eauto.
        - intros t t' xs It (X1 & _). eapply invt_dext; eauto. }
      destruct Hrun as [X2 P]. destruct (P (refs_at h a)) as (ts & Hl & A1 & A2 & A3 & A4 & A5).
      { unfold j. rewrite node_json_refs. unfold refs_at. now rewrite Ex. }
      { apply Forall_forall. intros b Hb. econstructor; eauto. }
      assert (Hback : forall b, reach h l b -> closed (opening fresh s (uid a) j) b -> b <> a /\ closed s b).
      { intros b Hb (y & Ey & Ky). cbn [opening ds_reg] in Ky. destruct (Nat.eq_dec b a) as [->|Hne].
        - rewrite dget_dset_same in Ky. discriminate.
        - rewrite dget_dset_other in Ky by (intros C; apply Hinj in C; auto; congruence). split; [exact Hne|]. now exists y. }
      exists [Node a ts]. split; [reflexivity|]. unfold forest. cbn [flat_map nodes backs]. rewrite !app_nil_r. repeat split.
      + constructor; [|constructor]. apply wf_node. split; [exact Hl|]. eapply Forall_impl; [|exact A1]. intros t. apply wf_mono.
        intros b [Hb [O1 (q & O2)]]. destruct (Nat.eq_dec b a) as [->|Hne]; [now right|left]. split; [exact Hb|].
        assert (Hu : uid a <> uid b) by (intros C; apply Hinj in C; auto; congruence).
        rewrite opening_inst in O1; [|exact Hn|now apply invt_reg]. split; [exact O1|]. exists q.
        unfold at_key in *. cbn [opening ds_reg] in O2. now rewrite dget_dset_other in O2.
      + constructor; [|exact A2]. intros Hia. destruct (A4 a Hia) as (_ & Hcl & _). now destruct (Hback a Ha Hcl).
      + exact A3.
      + destruct H0 as [<-|H0]; [exact Ha|apply A4, H0].
      + destruct H0 as [<-|H0]; [exists x; auto|]. destruct (A4 a0 H0) as (Hb & Hcl & _). now apply Hback.
      + destruct H0 as [<-|H0].
        * exists (length (ds_heap s)). unfold at_key. rewrite Hr. apply (de_inst _ _ X2). unfold at_key. cbn [opening ds_reg].
          apply dget_dset_same.
        * destruct (A4 a0 H0) as (_ & _ & q & K). exists q. unfold at_key in *. now rewrite Hr.
      + apply A5, H0.
      + destruct (A5 b H0) as (Hb & K & _). rewrite opening_inst in K; [exact K|exact Hn|now apply invt_reg].
      + destruct (A5 b H0) as (_ & _ & K). rewrite Hi2. destruct (String.string_dec (uid a) (uid b)) as [->|Hne].
        * rewrite dget_dset_same. discriminate.
        * now rewrite dget_dset_other.
  Qed.
End TreeRun.

Lemma run_bounds : forall fresh h l n d h2 inst next n2 l2 s2,
  graph h l -> distinct_uids h l -> uid_serialize h n l = Ok d ->
  (forall i, next <= i -> dget d (fresh i) = None) ->
  uid_deserialize fresh n2 d h2 inst next = (Ok l2, s2) ->
  forall c ls, reach h l c -> NoDup ls ->
    (Forall (reach_past h l c) ls -> count_occ Nat.eq_dec (flat_map (refs_at h) ls) c <= 1) /\
    (Forall (fun a => reach h l a /\ ~ reach_past h l c a) ls -> count_occ Nat.eq_dec (flat_map (refs_at h) ls) c <= 1).
Proof.
  intros fresh h l n d h2 inst next n2 l2 s2 Hg Hd Hs Hfr H c ls Hc Hnd.
  set (s := DS h2 inst (map (fun kv => (fst kv, DJson (snd kv))) d) next).
  assert (Hent : forall a, reach h l a -> closed h s a) by (intros a Ha; eapply run_entry; eauto).
  assert (Hi : invt fresh h l s) by (split; [eapply run_fresh; eauto|auto]).
  pose proof (run_inst _ _ _ _ _ _ _ _ _ _ _ Hg Hd Hs H) as H0. fold s in H0.
  destruct (call_tree fresh h l (proj1 Hd) n2 (uid_at h l) s l2 s2 Hi (fun _ _ => I) H0) as [X P].
  destruct (P [l] eq_refl) as (ts & Hl & F); [repeat constructor|].
  destruct ts as [|t [|t' ts]]; try discriminate. injection Hl as Hl. destruct F as (A1 & A2 & A3 & _ & _).
  cbn [flat_map] in *. rewrite app_nil_r in *. inversion A1 as [|? ? Hw _]; subst.
  assert (Hno : forall b, above h (label t) s b -> False).
  { intros b [Hb [_ (q & Hq)]]. destruct (Hent b Hb) as (x & _ & E). unfold at_key in Hq. congruence. }
  apply (tree_bounds h (label t) c t ls); auto.
  - eapply wf_mono; [|exact Hw]. exact Hno.
  - destruct t as [a ts|b]; [eauto|]. exfalso. apply (Hno b). exact Hw.
Qed.
