(** Proofs about Uid.v. *)
From Verif Require Import PyBase Uid LibrarySpec.
Local Open Scope string_scope.
Local Open Scope list_scope.
Local Open Scope nat_scope.

(** * uids *)

Lemma ukey_eqb_eq a b : ukey_eqb a b = true <-> a = b.
Proof.
  destruct a, b; simpl; rewrite ?String.eqb_eq; split; intros H; try congruence; discriminate.
Qed.
Lemma replace_nth_length {A} n (a : A) l : length (replace_nth n a l) = length l.
Proof. revert n. induction l as [|x r IH]; intros [|n]; simpl; auto. Qed.
Lemma replace_nth_same {A} n (a : A) l : n < length l -> nth_error (replace_nth n a l) n = Some a.
Proof. revert n. induction l as [|x r IH]; intros [|n] H; simpl in *; [lia|lia|auto|apply IH; lia]. Qed.
Lemma replace_nth_other {A} n m (a : A) l : n <> m -> nth_error (replace_nth n a l) m = nth_error l m.
Proof. revert n m. induction l as [|x r IH]; intros [|n] [|m] H; simpl; auto; try lia. Qed.

Lemma set_used : forall s l k l' u, nth_error (us_uids s) l = Some u -> same_uid u k = false ->
  ulookup (us_reg s) k = Some l' -> set_uid true l k s = (Exc (ExValidation []), s).
Proof. intros s l k l' u Hu Hn Hk. unfold set_uid, ensure_unique. rewrite Hu, Hn, Hk. reflexivity. Qed.

Lemma set_free s l u u' : uid_is s l u' -> u' = u \/ load_uid s u = None -> exists s', set_uid true l (KUid u) s = (Ok tt, s').
Proof.
  intros Hu H. unfold set_uid, ensure_unique. unfold uid_is in Hu. rewrite Hu. cbn [same_uid].
  destruct H as [-> |H]; [rewrite String.eqb_refl; cbn; now eexists|].
  unfold load_uid in H. rewrite H. destruct (String.eqb u' u); cbn; now eexists.
Qed.
Lemma set_used_spec : forall s l u u' l', uid_is s l u' -> u' <> u -> load_uid s u = Some l' ->
  set_uid true l (KUid u) s = (Exc (ExValidation []), s).
Proof.
  intros s l u u' l' Hu Hn Hk. eapply set_used; [exact Hu| |exact Hk].
  simpl. now apply String.eqb_neq.
Qed.

Lemma set_ok : forall s l u s', l < length (us_uids s) -> set_uid true l (KUid u) s = (Ok tt, s') ->
  uid_is s' l u /\ load_uid s' u = Some l.
Proof.
  intros s l u s' Hl H. unfold set_uid in H. destruct (ensure_unique s l (KUid u)); [|discriminate].
  injection H as <-. unfold uid_is, load_uid; simpl. split; [now apply replace_nth_same|].
  now rewrite String.eqb_refl.
Qed.

(** the invariant: the uid of every constructed instance is registered to it *)
Definition uinv (s : ustate) (built : list nat) : Prop :=
  (forall l, In l built -> l < length (us_uids s)) /\
  forall l u, In l built -> uid_is s l u -> load_uid s u = Some l.

Lemma uinv_set s built l k r s' : uinv s built -> l < length (us_uids s) ->
  (In l built \/ forall u, uid_is s l u -> load_uid s u = None) ->
  set_uid true l k s = (r, s') -> uinv s' built /\ length (us_uids s') = length (us_uids s).
Proof.
  intros [Hb Hi] Hl Hor. unfold set_uid. destruct (ensure_unique s l k) eqn:Hu; intros H; [|now injection H as <- <-].
  injection H as <- <-. simpl. rewrite replace_nth_length. split; [|reflexivity]. split.
  - intros m Hm. simpl. rewrite replace_nth_length. now apply Hb.
  - intros m u Hm Hx. unfold uid_is, load_uid in *. simpl in *.
    destruct (Nat.eq_dec l m) as [->|Hne].
    + rewrite replace_nth_same in Hx by exact Hl. destruct k as [x|]; [|discriminate]. injection Hx as <-.
      now rewrite (proj2 (ukey_eqb_eq _ _) eq_refl).
    + rewrite replace_nth_other in Hx by exact Hne. pose proof (Hi m u Hm Hx) as Hmu.
      destruct (ukey_eqb k (KUid u)) eqn:He; [|exact Hmu]. apply ukey_eqb_eq in He. subst k. exfalso.
      unfold ensure_unique in Hu. destruct (nth_error (us_uids s) l) as [ul|] eqn:El; [|discriminate].
      rewrite Hmu in Hu. destruct (same_uid ul (KUid u)) eqn:Es; [|discriminate].
      destruct ul as [ul|]; [|discriminate]. simpl in Es. apply String.eqb_eq in Es. subst ul.
      destruct Hor as [Hor|Hor].
      * specialize (Hi l u Hor El). congruence.
      * specialize (Hor u eq_refl). congruence.
Qed.

Lemma uinv_new s built d kw f r s' : uinv s built -> load_uid s d = None -> new_uid true d kw f s = (r, s') ->
  uinv s' (match r with Ok l => l :: built | Exc _ => built end).
Proof.
  intros [Hb Hi] Hd H. unfold new_uid in H.
  set (l := length (us_uids s)) in *. set (s0 := US (us_uids s ++ [Some d]) (us_reg s)) in *.
  assert (Hl0 : nth_error (us_uids s0) l = Some (Some d)).
  { simpl. rewrite nth_error_app2 by (unfold l; lia). unfold l. now rewrite Nat.sub_diag. }
  assert (H0 : uinv s0 built).
  { split.
    - intros m Hm. simpl. rewrite app_length. specialize (Hb m Hm). lia.
    - intros m u Hm Hx. apply (Hi m u Hm). unfold uid_is in *. simpl in Hx.
      rewrite nth_error_app1 in Hx by now apply Hb. exact Hx. }
  assert (Hl : l < length (us_uids s0)) by (simpl; rewrite app_length; simpl; fold l; lia).
  destruct (match kw with Some u => set_uid true l (KUid u) s0 | None => (Ok tt, s0) end) as [r1 s1] eqn:E1.
  assert (H1 : uinv s1 built /\ length (us_uids s1) = length (us_uids s0)).
  { destruct kw as [u|].
    - apply (uinv_set _ _ _ _ _ _ H0 Hl) in E1; [exact E1|]. right. intros u' Hu'. unfold uid_is in Hu'.
      rewrite Hl0 in Hu'. injection Hu' as <-. exact Hd.
    - injection E1 as <- <-. now split. }
  destruct H1 as [H1 Hlen]. destruct r1 as [[]|e]; [|now injection H as <- <-].
  destruct f; [now injection H as <- <-|].
  destruct (nth_error (us_uids s1) l) as [[u|]|] eqn:Eu; injection H as <- <-; try exact H1.
  destruct H1 as [Hb1 Hi1]. split.
  - intros m [<-|Hm]; simpl; [rewrite Hlen; exact Hl|now apply Hb1].
  - intros m v Hm Hx. unfold uid_is, load_uid in *. simpl in *. destruct Hm as [<-|Hm].
    + rewrite Eu in Hx. injection Hx as <-. now rewrite String.eqb_refl.
    + pose proof (Hi1 m v Hm Hx) as Hmv. destruct (String.eqb u v) eqn:Ev; [|exact Hmv]. exfalso.
      apply String.eqb_eq in Ev. subst v.
      (* the uid of the new instance was free or its own *)
      destruct kw as [u0|].
      * unfold set_uid in E1. destruct (ensure_unique s0 l (KUid u0)) eqn:Eq; [|discriminate].
        injection E1 as <-. simpl in *.
        rewrite replace_nth_same in Eu by exact Hl. injection Eu as <-.
        rewrite String.eqb_refl in Hmv. injection Hmv as Hml. subst m. specialize (Hb _ Hm). unfold l in Hb. lia.
      * injection E1 as <-. simpl in *. rewrite Hl0 in Eu. injection Eu as <-. unfold load_uid in Hd. congruence.
Qed.

Lemma uhistory_snoc ops o : uhistory (ops ++ [o]) = ustep (uhistory ops) o.
Proof. unfold uhistory. now rewrite fold_left_app. Qed.

Lemma uhistory_inv ops : Forall enabled ops -> fresh_defaults ops ->
  uinv (fst (uhistory ops)) (snd (uhistory ops)).
Proof.
  induction ops as [|o ops IH] using rev_ind; intros He Hf.
  - split; simpl; contradiction.
  - apply Forall_app in He as [He Ho]. inversion Ho as [|? ? Hen _]; subst.
    assert (Hf' : fresh_defaults ops).
    { intros pre e d kw f post ->. apply (Hf pre e d kw f (post ++ [o])). now rewrite <- app_assoc. }
    specialize (IH He Hf'). rewrite uhistory_snoc.
    destruct (uhistory ops) as [s built] eqn:Eh. simpl in IH. destruct o as [e d kw f|e l k]; simpl in Hen; subst e; simpl.
    + assert (Hd : load_uid s d = None).
      { specialize (Hf ops true d kw f [] eq_refl). now rewrite Eh in Hf. }
      destruct (new_uid true d kw f s) as [r s'] eqn:En. simpl. exact (uinv_new _ _ _ _ _ _ _ IH Hd En).
    + destruct (existsb (Nat.eqb l) built) eqn:Eb; [|exact IH].
      apply existsb_exists in Eb as (l' & Hin & Heq). apply Nat.eqb_eq in Heq. subst l'.
      destruct (set_uid true l k s) as [r s'] eqn:Es. simpl.
      exact (proj1 (uinv_set _ _ _ _ _ _ IH (proj1 IH l Hin) (or_introl Hin) Es)).
Qed.

Lemma unique_load : forall ops, Forall enabled ops -> fresh_defaults ops ->
  forall l u, In l (snd (uhistory ops)) -> uid_is (fst (uhistory ops)) l u ->
  load_uid (fst (uhistory ops)) u = Some l.
Proof. intros ops He Hf. exact (proj2 (uhistory_inv ops He Hf)). Qed.
Lemma unique_uids : forall ops, Forall enabled ops -> fresh_defaults ops ->
  forall l l' u, In l (snd (uhistory ops)) -> In l' (snd (uhistory ops)) ->
  uid_is (fst (uhistory ops)) l u -> uid_is (fst (uhistory ops)) l' u -> l = l'.
Proof.
  intros ops He Hf l l' u Hl Hl' Hu Hu'.
  pose proof (unique_load ops He Hf l u Hl Hu). pose proof (unique_load ops He Hf l' u Hl' Hu'). congruence.
Qed.

(** * Serialization *)

Lemma vrefs_list xs k : In k (vrefs (UList xs)) <-> exists x, In x xs /\ In k (vrefs x).
Proof. simpl. now rewrite in_flat_map. Qed.

Section UvalInd.
  Variable P : uval -> Prop.
  Hypothesis HD : forall d, P (UData d).
  Hypothesis HR : forall l, P (URef l).
  Hypothesis HL : forall xs, Forall P xs -> P (UList xs).
  Fixpoint uval_rect' (v : uval) : P v :=
    match v with
    | UData d => HD d
    | URef l => HR l
    | UList xs => HL xs ((fix go (xs : list uval) : Forall P xs :=
        match xs with [] => Forall_nil _ | x :: r => Forall_cons _ (uval_rect' x) (go r) end) xs)
    end.
End UvalInd.
Section JvalInd.
  Variable P : jval -> Prop.
  Hypothesis HD : forall d, P (JData d).
  Hypothesis HR : forall l, P (JKey l).
  Hypothesis HL : forall xs, Forall P xs -> P (JList xs).
  Fixpoint jval_rect' (v : jval) : P v :=
    match v with
    | JData d => HD d
    | JKey l => HR l
    | JList xs => HL xs ((fix go (xs : list jval) : Forall P xs :=
        match xs with [] => Forall_nil _ | x :: r => Forall_cons _ (jval_rect' x) (go r) end) xs)
    end.
End JvalInd.

Fixpoint ser_list {R} (f : nat -> R -> res (string * R)) (xs : list uval) (reg : R) : res (list jval * R) :=
  match xs with
  | [] => Ok ([], reg)
  | x :: r => match ser_val f x reg with
              | Exc e => Exc e
              | Ok (y, reg1) => match ser_list f r reg1 with
                                | Exc e => Exc e
                                | Ok (ys, reg2) => Ok (y :: ys, reg2)
                                end
              end
  end.
Lemma ser_val_list {R} f xs (reg : R) :
  ser_val f (UList xs) reg = match ser_list f xs reg with Ok (ys, r) => Ok (JList ys, r) | Exc e => Exc e end.
Proof.
  simpl. match goal with |- match ?g xs reg with _ => _ end = _ => assert (Hg : forall ys r, g ys r = ser_list f ys r) end.
  { induction ys as [|y ys IH]; intros r; [reflexivity|]. simpl. destruct (ser_val f y r) as [[z r1]|e]; [|reflexivity].
    now rewrite IH. }
  now rewrite Hg.
Qed.

(** what the references of a value do to the dictionary *)
Section SerPass.
  Context {R : Type} (f : nat -> R -> res (string * R)) (T : R -> R -> Prop) (uid : nat -> string).
  Hypothesis Trefl : forall r, T r r.
  Hypothesis Ttrans : forall a b c, T a b -> T b c -> T a c.
  Variable dom : nat -> Prop.
  Hypothesis Hf : forall l r u r', dom l -> f l r = Ok (u, r') -> u = uid l /\ T r r'.

  Lemma ser_val_pass v : forall r y r', (forall k, In k (vrefs v) -> dom k) ->
    ser_val f v r = Ok (y, r') -> y = vjson uid v /\ T r r'.
  Proof.
    induction v as [d|l|xs IH] using uval_rect'; intros r y r' Hd H.
    - injection H as <- <-. auto.
    - simpl in H. destruct (f l r) as [[u r1]|e] eqn:E; [|discriminate]. injection H as <- <-.
      apply Hf in E as [-> HT]; [auto|]. apply Hd. now left.
    - rewrite ser_val_list in H. destruct (ser_list f xs r) as [[ys r1]|e] eqn:E; [|discriminate]. injection H as <- <-.
      assert (HL : ys = map (vjson uid) xs /\ T r r1).
      { clear -E IH Hd Trefl Ttrans. revert r ys r1 E. induction xs as [|x xs IHx]; intros r ys r1 E.
        - injection E as <- <-. auto.
        - simpl in E. destruct (ser_val f x r) as [[y r2]|e] eqn:E2; [|discriminate].
          destruct (ser_list f xs r2) as [[ys' r3]|e] eqn:E3; [|discriminate]. injection E as <- <-.
          inversion IH as [|? ? Hx Hxs]; subst.
          apply Hx in E2 as [-> T1]; [|intros k Hk; apply Hd; apply vrefs_list; exists x; simpl; auto].
          apply IHx in E3 as [-> T2]; [|exact Hxs|intros k Hk; apply Hd; apply vrefs_list in Hk as (z & Hz & Hk);
            apply vrefs_list; exists z; simpl; auto].
          split; [reflexivity|eauto]. }
      destruct HL as [-> HT]. auto.
  Qed.

  Lemma ser_fields_pass fs : forall r ys r', (forall k, In k (flat_map (fun g => vrefs (snd g)) fs) -> dom k) ->
    ser_fields f fs r = Ok (ys, r') -> ys = map (fun g => (fst g, vjson uid (snd g))) fs /\ T r r'.
  Proof.
    induction fs as [|[n v] fs IH]; intros r ys r' Hd H.
    - injection H as <- <-. auto.
    - simpl in H, Hd. destruct (ser_val f v r) as [[y r1]|e] eqn:E; [|discriminate].
      destruct (ser_fields f fs r1) as [[zs r2]|e] eqn:E2; [|discriminate]. injection H as <- <-.
      apply ser_val_pass in E as [-> T1]; [|intros k Hk; apply Hd, in_or_app; auto].
      apply IH in E2 as [-> T2]; [|intros k Hk; apply Hd, in_or_app; auto].
      split; [reflexivity|eauto].
  Qed.
End SerPass.

(** each visited instance's uid is recorded: for the closure of the result *)
Section SerIn.
  Context {R : Type} (f : nat -> R -> res (string * R)) (P : nat -> R -> Prop) (dom : nat -> Prop).
  Hypothesis Pmono : forall k l r u r', dom l -> f l r = Ok (u, r') -> P k r -> P k r'.
  Hypothesis Hf : forall l r u r', dom l -> f l r = Ok (u, r') -> P l r'.

  Lemma ser_val_mono v : forall r y r' k, (forall k, In k (vrefs v) -> dom k) ->
    ser_val f v r = Ok (y, r') -> P k r -> P k r'.
  Proof.
    induction v as [d|l|xs IH] using uval_rect'; intros r y r' k Hd H Hk.
    - now injection H as <- <-.
    - simpl in H. destruct (f l r) as [[u r1]|e] eqn:E; [|discriminate]. injection H as <- <-.
      eapply Pmono; eauto. apply Hd. now left.
    - rewrite ser_val_list in H. destruct (ser_list f xs r) as [[ys r1]|e] eqn:E; [|discriminate]. injection H as <- <-.
      clear -E IH Hd Hk. revert r ys r1 E Hk. induction xs as [|x xs IHx]; intros r ys r1 E Hk.
      + now injection E as <- <-.
      + simpl in E. destruct (ser_val f x r) as [[y r2]|e] eqn:E2; [|discriminate].
        destruct (ser_list f xs r2) as [[ys' r3]|e] eqn:E3; [|discriminate]. injection E as <- <-.
        inversion IH as [|? ? Hx Hxs]; subst.
        apply Hx with (k := k) in E2; [|intros j Hj; apply Hd; apply vrefs_list; exists x; simpl; auto|exact Hk].
        eapply IHx; [exact Hxs| |exact E3|exact E2].
        intros j Hj; apply Hd; apply vrefs_list in Hj as (z & Hz & Hj); apply vrefs_list; exists z; simpl; auto.
  Qed.
  Lemma ser_val_in v : forall r y r' k, (forall k, In k (vrefs v) -> dom k) ->
    ser_val f v r = Ok (y, r') -> In k (vrefs v) -> P k r'.
  Proof.
    induction v as [d|l|xs IH] using uval_rect'; intros r y r' k Hd H Hk.
    - destruct Hk.
    - simpl in H. destruct (f l r) as [[u r1]|e] eqn:E; [|discriminate]. injection H as <- <-.
      destruct Hk as [<-|[]]. eapply Hf; eauto. apply Hd. now left.
    - rewrite ser_val_list in H. destruct (ser_list f xs r) as [[ys r1]|e] eqn:E; [|discriminate]. injection H as <- <-.
      apply vrefs_list in Hk as (z & Hz & Hk).
      assert (Hd' : forall x, In x xs -> forall j, In j (vrefs x) -> dom j)
        by (intros x Hx j Hj; apply Hd; apply vrefs_list; eauto).
      clear Hd. revert r ys r1 E. induction xs as [|x xs IHx]; intros r ys r1 E; [destruct Hz|].
      simpl in E. destruct (ser_val f x r) as [[y r2]|e] eqn:E2; [|discriminate].
      destruct (ser_list f xs r2) as [[ys' r3]|e] eqn:E3; [|discriminate]. injection E as <- <-.
      inversion IH as [|? ? Hx Hxs]; subst. destruct Hz as [->|Hz].
      + apply Hx with (k := k) in E2; [|apply Hd'; now left|exact Hk].
        assert (E4 : ser_val f (UList xs) r2 = Ok (JList ys', r3)) by (rewrite ser_val_list, E3; reflexivity).
        eapply ser_val_mono; [|exact E4|exact E2]. intros j Hj. apply vrefs_list in Hj as (x & Hx' & Hj).
        eapply Hd'; [right; exact Hx'|exact Hj].
      + eapply IHx; eauto. intros x' Hx' j Hj. eapply Hd'; [right; exact Hx'|exact Hj].
  Qed.
  Lemma ser_fields_mono fs : forall r ys r' k, (forall k, In k (flat_map (fun g => vrefs (snd g)) fs) -> dom k) ->
    ser_fields f fs r = Ok (ys, r') -> P k r -> P k r'.
  Proof.
    induction fs as [|[n v] fs IH]; intros r ys r' k Hd H Hk.
    - now injection H as <- <-.
    - simpl in H, Hd. destruct (ser_val f v r) as [[y r1]|e] eqn:E; [|discriminate].
      destruct (ser_fields f fs r1) as [[zs r2]|e] eqn:E2; [|discriminate]. injection H as <- <-.
      eapply IH; [|exact E2|]; [intros j Hj; apply Hd, in_or_app; auto|].
      eapply ser_val_mono; [|exact E|exact Hk]. intros j Hj; apply Hd, in_or_app; auto.
  Qed.
  Lemma ser_fields_in fs : forall r ys r' k, (forall k, In k (flat_map (fun g => vrefs (snd g)) fs) -> dom k) ->
    ser_fields f fs r = Ok (ys, r') -> In k (flat_map (fun g => vrefs (snd g)) fs) -> P k r'.
  Proof.
    induction fs as [|[n v] fs IH]; intros r ys r' k Hd H Hk; [destruct Hk|].
    simpl in H, Hd, Hk. destruct (ser_val f v r) as [[y r1]|e] eqn:E; [|discriminate].
    destruct (ser_fields f fs r1) as [[zs r2]|e] eqn:E2; [|discriminate]. injection H as <- <-.
    apply in_app_or in Hk as [Hk|Hk].
    - eapply ser_fields_mono; [|exact E2|]; [intros j Hj; apply Hd, in_or_app; auto|].
      eapply ser_val_in; [|exact E|exact Hk]. intros j Hj; apply Hd, in_or_app; auto.
    - eapply IH; [|exact E2|exact Hk]. intros j Hj; apply Hd, in_or_app; auto.
  Qed.
End SerIn.

Lemma dhas_get {A} (d : dict A) k : dhas d k = false <-> dget d k = None.
Proof. unfold dhas. destruct (dget d k); split; congruence. Qed.

Section Ser.
  Variables (h : list unode) (root : nat).
  Hypothesis Hg : graph h root.
  Hypothesis Hdist : distinct_uids h root.
  Let uid := uid_at h.
  Let dom := reach h root.

  Lemma dom_node l : dom l -> exists x, nth_error h l = Some x /\ un_uid x = uid l /\
    forall k, In k (node_refs x) -> dom k.
  Proof.
    intros Hl. pose proof (Hg l Hl) as Hlt. destruct (nth_error h l) as [x|] eqn:E.
    - exists x. split; [reflexivity|]. unfold uid, uid_at. rewrite E. split; [reflexivity|].
      intros k Hk. apply reach_step with l; [exact Hl|]. unfold refs_at. now rewrite E.
    - apply nth_error_None in E. lia.
  Qed.

  (** the entry of a serialized instance *)
  Definition entry (l : nat) (e : jentry) : Prop :=
    exists x, nth_error h l = Some x /\ e = JNode (node_json uid x).

  (** [r'] extends [r] by entries of instances reachable from the root *)
  Definition srun (r r' : dict jentry) : Prop :=
    (forall k e, dget r k = Some e -> dget r' k = Some e) /\
    (forall k e, dget r' k = Some e -> dget r k = Some e \/ exists l, dom l /\ k = uid l /\ entry l e) /\
    (NoDup (dkeys r) -> NoDup (dkeys r')).
  Lemma srun_refl r : srun r r.
  Proof. repeat split; auto. Qed.
  Lemma srun_trans a b c : srun a b -> srun b c -> srun a c.
  Proof.
    intros (A1 & A2 & A3) (B1 & B2 & B3). repeat split; auto.
    intros k e H. apply B2 in H as [H|H]; auto.
  Qed.

  Lemma ser_inst_ok n : forall l r u r', dom l -> ser_inst h n l r = Ok (u, r') -> u = uid l /\ srun r r'.
  Proof.
    induction n as [|n IH]; intros l r u r' Hl H; [discriminate|]. simpl in H.
    destruct (dom_node l Hl) as (x & Ex & Hu & Hrefs). rewrite Ex in H.
    destruct (dhas r (un_uid x)) eqn:Eh; [injection H as <- <-; split; [exact Hu|apply srun_refl]|].
    destruct (ser_fields (ser_inst h n) (un_fields x) (dset r (un_uid x) JPending)) as [[fs r1]|e] eqn:Ef; [|discriminate].
    injection H as <- <-. split; [exact Hu|]. apply dhas_get in Eh.
    apply (ser_fields_pass (ser_inst h n) srun uid srun_refl srun_trans dom) in Ef as [-> (A1 & A2 & A3)];
      [|exact IH|exact Hrefs].
    split; [|split].
    - intros k e He. rewrite dget_dset_other by congruence. apply A1. rewrite dget_dset_other by congruence. exact He.
    - intros k e He. destruct (String.string_dec (un_uid x) k) as [<-|Hne].
      + rewrite dget_dset_same in He. injection He as <-. right. exists l. split; [exact Hl|]. split; [exact Hu|].
        exists x. split; [exact Ex|reflexivity].
      + rewrite dget_dset_other in He by exact Hne. apply A2 in He as [He|He]; [|now right]. left.
        now rewrite dget_dset_other in He by exact Hne.
    - intros Hnd. apply nodup_dset, A3, nodup_dset, Hnd.
  Qed.

  Lemma ser_inst_in n l r u r' : dom l -> ser_inst h n l r = Ok (u, r') -> dget r' (uid l) <> None.
  Proof.
    destruct n as [|n]; intros Hl H; [discriminate|]. simpl in H.
    destruct (dom_node l Hl) as (x & Ex & Hu & Hrefs). rewrite Ex in H.
    destruct (dhas r (un_uid x)) eqn:Eh.
    - injection H as <- <-. unfold dhas in Eh. rewrite <- Hu. destruct (dget r (un_uid x)); congruence.
    - destruct (ser_fields _ _ _) as [[fs r1]|e]; [|discriminate]. injection H as <- <-. rewrite <- Hu, dget_dset_same. discriminate.
  Qed.

  (** closure: what an added entry refers to has an entry *)
  Definition closed_over (r r' : dict jentry) : Prop :=
    forall l k, dom l -> dget r (uid l) = None -> dget r' (uid l) <> None -> In k (refs_at h l) -> dget r' (uid k) <> None.

  Lemma ser_closed n : forall l r u r', dom l -> ser_inst h n l r = Ok (u, r') -> closed_over r r'.
  Proof.
    induction n as [|n IH]; intros l r u r' Hl H; [discriminate|]. simpl in H.
    destruct (dom_node l Hl) as (x & Ex & Hu & Hrefs). rewrite Ex in H.
    destruct (dhas r (un_uid x)) eqn:Eh; [injection H as <- <-; intros a k _ H1 H2; contradiction|].
    apply dhas_get in Eh.
    destruct (ser_fields (ser_inst h n) (un_fields x) (dset r (un_uid x) JPending)) as [[fs r1]|e] eqn:Ef; [|discriminate].
    injection H as <- <-.
    (* the relation: extension and closure *)
    set (T := fun a b => srun a b /\ closed_over a b).
    assert (Trefl : forall a, T a a) by (intros a; split; [apply srun_refl|intros ? ? _ H1 H2; contradiction]).
    assert (Ttrans : forall a b c, T a b -> T b c -> T a c).
    { intros a b c [A1 A2] [B1 B2]. split; [eapply srun_trans; eauto|].
      intros m k Hm Ha Hc Hk. destruct (dget b (uid m)) as [e|] eqn:Eb.
      - assert (Hkb : dget b (uid k) <> None) by (eapply A2; eauto; congruence).
        destruct (dget b (uid k)) as [e'|] eqn:Ek; [|congruence]. rewrite (proj1 B1 _ _ Ek). discriminate.
      - eapply B2; eauto. }
    assert (HF : forall l r u r', dom l -> ser_inst h n l r = Ok (u, r') -> u = uid l /\ T r r').
    { intros m a v b Hm Ha. destruct (ser_inst_ok n m a v b Hm Ha) as [Hv Hs]. repeat split; try apply Hs; [exact Hv|].
      eapply IH; eauto. }
    pose proof (ser_fields_pass _ T uid Trefl Ttrans dom HF _ _ _ _ Hrefs Ef) as [_ [Hs Hc]].
    assert (Hin : forall k, In k (node_refs x) -> dget r1 (uid k) <> None).
    { intros k Hk. refine (ser_fields_in (ser_inst h n) (fun k r => dget r (uid k) <> None) dom _ _ _ _ _ _ k Hrefs Ef Hk).
      - intros j m a v b Hm Ha Hj. destruct (ser_inst_ok n m a v b Hm Ha) as [_ (B1 & _)].
        destruct (dget a (uid j)) as [e|] eqn:Ej; [|congruence]. rewrite (B1 _ _ Ej). discriminate.
      - intros m a v b Hm Ha. eapply ser_inst_in; eauto. }
    assert (Hkeep : forall k, dget r1 (uid k) <> None -> dget (dset r1 (un_uid x) (JNode (JN (un_uid x) (un_cls x) fs))) (uid k) <> None).
    { intros k Hk. destruct (String.string_dec (un_uid x) (uid k)) as [Eq|Hne].
      - rewrite <- Eq, dget_dset_same. discriminate.
      - now rewrite dget_dset_other. }
    intros m k Hm Ha Hb Hk. apply Hkeep. destruct (String.string_dec (un_uid x) (uid m)) as [Eq|Hne].
    - assert (m = l). { apply (proj1 Hdist); auto. rewrite Hu in Eq. now symmetry. } subst m.
      unfold refs_at in Hk. rewrite Ex in Hk. now apply Hin.
    - rewrite dget_dset_other in Hb by exact Hne. apply (Hc m k Hm); auto. now rewrite dget_dset_other by exact Hne.
  Qed.
End Ser.

Lemma serialize_entries : forall h l n d, graph h l -> distinct_uids h l -> uid_serialize h n l = Ok d ->
  NoDup (dkeys d) /\
  forall k e, dget d k = Some e <->
    (k = "__root__" /\ e = JRoot (uid_at h l)) \/
    (exists m x, reach h l m /\ nth_error h m = Some x /\ k = un_uid x /\ e = JNode (node_json (uid_at h) x)).
Proof.
  intros h l n d Hg Hd H. unfold uid_serialize in H.
  destruct (nth_error h l) as [x|] eqn:Ex; [|discriminate].
  destruct (ser_inst h n l [(root_key, JRoot (un_uid x))]) as [[u r]|e] eqn:Es; [|discriminate]. injection H as <-.
  pose proof (reach_refl h l) as Hl.
  destruct (ser_inst_ok h l Hg n l _ _ _ Hl Es) as [_ (S1 & S2 & S3)].
  pose proof (ser_closed h l Hg Hd n l _ _ _ Hl Es) as Hc.
  pose proof (ser_inst_in h l Hg n l _ _ _ Hl Es) as Hi.
  assert (Hu : un_uid x = uid_at h l) by (unfold uid_at; now rewrite Ex).
  assert (Hnr : forall m, reach h l m -> dget [(root_key, JRoot (un_uid x))] (uid_at h m) = None).
  { intros m Hm. pose proof (proj2 Hd m Hm) as Hne. unfold dget, root_key.
    destruct (String.eqb "__root__" (uid_at h m)) eqn:Eq; [apply String.eqb_eq in Eq; congruence|].
    destruct (String.eqb (uid_at h m) "__root__") eqn:Eq'; [apply String.eqb_eq in Eq'; congruence|reflexivity]. }
  assert (Hall : forall m, reach h l m -> dget r (uid_at h m) <> None).
  { intros m Hm. induction Hm as [|m k Hm IH Hk]; [exact Hi|]. eapply Hc; eauto. }
  split; [apply S3; repeat constructor; auto|]. intros k e. split.
  - intros He. apply S2 in He as [He|(m & Hm & -> & y & Ey & ->)].
    + left. apply dget_in in He as [He|[]]. injection He as <- <-. now rewrite Hu.
    + right. exists m, y. repeat split; auto. unfold uid_at. now rewrite Ey.
  - intros [[-> ->]|(m & y & Hm & Ey & -> & ->)].
    + apply S1. rewrite Hu. reflexivity.
    + pose proof (Hall m Hm) as Ha. assert (Hy : un_uid y = uid_at h m) by (unfold uid_at; now rewrite Ey).
      rewrite Hy. destruct (dget r (uid_at h m)) as [e|] eqn:Ee; [|congruence].
      apply S2 in Ee as [Ee|(m' & Hm' & Eq & y' & Ey' & ->)].
      * rewrite (Hnr m Hm) in Ee. discriminate.
      * apply (proj1 Hd) in Eq; auto. subst m'. rewrite Ey in Ey'. now injection Ey' as <-.
Qed.

(** ** Termination *)

(** the instances without an entry *)
Definition missing (h : list unode) (r : dict jentry) : nat :=
  length (filter (fun x => negb (dhas r (un_uid x))) h).

Lemma filter_le {A} (p q : A -> bool) l : (forall x, p x = true -> q x = true) ->
  length (filter p l) <= length (filter q l).
Proof.
  intros H. induction l as [|x l IH]; [apply le_n|]. simpl. destruct (p x) eqn:Ep.
  - rewrite (H x Ep). simpl. lia.
  - destruct (q x); simpl; lia.
Qed.
Lemma filter_lt {A} (p q : A -> bool) l x : (forall x, p x = true -> q x = true) -> In x l -> p x = false -> q x = true ->
  length (filter p l) < length (filter q l).
Proof.
  intros H Hx Hp Hq. induction l as [|y l IH]; [destruct Hx|]. simpl. destruct Hx as [->|Hx].
  - rewrite Hp, Hq. simpl. pose proof (filter_le p q l H). lia.
  - specialize (IH Hx). destruct (p y) eqn:Ep; [rewrite (H y Ep); simpl; lia|destruct (q y); simpl; lia].
Qed.

Section SerTotal.
  Context {R : Type} (f : nat -> R -> res (string * R)) (I : R -> Prop) (dom : nat -> Prop).
  Hypothesis Hf : forall l r, dom l -> I r -> exists u r', f l r = Ok (u, r') /\ I r'.
  Lemma ser_val_total v : forall r, (forall k, In k (vrefs v) -> dom k) -> I r -> exists y r', ser_val f v r = Ok (y, r') /\ I r'.
  Proof.
    induction v as [d|l|xs IH] using uval_rect'; intros r Hd Hr.
    - eexists _, _. split; [reflexivity|exact Hr].
    - simpl. destruct (Hf l r) as (u & r' & -> & Hr'); [apply Hd; now left|exact Hr|]. eauto.
    - rewrite ser_val_list. assert (HL : exists ys r', ser_list f xs r = Ok (ys, r') /\ I r').
      { revert r Hr. induction xs as [|x xs IHx]; intros r Hr; [exists [], r; auto|]. inversion IH as [|? ? Hx Hxs]; subst. simpl.
        destruct (Hx r) as (y & r1 & -> & H1); [intros k Hk; apply Hd; apply vrefs_list; exists x; simpl; auto|exact Hr|].
        destruct (IHx Hxs) with (r := r1) as (ys & r2 & -> & H2);
          [intros k Hk; apply Hd; apply vrefs_list in Hk as (z & Hz & Hk); apply vrefs_list; exists z; simpl; auto|exact H1|].
        eauto. }
      destruct HL as (ys & r' & -> & Hr'). eauto.
  Qed.
  Lemma ser_fields_total fs : forall r, (forall k, In k (flat_map (fun g => vrefs (snd g)) fs) -> dom k) -> I r ->
    exists ys r', ser_fields f fs r = Ok (ys, r') /\ I r'.
  Proof.
    induction fs as [|[n v] fs IH]; intros r Hd Hr; [exists [], r; auto|]. simpl in *.
    destruct (ser_val_total v r) as (y & r1 & -> & H1); [intros k Hk; apply Hd, in_or_app; auto|exact Hr|].
    destruct (IH r1) as (ys & r2 & -> & H2); [intros k Hk; apply Hd, in_or_app; auto|exact H1|]. eauto.
  Qed.
End SerTotal.

Definition keeps (r r' : dict jentry) : Prop := forall k, dhas r k = true -> dhas r' k = true.
Lemma missing_keeps h r r' : keeps r r' -> missing h r' <= missing h r.
Proof.
  intros H. apply filter_le. intros x Hx. apply negb_true_iff in Hx. apply negb_true_iff.
  destruct (dhas r (un_uid x)) eqn:E; [|reflexivity]. apply H in E. congruence.
Qed.
Lemma dhas_dset {A} (d : dict A) k v k' : dhas (dset d k v) k' = true <-> k = k' \/ dhas d k' = true.
Proof.
  unfold dhas. destruct (String.string_dec k k') as [<-|Hne].
  - rewrite dget_dset_same. tauto.
  - rewrite dget_dset_other by exact Hne. tauto.
Qed.

Lemma ser_total h root (Hg : graph h root) n : forall l r, reach h root l -> missing h r < n ->
  exists u r', ser_inst h n l r = Ok (u, r') /\ keeps r r'.
Proof.
  induction n as [|n IH]; intros l r Hl Hm; [lia|]. simpl.
  destruct (dom_node h root Hg l Hl) as (x & Ex & Hu & Hrefs). rewrite Ex.
  destruct (dhas r (un_uid x)) eqn:Eh; [exists (un_uid x), r; split; [reflexivity|now intros k]|].
  set (r0 := dset r (un_uid x) JPending).
  assert (Hlt : missing h r0 < missing h r).
  { apply filter_lt with x.
    - intros y Hy. apply negb_true_iff in Hy. apply negb_true_iff. destruct (dhas r (un_uid y)) eqn:E; [|reflexivity].
      unfold r0 in Hy. rewrite (proj2 (dhas_dset r (un_uid x) JPending (un_uid y)) (or_intror E)) in Hy. discriminate.
    - eapply nth_error_In; eauto.
    - apply negb_false_iff. apply dhas_dset. now left.
    - now rewrite Eh. }
  destruct (ser_fields_total (ser_inst h n) (keeps r0) (reach h root)) with (fs := un_fields x) (r := r0)
    as (ys & r' & -> & Hk).
  - intros m a Hma Ha. destruct (IH m a Hma) as (u & b & E & Hb).
    + apply missing_keeps with (h := h) in Ha. lia.
    + exists u, b. split; [exact E|]. intros k Hk. apply Hb, Ha, Hk.
  - exact Hrefs.
  - now intros k.
  - eexists _, _. split; [reflexivity|]. intros k Hkr. apply dhas_dset. right. apply Hk. apply dhas_dset. now right.
Qed.

Lemma serialize_total : forall h l n, graph h l -> length h < n -> exists d, uid_serialize h n l = Ok d.
Proof.
  intros h l n Hg Hn. unfold uid_serialize. pose proof (Hg l (reach_refl h l)) as Hl.
  destruct (nth_error h l) as [x|] eqn:Ex; [|apply nth_error_None in Ex; lia].
  destruct (ser_total h l Hg n l [(root_key, JRoot (un_uid x))] (reach_refl h l)) as (u & r & -> & _); [|eauto].
  unfold missing. pose proof (filter_le (fun x0 => negb (dhas [(root_key, JRoot (un_uid x))] (un_uid x0))) (fun _ => true) h) as H.
  assert (Hall : filter (fun _ : unode => true) h = h) by (clear; induction h as [|a h IH]; simpl; congruence).
  rewrite Hall in H. specialize (H (fun _ _ => eq_refl)). lia.
Qed.

(** * Deserialization *)

Fixpoint jrefs (v : jval) : list string :=
  match v with JData _ => [] | JKey u => [u] | JList xs => flat_map jrefs xs end.
Definition jnode_refs (j : jnode) : list string := flat_map (fun g => jrefs (snd g)) (jn_fields j).

Fixpoint deser_list (f : string -> DM nat) (xs : list jval) : DM (list uval) :=
  match xs with
  | [] => dret []
  | x :: r => dbind (deser_val f x) (fun y => dbind (deser_list f r) (fun ys => dret (y :: ys)))
  end.
Lemma deser_val_list f xs s :
  deser_val f (JList xs) s = dbind (deser_list f xs) (fun ys => dret (UList ys)) s.
Proof.
  simpl. unfold dbind at 1 2.
  match goal with |- match ?g xs s with _ => _ end = _ => assert (Hg : forall ys t, g ys t = deser_list f ys t) end.
  { induction ys as [|y ys IH]; intros t; [reflexivity|]. simpl. unfold dbind.
    destruct (deser_val f y t) as [[z|e] t1]; [|reflexivity]. now rewrite IH. }
  now rewrite Hg.
Qed.

Section DeserRun.
  Variable fresh : nat -> string.

  (** [k] is the uid of a new instance *)
  Definition at_key (s : dstate) (k : string) (m : nat) : Prop := dget (ds_reg s) k = Some (DInst m).
  (** what the uid [k] was replaced by: its instance, or something not in the dictionary *)
  Definition ref_ok (s : dstate) (k : string) (m : nat) : Prop := at_key s k m \/ dget (ds_reg s) k = None.
  Fixpoint val_ok (s : dstate) (j : jval) (v : uval) {struct j} : Prop :=
    match j, v with
    | JData d, UData d' => d = d'
    | JKey k, URef m => ref_ok s k m
    | JList js, UList vs =>
        (fix go (js : list jval) (vs : list uval) : Prop :=
           match js, vs with
           | [], [] => True
           | j :: js', v :: vs' => val_ok s j v /\ go js' vs'
           | _, _ => False
           end) js vs
    | _, _ => False
    end.
  Fixpoint vals_ok (s : dstate) (js : list jval) (vs : list uval) : Prop :=
    match js, vs with
    | [], [] => True
    | j :: js', v :: vs' => val_ok s j v /\ vals_ok s js' vs'
    | _, _ => False
    end.
  Lemma val_ok_list s js vs : val_ok s (JList js) (UList vs) <-> vals_ok s js vs.
  Proof. simpl. revert vs. induction js as [|j js IH]; intros [|v vs]; simpl; try tauto. now rewrite IH. Qed.
  Definition fields_ok (s : dstate) (js : list (string * jval)) (vs : list (string * uval)) : Prop :=
    Forall2 (fun j v => fst j = fst v /\ val_ok s (snd j) (snd v)) js vs.
  Definition node_ok (s : dstate) (j : jnode) (x : unode) : Prop :=
    un_uid x = jn_uid j /\ un_cls x = jn_cls j /\ fields_ok s (jn_fields j) (un_fields x).

  (** the dictionary's keys are no default uids *)
  Definition no_default (s : dstate) : Prop :=
    forall n k, ds_next s <= n -> dget (ds_reg s) k <> None -> fresh n <> k.

  Record dext (s s' : dstate) : Prop := {
    de_inst : forall k m, at_key s k m -> at_key s' k m;
    de_none : forall k, dget (ds_reg s) k = None <-> dget (ds_reg s') k = None;
    de_json : forall k e, dget (ds_reg s) k = Some (DJson e) ->
      dget (ds_reg s') k = Some (DJson e) \/
      exists j m x, e = JNode j /\ at_key s' k m /\ length (ds_heap s) <= m /\
        nth_error (ds_heap s') m = Some x /\ node_ok s' j x /\ dget (ds_inst s') k = Some m;
    de_len : length (ds_heap s) <= length (ds_heap s');
    de_heap : forall m, m < length (ds_heap s) -> nth_error (ds_heap s') m = nth_error (ds_heap s) m;
    de_reg : forall k m, dget (ds_reg s) k <> None -> dget (ds_inst s) k = Some m -> dget (ds_inst s') k = Some m;
    de_next : ds_next s <= ds_next s' }.

  Lemma ref_ok_mono s s' k m : (forall k m, at_key s k m -> at_key s' k m) ->
    (forall k, dget (ds_reg s) k = None <-> dget (ds_reg s') k = None) -> ref_ok s k m -> ref_ok s' k m.
  Proof. intros H1 H2 [H|H]; [left; auto|right; now apply H2]. Qed.
  Lemma val_ok_mono s s' : (forall k m, at_key s k m -> at_key s' k m) ->
    (forall k, dget (ds_reg s) k = None <-> dget (ds_reg s') k = None) ->
    forall j v, val_ok s j v -> val_ok s' j v.
  Proof.
    intros H1 H2. induction j as [d|k|js IH] using jval_rect'; intros [d'|m|vs]; simpl; try tauto.
    - now apply ref_ok_mono.
    - change (val_ok s (JList js) (UList vs) -> val_ok s' (JList js) (UList vs)). rewrite !val_ok_list.
      revert vs. induction IH as [|j js Hj Hjs IHjs]; intros [|v vs]; simpl; try tauto.
      intros [Ha Hb]. split; [now apply Hj|now apply IHjs].
  Qed.
  Lemma node_ok_mono s s' j x : (forall k m, at_key s k m -> at_key s' k m) ->
    (forall k, dget (ds_reg s) k = None <-> dget (ds_reg s') k = None) -> node_ok s j x -> node_ok s' j x.
  Proof.
    intros H1 H2 (A & B & Cf). split; [exact A|]. split; [exact B|].
    induction Cf as [|a b la lb [Hn Hv] Hl IH]; constructor; auto. split; [exact Hn|]. eapply val_ok_mono; eauto.
  Qed.

  Lemma dext_refl s : dext s s.
  Proof. constructor; try tauto; auto. Qed.
  Lemma dext_trans a b c : dext a b -> dext b c -> dext a c.
  Proof.
    intros A B. constructor.
    - intros k m H. apply (de_inst _ _ B), (de_inst _ _ A), H.
    - intros k. rewrite (de_none _ _ A). apply (de_none _ _ B).
    - intros k e H. apply (de_json _ _ A) in H as [H|(j & m & x & -> & H1 & H2 & H3 & H4 & H5)].
      + apply (de_json _ _ B) in H as [H|(j & m & x & -> & H1 & H2 & H3 & H4 & H5)]; [now left|right].
        exists j, m, x. pose proof (de_len _ _ A). repeat split; try apply H4; auto. lia.
      + right. exists j, m, x. repeat split; auto.
        * apply (de_inst _ _ B), H1.
        * rewrite (de_heap _ _ B); [exact H3|]. apply nth_error_Some. congruence.
        * apply H4.
        * apply H4.
        * apply (node_ok_mono b c); auto; [apply (de_inst _ _ B)|apply (de_none _ _ B)].
        * apply (de_reg _ _ B); [|exact H5]. unfold at_key in H1. congruence.
    - pose proof (de_len _ _ A). pose proof (de_len _ _ B). lia.
    - intros m Hm. rewrite (de_heap _ _ B); [now apply (de_heap _ _ A)|]. pose proof (de_len _ _ A). lia.
    - intros k m Hk H. apply (de_reg _ _ B); [|now apply (de_reg _ _ A)]. intros Hn. now apply (de_none _ _ A) in Hn.
    - pose proof (de_next _ _ A). pose proof (de_next _ _ B). lia.
  Qed.
  Lemma no_default_ext s s' : dext s s' -> no_default s -> no_default s'.
  Proof.
    intros H Hn n k Hle Hk. apply Hn; [pose proof (de_next _ _ H); lia|]. intros Hc. now apply (de_none _ _ H) in Hc.
  Qed.

  Section Pass.
    Variable f : string -> DM nat.
    Hypothesis Hf : forall k s m s', no_default s -> f k s = (Ok m, s') -> dext s s' /\ ref_ok s' k m.
    Lemma deser_val_pass j : forall s v s', no_default s -> deser_val f j s = (Ok v, s') -> dext s s' /\ val_ok s' j v.
    Proof.
      induction j as [d|k|js IH] using jval_rect'; intros s v s' Hn H.
      - injection H as <- <-. split; [apply dext_refl|reflexivity].
      - simpl in H. unfold dbind in H. destruct (f k s) as [[m|e] s1] eqn:E; [|discriminate]. injection H as <- <-.
        now apply Hf.
      - rewrite deser_val_list in H. unfold dbind in H.
        destruct (deser_list f js s) as [[vs|e] s1] eqn:E; [|discriminate]. injection H as <- <-. rewrite val_ok_list.
        revert s vs s1 Hn E. induction IH as [|j js Hj Hjs IHjs]; intros s vs s1 Hn E.
        + injection E as <- <-. split; [apply dext_refl|exact I].
        + simpl in E. unfold dbind in E. destruct (deser_val f j s) as [[v|e] s2] eqn:E2; [|discriminate].
          destruct (deser_list f js s2) as [[vs'|e] s3] eqn:E3; [|discriminate]. injection E as <- <-.
          apply Hj in E2 as [A1 A2]; [|exact Hn]. apply IHjs in E3 as [B1 B2]; [|eapply no_default_ext; eauto].
          split; [eapply dext_trans; eauto|]. split; [|exact B2].
          eapply val_ok_mono; [apply (de_inst _ _ B1)|apply (de_none _ _ B1)|exact A2].
    Qed.
    Lemma deser_fields_pass fs : forall s vs s', no_default s -> deser_fields f fs s = (Ok vs, s') ->
      dext s s' /\ fields_ok s' fs vs.
    Proof.
      induction fs as [|[n j] fs IH]; intros s vs s' Hn H.
      - injection H as <- <-. split; [apply dext_refl|constructor].
      - simpl in H. unfold dbind in H. destruct (deser_val f j s) as [[v|e] s2] eqn:E2; [|discriminate].
        destruct (deser_fields f fs s2) as [[vs'|e] s3] eqn:E3; [|discriminate]. injection H as <- <-.
        apply deser_val_pass in E2 as [A1 A2]; [|exact Hn]. apply IH in E3 as [B1 B2]; [|eapply no_default_ext; eauto].
        split; [eapply dext_trans; eauto|]. constructor; [|exact B2]. split; [reflexivity|].
        eapply val_ok_mono; [apply (de_inst _ _ B1)|apply (de_none _ _ B1)|exact A2].
    Qed.
  End Pass.

  Lemma deser_inst_ok n : forall k s m s', no_default s -> deser_inst fresh n k s = (Ok m, s') ->
    dext s s' /\ ref_ok s' k m /\ (dget (ds_reg s) k <> None -> dget (ds_inst s') k = Some m).
  Proof.
    induction n as [|n IH]; intros k s m s' Hn H; [discriminate|]. simpl in H.
    destruct (dget (ds_inst s) k) as [l|] eqn:Ei.
    { destruct (dget (ds_reg s) k) eqn:Er; [discriminate|]. injection H as <- <-.
      split; [apply dext_refl|]. split; [now right|congruence]. }
    destruct (dget (ds_reg s) k) as [[[u| |j]|l]|] eqn:Er; try discriminate.
    - (* a dictionary *)
      unfold dbind in H at 1 2 3. unfold new_node in H.
      set (l := length (ds_heap s)) in *.
      set (s1 := DS (ds_heap s ++ [UN (fresh (ds_next s)) (jn_cls j) []]) (dset (ds_inst s) (fresh (ds_next s)) l)
                    (dset (ds_reg s) k (DInst l)) (S (ds_next s))) in *.
      assert (Hnone : forall k', dget (ds_reg s) k' = None <-> dget (ds_reg s1) k' = None).
      { intros k'. simpl. destruct (String.string_dec k k') as [<-|Hne].
        - rewrite Er, dget_dset_same. split; discriminate.
        - now rewrite dget_dset_other. }
      assert (Hn1 : no_default s1).
      { intros i k' Hle Hk. apply Hn; [simpl in Hle; lia|]. now rewrite Hnone. }
      destruct (deser_fields (deser_inst fresh n) (jn_fields j) s1) as [[fs|e] s2] eqn:Ef; [|discriminate].
      apply deser_fields_pass in Ef as [X Hfs]; [|intros k0 t m0 t' Ht Hk0; destruct (IH _ _ _ _ Ht Hk0) as (A & B & _); now split|exact Hn1].
      unfold fill_node in H. simpl in H.
      assert (Hl : at_key s2 k l) by (apply (de_inst _ _ X); unfold at_key, s1; simpl; apply dget_dset_same).
      unfold at_key in Hl. rewrite Hl in H. injection H as <- <-.
      set (x := UN (jn_uid j) (jn_cls j) fs).
      set (s3 := DS (replace_nth l x (ds_heap s2)) (dset (ds_inst s2) k l) (ds_reg s2) (ds_next s2)).
      assert (Hlen1 : length (ds_heap s1) = S l) by (simpl; rewrite app_length; simpl; fold l; lia).
      assert (Hlen2 : S l <= length (ds_heap s2)) by (rewrite <- Hlen1; apply (de_len _ _ X)).
      assert (Hdf : fresh (ds_next s) <> k) by (apply Hn; [lia|congruence]).
      split; [|split].
      + constructor.
        * intros k' m H. apply (de_inst _ _ X). unfold at_key in *. simpl.
          destruct (String.string_dec k k') as [<-|Hne]; [congruence|]. now rewrite dget_dset_other.
        * intros k'. rewrite Hnone. apply (de_none _ _ X).
        * intros k' e He. destruct (String.string_dec k k') as [<-|Hne].
          -- rewrite Er in He. injection He as <-. right. exists j, l, x.
             split; [reflexivity|]. split; [exact Hl|]. split; [apply le_n|].
             split; [simpl; apply replace_nth_same; lia|]. split.
             ++ apply (node_ok_mono s2 s3 j x); [auto|intros k'; reflexivity|].
                split; [reflexivity|]. split; [reflexivity|]. exact Hfs.
             ++ simpl. apply dget_dset_same.
          -- assert (He1 : dget (ds_reg s1) k' = Some (DJson e)) by (simpl; now rewrite dget_dset_other).
             apply (de_json _ _ X) in He1 as [He1|(j' & m & y & -> & H1 & H2 & H3 & H4 & H5)]; [now left|right].
             exists j', m, y. split; [reflexivity|]. split; [exact H1|]. split; [lia|]. split.
             ++ simpl. rewrite replace_nth_other by lia. exact H3.
             ++ split; [|simpl; now rewrite dget_dset_other].
                apply (node_ok_mono s2 s3 j' y); [auto|intros k''; reflexivity|exact H4].
        * simpl. rewrite replace_nth_length. fold l. lia.
        * intros m Hm. simpl. rewrite replace_nth_other by (fold l in Hm; lia).
          rewrite (de_heap _ _ X) by (fold l in Hm; lia). simpl. apply nth_error_app1, Hm.
        * intros k' m Hk' Hm. simpl. destruct (String.string_dec k k') as [<-|Hne]; [congruence|].
          rewrite dget_dset_other by exact Hne. apply (de_reg _ _ X).
          -- now rewrite <- Hnone.
          -- simpl. rewrite dget_dset_other; [exact Hm|]. apply Hn; [lia|exact Hk'].
        * pose proof (de_next _ _ X) as Hx. simpl in *. lia.
      + left. exact Hl.
      + intros _. simpl. apply dget_dset_same.
    - (* a new instance *)
      simpl in H. rewrite Er in H. injection H as <- <-. split; [|split].
      + constructor; try tauto; auto. intros k' m Hk' Hm. simpl.
        destruct (String.string_dec k k') as [<-|Hne]; [congruence|]. now rewrite dget_dset_other.
      + left. exact Er.
      + intros _. simpl. apply dget_dset_same.
  Qed.
End DeserRun.

Lemma fields_map s (f : nat -> nat) (uid : nat -> string) (dom : nat -> Prop) :
  (forall a m, dom a -> ref_ok s (uid a) m -> m = f a) ->
  forall fs vs, (forall k, In k (flat_map (fun g => vrefs (snd g)) fs) -> dom k) ->
    fields_ok s (map (fun g => (fst g, vjson uid (snd g))) fs) vs ->
    vs = map (fun g => (fst g, vmap f (snd g))) fs.
Proof.
  intros Hr.
  assert (Hv : forall v w, (forall k, In k (vrefs v) -> dom k) -> val_ok s (vjson uid v) w -> w = vmap f v).
  { induction v as [d|l|xs IH] using uval_rect'; intros [d'|m|ws] Hd Ho; simpl in Ho; try contradiction.
    - now subst.
    - simpl. f_equal. apply Hr; [apply Hd; now left|exact Ho].
    - change (val_ok s (JList (map (vjson uid) xs)) (UList ws)) in Ho. rewrite val_ok_list in Ho. simpl. f_equal.
      revert ws Ho. induction IH as [|x xs Hx Hxs IHx]; intros [|w ws] Ho; simpl in Ho; try contradiction; [reflexivity|].
      destruct Ho as [Ho1 Ho2]. simpl. f_equal.
      + apply Hx; [|exact Ho1]. intros k Hk. apply Hd. apply vrefs_list. exists x; simpl; auto.
      + apply IHx; [|exact Ho2]. intros k Hk. apply Hd. apply vrefs_list in Hk as (z & Hz & Hk). apply vrefs_list. exists z; simpl; auto. }
  induction fs as [|[n v] fs IH]; intros vs Hd H; inversion H as [|a b la lb [Hn Ho] Hl]; subst; [reflexivity|].
  simpl in *. destruct b as [n' w]. simpl in *. subst n'. f_equal.
  - f_equal. apply Hv; [|exact Ho]. intros k Hk. apply Hd, in_or_app; auto.
  - apply IH; [|exact Hl]. intros k Hk. apply Hd, in_or_app; auto.
Qed.

Lemma dget_map {A B} (g : A -> B) (d : dict A) k : dget (map (fun kv => (fst kv, g (snd kv))) d) k = option_map g (dget d k).
Proof. induction d as [|[k' v] d IH]; [reflexivity|]. simpl. destruct (String.eqb k k'); [reflexivity|exact IH]. Qed.

Lemma reach_trans h l a b : reach h l a -> reach h a b -> reach h l b.
Proof. intros Ha Hb. induction Hb as [|m k Hm IH Hk]; [exact Ha|econstructor; eauto]. Qed.

(** every reachable instance was rebuilt *)
Lemma deserialize_built : forall fresh h l n d h2 inst next n2 l2 s2,
  graph h l -> distinct_uids h l -> uid_serialize h n l = Ok d ->
  (forall i, next <= i -> dget d (fresh i) = None) ->
  forall c, reach h l c -> uid_deserialize_at fresh n2 (uid_at h c) d h2 inst next = (Ok l2, s2) ->
  dext (DS h2 inst (map (fun kv => (fst kv, DJson (snd kv))) d) next) s2 /\
  at_key s2 (uid_at h c) l2 /\
  forall a, reach h c a -> exists x m, nth_error h a = Some x /\ at_key s2 (uid_at h a) m /\ length h2 <= m /\
     dget (ds_inst s2) (uid_at h a) = Some m /\ exists y, nth_error (ds_heap s2) m = Some y /\ node_ok s2 (node_json (uid_at h) x) y.
Proof.
  intros fresh h l n d h2 inst next n2 l2 s2 Hg Hd Hs Hfr c Hc H.
  destruct (serialize_entries h l n d Hg Hd Hs) as [_ He]. unfold uid_deserialize_at in H.
  set (s := DS h2 inst (map (fun kv => (fst kv, DJson (snd kv))) d) next) in *.
  assert (Hget : forall k, dget (ds_reg s) k = option_map DJson (dget d k)) by (intros k; apply dget_map).
  assert (Hn : no_default fresh s).
  { intros i k Hi Hk <-. apply Hk. rewrite Hget, Hfr; auto. }
  destruct (deser_inst_ok fresh n2 _ s l2 s2 Hn H) as (X & Hl2 & Hi2).
  assert (Hrl : forall a, reach h c a -> reach h l a) by (intros a Ha; eapply reach_trans; eauto).
  assert (Hin : forall a, reach h l a -> dget (ds_reg s) (uid_at h a) <> None /\ dget (ds_reg s2) (uid_at h a) <> None).
  { intros a Ha. assert (A : dget (ds_reg s) (uid_at h a) <> None).
    { rewrite Hget. destruct (dom_node h l Hg a Ha) as (x & Ex & Hu & _).
      rewrite (proj2 (He (uid_at h a) (JNode (node_json (uid_at h) x)))); [discriminate|]. right. exists a, x. auto. }
    split; [exact A|]. intros Hx. apply (de_none _ _ X) in Hx. contradiction. }
  set (done := fun a => exists x m, nth_error h a = Some x /\ at_key s2 (uid_at h a) m /\ length h2 <= m /\
     dget (ds_inst s2) (uid_at h a) = Some m /\ exists y, nth_error (ds_heap s2) m = Some y /\ node_ok s2 (node_json (uid_at h) x) y).
  assert (Hpick : forall a m, reach h l a -> at_key s2 (uid_at h a) m -> done a).
  { intros a m Ha Hm. destruct (dom_node h l Hg a Ha) as (x & Ex & Hu & _).
    assert (Hx : dget (ds_reg s) (uid_at h a) = Some (DJson (JNode (node_json (uid_at h) x)))).
    { rewrite Hget. rewrite (proj2 (He (uid_at h a) (JNode (node_json (uid_at h) x)))); [reflexivity|]. right. exists a, x. auto. }
    destruct (de_json _ _ X _ _ Hx) as [Hx0|(j & m' & y & Ej & H1 & H2 & H3 & H4 & H5)].
    - unfold at_key in Hm. congruence.
    - injection Ej as <-. exists x, m'. split; [exact Ex|]. split; [exact H1|]. split; [exact H2|]. split; [exact H5|]. eauto. }
  assert (Href : forall a m, reach h l a -> ref_ok s2 (uid_at h a) m -> at_key s2 (uid_at h a) m).
  { intros a m Ha [Hr|Hr]; [exact Hr|]. destruct (Hin a Ha) as [_ Hx0]. contradiction. }
  assert (Hsucc : forall js vs, fields_ok s2 js vs -> forall k, In k (flat_map (fun g => jrefs (snd g)) js) -> exists m, ref_ok s2 k m).
  { assert (Hv : forall j v, val_ok s2 j v -> forall k, In k (jrefs j) -> exists m, ref_ok s2 k m).
    { induction j as [x|u|js IH] using jval_rect'; intros [x'|m|vs] Ho k Hk; simpl in Ho; try contradiction.
      - destruct Hk as [<-|[]]. eauto.
      - change (val_ok s2 (JList js) (UList vs)) in Ho. rewrite val_ok_list in Ho.
        simpl in Hk. revert vs Ho. induction IH as [|j js Hj Hjs IHjs]; intros [|v vs] Ho; simpl in Ho; try contradiction.
        destruct Ho as [O1 O2]. simpl in Hk. apply in_app_or in Hk as [Hk|Hk]; eauto. }
    intros js vs Hf. induction Hf as [|a b la lb [Hn' Ho] Hl IH]; intros k Hk; [destruct Hk|].
    simpl in Hk. apply in_app_or in Hk as [Hk|Hk]; eauto. }
  assert (Hjr : forall v k, In k (vrefs v) -> In (uid_at h k) (jrefs (vjson (uid_at h) v))).
  { induction v as [x|u|xs IH] using uval_rect'; intros k Hk; simpl in *; [exact Hk|destruct Hk as [->|[]]; now left|].
    apply in_flat_map in Hk as (z & Hz & Hk). apply in_flat_map. exists (vjson (uid_at h) z). split; [now apply in_map|].
    rewrite Forall_forall in IH. now apply IH. }
  assert (Hall : forall a, reach h c a -> done a).
  { intros a Ha. induction Ha as [|a b Ha IH Hb].
    - apply Hpick with l2; [exact Hc|]. now apply Href.
    - destruct IH as (x & m & Ex & _ & _ & _ & y & _ & (_ & _ & Hf)).
      assert (Hk : In (uid_at h b) (flat_map (fun g => jrefs (snd g)) (jn_fields (node_json (uid_at h) x)))).
      { unfold refs_at in Hb. rewrite Ex in Hb. unfold node_refs in Hb. apply in_flat_map in Hb as ([fn v] & Hg' & Hb).
        simpl. apply in_flat_map. exists (fn, vjson (uid_at h) v). split; [|now apply Hjr].
        apply in_map_iff. exists (fn, v). auto. }
      destruct (Hsucc _ _ Hf _ Hk) as (m' & Hm'). assert (Hb' : reach h l b) by (apply Hrl; econstructor; eauto).
      apply Hpick with m'; [exact Hb'|]. now apply Href. }
  split; [exact X|]. split; [|exact Hall]. now apply Href.
Qed.

Lemma deserialize_at_iso : forall fresh h l n d h2 inst next n2 l2 s2,
  graph h l -> distinct_uids h l -> uid_serialize h n l = Ok d ->
  (forall i, next <= i -> dget d (fresh i) = None) ->
  forall c, reach h l c -> uid_deserialize_at fresh n2 (uid_at h c) d h2 inst next = (Ok l2, s2) ->
  exists f : nat -> nat, f c = l2 /\
    (forall a x, reach h c a -> nth_error h a = Some x ->
       nth_error (ds_heap s2) (f a) = Some (node_map f x) /\ length h2 <= f a /\ dget (ds_inst s2) (un_uid x) = Some (f a)) /\
    (forall a b, reach h c a -> reach h c b -> f a = f b -> a = b) /\
    (forall m, m < length h2 -> nth_error (ds_heap s2) m = nth_error h2 m).
Proof.
  intros fresh h l n d h2 inst next n2 l2 s2 Hg Hd Hs Hfr c Hc H.
  destruct (deserialize_built _ _ _ _ _ _ _ _ _ _ _ Hg Hd Hs Hfr c Hc H) as (X & Hl2 & Hall).
  assert (Hrl : forall a, reach h c a -> reach h l a) by (intros a Ha; eapply reach_trans; eauto).
  assert (Href : forall a m, reach h c a -> ref_ok s2 (uid_at h a) m -> at_key s2 (uid_at h a) m).
  { intros a m Ha [Hr|Hr]; [exact Hr|]. destruct (Hall a Ha) as (x & m' & _ & Hm & _). unfold at_key in Hm. congruence. }
  set (f := fun a => match dget (ds_reg s2) (uid_at h a) with Some (DInst m) => m | _ => 0 end).
  assert (Hf : forall a m, at_key s2 (uid_at h a) m -> f a = m) by (intros a m Hm; unfold f; unfold at_key in Hm; now rewrite Hm).
  assert (Hnode : forall a x, reach h c a -> nth_error h a = Some x ->
       nth_error (ds_heap s2) (f a) = Some (node_map f x) /\ length h2 <= f a /\ dget (ds_inst s2) (un_uid x) = Some (f a)).
  { intros a x Ha Ex. destruct (Hall a Ha) as (x' & m & Ex' & Hm & Hle & Hin' & y & Ey & (N1 & N2 & N3)).
    rewrite Ex in Ex'. injection Ex' as <-. rewrite (Hf a m Hm). split; [|split; [exact Hle|]].
    - rewrite Ey. f_equal. destruct y as [yu yc yf]. simpl in *. subst yu yc. unfold node_map. f_equal.
      refine (fields_map s2 f (uid_at h) (reach h c) _ _ _ _ N3).
      + intros b k Hb Hk. symmetry. apply Hf. now apply Href.
      + intros k Hk. apply reach_step with a; [exact Ha|]. unfold refs_at. now rewrite Ex.
    - assert (Hu : un_uid x = uid_at h a) by (unfold uid_at; now rewrite Ex). now rewrite Hu. }
  exists f. split; [|split; [exact Hnode|split]].
  - now apply Hf.
  - intros a b Ha Hb Hab.
    destruct (dom_node h l Hg a (Hrl a Ha)) as (x & Ex & Hu & _). destruct (dom_node h l Hg b (Hrl b Hb)) as (y & Ey & Hv & _).
    destruct (Hnode a x Ha Ex) as [Nx _]. destruct (Hnode b y Hb Ey) as [Ny _]. rewrite Hab, Ny in Nx. injection Nx as Hxy _ _.
    apply (proj1 Hd); auto. congruence.
  - intros m Hm. apply (de_heap _ _ X m). exact Hm.
Qed.

Lemma deserialize_iso : forall fresh h l n d h2 inst next n2 l2 s2,
  graph h l -> distinct_uids h l -> uid_serialize h n l = Ok d ->
  (forall i, next <= i -> dget d (fresh i) = None) ->
  uid_deserialize fresh n2 d h2 inst next = (Ok l2, s2) ->
  exists f : nat -> nat, f l = l2 /\
    (forall a x, reach h l a -> nth_error h a = Some x ->
       nth_error (ds_heap s2) (f a) = Some (node_map f x) /\ length h2 <= f a /\ dget (ds_inst s2) (un_uid x) = Some (f a)) /\
    (forall a b, reach h l a -> reach h l b -> f a = f b -> a = b) /\
    (forall m, m < length h2 -> nth_error (ds_heap s2) m = nth_error h2 m).
Proof.
  intros fresh h l n d h2 inst next n2 l2 s2 Hg Hd Hs Hfr H.
  apply (deserialize_at_iso fresh h l n d h2 inst next n2 l2 s2 Hg Hd Hs Hfr l (reach_refl h l)).
  destruct (serialize_entries h l n d Hg Hd Hs) as [_ He]. unfold uid_deserialize in H.
  rewrite (proj2 (He root_key (JRoot (uid_at h l)))) in H by (left; auto). exact H.
Qed.

(** ** When deserialization succeeds *)

Definition count (v : string) (l : list string) : nat := count_occ String.string_dec l v.
Definition entry_refs (e : dentry) : list string := match e with DJson (JNode j) => jnode_refs j | _ => [] end.
(** references in the dictionaries not yet used *)
Definition pending (reg : dict dentry) : list string := flat_map (fun kv => entry_refs (snd kv)) reg.
Definition njson (reg : dict dentry) : nat :=
  length (filter (fun kv : string * dentry => match snd kv with DJson _ => true | DInst _ => false end) reg).
Definition budget (s : dstate) (v : string) : nat := match dget (ds_inst s) v with Some _ => 0 | None => 1 end.
Definition good_key (s : dstate) (k : string) : Prop :=
  (exists j, dget (ds_reg s) k = Some (DJson (JNode j))) \/ (exists m, at_key s k m).

Lemma count_app v a b : count v (a ++ b) = count v a + count v b.
Proof. apply count_occ_app. Qed.
Lemma count_one k : count k [k] = 1.
Proof. unfold count. simpl. destruct (String.string_dec k k); congruence. Qed.
Lemma count_other k v : k <> v -> count v [k] = 0.
Proof. unfold count. simpl. destruct (String.string_dec k v); congruence. Qed.
Lemma pending_dset reg k j l v : dget reg k = Some (DJson (JNode j)) ->
  count v (pending reg) = count v (jnode_refs j) + count v (pending (dset reg k (DInst l))).
Proof.
  unfold pending. induction reg as [|[k' e] reg IH]; intros H; [discriminate|]. simpl in H |- *.
  destruct (String.eqb k k') eqn:E.
  - injection H as ->. simpl. now rewrite count_app.
  - simpl. rewrite !count_app, (IH H). lia.
Qed.
Lemma njson_dset reg k e l : dget reg k = Some (DJson e) -> njson (dset reg k (DInst l)) < njson reg.
Proof.
  unfold njson. induction reg as [|[k' e'] reg IH]; intros H; [discriminate|]. simpl in H |- *.
  destruct (String.eqb k k') eqn:E.
  - injection H as ->. simpl. lia.
  - specialize (IH H). simpl. destruct e'; simpl; lia.
Qed.
Lemma in_count v l : In v l <-> 1 <= count v l.
Proof. unfold count. rewrite (count_occ_In String.string_dec). lia. Qed.

Section Succ.
  Variable fresh : nat -> string.

  Definition dinv (n : nat) (s : dstate) : Prop :=
    no_default fresh s /\ (forall k, In k (pending (ds_reg s)) -> good_key s k) /\ njson (ds_reg s) < n.
  Definition dpost (s s' : dstate) (xs : list string) : Prop :=
    dext s s' /\ (forall v, In v (pending (ds_reg s')) -> In v (pending (ds_reg s))) /\
    njson (ds_reg s') <= njson (ds_reg s) /\
    (forall v, dget (ds_reg s) v <> None ->
       count v (pending (ds_reg s')) + (budget s v - budget s' v) <= count v xs + count v (pending (ds_reg s))).
  Definition succ (n : nat) {A} (m : DM A) (xs : list string) : Prop :=
    forall s, dinv n s -> (forall k, In k xs -> good_key s k) ->
      (forall v, dget (ds_reg s) v <> None -> count v xs + count v (pending (ds_reg s)) <= budget s v) ->
      exists a s', m s = (Ok a, s') /\ dpost s s' xs.

  Lemma good_key_ext s s' k : dext s s' -> good_key s k -> good_key s' k.
  Proof.
    intros X [(j & H)|(m & H)].
    - apply (de_json _ _ X) in H as [H|(j' & m & x & _ & H & _)]; [left|right]; eauto.
    - right. exists m. now apply (de_inst _ _ X).
  Qed.
  Lemma dinv_post n s s' xs : dinv n s -> dpost s s' xs -> dinv n s'.
  Proof.
    intros (I1 & I2 & I3) (P1 & P2 & P3 & _). split; [eapply no_default_ext; eauto|]. split; [|lia].
    intros k Hk. eapply good_key_ext; eauto.
  Qed.
  Lemma budget_mono s s' v : dext s s' -> dget (ds_reg s) v <> None -> budget s' v <= budget s v.
  Proof.
    intros X Hv. unfold budget. destruct (dget (ds_inst s) v) as [m|] eqn:E; [|destruct (dget (ds_inst s') v); lia].
    rewrite (de_reg _ _ X v m Hv E). lia.
  Qed.

  Lemma succ_ret n {A} (a : A) : succ n (dret a) [].
  Proof.
    intros s _ _ _. exists a, s. split; [reflexivity|]. repeat split; auto; try apply dext_refl. intros v _. simpl. lia.
  Qed.
  Lemma succ_bind n {A B} (m : DM A) (g : A -> DM B) xs ys : succ n m xs -> (forall a, succ n (g a) ys) ->
    succ n (dbind m g) (xs ++ ys).
  Proof.
    intros Hm Hg s Hi Hk Hb.
    destruct (Hm s Hi) as (a & s1 & E1 & P1); [intros k H; apply Hk, in_or_app; auto| |].
    { intros v Hv. specialize (Hb v Hv). rewrite count_app in Hb. lia. }
    pose proof P1 as (X1 & S1 & N1 & C1).
    destruct (Hg a s1) as (b & s2 & E2 & P2).
    - eapply dinv_post; eauto.
    - intros k H. apply (good_key_ext s); [exact X1|]. apply Hk, in_or_app; auto.
    - intros v Hv. assert (Hv0 : dget (ds_reg s) v <> None) by (intros Hc; apply (de_none _ _ X1) in Hc; contradiction).
      specialize (Hb v Hv0). specialize (C1 v Hv0). rewrite count_app in Hb. pose proof (budget_mono s s1 v X1 Hv0). lia.
    - exists b, s2. unfold dbind. rewrite E1. split; [exact E2|]. destruct P2 as (X2 & S2 & N2 & C2).
      split; [eapply dext_trans; eauto|]. split; [auto|]. split; [lia|]. intros v Hv.
      assert (Hv1 : dget (ds_reg s1) v <> None) by (intros Hc; apply (de_none _ _ X1) in Hc; contradiction).
      specialize (C1 v Hv). specialize (C2 v Hv1). rewrite count_app.
      pose proof (budget_mono s s1 v X1 Hv). pose proof (budget_mono s1 s2 v X2 Hv1). lia.
  Qed.
  Lemma succ_ext n {A} (m m' : DM A) xs : (forall s, m s = m' s) -> succ n m xs -> succ n m' xs.
  Proof. intros He Hm s Hi Hk Hb. destruct (Hm s Hi Hk Hb) as (a & s' & E & P). exists a, s'. now rewrite <- He. Qed.

  Lemma succ_val n f : (forall k, succ n (f k) [k]) -> forall j, succ n (deser_val f j) (jrefs j).
  Proof.
    intros Hf. induction j as [d|k|js IH] using jval_rect'.
    - apply succ_ret.
    - change (jrefs (JKey k)) with ([k] ++ @nil string). apply succ_bind; [apply Hf|intros; apply succ_ret].
    - apply succ_ext with (m := dbind (deser_list f js) (fun ys => dret (UList ys))).
      { intros s. now rewrite deser_val_list. }
      rewrite <- (app_nil_r (jrefs (JList js))). apply succ_bind; [|intros; apply succ_ret]. simpl.
      induction IH as [|j js Hj Hjs IHjs]; [apply succ_ret|]. simpl. apply succ_bind; [exact Hj|]. intros y.
      rewrite <- (app_nil_r (flat_map jrefs js)). apply succ_bind; [exact IHjs|intros; apply succ_ret].
  Qed.
  Lemma succ_fields n f : (forall k, succ n (f k) [k]) -> forall fs,
    succ n (deser_fields f fs) (flat_map (fun g => jrefs (snd g)) fs).
  Proof.
    intros Hf. induction fs as [|[m j] fs IH]; [apply succ_ret|]. simpl. apply succ_bind; [now apply succ_val|]. intros y.
    rewrite <- (app_nil_r (flat_map _ fs)). apply succ_bind; [exact IH|intros; apply succ_ret].
  Qed.

  Lemma deser_succ n : forall k s, dinv n s -> good_key s k -> dget (ds_inst s) k = None ->
    (forall v, dget (ds_reg s) v <> None -> count v (pending (ds_reg s)) <= budget s v) ->
    exists m s', deser_inst fresh n k s = (Ok m, s') /\ dpost s s' [k].
  Proof.
    induction n as [|n IH]; intros k s (In1 & In2 & In3) Hk Hik Hb; [lia|].
    assert (Hsucc : forall k, succ n (deser_inst fresh n k) [k]).
    { intros k' t Ht Hk' Hb'. apply (IH k' t Ht).
      - apply Hk'. now left.
      - assert (Hn : dget (ds_reg t) k' <> None).
        { destruct (Hk' k' (or_introl eq_refl)) as [(j & E)|(m & E)]; unfold at_key in *; congruence. }
        specialize (Hb' k' Hn). unfold count in Hb'. simpl in Hb'. destruct (String.string_dec k' k'); [|congruence].
        unfold budget in Hb'. destruct (dget (ds_inst t) k'); [lia|reflexivity].
      - intros v Hv. specialize (Hb' v Hv). lia. }
    assert (Hkn : dget (ds_reg s) k <> None) by (destruct Hk as [(j & E)|(m & E)]; unfold at_key in *; congruence).
    destruct Hk as [(j & Er)|(m & Er)].
    - (* a dictionary *)
      set (l := length (ds_heap s)).
      set (s1 := DS (ds_heap s ++ [UN (fresh (ds_next s)) (jn_cls j) []]) (dset (ds_inst s) (fresh (ds_next s)) l)
                    (dset (ds_reg s) k (DInst l)) (S (ds_next s))).
      assert (Hnone : forall k', dget (ds_reg s) k' = None <-> dget (ds_reg s1) k' = None).
      { intros k'. simpl. destruct (String.string_dec k k') as [<-|Hne].
        - rewrite Er, dget_dset_same. split; discriminate.
        - now rewrite dget_dset_other. }
      assert (Hp : forall v, count v (pending (ds_reg s)) = count v (jnode_refs j) + count v (pending (ds_reg s1)))
        by (intros v; apply pending_dset; exact Er).
      assert (Hgk : forall v, good_key s v -> good_key s1 v).
      { intros v [(j' & E)|(m & E)]; unfold good_key, at_key in *; simpl; destruct (String.string_dec k v) as [<-|Hne].
        - right. exists l. apply dget_dset_same.
        - left. exists j'. now rewrite dget_dset_other.
        - congruence.
        - right. exists m. now rewrite dget_dset_other. }
      assert (Hbud : forall v, dget (ds_reg s) v <> None -> budget s1 v = budget s v).
      { intros v Hv. unfold budget. simpl. rewrite dget_dset_other; [reflexivity|]. apply In1; [lia|exact Hv]. }
      assert (Hi1 : dinv n s1).
      { split; [|split].
        - intros i k' Hle Hk'. apply In1; [simpl in Hle; lia|]. now rewrite Hnone.
        - intros k' Hk'. apply Hgk, In2. apply in_count. rewrite Hp. apply in_count in Hk'. lia.
        - simpl. pose proof (njson_dset _ _ _ l Er). lia. }
      destruct (succ_fields n _ Hsucc (jn_fields j) s1 Hi1) as (fs & s2 & Ef & (X2 & S2 & N2 & C2)).
      { intros k' Hk'. apply Hgk, In2. apply in_count. rewrite Hp. apply in_count in Hk'. fold (jnode_refs j) in Hk'. lia. }
      { intros v Hv. fold (jnode_refs j). rewrite <- Hp. assert (Hv' : dget (ds_reg s) v <> None) by now rewrite Hnone.
        rewrite (Hbud v Hv'). now apply Hb. }
      fold (jnode_refs j) in C2.
      assert (Hl : dget (ds_reg s2) k = Some (DInst l)).
      { apply (de_inst _ _ X2). unfold at_key, s1. simpl. apply dget_dset_same. }
      assert (Hrun : deser_inst fresh (S n) k s =
        (Ok l, DS (replace_nth l (UN (jn_uid j) (jn_cls j) fs) (ds_heap s2)) (dset (ds_inst s2) k l) (ds_reg s2) (ds_next s2))).
      { simpl. rewrite Hik, Er. unfold dbind at 1 2 3. unfold new_node. fold l. fold s1. rewrite Ef. simpl. now rewrite Hl. }
      eexists _, _. split; [exact Hrun|]. split; [exact (proj1 (deser_inst_ok fresh _ _ _ _ _ In1 Hrun))|]. cbn [ds_reg ds_inst ds_heap]. split; [|split].
      + intros v Hv. apply S2 in Hv. apply in_count. rewrite Hp. apply in_count in Hv. lia.
      + pose proof (njson_dset _ _ _ l Er). simpl in N2. lia.
      + intros v Hv. assert (Hv1 : dget (ds_reg s1) v <> None) by now rewrite <- Hnone.
        specialize (C2 v Hv1). rewrite (Hbud v Hv) in C2. rewrite Hp.
        destruct (String.string_dec k v) as [<-|Hne].
        * rewrite count_one. unfold budget at 1. rewrite Hik. lia.
        * rewrite (count_other _ _ Hne). unfold budget at 2. cbn [ds_inst]. rewrite dget_dset_other by exact Hne.
          unfold budget in C2 at 2. lia.
    - (* a new instance *)
      unfold at_key in Er.
      assert (Hrun : deser_inst fresh (S n) k s = (Ok m, DS (ds_heap s) (dset (ds_inst s) k m) (ds_reg s) (ds_next s))).
      { simpl. rewrite Hik, Er. simpl. now rewrite Er. }
      eexists _, _. split; [exact Hrun|]. split; [exact (proj1 (deser_inst_ok fresh _ _ _ _ _ In1 Hrun))|]. cbn [ds_reg ds_inst ds_heap].
      split; [auto|]. split; [lia|]. intros v Hv.
      destruct (String.string_dec k v) as [<-|Hne].
      + rewrite count_one. unfold budget at 1. rewrite Hik. lia.
      + rewrite (count_other _ _ Hne). unfold budget. cbn [ds_inst]. rewrite dget_dset_other by exact Hne. lia.
  Qed.
End Succ.

Lemma vjson_refs uid v : jrefs (vjson uid v) = map uid (vrefs v).
Proof.
  induction v as [d|l|xs IH] using uval_rect'; try reflexivity. simpl.
  induction IH as [|x xs Hx Hxs IHx]; [reflexivity|]. simpl. rewrite Hx, IHx. symmetry. apply map_app.
Qed.
Lemma node_json_refs uid x : jnode_refs (node_json uid x) = map uid (node_refs x).
Proof.
  unfold jnode_refs, node_refs, node_json. simpl. induction (un_fields x) as [|g fs IH]; [reflexivity|]. simpl.
  rewrite IH, vjson_refs. symmetry. apply map_app.
Qed.

(** the entries of the dictionary and the references in them *)
Lemma pending_list h l (d0 : dict jentry) :
  (forall a b, reach h l a -> reach h l b -> uid_at h a = uid_at h b -> a = b) ->
  (forall k e, In (k, e) d0 -> (exists u, e = JRoot u) \/
     exists m x, reach h l m /\ nth_error h m = Some x /\ k = un_uid x /\ e = JNode (node_json (uid_at h) x)) ->
  NoDup (dkeys d0) ->
  exists ls, NoDup ls /\ Forall (reach h l) ls /\ (forall m, In m ls -> In (uid_at h m) (dkeys d0)) /\
    pending (map (fun kv => (fst kv, DJson (snd kv))) d0) = map (uid_at h) (flat_map (refs_at h) ls).
Proof.
  intros Hinj. induction d0 as [|[k e] d0 IH]; intros He Hnd.
  - exists []. repeat split; try constructor. intros m [].
  - inversion Hnd as [|? ? Hk Hnd']; subst. destruct IH as (ls & L1 & L2 & L3 & L4); [intros; apply He; now right|exact Hnd'|].
    destruct (He k e (or_introl eq_refl)) as [(u & ->)|(m & x & Hm & Ex & -> & ->)].
    + exists ls. repeat split; auto. intros m Hm. right. now apply L3.
    + assert (Hu : un_uid x = uid_at h m) by (unfold uid_at; now rewrite Ex).
      exists (m :: ls). repeat split.
      * constructor; [|exact L1]. intros Hc. apply L3 in Hc. rewrite <- Hu in Hc. contradiction.
      * now constructor.
      * intros m' [<-|Hm']; [left; now rewrite <- Hu|right; now apply L3].
      * change (pending (map (fun kv => (fst kv, DJson (snd kv))) ((un_uid x, JNode (node_json (uid_at h) x)) :: d0)))
          with (jnode_refs (node_json (uid_at h) x) ++ pending (map (fun kv => (fst kv, DJson (snd kv))) d0)).
        rewrite L4, node_json_refs. simpl. rewrite map_app. f_equal. unfold refs_at. now rewrite Ex.
Qed.

Lemma deserialize_succeeds : forall fresh h l n d h2 inst next n2,
  graph h l -> distinct_uids h l -> uid_serialize h n l = Ok d ->
  (forall i, next <= i -> dget d (fresh i) = None) ->
  (forall a, reach h l a -> dget inst (uid_at h a) = None) ->
  (forall ls, NoDup ls -> Forall (reach h l) ls -> NoDup (flat_map (refs_at h) ls)) ->
  length d < n2 ->
  exists l2 s2, uid_deserialize fresh n2 d h2 inst next = (Ok l2, s2).
Proof.
  intros fresh h l n d h2 inst next n2 Hg Hd Hs Hfr Hin Hone Hn2.
  destruct (serialize_entries h l n d Hg Hd Hs) as [Hnd He]. unfold uid_deserialize.
  rewrite (proj2 (He root_key (JRoot (uid_at h l)))) by (left; auto).
  set (s := DS h2 inst (map (fun kv => (fst kv, DJson (snd kv))) d) next).
  assert (Hget : forall k, dget (ds_reg s) k = option_map DJson (dget d k)) by (intros k; apply dget_map).
  assert (Hgood : forall a, reach h l a -> good_key s (uid_at h a)).
  { intros a Ha. destruct (dom_node h l Hg a Ha) as (x & Ex & Hu & _). left. exists (node_json (uid_at h) x).
    rewrite Hget. rewrite (proj2 (He (uid_at h a) (JNode (node_json (uid_at h) x)))); [reflexivity|]. right. exists a, x. auto. }
  destruct (pending_list h l d (proj1 Hd)) as (ls & L1 & L2 & L3 & L4).
  { intros k e Hke. apply dget_nodup_in in Hke; [|exact Hnd]. apply He in Hke as [[-> ->]|Hx]; [left; eauto|right; exact Hx]. }
  { exact Hnd. }
  change (pending (map (fun kv => (fst kv, DJson (snd kv))) d)) with (pending (ds_reg s)) in L4.
  assert (Hrefs : forall m, In m (flat_map (refs_at h) ls) -> reach h l m).
  { intros m Hm. apply in_flat_map in Hm as (a & Ha & Hm). rewrite Forall_forall in L2. apply reach_step with a; auto. }
  destruct (deser_succ fresh n2 (uid_at h l) s) as (m & s' & E & _); [| | | |eauto].
  - split; [|split].
    + intros i k Hi Hk <-. apply Hk. rewrite Hget, Hfr; auto.
    + intros k Hk. rewrite L4 in Hk. apply in_map_iff in Hk as (a & <- & Ha). apply Hgood, Hrefs, Ha.
    + assert (Hle : njson (ds_reg s) <= length d); [|lia]. unfold njson.
      rewrite <- (map_length (fun kv => (fst kv, DJson (snd kv))) d). simpl.
      clear. generalize (map (fun kv : string * jentry => (fst kv, DJson (snd kv))) d). intros r.
      induction r as [|[k [e|m]] r IH]; simpl; lia.
  - apply Hgood. constructor.
  - simpl. apply Hin. constructor.
  - intros v Hv. unfold budget. destruct (in_dec String.string_dec v (pending (ds_reg s))) as [Hi|Hi].
    + assert (Hc : count v (pending (ds_reg s)) <= 1).
      { unfold count. apply NoDup_count_occ. rewrite L4. specialize (Hone ls L1 L2).
        clear -Hone Hrefs Hd. induction (flat_map (refs_at h) ls) as [|a r IH]; [constructor|].
        inversion Hone as [|? ? Ha Hr]; subst. simpl. constructor.
        - intros Hc. apply in_map_iff in Hc as (b & Hab & Hb). apply (proj1 Hd) in Hab; [subst; contradiction| |];
            apply Hrefs; [now right|now left].
        - apply IH; [exact Hr|]. intros m Hm. apply Hrefs. now right. }
      rewrite L4 in Hi. apply in_map_iff in Hi as (a & <- & Ha). simpl. rewrite (Hin a (Hrefs a Ha)). exact Hc.
    + unfold count. rewrite (proj1 (count_occ_not_In String.string_dec _ _) Hi). lia.
Qed.

(** * What is rejected *)
Lemma deserialize_root fresh n d h inst next r s2 :
  uid_deserialize fresh (S n) d h inst next = (r, s2) ->
  ((forall u, dget d "__root__" <> Some (JRoot u)) -> r = Exc ExValue /\ ds_heap s2 = h /\ ds_inst s2 = inst) /\
  (forall u, dget d "__root__" = Some (JRoot u) ->
     (forall l, dget inst u = Some l -> dget d u = None -> r = Ok l /\ ds_heap s2 = h /\ ds_inst s2 = inst) /\
     ((dget inst u <> None /\ dget d u <> None) \/ (dget inst u = None /\ dget d u = None) ->
        r = Exc ExValue /\ ds_heap s2 = h /\ ds_inst s2 = inst) /\
     (dget inst u = None -> (forall j, dget d u <> Some (JNode j)) -> r = Exc ExValue)).
Proof.
  unfold uid_deserialize, uid_deserialize_at, root_key. intros H.
  assert (M : forall u, dget (map (fun kv => (fst kv, DJson (snd kv))) d) u = option_map DJson (dget d u)).
  { intros u. clear H. induction d as [|[k e] d IH]; simpl; auto. destruct (String.eqb u k); auto. }
  split.
  - intros Hn. destruct (dget d "__root__") as [[u| |j]|] eqn:E; [destruct (Hn u eq_refl)| | |]; injection H as <- <-; auto.
  - intros u E. rewrite E in H. cbn [deser_inst ds_inst ds_reg] in H. rewrite M in H. split; [|split].
    + intros l Hl Hd. rewrite Hl, Hd in H. injection H as <- <-. auto.
    + intros Hor. destruct (dget inst u) as [l|] eqn:Ei, (dget d u) as [e|] eqn:Ed; simpl in H.
      * injection H as <- <-. auto.
      * destruct Hor as [[_ C]|[C _]]; congruence.
      * destruct Hor as [[C _]|[_ C]]; congruence.
      * injection H as <- <-. auto.
    + intros Hi Hj. rewrite Hi in H. destruct (dget d u) as [[u'| |j]|]; simpl in H.
      * injection H as <- _. reflexivity.
      * injection H as <- _. reflexivity.
      * destruct (Hj j eq_refl).
      * injection H as <- _. reflexivity.
Qed.
