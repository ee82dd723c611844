(** Proofs about observable containers. *)
From Verif Require Import PyBase Observable ObservableSpec.
Local Open Scope list_scope.
Local Open Scope nat_scope.

Lemma oreplace_length {A} n (a : A) l : length (oreplace n a l) = length l.
Proof. revert n. induction l as [|x r IH]; intros [|n]; simpl; auto. Qed.
Lemma oreplace_same {A} n (a : A) l : n < length l -> nth_error (oreplace n a l) n = Some a.
Proof. revert n. induction l as [|x r IH]; intros [|n] H; simpl in *; [lia|lia|auto|apply IH; lia]. Qed.
Lemma oreplace_other {A} n m (a : A) l : n <> m -> nth_error (oreplace n a l) m = nth_error l m.
Proof. revert n m. induction l as [|x r IH]; intros [|n] [|m] H; simpl; auto; lia. Qed.

Section Inv.
  Variable V : oenv.
  Variable ro : Prop.
  Hypothesis HV : plain_env V.
  Hypothesis Hro : ro -> reading_validators V.

  Definition cont_ok (k : nat) (o : ocont) : Prop :=
    oc_owner o = Some k /\ (ro -> exists xs, oe_valid V k xs = Ok (oc_items o)).
  Definition oinv (s : ostate) : Prop :=
    forall k c, os_back s k = Some c -> exists o, nth_error (os_conts s) c = Some o /\ cont_ok k o.

  (** [b]: containers from there on are new *)
  Record orelb (b : nat) (s s' : ostate) : Prop := Orel {
    or_len : length (os_conts s) <= length (os_conts s');
    or_back : forall k j, os_back s' k = Some j -> os_back s k = Some j \/ b <= j;
    or_free : forall c o, c < b -> nth_error (os_conts s) c = Some o -> stale s c ->
      exists o', nth_error (os_conts s') c = Some o' /\ oc_owner o' = oc_owner o;
    or_new : exists new, os_trace s' = new ++ os_trace s /\
      (forall k v, In (OWrite k v) new -> In (ONotify k PhValidate v) new) /\
      forall k, (forall v, ~ In (OWrite k v) new) ->
        os_back s' k = os_back s k /\
        forall c, os_back s k = Some c -> nth_error (os_conts s') c = nth_error (os_conts s) c }.
  Definition orel (s s' : ostate) : Prop := orelb (length (os_conts s)) s s'.

  Lemma orel_refl b s : orelb b s s.
  Proof.
    split; auto.
    - intros c o _ H _. eauto.
    - exists []. split; [reflexivity|]. split; [intros k v []|]. auto.
  Qed.
  Lemma orel_weak b b' s s' : b <= b' -> orelb b' s s' -> orelb b s s'.
  Proof.
    intros Hb [L B F N]. split; auto.
    - intros k j H. apply B in H as [H|H]; [auto|right; lia].
    - intros c o Hc. apply F. lia.
  Qed.
  Lemma orel_trans b x y z : orelb b x y -> orelb b y z -> orelb b x z.
  Proof.
    intros [L1 B1 F1 (n1 & T1 & W1 & K1)] [L2 B2 F2 (n2 & T2 & W2 & K2)]. split.
    - lia.
    - intros k j H. apply B2 in H as [H|H]; auto.
    - intros c o Hc H Hs. destruct (F1 c o Hc H Hs) as (o1 & H1 & E1).
      assert (Hs1 : stale y c) by (intros k Hk; apply B1 in Hk as [Hk|Hk]; [now apply (Hs k)|lia]).
      destruct (F2 c o1 Hc H1 Hs1) as (o2 & H2 & E2). exists o2. split; congruence.
    - exists (n2 ++ n1). split; [now rewrite T2, T1, app_assoc|]. split.
      + intros k v [H|H]%in_app_iff; apply in_app_iff; [left; auto|right; auto].
      + intros k Hk. destruct (K1 k) as [E1 C1]; [intros v Hv; apply (Hk v), in_app_iff; auto|].
        destruct (K2 k) as [E2 C2]; [intros v Hv; apply (Hk v), in_app_iff; auto|].
        split; [congruence|]. intros c Hc. rewrite C2 by congruence. now apply C1.
  Qed.
  Lemma orel_chain b x y z : b <= length (os_conts x) -> orelb b x y -> orel y z -> orelb b x z.
  Proof.
    intros Hb H1 H2. eapply orel_trans; [exact H1|]. eapply orel_weak; [|exact H2]. pose proof (or_len _ _ _ H1). lia.
  Qed.

  Definition ogood {A} (m : OM A) : Prop := forall s, oinv s -> oinv (snd (m s)) /\ orel s (snd (m s)).

  Lemma good_ret {A} (a : A) : ogood (oret a).
  Proof. intros s H. split; [exact H|apply orel_refl]. Qed.
  Lemma good_throw {A} e : ogood (@othrow A e).
  Proof. intros s H. split; [exact H|apply orel_refl]. Qed.
  Lemma good_lift {A} (r : res A) : ogood (olift r).
  Proof. destruct r; [apply good_ret|apply good_throw]. Qed.
  Lemma good_bind {A B} (m : OM A) (k : A -> OM B) : ogood m -> (forall a, ogood (k a)) -> ogood (obind m k).
  Proof.
    intros Hm Hk s Hs. destruct (Hm s Hs) as [I1 R1]. unfold obind. destruct (m s) as [[a|e] s1]; simpl in *; [|auto].
    destruct (Hk a s1 I1) as [I2 R2]. split; [exact I2|]. eapply orel_chain; eauto.
  Qed.
  Lemma good_the c : ogood (the_cont c).
  Proof. intros s H. unfold the_cont. destruct (nth_error _ c); split; auto; apply orel_refl. Qed.
  Lemma good_emit e : (forall k v, e <> OWrite k v) -> ogood (emit e).
  Proof.
    intros He s H. split; [exact H|]. simpl. split; simpl; auto.
    - intros c o _ Hc _. eauto.
    - exists [e]. split; [reflexivity|]. split; [|auto].
      intros k v [->|[]]. now destruct (He k v).
  Qed.
  Lemma good_new o : ogood (new_cont o).
  Proof.
    intros s H. simpl. split.
    - intros k c Hc. destruct (H k c Hc) as (x & Hx & Hok). exists x. split; [|exact Hok]. simpl.
      rewrite nth_error_app1; [exact Hx|]. apply nth_error_Some. congruence.
    - assert (Hnth : forall c x, nth_error (os_conts s) c = Some x -> nth_error (os_conts s ++ [o]) c = Some x).
      { intros c x Hx. rewrite nth_error_app1; [exact Hx|]. apply nth_error_Some. congruence. }
      split; simpl.
      + rewrite app_length. lia.
      + auto.
      + intros c x _ Hx _. exists x. split; [now apply Hnth|reflexivity].
      + exists []. split; [reflexivity|]. split; [intros k v []|]. intros k _. split; [reflexivity|].
        intros c Hc. destruct (H k c Hc) as (x & Hx & _). rewrite Hx. now apply Hnth.
  Qed.

  Section Rec.
    Variable rec : oop -> OM oresult.
    Hypothesis Hrec : forall o, plain_op o -> ogood (rec o).
    Hypothesis Hread : forall k s, snd (rec (ORead k) s) = s.

    Lemma good_run p : plain p -> ogood (orun rec p).
    Proof.
      induction 1 as [|e|o k Ho Hk IH]; simpl; [apply good_ret|apply good_throw|].
      intros s Hs. destruct (Hrec o Ho s Hs) as [I1 R1]. destruct (rec o s) as [r s1]. simpl in *.
      destruct (IH r s1 I1) as [I2 R2]. split; [exact I2|]. eapply orel_chain; eauto.
    Qed.
    Lemma run_reading p : reading p -> forall s, snd (orun rec p s) = s.
    Proof.
      induction 1 as [|e|k f Hf IH]; intros s; [reflexivity|reflexivity|]. simpl.
      pose proof (Hread k s) as H. destruct (rec (ORead k) s) as [r s1]. simpl in H. subst s1. apply IH.
    Qed.
    Lemma good_notify k ph v : ogood (notify V rec k ph v).
    Proof.
      apply good_bind; [apply good_emit; discriminate|]. intros _. apply good_run, (proj1 HV).
    Qed.
    Lemma notify_trace k ph v s : oinv s -> exists new, os_trace (snd (notify V rec k ph v s)) = new ++ os_trace s /\ In (ONotify k ph v) new.
    Proof.
      intros Hs. unfold notify, obind. simpl.
      destruct (good_run _ (proj1 HV k ph v) (OS (os_conts s) (os_back s) (ONotify k ph v :: os_trace s)) Hs) as [_ R].
      destruct (or_new _ _ _ R) as (new & T & _). exists (new ++ [ONotify k ph v]). rewrite T, <- app_assoc.
      split; [reflexivity|]. apply in_app_iff. right. now left.
    Qed.

    (** what a [_set] does: the value, if a container, is new, not stored,
        attached to [k] and valid *)
    Lemma good_set b k v s : oinv s -> b <= length (os_conts s) ->
      (forall c, v = Some c -> b <= c /\ stale s c /\ exists o, nth_error (os_conts s) c = Some o /\ cont_ok k o) ->
      oinv (snd (oset V rec k v s)) /\ orelb b s (snd (oset V rec k v s)) /\
      (fst (oset V rec k v s) = Ok tt -> forall j, os_back (snd (oset V rec k v s)) k = Some j -> b <= j).
    Proof.
      intros Hs Hb Hv. unfold oset. rewrite (proj2 HV). cbv zeta. generalize (os_back s k) as prev. intros prev.
      destruct (good_notify k PhValidate v s Hs) as [I1 R1].
      destruct (notify_trace k PhValidate v s Hs) as (ev & Tev & Hev).
      assert (Hv1 : forall c, v = Some c -> b <= c /\ stale (snd (notify V rec k PhValidate v s)) c /\
                exists o, nth_error (os_conts (snd (notify V rec k PhValidate v s))) c = Some o /\ cont_ok k o).
      { intros c Hc. destruct (Hv c Hc) as (Hbc & Hst & o & Ho & Hok1 & Hok2). split; [exact Hbc|].
        assert (Hlt : c < length (os_conts s)) by (apply nth_error_Some; congruence). split.
        - intros k' Hk'. apply (or_back _ _ _ R1) in Hk' as [Hk'|Hk']; [now apply (Hst k')|lia].
        - destruct (or_free _ _ _ R1 c o Hlt Ho Hst) as (o' & Ho' & Eo). exists o'. split; [exact Ho'|]. split; [congruence|].
          intros r. assert (Hsame : os_conts (snd (notify V rec k PhValidate v s)) = os_conts s).
          { unfold notify, obind. simpl. rewrite run_reading by apply (Hro r). reflexivity. }
          rewrite Hsame, Ho in Ho'. injection Ho' as <-. auto. }
      assert (R1b : orelb b s (snd (notify V rec k PhValidate v s))) by (eapply orel_weak; [exact Hb|exact R1]).
      clear R1 Hv. unfold obind at 1 4 7 10. destruct (notify V rec k PhValidate v s) as [[[]|e] s1]; simpl in *;
        [|split; [exact I1|split; [exact R1b|discriminate]]].
      unfold obind at 1 3 5 7. cbn [write fst snd]. set (s2 := OS _ _ _).
      assert (I2 : oinv s2).
      { intros k' c Hc. simpl in Hc. destruct (Nat.eqb_spec k' k) as [->|Hne].
        - destruct (Hv1 c Hc) as (_ & _ & o & Ho & Hok). eauto.
        - exact (I1 k' c Hc). }
      assert (R2 : orelb b s s2).
      { destruct R1b as [L1 B1 F1 (new & T1 & W1 & K1)]. split; simpl; auto.
        - intros k' j Hj. destruct (Nat.eqb_spec k' k) as [->|Hne]; [right; now apply Hv1|now apply B1].
        - exists (OWrite k v :: new). split; [rewrite T1; reflexivity|]. split.
          + intros k' v' [E|H].
            * injection E as <- <-. right. rewrite T1 in Tev. apply app_inv_tail in Tev. now subst.
            * right. auto.
          + intros k' Hk'. destruct (Nat.eqb_spec k' k) as [->|Hne].
            * exfalso. apply (Hk' v). now left.
            * apply K1. intros v' Hv'. apply (Hk' v'). now right. }
      (* the rest *)
      match goal with |- context [obind ?m ?f s2] => set (tail := obind m f) end.
      assert (Ht : ogood tail).
      { apply good_bind; [|intros _; apply good_notify].
        destruct prev, v; try apply good_notify; [|apply good_ret]. destruct (oe_equal _ _ _ _); [apply good_ret|apply good_notify]. }
      destruct (Ht s2 I2) as [I3 R3]. split; [exact I3|]. split.
      - eapply orel_chain; [exact Hb|exact R2|exact R3].
      - intros _ j Hj. apply (or_back _ _ _ R3) in Hj as [Hj|Hj].
        + simpl in Hj. rewrite Nat.eqb_refl in Hj. now apply Hv1.
        + pose proof (or_len _ _ _ R2). lia.
    Qed.

    Lemma good_assign k items s : oinv s ->
      oinv (snd (oassign V rec k items s)) /\ orel s (snd (oassign V rec k items s)) /\
      (fst (oassign V rec k items s) = Ok tt -> forall j, os_back (snd (oassign V rec k items s)) k = Some j -> length (os_conts s) <= j).
    Proof.
      intros Hs. unfold oassign. destruct (oe_valid V k items) as [ys|e] eqn:Ev; simpl olift.
      - change (obind (oret ys) ?f s) with (f ys s). cbv beta. set (o := OC ys (Some k)).
        destruct (good_new o s Hs) as [I1 R1]. unfold obind. unfold new_cont in *. cbn [fst snd] in *.
        set (s1 := OS (os_conts s ++ [o]) (os_back s) (os_trace s)) in *.
        destruct (good_set (length (os_conts s)) k (Some (length (os_conts s))) s1 I1) as (I2 & R2 & P2).
        + unfold s1. simpl. rewrite app_length. lia.
        + intros c Hc. injection Hc as <-. split; [lia|]. split.
          * intros k' Hk'. destruct (Hs k' _ Hk') as (x & Hx & _).
            assert (length (os_conts s) < length (os_conts s)) by (apply nth_error_Some; congruence). lia.
          * exists o. split; [|split; [reflexivity|intros _; exists items; exact Ev]]. simpl.
            rewrite nth_error_app2, Nat.sub_diag by lia. reflexivity.
        + split; [exact I2|]. split; [|exact P2]. eapply orel_trans; [exact R1|exact R2].
      - split; [exact Hs|]. split; [apply orel_refl|discriminate].
    Qed.

    Lemma good_mutate c m : ogood (omutate V rec false c m).
    Proof.
      intros s Hs. unfold omutate. destruct (nth_error (os_conts s) c) as [o|] eqn:Ec; [|split; [exact Hs|apply orel_refl]].
      unfold is_stored.
      assert (Hlt : c < length (os_conts s)) by (apply nth_error_Some; congruence).
      assert (Hput : stale s c -> forall o', oc_owner o' = oc_owner o -> oinv (put_cont c o' s) /\ orel s (put_cont c o' s)).
      { intros Hst o' Eo. split.
        - intros k c' Hc'. simpl in Hc'. destruct (Hs k c' Hc') as (x & Hx & Hok). exists x. split; [|exact Hok]. simpl.
          rewrite oreplace_other; [exact Hx|]. intros <-. now apply (Hst k).
        - split; simpl; auto.
          + now rewrite oreplace_length.
          + intros c' x _ Hx _. destruct (Nat.eq_dec c c') as [<-|Hne].
            * exists o'. rewrite oreplace_same by exact Hlt. split; [reflexivity|]. congruence.
            * exists x. now rewrite oreplace_other.
          + exists []. split; [reflexivity|]. split; [intros k v []|]. intros k _. split; [reflexivity|].
            intros c' Hc'. rewrite oreplace_other; [reflexivity|]. intros <-. now apply (Hst k). }
      assert (Hsilent : stale s c ->
        let r := match oe_mutate V m (oc_items o) with
                 | Exc e => (Exc e, s)
                 | Ok (x, ys) => (Ok (RItem x), put_cont c (OC ys (oc_owner o)) s)
                 end in oinv (snd r) /\ orel s (snd r)).
      { intros Hst. destruct (oe_mutate V m (oc_items o)) as [[x ys]|e]; simpl; [now apply Hput|split; [exact Hs|apply orel_refl]]. }
      assert (Hstale : (forall k, oc_owner o = Some k -> os_back s k <> Some c) -> stale s c).
      { intros H k Hk. destruct (Hs k c Hk) as (x & Hx & Hown & _). rewrite Ec in Hx. injection Hx as <-. now apply (H k). }
      destruct (oc_owner o) as [k|] eqn:Eo.
      2: { apply Hsilent, Hstale. discriminate. }
      destruct (os_back s k) as [c'|] eqn:Ek.
      2: { apply Hsilent, Hstale. intros k' E. injection E as <-. congruence. }
      destruct (Nat.eqb_spec c' c) as [->|Hne].
      2: { apply Hsilent, Hstale. intros k' E. injection E as <-. congruence. }
      clear Hput Hsilent Hstale.
      destruct (oe_mutate V m (oc_items o)) as [[x ys]|e]; [|split; [exact Hs|apply orel_refl]].
      simpl olift. change (obind (oret (x, ys)) ?f s) with (f (x, ys) s). cbv beta. simpl fst; simpl snd.
      destruct (good_new (OC ys None) s Hs) as [I1 R1]. unfold obind at 1 4. unfold new_cont in *. cbn [fst snd] in *.
      set (s1 := OS (os_conts s ++ [OC ys None]) (os_back s) (os_trace s)) in *.
      destruct (good_assign k ys s1 I1) as (I2 & R2 & P2). unfold obind at 1 3.
      destruct (oassign V rec k ys s1) as [[[]|e] s2]; cbn [fst snd] in *;
        [|split; [exact I2|eapply orel_chain; eauto]].
      assert (R12 : orel s s2) by (eapply orel_chain; eauto).
      unfold obind, detach. pose proof (or_len _ _ _ R12) as Hl2.
      destruct (nth_error (os_conts s2) c) as [o2|] eqn:Ec2; [|split; [exact I2|exact R12]]. cbn [fst snd oret].
      (* [c] is not stored any more *)
      assert (Hst : stale s2 c).
      { intros k' Hk'. destruct (Nat.eq_dec k' k) as [->|Hne].
        - apply (P2 eq_refl) in Hk'. unfold s1 in Hk'. simpl in Hk'. rewrite app_length in Hk'. lia.
        - apply (or_back _ _ _ R12) in Hk' as [Hk'|Hk']; [|lia].
          destruct (Hs k' c Hk') as (y & Hy & Hown & _). rewrite Ec in Hy. injection Hy as <-. congruence. }
      split.
      - intros k' c' Hc'. simpl in Hc'. destruct (I2 k' c' Hc') as (y & Hy & Hok). exists y. split; [|exact Hok]. simpl.
        rewrite oreplace_other; [exact Hy|]. intros <-. now apply (Hst k').
      - destruct R12 as [L B F (new & T & W & K)]. split; simpl.
        + now rewrite oreplace_length.
        + exact B.
        + intros c' y Hc' Hy Hs'. destruct (Nat.eq_dec c c') as [<-|Hne]; [now destruct (Hs' k)|].
          destruct (F c' y Hc' Hy Hs') as (y' & Hy' & E). exists y'. now rewrite oreplace_other.
        + exists new. split; [exact T|]. split; [exact W|]. intros k' Hk'. destruct (K k' Hk') as [E C]. split; [exact E|].
          intros c' Hc'. destruct (Nat.eq_dec c c') as [<-|Hne]; [|rewrite oreplace_other by exact Hne; now apply C].
          exfalso. apply (Hst k'). now rewrite E.
    Qed.

    Lemma good_step o : plain_op o -> ogood (ostep V rec o).
    Proof.
      destruct o as [k|k items|k c|k|c m|c m|k m]; intros Ho; try contradiction; simpl.
      - intros s Hs. split; [exact Hs|apply orel_refl].
      - apply good_bind; [|intros _; apply good_ret]. intros s Hs. destruct (good_assign k items s Hs) as (I1 & R1 & _). auto.
      - apply good_bind; [apply good_the|]. intros o. apply good_bind; [|intros _; apply good_ret].
        intros s Hs. destruct (good_assign k (oc_items o) s Hs) as (I1 & R1 & _). auto.
      - apply good_bind; [|intros _; apply good_ret]. intros s Hs.
        destruct (good_set (length (os_conts s)) k None s Hs (le_n _)) as (I1 & R1 & _); [discriminate|auto].
      - apply good_mutate.
    Qed.
  End Rec.

  Lemma good_exec n : forall o, plain_op o -> ogood (oexec V n o).
  Proof.
    induction n as [|n IH]; intros o Ho; [apply good_throw|]. apply good_step; [exact IH| |exact Ho].
    intros k s. destruct n; reflexivity.
  Qed.
  Lemma good_history n ops : forall s, Forall plain_op ops -> oinv s -> oinv (ohistory V n ops s).
  Proof.
    induction ops as [|o ops IH]; intros s Hp Hs; [exact Hs|]. inversion Hp as [|? ? Ho Hr]; subst. simpl.
    apply IH; [exact Hr|]. exact (proj1 (good_exec n o Ho s Hs)).
  Qed.
  Lemma oinv_start : oinv ostart.
  Proof. intros k c H. discriminate. Qed.
End Inv.

Lemma always_observed : forall V, plain_env V -> forall n ops, Forall plain_op ops ->
  forall k c, os_back (ohistory V n ops ostart) k = Some c -> observed (ohistory V n ops ostart) k c.
Proof.
  intros V HV n ops Hp k c Hc. split; [exact Hc|].
  destruct (good_history V False HV (fun F => match F with end) n ops ostart Hp (oinv_start V False) k c Hc) as (o & Ho & Hown & _).
  eauto.
Qed.
Lemma always_valid : forall V, plain_env V -> reading_validators V -> forall n ops, Forall plain_op ops ->
  forall k c, os_back (ohistory V n ops ostart) k = Some c ->
  exists xs ys, oe_valid V k xs = Ok ys /\ holds (ohistory V n ops ostart) c ys.
Proof.
  intros V HV Hr n ops Hp k c Hc.
  destruct (good_history V True HV (fun _ => Hr) n ops ostart Hp (oinv_start V True) k c Hc) as (o & Ho & _ & Hv).
  destruct (Hv I) as (xs & Hxs). exists xs, (oc_items o). split; [exact Hxs|]. exists o. auto.
Qed.

(** the invariant of the histories *)
Lemma observed_inv V s : all_observed s -> oinv V False s.
Proof.
  intros H k c Hc. destruct (H k c Hc) as (_ & o & Ho & Hown). exists o. split; [exact Ho|]. split; [exact Hown|intros []].
Qed.

Lemma no_silent_change : forall V, plain_env V -> forall n o s r s', plain_op o -> all_observed s ->
  oexec V n o s = (r, s') ->
  exists new, os_trace s' = new ++ os_trace s /\
    (forall k v, In (OWrite k v) new -> In (ONotify k PhValidate v) new) /\
    forall k, (forall v, ~ In (OWrite k v) new) -> os_back s' k = os_back s k /\
      forall c, os_back s k = Some c -> nth_error (os_conts s') c = nth_error (os_conts s) c.
Proof.
  intros V HV n o s r s' Ho Hs E.
  destruct (good_exec V False HV (fun F => match F with end) n o Ho s (observed_inv V s Hs)) as [_ R]. rewrite E in R.
  exact (or_new _ _ _ R).
Qed.

Lemma silent_run V rec k ph v s : silent_env V ->
  notify V rec k ph v s = (Ok tt, OS (os_conts s) (os_back s) (ONotify k ph v :: os_trace s)).
Proof. intros [H _]. unfold notify, obind. simpl. now rewrite H. Qed.

(** mutating a stored container with listeners that do nothing *)
Lemma stored_mutation : forall V, silent_env V -> forall n s k c m xs, observed s k c -> holds s c xs ->
  match oe_mutate V m xs with
  | Exc e => oexec V (S n) (OMut c m) s = (Exc e, s)
  | Ok (x, ys) =>
      match oe_valid V k ys with
      | Exc e => exists s', oexec V (S n) (OMut c m) s = (Exc e, s') /\
          os_back s' = os_back s /\ os_trace s' = os_trace s /\ nth_error (os_conts s') c = nth_error (os_conts s) c
      | Ok zs => exists s' c', oexec V (S n) (OMut c m) s = (Ok (RItem x), s') /\
          length (os_conts s) <= c' /\ observed s' k c' /\ holds s' c' zs /\
          (forall k', k' <> k -> os_back s' k' = os_back s k') /\ holds s' c xs /\
          os_trace s' = ONotify k PhSet (Some c') ::
            (if oe_equal V k xs zs then [] else [ONotify k PhChange (Some c')]) ++
            OWrite k (Some c') :: ONotify k PhValidate (Some c') :: os_trace s
      end
  end.
Proof.
  intros V HV n s k c m xs (Hb & o & Ho & Hown) (o0 & Ho0 & Hxs). rewrite Ho in Ho0. injection Ho0 as <-. subst xs.
  assert (Hlt : c < length (os_conts s)) by (apply nth_error_Some; congruence).
  simpl oexec. unfold omutate. rewrite Ho. unfold is_stored. rewrite Hown, Hb, Nat.eqb_refl.
  destruct (oe_mutate V m (oc_items o)) as [[x ys]|e]; [|reflexivity].
  simpl olift. change (obind (oret (x, ys)) ?f s) with (f (x, ys) s). cbv beta. simpl fst; simpl snd.
  unfold obind at 1. unfold new_cont. cbn [fst snd]. set (s1 := OS (os_conts s ++ [OC ys None]) (os_back s) (os_trace s)).
  unfold oassign. destruct (oe_valid V k ys) as [zs|e].
  - assert (Hlen : length (os_conts s1) = S (length (os_conts s))) by (unfold s1; simpl; rewrite app_length; simpl; lia).
    simpl olift. set (c' := length (os_conts s1)). set (o' := OC zs (Some k)).
    assert (Hrun : obind (oret zs) (fun ys0 => obind (new_cont (OC ys0 (Some k))) (fun c0 => oset V (oexec V n) k (Some c0))) s1 =
      (Ok tt, OS (os_conts s1 ++ [o']) (fun k' => if Nat.eqb k' k then Some c' else os_back s k')
        (ONotify k PhSet (Some c') ::
            (if oe_equal V k (oc_items o) zs then [] else [ONotify k PhChange (Some c')]) ++
            OWrite k (Some c') :: ONotify k PhValidate (Some c') :: os_trace s))).
    { unfold obind at 1 2. unfold new_cont. unfold oret at 1. fold c'. fold o'. unfold oset. cbn [os_back]. change (os_back s1) with (os_back s). change (os_trace s1) with (os_trace s). rewrite Hb.
      unfold obind at 1. rewrite silent_run by exact HV. rewrite (proj2 HV). cbn [os_conts os_back os_trace].
      unfold obind at 1. cbn [write os_conts os_back os_trace].
      assert (Hi1 : items_of (OS (os_conts s1 ++ [o']) (fun k' => if Nat.eqb k' k then Some c' else os_back s k')
               (OWrite k (Some c') :: ONotify k PhValidate (Some c') :: os_trace s)) c = oc_items o).
      { unfold items_of. simpl. rewrite <- app_assoc, nth_error_app1 by exact Hlt. now rewrite Ho. }
      assert (Hi2 : items_of (OS (os_conts s1 ++ [o']) (fun k' => if Nat.eqb k' k then Some c' else os_back s k')
               (OWrite k (Some c') :: ONotify k PhValidate (Some c') :: os_trace s)) c' = zs).
      { unfold items_of. cbn [os_conts]. rewrite nth_error_app2 by (unfold c'; lia). unfold c'. rewrite Nat.sub_diag. reflexivity. }
      unfold obind at 1. 
      rewrite Hi1, Hi2. destruct (oe_equal V k (oc_items o) zs).
      - cbn [oret]. rewrite silent_run by exact HV. reflexivity.
      - rewrite silent_run by exact HV. rewrite silent_run by exact HV. reflexivity. }
    unfold obind at 1. rewrite Hrun. unfold obind at 1. unfold detach. cbn [os_conts].
    assert (Hc1 : nth_error (os_conts s1 ++ [o']) c = Some o) by (unfold s1; simpl; rewrite <- app_assoc, nth_error_app1; auto).
    rewrite Hc1. cbn [oret]. eexists _, c'. split; [reflexivity|]. unfold put_cont. cbn [os_conts os_back os_trace].
    assert (Hne : c <> c') by (unfold c'; lia).
    assert (Hc' : nth_error (oreplace c (OC (oc_items o) None) (os_conts s1 ++ [o'])) c' = Some o').
    { rewrite oreplace_other by exact Hne. rewrite nth_error_app2 by (unfold c'; lia). unfold c'. now rewrite Nat.sub_diag. }
    split; [unfold c'; lia|]. split; [|split; [|split; [|split; [|reflexivity]]]].
    + split; cbn [os_back os_conts]; [now rewrite Nat.eqb_refl|]. exists o'. split; [exact Hc'|reflexivity].
    + exists o'. split; [exact Hc'|reflexivity].
    + intros k' Hk'. destruct (Nat.eqb_spec k' k); [contradiction|reflexivity].
    + exists (OC (oc_items o) None). split; [|reflexivity]. cbn [os_conts]. apply oreplace_same. rewrite app_length. lia.
  - eexists. split; [reflexivity|]. split; [reflexivity|]. split; [reflexivity|]. simpl. now rewrite nth_error_app1.
Qed.

(** a failing mutation, whatever the listeners do *)
Lemma failed_mutation : forall V, plain_env V -> forall n s k c m e s', all_observed s -> os_back s k = Some c ->
  oexec V n (OMut c m) s = (Exc e, s') ->
  exists new, os_trace s' = new ++ os_trace s /\
    ((forall v, ~ In (OWrite k v) new) -> os_back s' k = Some c /\ nth_error (os_conts s') c = nth_error (os_conts s) c).
Proof.
  intros V HV n s k c m e s' Hs Hb E.
  destruct (no_silent_change V HV n (OMut c m) s _ s' I Hs E) as (new & T & _ & K). exists new. split; [exact T|].
  intros Hk. destruct (K k Hk) as [E1 C1]. split; [congruence|]. now apply C1.
Qed.

(** containers that are not stored *)
Lemma stale_mutation : forall V n s c m xs, stale s c -> holds s c xs ->
  match oe_mutate V m xs with
  | Exc e => oexec V (S n) (OMut c m) s = (Exc e, s)
  | Ok (x, ys) => exists s', oexec V (S n) (OMut c m) s = (Ok (RItem x), s') /\
      os_back s' = os_back s /\ os_trace s' = os_trace s /\ holds s' c ys /\
      forall c', c' <> c -> nth_error (os_conts s') c' = nth_error (os_conts s) c'
  end.
Proof.
  intros V n s c m xs Hst (o & Ho & <-). simpl oexec. unfold omutate. rewrite Ho.
  assert (Hn : is_stored s c o = None).
  { unfold is_stored. destruct (oc_owner o) as [k|]; [|reflexivity]. destruct (os_back s k) as [c'|] eqn:E; [|reflexivity].
    destruct (Nat.eqb_spec c' c) as [->|]; [now destruct (Hst k)|reflexivity]. }
  rewrite Hn. destruct (oe_mutate V m (oc_items o)) as [[x ys]|e]; [|reflexivity].
  eexists. split; [reflexivity|]. simpl. split; [reflexivity|]. split; [reflexivity|]. split.
  - exists (OC ys (oc_owner o)). split; [|reflexivity]. apply oreplace_same. apply nth_error_Some. congruence.
  - intros c' Hne. apply oreplace_other. congruence.
Qed.
