(** Lemmas behind PropertiesUtils.v. *)
From Verif Require Import World WorldFrame AccessFacts Utils UtilsSpec.
From Coq Require Import Lia.
Local Open Scope string_scope.
Local Open Scope list_scope.
Local Open Scope nat_scope.

(** ** filter_props *)
Lemma interleaved_filter {A} (p : A -> bool) l : interleaved (filter p l) (filter (fun x => negb (p x)) l) l.
Proof. induction l as [|x l IH]; simpl; [constructor|]. destruct (p x); simpl; now constructor. Qed.
Lemma filter_ext_in' {A} (p q : A -> bool) l : (forall x, In x l -> p x = q x) -> filter p l = filter q l.
Proof. apply filter_ext_in. Qed.

Lemma filter_props_ok {A} props (input : dict A) incl : NoDup (dkeys input) ->
  let r := filter_props props input incl in
  interleaved (fst r) (snd r) input /\
  (forall k, In k (dkeys (fst r)) <->
     In k (dkeys input) /\ exists d, dget props k = Some d /\ (incl = true \/ pd_kind d = KProp \/ exists nn, pd_kind d = KRenamed nn)) /\
  (forall k, In k (dkeys (snd r)) <-> In k (dkeys input) /\ ~ In k (dkeys (fst r))).
Proof.
  intros HN r.
  set (p := fun kv : string * A => match dget props (fst kv) with Some d => incl || settable_kind (pd_kind d) | None => false end).
  assert (E1 : fst r = filter p input) by reflexivity.
  assert (Ek : forall k (d : unit), In k (dkeys (filter p input)) <-> In k (dkeys input) /\ (exists v : A, p (k, v) = true)) .
  { intros k d. unfold dkeys. rewrite !in_map_iff. split.
    - intros ([k' v] & <- & H). apply filter_In in H as [H1 H2]. simpl. split; [exists (k', v); auto|exists v; auto].
    - intros (([k' v] & <- & H) & v' & Hp). exists (k', v). split; auto. apply filter_In. split; auto. }
  assert (E2 : snd r = filter (fun x => negb (p x)) input).
  { unfold r, filter_props. simpl. fold p. apply filter_ext_in. intros [k v] Hin. f_equal. simpl.
    destruct (p (k, v)) eqn:Ep.
    - apply dhas_dget. exists v. apply dget_nodup_in.
      + unfold dkeys in *. clear - HN. induction input as [|kv l IH]; simpl; [constructor|]. inversion HN; subst.
        destruct (p kv); simpl; auto. constructor; auto. intros H. apply H1. apply in_map_iff in H as (x & Ex & Hx). apply filter_In in Hx as [Hx _].
        rewrite <- Ex. now apply in_map.
      + apply filter_In. auto.
    - unfold dhas. destruct (dget (filter p input) k) as [x|] eqn:Ed; auto. apply dget_in in Ed. apply filter_In in Ed as [_ Ed].
      change (p (k, x)) with (p (k, v)) in Ed. congruence. }
  split; [rewrite E1, E2; apply interleaved_filter|]. split.
  - intros k. rewrite E1, (Ek k tt). split.
    + intros (Hi & v & Hp). split; auto. unfold p in Hp. simpl in Hp. destruct (dget props k) as [d|]; [|discriminate].
      exists d. split; auto. destruct incl; auto. right. simpl in Hp. destruct (pd_kind d); try discriminate; eauto.
    + intros (Hi & d & Hd & Hk). split; auto. unfold dkeys in Hi. apply in_map_iff in Hi as ([k' v] & Hkk & Hi). simpl in Hkk. subst.
      exists v. unfold p. simpl. rewrite Hd. destruct Hk as [->|[->|[nn ->]]]; [reflexivity| |]; destruct incl; reflexivity.
  - intros k. rewrite E2, E1. unfold dkeys. rewrite !in_map_iff. split.
    + intros ([k' v] & <- & H). apply filter_In in H as [H1 H2]. split; [exists (k', v); auto|].
      intros ([k2 v2] & E & H). apply filter_In in H as [_ H]. simpl in E. subst k2.
      change (p (k', v2)) with (p (k', v)) in H. rewrite H in H2. discriminate.
    + intros (([k' v] & <- & H) & Hn). exists (k', v). split; auto. apply filter_In. split; auto.
      destruct (p (k', v)) eqn:Ep; auto. exfalso. apply Hn. exists (k', v). split; auto. apply filter_In. auto.
Qed.

(** ** stop_recursion_with *)
Section Once.
  Variable body backup : nat -> val -> rprog.
  Notation run := (run_once body backup).

  Lemma run_once_S f o a s : run (S f) o a s =
    if existsb (Nat.eqb o) (r_held s) then meaning (run f) (backup o a) (r_emit (RBackup o) s)
    else match meaning (run f) (body o a) (r_emit (RBody o) (RS (r_held s ++ [o]) (r_trace s))) with
         | Some (r, s1) => Some (r, r_emit (RDone o) (RS (remove1 o (r_held s1)) (r_trace s1)))
         | None => None
         end.
  Proof.
    assert (G : forall p s, (fix go (p : rprog) (s : rstate) : option (res val * rstate) :=
        match p with
        | RRet v => Some (Ok v, s)
        | RRaise e => Some (Exc e, s)
        | RCall o' a' k => match run f o' a' s with Some (r, s1) => go (k r) s1 | None => None end
        end) p s = meaning (run f) p s).
    { induction p as [v|e|o' a' k IH]; intros s'; try reflexivity. simpl. destruct (run f o' a' s') as [[r s1]|]; auto. }
    simpl. rewrite !G. reflexivity.
  Qed.
  Lemma held_In o l : existsb (Nat.eqb o) l = true <-> In o l.
  Proof.
    rewrite existsb_exists. split.
    - intros (x & H & E). apply Nat.eqb_eq in E. now subst.
    - intros H. exists o. split; auto. apply Nat.eqb_refl.
  Qed.
  Lemma remove1_last o l : ~ In o l -> remove1 o (l ++ [o]) = l.
  Proof.
    induction l as [|x l IH]; simpl; intros H; [now rewrite Nat.eqb_refl|].
    destruct (Nat.eqb_spec x o) as [->|]; [tauto|]. rewrite IH; tauto.
  Qed.
  Lemma nested_app st t out t' out' : nested st t out -> nested out t' out' -> nested st (t ++ t') out'.
  Proof. induction 1; simpl; intros; auto; constructor; auto. Qed.

  (** a step from [s] to [s1]: guard restored, events properly nested *)
  Definition proper (s s1 : rstate) : Prop :=
    r_held s1 = r_held s /\ exists t, r_trace s1 = rev t ++ r_trace s /\ nested (rev (r_held s)) t (rev (r_held s)).
  Lemma proper_refl s : proper s s.
  Proof. split; auto. exists []. split; auto. constructor. Qed.
  Lemma proper_trans a b c : proper a b -> proper b c -> proper a c.
  Proof.
    intros (H1 & t1 & T1 & N1) (H2 & t2 & T2 & N2). split; [congruence|]. exists (t1 ++ t2). split.
    - rewrite T2, T1, rev_app_distr, app_assoc. reflexivity.
    - rewrite H1 in N2. eapply nested_app; eauto.
  Qed.
  Lemma meaning_proper call : (forall o a s r s1, call o a s = Some (r, s1) -> proper s s1) ->
    forall p s r s1, meaning call p s = Some (r, s1) -> proper s s1.
  Proof.
    intros Hc. induction p as [v|e|o a k IH]; simpl; intros s r s1 H.
    - injection H as <- <-. apply proper_refl.
    - injection H as <- <-. apply proper_refl.
    - destruct (call o a s) as [[r2 s2]|] eqn:E; [|discriminate]. eapply proper_trans; [eapply Hc; eauto|eapply IH; eauto].
  Qed.
  Lemma run_proper f : forall o a s r s1, run f o a s = Some (r, s1) -> proper s s1.
  Proof.
    induction f as [|f IH]; intros o a s r s1 H; [discriminate|]. rewrite run_once_S in H.
    destruct (existsb (Nat.eqb o) (r_held s)) eqn:E.
    - pose proof (meaning_proper _ IH _ _ _ _ H) as (H1 & t & T & N). simpl in *. split; auto.
      exists (RBackup o :: t). split; [simpl; rewrite T, <- app_assoc; reflexivity|]. constructor; auto.
      rewrite <- in_rev. now apply held_In.
    - destruct (meaning _ _ _) as [[r2 s2]|] eqn:Em; [|discriminate]. injection H as <- <-.
      pose proof (meaning_proper _ IH _ _ _ _ Em) as (H1 & t & T & N). simpl in *.
      assert (Hn : ~ In o (r_held s)) by (intros K; apply held_In in K; congruence).
      split; simpl; [rewrite H1; now apply remove1_last|].
      exists (RBody o :: t ++ [RDone o]). split.
      + simpl. rewrite T, rev_app_distr. simpl. rewrite <- app_assoc. reflexivity.
      + constructor; [now rewrite <- in_rev|]. rewrite rev_app_distr in N. simpl in N. eapply nested_app; [exact N|].
        constructor. constructor.
  Qed.
  Lemma once_backup f o a s : In o (r_held s) -> run (S f) o a s = meaning (run f) (backup o a) (r_emit (RBackup o) s).
  Proof. intros H. rewrite run_once_S. apply held_In in H. now rewrite H. Qed.
  Lemma once_body f o a s : ~ In o (r_held s) -> forall r s1, run (S f) o a s = Some (r, s1) <->
    exists s2, meaning (run f) (body o a) (r_emit (RBody o) (RS (r_held s ++ [o]) (r_trace s))) = Some (r, s2) /\
      s1 = RS (r_held s) (RDone o :: r_trace s2).
  Proof.
    intros H r s1. rewrite run_once_S. destruct (existsb (Nat.eqb o) (r_held s)) eqn:E; [apply held_In in E; contradiction|].
    destruct (meaning _ _ _) as [[r2 s2]|] eqn:Em; [|split; [discriminate|intros (s2 & K & _); discriminate]].
    pose proof (meaning_proper _ (run_proper f) _ _ _ _ Em) as (H1 & _). simpl in H1.
    unfold r_emit. simpl. rewrite H1, remove1_last by exact H. split.
    - intros K. injection K as <- <-. eauto.
    - intros (s3 & K & ->). injection K as <- <-. reflexivity.
  Qed.

  (** termination *)
  Definition unheld (objs held : list nat) : nat := length (filter (fun o => negb (existsb (Nat.eqb o) held)) (nodup Nat.eq_dec objs)).
  Lemma unheld_less objs held o : In o objs -> ~ In o held -> unheld objs (held ++ [o]) < unheld objs held.
  Proof.
    intros Ho Hn. unfold unheld. rewrite <- (nodup_In Nat.eq_dec) in Ho. pose proof (NoDup_nodup Nat.eq_dec objs) as ND.
    induction (nodup Nat.eq_dec objs) as [|x l IH]; [destruct Ho|]. inversion ND; subst.
    assert (Hle : length (filter (fun o0 => negb (existsb (Nat.eqb o0) (held ++ [o]))) l) <=
                  length (filter (fun o0 => negb (existsb (Nat.eqb o0) held)) l)).
    { clear. induction l as [|y l IH]; simpl; auto. rewrite existsb_app. simpl. destruct (existsb (Nat.eqb y) held); simpl; auto.
      destruct (Nat.eqb y o); simpl; lia. }
    simpl. rewrite existsb_app. simpl. destruct Ho as [->|Ho].
    - rewrite Nat.eqb_refl. replace (existsb (Nat.eqb o) held) with false; [simpl; lia|].
      symmetry. destruct (existsb (Nat.eqb o) held) eqn:E; auto. apply held_In in E. contradiction.
    - specialize (IH Ho H2). destruct (existsb (Nat.eqb x) held); simpl; auto. destruct (Nat.eqb x o); simpl; lia.
  Qed.
  Lemma meaning_total call objs : (forall o a s, In o objs -> call o a s <> None) -> forall p s, calls_within objs p -> meaning call p s <> None.
  Proof.
    intros Hc p s Hp. revert s. induction Hp as [v|e|o a k Ho Hk IH]; simpl; try discriminate. intros s.
    specialize (Hc o a s Ho). destruct (call o a s) as [[r s1]|]; [auto|congruence].
  Qed.
  Lemma meaning_total_held call objs h : (forall o a s, r_held s = h -> In o objs -> exists r s1, call o a s = Some (r, s1) /\ r_held s1 = h) ->
    forall p s, r_held s = h -> calls_within objs p -> meaning call p s <> None.
  Proof.
    intros Hc p s Hh Hp. revert s Hh. induction Hp as [v|e|o a k Ho Hk IH]; simpl; try discriminate. intros s Hh.
    destruct (Hc o a s Hh Ho) as (r & s1 & -> & H1). auto.
  Qed.
  Lemma once_total objs : (forall o a, In o objs -> calls_within objs (body o a)) -> (forall o a, constant (backup o a)) ->
    forall f o a s, In o objs -> unheld objs (r_held s) < f -> run f o a s <> None.
  Proof.
    intros Hb Hk. induction f as [|f IH]; intros o a s Ho Hf; [lia|]. rewrite run_once_S.
    destruct (existsb (Nat.eqb o) (r_held s)) eqn:E.
    - specialize (Hk o a). destruct (backup o a); simpl in *; [discriminate|discriminate|contradiction].
    - assert (Hn : ~ In o (r_held s)) by (intros K; apply held_In in K; congruence).
      pose proof (unheld_less objs (r_held s) o Ho Hn) as Hu.
      assert (K : meaning (run f) (body o a) (r_emit (RBody o) (RS (r_held s ++ [o]) (r_trace s))) <> None).
      { apply (meaning_total_held _ objs (r_held s ++ [o])); simpl; auto. intros o' a' s' Hh Ho'.
        destruct (run f o' a' s') as [[r s1]|] eqn:Er.
        - exists r, s1. split; auto. apply run_proper in Er as [-> _]. exact Hh.
        - exfalso. revert Er. apply IH; auto. rewrite Hh. lia. }
      destruct (meaning _ _ _) as [[r s1]|]; [discriminate|congruence].
  Qed.
  Lemma unheld_bound objs held : unheld objs held <= length objs.
  Proof.
    unfold unheld. transitivity (length (nodup Nat.eq_dec objs)).
    { generalize (nodup Nat.eq_dec objs) as l. induction l as [|x l IH]; simpl; auto. destruct (existsb (Nat.eqb x) held); simpl; lia. }
    apply NoDup_incl_length; [apply NoDup_nodup|].
    intros x. apply nodup_In.
  Qed.
  Lemma once_terminates objs : (forall o a, In o objs -> calls_within objs (body o a)) -> (forall o a, constant (backup o a)) ->
    forall o a s, In o objs -> run (S (length objs)) o a s <> None.
  Proof. intros H1 H2 o a s Ho. apply (once_total objs H1 H2); auto. pose proof (unheld_bound objs (r_held s)). lia. Qed.
End Once.
Lemma callable_backup_diverges body : (body = fun _ a => RCall 0 a (fun _ => RRet VNone)) ->
  forall fuel a s, run_once body (fun _ a => RCall 0 a (fun _ => RRet VNone)) fuel 0 a s = None.
Proof.
  intros ->. induction fuel as [|f IH]; intros a s; [reflexivity|]. rewrite run_once_S. simpl. rewrite !IH.
  now destruct (existsb _ _).
Qed.

(** ** listeners_disabled *)
Section Context.
  Variable types : nat -> option (list lmode).

  (** while [active] are entered: their saved sets are not the current one *)
  Definition sound (active : list nat) (s : lstate) : Prop :=
    ls_cur s < length (ls_sets s) /\
    forall c, In c active -> exists p, ls_prev s c = Some p /\ p < length (ls_sets s) /\ p <> ls_cur s.
  Definition saved (s : lstate) (c : nat) : option (list lmode) :=
    match ls_prev s c with Some p => nth_error (ls_sets s) p | None => None end.
  Lemma set_nth_nth {A} (l : list A) n a d m : n < length l -> nth m (set_nth l n a) d = if Nat.eqb m n then a else nth m l d.
  Proof.
    intros H. destruct (Nat.eqb_spec m n) as [->|Hm].
    - apply nth_error_nth. now apply set_nth_same.
    - destruct (nth_error l m) as [x|] eqn:E.
      + rewrite (nth_error_nth _ _ d E). apply nth_error_nth. rewrite set_nth_other; auto.
      + rewrite !nth_overflow; auto; [|rewrite set_nth_length]; now apply nth_error_None.
  Qed.
  (** [s'] after [s]: the current set is as before, and so is what active managers saved *)
  Definition keeps (active : list nat) (s s' : lstate) : Prop :=
    sound active s' /\ ls_modes s' = ls_modes s /\
    (forall c, In c active -> ls_prev s' c = ls_prev s c /\ saved s' c = saved s c).
  Lemma keeps_refl active s : sound active s -> keeps active s s.
  Proof. intros H. split; auto. Qed.

  Lemma enter_sound active c s : sound active s -> ~ In c active ->
    sound (c :: active) (l_enter types c s) /\
    ls_modes (l_enter types c s) = (match types c with None => all_modes | Some ts => ls_modes s ++ ts end) /\
    saved (l_enter types c s) c = Some (ls_modes s) /\
    (forall x, In x active -> ls_prev (l_enter types c s) x = ls_prev s x /\ saved (l_enter types c s) x = saved s x).
  Proof.
    intros (Hcur & Ha) Hc. unfold l_enter, saved, ls_modes at 3 4. destruct (types c) as [ts|]; cbn [ls_sets ls_cur ls_prev].
    - split; [split; cbn [ls_sets ls_cur ls_prev]; [rewrite set_nth_length, app_length; lia|]|].
      { intros x [<-|Hx].
        - rewrite Nat.eqb_refl. eexists. split; eauto. rewrite set_nth_length, app_length. simpl. lia.
        - destruct (Nat.eqb_spec x c) as [->|]; [contradiction|]. destruct (Ha x Hx) as (p & Hp & Hl & Hn).
          exists p. rewrite set_nth_length, app_length. split; auto. split; [lia|auto]. }
      split.
      { unfold ls_modes. cbn [ls_sets ls_cur]. rewrite set_nth_nth by (rewrite app_length; lia). now rewrite Nat.eqb_refl. }
      split.
      { rewrite Nat.eqb_refl, set_nth_other by lia. rewrite nth_error_app2, Nat.sub_diag by lia. reflexivity. }
      intros x Hx. destruct (Nat.eqb_spec x c) as [->|]; [contradiction|]. split; auto.
      destruct (Ha x Hx) as (p & Hp & Hl & Hn). rewrite Hp, set_nth_other by auto. now rewrite nth_error_app1.
    - split; [split; cbn [ls_sets ls_cur ls_prev]; [rewrite !app_length; simpl; lia|]|].
      { intros x [<-|Hx].
        - rewrite Nat.eqb_refl. eexists. split; eauto. rewrite !app_length. simpl. lia.
        - destruct (Nat.eqb_spec x c) as [->|]; [contradiction|]. destruct (Ha x Hx) as (p & Hp & Hl & Hn).
          exists p. rewrite !app_length. simpl. split; auto. lia. }
      split.
      { unfold ls_modes. cbn [ls_sets ls_cur]. rewrite app_nth2, Nat.sub_diag by lia. reflexivity. }
      split.
      { rewrite Nat.eqb_refl, nth_error_app1 by (rewrite app_length; simpl; lia). rewrite nth_error_app2, Nat.sub_diag by lia. reflexivity. }
      intros x Hx. destruct (Nat.eqb_spec x c) as [->|]; [contradiction|]. split; auto.
      destruct (Ha x Hx) as (p & Hp & Hl & Hn). rewrite Hp. rewrite !nth_error_app1; auto. rewrite app_length. lia.
  Qed.

  (** also: the saved sets of two active managers are different *)
  Definition apart (active : list nat) (s : lstate) : Prop :=
    sound active s /\
    forall c c' p p', In c active -> In c' active -> c <> c' -> ls_prev s c = Some p -> ls_prev s c' = Some p' -> p <> p'.
  Lemma enter_apart active c s : apart active s -> ~ In c active -> apart (c :: active) (l_enter types c s).
  Proof.
    intros (Hs & Hd) Hc. split; [now apply enter_sound|]. destruct Hs as (Hcur & Ha).
    assert (Hp : forall x, In x active -> ls_prev (l_enter types c s) x = ls_prev s x).
    { intros x Hx. apply (enter_sound active c s); auto. split; auto. }
    assert (Hpc : ls_prev (l_enter types c s) c = Some (length (ls_sets s))).
    { unfold l_enter. destruct (types c); simpl; now rewrite Nat.eqb_refl. }
    intros x y p p' [<-|Hx] [<-|Hy] Hne H1 H2.
    - congruence.
    - rewrite Hpc in H1. rewrite Hp in H2 by auto. destruct (Ha y Hy) as (q & Hq & Hl & _). assert (q = p') by congruence. subst.
      injection H1 as <-. lia.
    - rewrite Hpc in H2. rewrite Hp in H1 by auto. destruct (Ha x Hx) as (q & Hq & Hl & _). assert (q = p) by congruence. subst.
      injection H2 as <-. lia.
    - rewrite Hp in H1, H2 by auto. exact (Hd x y p p' Hx Hy Hne H1 H2).
  Qed.

  Lemma run_scoped : forall p active s, apart active s -> not_reentered active p ->
    let '(ok, t, s') := l_run types p s in
    (ok, t) = scoped types p (ls_modes s) /\ ls_modes s' = ls_modes s /\ apart active s' /\
    (forall c, In c active -> ls_prev s' c = ls_prev s c /\ saved s' c = saved s c).
  Proof.
    induction p as [| |a IHa b IHb|c b IHb|b IHb]; intros active s Hs Hr; simpl in *.
    - auto.
    - auto.
    - destruct Hr as [Hra Hrb]. specialize (IHa active s Hs Hra). destruct (l_run types a s) as [[ok t] s1].
      destruct IHa as (E1 & M1 & A1 & P1). rewrite <- E1. destruct ok; [|auto].
      specialize (IHb active s1 A1 Hrb). destruct (l_run types b s1) as [[ok2 t2] s2]. destruct IHb as (E2 & M2 & A2 & P2).
      rewrite M1 in E2. rewrite <- E2. split; auto. split; [congruence|]. split; auto. intros c Hc.
      destruct (P1 c Hc), (P2 c Hc). split; congruence.
    - destruct Hr as [Hc Hr]. pose proof (enter_apart active c s Hs Hc) as Ae.
      destruct (enter_sound active c s (proj1 Hs) Hc) as (Se & Me & Sc & Pe).
      specialize (IHb _ _ Ae Hr). destruct (l_run types b (l_enter types c s)) as [[ok t] s1]. destruct IHb as (E1 & M1 & A1 & P1).
      rewrite Me in E1. split; auto. destruct (P1 c (or_introl eq_refl)) as [Pc Sc1]. rewrite Sc in Sc1.
      unfold saved in Sc1. unfold l_exit. destruct A1 as ((Hcur & Ha) & Hd).
      destruct (Ha c (or_introl eq_refl)) as (pc & Hpc & Hl & Hn). rewrite Hpc in *.
      assert (Mm : nth pc (ls_sets s1) [] = ls_modes s) by now apply nth_error_nth.
      split; [exact Mm|]. split.
      { split; [split; simpl; auto|].
        - intros x Hx. destruct (Ha x (or_intror Hx)) as (p & Hp & Hlp & Hnp). exists p. split; auto. split; auto.
          eapply (Hd x c); eauto; [now right|now left|]. intros ->. contradiction.
        - intros x y p p' Hx Hy. simpl. apply Hd; now right. }
      intros x Hx. unfold saved. simpl. destruct (P1 x (or_intror Hx)) as [Q1 Q2], (Pe x Hx) as [Q3 Q4]. split; [congruence|].
      transitivity (saved s1 x); [reflexivity|]. rewrite Q2. exact Q4.
    - specialize (IHb active s Hs Hr). destruct (l_run types b s) as [[ok t] s1]. destruct IHb as (E1 & M1 & A1 & P1).
      rewrite <- E1. auto.
  Qed.
  Lemma start_apart : apart [] ls_start.
  Proof. split; [split; [simpl; lia|intros c []]|intros c c' p p' []]. Qed.
  (** any sequence of programs from the start *)
  Lemma history ps p : Forall (not_reentered []) ps -> not_reentered [] p ->
    let s := fold_left (fun s q => snd (l_run types q s)) ps ls_start in
    let '(ok, t, s') := l_run types p s in (ok, t) = scoped types p [] /\ ls_modes s' = [] /\ ls_modes s = [].
  Proof.
    intros Hps Hp s.
    assert (K : apart [] s /\ ls_modes s = []).
    { unfold s. assert (G : forall ps s0, Forall (not_reentered []) ps -> apart [] s0 -> ls_modes s0 = [] ->
        apart [] (fold_left (fun s q => snd (l_run types q s)) ps s0) /\ ls_modes (fold_left (fun s q => snd (l_run types q s)) ps s0) = []).
      { induction ps0 as [|q qs IH]; simpl; auto. intros s0 HF A M. inversion HF; subst. apply IH; auto;
          pose proof (run_scoped q [] s0 A H1) as R; destruct (l_run types q s0) as [[ok t] s1]; simpl; destruct R as (_ & M1 & A1 & _); auto. congruence. }
      apply G; auto. apply start_apart. }
    destruct K as [A M]. pose proof (run_scoped p [] s A Hp) as R. destruct (l_run types p s) as [[ok t] s1].
    destruct R as (R1 & R2 & _). rewrite M in *. auto.
  Qed.
End Context.
