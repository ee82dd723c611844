(** Lemmas behind the theorems on Pointer properties. *)
From Verif Require Import Pointers PointersSpec.
Local Open Scope string_scope.
Local Open Scope list_scope.
Local Open Scope nat_scope.

Section Pointer.
  Variable prop : option (string -> res pval).
  Variable vuid : option (pval -> res unit).
  Variable load : bool.
  Variable loader : option (pval -> res pval).
  Variable isa : pval -> bool.
  Variable make : pval -> res pval.
  Notation validate := (pointer_validate prop vuid load loader isa make).
  Notation accepted := (accepts prop vuid load loader isa make).

  Lemma instance_iff v w : instance_validate isa make v = Ok w <-> instantiates isa make v w.
  Proof.
    unfold instance_validate, instantiates. destruct (isa v).
    - split; [intros H; injection H as <-; auto|]. intros [[_ ->]|[H _]]; [reflexivity|discriminate].
    - destruct (make v) as [x|e]; (split; [intros H|intros [[H _]|[_ H]]]); try discriminate; auto.
  Qed.
  Lemma check_uid_iff s u x : check_uid prop vuid load loader s = Ok (u, x) <-> names_uid prop vuid s u /\ loads load loader u x.
  Proof.
    unfold check_uid, names_uid, loads. split.
    - intros H. destruct (match prop with Some p => p s | None => Ok (PStr s) end) as [u'|] eqn:P; [cbn in H|discriminate].
      destruct (match vuid with Some f => f u' | None => Ok tt end) as [[]|] eqn:V; [cbn in H|discriminate].
      destruct (match loader with Some f => if load then f u' else Ok PNone | None => Ok PNone end) as [x'|] eqn:L; [cbn in H|discriminate].
      injection H as <- <-. split; [split|].
      + destruct prop; [exact P|]. congruence.
      + intros f ->. exact V.
      + destruct loader as [f|]; [destruct load|]; [left; eauto|right..]; split; auto; congruence.
    - intros [[P V] L].
      assert (P' : match prop with Some p => p s | None => Ok (PStr s) end = Ok u) by (destruct prop; congruence). rewrite P'. cbn.
      assert (V' : match vuid with Some f => f u | None => Ok tt end = Ok tt) by (destruct vuid; auto). rewrite V'. cbn.
      destruct L as [(f & -> & -> & ->)|[[->| ->] ->]]; [reflexivity|reflexivity|destruct loader; reflexivity].
  Qed.
  Lemma validate_iff v w : validate v = Ok w <-> accepted v w.
  Proof.
    split.
    - intros H. destruct v as [|s|l|o]; cbn in H.
      + discriminate.
      + destruct (check_uid prop vuid load loader s) as [[u x]|e] eqn:C; [|destruct e; discriminate]. apply check_uid_iff in C as [N L].
        destruct x as [|t|l|o]; [injection H as <-; now apply ac_uid|apply instance_iff in H; eapply ac_loaded; eauto; discriminate..].
      + apply instance_iff in H. apply ac_instance; auto; discriminate.
      + apply instance_iff in H. apply ac_instance; auto; discriminate.
    - intros [s u N L|s u x w' N L X I|v' w' N S I].
      + cbn. assert (C : check_uid prop vuid load loader s = Ok (u, PNone)) by (apply check_uid_iff; auto). now rewrite C.
      + cbn. assert (C : check_uid prop vuid load loader s = Ok (u, x)) by (apply check_uid_iff; auto). rewrite C.
        apply instance_iff in I. destruct x; [congruence|exact I..].
      + apply instance_iff in I. destruct v'; [congruence|exfalso; eapply S; reflexivity|exact I..].
  Qed.
  (** what raises nothing but ValidationErrors *)
  Lemma validate_errors v e :
    (forall f u e, vuid = Some f -> f u = Exc e -> exists ts, e = ExValidation ts) ->
    (forall p s e, prop = Some p -> p s = Exc e -> exists ts, e = ExValidation ts) ->
    (forall f u e, loader = Some f -> f u = Exc e -> exists ts, e = ExValidation ts) ->
    (forall x e, make x = Exc e -> is_generic e = true) ->
    validate v = Exc e -> e = ExValidation [].
  Proof.
    intros HV HP HL HM H.
    assert (I : forall x, instance_validate isa make x = Exc e -> e = ExValidation []).
    { intros x. unfold instance_validate. destruct (isa x); [discriminate|]. destruct (make x) as [y|e'] eqn:M; [discriminate|].
      rewrite (HM _ _ M). congruence. }
    destruct v as [|s|l|o]; cbn in H; [congruence| |apply (I _ H)..].
    destruct (check_uid prop vuid load loader s) as [[u x]|e'] eqn:C.
    - destruct x; [discriminate|apply (I _ H)..].
    - assert (E : exists ts, e' = ExValidation ts); [|destruct E as [ts ->]; congruence].
      unfold check_uid in C. destruct prop as [p|]; [destruct (p s) as [u|e1] eqn:P|]; cbn in C.
      2:{ injection C as <-. eapply HP; eauto. }
      all: (destruct vuid as [f|]; [destruct (f _) as [[]|e2] eqn:V; cbn in C; [|injection C as <-; eapply HV; eauto]|cbn in C]);
        (destruct loader as [g|]; [destruct load; [destruct (g _) as [x|e3] eqn:G; cbn in C; [discriminate|injection C as <-; eapply HL; eauto]|]|]; discriminate).
  Qed.

  (** ** Checks *)
  Variable inst_equal : nat -> nat -> res bool.
  Variable inst_valid : nat -> res unit.
  Notation passert := (pointer_assert prop vuid load loader isa make inst_equal inst_valid).
  Lemma assert_iff v : passert v = Ok true <->
    v = PNone \/ (v <> PNone /\ exists w, accepted v w /\ pointer_equal inst_equal v w = Ok true /\ forall l, v = PObj l -> inst_valid l = Ok tt).
  Proof.
    destruct v as [|s|l|o].
    - split; auto. 
    - unfold pointer_assert. split.
      + intros H. right. split; [discriminate|]. destruct (validate (PStr s)) as [w|] eqn:V; [cbn [rbind] in H|discriminate]. apply validate_iff in V.
        exists w. destruct (pointer_equal inst_equal (PStr s) w) as [[]|]; try discriminate. split; [exact V|]. split; [reflexivity|discriminate].
      + intros [H|(_ & w & V & E & _)]; [discriminate|]. apply validate_iff in V. rewrite V. cbn [rbind]. rewrite E. reflexivity.
    - unfold pointer_assert. split.
      + intros H. right. split; [discriminate|]. destruct (validate (PObj l)) as [w|] eqn:V; [cbn [rbind] in H|discriminate]. apply validate_iff in V.
        exists w. destruct (pointer_equal inst_equal (PObj l) w) as [[]|]; try discriminate. cbn in H. split; [auto|]. split; [reflexivity|].
        intros k Hk. injection Hk as <-. destruct (inst_valid l) as [[]|]; [reflexivity|discriminate].
      + intros [H|(_ & w & V & E & I)]; [discriminate|]. apply validate_iff in V. rewrite V. cbn [rbind]. rewrite E. cbn. now rewrite (I l eq_refl).
    - unfold pointer_assert. split.
      + intros H. right. split; [discriminate|]. destruct (validate (POther o)) as [w|] eqn:V; [cbn [rbind] in H|discriminate]. apply validate_iff in V.
        exists w. destruct (pointer_equal inst_equal (POther o) w) as [[]|]; try discriminate. split; [exact V|]. split; [reflexivity|discriminate].
      + intros [H|(_ & w & V & E & _)]; [discriminate|]. apply validate_iff in V. rewrite V. cbn [rbind]. rewrite E. reflexivity.
  Qed.
  Lemma equal_iff v w : pointer_equal inst_equal v w = Ok true <-> alike inst_equal v w.
  Proof.
    split.
    - destruct v as [|s|l|o], w as [|u|k|x]; cbn; intros H; try discriminate.
      + apply al_value. discriminate.
      + injection H as H. apply String.eqb_eq in H. subst u. apply al_value. discriminate.
      + now apply al_instance.
      + injection H as H. apply Nat.eqb_eq in H. subst x. apply al_value. discriminate.
    - intros [l k H|u N]; [exact H|]. destruct u as [|s|l|o]; cbn; [reflexivity|now rewrite String.eqb_refl|now destruct (N l)|now rewrite Nat.eqb_refl].
  Qed.
  Lemma assert_spec v : passert v = Ok true <->
    v = PNone \/ (v <> PNone /\ exists w, accepted v w /\ alike inst_equal v w /\ forall l, v = PObj l -> inst_valid l = Ok tt).
  Proof.
    rewrite assert_iff. split; (intros [H|(N & w & A & B & D)]; [now left|right; split; [exact N|exists w; split; [exact A|split; [now apply equal_iff|exact D]]]]).
  Qed.
  (** a stored string *)
  Lemma assert_uid s : passert (PStr s) = Ok true <->
    exists w, accepted (PStr s) w /\ w = PStr s.
  Proof.
    rewrite assert_iff. split.
    - intros [H|(_ & w & A & E & _)]; [discriminate|]. exists w. split; [exact A|]. destruct w; try discriminate. cbn in E.
      injection E as E. apply String.eqb_eq in E. congruence.
    - intros (w & A & ->). right. split; [discriminate|]. exists (PStr s). split; [exact A|]. cbn. rewrite String.eqb_refl. split; [reflexivity|]. discriminate.
  Qed.
  (** a stored instance of the class *)
  Lemma assert_instance l : isa (PObj l) = true -> inst_equal l l = Ok true ->
    (passert (PObj l) = Ok true <-> inst_valid l = Ok tt).
  Proof.
    intros I E. rewrite assert_iff. split.
    - intros [H|(_ & w & _ & _ & V)]; [discriminate|]. now apply V.
    - intros V. right. split; [discriminate|]. exists (PObj l). split; [apply ac_instance; [discriminate..|left; auto]|]. split; [exact E|].
      intros k H. injection H as <-. exact V.
  Qed.
  (** what was assigned passes, as long as the same is loaded *)
  Lemma assert_assigned v w : accepted v w ->
    (forall s u, v = PStr s -> names_uid prop vuid s u -> exists t, u = PStr t /\ names_uid prop vuid t u) ->
    (forall x y, make x = Ok y -> isa y = true) ->
    (forall s, isa (PStr s) = false) ->
    (forall l, inst_equal l l = Ok true) ->
    (passert w = Ok true <-> forall l, w = PObj l -> inst_valid l = Ok tt).
  Proof.
    intros A HN HM HS HE.
    assert (I : forall x, instantiates isa make x w -> isa w = true).
    { intros x [[H ->]|[_ H]]; [exact H|]. now apply HM in H. }
    assert (J : isa w = true -> (passert w = Ok true <-> forall l, w = PObj l -> inst_valid l = Ok tt)).
    { intros Iw. destruct w as [|s|l|o].
      - split; [discriminate|]. intros _. reflexivity.
      - now rewrite HS in Iw.
      - rewrite assert_instance by auto. split; [intros H k Hk; now injection Hk as <-|auto].
      - split; [discriminate|]. intros _. rewrite assert_iff. right. split; [discriminate|]. exists (POther o).
        split; [apply ac_instance; [discriminate..|left; auto]|]. cbn. rewrite Nat.eqb_refl. split; [reflexivity|discriminate]. }
    destruct A as [s u N L|s u x w' N L X Ix|v' w' N S Ix]; [|apply J, (I _ Ix)..].
    destruct (HN s u eq_refl N) as (t & -> & N'). rewrite assert_uid. split; [discriminate|]. intros _. exists (PStr t). split; [|reflexivity]. now apply ac_uid.
  Qed.
  (** a stored uid that can be loaded *)
  Lemma assert_loadable s u x : names_uid prop vuid s u -> loads load loader u x -> x <> PNone ->
    (forall t w, instantiates isa make x w -> w <> PStr t) ->
    passert (PStr s) <> Ok true.
  Proof.
    intros N L X HI H. apply assert_uid in H as (w & A & ->). inversion A as [s' u' N' L'|s' u' x' w' N' L' X' I'|v' w' N' S' I']; subst.
    - assert (C1 : check_uid prop vuid load loader s = Ok (u, x)) by (apply check_uid_iff; auto).
      assert (C2 : check_uid prop vuid load loader s = Ok (PStr s, PNone)) by (apply check_uid_iff; auto). congruence.
    - assert (C1 : check_uid prop vuid load loader s = Ok (u, x)) by (apply check_uid_iff; auto).
      assert (C2 : check_uid prop vuid load loader s = Ok (u', x')) by (apply check_uid_iff; auto).
      assert (x' = x) as -> by congruence. eapply HI; eauto.
    - eapply S'; reflexivity.
  Qed.
End Pointer.

(** ** JSON *)
Lemma json_uid inst_ser other_json inst_deser s j :
  pointer_serialize inst_ser other_json (PStr s) = Ok j -> pointer_deserialize inst_deser j = Ok (PStr s).
Proof. cbn. intros H. injection H as <-. reflexivity. Qed.
Lemma json_none inst_ser other_json inst_deser j :
  pointer_serialize inst_ser other_json PNone = Ok j -> j = JNull /\ pointer_deserialize inst_deser j = Ok PNone.
Proof. cbn. intros H. injection H as <-. split; reflexivity. Qed.
Lemma json_instance inst_ser other_json inst_deser l j :
  pointer_serialize inst_ser other_json (PObj l) = Ok j ->
  inst_ser l = Ok j /\
  (forall u, j = JText u -> pointer_deserialize inst_deser j = Ok (PStr u)) /\
  (forall x, j = JOther x -> pointer_deserialize inst_deser j = match inst_deser with Some f => f j | None => Exc ExType end).
Proof. cbn. intros H. split; [exact H|]. split; intros x ->; reflexivity. Qed.
Lemma find_prop_iff {P} (props : option (dict P)) name o : (forall d, props = Some d -> NoDup (dkeys d)) ->
  (find_prop props name = o <-> (exists p, o = Some p /\ declares props name p) \/ (o = None /\ forall p, ~ declares props name p)).
Proof.
  intros ND. unfold find_prop, declares. destruct props as [d|].
  - specialize (ND d eq_refl). split.
    + intros H. destruct o as [p|].
      * left. exists p. split; [reflexivity|]. exists d. split; [reflexivity|now apply dget_in].
      * right. split; [reflexivity|]. intros p (d' & E & I). injection E as <-. apply dget_none in H. apply H. apply (in_map fst) in I. exact I.
    + intros [(p & -> & d' & E & I)|[-> N]].
      * injection E as <-. now apply dget_nodup_in.
      * destruct (dget d name) as [p|] eqn:G; [|reflexivity]. exfalso. apply (N p). exists d. split; [reflexivity|now apply dget_in].
  - split.
    + intros <-. right. split; [reflexivity|]. intros p (d & E & _). discriminate.
    + intros [(p & -> & d & E & _)|[-> _]]; [discriminate|reflexivity].
Qed.
Lemma class_accepts props name vuid load loader isa make v w : (forall d, props = Some d -> NoDup (dkeys d)) ->
  (pointer_validate (find_prop props name) vuid load loader isa make v = Ok w <->
   (exists p, declares props name p /\ accepts (Some p) vuid load loader isa make v w) \/
   ((forall p, ~ declares props name p) /\ accepts None vuid load loader isa make v w)).
Proof.
  intros ND. rewrite validate_iff. destruct (find_prop props name) as [p|] eqn:F.
  - pose proof F as F'. apply (find_prop_iff props name _ ND) in F'. destruct F' as [(p' & E & D)|[E _]]; [injection E as <-|discriminate].
    split; [intros A; left; now exists p|]. intros [(p' & D' & A)|[N _]]; [|now destruct (N p)].
    assert (Some p = Some p') as E; [|now injection E as <-]. rewrite <- F. apply (find_prop_iff props name _ ND). left. now exists p'.
  - pose proof F as F'. apply (find_prop_iff props name _ ND) in F'. destruct F' as [(p' & E & D)|[_ N]]; [discriminate|].
    split; [intros A; right; now split|]. intros [(p' & D' & A)|[_ A]]; [now destruct (N p')|exact A].
Qed.
