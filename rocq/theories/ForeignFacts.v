(** Proofs about Instance properties of other classes. *)
From Coq Require Import Lia DecimalString.
From Verif Require Import Foreign ForeignSpec.
Local Open Scope string_scope.
Local Open Scope list_scope.
Local Open Scope nat_scope.

(** * Validation *)
Lemma str_keys_spec l d : str_keys l = Some d <-> l = map (fun p => (VStr (fst p), snd p)) d.
Proof.
  split.
  - revert d. induction l as [|[k v] l IH]; intros d; cbn [str_keys].
    + intros H. injection H as <-. reflexivity.
    + destruct k; try discriminate. destruct (str_keys l) as [d'|] eqn:E; [|discriminate]. simpl. intros H. injection H as <-.
      cbn. now rewrite (IH d').
  - revert l. induction d as [|[s v] d IH]; intros l ->; cbn [map str_keys fst snd]; auto. now rewrite (IH _ eq_refl).
Qed.
Lemma str_keys_none l : str_keys l = None <-> exists k x, In (k, x) l /\ forall s, k <> VStr s.
Proof.
  induction l as [|[k v] l IH]; cbn [str_keys].
  - split; [discriminate|]. intros (k & x & [] & _).
  - assert (H : forall k, (exists s, k = VStr s) \/ forall s, k <> VStr s).
    { intros k0. destruct k0; try (right; intros; discriminate). left. eauto. }
    destruct (H k) as [[s ->]|Hk].
    + split.
      * destruct (str_keys l); [discriminate|]. intros _. destruct (proj1 IH eq_refl) as (k & x & Hin & Hn). exists k, x. simpl; auto.
      * intros (k & x & [E|Hin] & Hn); [injection E as <- <-; destruct (Hn s eq_refl)|].
        rewrite (proj2 IH); [reflexivity|]. eauto.
    + split; [intros _; exists k, v; simpl; auto|]. intros _. destruct k; try reflexivity. destruct (Hk s eq_refl).
Qed.
Lemma called_make c v r : called c v r <-> make c v = r.
Proof.
  split.
  - intros [d|l k x Hin Hk|v' Hv]; unfold make.
    + now rewrite (proj2 (str_keys_spec _ d) eq_refl).
    + now rewrite (proj2 (str_keys_none l)) by eauto.
    + destruct v'; try reflexivity. destruct (Hv l eq_refl).
  - intros <-. unfold make. destruct v; try (apply called_value; intros; discriminate).
    destruct (str_keys l) as [d|] eqn:E.
    + apply str_keys_spec in E. subst l. constructor.
    + apply str_keys_none in E. destruct E as (k & x & Hin & Hk). econstructor; eauto.
Qed.
Lemma validate_spec name inst c v r : validate name inst c v = r <->
  (pc_is c v = true /\ r = Ok v) \/
  (pc_is c v = false /\
   ((exists x, called c v (Ok x) /\ r = Ok x) \/
    (exists e, called c v (Exc e) /\
       r = Exc (match e with
                | ExValidation _ | ExValue | ExKey | ExType | ExAttr => ExValidation [ET (Some "invalid") (Some name) inst]
                | _ => e
                end)))).
Proof.
  unfold validate. setoid_rewrite called_make. destruct (pc_is c v).
  - split; [intros <-; auto|]. intros [[_ ->]|[H _]]; [auto|discriminate].
  - destruct (make c v) as [x|e].
    + split; [intros <-; right; split; auto; left; eauto|].
      intros [[H _]|[_ [(y & E & ->)|(e & E & _)]]]; try discriminate. auto.
    + split.
      * intros <-. right. split; auto. right. exists e. split; auto. now destruct e.
      * intros [[H _]|[_ [(y & E & _)|(e' & E & ->)]]]; try discriminate. injection E as <-. now destruct e.
Qed.
Lemma make_instance c v x : makes_instances c -> make c v = Ok x -> pc_is c x = true.
Proof.
  intros [Hk Hc]. unfold make. destruct v; try apply Hc. destruct (str_keys l); [apply Hk|discriminate].
Qed.
Lemma validate_instance name inst c v x : makes_instances c -> validate name inst c v = Ok x ->
  pc_is c x = true /\ forall name' inst', validate name' inst' c x = Ok x.
Proof.
  intros Hc H. assert (Hx : pc_is c x = true).
  { unfold validate in H. destruct (pc_is c v) eqn:E; [congruence|]. destruct (make c v) eqn:Em.
    - injection H as <-. eapply make_instance; eauto.
    - destruct (is_generic e); discriminate. }
  split; auto. intros. unfold validate. now rewrite Hx.
Qed.
Lemma assert_valid_instance name inst c v : pc_is c v = true -> v <> VNone ->
  assert_valid name inst c v = if py_eq v v then Ok true else Exc (ExValidation [ET (Some "invalid") (Some name) inst]).
Proof. intros H Hn. unfold assert_valid, validate. destruct v; try congruence; now rewrite H. Qed.

(** * JSON *)
Section Json.
  Variable fr : float -> string.
  Lemma key_spec k s : json_key fr k = Ok s <-> key_text fr k s.
  Proof.
    split.
    - destruct k; simpl; try discriminate; intros H; injection H as <-; try constructor. destruct b; constructor.
    - intros []; reflexivity.
  Qed.
  Lemma key_exc k e : json_key fr k = Exc e -> e = ExType.
  Proof. destruct k; simpl; congruence. Qed.
  Lemma key_fun k s s' : key_text fr k s -> key_text fr k s' -> s = s'.
  Proof. rewrite <- !key_spec. congruence. Qed.
  Lemma all_res_ok {A} (l : list (res A)) t : all_res l = Ok t <-> l = map Ok t.
  Proof.
    revert t. induction l as [|[x|e] l IH]; intros t; simpl.
    - split; [intros H; injection H as <-; reflexivity|]. destruct t; [reflexivity|discriminate].
    - destruct (all_res l) as [u|e] eqn:E; simpl.
      + split; [intros H; injection H as <-; simpl; f_equal; now apply IH|]. destruct t as [|y t]; [discriminate|]. intros H. injection H as <- H.
        f_equal. f_equal. apply IH in H. congruence.
      + split; [discriminate|]. destruct t as [|y t]; [discriminate|]. intros H. injection H as <- H. apply IH in H. discriminate.
    - split; [discriminate|]. destruct t; discriminate.
  Qed.
  Lemma all_res_exc {A} (l : list (res A)) e : all_res l = Exc e -> In (Exc e) l.
  Proof.
    induction l as [|[x|e'] l IH]; simpl; [discriminate| |].
    - destruct (all_res l) as [u|e'']; simpl; [discriminate|]. intros H. injection H as ->. auto.
    - intros H. injection H as ->. auto.
  Qed.
  Lemma all_res_map {A B} (f : A -> res B) l t : all_res (map f l) = Ok t <-> Forall2 (fun x y => f x = Ok y) l t.
  Proof.
    rewrite all_res_ok. revert t. induction l as [|x l IH]; intros [|y t]; simpl; split; try discriminate; try (intros H; now inversion H); auto.
    - intros H. injection H as H1 H2. constructor; auto. now apply IH.
    - intros H. inversion H; subst. f_equal; auto. now apply IH.
  Qed.

  (** the dictionary of pairs *)
  Lemma dict_of_snoc l s (x : val) : dict_of (l ++ [(s, x)]) = dset (dict_of l) s x.
  Proof. unfold dict_of. now rewrite fold_left_app. Qed.
  Lemma dict_of_nodup l : NoDup (dkeys (dict_of l)).
  Proof.
    induction l as [|[s x] l IH] using rev_ind; [constructor|]. rewrite dict_of_snoc, dkeys_dset. unfold dhas.
    destruct (dget (dict_of l) s) eqn:E; auto. apply dget_none in E. 
    apply NoDup_rev in IH. rewrite <- (rev_involutive (dkeys (dict_of l) ++ [s])). apply NoDup_rev. rewrite rev_app_distr. simpl.
    constructor; auto. now rewrite <- in_rev.
  Qed.
  Lemma dict_of_get l s x : dget (dict_of l) s = Some x <->
    exists l1 l2, l = l1 ++ (s, x) :: l2 /\ ~ In s (map fst l2).
  Proof.
    induction l as [|[s' x'] l IH] using rev_ind.
    - split; [discriminate|]. intros ([|? ?] & l2 & E & _); discriminate.
    - rewrite dict_of_snoc. destruct (String.string_dec s' s) as [->|Hn].
      + rewrite dget_dset_same. split.
        * intros H. injection H as ->. exists l, []. split; auto.
        * intros (l1 & l2 & E & Hni). destruct l2 as [|y l2] using rev_ind.
          -- apply app_inj_tail in E. destruct E as [_ E]. congruence.
          -- exfalso. clear IHl2. rewrite app_comm_cons, app_assoc in E. apply app_inj_tail in E. destruct E as [_ <-].
             apply Hni. rewrite map_app, in_app_iff. simpl. auto.
      + rewrite dget_dset_other by auto. rewrite IH. split.
        * intros (l1 & l2 & -> & Hni). exists l1, (l2 ++ [(s', x')]). rewrite <- app_assoc. split; auto.
          rewrite map_app, in_app_iff. simpl. intros [H|[H|[]]]; auto.
        * intros (l1 & l2 & E & Hni). destruct l2 as [|y l2] using rev_ind.
          -- apply app_inj_tail in E. destruct E as [_ E]. congruence.
          -- clear IHl2. rewrite app_comm_cons, app_assoc in E. apply app_inj_tail in E. destruct E as [-> <-].
             exists l1, l2. split; auto. intros H. apply Hni. rewrite map_app, in_app_iff. auto.
  Qed.
  Lemma dget_in (d : dict val) s x : NoDup (dkeys d) -> (In (s, x) d <-> dget d s = Some x).
  Proof.
    induction d as [|[k v] d IH]; simpl; intros HN; [split; [intros []|discriminate]|]. inversion HN as [|? ? Hni HN']; subst.
    destruct (String.eqb s k) eqn:E.
    - apply String.eqb_eq in E. subst k. split.
      + intros [H|H]; [congruence|]. destruct Hni. exact (in_map fst _ _ H).
      + intros H. left. congruence.
    - apply String.eqb_neq in E. rewrite IH by auto. split; [intros [H|H]; [congruence|auto]|auto].
  Qed.

  Definition pair_of (p : val * val) : res (string * val) :=
    rbind (json_key fr (fst p)) (fun k => rbind (json_of fr (snd p)) (fun x => Ok (k, x))).
  Lemma json_dict_eq l : json_of fr (VDict l) =
    rbind (all_res (map pair_of l)) (fun d => Ok (VDict (map (fun p => (VStr (fst p), snd p)) (dict_of d)))).
  Proof. reflexivity. Qed.
  Lemma pair_ok p s x : pair_of p = Ok (s, x) <-> key_text fr (fst p) s /\ json_of fr (snd p) = Ok x.
  Proof.
    unfold pair_of. rewrite <- key_spec. destruct (json_key fr (fst p)); simpl; [|split; [discriminate|intros [H _]; discriminate]].
    destruct (json_of fr (snd p)); simpl; [|split; [discriminate|intros [_ H]; discriminate]].
    split; [intros H; injection H as -> ->; auto|]. intros [H1 H2]. congruence.
  Qed.
  Lemma forall2_split {A B} (P : A -> B -> Prop) l t1 y t2 : Forall2 P l (t1 ++ y :: t2) ->
    exists l1 x l2, l = l1 ++ x :: l2 /\ Forall2 P l1 t1 /\ P x y /\ Forall2 P l2 t2.
  Proof.
    intros H. apply Forall2_app_inv_r in H. destruct H as (l1 & l2 & H1 & H2 & ->). inversion H2; subst. eauto 10.
  Qed.
  Lemma forall2_in_l {A B} (P : A -> B -> Prop) l t x : Forall2 P l t -> In x l -> exists y, In y t /\ P x y.
  Proof. induction 1; intros []; subst; [exists y; simpl; auto|]. destruct IHForall2 as (z & Hz & Hp); auto. exists z. simpl; auto. Qed.
  Lemma forall2_in_r {A B} (P : A -> B -> Prop) l t y : Forall2 P l t -> In y t -> exists x, In x l /\ P x y.
  Proof. induction 1; intros []; subst; [exists x; simpl; auto|]. destruct IHForall2 as (z & Hz & Hp); auto. exists z. simpl; auto. Qed.

  Lemma json_ok v : (exists w, json_of fr v = Ok w) <-> jsonable fr v.
  Proof.
    induction v as [v Hv|l IH|l IH|l IH|l IH] using val_ind'.
    - destruct v; simpl in *; try tauto; (split; [intros (w & H); try discriminate; constructor|intros H; try (inversion H; fail); eauto]).
    - assert (G : (exists t, all_res (map (json_of fr) l) = Ok t) <-> Forall (jsonable fr) l).
      { setoid_rewrite all_res_map. induction IH as [|x l Hx IH IH2]; [split; [constructor|exists []; constructor]|]. split.
        - intros (t & H). inversion H; subst. constructor; [apply Hx; eauto|apply IH2; eauto].
        - intros H. inversion H; subst. destruct (proj2 Hx H2) as (y & Hy). destruct (proj2 IH2 H3) as (t & Ht). exists (y :: t). now constructor. }
      simpl. split.
      + intros (w & H). constructor. apply G. destruct (all_res (map (json_of fr) l)); [eauto|discriminate].
      + intros H. inversion H; subst. destruct (proj2 G H1) as (t & ->). simpl. eauto.
    - assert (G : (exists t, all_res (map (json_of fr) l) = Ok t) <-> Forall (jsonable fr) l).
      { setoid_rewrite all_res_map. induction IH as [|x l Hx IH IH2]; [split; [constructor|exists []; constructor]|]. split.
        - intros (t & H). inversion H; subst. constructor; [apply Hx; eauto|apply IH2; eauto].
        - intros H. inversion H; subst. destruct (proj2 Hx H2) as (y & Hy). destruct (proj2 IH2 H3) as (t & Ht). exists (y :: t). now constructor. }
      simpl. split.
      + intros (w & H). constructor. apply G. destruct (all_res (map (json_of fr) l)); [eauto|discriminate].
      + intros H. inversion H; subst. destruct (proj2 G H1) as (t & ->). simpl. eauto.
    - simpl. split; [intros (w & H); discriminate|intros H; inversion H].
    - rewrite json_dict_eq.
      assert (G : (exists t, all_res (map pair_of l) = Ok t) <-> Forall (fun p => (exists s, key_text fr (fst p) s) /\ jsonable fr (snd p)) l).
      { setoid_rewrite all_res_map. induction IH as [|x l [_ Hx] IH IH2]; [split; [constructor|exists []; constructor]|]. split.
        - intros (t & H). inversion H as [|? [s y] ? ? Hp Hr]; subst. apply pair_ok in Hp. destruct Hp as [H1 H2]. constructor; [split; eauto; apply Hx; eauto|apply IH2; eauto].
        - intros H. inversion H as [|? ? [(s & Hs) Hj] Hr]; subst. destruct (proj2 Hx Hj) as (y & Hy). destruct (proj2 IH2 Hr) as (t & Ht).
          exists ((s, y) :: t). constructor; auto. now apply pair_ok. }
      split.
      + intros (w & H). constructor. apply G. destruct (all_res (map pair_of l)); [eauto|discriminate].
      + intros H. inversion H; subst. destruct (proj2 G H1) as (t & ->). simpl. eauto.
  Qed.
  Lemma json_exc v : forall e, json_of fr v = Exc e -> e = ExType.
  Proof.
    induction v as [v Hv|l IH|l IH|l IH|l IH] using val_ind'; intros e.
    - destruct v; simpl in *; try tauto; congruence.
    - simpl. destruct (all_res (map (json_of fr) l)) as [|e'] eqn:E; [discriminate|]. intros H. injection H as <-.
      apply all_res_exc, in_map_iff in E. destruct E as (x & Hx & Hin). rewrite Forall_forall in IH. eauto.
    - simpl. destruct (all_res (map (json_of fr) l)) as [|e'] eqn:E; [discriminate|]. intros H. injection H as <-.
      apply all_res_exc, in_map_iff in E. destruct E as (x & Hx & Hin). rewrite Forall_forall in IH. eauto.
    - simpl. congruence.
    - rewrite json_dict_eq. destruct (all_res (map pair_of l)) as [|e'] eqn:E; [discriminate|]. intros H. injection H as <-.
      apply all_res_exc, in_map_iff in E. destruct E as (x & Hx & Hin). rewrite Forall_forall in IH. unfold pair_of in Hx.
      destruct (json_key fr (fst x)) as [s|e1] eqn:Ek; simpl in Hx; [|injection Hx as <-; now apply key_exc in Ek].
      destruct (json_of fr (snd x)) as [y|e1] eqn:Ej; simpl in Hx; [discriminate|]. injection Hx as <-. exact (proj2 (IH x Hin) _ Ej).
  Qed.
  Lemma json_image v : forall w, json_of fr v = Ok w -> image fr v w /\ is_json w.
  Proof.
    assert (G : forall l, Forall (fun v => forall w, json_of fr v = Ok w -> image fr v w /\ is_json w) l ->
      forall t, Forall2 (fun x y => json_of fr x = Ok y) l t -> Forall2 (image fr) l t /\ Forall is_json t).
    { intros l IH t H. induction H; [split; constructor|]. inversion IH; subst. destruct (H3 _ H). destruct (IHForall2 H4). split; constructor; auto. }
    induction v as [v Hv|l IH|l IH|l IH|l IH] using val_ind'; intros w.
    - destruct v; simpl in *; try tauto; intros H; try discriminate; injection H as <-; split; constructor.
    - simpl. destruct (all_res (map (json_of fr) l)) as [t|] eqn:E; [|discriminate]. intros H. injection H as <-.
      apply all_res_map in E. destruct (G _ IH _ E). split; constructor; auto.
    - simpl. destruct (all_res (map (json_of fr) l)) as [t|] eqn:E; [|discriminate]. intros H. injection H as <-.
      apply all_res_map in E. destruct (G _ IH _ E). split; constructor; auto.
    - discriminate.
    - rewrite json_dict_eq. destruct (all_res (map pair_of l)) as [t|] eqn:E; [|discriminate]. cbn [rbind]. intros H. injection H as <-.
      apply all_res_map in E. pose proof (dict_of_nodup t) as HN. rewrite Forall_forall in IH. split.
      + constructor; auto.
        * intros s x Hin. apply dget_in, dict_of_get in Hin; auto. destruct Hin as (t1 & t2 & -> & Hni).
          apply forall2_split in E. destruct E as (l1 & [k v] & l2 & -> & E1 & Ep & E2). apply pair_ok in Ep. destruct Ep as [Hk Hj]. simpl in *.
          exists l1, k, v, l2. split; auto. split; auto. split; [apply (IH (k, v)); auto; apply in_or_app; simpl; auto|].
          intros k2 v2 Hin Hk2. destruct (forall2_in_l _ _ _ _ E2 Hin) as ([s2 y2] & Hy & Hp). apply pair_ok in Hp. destruct Hp as [Hp _].
          simpl in Hp. rewrite (key_fun _ _ _ Hk2 Hp) in Hni. apply Hni. exact (in_map fst _ _ Hy).
        * intros k v s Hin Hk. destruct (forall2_in_l _ _ _ _ E Hin) as ([s2 y2] & Hy & Hp). apply pair_ok in Hp. destruct Hp as [Hp _].
          simpl in Hp. rewrite (key_fun _ _ _ Hk Hp). destruct (dget (dict_of t) s2) as [x|] eqn:Eg.
          -- exists x. now apply dget_in.
          -- exfalso. clear - Hy Eg. revert Eg Hy. induction t as [|[s x] t IH] using rev_ind; [intros _ []|].
             rewrite dict_of_snoc, in_app_iff. intros Eg [H|[H|[]]].
             ++ apply IH; auto. destruct (String.string_dec s s2) as [->|Hn]; [rewrite dget_dset_same in Eg; discriminate|].
                now rewrite dget_dset_other in Eg by auto.
             ++ injection H as -> ->. rewrite dget_dset_same in Eg. discriminate.
      + constructor; auto. rewrite Forall_forall. intros x Hx. apply in_map_iff in Hx. destruct Hx as ([s y] & <- & Hin). simpl.
        apply dget_in, dict_of_get in Hin; auto. destruct Hin as (t1 & t2 & -> & _).
        destruct (forall2_in_r _ _ _ (s, y) E) as ([k v] & Hl & Hp); [apply in_or_app; simpl; auto|]. apply pair_ok in Hp. destruct Hp as [_ Hp].
        exact (proj2 (proj2 (IH _ Hl) _ Hp)).
  Qed.
  Lemma dict_of_same (d : dict val) : NoDup (map fst d) -> dict_of d = d.
  Proof.
    induction d as [|[s x] d IH] using rev_ind; intros HN; auto. rewrite dict_of_snoc. rewrite map_app in HN. simpl in HN.
    assert (HN1 : NoDup (map fst d)) by (apply NoDup_remove_1 in HN; now rewrite app_nil_r in HN).
    assert (Hni : ~ In s (map fst d)) by (apply NoDup_remove_2 in HN; now rewrite app_nil_r in HN).
    rewrite IH by auto. clear - Hni. induction d as [|[k v] d IH]; simpl; auto.
    destruct (String.eqb s k) eqn:E; [apply String.eqb_eq in E; subst; destruct Hni; simpl; auto|]. f_equal. apply IH. intros H. apply Hni. simpl; auto.
  Qed.
  Lemma json_same v : is_json v -> json_of fr v = Ok v.
  Proof.
    induction v as [v Hv|l IH|l IH|l IH|l IH] using val_ind'; intros H.
    - destruct v; simpl in *; try tauto; inversion H.
    - inversion H.
    - inversion H; subst. simpl. assert (E : all_res (map (json_of fr) l) = Ok l); [|now rewrite E].
      apply all_res_map. clear H. induction l; constructor; inversion IH; inversion H1; subst; auto.
    - inversion H.
    - inversion H as [| | | | | |d HN Hd E]; subst. rewrite json_dict_eq.
      assert (E : all_res (map pair_of (map (fun p => (VStr (fst p), snd p)) d)) = Ok d).
      { apply all_res_map. clear H HN. induction d as [|[s x] d IHd]; constructor.
        - apply pair_ok. simpl. split; [constructor|]. inversion IH as [|? ? [_ H1] _]; subst. inversion Hd; subst. apply H1. assumption.
        - inversion IH; inversion Hd; subst. auto. }
      rewrite E. simpl. now rewrite dict_of_same.
  Qed.
End Json.

Lemma serialize_spec fr hp v : v <> VNone -> (forall l, v <> VInst l) ->
  (jsonable fr v -> exists w, serialize fr hp v = Ok w /\ image fr v w /\ is_json w) /\
  (~ jsonable fr v -> serialize fr hp v = Exc ExType).
Proof.
  intros Hn Hi. assert (E : serialize fr hp v = json_of fr v) by (destruct v; try reflexivity; destruct (Hi l eq_refl)).
  rewrite E. split.
  - intros H. apply json_ok in H. destruct H as (w & Hw). exists w. split; auto. now apply json_image.
  - intros H. destruct (json_of fr v) as [w|e] eqn:Ew; [destruct H; apply json_ok; eauto|]. apply json_exc in Ew. congruence.
Qed.
Lemma json_none_back fr v : json_of fr v = Ok VNone -> v = VNone.
Proof.
  destruct v; try discriminate; auto.
  - simpl. destruct (all_res _); discriminate.
  - simpl. destruct (all_res _); discriminate.
  - rewrite json_dict_eq. destruct (all_res _); discriminate.
Qed.
Lemma no_round_trip fr hp v w : v <> VNone -> (forall l, v <> VInst l) -> serialize fr hp v = Ok w -> deserialize w = Exc ExType.
Proof.
  intros Hn Hi H. assert (E : serialize fr hp v = json_of fr v) by (destruct v; try reflexivity; destruct (Hi l eq_refl)).
  rewrite E in H. unfold deserialize. destruct w; auto. apply json_none_back in H. congruence.
Qed.

(** * Options *)
Lemma class_accepted name o c o' : i_apply name o (SetClass c) = Ok o' <-> exists k, c = Some k /\ o' = IO k (io_auto o) (io_default o).
Proof.
  destruct c as [k|]; simpl; split; try discriminate.
  - intros H. injection H as <-. eauto.
  - intros (k' & E & ->). injection E as <-. reflexivity.
  - intros (k' & E & _). discriminate.
Qed.
Lemma auto_accepted name o v o' : i_apply name o (SetAuto v) = Ok o' <-> exists b, v = VBool b /\ o' = IO (io_class o) b (io_default o).
Proof.
  split.
  - destruct v; simpl; try discriminate. intros H. injection H as <-. eauto.
  - intros (b & -> & ->). reflexivity.
Qed.
Lemma default_accepted name o d o' : i_apply name o (SetDefault d) = Ok o' <->
  o' = IO (io_class o) (io_auto o) (Some d) /\
  (d = DVal VUndef \/ exists v x, outcome d = Ok v /\ validate name None (io_class o) v = Ok x).
Proof.
  destruct d as [v|f]; simpl.
  - destruct (is_undef v) eqn:Eu.
    + destruct v; try discriminate. split; [intros H; injection H as <-; auto|]. intros [-> _]. reflexivity.
    + destruct (validate name None (io_class o) v) as [x|e] eqn:E; simpl; split.
      * intros H. injection H as <-. split; auto. right. eauto.
      * intros [-> _]. reflexivity.
      * discriminate.
      * intros [_ [H|(v' & x & H & H')]]; [injection H as ->; discriminate|]. injection H as <-. congruence.
  - destruct f as [v|e]; simpl.
    + destruct (validate name None (io_class o) v) as [x|e] eqn:E; simpl; split.
      * intros H. injection H as <-. split; auto. right. eauto.
      * intros [-> _]. reflexivity.
      * discriminate.
      * intros [_ [H|(v' & x & H & H')]]; [discriminate|]. injection H as <-. congruence.
    + split; [discriminate|]. intros [_ [H|(v' & x & H & H')]]; discriminate.
Qed.
Lemma option_error name o a e : i_apply name o a = Exc e ->
  match a with
  | SetClass _ | SetAuto _ => e = ExType
  | SetDefault d => outcome d = Exc e \/ exists v, outcome d = Ok v /\ validate name None (io_class o) v = Exc e
  end.
Proof.
  destruct a as [[c|]|v|[v|f]]; simpl.
  - discriminate.
  - congruence.
  - destruct v; congruence.
  - destruct (is_undef v); [discriminate|]. destruct (validate name None (io_class o) v) eqn:E; simpl; [discriminate|].
    intros H. injection H as ->. eauto.
  - destruct f as [v|e']; simpl; [|intros H; injection H as ->; auto]. destruct (validate name None (io_class o) v) eqn:E; simpl; [discriminate|].
    intros H. injection H as ->. eauto.
Qed.
Lemma keep_default name l : forall o, (forall d, ~ In (SetDefault d) l) -> io_default (fold_left (i_step name) l o) = io_default o.
Proof.
  induction l as [|a l IH]; intros o Hl; simpl; auto. rewrite IH by (intros d Hd; apply (Hl d); simpl; auto).
  unfold i_step. destruct (i_apply name o a) as [o'|] eqn:E; auto. destruct a as [c|v|d].
  - apply class_accepted in E. destruct E as (k & _ & ->). reflexivity.
  - apply auto_accepted in E. destruct E as (b & _ & ->). reflexivity.
  - destruct (Hl d). simpl; auto.
Qed.
Lemma keep_auto name l : forall o, (forall b, ~ In (SetAuto (VBool b)) l) -> io_auto (fold_left (i_step name) l o) = io_auto o.
Proof.
  induction l as [|a l IH]; intros o Hl; simpl; auto. rewrite IH by (intros b Hb; apply (Hl b); simpl; auto).
  unfold i_step. destruct (i_apply name o a) as [o'|] eqn:E; auto. destruct a as [c|v|d].
  - apply class_accepted in E. destruct E as (k & _ & ->). reflexivity.
  - apply auto_accepted in E. destruct E as (b & -> & ->). destruct (Hl b). simpl; auto.
  - apply default_accepted in E. destruct E as (-> & _). reflexivity.
Qed.
Lemma default_last name l1 d l2 o : accepted name (fold_left (i_step name) l1 o) (SetDefault d) ->
  (forall d', ~ In (SetDefault d') l2) -> i_default (fold_left (i_step name) (l1 ++ SetDefault d :: l2) o) = d.
Proof.
  intros (o' & E) Hl. rewrite fold_left_app. cbn [fold_left]. unfold i_default. rewrite keep_default by auto.
  unfold i_step at 1. rewrite E. apply default_accepted in E. destruct E as (-> & _). reflexivity.
Qed.
Lemma default_auto name c l1 b l2 : (forall d, ~ In (SetDefault d) (l1 ++ SetAuto (VBool b) :: l2)) ->
  (forall b', ~ In (SetAuto (VBool b')) l2) ->
  let o := fold_left (i_step name) (l1 ++ SetAuto (VBool b) :: l2) (IO c false None) in
  i_default o = if b then DCall (pc_new (io_class o)) else DVal VUndef.
Proof.
  intros Hd Hb o. unfold i_default. unfold o at 1. rewrite keep_default by exact Hd. simpl.
  replace (io_auto o) with b; auto. unfold o. rewrite fold_left_app. cbn [fold_left]. now rewrite keep_auto.
Qed.
Lemma default_none name c l : (forall d, ~ In (SetDefault d) l) -> (forall b, ~ In (SetAuto (VBool b)) l) ->
  i_default (fold_left (i_step name) l (IO c false None)) = DVal VUndef.
Proof. intros Hd Hb. unfold i_default. now rewrite keep_default, keep_auto. Qed.
(** a default that was accepted passes the check, while the class is not changed *)
Lemma default_run name l : forall o, (forall c, ~ In (SetClass c) l) ->
  (forall d, io_default o = Some d -> d = DVal VUndef \/ exists v x, outcome d = Ok v /\ validate name None (io_class o) v = Ok x) ->
  io_class (fold_left (i_step name) l o) = io_class o /\
  forall d, io_default (fold_left (i_step name) l o) = Some d ->
    d = DVal VUndef \/ exists v x, outcome d = Ok v /\ validate name None (io_class o) v = Ok x.
Proof.
  induction l as [|a l IH]; intros o Hl Ho; simpl; auto.
  assert (S : io_class (i_step name o a) = io_class o /\ forall d, io_default (i_step name o a) = Some d ->
    d = DVal VUndef \/ exists v x, outcome d = Ok v /\ validate name None (io_class o) v = Ok x).
  { unfold i_step. destruct (i_apply name o a) as [o'|e] eqn:E; auto. destruct a as [c|v|d].
    - destruct (Hl c). simpl; auto.
    - apply auto_accepted in E. destruct E as (b & _ & ->). auto.
    - apply default_accepted in E. destruct E as (-> & H). simpl. split; auto. intros d' H'. injection H' as <-. exact H. }
  destruct S as [S1 S2]. destruct (IH (i_step name o a)) as [I1 I2].
  - intros c Hc. apply (Hl c). simpl; auto.
  - rewrite S1. exact S2.
  - rewrite I1, S1. split; auto. intros d Hd. specialize (I2 d Hd). now rewrite S1 in I2.
Qed.
Lemma default_checked name c l : (forall k, ~ In (SetClass k) l) ->
  let o := fold_left (i_step name) l (IO c false None) in
  io_default o <> None \/ io_auto o = false -> check_default name o = Ok tt.
Proof.
  intros Hl o H. destruct (default_run name l (IO c false None) Hl) as [Hc Hd]; [discriminate|]. fold o in Hc, Hd. simpl in Hc, Hd.
  unfold check_default, i_default. destruct (io_default o) as [d|] eqn:E.
  - destruct (Hd d eq_refl) as [->|(v & x & Ho & Hv)]; [reflexivity|]. rewrite Hc. unfold outcome in Ho. rewrite Ho. simpl.
    destruct (is_undef v); [reflexivity|]. now rewrite Hv.
  - destruct H as [H| ->]; [tauto|reflexivity].
Qed.

Lemma assert_valid_outcomes name inst c v :
  (v = VNone -> assert_valid name inst c v = Ok true) /\
  (v <> VNone -> (forall e, validate name inst c v = Exc e -> assert_valid name inst c v = Exc e) /\
     (forall w, validate name inst c v = Ok w -> assert_valid name inst c v = if py_eq v w then Ok true else Exc (ExValidation [ET (Some "invalid") (Some name) inst]))).
Proof.
  split; [now intros ->|]. intros Hn. unfold assert_valid. assert (is_none v = false) as -> by (destruct v; congruence || reflexivity).
  split; [intros e ->|intros w ->]; reflexivity.
Qed.
Lemma sample_classes v :
  (pc_is py_int_class v = true <-> (exists z, v = VInt z) \/ exists b, v = VBool b) /\
  (pc_is py_list_class v = true <-> exists l, v = VList l) /\ (pc_is py_dict_class v = true <-> exists d, v = VDict d) /\
  (forall k x r, pc_kw py_int_class ((k, x) :: r) = Exc ExType /\ pc_kw py_list_class ((k, x) :: r) = Exc ExType) /\
  pc_new py_int_class = Ok (VInt 0) /\ pc_new py_list_class = Ok (VList []) /\ pc_new py_dict_class = Ok (VDict []).
Proof.
  split; [|split; [|split; [|split; [intros; split; reflexivity|repeat split]]]].
  - split; [destruct v; try discriminate; eauto|]. intros [[z ->]|[b ->]]; reflexivity.
  - split; [destruct v; try discriminate; eauto|]. intros [z ->]; reflexivity.
  - split; [destruct v; try discriminate; eauto|]. intros [z ->]; reflexivity.
Qed.
Lemma check_default_outcomes name o (r : res val) : (i_default o = DCall r \/ exists v, i_default o = DVal v /\ r = Ok v) ->
  (r = Ok VUndef -> check_default name o = Ok tt) /\
  (forall v w, r = Ok v -> v <> VUndef -> validate name None (io_class o) v = Ok w -> check_default name o = Ok tt) /\
  (forall e, r = Exc e \/ (exists v, r = Ok v /\ v <> VUndef /\ validate name None (io_class o) v = Exc e) ->
     (e = ExValue \/ (exists ts, e = ExValidation ts) -> check_default name o = Exc ExAttr) /\
     (e = ExType \/ e = ExKey \/ e = ExAttr \/ (exists n, e = ExUser n) -> check_default name o = Exc e)).
Proof.
  intros H. unfold check_default.
  assert (match i_default o with DVal v => Ok v | DCall f => f end = r) as -> by (destruct H as [->|(v & -> & ->)]; reflexivity).
  assert (U : forall v, v <> VUndef -> is_undef v = false) by (intros []; try reflexivity; congruence).
  split; [now intros ->|]. split.
  - intros v w -> Hv Hw. cbn [rbind]. now rewrite (U v Hv), Hw.
  - intros e He. assert (rbind r (fun v => if is_undef v then Ok VUndef else validate name None (io_class o) v) = Exc e) as ->.
    { destruct He as [->|(v & -> & Hv & Hw)]; [reflexivity|]. cbn [rbind]. now rewrite (U v Hv). }
    split; [intros [->|(ts & ->)]|intros [->|[->|[->|(n & ->)]]]]; reflexivity.
Qed.
