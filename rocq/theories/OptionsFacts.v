(** Lemmas behind the option theorems. *)
From Verif Require Import Options NumSpec FloatProofs BasicSpec OptionsSpec.
From Coq Require Import Lia.
Local Open Scope string_scope.
Local Open Scope list_scope.

Lemma assign_inv {O A} (apply : O -> A -> res O) (I : O -> Prop) :
  (forall o a o', I o -> apply o a = Ok o' -> I o') -> forall l o, I o -> I (assign_all apply o l).
Proof.
  intros H. unfold assign_all. induction l as [|a l IH]; simpl; auto. intros o Ho. apply IH.
  destruct (apply o a) eqn:E; eauto.
Qed.
Lemma assign_inv_in {O A} (apply : O -> A -> res O) (I : O -> Prop) (P : A -> Prop) :
  (forall o a o', I o -> P a -> apply o a = Ok o' -> I o') -> forall l o, Forall P l -> I o -> I (assign_all apply o l).
Proof.
  intros H. unfold assign_all. induction l as [|a l IH]; simpl; auto. intros o HF Ho. inversion HF; subst. apply IH; auto.
  destruct (apply o a) eqn:E; eauto.
Qed.

(** ** bounds *)
Lemma as_num_valid v n : valid_val v -> as_num v = Some n -> valid_num n.
Proof. destruct v; simpl; intros H E; try discriminate; injection E as <-; simpl; auto. Qed.
Definition b_good (o : bopts) : Prop :=
  (valid_val (b_min o) /\ valid_val (b_max o)) /\
  (b_min o = VNone \/ b_max o = VNone \/
   exists m n, as_num (b_min o) = Some m /\ as_num (b_max o) = Some n /\ ~ ext_lt (ext_of n) (ext_of m)).
Lemma py_gt_ok a b r : py_gt a b = Ok r -> exists m n, as_num a = Some m /\ as_num b = Some n /\ r = ngt m n.
Proof. unfold py_gt. destruct (as_num a) as [m|], (as_num b) as [n|]; try discriminate. intros E. injection E as <-. eauto. Qed.
Lemma is_none_iff v : is_none v = true <-> v = VNone.
Proof. destruct v; simpl; split; congruence. Qed.
Lemma b_apply_good o a o' : b_good o -> valid_val (bop_val a) -> b_apply o a = Ok o' -> b_good o'.
Proof.
  intros ((Vm & VM) & _) Va H. destruct a as [v|v]; simpl in *; unfold set_min, set_max in H.
  - destruct (is_none (b_max o)) eqn:E; simpl in H.
    + injection H as <-. split; simpl; auto. apply is_none_iff in E. auto.
    + destruct (py_gt v (b_max o)) as [bad|] eqn:G; [|discriminate]. simpl in H. destruct bad; [discriminate|]. injection H as <-.
      apply py_gt_ok in G as (m & n & Hm & Hn & Hg). split; simpl; auto. right. right. exists m, n. repeat split; auto.
      intros K. apply nlt_ext in K; [|exact (as_num_valid _ _ VM Hn)|exact (as_num_valid _ _ Va Hm)]. unfold ngt in Hg. congruence.
  - destruct (is_none (b_min o)) eqn:E; simpl in H.
    + injection H as <-. split; simpl; auto. apply is_none_iff in E. auto.
    + destruct (py_gt (b_min o) v) as [bad|] eqn:G; [|discriminate]. simpl in H. destruct bad; [discriminate|]. injection H as <-.
      apply py_gt_ok in G as (m & n & Hm & Hn & Hg). split; simpl; auto. right. right. exists m, n. repeat split; auto.
      intros K. apply nlt_ext in K; [|exact (as_num_valid _ _ Va Hn)|exact (as_num_valid _ _ Vm Hm)]. unfold ngt in Hg. congruence.
Qed.
Lemma bounds_consistent l : Forall (fun a => valid_val (bop_val a)) l ->
  let o := assign_all b_apply b_start l in
  b_min o = VNone \/ b_max o = VNone \/
  exists m n, as_num (b_min o) = Some m /\ as_num (b_max o) = Some n /\ ~ ext_lt (ext_of n) (ext_of m).
Proof.
  intros HF. apply (assign_inv_in b_apply b_good (fun a => valid_val (bop_val a))); auto.
  - intros o a o' H1 H2. now apply b_apply_good.
  - split; simpl; auto.
Qed.
Lemma bounds_exact o v m : as_num v = Some m -> valid_val v -> valid_val (b_min o) -> valid_val (b_max o) ->
  ((exists o', b_apply o (SetMin v) = Ok o') <->
     b_max o = VNone \/ exists n, as_num (b_max o) = Some n /\ ~ ext_lt (ext_of n) (ext_of m)) /\
  ((exists o', b_apply o (SetMax v) = Ok o') <->
     b_min o = VNone \/ exists n, as_num (b_min o) = Some n /\ ~ ext_lt (ext_of m) (ext_of n)) /\
  (forall o', b_apply o (SetMin v) = Ok o' -> o' = BO v (b_max o)) /\
  (forall o', b_apply o (SetMax v) = Ok o' -> o' = BO (b_min o) v).
Proof.
  intros Hm Vv V1 V2. simpl. unfold set_min, set_max. repeat split.
  - intros [o' H]. destruct (is_none (b_max o)) eqn:E; [left; now apply is_none_iff|]. right.
    destruct (py_gt v (b_max o)) as [bad|] eqn:G; [|discriminate]. simpl in H. destruct bad; [discriminate|].
    apply py_gt_ok in G as (m' & n & Hm' & Hn & Hg). assert (m' = m) by congruence. subst. exists n. split; auto. intros K.
    apply nlt_ext in K; [|exact (as_num_valid _ _ V2 Hn)|exact (as_num_valid _ _ Vv Hm)]. unfold ngt in Hg. congruence.
  - intros [E|(n & Hn & K)]; [rewrite E; simpl; eauto|]. destruct (is_none (b_max o)); simpl; eauto.
    unfold py_gt. rewrite Hm, Hn. simpl. unfold ngt. destruct (nlt n m) eqn:L; eauto. exfalso. apply K.
    apply nlt_ext; auto; [exact (as_num_valid _ _ V2 Hn)|exact (as_num_valid _ _ Vv Hm)].
  - intros [o' H]. destruct (is_none (b_min o)) eqn:E; [left; now apply is_none_iff|]. right.
    destruct (py_gt (b_min o) v) as [bad|] eqn:G; [|discriminate]. simpl in H. destruct bad; [discriminate|].
    apply py_gt_ok in G as (n & m' & Hn & Hm' & Hg). assert (m' = m) by congruence. subst. exists n. split; auto. intros K.
    apply nlt_ext in K; [|exact (as_num_valid _ _ Vv Hm)|exact (as_num_valid _ _ V1 Hn)]. unfold ngt in Hg. congruence.
  - intros [E|(n & Hn & K)]; [rewrite E; simpl; eauto|]. destruct (is_none (b_min o)); simpl; eauto.
    unfold py_gt. rewrite Hm, Hn. simpl. unfold ngt. destruct (nlt m n) eqn:L; eauto. exfalso. apply K.
    apply nlt_ext; auto; [exact (as_num_valid _ _ Vv Hm)|exact (as_num_valid _ _ V1 Hn)].
  - intros o' H. destruct (is_none (b_max o)); simpl in H; [now injection H|]. destruct (py_gt v (b_max o)) as [[]|]; simpl in H; try discriminate. now injection H.
  - intros o' H. destruct (is_none (b_min o)); simpl in H; [now injection H|]. destruct (py_gt (b_min o) v) as [[]|]; simpl in H; try discriminate. now injection H.
Qed.

(** ** lengths *)
Lemma l_apply_good o a o' : l_good o -> l_apply o a = Ok o' -> l_good o'.
Proof.
  destruct o as [mn mx], o' as [mn' mx']. unfold l_good. simpl. intros (H1 & H2 & H3) H.
  destruct a as [v|v]; simpl in H; unfold set_min_length, set_max_length in H; simpl in H;
    destruct (as_int v) as [z|]; try discriminate; destruct (Z.ltb_spec z 0); try discriminate.
  - destruct mx as [n|].
    + destruct (Z.ltb_spec n z); try discriminate. injection H as <- <-. specialize (H2 n eq_refl).
      repeat split; intros; repeat match goal with H : Some _ = Some _ |- _ => injection H as H; subst end; lia.
    + injection H as <- <-. repeat split; intros; congruence.
  - destruct mn as [n|].
    + destruct (Z.ltb_spec z n); try discriminate. injection H as <- <-. specialize (H1 n eq_refl).
      repeat split; intros; repeat match goal with H : Some _ = Some _ |- _ => injection H as H; subst end; lia.
    + injection H as <- <-. repeat split; intros; congruence.
Qed.
Lemma lengths_consistent l : l_good (assign_all l_apply l_start l).
Proof. apply (assign_inv l_apply l_good). - intros o a o'. apply l_apply_good. - repeat split; simpl; intros; congruence. Qed.
Lemma lengths_exact o z :
  ((exists o', l_apply o (SetMinLength (VInt z)) = Ok o') <-> (0 <= z)%Z /\ forall n, l_max o = Some n -> (z <= n)%Z) /\
  ((exists o', l_apply o (SetMaxLength (VInt z)) = Ok o') <-> (0 <= z)%Z /\ forall n, l_min o = Some n -> (n <= z)%Z) /\
  (forall o', l_apply o (SetMinLength (VInt z)) = Ok o' -> o' = LO (Some z) (l_max o)) /\
  (forall o', l_apply o (SetMaxLength (VInt z)) = Ok o' -> o' = LO (l_min o) (Some z)).
Proof.
  simpl. unfold set_min_length, set_max_length. simpl.
  destruct (Z.ltb_spec z 0); [repeat split; intros; try (destruct H0; discriminate); try discriminate; lia|].
  repeat split; intros.
  - lia.
  - destruct H0 as [o' H0]. rewrite H1 in H0. destruct (Z.ltb_spec n z); [discriminate|lia].
  - destruct H0 as [_ H0]. destruct (l_max o) as [n|]; eauto. specialize (H0 n eq_refl). destruct (Z.ltb_spec n z); [lia|eauto].
  - lia.
  - destruct H0 as [o' H0]. rewrite H1 in H0. destruct (Z.ltb_spec z n); [discriminate|lia].
  - destruct H0 as [_ H0]. destruct (l_min o) as [n|]; eauto. specialize (H0 n eq_refl). destruct (Z.ltb_spec z n); [lia|eauto].
  - destruct (match l_max o with Some m => (m <? z)%Z | None => false end); [discriminate|]. now injection H0.
  - destruct (match l_min o with Some m => (z <? m)%Z | None => false end); [discriminate|]. now injection H0.
Qed.

(** ** modes *)
Lemma str_mem_In s l : str_mem s l = true <-> In s l.
Proof.
  unfold str_mem. rewrite existsb_exists. split.
  - intros (x & H & E). apply String.eqb_eq in E. now subst.
  - intros H. exists s. split; auto. apply String.eqb_refl.
Qed.
Lemma all_strs_iff l t : all_strs l = Some t <-> l = map VStr t.
Proof.
  revert t. induction l as [|x l IH]; simpl; intros t.
  - split; [now injection 1 as <-|destruct t; [auto|discriminate]].
  - destruct x; try (split; [discriminate|destruct t; discriminate]).
    destruct (all_strs l) as [r|].
    + split; [intros E; injection E as <-; simpl; f_equal; now apply IH|]. destruct t as [|y t]; [discriminate|]. intros E. injection E as -> E.
      do 2 f_equal. apply IH in E. congruence.
    + split; [discriminate|]. destruct t as [|y t]; [discriminate|]. intros E. injection E as -> E. apply IH in E. discriminate.
Qed.
Lemma mem_strs s t : mem_val (VStr s) (map VStr t) = true <-> In s t.
Proof.
  unfold mem_val. rewrite existsb_exists. split.
  - intros (x & H & E). apply in_map_iff in H as (y & <- & H). simpl in E. apply String.eqb_eq in E. now subst.
  - intros H. exists (VStr s). split; [now apply in_map|simpl; apply String.eqb_refl].
Qed.
Lemma set_mode_ok modes v o o' : set_mode modes v o = Ok o' ->
  m_valid o' = m_valid o /\ (v = VNone /\ m_mode o' = None \/ exists s, v = VStr s /\ In s modes /\ m_mode o' = Some s).
Proof.
  unfold set_mode. destruct v; try discriminate.
  - intros E. injection E as <-. auto.
  - destruct (str_mem s modes) eqn:E; [|discriminate]. apply str_mem_In in E. intros K. injection K as <-. split; auto. right. eauto.
Qed.
Lemma set_valid_ok modes v o o' : set_valid_modes modes v o = Ok o' ->
  m_mode o' = m_mode o /\ exists l m, m_valid o' = Some l /\ incl l modes /\ m_mode o = Some m /\ In m l.
Proof.
  unfold set_valid_modes. destruct (negb _) eqn:E1; [discriminate|]. apply Bool.negb_false_iff in E1.
  destruct (all_strs _) as [l|] eqn:E2; [|discriminate]. apply all_strs_iff in E2.
  destruct (forallb _ l) eqn:E3; [|discriminate]. intros E. injection E as <-. split; auto. rewrite E2 in E1.
  destruct (m_mode o) as [m|].
  - exists l, m. repeat split; auto; [|now apply mem_strs]. intros x Hx. rewrite forallb_forall in E3. now apply str_mem_In, E3.
  - exfalso. unfold mem_val in E1. apply existsb_exists in E1 as (x & H & K). apply in_map_iff in H as (y & <- & _). discriminate.
Qed.
Lemma m_apply_known modes o a o' : m_known modes o -> m_apply modes o a = Ok o' -> m_known modes o'.
Proof.
  intros (H1 & H2) H. destruct a as [v|v]; simpl in H.
  - apply set_mode_ok in H as (E & K). split; [|rewrite E; auto]. destruct K as [(_ & ->)|(s & _ & K & ->)]; [discriminate|]. now injection 1 as <-.
  - apply set_valid_ok in H as (E & l & m & K & Ki & _). split; [rewrite E; auto|]. rewrite K. now injection 1 as <-.
Qed.
Lemma modes_known modes l : m_known modes (assign_all (m_apply modes) (MO None None) l).
Proof. apply (assign_inv (m_apply modes) (m_known modes)). - intros. eapply m_apply_known; eauto. - split; simpl; congruence. Qed.
(** modes first, then valid modes: the order of the constructor *)
Lemma modes_consistent modes ms vs m :
  let o := assign_all (m_apply modes) (assign_all (m_apply modes) (MO None None) (map SetMode ms)) (map SetValidModes vs) in
  m_mode o = Some m -> exists l, valid_modes o = Some l /\ In m l.
Proof.
  set (o0 := assign_all _ _ (map SetMode ms)). intros o.
  assert (H0 : m_valid o0 = None).
  { apply (assign_inv_in (m_apply modes) (fun o => m_valid o = None) (fun a => exists v, a = SetMode v)); auto.
    - intros o1 a o2 Ho [v ->] E. apply set_mode_ok in E as [E _]. congruence.
    - apply Forall_forall. intros x Hx. apply in_map_iff in Hx as (v & <- & _). eauto. }
  assert (H1 : forall m, m_mode o = Some m -> m_valid o = None \/ exists l, m_valid o = Some l /\ In m l).
  { apply (assign_inv_in (m_apply modes) (fun o => forall m, m_mode o = Some m -> m_valid o = None \/ exists l, m_valid o = Some l /\ In m l)
             (fun a => exists v, a = SetValidModes v)); auto.
    - intros o1 a o2 Ho [v ->] E m' Hm. apply set_valid_ok in E as (E & l & m2 & K & _ & M & Hin). right. exists l. split; auto. congruence.
    - apply Forall_forall. intros x Hx. apply in_map_iff in Hx as (v & <- & _). eauto. }
  intros Hm. unfold valid_modes. destruct (H1 m Hm) as [->|(l & -> & Hin)]; [rewrite Hm; exists [m]; simpl; auto|eauto].
Qed.
Lemma valid_modes_exact modes o v l : v = VTuple (map VStr l) ->
  ((exists o', m_apply modes o (SetValidModes v) = Ok o') <-> incl l modes /\ exists m, m_mode o = Some m /\ In m l) /\
  (forall o', m_apply modes o (SetValidModes v) = Ok o' -> o' = MO (m_mode o) (Some l)).
Proof.
  intros ->. simpl. unfold set_valid_modes. assert (Es : all_strs (map VStr l) = Some l) by now apply all_strs_iff. split.
  - split.
    + intros [o' H]. pose proof (set_valid_ok modes (VTuple (map VStr l)) o o' H) as (E & l' & m & K & Ki & M & Hin).
      destruct (negb _); [discriminate|]. rewrite Es in H. destruct (forallb _ l); [|discriminate]. injection H as <-. simpl in K.
      assert (l' = l) by congruence. subst. eauto.
    + intros (Hi & m & -> & Hin). rewrite (proj2 (mem_strs m l) Hin), Es. simpl.
      replace (forallb (fun s => str_mem s modes) l) with true; [eauto|]. symmetry. apply forallb_forall. intros x Hx. apply str_mem_In. auto.
  - intros o' H. destruct (negb _); [discriminate|]. rewrite Es in H. destruct (forallb _ l); [|discriminate]. now injection H.
Qed.

(** ** choices *)
Lemma nodup_length_NoDup (l : list string) : length l = length (nodup string_dec l) <-> NoDup l.
Proof.
  split.
  - induction l as [|x l IH]; simpl; [constructor|]. destruct (in_dec string_dec x l) as [i|n].
    + intros H. exfalso. assert (length (nodup string_dec l) <= length l)%nat.
      { apply NoDup_incl_length; [apply NoDup_nodup|]. intros y. apply nodup_In. } lia.
    + intros H. constructor; auto.
  - intros H. now rewrite nodup_fixed_point.
Qed.
Lemma set_choices_ok v o o' : set_choices v o = Ok o' ->
  c_case o' = c_case o /\ c_descr o' = c_descr o /\ no_collisions (c_case o) (c_choices o').
Proof.
  unfold set_choices. destruct (match v with VTuple _ => _ | _ => _ end) as [pairs|] eqn:E; [|discriminate]. simpl.
  destruct (all_some _) as [t|]; [|discriminate]. destruct (Nat.eqb _ _) eqn:L; [|discriminate]. intros K. injection K as <-.
  repeat split. apply Nat.eqb_eq in L. unfold no_collisions, table_keys. simpl.
  replace (map (fun s => if c_case o then s else str_upper s) (flat_map (fun kv => fst kv :: snd kv) t)) with
    (if c_case o then flat_map (fun kv => fst kv :: snd kv) t else map str_upper (flat_map (fun kv => fst kv :: snd kv) t))
    by (destruct (c_case o); [now rewrite map_id|reflexivity]).
  apply nodup_length_NoDup. rewrite <- L. destruct (c_case o); [reflexivity|now rewrite map_length].
Qed.
Lemma choices_kept o l : no_collisions (c_case o) (c_choices o) -> Forall (fun a => forall v, a <> SetCase v) l ->
  let o' := assign_all c_apply o l in c_case o' = c_case o /\ no_collisions (c_case o') (c_choices o').
Proof.
  intros H HF. apply (assign_inv_in c_apply (fun o' => c_case o' = c_case o /\ no_collisions (c_case o') (c_choices o')) (fun a => forall v, a <> SetCase v)); auto.
  intros o1 a o2 (Hc & Hn) Ha E. destruct a as [v|v|v]; simpl in E.
  - apply set_choices_ok in E as (E1 & _ & E2). rewrite E1. split; congruence.
  - now destruct (Ha v).
  - unfold set_descriptions in E. destruct v; try discriminate. destruct (negb _); [discriminate|]. destruct (all_some _); [|discriminate].
    destruct (forallb _ _); [|discriminate]. now injection E as <-.
Qed.
Lemma all_some_map {A B} (f : A -> option B) l t : all_some (map f l) = Some t <-> Forall2 (fun a b => f a = Some b) l t.
Proof.
  revert t. induction l as [|a l IH]; simpl; intros t.
  - split; [intros E; injection E as <-; constructor|intros E; now inversion E].
  - destruct (f a) as [b|] eqn:Ef; [|split; [discriminate|intros E; inversion E; congruence]].
    destruct (all_some (map f l)) as [r|].
    + split.
      * intros E. injection E as <-. constructor; auto. now apply IH.
      * intros E. inversion E as [|? b' ? t' H1 H2]; subst. apply IH in H2. congruence.
    + split; [discriminate|]. intros E. inversion E as [|? b' ? t' H1 H2]; subst. apply IH in H2. discriminate.
Qed.
(** a dictionary of strings to lists of strings *)
Lemma choices_dict_exact o (t : table) :
  let v := VDict (map (fun kv => (VStr (fst kv), VList (map VStr (snd kv)))) t) in
  ((exists o', set_choices v o = Ok o') <-> no_collisions (c_case o) t) /\
  (forall o', set_choices v o = Ok o' -> o' = CO (c_case o) t (c_descr o)).
Proof.
  intros v. unfold v, set_choices. rewrite map_map. simpl.
  assert (E : all_some (map pair_strs (map (fun x : string * list string => (VStr (fst x), map VStr (snd x))) t)) = Some t).
  { clear. induction t as [|[k l] t IH]; simpl; auto. unfold pair_strs at 1. simpl. rewrite (proj2 (all_strs_iff _ l) eq_refl), IH. reflexivity. }
  rewrite E. unfold no_collisions, table_keys.
  replace (map (fun s => if c_case o then s else str_upper s) (flat_map (fun kv => fst kv :: snd kv) t)) with
    (if c_case o then flat_map (fun kv => fst kv :: snd kv) t else map str_upper (flat_map (fun kv => fst kv :: snd kv) t))
    by (destruct (c_case o); [now rewrite map_id|reflexivity]).
  assert (L : length (if c_case o then flat_map (fun kv : string * list string => fst kv :: snd kv) t else map str_upper (flat_map (fun kv => fst kv :: snd kv) t))
              = length (flat_map (fun kv => fst kv :: snd kv) t)) by (destruct (c_case o); [reflexivity|now rewrite map_length]).
  rewrite <- nodup_length_NoDup. rewrite L. destruct (Nat.eqb_spec (length (flat_map (fun kv => fst kv :: snd kv) t))
    (length (nodup string_dec (if c_case o then flat_map (fun kv => fst kv :: snd kv) t else map str_upper (flat_map (fun kv => fst kv :: snd kv) t))))).
  - split; [split; eauto|]. intros o' K. now injection K.
  - split; [split; [intros [? K]; discriminate|intros; contradiction]|discriminate].
Qed.
Lemma descriptions_cover o v o' : NoDup (map fst (c_choices o)) -> (exists kvs, v = VDict kvs /\ NoDup (map fst kvs)) ->
  set_descriptions v o = Ok o' ->
  exists ds, c_descr o' = Some ds /\ c_case o' = c_case o /\ c_choices o' = c_choices o /\
    forall k, In k (map fst ds) <-> In k (map fst (c_choices o)).
Proof.
  intros HN (kvs & -> & HK) H. unfold set_descriptions in H. destruct (negb _) eqn:L; [discriminate|].
  apply Bool.negb_false_iff, Nat.eqb_eq in L.
  destruct (all_some _) as [ds|] eqn:E; [|discriminate]. destruct (forallb _ ds) eqn:F; [|discriminate]. injection H as <-.
  exists ds. repeat split; auto; simpl.
  - intros Hk. apply in_map_iff in Hk as (kd & <- & Hk). rewrite forallb_forall in F. specialize (F kd Hk). unfold dhas in F.
    destruct (dget (c_choices o) (fst kd)) eqn:G; [|discriminate]. apply dget_in in G. apply in_map_iff. eexists. split; [|exact G]. reflexivity.
  - apply all_some_map in E.
    assert (Hds : map fst kvs = map (fun kd => VStr (fst kd)) ds).
    { clear - E. induction E as [|a b l l' H1 H2 IH]; simpl; auto. f_equal; auto. destruct a as [ka va]. simpl in *.
      destruct ka; try discriminate. destruct va; try discriminate. now injection H1 as <-. }
    assert (ND : NoDup (map fst ds)).
    { rewrite Hds, <- map_map in HK. now apply NoDup_map_inv in HK. }
    intros Hk. apply (@NoDup_length_incl _ _ (map fst (c_choices o)) ND); auto.
    + rewrite !map_length, <- L. clear - E. induction E; simpl; auto using le_n_S.
    + intros x Hx. apply in_map_iff in Hx as (kd & <- & Hx). rewrite forallb_forall in F. specialize (F kd Hx). unfold dhas in F.
      destruct (dget (c_choices o) (fst kd)) eqn:G; [|discriminate]. apply dget_in in G. apply in_map_iff. eexists. split; [|exact G]. reflexivity.
Qed.
