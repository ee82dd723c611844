(** Lemmas: exactly which option assignments are accepted, and what is raised
    otherwise. *)
From Verif Require Import Options Arrays NumSpec FloatProofs BasicSpec OptionsSpec OptionsFacts ArraysFacts.
From Coq Require Import Lia.
Local Open Scope string_scope.
Local Open Scope list_scope.

(** ** bounds *)
Lemma min_iff o v o' : valid_val v -> valid_val (b_max o) ->
  (b_apply o (SetMin v) = Ok o' <-> o' = BO v (b_max o) /\
     (b_max o = VNone \/ exists m n, as_num v = Some m /\ as_num (b_max o) = Some n /\ ~ ext_lt (ext_of n) (ext_of m))).
Proof.
  intros Vv Vm. cbn [b_apply]. unfold set_min. destruct (is_none (b_max o)) eqn:E; simpl.
  { apply is_none_iff in E. split; [intros [= <-]; auto|intros [-> _]; auto]. }
  split.
  - destruct (py_gt v (b_max o)) as [[]|] eqn:G; try discriminate. simpl. intros [= <-]. split; auto. right.
    apply py_gt_ok in G as (m & n & Hm & Hn & Hg). exists m, n. repeat split; auto. intros K.
    apply nlt_ext in K; [|exact (as_num_valid _ _ Vm Hn)|exact (as_num_valid _ _ Vv Hm)]. unfold ngt in Hg. congruence.
  - intros [-> [K|(m & n & Hm & Hn & K)]]; [apply is_none_iff in K; congruence|].
    unfold py_gt. rewrite Hm, Hn. simpl. unfold ngt. destruct (nlt n m) eqn:L; auto. exfalso. apply K.
    apply nlt_ext; auto; [exact (as_num_valid _ _ Vm Hn)|exact (as_num_valid _ _ Vv Hm)].
Qed.
Lemma max_iff o v o' : valid_val v -> valid_val (b_min o) ->
  (b_apply o (SetMax v) = Ok o' <-> o' = BO (b_min o) v /\
     (b_min o = VNone \/ exists m n, as_num (b_min o) = Some m /\ as_num v = Some n /\ ~ ext_lt (ext_of n) (ext_of m))).
Proof.
  intros Vv Vm. cbn [b_apply]. unfold set_max. destruct (is_none (b_min o)) eqn:E; simpl.
  { apply is_none_iff in E. split; [intros [= <-]; auto|intros [-> _]; auto]. }
  split.
  - destruct (py_gt (b_min o) v) as [[]|] eqn:G; try discriminate. simpl. intros [= <-]. split; auto. right.
    apply py_gt_ok in G as (m & n & Hm & Hn & Hg). exists m, n. repeat split; auto. intros K.
    apply nlt_ext in K; [|exact (as_num_valid _ _ Vv Hn)|exact (as_num_valid _ _ Vm Hm)]. unfold ngt in Hg. congruence.
  - intros [-> [K|(m & n & Hm & Hn & K)]]; [apply is_none_iff in K; congruence|].
    unfold py_gt. rewrite Hm, Hn. simpl. unfold ngt. destruct (nlt n m) eqn:L; auto. exfalso. apply K.
    apply nlt_ext; auto; [exact (as_num_valid _ _ Vv Hn)|exact (as_num_valid _ _ Vm Hm)].
Qed.
Lemma bounds_iff o v o' : valid_val v -> valid_val (b_min o) -> valid_val (b_max o) ->
  (b_apply o (SetMin v) = Ok o' <-> o' = BO v (b_max o) /\
     (b_max o = VNone \/ exists m n, as_num v = Some m /\ as_num (b_max o) = Some n /\ ~ ext_lt (ext_of n) (ext_of m))) /\
  (b_apply o (SetMax v) = Ok o' <-> o' = BO (b_min o) v /\
     (b_min o = VNone \/ exists m n, as_num (b_min o) = Some m /\ as_num v = Some n /\ ~ ext_lt (ext_of n) (ext_of m))).
Proof. intros. split; [now apply min_iff|now apply max_iff]. Qed.

(** ** lengths *)
Lemma as_int_iff v z : as_int v = Some z <-> is_int v z.
Proof.
  unfold is_int. split.
  - destruct v; try discriminate; [destruct b|]; intros [= <-]; auto.
  - intros [->|[[-> ->]|[-> ->]]]; reflexivity.
Qed.
Lemma lengths_iff o v o' :
  (l_apply o (SetMinLength v) = Ok o' <->
     exists z, is_int v z /\ (0 <= z)%Z /\ (forall n, l_max o = Some n -> (z <= n)%Z) /\ o' = LO (Some z) (l_max o)) /\
  (l_apply o (SetMaxLength v) = Ok o' <->
     exists z, is_int v z /\ (0 <= z)%Z /\ (forall n, l_min o = Some n -> (n <= z)%Z) /\ o' = LO (l_min o) (Some z)).
Proof.
  cbn [l_apply]. unfold set_min_length, set_max_length. split; split.
  - destruct (as_int v) as [z|] eqn:E; [|discriminate]. apply as_int_iff in E. destruct (Z.ltb_spec z 0); [discriminate|].
    intros H1. exists z. split; auto. split; auto. destruct (l_max o) as [m|].
    + destruct (Z.ltb_spec m z); [discriminate|]. injection H1 as <-. split; auto. intros n [= <-]. auto.
    + injection H1 as <-. split; auto. discriminate.
  - intros (z & E & Hz & Hm & ->). apply as_int_iff in E. rewrite E. destruct (Z.ltb_spec z 0); [lia|].
    destruct (l_max o) as [m|]; auto. specialize (Hm m eq_refl). destruct (Z.ltb_spec m z); [lia|auto].
  - destruct (as_int v) as [z|] eqn:E; [|discriminate]. apply as_int_iff in E. destruct (Z.ltb_spec z 0); [discriminate|].
    intros H1. exists z. split; auto. split; auto. destruct (l_min o) as [m|].
    + destruct (Z.ltb_spec z m); [discriminate|]. injection H1 as <-. split; auto. intros n [= <-]. auto.
    + injection H1 as <-. split; auto. discriminate.
  - intros (z & E & Hz & Hm & ->). apply as_int_iff in E. rewrite E. destruct (Z.ltb_spec z 0); [lia|].
    destruct (l_min o) as [m|]; auto. specialize (Hm m eq_refl). destruct (Z.ltb_spec z m); [lia|auto].
Qed.

(** ** modes *)
Lemma mode_iff modes o v o' : m_apply modes o (SetMode v) = Ok o' <->
  (v = VNone /\ o' = MO None (m_valid o)) \/ exists s, v = VStr s /\ In s modes /\ o' = MO (Some s) (m_valid o).
Proof.
  cbn [m_apply]. unfold set_mode. split.
  - destruct v; try discriminate; [intros [= <-]; auto|]. destruct (str_mem s modes) eqn:M; [|discriminate].
    apply str_mem_In in M. intros [= <-]. eauto.
  - intros [[-> ->]|(s & -> & M & ->)]; auto. apply str_mem_In in M. now rewrite M.
Qed.
Lemma strings_items v l : (match v with VSet x | VList x | VTuple x => x | _ => [v] end) = map VStr l <-> strings v l.
Proof.
  unfold strings, collection. split.
  - intros H. destruct v; try (left; subst; auto; fail).
    all: right; destruct l as [|s0 [|? ?]]; try discriminate; injection H as H; try discriminate; subst; eauto.
  - intros [[->|[->| ->]]|(s & -> & ->)]; reflexivity.
Qed.
Lemma valid_modes_iff modes o v o' : m_apply modes o (SetValidModes v) = Ok o' <->
  exists l m, strings v l /\ incl l modes /\ m_mode o = Some m /\ In m l /\ o' = MO (m_mode o) (Some l).
Proof.
  cbn [m_apply]. split.
  - intros H. pose proof (set_valid_ok modes v o o' H) as (E & l' & m & K & Ki & M & Hin). unfold set_valid_modes in H.
    destruct (negb _); [discriminate|]. destruct (all_strs _) as [l|] eqn:A; [|discriminate].
    destruct (forallb _ l); [|discriminate]. injection H as <-. simpl in K. assert (l' = l) by congruence. subst l'.
    apply all_strs_iff in A. apply strings_items in A. exists l, m. auto.
  - intros (l & m & S & Hi & M & Hin & ->). unfold set_valid_modes. apply strings_items in S. rewrite S, M.
    rewrite (proj2 (mem_strs m l) Hin), (proj2 (all_strs_iff _ l) eq_refl). simpl.
    replace (forallb (fun s => str_mem s modes) l) with true; auto. symmetry. apply forallb_forall. intros x Hx. apply str_mem_In. auto.
Qed.
Lemma file_modes_iff s : In s file_modes <->
  exists a b c, In a ["r"; "w"; "a"] /\ In b [""; "b"] /\ In c [""; "+"] /\ s = (a ++ b ++ c)%string.
Proof.
  split.
  - unfold file_modes. cbn [In]. intros H.
    repeat (destruct H as [<-|H]; [first
      [exists "r", "", ""; cbn; tauto|exists "r", "", "+"; cbn; tauto|exists "r", "b", ""; cbn; tauto|exists "r", "b", "+"; cbn; tauto
      |exists "w", "", ""; cbn; tauto|exists "w", "", "+"; cbn; tauto|exists "w", "b", ""; cbn; tauto|exists "w", "b", "+"; cbn; tauto
      |exists "a", "", ""; cbn; tauto|exists "a", "", "+"; cbn; tauto|exists "a", "b", ""; cbn; tauto|exists "a", "b", "+"; cbn; tauto]|]).
    contradiction.
  - intros (a & b & c & Ha & Hb & Hc & ->). cbn [In] in Ha, Hb, Hc.
    destruct Ha as [<-|[<-|[<-|[]]]]; destruct Hb as [<-|[<-|[]]]; destruct Hc as [<-|[<-|[]]]; cbn; tauto.
Qed.
Lemma png_modes_iff s : In s png_modes <-> In s file_modes /\ In "b"%char (chars s) /\ (In "r"%char (chars s) \/ In "+"%char (chars s)).
Proof.
  split.
  - unfold png_modes. cbn [In]. intros H. repeat (destruct H as [<-|H]; [cbn; tauto|]). contradiction.
  - intros (H & B & R). unfold file_modes in H. cbn [In] in H.
    repeat (destruct H as [<-|H]; [cbn in B, R |- *; first [tauto|intuition discriminate]|]). contradiction.
Qed.

(** ** choices *)
Lemma dedup_strs ks : forall acc, NoDup ks -> (forall k, In k ks -> ~ In k acc) -> dedup (map VStr ks) (map VStr acc) = map VStr (acc ++ ks).
Proof.
  induction ks as [|k ks IH]; intros acc N D; simpl; [now rewrite app_nil_r|]. inversion N as [|? ? N1 N2]; subst.
  destruct (mem_val (VStr k) (map VStr acc)) eqn:M; [apply mem_strs in M; destruct (D k); simpl; auto|].
  change [VStr k] with (map VStr [k]). rewrite <- map_app, IH; auto.
  - now rewrite <- app_assoc.
  - intros k' Hk Hin. apply in_app_iff in Hin as [Hin|[<-|[]]]; [destruct (D k'); simpl; auto|auto].
Qed.
Lemma py_set_strs ks : NoDup ks -> py_set (map VStr ks) = Ok (map VStr ks).
Proof.
  intros N. unfold py_set. replace (forallb hashable (map VStr ks)) with true.
  - pose proof (dedup_strs ks [] N (fun _ _ H => H)) as D. cbn [map app] in D. now rewrite D.
  - symmetry. apply forallb_forall. intros x Hx. apply in_map_iff in Hx as (k & <- & _). reflexivity.
Qed.
Lemma Forall2_map_l {A B C} (f : A -> B) (R : B -> C -> Prop) l t : Forall2 R (map f l) t <-> Forall2 (fun a c => R (f a) c) l t.
Proof.
  split.
  - revert t. induction l as [|a l IH]; simpl; intros t H; inversion H; subst; constructor; auto.
  - induction 1; simpl; constructor; auto.
Qed.
Lemma Forall2_iff {A B} (R S : A -> B -> Prop) : (forall a b, R a b <-> S a b) -> forall l t, Forall2 R l t <-> Forall2 S l t.
Proof. intros H l t. split; induction 1; constructor; auto; now apply H. Qed.
Lemma pair_strs_iff k x c : pair_strs (k, x) = Some c <-> k = VStr (fst c) /\ x = map VStr (snd c).
Proof.
  unfold pair_strs. cbn [fst snd]. destruct c as [k' l]. cbn [fst snd]. split.
  - destruct k; try discriminate. destruct (all_strs x) as [y|] eqn:A; [|discriminate]. intros [= <- <-]. split; auto. now apply all_strs_iff.
  - intros [-> E]. apply all_strs_iff in E. now rewrite E.
Qed.
(** the pairs of a table *)
Definition pairs_of (v : val) : res (list (val * list val)) :=
  match v with
  | VSet l | VList l | VTuple l =>
      rbind (py_set l) (fun s => if Nat.eqb (length l) (length s) then Ok (map (fun x => (x, [])) l) else Exc ExType)
  | VDict kvs => Ok (map (fun kv => (fst kv, match snd kv with VSet l | VList l | VTuple l => l | x => [x] end)) kvs)
  | _ => Exc ExType
  end.
Lemma pairs_list l t : Forall2 (fun a c => pair_strs a = Some c) (map (fun x : val => (x, [])) l) t <->
  l = map (fun kv => VStr (fst kv)) t /\ Forall (fun kv : string * list string => snd kv = []) t.
Proof.
  rewrite Forall2_map_l. split.
  - induction 1 as [|x c l t H _ [IH1 IH2]]; simpl; auto. apply pair_strs_iff in H as [-> H].
    destruct c as [k [|]]; [|discriminate]. subst l. split; auto.
  - intros [-> F]. induction F as [|[k l] t H F IH]; simpl in *; constructor; auto. subst l. now apply pair_strs_iff.
Qed.
Lemma pairs_dict kvs t :
  Forall2 (fun a c => pair_strs a = Some c)
    (map (fun kv : val * val => (fst kv, match snd kv with VSet l | VList l | VTuple l => l | x => [x] end)) kvs) t <->
  Forall2 (fun kv c => fst kv = VStr (fst c) /\ strings (snd kv) (snd c)) kvs t.
Proof.
  rewrite Forall2_map_l. apply Forall2_iff. intros kv c. rewrite pair_strs_iff, <- strings_items. destruct kv as [k []]; cbn [fst snd]; tauto.
Qed.
Lemma choices_iff o v o' : c_apply o (SetChoices v) = Ok o' <->
  exists t, gives_table v t /\ no_collisions (c_case o) t /\ o' = CO (c_case o) t (c_descr o).
Proof.
  cbn [c_apply]. unfold set_choices. fold (pairs_of v).
  set (k := fun pairs => match all_some (map pair_strs pairs) with None => _ | Some t => _ end).
  assert (K : forall pairs, k pairs = Ok o' <-> exists t, Forall2 (fun a c => pair_strs a = Some c) pairs t /\
    no_collisions (c_case o) t /\ o' = CO (c_case o) t (c_descr o)).
  { intros pairs. unfold k. destruct (all_some (map pair_strs pairs)) as [t|] eqn:A.
    - assert (forall P : Prop, (exists t0, Forall2 (fun a c => pair_strs a = Some c) pairs t0 /\
        no_collisions (c_case o) t0 /\ o' = CO (c_case o) t0 (c_descr o)) <-> no_collisions (c_case o) t /\ o' = CO (c_case o) t (c_descr o)) as U.
      { intros _. split.
        - intros (t0 & F & R). apply all_some_map in F. assert (t0 = t) by congruence. now subst.
        - intros R. exists t. split; auto. now apply all_some_map. }
      rewrite (U True). clear U. unfold no_collisions, table_keys. cbv zeta.
      replace (map (fun s => if c_case o then s else str_upper s) (flat_map (fun kv => fst kv :: snd kv) t)) with
        (if c_case o then flat_map (fun kv => fst kv :: snd kv) t else map str_upper (flat_map (fun kv => fst kv :: snd kv) t))
        by (destruct (c_case o); [now rewrite map_id|reflexivity]).
      rewrite <- nodup_length_NoDup.
      replace (length (if c_case o then flat_map (fun kv : string * list string => fst kv :: snd kv) t else map str_upper (flat_map (fun kv => fst kv :: snd kv) t)))
        with (length (flat_map (fun kv : string * list string => fst kv :: snd kv) t)) by (destruct (c_case o); [reflexivity|now rewrite map_length]).
      destruct (Nat.eqb_spec (length (flat_map (fun kv => fst kv :: snd kv) t))
        (length (nodup string_dec (if c_case o then flat_map (fun kv => fst kv :: snd kv) t else map str_upper (flat_map (fun kv => fst kv :: snd kv) t))))) as [e|n].
      + split; [intros [= <-]; auto|intros [_ ->]; auto].
      + split; [discriminate|]. intros [E _]. contradiction.
    - split; [discriminate|]. intros (t & F & _). apply all_some_map in F. congruence. }
  assert (L : forall l, (rbind (rbind (py_set l) (fun s => if Nat.eqb (length l) (length s) then Ok (map (fun x => (x, [])) l) else Exc ExType)) k = Ok o' <->
    exists t, (l = map (fun kv => VStr (fst kv)) t /\ Forall (fun kv => snd kv = []) t) /\ no_collisions (c_case o) t /\ o' = CO (c_case o) t (c_descr o))).
  { intros l. split.
    - destruct (py_set l) as [s|]; [|discriminate]. cbn [rbind]. destruct (Nat.eqb _ _); [|discriminate]. cbn [rbind].
      intros H. apply K in H as (t & F & R). exists t. split; auto. now apply pairs_list.
    - intros (t & [-> F] & N & ->).
      assert (NoDup (map fst t)) as ND.
      { unfold no_collisions, table_keys in N. apply NoDup_map_inv in N. clear - N F. induction F as [|[k l] t H F IH]; simpl in *; [constructor|].
        subst l. simpl in N. inversion N; subst. constructor; auto. intros Hin. apply H1.
        clear - Hin F. induction F as [|[k' l] t H F IH]; simpl in *; [contradiction|]. subst. simpl. tauto. }
      rewrite <- (map_map fst VStr). rewrite py_set_strs by auto. cbn [rbind]. rewrite Nat.eqb_refl. cbn [rbind].
      apply K. exists t. split; auto. apply pairs_list. split; auto. now rewrite map_map. }
  unfold gives_table, collection. destruct v; cbn [pairs_of].
  all: try (split; [discriminate|intros (t & [[[?|[?|?]] _]|(kvs & ? & _)] & _); discriminate]).
  all: try (rewrite L; split; [intros (t & [E F] & R); exists t; split; auto; left; split; auto; subst; auto
           |intros (t & [[[E|[E|E]] F]|(kvs & E & _)] & R); try discriminate; injection E as ->; eauto]).
  cbn [rbind]. rewrite K. split.
  - intros (t & F & R). exists t. split; auto. right. eexists. split; [reflexivity|]. now apply pairs_dict.
  - intros (t & [[[E|[E|E]] _]|(kvs & E & F)] & R); try discriminate. injection E as ->. exists t. split; auto. now apply pairs_dict.
Qed.
Lemma case_iff o v o' : c_apply o (SetCase v) = Ok o' <-> exists b, v = VBool b /\ o' = CO b (c_choices o) (c_descr o).
Proof. cbn [c_apply]. split; [destruct v; try discriminate; intros [= <-]; eauto|intros (b & -> & ->); reflexivity]. Qed.
Lemma descriptions_iff o v o' : NoDup (map fst (c_choices o)) -> (forall kvs, v = VDict kvs -> NoDup (map fst kvs)) ->
  (c_apply o (SetDescriptions v) = Ok o' <->
   exists ds, v = VDict (map (fun kd => (VStr (fst kd), VStr (snd kd))) ds) /\
     (forall k, In k (map fst ds) <-> In k (map fst (c_choices o))) /\ o' = CO (c_case o) (c_choices o) (Some ds)).
Proof.
  intros HN HK. cbn [c_apply]. split.
  - intros H. assert (exists kvs, v = VDict kvs) as [kvs ->] by (destruct v; try discriminate; eauto).
    destruct (descriptions_cover o (VDict kvs) o' HN) as (ds & D1 & D2 & D3 & D4); eauto.
    exists ds. unfold set_descriptions in H. destruct (negb _); [discriminate|]. destruct (all_some _) as [ds'|] eqn:A; [|discriminate].
    destruct (forallb _ ds'); [|discriminate]. injection H as <-. simpl in *. injection D1 as ->. split; auto.
    apply all_some_map in A. f_equal. clear - A. induction A as [|[k x] [k' d] l t H _ IH]; simpl in *; auto. f_equal; auto.
    destruct k; try discriminate. destruct x; try discriminate. now injection H as <- <-.
  - intros (ds & -> & Hk & ->). unfold set_descriptions.
    assert (NoDup (map fst ds)) as ND.
    { specialize (HK _ eq_refl). rewrite map_map in HK. simpl in HK. rewrite <- (map_map fst VStr) in HK. now apply NoDup_map_inv in HK. }
    assert (length ds = length (c_choices o)) as EL.
    { rewrite <- (map_length fst ds), <- (map_length fst (c_choices o)). apply Nat.le_antisymm; apply NoDup_incl_length; auto; intros k; apply Hk. }
    rewrite map_length, EL, Nat.eqb_refl. cbn [negb].
    replace (all_some _) with (Some ds).
    + replace (forallb _ ds) with true; auto. symmetry. apply forallb_forall. intros [k d] Hin.
      unfold dhas. cbn [fst]. destruct (dget (c_choices o) k) eqn:G; auto. exfalso.
      assert (In k (map fst (c_choices o))) as Hin2 by (apply Hk; apply in_map_iff; exists (k, d); auto).
      apply in_map_iff in Hin2 as ([k' x] & E & Hin2). cbn [fst] in E. subst k'. clear - Hin2 G.
      induction (c_choices o) as [|[k' x'] c IH]; [contradiction|]. simpl in *. destruct (String.eqb_spec k k'); [discriminate|].
      destruct Hin2 as [E|Hin2]; [congruence|auto].
    + symmetry. apply all_some_map. clear. induction ds as [|[k d] ds IH]; simpl; constructor; auto.
Qed.

(** ** Array *)
Lemma dim_of_iff v d : dim_of v = Some d <-> gives_dim v d.
Proof.
  unfold gives_dim. split.
  - assert (forall z, as_int v = Some z -> exists z, is_int v z /\ Some (Len z) = Some (Len z)) as A by (intros z H; apply as_int_iff in H; eauto).
    unfold dim_of. destruct v; try discriminate.
    + destruct (as_int (VBool b)) as [z|] eqn:E; [|discriminate]. intros [= <-]. right. exists z. split; auto. now apply as_int_iff.
    + destruct (as_int (VInt z)) as [z'|] eqn:E; [|discriminate]. intros [= <-]. right. exists z'. split; auto. now apply as_int_iff.
    + destruct (String.eqb_spec s "*"); [|discriminate]. intros [= <-]. subst. auto.
  - intros [[-> ->]|(z & I & ->)]; [reflexivity|]. destruct I as [->|[[-> ->]|[-> ->]]]; reflexivity.
Qed.
Lemma shape_of_iff v s : shape_of v = Some s <-> gives_shape v s.
Proof.
  unfold gives_shape, shape_of. split.
  - destruct v; try discriminate. intros H. apply all_some_map in H. eexists. split; [reflexivity|].
    revert H. apply Forall2_iff. intros. symmetry. apply dim_of_iff.
  - intros (l & -> & F). apply all_some_map. revert F. apply Forall2_iff. intros. apply dim_of_iff.
Qed.
Lemma shapes_iff v l : validate_shape v = Ok l <-> gives_shapes v l.
Proof.
  rewrite validate_shape_iff. unfold gives_shapes. rewrite (Forall2_iff _ _ shape_of_iff). split.
  - intros H. assert (Forall2 gives_shape [v] l -> exists s, gives_shape v s /\ l = [s]) as G.
    { intros F. inversion F as [|? s ? t F1 F2]; subst. inversion F2; subst. eauto. }
    destruct v; try (right; apply G; exact H). left. eauto.
  - intros [(x & -> & F)|(s & F & ->)]; auto. pose proof F as F0. destruct F as (t & -> & F). constructor; auto.
Qed.
Lemma set_shape_iff k v o o' : set_shape k v o = Ok o' <->
  (k = KArray /\ v = VNone /\ o' = AO (Some None) (ao_dtype o) (ao_coerce o)) \/
  exists l, gives_shapes v l /\ o' = AO (Some (Some l)) (ao_dtype o) (ao_coerce o) /\
    match k with
    | KArray => True
    | KVec3Array => Forall (fun s => exists d, s = [d; Len 3]) l
    | KVec2Array => Forall (fun s => exists d, s = [d; Len 2]) l
    | _ => False
    end.
Proof.
  assert (S : forall n l, forallb (fun s => match s with [_; Len m] => Z.eqb m n | _ => false end) l = true <-> Forall (fun s => exists d, s = [d; Len n]) l).
  { intros n l. rewrite forallb_forall, Forall_forall. split; intros Hl s Hs; specialize (Hl s Hs).
    - destruct s as [|d [|[|m] [|]]]; try discriminate. apply Z.eqb_eq in Hl. subst. eauto.
    - destruct Hl as (d & ->). apply Z.eqb_refl. }
  assert (C : forall n, (rbind (validate_shape v)
    (fun l => if forallb (fun s => match s with [_; Len m] => Z.eqb m n | _ => false end) l
              then Ok (AO (Some (Some l)) (ao_dtype o) (ao_coerce o)) else Exc ExType) = Ok o' <->
    exists l, gives_shapes v l /\ o' = AO (Some (Some l)) (ao_dtype o) (ao_coerce o) /\ Forall (fun s => exists d, s = [d; Len n]) l)).
  { intros n. split.
    - destruct (validate_shape v) as [l|] eqn:E; [|discriminate]. cbn [rbind]. destruct (forallb _ l) eqn:F; [|discriminate]. intros [= <-].
      exists l. split; [now apply shapes_iff|]. split; auto. now apply S.
    - intros (l & G & -> & F). apply shapes_iff in G. rewrite G. cbn [rbind]. apply S in F. now rewrite F. }
  unfold set_shape. destruct k.
  - split.
    + intros H. assert (v = VNone \/ rbind (validate_shape v) (fun l => Ok (AO (Some (Some l)) (ao_dtype o) (ao_coerce o))) = Ok o') as [->|H']
        by (destruct v; auto).
      * left. injection H as <-. auto.
      * right. destruct (validate_shape v) as [l|] eqn:E; [|discriminate]. injection H' as <-. exists l. split; [now apply shapes_iff|auto].
    + intros [(_ & -> & ->)|(l & G & -> & _)]; auto. destruct v; try (apply shapes_iff in G; rewrite G; reflexivity).
      exfalso. destruct G as [(x & ? & _)|(s & (t & ? & _) & _)]; discriminate.
  - split; [discriminate|]. intros [(? & _)|(l & _ & _ & [])]; discriminate.
  - split; [discriminate|]. intros [(? & _)|(l & _ & _ & [])]; discriminate.
  - rewrite C. split; [right; auto|]. intros [(? & _)|?]; [discriminate|auto].
  - rewrite C. split; [right; auto|]. intros [(? & _)|?]; [discriminate|auto].
Qed.
Lemma set_dtype_iff k l o o' : set_dtype k l o = Ok o' <->
  k = KArray /\ l <> [] /\ ~ In DNoType l /\ o' = AO (ao_shape o) (Some l) (ao_coerce o).
Proof.
  destruct k; try (split; [discriminate|intros [? _]; discriminate]). rewrite dtype_option. tauto.
Qed.
Lemma set_coerce_iff v o o' : set_coerce v o = Ok o' <-> exists b, v = VBool b /\ o' = AO (ao_shape o) (ao_dtype o) b.
Proof. split; [destruct v; try discriminate; intros [= <-]; eauto|intros (b & -> & ->); reflexivity]. Qed.
Lemma array_options k o a o' : a_apply k o a = Ok o' <->
  match a with
  | SetShape v =>
      (k = KArray /\ v = VNone /\ o' = AO (Some None) (ao_dtype o) (ao_coerce o)) \/
      exists l, gives_shapes v l /\ o' = AO (Some (Some l)) (ao_dtype o) (ao_coerce o) /\
        match k with
        | KArray => True
        | KVec3Array => Forall (fun s => exists d, s = [d; Len 3]) l
        | KVec2Array => Forall (fun s => exists d, s = [d; Len 2]) l
        | _ => False
        end
  | SetDtype l => k = KArray /\ l <> [] /\ ~ In DNoType l /\ o' = AO (ao_shape o) (Some l) (ao_coerce o)
  | SetCoerce v => exists b, v = VBool b /\ o' = AO (ao_shape o) (ao_dtype o) b
  end.
Proof. destruct a; [apply set_shape_iff|apply set_dtype_iff|apply set_coerce_iff]. Qed.
Lemma array_default_iff wrap v a : array_validate wrap KArray a_start v = AOk a <->
  (match v with AvArr _ | AvList _ | AvTuple _ => True | _ => False end) /\ wrap KArray v = Ok a /\
  In (a_kind a) ["f"; "i"; "u"]%char /\ exists n, a_shape a = [n].
Proof. rewrite array_iff, array_default. reflexivity. Qed.

(** ** what is raised *)
Lemma py_gt_exc a b e : py_gt a b = Exc e -> e = ExType.
Proof. unfold py_gt. destruct (as_num a), (as_num b); congruence. Qed.
Lemma rejected_bounds o a e : b_apply o a = Exc e -> e = ExType.
Proof.
  destruct a as [v|v]; cbn [b_apply]; unfold set_min, set_max; intros H.
  - destruct (is_none (b_max o)); [discriminate|]. destruct (py_gt v (b_max o)) as [[]|] eqn:G; cbn [rbind] in H; try congruence.
    apply py_gt_exc in G. congruence.
  - destruct (is_none (b_min o)); [discriminate|]. destruct (py_gt (b_min o) v) as [[]|] eqn:G; cbn [rbind] in H; try congruence.
    apply py_gt_exc in G. congruence.
Qed.
Lemma rejected_lengths o a e : l_apply o a = Exc e -> e = ExType.
Proof.
  destruct a as [v|v]; cbn [l_apply]; unfold set_min_length, set_max_length; intros H; destruct (as_int v); try congruence;
    destruct (Z.ltb _ 0); try congruence; destruct (match _ with Some m => _ | None => _ end); congruence.
Qed.
Lemma rejected_modes modes o a e : m_apply modes o a = Exc e -> e = ExType.
Proof.
  destruct a as [v|v]; cbn [m_apply]; unfold set_mode, set_valid_modes; intros H.
  - destruct v; try congruence. destruct (str_mem _ _); congruence.
  - destruct (negb _); try congruence. destruct (all_strs _); try congruence. destruct (forallb _ _); congruence.
Qed.
Lemma rejected_choices o a e : c_apply o a = Exc e -> e = ExType.
Proof.
  destruct a as [v|v|v]; cbn [c_apply]; intros H.
  - unfold set_choices in H. fold (pairs_of v) in H. destruct (pairs_of v) as [p|e'] eqn:P; cbn [rbind] in H.
    + destruct (all_some _); try congruence. cbv zeta in H. destruct (Nat.eqb _ _); congruence.
    + injection H as <-. unfold pairs_of, py_set in P.
      destruct v; try congruence; destruct (forallb hashable l); cbn [rbind] in P; try congruence; destruct (Nat.eqb _ _); congruence.
  - unfold set_case in H. destruct v; congruence.
  - unfold set_descriptions in H. destruct v; try congruence. destruct (negb _); try congruence. destruct (all_some _); try congruence.
    destruct (forallb _ _); congruence.
Qed.
Lemma rejected_array k o a e : a_apply k o a = Exc e ->
  e = if match k, a with KArray, _ | _, SetCoerce _ | KVec3Array, SetShape _ | KVec2Array, SetShape _ => true | _, _ => false end
      then ExType else ExAttr.
Proof.
  destruct a as [v|l|v]; cbn [a_apply]; unfold set_shape, set_dtype, set_coerce, validate_shape; intros H; destruct k; try congruence.
  all: try (destruct v; cbn [rbind] in H; congruence).
  - destruct v; try congruence; destruct (all_some _); cbn [rbind] in H; congruence.
  - destruct (all_some _); cbn [rbind] in H; try congruence. destruct (forallb _ _); congruence.
  - destruct (all_some _); cbn [rbind] in H; try congruence. destruct (forallb _ _); congruence.
  - destruct l; try congruence. destruct (forallb _ _); congruence.
Qed.
