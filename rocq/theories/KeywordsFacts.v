(** Facts about the keywords of property classes. *)
From Verif Require Import Keywords NumSpec FloatProofs BasicSpec OptionsSpec OptionsFacts OptionsExact ArraysFacts RoundSend KeywordsSpec.
From Coq Require Import Lia Permutation.
Local Open Scope string_scope.
Local Open Scope list_scope.
Local Open Scope nat_scope.

(** ** Attributes *)
Lemma dget_app {A} (d1 d2 : dict A) key : dget (d1 ++ d2) key = match dget d1 key with Some x => Some x | None => dget d2 key end.
Proof. induction d1 as [|[x y] d1 IH]; cbn; [reflexivity|]. destruct (String.eqb key x); auto. Qed.
Fixpoint flat_up (n : nat) (k : pkind) : list (string * attr) :=
  own_attrs k ++ match n, base_of k with S m, Some b => flat_up m b | _, _ => [] end.
Lemma attr_flat n : forall k key, attr_up n k key = dget (flat_up n k) key.
Proof.
  induction n as [|n IH]; intros k key; cbn [attr_up flat_up]; rewrite dget_app; destruct (dget (own_attrs k) key); try reflexivity.
  destruct (base_of k); [apply IH|reflexivity].
Qed.
Lemma attr_in k key a : attr_of k key = Some a -> In key (map fst (flat_up 5 k)).
Proof.
  unfold attr_of. rewrite attr_flat. intros H. destruct (in_dec string_dec key (dkeys (flat_up 5 k))) as [Hin|Hn]; [exact Hin|].
  apply dget_none in Hn. congruence.
Qed.

Definition keys_of (s : setter) : list string :=
  match s with
  | TStr => ["doc"; "strip"; "new_name"; "filename"]
  | TBool => ["required"; "cast"; "unicode"; "case_sensitive"; "warn"; "coerce"; "observe_mutations"; "auto_create"; "strict_instances"]
  | TTruth => ["load"; "remove_parameters"; "remove_fragment"]
  | TText => ["uid_prop"] | TCall => ["serializer"; "deserializer"] | TCase => ["change_case"] | TRegex => ["regex"]
  | TMin => ["min"] | TMax => ["max"] | TMinLen => ["min_length"] | TMaxLen => ["max_length"]
  | TMode => ["mode"] | TValid => ["valid_modes"] | TChoices => ["choices"] | TDescr => ["descriptions"]
  | TProp => ["prop"; "key_prop"; "value_prop"] | TClass => ["instance_class"] | TShape | TRows _ => ["shape"]
  | TDtype => ["dtype"] | TLength => ["length"] | TDefault => ["default"] | TName => ["name"] | TProps => ["props"]
  end.
Definition kind_ok (k : pkind) (s : setter) : bool :=
  match s with
  | TShape => match k with P_Array | P_BaseVector => true | _ => false end
  | TRows n => match k with P_Vector3Array => Z.eqb n 3 | P_Vector2Array => Z.eqb n 2 | _ => false end
  | TMode | TValid => match k with P_File | P_PNG => true | _ => false end
  | TChoices | TDescr => match k with P_Choice => true | _ => false end
  | TProps => match k with P_Union => true | _ => false end
  | _ => true
  end.
Definition check (k : pkind) (key : string) : bool :=
  match attr_of k key with
  | Some (Setter s) => str_mem key (keys_of s) && kind_ok k s && str_mem key (options k) && negb (str_mem key (methods k))
  | Some Getter => negb (str_mem key (options k)) && negb (str_mem key (methods k))
  | Some Plain => str_mem key (methods k) && negb (str_mem key (options k))
  | None => false
  end.
Lemma check_all k : forallb (check k) (map fst (flat_up 5 k)) = true.
Proof. destruct k; vm_compute; reflexivity. Qed.
Lemma checked k key a : attr_of k key = Some a -> check k key = true.
Proof. intros H. apply attr_in in H. pose proof (check_all k) as K. rewrite forallb_forall in K. auto. Qed.
Lemma str_mem_not key l : negb (str_mem key l) = true -> ~ In key l.
Proof. intros H Hin. apply str_mem_In in Hin. rewrite Hin in H. discriminate. Qed.
Lemma setter_facts k key s : attr_of k key = Some (Setter s) -> In key (keys_of s) /\ kind_ok k s = true /\ In key (options k) /\ ~ In key (methods k).
Proof.
  intros H. pose proof (checked k key _ H) as K. unfold check in K. rewrite H in K. apply andb_true_iff in K as [K K4]. apply andb_true_iff in K as [K K3].
  apply andb_true_iff in K as [K1 K2]. rewrite str_mem_In in K1, K3. apply str_mem_not in K4. auto.
Qed.
Lemma getter_facts k key : attr_of k key = Some Getter -> ~ In key (options k) /\ ~ In key (methods k).
Proof. intros H. pose proof (checked k key _ H) as K. unfold check in K. rewrite H in K. apply andb_true_iff in K as [K1 K2]. split; now apply str_mem_not. Qed.
Lemma plain_facts k key : attr_of k key = Some Plain -> In key (methods k) /\ ~ In key (options k).
Proof. intros H. pose proof (checked k key _ H) as K. unfold check in K. rewrite H in K. apply andb_true_iff in K as [K1 K2]. split; [now apply str_mem_In|now apply str_mem_not]. Qed.
Lemma options_all k : forallb (fun key => match attr_of k key with Some (Setter _) => negb (String.eqb key "terms") && match key with String c _ => negb (Ascii.eqb c "_") | _ => false end | _ => false end) (options k) = true.
Proof. destruct k; vm_compute; reflexivity. Qed.
Lemma methods_all k : forallb (fun key => match attr_of k key with Some Plain => negb (String.eqb key "terms") && match key with String c _ => negb (Ascii.eqb c "_") | _ => false end | _ => false end) (methods k) = true.
Proof. destruct k; vm_compute; reflexivity. Qed.
Definition public (key : string) : Prop := key <> "terms" /\ exists c r, key = String c r /\ c <> "_"%char.
Lemma options_setter k key : In key (options k) -> public key /\ exists s, attr_of k key = Some (Setter s).
Proof.
  intros H. pose proof (options_all k) as K. rewrite forallb_forall in K. specialize (K key H).
  destruct (attr_of k key) as [[s| |]|]; try discriminate. apply andb_true_iff in K as [K1 K2]. split; [|eauto]. split.
  - intros ->. discriminate.
  - destruct key as [|c r]; [discriminate|]. exists c, r. split; [reflexivity|]. intros ->. discriminate.
Qed.
Lemma methods_plain k key : In key (methods k) -> public key /\ attr_of k key = Some Plain.
Proof.
  intros H. pose proof (methods_all k) as K. rewrite forallb_forall in K. specialize (K key H).
  destruct (attr_of k key) as [[s| |]|]; try discriminate. apply andb_true_iff in K as [K1 K2]. split; [|reflexivity]. split.
  - intros ->. discriminate.
  - destruct key as [|c r]; [discriminate|]. exists c, r. split; [reflexivity|]. intros ->. discriminate.
Qed.
Lemma attr_none k key : ~ In key (options k) -> ~ In key (methods k) -> attr_of k key = None \/ attr_of k key = Some Getter.
Proof.
  intros H1 H2. destruct (attr_of k key) as [[s| |]|] eqn:E; auto; [apply setter_facts in E|apply plain_facts in E]; tauto.
Qed.
Lemma keyword_public W k o key v : public key -> one_keyword W k o (key, v) =
  match attr_of k key with None => Exc ExAttr | Some _ => set_attr W k o key v end.
Proof.
  intros [H1 (c & r & -> & H2)]. cbn [one_keyword]. destruct (String.eqb_spec (String c r) "terms"); [contradiction|].
  destruct (Ascii.eqb_spec c "_"); [contradiction|reflexivity].
Qed.

(** ** Setters *)
Section Facts.
  Variables (W : objects) (k : pkind).
  Notation takes := (takes W k).
  Notation together := (together k).
  Notation known := (known_mode k).

  (** what else a value has to agree with *)
  Definition local (o : dict val) (s : setter) (x : val) : Prop :=
    match s with
    | TMin => forall b, dget o "max" = Some b -> b <> VNone -> exists m n, as_num x = Some m /\ as_num b = Some n /\ ngt m n = false
    | TMax => forall a, dget o "min" = Some a -> a <> VNone -> exists m n, as_num a = Some m /\ as_num x = Some n /\ ngt m n = false
    | TMinLen => forall b m n, dget o "max_length" = Some b -> is_int x m -> is_int b n -> (m <= n)%Z
    | TMaxLen => forall a m n, dget o "min_length" = Some a -> is_int a m -> is_int x n -> (m <= n)%Z
    | TMode => x = VNone \/ known x
    | TValid => exists l m, x = VTuple l /\ dget o "mode" = Some m /\ In m l /\ (dget o "file_modes" = None -> Forall known l)
    | TChoices => exists t b, x = choice_dict t /\ dget o "case_sensitive" = Some (VBool b) /\ no_collisions b t
    | TDescr => exists t kvs, x = VDict kvs /\ dget o "choices" = Some (choice_dict t) /\ length kvs = length t /\
                  forall y d, In (y, d) kvs -> exists s, y = VStr s /\ In s (map fst t)
    | TName => (exists s, x = VStr s) \/ (k = P_Union /\ dget o "props" = Some (VTuple []))
    | _ => True
    end.
  (** what has to be assigned before *)
  Definition ready (o : dict val) (s : setter) : Prop :=
    match s with
    | TMode => dget o "file_modes" = None
    | TValid => exists m, dget o "mode" = Some m /\ (m = VNone \/ exists t, m = VStr t)
    | TChoices => exists b, dget o "case_sensitive" = Some (VBool b)
    | TDescr => exists t, dget o "choices" = Some (choice_dict t)
    | TName => k = P_Union -> dget o "props" <> None
    | _ => True
    end.

  Lemma table_back t : table_of (choice_dict t) = t.
  Proof.
    unfold table_of, choice_dict. rewrite map_map. cbn [fst snd].
    assert (all_some (map (fun x : string * list string => pair_strs (VStr (fst x), map VStr (snd x))) t) = Some t) as ->; [|reflexivity].
    induction t as [|[a l] t IH]; [reflexivity|]. cbn [map all_some fst snd]. unfold pair_strs at 1. cbn [fst snd].
    assert (all_strs (map VStr l) = Some l) as -> by now apply all_strs_iff. now rewrite IH.
  Qed.
  Lemma rows_iff n l : rows_of n l = true <-> Forall (fun s => exists d, s = [d; Len n]) l.
  Proof.
    unfold rows_of. rewrite forallb_forall, Forall_forall. split; intros H s Hs; specialize (H s Hs).
    - destruct s as [|a [|[|z] [|? ?]]]; try discriminate. apply Z.eqb_eq in H as ->. eauto.
    - destruct H as (d & ->). apply Z.eqb_refl.
  Qed.
  Lemma known_in x : py_in x (modes_of k) = Ok true <-> known x.
  Proof.
    unfold modes_of, known_mode. cbn [py_in]. set (l := match k with P_PNG => png_modes | _ => file_modes end). split.
    - intros [= H]. unfold mem_val in H. apply existsb_exists in H as (y & Hy & He). apply in_map_iff in Hy as (s & <- & Hs).
      apply py_str_eq in He. subst x. eauto.
    - intros (s & -> & Hs). f_equal. now apply mem_strs.
  Qed.
  Lemma py_in_modes x : exists b, py_in x (modes_of k) = Ok b.
  Proof. unfold modes_of. cbn [py_in]. eauto. Qed.
  Lemma all_modes_iff l : all_modes l (modes_of k) = Ok tt <-> Forall known l.
  Proof.
    induction l as [|x l IH]; cbn [all_modes]; [split; auto|]. destruct (py_in_modes x) as ([|] & Hb); rewrite Hb; cbn [rbind].
    - rewrite IH. apply known_in in Hb. split; [auto|]. intros H. now inversion H.
    - split; [discriminate|]. intros H. inversion H as [|? ? K ?]; subst. apply known_in in K. congruence.
  Qed.
  Lemma all_modes_ok l m : all_modes l m = Ok tt \/ exists e, all_modes l m = Exc e.
  Proof. destruct (all_modes l m) as [[]|e]; eauto. Qed.
  Lemma is_mode_mem m l : m = VNone \/ (exists s, m = VStr s) -> (mem_val m l = true <-> In m l).
  Proof.
    intros H. unfold mem_val. rewrite existsb_exists. split.
    - intros (x & Hx & He). destruct H as [->|(s & ->)].
      + destruct x; try discriminate. exact Hx.
      + apply py_eq_str in He. now subst.
    - intros Hin. exists m. split; [exact Hin|]. destruct H as [->|(s & ->)]; [reflexivity|]. cbn. apply String.eqb_refl.
  Qed.

  Lemma to_prop_iff v p : to_prop W v = Ok p <-> stands_for W v p.
  Proof.
    unfold to_prop, stands_for. destruct (is_class W v) eqn:C; [destruct (as_instance W v) as [q|] eqn:A|].
    - split; [intros [= <-]; auto|]. intros [(_ & _ & H)|[_ H]]; [discriminate (H eq_refl)|congruence].
    - destruct (is_prop W v) eqn:P.
      + split; [intros [= <-]; auto|]. intros [(-> & _)|[_ H]]; [reflexivity|discriminate].
      + split; [discriminate|]. intros [(_ & H & _)|[_ H]]; discriminate.
    - destruct (is_prop W v) eqn:P.
      + split; [intros [= <-]; left; repeat split; discriminate|]. intros [(-> & _)|[H _]]; [reflexivity|discriminate].
      + split; [discriminate|]. intros [(_ & H & _)|[H _]]; discriminate.
  Qed.
  Lemma to_props_iff l : forall ps, to_props W l = Ok ps <-> Forall2 (stands_for W) l ps.
  Proof.
    induction l as [|v l IH]; intros ps; cbn [to_props].
    - split; [intros [= <-]; constructor|]. intros H. now inversion H.
    - destruct (to_prop W v) as [p|] eqn:E; cbn [rbind].
      + apply to_prop_iff in E as S. destruct (to_props W l) as [qs|] eqn:F; cbn [rbind].
        * split; [intros [= <-]; constructor; [exact S|now apply IH]|]. intros H. inversion H as [|? ? ? ? H1 H2]; subst.
          apply IH in H2. apply to_prop_iff in H1. congruence.
        * split; [discriminate|]. intros H. inversion H as [|? ? ? ? H1 H2]; subst. apply IH in H2. discriminate.
      + split; [discriminate|]. intros H. inversion H as [|? ? ? ? H1 H2]; subst. apply to_prop_iff in H1. congruence.
  Qed.

  Lemma stores_takes o s key v x : attr_of k key = Some (Setter s) -> s <> TDefault -> stores W k o s v = Ok x -> takes key v x.
  Proof.
    intros Ha Hd. destruct (setter_facts k key s Ha) as (Hk & Hok & _ & _). destruct s; cbn [stores keys_of] in *; try contradiction.
    - destruct v; try discriminate. intros [= <-]. apply tk_string. right. exact Hk.
    - destruct v; try discriminate. intros [= <-]. now constructor.
    - intros [= <-]. now constructor.
    - destruct Hk as [<-|[]]. destruct (text_of W v) eqn:E; [|discriminate]. intros [= <-]. now apply tk_text.
    - destruct (ucall W v) eqn:E; [|discriminate]. intros [= <-]. eapply tk_function; eauto.
    - destruct Hk as [<-|[]]. destruct v; try discriminate; [intros [= <-]; apply tk_case; cbn; auto|].
      destruct (str_mem s ["upper"; "lower"]) eqn:E; [|discriminate]. intros [= <-]. apply str_mem_In in E. apply tk_case. cbn in *. intuition (subst; auto).
    - destruct Hk as [<-|[]]. destruct v; try (destruct (has_search W _) eqn:E; [intros [= <-]; apply tk_compiled; [congruence|exact E]|discriminate]).
      destruct (compile W s) as [r|] eqn:E; [|discriminate]. destruct (has_search W r) eqn:E2; [|discriminate]. intros [= <-]. eapply tk_pattern; eauto.
    - destruct Hk as [<-|[]]. unfold set_min. cbn [b_max]. destruct (if is_none _ then _ else _) as [[|]|e]; cbn; try discriminate. intros [= <-]. apply tk_bound. cbn. auto.
    - destruct Hk as [<-|[]]. unfold set_max. cbn [b_min]. destruct (if is_none _ then _ else _) as [[|]|e]; cbn; try discriminate. intros [= <-]. apply tk_bound. cbn. auto.
    - destruct Hk as [<-|[]]. destruct (set_min_length v _) as [l|] eqn:E; [|discriminate]. intros [= <-].
      pose proof (proj1 (lengths_iff (LO None (the_length (get o "max_length"))) v l)) as K. cbn [l_apply] in K. apply K in E as (z & Hz & H0 & _). eapply tk_size; eauto; cbn; auto.
    - destruct Hk as [<-|[]]. destruct (set_max_length v _) as [l|] eqn:E; [|discriminate]. intros [= <-].
      pose proof (proj2 (lengths_iff (LO (the_length (get o "min_length")) None) v l)) as K. cbn [l_apply] in K. apply K in E as (z & Hz & H0 & _). eapply tk_size; eauto; cbn; auto.
    - destruct Hk as [<-|[]]. destruct (is_none v); [intros [= <-]; apply tk_mode|]. destruct (py_in v _) as [[|]|]; cbn; try discriminate. intros [= <-]. apply tk_mode.
    - destruct Hk as [<-|[]]. destruct (mem_val _ _); [|discriminate]. destruct (all_modes _ _); [|discriminate]. intros [= <-].
      destruct v; try (apply tk_one_mode; intros ? [H|[H|H]]; discriminate); apply tk_modes; unfold collection; auto.
    - destruct Hk as [<-|[]]. destruct (set_choices v _) as [c|] eqn:E; [|discriminate]. intros [= <-].
      pose proof (proj1 (choices_iff (CO (truthy (get o "case_sensitive")) [] None) v c)) as K. cbn [c_apply] in K. apply K in E as (t & Ht & _ & ->). now apply tk_choices.
    - destruct Hk as [<-|[]]. destruct (set_descriptions v _) as [c|] eqn:E; [|discriminate]. intros [= <-]. unfold set_descriptions in E. destruct v; try discriminate.
      destruct (negb _); [discriminate|]. destruct (all_some _) as [ds|] eqn:A; [|discriminate]. clear E.
      assert (l = map (fun d : string * string => (VStr (fst d), VStr (snd d))) ds) as ->; [|apply tk_descr].
      apply all_some_map in A. clear -A. induction A as [|[a b] [c0 d] l t H _ IH]; [reflexivity|]. cbn in H. destruct a, b; try discriminate. injection H as <- <-. cbn. now rewrite IH.
    - intros H. apply to_prop_iff in H. now apply tk_prop.
    - destruct Hk as [<-|[]]. destruct (is_class W v) eqn:E; [|discriminate]. intros [= <-]. now apply tk_class.
    - destruct Hk as [<-|[]]. assert (Hin : In k [P_Array; P_BaseVector]) by (destruct k; cbn in *; auto; discriminate).
      destruct (is_none v) eqn:En; [apply is_none_iff in En as ->; intros [= <-]; now apply tk_any_shape|].
      destruct (validate_shape v) as [l|] eqn:E; [|discriminate]. apply shapes_iff in E. cbn [rbind]. intros [= <-].
      destruct v; try (eapply tk_shape; eauto; congruence). eapply tk_shapes; eauto.
    - destruct Hk as [<-|[]]. assert (Hin : In (k, n) [(P_Vector3Array, 3%Z); (P_Vector2Array, 2%Z)]) by (destruct k; cbn in *; try discriminate; apply Z.eqb_eq in Hok as ->; auto).
      destruct (validate_shape v) as [l|] eqn:E; [|discriminate]. apply shapes_iff in E. cbn [rbind]. destruct (rows_of n l) eqn:R; [|discriminate]. apply rows_iff in R. intros [= <-].
      destruct v; try (eapply tk_rows; eauto; congruence). eapply tk_all_rows; eauto.
    - destruct Hk as [<-|[]].
      assert (G : forall l, forallb (is_dtype W) l = true -> Forall (fun d => is_dtype W d = true) l) by (intros l H; rewrite forallb_forall in H; now apply Forall_forall).
      destruct v; cbv zeta;
        try (destruct (forallb (is_dtype W) [_]) eqn:F; [|discriminate]; intros [= <-]; apply tk_dtype; [cbn in F; now apply andb_true_iff in F|split; discriminate]).
      + destruct l as [|d l]; [discriminate|]. destruct (forallb (is_dtype W) (d :: l)) eqn:F; [|discriminate]. intros [= <-]. eapply tk_dtypes; [right; reflexivity|discriminate|auto].
      + destruct l as [|d l]; [discriminate|]. destruct (forallb (is_dtype W) (d :: l)) eqn:F; [|discriminate]. intros [= <-]. eapply tk_dtypes; [left; reflexivity|discriminate|auto].
    - destruct Hk as [<-|[]]. unfold set_length. destruct (as_num v) as [n|] eqn:E; [|discriminate]. destruct (nle n (NF fzero)) eqn:E2; [discriminate|].
      destruct (py_float_num n) as [f|] eqn:E3; [|discriminate]. cbn. intros [= <-]. eapply tk_length; eauto.
    - destruct Hk as [<-|[]]. destruct v; try (intros [= <-]; apply tk_string; cbn; tauto);
        (destruct k eqn:Ek; try discriminate; destruct (get o "props") as [| | | | | | | | | |[|]| | | |]; try discriminate; intros [= <-]; apply tk_any_name; reflexivity).
    - destruct Hk as [<-|[]]. destruct v; try discriminate; (destruct (to_props W l) as [ps|] eqn:E; [|discriminate]); cbn [rbind]; intros [= <-]; apply to_props_iff in E; eapply tk_props; eauto.
  Qed.
  Lemma stores_local o s key v x : attr_of k key = Some (Setter s) -> ready o s -> stores W k o s v = Ok x -> local o s x.
  Proof.
    intros Ha Hr. destruct s; cbn [stores ready local] in *; auto.
    - unfold set_min. cbn [b_max]. intros H b Hb Hn. unfold get in H. rewrite Hb in H. destruct (is_none b) eqn:E; [apply is_none_iff in E; contradiction|].
      destruct (py_gt v b) as [[|]|] eqn:G; try discriminate. injection H as <-. apply py_gt_ok in G as (m & n & ? & ? & ?). eauto.
    - unfold set_max. cbn [b_min]. intros H b Hb Hn. unfold get in H. rewrite Hb in H. destruct (is_none b) eqn:E; [apply is_none_iff in E; contradiction|].
      destruct (py_gt b v) as [[|]|] eqn:G; try discriminate. injection H as <-. apply py_gt_ok in G as (m & n & ? & ? & ?). eauto.
    - destruct (set_min_length v _) as [l|] eqn:E; [|discriminate]. intros [= <-] b m n Hb Hm Hn.
      pose proof (proj1 (lengths_iff (LO None (the_length (get o "max_length"))) v l)) as K. cbn [l_apply] in K. apply K in E as (z & Hz & _ & H & _).
      cbn [l_max] in H. unfold get, the_length in H. rewrite Hb in H. apply as_int_iff in Hn. apply as_int_iff in Hm. apply as_int_iff in Hz. rewrite Hm in Hz. injection Hz as ->. auto.
    - destruct (set_max_length v _) as [l|] eqn:E; [|discriminate]. intros [= <-] b m n Hb Hm Hn.
      pose proof (proj2 (lengths_iff (LO (the_length (get o "min_length")) None) v l)) as K. cbn [l_apply] in K. apply K in E as (z & Hz & _ & H & _).
      cbn [l_min] in H. unfold get, the_length in H. rewrite Hb in H. apply as_int_iff in Hn. apply as_int_iff in Hm. apply as_int_iff in Hz. rewrite Hn in Hz. injection Hz as ->. auto.
    - rewrite Hr. destruct (is_none v) eqn:E; [apply is_none_iff in E as ->; intros [= <-]; auto|].
      destruct (py_in v (modes_of k)) as [[|]|] eqn:P; cbn [rbind]; try discriminate. intros [= <-]. right. now apply known_in.
    - destruct Hr as (m & Hm & Hs). unfold get. rewrite Hm. set (l := match v with VSet l | VList l | VTuple l => l | _ => [v] end).
      destruct (mem_val m l) eqn:M; [|discriminate]. apply is_mode_mem in M; [|exact Hs]. destruct (all_modes l _) as [[]|] eqn:A; [|discriminate]. cbn [rbind]. intros [= <-].
      exists l, m. split; [reflexivity|]. split; [reflexivity|]. split; [exact M|]. intros Hf. rewrite Hf in A. now apply all_modes_iff.
    - destruct Hr as (b & Hb). unfold get. rewrite Hb. destruct (set_choices v _) as [c|] eqn:E; [|discriminate]. intros [= <-].
      pose proof (proj1 (choices_iff (CO (truthy (VBool b)) [] None) v c)) as K. cbn [c_apply] in K. apply K in E as (t & Ht & Hc & ->). cbn in Hc. exists t, b. auto.
    - destruct Hr as (t & Ht). unfold get. rewrite Ht, table_back. unfold set_descriptions. destruct v as [| | | | | | | | | | | | |kvs|]; try discriminate. cbn [c_choices].
      destruct (Nat.eqb_spec (length kvs) (length t)) as [El|]; [|discriminate]. cbn [negb].
      destruct (all_some _) as [ds|] eqn:A; [|discriminate]. destruct (forallb _ ds) eqn:F; [|discriminate]. cbn. intros [= <-].
      exists t, kvs. split; [reflexivity|]. split; [reflexivity|]. split; [exact El|]. intros y d Hin.
      apply all_some_map in A. clear El. induction A as [|[a b] [c0 d0] l r H _ IH]; [destruct Hin|]. cbn [forallb] in F. apply andb_true_iff in F as [F1 F2].
      destruct Hin as [[= -> ->]|Hin]; [|auto]. cbn in H. destruct y, d; try discriminate. injection H as -> ->. exists c0. split; [reflexivity|].
      cbn in F1. unfold dhas in F1. destruct (dget t c0) eqn:G; [|discriminate]. destruct (in_dec string_dec c0 (dkeys t)) as [I|I]; [exact I|]. apply dget_none in I. congruence.
    - destruct v; try (intros [= <-]; left; eauto; fail);
        (destruct k eqn:Ek; try discriminate; unfold get; destruct (dget o "props") as [[| | | | | | | | | |[|]| | | |]|] eqn:D; try discriminate; intros [= <-]; right; auto).
  Qed.

  Lemma keys_apart key s s' : In key (keys_of s) -> In key (keys_of s') -> keys_of s = keys_of s'.
  Proof.
    intros H1 H2. destruct s, s'; try reflexivity; exfalso; cbn in H1, H2;
      repeat match goal with H : _ \/ _ |- _ => destruct H as [H|H]; [subst key|] | H : False |- _ => destruct H end; intuition discriminate.
  Qed.
  Ltac same := match goal with H1 : In ?key (keys_of ?s) |- _ => destruct s; cbn in H1;
      repeat match goal with H : _ \/ _ |- _ => destruct H as [H|H]; [try discriminate H|] | H : False |- _ => destruct H end; try discriminate end.

  Lemma stores_back o s key v x : attr_of k key = Some (Setter s) -> s <> TDefault -> dget o "file_modes" = None -> ready o s ->
    takes key v x -> local o s x -> stores W k o s v = Ok x.
  Proof.
    intros Ha Hd Hf Hr Ht Hl. destruct (setter_facts k key s Ha) as (Hk & Hok & _ & Hm).
    destruct Ht as [key t H|key b H|key v H|v t H|key v r H Hc|v H|t r Hc Hs|v Hn Hs|key v H|key v z H Hz H0|v|v l Hc|v Hc|v t Hg|ds|key v p H Hp|v H
      |H|v l H Hg Hn|x l H Hg|v l n H Hg Hall Hn|x l n H Hg Hall|v H Hn|v l H Hn Hall|v n f Hv Hp Hx|v H|v l ps H Hp|key v H].
    all: try (destruct s; cbn [keys_of] in Hk; try contradiction; cbn in Hk; try (exfalso; intuition discriminate); fail).
    - destruct H as [<-|H]; [assert (s = TName) as -> by (same; reflexivity); reflexivity|].
      assert (s = TStr) as -> by (assert (K := keys_apart key s TStr Hk H); destruct s; try discriminate K; reflexivity). reflexivity.
    - assert (s = TBool) as -> by (assert (K := keys_apart key s TBool Hk H); destruct s; try discriminate K; reflexivity). reflexivity.
    - assert (s = TTruth) as -> by (assert (K := keys_apart key s TTruth Hk H); destruct s; try discriminate K; reflexivity). reflexivity.
    - assert (s = TText) as -> by (same; reflexivity). cbn. now rewrite H.
    - assert (s = TCall) as -> by (assert (K := keys_apart key s TCall Hk H); destruct s; try discriminate K; reflexivity). cbn. now rewrite Hc.
    - assert (s = TCase) as -> by (same; reflexivity). cbn in H |- *. destruct H as [<-|[<-|[<-|[]]]]; reflexivity.
    - assert (s = TRegex) as -> by (same; reflexivity). cbn. now rewrite Hc, Hs.
    - assert (s = TRegex) as -> by (same; reflexivity). cbn [stores]. destruct v; try (now rewrite Hs). exfalso. eapply Hn. reflexivity.
    - cbn in H. destruct H as [<-|[<-|[]]].
      + assert (s = TMin) as -> by (same; reflexivity). cbn [stores local] in *. unfold set_min, get. cbn [b_max].
        destruct (dget o "max") as [b|] eqn:E; [|reflexivity]. destruct (is_none b) eqn:N; [reflexivity|]. destruct (Hl b eq_refl) as (m & n & E1 & E2 & E3); [intros ->; discriminate|].
        unfold py_gt. now rewrite E1, E2, E3.
      + assert (s = TMax) as -> by (same; reflexivity). cbn [stores local] in *. unfold set_max, get. cbn [b_min].
        destruct (dget o "min") as [b|] eqn:E; [|reflexivity]. destruct (is_none b) eqn:N; [reflexivity|]. destruct (Hl b eq_refl) as (m & n & E1 & E2 & E3); [intros ->; discriminate|].
        unfold py_gt. now rewrite E1, E2, E3.
    - cbn in H. destruct H as [<-|[<-|[]]].
      + assert (s = TMinLen) as -> by (same; reflexivity). cbn [stores local] in *.
        pose proof (proj1 (lengths_iff (LO None (the_length (get o "max_length"))) v (LO (Some z) (the_length (get o "max_length"))))) as K. cbn [l_apply] in K.
        destruct K as [_ K]. rewrite K; [reflexivity|]. exists z. cbn [l_max]. split; [exact Hz|]. split; [exact H0|]. split; [|reflexivity].
        unfold get, the_length. destruct (dget o "max_length") as [b|] eqn:E; [|discriminate]. intros n Hn. apply as_int_iff in Hn. eauto.
      + assert (s = TMaxLen) as -> by (same; reflexivity). cbn [stores local] in *.
        pose proof (proj2 (lengths_iff (LO (the_length (get o "min_length")) None) v (LO (the_length (get o "min_length")) (Some z)))) as K. cbn [l_apply] in K.
        destruct K as [_ K]. rewrite K; [reflexivity|]. exists z. cbn [l_min]. split; [exact Hz|]. split; [exact H0|]. split; [|reflexivity].
        unfold get, the_length. destruct (dget o "min_length") as [b|] eqn:E; [|discriminate]. intros n Hn. apply as_int_iff in Hn. eauto.
    - assert (s = TMode) as -> by (same; reflexivity). cbn [stores local] in *. rewrite Hf. destruct (is_none v) eqn:E; [reflexivity|].
      destruct Hl as [->|Hl]; [discriminate|]. apply known_in in Hl. now rewrite Hl.
    - assert (s = TValid) as -> by (same; reflexivity). cbn [stores local ready] in *. destruct Hl as (l' & m & [= <-] & Hg & Hin & Hall). unfold get. rewrite Hf, Hg.
      assert ((match v with VSet l | VList l | VTuple l => l | _ => [v] end) = l) as -> by (destruct Hc as [->|[->| ->]]; reflexivity).
      destruct Hr as (m' & Hg' & Hs). rewrite Hg in Hg'. injection Hg' as <-. assert (mem_val m l = true) as -> by now apply is_mode_mem.
      assert (all_modes l (modes_of k) = Ok tt) as -> by (apply all_modes_iff; auto). reflexivity.
    - assert (s = TValid) as -> by (same; reflexivity). cbn [stores local ready] in *. destruct Hl as (l' & m & [= <-] & Hg & Hin & Hall). unfold get. rewrite Hf, Hg.
      assert ((match v with VSet l | VList l | VTuple l => l | _ => [v] end) = [v]) as -> by (destruct v; try reflexivity; exfalso; eapply Hc; unfold collection; eauto).
      destruct Hr as (m' & Hg' & Hs). rewrite Hg in Hg'. injection Hg' as <-. assert (mem_val m [v] = true) as -> by now apply is_mode_mem.
      assert (all_modes [v] (modes_of k) = Ok tt) as -> by (apply all_modes_iff; auto). reflexivity.
    - assert (s = TChoices) as -> by (same; reflexivity). cbn [stores local ready] in *. destruct Hl as (t' & b & E & Hg' & Hc). unfold get. rewrite Hg'.
      assert (t' = t) as -> by (apply (f_equal table_of) in E; now rewrite !table_back in E).
      pose proof (proj2 (choices_iff (CO (truthy (VBool b)) [] None) v (CO b t None))) as K. cbn [c_apply] in K. rewrite K; [reflexivity|]. exists t. auto.
    - assert (s = TDescr) as -> by (same; reflexivity). cbn [stores local ready] in *. destruct Hl as (t & kvs & [= <-] & Hg' & El & Hin). unfold get. rewrite Hg', table_back.
      unfold set_descriptions. cbn [c_choices]. rewrite El, Nat.eqb_refl. cbn [negb].
      assert (all_some (map (fun kv : val * val => match fst kv with VStr k0 => match snd kv with VStr d => Some (k0, d) | _ => None end | _ => None end)
                (map (fun d : string * string => (VStr (fst d), VStr (snd d))) ds)) = Some ds) as ->
        by (clear; induction ds as [|[a b] ds IH]; [reflexivity|]; cbn [map all_some fst snd]; now rewrite IH).
      assert (forallb (fun kd : string * string => dhas t (fst kd)) ds = true) as ->; [|reflexivity].
      apply forallb_forall. intros [a b] Hab. destruct (Hin (VStr a) (VStr b)) as (s & [= <-] & Hs); [apply in_map_iff; exists (a, b); auto|].
      cbn. unfold dhas. destruct (dget t a) eqn:G; [reflexivity|]. apply dget_none in G. contradiction.
    - assert (s = TProp) as -> by (assert (K := keys_apart key s TProp Hk H); destruct s; try discriminate K; reflexivity). cbn [stores].
      now apply to_prop_iff.
    - assert (s = TClass) as -> by (same; reflexivity). cbn. now rewrite H.
    - assert (s = TShape) as ->; [|reflexivity]. same; [reflexivity|]. destruct k; cbn in Hok, H; try discriminate; exfalso; intuition discriminate.
    - assert (s = TShape) as ->. { same; [reflexivity|]. destruct k; cbn in Hok, H; try discriminate; exfalso; intuition discriminate. }
      cbn [stores]. apply shapes_iff in Hg. destruct (is_none v) eqn:E; [apply is_none_iff in E as ->; discriminate|]. rewrite Hg. cbn [rbind]. destruct v; try reflexivity. exfalso. eapply Hn. reflexivity.
    - assert (s = TShape) as ->. { same; [reflexivity|]. destruct k; cbn in Hok, H; try discriminate; exfalso; intuition discriminate. }
      cbn [stores is_none]. apply shapes_iff in Hg. now rewrite Hg.
    - assert (s = TRows n) as ->.
      { same; destruct H as [H|[H|[]]]; injection H as <- <-; cbn in Hok; try discriminate; apply Z.eqb_eq in Hok as ->; reflexivity. }
      cbn [stores]. apply shapes_iff in Hg. rewrite Hg. cbn [rbind]. apply rows_iff in Hall. rewrite Hall. destruct v; try reflexivity. exfalso. eapply Hn. reflexivity.
    - assert (s = TRows n) as ->.
      { same; destruct H as [H|[H|[]]]; injection H as <- <-; cbn in Hok; try discriminate; apply Z.eqb_eq in Hok as ->; reflexivity. }
      cbn [stores]. apply shapes_iff in Hg. rewrite Hg. cbn [rbind]. apply rows_iff in Hall. now rewrite Hall.
    - assert (s = TDtype) as -> by (same; reflexivity). cbn [stores].
      destruct v; cbv zeta; try (cbn [forallb]; rewrite H; reflexivity); exfalso; destruct (Hn l); auto.
    - assert (s = TDtype) as -> by (same; reflexivity). cbn [stores]. assert (F : forallb (is_dtype W) l = true) by (apply forallb_forall; now apply Forall_forall).
      destruct l as [|d l]; [contradiction|]. destruct H as [-> | ->]; cbv zeta; now rewrite F.
    - assert (s = TLength) as -> by (same; reflexivity). cbn [stores]. unfold set_length. now rewrite Hv, Hp, Hx.
    - assert (s = TName) as -> by (same; reflexivity). cbn [stores local] in *. destruct Hl as [(t & ->)|(E & Hl)]; [reflexivity|].
      unfold get. rewrite E, Hl. destruct v; reflexivity.
    - assert (s = TProps) as -> by (same; reflexivity). cbn [stores]. apply to_props_iff in Hp. destruct H as [-> | ->]; now rewrite Hp.
  Qed.

  (** ** Options that fit together *)
  Lemma dget_dset (o : dict val) key x key' : dget (dset o key x) key' = if String.eqb key' key then Some x else dget o key'.
  Proof. destruct (String.eqb_spec key' key) as [->|N]; [apply dget_dset_same|apply dget_dset_other; congruence]. Qed.
  Lemma together_set o key x : together o -> dget o key = None ->
    ((exists s, In key (keys_of s) /\ local o s x) \/ In key (methods k)) -> together (dset o key x).
  Proof.
    intros T Hn Hl. split.
    - intros a b. rewrite !dget_dset. destruct (String.eqb_spec "min" key) as [E1|N1]; destruct (String.eqb_spec "max" key) as [E|N2]; [congruence| | |].
      + subst key. intros [= <-] Hb Ha Hb'. destruct Hl as [(s & Hk & Hl)|Hm]; [|destruct k; cbn in Hm; intuition discriminate].
        assert (s = TMin) as -> by (same; reflexivity). cbn in Hl. auto.
      + subst key. intros Ha [= <-] Ha' Hb'. destruct Hl as [(s & Hk & Hl)|Hm]; [|destruct k; cbn in Hm; intuition discriminate].
        assert (s = TMax) as -> by (same; reflexivity). cbn in Hl. auto.
      + apply (tg_bounds k o T).
    - intros a b m n. rewrite !dget_dset. destruct (String.eqb_spec "min_length" key) as [E1|N1]; destruct (String.eqb_spec "max_length" key) as [E|N2]; [congruence| | |].
      + subst key. intros [= <-] Hb Ha Hb'. destruct Hl as [(s & Hk & Hl)|Hm]; [|destruct k; cbn in Hm; intuition discriminate].
        assert (s = TMinLen) as -> by (same; reflexivity). cbn in Hl. eauto.
      + subst key. intros Ha [= <-] Ha' Hb'. destruct Hl as [(s & Hk & Hl)|Hm]; [|destruct k; cbn in Hm; intuition discriminate].
        assert (s = TMaxLen) as -> by (same; reflexivity). cbn in Hl. eauto.
      + apply (tg_sizes k o T).
    - intros m. rewrite dget_dset. destruct (String.eqb_spec "mode" key) as [<-|N1]; [|apply (tg_mode k o T)]. intros [= <-].
      destruct Hl as [(s & Hk & Hl)|Hm]; [|destruct k; cbn in Hm; intuition discriminate]. assert (s = TMode) as -> by (same; reflexivity). exact Hl.
    - intros v. rewrite dget_dset. destruct (String.eqb_spec "valid_modes" key) as [<-|N1].
      + intros [= <-]. destruct Hl as [(s & Hk & Hl)|Hm]; [|destruct k; cbn in Hm; intuition discriminate]. assert (s = TValid) as -> by (same; reflexivity).
        destruct Hl as (l & m & -> & Hg & Hin & Hall). exists l, m. rewrite !dget_dset. auto.
      + intros Hv. destruct (tg_valid k o T v Hv) as (l & m & -> & Hg & Hin & Hall). exists l, m. rewrite !dget_dset.
        destruct (String.eqb_spec "mode" key) as [<-|N2]; [congruence|]. split; [reflexivity|]. split; [exact Hg|]. split; [exact Hin|].
        destruct (String.eqb_spec "file_modes" key); [discriminate|exact Hall].
    - intros v. rewrite dget_dset. destruct (String.eqb_spec "choices" key) as [<-|N1].
      + intros [= <-]. destruct Hl as [(s & Hk & Hl)|Hm]; [|destruct k; cbn in Hm; intuition discriminate]. assert (s = TChoices) as -> by (same; reflexivity).
        destruct Hl as (t & b & -> & Hg & Hc). exists t, b. rewrite dget_dset. auto.
      + intros Hv. destruct (tg_choices k o T v Hv) as (t & b & -> & Hg & Hc). exists t, b. rewrite dget_dset.
        destruct (String.eqb_spec "case_sensitive" key) as [<-|N2]; [congruence|]. auto.
    - intros v. rewrite dget_dset. destruct (String.eqb_spec "descriptions" key) as [<-|N1].
      + intros [= <-]. destruct Hl as [(s & Hk & Hl)|Hm]; [|destruct k; cbn in Hm; intuition discriminate]. assert (s = TDescr) as -> by (same; reflexivity).
        destruct Hl as (t & kvs & -> & Hg & Hc). exists t, kvs. rewrite dget_dset. auto.
      + intros Hv. destruct (tg_descr k o T v Hv) as (t & kvs & -> & Hg & Hc). exists t, kvs. rewrite dget_dset.
        destruct (String.eqb_spec "choices" key) as [<-|N2]; [congruence|]. auto.
    - intros v. rewrite !dget_dset. destruct (String.eqb_spec "name" key) as [<-|N1].
      + intros [= <-]. destruct Hl as [(s & Hk & Hl)|Hm]; [|destruct k; cbn in Hm; intuition discriminate]. assert (s = TName) as -> by (same; reflexivity). exact Hl.
      + intros Hv. destruct (tg_name k o T v Hv) as [Hs|(E & Hp)]; [auto|]. destruct (String.eqb_spec "props" key) as [<-|N2]; [congruence|]. auto.
  Qed.
  Lemma together_nil : together [].
  Proof. split; cbn; discriminate. Qed.
  Lemma local_from o oo s key x : together oo -> (forall y z, dget o y = Some z -> dget oo y = Some z) -> ready o s ->
    In key (keys_of s) -> dget oo key = Some x -> (s = TMin \/ s = TMax -> x <> VNone) -> dget oo "file_modes" = None -> local o s x.
  Proof.
    intros T Hsub Hr Hk Hx Hn Hf. destruct s; cbn [local keys_of ready] in *; auto; destruct Hk as [<-|[]].
    - intros b Hb Hb'. apply (tg_bounds k oo T); auto.
    - intros b Hb Hb'. apply (tg_bounds k oo T); auto.
    - intros b m n Hb. apply (tg_sizes k oo T); auto.
    - intros b m n Hb. apply (tg_sizes k oo T); auto.
    - apply (tg_mode k oo T); auto.
    - destruct (tg_valid k oo T x Hx) as (l & m & -> & Hg & Hin & Hall). destruct Hr as (m' & Hm' & _). exists l, m'.
      assert (m' = m) as -> by (apply Hsub in Hm'; congruence). auto.
    - destruct (tg_choices k oo T x Hx) as (t & b & -> & Hg & Hc). destruct Hr as (b' & Hb'). exists t, b'.
      assert (b' = b) as -> by (apply Hsub in Hb'; congruence). auto.
    - destruct (tg_descr k oo T x Hx) as (t & kvs & -> & Hg & Hc). destruct Hr as (t' & Ht'). exists t', kvs.
      apply Hsub in Ht' as Ht2. assert (choice_dict t' = choice_dict t) as E by congruence. apply (f_equal table_of) in E. rewrite !table_back in E. subst t'. auto.
    - destruct (tg_name k oo T x Hx) as [H|(E & Hp)]; [auto|]. right. split; [exact E|]. specialize (Hr E).
      destruct (dget o "props") as [z|] eqn:D; [|congruence]. apply Hsub in D. congruence.
  Qed.
End Facts.
