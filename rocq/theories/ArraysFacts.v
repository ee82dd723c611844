(** Lemmas behind the Array theorems. *)
From Verif Require Import Arrays OptionsFacts OptionsSpec.
From Coq Require Import Lia.
Local Open Scope string_scope.
Local Open Scope list_scope.

Lemma shape_ok_iff s dims : shape_ok s dims = true <-> fits s dims.
Proof.
  unfold shape_ok, fits. revert dims. induction s as [|d s IH]; intros [|n dims]; simpl.
  - split; auto.
  - split; [discriminate|intros H; inversion H].
  - split; [discriminate|intros H; inversion H].
  - split.
    + intros H. apply andb_prop in H as [H1 H2]. apply andb_prop in H2 as [H2 H3]. constructor.
      * destruct d; auto. apply Z.eqb_eq in H2. subst. auto.
      * apply IH. now rewrite H1, H3.
    + intros H. inversion H as [|? ? ? ? H1 H2]; subst. apply IH in H2. apply andb_prop in H2 as [-> ->].
      destruct H1 as [->| ->]; [reflexivity|]. now rewrite Z.eqb_refl.
Qed.
Lemma kind_for_iff d c : In c (kinds_of d) <-> kind_for d c.
Proof. destruct d; simpl; split; intros H; try (inversion H; subst; auto; fail); intuition (subst; constructor || contradiction). Qed.
Lemma kind_iff c l : existsb (fun d => existsb (Ascii.eqb c) (kinds_of d)) l = true <-> exists d, In d l /\ kind_for d c.
Proof.
  setoid_rewrite <- kind_for_iff. rewrite existsb_exists. split.
  - intros (d & H & E). apply existsb_exists in E as (x & Hx & E). apply Ascii.eqb_eq in E. subst. eauto.
  - intros (d & H & E). exists d. split; auto. apply existsb_exists. exists c. split; auto. apply Ascii.eqb_refl.
Qed.
Lemma akind_eqb_eq a b : akind_eqb a b = true <-> a = b.
Proof. destruct a, b; simpl; split; congruence. Qed.
Lemma array_iff wrap k o v a : array_validate wrap k o v = AOk a <->
  (match v with AvArr _ | AvList _ | AvTuple _ => True | _ => False end) /\
  (if ao_coerce o then wrap k v = Ok a else v = AvArr a) /\ acceptable k o a.
Proof.
  assert (B : forall a', (if match k with KArray => true | _ => akind_eqb (a_class a') k end then
              if existsb (fun d => existsb (Ascii.eqb (a_kind a')) (kinds_of d)) (dtype_opt k o) then
                match shape_opt k o with
                | None => AOk a'
                | Some l => if existsb (fun s => shape_ok s (a_shape a')) l then AOk a' else AErr
                end
              else AErr
            else AErr) = AOk a <-> a' = a /\ acceptable k o a).
  { intros a'. unfold acceptable.
    assert (C : forall b : bool, (if b then True else False) <-> b = true) by (intros []; split; congruence || auto).
    destruct (match k with KArray => true | _ => akind_eqb (a_class a') k end) eqn:E1.
    2:{ split; [discriminate|]. intros (-> & [->|H] & _); [discriminate|].
        assert (akind_eqb (a_class a) k = true) by now apply akind_eqb_eq. destruct k; congruence. }
    assert (Hk : k = KArray \/ a_class a' = k) by (destruct k; auto; right; now apply akind_eqb_eq).
    destruct (existsb (fun d => _) (dtype_opt k o)) eqn:E2.
    2:{ split; [discriminate|]. intros (-> & _ & H & _). apply kind_iff in H. congruence. }
    apply kind_iff in E2. destruct (shape_opt k o) as [l|] eqn:E3.
    2:{ split; [intros H; injection H as <-; auto|intros (-> & _); reflexivity]. }
    destruct (existsb _ l) eqn:E4.
    - apply existsb_exists in E4 as (s & Hs & E4). apply shape_ok_iff in E4. split; [intros H; injection H as <-|intros (-> & _); reflexivity].
      split; auto. split; auto. split; auto. right. eauto.
    - split; [discriminate|]. intros (-> & _ & _ & [H|(l' & s & H & Hs & Hf)]); [discriminate|]. injection H as <-.
      assert (K : existsb (fun s => shape_ok s (a_shape a)) l = true); [|congruence].
      apply existsb_exists. exists s. split; auto. now apply shape_ok_iff. }
  assert (W : forall v', match v' with AvArr _ | AvList _ | AvTuple _ => True | _ => False end ->
     (match (if ao_coerce o then rbind (wrap k v') (fun a => Ok (AvArr a)) else Ok v') with
        | Exc e => AExc e
        | Ok (AvArr a) =>
            if match k with KArray => true | _ => akind_eqb (a_class a) k end then
              if existsb (fun d => existsb (Ascii.eqb (a_kind a)) (kinds_of d)) (dtype_opt k o) then
                match shape_opt k o with
                | None => AOk a
                | Some l => if existsb (fun s => shape_ok s (a_shape a)) l then AOk a else AErr
                end
              else AErr
            else AErr
        | Ok _ => AErr
        end = AOk a <-> (if ao_coerce o then wrap k v' = Ok a else v' = AvArr a) /\ acceptable k o a)).
  { intros v' Hv. destruct (ao_coerce o).
    - destruct (wrap k v') as [a'|e]; cbn [rbind].
      + rewrite B. split; [intros (-> & H); auto|intros (H & K); split; congruence].
      + split; [discriminate|intros (H & _); discriminate].
    - destruct v' as [a'|l|l|s|]; try contradiction.
      + rewrite B. split; [intros (-> & H); auto|intros (H & K); split; congruence].
      + split; [discriminate|intros (H & _); discriminate].
      + split; [discriminate|intros (H & _); discriminate]. }
  destruct v as [a'|l|l|s|].
  - unfold array_validate. rewrite (W (AvArr a')) by exact I. tauto.
  - unfold array_validate. rewrite (W (AvList l)) by exact I. tauto.
  - unfold array_validate. rewrite (W (AvTuple l)) by exact I. tauto.
  - simpl. split; [discriminate|tauto].
  - simpl. split; [discriminate|tauto].
Qed.

(** ** options *)
Lemma validate_shape_iff v l : validate_shape v = Ok l <->
  Forall2 (fun x s => shape_of x = Some s) (match v with VSet l => l | _ => [v] end) l.
Proof.
  unfold validate_shape. rewrite <- all_some_map. destruct (all_some _); split; congruence.
Qed.
(** vector arrays always end in the dimension *)
Definition last_dim (k : akind) : Z := match k with KVec3 | KVec3Array => 3 | _ => 2 end.
Definition vec_good (k : akind) (o : aopts) : Prop :=
  exists l, shape_opt k o = Some l /\ Forall (fun s => exists d, s = [d; Len (last_dim k)]) l.
Lemma vec_apply k o a o' : k = KVec3Array \/ k = KVec2Array -> vec_good k o -> a_apply k o a = Ok o' -> vec_good k o'.
Proof.
  intros Hk Ho H.
  assert (S : forall n l, forallb (fun s => match s with [_; Len m] => Z.eqb m n | _ => false end) l = true -> Forall (fun s => exists d, s = [d; Len n]) l).
  { intros n l Hl. apply Forall_forall. intros s Hs. rewrite forallb_forall in Hl. specialize (Hl s Hs).
    destruct s as [|d [|[|m] [|]]]; try discriminate. apply Z.eqb_eq in Hl. subst. eauto. }
  destruct a as [v|l|v]; simpl in H.
  - destruct Hk as [-> | ->]; simpl in H; destruct (validate_shape v) as [l|]; try discriminate; simpl in H;
      destruct (forallb _ l) eqn:E; try discriminate; injection H as <-; exists l; split; auto; apply S in E; exact E.
  - destruct Hk as [-> | ->]; discriminate.
  - destruct v; try discriminate. injection H as <-. destruct Hk as [-> | ->]; exact Ho.
Qed.
Lemma vec_shapes k ops : k = KVec3Array \/ k = KVec2Array -> vec_good k (assign_all (a_apply k) a_start ops).
Proof.
  intros Hk. apply (assign_inv (a_apply k) (vec_good k)); [intros o a o'; now apply vec_apply|].
  destruct Hk as [-> | ->]; eexists; split; try reflexivity; repeat constructor; eexists; reflexivity.
Qed.
Lemma tuple_names_bad k l a : tuple_names k l <> Some (AOk a).
Proof. induction l as [|[s|z|d|n] l IH]; simpl; try congruence. destruct (direction k s); congruence. Qed.
Local Opaque array_validate direction replace_names tuple_names.
Lemma vector_shapes wrap k ops v a v' : k <> KArray -> validate wrap k (assign_all (a_apply k) a_start ops) v = (AOk a, v') ->
  a_class a = k /\ a_kind a = "f"%char /\
  match k with
  | KVec3 => a_shape a = [3%Z]
  | KVec2 => a_shape a = [2%Z]
  | KVec3Array => exists n, a_shape a = [n; 3%Z]
  | _ => exists n, a_shape a = [n; 2%Z]
  end.
Proof.
  intros Hk H. set (o := assign_all _ _ _) in *.
  assert (A : exists v1, array_validate wrap k o v1 = AOk a).
  { destruct k; try congruence; unfold validate in H.
    - destruct v; try (injection H as H _; eauto). destruct (direction _ _); injection H as H _; eauto; discriminate.
    - destruct v; try (injection H as H _; eauto). destruct (direction _ _); injection H as H _; eauto; discriminate.
    - destruct v; try (injection H as H _; eauto).
      + destruct (replace_names _ _) as [[] t]; injection H as H _; eauto; discriminate.
      + destruct (tuple_names _ _) as [r|] eqn:E; injection H as H _; eauto. subst. now apply tuple_names_bad in E.
    - destruct v; try (injection H as H _; eauto).
      + destruct (replace_names _ _) as [[] t]; injection H as H _; eauto; discriminate.
      + destruct (tuple_names _ _) as [r|] eqn:E; injection H as H _; eauto. subst. now apply tuple_names_bad in E. }
  destruct A as [v1 A]. apply array_iff in A as (_ & _ & [Hc|Hc] & (d & Hd & Hkd) & Hs); [contradiction|]. split; auto.
  assert (Ed : dtype_opt k o = [DFloat]) by (destruct k; congruence || reflexivity). rewrite Ed in Hd. destruct Hd as [<-|[]]. assert (Hk2 : a_kind a = "f"%char) by now inversion Hkd.
  split; auto.
  assert (F : forall n, fits [Len n] (a_shape a) -> a_shape a = [n]).
  { intros n Hf. inversion Hf as [|? ? ? ? H1 H2]; subst. inversion H2; subst. destruct H1; congruence. }
  assert (G : forall d n, fits [d; Len n] (a_shape a) -> exists m, a_shape a = [m; n]).
  { intros d n Hf. unfold fits in Hf. destruct (a_shape a) as [|x [|y [|z r]]]; inversion Hf as [|? ? ? ? K1 K2]; subst; inversion K2 as [|? ? ? ? K3 K4]; subst; inversion K4; subst.
    destruct K3 as [K3|K3]; [discriminate|]. injection K3 as <-. eauto. }
  destruct k; try congruence.
  - destruct Hs as [Hs|(l & s & Hs & Hin & Hf)]; [discriminate|]. injection Hs as <-. destruct Hin as [<-|[]]. auto.
  - destruct Hs as [Hs|(l & s & Hs & Hin & Hf)]; [discriminate|]. injection Hs as <-. destruct Hin as [<-|[]]. auto.
  - destruct (vec_shapes KVec3Array ops (or_introl eq_refl)) as (l0 & E0 & HF). fold o in E0. destruct Hs as [Hs|(l & s & Hs & Hin & Hf)]; [congruence|].
    assert (l0 = l) by congruence. subst l0. rewrite Forall_forall in HF. destruct (HF s Hin) as (d' & ->). eapply G; eauto.
  - destruct (vec_shapes KVec2Array ops (or_intror eq_refl)) as (l0 & E0 & HF). fold o in E0. destruct Hs as [Hs|(l & s & Hs & Hin & Hf)]; [congruence|].
    assert (l0 = l) by congruence. subst l0. rewrite Forall_forall in HF. destruct (HF s Hin) as (d' & ->). eapply G; eauto.
Qed.
Local Transparent array_validate direction replace_names tuple_names.
Lemma array_default a : acceptable KArray a_start a <-> (In (a_kind a) ["f"; "i"; "u"]%char /\ exists n, a_shape a = [n]).
Proof.
  unfold acceptable. simpl. split.
  - intros (_ & (d & Hd & Hk) & [K|(l & s & K & Hs & Hf)]); [discriminate|]. injection K as <-. destruct Hs as [<-|[]]. split.
    + destruct Hd as [<-|[<-|[]]]; inversion Hk; auto.
    + unfold fits in Hf. destruct (a_shape a) as [|x [|y r]]; inversion Hf as [|? ? ? ? K1 K2]; subst; inversion K2; subst. eauto.
  - intros (Hk & n & ->). split; auto. split.
    + destruct Hk as [<-|[<-|[<-|[]]]]; [exists DFloat|exists DInt|exists DInt]; split; auto; constructor.
    + right. exists [[Star]], [Star]. repeat split; auto. simpl. auto.
      constructor; [auto|constructor].
Qed.

(** * Options and names *)
Lemma dtype_option l o o' : set_dtype KArray l o = Ok o' <->
  l <> [] /\ ~ In DNoType l /\ o' = AO (ao_shape o) (Some l) (ao_coerce o).
Proof.
  cbn [set_dtype]. destruct l as [|d l]; [split; [discriminate|]; intros [K _]; now destruct K|].
  destruct (forallb known_dtype (d :: l)) eqn:Ef.
  - rewrite forallb_forall in Ef. split.
    + intros H. injection H as <-. split; [discriminate|]. split; [|reflexivity]. intros K. apply Ef in K. discriminate.
    + intros (_ & _ & ->). reflexivity.
  - split; [discriminate|]. intros (_ & K & _). exfalso. apply K. clear K. revert Ef. generalize (d :: l). clear. intros l.
    induction l as [|d l IH]; [discriminate|]. cbn [forallb]. destruct d; cbn [known_dtype andb]; intros H; try (right; now apply IH). now left.
Qed.
Lemma direction_names :
  (forall pos neg n, In (pos, neg, n) [("X", "-X", 0); ("EAST", "WEST", 0); ("Y", "-Y", 1); ("NORTH", "SOUTH", 1); ("Z", "-Z", 2); ("UP", "DOWN", 2)]%nat ->
     forall k, In k [KVec3; KVec3Array] -> direction k pos = Some (axis 3 n 1) /\ direction k neg = Some (axis 3 n (-1))) /\
  (forall pos neg n, In (pos, neg, n) [("X", "-X", 0); ("EAST", "WEST", 0); ("Y", "-Y", 1); ("NORTH", "SOUTH", 1)]%nat ->
     forall k, In k [KVec2; KVec2Array] -> direction k pos = Some (axis 2 n 1) /\ direction k neg = Some (axis 2 n (-1))) /\
  (forall s k, In s ["Z"; "-Z"; "UP"; "DOWN"] -> In k [KVec2; KVec2Array] -> direction k s = None) /\
  (forall k s, direction k s <> None -> exists name, str_upper s = name /\
     In name ["ZERO"; "X"; "-X"; "EAST"; "WEST"; "Y"; "-Y"; "NORTH"; "SOUTH"; "Z"; "-Z"; "UP"; "DOWN"]) /\
  (forall k, direction k "ZERO" = Some (axis (match k with KVec3 | KVec3Array => 3 | _ => 2 end) 0 0)) /\
  (forall k s t, str_upper s = str_upper t -> direction k s = direction k t).
Proof.
  split; [|split; [|split; [|split; [|split]]]].
  - intros pos neg n H k Hk. cbn [In] in H, Hk. repeat (destruct H as [H|H]; [injection H as <- <- <-; repeat (destruct Hk as [<-|Hk]; [split; reflexivity|]); contradiction|]). contradiction.
  - intros pos neg n H k Hk. cbn [In] in H, Hk. repeat (destruct H as [H|H]; [injection H as <- <- <-; repeat (destruct Hk as [<-|Hk]; [split; reflexivity|]); contradiction|]). contradiction.
  - intros s k H Hk. cbn [In] in H, Hk. repeat (destruct H as [<-|H]; [repeat (destruct Hk as [<-|Hk]; [reflexivity|]); contradiction|]). contradiction.
  - intros k s H. exists (str_upper s). split; [reflexivity|]. unfold direction in H.
    assert (G : dget directions (str_upper s) <> None -> In (str_upper s) (dkeys directions)).
    { intros K. destruct (dget directions (str_upper s)) as [l|] eqn:E; [|contradiction]. apply dget_in in E. apply (in_map fst) in E. exact E. }
    assert (G' : dget directions (str_upper s) <> None) by (destruct k; try exact H; destruct (str_mem _ _); try (now destruct H); now destruct (dget directions (str_upper s))).
    apply G in G'. cbn [dkeys directions map fst In] in G'. cbn [In]. tauto.
  - intros []; reflexivity.
  - intros k s t E. unfold direction. now rewrite E.
Qed.

(** ** values of vectors *)
Lemma replace_names_iff k l t : replace_names k l = (true, t) <-> Forall2 (item_reads k) l t.
Proof.
  revert t. induction l as [|x r IH]; intros t; cbn [replace_names].
  - split; [intros H; injection H as <-; constructor|inversion 1; reflexivity].
  - destruct x as [s|z|d|n]; [|
      destruct (replace_names k r) as [ok u] eqn:E; split;
      [intros H; injection H as -> <-; constructor; [constructor; discriminate|now apply IH]
      |intros H; inversion H as [|x y l' t' Hx Hr]; subst; inversion Hx; subst; apply IH in Hr; injection Hr as -> ->; reflexivity]..].
    destruct (direction k s) as [d|] eqn:D.
    + destruct (replace_names k r) as [ok u] eqn:E. split.
      * intros H. injection H as -> <-. constructor; [now constructor|now apply IH].
      * intros H. inversion H as [|x y l' t' Hx Hr]; subst. apply IH in Hr. injection Hr as -> ->.
        inversion Hx as [s' d' D'|x N]; subst; [|now destruct (N s)]. rewrite D in D'. injection D' as ->. reflexivity.
    + split; [discriminate|]. intros H. inversion H as [|x y l' t' Hx Hr]; subst.
      inversion Hx as [s' d' D'|x N]; subst; [congruence|now destruct (N s)].
Qed.
Lemma tuple_names_iff k l : tuple_names k l = None <-> Forall no_name l.
Proof.
  induction l as [|x r IH]; cbn [tuple_names]; [split; [constructor|reflexivity]|].
  destruct x as [s|z|d|n]; [|rewrite IH; split; [constructor; [discriminate|assumption]|inversion 1; assumption]..].
  split; [destruct (direction k s); discriminate|]. intros H. inversion H as [|x l' N]; subst. now destruct (N s).
Qed.
Local Ltac fin := split; [assumption|split; [assumption|split; intros; solve [reflexivity|contradiction]]].
Lemma vector_accepts wrap k o v a v' : k <> KArray -> (validate wrap k o v = (AOk a, v') <->
  exists u, reads_as k v u /\ (if ao_coerce o then wrap k u = Ok a else u = AvArr a) /\ acceptable k o a /\
    (is_vector k -> v' = v) /\ (is_vectors k -> v' = u)).
Proof.
  intros Hk.
  assert (P : forall u, (match u with AvArr _ | AvList _ | AvTuple _ => True | _ => False end) ->
    (array_validate wrap k o u = AOk a <-> (if ao_coerce o then wrap k u = Ok a else u = AvArr a) /\ acceptable k o a)).
  { intros u Hu. rewrite array_iff. tauto. }
  assert (J : forall r (w : aval), (r, w) = (AOk a, v') <-> r = AOk a /\ v' = w) by (intros; split; [intros H; injection H; auto|intros [-> ->]; reflexivity]).
  assert (C : is_vector k /\ ~ is_vectors k \/ is_vectors k /\ ~ is_vector k).
  { unfold is_vector, is_vectors. destruct k; try contradiction; [left|left|right|right]; split; auto; intros [H|H]; discriminate. }
  destruct C as [[V N]|[V N]].
  - assert (E : validate wrap k o v = match v with
        | AvStr s => match direction k s with
                     | Some d => (array_validate wrap k o (AvList (map (fun z => AiNum z) d)), v)
                     | None => (AErr, v)
                     end
        | _ => (array_validate wrap k o v, v) end) by (destruct V as [-> | ->]; reflexivity).
    rewrite E. clear E. destruct v as [b|l|l|s|].
    + rewrite J, P by exact I. split.
      * intros ((A & B) & ->). exists (AvArr b). split; [constructor|]. fin.
      * intros (u & R & A & B & Q & _). inversion R; subst. auto.
    + rewrite J, P by exact I. split.
      * intros ((A & B) & ->). exists (AvList l). split; [now constructor|]. fin.
      * intros (u & R & A & B & Q & _). inversion R; subst; [auto|contradiction].
    + rewrite J, P by exact I. split.
      * intros ((A & B) & ->). exists (AvTuple l). split; [now constructor|]. fin.
      * intros (u & R & A & B & Q & _). inversion R; subst; auto.
    + destruct (direction k s) as [d|] eqn:D.
      * rewrite J, P by exact I. split.
        -- intros ((A & B) & ->). eexists. split; [exact (ra_name k s d V D)|]. fin.
        -- intros (u & R & A & B & Q & _). inversion R as [s' d' _ D'| | | | |]; subst. rewrite D in D'. injection D' as <-. auto.
      * split; [discriminate|]. intros (u & R & _). inversion R; subst. congruence.
    + split; [discriminate|]. intros (u & R & _). inversion R.
  - assert (E : validate wrap k o v = match v with
        | AvList l => let (ok, t) := replace_names k l in ((if ok then array_validate wrap k o (AvList t) else AErr), AvList t)
        | AvTuple l => match tuple_names k l with Some r => (r, v) | None => (array_validate wrap k o v, v) end
        | _ => (array_validate wrap k o v, v) end) by (destruct V as [-> | ->]; reflexivity).
    rewrite E. clear E. destruct v as [b|l|l|s|].
    + rewrite J, P by exact I. split.
      * intros ((A & B) & ->). exists (AvArr b). split; [constructor|]. fin.
      * intros (u & R & A & B & _ & Q). specialize (Q V). inversion R; subst. auto.
    + destruct (replace_names k l) as [ok t] eqn:T. rewrite J. destruct ok.
      * rewrite P by exact I. split.
        -- intros ((A & B) & ->). exists (AvList t). split; [constructor; [exact V|now apply replace_names_iff]|]. fin.
        -- intros (u & R & A & B & _ & Q). specialize (Q V). inversion R as [|? V'| |l' t' _ F| |]; subst; [contradiction|].
           apply replace_names_iff in F. rewrite F in T. injection T as ->. auto.
      * split; [intros [H _]; discriminate|]. intros (u & R & _). inversion R as [|? V'| |l' t' _ F| |]; subst; [contradiction|].
        apply replace_names_iff in F. congruence.
    + destruct (tuple_names k l) as [r|] eqn:T.
      * rewrite J. split; [intros [-> _]; now apply tuple_names_bad in T|]. intros (u & R & _).
        inversion R as [| |? V'| |l' _ F|]; subst; [contradiction|]. apply (tuple_names_iff k) in F. congruence.
      * rewrite J, P by exact I. split.
        -- intros ((A & B) & ->). exists (AvTuple l). split; [constructor; [exact V|now apply (tuple_names_iff k)]|]. fin.
        -- intros (u & R & A & B & _ & Q). specialize (Q V). inversion R; subst; auto.
    + rewrite J. split; [intros [H _]; discriminate|]. intros (u & R & _). inversion R; subst. contradiction.
    + rewrite J. split; [intros [H _]; discriminate|]. intros (u & R & _). inversion R.
Qed.
Lemma array_refuses wrap k o u r : (match u with AvArr _ | AvList _ | AvTuple _ => True | _ => False end) ->
  array_validate wrap k o u = r -> (forall a, r <> AOk a) -> unacceptable wrap k o u r.
Proof.
  intros Hu H N.
  assert (NA : forall a, (if ao_coerce o then wrap k u = Ok a else u = AvArr a) -> ~ acceptable k o a).
  { intros a A B. apply (N a). rewrite <- H. apply array_iff. tauto. }
  destruct (ao_coerce o) eqn:C.
  - destruct (wrap k u) as [a|e] eqn:W.
    + assert (r = AErr) as ->; [|apply (un_made wrap k o u a C W); now apply NA].
      clear NA. destruct u; try contradiction; cbn [array_validate] in H; rewrite C, W in H; cbn [rbind] in H;
        repeat match type of H with (if ?b then _ else _) = _ => destruct b | (match ?b with None => _ | Some _ => _ end) = _ => destruct b end;
        try congruence; subst r; exfalso; eapply N; reflexivity.
    + assert (r = AExc e) as ->; [|now apply un_raises].
      destruct u; try contradiction; cbn [array_validate] in H; rewrite C, W in H; cbn [rbind] in H; now subst r.
  - assert (r = AErr) as ->; [|apply un_given; [exact C|exact NA]].
    clear NA. destruct u; try contradiction; cbn [array_validate] in H; rewrite C in H; try congruence;
      repeat match type of H with (if ?b then _ else _) = _ => destruct b | (match ?b with None => _ | Some _ => _ end) = _ => destruct b end;
      try congruence; subst r; exfalso; eapply N; reflexivity.
Qed.
Lemma replace_names_bad k l u : replace_names k l = (false, u) ->
  exists a t s r, l = a ++ AiStr s :: r /\ u = t ++ AiStr s :: r /\ Forall2 (item_reads k) a t /\ direction k s = None.
Proof.
  revert u. induction l as [|x r IH]; intros u; cbn [replace_names]; [discriminate|].
  assert (G : forall y, item_reads k x y -> (let (ok, t) := replace_names k r in (ok, y :: t)) = (false, u) ->
    exists a t s r', x :: r = a ++ AiStr s :: r' /\ u = t ++ AiStr s :: r' /\ Forall2 (item_reads k) a t /\ direction k s = None).
  { intros y Hy H. destruct (replace_names k r) as [ok t0] eqn:E. injection H as -> <-.
    destruct (IH t0 eq_refl) as (a & t & s & r' & -> & -> & F & D).
    exists (x :: a), (y :: t), s, r'. split; [reflexivity|]. split; [reflexivity|]. split; [now constructor|exact D]. }
  destruct x as [s|z|d|n]; [|apply G; constructor; discriminate..].
  destruct (direction k s) as [d|] eqn:D; [apply G; now constructor|].
  intros H. injection H as <-. exists [], [], s, r. split; [reflexivity|]. split; [reflexivity|]. split; [constructor|exact D].
Qed.
Lemma tuple_names_found k l x : tuple_names k l = Some x -> exists a s r, l = a ++ AiStr s :: r /\ Forall no_name a /\
  x = match direction k s with Some _ => AExc ExType | None => AErr end.
Proof.
  induction l as [|y r IH]; cbn [tuple_names]; [discriminate|].
  assert (G : no_name y -> tuple_names k r = Some x -> exists a s r', y :: r = a ++ AiStr s :: r' /\ Forall no_name a /\
    x = match direction k s with Some _ => AExc ExType | None => AErr end).
  { intros N H. destruct (IH H) as (a & s & r' & -> & F & ->). exists (y :: a), s, r'. split; [reflexivity|]. split; [now constructor|reflexivity]. }
  destruct y as [s|z|d|n]; [|apply G; discriminate..].
  intros H. exists [], s, r. split; [reflexivity|]. split; [constructor|]. destruct (direction k s); congruence.
Qed.
Lemma vector_refuses wrap k o v r v' : k <> KArray -> validate wrap k o v = (r, v') -> (forall a, r <> AOk a) ->
  refuses_as k v r v' \/
  exists u, reads_as k v u /\ unacceptable wrap k o u r /\ (is_vector k -> v' = v) /\ (is_vectors k -> v' = u).
Proof.
  intros Hk H N.
  assert (C : is_vector k /\ ~ is_vectors k \/ is_vectors k /\ ~ is_vector k).
  { unfold is_vector, is_vectors. destruct k; try contradiction; [left|left|right|right]; split; auto; intros [X|X]; discriminate. }
  assert (A : forall u w, reads_as k v u -> (match u with AvArr _ | AvList _ | AvTuple _ => True | _ => False end) ->
      (array_validate wrap k o u, w) = (r, v') -> (is_vector k -> w = v) -> (is_vectors k -> w = u) ->
      refuses_as k v r v' \/
      exists u, reads_as k v u /\ unacceptable wrap k o u r /\ (is_vector k -> v' = v) /\ (is_vectors k -> v' = u)).
  { intros u w R Hu E V1 V2. injection E as E <-. right. exists u. split; [exact R|]. split; [now apply array_refuses|]. split; assumption. }
  destruct C as [[V W]|[V W]].
  - assert (E : validate wrap k o v = match v with
        | AvStr s => match direction k s with
                     | Some d => (array_validate wrap k o (AvList (map (fun z => AiNum z) d)), v)
                     | None => (AErr, v)
                     end
        | _ => (array_validate wrap k o v, v) end) by (destruct V as [-> | ->]; reflexivity).
    rewrite E in H. clear E. destruct v as [b|l|l|s|].
    + eapply A; [constructor|exact I|exact H|reflexivity|reflexivity].
    + eapply A; [now constructor|exact I|exact H|reflexivity|reflexivity].
    + eapply A; [now apply ra_tuple|exact I|exact H|reflexivity|reflexivity].
    + destruct (direction k s) as [d|] eqn:D.
      * eapply A; [exact (ra_name k s d V D)|exact I|exact H|reflexivity|intros X; contradiction].
      * injection H as <- <-. left. now constructor.
    + cbn in H. injection H as <- <-. left. constructor.
  - assert (E : validate wrap k o v = match v with
        | AvList l => let (ok, t) := replace_names k l in ((if ok then array_validate wrap k o (AvList t) else AErr), AvList t)
        | AvTuple l => match tuple_names k l with Some r => (r, v) | None => (array_validate wrap k o v, v) end
        | _ => (array_validate wrap k o v, v) end) by (destruct V as [-> | ->]; reflexivity).
    rewrite E in H. clear E. destruct v as [b|l|l|s|].
    + eapply A; [constructor|exact I|exact H|reflexivity|reflexivity].
    + destruct (replace_names k l) as [[] t] eqn:T.
      * eapply A; [apply ra_items; [exact V|apply replace_names_iff; exact T]|exact I|exact H|intros X; contradiction|reflexivity].
      * injection H as <- <-. left. apply replace_names_bad in T as (a & t' & s & r' & -> & -> & F & D). now constructor.
    + destruct (tuple_names k l) as [x|] eqn:T.
      * injection H as <- <-. left. apply tuple_names_found in T as (a & s & r' & -> & F & ->).
        destruct (direction k s) as [d|] eqn:D; [eapply rf_stored; eauto|now apply rf_unknown].
      * eapply A; [apply ra_unnamed; [exact V|now apply (tuple_names_iff k)]|exact I|exact H|reflexivity|reflexivity].
    + cbn in H. injection H as <- <-. left. now apply rf_string.
    + cbn in H. injection H as <- <-. left. constructor.
Qed.
