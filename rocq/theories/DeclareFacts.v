(** Proofs about the declaration of properties and listeners. *)
From Coq Require Import Permutation Lia.
From Verif Require Import Declare DeclareSpec.
Local Open Scope string_scope.
Local Open Scope list_scope.
Local Open Scope nat_scope.

Lemma str_mem_in s l : str_mem s l = true <-> In s l.
Proof.
  unfold str_mem. rewrite existsb_exists. split.
  - intros (x & I & H). apply String.eqb_eq in H. subst. auto.
  - intros I. exists s. split; auto. apply String.eqb_refl.
Qed.
Lemma dget_in_iff {V} (d : dict V) k v : NoDup (dkeys d) -> (dget d k = Some v <-> In (k, v) d).
Proof. intros N. split; [apply dget_in|apply dget_nodup_in; auto]. Qed.

Section Numbers.
  Variable E : env.
  Variable ucall : val -> option (res val).
  Variable ucall2 : val -> val -> res val.

  Definition own_plain (p : nprop) : Prop := forall key, In key (map fst (np_own p)) -> In key plain_attrs.

  Lemma own_dhas p key : own_plain p -> dhas (np_own p) key = true -> In key plain_attrs.
  Proof.
    intros O H. apply O. unfold dhas in H. destruct (dget (np_own p) key) eqn:G; [|discriminate].
    apply dget_in in G. apply (in_map fst) in G. exact G.
  Qed.

  Ltac keys := repeat match goal with
    | H : context [String.eqb ?a ?b] |- _ => destruct (String.eqb_spec a b)
    | |- context [String.eqb ?a ?b] => destruct (String.eqb_spec a b) end.

  Lemma dset_keys (d : dict val) k v key : In key (map fst (dset d k v)) -> key = k \/ In key (map fst d).
  Proof.
    induction d as [|[a b] r IH]; simpl; [intuition|].
    match goal with |- context [String.eqb ?x ?y] => destruct (String.eqb_spec x y) end; simpl; intuition.
  Qed.

  Lemma set_min_ok v o o' : set_min v o = Ok o' ->
    o' = BO v (b_max o) /\ (b_max o = VNone \/ py_gt v (b_max o) = Ok false).
  Proof.
    unfold set_min. destruct (is_none (b_max o)) eqn:Q; cbn [rbind].
    - intros H. injection H as <-. split; auto. left. destruct (b_max o); cbn in Q; congruence.
    - destruct (py_gt v (b_max o)) as [[|]|]; cbn [rbind]; try discriminate.
      intros H. injection H as <-. auto.
  Qed.
  Lemma set_max_ok v o o' : set_max v o = Ok o' ->
    o' = BO (b_min o) v /\ (b_min o = VNone \/ py_gt (b_min o) v = Ok false).
  Proof.
    unfold set_max. destruct (is_none (b_min o)) eqn:Q; cbn [rbind].
    - intros H. injection H as <-. split; auto. left. destruct (b_min o); cbn in Q; congruence.
    - destruct (py_gt (b_min o) v) as [[|]|]; cbn [rbind]; try discriminate.
      intros H. injection H as <-. auto.
  Qed.

  Definition b_inv (o : bopts) : Prop := b_min o <> VNone -> b_max o <> VNone -> py_gt (b_min o) (b_max o) = Ok false.

  (** One accepted assignment of an attribute other than default and doc. *)
  Lemma setattr_ok key v p p' : own_plain p -> key <> "default" -> key <> "doc" ->
    np_hasattr key p = true -> np_setattr E ucall ucall2 key v p = Ok p' ->
    kw_ok ucall key v /\ own_plain p' /\ np_kind p' = np_kind p /\ np_default p' = np_default p /\
    np_getattr p' key = Some v /\ (forall k', k' <> key -> np_getattr p' k' = np_getattr p k') /\
    (b_inv (np_bounds p) -> b_inv (np_bounds p')).
  Proof.
    intros O Nd Nc Ha H. destruct p as [k doc name rq ca bo se de df own]. unfold np_setattr in H.
    destruct (String.eqb_spec key "name"); [subst|].
    { destruct v; try discriminate. injection H as <-. repeat split; auto; try constructor.
      intros k' Hk. unfold np_getattr. apply String.eqb_neq in Hk. rewrite Hk. reflexivity. }
    destruct (String.eqb_spec key "doc"); [congruence|].
    destruct (String.eqb_spec key "default"); [congruence|].
    destruct (String.eqb_spec key "serializer"); [subst|].
    { destruct (ucall v) eqn:C; try discriminate. injection H as <-. repeat split; auto; try (constructor; congruence).
      intros k' Hk. unfold np_getattr. apply String.eqb_neq in Hk. rewrite Hk. reflexivity. }
    destruct (String.eqb_spec key "deserializer"); [subst|].
    { destruct (ucall v) eqn:C; try discriminate. injection H as <-. repeat split; auto; try (constructor; congruence).
      intros k' Hk. unfold np_getattr. apply String.eqb_neq in Hk. rewrite Hk. reflexivity. }
    destruct (String.eqb_spec key "required"); [subst|].
    { destruct v; try discriminate. injection H as <-. repeat split; auto; try constructor.
      intros k' Hk. unfold np_getattr. apply String.eqb_neq in Hk. rewrite Hk. reflexivity. }
    destruct (String.eqb_spec key "cast"); [subst|].
    { destruct v; try discriminate. injection H as <-. repeat split; auto; try constructor.
      intros k' Hk. unfold np_getattr. apply String.eqb_neq in Hk. rewrite Hk. reflexivity. }
    destruct (String.eqb_spec key "min"); [subst|].
    { destruct (set_min v bo) as [o|] eqn:S; cbn [rbind] in H; [|discriminate]. injection H as <-.
      apply set_min_ok in S. destruct S as [-> S]. repeat split; auto; try constructor.
      - intros k' Hk. unfold np_getattr. apply String.eqb_neq in Hk. rewrite Hk. reflexivity.
      - intros _ A B. cbn in *. destruct S; [contradiction|auto]. }
    destruct (String.eqb_spec key "max"); [subst|].
    { destruct (set_max v bo) as [o|] eqn:S; cbn [rbind] in H; [|discriminate]. injection H as <-.
      apply set_max_ok in S. destruct S as [-> S]. repeat split; auto; try constructor.
      - intros k' Hk. unfold np_getattr. apply String.eqb_neq in Hk. rewrite Hk. reflexivity.
      - intros _ A B. cbn in *. destruct S; [contradiction|auto]. }
    destruct (str_mem key read_only) eqn:R; [discriminate|].
    injection H as <-.
    assert (In key plain_attrs) as P.
    { unfold np_hasattr in Ha. rewrite R in Ha. apply Bool.orb_prop in Ha. destruct Ha as [Ha|Ha].
      - apply Bool.orb_prop in Ha. destruct Ha as [Ha|Ha].
        + rewrite Bool.orb_false_r in Ha. apply str_mem_in in Ha. cbn in Ha. intuition congruence.
        + apply str_mem_in in Ha. exact Ha.
      - apply own_dhas in Ha; auto. }
    split; [apply kw_plain; auto|]. split.
    { intros q I. cbn in I. apply dset_keys in I. destruct I as [->|I]; auto. }
    repeat split; auto.
    - unfold np_getattr; cbn [np_own]. keys; try congruence. apply dget_dset_same.
    - intros k' Hk. unfold np_getattr; cbn [np_own np_name np_doc np_default np_ser np_deser np_required np_cast np_bounds].
      rewrite dget_dset_other by auto. reflexivity.
  Qed.

  Lemma keyword_ok key v p p' : own_plain p -> key <> "default" -> key <> "doc" ->
    np_keyword E ucall ucall2 p (key, v) = Ok p' ->
    kw_ok ucall key v /\ own_plain p' /\ np_kind p' = np_kind p /\ np_default p' = np_default p /\
    np_getattr p' key = Some v /\ (forall k', k' <> key -> np_getattr p' k' = np_getattr p k') /\
    (b_inv (np_bounds p) -> b_inv (np_bounds p')).
  Proof.
    intros O A B H. unfold np_keyword in H. destruct (String.eqb key "terms"); [discriminate|].
    destruct key as [|c r]; [discriminate|]. destruct (Ascii.eqb c "_"); [discriminate|].
    destruct (np_hasattr (String c r) p) eqn:Ha; cbn [negb] in H; [|discriminate].
    eapply setattr_ok; eauto.
  Qed.

  Lemma keywords_ok kws : forall p p', own_plain p -> NoDup (map fst kws) ->
    ~ In "default" (map fst kws) -> ~ In "doc" (map fst kws) ->
    np_keywords E ucall ucall2 kws p = Ok p' ->
    (forall key v, In (key, v) kws -> kw_ok ucall key v) /\ own_plain p' /\ np_kind p' = np_kind p /\ np_default p' = np_default p /\
    (forall key v, In (key, v) kws -> np_getattr p' key = Some v) /\
    (forall key, ~ In key (map fst kws) -> np_getattr p' key = np_getattr p key) /\
    (b_inv (np_bounds p) -> b_inv (np_bounds p')).
  Proof.
    induction kws as [|[key v] r IH]; intros p p' O N Nd Nc H.
    - cbn in H. injection H as <-. repeat split; auto; intros ? ? [].
    - cbn [np_keywords] in H. destruct (np_keyword E ucall ucall2 p (key, v)) as [p1|] eqn:K; cbn [rbind] in H; [|discriminate].
      cbn in N, Nd, Nc. inversion N; subst.
      apply keyword_ok in K; auto. destruct K as (K1 & K2 & K3 & K4 & K5 & K6 & K7).
      apply IH in H; auto. destruct H as (H1' & H2' & H3' & H4' & H5' & H6' & H7').
      split; [|split; [|split; [|split; [|split; [|split]]]]]; auto; try congruence.
      + intros k' v' [Q|Q]; [injection Q as <- <-; auto|auto].
      + intros k' v' [Q|Q]; [injection Q as <- <-; rewrite H6'; auto|auto].
      + intros k' Q. cbn in Q. rewrite H6', K6; auto; intuition congruence.
  Qed.

  Definition free (kws : list (string * val)) (p : nprop) : Prop :=
    (forall v, In ("min", v) kws -> b_min (np_bounds p) = VNone) /\
    (forall v, In ("max", v) kws -> b_max (np_bounds p) = VNone).

  Lemma plain_not_setter key : In key plain_attrs -> ~ In key ["name"; "doc"; "default"; "serializer"; "deserializer"; "required"; "cast"; "min"; "max"; "meta"; "info"; "terms"; ""].
  Proof. intros P Q. cbn in P, Q. intuition congruence. Qed.

  Lemma plain_setattr key v p : In key plain_attrs -> np_setattr E ucall ucall2 key v p =
    Ok (NP (np_kind p) (np_doc p) (np_name p) (np_required p) (np_cast p) (np_bounds p) (np_ser p) (np_deser p) (np_default p) (dset (np_own p) key v)).
  Proof.
    intros P. pose proof (plain_not_setter _ P) as Q. destruct p as [k doc name rq ca bo se de df own]. unfold np_setattr.
    cbn in P. destruct P as [<-|P]; [reflexivity|].
    repeat (destruct P as [<-|P]; [reflexivity|]). destruct P.
  Qed.
  Lemma plain_keyword key v p : In key plain_attrs -> np_keyword E ucall ucall2 p (key, v) = np_setattr E ucall ucall2 key v p.
  Proof.
    intros P. unfold np_keyword. cbn in P.
    destruct P as [<-|P]; [reflexivity|].
    repeat (destruct P as [<-|P]; [reflexivity|]). destruct P.
  Qed.

  (** Each accepted keyword is applied, as long as the bounds agree. *)
  Lemma keyword_runs key v p : kw_ok ucall key v ->
    (key = "min" -> b_max (np_bounds p) = VNone \/ py_gt v (b_max (np_bounds p)) = Ok false) ->
    (key = "max" -> b_min (np_bounds p) = VNone \/ py_gt (b_min (np_bounds p)) v = Ok false) ->
    exists p', np_keyword E ucall ucall2 p (key, v) = Ok p' /\
      b_min (np_bounds p') = (if String.eqb key "min" then v else b_min (np_bounds p)) /\
      b_max (np_bounds p') = (if String.eqb key "max" then v else b_max (np_bounds p)).
  Proof.
    intros K Hm HM. destruct p as [k doc name rq ca bo se de df own]; cbn [np_bounds] in *.
    destruct K.
    - eexists. split; [reflexivity|]. auto.
    - eexists. split; [reflexivity|]. auto.
    - eexists. split; [reflexivity|]. auto.
    - cbn. destruct (ucall v); [|congruence]. eexists. split; [reflexivity|]. auto.
    - cbn. destruct (ucall v); [|congruence]. eexists. split; [reflexivity|]. auto.
    - exists (NP k doc name rq ca (BO v (b_max bo)) se de df own). split; auto.
      cbn -[set_min]. unfold set_min. destruct (Hm eq_refl) as [->| ->]; [reflexivity|].
      destruct (is_none (b_max bo)); reflexivity.
    - exists (NP k doc name rq ca (BO (b_min bo) v) se de df own). split; auto.
      cbn -[set_max]. unfold set_max. destruct (HM eq_refl) as [->| ->]; [reflexivity|].
      destruct (is_none (b_min bo)); reflexivity.
    - rewrite plain_keyword, plain_setattr by auto. eexists. split; [reflexivity|].
      pose proof (plain_not_setter _ H) as Q. cbn in Q. cbn [np_bounds]. keys; try tauto; subst; intuition.
  Qed.

  Lemma py_gt_ok a b m n : as_num a = Some m -> as_num b = Some n -> py_gt a b = Ok (ngt m n).
  Proof. unfold py_gt. intros -> ->. reflexivity. Qed.

  Lemma keywords_run kws : forall p, NoDup (map fst kws) ->
    (forall key v, In (key, v) kws -> kw_ok ucall key v) -> free kws p ->
    (forall mn mx, In ("min", mn) kws -> In ("max", mx) kws -> py_gt mn mx = Ok false) ->
    (forall mn, In ("min", mn) kws -> b_max (np_bounds p) = VNone \/ py_gt mn (b_max (np_bounds p)) = Ok false) ->
    (forall mx, In ("max", mx) kws -> b_min (np_bounds p) = VNone \/ py_gt (b_min (np_bounds p)) mx = Ok false) ->
    exists p', np_keywords E ucall ucall2 kws p = Ok p'.
  Proof.
    induction kws as [|[key v] r IH]; intros p N K [F1 F2] B Bm BM; [eexists; reflexivity|].
    cbn in N. inversion N as [|? ? N1 N2]; subst.
    destruct (keyword_runs key v p) as (p1 & P1 & P2 & P3).
    - apply K. left. reflexivity.
    - intros ->. apply Bm. left. reflexivity.
    - intros ->. apply BM. left. reflexivity.
    - cbn [np_keywords]. rewrite P1. cbn [rbind]. apply IH; auto.
      + intros. apply K. right. auto.
      + split; intros v' I.
        * rewrite P2. destruct (String.eqb_spec key "min"); [subst; exfalso; apply N1; apply (in_map fst) in I; auto|].
          eapply F1. right. eauto.
        * rewrite P3. destruct (String.eqb_spec key "max"); [subst; exfalso; apply N1; apply (in_map fst) in I; auto|].
          eapply F2. right. eauto.
      + intros. apply B; right; auto.
      + intros mn I. rewrite P3. destruct (String.eqb_spec key "max"); [subst; right; apply B; [right|left]; auto|].
        apply Bm. right. auto.
      + intros mx I. rewrite P2. destruct (String.eqb_spec key "min"); [subst; right; apply B; [left|right]; auto|].
        apply BM. right. auto.
  Qed.

  (** ** The default *)
  Lemma set_default_ok v p p' : set_default E ucall ucall2 v p = Ok p' ->
    default_ok E ucall ucall2 p v /\ np_default p' = v /\ np_kind p' = np_kind p /\ np_own p' = np_own p /\
    np_bounds p' = np_bounds p /\ np_cast p' = np_cast p /\
    (forall key, key <> "default" -> np_getattr p' key = np_getattr p key).
  Proof.
    unfold set_default. destruct p as [k doc name rq ca bo se de df own].
    intros H.
    assert (default_ok E ucall ucall2 (NP k doc name rq ca bo se de df own) v) as D.
    { destruct (ucall v) as [[x|e]|] eqn:C; cbn [rbind] in H; try discriminate.
      - destruct (np_validate E ucall ucall2 _ x) as [w| |] eqn:V; cbn [raised rbind] in H; try discriminate.
        right. right. eauto.
      - destruct (is_undef v) eqn:U; [destruct v; try discriminate; left; reflexivity|].
        destruct (np_validate E ucall ucall2 _ v) as [w| |] eqn:V; cbn [raised rbind] in H; try discriminate.
        right. left. eauto. }
    split; auto.
    match type of H with rbind ?r _ = _ => destruct r; cbn [rbind] in H; [|discriminate] end.
    injection H as <-. repeat split; auto.
    intros key Hk. unfold np_getattr. cbn. destruct (String.eqb_spec key "default"); [congruence|]. reflexivity.
  Qed.
  Lemma set_default_runs v p : ucall VUndef = None -> default_ok E ucall ucall2 p v ->
    exists p', set_default E ucall ucall2 v p = Ok p'.
  Proof.
    intros U [->|[[C (w & V)]|(x & w & C & V)]]; unfold set_default.
    - rewrite U. eexists. reflexivity.
    - rewrite C, V. destruct (is_undef v); eexists; reflexivity.
    - rewrite C. cbn [rbind]. rewrite V. eexists. reflexivity.
  Qed.
  Lemma validate_reads p p' v : np_kind p = np_kind p' ->
    (forall key, key <> "default" -> np_getattr p key = np_getattr p' key) ->
    np_validate E ucall ucall2 p v = np_validate E ucall ucall2 p' v.
  Proof.
    intros K G. unfold np_validate.
    assert (dget (np_own p) "validate" = dget (np_own p') "validate") as -> by (apply (G "validate"); discriminate).
    assert (np_cast p = np_cast p') as -> by (assert (Q := G "cast" ltac:(discriminate)); cbn in Q; congruence).
    assert (np_bounds p = np_bounds p') as ->.
    { assert (Q := G "min" ltac:(discriminate)). assert (R := G "max" ltac:(discriminate)). cbn in Q, R.
      destruct (np_bounds p), (np_bounds p'); cbn in *; congruence. }
    rewrite K. reflexivity.
  Qed.
  Lemma default_reads p p' v : np_kind p = np_kind p' ->
    (forall key, key <> "default" -> np_getattr p key = np_getattr p' key) ->
    default_ok E ucall ucall2 p v -> default_ok E ucall ucall2 p' v.
  Proof.
    intros K G [->|[[C (w & V)]|(x & w & C & V)]]; [left; auto|right; left|right; right].
    - split; auto. exists w. rewrite <- V. symmetry. apply validate_reads; auto.
    - exists x, w. split; auto. rewrite <- V. symmetry. apply validate_reads; auto.
  Qed.

  (** ** Declarations *)
  Lemma in_ddel (d : list (string * val)) k key v : In (key, v) (ddel d k) <-> In (key, v) d /\ key <> k.
  Proof.
    unfold ddel. rewrite filter_In. cbn. rewrite Bool.negb_true_iff, String.eqb_neq. intuition.
  Qed.
  Lemma keys_ddel (d : list (string * val)) k key : In key (map fst (ddel d k)) <-> In key (map fst d) /\ key <> k.
  Proof.
    rewrite !in_map_iff. split.
    - intros ([a b] & <- & I). apply in_ddel in I. cbn. split; [exists (a, b)|]; intuition.
    - intros [([a b] & <- & I) Q]. exists (a, b). split; auto. apply in_ddel. auto.
  Qed.
  Lemma nodup_ddel (d : list (string * val)) k : NoDup (map fst d) -> NoDup (map fst (ddel d k)).
  Proof.
    induction d as [|[a b] r IH]; intros N; cbn; [constructor|].
    cbn in N. inversion N; subst. unfold ddel in *. cbn. destruct (negb (String.eqb k a)); cbn; auto.
    constructor; auto. intros I. apply H1. change (In a (map fst (ddel r k))) in I. apply keys_ddel in I. tauto.
  Qed.
  Lemma start_plain k d : own_plain (np_start k d).
  Proof. intros key []. Qed.
  Lemma start_reads k d key : key <> "default" -> np_getattr (np_start k d) key = initially d key.
  Proof.
    intros N. unfold np_getattr, initially. cbn.
    keys; subst; try congruence; reflexivity.
  Qed.
  Lemma no_reserved (kws : list (string * val)) : existsb (fun kv => str_mem (fst kv) reserved) kws = false <->
    forall key, In key (map fst kws) -> ~ In key reserved.
  Proof.
    split.
    - intros H key I R. apply in_map_iff in I. destruct I as ([a b] & <- & I).
      assert (existsb (fun kv : string * val => str_mem (fst kv) reserved) kws = true) as Q; [|congruence].
      apply existsb_exists. exists (a, b). split; auto. apply str_mem_in. auto.
    - intros H. destruct (existsb _ kws) eqn:Q; auto. apply existsb_exists in Q. destruct Q as ([a b] & I & R).
      apply str_mem_in in R. exfalso. apply (H a); auto. apply (in_map fst) in I. auto.
  Qed.

  Lemma asked_get kws : NoDup (map fst kws) ->
    asked_default kws (match dget kws "default" with None | Some VNone => VUndef | Some v => v end).
  Proof.
    intros N. destruct (dget kws "default") as [v|] eqn:G.
    - apply dget_in in G. destruct v; try (apply ad_some; [exact G|discriminate]). apply ad_null. auto.
    - apply ad_none. apply dget_none in G. auto.
  Qed.
  Lemma asked_unique kws a b : NoDup (map fst kws) -> asked_default kws a -> asked_default kws b -> a = b.
  Proof.
    intros N A B.
    assert (forall x y, In ("default", x) kws -> In ("default", y) kws -> x = y) as U.
    { intros x y I J. apply (dget_nodup_in kws) in I; auto. apply (dget_nodup_in kws) in J; auto. congruence. }
    assert (forall x, In ("default", x) kws -> In "default" (map fst kws)) as M.
    { intros x I. apply (in_map fst) in I. auto. }
    destruct A, B; auto; try (exfalso; eauto; fail).
  Qed.

  Lemma declare_get k doc kws p : NoDup (map fst kws) -> np_declare E ucall ucall2 k doc kws = Ok p ->
    exists d, doc = VStr d /\ (forall key v, In (key, v) kws -> key <> "default" -> kw_ok ucall key v) /\
      reads_as k d kws p /\ b_inv (np_bounds p) /\
      np_default p = (match dget kws "default" with None | Some VNone => VUndef | Some v => v end) /\
      default_ok E ucall ucall2 p (np_default p).
  Proof.
    intros N H. unfold np_declare in H.
    destruct (existsb _ kws) eqn:R; [discriminate|]. rewrite no_reserved in R.
    destruct doc; try discriminate. exists s. split; auto.
    destruct (np_keywords E ucall ucall2 (ddel kws "default") (np_start k s)) as [p1|] eqn:K; cbn [rbind] in H; [|discriminate].
    apply keywords_ok in K.
    2: apply start_plain.
    2: apply nodup_ddel; auto.
    2: { intros I. apply keys_ddel in I. tauto. }
    2: { intros I. apply keys_ddel in I. apply (R "doc"); [tauto|]. cbn. auto. }
    destruct K as (K1 & K2 & K3 & K4 & K5 & K6 & K7).
    assert (b_inv (np_bounds p1)) as BI by (apply K7; intros Q; cbn in Q; congruence).
    assert (reads_as k s kws p1) as RA.
    { split; [exact K3|]. split.
      - intros key v I Q. apply K5. apply in_ddel. auto.
      - intros key I Q. rewrite K6; [apply start_reads; auto|]. intros J. apply keys_ddel in J. tauto. }
    split. { intros key v I Q. apply K1. apply in_ddel. auto. }
    assert (match dget kws "default" with None | Some VNone => p = p1 | Some v => set_default E ucall ucall2 v p1 = Ok p end) as HH.
    { destruct (dget kws "default") as [v|]; [|congruence]. destruct v; auto; congruence. }
    clear H.
    assert (forall v, set_default E ucall ucall2 v p1 = Ok p -> reads_as k s kws p /\ b_inv (np_bounds p) /\ np_default p = v /\ default_ok E ucall ucall2 p (np_default p)) as G.
    { intros v S. apply set_default_ok in S. destruct S as (S1 & S2 & S3 & S4 & S5 & S6 & S7).
      split; [|split; [rewrite S5; auto|split; auto]].
      - destruct RA as (A1 & A2 & A3). split; [congruence|]. split; intros; rewrite S7; auto.
      - rewrite S2. eapply default_reads; [| |exact S1]; auto. intros; symmetry; auto. }
    destruct (dget kws "default") as [v|]; [destruct v; try (apply G; exact HH)|]; subst p; (split; [auto|split; [auto|split]]);
      try (rewrite K4; reflexivity); rewrite K4; left; reflexivity.
  Qed.

  Theorem declare_sound k doc kws p : NoDup (map fst kws) -> np_declare E ucall ucall2 k doc kws = Ok p ->
    exists d, doc = VStr d /\ (forall key v, In (key, v) kws -> key <> "default" -> kw_ok ucall key v) /\
      reads_as k d kws p /\ asked_default kws (np_default p) /\ default_ok E ucall ucall2 p (np_default p).
  Proof.
    intros N H. apply declare_get in H; auto. destruct H as (d & A & B & C & _ & F & D).
    exists d. repeat (split; auto). rewrite F at 1. apply asked_get. auto.
  Qed.

  Lemma py_gt_false a b : py_gt a b = Ok false -> exists m n, as_num a = Some m /\ as_num b = Some n /\ ngt m n = false.
  Proof.
    unfold py_gt. destruct (as_num a), (as_num b); try discriminate. intros H. injection H as H. eauto.
  Qed.

  Lemma kw_not_reserved key v : kw_ok ucall key v -> ~ In key reserved.
  Proof.
    intros K. destruct K; cbn; try (intuition discriminate).
    pose proof (plain_not_setter _ H) as Q. cbn in H. intros [<-|[<-|[<-|[]]]]; intuition discriminate.
  Qed.

  Theorem declare_iff k doc kws : NoDup (map fst kws) -> ucall VUndef = None ->
    ~ In ("min", VNone) kws -> ~ In ("max", VNone) kws ->
    ((exists p, np_declare E ucall ucall2 k doc kws = Ok p) <->
     exists d, doc = VStr d /\ (forall key v, In (key, v) kws -> key <> "default" -> kw_ok ucall key v) /\
       bounds_agree kws /\
       exists p v, reads_as k d kws p /\ asked_default kws v /\ default_ok E ucall ucall2 p v).
  Proof.
    intros N U Nm NM. split.
    - intros [p H]. assert (S := declare_sound _ _ _ _ N H). apply declare_get in H; auto.
      destruct H as (d & A & B & C & D & F & G). destruct S as (_ & _ & _ & _ & S & _).
      exists d. split; auto. split; auto. split; [|exists p, (np_default p); auto].
      intros mn mx I J. apply py_gt_false.
      destruct C as (_ & C & _).
      assert (Q1 := C _ _ I ltac:(discriminate)). assert (Q2 := C _ _ J ltac:(discriminate)). cbn in Q1, Q2.
      injection Q1 as <-. injection Q2 as <-. apply D; intros X; rewrite X in *; auto.
    - intros (d & -> & K & B & p0 & v0 & RA & AD & DO). unfold np_declare.
      assert (existsb (fun kv : string * val => str_mem (fst kv) reserved) kws = false) as ->.
      { apply no_reserved. intros key I. apply in_map_iff in I. destruct I as ([a b] & <- & I). cbn.
        destruct (String.eqb_spec a "default"); [subst; cbn; intuition discriminate|].
        eapply kw_not_reserved. eauto. }
      destruct (keywords_run (ddel kws "default") (np_start k d)) as [p1 P1].
      + apply nodup_ddel; auto.
      + intros key v I. apply in_ddel in I. destruct I; auto.
      + split; intros; reflexivity.
      + intros mn mx I J. apply in_ddel in I. apply in_ddel in J. destruct (B mn mx) as (m & n & X & Y & Z); try tauto.
        rewrite (py_gt_ok _ _ _ _ X Y). congruence.
      + intros; left; reflexivity.
      + intros; left; reflexivity.
      + rewrite P1. cbn [rbind].
        assert (V := asked_get kws N). assert (W := asked_unique _ _ _ N AD V). 
        apply keywords_ok in P1.
        2: apply start_plain.
        2: apply nodup_ddel; auto.
        2: { intros I. apply keys_ddel in I. tauto. }
        2: { intros I. apply keys_ddel in I. destruct I as [I _]. apply in_map_iff in I. destruct I as ([a b] & Q & I). cbn in Q. subst.
             apply (kw_not_reserved "doc" b); [apply K; auto; discriminate|cbn; auto]. }
        destruct P1 as (K1 & K2 & K3 & K4 & K5 & K6 & K7). destruct RA as (A1 & A2 & A3).
        assert (default_ok E ucall ucall2 p1 v0) as D1.
        { eapply default_reads; [| |exact DO]; [cbn in K3; congruence|].
          intros key Q. destruct (in_dec string_dec key (map fst kws)) as [I|I].
          - apply in_map_iff in I. destruct I as ([a b] & <- & I). cbn in *. rewrite (A2 _ _ I Q). symmetry. apply K5. apply in_ddel. auto.
          - rewrite (A3 _ I Q), K6, start_reads; auto. intros J. apply keys_ddel in J. tauto. }
        destruct (dget kws "default") as [v|]; [|eexists; reflexivity].
        destruct v; try (subst v0; apply set_default_runs; auto). eexists. reflexivity.
  Qed.

  Theorem declare_order k doc kws kws' p : NoDup (map fst kws) -> ucall VUndef = None ->
    ~ In ("min", VNone) kws -> ~ In ("max", VNone) kws -> Permutation kws kws' ->
    np_declare E ucall ucall2 k doc kws = Ok p ->
    exists p', np_declare E ucall ucall2 k doc kws' = Ok p' /\ np_kind p' = np_kind p /\ forall key, np_getattr p' key = np_getattr p key.
  Proof.
    intros N U Nm NM P H.
    assert (NoDup (map fst kws')) as N' by (eapply Permutation_NoDup; [apply Permutation_map; exact P|auto]).
    assert (forall x, In x kws <-> In x kws') as I by (intros x; split; apply Permutation_in; [|apply Permutation_sym]; auto).
    assert (forall x, In x (map fst kws) <-> In x (map fst kws')) as J.
    { intros x. assert (Q := Permutation_map fst P). split; apply Permutation_in; [|apply Permutation_sym]; auto. }
    assert (forall v, asked_default kws v <-> asked_default kws' v) as A.
    { intros v. split; intros Q; destruct Q as [Q|Q|v Q Q'].
      - apply ad_none. rewrite <- J. auto.
      - apply ad_null. apply I. auto.
      - apply ad_some; auto. apply I. auto.
      - apply ad_none. rewrite J. auto.
      - apply ad_null. apply I. auto.
      - apply ad_some; auto. apply I. auto. }
    assert (forall d q, reads_as k d kws q <-> reads_as k d kws' q) as R.
    { intros d q. unfold reads_as. split; intros (X & Y & Z); (split; [auto|split]); intros;
        [apply Y; auto; apply I; auto|apply Z; auto; rewrite J; auto|apply Y; auto; apply I; auto|apply Z; auto; rewrite <- J; auto]. }
    assert (exists p', np_declare E ucall ucall2 k doc kws' = Ok p') as [p' H'].
    { apply declare_iff; auto; try (rewrite <- I; auto).
      assert (exists p, np_declare E ucall ucall2 k doc kws = Ok p) as G by eauto.
      apply declare_iff in G; auto. destruct G as (d & X & Y & Z & q & v & Q1 & Q2 & Q3).
      exists d. split; auto. split; [intros; apply Y; auto; apply I; auto|]. split.
      - intros mn mx M1 M2. apply Z; apply I; auto.
      - exists q, v. rewrite <- R, <- A. auto. }
    exists p'. split; auto.
    apply declare_sound in H; auto. apply declare_sound in H'; auto.
    destruct H as (d & D1 & _ & (X1 & X2 & X3) & X4 & _). destruct H' as (d' & D1' & _ & X' & X4' & _).
    assert (d' = d) as -> by congruence. apply R in X'. destruct X' as (X1' & X2' & X3').
    split; [congruence|]. intros key.
    destruct (string_dec key "default") as [->|Q].
    - cbn. f_equal. eapply asked_unique; [exact N| |]; [apply A|]; auto.
    - destruct (in_dec string_dec key (map fst kws)) as [M|M].
      + apply in_map_iff in M. destruct M as ([a b] & <- & M). cbn in *. rewrite (X2 _ _ M Q), (X2' _ _ M Q). reflexivity.
      + rewrite (X3 _ M Q), (X3' _ M Q). reflexivity.
  Qed.

  Lemma own_plain_keywords kws p p' : own_plain p -> (forall key, In key (map fst kws) -> key <> "default" /\ key <> "doc") ->
    np_keywords E ucall ucall2 kws p = Ok p' -> own_plain p'.
  Proof.
    revert p. induction kws as [|[key v] r IH]; intros p O Q H; [cbn in H; injection H as <-; exact O|].
    cbn [np_keywords] in H. destruct (np_keyword E ucall ucall2 p (key, v)) as [p1|] eqn:K; cbn [rbind] in H; [|discriminate].
    destruct (Q key) as [Q1 Q2]; [left; reflexivity|].
    apply keyword_ok in K; auto. apply (IH p1); [tauto| |auto]. intros. apply Q. right. auto.
  Qed.
  Lemma keywords_app a b p : np_keywords E ucall ucall2 (a ++ b) p = rbind (np_keywords E ucall ucall2 a p) (np_keywords E ucall ucall2 b).
  Proof.
    revert p. induction a as [|kv r IH]; intros p; [reflexivity|]. cbn [app np_keywords].
    destruct (np_keyword E ucall ucall2 p kv); cbn [rbind]; auto.
  Qed.
  Lemma bad_keyword key v p : own_plain p -> bad_key key -> ~ In key reserved -> key <> "default" ->
    np_keyword E ucall ucall2 p (key, v) = Exc ExAttr.
  Proof.
    intros O [Ne B] R Nd. unfold np_keyword. destruct (String.eqb_spec key "terms"); auto.
    destruct key as [|c r]; [congruence|]. destruct (Ascii.eqb_spec c "_"); auto.
    destruct B as [(r' & Q)|[Q|[Q|Q]]]; [congruence|congruence| |].
    - assert (np_hasattr (String c r) p = true) as ->.
      { unfold np_hasattr. change (In (String c r) read_only) in Q. apply str_mem_in in Q. rewrite Q. rewrite Bool.orb_true_r. reflexivity. }
      cbn [negb]. destruct p as [k doc name rq ca bo se de df own]. cbn in Q.
      destruct Q as [<-|[<-|[]]]; reflexivity.
    - assert (np_hasattr (String c r) p = false) as ->; auto.
      unfold np_hasattr. change (~ In (String c r) (with_setter ++ read_only ++ plain_attrs)) in Q.
      rewrite !in_app_iff in Q. apply Bool.orb_false_intro; [apply Bool.orb_false_intro; [apply Bool.orb_false_intro|]|].
      + destruct (str_mem _ with_setter) eqn:S; auto. apply str_mem_in in S. tauto.
      + destruct (str_mem _ read_only) eqn:S; auto. apply str_mem_in in S. tauto.
      + destruct (str_mem _ plain_attrs) eqn:S; auto. apply str_mem_in in S. tauto.
      + destruct (dhas _ _) eqn:S; auto. apply own_dhas in S; auto. tauto.
  Qed.
  Theorem declare_bad k doc pre key v post p : ~ In "default" (map fst pre) ->
    np_declare E ucall ucall2 k doc pre = Ok p -> bad_key key ->
    (forall q, In q (key :: map fst post) -> ~ In q reserved) ->
    np_declare E ucall ucall2 k doc (pre ++ (key, v) :: post) = Exc ExAttr.
  Proof.
    intros Nd H B R. unfold np_declare in *.
    destruct (existsb _ pre) eqn:X; [discriminate|]. rewrite existsb_app, X. cbn [orb].
    assert (existsb (fun kv : string * val => str_mem (fst kv) reserved) ((key, v) :: post) = false) as ->.
    { apply no_reserved. intros q I. apply R. exact I. }
    destruct doc; try discriminate.
    assert (key <> "default") as Kd.
    { intros ->. destruct B as [_ [(r & Q)|[Q|[Q|Q]]]]; try discriminate; [cbn in Q; intuition discriminate|]. apply Q. cbn. auto. }
    assert (ddel pre "default" = pre) as D by (apply ddel_absent; apply dget_none; auto).
    assert (ddel (pre ++ (key, v) :: post) "default" = pre ++ (key, v) :: ddel post "default") as ->.
    { unfold ddel in *. rewrite filter_app, D. cbn -[String.eqb]. destruct (String.eqb_spec "default" key); [exfalso; auto|]. reflexivity. }
    rewrite D in H. rewrite keywords_app.
    destruct (np_keywords E ucall ucall2 pre (np_start k s)) as [p1|] eqn:K; cbn [rbind] in *; [|discriminate].
    cbn [np_keywords]. rewrite bad_keyword; auto.
    - eapply own_plain_keywords; [apply start_plain| |exact K]. rewrite no_reserved in X. intros q I. split; intros ->; auto.
      apply (X "doc"); auto. cbn. auto.
    - apply R. left. auto.
  Qed.

  (** ** Validation with numeric bounds is that of Basic.v *)
  Lemma in_bounds_split b w mn mx n : bound_is (b_min b) mn -> bound_is (b_max b) mx -> as_num w = Some n ->
    np_in_bounds b w = if in_bounds mn mx n then LOk w else LErr 0.
  Proof.
    intros M X W. unfold np_in_bounds, in_bounds.
    assert (forall v m, as_num v = Some m -> is_none v = false) as NN by (intros v m Q; destruct v; cbn in *; congruence).
    destruct b as [a c]; cbn [b_min b_max] in *.
    destruct M as [|a m M]; destruct X as [|c x X]; cbn [is_none]; rewrite ?(NN _ _ M), ?(NN _ _ X);
      rewrite ?(py_gt_ok _ _ _ _ M W), ?(py_gt_ok _ _ _ _ W X); unfold ngt.
    - reflexivity.
    - destruct (nlt x n); reflexivity.
    - destruct (nlt n m); reflexivity.
    - destruct (nlt n m), (nlt x n); reflexivity.
  Qed.

  Theorem validate_leaf rc p mn mx v : np_getattr p "validate" = None ->
    bound_is (b_min (np_bounds p)) mn -> bound_is (b_max (np_bounds p)) mx ->
    np_validate E ucall ucall2 p v =
    leaf_validate E rc (match np_kind p with NInteger => LfInt | NFloat => LfFloat end (np_cast p) mn mx) v.
  Proof.
    intros O M X. unfold np_validate. cbn in O. rewrite O. destruct (np_kind p); cbn [leaf_validate]; unfold int_validate, float_validate.
    - destruct (py_int v) as [z|e]; [|destruct (catch_cast e 0) eqn:C; auto; destruct e; discriminate].
      destruct (if np_cast p then _ else _) as [[|]|e]; auto.
      + change (in_bounds None None (NZ z)) with true. cbv iota. rewrite (in_bounds_split _ (VInt z) mn mx (NZ z)); auto.
      + destruct (catch_cast e 0) eqn:C; auto. destruct e; discriminate.
    - destruct (py_float E v) as [z|e]; [|destruct (catch_cast e 0) eqn:C; auto; destruct e; discriminate].
      destruct (if np_cast p then _ else _) as [[|]|e]; auto.
      + change (in_bounds None None (NF z)) with true. cbv iota. rewrite (in_bounds_split _ (VFloat z) mn mx (NF z)); auto.
      + destruct (catch_cast e 0) eqn:C; auto. destruct e; discriminate.
  Qed.

  (** ** Assignments to an attribute, and what is refused *)
  Lemma setattr_stores key v p p' : np_setattr E ucall ucall2 key v p = Ok p' ->
    np_kind p' = np_kind p /\ np_getattr p' key = Some v /\ forall k', k' <> key -> np_getattr p' k' = np_getattr p k'.
  Proof.
    intros H. assert (Dn : forall k1 v1 v2 q, k1 <> "default" -> np_getattr (NP (np_kind q) (np_doc q) (np_name q) (np_required q) (np_cast q) (np_bounds q) (np_ser q) (np_deser q) v1 (np_own q)) k1
        = np_getattr (NP (np_kind q) (np_doc q) (np_name q) (np_required q) (np_cast q) (np_bounds q) (np_ser q) (np_deser q) v2 (np_own q)) k1).
    { intros k1 v1 v2 q Hk. unfold np_getattr. apply String.eqb_neq in Hk. rewrite Hk. reflexivity. }
    unfold np_setattr in H. destruct p as [k doc name rq ca bo se de df own].
    destruct (String.eqb_spec key "name"); [subst; destruct v; try discriminate; injection H as <-; repeat split; intros k' Hk; unfold np_getattr; apply String.eqb_neq in Hk; rewrite Hk; reflexivity|].
    destruct (String.eqb_spec key "doc"); [subst; destruct v; try discriminate; injection H as <-; repeat split; intros k' Hk; unfold np_getattr; apply String.eqb_neq in Hk; rewrite Hk; reflexivity|].
    destruct (String.eqb_spec key "default").
    { subst. unfold set_default in H. destruct (match ucall v with Some r => _ | None => _ end); cbn [rbind] in H; [|discriminate].
      injection H as <-. repeat split. intros k' Hk. unfold np_getattr. apply String.eqb_neq in Hk. rewrite Hk. reflexivity. }
    destruct (String.eqb_spec key "serializer"); [subst; destruct (ucall v); try discriminate; injection H as <-; repeat split; intros k' Hk; unfold np_getattr; apply String.eqb_neq in Hk; rewrite Hk; reflexivity|].
    destruct (String.eqb_spec key "deserializer"); [subst; destruct (ucall v); try discriminate; injection H as <-; repeat split; intros k' Hk; unfold np_getattr; apply String.eqb_neq in Hk; rewrite Hk; reflexivity|].
    destruct (String.eqb_spec key "required"); [subst; destruct v; try discriminate; injection H as <-; repeat split; intros k' Hk; unfold np_getattr; apply String.eqb_neq in Hk; rewrite Hk; reflexivity|].
    destruct (String.eqb_spec key "cast"); [subst; destruct v; try discriminate; injection H as <-; repeat split; intros k' Hk; unfold np_getattr; apply String.eqb_neq in Hk; rewrite Hk; reflexivity|].
    destruct (String.eqb_spec key "min"); [subst|].
    { destruct (set_min v bo) as [o|] eqn:S; cbn [rbind] in H; [|discriminate]. injection H as <-.
      apply set_min_ok in S. destruct S as [-> S]. repeat split.
      intros k' Hk. unfold np_getattr. apply String.eqb_neq in Hk. rewrite Hk. reflexivity. }
    destruct (String.eqb_spec key "max"); [subst|].
    { destruct (set_max v bo) as [o|] eqn:S; cbn [rbind] in H; [|discriminate]. injection H as <-.
      apply set_max_ok in S. destruct S as [-> S]. repeat split.
      intros k' Hk. unfold np_getattr. apply String.eqb_neq in Hk. rewrite Hk. reflexivity. }
    destruct (str_mem key read_only); [discriminate|]. injection H as <-. split; [reflexivity|]. split.
    - unfold np_getattr; cbn [np_own]. keys; try congruence. apply dget_dset_same.
    - intros k' Hk. unfold np_getattr; cbn [np_own np_name np_doc np_default np_ser np_deser np_required np_cast np_bounds].
      rewrite dget_dset_other by auto. reflexivity.
  Qed.
  Lemma setattr_outcomes key v p :
    (In key ["name"; "doc"] -> (exists s, v = VStr s) \/ np_setattr E ucall ucall2 key v p = Exc ExType) /\
    (In key ["serializer"; "deserializer"] -> ucall v = None -> np_setattr E ucall ucall2 key v p = Exc ExType) /\
    (In key ["required"; "cast"] -> (exists b, v = VBool b) \/ np_setattr E ucall ucall2 key v p = Exc ExType) /\
    (In key getter_only -> np_setattr E ucall ucall2 key v p = Exc ExAttr) /\
    ((In key ["name"; "doc"] /\ (exists s, v = VStr s)) \/ (In key ["serializer"; "deserializer"] /\ ucall v <> None) \/
     (In key ["required"; "cast"] /\ (exists b, v = VBool b)) \/ ~ In key (["name"; "doc"; "default"; "serializer"; "deserializer"; "required"; "cast"; "min"; "max"] ++ getter_only) ->
     exists p', np_setattr E ucall ucall2 key v p = Ok p').
  Proof.
    destruct p as [k doc name rq ca bo se de df own]. split; [|split; [|split; [|split]]].
    - intros [<-|[<-|[]]]; destruct v; try (right; reflexivity); left; eauto.
    - intros [<-|[<-|[]]] Hc; unfold np_setattr; cbn [String.eqb Ascii.eqb Bool.eqb]; rewrite Hc; reflexivity.
    - intros [<-|[<-|[]]]; destruct v; try (right; reflexivity); left; eauto.
    - intros [<-|[<-|[]]]; reflexivity.
    - intros [[[<-|[<-|[]]] [s ->]]|[[[<-|[<-|[]]] Hc]|[[[<-|[<-|[]]] [s ->]]|Hn]]]; try (eexists; reflexivity).
      + unfold np_setattr; cbn [String.eqb Ascii.eqb Bool.eqb]. destruct (ucall v); [eexists; reflexivity|congruence].
      + unfold np_setattr; cbn [String.eqb Ascii.eqb Bool.eqb]. destruct (ucall v); [eexists; reflexivity|congruence].
      + simpl in Hn. unfold np_setattr. keys; try (subst; tauto). destruct (str_mem key read_only) eqn:R; [|eexists; reflexivity].
        apply str_mem_in in R. simpl in R. tauto.
  Qed.
  Lemma declare_rejects k doc kws :
    (exists key, In key (map fst kws) /\ In key parameters) \/ (forall d, doc <> VStr d) ->
    np_declare E ucall ucall2 k doc kws = Exc ExType.
  Proof.
    intros [(key & Hk & Hr)|Hd]; unfold np_declare.
    - destruct (existsb _ kws) eqn:R; [reflexivity|]. rewrite no_reserved in R. destruct (R key Hk Hr).
    - destruct (existsb _ kws); [reflexivity|]. destruct doc; try reflexivity. destruct (Hd s); reflexivity.
  Qed.
  Lemma validate_own p f v : np_getattr p "validate" = Some f ->
    (ucall f = None -> np_validate E ucall ucall2 p v = LExc ExType) /\
    (ucall f <> None -> (forall w, ucall2 f v = Ok w -> np_validate E ucall ucall2 p v = LOk w) /\
                        (forall e, ucall2 f v = Exc e -> np_validate E ucall ucall2 p v = LExc e)).
  Proof.
    intros O. unfold np_validate. cbn in O. rewrite O. split; [now intros ->|]. intros Hc. destruct (ucall f); [|congruence].
    split; [intros w ->|intros e ->]; reflexivity.
  Qed.
  Lemma validate_odd_bounds rc p v w : np_getattr p "validate" = None ->
    leaf_validate E rc (match np_kind p with NInteger => LfInt | NFloat => LfFloat end (np_cast p) None None) v = LOk w ->
    (as_num (b_min (np_bounds p)) = None -> b_min (np_bounds p) <> VNone -> np_validate E ucall ucall2 p v = LExc ExType) /\
    (forall mn, bound_is (b_min (np_bounds p)) mn -> as_num (b_max (np_bounds p)) = None -> b_max (np_bounds p) <> VNone ->
       np_validate E ucall ucall2 p v =
       match leaf_validate E rc (match np_kind p with NInteger => LfInt | NFloat => LfFloat end (np_cast p) mn None) v with
       | LOk _ => LExc ExType
       | r => r
       end).
  Proof.
    intros O H.
    assert (W : match np_kind p with NInteger => int_validate (np_cast p) None None v | NFloat => float_validate E (np_cast p) None None v end = LOk w)
      by (destruct (np_kind p); exact H).
    assert (Nn : forall x, x <> VNone -> is_none x = false) by (intros []; try reflexivity; congruence).
    split.
    - intros M Hm. unfold np_validate. cbn in O. rewrite O, W. unfold np_in_bounds. rewrite (Nn _ Hm). unfold py_gt. now rewrite M.
    - intros mn M X Hx.
      pose proof (validate_leaf rc (with_bounds p (BO (b_min (np_bounds p)) VNone)) mn None v O M (bi_none)) as L. cbn [np_kind np_cast with_bounds] in L. rewrite <- L.
      unfold np_validate. cbn in O |- *. rewrite O, W. unfold np_in_bounds. cbn [b_min b_max is_none].
      destruct (if is_none (b_min (np_bounds p)) then Ok false else py_gt (b_min (np_bounds p)) w) as [[]|e] eqn:G; auto.
      + rewrite (Nn _ Hx). unfold py_gt. rewrite X. destruct (as_num w); reflexivity.
  Qed.
End Numbers.

(** * Dynamic properties *)
Lemma args_ok_iff n f : args_ok n f = true <-> forall s, fn_sig f = Some s -> sg_args s = n.
Proof.
  unfold args_ok. destruct (fn_sig f) as [s|]; [rewrite Nat.eqb_eq|]; split; auto.
  - intros H t Q. injection Q as <-. auto.
  - intros _ t Q. discriminate.
Qed.
Theorem dyn_declare_iff f d p :
  dyn_declare f d = Ok p <-> suits 1 f /\ d = VUndef /\ exists n, fn_name f = Some n /\ p = DP f None None n n.
Proof.
  unfold dyn_declare, suits. rewrite <- args_ok_iff.
  destruct (fn_callable f); cbn [negb]; [|split; [discriminate|intuition discriminate]].
  destruct (args_ok 1 f); cbn [negb]; [|split; [discriminate|intuition discriminate]].
  destruct (is_undef d) eqn:U; cbn [negb].
  - assert (d = VUndef) as -> by (destruct d; cbn in U; congruence).
    destruct (fn_name f); split.
    + intros H. injection H as <-. split; [auto|split; [auto|eauto]].
    + intros (_ & _ & n & Q & ->). congruence.
    + discriminate.
    + intros (_ & _ & n & Q & _). discriminate.
  - split; [discriminate|]. intros (_ & -> & _). discriminate.
Qed.
Theorem dyn_setter_iff p f p' :
  dyn_apply p (DSetter f) = Ok p' <->
  suits 2 f /\ fn_name f = Some (dp_name p) /\ p' = DP (dp_func p) (Some f) (dp_del p) (dp_name p) (dp_inner p).
Proof.
  unfold dyn_apply, suits. rewrite <- args_ok_iff.
  destruct (fn_callable f); cbn [negb]; [|split; [discriminate|intuition discriminate]].
  destruct (args_ok 2 f); cbn [negb]; [|split; [discriminate|intuition discriminate]].
  destruct (fn_name f) as [n|]; [|split; [discriminate|intros (_ & Q & _); discriminate]].
  destruct (String.eqb_spec n (dp_name p)) as [->|N]; split.
  - intros H. injection H as <-. auto.
  - intros (_ & _ & ->). auto.
  - discriminate.
  - intros (_ & Q & _). congruence.
Qed.
Theorem dyn_deleter_iff p f p' :
  dyn_apply p (DDeleter f) = Ok p' <->
  suits 1 f /\ fn_name f = Some (dp_name p) /\ p' = DP (dp_func p) (dp_set p) (Some f) (dp_name p) (dp_inner p).
Proof.
  unfold dyn_apply, suits. rewrite <- args_ok_iff.
  destruct (fn_callable f); cbn [negb]; [|split; [discriminate|intuition discriminate]].
  destruct (args_ok 1 f); cbn [negb]; [|split; [discriminate|intuition discriminate]].
  destruct (fn_name f) as [n|]; [|split; [discriminate|intros (_ & Q & _); discriminate]].
  destruct (String.eqb_spec n (dp_name p)) as [->|N]; split.
  - intros H. injection H as <-. auto.
  - intros (_ & _ & ->). auto.
  - discriminate.
  - intros (_ & Q & _). congruence.
Qed.
Definition dyn_good (f : fn) (p : dprop) : Prop :=
  dp_func p = f /\ suits 1 f /\ dp_inner p = dp_name p /\
  (forall g, dp_set p = Some g -> suits 2 g) /\ (forall g, dp_del p = Some g -> suits 1 g).
Lemma dyn_step f p a p' : dyn_good f p -> dyn_apply p a = Ok p' -> dyn_good f p'.
Proof.
  intros (A & B & C & D & F). destruct a as [g|g|v].
  - intros H. apply dyn_setter_iff in H. destruct H as (S & _ & ->). unfold dyn_good; cbn.
    split; [auto|split; [auto|split; [auto|split; [|auto]]]]. intros h Q. injection Q as <-. auto.
  - intros H. apply dyn_deleter_iff in H. destruct H as (S & _ & ->). unfold dyn_good; cbn.
    split; [auto|split; [auto|split; [auto|split; [auto|]]]]. intros h Q. injection Q as <-. auto.
  - cbn. destruct v; try discriminate. intros H. injection H as <-. unfold dyn_good; cbn. auto.
Qed.
Lemma assign_inv {O A} (apply : O -> A -> res O) (I : O -> Prop) l : forall o,
  (forall o a o', In a l -> I o -> apply o a = Ok o' -> I o') -> I o -> I (assign_all apply o l).
Proof.
  unfold assign_all. induction l as [|a r IH]; intros o S H; cbn; auto.
  apply IH; [intros; eapply S; eauto; right; auto|].
  destruct (apply o a) eqn:Q; auto. eapply S; eauto. left. auto.
Qed.
Theorem dyn_history f d p0 ops : dyn_declare f d = Ok p0 -> dyn_good f (assign_all dyn_apply p0 ops).
Proof.
  intros H. apply assign_inv.
  - intros. eapply dyn_step; eauto.
  - apply dyn_declare_iff in H. destruct H as (A & _ & n & _ & ->). repeat (split; auto); cbn; try apply A; discriminate.
Qed.
Lemma suits_takes n f s : suits n f -> fn_sig f = Some s -> sg_bound s = 0 -> sg_kwreq s = 0 -> takes s n.
Proof. intros [_ H] Q B K. apply H in Q. unfold takes. repeat split; auto; lia. Qed.
Theorem dyn_callable f d p0 ops : dyn_declare f d = Ok p0 ->
  let p := assign_all dyn_apply p0 ops in
  dp_func p = f /\ dp_inner p = dp_name p /\
  forall g n, (g = f /\ n = 1) \/ (dp_set p = Some g /\ n = 2) \/ (dp_del p = Some g /\ n = 1) ->
    fn_callable g = true /\ forall s, fn_sig g = Some s -> sg_bound s = 0 -> sg_kwreq s = 0 -> takes s n.
Proof.
  intros H p. destruct (dyn_history f d p0 ops H) as (A & B & C & D & F). fold p in A, C, D, F.
  split; auto. split; auto.
  intros g n [[-> ->]|[[Q ->]|[Q ->]]].
  - split; [apply B|]. intros. eapply suits_takes; eauto.
  - apply D in Q. split; [apply Q|]. intros. eapply suits_takes; eauto.
  - apply F in Q. split; [apply Q|]. intros. eapply suits_takes; eauto.
Qed.
Theorem dyn_names f d p0 ops g : dyn_declare f d = Ok p0 -> (forall v, ~ In (DName v) ops) ->
  let p := assign_all dyn_apply p0 ops in
  dp_set p = Some g \/ dp_del p = Some g -> fn_name g = fn_name f /\ fn_name f = Some (dp_name p).
Proof.
  intros H N.
  assert (let p := assign_all dyn_apply p0 ops in fn_name f = Some (dp_name p) /\
          (forall g, dp_set p = Some g -> fn_name g = fn_name f) /\ (forall g, dp_del p = Some g -> fn_name g = fn_name f)) as I.
  { cbv zeta. apply assign_inv with (I := fun p => fn_name f = Some (dp_name p) /\
          (forall g, dp_set p = Some g -> fn_name g = fn_name f) /\ (forall g, dp_del p = Some g -> fn_name g = fn_name f)).
    - intros o a o' M (A & B & C) S. destruct a as [h|h|v]; [| |exfalso; eapply N; eauto].
      + apply dyn_setter_iff in S. destruct S as (_ & Q & ->). cbn. repeat (split; auto). intros g' X. injection X as <-. congruence.
      + apply dyn_deleter_iff in S. destruct S as (_ & Q & ->). cbn. repeat (split; auto). intros g' X. injection X as <-. congruence.
    - apply dyn_declare_iff in H. destruct H as (_ & _ & n & Q & ->). cbn. repeat (split; auto); discriminate. }
  intros p. destruct I as (A & B & C). intros [Q|Q]; split; auto; fail || (apply B || apply C); auto.
Qed.

(** * Custom serializers *)
Lemma type_error_dec (e : exn) : {e = ExType} + {e <> ExType}.
Proof. destruct e; (left; reflexivity) || (right; discriminate). Qed.
Theorem custom_once key dflt f json v kw : let kw' := dset kw key (match dget kw key with Some x => x | None => VBool dflt end) in
  f kw' v <> Exc ExType -> custom_json key dflt (Some f) json v kw = ([kw'], f kw' v).
Proof.
  cbn zeta. intros H. cbn [custom_json]. unfold accept_kwargs.
  destruct (f _ v) as [x|e]; auto. destruct e; auto. congruence.
Qed.
Lemma dset_not_nil (d : dict val) k v : dset d k v <> [].
Proof. destruct d as [|[a b] r]; cbn; [discriminate|]. destruct (String.eqb _ _); discriminate. Qed.
Theorem custom_plain key dflt f (g : val -> res val) json v kw :
  (forall kw, f kw v = if match kw with [] => true | _ => false end then g v else Exc ExType) ->
  snd (custom_json key dflt (Some f) json v kw) = g v.
Proof.
  intros H. cbn [custom_json]. unfold accept_kwargs. rewrite H.
  pose proof (dset_not_nil kw key (match dget kw key with Some x => x | None => VBool dflt end)) as N.
  destruct (dset kw key _); [congruence|]. cbn. apply H.
Qed.

(** * Union *)
Section UnionFacts.
  Variable alt : Type.
  Variable alt_validate : alt -> val -> lres.
  Variable alt_default : alt -> val.
  Variable gen : val -> option (nat -> res val).

  Theorem un_validate_first l v w : un_validate alt alt_validate l v = LOk w <->
    exists pre a post, l = pre ++ a :: post /\ (forall b, In b pre -> declines (alt_validate b v)) /\ alt_validate a v = LOk w.
  Proof.
    induction l as [|a r IH]; cbn.
    - split; [discriminate|]. intros ([|? ?] & ? & ? & Q & _); discriminate.
    - split.
      + intros H. destruct (alt_validate a v) as [x|n|e] eqn:V.
        * injection H as <-. exists [], a, r. repeat split; auto. intros ? [].
        * apply IH in H. destruct H as (pre & b & post & -> & P & Q). exists (a :: pre), b, post. repeat split; auto.
          intros c [<-|I]; auto. left. eauto.
        * destruct (is_generic e) eqn:G; [|discriminate].
          apply IH in H. destruct H as (pre & b & post & -> & P & Q). exists (a :: pre), b, post. repeat split; auto.
          intros c [<-|I]; auto. right. eauto.
      + intros (pre & b & post & Q & P & V). destruct pre as [|c pre]; cbn in Q.
        * injection Q as -> ->. rewrite V. auto.
        * injection Q as -> ->. assert (un_validate alt alt_validate (pre ++ b :: post) v = LOk w) as R.
          { apply IH. exists pre, b, post. repeat split; auto. intros; apply P; right; auto. }
          destruct (P c (or_introl eq_refl)) as [(n & ->)|(e & -> & ->)]; auto.
  Qed.
  Lemma un_check_plain l v n : gen v = None ->
    snd (un_check alt alt_validate gen l v n) =
    match un_validate alt alt_validate l v with LOk _ => Ok tt | LErr _ => Exc ExType | LExc e => Exc e end.
  Proof.
    intros G. revert n. induction l as [|a r IH]; intros n; [reflexivity|].
    cbn [un_check un_validate]. rewrite G. destruct (alt_validate a v) as [x|k|e]; cbn [raised is_generic]; auto.
    destruct (is_generic e); auto.
  Qed.
  Theorem un_own l v : gen v = None -> v <> VUndef -> v <> VNone ->
    (un_declare alt alt_validate gen l (Some v) = Ok v <-> exists w, un_validate alt alt_validate l v = LOk w) /\
    (forall o, un_declare alt alt_validate gen l (Some v) = Ok o -> o = v).
  Proof.
    intros G U N. assert (un_declare alt alt_validate gen l (Some v) = rbind (snd (un_check alt alt_validate gen l v 0)) (fun _ => Ok v)) as ->.
    { unfold un_declare, un_set_default. destruct v; cbn [is_undef]; congruence. }
    rewrite un_check_plain by auto.
    destruct (un_validate alt alt_validate l v) as [x|n|e]; cbn [rbind]; (split; [split|]); try congruence.
    - eauto.
    - intros (w & Q). discriminate.
    - intros (w & Q). discriminate.
  Qed.
  Theorem un_rejected l v n : gen v = None -> v <> VUndef -> v <> VNone ->
    un_validate alt alt_validate l v = LErr n -> un_declare alt alt_validate gen l (Some v) = Exc ExType.
  Proof.
    intros G U N V. unfold un_declare, un_set_default. pose proof (un_check_plain l v 0 G) as Q. rewrite V in Q.
    destruct v; cbn [is_undef]; try congruence; rewrite Q; reflexivity.
  Qed.
  Theorem un_default_own l own : own <> VUndef -> un_default alt alt_default l own = own.
  Proof.
    intros N. induction l as [|a r IH]; cbn; auto. destruct (is_undef (alt_default a)); auto.
    destruct own; cbn [is_undef]; auto. congruence.
  Qed.
  Theorem un_default_first l d : un_default alt alt_default l VUndef = d ->
    (d = VUndef /\ forall a, In a l -> alt_default a = VUndef) \/
    (exists pre a post, l = pre ++ a :: post /\ (forall b, In b pre -> alt_default b = VUndef) /\ alt_default a = d /\ d <> VUndef).
  Proof.
    induction l as [|a r IH]; cbn; intros H.
    - left. split; auto. intros ? [].
    - destruct (is_undef (alt_default a)) eqn:U.
      + assert (alt_default a = VUndef) as A by (destruct (alt_default a); cbn in U; congruence).
        destruct (IH H) as [[-> P]|(pre & b & post & -> & P & Q & N)].
        * left. split; auto. intros b [<-|I]; auto.
        * right. exists (a :: pre), b, post. repeat split; auto. intros c [<-|I]; auto.
      + right. exists [], a, r. repeat split; auto; [intros ? []|]. intros ->. rewrite H in U. discriminate.
  Qed.
  (** An alternative's own default is accepted by the union. *)
  Theorem un_default_usable l own w : (forall a, In a l -> alt_default a <> VUndef -> exists x, alt_validate a (alt_default a) = LOk x) ->
    (forall a v e, In a l -> alt_validate a v = LExc e -> is_generic e = true) ->
    (own = VUndef \/ un_validate alt alt_validate l own = LOk w) ->
    un_default alt alt_default l own = VUndef \/
    exists x, un_validate alt alt_validate l (un_default alt alt_default l own) = LOk x.
  Proof.
    intros D G O. destruct (is_undef own) eqn:U.
    - assert (own = VUndef) as -> by (destruct own; cbn in U; congruence).
      destruct (un_default_first l _ eq_refl) as [[-> _]|(pre & a & post & Q & _ & A & N)]; [left; auto|right].
      rewrite <- A in *. destruct (D a) as [x X]; [subst l; apply in_elt|auto|].
      clear A N O D. subst l. revert G. induction pre as [|b pre IH]; intros G; cbn.
      + rewrite X. eauto.
      + destruct (alt_validate b (alt_default a)) as [y|n|e] eqn:V; eauto.
        * apply IH. intros; eapply G; eauto; right; eauto.
        * rewrite (G b (alt_default a) e); [|left; auto|exact V]. apply IH. intros; eapply G; eauto; right; eauto.
    - right. destruct O as [->|O]; [discriminate|]. rewrite un_default_own; [eauto|]. intros ->. discriminate.
  Qed.
  (** A callable default is accepted as soon as one of its values suits the
      alternative it is tried with. *)
  Theorem un_check_calls l v g n : gen v = Some g ->
    fst (un_check alt alt_validate gen l v n) <= n + length l.
  Proof.
    intros G. revert n. induction l as [|a r IH]; intros n; cbn [un_check length]; [cbn; lia|].
    rewrite G. destruct (rbind (g n) _) as [x|e]; cbn [fst]; [lia|].
    destruct (is_generic e); cbn [fst]; [|lia]. specialize (IH (S n)). lia.
  Qed.
End UnionFacts.

(** * Listeners *)
Lemma all_strs_iff l ss : all_strs l = Some ss <-> l = map VStr ss.
Proof.
  revert ss. induction l as [|v r IH]; intros ss; cbn.
  - destruct ss; cbn; split; intros; congruence || discriminate.
  - split.
    + intros H. destruct v; try discriminate. destruct (all_strs r) as [t|]; [|discriminate]. injection H as <-.
      cbn. f_equal. apply IH. auto.
    + intros H. destruct ss as [|s ss]; [discriminate|]. cbn in H. injection H as -> ->.
      assert (all_strs (map VStr ss) = Some ss) as -> by (apply IH; auto). auto.
Qed.
Lemma listed_iff v ss : all_strs (match v with VTuple l | VList l | VSet l => l | _ => [v] end) = Some ss <-> strings_of v ss.
Proof.
  split.
  - intros H. destruct v; cbn in H; try discriminate; try (injection H as <-; constructor);
      apply all_strs_iff in H; subst; constructor.
  - intros []; try reflexivity; apply all_strs_iff; auto.
Qed.
Theorem set_names_iff n ns : set_names n = Ok ns <-> names_of n ns.
Proof.
  destruct n as [|v]; cbn.
  - split; [intros H; injection H as <-; constructor|intros H; inversion H; auto].
  - split.
    + destruct (all_strs _) as [ss|] eqn:A; [|discriminate]. intros H. injection H as <-. constructor. apply listed_iff. auto.
    + intros H. inversion H; subst. apply listed_iff in H1. rewrite H1. auto.
Qed.
Lemma set_names_exc n e : set_names n = Exc e -> e = ExType.
Proof. destruct n as [|v]; cbn; [discriminate|]. destruct (all_strs _); congruence. Qed.
Lemma mode_of_iff s m : mode_of s = Some m <-> mode_named s m.
Proof.
  unfold mode_of. cbn [all_modes find mode_name].
  destruct (String.eqb_spec s "validate") as [->|A]; [split; [intros H; injection H as <-; constructor|intros H; inversion H; auto]|].
  destruct (String.eqb_spec s "observe_set") as [->|B]; [split; [intros H; injection H as <-; constructor|intros H; inversion H; auto]|].
  destruct (String.eqb_spec s "observe_change") as [->|C]; [split; [intros H; injection H as <-; constructor|intros H; inversion H; auto]|].
  split; [discriminate|]. intros H; inversion H; subst; congruence.
Qed.
Lemma all_some_iff {A B} (f : A -> option B) l ms : all_some (map f l) = Some ms <-> Forall2 (fun a b => f a = Some b) l ms.
Proof.
  revert ms. induction l as [|a r IH]; intros ms; cbn.
  - split; [intros H; injection H as <-; constructor|intros H; inversion H; auto].
  - split.
    + destruct (f a) eqn:F; [|discriminate]. destruct (all_some (map f r)) as [t|]; [|discriminate].
      intros H. injection H as <-. constructor; auto. apply IH. auto.
    + intros H. inversion H; subst. rewrite H2. apply IH in H4. rewrite H4. auto.
Qed.
Theorem disable_type_iff v t : set_disable_type v = Ok t <->
  (v = VNone /\ t = None) \/ exists ss ms, strings_of v ss /\ Forall2 mode_named ss ms /\ t = Some ms.
Proof.
  assert (forall ss ms, Forall2 (fun a b => mode_of a = Some b) ss ms <-> Forall2 mode_named ss ms) as F.
  { intros ss ms. split; induction 1; constructor; auto; apply mode_of_iff; auto. }
  assert ((exists ss ms, strings_of v ss /\ Forall2 mode_named ss ms /\ t = Some ms) <->
    match all_strs (match v with VTuple l | VList l | VSet l => l | _ => [v] end) with
      | Some ss => match all_some (map mode_of ss) with Some ms => Ok (Some ms) | None => Exc ExType end
      | None => Exc ExType end = Ok t) as G.
  { split.
    - intros (ss & ms & A & B & ->). apply listed_iff in A. rewrite A. apply F in B. apply all_some_iff in B. rewrite B. auto.
    - destruct (all_strs _) as [ss|] eqn:A; [|discriminate]. destruct (all_some _) as [ms|] eqn:B; [|discriminate].
      intros H. injection H as <-. exists ss, ms. repeat split; auto; [apply listed_iff; auto|]. apply F. apply all_some_iff. auto. }
  rewrite G. destruct v; cbn [set_disable_type]; split; intros H; try discriminate; auto;
    try (destruct H as [[H _]|H]; [discriminate|exact H]);
    try (destruct H as [[_ H]|H]; [subst|]; auto; discriminate).
  injection H as <-. auto.
Qed.
Theorem disable_type_error v e : set_disable_type v = Exc e -> e = ExType.
Proof.
  destruct v; cbn [set_disable_type]; try congruence;
    match goal with |- context [all_strs ?l] => destruct (all_strs l); [destruct (all_some _)|] end; congruence.
Qed.
Theorem observer_decorator n chg : 
  (forall ns, names_of n ns -> observer (TNames n) None None chg = Ok (DecObserver ns (if chg then MChange else MSet))) /\
  ((forall ns, ~ names_of n ns) -> observer (TNames n) None None chg = Exc ExType).
Proof.
  split.
  - intros ns H. apply set_names_iff in H. cbn. rewrite H. auto.
  - intros H. cbn. destruct (set_names n) as [ns|e] eqn:S; [exfalso; eapply H; apply set_names_iff; eauto|].
    apply set_names_exc in S. subst. auto.
Qed.
Theorem observer_instance l n f chg ns : names_of n ns ->
  observer (TInst l) (Some n) f chg = Ok (DecInst l ns (if chg then MChange else MSet) f).
Proof. intros H. apply set_names_iff in H. cbn. unfold on_instance. rewrite H. auto. Qed.
Lemma set_names_none n : (forall ns, ~ names_of n ns) -> set_names n = Exc ExType.
Proof.
  intros H. destruct (set_names n) as [ns|e] eqn:S; [exfalso; eapply H; apply set_names_iff; eauto|].
  apply set_names_exc in S. subst. auto.
Qed.
Theorem validator_all :
  (forall g, validator (TFun g) None None = Ok (DecClass g)) /\
  (forall n ns, names_of n ns -> validator (TNames n) None None = Ok (DecObserver ns MValidate)) /\
  (forall n, (forall ns, ~ names_of n ns) -> validator (TNames n) None None = Exc ExType) /\
  (forall l n f ns, names_of n ns -> validator (TInst l) (Some n) f = Ok (DecInst l ns MValidate f)) /\
  (forall l n f, (forall ns, ~ names_of n ns) -> validator (TInst l) (Some n) f = Exc ExType).
Proof.
  split; [reflexivity|]. split; [intros n ns H; apply set_names_iff in H; cbn; rewrite H; auto|].
  split; [intros n H; apply set_names_none in H; cbn; rewrite H; auto|].
  split; [intros l n f ns H; apply set_names_iff in H|intros l n f H; apply set_names_none in H];
    cbn; unfold on_instance; rewrite H; auto.
Qed.

(** Registration on an instance *)
Lemma listeners_added i ns m f n m' :
  listeners_of (i_setlst (i_lst i ++ map (fun n => Lst n m f) ns) i) n m' =
  listeners_of i n m' ++ (if lmode_eqb m m' then repeat f (count_occ string_dec ns n) else []).
Proof.
  unfold listeners_of. destruct i; cbn [i_setlst World.i_lst].
  rewrite filter_app, map_app. f_equal. induction ns as [|s ns IH]; cbn -[String.eqb].
  - destruct (lmode_eqb m m'); auto.
  - destruct (String.eqb_spec s n) as [->|N]; cbn [andb].
    + destruct (string_dec n n); [|congruence]. destruct (lmode_eqb m m'); cbn; [f_equal|]; apply IH.
    + destruct (string_dec s n); [congruence|]. destruct (lmode_eqb m m'); cbn; apply IH.
Qed.
Lemma set_nth_at {A} (l : list A) n x y : nth_error l n = Some y -> nth_error (set_nth l n x) n = Some x.
Proof. revert n. induction l as [|a r IH]; intros [|n] H; cbn in *; try discriminate; eauto. Qed.
Lemma set_nth_else {A} (l : list A) n x k : k <> n -> nth_error (set_nth l n x) k = nth_error l k.
Proof.
  revert n k. induction l as [|a r IH]; intros [|n] [|k] H; cbn; try congruence; auto. apply IH. congruence.
Qed.
Theorem observe_registers C l ns m f w i c : nth_error (w_heap w) l = Some i -> nth_error (ct_cls C) (i_cls i) = Some c ->
  exists i' w', has_observe C l (OD ns m f) w = (Ok VNone, w') /\ nth_error (w_heap w') l = Some i' /\
    (forall k, k <> l -> nth_error (w_heap w') k = nth_error (w_heap w) k) /\
    i_back i' = i_back i /\
    forall n m', listeners_of i' n m' = listeners_of i n m' ++
      (if lmode_eqb m m' then repeat f (count_occ string_dec (match ns with Some s => s | None => dkeys (c_props c) end) n) else []).
Proof.
  intros I K. set (names := match ns with Some s => s | None => dkeys (c_props c) end).
  exists (i_setlst (i_lst i ++ map (fun n => Lst n m f) names) i),
         (w_upd l (fun i => i_setlst (i_lst i ++ map (fun n => Lst n m f) names) i) w).
  split.
  - unfold has_observe, inst_class, class_of, get_inst, bind, lift. rewrite I, K. reflexivity.
  - unfold w_upd. rewrite I. cbn [w_heap w_setheap].
    split; [eapply set_nth_at; eauto|]. split; [intros; apply set_nth_else; auto|].
    split; [destruct i; reflexivity|]. intros. apply listeners_added.
Qed.

Definition unfit (n : nat) (f : fn) : Prop := fn_callable f = false \/ exists s, fn_sig f = Some s /\ sg_args s <> n.
Lemma unfit_no n f : unfit n f -> fn_callable f = false \/ (fn_callable f = true /\ args_ok n f = false).
Proof.
  intros [H|(s & Hs & Hn)]; [now left|]. destruct (fn_callable f); [right; split; [reflexivity|]|now left].
  unfold args_ok. rewrite Hs. now apply Nat.eqb_neq.
Qed.
Lemma dyn_rejects f d p v :
  (fn_callable f = false \/ (exists s, fn_sig f = Some s /\ sg_args s <> 1) ->
     dyn_declare f d = Exc ExType /\ dyn_apply p (DDeleter f) = Exc ExType) /\
  (fn_callable f = false \/ (exists s, fn_sig f = Some s /\ sg_args s <> 2) -> dyn_apply p (DSetter f) = Exc ExType) /\
  (suits 1 f -> d <> VUndef -> dyn_declare f d = Exc ExType) /\
  (suits 1 f -> fn_name f = None -> dyn_declare f VUndef = Exc ExAttr /\ dyn_apply p (DDeleter f) = Exc ExAttr) /\
  (suits 2 f -> fn_name f = None -> dyn_apply p (DSetter f) = Exc ExAttr) /\
  (forall n, fn_name f = Some n -> n <> dp_name p ->
     (suits 1 f -> dyn_apply p (DDeleter f) = Exc ExType) /\ (suits 2 f -> dyn_apply p (DSetter f) = Exc ExType)) /\
  ((forall s, v <> VStr s) -> dyn_apply p (DName v) = Exc ExType) /\
  (forall s, v = VStr s -> dyn_apply p (DName v) = Ok (DP (dp_func p) (dp_set p) (dp_del p) s s)).
Proof.
  assert (S : forall n, suits n f -> fn_callable f = true /\ args_ok n f = true).
  { intros n [A B]. split; [exact A|]. now apply args_ok_iff. }
  unfold dyn_declare, dyn_apply. split; [|split; [|split; [|split; [|split; [|split; [|split]]]]]].
  - intros H. apply unfit_no in H as [H|[H H']]; rewrite H; cbn [negb]; [auto|]. rewrite H'. auto.
  - intros H. apply unfit_no in H as [H|[H H']]; rewrite H; cbn [negb]; [auto|]. rewrite H'. auto.
  - intros H Hd. apply S in H as [H H']. rewrite H, H'. cbn [negb]. destruct d; try reflexivity. congruence.
  - intros H Hn. apply S in H as [H H']. rewrite H, H', Hn. auto.
  - intros H Hn. apply S in H as [H H']. rewrite H, H', Hn. auto.
  - intros n Hn Hd. apply String.eqb_neq in Hd. split; intros H; apply S in H as [H H']; rewrite H, H', Hn; cbn [negb]; now rewrite Hd.
  - intros H. destruct v; try reflexivity. destruct (H s); reflexivity.
  - now intros s ->.
Qed.

(** ** All outcomes *)
Lemma custom_default json v kw :
  (v = VNone -> custom_serialize None json v kw = ([], Ok VNone) /\ custom_deserialize None json v kw = ([], Ok VNone)) /\
  (v <> VNone -> custom_serialize None json v kw = ([], json v) /\ custom_deserialize None json v kw = ([], json v)).
Proof.
  unfold custom_serialize, custom_deserialize, custom_json. split.
  - intros ->. split; reflexivity.
  - intros H. destruct v; try (split; reflexivity). congruence.
Qed.
Lemma custom_keywords key dflt f json v kw :
  exists kw', keywords key dflt kw kw' /\
    ((f kw' v <> Exc ExType /\ custom_json key dflt (Some f) json v kw = ([kw'], f kw' v)) \/
     (f kw' v = Exc ExType /\ custom_json key dflt (Some f) json v kw = ([kw'; []], f [] v))).
Proof.
  exists (dset kw key (match dget kw key with Some x => x | None => VBool dflt end)). split.
  - split; [|split].
    + intros k Hk. apply dget_dset_other. congruence.
    + intros x Hx. rewrite Hx. apply dget_dset_same.
    + intros Hx. rewrite Hx. apply dget_dset_same.
  - unfold custom_json, accept_kwargs. destruct (f _ v) as [w|[]]; auto; left; (split; [discriminate|reflexivity]).
Qed.
Lemma custom_calls f json v kw :
  (exists kw', keywords "include_class" true kw kw' /\
    ((f kw' v <> Exc ExType /\ custom_serialize (Some f) json v kw = ([kw'], f kw' v)) \/
     (f kw' v = Exc ExType /\ custom_serialize (Some f) json v kw = ([kw'; []], f [] v)))) /\
  (exists kw', keywords "trusted" false kw kw' /\
    ((f kw' v <> Exc ExType /\ custom_deserialize (Some f) json v kw = ([kw'], f kw' v)) \/
     (f kw' v = Exc ExType /\ custom_deserialize (Some f) json v kw = ([kw'; []], f [] v)))).
Proof. split; apply custom_keywords. Qed.
Lemma un_no_default alt alt_validate gen l :
  un_declare alt alt_validate gen l None = Ok VUndef /\ un_declare alt alt_validate gen l (Some VNone) = Ok VUndef /\
  un_declare alt alt_validate gen l (Some VUndef) = Ok VUndef.
Proof. repeat split. Qed.
Lemma set_names_error n e : set_names n = Exc e -> e = ExType.
Proof. unfold set_names. destruct n; [discriminate|]. destruct (all_strs _); [discriminate|]. congruence. Qed.
Lemma names_of_none ns : ~ names_of (NVal VNone) ns.
Proof. intros H. inversion H as [|v ss S]; subst. inversion S. Qed.
Lemma observer_iff t names f chg d :
  observer t names f chg = Ok d <-> declares (if chg then MChange else MSet) t names f d.
Proof.
  split.
  - unfold observer. set (m := if chg then MChange else MSet). clearbody m.
    assert (A : on_instance t names f m = Ok d -> declares m t names f d).
    { unfold on_instance. destruct (set_names _) as [ns|e] eqn:S; cbn; [|discriminate]. apply set_names_iff in S.
      destruct names as [n|]; [|exfalso; revert S; apply names_of_none].
      destruct t; try discriminate. intros H. injection H as <-. now constructor. }
    destruct names as [n|]; [apply A|]. destruct f as [g|]; [apply A|]. unfold decorator. destruct t as [n| |]; try discriminate.
    destruct (set_names n) as [ns|e] eqn:S; cbn; [|discriminate]. intros H. injection H as <-. constructor. now apply set_names_iff.
  - intros [n ns H|l n ns g H]; apply set_names_iff in H; cbn; [|unfold on_instance]; rewrite H; reflexivity.
Qed.
Lemma observer_errors t names f chg e : observer t names f chg = Exc e ->
  e = ExType \/ (e = ExAttr /\ (forall l, t <> TInst l) /\ exists n ns, names = Some n /\ names_of n ns).
Proof.
  unfold observer. set (m := if chg then MChange else MSet). clearbody m.
  assert (A : on_instance t names f m = Exc e -> e = ExType \/ (e = ExAttr /\ (forall l, t <> TInst l) /\ exists n ns, names = Some n /\ names_of n ns)).
  { unfold on_instance. destruct (set_names _) as [ns|e'] eqn:S; cbn.
    - apply set_names_iff in S. destruct names as [n|]; [|exfalso; revert S; apply names_of_none].
      destruct t; intros H; try discriminate; injection H as <-; right; (split; [reflexivity|]); (split; [discriminate|eauto]).
    - intros H. injection H as <-. left. eapply set_names_error; eauto. }
  destruct names as [n|]; [apply A|]. destruct f as [g|]; [apply A|]. unfold decorator. destruct t as [n| |]; [|intros H; injection H; auto..].
  destruct (set_names n) as [ns|e'] eqn:S; cbn; [discriminate|]. intros H. injection H as <-. left. eapply set_names_error; eauto.
Qed.
Lemma validator_iff t names f d : validator t names f = Ok d <->
  declares MValidate t names f d \/ (names = None /\ f = None /\ exists g, t = TFun g /\ d = DecClass g).
Proof.
  split.
  - unfold validator.
    assert (A : on_instance t names f MValidate = Ok d -> declares MValidate t names f d).
    { unfold on_instance. destruct (set_names _) as [ns|e] eqn:S; cbn; [|discriminate]. apply set_names_iff in S.
      destruct names as [n|]; [|exfalso; revert S; apply names_of_none].
      destruct t; try discriminate. intros H. injection H as <-. now constructor. }
    destruct names as [n|]; [auto|]. destruct f as [g|]; [auto|]. unfold decorator. destruct t as [n| |g]; try discriminate.
    + destruct (set_names n) as [ns|e] eqn:S; cbn; [|discriminate]. intros H. injection H as <-. left. constructor. now apply set_names_iff.
    + intros H. injection H as <-. right. eauto.
  - intros [[n ns H|l n ns g H]|(-> & -> & g & -> & ->)]; [..|reflexivity]; apply set_names_iff in H; cbn; unfold on_instance; rewrite H; reflexivity.
Qed.
Lemma validator_errors t names f e : validator t names f = Exc e ->
  e = ExType \/ (e = ExAttr /\ (forall l, t <> TInst l) /\ exists n ns, names = Some n /\ names_of n ns).
Proof.
  unfold validator.
  assert (A : on_instance t names f MValidate = Exc e -> e = ExType \/ (e = ExAttr /\ (forall l, t <> TInst l) /\ exists n ns, names = Some n /\ names_of n ns)).
  { unfold on_instance. destruct (set_names _) as [ns|e'] eqn:S; cbn.
    - apply set_names_iff in S. destruct names as [n|]; [|exfalso; revert S; apply names_of_none].
      destruct t; intros H; try discriminate; injection H as <-; right; (split; [reflexivity|]); (split; [discriminate|eauto]).
    - intros H. injection H as <-. left. eapply set_names_error; eauto. }
  destruct names as [n|]; [apply A|]. destruct f as [g|]; [apply A|]. unfold decorator. destruct t as [n| |]; [|intros H; injection H; auto|discriminate].
  destruct (set_names n) as [ns|e'] eqn:S; cbn; [discriminate|]. intros H. injection H as <-. left. eapply set_names_error; eauto.
Qed.
