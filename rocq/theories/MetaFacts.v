(** Facts about class creation. *)
From Verif Require Import World WorldSpec WorldSet AccessSpec Meta MetaSpec.
From Coq Require Import Lia.
Local Open Scope string_scope.
Local Open Scope list_scope.
Local Open Scope nat_scope.

(** ** Lists *)
Lemma mem_nat_In n l : mem_nat n l = true <-> In n l.
Proof.
  unfold mem_nat. rewrite existsb_exists. split.
  - intros (x & H & E). apply Nat.eqb_eq in E. now subst.
  - intros H. exists n. split; [exact H|]. apply Nat.eqb_refl.
Qed.
Lemma mem_nat_false n l : mem_nat n l = false <-> ~ In n l.
Proof. rewrite <- mem_nat_In. destruct (mem_nat n l); split; congruence. Qed.

Inductive subseq : list nat -> list nat -> Prop :=
| sub_nil m : subseq [] m
| sub_take x l m : subseq l m -> subseq (x :: l) (x :: m)
| sub_skip x l m : subseq l m -> subseq l (x :: m).

(** ** C3 *)
Lemma c3_head_some all ls h : c3_head all ls = Some h ->
  (exists r, In (h :: r) ls) /\ forall l, In l all -> ~ In h (tl l).
Proof.
  induction ls as [|[|x l] ls IH]; simpl; intros H; [discriminate| |].
  - apply IH in H as ((r & H1) & H2). split; eauto.
  - destruct (existsb _ all) eqn:E.
    + apply IH in H as ((r & H1) & H2). split; eauto.
    + injection H as <-. split; [exists l; auto|]. intros l' Hl' Hx.
      assert (existsb (fun l => mem_nat x (tl l)) all = true); [|congruence].
      apply existsb_exists. exists l'. split; [exact Hl'|]. now apply mem_nat_In.
Qed.
Lemma c3_drop_cases h l : (exists r, l = h :: r /\ c3_drop h l = r) \/ (c3_drop h l = l /\ hd_error l <> Some h).
Proof.
  destruct l as [|x r]; simpl; [right; split; auto; discriminate|].
  destruct (Nat.eqb_spec x h); [left; subst; eauto|right; split; auto; congruence].
Qed.
Lemma c3_merge_sub fuel : forall ls r, c3_merge fuel ls = Some r -> forall l, In l ls -> subseq l r.
Proof.
  induction fuel as [|fuel IH]; intros ls r; simpl.
  - destruct (forallb _ ls) eqn:E; [|discriminate]. intros [= <-] l Hl.
    apply (proj1 (forallb_forall _ _) E) in Hl. destruct l; [constructor|discriminate].
  - destruct (forallb _ ls) eqn:E.
    + intros [= <-] l Hl. apply (proj1 (forallb_forall _ _) E) in Hl. destruct l; [constructor|discriminate].
    + destruct (c3_head ls ls) as [h|]; [|discriminate]. destruct (c3_merge fuel _) as [r'|] eqn:Er; [|discriminate].
      intros [= <-] l Hl. assert (K : subseq (c3_drop h l) r') by (eapply IH; eauto; now apply in_map).
      destruct (c3_drop_cases h l) as [(r0 & -> & E0)|[E0 _]]; rewrite E0 in K; [now apply sub_take|now apply sub_skip].
Qed.
Lemma c3_merge_in fuel : forall ls r x, c3_merge fuel ls = Some r -> In x r -> exists l, In l ls /\ In x l.
Proof.
  induction fuel as [|fuel IH]; intros ls r x; simpl.
  - destruct (forallb _ ls); [|discriminate]. intros [= <-] [].
  - destruct (forallb _ ls); [intros [= <-] []|].
    destruct (c3_head ls ls) as [h|] eqn:Eh; [|discriminate]. destruct (c3_merge fuel _) as [r'|] eqn:Er; [|discriminate].
    intros [= <-] [<-|Hx].
    + apply c3_head_some in Eh as ((r0 & Hr) & _). eexists. split; [exact Hr|now left].
    + destruct (IH _ _ _ Er Hx) as (l & Hl & Hxl). apply in_map_iff in Hl as (l0 & <- & Hl0).
      exists l0. split; [exact Hl0|]. destruct (c3_drop_cases h l0) as [(r0 & -> & E0)|[E0 _]]; rewrite E0 in Hxl; simpl; auto.
Qed.
Lemma c3_merge_nodup fuel : forall ls r, Forall (@NoDup nat) ls -> c3_merge fuel ls = Some r -> NoDup r.
Proof.
  induction fuel as [|fuel IH]; intros ls r HN; simpl.
  - destruct (forallb _ ls); [|discriminate]. intros [= <-]. constructor.
  - destruct (forallb _ ls); [intros [= <-]; constructor|].
    destruct (c3_head ls ls) as [h|] eqn:Eh; [|discriminate]. destruct (c3_merge fuel _) as [r'|] eqn:Er; [|discriminate].
    intros [= <-]. constructor.
    + intros Hh. destruct (c3_merge_in _ _ _ _ Er Hh) as (l & Hl & Hxl). apply in_map_iff in Hl as (l0 & <- & Hl0).
      apply c3_head_some in Eh as (_ & Ht). specialize (Ht _ Hl0).
      destruct (c3_drop_cases h l0) as [(r0 & -> & E0)|[E0 Hd]]; rewrite E0 in Hxl; [auto|].
      destruct l0 as [|y l0]; [destruct Hxl|]. destruct Hxl as [->|Hxl]; [now apply Hd|auto].
    + eapply IH; [|exact Er]. rewrite Forall_forall in *. intros l Hl. apply in_map_iff in Hl as (l0 & <- & Hl0).
      specialize (HN _ Hl0). destruct (c3_drop_cases h l0) as [(r0 & -> & E0)|[E0 Hd]]; rewrite E0; auto. now inversion HN.
Qed.
(** enough steps to merge one list with a prefix of it *)
Lemma c3_merge_one : forall l fuel, NoDup l -> length l <= fuel -> c3_merge fuel [l; []] = Some l.
Proof.
  induction l as [|x l IH]; intros fuel HN Hf.
  - destruct fuel; reflexivity.
  - destruct fuel as [|fuel]; simpl in Hf; [lia|]. inversion HN; subst. simpl.
    assert (mem_nat x l = false) as -> by now apply mem_nat_false. simpl. rewrite Nat.eqb_refl.
    rewrite IH; auto. lia.
Qed.
Lemma c3_merge_single x l fuel : NoDup (x :: l) -> S (length l) <= fuel -> c3_merge fuel [x :: l; [x]] = Some (x :: l).
Proof.
  intros HN Hf. destruct fuel as [|fuel]; [lia|]. inversion HN; subst. simpl.
  assert (mem_nat x l = false) as -> by now apply mem_nat_false. simpl. rewrite Nat.eqb_refl.
  rewrite c3_merge_one; auto. lia.
Qed.

(** ** Dictionaries *)
Lemma dget_app {A} (d e : dict A) k : dget (d ++ e) k = match dget d k with Some v => Some v | None => dget e k end.
Proof. induction d as [|[k' v] d IH]; simpl; auto. destruct (String.eqb k k'); auto. Qed.
Lemma dupdate_get {A} (e : dict A) k : NoDup (dkeys e) -> forall d,
  dget (dupdate d e) k = match dget e k with Some v => Some v | None => dget d k end.
Proof.
  unfold dupdate. induction e as [|[k' v] e IH]; intros HN d; simpl; auto. inversion HN; subst.
  rewrite IH; auto. destruct (String.eqb_spec k k') as [->|Hk].
  - assert (dget e k' = None) as -> by now apply dget_none. apply dget_dset_same.
  - destruct (dget e k); auto. apply dget_dset_other. congruence.
Qed.
Lemma dupdate_nodup {A} (e : dict A) : forall d, NoDup (dkeys d) -> NoDup (dkeys (dupdate d e)).
Proof. unfold dupdate. induction e as [|[k v] e IH]; simpl; auto. intros d H. apply IH. now apply nodup_dset. Qed.
Lemma ddels_get {A} ks k : forall d : dict A,
  dget (fold_left (fun d k => ddel d k) ks d) k = if mem_str k ks then None else dget d k.
Proof.
  induction ks as [|k' ks IH]; intros d; simpl; auto. rewrite IH. unfold mem_str. simpl.
  destruct (String.eqb_spec k k') as [->|Hk]; simpl.
  - rewrite dget_ddel_same. now destruct (existsb _ ks).
  - rewrite dget_ddel_other; auto.
Qed.
Lemma ddels_nodup {A} ks : forall d : dict A, NoDup (dkeys d) -> NoDup (dkeys (fold_left (fun d k => ddel d k) ks d)).
Proof. induction ks as [|k ks IH]; simpl; auto. intros d H. apply IH. now apply nodup_ddel. Qed.

Fixpoint first_some {A B} (f : A -> option B) (l : list A) : option B :=
  match l with [] => None | x :: r => match f x with Some b => Some b | None => first_some f r end end.
Lemma first_some_app {A B} (f : A -> option B) l m :
  first_some f (l ++ m) = match first_some f l with Some b => Some b | None => first_some f m end.
Proof. induction l as [|x l IH]; simpl; auto. destruct (f x); auto. Qed.
Lemma first_some_ext {A B} (f g : A -> option B) l : (forall x, In x l -> f x = g x) -> first_some f l = first_some g l.
Proof. induction l as [|x l IH]; simpl; intros H; auto. rewrite (H x) by auto. destruct (g x); auto. Qed.

(** ** build_from_bases *)
Section Build.
  Context {A : Type}.
  Variable T : list mcls.
  Variable attr : mcls -> dict A.
  Hypothesis attr_nodup : forall k c, nth_error T k = Some c -> NoDup (dkeys (attr c)).

  Lemma filtered_update (p : string -> bool) key (e : dict A) : NoDup (dkeys e) -> forall d : dict A,
    dget (fold_left (fun out kv => if p (fst kv) then dset out (fst kv) (snd kv) else out) e d) key =
    match (if p key then dget e key else None) with Some v => Some v | None => dget d key end.
  Proof.
    induction e as [|[k v] e IH]; intros HN d; simpl.
    - now destruct (p key).
    - inversion HN; subst. rewrite IH; auto. destruct (String.eqb_spec key k) as [->|Hk].
      + assert (dget e k = None) as -> by now apply dget_none. destruct (p k); [apply dget_dset_same|reflexivity].
      + destruct (p key); [destruct (dget e key); auto|]; destruct (p k); auto; apply dget_dset_other; congruence.
  Qed.
  Definition contrib bases key (b : nat) : option A :=
    match nth_error T b with
    | Some c => if dhas (b_dict (m_body c)) key && key_kept T attr bases key then dget (attr c) key else None
    | None => None
    end.
  Lemma outer_update bases key L : forall d : dict A,
    dget (fold_left (fun out b =>
      match get_cls T b with
      | Some c => fold_left (fun out kv =>
          if dhas (b_dict (m_body c)) (fst kv) && key_kept T attr bases (fst kv)
          then dset out (fst kv) (snd kv) else out) (attr c) out
      | None => out
      end) L d) key =
    match first_some (contrib bases key) (rev L) with Some v => Some v | None => dget d key end.
  Proof.
    induction L as [|b L IH]; intros d; simpl; auto. rewrite IH, first_some_app. simpl.
    destruct (first_some (contrib bases key) (rev L)); auto. unfold contrib, get_cls.
    destruct (nth_error T b) as [c|] eqn:Eb; auto.
    rewrite (filtered_update (fun k => dhas (b_dict (m_body c)) k && key_kept T attr bases k) key); [|eauto].
    destruct (_ && _); [|reflexivity]. now destruct (dget (attr c) key).
  Qed.
  Lemma build_get bases keys own key : NoDup (dkeys own) ->
    dget (build_from_bases T attr bases keys own) key =
    match dget own key with
    | Some v => Some v
    | None => if mem_str key keys then None else first_some (contrib bases key) (rev (all_bases T bases))
    end.
  Proof.
    intros HN. unfold build_from_bases. rewrite dupdate_get by exact HN. destruct (dget own key); auto.
    rewrite ddels_get. destruct (mem_str key keys); auto. rewrite outer_update. simpl.
    now destruct (first_some _ _).
  Qed.
  Lemma filtered_nodup p (e : dict A) : forall d : dict A, NoDup (dkeys d) ->
    NoDup (dkeys (fold_left (fun out kv => if p (fst kv) : bool then dset out (fst kv) (snd kv) else out) e d)).
  Proof.
    induction e as [|[k v] e IH]; simpl; auto. intros d H. apply IH. destruct (p k); auto. now apply nodup_dset.
  Qed.
  Lemma build_nodup bases keys own : NoDup (dkeys (build_from_bases T attr bases keys own)).
  Proof.
    unfold build_from_bases. apply dupdate_nodup, ddels_nodup.
    assert (K : forall L (d : dict A), NoDup (dkeys d) -> NoDup (dkeys (fold_left (fun out b =>
      match get_cls T b with
      | Some c => fold_left (fun out kv =>
          if dhas (b_dict (m_body c)) (fst kv) && key_kept T attr bases (fst kv)
          then dset out (fst kv) (snd kv) else out) (attr c) out
      | None => out
      end) L d))).
    { induction L as [|b L IH]; simpl; auto. intros d H. apply IH. destruct (get_cls T b) as [c|]; auto.
      now apply (filtered_nodup (fun k => dhas (b_dict (m_body c)) k && key_kept T attr bases k)). }
    apply K. constructor.
  Qed.

  (** the order in which ancestors are applied *)
  Definition addnew (acc : list nat) (item : nat) : list nat :=
    if negb (is_meta T item) then acc else if mem_nat item acc then acc else acc ++ [item].
  Lemma all_bases_flat bases : all_bases T bases = fold_left addnew (rev (concat (map (mro_at T) bases))) [].
  Proof.
    assert (K : forall bs acc, fold_left (fun acc b => fold_left addnew (rev (mro_of T b)) acc) bs acc =
                           fold_left addnew (concat (map (fun b => rev (mro_at T b)) bs)) acc).
    { induction bs as [|b bs IH]; simpl; auto. intros acc. rewrite fold_left_app, <- IH. reflexivity. }
    unfold all_bases. change (fun acc item => if negb (is_meta T item) then acc else if mem_nat item acc then acc else acc ++ [item]) with addnew.
    rewrite K. f_equal. clear.
    induction bases as [|b bases IH]; simpl; auto.
    rewrite map_app, concat_app, IH. simpl. now rewrite app_nil_r, rev_app_distr.
  Qed.
  Lemma addnew_in L : forall acc x, In x (fold_left addnew L acc) <-> In x acc \/ (In x L /\ is_meta T x = true).
  Proof.
    induction L as [|y L IH]; simpl; intros acc x; [tauto|]. rewrite IH. unfold addnew.
    destruct (is_meta T y) eqn:Ey; simpl.
    - destruct (mem_nat y acc) eqn:Em.
      + apply mem_nat_In in Em. split; [tauto|]. intros [H|[[<-|H] K]]; auto.
      + rewrite in_app_iff. simpl. split; [intros [[H|[<-|[]]]|H]; tauto|]. intros [H|[[<-|H] K]]; tauto.
    - split; [tauto|]. intros [H|[[<-|H] K]]; try tauto. congruence.
  Qed.
  Lemma keep_last_in l x : In x (keep_last l) <-> In x l.
  Proof.
    induction l as [|y l IH]; simpl; [tauto|]. destruct (mem_nat y l) eqn:E; simpl; rewrite IH; [|tauto].
    apply mem_nat_In in E. split; [tauto|]. intros [<-|H]; auto.
  Qed.
  Lemma all_bases_order l : rev (fold_left addnew (rev l) []) = metas T (keep_last l).
  Proof.
    induction l as [|x l IH]; simpl; auto. rewrite fold_left_app. simpl. unfold addnew at 1.
    assert (Em : is_meta T x = match nth_error T x with Some c => m_meta c | None => false end) by reflexivity.
    destruct (is_meta T x) eqn:E1; simpl.
    - destruct (mem_nat x l) eqn:E2.
      + assert (mem_nat x (fold_left addnew (rev l) []) = true) as ->.
        { apply mem_nat_In, addnew_in. right. split; [|exact E1]. apply -> in_rev. now apply mem_nat_In. }
        exact IH.
      + assert (mem_nat x (fold_left addnew (rev l) []) = false) as ->.
        { apply mem_nat_false. rewrite addnew_in. intros [[]|[K _]]. apply in_rev in K. apply mem_nat_In in K. congruence. }
        rewrite rev_app_distr. simpl. rewrite <- Em. now rewrite IH.
    - destruct (mem_nat x l); simpl; [exact IH|]. now rewrite <- Em.
  Qed.
End Build.

(** ** Lookup *)
Definition has_key (T : list mcls) (key : string) (k : nat) : bool :=
  match nth_error T k with Some c => dhas (b_dict (m_body c)) key | None => false end.
Lemma lookup_first T mro key : forall k m, lookup T mro key = Some (k, m) <->
  find (has_key T key) mro = Some k /\ exists c, nth_error T k = Some c /\ dget (b_dict (m_body c)) key = Some m.
Proof.
  induction mro as [|x r IH]; simpl; intros k m; [split; [discriminate|intros [? _]; discriminate]|].
  unfold has_key at 1. destruct (nth_error T x) as [c|] eqn:Ex; [|apply IH]. unfold dhas.
  destruct (dget (b_dict (m_body c)) key) as [m'|] eqn:Em; [|apply IH]. split.
  - intros [= <- <-]. split; eauto.
  - intros [[= <-] (c' & H1 & H2)]. congruence.
Qed.
Lemma find_sub p l m : subseq l m -> NoDup m -> forall x : nat, find p m = Some x -> In x l -> find p l = Some x.
Proof.
  induction 1 as [m|y l m S IH|y l m S IH]; intros HN x Hf Hi; [destruct Hi| |]; inversion HN; subst.
  - simpl in *. destruct (p y); auto. destruct Hi as [->|Hi]; auto.
    apply find_some in Hf as (Hm & _). contradiction.
  - simpl in Hf. destruct (p y); [|auto]. injection Hf as ->. exfalso.
    assert (forall l m (x : nat), subseq l m -> In x l -> In x m) as Hs.
    { clear. induction 1; simpl; intros; [contradiction| |]; intuition. }
    eauto.
Qed.
Lemma lookup_sub T l m key k mem : subseq l m -> NoDup m -> lookup T m key = Some (k, mem) -> In k l -> lookup T l key = Some (k, mem).
Proof. intros S HN H Hi. apply lookup_first in H as (H & c). apply lookup_first. split; auto. eapply find_sub; eauto. Qed.
Lemma lookup_in T m key k mem : lookup T m key = Some (k, mem) -> In k m.
Proof. intros H. apply lookup_first in H as (H & _). now apply find_some in H. Qed.

(** ** What a created class looks like *)
Record made (T : list mcls) (id : nat) (c : mcls) : Prop := {
  md_wf : NoDup (dkeys (b_dict (m_body c))) /\ NoDup (b_bases (m_body c)) /\ Forall (fun k => k < id) (b_bases (m_body c));
  md_wfd : match b_defaults (m_body c) with Some d => NoDup (dkeys d) | None => True end;
  md_mro : exists r, m_mro c = id :: r /\ c3 T (b_bases (m_body c)) = Some r;
  md_meta : m_meta c = b_meta (m_body c) || existsb (is_meta T) (b_bases (m_body c));
  md_attr : if m_meta c
            then m_props c = build_from_bases T m_props (b_bases (m_body c)) (dkeys (b_dict (m_body c))) (own_props (m_body c)) /\
                 m_obs c = build_from_bases T m_obs (b_bases (m_body c)) (dkeys (b_dict (m_body c))) (own_obs (m_body c)) /\
                 m_vals c = build_from_bases T m_vals (b_bases (m_body c)) (dkeys (b_dict (m_body c))) (own_vals (m_body c)) /\
                 m_def c = Some (merged_defaults T (b_defaults (m_body c)) (tl (m_mro c))) /\
                 renamed_ok (m_props c) (own_props (m_body c)) = true /\
                 observed_ok (m_props c) (own_obs (m_body c)) = true
            else m_props c = [] /\ m_obs c = [] /\ m_vals c = [] /\ m_def c = b_defaults (m_body c)
}.
Lemma create_made E U reg n T b w c w' : wf_body T b -> create E U reg n T b w = (Ok c, w') ->
  made T (length T) c /\ m_body c = b.
Proof.
  intros (W1 & W2 & W3 & W4). unfold create. destruct (b_meta b || existsb (is_meta T) (b_bases b)) eqn:Em.
  - destruct (renamed_ok _ _) eqn:Er; [|discriminate]. destruct (observed_ok _ _) eqn:Eo; [|discriminate].
    cbn [negb]. destruct (c3 T (b_bases b)) as [mro|] eqn:E3; [|discriminate].
    intros H. apply bind_ok in H as (u & w1 & H1 & H2). injection H2 as <- <-. split; [|reflexivity].
    constructor; simpl; auto. eauto.
    repeat split; auto.
  - destruct (c3 T (b_bases b)) as [mro|] eqn:E3; [|discriminate]. intros [= <- <-]. split; [|reflexivity].
    constructor; simpl; auto. eauto.
Qed.

(** ** Created tables *)
Lemma nth_ext {A} (T : list A) x k c : nth_error T k = Some c -> nth_error (T ++ [x]) k = Some c.
Proof. intros H. rewrite nth_error_app1; auto. apply nth_error_Some. congruence. Qed.
Lemma nth_snoc {A} (T : list A) x k c : nth_error (T ++ [x]) k = Some c ->
  nth_error T k = Some c \/ (k = length T /\ c = x).
Proof.
  intros H. destruct (Nat.lt_ge_cases k (length T)) as [K|K]; [rewrite nth_error_app1 in H; auto|].
  right. rewrite nth_error_app2 in H by lia. destruct (k - length T) as [|j] eqn:E; simpl in H.
  - injection H as <-. split; [lia|reflexivity].
  - destruct j; discriminate.
Qed.

Section Built.
  Variable E : env.
  Variable U : ucode.
  Variable reg : dict nat.
  Notation built := (built E U reg).

  Lemma built_made T : built T -> forall id c, nth_error T id = Some c -> made (firstn id T) id c.
  Proof.
    induction 1 as [|T b n w c0 w' HB IH Hwf Hc]; intros id c Hid; [destruct id; discriminate|].
    apply nth_snoc in Hid as [Hid|[-> ->]].
    - assert (id < length T) by (apply nth_error_Some; congruence).
      rewrite firstn_app. replace (id - length T) with 0 by lia. simpl. rewrite app_nil_r. auto.
    - rewrite firstn_app, Nat.sub_diag, firstn_all. simpl. rewrite app_nil_r.
      now apply (create_made _ _ _ _ _ _ _ _ _ Hwf Hc).
  Qed.
  Lemma built_prefix T id : built T -> built (firstn id T).
  Proof.
    intros H. revert id. induction H as [|T b n w c0 w' HB IH Hwf Hc]; intros id; [destruct id; constructor|].
    rewrite firstn_app. destruct (id - length T) as [|j] eqn:Ej; simpl.
    - rewrite app_nil_r. auto.
    - rewrite firstn_all2 by lia. destruct j; simpl; econstructor; eauto.
  Qed.
  Lemma mro_below T : built T -> forall id c, nth_error T id = Some c -> exists r, m_mro c = id :: r /\ Forall (fun k => k < id) r.
  Proof.
    induction 1 as [|T b n w c0 w' HB IH Hwf Hc]; intros id c Hid; [destruct id; discriminate|].
    apply nth_snoc in Hid as [Hid|[-> ->]]; [eauto|]. pose proof (create_made _ _ _ _ _ _ _ _ _ Hwf Hc) as [M _].
    destruct (md_mro _ _ _ M) as (r & H1 & H2). exists r. split; [exact H1|]. apply Forall_forall. intros x Hx.
    unfold c3 in H2. destruct (c3_merge_in _ _ _ _ H2 Hx) as (l & Hl & Hxl).
    destruct (md_wf _ _ _ M) as (_ & _ & Hb). rewrite Forall_forall in Hb.
    apply in_app_iff in Hl as [Hl|[<-|[]]]; [|auto]. apply in_map_iff in Hl as (y & <- & Hy). unfold mro_of, get_cls in Hxl.
    destruct (nth_error T y) as [cy|] eqn:Ey; [|destruct Hxl]. destruct (IH _ _ Ey) as (ry & E1 & F1). rewrite E1 in Hxl.
    specialize (Hb _ Hy). destruct Hxl as [<-|Hxl]; auto. rewrite Forall_forall in F1. specialize (F1 _ Hxl). lia.
  Qed.
  Lemma mro_nodup T : built T -> forall id c, nth_error T id = Some c -> NoDup (m_mro c).
  Proof.
    induction 1 as [|T b n w c0 w' HB IH Hwf Hc]; intros id c Hid; [destruct id; discriminate|].
    assert (HB' : built (T ++ [c0])) by (econstructor; eauto).
    destruct (mro_below _ HB' _ _ Hid) as (r & Er & Fr).
    apply nth_snoc in Hid as [Hid|[-> ->]]; [eauto|]. pose proof (create_made _ _ _ _ _ _ _ _ _ Hwf Hc) as [M _].
    destruct (md_mro _ _ _ M) as (r' & H1 & H2). rewrite Er in H1. injection H1 as <-. rewrite Er. constructor.
    - intros K. rewrite Forall_forall in Fr. specialize (Fr _ K). lia.
    - eapply c3_merge_nodup; [|exact H2]. rewrite Forall_app. split; [|constructor; [apply (md_wf _ _ _ M)|constructor]].
      apply Forall_forall. intros l Hl. apply in_map_iff in Hl as (y & <- & Hy). unfold mro_of, get_cls.
      destruct (nth_error T y) as [cy|] eqn:Ey; [eauto|constructor].
  Qed.
  (** the MRO of each base is part of the MRO *)
  Lemma mro_sub T id c b cb : built T -> nth_error T id = Some c -> In b (b_bases (m_body c)) -> nth_error T b = Some cb ->
    subseq (m_mro cb) (tl (m_mro c)) /\ b < id.
  Proof.
    intros HB Hid Hb Hcb. pose proof (built_made T HB id c Hid) as M. destruct (md_mro _ _ _ M) as (r & H1 & H2). rewrite H1. simpl.
    destruct (md_wf _ _ _ M) as (_ & _ & F). rewrite Forall_forall in F. specialize (F _ Hb). split; [|exact F].
    eapply c3_merge_sub; [exact H2|]. apply in_app_iff. left. apply in_map_iff. exists b. split; [|exact Hb].
    unfold mro_of, get_cls. rewrite <- (firstn_skipn id T) in Hcb. rewrite nth_error_app1 in Hcb.
    - now rewrite Hcb.
    - rewrite firstn_length. assert (id < length T) by (apply nth_error_Some; congruence). lia.
  Qed.
  (** every class in the rest of the MRO is in the MRO of a base *)
  Lemma mro_from T id c k : built T -> nth_error T id = Some c -> In k (tl (m_mro c)) ->
    exists b cb, In b (b_bases (m_body c)) /\ nth_error T b = Some cb /\ In k (m_mro cb) /\ b < id.
  Proof.
    intros HB Hid Hk. pose proof (built_made T HB id c Hid) as M. destruct (md_mro _ _ _ M) as (r & H1 & H2). rewrite H1 in Hk. simpl in Hk.
    destruct (md_wf _ _ _ M) as (_ & _ & F). rewrite Forall_forall in F.
    assert (Hlen : id < length T) by (apply nth_error_Some; congruence).
    destruct (c3_merge_in _ _ _ _ H2 Hk) as (l & Hl & Hkl). apply in_app_iff in Hl as [Hl|[<-|[]]].
    - apply in_map_iff in Hl as (b & <- & Hb). unfold mro_of, get_cls in Hkl.
      destruct (nth_error (firstn id T) b) as [cb|] eqn:Eb; [|destruct Hkl]. exists b, cb. split; [exact Hb|]. split; [|auto].
      rewrite <- (firstn_skipn id T). rewrite nth_error_app1; auto. apply nth_error_Some. congruence.
    - specialize (F _ Hkl). destruct (nth_error T k) as [ck|] eqn:Ek; [|apply nth_error_None in Ek; lia].
      exists k, ck. split; [exact Hkl|]. split; [exact Ek|]. split; [|exact F].
      destruct (mro_below T HB k ck Ek) as (rk & -> & _). now left.
  Qed.
  Lemma firstn_nth {A} (T : list A) id k : k < id -> nth_error (firstn id T) k = nth_error T k.
  Proof.
    revert id k. induction T as [|x T IH]; intros [|id] [|k] H; simpl; auto; try lia. apply IH. lia.
  Qed.
  Lemma meta_up T : built T -> forall id c k ck, nth_error T id = Some c -> In k (m_mro c) -> nth_error T k = Some ck ->
    m_meta ck = true -> m_meta c = true.
  Proof.
    intros HB id. induction id as [id IH] using lt_wf_ind. intros c k ck Hid Hk Hck Hm.
    destruct (mro_below T HB id c Hid) as (r & Er & Fr). rewrite Er in Hk. destruct Hk as [<-|Hk]; [congruence|].
    destruct (mro_from T id c k HB Hid) as (b & cb & Hb & Hcb & Hkb & Hlt); [now rewrite Er|].
    assert (m_meta cb = true) as Hmb by (eapply IH; eauto).
    pose proof (built_made T HB id c Hid) as M. rewrite (md_meta _ _ _ M). apply orb_true_iff. right.
    apply existsb_exists. exists b. split; [exact Hb|]. unfold is_meta, get_cls. rewrite firstn_nth by exact Hlt. now rewrite Hcb.
  Qed.

  (** ** One attribute: [_props], [_prop_observers] or [_class_validators] *)
  Section Attr.
    Context {A : Type}.
    Variable attr : mcls -> dict A.
    Variable wrap : A -> member.
    Variable pick : member -> option A.
    Hypothesis pick_wrap : forall m a, pick m = Some a <-> m = wrap a.
    Definition own_of (b : cbody) : dict A :=
      flat_map (fun kv => match pick (snd kv) with Some a => [(fst kv, a)] | None => [] end) (b_dict b).
    Hypothesis attr_made : forall T id c, made T id c ->
      if m_meta c then attr c = build_from_bases T attr (b_bases (m_body c)) (dkeys (b_dict (m_body c))) (own_of (m_body c))
      else attr c = [].

    Lemma own_get b key : NoDup (dkeys (b_dict b)) ->
      dget (own_of b) key = match dget (b_dict b) key with Some m => pick m | None => None end.
    Proof.
      unfold own_of, dkeys. induction (b_dict b) as [|[k m] d IH]; simpl; intros HN; auto. inversion HN; subst.
      rewrite dget_app, IH by auto. destruct (pick m) as [a|] eqn:Ep; simpl; destruct (String.eqb_spec key k) as [->|Hk]; auto.
      assert (dget d k = None) as -> by now apply dget_none. now rewrite Ep.
    Qed.
    Lemma own_nodup b : NoDup (dkeys (b_dict b)) -> NoDup (dkeys (own_of b)).
    Proof.
      unfold own_of, dkeys. induction (b_dict b) as [|[k m] d IH]; simpl; intros HN; [constructor|]. inversion HN; subst.
      destruct (pick m) as [a|]; simpl; auto. constructor; auto. intros K. apply H1.
      apply in_map_iff in K as ([k1 a1] & E1 & K). simpl in E1. subst. apply in_flat_map in K as ([k2 m2] & K1 & K2). simpl in K2.
      destruct (pick m2); [|destruct K2]. destruct K2 as [[= <- <-]|[]]. apply (in_map fst _ _ K1).
    Qed.
    Lemma attr_nodup T : built T -> forall k c, nth_error T k = Some c -> NoDup (dkeys (attr c)).
    Proof.
      intros HB k c Hk. pose proof (attr_made _ _ _ (built_made T HB k c Hk)) as H.
      destruct (m_meta c); rewrite H; [apply build_nodup|constructor].
    Qed.
    Lemma attr_own T : built T -> forall k c key, nth_error T k = Some c -> m_meta c = true -> dhas (b_dict (m_body c)) key = true ->
      dget (attr c) key = match dget (b_dict (m_body c)) key with Some m => pick m | None => None end.
    Proof.
      intros HB k c key Hk Hm Hd. pose proof (built_made T HB k c Hk) as M. pose proof (attr_made _ _ _ M) as H.
      rewrite Hm in H. destruct (md_wf _ _ _ M) as (W & _).
      rewrite H, build_get; [| |now apply own_nodup].
      - rewrite own_get by exact W. destruct (match dget _ key with Some m => pick m | None => None end) eqn:Eo; auto.
        assert (mem_str key (dkeys (b_dict (m_body c))) = true) as ->; [|reflexivity].
        apply mem_str_In. unfold dhas in Hd. destruct (dget (b_dict (m_body c)) key) eqn:Eg; [|discriminate].
        apply dget_in in Eg. apply (in_map fst _ _ Eg).
      - apply attr_nodup. now apply built_prefix.
    Qed.

    Lemma attr_lookup T : built T ->
      (forall id c, nth_error T id = Some c -> m_meta c = true -> in_order T c /\ none_hidden attr wrap T c) ->
      forall id c key a, nth_error T id = Some c -> m_meta c = true ->
      (dget (attr c) key = Some a <-> found_in T (m_mro c) key (wrap a)).
    Proof.
      intros HB HO id. induction id as [id IH] using lt_wf_ind. intros c key a Hid Hm.
      pose proof (built_made T HB id c Hid) as M. pose proof (attr_made _ _ _ M) as Ha. rewrite Hm in Ha.
      destruct (mro_below T HB id c Hid) as (r & Er & Fr). destruct (HO _ _ Hid Hm) as (Ho & Hh).
      unfold in_order, none_hidden in *. rewrite Er in *. simpl in *.
      assert (Hlen : id < length T) by (apply nth_error_Some; congruence).
      destruct (md_wf _ _ _ M) as (W1 & W2 & W3). rewrite Forall_forall in W3.
      destruct (dget (b_dict (m_body c)) key) as [m|] eqn:Ed.
      - rewrite (attr_own T HB id c key Hid Hm) by (unfold dhas; now rewrite Ed). rewrite Ed, pick_wrap. unfold found_in. simpl.
        rewrite Hid, Ed. split.
        + intros ->. eauto.
        + intros (k & ck & [= <- ->] & _). reflexivity.
      - assert (Hget : dget (attr c) key = first_some (contrib (firstn id T) attr (b_bases (m_body c)) key)
                          (rev (all_bases (firstn id T) (b_bases (m_body c))))).
        { rewrite Ha, build_get; [|apply attr_nodup; now apply built_prefix|now apply own_nodup].
          rewrite own_get, Ed by exact W1. assert (mem_str key (dkeys (b_dict (m_body c))) = false) as ->; [|reflexivity].
          apply not_true_iff_false. rewrite mem_str_In. now apply dget_none. }
        assert (Hall : rev (all_bases (firstn id T) (b_bases (m_body c))) = metas T r).
        { rewrite all_bases_flat, all_bases_order, <- Ho.
          assert (Ec : map (mro_at (firstn id T)) (b_bases (m_body c)) = map (mro_at T) (b_bases (m_body c))).
          { apply map_ext_in. intros b Hb. unfold mro_at. rewrite firstn_nth; auto. }
          rewrite Ec. unfold metas. apply filter_ext_in. intros x Hx. rewrite keep_last_in in Hx.
          apply in_concat in Hx as (l & Hl & Hxl). apply in_map_iff in Hl as (b & <- & Hb). specialize (W3 _ Hb). unfold mro_at in Hxl.
          destruct (nth_error T b) as [cb|] eqn:Eb; [|destruct Hxl]. destruct (mro_below T HB b cb Eb) as (rb & Erb & Frb).
          rewrite Erb in Hxl. rewrite firstn_nth; auto. destruct Hxl as [<-|Hxl]; auto.
          rewrite Forall_forall in Frb. specialize (Frb _ Hxl). lia. }
        rewrite Hall in Hget.
        assert (Hfound : forall mm, found_in T (id :: r) key mm <-> found_in T r key mm).
        { intros mm. unfold found_in. simpl. rewrite Hid, Ed. tauto. }
        rewrite Hfound.
        (* once the key is kept, the first own property decides *)
        assert (Hkept : forall a0, found_in T r key (wrap a0) -> key_kept (firstn id T) attr (b_bases (m_body c)) key = true ->
                        dget (attr c) key = Some a0).
        { intros a0 (k & ck & Hl & Hck & Hmk) Hkk. unfold class_at in Hck. rewrite Hget. apply lookup_first in Hl as (Hf & c' & Hc' & Hd).
          rewrite Hck in Hc'. injection Hc' as <-.
          assert (G : forall l, Forall (fun k => k < id) l -> find (has_key T key) l = Some k ->
                        first_some (contrib (firstn id T) attr (b_bases (m_body c)) key) (metas T l) = Some a0).
          { clear Fr Er Ho Hh Hall Hget Hfound Hf. induction l as [|x l IHl]; simpl; intros Fl Hfl; [discriminate|].
            inversion Fl as [|x0 l0 Hx Fl' E0]; subst. unfold has_key in Hfl at 1.
            destruct (nth_error T x) as [cx|] eqn:Ex; [|auto].
            destruct (dhas (b_dict (m_body cx)) key) eqn:Edx.
            - injection Hfl as ->. rewrite Ex in Hck. injection Hck as ->. rewrite Hmk. simpl. unfold contrib.
              rewrite firstn_nth, Ex, Edx, Hkk by exact Hx. simpl. rewrite (attr_own T HB k ck key Ex Hmk Edx), Hd.
              assert (pick (wrap a0) = Some a0) as -> by now apply pick_wrap. reflexivity.
            - destruct (m_meta cx); [|auto]. simpl. unfold contrib at 1. rewrite firstn_nth, Ex, Edx by exact Hx. simpl. auto. }
          apply G; auto. }
        split.
        + intros Hs. assert (Hkk : key_kept (firstn id T) attr (b_bases (m_body c)) key = true).
          { destruct (key_kept (firstn id T) attr (b_bases (m_body c)) key) eqn:Ek; auto. exfalso. rewrite Hget in Hs.
            assert (N : forall l, first_some (contrib (firstn id T) attr (b_bases (m_body c)) key) l = None).
            { induction l as [|x l IHl]; simpl; auto. unfold contrib at 1. destruct (nth_error _ x); auto. now rewrite Ek, andb_false_r. }
            rewrite N in Hs. discriminate. }
          pose proof Hkk as Hkk'. unfold key_kept in Hkk'. apply existsb_exists in Hkk' as (b & Hb & Hbb). unfold get_cls in Hbb.
          specialize (W3 _ Hb). rewrite firstn_nth in Hbb by exact W3. destruct (nth_error T b) as [cb|] eqn:Eb; [|discriminate].
          apply andb_true_iff in Hbb as (_ & Hbb). unfold dhas in Hbb. destruct (dget (attr cb) key) as [ab|] eqn:Eab; [|discriminate].
          destruct (Hh b cb key ab Hb Eb Eab) as (a' & Ha'). pose proof (Hkept _ Ha' Hkk) as K. rewrite Hs in K. now injection K as <-.
        + intros Hf. apply Hkept; [exact Hf|]. destruct Hf as (k & ck & Hl & Hck & Hmk).
          destruct (mro_from T id c k HB Hid) as (b & cb & Hb & Hcb & Hkb & Hlt); [rewrite Er; simpl; eapply lookup_in; eauto|].
          destruct (mro_sub T id c b cb HB Hid Hb Hcb) as (Hs & _). rewrite Er in Hs. simpl in Hs.
          assert (Hmb : m_meta cb = true) by (eapply meta_up; eauto).
          assert (Hl' : lookup T (m_mro cb) key = Some (k, wrap a)).
          { eapply lookup_sub; eauto. pose proof (mro_nodup T HB id c Hid) as N. rewrite Er in N. now inversion N. }
          assert (dget (attr cb) key = Some a) as K by (eapply IH; eauto; exists k, ck; auto).
          unfold key_kept. apply existsb_exists. exists b. split; [exact Hb|]. unfold get_cls. rewrite firstn_nth, Hcb by exact Hlt.
          rewrite Hmb. unfold dhas. now rewrite K.
    Qed.

    (** single inheritance *)
    Lemma c3_single T b cb : built T -> nth_error T b = Some cb -> c3 T [b] = Some (m_mro cb).
    Proof.
      intros HB Hb. unfold c3. simpl. unfold mro_of, get_cls. rewrite Hb.
      destruct (mro_below T HB b cb Hb) as (r & Er & _). pose proof (mro_nodup T HB b cb Hb) as N. rewrite Er in *.
      apply c3_merge_single; auto. simpl. rewrite app_length. simpl. lia.
    Qed.
    Lemma keep_last_nodup l : NoDup l -> keep_last l = l.
    Proof.
      induction 1 as [|x l Hx Hl IH]; simpl; auto. assert (mem_nat x l = false) as -> by now apply mem_nat_false. now rewrite IH.
    Qed.
    Lemma single_order T : built T -> single_inheritance T -> forall id c, nth_error T id = Some c -> in_order T c.
    Proof.
      intros HB HS id c Hid. unfold in_order. pose proof (built_made T HB id c Hid) as M. destruct (md_mro _ _ _ M) as (r & -> & H3). simpl.
      specialize (HS id c Hid). destruct (md_wf _ _ _ M) as (_ & _ & F). destruct (b_bases (m_body c)) as [|b [|]]; simpl in *; [|
        |lia].
      - unfold c3 in H3. simpl in H3. injection H3 as <-. reflexivity.
      - inversion F as [|x l Hb _ E0]; subst. assert (Hlen : id < length T) by (apply nth_error_Some; congruence).
        destruct (nth_error T b) as [cb|] eqn:Eb; [|apply nth_error_None in Eb; lia].
        rewrite (c3_single (firstn id T) b cb) in H3; [|now apply built_prefix|now rewrite firstn_nth].
        injection H3 as <-. rewrite app_nil_r. unfold mro_at. rewrite Eb. now rewrite keep_last_nodup by (eapply mro_nodup; eauto).
    Qed.
    Lemma attr_lookup_single T : built T -> single_inheritance T ->
      forall id c key a, nth_error T id = Some c -> m_meta c = true ->
      (dget (attr c) key = Some a <-> found_in T (m_mro c) key (wrap a)).
    Proof.
      induction 1 as [|T b n w c0 w' HB IH Hwf Hc]; intros HS; [intros [|id] ? ? ? K; discriminate K|].
      assert (HB' : built (T ++ [c0])) by (econstructor; eauto).
      assert (HS0 : single_inheritance T) by (intros k c Hk; apply (HS k c); now apply nth_ext).
      specialize (IH HS0). apply attr_lookup; [exact HB'|]. intros id c Hid Hm. split; [eapply single_order; eauto|].
      intros b0 cb key a Hb Hcb Hg. pose proof (built_made _ HB' id c Hid) as M. destruct (md_wf _ _ _ M) as (_ & _ & F).
      rewrite Forall_forall in F. specialize (F _ Hb). destruct (md_mro _ _ _ M) as (r & Er & H3). rewrite Er. simpl.
      assert (Hlen : id < length (T ++ [c0])) by (apply nth_error_Some; congruence). rewrite app_length in Hlen. simpl in Hlen.
      assert (Hcb' : nth_error T b0 = Some cb) by (unfold class_at in Hcb; rewrite nth_error_app1 in Hcb by lia; auto).
      specialize (HS id c Hid). destruct (b_bases (m_body c)) as [|b1 [|]]; simpl in HS; [destruct Hb| |lia].
      destruct Hb as [->|[]]. rewrite (c3_single _ b0 cb) in H3; [|now apply built_prefix|now rewrite firstn_nth].
      injection H3 as <-. exists a.
      assert (Hmb : m_meta cb = true).
      { destruct (m_meta cb) eqn:Em; auto. exfalso. pose proof (attr_made _ _ _ (built_made T HB b0 cb Hcb')) as K. rewrite Em in K.
        rewrite K in Hg. discriminate. }
      apply (IH b0 cb key a Hcb' Hmb) in Hg as (k & ck & H1 & H2 & H4). exists k, ck. split; [|split; [now apply nth_ext|exact H4]].
      assert (Hx : forall l, Forall (fun k => k < length T) l -> lookup (T ++ [c0]) l key = lookup T l key).
      { induction l as [|x l IHl]; simpl; intros Fl; auto. inversion Fl; subst. rewrite nth_error_app1 by auto.
        rewrite IHl by auto. reflexivity. }
      rewrite Hx; auto. destruct (mro_below T HB b0 cb Hcb') as (rb & -> & Frb).
      assert (b0 < length T) by (apply nth_error_Some; congruence). constructor; auto.
      rewrite Forall_forall in *. intros x Hxr. specialize (Frb _ Hxr). lia.
    Qed.
  End Attr.
End Built.

(** ** The three attributes *)
Definition pick_prop (m : member) : option pdecl := match m with MProp d => Some d | _ => None end.
Definition pick_obs (m : member) : option obsdecl := match m with MObs d => Some d | _ => None end.
Definition pick_val (m : member) : option cvalid := match m with MCval d => Some d | _ => None end.
Lemma own_props_of b : own_props b = own_of pick_prop b.
Proof. apply flat_map_ext. intros [k []]; reflexivity. Qed.
Lemma own_obs_of b : own_obs b = own_of pick_obs b.
Proof. apply flat_map_ext. intros [k []]; reflexivity. Qed.
Lemma own_vals_of b : own_vals b = own_of pick_val b.
Proof. apply flat_map_ext. intros [k []]; reflexivity. Qed.
Lemma props_made T id c : made T id c ->
  if m_meta c then m_props c = build_from_bases T m_props (b_bases (m_body c)) (dkeys (b_dict (m_body c))) (own_of pick_prop (m_body c))
  else m_props c = [].
Proof. intros M. pose proof (md_attr _ _ _ M) as H. rewrite <- own_props_of. destruct (m_meta c); tauto. Qed.
Lemma obs_made T id c : made T id c ->
  if m_meta c then m_obs c = build_from_bases T m_obs (b_bases (m_body c)) (dkeys (b_dict (m_body c))) (own_of pick_obs (m_body c))
  else m_obs c = [].
Proof. intros M. pose proof (md_attr _ _ _ M) as H. rewrite <- own_obs_of. destruct (m_meta c); tauto. Qed.
Lemma vals_made T id c : made T id c ->
  if m_meta c then m_vals c = build_from_bases T m_vals (b_bases (m_body c)) (dkeys (b_dict (m_body c))) (own_of pick_val (m_body c))
  else m_vals c = [].
Proof. intros M. pose proof (md_attr _ _ _ M) as H. rewrite <- own_vals_of. destruct (m_meta c); tauto. Qed.
Lemma pick_prop_wrap m a : pick_prop m = Some a <-> m = MProp a.
Proof. destruct m; simpl; split; congruence. Qed.
Lemma pick_obs_wrap m a : pick_obs m = Some a <-> m = MObs a.
Proof. destruct m; simpl; split; congruence. Qed.
Lemma pick_val_wrap m a : pick_val m = Some a <-> m = MCval a.
Proof. destruct m; simpl; split; congruence. Qed.

Section Results.
  Variable E : env.
  Variable U : ucode.
  Variable reg : dict nat.
  Notation built := (built E U reg).

  Lemma props_mro T : built T ->
    (forall id c, class_at T id c -> m_meta c = true -> in_order T c /\ none_hidden m_props MProp T c) ->
    forall id c key d, class_at T id c -> m_meta c = true ->
    (dget (m_props c) key = Some d <-> found_in T (m_mro c) key (MProp d)).
  Proof. intros HB HO. exact (attr_lookup E U reg m_props MProp pick_prop pick_prop_wrap props_made T HB HO). Qed.
  Lemma props_single T : built T -> single_inheritance T ->
    forall id c key d, class_at T id c -> m_meta c = true ->
    (dget (m_props c) key = Some d <-> found_in T (m_mro c) key (MProp d)).
  Proof. exact (attr_lookup_single E U reg m_props MProp pick_prop pick_prop_wrap props_made T). Qed.
  Lemma handlers_mro T : built T ->
    (forall id c, class_at T id c -> m_meta c = true ->
       in_order T c /\ none_hidden m_obs MObs T c /\ none_hidden m_vals MCval T c) ->
    forall id c key, class_at T id c -> m_meta c = true ->
    (forall o, dget (m_obs c) key = Some o <-> found_in T (m_mro c) key (MObs o)) /\
    (forall v, dget (m_vals c) key = Some v <-> found_in T (m_mro c) key (MCval v)).
  Proof.
    intros HB HO id c key Hid Hm. split; intros x.
    - apply (attr_lookup E U reg m_obs MObs pick_obs pick_obs_wrap obs_made T HB) with (id := id); auto.
      intros id' c' H1 H2. destruct (HO id' c' H1 H2) as (A & B & _). auto.
    - apply (attr_lookup E U reg m_vals MCval pick_val pick_val_wrap vals_made T HB) with (id := id); auto.
      intros id' c' H1 H2. destruct (HO id' c' H1 H2) as (A & _ & B). auto.
  Qed.
  Lemma table_wf T : built T -> wf_ctab (to_ctab T reg) /\ wf_mro (to_ctab T reg).
  Proof.
    intros HB. split; intros id c Hc; cbn [to_ctab ct_cls] in Hc; rewrite nth_error_map in Hc;
      destruct (nth_error T id) as [m|] eqn:Em; try discriminate; injection Hc as <-; simpl.
    - apply (attr_nodup E U reg m_props pick_prop props_made T HB id m Em).
    - destruct (mro_below E U reg T HB id m Em) as (r & -> & _). now left.
  Qed.

  (** ** Defaults *)
  Lemma attr_defaults_nodup T : (forall k c d, nth_error T k = Some c -> m_def c = Some d -> NoDup (dkeys d)) ->
    forall mro own, match own with Some d => NoDup (dkeys d) | None => True end -> NoDup (dkeys (attr_defaults T own mro)).
  Proof.
    intros HT. induction mro as [|k mro IH]; intros [d|] Hd; simpl; auto; [constructor|]. apply IH. unfold get_cls.
    destruct (nth_error T k) as [c|] eqn:Ek; [|exact I]. destruct (m_def c) eqn:Ed; [eauto|exact I].
  Qed.
  Lemma def_nodup T : built T -> forall k c d, nth_error T k = Some c -> m_def c = Some d -> NoDup (dkeys d).
  Proof.
    intros HB k c d Hk Hd. pose proof (built_made E U reg T HB k c Hk) as M. pose proof (md_attr _ _ _ M) as H.
    destruct (m_meta c).
    - destruct H as (_ & _ & _ & H & _). rewrite Hd in H. injection H as ->. unfold merged_defaults. apply dupdate_nodup.
      assert (K : forall L acc, NoDup (dkeys acc) -> NoDup (dkeys (fold_left (fun acc k0 =>
        match get_cls (firstn k T) k0 with
        | Some c => dupdate acc (attr_defaults (firstn k T) (m_def c) (tl (m_mro c)))
        | None => acc
        end) L acc))).
      { induction L as [|x L IH]; simpl; auto. intros acc Ha. apply IH. destruct (get_cls _ x); auto. now apply dupdate_nodup. }
      apply K. constructor.
    - destruct H as (_ & _ & _ & H). pose proof (md_wfd _ _ _ M) as W. rewrite <- H, Hd in W. exact W.
  Qed.
  Lemma merged_get T own mro key :
    (forall k c d, nth_error T k = Some c -> m_def c = Some d -> NoDup (dkeys d)) ->
    match own with Some d => NoDup (dkeys d) | None => True end ->
    dget (merged_defaults T own mro) key =
    match dget (attr_defaults T own mro) key with
    | Some x => Some x
    | None => first_some (fun k => match nth_error T k with
                                   | Some c => dget (attr_defaults T (m_def c) (tl (m_mro c))) key
                                   | None => None
                                   end) mro
    end.
  Proof.
    intros HT Ho. unfold merged_defaults. rewrite dupdate_get by now apply attr_defaults_nodup.
    destruct (dget (attr_defaults T own mro) key); auto.
    assert (K : forall L acc, dget (fold_left (fun acc k =>
        match get_cls T k with
        | Some c => dupdate acc (attr_defaults T (m_def c) (tl (m_mro c)))
        | None => acc
        end) (rev L) acc) key =
        match first_some (fun k => match nth_error T k with
                                   | Some c => dget (attr_defaults T (m_def c) (tl (m_mro c))) key
                                   | None => None
                                   end) L with Some x => Some x | None => dget acc key end).
    { induction L as [|k L IH]; intros acc; simpl; auto. rewrite fold_left_app. simpl. unfold get_cls at 1.
      destruct (nth_error T k) as [c|] eqn:Ek; [|apply IH]. rewrite dupdate_get.
      - destruct (dget (attr_defaults T (m_def c) (tl (m_mro c))) key); auto.
      - apply attr_defaults_nodup; auto. destruct (m_def c) eqn:Ed; [eauto|exact I]. }
    rewrite K. now destruct (first_some _ mro).
  Qed.
  Lemma mixin_none T : built T -> plain_mixins T -> forall id c, nth_error T id = Some c -> m_meta c = false ->
    m_def c = None /\ forall k ck, In k (m_mro c) -> nth_error T k = Some ck -> m_def ck = None.
  Proof.
    intros HB HP id c Hid Hm.
    assert (K : forall k ck, nth_error T k = Some ck -> m_meta ck = false -> m_def ck = None).
    { intros k ck Hk Hmk. pose proof (md_attr _ _ _ (built_made E U reg T HB k ck Hk)) as H. rewrite Hmk in H.
      destruct H as (_ & _ & _ & ->). eapply HP; eauto. }
    split; [eauto|]. intros k ck Hk Hck. apply (K k ck Hck). destruct (m_meta ck) eqn:Em; auto.
    rewrite (meta_up E U reg T HB id c k ck Hid Hk Hck Em) in Hm. discriminate.
  Qed.
  Lemma attr_defaults_none T : forall mro, (forall k ck, In k mro -> nth_error T k = Some ck -> m_def ck = None) ->
    attr_defaults T None mro = [].
  Proof.
    induction mro as [|k mro IH]; intros H; simpl; auto. unfold get_cls. destruct (nth_error T k) as [c|] eqn:Ek.
    - rewrite (H k c); simpl; auto. apply IH. intros; eapply H; simpl; eauto.
    - apply IH. intros; eapply H; simpl; eauto.
  Qed.
  Lemma tables T : built T -> plain_mixins T -> forall key mro,
    first_some (fun k => match nth_error T k with
                         | Some c => dget (attr_defaults T (m_def c) (tl (m_mro c))) key
                         | None => None
                         end) mro = table_default T mro key.
  Proof.
    intros HB HP key. induction mro as [|k mro IH]; simpl; auto. destruct (nth_error T k) as [c|] eqn:Ek; [|exact IH].
    destruct (m_def c) as [d|] eqn:Ed.
    - replace (attr_defaults T (Some d) (tl (m_mro c))) with d by (destruct (tl (m_mro c)); reflexivity).
      destruct (dget d key); auto.
    - assert (Em : m_meta c = false).
      { destruct (m_meta c) eqn:Em; auto. pose proof (md_attr _ _ _ (built_made E U reg T HB k c Ek)) as H. rewrite Em in H.
        destruct H as (_ & _ & _ & H & _). congruence. }
      destruct (mixin_none T HB HP k c Ek Em) as (_ & Hn). rewrite attr_defaults_none; [exact IH|].
      intros k0 ck Hk0 Hck. destruct (mro_below E U reg T HB k c Ek) as (r & Er & _). rewrite Er in *. simpl in Hk0.
      eapply Hn; [right; exact Hk0|exact Hck].
  Qed.
  Lemma own_or_table T key : forall mro, match dget (attr_defaults T None mro) key with Some x => Some x | None => table_default T mro key end
    = table_default T mro key.
  Proof.
    induction mro as [|k mro IH]; simpl; auto. unfold get_cls. destruct (nth_error T k) as [c|]; [|exact IH].
    destruct (m_def c) as [d|]; [|exact IH].
    replace (attr_defaults T (Some d) mro) with d by (destruct mro; reflexivity). now destruct (dget d key).
  Qed.
  Lemma table_ext T T' key : forall mro, (forall k, In k mro -> nth_error T k = nth_error T' k) ->
    table_default T mro key = table_default T' mro key.
  Proof.
    induction mro as [|k mro IH]; simpl; intros H; auto. rewrite (H k) by auto. rewrite IH by auto. reflexivity.
  Qed.
  Lemma body_ext T T' key : forall mro, (forall k, In k mro -> nth_error T k = nth_error T' k) ->
    body_default T mro key = body_default T' mro key.
  Proof.
    induction mro as [|k mro IH]; simpl; intros H; auto. rewrite (H k) by auto. rewrite IH by auto. reflexivity.
  Qed.
  Lemma defaults_general T id c defs key : built T -> plain_mixins T -> class_at T id c -> m_meta c = true -> m_def c = Some defs ->
    dget defs key = match b_defaults (m_body c) with
                    | Some d => match dget d key with Some x => Some x | None => table_default T (tl (m_mro c)) key end
                    | None => table_default T (tl (m_mro c)) key
                    end.
  Proof.
    intros HB HP Hid Hm Hdef. pose proof (built_made E U reg T HB id c Hid) as M. pose proof (md_attr _ _ _ M) as H. rewrite Hm in H.
    destruct H as (_ & _ & _ & H & _). rewrite Hdef in H. injection H as ->.
    assert (HB0 : built (firstn id T)) by now apply built_prefix.
    assert (Hf : forall k ck, nth_error (firstn id T) k = Some ck -> nth_error T k = Some ck).
    { intros k ck Hk. rewrite <- (firstn_skipn id T). rewrite nth_error_app1; auto. apply nth_error_Some. congruence. }
    assert (HP0 : plain_mixins (firstn id T)) by (intros k ck Hk; apply (HP k ck); now apply Hf).
    rewrite merged_get; [|intros; eapply def_nodup; eauto|apply (md_wfd _ _ _ M)].
    rewrite (tables _ HB0 HP0).
    assert (Et : table_default (firstn id T) (tl (m_mro c)) key = table_default T (tl (m_mro c)) key).
    { apply table_ext. intros k Hk. destruct (mro_below E U reg T HB id c Hid) as (r & Er & Fr). rewrite Er in Hk. simpl in Hk.
      rewrite Forall_forall in Fr. apply firstn_nth. auto. }
    destruct (b_defaults (m_body c)) as [d|].
    - replace (attr_defaults (firstn id T) (Some d) (tl (m_mro c))) with d by (destruct (tl (m_mro c)); reflexivity). now rewrite Et.
    - now rewrite own_or_table, Et.
  Qed.
  Lemma defaults_single T : built T -> plain_mixins T -> single_inheritance T ->
    forall id c defs key, class_at T id c -> m_meta c = true -> m_def c = Some defs ->
    dget defs key = body_default T (m_mro c) key.
  Proof.
    intros HB HP HS id. induction id as [id IH] using lt_wf_ind. intros c defs key Hid Hm Hdef.
    rewrite (defaults_general T id c defs key HB HP Hid Hm Hdef).
    pose proof (built_made E U reg T HB id c Hid) as M. destruct (md_mro _ _ _ M) as (r & Er & H3). rewrite Er. simpl.
    unfold class_at in Hid. rewrite Hid.
    assert (Hr : table_default T r key = body_default T r key).
    { specialize (HS id c Hid). destruct (md_wf _ _ _ M) as (_ & _ & F). destruct (b_bases (m_body c)) as [|b [|]]; simpl in HS; [| |lia].
      - unfold c3 in H3. simpl in H3. injection H3 as <-. reflexivity.
      - inversion F as [|x l Hb _ E0]; subst. assert (Hlen : id < length T) by (apply nth_error_Some; congruence).
        destruct (nth_error T b) as [cb|] eqn:Eb; [|apply nth_error_None in Eb; lia].
        rewrite (c3_single E U reg (firstn id T) b cb) in H3; [|now apply built_prefix|now rewrite firstn_nth].
        injection H3 as <-. destruct (m_meta cb) eqn:Emb.
        + destruct (mro_below E U reg T HB b cb Eb) as (rb & Erb & Frb).
          pose proof (md_attr _ _ _ (built_made E U reg T HB b cb Eb)) as Hc. rewrite Emb in Hc. destruct Hc as (_ & _ & _ & Hc & _).
          pose proof (IH b Hb cb _ key Eb Emb Hc) as K. rewrite Erb in *. cbn [table_default]. rewrite Eb, Hc.
          destruct (dget (merged_defaults _ _ _) key) as [x|] eqn:Ex; [exact K|]. rewrite <- K.
          rewrite (defaults_general T b cb _ key HB HP Eb Emb Hc) in Ex. rewrite Erb in Ex. simpl in Ex.
          destruct (b_defaults (m_body cb)) as [db|]; [destruct (dget db key); [discriminate|]|]; exact Ex.
        + destruct (mixin_none T HB HP b cb Eb Emb) as (Hn & Hall).
          assert (N1 : forall l, (forall k, In k l -> In k (m_mro cb)) -> table_default T l key = None /\ body_default T l key = None).
          { induction l as [|k l IHl]; simpl; intros Hk; auto. destruct IHl as [I1 I2]; [intros; apply Hk; auto|].
            destruct (nth_error T k) as [ck|] eqn:Eck; [|auto]. rewrite (Hall k ck (Hk k (or_introl eq_refl)) Eck). split; [exact I1|].
            assert (m_meta ck = false) as Hmk.
            { destruct (m_meta ck) eqn:Emk; auto. rewrite (meta_up E U reg T HB b cb k ck Eb (Hk k (or_introl eq_refl)) Eck Emk) in Emb. discriminate. }
            rewrite (HP k ck Eck Hmk). exact I2. }
          destruct (N1 (m_mro cb)) as [-> ->]; auto. }
    rewrite Hr. reflexivity.
  Qed.
End Results.
