(** Lemmas behind the theorems on the dictionary of StringChoice.choices. *)
From Verif Require Import Choices ChoicesSpec BasicSpec OptionsSpec OptionsFacts OptionsExact BasicProofs.
Local Open Scope string_scope.
Local Open Scope list_scope.
Local Open Scope nat_scope.

Lemma put_same {A} n (a : A) l : n < length l -> nth_error (put n a l) n = Some a.
Proof. revert n. induction l as [|x r IH]; intros [|n] H; cbn in *; try lia; auto. apply IH. lia. Qed.
Lemma put_other {A} n m (a : A) l : m <> n -> nth_error (put n a l) m = nth_error l m.
Proof. revert n m. induction l as [|x r IH]; intros [|n] [|m] H; cbn; auto; try congruence. Qed.
Lemma put_id {A} n (a : A) l : nth_error l n = Some a -> put n a l = l.
Proof. revert n. induction l as [|x r IH]; intros [|n] H; cbn in *; try discriminate; [congruence|]. f_equal. auto. Qed.
Lemma nth_lt {A} (l : list A) n a : nth_error l n = Some a -> n < length l.
Proof. intros H. apply nth_error_Some. congruence. Qed.
Lemma nth_app {A} (l r : list A) n a : nth_error l n = Some a -> nth_error (l ++ r) n = Some a.
Proof. intros H. rewrite nth_error_app1; eauto using nth_lt. Qed.
Lemma nth_last {A} (l : list A) a : nth_error (l ++ [a]) (length l) = Some a.
Proof. rewrite nth_error_app2 by lia. now rewrite Nat.sub_diag. Qed.

Lemma Forall2_imp {A B} (P Q : A -> B -> Prop) l t : (forall a b, P a b -> Q a b) -> Forall2 P l t -> Forall2 Q l t.
Proof. induction 2; constructor; auto. Qed.
Lemma as_list_made x : made_list x (as_list x).
Proof.
  unfold made_list, collection, as_list.
  destruct x as [| | | | | | | | | |l|l|l| | ]; try (left; exists l; split; [tauto|reflexivity]);
    right; (split; [intros l' [H|[H|H]]; discriminate|reflexivity]).
Qed.
Lemma rewrite_rewritten c : rewritten c (rewrite c).
Proof. induction c as [|kv c IH]; constructor; auto. split; [reflexivity|apply as_list_made]. Qed.
Lemma holds_rewrite c t : holds c t -> rewrite c = c.
Proof. induction 1 as [|[k x] e c t [H1 H2] H IH]; cbn in *; auto. unfold rewrite in IH. rewrite IH, H2. reflexivity. Qed.

Lemma check_entries c t :
  Forall2 (fun kv e => (match snd kv with VList l => pair_strs (fst kv, l) | _ => None end) = Some e) c t <-> holds c t.
Proof.
  unfold holds. split; induction 1 as [|kv e c t H F IH]; constructor; auto; destruct kv as [k x]; cbn [fst snd] in *.
  - destruct x; try discriminate. apply pair_strs_iff in H. cbn in H. destruct H as [-> ->]. auto.
  - destruct H as [-> ->]. apply pair_strs_iff. auto.
Qed.
Lemma check_iff cs c : check cs c = true <-> exists t, holds c t /\ no_collisions cs t.
Proof.
  unfold check. destruct (all_some _) as [t|] eqn:A.
  - apply all_some_map, check_entries in A.
    assert ((exists t0, holds c t0 /\ no_collisions cs t0) <-> no_collisions cs t) as ->.
    { split; [|eauto]. intros (t0 & H & N). apply check_entries, all_some_map in A. apply check_entries, all_some_map in H. congruence. }
    unfold no_collisions, table_keys.
    replace (map (fun s => if cs then s else str_upper s) (flat_map (fun kv => fst kv :: snd kv) t)) with
      (if cs then flat_map (fun kv => fst kv :: snd kv) t else map str_upper (flat_map (fun kv => fst kv :: snd kv) t))
      by (destruct cs; [now rewrite map_id|reflexivity]).
    rewrite Nat.eqb_eq, <- nodup_length_NoDup.
    replace (length (if cs then flat_map (fun kv : string * list string => fst kv :: snd kv) t else map str_upper (flat_map (fun kv => fst kv :: snd kv) t)))
      with (length (flat_map (fun kv : string * list string => fst kv :: snd kv) t)) by (destruct cs; [reflexivity|now rewrite map_length]).
    reflexivity.
  - split; [discriminate|]. intros (t & H & _). apply check_entries, all_some_map in H. congruence.
Qed.
Lemma holds_gives c t : holds (rewrite c) t <-> gives_table (VDict c) t.
Proof.
  rewrite <- check_entries. unfold rewrite. rewrite Forall2_map_l. split.
  - intros F. right. exists c. split; auto. apply pairs_dict. rewrite Forall2_map_l. revert F. apply Forall2_imp.
    intros [k x] e. cbn [fst snd]. destruct x; cbn; auto.
  - intros [([H|[H|H]] & _)|(kvs & [= <-] & F)]; try discriminate.
    apply pairs_dict in F. rewrite Forall2_map_l in F. revert F. apply Forall2_imp.
    intros [k x] e. cbn [fst snd]. destruct x; cbn; auto.
Qed.
Lemma stored_dict cs d h c : nth_error h d = Some c ->
  store cs (CvDict d) h = (if check cs (rewrite c) then Ok d else Exc ExType, put d (rewrite c) h).
Proof. intros H. unfold store. rewrite H. reflexivity. Qed.

(** the dictionaries after an assignment *)
Lemma store_dicts cs v h r h' : store cs v h = (r, h') ->
  length h <= length h' /\
  (forall d c, nth_error h d = Some c -> exists c', nth_error h' d = Some c' /\
     ((v = CvDict d /\ c' = rewrite c) \/ (v <> CvDict d /\ c' = c))) /\
  (forall d, r = Ok d -> (v = CvDict d \/ (d = length h /\ exists l, v = CvSeq l)) /\
     exists c t, nth_error h' d = Some c /\ holds c t /\ no_collisions cs t).
Proof.
  assert (PL : forall (d : nat) (c : content) l, length (put d c l) = length l).
  { intros d c l. revert d. induction l; intros [|d]; cbn; auto. }
  assert (G : forall d c h1, nth_error h1 d = Some c ->
    forall r h', (if check cs (rewrite c) then Ok d else Exc ExType, put d (rewrite c) h1) = (r, h') ->
    forall d', r = Ok d' -> d' = d /\ exists c t, nth_error h' d' = Some c /\ holds c t /\ no_collisions cs t).
  { intros d c h1 H r0 h0 [= <- <-] d'. destruct (check cs (rewrite c)) eqn:K; [|discriminate]. intros [= <-]. split; auto.
    apply check_iff in K as (t & K1 & K2). exists (rewrite c), t. split; auto. apply put_same. eauto using nth_lt. }
  intros S. destruct v as [l|d|].
  - unfold store in S. destruct (py_set l) as [q|e].
    2: { injection S as <- <-. split; [lia|]. split; [|discriminate]. intros d c H. exists c. split; auto. right. split; [discriminate|auto]. }
    destruct (Nat.eqb (length l) (length q)).
    2: { injection S as <- <-. split; [lia|]. split; [|discriminate]. intros d c H. exists c. split; auto. right. split; [discriminate|auto]. }
    cbv zeta in S. rewrite nth_last in S. split.
    + injection S as <- <-. rewrite PL, app_length. lia.
    + split.
      * injection S as <- <-. intros d c H. exists c. split; [|right; split; [discriminate|auto]].
        rewrite put_other by (apply nth_lt in H; lia). apply nth_app; auto.
      * intros d' Hr. destruct (G _ _ _ (nth_last _ _) _ _ S _ Hr) as [-> Hx]. split; eauto.
  - destruct (nth_error h d) as [c|] eqn:H.
    + rewrite (stored_dict _ _ _ _ H) in S. split; [injection S as <- <-; rewrite PL; lia|]. split.
      * injection S as <- <-. intros d' c' H'. destruct (Nat.eq_dec d' d) as [->|n].
        -- exists (rewrite c). split; [apply put_same; eauto using nth_lt|]. left. split; congruence.
        -- exists c'. rewrite put_other by auto. split; auto. right. split; congruence.
      * intros d' Hr. destruct (G _ _ _ H _ _ S _ Hr) as [-> Hx]. split; auto.
    + unfold store in S. rewrite H in S. injection S as <- <-. split; [lia|]. split; [|discriminate].
      intros d' c' H'. exists c'. split; auto. right. split; congruence.
  - injection S as <- <-. split; [lia|]. split; [|discriminate]. intros d c H. exists c. split; auto. right. split; [discriminate|auto].
Qed.
Theorem rewrites s cs d c : nth_error (cs_dicts s) d = Some c ->
  exists c', rewritten c c' /\ nth_error (cs_dicts (act s (ANew cs (CvDict d)))) d = Some c'.
Proof.
  intros H. exists (rewrite c). split; [apply rewrite_rewritten|]. cbn [act]. rewrite (stored_dict _ _ _ _ H).
  destruct (check cs (rewrite c)); cbn [cs_dicts]; apply put_same; eauto using nth_lt.
Qed.
Lemma py_set_strings l q t : py_set l = Ok q -> l = map VStr t -> length l = length q <-> NoDup t.
Proof.
  unfold py_set. intros H ->. destruct (forallb hashable _); [|discriminate]. injection H as <-.
  assert (D : forall t acc, length (dedup (map VStr t) (map VStr acc)) =
    length (fold_left (fun a x => if in_dec string_dec x a then a else a ++ [x]) t acc)).
  { clear. induction t as [|x t IH]; intros acc; cbn [map dedup fold_left]; [now rewrite map_length|].
    assert (mem_val (VStr x) (map VStr acc) = if in_dec string_dec x acc then true else false) as ->.
    { unfold mem_val. destruct (in_dec string_dec x acc) as [i|n].
      - apply existsb_exists. exists (VStr x). split; [apply in_map; auto|cbn; apply String.eqb_refl].
      - apply not_true_iff_false. intros K. apply existsb_exists in K as (y & I & E). apply in_map_iff in I as (z & <- & I).
        cbn in E. apply String.eqb_eq in E. subst. auto. }
    destruct (in_dec string_dec x acc); [apply IH|]. rewrite <- IH, map_app. reflexivity. }
  specialize (D t []). cbn [map] in D. rewrite map_length, D. clear D.
  assert (K : forall t acc, length (fold_left (fun a x => if in_dec string_dec x a then a else a ++ [x]) t acc) <= length acc + length t /\
    (NoDup acc -> (length (fold_left (fun a x => if in_dec string_dec x a then a else a ++ [x]) t acc) = length acc + length t <->
      NoDup (acc ++ t)))).
  { clear. induction t as [|x t IH]; intros acc; cbn [fold_left length].
    - rewrite app_nil_r. split; [lia|]. intros N. split; auto.
    - destruct (in_dec string_dec x acc) as [i|n].
      + destruct (IH acc) as [L _]. split; [lia|]. intros N. split; [lia|]. intros M. exfalso.
        apply NoDup_remove_2 in M. apply M, in_or_app. auto.
      + destruct (IH (acc ++ [x])) as [L M]. rewrite app_length in *. cbn in *. split; [lia|]. intros N.
        assert (NoDup (acc ++ [x])) as N'. { apply NoDup_rev in N. rewrite <- (rev_involutive (acc ++ [x])). apply NoDup_rev. rewrite rev_app_distr. cbn. constructor; auto. now rewrite <- in_rev. }
        specialize (M N'). rewrite <- app_assoc in M. cbn in M. rewrite <- M. lia. }
  destruct (K t []) as [_ K2]. specialize (K2 (NoDup_nil _)). cbn in K2. rewrite <- K2. split; congruence.
Qed.

(** what is accepted *)
Lemma keys_nodup cs t : no_collisions cs t -> NoDup (map fst t).
Proof.
  unfold no_collisions, table_keys. intros N. apply NoDup_map_inv in N. induction t as [|[k l] t IH]; cbn in *; [constructor|].
  inversion N as [|? ? N1 N2]; subst. constructor.
  - intros I. apply N1, in_or_app. right. apply in_map_iff in I as ([k' l'] & <- & I). apply in_flat_map. exists (k', l'). split; [auto|now left].
  - apply IH. clear - N2. induction l; cbn in *; auto. apply IHl. now inversion N2.
Qed.
Lemma seq_gives l t : gives_table (VList l) t <-> holds (map (fun x => (x, VList [])) l) t.
Proof.
  unfold holds. rewrite Forall2_map_l. split.
  - intros [([H|[H|H]] & F)|(kvs & H & _)]; try discriminate. injection H as ->.
    induction F as [|[k e] t F1 F IH]; cbn in *; [constructor|]. subst. constructor; auto.
  - intros F. left. split.
    + right. left. f_equal. induction F as [|x e l t [H1 H2] F IH]; cbn in *; congruence.
    + induction F as [|x e l t [H1 H2] F IH]; constructor; auto. cbn in H2. destruct e as [k [|y e]]; [reflexivity|discriminate].
Qed.
Theorem store_iff cs v s : (exists d, fst (store cs v (cs_dicts s)) = Ok d) <-> exists t, given s v t /\ no_collisions cs t.
Proof.
  destruct v as [l|d|]; cbn [given].
  - unfold store. split.
    + intros (d & H). destruct (py_set l) as [q|]; [|discriminate]. destruct (Nat.eqb _ _); [|discriminate].
      cbv zeta in H. rewrite nth_last in H. cbn [fst] in H. destruct (check _ _) eqn:K; [|discriminate].
      apply check_iff in K as (t & K & N). exists t. split; auto. apply seq_gives.
      revert K. unfold rewrite. rewrite map_map. cbn. auto.
    + intros (t & G & N). apply seq_gives in G.
      assert (l = map VStr (map fst t)) as El.
      { unfold holds in G. rewrite Forall2_map_l in G. clear N. induction G as [|x e l t [H1 H2] F IH]; cbn in *; congruence. }
      assert (exists q, py_set l = Ok q) as (q & Q).
      { unfold py_set. replace (forallb hashable l) with true; eauto. symmetry. apply forallb_forall. intros x I. rewrite El in I.
        apply in_map_iff in I as (y & <- & _). reflexivity. }
      rewrite Q. destruct (Nat.eqb_spec (length l) (length q)) as [e|n].
      * cbv zeta. rewrite nth_last. cbn [fst]. replace (check _ _) with true; eauto. symmetry. apply check_iff. exists t. split; auto.
        rewrite (holds_rewrite _ _ G). exact G.
      * destruct n. apply (py_set_strings _ _ _ Q El). eapply keys_nodup; eauto.
  - split.
    + intros (d' & H). destruct (nth_error (cs_dicts s) d) as [c|] eqn:E.
      * rewrite (stored_dict _ _ _ _ E) in H. cbn [fst] in H. destruct (check _ _) eqn:K; [|discriminate].
        apply check_iff in K as (t & K & N). exists t. split; auto. exists c. split; auto. now apply holds_gives.
      * unfold store in H. rewrite E in H. discriminate.
    + intros (t & (c & E & G) & N). rewrite (stored_dict _ _ _ _ E). cbn [fst]. replace (check _ _) with true; eauto.
      symmetry. apply check_iff. exists t. split; auto. now apply holds_gives.
  - split; [intros (d & H); discriminate|intros (t & [] & _)].
Qed.
(** the choices stored *)
Theorem new_sound s cs v t : given s v t -> no_collisions cs t ->
  exists d, sound (act s (ANew cs v)) (length (cs_props s)) cs d t /\ forall d', v = CvDict d' -> d = d'.
Proof.
  intros G N. destruct (proj2 (store_iff cs v s) (ex_intro _ t (conj G N))) as (d & H). exists d. cbn [act].
  destruct (store cs v (cs_dicts s)) as [r h] eqn:S. cbn [fst] in H. subst r.
  destruct (store_dicts _ _ _ _ _ S) as (_ & _ & K). specialize (K d eq_refl) as (W & c & t' & C1 & C2 & _).
  split.
  - split; [apply nth_last|]. split; auto. exists c. split; [exact C1|]. replace t with t'; auto.
    destruct W as [->|(-> & l & ->)]; cbn [given] in G.
    + destruct G as (c0 & E & G). rewrite (stored_dict _ _ _ _ E) in S. injection S as _ <-.
      rewrite put_same in C1 by eauto using nth_lt. injection C1 as <-. apply holds_gives in G.
      apply check_entries, all_some_map in G. apply check_entries, all_some_map in C2. congruence.
    + apply seq_gives in G. pose proof (holds_rewrite _ _ G) as R. unfold store in S. destruct (py_set l) as [q|]; [|discriminate].
      destruct (Nat.eqb _ _); [|discriminate]. cbv zeta in S. rewrite nth_last in S. injection S as _ <-.
      rewrite put_same in C1 by (rewrite app_length; cbn; lia). injection C1 as <-. rewrite R in C2.
      apply check_entries, all_some_map in G. apply check_entries, all_some_map in C2. congruence.
  - intros d' ->. destruct W as [[= ->]|(_ & l & W)]; [auto|discriminate].
Qed.
Lemma act_sound s p cs d t a : sound s p cs d t -> leaves_alone d p a -> sound (act s a) p cs d t.
Proof.
  intros (P & N & c & C & H) L.
  assert (ST : forall cs' v r h, store cs' v (cs_dicts s) = (r, h) -> nth_error h d = Some c).
  { intros cs' v r h S. destruct (store_dicts _ _ _ _ _ S) as (_ & K & _). destruct (K d c C) as (c' & C' & [[_ E]|[_ E]]); subst c'; auto.
    now rewrite (holds_rewrite _ _ H) in C'. }
  destruct a as [c1|d1 k v|d1 k|cs1 v|p1 v|p1 b]; cbn [act leaves_alone] in *.
  - split; [exact P|]. split; auto. exists c. split; auto. now apply nth_app.
  - destruct (nth_error (cs_dicts s) d1) as [c1|]; [|split; eauto]. split; [exact P|]. split; auto. exists c. split; auto.
    cbn [cs_dicts]. rewrite put_other; auto.
  - destruct (nth_error (cs_dicts s) d1) as [c1|]; [|split; eauto]. split; [exact P|]. split; auto. exists c. split; auto.
    cbn [cs_dicts]. rewrite put_other; auto.
  - destruct (store cs1 v (cs_dicts s)) as [[d1|e] h] eqn:S; (split; [cbn [cs_props]; auto using nth_app|]); (split; auto); exists c; eauto.
  - destruct (nth_error (cs_props s) p1) as [q|]; [|split; eauto].
    destruct (store (cp_case q) v (cs_dicts s)) as [[d1|e] h] eqn:S; (split; [cbn [cs_props]; rewrite ?put_other; auto|]); (split; auto); exists c; eauto.
  - destruct (nth_error (cs_props s) p1) as [q|]; [|split; eauto]. split; [cbn [cs_props]; rewrite put_other; auto|]. split; eauto.
Qed.
Theorem kept l s p cs d t : sound s p cs d t -> Forall (leaves_alone d p) l -> sound (acts l s) p cs d t.
Proof.
  unfold acts. intros H F. revert s H. induction F as [|a l A F IH]; intros s H; cbn; auto. apply IH. now apply act_sound.
Qed.

(** validation *)
Lemma each_upper l : each_ok upper_of (map VStr l) = Ok (map VStr (map str_upper l)).
Proof. induction l as [|x l IH]; cbn; auto. rewrite IH. reflexivity. Qed.
Lemma mem_strings x l : mem_val (VStr x) (map VStr l) = true <-> In x l.
Proof.
  unfold mem_val. rewrite existsb_exists. split.
  - intros (y & I & E). apply in_map_iff in I as (z & <- & I). cbn in E. apply String.eqb_eq in E. now subst.
  - intros I. exists (VStr x). split; [now apply in_map|]. cbn. apply String.eqb_refl.
Qed.
Lemma entry_iff cs x k l : exists b, entry_matches cs x (VStr k, VList (map VStr l)) = Ok b /\ (b = true <-> names_entry cs x (k, l)).
Proof.
  unfold entry_matches, names_entry. cbn [fst snd In]. destruct cs.
  - cbn [py_eq]. destruct (String.eqb_spec x k) as [->|n].
    + exists true. split; auto. split; auto. intros _. exists k. auto.
    + cbn [items_of rbind]. eexists. split; [reflexivity|]. rewrite mem_strings. split; [eauto|].
      intros (a & [<-|I] & ->); auto. contradiction.
  - cbn [upper_of items_of rbind]. rewrite each_upper. cbn [rbind py_eq]. eexists. split; [reflexivity|].
    rewrite orb_true_iff, mem_strings, String.eqb_eq, in_map_iff. split.
    + intros [E|(a & E & I)]; [exists k|exists a]; auto.
    + intros (a & [<-|I] & E); [left|right]; eauto.
Qed.
Lemma search_spec cs x c t : holds c t ->
  exists r, search cs x c = Ok r /\
  ((exists pre e post, t = pre ++ e :: post /\ r = Some (VStr (fst e)) /\ names_entry cs x e /\ forall e', In e' pre -> ~ names_entry cs x e') \/
   (r = None /\ forall e, In e t -> ~ names_entry cs x e)).
Proof.
  induction 1 as [|[k y] [k' l] c t [H1 H2] F IH]; cbn [search].
  - exists None. split; auto.
  - cbn [fst snd] in H1, H2. subst. destruct (entry_iff cs x k' l) as (b & -> & B). cbn [rbind]. destruct b.
    + eexists. split; [reflexivity|]. left. exists [], (k', l), t. split; [reflexivity|]. split; [reflexivity|]. split; [apply B; auto|intros e' []].
    + destruct IH as (r & -> & IH). exists r. split; auto.
      assert (~ names_entry cs x (k', l)) by (intros Q; apply B in Q; discriminate).
      destruct IH as [(pre & e & post & -> & R & M & P)|[R M]].
      * left. exists ((k', l) :: pre), e, post. repeat split; auto. intros e' [<-|I]; auto.
      * right. split; auto. intros e [<-|I]; auto.
Qed.
Theorem validate_sound s p cs d t x : sound s p cs d t ->
  (exists r, validate s p (VStr x) = Ok r) /\
  (forall v, validate s p (VStr x) = Ok (Some v) <-> exists e, In e t /\ names_entry cs x e /\ v = VStr (fst e)).
Proof.
  intros (P & N & c & C & H). unfold validate. rewrite P. cbn [cp_case cp_dict]. rewrite C.
  destruct (search_spec cs x c t H) as (r & S & D). rewrite S. split; [eauto|]. intros v.
  destruct D as [(pre & e & post & -> & -> & M & _)|[-> M]].
  - split.
    + intros [= <-]. exists e. split; auto. apply in_or_app. right. now left.
    + intros (e' & I & M' & ->). do 3 f_equal. f_equal.
      apply (names_unique cs (pre ++ e :: post) x); auto. apply in_or_app. right. now left.
  - split; [discriminate|]. intros (e & I & M' & _). destruct (M e I M').
Qed.

Theorem made_iff s cs v : length (cs_props (act s (ANew cs v))) = S (length (cs_props s)) <-> exists t, given s v t /\ no_collisions cs t.
Proof.
  rewrite <- store_iff. cbn [act]. destruct (store cs v (cs_dicts s)) as [[d|e] h]; cbn [fst cs_props].
  - rewrite app_length. cbn. split; [eauto|lia].
  - split; [lia|]. intros (d & H). discriminate.
Qed.
Theorem set_sound s p q v t : nth_error (cs_props s) p = Some q -> given s v t -> no_collisions (cp_case q) t ->
  exists d, sound (act s (ASetChoices p v)) p (cp_case q) d t /\ forall d', v = CvDict d' -> d = d'.
Proof.
  intros P G N. destruct (new_sound s (cp_case q) v t G N) as (d & S & W). exists d. split; auto.
  cbn [act] in *. rewrite P. destruct (proj2 (store_iff (cp_case q) v s) (ex_intro _ t (conj G N))) as (d' & H).
  destruct (store (cp_case q) v (cs_dicts s)) as [r h]. cbn [fst] in H. subst r. destruct S as (S1 & S2 & S3).
  cbn [cs_props cs_dicts] in *. rewrite nth_last in S1. injection S1 as <-.
  split; [apply put_same; eauto using nth_lt|]. split; auto.
Qed.
Theorem set_refused s p q v : nth_error (cs_props s) p = Some q -> (forall t, given s v t -> ~ no_collisions (cp_case q) t) ->
  cs_props (act s (ASetChoices p v)) = cs_props s.
Proof.
  intros P G. cbn [act]. rewrite P. destruct (store (cp_case q) v (cs_dicts s)) as [[d|e] h] eqn:S; auto.
  destruct (proj1 (store_iff (cp_case q) v s)) as (t & G1 & G2); [rewrite S; cbn; eauto|]. destruct (G t G1 G2).
Qed.
(** the dictionaries after an assignment, accepted or not *)
Theorem assignment_rewrites s a v : (exists cs, a = ANew cs v) \/ (exists p, a = ASetChoices p v /\ p < length (cs_props s)) ->
  forall d c, nth_error (cs_dicts s) d = Some c ->
  exists c', nth_error (cs_dicts (act s a)) d = Some c' /\ (v = CvDict d -> rewritten c c') /\ (v <> CvDict d -> c' = c).
Proof.
  intros H d c E.
  assert (K : forall cs, exists c', nth_error (snd (store cs v (cs_dicts s))) d = Some c' /\ (v = CvDict d -> rewritten c c') /\ (v <> CvDict d -> c' = c)).
  { intros cs. destruct (store cs v (cs_dicts s)) as [r h] eqn:S. destruct (store_dicts _ _ _ _ _ S) as (_ & K & _).
    destruct (K d c E) as (c' & C & D). exists c'. split; auto. destruct D as [[-> ->]|[D ->]].
    - split; [intros _; apply rewrite_rewritten|congruence].
    - split; [congruence|auto]. }
  destruct H as [(cs & ->)|(p & -> & L)]; cbn [act].
  - specialize (K cs). destruct (store cs v (cs_dicts s)) as [[x|x] h]; exact K.
  - destruct (nth_error (cs_props s) p) as [q|] eqn:P; [|apply nth_error_None in P; lia].
    specialize (K (cp_case q)). destruct (store (cp_case q) v (cs_dicts s)) as [[x|x] h]; exact K.
Qed.
