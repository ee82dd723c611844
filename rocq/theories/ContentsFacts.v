(** Lemmas behind the theorems on the contents of arrays. *)
From Verif Require Import Contents ContentsSpec BasicSpec FloatProofs TextSpec TextFacts.
From Coq Require Import Lia.
Local Open Scope string_scope.
Local Open Scope list_scope.
Local Open Scope nat_scope.

(** * Doubles *)
Lemma shr_nonneg r e n : (0 <= shr_m r -> 0 <= shr_m (fst (shr r e n)))%Z.
Proof.
  intros H. unfold shr. destruct n as [|p|p]; cbn [fst]; auto.
  rewrite iter_shr_m by auto. apply Z.div_pos; auto. apply Z.pow_pos_nonneg; lia.
Qed.
Lemma loc_record_m m l : shr_m (shr_record_of_loc m l) = m.
Proof. destruct l as [|[]]; reflexivity. Qed.
Lemma round_aux_sign s m e l : (0 <= m)%Z ->
  match binary_round_aux prec emax s m e l with
  | S754_nan => False
  | S754_zero t | S754_infinity t | S754_finite t _ _ => t = s
  end.
Proof.
  intros M. unfold binary_round_aux, shr_fexp.
  pose proof (shr_nonneg (shr_record_of_loc m l) e (fexp prec emax (Zdigits2 m + e) - e)%Z) as A.
  rewrite loc_record_m in A. specialize (A M).
  destruct (shr (shr_record_of_loc m l) e (fexp prec emax (Zdigits2 m + e) - e)%Z) as [r1 e1]. cbn [fst] in A.
  pose proof (round_bounds (shr_m r1) (loc_of_shr_record r1) A) as B.
  set (m2 := round_nearest_even (shr_m r1) (loc_of_shr_record r1)) in *.
  pose proof (shr_nonneg (shr_record_of_loc m2 loc_Exact) e1 (fexp prec emax (Zdigits2 m2 + e1) - e1)%Z) as C.
  rewrite loc_record_m in C. specialize (C ltac:(lia)).
  destruct (shr (shr_record_of_loc m2 loc_Exact) e1 (fexp prec emax (Zdigits2 m2 + e1) - e1)%Z) as [r2 e2]. cbn [fst] in C.
  destruct (shr_m r2); [reflexivity| |lia]. destruct (Zle_bool e2 (emax - prec)); auto.
Qed.
Lemma normalize_pos p e : 
  match binary_normalize prec emax (Zpos p) e false with
  | S754_nan => False
  | S754_zero t | S754_infinity t | S754_finite t _ _ => t = false
  end.
Proof. cbn [binary_normalize]. unfold binary_round. destruct (shl_align _ _ _) as [mz ez]. apply round_aux_sign. lia. Qed.
Definition nonneg (f : float) : Prop :=
  match f with
  | S754_nan => False
  | S754_zero t | S754_infinity t | S754_finite t _ _ => t = false
  end.
Lemma mul_nonneg m e y : is_fin y = true -> nonneg (SFmul prec emax (S754_finite false m e) (fabs y)).
Proof.
  intros F. destruct y as [s|s| |s m' e']; try discriminate; cbn [fabs SFabs SFmul xorb]; [reflexivity|].
  apply (round_aux_sign false). lia.
Qed.
Lemma add_nonneg m e y : nonneg y -> nonneg (SFadd prec emax (S754_finite false m e) y).
Proof.
  destruct y as [s|s| |s m' e']; cbn [nonneg]; intros H; try contradiction; subst; cbn [SFadd nonneg]; auto.
  cbn [cond_Zopp]. apply normalize_pos.
Qed.
Lemma nonneg_le y : nonneg y -> fle (S754_zero false) y = true.
Proof. destruct y as [s|s| |s m e]; cbn [nonneg]; intros H; try contradiction; subst; reflexivity. Qed.
Lemma bound_nonneg y : is_fin y = true ->
  fle (S754_zero false) (SFadd prec emax TOL (SFmul prec emax RTOL (fabs y))) = true.
Proof. intros F. apply nonneg_le, add_nonneg, mul_nonneg. auto. Qed.
Lemma close_refl x : is_nan x = false -> is_close x x = true.
Proof.
  intros N. unfold is_close. destruct (is_fin x) eqn:F; cbn [andb].
  - destruct (fsub_self x F) as [s ->]. cbn [fabs SFabs]. apply bound_nonneg. auto.
  - unfold is_fin in F. rewrite N in F. destruct x as [s|s| |s m e]; try discriminate. destruct s; reflexivity.
Qed.
Lemma close_alike x y : is_nan x = false -> is_nan y = false -> (is_close x y = true <-> alike x y).
Proof.
  intros X Y. unfold is_close. split.
  - destruct (is_fin x && is_fin y) eqn:F.
    + apply andb_prop in F as [F G]. intros H. apply al_fin; auto.
    + intros H. destruct x as [s|s| |s m e], y as [t|t| |t m' e']; try discriminate; cbn in H; try (destruct s; discriminate); try (destruct t; discriminate).
      destruct s, t; try discriminate; constructor.
  - intros H. inversion H as [|s|x' y' F G L]; subst; try discriminate.
    + destruct s; reflexivity.
    + rewrite F, G. exact L.
Qed.
Lemma alike_nan x y : is_nan x = true \/ is_nan y = true -> (alike x y <-> is_nan x = true /\ is_nan y = true).
Proof.
  intros H. split.
  - intros A. inversion A as [|s|x' y' F G L]; subst; auto; [cbn in H; destruct H; discriminate|].
    clear L A. unfold is_fin in F, G. destruct H as [H|H]; rewrite H in *; discriminate.
  - intros [A B]. destruct x, y; try discriminate. constructor.
Qed.

(** int64 values are doubles *)
Lemma digits_bound m d : (0 <= m <= 2 ^ d)%Z -> (0 <= d)%Z -> (Zdigits2 m <= d + 1)%Z.
Proof.
  intros M D. destruct m as [|p|p]; cbn [Zdigits2]; try lia.
  pose proof (digits2_bounds p) as [A _]. destruct (Z.le_gt_cases (Z.pos (digits2_pos p)) (d + 1)) as [|G]; auto.
  assert (2 ^ (d + 1) <= 2 ^ (Z.pos (digits2_pos p) - 1))%Z by (apply Z.pow_le_mono_r; lia).
  rewrite Z.pow_add_r in H by lia. lia.
Qed.
Lemma shr_snd r e n : (0 <= shr_m r)%Z -> (snd (shr r e n) = e + Z.max 0 n)%Z /\ (0 <= shr_m (fst (shr r e n)) <= shr_m r)%Z.
Proof.
  intros H. destruct n as [|p|p]; unfold shr; cbn [fst snd]; [split; lia| |split; lia].
  split; [lia|]. rewrite iter_shr_m by auto. assert (0 < 2 ^ Z.pos p)%Z by (apply Z.pow_pos_nonneg; lia).
  split; [apply Z.div_pos; auto|]. apply Z.div_le_upper_bound; auto. nia.
Qed.
Lemma round_aux_small s m e d : (0 <= m < 2 ^ d)%Z -> (0 <= d <= 100)%Z -> (e <= 100)%Z ->
  binary_round_aux prec emax s m e loc_Exact <> S754_infinity s.
Proof.
  intros M D Ee. unfold binary_round_aux, shr_fexp.
  destruct (shr_snd (shr_record_of_loc m loc_Exact) e (fexp prec emax (Zdigits2 m + e) - e)%Z) as [A B]; [cbn; lia|].
  pose proof (digits_bound m d ltac:(lia) ltac:(lia)) as DM.
  destruct (shr (shr_record_of_loc m loc_Exact) e (fexp prec emax (Zdigits2 m + e) - e)%Z) as [r1 e1]. cbn [fst snd] in A, B.
  cbn [shr_record_of_loc shr_m] in B. rewrite fexp_eq in A. unfold fexp64 in A.
  pose proof (round_bounds (shr_m r1) (loc_of_shr_record r1) ltac:(lia)) as C.
  set (m2 := round_nearest_even (shr_m r1) (loc_of_shr_record r1)) in *.
  destruct (shr_snd (shr_record_of_loc m2 loc_Exact) e1 (fexp prec emax (Zdigits2 m2 + e1) - e1)%Z) as [A2 B2]; [cbn; lia|].
  pose proof (digits_bound m2 d ltac:(lia) ltac:(lia)) as DM2.
  destruct (shr (shr_record_of_loc m2 loc_Exact) e1 (fexp prec emax (Zdigits2 m2 + e1) - e1)%Z) as [r2 e2]. cbn [fst snd] in A2, B2.
  rewrite fexp_eq in A2. unfold fexp64 in A2.
  destruct (shr_m r2) as [|q|q]; try discriminate. 
  assert (e2 <= emax - prec)%Z as L by (unfold emax, prec; lia). apply Zle_is_le_bool in L. rewrite L. discriminate.
Qed.
Lemma fofZ_int64 z : (- 2 ^ 63 <= z < 2 ^ 63)%Z -> exists f, fofZ z = Some f.
Proof.
  intros H. unfold fofZ.
  assert (forall s p, (Zpos p <= 2 ^ 63)%Z -> binary_round prec emax s p 0 <> S754_infinity s) as A.
  { intros s p P. unfold binary_round. rewrite fexp_eq. unfold shl_align.
    pose proof (digits_bound (Zpos p) 63 ltac:(lia) ltac:(lia)) as DB. cbn [Zdigits2] in DB.
    pose proof (digits2_bounds p) as [_ PB].
    destruct (fexp64 (Z.pos (digits2_pos p) + 0) - 0)%Z as [|k|k] eqn:K.
    - apply (round_aux_small s (Zpos p) 0 64); [split; [lia|]|lia|lia].
      eapply Z.le_lt_trans; [exact P|]. apply Z.pow_lt_mono_r; lia.
    - apply (round_aux_small s (Zpos p) 0 64); [split; [lia|]|lia|lia].
      eapply Z.le_lt_trans; [exact P|]. apply Z.pow_lt_mono_r; lia.
    - unfold fexp64 in K.
      apply (round_aux_small s _ _ 64); [|lia|unfold fexp64; lia]. split; [lia|].
      rewrite shift_pos_correct. change (Z.pow_pos 2 k) with (2 ^ Z.pos k)%Z.
      assert (Z.pos k <= 53 - Z.pos (digits2_pos p))%Z by lia.
      assert (2 ^ Z.pos k * 2 ^ Z.pos (digits2_pos p) <= 2 ^ 53)%Z.
      { rewrite <- Z.pow_add_r by lia. apply Z.pow_le_mono_r; lia. }
      assert (0 < 2 ^ Z.pos k)%Z by (apply Z.pow_pos_nonneg; lia).
      assert (2 ^ 53 < 2 ^ 64)%Z by (apply Z.pow_lt_mono_r; lia). nia. }
  destruct z as [|p|p]; [eexists; reflexivity| |]; cbn [binary_normalize].
  - specialize (A false p ltac:(lia)). unfold binary_round in *. destruct (shl_align _ _ _) as [mz ez].
    pose proof (round_aux_sign false (Zpos mz) ez loc_Exact ltac:(lia)) as S.
    destruct (binary_round_aux prec emax false (Zpos mz) ez loc_Exact) as [s|s| |s m e]; try contradiction; subst; eauto. congruence.
  - specialize (A true p ltac:(lia)). unfold binary_round in *. destruct (shl_align _ _ _) as [mz ez].
    pose proof (round_aux_sign true (Zpos mz) ez loc_Exact ltac:(lia)) as S.
    destruct (binary_round_aux prec emax true (Zpos mz) ez loc_Exact) as [s|s| |s m e]; try contradiction; subst; eauto. congruence.
Qed.

(** * Equality *)
Lemma nats_eqb_iff a b : nats_eqb a b = true <-> a = b.
Proof.
  revert b. induction a as [|x a IH]; intros [|y b]; cbn; try (split; [discriminate|congruence]); [split; auto|].
  rewrite andb_true_iff, Nat.eqb_eq, IH. split; [intros [-> ->]; auto|intros H; injection H as -> ->; auto].
Qed.
Lemma bools_eqb_iff a b : bools_eqb a b = true <-> a = b.
Proof.
  revert b. induction a as [|x a IH]; intros [|y b]; cbn; try (split; [discriminate|congruence]); [split; auto|].
  rewrite andb_true_iff, eqb_true_iff, IH. split; [intros [-> ->]; auto|intros H; injection H as -> ->; auto].
Qed.
Lemma akind_eqb_iff a b : akind_eqb a b = true <-> a = b.
Proof. destruct a, b; cbn; split; congruence. Qed.
Lemma elt_float_some t e : elt_in t e -> t <> TStr -> exists f, elt_float e = Some f.
Proof.
  intros H T. destruct H as [b|z Z|f V|s]; cbn; eauto; [destruct b; eexists; reflexivity|apply fofZ_int64; auto|congruence].
Qed.
Lemma floats_some t l : Forall (elt_in t) l -> t <> TStr ->
  exists x, all_some (map elt_float l) = Some x /\ length x = length l /\
    forall i f, nth_error x i = Some f <-> exists e, nth_error l i = Some e /\ elt_float e = Some f.
Proof.
  intros H T. induction H as [|e l He Hl (x & A & L & N)].
  - exists []. split; [reflexivity|]. split; [reflexivity|]. intros i f. destruct i; cbn; split; try discriminate; intros (e & Q & _); discriminate.
  - destruct (elt_float_some _ _ He T) as (f & F). exists (f :: x). cbn. rewrite F, A. split; auto. split; [lia|].
    intros [|i] g; cbn.
    + split; [intros Q; injection Q as <-; eauto|intros (e' & Q & G); congruence].
    + apply N.
Qed.
Lemma masks_iff x y : length x = length y ->
  (bools_eqb (map (fun f => negb (is_nan f)) x) (map (fun f => negb (is_nan f)) y) = true /\
   forallb (fun p => is_close (fst p) (snd p))
     (combine (select (map (fun f => negb (is_nan f)) x) x) (select (map (fun f => negb (is_nan f)) x) y)) = true)
  <-> Forall2 alike x y.
Proof.
  revert y. induction x as [|f x IH]; intros [|g y] L; try discriminate; cbn [map bools_eqb select combine forallb].
  - split; auto.
  - injection L as L. specialize (IH y L). destruct (is_nan f) eqn:F; cbn [negb].
    + rewrite andb_true_iff, eqb_true_iff, and_assoc, IH. split.
      * intros [G R]. constructor; auto. apply alike_nan; auto. split; auto. destruct (is_nan g); auto.
      * intros R. inversion R as [|? ? ? ? A B]; subst. split; auto. apply alike_nan in A; auto. destruct A as [_ ->]. auto.
    + rewrite andb_true_iff, eqb_true_iff. cbn [combine forallb fst snd]. rewrite andb_true_iff. split.
      * intros [[G R] [C S]]. constructor; [|apply IH; auto]. apply close_alike; auto. destruct (is_nan g); auto.
      * intros R. inversion R as [|? ? ? ? A B]; subst. apply IH in B. destruct B as [B1 B2].
        assert (is_nan g = false) as G. { destruct (is_nan g) eqn:G; auto. apply alike_nan in A; auto. destruct A; congruence. }
        rewrite G. split; [split; auto|]. split; auto. apply close_alike; auto.
Qed.
Lemma forall2_nth {A B} (R : A -> B -> Prop) x y : length x = length y ->
  (Forall2 R x y <-> forall i a b, nth_error x i = Some a -> nth_error y i = Some b -> R a b).
Proof.
  revert y. induction x as [|a x IH]; intros [|b y] L; try discriminate.
  - split; auto. intros _ i ? ? H. destruct i; discriminate.
  - injection L as L. split.
    + intros H. inversion H; subst. intros [|i] a' b' P Q; cbn in *; [congruence|]. eapply IH; eauto.
    + intros H. constructor; [apply (H 0); auto|]. apply IH; auto. intros i. apply (H (S i)).
Qed.
Theorem equal_iff a b : wf a -> wf b -> n_type a <> TStr -> n_type b <> TStr ->
  (array_equal a b = true <->
   n_class a = n_class b /\ n_shape a = n_shape b /\
   forall i x y, float_at a i x -> float_at b i y -> alike x y).
Proof.
  intros [LA FA] [LB FB] TA TB. unfold array_equal.
  destruct (floats_some _ _ FA TA) as (x & -> & LX & NX). destruct (floats_some _ _ FB TB) as (y & -> & LY & NY).
  destruct (akind_eqb (n_class a) (n_class b)) eqn:C; cbn [negb].
  2:{ split; [discriminate|]. intros (Q & _). apply akind_eqb_iff in Q. congruence. }
  apply akind_eqb_iff in C.
  destruct (nats_eqb (n_shape a) (n_shape b)) eqn:S; cbn [andb negb].
  2:{ split; [discriminate|]. intros (_ & Q & _). apply nats_eqb_iff in Q. congruence. }
  apply nats_eqb_iff in S.
  assert (length x = length y) as L by (rewrite LX, LY, LA, LB, S; auto).
  assert (Forall2 alike x y <-> forall i x0 y0, float_at a i x0 -> float_at b i y0 -> alike x0 y0) as R.
  { rewrite (forall2_nth alike x y L). split; intros H i p q P Q.
    - apply (H i); [apply NX|apply NY]; auto.
    - apply (H i); [apply NX in P|apply NY in Q]; auto. }
  rewrite <- R, <- (masks_iff x y L).
  match goal with |- context[bools_eqb ?m ?n] => destruct (bools_eqb m n) end; cbn [negb]; split; try discriminate; intuition.
Qed.
Lemma alike_refl x : alike x x.
Proof.
  destruct (is_nan x) eqn:N; [apply alike_nan; auto|]. apply close_alike; auto. apply close_refl. auto.
Qed.
Theorem equal_refl a : wf a -> n_type a <> TStr -> array_equal a a = true.
Proof.
  intros W T. apply equal_iff; auto. split; auto. split; auto.
  intros i x y (e & A & B) (e' & A' & B'). assert (x = y) as -> by congruence. apply alike_refl.
Qed.

(** * JSON *)
Fixpoint tree {X} (f : X -> val) (sh : list nat) (d : list X) : val :=
  match sh with
  | [] => match d with e :: _ => f e | [] => VNone end
  | n :: r => VList (map (tree f r) (rows n (size r) d))
  end.
Lemma tolist_tree sh d : tolist sh d = tree elt_val sh d.
Proof.
  revert d. induction sh as [|n r IH]; intros d; cbn; auto. f_equal. apply map_ext. auto.
Qed.
Lemma rows_length {A} n k (d : list A) : length (rows n k d) = n.
Proof. revert d. induction n; intros; cbn; auto. Qed.
Lemma rows_concat {A} n k (d : list A) : length d = n * k -> concat (rows n k d) = d.
Proof.
  revert d. induction n as [|n IH]; intros d L; cbn in *.
  - destruct d; [auto|discriminate].
  - rewrite IH; [apply firstn_skipn|]. rewrite skipn_length. lia.
Qed.
Lemma rows_each {A} n k (d : list A) : length d = n * k -> Forall (fun r => length r = k) (rows n k d).
Proof.
  revert d. induction n as [|n IH]; intros d L; cbn in *; constructor.
  - rewrite firstn_length. lia.
  - apply IH. rewrite skipn_length. lia.
Qed.
Lemma rows_in {A} (P : A -> Prop) n k (d : list A) : Forall P d -> Forall (Forall P) (rows n k d).
Proof.
  revert d. induction n as [|n IH]; intros d F; cbn; constructor.
  - rewrite <- (firstn_skipn k d) in F. apply Forall_app in F. tauto.
  - apply IH. rewrite <- (firstn_skipn k d) in F. apply Forall_app in F. tauto.
Qed.
Lemma listable_cons n r : listable (n :: r) -> r = [] \/ (n <> 0 /\ listable r).
Proof.
  intros (pre & m & Q & F). destruct pre as [|p pre]; cbn in Q; injection Q as -> ->; auto.
  right. inversion F; subst. split; auto. exists pre, m. auto.
Qed.
Lemma listable_nil : ~ listable [].
Proof. intros (pre & m & Q & _). destruct pre; discriminate. Qed.
Lemma rows_one {A B} (f : list A -> B) (g : A -> B) n (d : list A) :
  (forall x, f [x] = g x) -> length d = n -> map f (rows n 1 d) = map g d.
Proof.
  intros H. revert d. induction n as [|n IH]; intros [|x d] L; try discriminate; auto. cbn. f_equal; auto.
Qed.
Lemma tree_one {X} (f : X -> val) n d : length d = n -> tree f [n] d = VList (map f d).
Proof. intros L. cbn. f_equal. apply rows_one; auto. Qed.
Lemma tree_items {X} (f : X -> val) sh d : length d = size sh -> (forall e, In e d -> forall l, f e <> VList l) ->
  np_items (tree f sh d) = map f d.
Proof.
  revert d. induction sh as [|n r IH]; intros d L N; cbn [tree].
  - destruct d as [|e [|? ?]]; try discriminate. cbn. specialize (N e (or_introl eq_refl)). destruct (f e); auto. destruct (N l eq_refl).
  - cbn [np_items]. cbn in L. change (fold_right Nat.mul 1 r) with (size r) in L.
    assert (forall rs, Forall (fun x => length x = size r) rs -> (forall e, In e (concat rs) -> forall l, f e <> VList l) ->
              flat_map np_items (map (tree f r) rs) = map f (concat rs)) as A.
    { induction rs as [|x rs IHr]; intros F M; cbn; auto. inversion F; subst. rewrite map_app. f_equal.
      - apply IH; auto. intros e I. apply M. cbn. apply in_or_app. auto.
      - apply IHr; auto. intros e I. apply M. cbn. apply in_or_app. auto. }
    rewrite A; [rewrite rows_concat; auto|apply rows_each; auto|]. rewrite rows_concat; auto.
Qed.
Lemma tree_shape {X} (f : X -> val) sh d : length d = size sh -> sh = [] \/ listable sh -> (forall e, In e d -> forall l, f e <> VList l) ->
  np_shape (tree f sh d) = Some sh.
Proof.
  revert d. induction sh as [|n r IH]; intros d L K N; cbn [tree].
  - destruct d as [|e [|? ?]]; try discriminate. cbn. specialize (N e (or_introl eq_refl)). destruct (f e); auto. destruct (N l eq_refl).
  - destruct K as [K|K]; [discriminate|]. apply listable_cons in K.
    cbn in L. change (fold_right Nat.mul 1 r) with (size r) in L.
    assert (forall rs, Forall (fun x => length x = size r) rs -> (forall e, In e (concat rs) -> forall l, f e <> VList l) ->
              map np_shape (map (tree f r) rs) = repeat (Some r) (length rs)) as A.
    { induction rs as [|x rs IHr]; intros F M; cbn; auto. inversion F; subst. f_equal.
      - apply IH; auto; [destruct K as [->|[_ K]]; auto|]. intros e I. apply M. cbn. apply in_or_app. auto.
      - apply IHr; auto. intros e I. apply M. cbn. apply in_or_app. auto. }
    cbn [np_shape]. rewrite map_length, rows_length. rewrite A; [|apply rows_each; auto|rewrite rows_concat; auto].
    rewrite rows_length. destruct n as [|n]; cbn [repeat].
    + destruct K as [->|[K _]]; [auto|congruence].
    + assert (forallb (fun o => match o with Some t => nats_eqb r t | None => false end) (repeat (Some r) n) = true) as ->; auto.
      apply forallb_forall. intros o I. apply repeat_spec in I. subst. apply nats_eqb_iff. auto.
Qed.
Lemma all_ok_map {A B} (f : A -> res B) g l : (forall x, In x l -> f x = Ok (g x)) -> all_ok (map f l) = Ok (map g l).
Proof.
  induction l as [|x l IH]; intros H; cbn; auto. rewrite H by (cbn; auto). rewrite IH by (intros; apply H; cbn; auto). auto.
Qed.
Definition elt_json (e : elt) : val :=
  match e with
  | EF f => if is_special f then VStr (special_str f) else VFloat f
  | _ => elt_val e
  end.
Lemma number_json_elt t e : elt_in t e -> t <> TStr -> number_json (elt_val e) = Ok (elt_json e).
Proof. intros H T. destruct H; cbn; auto. congruence. Qed.
Lemma elt_val_flat e l : elt_val e <> VList l.
Proof. destruct e; discriminate. Qed.
Lemma elt_json_flat e l : elt_json e <> VList l.
Proof. destruct e; cbn; try discriminate. destruct (is_special f); discriminate. Qed.
Lemma json_tree t sh d : length d = size sh -> listable sh -> Forall (elt_in t) d -> t <> TStr ->
  recurse_list (tree elt_val sh d) = Ok (tree elt_json sh d).
Proof.
  intros L K F T. revert d L K F. induction sh as [|n r IH]; intros d L K F; [destruct (listable_nil K)|].
  apply listable_cons in K. destruct K as [->|[K K']].
  - assert (length d = n) as Ln by (cbn in L; lia). rewrite !tree_one by auto. cbn [recurse_list].
    assert (match map elt_val d with VList _ :: _ => map recurse_list (map elt_val d) | _ => map number_json (map elt_val d) end
            = map number_json (map elt_val d)) as ->.
    { destruct d as [|e d]; auto. cbn [map]. pose proof (elt_val_flat e) as N. destruct (elt_val e); auto. destruct (N l eq_refl). }
    rewrite map_map, (all_ok_map _ elt_json); auto. intros e I. rewrite Forall_forall in F. eapply number_json_elt; eauto.
  - cbn in L. change (fold_right Nat.mul 1 r) with (size r) in L.
    cbn [tree recurse_list].
    assert (match map (tree elt_val r) (rows n (size r) d) with
            | VList _ :: _ => map recurse_list (map (tree elt_val r) (rows n (size r) d))
            | _ => map number_json (map (tree elt_val r) (rows n (size r) d)) end
            = map recurse_list (map (tree elt_val r) (rows n (size r) d))) as ->.
    { destruct n; [congruence|]. cbn [rows map]. destruct r; [destruct (listable_nil K')|]. cbn [tree]. auto. }
    rewrite map_map, (all_ok_map _ (tree elt_json r)); auto.
    intros x I. pose proof (rows_each n (size r) d L) as E. pose proof (rows_in _ n (size r) d F) as G.
    rewrite Forall_forall in E, G. apply IH; auto. 
Qed.
Lemma tree_json {X} (f : X -> val) sh d : length d = size sh -> (forall e, In e d -> plain_json (f e)) -> plain_json (tree f sh d).
Proof.
  revert d. induction sh as [|n r IH]; intros d L P; cbn [tree].
  - destruct d as [|e [|? ?]]; try discriminate. apply P. cbn. auto.
  - cbn in L. change (fold_right Nat.mul 1 r) with (size r) in L. constructor. apply Forall_forall. intros v I. apply in_map_iff in I as (x & <- & I).
    pose proof (rows_each n (size r) d L) as E. pose proof (rows_in (fun e => plain_json (f e)) n (size r) d) as G.
    rewrite Forall_forall in E. specialize (G ltac:(apply Forall_forall; auto)). rewrite Forall_forall in G. specialize (G x I).
    rewrite Forall_forall in G. apply IH; auto.
Qed.
Lemma elt_json_plain t e : elt_in t e -> plain_json (elt_json e).
Proof.
  intros H. destruct H; cbn; try constructor. destruct (is_special f) eqn:S; constructor. unfold is_fin. unfold is_special in S. rewrite S. auto.
Qed.
Theorem to_json_ok a : wf a -> n_type a <> TStr -> listable (n_shape a) -> exists j, array_to_json a = Ok j /\ plain_json j.
Proof.
  intros [L F] T K. unfold array_to_json. rewrite tolist_tree. rewrite (json_tree (n_type a)); auto.
  eexists. split; [reflexivity|]. apply tree_json; auto. intros e I. rewrite Forall_forall in F. eapply elt_json_plain; eauto.
Qed.

Section Read.
  Variable E : env.
  Variable fstr : float -> string.
  Variable istr : Z -> string.
  Variable fint : float -> Z.
  Variable sbool : string -> res bool.

  Lemma types_same t l : (forall v, In v l -> val_type v = Some t) -> np_type l = Some (match l with [] => TFloat | _ => t end).
  Proof.
    intros H. unfold np_type. assert (all_some (map val_type l) = Some (map (fun _ => t) l)) as ->.
    { induction l as [|v l IH]; cbn; auto. rewrite (H v) by (cbn; auto). rewrite IH by (intros; apply H; cbn; auto). auto. }
    destruct l as [|v l]; [reflexivity|]. cbn [map]. f_equal. clear H. induction l as [|u l IH]; cbn [map fold_left]; auto. rewrite Nat.ltb_irrefl. auto.
  Qed.
  Lemma fold_str (l : list adt) : (forall t, In t l -> t = TFloat \/ t = TStr) -> forall a, a = TFloat \/ a = TStr ->
    (a = TStr \/ In TStr l) -> fold_left (fun a b => if type_rank a <? type_rank b then b else a) l a = TStr.
  Proof.
    induction l as [|t l IH]; cbn; intros H a A I; [destruct I as [I|[]]; auto|].
    apply IH; auto.
    - destruct A as [->| ->], (H t (or_introl eq_refl)) as [->| ->]; cbn; auto.
    - destruct A as [->| ->], (H t (or_introl eq_refl)) as [->| ->]; cbn; auto. destruct I as [I|[I|I]]; auto; discriminate.
  Qed.
  Lemma types_mixed d : Forall (elt_in TFloat) d -> (exists f, In (EF f) d /\ is_special f = true) ->
    np_type (map elt_json d) = Some TStr.
  Proof.
    intros F (f & I & S). unfold np_type.
    assert (all_some (map val_type (map elt_json d)) = Some (map (fun e => match e with EF f => if is_special f then TStr else TFloat | _ => TStr end) d)) as ->.
    { clear I. induction F as [|e l He Hl IH]; cbn; auto. rewrite IH. inversion He; subst. cbn. destruct (is_special f0); auto. }
    set (g := fun e => match e with EF f => if is_special f then TStr else TFloat | _ => TStr end).
    assert (forall t, In t (map g d) -> t = TFloat \/ t = TStr) as G.
    { intros t J. apply in_map_iff in J as (e & <- & J). rewrite Forall_forall in F. apply F in J. inversion J; subst. cbn. destruct (is_special f0); auto. }
    assert (In TStr (map g d)) as J. { apply in_map_iff. exists (EF f). split; auto. cbn. rewrite S. auto. }
    destruct (map g d) as [|t l]; [destruct J|]. f_equal. apply fold_str; [intros; apply G; cbn; auto|apply G; cbn; auto|].
    destruct J; auto.
  Qed.
  (** Reading a tree of items *)
  Lemma read_tree t sh d k : length d = size sh -> listable sh ->
    np_type (map elt_json d) = Some t ->
    (forall e, In e d -> np_item fstr istr t (elt_json e) = Ok (k e)) ->
    np_array fstr istr (tree elt_json sh d) = Ok (NDA KArray t sh (map k d)).
  Proof.
    intros L K T I. unfold np_array. rewrite tree_shape; auto using elt_json_flat. rewrite tree_items; auto using elt_json_flat.
    rewrite T, map_map, (all_ok_map _ k); auto.
  Qed.
  Lemma astype_map t a k : (forall e, In e (n_data a) -> cast E fstr istr fint sbool t e = Ok (k e)) ->
    astype E fstr istr fint sbool t a = Ok (NDA (n_class a) t (n_shape a) (map k (n_data a))).
  Proof. intros H. unfold astype. rewrite (all_ok_map _ k); auto. Qed.
  (** Items of an array read from its JSON, before the cast *)
  Lemma read_exact a : wf a -> n_type a <> TStr -> listable (n_shape a) ->
    (n_type a = TFloat -> forall f, In (EF f) (n_data a) -> is_special f = false) ->
    np_array fstr istr (tree elt_json (n_shape a) (n_data a)) =
      Ok (NDA KArray (match n_data a with [] => TFloat | _ => n_type a end) (n_shape a) (n_data a)).
  Proof.
    intros [L F] T K S. rewrite <- (map_id (n_data a)) at 3. rewrite Forall_forall in F.
    assert (np_type (map elt_json (n_data a)) = Some (match n_data a with [] => TFloat | _ => n_type a end)) as Q.
    { rewrite (types_same (n_type a)); [destruct (n_data a); auto|]. intros v I. apply in_map_iff in I as (e & <- & I).
      pose proof (F _ I) as H. inversion H as [b Q Q'|z Z Q Q'|f V Q Q'|s Q Q']; subst; cbn; try congruence.
      rewrite (S (eq_sym Q)) by auto. cbn. congruence. }
    apply read_tree; auto. intros e I. pose proof (F _ I) as H. destruct (n_data a) as [|e0 d]; [destruct I|].
    inversion H as [b Q' Q2|z Z Q' Q2|f V Q' Q2|s Q' Q2]; subst; rewrite <- Q' in *; cbn; try congruence.
    2:{ rewrite (S eq_refl) by auto. auto. }
    unfold in_int64. destruct Z as [Z1 Z2]. apply Z.leb_le in Z1. apply Z.ltb_lt in Z2. rewrite Z1, Z2. auto.
  Qed.
  Theorem json_roundtrip a o : wf a -> n_class a = KArray -> n_type a <> TStr -> listable (n_shape a) ->
    first_type o = Some (n_type a) -> reads_back E fstr ->
    exists j, array_to_json a = Ok j /\ array_deserialize E fstr istr fint sbool o j = Ok (Some a).
  Proof.
    intros W C T K O ((R1 & R2 & R3) & R4). pose proof W as [L F]. unfold array_to_json. rewrite tolist_tree, (json_tree (n_type a)); auto.
    eexists. split; [reflexivity|]. unfold array_deserialize. rewrite O.
    assert (is_none (tree elt_json (n_shape a) (n_data a)) = false) as ->.
    { destruct (n_shape a); [destruct (listable_nil K)|reflexivity]. }
    assert (forall b, n_class b = KArray -> n_shape b = n_shape a ->
              (exists k, map k (n_data b) = n_data a /\ forall e, In e (n_data b) -> cast E fstr istr fint sbool (n_type a) e = Ok (k e)) ->
              rbind (astype E fstr istr fint sbool (n_type a) b) (fun b => Ok (Some b)) = Ok (Some a)) as G.
    { intros b B1 B2 (k & B3 & B4). rewrite (astype_map _ _ k); auto. cbn. rewrite B1, B2, B3, <- C. destruct a; auto. }
    assert (forall e, In e (n_data a) -> cast E fstr istr fint sbool (n_type a) e = Ok e) as Self.
    { intros e I. rewrite Forall_forall in F. pose proof (F _ I) as H. inversion H; subst; auto. }
    destruct (existsb (fun e => match e with EF f => is_special f | _ => false end) (n_data a)) eqn:X.
    - apply existsb_exists in X as (e0 & I0 & S0). destruct e0 as [| |f0|]; try discriminate.
      assert (n_type a = TFloat) as TF. { rewrite Forall_forall in F. apply F in I0. inversion I0; auto. }
      rewrite TF in *.
      rewrite (read_tree TStr _ _ (fun e => match e with EF f => ES (if is_special f then special_str f else fstr f) | _ => e end)); auto.
      + cbn [rbind]. apply G; auto. exists (fun e => match e with ES s => match e_fparse E s with Some f => EF f | None => e end | _ => e end).
        cbn [n_data]. split.
        * rewrite map_map. rewrite <- (map_id (n_data a)) at 2. apply map_ext_in. intros e I. rewrite Forall_forall in F. apply F in I.
          inversion I as [| |f V|]; subst. destruct (is_special f) eqn:S.
          -- destruct f as [s|[]| |]; try discriminate; cbn; rewrite ?R1, ?R2, ?R3; auto.
          -- rewrite R4; auto.
        * intros e I. apply in_map_iff in I as (e1 & <- & I). rewrite Forall_forall in F. apply F in I.
          inversion I as [| |f V|]; subst. cbn. destruct (is_special f) eqn:S.
          -- destruct f as [s|[]| |]; try discriminate; cbn; rewrite ?R1, ?R2, ?R3; auto.
          -- rewrite R4; auto.
      + apply types_mixed; auto. exists f0. auto.
      + intros e I. rewrite Forall_forall in F. apply F in I. inversion I as [| |f V|]; subst.
        unfold elt_json. destruct (is_special f) eqn:S; cbn [np_item]; rewrite ?S; auto.
    - rewrite read_exact; auto.
      + cbn [rbind]. apply G; auto. exists (fun e => e). cbn. split; [apply map_id|auto].
      + intros _ f I. destruct (is_special f) eqn:S; auto. exfalso.
        assert (existsb (fun e => match e with EF f => is_special f | _ => false end) (n_data a) = true) as Y; [|congruence].
        apply existsb_exists. exists (EF f). auto.
  Qed.
  (** Arrays of bools and ints are read as equal arrays of doubles. *)
  Theorem json_to_float a o : wf a -> n_class a = KArray -> n_type a = TBool \/ n_type a = TInt -> listable (n_shape a) ->
    first_type o = Some TFloat ->
    exists j b, array_to_json a = Ok j /\ array_deserialize E fstr istr fint sbool o j = Ok (Some b) /\
      n_type b = TFloat /\ array_equal a b = true.
  Proof.
    intros W C T K O. assert (n_type a <> TStr) as T' by (destruct T; congruence).
    pose proof W as [L F]. unfold array_to_json. rewrite tolist_tree, (json_tree (n_type a)); auto.
    eexists. set (k := fun e => match elt_float e with Some f => EF f | None => e end).
    assert (forall e, In e (n_data a) -> exists f, elt_float e = Some f /\ cast E fstr istr fint sbool TFloat e = Ok (EF f) /\ valid_float f = true) as A.
    { intros e I. rewrite Forall_forall in F. pose proof (F _ I) as H. destruct (elt_float_some _ _ H T') as (f & Q). exists f. split; auto.
      inversion H as [b|z Z|f' V|s]; subst; cbn in Q |- *; try (destruct T; congruence); rewrite Q; split; auto; eapply fofZ_valid; eauto. }
    exists (NDA KArray TFloat (n_shape a) (map k (n_data a))). split; [reflexivity|].
    assert (array_deserialize E fstr istr fint sbool o (tree elt_json (n_shape a) (n_data a)) = Ok (Some (NDA KArray TFloat (n_shape a) (map k (n_data a))))) as D.
    { unfold array_deserialize. rewrite O. 
      assert (is_none (tree elt_json (n_shape a) (n_data a)) = false) as ->.
      { destruct (n_shape a); [destruct (listable_nil K)|reflexivity]. }
      rewrite read_exact; auto; [|intros Q; destruct T; congruence]. cbn [rbind]. rewrite (astype_map _ _ k); auto.
      cbn [n_data]. intros e I. destruct (A _ I) as (f & Q & Q' & _). unfold k. rewrite Q. auto. }
    split; auto. split; auto. apply equal_iff; auto.
    - split; cbn; [rewrite map_length; auto|]. apply Forall_forall. intros e I. apply in_map_iff in I as (e1 & <- & I).
      destruct (A _ I) as (f & Q & _ & V). unfold k. rewrite Q. constructor. auto.
    - cbn. discriminate.
    - cbn. split; auto. split; auto. intros i x y (e & I & X) (e' & I' & Y). cbn in I'. rewrite nth_error_map, I in I'. cbn in I'.
      injection I' as <-. unfold k in Y. rewrite X in Y. cbn in Y. injection Y as <-. apply alike_refl.
  Qed.
End Read.


(** ** Reading any value *)
Lemma nested_shape v : forall sh items, nested sh v items <-> np_shape v = Some sh /\ np_items v = items.
Proof.
  induction v as [v L|l IH|l IH|l IH|l IH] using val_ind'; intros sh items; [destruct v; try contradiction|..];
    try (split; [intros H; inversion H; subst; split; reflexivity|intros [H <-]; injection H as <-; constructor; discriminate]).
  split.
  - intros H. inversion H as [v N E1 E2 E3|E1 E2 E3|s l' its N F E1 E2 E3]; subst.
    + destruct (N l eq_refl).
    + split; reflexivity.
    + assert (G : map np_shape l = map (fun _ => Some s) l /\ flat_map np_items l = concat its).
      { clear N H. revert its F. induction IH as [|v l HP HR IHl]; intros its F; inversion F; subst; [split; reflexivity|].
        cbn. destruct (IHl _ H3) as [-> ->]. apply HP in H1 as [-> <-]. split; reflexivity. }
      destruct G as [G1 G2]. cbn. rewrite G1. split; [|exact G2]. destruct l as [|v l]; [congruence|]. cbn.
      assert (K : forallb (fun o => match o with Some t => nats_eqb s t | None => false end) (map (fun _ : val => Some s) l) = true).
      { apply forallb_forall. intros o Ho. apply in_map_iff in Ho as (x & <- & _). now apply nats_eqb_iff. }
      now rewrite K.
  - intros [H <-]. cbn in H. destruct l as [|v l].
    + injection H as <-. constructor.
    + cbn in H. destruct (np_shape v) as [s|] eqn:S; [|discriminate]. destruct (forallb _ _) eqn:K; [|discriminate]. injection H as <-.
      change (nested (length (v :: l) :: s) (VList (v :: l)) (flat_map np_items (v :: l))). rewrite flat_map_concat_map.
      apply ns_list; [discriminate|]. rewrite forallb_forall in K.
      assert (A : Forall (fun x => np_shape x = Some s) (v :: l)).
      { constructor; [exact S|]. apply Forall_forall. intros x Hx. specialize (K (np_shape x) (in_map _ _ _ Hx)). destruct (np_shape x); [|discriminate].
        apply nats_eqb_iff in K. now subst. }
      clear S K. induction IH as [|x r HP HR IHl]; [constructor|]. inversion A; subst. cbn. constructor; [apply HP; auto|auto].
Qed.
Lemma kind_type v t : val_type v = Some t <-> kind v t.
Proof. destruct v; cbn; split; intros H; try discriminate; try (injection H as <-; constructor); inversion H; reflexivity. Qed.
Lemma rank_upto a b : In a (upto b) <-> type_rank a <= type_rank b.
Proof. destruct a, b; cbn; intuition (try discriminate; try lia). Qed.
Lemma rank_inj a b : type_rank a = type_rank b -> a = b.
Proof. destruct a, b; intros H; try reflexivity; discriminate H. Qed.
Lemma max_fold r t : let m := fold_left (fun a b => if type_rank a <? type_rank b then b else a) r t in
  In m (t :: r) /\ forall u, In u (t :: r) -> type_rank u <= type_rank m.
Proof.
  revert t. induction r as [|x r IH]; intros t; cbn [fold_left].
  - cbn. split; [auto|]. intros u [->|[]]. lia.
  - cbv zeta in *. destruct (Nat.ltb_spec (type_rank t) (type_rank x)) as [L|L].
    + destruct (IH x) as [A B]. split; [now right|]. intros u [->|H]; [|auto]. specialize (B x (or_introl eq_refl)). lia.
    + destruct (IH t) as [A B]. split; [destruct A as [A|A]; [left; exact A|right; now right]|].
      intros u [->|[->|H]]; [apply B; now left| |apply B; now right]. specialize (B t (or_introl eq_refl)). lia.
Qed.
Lemma all_some_types l ts : all_some (map val_type l) = Some ts <-> Forall2 kind l ts.
Proof.
  revert ts. induction l as [|v l IH]; intros ts; cbn.
  - split; [intros H; injection H as <-; constructor|intros H; inversion H; reflexivity].
  - split.
    + destruct (val_type v) as [t|] eqn:V; [|discriminate]. destruct (all_some _) as [r|] eqn:R; [|discriminate]. intros H. injection H as <-.
      constructor; [now apply kind_type|now apply IH].
    + intros H. inversion H as [|? t ? r K F]; subst. apply kind_type in K as ->. apply IH in F as ->. reflexivity.
Qed.
Lemma kind_unique v t u : kind v t -> kind v u -> t = u.
Proof. intros H K. apply kind_type in H, K. congruence. Qed.
Lemma forall2_in_l {A B} (R : A -> B -> Prop) l r x : Forall2 R l r -> In x l -> exists y, In y r /\ R x y.
Proof. induction 1 as [|a b l r H F IH]; [intros []|]. intros [->|Hx]; [exists b; split; [now left|exact H]|]. destruct (IH Hx) as (y & Hy & Ry). exists y. split; [now right|exact Ry]. Qed.
Lemma forall2_in_r {A B} (R : A -> B -> Prop) l r y : Forall2 R l r -> In y r -> exists x, In x l /\ R x y.
Proof. induction 1 as [|a b l r H F IH]; [intros []|]. intros [->|Hx]; [exists a; split; [now left|exact H]|]. destruct (IH Hx) as (x & Hy & Ry). exists x. split; [now right|exact Ry]. Qed.
Lemma common_type l t : np_type l = Some t <-> common l t.
Proof.
  unfold np_type, common. split.
  - destruct (all_some _) as [ts|] eqn:A; [|discriminate]. apply all_some_types in A. destruct ts as [|u r].
    + intros H. injection H as <-. inversion A. auto.
    + intros H. injection H as <-. right. destruct (max_fold r u) as [M1 M2]. split.
      * destruct (forall2_in_r _ _ _ _ A M1) as (v & Hv & K). eauto.
      * intros v Hv. destruct (forall2_in_l _ _ _ _ A Hv) as (w & Hw & K). exists w. split; [exact K|]. apply rank_upto, M2, Hw.
  - intros [[-> ->]|[(v & Hv & K) B]]; [reflexivity|].
    assert (X : exists ts, Forall2 kind l ts).
    { clear Hv. induction l as [|w l IH]; [exists []; constructor|]. destruct (B w (or_introl eq_refl)) as (u & Ku & _). destruct IH as [ts F]; [intros x Hx; apply B; now right|].
      exists (u :: ts). now constructor. }
    destruct X as [ts F]. rewrite (proj2 (all_some_types l ts) F). destruct ts as [|u r]; [inversion F; subst; destruct Hv|]. f_equal.
    destruct (max_fold r u) as [M1 M2]. apply rank_inj. apply Nat.le_antisymm.
    + destruct (forall2_in_r _ _ _ _ F M1) as (w & Hw & Kw). destruct (B w Hw) as (x & Kx & Bx). rewrite (kind_unique _ _ _ Kw Kx). now apply rank_upto.
    + destruct (forall2_in_l _ _ _ _ F Hv) as (w & Hw & Kw). rewrite (kind_unique _ _ _ K Kw). now apply M2.
Qed.
Lemma in_int64_iff z : in_int64 z = true <-> int64 z.
Proof. unfold in_int64, int64. rewrite Bool.andb_true_iff, Z.leb_le, Z.ltb_lt. reflexivity. Qed.
Lemma fofZ_bool (b : bool) : fofZ (if b then 1 else 0)%Z = Some (bool_double b).
Proof. destruct b; reflexivity. Qed.
Section Any.
  Variable E : env.
  Variable fstr : float -> string.
  Variable istr : Z -> string.
  Variable fint : float -> Z.
  Variable sbool : string -> res bool.
  Notation deserialize := (array_deserialize E fstr istr fint sbool).
  Lemma held_iff t v e : np_item fstr istr t v = Ok e <-> held fstr istr t v e.
  Proof.
    split.
    - intros H. destruct t, v; cbn in H; try discriminate H; rewrite ?fofZ_bool in H;
        try (destruct (in_int64 z) eqn:I; [apply in_int64_iff in I|discriminate H]); try (destruct (fofZ z) eqn:F; [|discriminate H]);
        injection H as <-; try (apply he_bool_int); try (constructor; auto; fail); apply he_text.
      + destruct b; constructor.
      + constructor.
      + destruct (is_special f) eqn:S; now constructor.
      + constructor.
    - intros H. inversion H as [| |z I| |z f F| |w s T]; subst; cbn; rewrite ?fofZ_bool; try reflexivity.
      + apply in_int64_iff in I as ->. reflexivity.
      + now rewrite F.
      + inversion T as [| | |f S|f S|]; subst; cbn; rewrite ?S; reflexivity.
  Qed.
  Lemma converted_iff t e e' : t <> TStr -> (cast E fstr istr fint sbool t e = Ok e' <-> converted E fint sbool t e e').
  Proof.
    intros N. split.
    - intros H. destruct t; [| | |congruence]; destruct e as [b|z|f|s]; cbn in H; rewrite ?fofZ_bool in H.
      + injection H as <-. constructor.
      + injection H as <-. constructor. destruct (Z.eqb_spec z 0); cbn; intuition congruence.
      + injection H as <-. constructor. destruct f; split; intros H; try discriminate; try reflexivity. exfalso. eapply H; reflexivity.
      + destruct (sbool s) eqn:S; [|discriminate]. injection H as <-. now constructor.
      + injection H as <-. apply co_bool_int.
      + injection H as <-. constructor.
      + destruct (is_special f) eqn:S; cbn in H; [injection H as <-; apply co_float_undefined; auto|]. destruct (in_int64 (ftrunc f)) eqn:I; injection H as <-.
        * apply co_float_int; [exact S|now apply in_int64_iff].
        * apply co_float_undefined. right. intros K. apply in_int64_iff in K. congruence.
      + destruct (parse_int 10 s) eqn:P; [|discriminate]. destruct (in_int64 z) eqn:I; [|discriminate]. injection H as <-. constructor; [now apply parse_iff|now apply in_int64_iff].
      + injection H as <-. apply co_bool_float.
      + destruct (fofZ z) eqn:F; [|discriminate]. injection H as <-. now constructor.
      + injection H as <-. constructor.
      + destruct (e_fparse E s) eqn:F; [|discriminate]. injection H as <-. now constructor.
    - intros H. destruct H as [b|z b K|f b K|s b K|b|z|f S I|f K|s z P I|b|z f F|f|s f F]; cbn; rewrite ?fofZ_bool; try reflexivity.
      + do 2 f_equal. destruct (Z.eqb_spec z 0), b; cbn; intuition congruence.
      + do 2 f_equal. destruct f as [s| | |], b; try reflexivity.
        * destruct (proj1 K eq_refl s eq_refl).
        * symmetry. apply (proj2 K). intros; discriminate.
        * symmetry. apply (proj2 K). intros; discriminate.
        * symmetry. apply (proj2 K). intros; discriminate.
      + now rewrite K.
      + rewrite S. apply in_int64_iff in I as ->. reflexivity.
      + destruct (is_special f); [reflexivity|]. destruct K as [K|K]; [discriminate|]. cbn. destruct (in_int64 (ftrunc f)) eqn:I; [|reflexivity]. apply in_int64_iff in I. contradiction.
      + apply parse_iff in P. fold (parse_int 10 s) in P. rewrite P. apply in_int64_iff in I as ->. reflexivity.
      + now rewrite F.
      + now rewrite F.
  Qed.
  Lemma all_ok_iff {A B} (f : A -> res B) l r : all_ok (map f l) = Ok r <-> Forall2 (fun a b => f a = Ok b) l r.
  Proof.
    revert r. induction l as [|a l IH]; intros r; cbn.
    - split; [intros H; injection H as <-; constructor|intros H; inversion H; reflexivity].
    - split.
      + destruct (f a) as [b|] eqn:F; [|discriminate]. destruct (all_ok _) as [t|] eqn:T; [|discriminate]. cbn. intros H. injection H as <-.
        constructor; [exact F|now apply IH].
      + intros H. inversion H as [|? b ? t F T]; subst. rewrite F. apply IH in T as ->. reflexivity.
  Qed.
  Lemma first_type_iff o t : first_type o = Some t <-> first_dtype o t.
  Proof.
    unfold first_type, first_dtype. split.
    - destruct (dtype_opt KArray o) as [|d r]; [discriminate|]. intros H. exists d, r. split; [reflexivity|]. destruct d; try discriminate; injection H as <-; cbn; auto.
    - intros (d & r & -> & H). cbn in H. destruct H as [H|[H|[H|[]]]]; injection H as <- <-; reflexivity.
  Qed.
  Lemma first_type_not_str o t : first_type o = Some t -> t <> TStr.
  Proof. unfold first_type. destruct (dtype_opt KArray o) as [|[] r]; try discriminate; intros H; injection H as <-; discriminate. Qed.
  Lemma forall2_comp {A B C} (R : A -> B -> Prop) (S : B -> C -> Prop) l r : (exists m, Forall2 R l m /\ Forall2 S m r) <-> Forall2 (fun a c => exists b, R a b /\ S b c) l r.
  Proof.
    split.
    - intros (m & F & G). revert r G. induction F as [|a b l m H F IH]; intros r G; inversion G; subst; constructor; eauto.
    - induction 1 as [|a c l r (b & H & K) F (m & IH1 & IH2)]; [exists []; split; constructor|]. exists (b :: m). split; constructor; auto.
  Qed.
  Lemma forall2_eqv {A B} (R S : A -> B -> Prop) l r : (forall a b, R a b <-> S a b) -> (Forall2 R l r <-> Forall2 S l r).
  Proof. intros H. split; induction 1; constructor; try apply H; auto. Qed.
  Lemma deserialize_iff o v a : deserialize o v = Ok (Some a) <->
    exists t s sh items, first_dtype o t /\ v <> VNone /\ nested sh v items /\ common items s /\
      n_class a = KArray /\ n_type a = t /\ n_shape a = sh /\
      Forall2 (fun x e' => exists e, held fstr istr s x e /\ converted E fint sbool t e e') items (n_data a).
  Proof.
    unfold array_deserialize, np_array, astype. split.
    - intros H. destruct (is_none v) eqn:NV; [discriminate|]. destruct (first_type o) as [t|] eqn:T; [|discriminate].
      destruct (np_shape v) as [sh|] eqn:S; [|discriminate]. destruct (np_type (np_items v)) as [s|] eqn:TY; [|discriminate].
      destruct (all_ok (map (np_item fstr istr s) (np_items v))) as [d|] eqn:D; [cbn in H|discriminate].
      destruct (all_ok (map (cast E fstr istr fint sbool t) d)) as [d'|] eqn:D'; [cbn in H|discriminate]. injection H as <-.
      exists t, s, sh, (np_items v). split; [now apply first_type_iff|]. split; [intros ->; discriminate|]. split; [apply nested_shape; auto|].
      split; [now apply common_type|]. repeat (split; [reflexivity|]). cbn. apply forall2_comp. exists d. split.
      + apply all_ok_iff in D. revert D. apply forall2_eqv. intros; first [apply held_iff|symmetry; apply held_iff].
      + apply all_ok_iff in D'. revert D'. apply forall2_eqv. intros; first [apply converted_iff|symmetry; apply converted_iff]; now apply first_type_not_str in T.
    - intros (t & s & sh & items & T & NV & N & C & K1 & K2 & K3 & F). apply first_type_iff in T. apply nested_shape in N as [N1 N2]. apply common_type in C.
      assert (X : is_none v = false) by (destruct v; cbn; congruence). rewrite X, T, N1, N2, C.
      apply forall2_comp in F as (d & F & G).
      assert (FD : all_ok (map (np_item fstr istr s) items) = Ok d) by (apply all_ok_iff; revert F; apply forall2_eqv; intros; first [apply held_iff|symmetry; apply held_iff]).
      assert (GD : all_ok (map (cast E fstr istr fint sbool t) d) = Ok (n_data a)).
      { apply all_ok_iff. revert G. apply forall2_eqv. intros; first [apply converted_iff|symmetry; apply converted_iff]; now apply first_type_not_str in T. }
      rewrite FD. cbn [rbind n_data n_class n_shape]. rewrite GD. cbn. destruct a; cbn in *. subst. reflexivity.
  Qed.
  Lemma all_ok_exc {A B} (f : A -> res B) l e : all_ok (map f l) = Exc e -> exists a, In a l /\ f a = Exc e.
  Proof.
    induction l as [|a l IH]; cbn; [discriminate|]. destruct (f a) as [b|e'] eqn:F.
    - destruct (all_ok _); [discriminate|]. cbn. intros H. injection H as ->. destruct IH as (x & Hx & Fx); [reflexivity|]. exists x. split; [now right|exact Fx].
    - intros H. injection H as ->. exists a. split; [now left|exact F].
  Qed.
  Lemma deserialize_errors o v t : first_dtype o t -> v <> VNone ->
    ((forall sh items, ~ nested sh v items) -> deserialize o v = Exc ExValue) /\
    (forall sh items, nested sh v items -> (forall s, ~ common items s) -> deserialize o v = Exc ExType) /\
    (forall sh items s e, nested sh v items -> common items s -> (forall x e', sbool x <> Exc e') -> deserialize o v = Exc e ->
      e = ExOverflow \/ (e = ExValue /\ s = TStr)).
  Proof.
    intros T NV. pose proof (proj2 (first_type_iff o t) T) as T'. unfold array_deserialize, np_array, astype.
    assert (X : is_none v = false) by (destruct v; cbn; congruence). rewrite X, T'. split; [|split].
    - intros H. destruct (np_shape v) as [sh|] eqn:S; [|reflexivity]. exfalso. apply (H sh (np_items v)), nested_shape. auto.
    - intros sh items N H. apply nested_shape in N as [-> <-]. destruct (np_type (np_items v)) as [s|] eqn:TY; [|reflexivity].
      exfalso. apply (H s). now apply common_type.
    - intros sh items s e N C SB H. apply nested_shape in N as [N1 N2]. pose proof (proj2 (common_type items s) C) as C'. rewrite N1, N2, C' in H.
      destruct (all_ok (map (np_item fstr istr s) items)) as [d|e'] eqn:D; cbn in H.
      + destruct (all_ok (map (cast E fstr istr fint sbool t) d)) as [d'|e''] eqn:D'; cbn in H; [discriminate|]. injection H as <-.
        apply all_ok_exc in D' as (x & Hx & Cx). apply all_ok_iff in D. destruct (forall2_in_r _ _ _ _ D Hx) as (w & Hw & Hx').
        apply held_iff in Hx'. apply first_type_not_str in T'. destruct t; [| | |congruence]; destruct x as [b|z|f|s']; cbn in Cx; rewrite ?fofZ_bool in Cx; try discriminate.
        * destruct (sbool s') eqn:SB'; [discriminate|]. destruct (SB _ _ SB').
        * inversion Hx'; subst. destruct (parse_int 10 s') as [z|]; [|injection Cx as <-; auto]. destruct (in_int64 z); [discriminate|]. injection Cx as <-. auto.
        * destruct (fofZ z); [discriminate|]. injection Cx as <-. auto.
        * inversion Hx'; subst. destruct (e_fparse E s'); [discriminate|]. injection Cx as <-. auto.
      + injection H as <-. apply all_ok_exc in D as (x & Hx & Cx). left.
        destruct C as [[-> _]|[_ C]]; [destruct Hx|]. destruct (C x Hx) as (u & K & U). apply rank_upto in U.
        destruct K, s; cbn in U; try lia; cbn in Cx; rewrite ?fofZ_bool in Cx; try discriminate.
        * destruct (in_int64 z); [discriminate|]. now injection Cx.
        * destruct (fofZ z); [discriminate|]. now injection Cx.
  Qed.
End Any.

(** * Vectors *)
Lemma float_items d : Forall (elt_in TFloat) d -> exists fs, d = map EF fs.
Proof.
  induction 1 as [|e d H _ (fs & ->)]; [exists []; reflexivity|]. inversion H; subst. exists (f :: fs). reflexivity.
Qed.
Lemma vec_shape_listable k sh : vec_shape k sh -> (forall r, sh <> 0 :: r) -> listable sh.
Proof.
  intros H N. destruct H; [exists [], 3|exists [], 2|exists [n], 3|exists [n], 2]; (split; [reflexivity|]); repeat constructor;
    intros ->; eapply N; reflexivity.
Qed.
Theorem vectors_roundtrip E fstr istr fint sbool wrap a :
  wf a -> n_type a = TFloat -> vec_shape (n_class a) (n_shape a) -> n_data a <> [] ->
  (forall f, In (EF f) (n_data a) -> is_fin f = true) -> makes_vectors wrap (n_class a) ->
  exists j, array_to_json a = Ok j /\ wrap j = Ok a /\ vec_deserialize E fstr istr fint sbool wrap j = Ok (Some a).
Proof.
  intros [L F] T S NE FI M. rewrite T in F. destruct (float_items _ F) as (fs & D).
  assert (K : listable (n_shape a)).
  { apply (vec_shape_listable _ _ S). intros r Q. rewrite Q in L. cbn in L. destruct (n_data a); [now apply NE|discriminate]. }
  unfold array_to_json. rewrite tolist_tree, (json_tree TFloat) by (auto; discriminate).
  assert (map elt_json (n_data a) = map VFloat fs) as I.
  { rewrite D, map_map. apply map_ext_in. intros f Hf. cbn. specialize (FI f). rewrite D in FI. specialize (FI (in_map _ _ _ Hf)).
    unfold is_fin in FI. unfold is_special. destruct (is_nan f || is_inf f); [discriminate|reflexivity]. }
  eexists. split; [reflexivity|].
  assert (wrap (tree elt_json (n_shape a) (n_data a)) = Ok a) as W.
  { rewrite (M (n_shape a) _ fs); [destruct a; cbn in *; congruence|exact S| |].
    - apply nested_shape. split; [apply tree_shape; auto using elt_json_flat|]. rewrite tree_items; auto using elt_json_flat.
    - apply Forall_forall. intros f Hf. apply FI. rewrite D. now apply in_map. }
  split; [exact W|]. unfold vec_deserialize.
  assert (is_none (tree elt_json (n_shape a) (n_data a)) = false) as -> by (destruct (n_shape a); [destruct (listable_nil K)|reflexivity]).
  rewrite W. cbn [rbind]. rewrite (astype_map _ _ _ _ _ _ _ (fun e => e)).
  - cbn. rewrite map_id, <- T. destruct a; reflexivity.
  - intros e Ie. rewrite Forall_forall in F. pose proof (F e Ie) as H. inversion H; subst. reflexivity.
Qed.
