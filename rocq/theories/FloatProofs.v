(** Proofs relating the executable float operations to exact values. *)
From Verif Require Import PyBase PyFloat NumSpec.
Open Scope Z_scope.

Lemma digits2_bounds m : 2 ^ (Z.pos (digits2_pos m) - 1) <= Z.pos m < 2 ^ (Z.pos (digits2_pos m)).
Proof.
  induction m as [m IH|m IH|]; simpl digits2_pos.
  - rewrite Pos2Z.inj_succ, Z.pow_succ_r by lia.
    replace (Z.succ (Z.pos (digits2_pos m)) - 1) with (Z.succ (Z.pos (digits2_pos m) - 1)) by lia.
    rewrite Z.pow_succ_r by lia. lia.
  - rewrite Pos2Z.inj_succ, Z.pow_succ_r by lia.
    replace (Z.succ (Z.pos (digits2_pos m)) - 1) with (Z.succ (Z.pos (digits2_pos m) - 1)) by lia.
    rewrite Z.pow_succ_r by lia. lia.
  - simpl. lia.
Qed.

Lemma digits2_unique m d : 2 ^ (d - 1) <= Z.pos m < 2 ^ d -> Z.pos (digits2_pos m) = d.
Proof.
  intros [H1 H2]. pose proof (digits2_bounds m) as [H3 H4].
  assert (0 <= d - 1 \/ d - 1 < 0) as [Hd|Hd] by lia.
  - assert (d - 1 < Z.pos (digits2_pos m)) by (apply (Z.pow_lt_mono_r_iff 2); lia).
    assert (Z.pos (digits2_pos m) - 1 < d) by (apply (Z.pow_lt_mono_r_iff 2); lia).
    lia.
  - exfalso. assert (d = 0 \/ d < 0) as [->|Hd'] by lia; [simpl in H2; lia|].
    rewrite (Z.pow_neg_r 2 d) in H2 by lia. lia.
Qed.

Definition fexp64 (e : Z) : Z := Z.max (e - 53) (-1074).
Lemma fexp_eq e : fexp prec emax e = fexp64 e.
Proof. reflexivity. Qed.

Lemma valid_finite s m e :
  valid_float (S754_finite s m e) = true <->
  fexp64 (Z.pos (digits2_pos m) + e) = e /\ e <= 971.
Proof.
  unfold valid_float, valid_binary, bounded, canonical_mantissa.
  rewrite andb_true_iff. rewrite fexp_eq.
  rewrite <- Zeq_is_eq_bool. rewrite <- Zle_is_le_bool. unfold emax, prec. lia.
Qed.

Lemma valid_range s m e :
  valid_float (S754_finite s m e) = true ->
  -1074 <= e <= 971 /\ 0 < Z.pos m < 2 ^ 53 /\ (-1074 < e -> 2 ^ 52 <= Z.pos m).
Proof.
  intros H. apply valid_finite in H as [H1 H2]. unfold fexp64 in H1.
  pose proof (digits2_bounds m) as [Hb1 Hb2].
  assert (Hd : Z.pos (digits2_pos m) <= 53) by lia.
  repeat split; try lia.
  - eapply Z.lt_le_trans; [exact Hb2|]. apply Z.pow_le_mono_r; lia.
  - intros He. assert (Z.pos (digits2_pos m) = 53) as E by lia. rewrite E in Hb1. exact Hb1.
Qed.

(** ** Comparisons decide the exact order *)

Lemma mant_exp_lt m1 e1 m2 e2 s1 s2 :
  valid_float (S754_finite s1 m1 e1) = true ->
  valid_float (S754_finite s2 m2 e2) = true ->
  e1 < e2 -> Z.pos m1 * 2 ^ (e1 + 1074) < Z.pos m2 * 2 ^ (e2 + 1074).
Proof.
  intros H1 H2 He. apply valid_range in H1 as (R1 & B1 & _). apply valid_range in H2 as (R2 & B2 & C2).
  specialize (C2 ltac:(lia)).
  assert (0 < 2 ^ (e1 + 1074)) by (apply Z.pow_pos_nonneg; lia).
  assert (2 ^ (e2 + 1074) = 2 ^ (e2 - e1) * 2 ^ (e1 + 1074)) as ->.
  { rewrite <- Z.pow_add_r by lia. f_equal. lia. }
  assert (2 ^ 1 <= 2 ^ (e2 - e1)) by (apply Z.pow_le_mono_r; lia).
  change (2 ^ 1) with 2 in *.
  change (2 ^ 53) with (2 * 2 ^ 52) in *.
  assert (Z.pos m1 < Z.pos m2 * 2 ^ (e2 - e1)) by nia.
  rewrite Z.mul_assoc. now apply Z.mul_lt_mono_pos_r.
Qed.

Lemma SFcompare_finite s1 m1 e1 s2 m2 e2 :
  valid_float (S754_finite s1 m1 e1) = true ->
  valid_float (S754_finite s2 m2 e2) = true ->
  SFcompare (S754_finite s1 m1 e1) (S754_finite s2 m2 e2) =
  Some ((if s1 then Z.neg m1 else Z.pos m1) * 2 ^ (e1 + 1074)
        ?= (if s2 then Z.neg m2 else Z.pos m2) * 2 ^ (e2 + 1074)).
Proof.
  intros H1 H2. unfold SFcompare. f_equal. symmetry.
  pose proof (valid_range _ _ _ H1) as (R1 & B1 & C1).
  pose proof (valid_range _ _ _ H2) as (R2 & B2 & C2).
  assert (P1 : 0 < 2 ^ (e1 + 1074)) by (apply Z.pow_pos_nonneg; lia).
  assert (P2 : 0 < 2 ^ (e2 + 1074)) by (apply Z.pow_pos_nonneg; lia).
  pose proof (mant_exp_lt _ _ _ _ _ _ H1 H2) as L12.
  pose proof (mant_exp_lt _ _ _ _ _ _ H2 H1) as L21.
  assert (E12 : e1 = e2 -> (Z.pos m1 * 2 ^ (e1 + 1074) ?= Z.pos m2 * 2 ^ (e2 + 1074)) = (Z.pos m1 ?= Z.pos m2)).
  { intros ->. rewrite <- Zmult_compare_compat_r; auto; lia. }
  change (Pcompare m1 m2 Eq) with (Z.pos m1 ?= Z.pos m2).
  destruct s1, s2.
  - change (Z.neg m1) with (- Z.pos m1). change (Z.neg m2) with (- Z.pos m2).
    rewrite !Z.mul_opp_l, <- Zcompare_opp.
    destruct (Z.compare_spec e1 e2) as [He|He|He].
    + subst. rewrite Z.compare_antisym. f_equal. now apply E12.
    + apply Z.compare_gt_iff. auto.
    + apply Z.compare_lt_iff. auto.
  - apply Z.compare_lt_iff. nia.
  - apply Z.compare_gt_iff. nia.
  - destruct (Z.compare_spec e1 e2) as [He|He|He].
    + auto.
    + apply Z.compare_lt_iff. auto.
    + apply Z.compare_gt_iff. auto.
Qed.

Lemma UNIT_pos : 0 < UNIT.
Proof. unfold UNIT. apply Z.pow_pos_nonneg; lia. Qed.
Global Opaque UNIT.

Lemma fcmpZ_finite s m e z :
  valid_float (S754_finite s m e) = true ->
  fcmpZ (S754_finite s m e) z = Some ((if s then Z.neg m else Z.pos m) * 2 ^ (e + 1074) ?= z * UNIT).
Proof.
  intros H. apply valid_range in H as (R & _ & _). unfold fcmpZ. f_equal.
  set (sm := if s then Z.neg m else Z.pos m).
  assert (HU : UNIT = 2 ^ 1074) by reflexivity.
  destruct (Z.leb_spec 0 e).
  - rewrite Z.pow_add_r by lia. rewrite Z.mul_assoc, <- HU.
    apply Zmult_compare_compat_r. pose proof UNIT_pos; lia.
  - replace (z * UNIT) with (z * 2 ^ (- e) * 2 ^ (e + 1074)).
    + apply Zmult_compare_compat_r. apply Z.lt_gt. apply Z.pow_pos_nonneg; lia.
    + rewrite <- Z.mul_assoc, <- Z.pow_add_r by lia. rewrite HU. do 2 f_equal. lia.
Qed.

Definition ext_cmp (a b : ext) : option comparison :=
  match a, b with
  | Nan, _ | _, Nan => None
  | Fin x, Fin y => Some (x ?= y)
  | MInf, MInf | PInf, PInf => Some Eq
  | MInf, _ | _, PInf => Some Lt
  | PInf, _ | _, MInf => Some Gt
  end.

Lemma fcmpZ_ext f z : valid_float f = true -> fcmpZ f z = ext_cmp (fext f) (Fin (z * UNIT)).
Proof.
  destruct f as [s|s| |s m e]; intros H.
  - unfold fcmpZ, fext, ext_cmp. f_equal. rewrite <- (Z.mul_0_l UNIT).
    apply Zmult_compare_compat_r. pose proof UNIT_pos; lia.
  - destruct s; reflexivity.
  - reflexivity.
  - now rewrite fcmpZ_finite.
Qed.

Lemma SFcompare_ext f g :
  valid_float f = true -> valid_float g = true -> SFcompare f g = ext_cmp (fext f) (fext g).
Proof.
  assert (Hp : forall s m e, valid_float (S754_finite s m e) = true -> 0 < 2 ^ (e + 1074)).
  { intros s m e H. apply valid_range in H as (R & _). apply Z.pow_pos_nonneg; lia. }
  destruct f as [s|s| |s m e], g as [s'|s'| |s' m' e']; intros Hf Hg; try reflexivity;
    try (destruct s; reflexivity); try (destruct s'; reflexivity);
    try (destruct s, s'; reflexivity).
  - specialize (Hp _ _ _ Hg). unfold SFcompare, fext, ext_cmp. f_equal. symmetry.
    destruct s'; [apply Z.compare_gt_iff|apply Z.compare_lt_iff]; nia.
  - specialize (Hp _ _ _ Hf). unfold SFcompare, fext, ext_cmp. f_equal. symmetry.
    destruct s; [apply Z.compare_lt_iff|apply Z.compare_gt_iff]; nia.
  - now rewrite SFcompare_finite.
Qed.

Lemma ext_cmp_opp a b : option_map CompOpp (ext_cmp a b) = ext_cmp b a.
Proof.
  destruct a as [x| | |], b as [y| | |]; simpl; auto. f_equal. rewrite (Z.compare_antisym x y). now destruct (x ?= y).
Qed.

Lemma ncmp_ext a b : valid_num a -> valid_num b -> ncmp a b = ext_cmp (ext_of a) (ext_of b).
Proof.
  destruct a as [x|f], b as [y|g]; simpl; intros Ha Hb.
  - f_equal. apply Zmult_compare_compat_r. pose proof UNIT_pos; lia.
  - rewrite fcmpZ_ext by auto. apply ext_cmp_opp.
  - now apply fcmpZ_ext.
  - now apply SFcompare_ext.
Qed.

Lemma nlt_ext a b : valid_num a -> valid_num b -> (nlt a b = true <-> ext_lt (ext_of a) (ext_of b)).
Proof.
  intros Ha Hb. unfold nlt. rewrite ncmp_ext by auto.
  destruct (ext_of a) as [x| | |], (ext_of b) as [y| | |]; simpl; try (split; (discriminate || tauto)); try tauto.
  destruct (Z.compare_spec x y); split; try discriminate; try lia; auto.
Qed.

Lemma nle_ext a b : valid_num a -> valid_num b -> ext_of a <> Nan -> ext_of b <> Nan ->
  (nle a b = true <-> ~ ext_lt (ext_of b) (ext_of a)).
Proof.
  intros Ha Hb Na Nb. unfold nle. rewrite ncmp_ext by auto.
  destruct (ext_of a) as [x| | |], (ext_of b) as [y| | |]; simpl; try congruence;
    try (split; [discriminate|tauto]); try tauto.
  destruct (Z.compare_spec x y); split; try discriminate; try lia; auto.
Qed.

(** ** Rounding is exact on representable values *)

Definition mrs0 (m : Z) : shr_record := Build_shr_record m false false.

Lemma shr_1_double q : shr_1 (mrs0 (2 * Z.pos q)) = mrs0 (Z.pos q).
Proof. reflexivity. Qed.

Lemma iter_shr p : forall q, iter_pos shr_1 p (mrs0 (Z.pos q * 2 ^ Z.pos p)) = mrs0 (Z.pos q).
Proof.
  induction p as [p IH|p IH|]; intros q.
  - change (iter_pos shr_1 p (iter_pos shr_1 p (shr_1 (mrs0 (Z.pos q * 2 ^ Z.pos p~1)))) = mrs0 (Z.pos q)).
    assert (E : Z.pos q * 2 ^ Z.pos p~1 = 2 * Z.pos (q * 2 ^ p * 2 ^ p)).
    { rewrite !Pos2Z.inj_mul, !Pos2Z.inj_pow. rewrite (Pos2Z.inj_xI p).
      rewrite Z.pow_add_r, Z.pow_1_r by lia. rewrite (Z.pow_twice_r 2 (Z.pos p)). ring. }
    rewrite E, shr_1_double.
    rewrite (Pos2Z.inj_mul (q * 2 ^ p)), Pos2Z.inj_pow. rewrite IH.
    rewrite Pos2Z.inj_mul, Pos2Z.inj_pow. apply IH.
  - change (iter_pos shr_1 p (iter_pos shr_1 p (mrs0 (Z.pos q * 2 ^ Z.pos p~0))) = mrs0 (Z.pos q)).
    assert (E : Z.pos q * 2 ^ Z.pos p~0 = Z.pos (q * 2 ^ p) * 2 ^ Z.pos p).
    { rewrite !Pos2Z.inj_mul, !Pos2Z.inj_pow. rewrite (Pos2Z.inj_xO p).
      rewrite (Z.pow_twice_r 2 (Z.pos p)). ring. }
    rewrite E, IH. rewrite Pos2Z.inj_mul, Pos2Z.inj_pow. apply IH.
  - change (shr_1 (mrs0 (Z.pos q * 2)) = mrs0 (Z.pos q)). rewrite Z.mul_comm. apply shr_1_double.
Qed.

Lemma digits2_mul_pow m k m' : 0 <= k -> Z.pos m = Z.pos m' * 2 ^ k ->
  Z.pos (digits2_pos m) = Z.pos (digits2_pos m') + k.
Proof.
  intros Hk E. apply digits2_unique. rewrite E. pose proof (digits2_bounds m') as [H1 H2].
  assert (0 < 2 ^ k) by (apply Z.pow_pos_nonneg; lia).
  replace (Z.pos (digits2_pos m') + k - 1) with ((Z.pos (digits2_pos m') - 1) + k) by lia.
  rewrite !Z.pow_add_r by lia. split.
  - apply Z.mul_le_mono_nonneg_r; lia.
  - apply Z.mul_lt_mono_pos_r; lia.
Qed.

Lemma round_aux_canonical s m e :
  fexp64 (Z.pos (digits2_pos m) + e) = e -> e <= 971 ->
  binary_round_aux prec emax s (Z.pos m) e loc_Exact = S754_finite s m e.
Proof.
  intros H1 H2. unfold binary_round_aux, shr_fexp. cbn [Zdigits2 shr_record_of_loc].
  rewrite fexp_eq, H1, Z.sub_diag. cbn [shr shr_m loc_of_shr_record round_nearest_even].
  cbn [Zdigits2 shr_record_of_loc]. rewrite fexp_eq, H1, Z.sub_diag. cbn [shr shr_m].
  replace (Zle_bool e (emax - prec)) with true; auto. symmetry. apply Zle_is_le_bool. unfold emax, prec. lia.
Qed.

Lemma binary_round_exact s m e e' m' :
  fexp64 (Z.pos (digits2_pos m) + e) = e' -> e' <= 971 ->
  (if e' <? e then Z.pos m' = Z.pos m * 2 ^ (e - e') else Z.pos m = Z.pos m' * 2 ^ (e' - e)) ->
  binary_round prec emax s m e = S754_finite s m' e' /\ valid_float (S754_finite s m' e') = true.
Proof.
  intros He' Hmax Hm.
  assert (Hd : Z.pos (digits2_pos m) + e = Z.pos (digits2_pos m') + e').
  { destruct (Z.ltb_spec e' e).
    - apply digits2_mul_pow in Hm; lia.
    - apply digits2_mul_pow in Hm; lia. }
  assert (Hc : fexp64 (Z.pos (digits2_pos m') + e') = e') by (rewrite <- Hd; auto).
  split; [|apply valid_finite; auto].
  unfold binary_round. rewrite fexp_eq, He'. unfold shl_align.
  destruct (Z.ltb_spec e' e) as [Hlt|Hge].
  - destruct (e' - e) as [|d|d] eqn:Ed; try lia.
    assert (shift_pos d m = m') as ->.
    { apply Pos2Z.inj. rewrite shift_pos_correct. change (Z.pow_pos 2 d) with (2 ^ Z.pos d). rewrite Hm. replace (e - e') with (Z.pos d) by lia. ring. }
    apply round_aux_canonical; auto.
  - destruct (e' - e) as [|d|d] eqn:Ed; try lia.
    + assert (e = e') as -> by lia. rewrite Z.mul_1_r in Hm.
      assert (m = m') as -> by (injection Hm; auto). apply round_aux_canonical; auto.
    + unfold binary_round_aux, shr_fexp. cbn [Zdigits2 shr_record_of_loc].
      rewrite fexp_eq, He', Ed. cbn [shr]. change (Build_shr_record (Z.pos m) false false) with (mrs0 (Z.pos m)).
      rewrite Hm, iter_shr. cbn [shr_m mrs0 loc_of_shr_record round_nearest_even Zdigits2 shr_record_of_loc].
      replace (e + Z.pos d) with e' by lia.
      rewrite fexp_eq, Hc, Z.sub_diag. cbn [shr shr_m].
      replace (Zle_bool e' (emax - prec)) with true; auto. symmetry. apply Zle_is_le_bool. unfold emax, prec. lia.
Qed.

(** Rounding [m * 2^e] when that equals [r * 2^k] with [r] of at most 53 bits. *)
Lemma normalize_exact z e r k sz :
  -1074 <= e -> -1074 <= k <= 971 -> Z.abs r < 2 ^ 53 ->
  z * 2 ^ (e + 1074) = r * 2 ^ (k + 1074) ->
  fext (binary_normalize prec emax z e sz) = Fin (r * 2 ^ (k + 1074)) /\
  valid_float (binary_normalize prec emax z e sz) = true.
Proof.
  intros He Hk Hr E.
  assert (Pe : 0 < 2 ^ (e + 1074)) by (apply Z.pow_pos_nonneg; lia).
  assert (Pk : 0 < 2 ^ (k + 1074)) by (apply Z.pow_pos_nonneg; lia).
  (* positive case *)
  assert (Main : forall s m q, Z.pos m * 2 ^ (e + 1074) = Z.pos q * 2 ^ (k + 1074) -> Z.pos q < 2 ^ 53 ->
    exists m' e', binary_round prec emax s m e = S754_finite s m' e' /\
      valid_float (S754_finite s m' e') = true /\ Z.pos m' * 2 ^ (e' + 1074) = Z.pos q * 2 ^ (k + 1074)).
  { intros s m q Eq Hq.
    assert (Hdm : Z.pos (digits2_pos m) + e = Z.pos (digits2_pos q) + k).
    { set (w := (m * 2 ^ Z.to_pos (e + 1075))%positive).
      assert (W1 : Z.pos w = Z.pos m * 2 ^ (e + 1075)).
      { unfold w. rewrite Pos2Z.inj_mul, Pos2Z.inj_pow, Z2Pos.id by lia. reflexivity. }
      assert (W2 : Z.pos w = Z.pos q * 2 ^ (k + 1075)).
      { rewrite W1. replace (e + 1075) with (Z.succ (e + 1074)) by lia.
        replace (k + 1075) with (Z.succ (k + 1074)) by lia. rewrite !Z.pow_succ_r by lia.
        replace (Z.pos m * (2 * 2 ^ (e + 1074))) with (2 * (Z.pos m * 2 ^ (e + 1074))) by ring.
        rewrite Eq. ring. }
      apply digits2_mul_pow in W1; [|lia]. apply digits2_mul_pow in W2; [|lia]. lia. }
    pose proof (digits2_bounds q) as [Hq1 Hq2].
    assert (Hdq : Z.pos (digits2_pos q) <= 53).
    { destruct (Z.le_gt_cases (Z.pos (digits2_pos q)) 53) as [|Hgt]; auto. exfalso.
      assert (2 ^ 53 <= 2 ^ (Z.pos (digits2_pos q) - 1)) by (apply Z.pow_le_mono_r; lia). lia. }
    set (e' := fexp64 (Z.pos (digits2_pos m) + e)).
    assert (He'k : -1074 <= e' <= k) by (unfold e', fexp64; lia).
    (* m' = q * 2^(k - e') *)
    set (m' := Z.to_pos (Z.pos q * 2 ^ (k - e'))).
    assert (P2 : 0 < 2 ^ (k - e')) by (apply Z.pow_pos_nonneg; lia).
    assert (Hm' : Z.pos m' = Z.pos q * 2 ^ (k - e')) by (unfold m'; rewrite Z2Pos.id; nia).
    assert (Hval : Z.pos m' * 2 ^ (e' + 1074) = Z.pos q * 2 ^ (k + 1074)).
    { rewrite Hm', <- Z.mul_assoc, <- Z.pow_add_r by lia. do 2 f_equal. lia. }
    exists m', e'.
    destruct (binary_round_exact s m e e' m') as [B V]; auto; try lia.
    destruct (Z.ltb_spec e' e).
    - apply (Z.mul_reg_r _ _ (2 ^ (e' + 1074))).
      { assert (0 < 2 ^ (e' + 1074)) by (apply Z.pow_pos_nonneg; lia). lia. }
      rewrite Hval, <- Eq, <- Z.mul_assoc, <- Z.pow_add_r by lia. do 2 f_equal. lia.
    - apply (Z.mul_reg_r _ _ (2 ^ (e + 1074))); [lia|].
      rewrite Eq, <- Hval, <- Z.mul_assoc, <- Z.pow_add_r by lia. do 2 f_equal. lia. }
  destruct z as [|m|m]; cbn [binary_normalize].
  - assert (r = 0) as -> by nia. rewrite Z.mul_0_l. auto.
  - destruct r as [|q|q]; try nia.
    destruct (Main false m q E) as (m' & e' & B & V & Hv); [lia|].
    rewrite B. unfold fext. rewrite Hv. auto.
  - destruct r as [|q|q]; try nia.
    destruct (Main true m q) as (m' & e' & B & V & Hv); [change (Z.neg m) with (- Z.pos m) in E; change (Z.neg q) with (- Z.pos q) in E; lia|lia|].
    rewrite B. unfold fext. change (Z.neg m') with (- Z.pos m'). change (Z.neg q) with (- Z.pos q).
    rewrite !Z.mul_opp_l, Hv. auto.
Qed.

Lemma fofZ_exact z r k :
  0 <= k <= 971 -> Z.abs r < 2 ^ 53 -> z = r * 2 ^ k ->
  exists g, fofZ z = Some g /\ fext g = Fin (z * UNIT) /\ valid_float g = true.
Proof.
  intros Hk Hr E. unfold fofZ.
  assert (HU : UNIT = 2 ^ 1074) by reflexivity.
  destruct (normalize_exact z 0 r k false) as [H1 H2]; try lia.
  - subst z. rewrite <- Z.mul_assoc, <- Z.pow_add_r by lia. reflexivity.
  - assert (E' : r * 2 ^ (k + 1074) = z * UNIT).
    { subst z. rewrite HU, <- Z.mul_assoc, <- Z.pow_add_r by lia. reflexivity. }
    rewrite E' in H1.
    destruct (binary_normalize prec emax z 0 false) as [s|s| |s m e]; try (destruct s; discriminate H1); try discriminate H1; eauto.
Qed.

Lemma shl_align_value m e ez : ez <= e -> Z.pos (fst (shl_align m e ez)) = Z.pos m * 2 ^ (e - ez).
Proof.
  intros H. unfold shl_align. destruct (ez - e) as [|d|d] eqn:E; try lia; simpl fst.
  - replace (e - ez) with 0 by lia. lia.
  - rewrite shift_pos_correct. change (Z.pow_pos 2 d) with (2 ^ Z.pos d).
    replace (e - ez) with (Z.pos d) by lia. ring.
Qed.

Lemma fsub_exact f g u v r k :
  valid_float f = true -> valid_float g = true ->
  fext f = Fin u -> fext g = Fin v ->
  -1074 <= k <= 971 -> Z.abs r < 2 ^ 53 -> u - v = r * 2 ^ (k + 1074) ->
  fext (fsub f g) = Fin (u - v) /\ valid_float (fsub f g) = true.
Proof.
  intros Vf Vg Uf Ug Hk Hr E.
  destruct f as [s|s| |s m e]; [| destruct s; discriminate Uf | discriminate Uf |].
  - injection Uf as <-.
    destruct g as [s'|s'| |s' m' e']; [| destruct s'; discriminate Ug | discriminate Ug |].
    + injection Ug as <-. unfold fsub. destruct s, s'; simpl; auto.
    + injection Ug as <-. unfold fsub, SFsub, fext. split; [|exact Vg]. f_equal. destruct s'; simpl negb; cbv iota; lia.
  - injection Uf as <-.
    destruct g as [s'|s'| |s' m' e']; [| destruct s'; discriminate Ug | discriminate Ug |].
    + injection Ug as <-. unfold fsub, SFsub, fext. split; [f_equal; lia|exact Vf].
    + injection Ug as <-. unfold fsub, SFsub.
      apply valid_range in Vf as (R1 & _). apply valid_range in Vg as (R2 & _).
      rewrite E. apply normalize_exact; auto; try lia.
      rewrite <- E. rewrite Z.mul_sub_distr_r.
      assert (A : forall (b : bool) p x, Z.min e e' <= x ->
        cond_Zopp b (Z.pos (fst (shl_align p x (Z.min e e')))) * 2 ^ (Z.min e e' + 1074)
        = (if b then Z.neg p else Z.pos p) * 2 ^ (x + 1074)).
      { intros b p x Hx. unfold cond_Zopp. rewrite shl_align_value by auto.
        replace (x + 1074) with ((x - Z.min e e') + (Z.min e e' + 1074)) by lia.
        rewrite (Z.pow_add_r 2 (x - Z.min e e')) by lia.
        destruct b; [change (Z.neg p) with (- Z.pos p)|]; ring. }
      rewrite !A by lia. reflexivity.
Qed.

Lemma fabs_ext f u : fext f = Fin u -> fext (fabs f) = Fin (Z.abs u).
Proof.
  destruct f as [s|s| |s m e]; intros H; try (destruct s; discriminate H); try discriminate H.
  - injection H as <-. reflexivity.
  - unfold fext in H. injection H as <-. unfold fabs, SFabs, fext. f_equal.
    assert (0 <= 2 ^ (e + 1074)) by (apply Z.pow_nonneg; lia).
    rewrite Z.abs_mul, (Z.abs_eq (2 ^ (e + 1074))) by lia. destruct s; reflexivity.
Qed.
Lemma fabs_valid f : valid_float (fabs f) = valid_float f.
Proof. destruct f; reflexivity. Qed.

(** [int(f)] truncates: the result has at most 53 significant bits. *)
Lemma ftrunc_spec f u :
  valid_float f = true -> fext f = Fin u ->
  exists r k, ftrunc f = r * 2 ^ k /\ Z.abs r < 2 ^ 53 /\ 0 <= k <= 971 /\
  ftrunc f = Z.quot u UNIT /\
  exists r' k', u - ftrunc f * UNIT = r' * 2 ^ (k' + 1074) /\ Z.abs r' < 2 ^ 53 /\ -1074 <= k' <= 971.
Proof.
  intros V H. pose proof UNIT_pos as HU. assert (EU : UNIT = 2 ^ 1074) by reflexivity.
  destruct f as [s|s| |s m e]; try (destruct s; discriminate H); try discriminate H.
  - injection H as <-. exists 0, 0. simpl ftrunc. repeat split; try lia.
    exists 0, 0. repeat split; try lia.
  - injection H as <-. pose proof (valid_range _ _ _ V) as (R & B & C). unfold ftrunc.
    destruct (Z.leb_spec 0 e) as [He|He].
    + assert (E : (if s then - (Z.pos m * 2 ^ e) else Z.pos m * 2 ^ e) = (if s then Z.neg m else Z.pos m) * 2 ^ e).
      { destruct s; [change (Z.neg m) with (- Z.pos m)|]; ring. }
      rewrite E. exists (if s then Z.neg m else Z.pos m), e.
      assert (E2 : (if s then Z.neg m else Z.pos m) * 2 ^ (e + 1074) = (if s then Z.neg m else Z.pos m) * 2 ^ e * UNIT).
      { rewrite Z.pow_add_r, <- EU by lia. ring. }
      repeat split; auto; try lia.
      * destruct s; lia.
      * rewrite E2, Z.quot_mul by lia. reflexivity.
      * exists 0, 0. rewrite E2. repeat split; lia.
    + set (d := 2 ^ (- e)). assert (Pd : 0 < d) by (apply Z.pow_pos_nonneg; lia).
      assert (P2 : 0 < 2 ^ (e + 1074)) by (apply Z.pow_pos_nonneg; lia).
      assert (Ed : UNIT = d * 2 ^ (e + 1074)).
      { unfold d. rewrite <- Z.pow_add_r by lia. rewrite EU. f_equal. lia. }
      pose proof (Z.div_mod (Z.pos m) d ltac:(lia)) as DM.
      pose proof (Z.mod_pos_bound (Z.pos m) d Pd) as MB.
      set (q := Z.pos m / d) in *. set (t := Z.pos m mod d) in *.
      assert (0 <= q <= Z.pos m) by nia.
      exists (if s then - q else q), 0. rewrite Z.pow_0_r, Z.mul_1_r.
      repeat split; auto; try lia.
      * destruct s; lia.
      * rewrite Ed. destruct s; [change (Z.neg m) with (- Z.pos m)|];
          rewrite Z.quot_mul_cancel_r by lia.
        -- rewrite Z.quot_opp_l by lia. rewrite Z.quot_div_nonneg by lia. reflexivity.
        -- rewrite Z.quot_div_nonneg by lia. reflexivity.
      * exists (if s then - t else t), e. rewrite Ed.
        assert (t <= Z.pos m) by (subst t; apply Z.mod_le; lia).
        repeat split; try lia.
        -- destruct s; [change (Z.neg m) with (- Z.pos m)|]; rewrite DM; ring.
        -- destruct s; lia.
Qed.

(** ** Rounding always produces a valid double *)

Lemma shr_1_m r : 0 <= shr_m r -> shr_m (shr_1 r) = shr_m r / 2.
Proof.
  destruct r as [m rr s]. cbn [shr_m]. intros H. unfold shr_1.
  destruct m as [|p|p]; [reflexivity| |lia].
  destruct p as [p|p|]; cbn [shr_m].
  - rewrite Pos2Z.inj_xI. Z.div_mod_to_equations; lia.
  - rewrite Pos2Z.inj_xO. Z.div_mod_to_equations; lia.
  - reflexivity.
Qed.

Lemma iter_shr_m p : forall r, 0 <= shr_m r -> shr_m (iter_pos shr_1 p r) = shr_m r / 2 ^ Z.pos p.
Proof.
  assert (P2 : forall q, 0 < 2 ^ Z.pos q) by (intros; apply Z.pow_pos_nonneg; lia).
  induction p as [p IH|p IH|]; intros r H.
  - change (shr_m (iter_pos shr_1 p (iter_pos shr_1 p (shr_1 r))) = shr_m r / 2 ^ Z.pos p~1).
    assert (H1 : 0 <= shr_m (shr_1 r)) by (rewrite shr_1_m by auto; apply Z.div_pos; lia).
    rewrite IH; rewrite IH by auto.
    + rewrite shr_1_m by auto. rewrite !Z.div_div by (pose proof (P2 p); nia). f_equal.
      rewrite (Pos2Z.inj_xI p), Z.pow_add_r, Z.pow_1_r, Z.pow_twice_r by lia. ring.
    + apply Z.div_pos; auto.
  - change (shr_m (iter_pos shr_1 p (iter_pos shr_1 p r)) = shr_m r / 2 ^ Z.pos p~0).
    rewrite IH; rewrite IH by auto.
    + rewrite !Z.div_div by (pose proof (P2 p); nia). f_equal.
      rewrite (Pos2Z.inj_xO p), Z.pow_twice_r by lia. ring.
    + apply Z.div_pos; auto.
  - cbn [iter_pos]. rewrite shr_1_m by auto. reflexivity.
Qed.

Lemma shr_m_value r e n : 0 <= shr_m r -> 0 <= n ->
  shr_m (fst (shr r e n)) = shr_m r / 2 ^ n /\ snd (shr r e n) = e + n.
Proof.
  intros H Hn. unfold shr. destruct n as [|p|p]; cbn [fst snd]; [|split; [now apply iter_shr_m|reflexivity]|lia].
  rewrite Z.pow_0_r, Z.div_1_r. lia.
Qed.

Lemma shr_m_zero n e : shr_m (fst (shr (shr_record_of_loc 0 loc_Exact) e n)) = 0.
Proof.
  unfold shr. destruct n as [|p|p]; cbn [fst]; try reflexivity.
  rewrite iter_shr_m by (simpl; lia). simpl shr_m. apply Z.div_0_l. apply Z.pow_nonzero; lia.
Qed.

Lemma round_bounds m l : 0 <= m -> m <= round_nearest_even m l <= m + 1.
Proof. intros H. unfold round_nearest_even. destruct l as [|[]]; try lia. destruct (Z.even m); lia. Qed.

Lemma fexp64_mono a b : a <= b -> fexp64 a <= fexp64 b.
Proof. unfold fexp64. lia. Qed.

Lemma round_aux_valid s m e :
  e <= fexp64 (Z.pos (digits2_pos m) + e) -> -1074 <= e ->
  valid_float (binary_round_aux prec emax s (Z.pos m) e loc_Exact) = true.
Proof.
  intros He Hmin. unfold binary_round_aux.
  unfold shr_fexp at 1. cbn [Zdigits2]. rewrite fexp_eq.
  set (d := Z.pos (digits2_pos m)) in *. set (e1 := fexp64 (d + e)) in *.
  pose proof (shr_m_value (shr_record_of_loc (Z.pos m) loc_Exact) e (e1 - e) ltac:(simpl; lia) ltac:(lia)) as [M1 E1].
  destruct (shr (shr_record_of_loc (Z.pos m) loc_Exact) e (e1 - e)) as [r1 e1'] eqn:Es.
  cbn [fst snd] in M1, E1. cbn [shr_record_of_loc shr_m] in M1. assert (e1' = e1) as -> by lia. clear Es E1.
  assert (Pn : 0 < 2 ^ (e1 - e)) by (apply Z.pow_pos_nonneg; lia).
  pose proof (digits2_bounds m) as [B1 B2]. fold d in B1, B2.
  assert (N1 : 0 <= shr_m r1) by (rewrite M1; apply Z.div_pos; lia).
  pose proof (round_bounds (shr_m r1) (loc_of_shr_record r1) N1) as RB.
  set (m2 := round_nearest_even (shr_m r1) (loc_of_shr_record r1)) in *.
  (* the mantissa has at most d - (e1 - e) bits *)
  destruct m2 as [|p|p] eqn:Em2; [| |lia].
  { unfold shr_fexp. pose proof (shr_m_zero (fexp prec emax (Zdigits2 0 + e1) - e1) e1) as Hz.
    destruct (shr (shr_record_of_loc 0 loc_Exact) e1 (fexp prec emax (Zdigits2 0 + e1) - e1)) as [r2 e2].
    cbn [fst] in Hz. rewrite Hz. reflexivity. }
  unfold shr_fexp. cbn [Zdigits2]. rewrite fexp_eq.
  set (d2 := Z.pos (digits2_pos p)).
  pose proof (digits2_bounds p) as [C1 C2]. fold d2 in C1, C2.
  assert (D2pos : 1 <= d2) by (unfold d2; lia).
  assert (Key : fexp64 (d2 + e1) = e1 \/ (fexp64 (d2 + e1) = e1 + 1 /\ Z.pos p = 2 ^ 53 /\ d2 = 54)).
  { destruct (Z.le_gt_cases d (e1 - e)) as [Hsub|Hnorm].
    - (* m < 2^(e1-e): quotient 0 *)
      assert (shr_m r1 = 0).
      { rewrite M1. apply Z.div_small. split; [lia|]. eapply Z.lt_le_trans; [exact B2|]. apply Z.pow_le_mono_r; lia. }
      assert (Z.pos p = 1) by lia. assert (p = 1%positive) by lia. subst p.
      change d2 with 1 in *. left. unfold e1, fexp64 in *. lia.
    - assert (Hd1 : 2 ^ (d - (e1 - e) - 1) <= shr_m r1 < 2 ^ (d - (e1 - e))).
      { rewrite M1. split.
        - apply Z.div_le_lower_bound; auto. rewrite <- Z.pow_add_r by lia.
          replace (e1 - e + (d - (e1 - e) - 1)) with (d - 1) by lia. exact B1.
        - apply Z.div_lt_upper_bound; auto. rewrite <- Z.pow_add_r by lia.
          replace (e1 - e + (d - (e1 - e))) with d by lia. exact B2. }
      set (d1 := d - (e1 - e)) in *.
      assert (Hcan : fexp64 (d1 + e1) = e1) by (unfold d1; replace (d - (e1 - e) + e1) with (d + e) by lia; reflexivity).
      assert (Hd1p : 1 <= d1) by lia.
      destruct (Z.eq_dec (Z.pos p) (2 ^ d1)) as [Ep|Ep].
      + assert (Ed2 : d2 = d1 + 1).
        { unfold d2. apply digits2_unique. rewrite Ep. split; [apply Z.pow_le_mono_r; lia|apply Z.pow_lt_mono_r; lia]. }
        rewrite Ed2. assert (d1 <= 53) by (unfold fexp64 in Hcan; lia).
        destruct (Z.eq_dec d1 53) as [E53|E53].
        * unfold fexp64 in *. rewrite E53 in *. lia.
        * left. unfold fexp64 in *. lia.
      + left. assert (Ed2 : d2 = d1).
        { unfold d2. apply digits2_unique. lia. }
        now rewrite Ed2. }
  assert (He1 : -1074 <= e1) by (unfold e1, fexp64; lia).
  destruct Key as [K|(K & Kp & Kd)].
  - rewrite K, Z.sub_diag. cbn [shr shr_record_of_loc shr_m].
    destruct (Zle_bool e1 (emax - prec)) eqn:El; [|reflexivity].
    apply valid_finite. split; auto. apply Zle_is_le_bool in El. unfold emax, prec in El. lia.
  - rewrite K. replace (e1 + 1 - e1) with 1 by lia. cbn [shr iter_pos shr_record_of_loc].
    assert (p = Pos.pow 2 53) as ->.
    { apply Pos2Z.inj. rewrite Kp. reflexivity. }
    change (shr_m (shr_1 (Build_shr_record (Z.pos (2 ^ 53)) false false))) with (Z.pos (2 ^ 52)). cbv iota.
    destruct (Zle_bool (e1 + 1) (emax - prec)) eqn:El; [|reflexivity].
    apply valid_finite. apply Zle_is_le_bool in El. unfold emax, prec in El.
    change (Z.pos (digits2_pos (2 ^ 52))) with 53. unfold fexp64 in *. lia.
Qed.

Lemma normalize_valid z e sz : -1074 <= e -> valid_float (binary_normalize prec emax z e sz) = true.
Proof.
  intros He.
  assert (Main : forall s m, valid_float (binary_round prec emax s m e) = true).
  { intros s m. unfold binary_round. rewrite fexp_eq. unfold shl_align.
    set (d := Z.pos (digits2_pos m)). destruct (fexp64 (d + e) - e) as [|k|k] eqn:Ek.
    - apply round_aux_valid; fold d; lia.
    - apply round_aux_valid; fold d; lia.
    - set (e' := fexp64 (d + e)) in *.
      assert (Hm : Z.pos (shift_pos k m) = Z.pos m * 2 ^ (e - e')).
      { rewrite shift_pos_correct. change (Z.pow_pos 2 k) with (2 ^ Z.pos k). replace (e - e') with (Z.pos k) by lia. ring. }
      apply digits2_mul_pow in Hm; [|lia]. fold d in Hm.
      apply round_aux_valid.
      + rewrite Hm. replace (d + (e - e') + e') with (d + e) by lia. unfold e'. lia.
      + unfold e', fexp64. lia. }
  destruct z; cbn [binary_normalize]; auto.
Qed.

Lemma fofZ_valid z f : fofZ z = Some f -> valid_float f = true.
Proof.
  unfold fofZ. pose proof (normalize_valid z 0 false ltac:(lia)) as V.
  destruct (binary_normalize prec emax z 0 false); intros H; try discriminate H; now injection H as <-.
Qed.
