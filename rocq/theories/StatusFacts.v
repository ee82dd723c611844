(** Lemmas behind the theorems on reporting the status of a task. *)
From Verif Require Import World WorldSpec NumSpec BasicSpec FloatProofs ContentsFacts WorldFacts Status StatusSpec.
From Coq Require Import Lia.
Local Open Scope Z_scope.

(** * Rounding a product *)

(** The rounded value is within one unit in the last place. *)
Lemma round_aux_near s m e :
  e <= fexp64 (Z.pos (digits2_pos m) + e) -> fexp64 (Z.pos (digits2_pos m) + e) <= 900 ->
  let U := 2 ^ (fexp64 (Z.pos (digits2_pos m) + e) - e) in
  match binary_round_aux prec emax s (Z.pos m) e loc_Exact with
  | S754_zero t => t = s /\ Z.pos m <= U
  | S754_finite t q e2 => t = s /\ e <= e2 <= fexp64 (Z.pos (digits2_pos m) + e) + 1 /\
      Z.abs (Z.pos q * 2 ^ (e2 - e) - Z.pos m) <= U
  | _ => False
  end.
Proof.
  intros He Hmax U. unfold binary_round_aux.
  unfold shr_fexp at 1. cbn [Zdigits2]. rewrite fexp_eq.
  set (d := Z.pos (digits2_pos m)) in *. set (e1 := fexp64 (d + e)) in *.
  pose proof (shr_m_value (shr_record_of_loc (Z.pos m) loc_Exact) e (e1 - e) ltac:(simpl; lia) ltac:(lia)) as [M1 E1].
  destruct (shr (shr_record_of_loc (Z.pos m) loc_Exact) e (e1 - e)) as [r1 e1'] eqn:Es.
  cbn [fst snd] in M1, E1. cbn [shr_record_of_loc shr_m] in M1. assert (e1' = e1) as -> by lia. clear Es E1.
  assert (Pn : 0 < 2 ^ (e1 - e)) by (apply Z.pow_pos_nonneg; lia). fold U in M1, Pn.
  pose proof (digits2_bounds m) as [B1 B2]. fold d in B1, B2.
  assert (N1 : 0 <= shr_m r1) by (rewrite M1; apply Z.div_pos; lia).
  pose proof (round_bounds (shr_m r1) (loc_of_shr_record r1) N1) as RB.
  set (m2 := round_nearest_even (shr_m r1) (loc_of_shr_record r1)) in *.
  pose proof (Z.div_mod (Z.pos m) U ltac:(lia)) as DM. pose proof (Z.mod_pos_bound (Z.pos m) U Pn) as MB.
  rewrite <- M1 in DM.
  assert (Near : Z.abs (m2 * U - Z.pos m) <= U) by nia.
  destruct m2 as [|p|p] eqn:Em2; [| |lia].
  { unfold shr_fexp. pose proof (shr_m_zero (fexp prec emax (Zdigits2 0 + e1) - e1) e1) as Hz.
    destruct (shr (shr_record_of_loc 0 loc_Exact) e1 (fexp prec emax (Zdigits2 0 + e1) - e1)) as [r2 e2].
    cbn [fst] in Hz. rewrite Hz. split; [reflexivity|lia]. }
  unfold shr_fexp. cbn [Zdigits2]. rewrite fexp_eq.
  set (d2 := Z.pos (digits2_pos p)).
  pose proof (digits2_bounds p) as [C1 C2]. fold d2 in C1, C2.
  assert (D2pos : 1 <= d2) by (unfold d2; lia).
  assert (Key : fexp64 (d2 + e1) <= e1 \/ (fexp64 (d2 + e1) = e1 + 1 /\ Z.pos p = 2 ^ 53 /\ d2 = 54)).
  { destruct (Z.le_gt_cases d (e1 - e)) as [Hsub|Hnorm].
    - assert (shr_m r1 = 0).
      { rewrite M1. apply Z.div_small. split; [lia|]. eapply Z.lt_le_trans; [exact B2|]. apply Z.pow_le_mono_r; lia. }
      assert (Z.pos p = 1) by lia. assert (p = 1%positive) by lia. subst p.
      change d2 with 1 in *. left. unfold e1, fexp64 in *. lia.
    - assert (Hd1 : 2 ^ (d - (e1 - e) - 1) <= shr_m r1 < 2 ^ (d - (e1 - e))).
      { rewrite M1. split.
        - apply Z.div_le_lower_bound; auto. unfold U. rewrite <- Z.pow_add_r by lia.
          replace (e1 - e + (d - (e1 - e) - 1)) with (d - 1) by lia. exact B1.
        - apply Z.div_lt_upper_bound; auto. unfold U. rewrite <- Z.pow_add_r by lia.
          replace (e1 - e + (d - (e1 - e))) with d by lia. exact B2. }
      set (d1 := d - (e1 - e)) in *.
      assert (Hcan : fexp64 (d1 + e1) = e1) by (unfold d1; replace (d - (e1 - e) + e1) with (d + e) by lia; reflexivity).
      assert (Hd1p : 1 <= d1) by lia.
      destruct (Z.eq_dec (Z.pos p) (2 ^ d1)) as [Ep|Ep].
      + assert (Ed2 : d2 = d1 + 1).
        { unfold d2. apply digits2_unique. rewrite Ep. split; [apply Z.pow_le_mono_r; lia|apply Z.pow_lt_mono_r; lia]. }
        rewrite Ed2. assert (d1 <= 53) by (unfold fexp64 in Hcan; lia).
        destruct (Z.eq_dec d1 53) as [E53|E53].
        * unfold fexp64 in *. rewrite E53 in *. lia.
        * left. unfold fexp64 in *. lia.
      + left. assert (Ed2 : d2 = d1).
        { unfold d2. apply digits2_unique. lia. }
        rewrite Ed2. lia. }
  destruct Key as [K|(K & Kp & Kd)].
  - assert (shr (shr_record_of_loc (Z.pos p) loc_Exact) e1 (fexp64 (d2 + e1) - e1) = (shr_record_of_loc (Z.pos p) loc_Exact, e1)) as ->.
    { unfold shr. destruct (fexp64 (d2 + e1) - e1) eqn:Q; auto. lia. }
    cbn [shr_record_of_loc shr_m].
    replace (Zle_bool e1 (emax - prec)) with true by (symmetry; apply Zle_is_le_bool; unfold emax, prec; lia).
    split; auto. split; [lia|]. exact Near.
  - rewrite K. replace (e1 + 1 - e1) with 1 by lia. cbn [shr iter_pos shr_record_of_loc].
    assert (p = Pos.pow 2 53) as ->.
    { apply Pos2Z.inj. rewrite Kp. reflexivity. }
    change (shr_m (shr_1 (Build_shr_record (Z.pos (2 ^ 53)) false false))) with (Z.pos (2 ^ 52)). cbv iota.
    replace (Zle_bool (e1 + 1) (emax - prec)) with true by (symmetry; apply Zle_is_le_bool; unfold emax, prec; lia).
    split; auto. split; [lia|].
    replace (e1 + 1 - e) with (1 + (e1 - e)) by lia. rewrite Z.pow_add_r by lia. fold U.
    replace (Z.pos (2 ^ 52) * (2 ^ 1 * U)) with (Z.pos (2 ^ 53) * U); [exact Near|].
    change (Z.pos (2 ^ 53)) with (Z.pos (2 ^ 52) * 2 ^ 1). ring.
Qed.

(** Rounding to an integer is within one half. *)
Lemma half_even q d : 0 < d -> 0 <= q ->
  let a := match 2 * (q mod d) ?= d with
           | Lt => q / d | Gt => q / d + 1
           | Eq => if Z.even (q / d) then q / d else q / d + 1 end in
  2 * Z.abs (a * d - q) <= d.
Proof.
  intros D Q a. pose proof (Z.div_mod q d ltac:(lia)) as DM. pose proof (Z.mod_pos_bound q d D) as MB.
  unfold a. destruct (Z.compare_spec (2 * (q mod d)) d) as [H|H|H]; [destruct (Z.even (q / d))|..]; nia.
Qed.

(** * The percentage *)
Lemma digits_mul53 k m : (53 <= Z.pos (digits2_pos k)) -> 53 <= Z.pos (digits2_pos (k * m)).
Proof.
  intros H. pose proof (digits2_bounds k) as [A _]. pose proof (digits2_bounds (k * m)) as [_ B].
  destruct (Z.le_gt_cases 53 (Z.pos (digits2_pos (k * m)))) as [|G]; auto. exfalso.
  assert (2 ^ 52 <= 2 ^ (Z.pos (digits2_pos k) - 1)) by (apply Z.pow_le_mono_r; lia).
  assert (2 ^ Z.pos (digits2_pos (k * m)) <= 2 ^ 52) by (apply Z.pow_le_mono_r; lia).
  rewrite Pos2Z.inj_mul in B. nia.
Qed.

Lemma percent_near m e : (Z.pos m <= 2 ^ (- e)) -> e <= 0 ->
  exists z, fround (SFmul prec emax hundred (S754_finite false m e)) = Ok z /\ 0 <= z <= 100 /\
    100 * Z.abs (z * 2 ^ (46 - e) - 100 * 2 ^ 46 * Z.pos m) <= 51 * 2 ^ (46 - e).
Proof.
  intros Hm He. unfold hundred. cbn [SFmul xorb].
  set (k := (7036874417766400 * m)%positive). set (e' := -46 + e).
  assert (Hk : Z.pos k = 100 * 2 ^ 46 * Z.pos m) by (unfold k; rewrite Pos2Z.inj_mul; reflexivity).
  assert (D : 53 <= Z.pos (digits2_pos k)) by (apply digits_mul53; vm_compute; discriminate).
  pose proof (digits2_bounds k) as [B1 B2].
  set (d := Z.pos (digits2_pos k)) in *.
  assert (P0 : 0 < 2 ^ (- e)) by (apply Z.pow_pos_nonneg; lia).
  assert (PE : 2 ^ (46 - e) = 2 ^ 46 * 2 ^ (- e)) by (rewrite <- Z.pow_add_r by lia; f_equal; lia).
  assert (U7 : d - 1 < 7 + (46 - e)).
  { apply (Z.pow_lt_mono_r_iff 2); [lia|lia|]. eapply Z.le_lt_trans; [exact B1|]. rewrite Hk.
    rewrite (Z.pow_add_r 2 7) by lia. rewrite PE. change (2 ^ 7) with 128. nia. }
  set (e1 := fexp64 (d + e')).
  assert (He1 : e' <= e1) by (unfold e1, fexp64; lia).
  assert (E46 : e1 <= -46) by (unfold e1, fexp64, e'; lia).
  pose proof (round_aux_near false k e' He1 ltac:(fold d; fold e1; lia)) as R.
  fold d in R. fold e1 in R. cbv zeta in R.
  set (UU := 2 ^ (e1 - e')) in *.
  assert (U0 : 0 < UU) by (apply Z.pow_pos_nonneg; lia).
  assert (US : 128 * UU <= 2 ^ (46 - e)).
  { change 128 with (2 ^ 7). unfold UU. rewrite <- Z.pow_add_r by lia. apply Z.pow_le_mono_r; unfold e' in *; lia. }
  assert (Kb : 0 < Z.pos k <= 100 * 2 ^ (46 - e)) by (rewrite Hk, PE; nia).
  rewrite <- Hk.
  set (T := 2 ^ (46 - e)) in *.
  destruct (binary_round_aux prec emax false (Z.pos k) e' loc_Exact) as [t|t| |t q e2]; try contradiction.
  - exists 0. cbn [fround]. split; auto. split; [lia|]. lia.
  - destruct R as (-> & [E2a E2b] & N). cbn [fround].
    replace (0 <=? e2) with false by (symmetry; apply Z.leb_gt; lia).
    assert (Dp : 0 < 2 ^ (- e2)) by (apply Z.pow_pos_nonneg; lia).
    pose proof (half_even (Z.pos q) (2 ^ (- e2)) Dp ltac:(lia)) as HE. cbv zeta in HE.
    match type of HE with 2 * Z.abs (?x * _ - _) <= _ => set (a := x) in * end.
    exists a. split; [reflexivity|].
    set (V := 2 ^ (e2 - e')) in *.
    assert (V0 : 0 < V) by (apply Z.pow_pos_nonneg; lia).
    assert (TV : 2 ^ (- e2) * V = T).
    { unfold V, T. rewrite <- Z.pow_add_r by lia. f_equal. unfold e'. lia. }
    assert (HE' : 2 * Z.abs (a * T - Z.pos q * V) <= T).
    { rewrite <- TV. replace (a * (2 ^ (- e2) * V) - Z.pos q * V) with ((a * 2 ^ (- e2) - Z.pos q) * V) by ring.
      rewrite Z.abs_mul, (Z.abs_eq V) by lia. nia. }
    assert (F : 100 * Z.abs (a * T - Z.pos k) <= 51 * T) by lia.
    split; [|exact F]. nia.
Qed.

Lemma UNIT_eq : UNIT = 2 ^ 1074.
Proof. reflexivity. Qed.
Lemma percent_unit n : valid_num n -> within (Some (NZ 0)) (Some (NZ 1)) n -> n <> NF S754_nan ->
  forall v, as_num v = Some n ->
  exists z u, percent v = Ok z /\ 0 <= z <= 100 /\ ext_of n = Fin u /\ 100 * Z.abs (z * UNIT - 100 * u) <= 51 * UNIT.
Proof.
  intros V [W1 W2] N v Hv. specialize (W1 _ eq_refl). specialize (W2 _ eq_refl). unfold percent. rewrite Hv.
  destruct n as [z|f]; cbn [ext_of] in *.
  - pose proof UNIT_pos as UP. cbn [ext_lt] in *. exists (100 * z), (z * UNIT).
    split; auto. split; [nia|]. split; auto. replace (100 * z * UNIT - 100 * (z * UNIT)) with 0 by ring. lia.
  - destruct f as [s|s| |s m e]; cbn [fext] in *.
    + exists 0, 0. split; [reflexivity|]. split; [lia|]. split; [reflexivity|]. pose proof UNIT_pos. lia.
    + exfalso. destruct s; cbn [ext_lt] in *; auto.
    + congruence.
    + cbn [ext_lt] in *. change (0 * UNIT) with 0 in W1. rewrite Z.mul_1_l in W2.
      cbn [valid_num] in V. apply valid_finite in V as [V1 V2].
      assert (Emin : -1074 <= e) by (rewrite <- V1; unfold fexp64; lia).
      assert (P : 0 < 2 ^ (e + 1074)) by (apply Z.pow_pos_nonneg; lia).
      destruct s; [exfalso; nia|].
      assert (E0 : e <= 0).
      { destruct (Z.le_gt_cases e 0) as [|G]; auto. exfalso. apply W2. rewrite UNIT_eq.
        assert (2 ^ 1074 < 2 ^ (e + 1074)) by (apply Z.pow_lt_mono_r; lia). nia. }
      assert (S : 2 ^ (- e) * 2 ^ (e + 1074) = UNIT) by (rewrite <- Z.pow_add_r by lia; rewrite UNIT_eq; f_equal; lia).
      assert (Hm : Z.pos m <= 2 ^ (- e)).
      { apply Z.nlt_ge in W2. rewrite <- S in W2. apply Z.mul_le_mono_pos_r in W2; auto. }
      destruct (percent_near m e Hm E0) as (z & Hz & Bz & Nz).
      exists z, (Z.pos m * 2 ^ (e + 1074)). split; [exact Hz|]. split; [exact Bz|]. split; [reflexivity|].
      set (K := 2 ^ (e + 1074)) in *.
      assert (PE : 2 ^ (46 - e) = 2 ^ 46 * 2 ^ (- e)) by (rewrite <- Z.pow_add_r by lia; f_equal; lia).
      rewrite PE in Nz. rewrite <- S.
      replace (z * (2 ^ 46 * 2 ^ (- e)) - 100 * 2 ^ 46 * Z.pos m) with (2 ^ 46 * (z * 2 ^ (- e) - 100 * Z.pos m)) in Nz by ring.
      rewrite Z.abs_mul in Nz. change (Z.abs (2 ^ 46)) with (2 ^ 46) in Nz.
      replace (z * (2 ^ (- e) * K) - 100 * (Z.pos m * K)) with ((z * 2 ^ (- e) - 100 * Z.pos m) * K) by ring.
      rewrite Z.abs_mul, (Z.abs_eq K) by lia.
      set (A := Z.abs (z * 2 ^ (- e) - 100 * Z.pos m)) in *. set (B := 2 ^ (- e)) in *.
      assert (100 * A <= 51 * B) by lia. nia.
Qed.

(** * The line *)
Lemma field_aligned z : 0 <= z <= 100 -> right_aligned z (pad3 (show_int z)).
Proof.
  intros H.
  assert (G : forall k, (k <= 100)%nat ->
    (exists j, (1 <= j <= 3)%nat /\ pad3 (show_int (Z.of_nat k)) = unchars (repeat " "%char (3 - j) ++ decimal j (Z.of_nat k)) /\
      0 <= Z.of_nat k < 10 ^ Z.of_nat j /\ (j = 1%nat \/ 10 ^ Z.of_nat (j - 1) <= Z.of_nat k))).
  { intros k Hk.
    do 101 (destruct k as [|k]; [first [exists 1%nat; split; [lia|]; split; [vm_compute; reflexivity|]; split; [cbn; lia|auto]; fail
       | exists 2%nat; split; [lia|]; split; [vm_compute; reflexivity|]; split; [cbn; lia|right; cbn; lia]
       | exists 3%nat; split; [lia|]; split; [vm_compute; reflexivity|]; split; [cbn; lia|right; cbn; lia]]|]).
    lia. }
  specialize (G (Z.to_nat z) ltac:(lia)). rewrite Z2Nat.id in G by lia. exact G.
Qed.
