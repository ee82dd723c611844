(** The percentage does not fall while the progress rises. *)
From Verif Require Import World WorldSpec NumSpec BasicSpec FloatProofs ContentsFacts WorldFacts Status StatusSpec StatusFacts.
From Coq Require Import Lia.
Local Open Scope Z_scope.

(** * Division with rounding to the nearest, and to the even one if there are two *)
Definition rne (q d : Z) : Z :=
  match 2 * (q mod d) ?= d with
  | Lt => q / d
  | Gt => q / d + 1
  | Eq => if Z.even (q / d) then q / d else q / d + 1
  end.
Lemma rne_bounds q d : 0 < d -> q / d <= rne q d <= q / d + 1.
Proof. intros H. unfold rne. destruct (_ ?= _); [destruct Z.even|..]; lia. Qed.
Lemma rne_mono q q' d : 0 < d -> q <= q' -> rne q d <= rne q' d.
Proof.
  intros D H. pose proof (Z.div_le_mono q q' d D H) as L. pose proof (rne_bounds q d D). pose proof (rne_bounds q' d D).
  destruct (Z.eq_dec (q / d) (q' / d)) as [E|N]; [|lia].
  pose proof (Z.div_mod q d ltac:(lia)). pose proof (Z.div_mod q' d ltac:(lia)).
  assert (M : q mod d <= q' mod d) by nia. unfold rne. rewrite E. generalize dependent (q' / d). intros c. intros.
  clear - M. revert M. generalize (q mod d), (q' mod d). intros x y M.
  destruct (Z.compare_spec (2 * x) d), (Z.compare_spec (2 * y) d); try destruct (Z.even c); lia.
Qed.
Lemma rne_scale q d c : 0 < d -> 0 < c -> rne (q * c) (d * c) = rne q d.
Proof.
  intros D K. unfold rne. rewrite Z.div_mul_cancel_r, Z.mul_mod_distr_r by lia.
  replace (2 * (q mod d * c) ?= d * c) with (2 * (q mod d) ?= d); [reflexivity|].
  symmetry. rewrite (Z.mul_assoc 2). destruct (Z.compare_spec (2 * (q mod d)) d); [apply Z.compare_eq_iff|apply Z.compare_lt_iff|apply Z.compare_gt_iff]; nia.
Qed.
Lemma rne_exact a d : 0 < d -> rne (a * d) d = a.
Proof. intros D. unfold rne. rewrite Z.mod_mul, Z.div_mul by lia. destruct (Z.compare_spec (2 * 0) d); lia. Qed.

(** * Shifting keeps the first bit lost, and whether others are *)
Definition record (m : Z) (n : Z) (r : shr_record) : Prop :=
  shr_m r = m / 2 ^ n /\
  (n = 0 -> shr_r r = false /\ shr_s r = false) /\
  (0 < n -> shr_r r = Z.odd (m / 2 ^ (n - 1)) /\ shr_s r = negb (m mod 2 ^ (n - 1) =? 0)).
Lemma shr_1_record m n r : 0 <= m -> 0 <= n -> record m n r -> record m (n + 1) (shr_1 r).
Proof.
  intros Hm Hn (H1 & H2 & H3). destruct r as [q b s]. cbn [shr_m shr_r shr_s] in *.
  assert (P : 0 < 2 ^ n) by (apply Z.pow_pos_nonneg; lia).
  assert (Q : 0 <= q) by (rewrite H1; apply Z.div_pos; lia).
  assert (S1 : orb b s = negb (m mod 2 ^ n =? 0)).
  { destruct (Z.eq_dec n 0) as [->|N].
    - destruct H2 as [-> ->]; auto. rewrite Z.pow_0_r, Z.mod_1_r. reflexivity.
    - destruct H3 as [-> ->]; [lia|]. replace n with (n - 1 + 1) by lia. rewrite Z.pow_add_r, Z.pow_1_r by lia. replace (n - 1 + 1 - 1) with (n - 1) by lia.
      assert (P1 : 0 < 2 ^ (n - 1)) by (apply Z.pow_pos_nonneg; lia).
      rewrite Z.rem_mul_r by lia. pose proof (Z.mod_pos_bound m (2 ^ (n - 1)) P1).
      rewrite (Zmod_odd (m / 2 ^ (n - 1))). destruct (Z.odd (m / 2 ^ (n - 1))); cbn [orb].
      + symmetry. apply negb_true_iff, Z.eqb_neq. lia.
      + f_equal. f_equal. lia. }
  assert (D : m / 2 ^ (n + 1) = q / 2) by (rewrite Z.pow_add_r, Z.pow_1_r, <- Z.div_div, H1 by lia; reflexivity).
  assert (F : shr_m (shr_1 (Build_shr_record q b s)) = q / 2 /\ shr_r (shr_1 (Build_shr_record q b s)) = Z.odd q /\ shr_s (shr_1 (Build_shr_record q b s)) = orb b s).
  { destruct q as [|[p|p|]|p]; cbn [shr_1 shr_m shr_r shr_s]; try lia; (split; [|split; reflexivity]).
    - reflexivity.
    - rewrite Pos2Z.inj_xI. rewrite Z.add_comm, Z.mul_comm, Z.div_add by lia. reflexivity.
    - rewrite Pos2Z.inj_xO. rewrite Z.mul_comm, Z.div_mul by lia. reflexivity.
    - reflexivity. }
  destruct F as (F1 & F2 & F3). split; [congruence|]. split; [lia|]. intros _. replace (n + 1 - 1) with n by lia. rewrite F2, F3, S1, H1. auto.
Qed.
Lemma iter_record m r p : 0 <= m -> record m 0 r -> record m (Z.pos p) (iter_pos shr_1 p r).
Proof.
  intros Hm.
  assert (G : forall p n r, 0 <= n -> record m n r -> record m (n + Z.pos p) (iter_pos shr_1 p r)).
  { clear p r. induction p as [p IH|p IH|]; intros n r Hn H; cbn [iter_pos].
    - replace (n + Z.pos p~1) with (n + 1 + Z.pos p + Z.pos p) by lia. apply IH; [lia|]. apply IH; [lia|]. now apply shr_1_record.
    - replace (n + Z.pos p~0) with (n + Z.pos p + Z.pos p) by lia. apply IH; [lia|]. now apply IH.
    - now apply shr_1_record. }
  intros H. apply (G p 0 r); [lia|exact H].
Qed.
Lemma shr_record m e n : 0 <= m -> 0 <= n -> record m n (fst (shr (shr_record_of_loc m loc_Exact) e n)).
Proof.
  intros Hm Hn. assert (R0 : record m 0 (shr_record_of_loc m loc_Exact)).
  { cbn [shr_record_of_loc]. split; [cbn; now rewrite Z.div_1_r|]. split; [auto|lia]. }
  destruct n as [|p|p]; [exact R0| |lia]. apply iter_record; auto.
Qed.
Lemma record_round m n r : 0 <= m -> 0 <= n -> record m n r -> round_nearest_even (shr_m r) (loc_of_shr_record r) = rne m (2 ^ n).
Proof.
  intros Hm Hn (H1 & H2 & H3). destruct r as [q b s]. cbn [shr_m shr_r shr_s] in *. unfold rne. rewrite <- H1.
  destruct (Z.eq_dec n 0) as [->|N].
  - destruct H2 as [-> ->]; auto. rewrite Z.pow_0_r, Z.mod_1_r. reflexivity.
  - destruct H3 as [-> ->]; [lia|]. set (h := 2 ^ (n - 1)) in *.
    assert (P1 : 0 < h) by (apply Z.pow_pos_nonneg; lia).
    assert (PN : 2 ^ n = h * 2) by (replace n with (n - 1 + 1) by lia; rewrite Z.pow_add_r, Z.pow_1_r by lia; reflexivity).
    rewrite PN, Z.rem_mul_r by lia. pose proof (Z.mod_pos_bound m h P1). rewrite (Zmod_odd (m / h)).
    destruct (Z.eqb_spec (m mod h) 0) as [E0|N0]; destruct (Z.odd (m / h)); cbn [negb loc_of_shr_record round_nearest_even].
    + replace (2 * (m mod h + h * 1) ?= h * 2) with Eq; [reflexivity|]. symmetry. apply Z.compare_eq_iff. lia.
    + replace (2 * (m mod h + h * 0) ?= h * 2) with Lt; [reflexivity|]. symmetry. apply Z.compare_lt_iff. lia.
    + replace (2 * (m mod h + h * 1) ?= h * 2) with Gt; [reflexivity|]. symmetry. apply Z.compare_gt_iff. lia.
    + replace (2 * (m mod h + h * 0) ?= h * 2) with Lt; [reflexivity|]. symmetry. apply Z.compare_lt_iff. lia.
Qed.

(** * The rounded product is the nearest double *)
Lemma round_aux_rne s m e :
  e <= fexp64 (Z.pos (digits2_pos m) + e) -> fexp64 (Z.pos (digits2_pos m) + e) <= 900 ->
  let U := 2 ^ (fexp64 (Z.pos (digits2_pos m) + e) - e) in
  match binary_round_aux prec emax s (Z.pos m) e loc_Exact with
  | S754_zero t => rne (Z.pos m) U = 0
  | S754_finite t q e2 => t = s /\ e <= e2 <= fexp64 (Z.pos (digits2_pos m) + e) + 1 /\
      Z.pos q * 2 ^ (e2 - e) = rne (Z.pos m) U * U
  | _ => False
  end.
Proof.
  intros He Hmax U. unfold binary_round_aux.
  unfold shr_fexp at 1. cbn [Zdigits2]. rewrite fexp_eq.
  set (d := Z.pos (digits2_pos m)) in *. set (e1 := fexp64 (d + e)) in *.
  pose proof (shr_m_value (shr_record_of_loc (Z.pos m) loc_Exact) e (e1 - e) ltac:(simpl; lia) ltac:(lia)) as [M1 E1].
  pose proof (shr_record (Z.pos m) e (e1 - e) ltac:(lia) ltac:(lia)) as R.
  destruct (shr (shr_record_of_loc (Z.pos m) loc_Exact) e (e1 - e)) as [r1 e1'] eqn:Es.
  cbn [fst snd] in M1, E1, R. cbn [shr_record_of_loc shr_m] in M1. assert (e1' = e1) as -> by lia. clear Es E1.
  assert (Pn : 0 < 2 ^ (e1 - e)) by (apply Z.pow_pos_nonneg; lia). fold U in M1, Pn.
  pose proof (digits2_bounds m) as [B1 B2]. fold d in B1, B2.
  assert (N1 : 0 <= shr_m r1) by (rewrite M1; apply Z.div_pos; lia).
  pose proof (round_bounds (shr_m r1) (loc_of_shr_record r1) N1) as RB.
  pose proof (record_round (Z.pos m) (e1 - e) r1 ltac:(lia) ltac:(lia) R) as RR. fold U in RR.
  set (m2 := round_nearest_even (shr_m r1) (loc_of_shr_record r1)) in *. rewrite <- RR.
  destruct m2 as [|p|p] eqn:Em2; [| |lia].
  { unfold shr_fexp. pose proof (shr_m_zero (fexp prec emax (Zdigits2 0 + e1) - e1) e1) as Hz.
    destruct (shr (shr_record_of_loc 0 loc_Exact) e1 (fexp prec emax (Zdigits2 0 + e1) - e1)) as [r2 e2].
    cbn [fst] in Hz. rewrite Hz. reflexivity. }
  unfold shr_fexp. cbn [Zdigits2]. rewrite fexp_eq.
  set (d2 := Z.pos (digits2_pos p)).
  pose proof (digits2_bounds p) as [C1 C2]. fold d2 in C1, C2.
  assert (D2pos : 1 <= d2) by (unfold d2; lia).
  assert (Key : fexp64 (d2 + e1) <= e1 \/ (fexp64 (d2 + e1) = e1 + 1 /\ Z.pos p = 2 ^ 53 /\ d2 = 54)).
  { destruct (Z.le_gt_cases d (e1 - e)) as [Hsub|Hnorm].
    - assert (shr_m r1 = 0).
      { rewrite M1. apply Z.div_small. split; [lia|]. eapply Z.lt_le_trans; [exact B2|]. apply Z.pow_le_mono_r; lia. }
      assert (Z.pos p = 1) by lia. assert (p = 1%positive) by lia. subst p.
      change d2 with 1 in *. left. unfold e1, fexp64 in *. lia.
    - assert (Hd1 : 2 ^ (d - (e1 - e) - 1) <= shr_m r1 < 2 ^ (d - (e1 - e))).
      { rewrite M1. split.
        - apply Z.div_le_lower_bound; auto. unfold U. rewrite <- Z.pow_add_r by lia.
          replace (e1 - e + (d - (e1 - e) - 1)) with (d - 1) by lia. exact B1.
        - apply Z.div_lt_upper_bound; auto. unfold U. rewrite <- Z.pow_add_r by lia.
          replace (e1 - e + (d - (e1 - e))) with d by lia. exact B2. }
      set (d1 := d - (e1 - e)) in *.
      assert (Hcan : fexp64 (d1 + e1) = e1) by (unfold d1; replace (d - (e1 - e) + e1) with (d + e) by lia; reflexivity).
      assert (Hd1p : 1 <= d1) by lia.
      destruct (Z.eq_dec (Z.pos p) (2 ^ d1)) as [Ep|Ep].
      + assert (Ed2 : d2 = d1 + 1).
        { unfold d2. apply digits2_unique. rewrite Ep. split; [apply Z.pow_le_mono_r; lia|apply Z.pow_lt_mono_r; lia]. }
        rewrite Ed2. assert (d1 <= 53) by (unfold fexp64 in Hcan; lia).
        destruct (Z.eq_dec d1 53) as [E53|E53].
        * unfold fexp64 in *. rewrite E53 in *. lia.
        * left. unfold fexp64 in *. lia.
      + left. assert (Ed2 : d2 = d1).
        { unfold d2. apply digits2_unique. lia. }
        rewrite Ed2. lia. }
  destruct Key as [K|(K & Kp & Kd)].
  - assert (shr (shr_record_of_loc (Z.pos p) loc_Exact) e1 (fexp64 (d2 + e1) - e1) = (shr_record_of_loc (Z.pos p) loc_Exact, e1)) as ->.
    { unfold shr. destruct (fexp64 (d2 + e1) - e1) eqn:Q; auto. lia. }
    cbn [shr_record_of_loc shr_m].
    replace (Zle_bool e1 (emax - prec)) with true by (symmetry; apply Zle_is_le_bool; unfold emax, prec; lia).
    split; auto. split; [lia|]. reflexivity.
  - rewrite K. replace (e1 + 1 - e1) with 1 by lia. cbn [shr iter_pos shr_record_of_loc].
    assert (p = Pos.pow 2 53) as ->.
    { apply Pos2Z.inj. rewrite Kp. reflexivity. }
    change (shr_m (shr_1 (Build_shr_record (Z.pos (2 ^ 53)) false false))) with (Z.pos (2 ^ 52)). cbv iota.
    replace (Zle_bool (e1 + 1) (emax - prec)) with true by (symmetry; apply Zle_is_le_bool; unfold emax, prec; lia).
    split; auto. split; [lia|].
    replace (e1 + 1 - e) with (1 + (e1 - e)) by lia. rewrite Z.pow_add_r by lia. fold U.
    change (Z.pos (2 ^ 53)) with (Z.pos (2 ^ 52) * 2 ^ 1). ring.
Qed.

(** * The percentage as a function of the progress, in units of 2 ^ -1074 *)
(** The double nearest to [X], in units of 2 ^ -1120 *)
Definition grid (X : Z) : Z := Z.max (Z.log2 X + 1 - 53) 46.
Definition near (X : Z) : Z := rne X (2 ^ grid X) * 2 ^ grid X.
Lemma near_mono X Y : 0 <= X -> X <= Y -> near X <= near Y.
Proof.
  intros H0 H. unfold near.
  assert (GX : 46 <= grid X) by (unfold grid; lia). assert (GY : 46 <= grid Y) by (unfold grid; lia).
  assert (PX : 0 < 2 ^ grid X) by (apply Z.pow_pos_nonneg; lia). assert (PY : 0 < 2 ^ grid Y) by (apply Z.pow_pos_nonneg; lia).
  pose proof (Z.log2_le_mono X Y H) as L.
  destruct (Z.eq_dec (grid X) (grid Y)) as [E|N].
  - rewrite E. apply Z.mul_le_mono_nonneg_r; [lia|]. now apply rne_mono.
  - assert (LT : Z.log2 X + 1 <= Z.log2 Y /\ grid Y = Z.log2 Y + 1 - 53) by (unfold grid in *; lia). destruct LT as [LT EY].
    assert (0 < Y) by (destruct (Z.eq_dec Y 0) as [->|]; [cbn in LT; pose proof (Z.log2_nonneg X); lia|lia]).
    pose proof (Z.log2_spec Y ltac:(lia)) as [SY _].
    set (B := 2 ^ Z.log2 Y) in *.
    assert (UX : X <= B).
    { destruct (Z.eq_dec X 0) as [->|]; [apply Z.pow_nonneg; lia|]. pose proof (Z.log2_spec X ltac:(lia)) as [_ SX].
      apply Z.le_trans with (2 ^ Z.succ (Z.log2 X)); [lia|]. apply Z.pow_le_mono_r; lia. }
    assert (LX : grid X <= Z.log2 Y) by (unfold grid in *; lia).
    assert (LY : grid Y <= Z.log2 Y) by lia.
    assert (BX : B = 2 ^ (Z.log2 Y - grid X) * 2 ^ grid X) by (unfold B; rewrite <- Z.pow_add_r by lia; f_equal; lia).
    assert (BY : B = 2 ^ (Z.log2 Y - grid Y) * 2 ^ grid Y) by (unfold B; rewrite <- Z.pow_add_r by lia; f_equal; lia).
    apply Z.le_trans with B.
    + rewrite BX. apply Z.mul_le_mono_nonneg_r; [lia|]. rewrite <- (rne_exact (2 ^ (Z.log2 Y - grid X)) (2 ^ grid X)) by lia.
      apply rne_mono; [lia|]. lia.
    + rewrite BY. apply Z.mul_le_mono_nonneg_r; [lia|]. rewrite <- (rne_exact (2 ^ (Z.log2 Y - grid Y)) (2 ^ grid Y)) at 1 by lia.
      apply rne_mono; [lia|]. lia.
Qed.
Definition hundredfold (u : Z) : Z := rne (near (100 * 2 ^ 46 * u)) (2 ^ 1120).
Lemma hundredfold_mono u v : 0 <= u -> u <= v -> hundredfold u <= hundredfold v.
Proof.
  intros H0 H. unfold hundredfold. apply rne_mono; [apply Z.pow_pos_nonneg; lia|]. apply near_mono; nia.
Qed.
Lemma log2_digits p : Z.pos (digits2_pos p) = Z.log2 (Z.pos p) + 1.
Proof.
  pose proof (digits2_bounds p) as [A B]. assert (Z.log2 (Z.pos p) = Z.pos (digits2_pos p) - 1); [|lia].
  apply Z.log2_unique; [lia|]. split; [exact A|]. replace (Z.succ (Z.pos (digits2_pos p) - 1)) with (Z.pos (digits2_pos p)) by lia. exact B.
Qed.
Lemma percent_rne m e : (Z.pos m <= 2 ^ (- e)) -> -1074 <= e <= 0 ->
  fround (SFmul prec emax hundred (S754_finite false m e)) = Ok (hundredfold (Z.pos m * 2 ^ (e + 1074))).
Proof.
  intros Hm He. unfold hundred. cbn [SFmul xorb].
  set (k := (7036874417766400 * m)%positive). set (e' := -46 + e).
  assert (Hk : Z.pos k = 100 * 2 ^ 46 * Z.pos m) by (unfold k; rewrite Pos2Z.inj_mul; reflexivity).
  assert (D : 53 <= Z.pos (digits2_pos k)) by (apply digits_mul53; vm_compute; discriminate).
  pose proof (digits2_bounds k) as [B1 B2]. pose proof (log2_digits k) as LD.
  set (d := Z.pos (digits2_pos k)) in *.
  assert (P0 : 0 < 2 ^ (- e)) by (apply Z.pow_pos_nonneg; lia).
  assert (PE : 2 ^ (46 - e) = 2 ^ 46 * 2 ^ (- e)) by (rewrite <- Z.pow_add_r by lia; f_equal; lia).
  assert (U7 : d - 1 < 7 + (46 - e)).
  { apply (Z.pow_lt_mono_r_iff 2); [lia|lia|]. eapply Z.le_lt_trans; [exact B1|]. rewrite Hk.
    rewrite (Z.pow_add_r 2 7) by lia. rewrite PE. change (2 ^ 7) with 128. nia. }
  set (e1 := fexp64 (d + e')).
  assert (He1 : e' <= e1) by (unfold e1, fexp64; lia).
  assert (E46 : e1 <= -46) by (unfold e1, fexp64, e'; lia).
  pose proof (round_aux_rne false k e' He1 ltac:(fold d; fold e1; lia)) as R.
  fold d in R. fold e1 in R. cbv zeta in R.
  set (c := e' + 1120). assert (Hc : 0 <= c) by (unfold c, e'; lia).
  assert (PC : 0 < 2 ^ c) by (apply Z.pow_pos_nonneg; lia).
  unfold hundredfold. set (X := 100 * 2 ^ 46 * (Z.pos m * 2 ^ (e + 1074))).
  assert (HX : X = Z.pos k * 2 ^ c).
  { unfold X. rewrite Hk. replace c with (e + 1074) by (unfold c, e'; lia). ring. }
  assert (GX : grid X = e1 + 1120).
  { unfold grid. rewrite HX, Z.log2_mul_pow2 by lia. unfold e1, fexp64. unfold c. lia. }
  assert (G0 : 0 <= e1 - e') by lia.
  assert (NX : near X = rne (Z.pos k) (2 ^ (e1 - e')) * 2 ^ (e1 - e') * 2 ^ c).
  { unfold near. rewrite GX, HX. replace (e1 + 1120) with (e1 - e' + c) by (unfold c; lia). rewrite Z.pow_add_r by lia.
    rewrite rne_scale by (try apply Z.pow_pos_nonneg; lia). ring. }
  rewrite NX.
  destruct (binary_round_aux prec emax false (Z.pos k) e' loc_Exact) as [t|t| |t q e2]; try contradiction.
  - rewrite R. reflexivity.
  - destruct R as (-> & [E2a E2b] & N). rewrite <- N. cbn [fround].
    replace (0 <=? e2) with false by (symmetry; apply Z.leb_gt; lia). f_equal.
    rewrite <- Z.mul_assoc, <- Z.pow_add_r by lia.
    replace (2 ^ 1120) with (2 ^ (- e2) * 2 ^ (e2 - e' + c)) by (rewrite <- Z.pow_add_r by (unfold c; lia); f_equal; unfold c; lia).
    rewrite rne_scale by (apply Z.pow_pos_nonneg; lia). reflexivity.
Qed.
Lemma percent_is v n u : valid_num n -> within (Some (NZ 0)) (Some (NZ 1)) n -> as_num v = Some n -> ext_of n = Fin u ->
  0 <= u /\ percent v = Ok (hundredfold u).
Proof.
  intros V [W1 W2] Hv Hu. specialize (W1 _ eq_refl). specialize (W2 _ eq_refl). unfold percent. rewrite Hv.
  destruct n as [z|f]; cbn [ext_of] in *.
  - pose proof UNIT_pos as UP. cbn [ext_lt] in *. injection Hu as <-. split; [nia|]. f_equal.
    assert (z = 0 \/ z = 1) as [-> | ->] by nia; rewrite UNIT_eq; vm_compute; reflexivity.
  - destruct f as [s|s| |s m e]; cbn [fext] in *.
    + injection Hu as <-. split; [lia|]. reflexivity.
    + exfalso. destruct s; cbn [ext_lt] in *; auto.
    + discriminate.
    + cbn [ext_lt] in *. change (0 * UNIT) with 0 in W1. rewrite Z.mul_1_l in W2.
      cbn [valid_num] in V. apply valid_finite in V as [V1 V2].
      assert (Emin : -1074 <= e) by (rewrite <- V1; unfold fexp64; lia).
      assert (P : 0 < 2 ^ (e + 1074)) by (apply Z.pow_pos_nonneg; lia).
      destruct s; [exfalso; nia|].
      assert (E0 : e <= 0).
      { destruct (Z.le_gt_cases e 0) as [|G]; auto. exfalso. apply W2. rewrite UNIT_eq.
        assert (2 ^ 1074 < 2 ^ (e + 1074)) by (apply Z.pow_lt_mono_r; lia). nia. }
      assert (S : 2 ^ (- e) * 2 ^ (e + 1074) = UNIT) by (rewrite <- Z.pow_add_r by lia; rewrite UNIT_eq; f_equal; lia).
      assert (Hm : Z.pos m <= 2 ^ (- e)).
      { apply Z.nlt_ge in W2. rewrite <- S in W2. apply Z.mul_le_mono_pos_r in W2; auto. }
      injection Hu as <-. split; [revert P; destruct (2 ^ (e + 1074)); lia|]. apply percent_rne; lia.
Qed.
Lemma percent_mono v v' n n' u u' z z' : valid_num n -> within (Some (NZ 0)) (Some (NZ 1)) n -> as_num v = Some n -> ext_of n = Fin u ->
  valid_num n' -> within (Some (NZ 0)) (Some (NZ 1)) n' -> as_num v' = Some n' -> ext_of n' = Fin u' -> u <= u' ->
  percent v = Ok z -> percent v' = Ok z' -> z <= z'.
Proof.
  intros V W A X V' W' A' X' H P P'. destruct (percent_is v n u V W A X) as [U1 Q]. destruct (percent_is v' n' u' V' W' A' X') as [_ Q'].
  rewrite Q in P. rewrite Q' in P'. injection P as <-. injection P' as <-. now apply hundredfold_mono.
Qed.
