(** Leaf property lemmas in the form used by PropertiesBasic.v. *)
From Coq Require Import Permutation.
From Verif Require Import PyBase PyFloat PyVal Basic NumSpec FloatProofs BasicSpec BasicProofs DateProofs UuidProofs Colors.
Open Scope Z_scope.

Lemma int_sound c mn mx v w :
  valid_opt mn -> valid_opt mx -> int_validate c mn mx v = LOk w -> exists z, w = VInt z /\ within mn mx (NZ z).
Proof.
  intros Vn Vx H. apply int_validate_ok in H as (z & -> & _ & B & _). exists z. split; auto.
  apply in_bounds_within; simpl; auto.
Qed.

Lemma int_accept c mn mx z :
  valid_opt mn -> valid_opt mx -> (int_validate c mn mx (VInt z) = LOk (VInt z) <-> within mn mx (NZ z)).
Proof.
  intros Vn Vx. rewrite int_validate_int, <- in_bounds_within by (simpl; auto).
  destruct (in_bounds mn mx (NZ z)); split; intros; congruence.
Qed.

Lemma int_float_iff mn mx f u w :
  valid_opt mn -> valid_opt mx -> valid_float f = true -> fext f = Fin u ->
  (int_validate false mn mx (VFloat f) = LOk w <->
   w = VInt (Z.quot u UNIT) /\ close (NF f) (NZ (Z.quot u UNIT)) /\ within mn mx (NZ (Z.quot u UNIT))).
Proof.
  intros Vn Vx V U. destruct (ftrunc_spec f u V U) as (_ & _ & _ & _ & _ & Q & _).
  destruct (off_tolerance_trunc f u V U) as (b & Eb & Cb). rewrite Q in *.
  rewrite <- in_bounds_within by (simpl; auto).
  unfold int_validate. cbn [py_int]. rewrite Q.
  assert (N : is_nan f = false) by (destruct f; auto; discriminate).
  assert (I : is_inf f = false) by (destruct f as [| [] | |]; auto; discriminate).
  rewrite N, I, Eb. destruct b.
  - split; [discriminate|]. intros (_ & C & _). apply Cb in C. discriminate.
  - destruct (in_bounds mn mx (NZ (u ÷ UNIT))).
    + split; [intros [= <-]|intros (-> & _)]; auto. repeat split; auto. now apply Cb.
    + split; [discriminate|]. intros (_ & _ & ?). discriminate.
Qed.

Lemma parse_int_exc v e : py_int v = Exc e -> is_value_error e = true \/ e = ExType \/ (e = ExOverflow /\ exists s, v = VFloat (S754_infinity s)).
Proof.
  destruct v; simpl; try (intros [= <-]; auto); try discriminate.
  - destruct f as [s|s| |s m x]; simpl; try discriminate; intros [= <-]; simpl; eauto.
  - destruct (parse_int 10 s); [discriminate|intros [= <-]; auto].
Qed.

Lemma absdiff_exc a b e : absdiff a b = Exc e -> e = ExOverflow.
Proof.
  destruct a as [x|f], b as [y|g]; cbn [absdiff py_float_num rbind]; try discriminate.
  - destruct (fofZ x); cbn [rbind]; congruence.
  - destruct (fofZ y); cbn [rbind]; congruence.
Qed.

Lemma off_tolerance_exc v n e : off_tolerance v n = Exc e -> e = ExType \/ e = ExOverflow.
Proof.
  unfold off_tolerance. destruct (as_num v) as [m|]; [|intros [= <-]; auto].
  destruct (absdiff m n) eqn:A; cbn [rbind]; [discriminate|]. apply absdiff_exc in A. subst. intros [= <-]; auto.
Qed.

Lemma fin_float_trunc_ok f : valid_float f = true -> is_nan f = false -> is_inf f = false ->
  exists b, off_tolerance (VFloat f) (NZ (ftrunc f)) = Ok b.
Proof.
  intros V N I. destruct (fin_ext f N I) as [u U]. destruct (off_tolerance_trunc f u V U) as (b & E & _). eauto.
Qed.

Lemma int_only_overflow c mn mx v e : valid_val v ->
  int_validate c mn mx v = LExc e -> e = ExOverflow /\ exists s, v = VFloat (S754_infinity s).
Proof.
  intros V. unfold int_validate. destruct (py_int v) as [z|e'] eqn:P.
  - destruct c.
    { destruct (in_bounds mn mx (NZ z)); discriminate. }
    destruct (off_tolerance v (NZ z)) as [b|e'] eqn:O.
    { destruct b; [discriminate|destruct (in_bounds mn mx (NZ z)); discriminate]. }
    intros H. exfalso.
    destruct v; cbn [py_int] in P; try discriminate P;
      try (unfold off_tolerance in O; cbn [as_num absdiff rbind] in O; (discriminate O || (injection O as <-; discriminate H))).
    destruct (is_nan f) eqn:N; [discriminate|]. destruct (is_inf f) eqn:I; [discriminate|].
    injection P as <-. destruct (fin_float_trunc_ok f V N I) as [b Eb]. congruence.
  - apply parse_int_exc in P as [P|[->|[-> H]]]; simpl.
    + destruct e'; simpl in *; try discriminate.
    + discriminate.
    + intros [= <-]. auto.
Qed.

Lemma py_float_valid E v f : valid_env E -> valid_val v -> py_float E v = Ok f -> valid_float f = true.
Proof.
  intros VE V. destruct v; simpl; try discriminate.
  - destruct b; intros [= <-]; reflexivity.
  - destruct (fofZ z) eqn:F; [|discriminate]. intros [= <-]. eapply fofZ_valid; eauto.
  - intros [= <-]. auto.
  - destruct (e_fparse E s) eqn:F; [|discriminate]. intros [= <-]. eapply VE; eauto.
Qed.

Lemma float_sound E c mn mx v w :
  valid_env E -> valid_val v -> valid_opt mn -> valid_opt mx -> float_validate E c mn mx v = LOk w ->
  exists f, w = VFloat f /\ within mn mx (NF f).
Proof.
  intros VE V Vn Vx H. apply float_validate_ok in H as (f & -> & P & B & _). exists f. split; auto.
  apply in_bounds_within; auto. simpl. eapply py_float_valid; eauto.
Qed.

Lemma float_accept E c mn mx f w :
  valid_float f = true -> valid_opt mn -> valid_opt mx ->
  (float_validate E c mn mx (VFloat f) = LOk w <-> w = VFloat f /\ within mn mx (NF f)).
Proof.
  intros V Vn Vx. rewrite float_validate_float, <- in_bounds_within by (simpl; auto).
  destruct (in_bounds mn mx (NF f)); split; intros H; try congruence.
  - injection H as <-. auto.
  - destruct H as [-> _]. auto.
  - destruct H; discriminate.
Qed.

(** An int small enough for a double is accepted exactly. *)
Lemma float_int_exact E c mn mx z :
  Z.abs z <= 2 ^ 53 -> valid_opt mn -> valid_opt mx ->
  exists f, fext f = Fin (z * UNIT) /\
    (float_validate E c mn mx (VInt z) = LOk (VFloat f) <-> within mn mx (NZ z)).
Proof.
  intros Hz Vn Vx.
  assert (exists r k, Z.abs r < 2 ^ 53 /\ 0 <= k <= 971 /\ z = r * 2 ^ k) as (r & k & Hr & Hk & Er).
  { destruct (Z.eq_dec (Z.abs z) (2 ^ 53)) as [E53|N].
    - exists (Z.sgn z * 2 ^ 52), 1. rewrite Z.pow_1_r.
      pose proof (Z.sgn_abs z). pose proof (Z.abs_sgn z). change (2 ^ 53) with (2 ^ 52 * 2) in *. split; [|lia].
      rewrite Z.abs_mul. assert (Z.abs (Z.sgn z) <= 1) by lia. change (Z.abs (2 ^ 52)) with (2 ^ 52). lia.
    - exists z, 0. rewrite Z.pow_0_r. lia. }
  destruct (fofZ_exact z r k) as (f & Ef & Uf & Vf); try lia.
  exists f. split; auto. unfold float_validate. cbn [py_float as_num py_float_num]. rewrite Ef.
  assert (T : (if c then Ok false else off_tolerance (VInt z) (NF f)) = Ok false).
  { destruct c; auto. unfold off_tolerance. cbn [as_num absdiff py_float_num rbind]. rewrite Ef. cbn [rbind].
    f_equal. apply fsub_self_not_above. }
  rewrite T, <- in_bounds_within by (simpl; auto).
  assert (B : in_bounds mn mx (NF f) = in_bounds mn mx (NZ z)).
  { apply eq_true_iff_eq. rewrite !in_bounds_within by (simpl; auto). unfold within. cbn [ext_of]. rewrite Uf. tauto. }
  rewrite B. destruct (in_bounds mn mx (NZ z)); split; intros; congruence.
Qed.

Lemma float_only_overflow E c mn mx v e : valid_val v ->
  float_validate E c mn mx v = LExc e -> e = ExOverflow /\ exists z, v = VInt z /\ fofZ z = None.
Proof.
  intros V. unfold float_validate. destruct (py_float E v) as [f|e'] eqn:P.
  - destruct (if c then Ok false else off_tolerance v (NF f)) as [[]|e'] eqn:T; try discriminate.
    { destruct (in_bounds mn mx (NF f)); discriminate. }
    destruct c; [discriminate|]. unfold off_tolerance in T.
    destruct v; simpl in P, T; try discriminate; try (injection T as <-; discriminate).
    + destruct b; discriminate.
    + destruct (fofZ z) eqn:F; [|discriminate]. cbn [rbind] in T. discriminate.
  - destruct v; simpl in P; try discriminate; try (injection P as <-; discriminate).
    + destruct b; discriminate.
    + destruct (fofZ z) eqn:F; [discriminate|]. injection P as <-. simpl. intros [= <-]. eauto.
    + destruct (e_fparse E s); [discriminate|]. injection P as <-. discriminate.
Qed.

(** ** String *)
Lemma stripped_uniq cs l t t' : stripped cs l t -> stripped cs l t' -> t = t'.
Proof.
  revert l t t'.
    assert (Pre : forall p q x y, Forall (fun c => In c cs) p -> Forall (fun c => In c cs) q ->
       (forall c r, x = c :: r -> ~ In c cs) -> (forall c r, y = c :: r -> ~ In c cs) ->
       p ++ x = q ++ y -> x <> [] -> y <> [] -> x = y).
    { induction p as [|a p IH]; intros [|b q] x y Fp Fq Hx Hy E Nx Ny; simpl in *; auto.
      - exfalso. inversion Fq; subst. eapply Hx; eauto.
      - exfalso. inversion Fp; subst. eapply Hy; eauto.
      - injection E as -> E. inversion Fp; inversion Fq; subst. eapply IH; eauto. }
    assert (Emp : forall l t, stripped cs l t -> (t = [] <-> Forall (fun c => In c cs) l)).
    { intros l t (pre & post & -> & F1 & F2 & H1 & H2). split.
      - intros ->. simpl. apply Forall_app; auto.
      - intros F. destruct t as [|c r]; auto. exfalso. apply (H1 c r eq_refl).
        rewrite Forall_forall in F. apply F. apply in_app_iff. right. left. auto. }
    intros l t t' S S'. pose proof (Emp _ _ S) as E1. pose proof (Emp _ _ S') as E2.
    destruct t as [|c0 r0].
    { symmetry. apply E2, E1. auto. }
    assert (Nt' : t' <> []). { intros ->. assert (c0 :: r0 = []) by (apply E1, E2; auto). discriminate. }
    set (t := c0 :: r0) in *. assert (Nt : t <> []) by discriminate.
    destruct S as (pre & post & -> & F1 & F2 & H1 & H2). destruct S' as (pre' & post' & E & F1' & F2' & H1' & H2').
    assert (M : t ++ post = t' ++ post').
    { apply (Pre pre pre'); auto.
      - intros c r Ec. destruct t; [congruence|]. simpl in Ec. injection Ec as -> _. eauto.
      - intros c r Ec. destruct t'; [congruence|]. simpl in Ec. injection Ec as -> _. eauto.
      - unfold t. discriminate.
      - destruct t'; [congruence|discriminate]. }
    apply (f_equal (@rev ascii)) in M. rewrite !rev_app_distr in M.
    rewrite <- (rev_involutive t), <- (rev_involutive t'). f_equal.
    apply (Pre (rev post) (rev post')); auto using Forall_rev.
    - intros c r Ec. apply (f_equal (@rev ascii)) in Ec. rewrite rev_involutive in Ec. simpl in Ec. eauto.
    - intros c r Ec. apply (f_equal (@rev ascii)) in Ec. rewrite rev_involutive in Ec. simpl in Ec. eauto.
    - intros Er. apply Nt. rewrite <- (rev_involutive t), Er. reflexivity.
    - intros Er. apply Nt'. rewrite <- (rev_involutive t'), Er. reflexivity.
Qed.

Lemma string_spec o v w :
  string_validate o v = LOk w <->
  exists s t, v = VStr s /\ (forall r, so_regex o = Some r -> r s = true) /\
    stripped (chars (so_strip o)) (chars s) t /\
    w = VStr (unchars (match so_case o with CUpper => map ch_upper t | CLower => map ch_lower t | CNone => t end)).
Proof.
  split.
  - unfold string_validate. destruct v; try discriminate.
    destruct (match so_regex o with Some r => negb (r s) | None => false end) eqn:R; [discriminate|].
    intros [= <-]. exists s, (strip_by (mem_ch (chars (so_strip o))) (chars s)).
    split; auto. split.
    { intros r Hr. rewrite Hr in R. now apply negb_false_iff in R. }
    split; [apply stripped_spec|]. f_equal.
    unfold str_strip, str_upper, str_lower. destruct (so_case o); rewrite ?chars_unchars; reflexivity.
  - intros (s & t & -> & R & S & ->). unfold string_validate.
    assert (R' : (match so_regex o with Some r => negb (r s) | None => false end) = false).
    { destruct (so_regex o); auto. now rewrite (R _ eq_refl). }
    rewrite R'. do 2 f_equal.
    assert (t = strip_by (mem_ch (chars (so_strip o))) (chars s)) as ->
      by (eapply stripped_uniq; [exact S|apply stripped_spec]).
    unfold str_strip, str_upper, str_lower. destruct (so_case o); rewrite ?chars_unchars; reflexivity.
Qed.

(** ** Color *)
Lemma color_sound rc v w : color_validate rc v = LOk w ->
  exists a b c, w = VTuple [a; b; c] /\ Forall (int_in 0 255) [a; b; c].
Proof.
  intros H. apply color_validate_ok in H as (l & -> & L & F).
  destruct l as [|a [|b [|c [|]]]]; try discriminate. exists a, b, c. split; auto.
  rewrite forallb_forall in F. apply Forall_forall. intros x Hx. apply color_comp_int. auto.
Qed.

Lemma color_seq rc l w : (color_validate rc (VList l) = LOk w <-> w = VTuple l /\ length l = 3%nat /\ Forall (int_in 0 255) l) /\
  color_validate rc (VTuple l) = color_validate rc (VList l).
Proof.
  split; [|reflexivity]. simpl. split.
  - intros H. apply color_components_ok in H as (-> & L & F). repeat split; auto.
    rewrite forallb_forall in F. apply Forall_forall. intros x Hx. apply color_comp_int. auto.
  - intros (-> & L & F). unfold color_components. rewrite L. simpl.
    assert (forallb color_comp l = true) as ->; auto. apply forallb_forall. intros x Hx.
    rewrite Forall_forall in F. specialize (F x Hx). destruct x; simpl in *; try contradiction; auto.
    rewrite andb_true_iff, !Z.leb_le. auto.
Qed.

(** ** DateTime *)
Lemma date_json_round E x : calendar x -> (e_padyear E = true \/ 1000 <= dyear x) ->
  rbind (date_to_json E (VDate x)) date_from_json = Ok (VDate (no_micro x)).
Proof. intros C H. simpl. now rewrite date_round_trip. Qed.

(** ** Boolean *)
Lemma lower_upper s : str_lower (str_upper s) = str_lower s.
Proof.
  unfold str_lower, str_upper. rewrite chars_unchars, map_map. f_equal. apply map_ext. intros c.
  assert (A : Ascii.eqb (ch_lower (ch_upper c)) (ch_lower c) = true)
    by (revert c; apply ascii_forall; vm_compute; reflexivity).
  now apply Ascii.eqb_eq.
Qed.
Lemma upper_lower s : str_upper (str_lower s) = str_upper s.
Proof.
  unfold str_lower, str_upper. rewrite chars_unchars, map_map. f_equal. apply map_ext. intros c.
  assert (A : Ascii.eqb (ch_upper (ch_lower c)) (ch_upper c) = true)
    by (revert c; apply ascii_forall; vm_compute; reflexivity).
  now apply Ascii.eqb_eq.
Qed.
Lemma words_case s W w : map str_upper w = W -> map str_lower w = w -> (In (str_upper s) W <-> In (str_lower s) w).
Proof.
  intros H1 H2. split; intros H.
  - rewrite <- H1 in H. apply in_map_iff in H as (x & E & Hx).
    apply (f_equal str_lower) in E. rewrite !lower_upper in E. rewrite <- E.
    rewrite <- H2. apply in_map. auto.
  - rewrite <- H1. rewrite <- upper_lower. now apply in_map.
Qed.

Lemma bool_words s :
  (bool_from_json (VStr s) = Ok (VBool true) <-> In (str_lower s) true_words) /\
  (bool_from_json (VStr s) = Ok (VBool false) <-> In (str_lower s) false_words) /\
  (~ In (str_lower s) (true_words ++ false_words) -> bool_from_json (VStr s) = Exc ExValue).
Proof.
  pose proof (words_case s ["TRUE"; "Y"; "YES"; "ON"]%string true_words eq_refl eq_refl) as T.
  pose proof (words_case s ["FALSE"; "N"; "NO"; "OFF"]%string false_words eq_refl eq_refl) as F.
  rewrite <- mem_str_In in T, F. unfold bool_from_json.
  assert (D : In (str_lower s) true_words -> In (str_lower s) false_words -> False).
  { intros [<-|[<-|[<-|[<-|[]]]]] [E|[E|[E|[E|[]]]]]; discriminate. }
  destruct (mem_str (str_upper s) ["TRUE"; "Y"; "YES"; "ON"]%string) eqn:E1;
  destruct (mem_str (str_upper s) ["FALSE"; "N"; "NO"; "OFF"]%string) eqn:E2;
  rewrite in_app_iff; repeat split; intros H; try discriminate; try tauto; try reflexivity.
Qed.

Lemma bool_nocast v w : bool_validate false v = LOk w <-> (exists b, v = VBool b) /\ w = v.
Proof.
  unfold bool_validate. split.
  - destruct v; try discriminate. intros [= <-]. eauto.
  - intros ((b & ->) & ->). auto.
Qed.

(** ** StringChoice *)
Lemma choice_iff cs ch v w : no_collisions cs ch ->
  (choice_validate cs ch v = LOk w <->
   exists s kv, v = VStr s /\ In kv ch /\ names_entry cs s kv /\ w = VStr (fst kv)).
Proof.
  intros N. split.
  - destruct v; try discriminate. intros H. apply choice_validate_ok in H as (kv & H1 & H2 & H3). eauto 6.
  - intros (s & kv & -> & H1 & H2 & ->). now apply choice_validate_complete.
Qed.

Lemma choice_unique cs ch s kv kv' : no_collisions cs ch -> In kv ch -> In kv' ch ->
  names_entry cs s kv -> names_entry cs s kv' -> kv = kv'.
Proof. intros. eapply names_unique; eauto. Qed.

Lemma choice_order cs ch ch' v : no_collisions cs ch -> Permutation ch ch' ->
  choice_validate cs ch v = choice_validate cs ch' v.
Proof.
  intros N P.
  assert (N' : no_collisions cs ch').
  { unfold no_collisions, table_keys in *. eapply Permutation_NoDup; [|exact N].
    apply Permutation_map. apply Permutation_flat_map. auto. }
  assert (R : forall c x, (exists w, choice_validate cs c x = LOk w) \/ choice_validate cs c x = LErr 0).
  { intros c x. destruct x; simpl; auto. destruct (find (choice_match cs s) c) as [[k a]|]; eauto. }
  destruct (R ch v) as [[w Hw]|H0].
  - rewrite Hw. symmetry. apply choice_iff; auto. apply choice_iff in Hw as (s & kv & -> & H1 & H2 & ->); auto.
    exists s, kv. repeat split; auto. eapply Permutation_in; eauto.
  - destruct (R ch' v) as [[w Hw]|H0']; [|congruence].
    apply choice_iff in Hw as (s & kv & -> & H1 & H2 & ->); auto.
    assert (choice_validate cs ch (VStr s) = LOk (VStr (fst kv))).
    { apply choice_iff; auto. exists s, kv. repeat split; auto. eapply Permutation_in; [apply Permutation_sym|]; eauto. }
    congruence.
Qed.

(** ** Special floats *)
Lemma float_json E f : reads_special E ->
  exists j, float_to_json (VFloat f) = Ok j /\ rbind (py_float E j) (fun f => Ok (VFloat f)) = Ok (VFloat f) /\
            ((exists s, j = VStr s) <-> ~ exists u, fext f = Fin u).
Proof.
  intros (H1 & H2 & H3).
  destruct f as [s|[]| |s m e]; simpl; eexists; (split; [reflexivity|]); simpl;
    rewrite ?H1, ?H2, ?H3; (split; [reflexivity|]); split; intros H.
  all: try (destruct H; discriminate).
  all: try (exfalso; apply H; eauto; fail).
  all: try (intros [u Hu]; discriminate).
  all: eauto.
Qed.

Lemma bool_cast v : bool_validate true v = LOk (VBool (truthy v)).
Proof. reflexivity. Qed.

Lemma date_rejections s : date_of_string s = None -> date_from_json (VStr s) = Exc ExValue /\ date_validate (VStr s) = LErr 0.
Proof. intros H. simpl. now rewrite H. Qed.

Lemma uuid_json_round n : (n < 2 ^ 128)%N -> rbind (uuid_to_json (VUuid n)) uuid_from_json = Ok (VUuid n).
Proof. intros H. cbn [uuid_to_json rbind uuid_from_json]. now rewrite uuid_round_trip. Qed.

Lemma uuid_json_inj m n : (m < 2 ^ 128)%N -> (n < 2 ^ 128)%N ->
  uuid_to_json (VUuid m) = uuid_to_json (VUuid n) -> m = n.
Proof.
  intros Hm Hn E. pose proof (uuid_json_round m Hm) as A. rewrite E, (uuid_json_round n Hn) in A. congruence.
Qed.
