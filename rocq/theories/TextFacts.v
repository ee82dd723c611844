(** Proofs about the texts of whole numbers. *)
From Verif Require Import PyBase PyFloat PyVal Colors Basic BasicSpec BasicProofs NumSpec DateProofs LeafFacts UrlFacts TextSpec.
Open Scope Z_scope.

Lemma in_table c d : digit_val c = Some d <-> In (c, d) digit_table.
Proof.
  split.
  - intros H. pose (P := fun c => match digit_val c with Some d => existsb (fun p => Ascii.eqb (fst p) c && (snd p =? d)) digit_table | None => true end).
    assert (A : P c = true) by (apply ascii_forall; vm_compute; reflexivity).
    unfold P in A. rewrite H in A. apply existsb_exists in A as ((c', d') & I & E). simpl in E.
    apply andb_prop in E as [E1 E2]. apply Ascii.eqb_eq in E1. apply Z.eqb_eq in E2. now subst.
  - intros H. assert (A : forallb (fun p => match digit_val (fst p) with Some d => d =? snd p | None => false end) digit_table = true)
      by (vm_compute; reflexivity).
    rewrite forallb_forall in A. specialize (A _ H). simpl in A. destruct (digit_val c); [|discriminate].
    apply Z.eqb_eq in A. now subst.
Qed.

Lemma space_iff c : is_space c = true <-> In c spaces.
Proof.
  rewrite <- mem_ch_In.
  assert (A : Bool.eqb (is_space c) (mem_ch spaces c) = true).
  { apply (ascii_forall (fun c => Bool.eqb (is_space c) (mem_ch spaces c))). vm_compute. reflexivity. }
  apply Bool.eqb_prop in A. now rewrite A.
Qed.

Lemma spaces_true l : Forall (fun c => In c spaces) l <-> Forall (fun c => is_space c = true) l.
Proof. split; apply Forall_impl; intros c; apply space_iff. Qed.

(** What a character that is a digit is not. *)
Lemma digit_not base c d : digit base c d -> 0 <= d /\ is_space c = false /\ Ascii.eqb c "_" = false /\ Ascii.eqb c "-" = false /\ Ascii.eqb c "+" = false.
Proof.
  intros [I _]. assert (A : forallb (fun p => (0 <=? snd p) && negb (is_space (fst p)) && negb (Ascii.eqb (fst p) "_") && negb (Ascii.eqb (fst p) "-") && negb (Ascii.eqb (fst p) "+")) digit_table = true)
    by (vm_compute; reflexivity).
  rewrite forallb_forall in A. specialize (A _ I). simpl in A. rewrite !andb_true_iff, !negb_true_iff in A. rewrite Z.leb_le in A. tauto.
Qed.

Lemma digit_step base c d r n ad : digit base c d -> int_digits base (c :: r) n ad = int_digits base r (n * base + d) true.
Proof.
  intros D. destruct (digit_not _ _ _ D) as (_ & _ & U & _). destruct D as [I L]. cbn [int_digits]. unfold ch_us. rewrite U.
  apply in_table in I. rewrite I. apply Z.ltb_lt in L. now rewrite L.
Qed.

Lemma digits_read base l n : digits base l n -> forall r, int_digits base (l ++ r) 0 false = int_digits base r n true.
Proof.
  induction 1 as [c d D|l n c d H IH D|l n c d H IH D]; intros r.
  - cbn [app]. now rewrite (digit_step _ _ _ _ _ _ D).
  - rewrite <- app_assoc, IH. cbn [app]. now rewrite (digit_step _ _ _ _ _ _ D).
  - rewrite <- app_assoc, IH. cbn [app]. cbn [int_digits]. unfold ch_us. cbn [Ascii.eqb]. simpl Ascii.eqb. cbv iota.
    now rewrite <- (digit_step _ _ _ _ _ false D).
Qed.

Lemma int_digits_cons base c r n ad z : int_digits base (c :: r) n ad = Some z ->
  (c = "_"%char /\ ad = true /\ int_digits base r n false = Some z) \/
  (exists d, digit base c d /\ int_digits base r (n * base + d) true = Some z).
Proof.
  cbn [int_digits]. unfold ch_us. destruct (Ascii.eqb c "_") eqn:U.
  - apply Ascii.eqb_eq in U. destruct ad; [|discriminate]. auto.
  - destruct (digit_val c) as [d|] eqn:D; [|discriminate]. destruct (d <? base) eqn:L; [|discriminate].
    intros H. right. exists d. split; auto. split; [now apply in_table|]. now apply Z.ltb_lt.
Qed.

Lemma read_digits base z r : forall l n, digits base l n ->
  (int_digits base r n true = Some z -> digits base (l ++ r) z) /\
  (int_digits base r n false = Some z -> digits base (l ++ "_"%char :: r) z).
Proof.
  induction r as [|c r IH]; intros l n D; split; intros H.
  - simpl in H. injection H as <-. now rewrite app_nil_r.
  - discriminate.
  - apply int_digits_cons in H as [(-> & _ & H)|(d & Dd & H)].
    + now apply (IH l n D).
    + replace (l ++ c :: r)%list with ((l ++ [c]) ++ r)%list by now rewrite <- app_assoc.
      refine (proj1 (IH _ _ _) H). now constructor.
  - apply int_digits_cons in H as [(_ & X & _)|(d & Dd & H)]; [discriminate|].
    replace (l ++ "_"%char :: c :: r)%list with ((l ++ ["_"%char; c]) ++ r)%list by now rewrite <- app_assoc.
    refine (proj1 (IH _ _ _) H). now constructor.
Qed.

Lemma digits_iff base l z : int_digits base l 0 false = Some z <-> digits base l z.
Proof.
  split.
  - destruct l as [|c r]; [discriminate|]. intros H. apply int_digits_cons in H as [(_ & X & _)|(d & Dd & H)]; [discriminate|].
    refine (proj1 (read_digits base z r [c] (0 * base + d) _) H). rewrite Z.mul_0_l, Z.add_0_l. now constructor.
  - intros D. pose proof (digits_read _ _ _ D []) as H. rewrite app_nil_r in H. exact H.
Qed.

Lemma digits_cons base l z : digits base l z -> exists c d r, l = c :: r /\ digit base c d.
Proof.
  induction 1 as [c d D|l n c d H (c' & d' & r & -> & D') D|l n c d H (c' & d' & r & -> & D') D].
  - exists c, d, []. auto.
  - exists c', d', (r ++ [c])%list. auto.
  - exists c', d', (r ++ ["_"%char; c])%list. auto.
Qed.

Lemma digits_last base l z : digits base l z -> exists c d r, l = (r ++ [c])%list /\ digit base c d.
Proof.
  destruct 1 as [c d D|l n c d H D|l n c d H D].
  - exists c, d, []. auto.
  - exists c, d, l. auto.
  - exists c, d, (l ++ ["_"%char])%list. rewrite <- app_assoc. auto.
Qed.

(** The second digit, if there is one, is not x. *)
Lemma digits_second base l z a b r : digits base l z -> l = a :: b :: r -> b = "_"%char \/ exists d, digit base b d.
Proof.
  intros H E. apply digits_iff in H. rewrite E in H.
  apply int_digits_cons in H as [(_ & X & _)|(d & _ & H)]; [discriminate|].
  apply int_digits_cons in H as [(-> & _ & _)|(d' & D & _)]; eauto.
Qed.

Lemma x_not_hex x d : x = "x"%char \/ x = "X"%char -> ~ digit 16 x d.
Proof.
  intros Hx [I L]. apply in_table in I. destruct Hx as [-> | ->]; vm_compute in I; injection I as <-; lia.
Qed.

Lemma prefix_iff base l z :
  int_digits base (int_prefix base l) 0 false = Some z <-> exists px ds, l = (px ++ ds)%list /\ prefix base px /\ digits base ds z.
Proof.
  unfold int_prefix. split.
  - intros H.
    assert (Plain : int_digits base l 0 false = Some z -> exists px ds, l = (px ++ ds)%list /\ prefix base px /\ digits base ds z).
    { intros H'. apply digits_iff in H'. exists [], l. repeat split; auto. constructor. }
    destruct (base =? 16) eqn:B; [|now apply Plain]. apply Z.eqb_eq in B.
    destruct l as [|a [|x r]]; try now apply Plain.
    destruct (Ascii.eqb a "0" && (Ascii.eqb x "x" || Ascii.eqb x "X")) eqn:X; [|now apply Plain].
    apply andb_prop in X as [Xa Xx]. apply Ascii.eqb_eq in Xa. subst a.
    assert (Hx : x = "x"%char \/ x = "X"%char).
    { apply orb_prop in Xx as [E|E]; apply Ascii.eqb_eq in E; auto. }
    destruct r as [|u r']; [discriminate|]. destruct (Ascii.eqb u ch_us) eqn:U.
    + apply Ascii.eqb_eq in U. subst u. exists ["0"%char; x; "_"%char], r'. apply digits_iff in H. repeat split; auto. constructor; auto.
    + exists ["0"%char; x], (u :: r'). apply digits_iff in H. repeat split; auto. constructor; auto.
  - intros (px & ds & -> & P & D). destruct P as [|x u B Hx Hu].
    + simpl. destruct (base =? 16) eqn:B; [|now apply digits_iff]. apply Z.eqb_eq in B.
      destruct ds as [|a [|x r]]; try now apply digits_iff.
      destruct (Ascii.eqb a "0" && (Ascii.eqb x "x" || Ascii.eqb x "X")) eqn:X; [|now apply digits_iff].
      exfalso. apply andb_prop in X as [_ Xx].
      assert (Hx : x = "x"%char \/ x = "X"%char).
      { apply orb_prop in Xx as [E|E]; apply Ascii.eqb_eq in E; auto. }
      subst base. destruct (digits_second _ _ _ _ _ _ D eq_refl) as [-> |(d & Dd)]; [destruct Hx; discriminate|].
      exact (x_not_hex _ _ Hx Dd).
    + subst base. rewrite Z.eqb_refl. cbn [app].
      assert (Ascii.eqb x "x" || Ascii.eqb x "X" = true) as -> by (destruct Hx as [-> | ->]; reflexivity).
      change (Ascii.eqb "0" "0") with true. cbn [andb].
      destruct Hu as [-> | ->]; cbn [app].
      * destruct (digits_cons _ _ _ D) as (c & d & r & -> & Dc). destruct (digit_not _ _ _ Dc) as (_ & _ & U & _).
        unfold ch_us. rewrite U. now apply digits_iff.
      * change (Ascii.eqb "_" ch_us) with true. now apply digits_iff.
Qed.

(** The first character of a prefix and digits is a digit. *)
Lemma prefix_digits_cons base px ds z : prefix base px -> digits base ds z -> exists c r, (px ++ ds)%list = c :: r /\
  is_space c = false /\ Ascii.eqb c "-" = false /\ Ascii.eqb c "+" = false.
Proof.
  intros [|x u B Hx Hu] D.
  - destruct (digits_cons _ _ _ D) as (c & d & r & -> & Dc). destruct (digit_not _ _ _ Dc) as (_ & S & _ & M & P). exists c, r. auto.
  - exists "0"%char, (x :: u ++ ds)%list. repeat split.
Qed.

Lemma sign_iff base l z : (match l with
    | [] => None
    | c :: r =>
      if Ascii.eqb c "-" then option_map Z.opp (int_digits base (int_prefix base r) 0 false)
      else if Ascii.eqb c "+" then int_digits base (int_prefix base r) 0 false
      else int_digits base (int_prefix base l) 0 false
    end = Some z) <->
  exists sg px ds k n, l = (sg ++ px ++ ds)%list /\ sign sg k /\ prefix base px /\ digits base ds n /\ z = k * n.
Proof.
  split.
  - destruct l as [|c r]; [discriminate|].
    destruct (Ascii.eqb c "-") eqn:M; [|destruct (Ascii.eqb c "+") eqn:P].
    + apply Ascii.eqb_eq in M. subst c. intros H.
      destruct (int_digits base (int_prefix base r) 0 false) as [n|] eqn:E; [|discriminate]. simpl in H. injection H as <-.
      apply prefix_iff in E as (px & ds & -> & P & D). exists ["-"%char], px, ds, (-1), n. repeat split; auto; try lia; constructor.
    + apply Ascii.eqb_eq in P. subst c. intros H.
      apply prefix_iff in H as (px & ds & -> & P & D). exists ["+"%char], px, ds, 1, z. repeat split; auto; try lia; constructor.
    + intros H. apply prefix_iff in H as (px & ds & -> & P' & D). exists [], px, ds, 1, z. repeat split; auto; try lia; constructor.
  - intros (sg & px & ds & k & n & -> & S & P & D & ->).
    assert (R : int_digits base (int_prefix base (px ++ ds)) 0 false = Some n) by (apply prefix_iff; eauto).
    destruct S; cbn [app].
    + destruct (prefix_digits_cons _ _ _ _ P D) as (c & r & E & _ & M & Pl). rewrite E in *. rewrite M, Pl, R. try (f_equal; lia).
    + change (Ascii.eqb "+" "-") with false. change (Ascii.eqb "+" "+") with true. cbv iota. rewrite R. try (f_equal; lia).
    + change (Ascii.eqb "-" "-") with true. cbv iota. rewrite R. simpl option_map. f_equal; lia.
Qed.

Lemma strip_mid p pre mid post : Forall (fun c => p c = true) pre -> Forall (fun c => p c = true) post ->
  (forall c r, mid = c :: r -> p c = false) -> (forall c r, mid = (r ++ [c])%list -> p c = false) -> mid <> [] ->
  strip_by p (pre ++ mid ++ post) = mid.
Proof.
  intros F1 F2 H1 H2 N. unfold strip_by. rewrite (drop_while_eq p pre); auto.
  - rewrite rev_app_distr. rewrite (drop_while_eq p (rev post)); [apply rev_involutive| |].
    + now apply Forall_rev.
    + intros c r E. apply (H2 c (rev r)). rewrite <- (rev_involutive mid), E. reflexivity.
  - intros c r E. destruct mid as [|c' r']; [congruence|]. simpl in E. injection E as -> _. eauto.
Qed.

Lemma parse_iff base l z : parse_int_chars base l = Some z <-> int_text base l z.
Proof.
  unfold parse_int_chars. cbv zeta. rewrite sign_iff. split.
  - intros (sg & px & ds & k & n & E & S & P & D & ->).
    destruct (strip_by_decomp is_space l) as (pre & post & El & F1 & F2). rewrite E in El.
    exists pre, sg, px, ds, post, k, n. split; [rewrite El, <- !app_assoc; reflexivity|].
    repeat split; auto; now apply spaces_true.
  - intros (sp & sg & px & ds & sp' & k & n & -> & F1 & F2 & S & P & D & ->).
    exists sg, px, ds, k, n. repeat split; auto.
    replace (sp ++ sg ++ px ++ ds ++ sp')%list with (sp ++ (sg ++ px ++ ds) ++ sp')%list by now rewrite <- !app_assoc.
    destruct (prefix_digits_cons _ _ _ _ P D) as (c & r & E & Sp & _).
    destruct (digits_last _ _ _ D) as (c' & d' & r' & El & Dl). destruct (digit_not _ _ _ Dl) as (_ & Sl & _).
    apply strip_mid; try now apply spaces_true.
    + intros c0 r0 E0. destruct S; cbn [app] in E0; [rewrite E in E0|..]; injection E0 as <- _; auto.
    + intros c0 r0 E0. rewrite El, !app_assoc in E0. apply app_inj_tail in E0 as [_ <-]. exact Sl.
    + rewrite E. destruct sg; discriminate.
Qed.

(** ** Integer *)
Lemma integer_text mn mx s v : (int_validate true mn mx (VStr s) = LOk v <->
  exists z, int_text 10 (chars s) z /\ in_bounds mn mx (NZ z) = true /\ v = VInt z).
Proof.
  unfold int_validate, py_int, parse_int. split.
  - destruct (parse_int_chars 10 (chars s)) as [z|] eqn:P; [|discriminate]. intros H.
    destruct (in_bounds mn mx (NZ z)) eqn:B; [|discriminate]. injection H as <-. apply parse_iff in P. eauto.
  - intros (z & H & B & ->). apply parse_iff in H. rewrite H, B. reflexivity.
Qed.

Lemma integer_text_valid mn mx s v : valid_opt mn -> valid_opt mx ->
  (int_validate true mn mx (VStr s) = LOk v <->
   exists z, int_text 10 (chars s) z /\ within mn mx (NZ z) /\ v = VInt z).
Proof.
  intros Vn Vx. rewrite integer_text. split; intros (z & H & B & ->); exists z; (split; [exact H|split; [|reflexivity]]);
    apply in_bounds_within; simpl; auto.
Qed.

Lemma integer_text_no cast mn mx s : (forall v, int_validate cast mn mx (VStr s) <> LOk v) ->
  int_validate cast mn mx (VStr s) = LErr 0.
Proof.
  intros H. unfold int_validate, py_int in *. destruct (parse_int 10 s) as [z|]; [|reflexivity].
  destruct cast; [|reflexivity]. destruct (in_bounds mn mx (NZ z)); [exfalso; now apply (H (VInt z))|reflexivity].
Qed.

(** ** Bounds *)
Lemma digits_bound base l n : 0 < base -> digits base l n -> 0 <= n < base ^ Z.of_nat (length l).
Proof.
  intros B. induction 1 as [c d D|l n c d H IH D|l n c d H IH D].
  - destruct (digit_not _ _ _ D) as [D0 _]. destruct D as [_ L]. change (Z.of_nat (length [c])) with 1. rewrite Z.pow_1_r. lia.
  - destruct (digit_not _ _ _ D) as [D0 _]. destruct D as [_ L]. rewrite app_length. cbn [length].
    replace (Z.of_nat (length l + 1)) with (Z.of_nat (length l) + 1) by lia. rewrite Z.pow_add_r, Z.pow_1_r by lia.
    generalize dependent (base ^ Z.of_nat (length l)). intros X HX. nia.
  - destruct (digit_not _ _ _ D) as [D0 _]. destruct D as [_ L]. rewrite app_length. cbn [length].
    replace (Z.of_nat (length l + 2)) with (Z.of_nat (length l) + 1 + 1) by lia. rewrite !Z.pow_add_r, Z.pow_1_r by lia.
    generalize dependent (base ^ Z.of_nat (length l)). intros X HX. nia.
Qed.

Lemma int_text_bound base l z : 1 < base -> int_text base l z -> Z.abs z < base ^ Z.of_nat (length l).
Proof.
  intros B (sp & sg & px & ds & sp' & k & n & -> & _ & _ & S & _ & D & ->).
  apply digits_bound in D; [|lia].
  assert (Z.abs (k * n) = n) as -> by (destruct S; lia).
  apply (Z.lt_le_trans _ (base ^ Z.of_nat (length ds))); [lia|]. apply Z.pow_le_mono_r; [lia|].
  rewrite !app_length. lia.
Qed.

(** ** Color *)
Lemma pair_upper a b : parse_int_chars 16 [ch_upper a; ch_upper b] = parse_int_chars 16 [a; b].
Proof.
  pose (P := fun a b => match parse_int_chars 16 [ch_upper a; ch_upper b], parse_int_chars 16 [a; b] with
    | Some x, Some y => x =? y | None, None => true | _, _ => false end).
  assert (H : P a b = true).
  { revert b. assert (A : forallb (fun b => P a b) (map ascii_of_nat (seq 0 256)) = true).
    { apply (ascii_forall (fun a => forallb (fun b => P a b) (map ascii_of_nat (seq 0 256)))). vm_compute. reflexivity. }
    now apply ascii_forall. }
  unfold P in H. destruct (parse_int_chars 16 [ch_upper a; ch_upper b]), (parse_int_chars 16 [a; b]); try discriminate; auto.
  apply Z.eqb_eq in H. now subst.
Qed.

Lemma upper_hash c : ch_upper c = "#"%char <-> c = "#"%char.
Proof.
  assert (A : Bool.eqb (Ascii.eqb (ch_upper c) "#") (Ascii.eqb c "#") = true)
    by (apply (ascii_forall (fun c => Bool.eqb (Ascii.eqb (ch_upper c) "#") (Ascii.eqb c "#"))); vm_compute; reflexivity).
  apply Bool.eqb_prop in A. rewrite <- !Ascii.eqb_eq. now rewrite A.
Qed.

Lemma hash_split l : exists n body, l = (repeat "#"%char n ++ body)%list /\ (forall t, body <> "#"%char :: t) /\
  drop_while (mem_ch (chars "#")) (map ch_upper l) = map ch_upper body.
Proof.
  induction l as [|c l (n & body & -> & N & E)].
  - exists 0%nat, []. repeat split; discriminate.
  - destruct (Ascii.eqb_spec c "#") as [-> |X].
    + exists (S n), body. repeat split; auto.
    + exists 0%nat, (c :: repeat "#"%char n ++ body)%list. split; [reflexivity|]. split; [congruence|].
      cbn [map drop_while]. destruct (mem_ch (chars "#") (ch_upper c)) eqn:M; [|reflexivity].
      apply mem_ch_In in M as [M|[]]. symmetry in M. exfalso. apply X. exact (proj1 (upper_hash c) M).
Qed.

Lemma hash_uniq n body n' body' : (forall t, body <> "#"%char :: t) -> (forall t, body' <> "#"%char :: t) ->
  (repeat "#"%char n ++ body)%list = (repeat "#"%char n' ++ body')%list -> body = body'.
Proof.
  intros N N'. revert n'. induction n as [|n IH]; intros [|n'] E; simpl in E; auto.
  - exfalso. now apply (N (repeat "#"%char n' ++ body')%list).
  - exfalso. symmetry in E. now apply (N' (repeat "#"%char n ++ body)%list).
  - injection E as E. eauto.
Qed.

Lemma pair_small a b z : parse_int_chars 16 [a; b] = Some z -> z <= 255.
Proof. intros H. apply parse_iff, int_text_bound in H; [|lia]. cbn [length] in H. change (16 ^ Z.of_nat 2) with 256 in H. lia. Qed.

Lemma hex_six c1 c2 c3 c4 c5 c6 v :
  match hex_triple (map ch_upper [c1; c2; c3; c4; c5; c6]) with Some comps => color_components comps | None => LErr 0 end = LOk v <->
  exists r g b, v = VTuple [VInt r; VInt g; VInt b] /\ int_text 16 [c1; c2] r /\ int_text 16 [c3; c4] g /\ int_text 16 [c5; c6] b /\
    0 <= r /\ 0 <= g /\ 0 <= b.
Proof.
  unfold hex_triple. cbn [map]. rewrite !pair_upper. split.
  - destruct (parse_int_chars 16 [c1; c2]) as [r|] eqn:R; [|discriminate].
    destruct (parse_int_chars 16 [c3; c4]) as [g|] eqn:G; [|discriminate].
    destruct (parse_int_chars 16 [c5; c6]) as [b|] eqn:B; [|discriminate].
    intros H. apply color_components_ok in H as (-> & _ & F). exists r, g, b. apply parse_iff in R, G, B.
    cbn [forallb color_comp] in F. rewrite !andb_true_iff, !Z.leb_le in F. repeat split; auto; lia.
  - intros (r & g & b & -> & R & G & B & R0 & G0 & B0). apply parse_iff in R, G, B. rewrite R, G, B.
    apply pair_small in R, G, B. unfold color_components. cbn [length Nat.eqb forallb color_comp].
    assert (forall x, 0 <= x -> x <= 255 -> (0 <=? x) && (x <=? 255) = true) as A.
    { intros x X Y. apply andb_true_intro. now rewrite !Z.leb_le. }
    rewrite !A by assumption. reflexivity.
Qed.

Lemma color_text_spec rc s v : (forall h, ~ In (s, h) COLORS_NAMED) -> str_upper s <> "RANDOM"%string ->
  (color_validate rc (VStr s) = LOk v <-> exists r g b, v = VTuple [VInt r; VInt g; VInt b] /\ color_text s r g b).
Proof.
  intros Nn Nr. unfold color_validate.
  assert (dget COLORS_NAMED s = None) as ->.
  { destruct (dget COLORS_NAMED s) as [h|] eqn:D; auto. apply dget_in in D. now apply Nn in D. }
  cbv zeta. apply String.eqb_neq in Nr. rewrite Nr. unfold str_lstrip, str_upper. rewrite !chars_unchars.
  destruct (hash_split (chars s)) as (n & body & Es & Nb & ->).
  assert (Len : forall l, Nat.eqb (length (map ch_upper l)) 3 = Nat.eqb (length l) 3) by (intros; now rewrite map_length).
  unfold color_text. split.
  - intros H. rewrite Len in H.
    destruct body as [|c1 [|c2 [|c3 [|c4 [|c5 [|c6 [|c7 body]]]]]]]; try discriminate.
    + cbn [length Nat.eqb map double_chars flat_map app] in H.
      apply (hex_six c1 c1 c2 c2 c3 c3) in H as (r & g & b & -> & R & G & B & R0 & G0 & B0).
      exists r, g, b. split; auto. exists n, [c1; c2; c3]. split; [exact Es|]. split; [exact Nb|]. split; auto.
      exists c1, c1, c2, c2, c3, c3. split; auto.
    + apply hex_six in H as (r & g & b & -> & R & G & B & R0 & G0 & B0).
      exists r, g, b. split; auto. exists n, [c1; c2; c3; c4; c5; c6]. split; [exact Es|]. split; [exact Nb|]. split; auto.
      exists c1, c2, c3, c4, c5, c6. split; auto.
  - intros (r & g & b & -> & n' & body' & Es' & Nb' & (c1 & c2 & c3 & c4 & c5 & c6 & Hb & R & G & B) & R0 & G0 & B0).
    assert (body = body') as ->.
    { apply (hash_uniq n _ n'); auto. now rewrite <- Es. }
    destruct Hb as [-> |(-> & -> & -> & ->)].
    + cbn [map length Nat.eqb]. apply hex_six. exists r, g, b. repeat split; auto.
    + cbn [length Nat.eqb map double_chars flat_map app]. apply (hex_six c1 c1 c3 c3 c5 c5). exists r, g, b. repeat split; auto.
Qed.

Lemma color_refuses rc v : (forall w, color_validate rc v <> LOk w) -> color_validate rc v = LErr 0.
Proof.
  assert (C : forall l, (forall w, color_components l <> LOk w) -> color_components l = LErr 0).
  { intros l H. unfold color_components in *. destruct (Nat.eqb (length l) 3); auto. destruct (forallb color_comp l); auto. exfalso. now apply (H (VTuple l)). }
  intros H. destruct v; try reflexivity; try (apply C; exact H).
  unfold color_validate in *. cbv zeta in *.
  match goal with |- match ?x with _ => _ end = _ => destruct x end; auto.
Qed.

(** ** Uuid *)
Lemma starts_iff p l : starts_with p l = true <-> exists t, l = (p ++ t)%list.
Proof.
  revert l. induction p as [|a p IH]; intros l.
  - split; [intros _; now exists l|reflexivity].
  - destruct l as [|b l]; simpl.
    + split; [discriminate|intros (t & X); discriminate].
    + rewrite andb_true_iff, Ascii.eqb_eq, IH. split.
      * intros (-> & t & ->). now exists t.
      * intros (t & X). injection X as -> ->. eauto.
Qed.

Lemma remove_skip pat l k : remove_all pat l k = remove_all pat (skipn k l) 0.
Proof.
  revert k. induction l as [|c l IH]; intros [|k]; try reflexivity. cbn [remove_all skipn]. apply IH.
Qed.

Lemma remove_hit pat t : pat <> [] -> remove_all pat (pat ++ t) 0 = remove_all pat t 0.
Proof.
  intros N. destruct pat as [|c p]; [congruence|]. remember (c :: p) as pat eqn:E.
  assert (St : starts_with pat (pat ++ t) = true) by (apply starts_iff; eauto).
  rewrite E at 2. cbn [app remove_all]. rewrite E in St at 2. cbn [app] in St. rewrite St.
  rewrite remove_skip. subst pat. cbn [length]. rewrite Nat.sub_succ, Nat.sub_0_r.
  now rewrite skipn_app, skipn_all, Nat.sub_diag.
Qed.

Lemma removed_iff pat l r : pat <> [] -> (removed pat l r <-> remove_all pat l 0 = r).
Proof.
  intros N. split.
  - induction 1 as [|l r H IH|c l r K H IH].
    + reflexivity.
    + now rewrite remove_hit.
    + cbn [remove_all]. destruct (starts_with pat (c :: l)) eqn:S.
      * apply starts_iff in S as (t & S). now apply K in S.
      * now rewrite IH.
  - intros <-. remember (length l) as n eqn:L. assert (Ln : (length l <= n)%nat) by lia. clear L.
    revert l Ln. induction n as [|n IH]; intros l Ln.
    + destruct l; [constructor|simpl in Ln; lia].
    + destruct (starts_with pat l) eqn:S.
      * apply starts_iff in S as (t & ->). rewrite remove_hit by exact N. constructor. apply IH.
        rewrite app_length in Ln. destruct pat; [congruence|]. simpl in Ln. lia.
      * destruct l as [|c l]; [constructor|]. cbn [remove_all]. rewrite S. constructor.
        -- intros t E. rewrite E in S. assert (starts_with pat (pat ++ t) = true) by (apply starts_iff; eauto). congruence.
        -- apply IH. simpl in Ln. lia.
Qed.

Lemma uuid_text_spec s n : uuid_of_string s = Some n <-> uuid_text s n.
Proof.
  unfold uuid_of_string, uuid_text. cbv zeta. split.
  - intros H.
    match type of H with (if Nat.eqb (length ?x) 32 then _ else _) = _ => remember x as l4 eqn:E4 end.
    destruct (Nat.eqb (length l4) 32) eqn:L; [|discriminate]. apply Nat.eqb_eq in L.
    destruct (parse_int_chars 16 l4) as [z|] eqn:P; [|discriminate].
    destruct ((0 <=? z) && (z <? 2 ^ 128)) eqn:B; [|discriminate]. injection H as <-.
    apply andb_prop in B as [B _]. apply Z.leb_le in B. apply parse_iff in P.
    eexists _, _, _, l4. split; [now apply removed_iff|]. split; [now apply removed_iff|].
    split; [apply stripped_spec|]. split; [now apply removed_iff|]. split; auto. now rewrite Z2N.id.
  - intros (l1 & l2 & l3 & l4 & H1 & H2 & H3 & H4 & L & P).
    apply removed_iff in H1; [|discriminate]. apply removed_iff in H2; [|discriminate]. apply removed_iff in H4; [|discriminate].
    rewrite H1, H2. assert (l3 = strip_by (mem_ch (chars "{}")) l2) as E by (eapply stripped_uniq; [exact H3|apply stripped_spec]).
    rewrite <- E. change [dash] with (chars "-"). rewrite H4, L. change (Nat.eqb 32 32) with true. cbv iota.
    pose proof (int_text_bound 16 l4 _ eq_refl P) as B. rewrite L in B. apply parse_iff in P. rewrite P.
    assert ((0 <=? Z.of_N n) && (Z.of_N n <? 2 ^ 128) = true) as ->.
    { apply andb_true_intro. rewrite Z.leb_le, Z.ltb_lt. change (2 ^ 128) with (16 ^ Z.of_nat 32). lia. }
    now rewrite N2Z.id.
Qed.

Lemma uuid_from_text s : (forall v, uuid_from_json (VStr s) = Ok v <-> exists n, v = VUuid n /\ uuid_text s n) /\
  ((forall n, ~ uuid_text s n) -> uuid_from_json (VStr s) = Exc ExValue).
Proof.
  unfold uuid_from_json. split.
  - intros v. split.
    + destruct (uuid_of_string s) as [n|] eqn:U; [|discriminate]. intros [= <-]. exists n. split; auto. now apply uuid_text_spec.
    + intros (n & -> & U). apply uuid_text_spec in U. now rewrite U.
  - intros N. destruct (uuid_of_string s) as [n|] eqn:U; auto. apply uuid_text_spec in U. now apply N in U.
Qed.

Lemma int_text_uniq base l z z' : int_text base l z -> int_text base l z' -> z = z'.
Proof. intros H H'. apply parse_iff in H, H'. congruence. Qed.

Lemma chars_length s : length (chars s) = String.length s.
Proof. induction s as [|c s IH]; simpl; auto. Qed.

Lemma int_text_size base s z : 1 < base -> int_text base (chars s) z -> Z.abs z < base ^ Z.of_nat (String.length s).
Proof. intros B H. apply int_text_bound in H; auto. now rewrite chars_length in H. Qed.

Lemma integer_no_cast mn mx s : int_validate false mn mx (VStr s) = LErr 0.
Proof. unfold int_validate, py_int. destruct (parse_int 10 s); reflexivity. Qed.
