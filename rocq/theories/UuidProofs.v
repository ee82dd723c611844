(** Proofs about Uuid text (basic.py:1291-1297). *)
From Verif Require Import PyBase PyFloat PyVal Basic BasicSpec DateProofs.
Open Scope Z_scope.

Definition lhex : list ascii := chars "0123456789abcdef".

Lemma hex_chr_in d : (d < 16)%N -> In (hex_chr d) lhex /\ digit_val (hex_chr d) = Some (Z.of_N d).
Proof.
  intros H.
  assert (A : forallb (fun d => mem_ch lhex (hex_chr d) && match digit_val (hex_chr d) with Some z => z =? Z.of_N d | None => false end)
     (map N.of_nat (seq 0 16)) = true) by (vm_compute; reflexivity).
  rewrite forallb_forall in A.
  assert (Hin : In d (map N.of_nat (seq 0 16))).
  { apply in_map_iff. exists (N.to_nat d). split; [apply N2Nat.id|]. apply in_seq. lia. }
  specialize (A _ Hin). apply andb_prop in A as [A1 A2]. apply mem_ch_In in A1. split; auto.
  destruct (digit_val (hex_chr d)); [|discriminate]. apply Z.eqb_eq in A2. now subst.
Qed.

Lemma lhex_props c : In c lhex ->
  is_space c = false /\ Ascii.eqb c "-" = false /\ Ascii.eqb c "+" = false /\ Ascii.eqb c ch_us = false /\
  Ascii.eqb c "x" = false /\ Ascii.eqb c "X" = false /\ Ascii.eqb c ":" = false /\
  Ascii.eqb c "{" = false /\ Ascii.eqb c "}" = false.
Proof.
  intros H. simpl in H.
  repeat (destruct H as [<-|H]; [repeat split; reflexivity|]). destruct H.
Qed.

Lemma hex_digits_in k n : Forall (fun c => In c lhex) (hex_digits k n).
Proof.
  revert n. induction k as [|k IH]; intros n; cbn [hex_digits]; [constructor|].
  apply Forall_app. split; [apply IH|]. constructor; [|constructor].
  apply hex_chr_in. apply N.mod_lt. discriminate.
Qed.

Lemma hex_digits_length k n : length (hex_digits k n) = k.
Proof.
  revert n. induction k as [|k IH]; intros n; cbn [hex_digits]; auto.
  rewrite app_length, IH. simpl. lia.
Qed.

Lemma int_digits_app b l1 l2 acc :
  Forall (fun c => In c lhex) l1 -> l1 <> [] \/ l2 = l2 ->
  forall ad, int_digits b (l1 ++ l2) acc ad =
  match l1 with [] => int_digits b l2 acc ad | _ =>
    match int_digits b l1 acc ad with Some a => int_digits b l2 a true | None => None end end.
Proof.
  intros Hf _. revert acc. induction Hf as [|c l1 Hc Hf IH]; intros acc ad; auto.
  cbn [app int_digits]. destruct (lhex_props c Hc) as (_ & _ & _ & -> & _).
  destruct (digit_val c) as [d|]; auto. destruct (d <? b); auto.
  rewrite IH. destruct l1 as [|c' l1']; auto.
Qed.

Lemma hex_digits_value k : forall n acc ad, k <> O ->
  int_digits 16 (hex_digits k n) acc ad = Some (acc * 16 ^ Z.of_nat k + Z.of_N (n mod 16 ^ N.of_nat k)).
Proof.
  induction k as [|k IH]; intros n acc ad Hk; [congruence|].
  cbn [hex_digits].
  assert (Hd : (n mod 16 < 16)%N) by (apply N.mod_lt; discriminate).
  destruct (hex_chr_in _ Hd) as [Hin Hv].
  assert (Step : forall a ad', int_digits 16 [hex_chr (n mod 16)] a ad' = Some (a * 16 + Z.of_N (n mod 16))).
  { intros a ad'. cbn [int_digits]. destruct (lhex_props _ Hin) as (_ & _ & _ & -> & _). rewrite Hv.
    destruct (Z.ltb_spec (Z.of_N (n mod 16)) 16); auto. lia. }
  assert (Emod : Z.of_N (n mod 16 ^ N.of_nat (S k)) = Z.of_N ((n / 16) mod 16 ^ N.of_nat k) * 16 + Z.of_N (n mod 16)).
  { rewrite Nat2N.inj_succ, N.pow_succ_r'.
    rewrite N.mod_mul_r by (try discriminate; apply N.pow_nonzero; discriminate). lia. }
  rewrite int_digits_app; [|apply hex_digits_in|auto].
  destruct k as [|k'].
  - cbn [hex_digits]. rewrite Step, Emod. change (N.of_nat 0) with 0%N. rewrite N.pow_0_r, N.mod_1_r.
    change (Z.of_nat 1) with 1. rewrite Z.pow_1_r. reflexivity.
  - destruct (hex_digits (S k') (n / 16)) as [|c r] eqn:E.
    { pose proof (hex_digits_length (S k') (n / 16)) as L. rewrite E in L. discriminate. }
    rewrite <- E. rewrite IH by discriminate. rewrite Step, Emod. f_equal.
    rewrite (Nat2Z.inj_succ (S k')), Z.pow_succ_r by lia. ring.
Qed.

Lemma remove_single p l : remove_all [p] l 0 = filter (fun c => negb (Ascii.eqb p c)) l.
Proof.
  induction l as [|c r IH]; auto. cbn [remove_all starts_with filter length Nat.sub].
  rewrite andb_true_r. destruct (Ascii.eqb p c); simpl; now rewrite IH.
Qed.

Lemma starts_with_mem p l x : starts_with p l = true -> In x p -> In x l.
Proof.
  revert l. induction p as [|a p IH]; intros [|b l]; simpl; try discriminate; try tauto.
  intros H. apply andb_prop in H as [H1 H2]. apply Ascii.eqb_eq in H1. subst.
  intros [->|Hx]; auto.
Qed.

Lemma remove_absent pat l x : In x pat -> ~ In x l -> remove_all pat l 0 = l.
Proof.
  intros Hp. induction l as [|c r IH]; intros Hl; auto. cbn [remove_all].
  destruct (starts_with pat (c :: r)) eqn:E.
  - exfalso. apply Hl. eapply starts_with_mem; eauto.
  - rewrite IH; auto. intros H. apply Hl. now right.
Qed.

Lemma filter_nodash l : Forall (fun c => In c lhex) l -> filter (fun c => negb (Ascii.eqb dash c)) l = l.
Proof.
  induction 1 as [|c l Hc Hl IH]; auto. cbn [filter].
  destruct (lhex_props c Hc) as (_ & Hd & _). rewrite (Ascii.eqb_sym dash c). change dash with "-"%char at 1. rewrite Hd. cbn [negb]. now rewrite IH.
Qed.

Lemma strip_no p l : Forall (fun c => p c = false) l -> strip_by p l = l.
Proof.
  intros H. unfold strip_by. rewrite (drop_while_id p l).
  - rewrite drop_while_id; [apply rev_involutive|].
    apply Forall_rev in H. destruct (rev l); auto. now inversion H.
  - destruct l; auto. now inversion H.
Qed.

Lemma Forall_firstn {A} (P : A -> Prop) k l : Forall P l -> Forall P (firstn k l).
Proof. intros H. rewrite <- (firstn_skipn k l) in H. apply Forall_app in H. tauto. Qed.
Lemma Forall_skipn {A} (P : A -> Prop) k l : Forall P l -> Forall P (skipn k l).
Proof. intros H. rewrite <- (firstn_skipn k l) in H. apply Forall_app in H. tauto. Qed.

Lemma uuid_round_trip n : (n < 2 ^ 128)%N -> uuid_of_string (uuid_str n) = Some n.
Proof.
  intros Hn. unfold uuid_of_string, uuid_str. rewrite chars_unchars.
  set (h := hex_digits 32 n).
  assert (Hh : Forall (fun c => In c lhex) h) by apply hex_digits_in.
  assert (Hl : length h = 32%nat) by apply hex_digits_length.
  set (t := firstn 8 h ++ [dash] ++ firstn 4 (skipn 8 h) ++ [dash] ++ firstn 4 (skipn 12 h) ++
            [dash] ++ firstn 4 (skipn 16 h) ++ [dash] ++ skipn 20 h).
  assert (Ht : Forall (fun c => In c lhex \/ c = dash) t).
  { assert (W : forall l, Forall (fun c => In c lhex) l -> Forall (fun c => In c lhex \/ c = dash) l).
    { intros l H. eapply Forall_impl; [|exact H]. auto. }
    assert (D : Forall (fun c => In c lhex \/ c = dash) [dash]) by (constructor; auto).
    unfold t. repeat (apply Forall_app; split); auto using Forall_firstn, Forall_skipn. }
  assert (Hcolon : ~ In ":"%char t).
  { intros H. rewrite Forall_forall in Ht. destruct (Ht _ H) as [Hi|Hi]; [|discriminate].
    destruct (lhex_props _ Hi) as (_ & _ & _ & _ & _ & _ & Hc & _). discriminate. }
  rewrite (remove_absent (chars "urn:") t ":"%char); [|simpl; tauto|auto].
  rewrite (remove_absent (chars "uuid:") t ":"%char); [|simpl; tauto|auto].
  rewrite strip_no.
  2:{ eapply Forall_impl; [|exact Ht]. cbv beta. intros c [Hi|Hi].
      - destruct (lhex_props _ Hi) as (_ & _ & _ & _ & _ & _ & _ & H1 & H2). unfold mem_ch. simpl. now rewrite H1, H2.
      - subst. reflexivity. }
  rewrite remove_single.
  assert (Hf : filter (fun c => negb (Ascii.eqb dash c)) t = h).
  { unfold t. rewrite !filter_app. cbn [filter]. rewrite Ascii.eqb_refl. cbn [negb].
    rewrite !filter_nodash by auto using Forall_firstn, Forall_skipn. cbn [app].
    rewrite <- (firstn_skipn 8 h) at 5. f_equal.
    rewrite <- (firstn_skipn 4 (skipn 8 h)) at 2. f_equal.
    assert (Sk : forall a b, skipn a (skipn b h) = skipn (b + a) h).
    { intros a b. rewrite <- (firstn_skipn b h) at 2.
      rewrite skipn_app. rewrite firstn_length. rewrite (skipn_all2 (firstn b h)) by (rewrite firstn_length; lia).
      simpl. destruct (Nat.le_gt_cases b 32) as [Hb|Hb].
      - f_equal. lia.
      - rewrite (skipn_all2 (n := b) h) by lia. now rewrite !skipn_nil. }
    rewrite Sk. simpl (8 + 4)%nat.
    rewrite <- (firstn_skipn 4 (skipn 12 h)) at 2. f_equal. rewrite Sk. simpl (12 + 4)%nat.
    rewrite <- (firstn_skipn 4 (skipn 16 h)) at 2. f_equal. rewrite Sk. reflexivity. }
  cbv zeta. rewrite Hf, Hl. change (Nat.eqb 32 32) with true. cbv iota.
  unfold parse_int_chars.
  rewrite strip_no.
  2:{ eapply Forall_impl; [|exact Hh]. cbv beta. intros c Hc. now destruct (lhex_props c Hc). }
  destruct h as [|c r] eqn:Eh; [discriminate|].
  inversion Hh as [|? ? Hc Hr]; subst.
  destruct (lhex_props c Hc) as (_ & H1 & H2 & _). rewrite H1, H2.
  assert (Hp : int_prefix 16 (c :: r) = c :: r).
  { unfold int_prefix. simpl (16 =? 16). cbv iota. destruct r as [|x r']; auto.
    inversion Hr as [|? ? Hx Hr']; subst. destruct (lhex_props x Hx) as (_ & _ & _ & _ & H5 & H6 & _).
    rewrite H5, H6, andb_false_r. reflexivity. }
  rewrite Hp, <- Eh. unfold h. rewrite hex_digits_value by discriminate.
  assert (E : Z.of_N (n mod 16 ^ N.of_nat 32) = Z.of_N n).
  { f_equal. apply N.mod_small. exact Hn. }
  rewrite E, Z.mul_0_l, Z.add_0_l.
  assert (Hb : 0 <= Z.of_N n < 2 ^ 128).
  { split; [lia|]. change (2 ^ 128) with (Z.of_N (2 ^ 128)). lia. }
  destruct (Z.leb_spec 0 (Z.of_N n)); [|lia]. destruct (Z.ltb_spec (Z.of_N n) (2 ^ 128)); [|lia].
  cbn [andb]. now rewrite N2Z.id.
Qed.
