(** Proofs about DateTime text (basic.py:1257-1266). *)
From Verif Require Import PyBase PyFloat PyVal Basic NumSpec BasicSpec.
Open Scope Z_scope.

Lemma dt_ok_calendar x : dt_ok x = true <-> calendar x.
Proof.
  unfold dt_ok, calendar, days_in_month, is_leap. cbn [existsb].
  rewrite !andb_true_iff, !Z.leb_le, orb_false_r, !orb_assoc. intuition lia.
Qed.

Lemma ascii_forall (P : ascii -> bool) :
  forallb P (map ascii_of_nat (seq 0 256)) = true -> forall c, P c = true.
Proof.
  intros H c. rewrite forallb_forall in H. apply H. apply in_map_iff. exists (nat_of_ascii c).
  split; [apply ascii_nat_embedding|]. apply in_seq. split; [lia|]. apply nat_ascii_bounded.
Qed.

Lemma dig_chr c d : dig c = Some d -> 0 <= d <= 9 /\ c = digit_chr d.
Proof.
  intros H.
  assert (A : (match dig c with Some d => (0 <=? d) && (d <=? 9) && Ascii.eqb c (digit_chr d) | None => true end) = true).
  { revert c H. intros c _. revert c. apply ascii_forall. vm_compute. reflexivity. }
  rewrite H in A. apply andb_prop in A as [A1 A2]. apply Ascii.eqb_eq in A2. split; auto. lia.
Qed.

Lemma dig_digit_chr d : 0 <= d <= 9 -> dig (digit_chr d) = Some d.
Proof.
  intros H. assert (A : d = 0 \/ d = 1 \/ d = 2 \/ d = 3 \/ d = 4 \/ d = 5 \/ d = 6 \/ d = 7 \/ d = 8 \/ d = 9) by lia.
  repeat destruct A as [->|A]; try reflexivity. subst. reflexivity.
Qed.

Lemma decimal1 n : 0 <= n <= 9 -> decimal 1 n = [digit_chr n].
Proof. intros. cbn [decimal app]. unfold digit_chr. rewrite Z.mod_small by lia. reflexivity. Qed.

Lemma decimal2 a b : 0 <= a <= 9 -> 0 <= b <= 9 -> decimal 2 (10 * a + b) = [digit_chr a; digit_chr b].
Proof.
  intros. cbn [decimal app]. unfold digit_chr.
  replace ((10 * a + b) / 10) with a by (Z.div_mod_to_equations; lia).
  replace ((10 * a + b) mod 10) with b by (Z.div_mod_to_equations; lia).
  rewrite Z.mod_small by lia. reflexivity.
Qed.

Lemma decimal4 a b c d : 0 <= a <= 9 -> 0 <= b <= 9 -> 0 <= c <= 9 -> 0 <= d <= 9 ->
  decimal 4 (1000 * a + 100 * b + 10 * c + d) = [digit_chr a; digit_chr b; digit_chr c; digit_chr d].
Proof.
  intros. cbn [decimal app]. unfold digit_chr.
  set (n := 1000 * a + 100 * b + 10 * c + d).
  assert (E1 : n / 10 = 100 * a + 10 * b + c) by (unfold n; Z.div_mod_to_equations; lia).
  assert (E2 : n mod 10 = d) by (unfold n; Z.div_mod_to_equations; lia).
  rewrite E1, E2.
  assert (E3 : (100 * a + 10 * b + c) / 10 = 10 * a + b) by (Z.div_mod_to_equations; lia).
  assert (E4 : (100 * a + 10 * b + c) mod 10 = c) by (Z.div_mod_to_equations; lia).
  rewrite E3, E4.
  assert (E5 : (10 * a + b) / 10 = a) by (Z.div_mod_to_equations; lia).
  assert (E6 : (10 * a + b) mod 10 = b) by (Z.div_mod_to_equations; lia).
  rewrite E5, E6. rewrite Z.mod_small by lia. reflexivity.
Qed.

Lemma split2 n : 0 <= n <= 99 -> exists a b, n = 10 * a + b /\ 0 <= a <= 9 /\ 0 <= b <= 9.
Proof. intros. exists (n / 10), (n mod 10). Z.div_mod_to_equations; lia. Qed.
Lemma split4 n : 0 <= n <= 9999 -> exists a b c d, n = 1000 * a + 100 * b + 10 * c + d /\
  0 <= a <= 9 /\ 0 <= b <= 9 /\ 0 <= c <= 9 /\ 0 <= d <= 9.
Proof.
  intros. exists (n / 1000), (n / 100 mod 10), (n / 10 mod 10), (n mod 10). Z.div_mod_to_equations; lia.
Qed.

Definition no_digit_head (l : list ascii) : Prop := match l with [] => True | c :: _ => dig c = None end.

Lemma field_sound lo hi lo1 sp l n r :
  0 <= lo -> 0 <= lo1 -> hi <= 99 -> field lo hi lo1 sp l = Some (n, r) -> exists t, l = t ++ r /\ fld lo1 sp n t.
Proof.
  intros Hlo Hlo1 Hhi. unfold field. destruct l as [|c1 r1]; [discriminate|].
  set (one := match dig c1 with Some d => _ | None => _ end).
  assert (Hone : one = Some (n, r) -> exists t, c1 :: r1 = t ++ r /\ fld lo1 sp n t).
  { unfold one. destruct (dig c1) as [d|] eqn:E1.
    - apply dig_chr in E1 as [R ->]. destruct (Z.leb_spec lo1 d); [|discriminate]. intros [= -> ->].
      exists (decimal 1 n). rewrite decimal1 by auto. split; auto. rewrite <- decimal1 by auto. constructor; lia.
    - destruct sp; simpl; [|discriminate]. destruct (Ascii.eqb_spec c1 " "); [|discriminate]. subst c1.
      destruct r1 as [|c2 r2]; [discriminate|]. destruct (dig c2) as [d|] eqn:E2; [|discriminate].
      apply dig_chr in E2 as [R ->]. destruct (Z.leb_spec 1 d); [|discriminate]. intros [= -> ->].
      exists (" "%char :: decimal 1 n). split; [now rewrite decimal1 by auto|]. apply fld_space; auto; lia. }
  destruct r1 as [|c2 r2]; auto.
  destruct (dig c1) as [a|] eqn:E1; auto. destruct (dig c2) as [b|] eqn:E2; auto.
  destruct ((lo <=? 10 * a + b) && (10 * a + b <=? hi)) eqn:Er; auto.
  apply andb_prop in Er as [L1 L2]. apply Z.leb_le in L1, L2.
  apply dig_chr in E1 as [R1 ->]. apply dig_chr in E2 as [R2 ->].
  intros [= <- <-]. exists (decimal 2 (10 * a + b)). split; [now rewrite decimal2|].
  constructor. lia.
Qed.

Lemma field_complete lo hi lo1 sp t n r :
  0 <= lo1 -> lo <= n <= hi -> fld lo1 sp n t -> no_digit_head r -> field lo hi lo1 sp (t ++ r) = Some (n, r).
Proof.
  intros H1 Hn Ht Hr. inversion Ht as [R E|R R0 E|Hsp R E]; subst t.
  - destruct (split2 n R) as (a & b & -> & Ra & Rb). rewrite decimal2 by auto. cbn [app field].
    rewrite !dig_digit_chr by auto.
    replace ((lo <=? 10 * a + b) && (10 * a + b <=? hi)) with true by lia. reflexivity.
  - rewrite decimal1 by lia. cbn [app field]. rewrite dig_digit_chr by lia.
    replace (lo1 <=? n) with true by lia.
    destruct r as [|c r']; auto. simpl in Hr. now rewrite Hr.
  - subst sp. rewrite decimal1 by lia. cbn [app field].
    change (dig " ") with (@None Z). cbn. rewrite dig_digit_chr by lia.
    destruct (Z.leb_spec 1 n); [reflexivity|lia].
Qed.

Lemma year_sound l y r : year_field l = Some (y, r) -> l = decimal 4 y ++ r /\ 0 <= y <= 9999.
Proof.
  unfold year_field. destruct l as [|a [|b [|c [|d l']]]]; try discriminate.
  destruct (dig a) eqn:Ea; [|discriminate]. destruct (dig b) eqn:Eb; [|discriminate].
  destruct (dig c) eqn:Ec; [|discriminate]. destruct (dig d) eqn:Ed; [|discriminate].
  apply dig_chr in Ea as [Ra ->]. apply dig_chr in Eb as [Rb ->]. apply dig_chr in Ec as [Rc ->]. apply dig_chr in Ed as [Rd ->].
  intros H. assert (Hy : 1000 * z + 100 * z0 + 10 * z1 + z2 = y) by congruence.
  assert (l' = r) as -> by congruence. rewrite <- Hy. rewrite decimal4 by auto. split; [reflexivity|lia].
Qed.

Lemma year_complete y r : 0 <= y <= 9999 -> year_field (decimal 4 y ++ r) = Some (y, r).
Proof.
  intros H. destruct (split4 y H) as (a & b & c & d & -> & Ra & Rb & Rc & Rd).
  rewrite decimal4 by auto. cbn [app year_field]. now rewrite !dig_digit_chr.
Qed.

Lemma lit_sound c l r : lit c l = Some r -> exists x, l = x :: r /\ ch_lower x = ch_lower c.
Proof.
  unfold lit. destruct l as [|x l']; [discriminate|]. destruct (Ascii.eqb_spec (ch_lower x) (ch_lower c)); [|discriminate].
  intros [= ->]. eauto.
Qed.
Lemma lit_complete c x r : ch_lower x = ch_lower c -> lit c (x :: r) = Some r.
Proof. intros H. unfold lit. rewrite H, Ascii.eqb_refl. reflexivity. Qed.

Lemma lower_slash x : ch_lower x = ch_lower "/" -> x = "/"%char.
Proof. destruct x as [[] [] [] [] [] [] [] []]; vm_compute; intros H; (reflexivity || discriminate H). Qed.
Lemma lower_dash x : ch_lower x = ch_lower "-" -> x = "-"%char.
Proof. destruct x as [[] [] [] [] [] [] [] []]; vm_compute; intros H; (reflexivity || discriminate H). Qed.
Lemma lower_colon x : ch_lower x = ch_lower ":" -> x = ":"%char.
Proof. destruct x as [[] [] [] [] [] [] [] []]; vm_compute; intros H; (reflexivity || discriminate H). Qed.
Lemma lower_T x : ch_lower x = ch_lower "T" <-> In x (chars "Tt").
Proof.
  split.
  - destruct x as [[] [] [] [] [] [] [] []]; vm_compute; intros H; (discriminate H || tauto).
  - intros [<-|[<-|[]]]; reflexivity.
Qed.
Lemma lower_Z x : ch_lower x = ch_lower "Z" <-> In x (chars "Zz").
Proof.
  split.
  - destruct x as [[] [] [] [] [] [] [] []]; vm_compute; intros H; (discriminate H || tauto).
  - intros [<-|[<-|[]]]; reflexivity.
Qed.

Definition slash (c : ascii) : ascii := if Ascii.eqb c "-" then "/"%char else c.

Lemma slash_no_dash l : ~ In "-"%char l -> map slash l = l.
Proof.
  induction l as [|c r IH]; simpl; intros H; auto.
  rewrite IH by tauto. unfold slash. destruct (Ascii.eqb_spec c "-"); auto. tauto.
Qed.

Lemma digit_not_dash d : 0 <= d <= 9 -> digit_chr d <> "-"%char.
Proof. intros H E. pose proof (dig_digit_chr d H) as D. rewrite E in D. discriminate. Qed.

Lemma fld_no_dash lo1 sp n t : fld lo1 sp n t -> ~ In "-"%char t.
Proof.
  intros [R|R R0|_ R].
  - destruct (split2 n R) as (a & b & -> & Ra & Rb). rewrite decimal2 by auto.
    intros [E|[E|[]]]; (eapply digit_not_dash; [|exact E]; lia).
  - rewrite decimal1 by lia. intros [E|[]]. eapply (digit_not_dash n); [lia|eauto].
  - rewrite decimal1 by lia. intros [E|[E|[]]]; [discriminate|]. eapply (digit_not_dash n); [lia|eauto].
Qed.
Lemma decimal4_no_dash y : 0 <= y <= 9999 -> ~ In "-"%char (decimal 4 y).
Proof.
  intros H. destruct (split4 y H) as (a & b & c & d & -> & Ra & Rb & Rc & Rd). rewrite decimal4 by auto.
  intros [E|[E|[E|[E|[]]]]]; (eapply digit_not_dash; [|exact E]; lia).
Qed.

Lemma slash_inv l a c b : map slash l = a ++ c :: b ->
  exists a' c' b', l = a' ++ c' :: b' /\ map slash a' = a /\ slash c' = c /\ map slash b' = b.
Proof.
  revert l. induction a as [|x a IH]; intros [|y l]; simpl; intros H; try discriminate.
  - injection H as H1 H2. exists [], y, l. repeat split; auto.
  - injection H as H1 H2. destruct (IH _ H2) as (a' & c' & b' & -> & E1 & E2 & E3).
    exists (y :: a'), c', b'. simpl. subst. repeat split; auto.
Qed.

Lemma slash_eq c : slash c = "/"%char -> In c (chars "-/").
Proof. unfold slash. destruct (Ascii.eqb_spec c "-"); simpl; auto. Qed.

Lemma no_slash_map l t : map slash l = t -> ~ In "/"%char t -> l = t.
Proof.
  revert t. induction l as [|c r IH]; simpl; intros t <-; auto.
  intros H. f_equal.
  - unfold slash in *. destruct (Ascii.eqb_spec c "-"); auto. exfalso. apply H. now left.
  - apply IH; auto. intros Hi. apply H. now right.
Qed.
Lemma fld_no_slash lo1 sp n t : fld lo1 sp n t -> ~ In "/"%char t.
Proof.
  assert (D : forall d, 0 <= d <= 9 -> digit_chr d <> "/"%char).
  { intros d H E. pose proof (dig_digit_chr d H) as D. rewrite E in D. discriminate. }
  intros [R|R R0|_ R].
  - destruct (split2 n R) as (a & b & -> & Ra & Rb). rewrite decimal2 by auto.
    intros [E|[E|[]]]; (eapply D; [|exact E]; lia).
  - rewrite decimal1 by lia. intros [E|[]]. eapply (D n); [lia|eauto].
  - rewrite decimal1 by lia. intros [E|[E|[]]]; [discriminate|]. eapply (D n); [lia|eauto].
Qed.
Lemma decimal4_no_slash y : 0 <= y <= 9999 -> ~ In "/"%char (decimal 4 y).
Proof.
  assert (D : forall d, 0 <= d <= 9 -> digit_chr d <> "/"%char).
  { intros d H E. pose proof (dig_digit_chr d H) as D. rewrite E in D. discriminate. }
  intros H. destruct (split4 y H) as (a & b & c & d & -> & Ra & Rb & Rc & Rd). rewrite decimal4 by auto.
  intros [E|[E|[E|[E|[]]]]]; (eapply D; [|exact E]; lia).
Qed.

Lemma parse_date_iff l x :
  parse_date (map slash l) = Some x <->
  calendar x /\ date_text l (dyear x) (dmonth x) (dday x) /\ dhour x = 0 /\ dmin x = 0 /\ dsec x = 0 /\ dmicro x = 0.
Proof.
  split.
  - unfold parse_date. intros H.
    destruct (year_field (map slash l)) as [[y l1]|] eqn:E1; [|discriminate].
    destruct (lit "/" l1) as [l2|] eqn:E2; [|discriminate].
    destruct (field 1 12 1 false l2) as [[m l3]|] eqn:E3; [|discriminate].
    destruct (lit "/" l3) as [l4|] eqn:E4; [|discriminate].
    destruct (field 1 31 1 true l4) as [[d l5]|] eqn:E5; [|discriminate].
    destruct l5; [|discriminate].
    destruct (dt_ok (DT y m d 0 0 0 0)) eqn:Eok; [|discriminate]. injection H as <-.
    apply dt_ok_calendar in Eok. split; [exact Eok|]. cbn [dyear dmonth dday dhour dmin dsec dmicro].
    split; [|auto].
    apply year_sound in E1 as [E1 Ry]. apply lit_sound in E2 as (x2 & -> & L2). apply lower_slash in L2. subst x2.
    apply field_sound in E3 as (tm & -> & Fm); try lia.
    apply lit_sound in E4 as (x4 & -> & L4). apply lower_slash in L4. subst x4.
    apply field_sound in E5 as (td & -> & Fd); try lia.
    destruct (slash_inv _ _ _ _ E1) as (a & c & b & -> & Ha & Hc & Hb).
    destruct (slash_inv _ _ _ _ Hb) as (a2 & c2 & b2 & -> & Ha2 & Hc2 & Hb2).
    apply no_slash_map in Ha; [|now apply decimal4_no_slash].
    apply no_slash_map in Ha2; [|eapply fld_no_slash; eauto].
    rewrite app_nil_r in Hb2. apply no_slash_map in Hb2; [|eapply fld_no_slash; eauto].
    subst. exists c, c2, tm, td. split; [reflexivity|]. split; [now apply slash_eq|]. split; [now apply slash_eq|]. auto.
  - intros (C & (s1 & s2 & tm & td & -> & I1 & I2 & Fm & Fd) & Hh & Hm & Hs & Hu).
    pose proof C as (Ry & Rm & Rd & _).
    assert (S1 : forall s, In s (chars "-/") -> slash s = "/"%char) by (intros s [<-|[<-|[]]]; reflexivity).
    rewrite !map_app. cbn [map]. rewrite !S1 by auto.
    rewrite (slash_no_dash (decimal 4 _)) by (apply decimal4_no_dash; lia).
    rewrite !slash_no_dash by (eapply fld_no_dash; eauto).
    unfold parse_date. rewrite year_complete by lia. cbn [app]. rewrite lit_complete by auto.
    rewrite (field_complete 1 12 1 false tm (dmonth x)); [|lia|lia|auto|reflexivity].
    rewrite lit_complete by auto.
    rewrite <- (app_nil_r td). rewrite (field_complete 1 31 1 true td (dday x)); [|lia| |auto|exact I].
    + destruct x as [y m d hh mi ss us]. simpl in Hh, Hm, Hs, Hu. subst. cbn [dyear dmonth dday].
      apply dt_ok_calendar in C. now rewrite C.
    + split; [lia|]. eapply Z.le_trans; [apply Rd|].
      repeat match goal with |- context[if ?b then _ else _] => destruct b end; lia.
Qed.

Lemma parse_datetime_iff l x :
  parse_datetime l = Some x <-> calendar x /\ datetime_text l x /\ dmicro x = 0.
Proof.
  split.
  - unfold parse_datetime. intros H.
    destruct (year_field l) as [[y l1]|] eqn:E1; [|discriminate].
    destruct (lit "-" l1) as [l2|] eqn:E2; [|discriminate].
    destruct (field 1 12 1 false l2) as [[m l3]|] eqn:E3; [|discriminate].
    destruct (lit "-" l3) as [l4|] eqn:E4; [|discriminate].
    destruct (field 1 31 1 true l4) as [[d l5]|] eqn:E5; [|discriminate].
    destruct (lit "T" l5) as [l6|] eqn:E6; [|discriminate].
    destruct (field 0 23 0 false l6) as [[hh l7]|] eqn:E7; [|discriminate].
    destruct (lit ":" l7) as [l8|] eqn:E8; [|discriminate].
    destruct (field 0 59 0 false l8) as [[mi l9]|] eqn:E9; [|discriminate].
    destruct (lit ":" l9) as [l10|] eqn:E10; [|discriminate].
    destruct (field 0 61 0 false l10) as [[ss l11]|] eqn:E11; [|discriminate].
    destruct (lit "Z" l11) as [l12|] eqn:E12; [|discriminate].
    destruct l12; [|discriminate].
    destruct (dt_ok (DT y m d hh mi ss 0)) eqn:Eok; [|discriminate]. injection H as <-.
    apply dt_ok_calendar in Eok. split; [exact Eok|]. split; [|reflexivity].
    apply year_sound in E1 as [-> Ry]. apply lit_sound in E2 as (x2 & -> & L2). apply lower_dash in L2. subst x2.
    apply field_sound in E3 as (tm & -> & Fm); try lia.
    apply lit_sound in E4 as (x4 & -> & L4). apply lower_dash in L4. subst x4.
    apply field_sound in E5 as (td & -> & Fd); try lia.
    apply lit_sound in E6 as (x6 & -> & L6). apply lower_T in L6.
    apply field_sound in E7 as (th & -> & Fh); try lia.
    apply lit_sound in E8 as (x8 & -> & L8). apply lower_colon in L8. subst x8.
    apply field_sound in E9 as (tmi & -> & Fmi); try lia.
    apply lit_sound in E10 as (x10 & -> & L10). apply lower_colon in L10. subst x10.
    apply field_sound in E11 as (ts & -> & Fs); try lia.
    apply lit_sound in E12 as (x12 & -> & L12). apply lower_Z in L12.
    exists tm, td, th, tmi, ts, x6, x12. cbn [dyear dmonth dday dhour dmin dsec dmicro].
    split; [reflexivity|]. auto 10.
  - intros (C & (tm & td & th & tmi & ts & ct & cz & -> & It & Iz & Fm & Fd & Fh & Fmi & Fs) & Hu).
    pose proof C as (Ry & Rm & Rd & Rh & Rmi & Rs & _).
    assert (Rd' : 1 <= dday x <= 31).
    { split; [lia|]. eapply Z.le_trans; [apply Rd|].
      repeat match goal with |- context[if ?b then _ else _] => destruct b end; lia. }
    assert (Nct : dig ct = None) by (destruct It as [<-|[<-|[]]]; reflexivity).
    assert (Ncz : dig cz = None) by (destruct Iz as [<-|[<-|[]]]; reflexivity).
    apply lower_T in It. apply lower_Z in Iz.
    unfold parse_datetime. rewrite year_complete by lia. cbn [app]. rewrite lit_complete by auto.
    rewrite (field_complete 1 12 1 false tm (dmonth x)); [|lia|lia|auto|reflexivity].
    rewrite lit_complete by auto.
    rewrite (field_complete 1 31 1 true td (dday x)); [|lia|lia|auto|exact Nct].
    rewrite lit_complete by auto.
    rewrite (field_complete 0 23 0 false th (dhour x)); [|lia|lia|auto|reflexivity].
    rewrite lit_complete by auto.
    rewrite (field_complete 0 59 0 false tmi (dmin x)); [|lia|lia|auto|reflexivity].
    rewrite lit_complete by auto.
    rewrite (field_complete 0 61 0 false ts (dsec x)); [|lia|lia|auto|exact Ncz].
    rewrite lit_complete by auto.
    destruct x as [y m d hh mi ss us]. simpl in Hu. subst. cbn [dyear dmonth dday dhour dmin dsec] in *.
    apply dt_ok_calendar in C. now rewrite C.
Qed.

Lemma date_of_string_iff s x :
  date_of_string s = Some x <->
  calendar x /\ dmicro x = 0 /\
  (if Nat.eqb (length (chars s)) 10
   then date_text (chars s) (dyear x) (dmonth x) (dday x) /\ dhour x = 0 /\ dmin x = 0 /\ dsec x = 0
   else datetime_text (chars s) x).
Proof.
  unfold date_of_string. destruct (Nat.eqb (length (chars s)) 10).
  - change (map _ (chars s)) with (map slash (chars s)). rewrite parse_date_iff. tauto.
  - rewrite parse_datetime_iff. tauto.
Qed.

Lemma pad2_decimal n : pad2 n = decimal 2 n.
Proof. reflexivity. Qed.
Lemma pad4_decimal n : 0 <= n <= 9999 -> pad4 n = decimal 4 n.
Proof.
  intros H. destruct (split4 n H) as (a & b & c & d & -> & Ra & Rb & Rc & Rd). rewrite decimal4 by auto. unfold pad4.
  set (n := 1000 * a + 100 * b + 10 * c + d).
  replace (n / 1000 mod 10) with a by (unfold n; Z.div_mod_to_equations; lia).
  replace (n / 100 mod 10) with b by (unfold n; Z.div_mod_to_equations; lia).
  replace (n / 10 mod 10) with c by (unfold n; Z.div_mod_to_equations; lia).
  replace (n mod 10) with d by (unfold n; Z.div_mod_to_equations; lia). reflexivity.
Qed.

Lemma date_round_trip E x :
  calendar x -> (e_padyear E = true \/ 1000 <= dyear x) ->
  date_of_string (date_to_string E x) = Some (no_micro x).
Proof.
  intros C Hp. pose proof C as (Ry & Rm & Rd & Rh & Rmi & Rs & Ru).
  assert (Rd' : 1 <= dday x <= 31).
  { split; [lia|]. eapply Z.le_trans; [apply Rd|].
    repeat match goal with |- context[if ?b then _ else _] => destruct b end; lia. }
  apply date_of_string_iff. unfold date_to_string. rewrite chars_unchars.
  assert (Ey : year_str (e_padyear E) (dyear x) = decimal 4 (dyear x)).
  { rewrite <- pad4_decimal by lia. unfold year_str. destruct (e_padyear E); auto.
    destruct Hp as [|Hp]; [discriminate|].
    destruct (Z.ltb_spec (dyear x) 10); [lia|]. destruct (Z.ltb_spec (dyear x) 100); [lia|].
    destruct (Z.ltb_spec (dyear x) 1000); [lia|]. reflexivity. }
  rewrite Ey. rewrite !pad2_decimal.
  split.
  - unfold calendar, no_micro in *. cbn [dyear dmonth dday dhour dmin dsec dmicro]. intuition lia.
  - split; [reflexivity|].
    destruct (split4 (dyear x) ltac:(lia)) as (a & b & c & d & Eyr & Ra & Rb & Rc & Rdd).
    replace (Nat.eqb _ 10) with false.
    + exists (decimal 2 (dmonth x)), (decimal 2 (dday x)), (decimal 2 (dhour x)), (decimal 2 (dmin x)), (decimal 2 (dsec x)), "T"%char, "Z"%char.
      cbn [no_micro dyear dmonth dday dhour dmin dsec].
      split; [reflexivity|]. split; [now left|]. split; [now left|].
      repeat split; constructor; lia.
    + symmetry. rewrite !app_length. cbn [decimal]. rewrite ?app_length. reflexivity.
Qed.
