(** Lemmas behind the File and ImagePNG theorems. *)
From Verif Require Import Files OptionsFacts OptionsSpec.
From Coq Require Import Lia ZArith.
Local Open Scope string_scope.
Local Open Scope list_scope.

(** ** base64 *)
Lemma b64_chars n : (0 <= n < 64)%Z -> b64_value (b64_char n) = Some n /\ Ascii.eqb (b64_char n) pad = false.
Proof.
  intros H.
  assert (A : forall k, (k < 64)%nat -> b64_value (b64_char (Z.of_nat k)) = Some (Z.of_nat k) /\ Ascii.eqb (b64_char (Z.of_nat k)) pad = false).
  { intros k Hk. do 64 (destruct k as [|k]; [vm_compute; auto|]). lia. }
  specialize (A (Z.to_nat n)). rewrite Z2Nat.id in A by lia. apply A. lia.
Qed.
Lemma a2b_0 n r left pads : (0 <= n < 64)%Z -> a2b (b64_char n :: r) 0 left pads = a2b r 1 n 0.
Proof. intros H. destruct (b64_chars n H) as [E1 E2]. cbn [a2b]. rewrite E2, E1. reflexivity. Qed.
Lemma a2b_1 n r left pads : (0 <= n < 64)%Z ->
  a2b (b64_char n :: r) 1 left pads = rbind (a2b r 2 (n mod 16) 0) (fun t => Ok (left * 4 + n / 16 :: t))%Z.
Proof. intros H. destruct (b64_chars n H) as [E1 E2]. cbn [a2b]. rewrite E2, E1. reflexivity. Qed.
Lemma a2b_2 n r left pads : (0 <= n < 64)%Z ->
  a2b (b64_char n :: r) 2 left pads = rbind (a2b r 3 (n mod 4) 0) (fun t => Ok (left * 16 + n / 4 :: t))%Z.
Proof. intros H. destruct (b64_chars n H) as [E1 E2]. cbn [a2b]. rewrite E2, E1. reflexivity. Qed.
Lemma a2b_3 n r left pads : (0 <= n < 64)%Z ->
  a2b (b64_char n :: r) 3 left pads = rbind (a2b r 0 0 0) (fun t => Ok (left * 64 + n :: t))%Z.
Proof. intros H. destruct (b64_chars n H) as [E1 E2]. cbn [a2b]. rewrite E2, E1. reflexivity. Qed.
Ltac zdiv := Z.div_mod_to_equations; lia.
Lemma b64_round l : Forall byte l -> b64decode (b64encode l) = Ok l.
Proof.
  unfold b64decode. remember (length l) as n eqn:En. revert l En.
  induction n as [n IH] using lt_wf_ind. intros l -> HF. destruct l as [|a [|b [|c r]]].
  - reflexivity.
  - inversion HF as [|? ? Ha _]; subst. unfold byte in *. cbn [b64encode].
    rewrite a2b_0 by zdiv. rewrite a2b_1 by zdiv. cbn. repeat f_equal; zdiv.
  - inversion HF as [|? ? Ha HF2]; subst. inversion HF2 as [|? ? Hb _]; subst. unfold byte in *. cbn [b64encode].
    rewrite a2b_0 by zdiv. rewrite a2b_1 by zdiv. rewrite a2b_2 by zdiv. cbn. repeat f_equal; zdiv.
  - inversion HF as [|? ? Ha HF2]; subst. inversion HF2 as [|? ? Hb HF3]; subst. inversion HF3 as [|? ? Hc HF4]; subst. unfold byte in *.
    cbn [b64encode]. rewrite a2b_0 by zdiv. rewrite a2b_1 by zdiv. rewrite a2b_2 by zdiv. rewrite a2b_3 by zdiv.
    rewrite (IH (length r)); auto; [|simpl; lia]. cbn. repeat f_equal; zdiv.
Qed.
Lemma sextet_b64 n : sextet n -> sextet_char n = b64_char n.
Proof.
  intros H. unfold sextet in H.
  assert (A : forall k, (k < 64)%nat -> sextet_char (Z.of_nat k) = b64_char (Z.of_nat k)).
  { intros k Hk. do 64 (destruct k as [|k]; [vm_compute; auto|]). lia. }
  specialize (A (Z.to_nat n)). rewrite Z2Nat.id in A by lia. apply A. lia.
Qed.
Lemma b64_encodes l : Forall byte l -> b64_text l (b64encode l).
Proof.
  remember (length l) as n eqn:En. revert l En.
  induction n as [n IH] using lt_wf_ind. intros l -> HF. destruct l as [|a [|b [|c r]]].
  - constructor.
  - inversion HF as [|? ? Ha _]; subst. unfold byte in *. cbn [b64encode].
    rewrite <- !sextet_b64 by (unfold sextet; zdiv). apply bt_one; unfold sextet; zdiv.
  - inversion HF as [|? ? Ha HF2]; subst. inversion HF2 as [|? ? Hb _]; subst. unfold byte in *. cbn [b64encode].
    rewrite <- !sextet_b64 by (unfold sextet; zdiv). apply bt_two; unfold sextet; zdiv.
  - inversion HF as [|? ? Ha HF2]; subst. inversion HF2 as [|? ? Hb HF3]; subst. inversion HF3 as [|? ? Hc HF4]; subst. unfold byte in *.
    cbn [b64encode]. rewrite <- !sextet_b64 by (unfold sextet; zdiv). apply bt_three; try (unfold sextet; zdiv).
    apply (IH (length r)); auto. simpl. lia.
Qed.
Definition rapp (bs : list Z) (r : res (list Z)) : res (list Z) := rbind r (fun t => Ok (bs ++ t)).
Lemma decode_letters ss bs : whole_bytes ss bs -> forall left pads, exists left' pads', (ss <> [] -> pads' = 0%Z) /\ (ss = [] -> pads' = pads) /\
  forall rest, a2b (map sextet_char ss ++ rest) 0 left pads = rapp bs (a2b rest (Z.of_nat (length ss) mod 4) left' pads').
Proof.
  assert (R0 : forall r, rapp [] r = r) by (intros []; reflexivity).
  assert (RR : forall a bs r, rbind (rapp bs r) (fun t => Ok (a :: t)) = rapp (a :: bs) r) by (intros a b0 []; reflexivity).
  assert (R1 : forall a r, rbind r (fun t => Ok (a :: t)) = rapp [a] r) by (intros a []; reflexivity).
  induction 1 as [|s H0|s t a k Hs Ht HE Hk|s t u a b k Hs Ht Hu Hb HE Hk|s t u w a b c r x Hs Ht Hu Hw Hb Hc HE _ IH]; intros left pads.
  - exists left, pads. split; [congruence|]. split; [auto|]. intros rest. now rewrite R0.
  - exists s, 0%Z. split; [auto|]. split; [discriminate|]. intros rest. cbn [map app]. rewrite sextet_b64, a2b_0 by auto. now rewrite R0.
  - exists (t mod 16)%Z, 0%Z. split; [auto|]. split; [discriminate|]. intros rest. cbn [map app].
    rewrite !sextet_b64, a2b_0, a2b_1 by auto. rewrite R1. unfold sextet in *. repeat f_equal. zdiv.
  - exists (u mod 4)%Z, 0%Z. split; [auto|]. split; [discriminate|]. intros rest. cbn [map app].
    rewrite !sextet_b64, a2b_0, a2b_1, a2b_2 by auto. cbn [length Z.of_nat]. change (Z.pos (Pos.of_succ_nat 2) mod 4)%Z with 3%Z.
    unfold sextet, byte in *. destruct (a2b rest 3 (u mod 4) 0); cbn; [|reflexivity]. f_equal. f_equal; [|f_equal]; zdiv.
  - destruct (IH 0%Z 0%Z) as (l' & p' & P1 & P2 & IH'). exists l', p'. split; [|split; [discriminate|]].
    { intros _. destruct r; [apply P2; reflexivity|apply P1; discriminate]. }
    intros rest. cbn [map app]. rewrite !sextet_b64, a2b_0, a2b_1, a2b_2, a2b_3 by auto. rewrite IH'.
    replace (Z.of_nat (length (s :: t :: u :: w :: r)) mod 4)%Z with (Z.of_nat (length r) mod 4)%Z.
    2:{ cbn [length]. replace (Z.of_nat (S (S (S (S (length r)))))) with (Z.of_nat (length r) + 1 * 4)%Z by lia. now rewrite Z.mod_add by lia. }
    rewrite !RR. unfold sextet, byte in *. f_equal. f_equal; [|f_equal; [|f_equal]]; zdiv.
Qed.
Lemma decode_exact ss bs : whole_bytes ss bs ->
  let text := map sextet_char ss in let q := Nat.modulo (length ss) 4 in
  (q = 0%nat -> b64decode text = Ok bs) /\
  (q <> 0%nat -> b64decode text = Exc ExValue) /\
  (q = 2%nat -> b64decode (text ++ ["="%char]) = Exc ExValue /\ forall rest, b64decode (text ++ "="%char :: "="%char :: rest) = Ok bs) /\
  (q = 3%nat -> forall rest, b64decode (text ++ "="%char :: rest) = Ok bs) /\
  (q < 2 -> forall rest, b64decode (text ++ "="%char :: rest) = b64decode (text ++ rest))%nat /\
  (q = 2%nat -> forall s rest, sextet s -> b64decode (text ++ "="%char :: sextet_char s :: rest) = b64decode (text ++ sextet_char s :: rest)).
Proof.
  intros H text q. destruct (decode_letters _ _ H 0 0)%Z as (l' & p' & P1 & P2 & D). unfold b64decode.
  assert (Q : (Z.of_nat (length ss) mod 4 = Z.of_nat q)%Z) by (unfold q; rewrite Nat2Z.inj_mod; reflexivity).
  assert (N : p' = 0%Z) by (destruct ss; [now apply P2|apply P1; discriminate]).
  assert (Lq : (q < 4)%nat) by (apply Nat.mod_upper_bound; lia).
  assert (E : forall rest, a2b (text ++ rest) 0 0 0 = rapp bs (a2b rest (Z.of_nat q) l' 0)).
  { intros rest. unfold text. rewrite D, Q, N. reflexivity. }
  assert (A0 : rapp bs (Ok []) = Ok bs) by (cbn; now rewrite app_nil_r).
  clearbody q. split; [|split; [|split; [|split; [|split]]]].
  - intros ->. rewrite <- (app_nil_r text), E. exact A0.
  - intros Hq. rewrite <- (app_nil_r text), E. cbn [a2b]. destruct q as [|[|[|[|]]]]; try lia; reflexivity.
  - intros ->. split; [rewrite E; reflexivity|]. intros rest. rewrite E. exact A0.
  - intros -> rest. rewrite E. exact A0.
  - intros Hq rest. rewrite !E. destruct q as [|[|]]; try lia; reflexivity.
  - intros -> s rest Hs. rewrite !E, sextet_b64 by exact Hs. destruct (b64_chars s Hs) as [E1 E2]. cbn [a2b]. rewrite E2, E1. reflexivity.
Qed.
Lemma decode_skips c a b : (forall s, sextet s -> c <> sextet_char s) -> c <> "="%char -> b64decode (a ++ c :: b) = b64decode (a ++ b).
Proof.
  intros Hc Hp. unfold b64decode.
  assert (V : b64_value c = None).
  { destruct c as [x0 x1 x2 x3 x4 x5 x6 x7].
    assert (F : forall k, (k < 64)%nat -> Ascii x0 x1 x2 x3 x4 x5 x6 x7 <> nth k alphabet pad).
    { intros k Hk Ec. apply (Hc (Z.of_nat k)); [unfold sextet; lia|]. rewrite sextet_b64 by (unfold sextet; lia). unfold b64_char. now rewrite Nat2Z.id. }
    assert (G : forall l i, (forall k, (k < length l)%nat -> Ascii x0 x1 x2 x3 x4 x5 x6 x7 <> nth k l pad) -> index_of (Ascii x0 x1 x2 x3 x4 x5 x6 x7) l i = None).
    { induction l as [|y l IH]; intros i Hl; [reflexivity|]. cbn [index_of]. destruct (Ascii.eqb_spec y (Ascii x0 x1 x2 x3 x4 x5 x6 x7)) as [->|]; [destruct (Hl 0%nat); simpl; [lia|reflexivity]|].
      apply IH. intros k Hk. apply (Hl (S k)). simpl. lia. }
    unfold b64_value. apply G. exact F. }
  assert (Np : Ascii.eqb c pad = false) by (apply Ascii.eqb_neq; exact Hp).
  generalize 0%Z at 2 5. generalize 0%Z at 2 4. generalize 0%Z.
  induction a as [|x a IH]; intros q l p; cbn [app a2b].
  - now rewrite Np, V.
  - destruct (Ascii.eqb x pad).
    + destruct (_ && _)%bool; [reflexivity|apply IH].
    + destruct (b64_value x) as [n|]; [|apply IH]. repeat (destruct (_ =? _)%Z; [first [apply IH|rewrite IH; reflexivity]|]). rewrite IH. reflexivity.
Qed.
Lemma prefix_app p s : String.prefix p (p ++ s) = true.
Proof. induction p as [|c p IH]; simpl; [now destruct s|]. destruct (Ascii.ascii_dec c c); congruence. Qed.
Lemma chars_app s t : chars (s ++ t)%string = chars s ++ chars t.
Proof. induction s; simpl; congruence. Qed.
Lemma chars_length s : length (chars s) = String.length s.
Proof. induction s; simpl; congruence. Qed.
Lemma json_round f : Forall byte (f_bytes f) ->
  png_from_json (fst (png_to_json f)) = Ok (FO true true true None (Some false) false (skipn (f_pos f) (f_bytes f)) 0 0).
Proof.
  intros HF. unfold png_from_json, png_to_json. cbv [fst]. rewrite prefix_app. unfold str_drop.
  rewrite chars_unchars, chars_app, chars_unchars, <- chars_length, skipn_app, skipn_all, Nat.sub_diag. cbn [app skipn].
  rewrite b64_round; [reflexivity|]. rewrite <- (firstn_skipn (f_pos f) (f_bytes f)) in HF. now apply Forall_app in HF.
Qed.

(** ** heaps *)
Lemma set_at_same {A} (l : list A) n a : (n < length l)%nat -> nth_error (set_at l n a) n = Some a.
Proof. revert n. induction l as [|x l IH]; simpl; intros n H; [lia|]. destruct n; simpl; auto. apply IH. lia. Qed.
Lemma set_at_other {A} (l : list A) n m a : n <> m -> nth_error (set_at l n a) m = nth_error l m.
Proof. revert n m. induction l as [|x l IH]; intros [|n] [|m] H; simpl; auto; try congruence. Qed.
Lemma set_at_length {A} (l : list A) n a : length (set_at l n a) = length l.
Proof. revert n. induction l as [|x l IH]; intros [|n]; simpl; auto. Qed.

(** ** File *)
Lemma mem_str_val m l : mem_val m (map VStr l) = true <-> exists s, In s l /\ m = VStr s.
Proof.
  unfold mem_val. rewrite existsb_exists. split.
  - intros (x & H & E). apply in_map_iff in H as (y & <- & H). destruct m; try discriminate. simpl in E. apply String.eqb_eq in E. subst. eauto.
  - intros (s & H & ->). exists (VStr s). split; [now apply in_map|simpl; apply String.eqb_refl].
Qed.
Lemma file_checks_iff o v h r : file_checks o v h = r ->
  ((exists v', r = LOk v') \/ r = LErr 0) /\
  (forall v', r = LOk v' <-> v' = v /\ exists i f, v = VObj i /\ nth_error h i = Some f /\ open_file_of o f).
Proof.
  intros <-. unfold file_checks, open_file_of. destruct v as [| | | | | | | | |i| | | | |]; try (split; [right; reflexivity|]; intros v'; split; [discriminate|intros (_ & ? & ? & K & _); discriminate]).
  destruct (nth_error h i) as [f|] eqn:E.
  2:{ split; auto. intros v'. split; [discriminate|]. intros (_ & j & f & K & L & _). injection K as <-. congruence. }
  assert (C : forall v', (LErr 0 = LOk v' <-> False)) by (split; [discriminate|tauto]).
  destruct (f_read f && f_seek f) eqn:E1; cbn [negb].
  2:{ split; auto. intros v'. rewrite C. split; [tauto|]. intros (_ & j & f' & K & L & H1 & H2 & _). injection K as <-.
      assert (f' = f) by congruence. subst. rewrite H1, H2 in E1. discriminate. }
  apply andb_prop in E1 as [E1 E2].
  destruct (match f_mode f with Some m => _ | None => _ end) eqn:E3.
  { split; auto. intros v'. rewrite C. split; [tauto|]. intros (_ & j & f' & K & L & _ & _ & _ & H4). injection K as <-.
    assert (f' = f) by congruence. subst. destruct (f_mode f) as [m|], (valid_modes o) as [l|]; try discriminate.
    specialize (H4 m l eq_refl eq_refl). apply mem_str_val in H4. rewrite H4 in E3. discriminate. }
  destruct (match f_closed f with Some b => b | None => false end) eqn:E4.
  { split; auto. intros v'. rewrite C. split; [tauto|]. intros (_ & j & f' & K & L & _ & _ & H3 & _). injection K as <-.
    assert (f' = f) by congruence. subst. destruct (f_closed f) as [[]|]; try discriminate. congruence. }
  split; [eauto|]. intros v'. split.
  - intros K. injection K as <-. split; auto. exists i, f. repeat split; auto.
    + intros K. rewrite K in E4. discriminate.
    + intros m l Hm Hl. rewrite Hm, Hl in E3. apply Bool.negb_false_iff in E3. now apply mem_str_val.
  - intros (-> & _). reflexivity.
Qed.
Lemma file_accepts fs o v h r h' : file_validate fs o v h = (LOk r, h') <->
  exists i f, r = VObj i /\ nth_error h' i = Some f /\ open_file_of o f /\
    (v = r /\ h' = h \/
     exists s m rm bs p, v = VStr s /\ m_mode o = Some m /\ fs s m = Opened rm bs p /\ i = length h /\
       f = FO true true true (Some (VStr rm)) (Some false) false bs p 0 /\ h' = h ++ [f]).
Proof.
  assert (N : forall v, (forall s m, ~ (v = VStr s /\ m_mode o = Some m)) ->
    ((file_checks o v h, h) = (LOk r, h') <-> exists i f, r = VObj i /\ nth_error h' i = Some f /\ open_file_of o f /\ (v = r /\ h' = h \/
     exists s m rm bs p, v = VStr s /\ m_mode o = Some m /\ fs s m = Opened rm bs p /\ i = length h /\ f = FO true true true (Some (VStr rm)) (Some false) false bs p 0 /\ h' = h ++ [f]))).
  { intros v0 Hv. destruct (file_checks_iff o v0 h _ eq_refl) as [_ K]. split.
    - intros E. injection E as E <-. apply K in E as (-> & i & f & -> & Hf & Ho). eauto 10.
    - intros (i & f & -> & Hf & Ho & [(-> & ->)|(s & m & rm & bs & p & E1 & E2 & _)]); [|destruct (Hv s m); auto].
      f_equal. apply K. eauto 10. }
  unfold file_validate. destruct v; try (apply N; intros s1 m1 [K _]; discriminate).
  destruct (m_mode o) as [m|] eqn:Em; [|apply N; intros s1 m1 [_ K]; discriminate].
  destruct (fs s m) as [rm bs p| |e] eqn:Ef.
  - destruct (file_checks_iff o (VObj (length h)) (h ++ [opened_file rm bs p]) _ eq_refl) as [_ K]. cbv zeta. split.
    + intros E. injection E as E <-. apply K in E as (-> & i & f & Ei & Hf & Ho). injection Ei as <-.
      rewrite nth_error_app2, Nat.sub_diag in Hf by lia. injection Hf as <-. exists (length h), (opened_file rm bs p). split; auto.
      rewrite nth_error_app2, Nat.sub_diag by lia. split; auto. split; auto. right. exists s, m, rm, bs, p. auto 10.
    + intros (i & f & -> & Hf & Ho & [(E & _)|(s' & m' & rm' & bs' & p' & E1 & E2 & E3 & -> & -> & ->)]); [discriminate|].
      injection E1 as <-. injection E2 as <-. rewrite Ef in E3. injection E3 as <- <- <-. f_equal. apply K. split; auto.
      exists (length h), (opened_file rm bs p). auto.
  - split; [discriminate|]. intros (i & f & -> & Hf & Ho & [(E & _)|(s' & m' & rm' & bs' & p' & E1 & E2 & E3 & _)]); [discriminate|].
    injection E1 as <-. injection E2 as <-. congruence.
  - split; [discriminate|]. intros (i & f & -> & Hf & Ho & [(E & _)|(s' & m' & rm' & bs' & p' & E1 & E2 & E3 & _)]); [discriminate|].
    injection E1 as <-. injection E2 as <-. congruence.
Qed.
Lemma delete_closes h i f r s' : nth_error h i = Some f -> file_del None (FS (Some (VObj i)) h) = (r, s') ->
  (f_close f = false /\ r = Exc ExAttr /\ s' = FS (Some (VObj i)) h) \/
  (f_close f = true /\ r = Ok VNone /\ fs_slot s' = None /\ length (fs_heap s') = length h /\
   (exists f', nth_error (fs_heap s') i = Some f' /\ f_closes f' = S (f_closes f) /\ (f_closed f <> None -> f_closed f' = Some true)) /\
   forall j, j <> i -> nth_error (fs_heap s') j = nth_error h j).
Proof.
  intros Hf H. unfold file_del in H. cbn [fs_slot fs_heap] in H. rewrite Hf in H. destruct (f_close f) eqn:Ec; injection H as <- <-.
  - right. cbn [fs_slot fs_heap]. assert (i < length h)%nat by (apply nth_error_Some; congruence).
    repeat split; auto; [apply set_at_length| |].
    + exists (closed_file f). split; [now apply set_at_same|]. split; [reflexivity|]. simpl. destruct (f_closed f); congruence.
    + intros j Hj. apply set_at_other. congruence.
  - left. auto.
Qed.

(** ** ImagePNG *)
Lemma png_accepts fs o v h r h' : png_validate fs o v h = (LOk r, h') ->
  (exists i f, v = VObj i /\ nth_error h i = Some f /\ f_marked f = true /\ r = v /\ h' = h) \/
  exists i j f c, r = VObj j /\ nth_error h' j = Some c /\ f_marked c = true /\ f_closed c = Some false /\ f_pos c = 0%nat /\
    nth_error h j = None /\
    (forall h1, file_validate fs o v h = (LOk (VObj i), h1) -> nth_error h1 i = Some f) /\
    (exists h1, file_validate fs o v h = (LOk (VObj i), h1)) /\
    f_bytes c = f_bytes f /\ firstn 8 (skipn (f_pos f) (f_bytes f)) = png_signature.
Proof.
  unfold png_validate. destruct (match v with VObj i => _ | _ => false end) eqn:E.
  - intros H. injection H as <- <-. left. destruct v; try discriminate. destruct (nth_error h n) as [f|] eqn:Ef; [|discriminate]. eauto 10.
  - destruct (file_validate fs o v h) as [[v1|n|e] h1] eqn:Ev; try discriminate.
    pose proof (proj1 (file_accepts _ _ _ _ _ _) Ev) as (i & f & -> & Hf & Ho & HH). rewrite Hf.
    destruct (list_eq_dec _ _ _) as [Es|]; [|discriminate]. destruct (f_close f) eqn:Ec; [|discriminate].
    intros H. injection H as <- <-. right. exists i, (length h1), f, (png_copy (f_bytes f)). split; auto.
    rewrite nth_error_app2 by (rewrite set_at_length; lia). rewrite set_at_length, Nat.sub_diag. split; auto. repeat split; auto.
    + apply nth_error_None. destruct HH as [(_ & ->)|(? & ? & ? & ? & ? & _ & _ & _ & _ & _ & ->)]; [auto|]. rewrite app_length. simpl. lia.
    + intros h2 K. injection K as <-. exact Hf.
    + eauto.
Qed.
Lemma json_round_trip f : Forall byte (f_bytes f) ->
  exists g, png_from_json (fst (png_to_json f)) = Ok g /\ f_bytes g = skipn (f_pos f) (f_bytes f) /\ f_pos g = 0%nat /\
    f_closed g = Some false /\ (f_pos f = 0%nat -> f_bytes g = f_bytes f) /\ snd (png_to_json f) = at_pos f 0.
Proof. intros H. eexists. split; [apply json_round; auto|]. repeat split. simpl. now intros ->. Qed.
Lemma set_file fs o v veto s r s' : file_set (file_validate fs o) v veto s = (r, s') ->
  (r = Ok VNone /\ exists i f, fs_slot s' = Some (VObj i) /\ nth_error (fs_heap s') i = Some f /\ open_file_of o f /\
     (v = VObj i \/ nth_error (fs_heap s) i = None)) \/
  ((exists e, r = Exc e) /\ fs_slot s' = fs_slot s).
Proof.
  unfold file_set. destruct (file_validate fs o v (fs_heap s)) as [[v1|n|e] h1] eqn:Ev.
  - destruct veto as [e|]; intros H; injection H as <- <-; [right; split; [now eexists|reflexivity]|]. left. split; [reflexivity|].
    apply file_accepts in Ev. destruct Ev as (i & f & -> & Hi & Ho & Hv). exists i, f. repeat split; auto; try apply Ho.
    destruct Hv as [[-> _]|(x & m & rm & bs & q & _ & _ & _ & -> & _)]; [now left|right]. now apply nth_error_None.
  - intros H. injection H as <- <-. right. split; [now eexists|reflexivity].
  - intros H. injection H as <- <-. right. split; [now eexists|reflexivity].
Qed.

(** ** All outcomes *)
Local Open Scope nat_scope.
Lemma file_outcomes fs o v h r h' : file_validate fs o v h = (r, h') ->
  (exists s m, v = VStr s /\ m_mode o = Some m /\
     ((fs s m = OpenFails /\ r = LErr 0 /\ h' = h) \/
      (exists e, fs s m = OpenRaises e /\ r = LExc e /\ h' = h) \/
      (exists rm bs p, fs s m = Opened rm bs p /\ h' = h ++ [FO true true true (Some (VStr rm)) (Some false) false bs p 0] /\
         (r = LOk (VObj (length h)) \/ r = LErr 0)))) \/
  ((forall s m, ~ (v = VStr s /\ m_mode o = Some m)) /\ h' = h /\ (r = LOk v \/ r = LErr 0)).
Proof.
  assert (N : forall v h, file_checks o v h = LOk v \/ file_checks o v h = LErr 0).
  { intros v0 h0. destruct (file_checks_iff o v0 h0 _ eq_refl) as [[[w Hw]|H] K]; [|now right]. left. destruct (K w) as [K1 _].
    destruct (K1 Hw) as [-> _]. exact Hw. }
  unfold file_validate. destruct v; try (intros H; injection H as <- <-; right; split; [intros ? ? [E _]; discriminate|split; [reflexivity|apply N]]).
  destruct (m_mode o) as [m|].
  - destruct (fs s m) as [rm bs p| |e] eqn:E; intros H; left; exists s, m; (split; [reflexivity|split; [reflexivity|]]).
    + right. right. exists rm, bs, p. cbv zeta in H. injection H as <- <-. split; [exact E|split; [reflexivity|apply N]].
    + left. injection H as <- <-. auto.
    + right. left. exists e. injection H as <- <-. auto.
  - intros H. injection H as <- <-. right. split; [intros ? ? [_ E]; discriminate|split; [reflexivity|apply N]].
Qed.
Lemma set_outcomes validate v veto s h1 :
  (forall w, validate v (fs_heap s) = (LOk w, h1) ->
     (veto = None -> file_set validate v veto s = (Ok VNone, FS (Some w) h1)) /\
     (forall e, veto = Some e -> file_set validate v veto s = (Exc e, FS (fs_slot s) h1))) /\
  (forall n, validate v (fs_heap s) = (LErr n, h1) -> file_set validate v veto s = (Exc (ExValidation []), FS (fs_slot s) h1)) /\
  (forall e, validate v (fs_heap s) = (LExc e, h1) -> file_set validate v veto s = (Exc e, FS (fs_slot s) h1)).
Proof.
  unfold file_set. split; [|split].
  - intros w ->. split; [now intros ->|now intros e ->].
  - now intros n ->.
  - now intros e ->.
Qed.
Lemma delete_outcomes veto s r s' : file_del veto s = (r, s') ->
  ((fs_slot s = None \/ fs_slot s = Some VNone) ->
     fs_heap s' = fs_heap s /\ (veto = None -> r = Ok VNone /\ fs_slot s' = None) /\ (forall e, veto = Some e -> r = Exc e /\ s' = s)) /\
  (forall v, fs_slot s = Some v -> v <> VNone -> (forall i, v <> VObj i) -> r = Exc ExAttr /\ s' = s) /\
  (forall i f e, fs_slot s = Some (VObj i) -> nth_error (fs_heap s) i = Some f -> f_close f = true -> veto = Some e ->
     r = Exc e /\ fs_slot s' = fs_slot s /\
     exists f', nth_error (fs_heap s') i = Some f' /\ f_closes f' = S (f_closes f)).
Proof.
  unfold file_del. destruct s as [sl h]. simpl. intros H. split; [|split].
  - intros [-> | ->]; destruct veto; injection H as <- <-; repeat split; intros; congruence.
  - intros v -> Hn Ho. destruct v; try congruence; try (injection H as <- <-; auto; fail).
  - intros i f e -> Hf Hc ->. rewrite Hf, Hc in H. injection H as <- <-. simpl. repeat split.
    exists (closed_file f). split; [|reflexivity]. apply set_at_same. apply nth_error_Some. congruence.
Qed.
Lemma png_outcomes fs o v h : (forall i f, v = VObj i -> nth_error h i = Some f -> f_marked f = false) ->
  (forall h1, (forall n, file_validate fs o v h = (LErr n, h1) -> png_validate fs o v h = (LErr n, h1)) /\
     (forall e, file_validate fs o v h = (LExc e, h1) -> png_validate fs o v h = (LExc e, h1))) /\
  (forall i h1 f, file_validate fs o v h = (LOk (VObj i), h1) -> nth_error h1 i = Some f ->
     let sig := firstn 8 (skipn (f_pos f) (f_bytes f)) in
     (forall h', (exists r, png_validate fs o v h = (r, h')) -> forall j, j < length h1 -> j <> i -> nth_error h' j = nth_error h1 j) /\
     (sig <> [137; 80; 78; 71; 13; 10; 26; 10]%Z ->
        exists h', png_validate fs o v h = (LErr 0, h') /\ length h' = length h1 /\
          nth_error h' i = Some (FO (f_read f) (f_seek f) (f_close f) (f_mode f) (f_closed f) (f_marked f) (f_bytes f) (f_pos f + length sig) (f_closes f))) /\
     (sig = [137; 80; 78; 71; 13; 10; 26; 10]%Z -> f_close f = false ->
        exists h', png_validate fs o v h = (LExc ExAttr, h') /\ length h' = length h1 /\
          nth_error h' i = Some (FO (f_read f) (f_seek f) (f_close f) (f_mode f) (f_closed f) (f_marked f) (f_bytes f) (length (f_bytes f)) (f_closes f))) /\
     (sig = [137; 80; 78; 71; 13; 10; 26; 10]%Z -> f_close f = true ->
        exists h', png_validate fs o v h = (LOk (VObj (length h1)), h') /\ length h' = S (length h1) /\
          nth_error h' (length h1) = Some (FO true true true None (Some false) true (f_bytes f) 0 0) /\
          nth_error h' i = Some (FO (f_read f) (f_seek f) true (f_mode f) (if f_closed f then Some true else None) (f_marked f) (f_bytes f) (length (f_bytes f)) (S (f_closes f))))).
Proof.
  intros Hm. assert (E0 : match v with VObj i => match nth_error h i with Some f => f_marked f | None => false end | _ => false end = false).
  { destruct v; try reflexivity. destruct (nth_error h n) as [f|] eqn:E; [|reflexivity]. eapply Hm; eauto. }
  unfold png_validate. rewrite E0. split.
  - intros h1. split; [intros n ->|intros e ->]; reflexivity.
  - intros i h1 f Hv Hf. cbv zeta. rewrite Hv, Hf. set (sig := firstn 8 (skipn (f_pos f) (f_bytes f))) in *. assert (Li : i < length h1) by (apply nth_error_Some; congruence).
    assert (S9 : forall g x, nth_error (set_at h1 i g ++ x) i = Some g).
    { intros g x. rewrite nth_error_app1 by (rewrite set_at_length; lia). now apply set_at_same. }
    destruct (list_eq_dec Z.eq_dec sig png_signature) as [Es|Es]; [destruct (f_close f) eqn:Ec|].
    + split; [|split; [|split]]; try congruence.
      * intros h' [r H] j Hj Hn. injection H as <- <-. rewrite nth_error_app1 by (rewrite set_at_length; lia). apply set_at_other. congruence.
      * intros C. destruct (C Es).
      * intros _ _. eexists. split; [reflexivity|]. split; [rewrite app_length, set_at_length; simpl; lia|]. split.
        -- now rewrite nth_error_app2, set_at_length, Nat.sub_diag by (rewrite set_at_length; lia).
        -- rewrite S9. unfold closed_file, at_pos. simpl. rewrite Ec. now destruct (f_closed f).
    + split; [|split; [|split]]; try congruence.
      * intros h' [r H] j Hj Hn. injection H as <- <-. apply set_at_other. congruence.
      * intros C. destruct (C Es).
      * intros _ _. eexists. split; [reflexivity|]. split; [apply set_at_length|]. rewrite set_at_same by lia. unfold at_pos. now rewrite Ec.
    + split; [|split; [|split]]; try (intros C; destruct (Es C)).
      * intros h' [r H] j Hj Hn. injection H as <- <-. apply set_at_other. congruence.
      * intros _. eexists. split; [reflexivity|]. split; [apply set_at_length|]. now rewrite set_at_same by lia.
Qed.
Lemma from_json_rejects s : (forall t, s <> String.append "data:image/png;base64," t) -> png_from_json s = Exc ExValue.
Proof.
  intros H. unfold png_from_json. destruct (String.prefix png_preamble s) eqn:E; [|reflexivity]. exfalso.
  apply (H (substring (String.length png_preamble) (String.length s - String.length png_preamble) s)). revert E. unfold png_preamble. intros E.
  assert (P : forall a b, String.prefix a b = true -> b = (a ++ substring (String.length a) (String.length b - String.length a) b)%string).
  { induction a as [|c a IH]; intros b Hb; simpl.
    - clear. rewrite Nat.sub_0_r. induction b as [|c b IH]; simpl; congruence.
    - destruct b as [|c' b]; [discriminate|]. simpl in Hb. destruct (ascii_dec c c') as [->|]; [|discriminate]. simpl. now rewrite <- IH. }
  now apply P.
Qed.
Lemma json_text f : Forall byte (f_bytes f) ->
  exists t, fst (png_to_json f) = String.append "data:image/png;base64," (unchars t) /\ b64_text (skipn (f_pos f) (f_bytes f)) t.
Proof.
  intros HF. exists (b64encode (skipn (f_pos f) (f_bytes f))). split; [reflexivity|]. apply b64_encodes.
  rewrite <- (firstn_skipn (f_pos f) (f_bytes f)) in HF. now apply Forall_app in HF.
Qed.
Lemma from_json_decodes t :
  (forall bs, b64decode t = Ok bs -> png_from_json (String.append "data:image/png;base64," (unchars t)) = Ok (FO true true true None (Some false) false bs 0 0)) /\
  (forall e, b64decode t = Exc e -> png_from_json (String.append "data:image/png;base64," (unchars t)) = Exc e).
Proof.
  unfold png_from_json. change "data:image/png;base64," with png_preamble. rewrite prefix_app. unfold str_drop.
  rewrite chars_unchars, chars_app, chars_unchars, <- chars_length, skipn_app, skipn_all, Nat.sub_diag. cbn [app skipn].
  split; [intros bs ->|intros e ->]; reflexivity.
Qed.
Lemma png_cycle fs o bs h : Forall byte bs -> firstn 8 bs = [137; 80; 78; 71; 13; 10; 26; 10]%Z ->
  let image := FO true true true None (Some false) true bs 0 0 in
  exists t g h', png_to_json image = (t, image) /\ png_from_json t = Ok g /\
    png_validate fs o (VObj (length h)) (h ++ [g]) = (LOk (VObj (S (length h))), h') /\
    nth_error h' (S (length h)) = Some image /\ (forall j, j < length h -> nth_error h' j = nth_error h j).
Proof.
  intros B S. cbv zeta. pose proof (json_round (FO true true true None (Some false) true bs 0 0) B) as R.
  do 3 eexists. split; [reflexivity|]. split; [exact R|]. cbn [f_pos f_bytes skipn].
  assert (N : forall g : fobj, nth_error (h ++ [g]) (length h) = Some g).
  { intros g. rewrite nth_error_app2, Nat.sub_diag by lia. reflexivity. }
  split.
  - unfold png_validate, file_validate, file_checks. rewrite N. cbn [f_marked f_read f_seek f_mode f_closed andb negb]. rewrite N.
    cbn [f_pos f_bytes skipn f_close]. rewrite S. destruct (list_eq_dec _ _ _) as [_|D]; [|destruct (D eq_refl)].
    rewrite app_length. cbn [length]. rewrite Nat.add_1_r. reflexivity.
  - split.
    + rewrite nth_error_app2; rewrite set_at_length, app_length; cbn [length]; [|lia].
      replace (Datatypes.S (length h) - (length h + 1)) with 0 by lia. reflexivity.
    + intros j J. rewrite nth_error_app1 by (rewrite set_at_length, app_length; lia). rewrite set_at_other by lia. now apply nth_error_app1.
Qed.
