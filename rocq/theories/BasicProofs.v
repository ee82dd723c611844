(** Lemmas about the leaf properties of Basic.v. *)
From Verif Require Import PyBase PyFloat PyVal Colors Basic NumSpec FloatProofs BasicSpec.
Open Scope Z_scope.

(** * Bounds *)
Lemma in_bounds_within mn mx x :
  valid_num x -> valid_opt mn -> valid_opt mx -> (in_bounds mn mx x = true <-> within mn mx x).
Proof.
  intros Vx Vn Vm. unfold in_bounds, within, ngt. rewrite negb_true_iff, orb_false_iff.
  split.
  - intros [H1 H2]. split; intros m ->.
    + intros L. apply nlt_ext in L; auto. congruence.
    + intros L. apply nlt_ext in L; auto. congruence.
  - intros [H1 H2]. split.
    + destruct mn as [m|]; auto. destruct (nlt x m) eqn:E; auto.
      apply nlt_ext in E; auto. exfalso. eapply H1; eauto.
    + destruct mx as [m|]; auto. destruct (nlt m x) eqn:E; auto.
      apply nlt_ext in E; auto. exfalso. eapply H2; eauto.
Qed.

Definition valid_val (v : val) : Prop :=
  match v with VFloat f => valid_float f = true | _ => True end.

Lemma int_validate_ok c mn mx v v' :
  int_validate c mn mx v = LOk v' ->
  exists z, v' = VInt z /\ py_int v = Ok z /\ in_bounds mn mx (NZ z) = true /\
            (c = false -> off_tolerance v (NZ z) = Ok false).
Proof.
  unfold int_validate. destruct (py_int v) as [z|e] eqn:Ez; [|destruct e; discriminate].
  destruct c.
  - destruct (in_bounds mn mx (NZ z)) eqn:Eb; [|discriminate]. intros [= <-]. exists z. repeat split; auto. discriminate.
  - destruct (off_tolerance v (NZ z)) as [[|]|e] eqn:Et; [discriminate| |destruct e; discriminate].
    destruct (in_bounds mn mx (NZ z)) eqn:Eb; [|discriminate]. intros [= <-]. exists z. auto.
Qed.

Lemma float_validate_ok E c mn mx v v' :
  float_validate E c mn mx v = LOk v' ->
  exists f, v' = VFloat f /\ py_float E v = Ok f /\ in_bounds mn mx (NF f) = true /\
            (c = false -> off_tolerance v (NF f) = Ok false).
Proof.
  unfold float_validate. destruct (py_float E v) as [z|e] eqn:Ez; [|destruct e; discriminate].
  destruct c.
  - destruct (in_bounds mn mx (NF z)) eqn:Eb; [|discriminate]. intros [= <-]. exists z. repeat split; auto. discriminate.
  - destruct (off_tolerance v (NF z)) as [[|]|e] eqn:Et; [discriminate| |destruct e; discriminate].
    destruct (in_bounds mn mx (NF z)) eqn:Eb; [|discriminate]. intros [= <-]. exists z. auto.
Qed.

Lemma TOL_valid : valid_float TOL = true.
Proof. reflexivity. Qed.

Lemma zero_not_above_TOL : ngt (NZ 0) (NF TOL) = false.
Proof. reflexivity. Qed.

Lemma off_tol_int_self z : off_tolerance (VInt z) (NZ z) = Ok false.
Proof. unfold off_tolerance, as_num, absdiff, rbind. rewrite Z.sub_diag. reflexivity. Qed.

Lemma fsub_self_not_above f : ngt (NF (fabs (fsub f f))) (NF TOL) = false.
Proof.
  destruct (is_fin f) eqn:Ef.
  - destruct (fsub_self f Ef) as [s ->]. destruct s; reflexivity.
  - rewrite fsub_self_special by auto. reflexivity.
Qed.

Lemma off_tol_float_self f : off_tolerance (VFloat f) (NF f) = Ok false.
Proof. unfold off_tolerance. simpl. now rewrite fsub_self_not_above. Qed.

Lemma int_validate_int c mn mx z :
  int_validate c mn mx (VInt z) = if in_bounds mn mx (NZ z) then LOk (VInt z) else LErr 0.
Proof. unfold int_validate. simpl py_int. cbv iota beta. destruct c; [reflexivity|]. now rewrite off_tol_int_self. Qed.

Lemma float_validate_float E c mn mx f :
  float_validate E c mn mx (VFloat f) = if in_bounds mn mx (NF f) then LOk (VFloat f) else LErr 0.
Proof. unfold float_validate. simpl py_float. cbv iota beta. destruct c; [reflexivity|]. now rewrite off_tol_float_self. Qed.

(** ** The tolerance test is exact *)
Lemma off_tolerance_trunc f u :
  valid_float f = true -> fext f = Fin u ->
  exists b, off_tolerance (VFloat f) (NZ (ftrunc f)) = Ok b /\
    (b = false <-> close (NF f) (NZ (ftrunc f))).
Proof.
  intros V U. destruct (ftrunc_spec f u V U) as (r & k & E1 & R1 & K1 & _ & r' & k' & E2 & R2 & K2).
  destruct (fofZ_exact (ftrunc f) r k K1 R1 E1) as (g & Eg & Ug & Vg).
  unfold off_tolerance. cbn [as_num absdiff py_float_num rbind]. rewrite Eg. cbn [rbind].
  destruct (fsub_exact f g u (ftrunc f * UNIT) r' k' V Vg U Ug K2 R2 E2) as [Us Vs].
  eexists. split; [reflexivity|].
  apply fabs_ext in Us.
  assert (Vs' : valid_num (NF (fabs (fsub f g)))) by (simpl; now rewrite fabs_valid).
  pose proof (nlt_ext (NF TOL) (NF (fabs (fsub f g))) TOL_valid Vs') as L.
  unfold ngt. cbn [ext_of] in L. rewrite Us in L.
  change (fext TOL) with (Fin tol_units) in L.
  cbn [ext_lt] in L.
  destruct (nlt (NF TOL) (NF (fabs (fsub f g)))) eqn:Enlt.
  - split; [discriminate|]. intros (x & y & Hx & Hy & Hle).
    cbn [ext_of] in Hx, Hy. rewrite U in Hx.
    injection Hx as <-. injection Hy as <-.
    assert (tol_units < Z.abs (u - ftrunc f * UNIT)) by (apply L; auto). lia.
  - split; [intros _|auto].
    exists u, (ftrunc f * UNIT). repeat split; auto.
    destruct (Z.le_gt_cases (Z.abs (u - ftrunc f * UNIT)) tol_units); auto.
    apply L in H. discriminate.
Qed.

Lemma fext_nan f : fext f = Nan <-> is_nan f = true.
Proof. destruct f as [s|s| |s m e]; simpl; try (destruct s); split; intros; congruence. Qed.

Lemma fin_ext f : is_nan f = false -> is_inf f = false -> exists u, fext f = Fin u.
Proof. destruct f as [s|s| |s m e]; simpl; try discriminate; eauto. Qed.

(** * Idempotence *)

Lemma strip_by_decomp p l :
  exists pre post, l = pre ++ strip_by p l ++ post /\
    Forall (fun c => p c = true) pre /\ Forall (fun c => p c = true) post.
Proof.
  unfold strip_by. destruct (drop_while_suffix p l) as (pre & E1 & F1).
  destruct (drop_while_suffix p (rev (drop_while p l))) as (post & E2 & F2).
  exists pre, (rev post). split; [|split; auto using Forall_rev].
  rewrite E1 at 1. f_equal.
  rewrite <- (rev_involutive (drop_while p l)) at 1. rewrite E2 at 1. now rewrite rev_app_distr.
Qed.

Lemma strip_by_last p l c r : strip_by p l = r ++ [c] -> p c = false.
Proof.
  unfold strip_by. intros H.
  assert (E : drop_while p (rev (drop_while p l)) = c :: rev r).
  { rewrite <- (rev_involutive (drop_while p (rev (drop_while p l)))), H, rev_app_distr. reflexivity. }
  now apply drop_while_head in E.
Qed.

Lemma strip_by_first p l c r : strip_by p l = c :: r -> p c = false.
Proof.
  unfold strip_by. intros H.
  destruct (drop_while_suffix p (rev (drop_while p l))) as (post & E & _).
  assert (E' : drop_while p l = rev (drop_while p (rev (drop_while p l))) ++ rev post).
  { rewrite <- (rev_involutive (drop_while p l)) at 1. rewrite E at 1. now rewrite rev_app_distr. }
  rewrite H in E'. now apply drop_while_head in E'.
Qed.

Lemma strip_by_id p l :
  (forall c r, l = c :: r -> p c = false) -> (forall c r, l = r ++ [c] -> p c = false) -> strip_by p l = l.
Proof.
  intros H1 H2. unfold strip_by. rewrite (drop_while_id p l).
  - rewrite drop_while_id; [apply rev_involutive|].
    destruct (rev l) as [|c r] eqn:E; auto. apply (H2 c (rev r)).
    rewrite <- (rev_involutive l), E. reflexivity.
  - destruct l as [|c r]; auto. eapply H1; eauto.
Qed.

Lemma strip_map p (g : ascii -> ascii) l :
  (forall c, p (g c) = true -> p c = true) ->
  strip_by p (map g (strip_by p l)) = map g (strip_by p l).
Proof.
  intros Hg. apply strip_by_id.
  - intros c r E. destruct (strip_by p l) as [|c' r'] eqn:E'; [discriminate|].
    simpl in E. injection E as <- _.
    apply strip_by_first in E'. destruct (p (g c')) eqn:Ep; auto. apply Hg in Ep. congruence.
  - intros c r E.
    destruct (exists_last (l := strip_by p l)) as (r' & c' & E').
    { intros Hn. rewrite Hn in E. destruct r; discriminate. }
    rewrite E' in E. rewrite map_app in E. simpl in E. apply app_inj_tail in E as [_ <-].
    apply strip_by_last in E'. destruct (p (g c')) eqn:Ep; auto. apply Hg in Ep. congruence.
Qed.

Lemma strip_idem p l : strip_by p (strip_by p l) = strip_by p l.
Proof. pose proof (strip_map p (fun c => c) l (fun c H => H)) as H. now rewrite map_id in H. Qed.

Lemma stripped_spec cs l : stripped cs l (strip_by (mem_ch cs) l).
Proof.
  destruct (strip_by_decomp (mem_ch cs) l) as (pre & post & E & F1 & F2).
  exists pre, post. split; [exact E|]. repeat split.
  - eapply Forall_impl; [|exact F1]. intros c. apply mem_ch_In.
  - eapply Forall_impl; [|exact F2]. intros c. apply mem_ch_In.
  - intros c r' H. apply strip_by_first in H. rewrite <- mem_ch_In. congruence.
  - intros c r' H. apply strip_by_last in H. rewrite <- mem_ch_In. congruence.
Qed.

Lemma choice_match_spec cs s kv : choice_match cs s kv = true <-> names_entry cs s kv.
Proof.
  unfold choice_match, names_entry, choice_test. rewrite orb_true_iff, String.eqb_eq, mem_str_In, in_map_iff.
  split.
  - intros [E|(a & E & Ha)]; [exists (fst kv)|exists a]; simpl; destruct cs; auto.
  - intros (a & [<-|Ha] & E); [left|right; exists a]; destruct cs; auto.
Qed.

Lemma table_keys_cons cs kv r :
  table_keys cs (kv :: r) = map (fun s => if cs then s else str_upper s) (fst kv :: snd kv) ++ table_keys cs r.
Proof. unfold table_keys. simpl flat_map. now rewrite <- map_app. Qed.

Lemma nodup_app_disj {A} (l1 l2 : list A) : NoDup (l1 ++ l2) -> NoDup l1 /\ NoDup l2 /\ forall x, In x l1 -> In x l2 -> False.
Proof.
  induction l1 as [|a l IH]; simpl; intros H.
  - repeat split; auto; constructor.
  - inversion H as [|? ? Ha Hn]; subst. destruct (IH Hn) as (N1 & N2 & D). rewrite in_app_iff in Ha.
    repeat split; auto.
    + constructor; tauto.
    + intros x [->|Hx] Hx2; [tauto|eauto].
Qed.

Lemma names_key cs s kv ch : In kv ch -> names_entry cs s kv -> In (if cs then s else str_upper s) (table_keys cs ch).
Proof.
  intros Hin (a & Ha & E). unfold table_keys. rewrite in_map_iff. exists a. split.
  - destruct cs; auto.
  - apply in_flat_map. eauto.
Qed.

Lemma names_unique cs ch s kv kv' :
  no_collisions cs ch -> In kv ch -> In kv' ch -> names_entry cs s kv -> names_entry cs s kv' -> kv = kv'.
Proof.
  unfold no_collisions. induction ch as [|x r IH]; simpl; [tauto|].
  rewrite table_keys_cons. intros H Hi Hi' Hs Hs'.
  destruct (nodup_app_disj _ _ H) as (_ & Hr & D).
  assert (K : forall y, names_entry cs s y -> In (if cs then s else str_upper s) (map (fun s0 => if cs then s0 else str_upper s0) (fst y :: snd y))).
  { intros y (a & Ha & Ea). apply in_map_iff. exists a. split; auto. destruct cs; auto. }
  destruct Hi as [->|Hi], Hi' as [->|Hi']; auto; exfalso; eapply D.
  - apply K, Hs.
  - eapply names_key; eauto.
  - apply K, Hs'.
  - eapply names_key; eauto.
Qed.

Lemma choice_validate_ok cs ch s v' :
  choice_validate cs ch (VStr s) = LOk v' -> exists kv, In kv ch /\ names_entry cs s kv /\ v' = VStr (fst kv).
Proof.
  unfold choice_validate. destruct (find _ ch) as [[k al]|] eqn:E; [|discriminate].
  intros [= <-]. apply find_some in E as [Hi Hm]. exists (k, al). rewrite <- choice_match_spec. auto.
Qed.

Lemma choice_validate_complete cs ch s kv :
  no_collisions cs ch -> In kv ch -> names_entry cs s kv -> choice_validate cs ch (VStr s) = LOk (VStr (fst kv)).
Proof.
  intros Hn Hi Hs. unfold choice_validate. destruct (find (choice_match cs s) ch) as [[k al]|] eqn:E.
  - apply find_some in E as [Hi' Hm]. apply choice_match_spec in Hm.
    pose proof (names_unique _ _ _ _ _ Hn Hi Hi' Hs Hm) as ->. reflexivity.
  - apply find_none with (x := kv) in E; auto. apply choice_match_spec in Hs. congruence.
Qed.

Lemma color_components_ok l v' : color_components l = LOk v' -> v' = VTuple l /\ length l = 3%nat /\ forallb color_comp l = true.
Proof.
  unfold color_components. destruct (Nat.eqb_spec (length l) 3); [|discriminate].
  destruct (forallb color_comp l) eqn:E; [|discriminate]. intros [= <-]. auto.
Qed.

Lemma color_validate_ok rc v v' :
  color_validate rc v = LOk v' -> exists l, v' = VTuple l /\ length l = 3%nat /\ forallb color_comp l = true.
Proof.
  unfold color_validate. destruct v; try discriminate; intros H.
  - match type of H with match ?x with _ => _ end = _ => destruct x; [|discriminate] end.
    apply color_components_ok in H. eauto.
  - apply color_components_ok in H. eauto.
  - apply color_components_ok in H. eauto.
Qed.

Lemma leaf_idempotent E rc rc' t v v' :
  coherent t -> leaf_validate E rc t v = LOk v' -> leaf_validate E rc' t v' = LOk v'.
Proof.
  destruct t as [|c|c mn mx|c mn mx|c|o|cs ch| | |]; simpl; intros Hc H.
  - congruence.
  - unfold bool_validate in *. destruct c.
    + injection H as <-. now destruct (truthy v).
    + destruct v; try discriminate. now injection H as <-.
  - apply int_validate_ok in H as (z & -> & _ & Hb & _). rewrite int_validate_int. now rewrite Hb.
  - apply float_validate_ok in H as (f & -> & _ & Hb & _). rewrite float_validate_float. now rewrite Hb.
  - unfold complex_validate in H. destruct (py_complex E v) as [[r i]|e]; [|destruct e; discriminate].
    match type of H with match ?x with _ => _ end = _ => destruct x as [[|]|e]; [discriminate| |destruct e; discriminate] end.
    injection H as <-. unfold complex_validate. simpl. destruct c; auto.
    now rewrite !fsub_self_not_above.
  - destruct Hc as [Hr Hs]. unfold string_validate in *. destruct v; try discriminate.
    rewrite Hr in *. injection H as <-. f_equal. f_equal.
    unfold str_strip, str_upper, str_lower.
    destruct (so_case o); rewrite ?chars_unchars.
    + now rewrite strip_idem.
    + rewrite strip_map.
      * rewrite map_map. f_equal. apply map_ext. apply ch_upper_idem.
      * intros c. rewrite !mem_ch_In. apply Hs.
    + rewrite strip_map.
      * rewrite map_map. f_equal. apply map_ext. apply ch_lower_idem.
      * intros c. rewrite !mem_ch_In. apply Hs.
  - destruct v; try discriminate H. apply choice_validate_ok in H as (kv & Hi & Hn & ->).
    apply choice_validate_complete; auto. exists (fst kv). split; [now left|]. destruct cs; auto.
  - apply color_validate_ok in H as (l & -> & Hl & Hf). simpl. unfold color_components.
    rewrite Hl, Hf. reflexivity.
  - unfold date_validate in *. destruct v; try discriminate.
    + destruct (date_of_string s); [|discriminate]. now injection H as <-.
    + now injection H as <-.
  - unfold uuid_validate in *. destruct v; try discriminate. now injection H as <-.
Qed.

(** * Color *)
Lemma color_comp_int v : color_comp v = true -> int_in 0 255 v.
Proof.
  destruct v; simpl; try discriminate.
  - destruct b; lia.
  - rewrite andb_true_iff, !Z.leb_le. auto.
Qed.

Definition hexc : list ascii := chars "0123456789abcdefABCDEF".
Definition hv (c : ascii) : Z :=
  match find (fun p => Ascii.eqb c (fst p)) hex_table with Some p => snd p | None => 0 end.

Lemma hexval_in c z : hexval c z -> In c hexc /\ z = hv c.
Proof.
  unfold hexval. intros H.
  assert (A : forallb (fun p => mem_ch hexc (fst p) && (hv (fst p) =? snd p)) hex_table = true) by reflexivity.
  rewrite forallb_forall in A. specialize (A _ H). apply andb_prop in A as [A1 A2].
  apply mem_ch_In in A1. apply Z.eqb_eq in A2. auto.
Qed.

Lemma hex_pair_check :
  forallb (fun a => forallb (fun b =>
     match parse_int_chars 16 [ch_upper a; ch_upper b] with
     | Some z => z =? 16 * hv a + hv b
     | None => false end) hexc) hexc = true.
Proof. vm_compute. reflexivity. Qed.

Lemma hex_pair a b x y : hexval a x -> hexval b y ->
  parse_int_chars 16 [ch_upper a; ch_upper b] = Some (16 * x + y).
Proof.
  intros Ha Hb. apply hexval_in in Ha as [Ia ->]. apply hexval_in in Hb as [Ib ->].
  pose proof hex_pair_check as H. rewrite forallb_forall in H. specialize (H _ Ia).
  rewrite forallb_forall in H. specialize (H _ Ib).
  destruct (parse_int_chars 16 [ch_upper a; ch_upper b]); [|discriminate].
  apply Z.eqb_eq in H. now subst.
Qed.

Lemma hexval_range c z : hexval c z -> 0 <= z <= 15.
Proof.
  intros H. assert (A : forallb (fun p => (0 <=? snd p) && (snd p <=? 15)) hex_table = true) by reflexivity.
  rewrite forallb_forall in A. specialize (A _ H). apply andb_prop in A as [A1 A2].
  apply Z.leb_le in A1, A2. auto.
Qed.

(** No colour name consists of hexadecimal digits only. *)
Definition all_hex (l : list ascii) : bool := forallb (mem_ch hexc) l.
Lemma names_not_hex :
  forallb (fun p => negb (all_hex (chars (fst p)) && (Nat.eqb (length (chars (fst p))) 3 || Nat.eqb (length (chars (fst p))) 6))) COLORS_NAMED = true.
Proof. vm_compute. reflexivity. Qed.

Lemma dget_hex l : all_hex l = true -> (length l = 3%nat \/ length l = 6%nat) -> dget COLORS_NAMED (unchars l) = None.
Proof.
  intros H Hl. destruct (dget COLORS_NAMED (unchars l)) as [h|] eqn:E; auto. exfalso.
  apply dget_in in E. pose proof names_not_hex as N. rewrite forallb_forall in N. specialize (N _ E).
  simpl fst in N. rewrite chars_unchars in N. rewrite H in N.
  destruct Hl as [Hl|Hl]; rewrite Hl in N; discriminate.
Qed.

Lemma dget_hash l : dget COLORS_NAMED (unchars ("#"%char :: l)) = None.
Proof. reflexivity. Qed.

Lemma up_not_hash c : In c hexc -> Ascii.eqb (ch_upper c) "#" = false.
Proof.
  intros H. assert (A : forallb (fun c => negb (Ascii.eqb (ch_upper c) "#")) hexc = true) by reflexivity.
  rewrite forallb_forall in A. specialize (A _ H). now apply negb_true_iff in A.
Qed.

Lemma up_not_random c r : In c hexc -> String.eqb (str_upper (unchars (c :: r))) "RANDOM" = false.
Proof.
  intros H. unfold str_upper. rewrite chars_unchars. simpl.
  assert (A : forallb (fun c => negb (Ascii.eqb (ch_upper c) "R")) hexc = true) by reflexivity.
  rewrite forallb_forall in A. specialize (A _ H). apply negb_true_iff in A. now rewrite A.
Qed.

Lemma color_components_ints x y z :
  0 <= x <= 255 -> 0 <= y <= 255 -> 0 <= z <= 255 ->
  color_components [VInt x; VInt y; VInt z] = LOk (VTuple [VInt x; VInt y; VInt z]).
Proof.
  intros. unfold color_components. simpl.
  assert (C : forall w, 0 <= w <= 255 -> (0 <=? w) && (w <=? 255) = true) by (intros; lia).
  now rewrite !C.
Qed.

Lemma hex_triple_ok a b c d e f xa xb xc xd xe xf :
  hexval a xa -> hexval b xb -> hexval c xc -> hexval d xd -> hexval e xe -> hexval f xf ->
  hex_triple [ch_upper a; ch_upper b; ch_upper c; ch_upper d; ch_upper e; ch_upper f] =
  Some [VInt (16 * xa + xb); VInt (16 * xc + xd); VInt (16 * xe + xf)].
Proof.
  intros. unfold hex_triple. rewrite (hex_pair a b xa xb), (hex_pair c d xc xd), (hex_pair e f xe xf) by assumption. reflexivity.
Qed.

Lemma lstrip_hash hash l :
  (hash = [] \/ hash = ["#"%char]) -> Forall (fun c => In c hexc) l ->
  chars (str_lstrip "#" (str_upper (unchars (hash ++ l)))) = map ch_upper l.
Proof.
  intros Hh Hl. unfold str_lstrip, str_upper. rewrite !chars_unchars.
  assert (A : drop_while (mem_ch (chars "#")) (map ch_upper l) = map ch_upper l).
  { apply drop_while_id. destruct l as [|c r]; [exact I|]. inversion Hl; subst. unfold mem_ch. cbn [map chars existsb]. now rewrite up_not_hash. }
  destruct Hh as [->| ->]; simpl; auto.
Qed.

Lemma color_pre rc hash l :
  (hash = [] \/ hash = ["#"%char]) -> Forall (fun c => In c hexc) l -> (length l = 3%nat \/ length l = 6%nat) ->
  color_validate rc (VStr (unchars (hash ++ l))) =
  match hex_triple (if Nat.eqb (length l) 3 then double_chars (map ch_upper l) else map ch_upper l) with
  | Some comps => color_components comps
  | None => LErr 0
  end.
Proof.
  intros Hh Hl Hlen. unfold color_validate.
  assert (Hd : dget COLORS_NAMED (unchars (hash ++ l)) = None).
  { destruct Hh as [->| ->]; [|apply dget_hash]. apply dget_hex; auto.
    apply forallb_forall. intros c Hc. rewrite Forall_forall in Hl. apply mem_ch_In. auto. }
  rewrite Hd.
  assert (Hr : String.eqb (str_upper (unchars (hash ++ l))) "RANDOM" = false).
  { destruct Hh as [->| ->].
    - destruct l as [|c r]; [simpl in Hlen; lia|]. simpl app. apply up_not_random. now inversion Hl.
    - reflexivity. }
  rewrite Hr. rewrite lstrip_hash by auto. rewrite map_length. reflexivity.
Qed.

Lemma color_hex6 rc hash a b c d e f xa xb xc xd xe xf :
  (hash = [] \/ hash = ["#"%char]) ->
  hexval a xa -> hexval b xb -> hexval c xc -> hexval d xd -> hexval e xe -> hexval f xf ->
  color_validate rc (VStr (unchars (hash ++ [a; b; c; d; e; f]))) =
  LOk (VTuple [VInt (16 * xa + xb); VInt (16 * xc + xd); VInt (16 * xe + xf)]).
Proof.
  intros Hh Ha Hb Hc Hd He Hf. rewrite color_pre; auto.
  2:{ repeat (apply Forall_cons; [eapply hexval_in; eassumption|]). apply Forall_nil. }
  change (Nat.eqb (length [a; b; c; d; e; f]) 3) with false. cbv iota. cbn [map].
  rewrite (hex_triple_ok a b c d e f xa xb xc xd xe xf) by assumption.
  apply color_components_ints; repeat match goal with H : hexval _ _ |- _ => apply hexval_range in H end; lia.
Qed.

Lemma color_hex3 rc hash a b c xa xb xc :
  (hash = [] \/ hash = ["#"%char]) ->
  hexval a xa -> hexval b xb -> hexval c xc ->
  color_validate rc (VStr (unchars (hash ++ [a; b; c]))) =
  LOk (VTuple [VInt (17 * xa); VInt (17 * xb); VInt (17 * xc)]).
Proof.
  intros Hh Ha Hb Hc. rewrite color_pre; auto.
  2:{ repeat (apply Forall_cons; [eapply hexval_in; eassumption|]). apply Forall_nil. }
  change (Nat.eqb (length [a; b; c]) 3) with true. cbv iota. cbn [map double_chars flat_map app].
  rewrite (hex_triple_ok a a b b c c xa xa xb xb xc xc) by assumption.
  replace (17 * xa) with (16 * xa + xa) by lia. replace (17 * xb) with (16 * xb + xb) by lia.
  replace (17 * xc) with (16 * xc + xc) by lia.
  apply color_components_ints; repeat match goal with H : hexval _ _ |- _ => apply hexval_range in H end; lia.
Qed.

Definition is_triple (r : lres) : bool :=
  match r with LOk (VTuple [VInt _; VInt _; VInt _]) => true | _ => false end.
Lemma is_triple_spec r : is_triple r = true -> exists a b c, r = LOk (VTuple [VInt a; VInt b; VInt c]).
Proof.
  destruct r as [v| |]; try discriminate. destruct v; try discriminate.
  destruct l as [|x l]; try discriminate. destruct x; try discriminate.
  destruct l as [|x l]; try discriminate. destruct x; try discriminate.
  destruct l as [|x l]; try discriminate. destruct x; try discriminate.
  destruct l; try discriminate. eauto.
Qed.

Definition same_triple (r s : lres) : bool :=
  match r, s with
  | LOk (VTuple [VInt a; VInt b; VInt c]), LOk (VTuple [VInt a'; VInt b'; VInt c']) =>
      (a =? a') && (b =? b') && (c =? c')
  | _, _ => false
  end.
Lemma same_triple_spec r s : same_triple r s = true -> r = s.
Proof.
  intros H. assert (A : is_triple r = true /\ is_triple s = true).
  { destruct r as [v| |]; try discriminate. destruct v; try discriminate.
    destruct l as [|x l]; try discriminate. destruct x; try discriminate.
    destruct l as [|x l]; try discriminate. destruct x; try discriminate.
    destruct l as [|x l]; try discriminate. destruct x; try discriminate.
    destruct l; try discriminate. split; auto.
    destruct s as [v| |]; try discriminate. destruct v; try discriminate.
    destruct l as [|x l]; try discriminate. destruct x; try discriminate.
    destruct l as [|x l]; try discriminate. destruct x; try discriminate.
    destruct l as [|x l]; try discriminate. destruct x; try discriminate.
    destruct l; try discriminate. auto. }
  destruct A as [A1 A2]. apply is_triple_spec in A1 as (a & b & c & ->). apply is_triple_spec in A2 as (a' & b' & c' & ->).
  simpl in H. apply andb_prop in H as [H H3]. apply andb_prop in H as [H1 H2].
  apply Z.eqb_eq in H1, H2, H3. now subst.
Qed.

Lemma color_names rc : forall name h, In (name, h) COLORS_NAMED ->
  color_validate rc (VStr name) = color_validate rc (VStr h) /\
  exists r g b, color_validate rc (VStr name) = LOk (VTuple [VInt r; VInt g; VInt b]).
Proof.
  intros name h H.
  assert (A : forallb (fun p => is_triple (color_validate rc (VStr (fst p))) &&
      same_triple (color_validate rc (VStr (fst p))) (color_validate rc (VStr (snd p)))) COLORS_NAMED = true).
  { vm_compute. reflexivity. }
  rewrite forallb_forall in A. specialize (A _ H). simpl fst in A. simpl snd in A.
  apply andb_prop in A as [A1 A2]. apply same_triple_spec in A2. apply is_triple_spec in A1. auto.
Qed.

Lemma color_random rc : exists r g b, color_validate rc (VStr "random") = LOk (VTuple [VInt r; VInt g; VInt b]).
Proof.
  unfold color_validate.
  assert (A : forallb (fun s => match hex_triple (let l := chars (str_lstrip "#" (str_upper s)) in if Nat.eqb (length l) 3 then double_chars l else l) with
     | Some comps => is_triple (color_components comps) | None => false end) COLORS_20 = true) by (vm_compute; reflexivity).
  rewrite forallb_forall in A.
  assert (Hin : In (nth (rc mod 20) COLORS_20 ""%string) COLORS_20).
  { apply nth_In. change (length COLORS_20) with 20%nat. apply Nat.mod_upper_bound. discriminate. }
  specialize (A _ Hin). clear Hin. cbv zeta in A.
  change (dget COLORS_NAMED "random") with (@None string). cbv iota zeta.
  change (String.eqb (str_upper "random") "RANDOM") with true. cbv iota.
  destruct (hex_triple _) as [comps|]; [|discriminate A].
  now apply is_triple_spec.
Qed.
