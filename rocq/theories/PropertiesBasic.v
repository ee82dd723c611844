(** Property theorems about the leaf properties (basic.py). *)
From Coq Require Import Permutation.
From Verif Require Import PyBase PyFloat PyVal Basic NumSpec BasicSpec LeafFacts BasicProofs DateProofs UuidProofs Colors.
Open Scope Z_scope.

(** 5.0, 2.9999999999, 0.5 *)
Definition f5 : float := S754_finite false 5629499534213120 (-50).
Definition f_2_9999999999 : float := S754_finite false 6755399440830592 (-51).
Definition f_half : float := S754_finite false 4503599627370496 (-53).
Definition E0 : env := Env (fun s => if String.eqb s "nan" then Some S754_nan
                                     else if String.eqb s "inf" then Some (S754_infinity false)
                                     else if String.eqb s "-inf" then Some (S754_infinity true) else None)
                           (fun _ => None) (fun _ _ => ""%string) false (fun n => n).

(** ** C22: validating an already validated value returns the same value *)
Theorem C22_leaf_idempotent : forall E rc rc' t v v',
  coherent t -> leaf_validate E rc t v = LOk v' -> leaf_validate E rc' t v' = LOk v'.
Proof. exact leaf_idempotent. Qed.
Print Assumptions C22_leaf_idempotent.
Example C22_leaf_idempotent_ex :
  coherent (LfInt false (Some (NZ 0)) (Some (NZ 10))) /\
  leaf_validate E0 0 (LfInt false (Some (NZ 0)) (Some (NZ 10))) (VFloat f5) = LOk (VInt 5) /\
  coherent (LfString (SO " " CUpper None)) /\
  leaf_validate E0 0 (LfString (SO " " CUpper None)) (VStr " ab ") = LOk (VStr "AB").
Proof.
  repeat split; try (vm_compute; reflexivity). intros c. simpl. intros [H|[]]. left.
  destruct c as [[] [] [] [] [] [] [] []]; vm_compute in H; congruence.
Qed.

(** Without [coherent] the claim is false: case folding happens after
    stripping, and the regex is checked before either. *)
Theorem C22_string_refuted :
  (exists o s t, so_regex o = None /\ string_validate o (VStr s) = LOk (VStr t) /\ string_validate o (VStr t) <> LOk (VStr t)) /\
  (exists o s t, so_strip o = " "%string /\ string_validate o (VStr s) = LOk (VStr t) /\ string_validate o (VStr t) = LErr 0).
Proof.
  split.
  - exists (SO "A" CUpper None), "aXa"%string, "AXA"%string. vm_compute. repeat split; discriminate || auto.
  - exists (SO " " CUpper (Some (fun s => String.eqb s "a"))), "a"%string, "A"%string. vm_compute. auto.
Qed.
Print Assumptions C22_string_refuted.

(** ** C23: numeric bounds *)
Theorem C23_integer_bounds : forall cast mn mx v w,
  valid_opt mn -> valid_opt mx -> int_validate cast mn mx v = LOk w ->
  exists z, w = VInt z /\ within mn mx (NZ z).
Proof. exact int_sound. Qed.
Print Assumptions C23_integer_bounds.
Example C23_integer_bounds_ex :
  valid_opt (Some (NF f_half)) /\ valid_opt (Some (NZ 5)) /\
  int_validate true (Some (NF f_half)) (Some (NZ 5)) (VStr " 5 ") = LOk (VInt 5).
Proof. split; [intros m [= <-]; reflexivity|]. split; [intros m [= <-]; exact I|]. vm_compute. reflexivity. Qed.

(** Bounds are inclusive: an int is accepted, unchanged, exactly when it is
    within them. *)
Theorem C23_integer_inclusive : forall cast mn mx z,
  valid_opt mn -> valid_opt mx ->
  (int_validate cast mn mx (VInt z) = LOk (VInt z) <-> within mn mx (NZ z)).
Proof. exact int_accept. Qed.
Print Assumptions C23_integer_inclusive.
Example C23_integer_inclusive_ex :
  within (Some (NZ 3)) (Some (NZ 5)) (NZ 5) /\ within (Some (NZ 3)) (Some (NZ 5)) (NZ 3) /\
  ~ within (Some (NZ 3)) (Some (NZ 5)) (NZ 6).
Proof.
  assert (V : forall z, valid_opt (Some (NZ z))) by (intros z m [= <-]; exact I).
  rewrite <- !(int_accept false) by apply V. vm_compute. repeat split; auto; discriminate.
Qed.

(** A finite float is accepted without cast exactly when it lies within the
    tolerance of its truncation, which is the result. *)
Theorem C23_integer_of_float : forall mn mx f u w,
  valid_opt mn -> valid_opt mx -> valid_float f = true -> fext f = Fin u ->
  (int_validate false mn mx (VFloat f) = LOk w <->
   w = VInt (Z.quot u UNIT) /\ close (NF f) (NZ (Z.quot u UNIT)) /\ within mn mx (NZ (Z.quot u UNIT))).
Proof. exact int_float_iff. Qed.
Print Assumptions C23_integer_of_float.
Example C23_integer_of_float_ex :
  int_validate false None None (VFloat f5) = LOk (VInt 5) /\
  int_validate false None None (VFloat f_half) = LErr 1.
Proof. vm_compute. auto. Qed.

(** The only exception besides ValidationError is the OverflowError of
    [int(inf)]. *)
Theorem C23_integer_rejections : forall cast mn mx v e,
  valid_val v -> int_validate cast mn mx v = LExc e ->
  e = ExOverflow /\ exists s, v = VFloat (S754_infinity s).
Proof. exact int_only_overflow. Qed.
Print Assumptions C23_integer_rejections.
(** ... which does escape: rejections are not always ValidationErrors; and a
    float closer than the tolerance to an int from below is rejected. *)
Theorem C23_integer_refuted :
  int_validate false None None (VFloat (S754_infinity false)) = LExc ExOverflow /\
  (close (NF f_2_9999999999) (NZ 3) /\ int_validate false None None (VFloat f_2_9999999999) = LErr 1).
Proof.
  split; [reflexivity|]. split; [|vm_compute; reflexivity].
  eexists. eexists. split; [reflexivity|]. split; [reflexivity|]. vm_compute. discriminate.
Qed.
Print Assumptions C23_integer_refuted.

Theorem C23_float_bounds : forall E cast mn mx v w,
  valid_env E -> valid_val v -> valid_opt mn -> valid_opt mx -> float_validate E cast mn mx v = LOk w ->
  exists f, w = VFloat f /\ within mn mx (NF f).
Proof. exact float_sound. Qed.
Print Assumptions C23_float_bounds.
Example C23_float_bounds_ex :
  valid_env E0 /\ valid_opt (Some (NF f_half)) /\
  float_validate E0 false (Some (NF f_half)) None (VInt 5) = LOk (VFloat f5).
Proof.
  split.
  - intros s f. simpl. destruct (String.eqb s "nan"); [intros [= <-]; auto|].
    destruct (String.eqb s "inf"); [intros [= <-]; auto|]. destruct (String.eqb s "-inf"); [intros [= <-]; auto|discriminate].
  - split; [intros m [= <-]; reflexivity|vm_compute; reflexivity].
Qed.

(** A float is accepted exactly when within the (inclusive) bounds, and is
    returned unchanged: the tolerance never bites. *)
Theorem C23_float_inclusive : forall E cast mn mx f w,
  valid_float f = true -> valid_opt mn -> valid_opt mx ->
  (float_validate E cast mn mx (VFloat f) = LOk w <-> w = VFloat f /\ within mn mx (NF f)).
Proof. exact float_accept. Qed.
Print Assumptions C23_float_inclusive.
Example C23_float_inclusive_ex :
  float_validate E0 false (Some (NF f_half)) (Some (NF f5)) (VFloat f5) = LOk (VFloat f5) /\
  float_validate E0 false (Some (NF f5)) None (VFloat f_half) = LErr 0.
Proof. vm_compute. auto. Qed.

(** An int of at most 53 bits is converted without loss. *)
Theorem C23_float_of_int : forall E cast mn mx z,
  Z.abs z <= 2 ^ 53 -> valid_opt mn -> valid_opt mx ->
  exists f, fext f = Fin (z * UNIT) /\
    (float_validate E cast mn mx (VInt z) = LOk (VFloat f) <-> within mn mx (NZ z)).
Proof. exact float_int_exact. Qed.
Print Assumptions C23_float_of_int.
Example C23_float_of_int_ex : Z.abs 5 <= 2 ^ 53 /\ float_validate E0 false (Some (NZ 5)) (Some (NZ 5)) (VInt 5) = LOk (VFloat f5).
Proof. split; [vm_compute; discriminate|vm_compute; reflexivity]. Qed.

Theorem C23_float_rejections : forall E cast mn mx v e,
  valid_val v -> float_validate E cast mn mx v = LExc e ->
  e = ExOverflow /\ exists z, v = VInt z /\ fofZ z = None.
Proof. exact float_only_overflow. Qed.
Print Assumptions C23_float_rejections.
(** Overflow escapes for huge ints; nan satisfies every bound; a larger int is
    accepted without cast although the result differs from it by 1. *)
Theorem C23_float_refuted :
  float_validate E0 false None None (VInt (2 ^ 1024)) = LExc ExOverflow /\
  float_validate E0 false (Some (NZ 0)) (Some (NZ 1)) (VFloat S754_nan) = LOk (VFloat S754_nan) /\
  (exists f, float_validate E0 false None None (VInt (2 ^ 53 + 1)) = LOk (VFloat f) /\ fext f = Fin (2 ^ 53 * UNIT)).
Proof.
  split; [vm_compute; reflexivity|]. split; [vm_compute; reflexivity|].
  exists (S754_finite false 4503599627370496 1). split; vm_compute; reflexivity.
Qed.
Print Assumptions C23_float_refuted.

(** ** C24: StringChoice *)
Theorem C24_choice : forall cs choices v w,
  no_collisions cs choices ->
  (choice_validate cs choices v = LOk w <->
   exists s kv, v = VStr s /\ In kv choices /\ names_entry cs s kv /\ w = VStr (fst kv)).
Proof. exact choice_iff. Qed.
Print Assumptions C24_choice.
Definition ch_ex : list (string * list string) := [("red", ["crimson"; "r"]); ("blue", [])]%string.
Example C24_choice_ex :
  no_collisions false ch_ex /\ choice_validate false ch_ex (VStr "CRIMSON") = LOk (VStr "red") /\
  choice_validate true ch_ex (VStr "CRIMSON") = LErr 0.
Proof.
  split; [|vm_compute; auto]. unfold no_collisions. vm_compute.
  repeat (constructor; [simpl; intuition discriminate|]). constructor.
Qed.

Theorem C24_unique : forall cs choices s kv kv',
  no_collisions cs choices -> In kv choices -> In kv' choices ->
  names_entry cs s kv -> names_entry cs s kv' -> kv = kv'.
Proof. exact choice_unique. Qed.
Print Assumptions C24_unique.

Theorem C24_order_irrelevant : forall cs choices choices' v,
  no_collisions cs choices -> Permutation choices choices' ->
  choice_validate cs choices v = choice_validate cs choices' v.
Proof. exact choice_order. Qed.
Print Assumptions C24_order_irrelevant.
Example C24_order_irrelevant_ex : Permutation ch_ex (rev ch_ex) /\
  choice_validate false (rev ch_ex) (VStr "R") = LOk (VStr "red").
Proof. split; [apply Permutation_rev|vm_compute; reflexivity]. Qed.

(** ** C25: Color *)
Theorem C25_triple : forall rc v w, color_validate rc v = LOk w ->
  exists a b c, w = VTuple [a; b; c] /\ Forall (int_in 0 255) [a; b; c].
Proof. exact color_sound. Qed.
Print Assumptions C25_triple.

Theorem C25_sequence : forall rc l w,
  (color_validate rc (VList l) = LOk w <-> w = VTuple l /\ length l = 3%nat /\ Forall (int_in 0 255) l) /\
  color_validate rc (VTuple l) = color_validate rc (VList l).
Proof. exact color_seq. Qed.
Print Assumptions C25_sequence.
Example C25_sequence_ex :
  color_validate 0 (VList [VInt 0; VInt 255; VInt 7]) = LOk (VTuple [VInt 0; VInt 255; VInt 7]) /\
  color_validate 0 (VList [VInt 0; VInt 256; VInt 7]) = LErr 0.
Proof. vm_compute. auto. Qed.

Theorem C25_hex6 : forall rc hash a b c d e f xa xb xc xd xe xf,
  (hash = [] \/ hash = ["#"%char]) ->
  hexval a xa -> hexval b xb -> hexval c xc -> hexval d xd -> hexval e xe -> hexval f xf ->
  color_validate rc (VStr (unchars (hash ++ [a; b; c; d; e; f]))) =
  LOk (VTuple [VInt (16 * xa + xb); VInt (16 * xc + xd); VInt (16 * xe + xf)]).
Proof. exact color_hex6. Qed.
Print Assumptions C25_hex6.
Example C25_hex6_ex : hexval "f" 15 /\ hexval "A" 10 /\ hexval "0" 0 /\
  color_validate 3 (VStr "#fFA00a") = LOk (VTuple [VInt 255; VInt 160; VInt 10]).
Proof. unfold hexval. vm_compute. repeat split; tauto. Qed.

Theorem C25_hex3 : forall rc hash a b c xa xb xc,
  (hash = [] \/ hash = ["#"%char]) ->
  hexval a xa -> hexval b xb -> hexval c xc ->
  color_validate rc (VStr (unchars (hash ++ [a; b; c]))) =
  LOk (VTuple [VInt (17 * xa); VInt (17 * xb); VInt (17 * xc)]).
Proof. exact color_hex3. Qed.
Print Assumptions C25_hex3.
Example C25_hex3_ex : color_validate 3 (VStr "fA0") = LOk (VTuple [VInt 255; VInt 170; VInt 0]).
Proof. vm_compute. reflexivity. Qed.

(** Every name of the library's table gives the triple of its hex code;
    'random' always gives a triple. *)
Theorem C25_names : forall rc name h, In (name, h) COLORS_NAMED ->
  color_validate rc (VStr name) = color_validate rc (VStr h) /\
  exists r g b, color_validate rc (VStr name) = LOk (VTuple [VInt r; VInt g; VInt b]).
Proof. exact color_names. Qed.
Print Assumptions C25_names.
Example C25_names_ex : In ("tomato", "FF6347")%string COLORS_NAMED /\
  color_validate 0 (VStr "tomato") = LOk (VTuple [VInt 255; VInt 99; VInt 71]).
Proof. split; [vm_compute; tauto|vm_compute; reflexivity]. Qed.

Theorem C25_random : forall rc, exists r g b,
  color_validate rc (VStr "random") = LOk (VTuple [VInt r; VInt g; VInt b]).
Proof. exact color_random. Qed.
Print Assumptions C25_random.

(** The standard name 'firebrick' is rejected (the table spells it
    'irebrick'), and strings that are not hex colours are accepted because of
    [int(x, 16)]. *)
Theorem C25_color_refuted :
  color_validate 0 (VStr "firebrick") = LErr 0 /\
  color_validate 0 (VStr "+F+F+F") = LOk (VTuple [VInt 15; VInt 15; VInt 15]) /\
  color_validate 0 (VStr "##FF0000") = LOk (VTuple [VInt 255; VInt 0; VInt 0]).
Proof. vm_compute. auto. Qed.
Print Assumptions C25_color_refuted.

(** ** C26: DateTime *)
Theorem C26_round_trip : forall E x,
  calendar x -> (e_padyear E = true \/ 1000 <= dyear x) ->
  rbind (date_to_json E (VDate x)) date_from_json = Ok (VDate (no_micro x)).
Proof. exact date_json_round. Qed.
Print Assumptions C26_round_trip.
Example C26_round_trip_ex : calendar (DT 2024 2 29 23 59 59 999999) /\
  date_to_json E0 (VDate (DT 2024 2 29 23 59 59 999999)) = Ok (VStr "2024-02-29T23:59:59Z").
Proof. split; [unfold calendar; simpl; lia|vm_compute; reflexivity]. Qed.

(** Exactly the well-formed texts of possible dates are accepted; ten
    characters denote midnight. *)
Theorem C26_accepted_texts : forall s x,
  date_of_string s = Some x <->
  calendar x /\ dmicro x = 0 /\
  (if Nat.eqb (length (chars s)) 10
   then date_text (chars s) (dyear x) (dmonth x) (dday x) /\ dhour x = 0 /\ dmin x = 0 /\ dsec x = 0
   else datetime_text (chars s) x).
Proof. exact date_of_string_iff. Qed.
Print Assumptions C26_accepted_texts.
Example C26_accepted_texts_ex :
  date_of_string "2024/02-29" = Some (DT 2024 2 29 0 0 0 0) /\ date_of_string "2023-02-29" = None /\
  date_of_string "2023-02-28T24:00:00Z" = None.
Proof. vm_compute. auto. Qed.

Theorem C26_rejections : forall s, date_of_string s = None -> date_from_json (VStr s) = Exc ExValue /\ date_validate (VStr s) = LErr 0.
Proof. exact date_rejections. Qed.
Print Assumptions C26_rejections.

(** On platforms whose strftime does not pad %Y the round trip fails for
    years below 1000. *)
Theorem C26_early_years_refuted : exists E x, calendar x /\
  rbind (date_to_json E (VDate x)) date_from_json = Exc ExValue.
Proof.
  exists E0, (DT 999 1 1 0 0 0 0). split; [unfold calendar; simpl; lia|vm_compute; reflexivity].
Qed.
Print Assumptions C26_early_years_refuted.

(** ** C27: Uuid *)
Theorem C27_round_trip : forall n, (n < 2 ^ 128)%N ->
  rbind (uuid_to_json (VUuid n)) uuid_from_json = Ok (VUuid n).
Proof. exact uuid_json_round. Qed.
Print Assumptions C27_round_trip.
Example C27_round_trip_ex : (255 < 2 ^ 128)%N /\
  uuid_to_json (VUuid 255) = Ok (VStr "00000000-0000-0000-0000-0000000000ff").
Proof. split; vm_compute; reflexivity. Qed.

Theorem C27_injective : forall m n, (m < 2 ^ 128)%N -> (n < 2 ^ 128)%N ->
  uuid_to_json (VUuid m) = uuid_to_json (VUuid n) -> m = n.
Proof. exact uuid_json_inj. Qed.
Print Assumptions C27_injective.

(** ** C45: special floats survive JSON *)
Theorem C45_float_json : forall E c mn mx f, reads_special E ->
  exists j, leaf_to_json E (LfFloat c mn mx) (VFloat f) = Ok j /\
            leaf_from_json E (LfFloat c mn mx) j = Ok (VFloat f) /\
            ((exists s, j = VStr s) <-> ~ exists u, fext f = Fin u).
Proof. intros E c mn mx. exact (float_json E). Qed.
Print Assumptions C45_float_json.
Example C45_float_json_ex : reads_special E0 /\
  leaf_to_json E0 (LfFloat false None None) (VFloat (S754_infinity true)) = Ok (VStr "-inf").
Proof. repeat split. Qed.

(** ** C47: String options *)
Theorem C47_string : forall o v w,
  string_validate o v = LOk w <->
  exists s t, v = VStr s /\ (forall r, so_regex o = Some r -> r s = true) /\
    stripped (chars (so_strip o)) (chars s) t /\
    w = VStr (unchars (match so_case o with
                       | CUpper => map ch_upper t | CLower => map ch_lower t | CNone => t end)).
Proof. exact string_spec. Qed.
Print Assumptions C47_string.
Example C47_string_ex :
  string_validate (SO "x " CLower (Some (fun s => negb (String.eqb s "")))) (VStr "x  AxB ") = LOk (VStr "axb") /\
  string_validate (SO "" CNone None) (VInt 3) = LErr 0.
Proof. vm_compute. auto. Qed.

(** ** C49: Boolean *)
Theorem C49_no_cast : forall v w, bool_validate false v = LOk w <-> (exists b, v = VBool b) /\ w = v.
Proof. exact bool_nocast. Qed.
Print Assumptions C49_no_cast.
Theorem C49_cast : forall v, bool_validate true v = LOk (VBool (truthy v)).
Proof. exact bool_cast. Qed.
Print Assumptions C49_cast.
(** The values that are cast to False *)
Theorem C49_cast_false : forall v, bool_validate true v = LOk (VBool false) <->
  In v [VNone; VBool false; VInt 0; VStr ""; VTuple []; VList []; VSet []; VDict []] \/
  (exists s, v = VFloat (S754_zero s)) \/ (exists s t, v = VComplex (S754_zero s) (S754_zero t)).
Proof.
  assert (ZF : forall f, feq f fzero = true <-> exists s, f = S754_zero s).
  { intros f. split; [|intros [s ->]; reflexivity]. destruct f as [s|s| |s m e]; intros H; [eauto| | |]; try destruct s; discriminate. }
  intros v. rewrite C49_cast. split.
  - intros H. injection H as H. destruct v; try discriminate; cbn in *; auto 12.
    + subst. auto 12.
    + apply Bool.negb_false_iff, Z.eqb_eq in H. subst. auto 12.
    + apply Bool.negb_false_iff, ZF in H. destruct H as [s ->]. right. left. now exists s.
    + apply Bool.negb_false_iff, andb_prop in H. destruct H as [H1 H2]. apply ZF in H1. apply ZF in H2. destruct H1 as [s ->], H2 as [t ->]. right. right. now exists s, t.
    + apply Bool.negb_false_iff, String.eqb_eq in H. subst. auto 12.
    + destruct l; [auto 12|discriminate].
    + destruct l; [auto 12|discriminate].
    + destruct l; [auto 12|discriminate].
    + destruct l; [auto 12|discriminate].
  - intros [H|[[s ->]|(s & t & ->)]]; [|destruct s; reflexivity|destruct s, t; reflexivity].
    cbn in H. intuition (subst; reflexivity).
Qed.
Print Assumptions C49_cast_false.
Example C49_cast_ex : bool_validate true (VList []) = LOk (VBool false) /\ bool_validate false (VInt 1) = LErr 0.
Proof. vm_compute. auto. Qed.
Theorem C49_from_json_words : forall s,
  (bool_from_json (VStr s) = Ok (VBool true) <-> In (str_lower s) true_words) /\
  (bool_from_json (VStr s) = Ok (VBool false) <-> In (str_lower s) false_words) /\
  (~ In (str_lower s) (true_words ++ false_words) -> bool_from_json (VStr s) = Exc ExValue).
Proof. exact bool_words. Qed.
Print Assumptions C49_from_json_words.
Example C49_from_json_words_ex : In (str_lower "Yes") true_words /\ bool_from_json (VStr "yEs") = Ok (VBool true).
Proof. vm_compute. tauto. Qed.
(** JSON integers are passed through unconverted. *)
Theorem C49_from_json_int_refuted : exists v, bool_from_json v = Ok v /\ forall b, v <> VBool b.
Proof. exists (VInt 7). split; [reflexivity|discriminate]. Qed.
Print Assumptions C49_from_json_int_refuted.
