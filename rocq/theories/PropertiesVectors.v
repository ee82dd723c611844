(** Property theorems about the scaling of vectors: [C67].  [wrap] is the
    constructor of vectormath, [scale] its assignment to [length]. *)
From Verif Require Import Vectors VectorsSpec VectorsFacts ContentsSpec OptionsSpec PropertiesArray.
Local Open Scope string_scope.
Local Open Scope list_scope.
Local Open Scope nat_scope.

(** ** The option *)
Theorem C67_length : forall v f, set_length v = Ok f <-> positive_number v (Some f).
Proof. exact set_length_ok. Qed.
Print Assumptions C67_length.
Theorem C67_length_overflow : forall v, set_length v = Exc ExOverflow <-> positive_number v None.
Proof. exact set_length_overflow. Qed.
Print Assumptions C67_length_overflow.
Theorem C67_length_rejected : forall v e, set_length v = Exc e -> e = ExType \/ e = ExOverflow.
Proof. exact set_length_error. Qed.
Print Assumptions C67_length_rejected.
Example C67_length_ex :
  set_length (VFloat A_1_5) = Ok A_1_5 /\ set_length (VBool true) = Ok (S754_finite false 4503599627370496 (-52)) /\
  set_length (VInt 0) = Exc ExType /\ set_length (VFloat (S754_zero true)) = Exc ExType /\
  set_length (VFloat (S754_infinity true)) = Exc ExType /\ set_length VNone = Exc ExType /\ set_length (VStr "1") = Exc ExType /\
  set_length (VInt (2 ^ 1024)) = Exc ExOverflow.
Proof. vm_compute. repeat split. Qed.
(** nan and infinity are accepted as a length. *)
Theorem C67_number_refuted : exists f, is_nan f = true /\ set_length (VFloat f) = Ok f.
Proof. exists S754_nan. vm_compute. split; reflexivity. Qed.
Print Assumptions C67_number_refuted.
Theorem C67_finite_refuted : exists f, is_inf f = true /\ set_length (VFloat f) = Ok f.
Proof. exists (S754_infinity false). vm_compute. split; reflexivity. Qed.
Print Assumptions C67_finite_refuted.

(** ** Validation *)
Theorem C67_coerced : forall k o wrap scale len v h r h',
  ao_coerce o = true -> vec_validate k o wrap scale len v h = (r, h') ->
  match v with
  | VNot => r = VecErr /\ h' = h
  | _ => match wrap h v with
         | Exc e => r = VecExc e /\ h' = h
         | Ok a => exists b, h' = h ++ [b] /\ outcome k o scale len (length h) a r b
         end
  end.
Proof. exact coerced_spec. Qed.
Print Assumptions C67_coerced.
Theorem C67_in_place : forall k o wrap scale len v h r h',
  ao_coerce o = false -> vec_validate k o wrap scale len v h = (r, h') ->
  match v with
  | VArr i => forall a, nth_error h i = Some a ->
      exists b, outcome k o scale len i a r b /\ nth_error h' i = Some b /\ length h' = length h /\
        forall j, j <> i -> nth_error h' j = nth_error h j
  | _ => r = VecErr /\ h' = h
  end.
Proof. exact in_place_spec. Qed.
Print Assumptions C67_in_place.
Theorem C67_one_outcome : forall k o scale len i a r b r' b',
  outcome k o scale len i a r b -> outcome k o scale len i a r' b' -> r = r' /\ b = b'.
Proof. exact outcome_fun. Qed.
Print Assumptions C67_one_outcome.
(** Vectors [[x, 0.0, 0.0]]; those with x = 1.5 or 99999.0 can be scaled. *)
Definition V_vec (x : float) : nda := NDA KVec3 TFloat [3] [EF x; EF fzero; EF fzero].
Definition V_wrap (h : vheap) (v : vin) : res nda :=
  match v with VArr i => match nth_error h i with Some a => Ok (NDA KVec3 TFloat (n_shape a) (n_data a)) | None => Exc ExValue end
  | VSeq 0 => Ok (V_vec A_99999) | _ => Exc ExValue end.
Definition V_scale (a : nda) (f : float) : scaled :=
  match n_data a with
  | EF x :: l => match x with S754_zero _ => SZero a | S754_nan => SRaises ExValue a | _ => SDone (NDA (n_class a) (n_type a) (n_shape a) (EF f :: l)) end
  | _ => SRaises ExValue a
  end.
Definition V_coerced : aopts := AO None None true.
Definition V_plain : aopts := AO None None false.
Example C67_ex :
  let h := [V_vec A_99999; V_vec fzero; NDA KArray TFloat [3] [EF A_99999; EF fzero; EF fzero]; V_vec S754_nan] in
  let val o := vec_validate KVec3 o V_wrap V_scale (Some A_1_5) in
  val V_coerced (VArr 0) h = (VecOk 4, h ++ [V_vec A_1_5]) /\
  val V_coerced (VSeq 0) h = (VecOk 4, h ++ [V_vec A_1_5]) /\
  val V_coerced (VArr 1) h = (VecZero, h ++ [V_vec fzero]) /\
  val V_coerced (VArr 2) h = (VecOk 4, h ++ [V_vec A_1_5]) /\
  val V_coerced (VSeq 1) h = (VecExc ExValue, h) /\
  val V_coerced VNot h = (VecErr, h) /\
  val V_plain (VArr 0) h = (VecOk 0, V_vec A_1_5 :: tl h) /\
  val V_plain (VArr 1) h = (VecZero, h) /\
  val V_plain (VArr 2) h = (VecErr, h) /\
  val V_plain (VArr 3) h = (VecExc ExValue, h) /\
  val V_plain (VSeq 0) h = (VecErr, h) /\
  vec_validate KVec3 V_plain V_wrap V_scale None (VArr 1) h = (VecOk 1, h).
Proof. vm_compute. repeat split. Qed.
Example C67_fits_ex :
  vector_of KVec3 V_plain (V_vec fzero) /\ ~ vector_of KVec3 V_plain (NDA KVec3 TFloat [2] []) /\
  ~ vector_of KVec3 V_plain (NDA KVec3 TInt [3] []) /\ ~ vector_of KVec3 V_plain (NDA KArray TFloat [3] []).
Proof.
  rewrite <- !fits_not, <- fits_iff. vm_compute. repeat split.
Qed.
(** Without [coerce], validation changes the array it is given. *)
Theorem C67_argument_refuted : exists k o wrap scale len v h r h',
  vec_validate k o wrap scale len v h = (r, h') /\ h' <> h /\ length h' = length h.
Proof.
  exists KVec3, V_plain, V_wrap, V_scale, (Some A_1_5), (VArr 0), [V_vec A_99999], (VecOk 0), [V_vec A_1_5].
  vm_compute. repeat split. discriminate.
Qed.
Print Assumptions C67_argument_refuted.

(** ** Checks of stored vectors *)
Theorem C67_assert_coerced : forall k o wrap scale len i h a b r h',
  ao_coerce o = true -> nth_error h i = Some a -> wrap h (VArr i) = Ok b ->
  vec_assert k o wrap scale len i h = (r, h') ->
  exists c q, h' = h ++ [c] /\ outcome k o scale len (length h) b q c /\
    (r = Ok true <-> q = VecOk (length h) /\ array_equal a c = true) /\
    (r <> Ok true -> r = Exc (ExValidation []) \/ exists e, q = VecExc e /\ r = Exc e).
Proof. exact assert_copy. Qed.
Print Assumptions C67_assert_coerced.
Theorem C67_assert_in_place : forall k o wrap scale len i h a r h',
  ao_coerce o = false -> nth_error h i = Some a -> vec_assert k o wrap scale len i h = (r, h') ->
  exists c q, outcome k o scale len i a q c /\ nth_error h' i = Some c /\ (forall j, j <> i -> nth_error h' j = nth_error h j) /\
    r = match q with
        | VecOk _ => if array_equal c c then Ok true else Exc (ExValidation [])
        | VecExc e => Exc e
        | _ => Exc (ExValidation [])
        end.
Proof. exact assert_self. Qed.
Print Assumptions C67_assert_in_place.
Theorem C67_assert_self : forall k o wrap scale len i h a r h',
  ao_coerce o = false -> nth_error h i = Some a -> vec_assert k o wrap scale len i h = (r, h') ->
  (forall b f c, scale b f = SDone c -> wf c /\ n_type c <> TStr) -> wf a ->
  (r = Ok true <-> vector_of k o a /\ forall f, len = Some f -> exists c, scale a f = SDone c).
Proof. exact assert_self_ok. Qed.
Print Assumptions C67_assert_self.
Example C67_assert_ex :
  let h := [V_vec A_99999; V_vec fzero; V_vec A_1_5; V_vec S754_nan] in
  let chk o i := vec_assert KVec3 o V_wrap V_scale (Some A_1_5) i h in
  chk V_coerced 0 = (Exc (ExValidation []), h ++ [V_vec A_1_5]) /\
  chk V_coerced 1 = (Exc (ExValidation []), h ++ [V_vec fzero]) /\
  chk V_coerced 2 = (Ok true, h ++ [V_vec A_1_5]) /\
  chk V_coerced 3 = (Exc ExValue, h ++ [V_vec S754_nan]) /\
  chk V_plain 1 = (Exc (ExValidation []), h) /\
  chk V_plain 2 = (Ok true, h) /\
  chk V_plain 3 = (Exc ExValue, h).
Proof. vm_compute. repeat split. Qed.
(** Without [coerce], a stored vector of the wrong length is not reported but
    changed. *)
Theorem C67_wrong_length_refuted : exists k o wrap scale f h h',
  vec_assert k o wrap scale (Some f) 0 h = (Ok true, h') /\ h' <> h /\
  vec_assert k (AO (ao_shape o) (ao_dtype o) true) wrap scale (Some f) 0 h = (Exc (ExValidation []), h ++ h').
Proof.
  exists KVec3, V_plain, V_wrap, V_scale, A_1_5, [V_vec A_99999], [V_vec A_1_5].
  vm_compute. repeat split. discriminate.
Qed.
Print Assumptions C67_wrong_length_refuted.
