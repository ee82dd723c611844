(** Property theorems about the contents of arrays: [C58] equality, [C59] JSON.
    [fstr] and [istr] are [str] of items in a string array, [fint] and [sbool]
    the casts that numpy leaves undefined or that are not modelled. *)
From Verif Require Import Contents ContentsSpec ContentsFacts BasicSpec WorldExample.
Local Open Scope string_scope.
Local Open Scope list_scope.
Local Open Scope nat_scope.

(** The doubles 1.5, 99999 and 100000 *)
Definition A_1_5 : float := S754_finite false 6755399441055744 (-52).
Definition A_99999 : float := S754_finite false 6871878954123264 (-36).
Definition A_100000 : float := S754_finite false 6871947673600000 (-36).
Definition A_fstr (f : float) : string := if feq f A_1_5 then "1.5" else "?".
Definition A_env : env := Env (fun s => if String.eqb s "nan" then Some S754_nan else if String.eqb s "inf" then Some (S754_infinity false)
  else if String.eqb s "-inf" then Some (S754_infinity true) else if String.eqb s "1.5" then Some A_1_5 else None)
  (fun _ => None) (fun _ _ => "") true (fun _ => 0).

(** ** C58 *)
Theorem C58_equal_iff : forall a b, wf a -> wf b -> n_type a <> TStr -> n_type b <> TStr ->
  (array_equal a b = true <->
   n_class a = n_class b /\ n_shape a = n_shape b /\
   forall i x y, float_at a i x -> float_at b i y -> alike x y).
Proof. exact equal_iff. Qed.
Print Assumptions C58_equal_iff.
Theorem C58_reflexive : forall a, wf a -> n_type a <> TStr -> array_equal a a = true.
Proof. exact equal_refl. Qed.
Print Assumptions C58_reflexive.
Example C58_ex :
  let a := NDA KArray TFloat [2; 2] [EF A_1_5; EF S754_nan; EF (S754_infinity true); EF A_99999] in
  wf a /\ array_equal a a = true /\
  array_equal a (NDA KArray TFloat [4] (n_data a)) = false /\
  array_equal a (NDA KVec2Array TFloat [2; 2] (n_data a)) = false /\
  array_equal a (NDA KArray TFloat [2; 2] [EF A_1_5; EF A_1_5; EF (S754_infinity true); EF A_99999]) = false /\
  array_equal (NDA KArray TInt [1] [EI 99999]) (NDA KArray TFloat [1] [EF A_99999]) = true.
Proof.
  cbv zeta. split; [|vm_compute; repeat split].
  split; [reflexivity|]. repeat constructor.
Qed.
(** Not symmetric. *)
Theorem C58_symmetric_refuted : exists a b,
  wf a /\ wf b /\ n_type a = TFloat /\ n_type b = TFloat /\ array_equal a b = true /\ array_equal b a = false.
Proof.
  exists (NDA KArray TFloat [1] [EF A_99999]), (NDA KArray TFloat [1] [EF A_100000]).
  split; [split; [reflexivity|repeat constructor]|]. split; [split; [reflexivity|repeat constructor]|]. vm_compute. repeat split.
Qed.
Print Assumptions C58_symmetric_refuted.
(** Coarser than the equality of Float. *)
Theorem C58_coarse_refuted : exists x y,
  float_equal (VFloat x) (VFloat y) = Ok false /\
  array_equal (NDA KArray TFloat [1] [EF x]) (NDA KArray TFloat [1] [EF y]) = true.
Proof. exists A_99999, A_100000. vm_compute. split; reflexivity. Qed.
Print Assumptions C58_coarse_refuted.

(** ** C59 *)
Theorem C59_json : forall a, wf a -> n_type a <> TStr -> listable (n_shape a) ->
  exists j, array_to_json a = Ok j /\ plain_json j.
Proof. exact to_json_ok. Qed.
Print Assumptions C59_json.
Theorem C59_round_trip : forall E fstr istr fint sbool a o,
  wf a -> n_class a = KArray -> n_type a <> TStr -> listable (n_shape a) ->
  first_type o = Some (n_type a) -> reads_back E fstr ->
  exists j, array_to_json a = Ok j /\ array_deserialize E fstr istr fint sbool o j = Ok (Some a).
Proof. exact json_roundtrip. Qed.
Print Assumptions C59_round_trip.
(** What is read from any value *)
Theorem C59_read : forall E fstr istr fint sbool o v a,
  array_deserialize E fstr istr fint sbool o v = Ok (Some a) <->
  exists t s sh items, first_dtype o t /\ v <> VNone /\ nested sh v items /\ common items s /\
    n_class a = KArray /\ n_type a = t /\ n_shape a = sh /\
    Forall2 (fun x e' => exists e, held fstr istr s x e /\ converted E fint sbool t e e') items (n_data a).
Proof. exact deserialize_iff. Qed.
Print Assumptions C59_read.
Theorem C59_read_errors : forall E fstr istr fint sbool o v t, first_dtype o t -> v <> VNone ->
  ((forall sh items, ~ nested sh v items) -> array_deserialize E fstr istr fint sbool o v = Exc ExValue) /\
  (forall sh items, nested sh v items -> (forall s, ~ common items s) -> array_deserialize E fstr istr fint sbool o v = Exc ExType) /\
  (forall sh items s e, nested sh v items -> common items s -> (forall x e', sbool x <> Exc e') ->
    array_deserialize E fstr istr fint sbool o v = Exc e -> e = ExOverflow \/ (e = ExValue /\ s = TStr)).
Proof. exact deserialize_errors. Qed.
Print Assumptions C59_read_errors.
Example C59_read_ex :
  let read d v := array_deserialize A_env A_fstr (fun _ => "12") (fun _ => 0%Z) (fun s => Ok (negb (String.eqb s ""))) (AO None (Some [d]) true) v in
  read DInt (VList [VList [VBool true; VInt 7]; VList [VBool false; VFloat A_1_5]]) = Ok (Some (NDA KArray TInt [2; 2] [EI 1; EI 7; EI 0; EI 1])) /\
  read DBool (VList [VInt 0; VInt 2]) = Ok (Some (NDA KArray TBool [2] [EB false; EB true])) /\
  read DBool (VList [VFloat (S754_zero true); VFloat S754_nan; VBool false]) = Ok (Some (NDA KArray TBool [3] [EB false; EB true; EB false])) /\
  read DFloat (VList [VStr "1.5"; VStr "nan"]) = Ok (Some (NDA KArray TFloat [2] [EF A_1_5; EF S754_nan])) /\
  read DFloat (VList [VList []; VList []]) = Ok (Some (NDA KArray TFloat [2; 0] [])) /\
  read DFloat (VBool true) = Ok (Some (NDA KArray TFloat [] [EF (S754_finite false (2 ^ 52) (-52))])) /\
  (* True and 1.5 in one list with a string: not a number *)
  read DFloat (VList [VBool true; VStr "1.5"]) = Exc ExValue /\
  read DInt (VList [VStr "12"; VInt 5]) = Ok (Some (NDA KArray TInt [2] [EI 12; EI 12])) /\
  read DInt (VList [VInt (2 ^ 63)]) = Exc ExOverflow /\
  read DInt (VList [VList [VInt 1]; VInt 2]) = Exc ExValue /\ read DInt (VList [VNone]) = Exc ExType /\ read DInt VNone = Ok None.
Proof. vm_compute. repeat split. Qed.
Example C59_read_errors_ex : first_dtype (AO None (Some [DInt]) true) TInt /\
  nested [1] (VList [VStr "x"]) [VStr "x"] /\ common [VStr "x"; VInt 3] TStr /\ (forall s, ~ common [VNone] s) /\
  (forall sh items, ~ nested sh (VList [VList [VInt 1]; VInt 2]) items).
Proof.
  split; [exists DInt, []; cbn; auto|]. split; [apply (ns_list [] [VStr "x"] [[VStr "x"]]); [discriminate|]; constructor; [constructor; discriminate|constructor]|].
  split; [right; split; [exists (VStr "x"); split; [now left|constructor]|intros v [<-|[<-|[]]]; eexists; (split; [constructor|cbn; auto])]|].
  split.
  - intros s [[H _]|[(v & [<-|[]] & K) _]]; [discriminate|inversion K].
  - intros sh items H. apply nested_shape in H as [H _]. discriminate.
Qed.
Theorem C59_read_as_float : forall E fstr istr fint sbool a o,
  wf a -> n_class a = KArray -> n_type a = TBool \/ n_type a = TInt -> listable (n_shape a) ->
  first_type o = Some TFloat ->
  exists j b, array_to_json a = Ok j /\ array_deserialize E fstr istr fint sbool o j = Ok (Some b) /\
    n_type b = TFloat /\ array_equal a b = true.
Proof. exact json_to_float. Qed.
Print Assumptions C59_read_as_float.
Example C59_ex :
  let a := NDA KArray TFloat [2; 2] [EF A_1_5; EF S754_nan; EF (S754_infinity true); EF A_1_5] in
  let b := NDA KArray TInt [2; 1] [EI 7; EI (-3)] in
  wf a /\ listable [2; 2] /\ first_type a_start = Some TFloat /\
  array_to_json a = Ok (VList [VList [VFloat A_1_5; VStr "nan"]; VList [VStr "-inf"; VFloat A_1_5]]) /\
  array_deserialize A_env A_fstr (fun _ => "") (fun _ => 0%Z) (fun _ => Exc ExValue) a_start
    (VList [VList [VFloat A_1_5; VStr "nan"]; VList [VStr "-inf"; VFloat A_1_5]]) = Ok (Some a) /\
  wf b /\ array_to_json b = Ok (VList [VList [VInt 7]; VList [VInt (-3)]]).
Proof.
  cbv zeta. split; [split; [reflexivity|repeat constructor]|].
  split; [exists [2], 2; split; [reflexivity|repeat constructor; discriminate]|].
  split; [reflexivity|]. split; [vm_compute; reflexivity|]. split; [vm_compute; reflexivity|].
  split; [split; [reflexivity|]|vm_compute; reflexivity].
  constructor; [constructor; lia|]. constructor; [constructor; lia|]. constructor.
Qed.
(** [str] of doubles that [float] reads back: strings made of the bits. *)
Example C59_reads_back_ex : exists E fstr, reads_special E /\ forall f, is_special f = false -> e_fparse E (fstr f) = Some f.
Proof.
  pose (enc := fix enc (p : positive) : string := match p with xH => "" | xO q => String "0" (enc q) | xI q => String "1" (enc q) end).
  pose (dec := fix dec (s : string) : positive := match s with "" => xH | String "0" r => xO (dec r) | String _ r => xI (dec r) end).
  assert (forall p, dec (enc p) = p) as DE. { induction p; cbn; congruence. }
  pose (mark := fix mark (s : string) : string * string :=
    match s with "" => ("", "") | String "," r => ("", r) | String c r => let (a, b) := mark r in (String c a, b) end).
  assert (forall p r, mark (enc p ++ String "," r)%string = (enc p, r)) as MK. { induction p; intros r; cbn; rewrite ?IHp; auto. }
  pose (fstr := fun f => match f with
    | S754_zero s => if s then "a" else "b"
    | S754_finite s m e =>
        String (if s then "c" else "d") (enc m ++ String "," (match e with Z0 => "z" | Zpos p => String "p" (enc p) | Zneg p => String "m" (enc p) end))
    | _ => "?" end).
  pose (parse := fun s => if String.eqb s "nan" then Some S754_nan else if String.eqb s "inf" then Some (S754_infinity false)
    else if String.eqb s "-inf" then Some (S754_infinity true) else
    match s with
    | "a" => Some (S754_zero true) | "b" => Some (S754_zero false)
    | String c r => let (m, t) := mark r in
        Some (S754_finite (Ascii.eqb c "c") (dec m) (match t with "z" => 0 | String "p" q => Zpos (dec q) | String _ q => Zneg (dec q) | "" => 0 end)%Z)
    | "" => None end).
  exists (Env parse (fun _ => None) (fun _ _ => "") true (fun _ => 0)), fstr. split; [repeat split|].
  intros [s|s| |s m e] S; try discriminate.
  - destruct s; reflexivity.
  - cbn [e_fparse]. unfold parse, fstr. 
    destruct s; cbn; destruct (enc m ++ String "," _)%string eqn:Q; try (destruct m; discriminate);
      rewrite <- Q, MK, DE; destruct e as [|p|p]; rewrite ?DE; reflexivity.
Qed.
(** An empty first dimension hides the others. *)
Theorem C59_empty_refuted : exists E fstr istr fint sbool a o j b,
  wf a /\ n_class a = KArray /\ n_type a = TFloat /\ first_type o = Some TFloat /\ array_to_json a = Ok j /\
  array_deserialize E fstr istr fint sbool o j = Ok (Some b) /\ n_shape b <> n_shape a.
Proof.
  exists A_env, A_fstr, (fun _ => ""), (fun _ => 0%Z), (fun _ => Exc ExValue), (NDA KArray TFloat [0; 3] []), a_start.
  do 2 eexists. split; [split; [reflexivity|constructor]|]. split; [reflexivity|]. split; [reflexivity|]. split; [reflexivity|].
  split; [reflexivity|]. split; [vm_compute; reflexivity|]. discriminate.
Qed.
Print Assumptions C59_empty_refuted.
(** An array without dimensions cannot be serialized. *)
Theorem C59_scalar_refuted : exists a, wf a /\ n_class a = KArray /\ n_type a = TFloat /\ array_to_json a = Exc ExType.
Proof. exists (NDA KArray TFloat [] [EF A_1_5]). split; [split; [reflexivity|repeat constructor]|]. repeat split. Qed.
Print Assumptions C59_scalar_refuted.
(** With dtype (int, float) doubles are truncated, and nan is not read. *)
Theorem C59_truncated_refuted : exists E fstr istr fint sbool o a j b a' j',
  dtype_opt KArray o = [DInt; DFloat] /\
  wf a /\ n_type a = TFloat /\ array_to_json a = Ok j /\ array_deserialize E fstr istr fint sbool o j = Ok (Some b) /\
  array_equal a b = false /\
  wf a' /\ n_type a' = TFloat /\ array_to_json a' = Ok j' /\ array_deserialize E fstr istr fint sbool o j' = Exc ExValue.
Proof.
  exists A_env, A_fstr, (fun _ => ""), (fun _ => 0%Z), (fun _ => Exc ExValue), (AO None (Some [DInt; DFloat]) true),
    (NDA KArray TFloat [1] [EF A_1_5]). do 2 eexists. exists (NDA KArray TFloat [1] [EF S754_nan]). eexists.
  split; [reflexivity|]. split; [split; [reflexivity|repeat constructor]|]. split; [reflexivity|].
  split; [vm_compute; reflexivity|]. split; [vm_compute; reflexivity|]. split; [vm_compute; reflexivity|].
  split; [split; [reflexivity|repeat constructor]|]. split; [reflexivity|]. split; [vm_compute; reflexivity|]. vm_compute. reflexivity.
Qed.
Print Assumptions C59_truncated_refuted.
(** Vectors: [wrap] is the constructor of the class in vectormath. *)
Theorem C59_vectors : forall E fstr istr fint sbool wrap a,
  wf a -> n_type a = TFloat -> vec_shape (n_class a) (n_shape a) -> n_data a <> [] ->
  (forall f, In (EF f) (n_data a) -> is_fin f = true) -> makes_vectors wrap (n_class a) ->
  exists j, array_to_json a = Ok j /\ wrap j = Ok a /\ vec_deserialize E fstr istr fint sbool wrap j = Ok (Some a).
Proof. exact vectors_roundtrip. Qed.
Print Assumptions C59_vectors.
(** A constructor as asked for: [np.array] seen as this class *)
Definition A_wrap (k : akind) (v : val) : res nda :=
  rbind (np_array A_fstr (fun _ => "") v) (fun a => Ok (NDA k TFloat (n_shape a) (n_data a))).
Example C59_vectors_ex :
  let a := NDA KVec3Array TFloat [2; 3] [EF A_1_5; EF A_99999; EF A_1_5; EF A_1_5; EF (S754_zero true); EF A_100000] in
  wf a /\ vec_shape (n_class a) (n_shape a) /\ (forall f, In (EF f) (n_data a) -> is_fin f = true) /\
  (forall k, makes_vectors (A_wrap k) k) /\
  array_to_json a = Ok (VList [VList [VFloat A_1_5; VFloat A_99999; VFloat A_1_5]; VList [VFloat A_1_5; VFloat (S754_zero true); VFloat A_100000]]).
Proof.
  cbv zeta. split; [split; [reflexivity|repeat constructor]|]. split; [constructor|].
  split; [intros f H; repeat (destruct H as [H|H]; [injection H as <-; reflexivity|]); destruct H|]. split; [|reflexivity].
  intros k sh v fs _ N _. apply nested_shape in N as [N I]. unfold A_wrap, np_array. rewrite N, I, (types_same TFloat).
  - rewrite map_map, (all_ok_map _ EF); [destruct fs; reflexivity|]. intros f _. destruct fs; reflexivity.
  - intros w H. apply in_map_iff in H as (f & <- & _). reflexivity.
Qed.
