(** Property theorems about the JSON of complex arrays, [C59].
    [fstr] and [istr] are [str] of floats and ints in a string array. *)
From Verif Require Import CArrays CArraysSpec CArraysFacts Contents ContentsSpec BasicSpec.
Local Open Scope string_scope.
Local Open Scope list_scope.
Local Open Scope nat_scope.

(** The doubles 1.5 and 2; the numbers 1.5+2j and nan+2j; their text *)
Definition K_1_5 : float := S754_finite false 6755399441055744 (-52).
Definition K_2 : float := S754_finite false 4503599627370496 (-51).
Definition K_env : env := Env (fun _ => None)
  (fun s => if String.eqb s "(nan+2j)" then Some (S754_nan, K_2) else if String.eqb s "(1.5+2j)" then Some (K_1_5, K_2) else None)
  (fun re _ => if is_special re then "(nan+2j)" else "(1.5+2j)") true (fun _ => 0).
Definition K_opts : aopts := AO None (Some [DComplex]) true.
Definition K_mixed : carr := CA [2; 1] [(K_1_5, K_2); (S754_nan, K_2)].

(** What is written: nested lists of the shape, with text for the items with nan or
    infinities.  They are JSON exactly if all items are such. *)
Theorem C59_complex_json : forall E a, c_wf a -> listable (c_shape a) ->
  exists j items, c_to_json E a = Ok j /\ nested (c_shape a) j items /\ Forall2 (c_written E) (c_data a) items /\
    (plain_json j <-> forall c, In c (c_data a) -> unusual c).
Proof. exact c_to_json_spec. Qed.
Print Assumptions C59_complex_json.
Theorem C59_complex_finite : forall E a c, c_wf a -> listable (c_shape a) -> In c (c_data a) -> ~ unusual c ->
  exists j, c_to_json E a = Ok j /\ ~ plain_json j.
Proof. exact c_finite_not_json. Qed.
Print Assumptions C59_complex_finite.
(** deserialize of these lists gives the array. *)
Theorem C59_complex_round_trip : forall E fstr istr a o r,
  c_wf a -> listable (c_shape a) -> dtype_opt KArray o = DComplex :: r -> reads_complex E a ->
  exists j, c_to_json E a = Ok j /\ c_deserialize E fstr istr o j = Ok (Some a).
Proof. exact c_round_trip. Qed.
Print Assumptions C59_complex_round_trip.
Example C59_complex_ex :
  c_wf K_mixed /\ listable (c_shape K_mixed) /\ dtype_opt KArray K_opts = [DComplex] /\ reads_complex K_env K_mixed /\
  In (K_1_5, K_2) (c_data K_mixed) /\ ~ unusual (K_1_5, K_2) /\ unusual (S754_nan, K_2) /\
  c_to_json K_env K_mixed = Ok (VList [VList [VComplex K_1_5 K_2]; VList [VStr "(nan+2j)"]]) /\
  c_deserialize K_env (fun _ => "") (fun _ => "") K_opts (VList [VList [VComplex K_1_5 K_2]; VList [VStr "(nan+2j)"]]) = Ok (Some K_mixed) /\
  c_deserialize K_env (fun _ => "") (fun _ => "") K_opts (VList [VInt 2; VFloat K_1_5])
    = Ok (Some (CA [2] [(K_2, S754_zero false); (K_1_5, S754_zero false)])).
Proof.
  split; [reflexivity|]. split; [exists [2], 1; split; [reflexivity|repeat constructor; discriminate]|]. split; [reflexivity|].
  split; [intros re im [H|[H|[]]]; injection H as <- <-; reflexivity|]. split; [now left|].
  split; [intros [H|H]; discriminate H|]. split; [left; reflexivity|]. repeat split; vm_compute; reflexivity.
Qed.
(** The claim of [C59_json] for complex arrays is false. *)
Theorem C59_complex_refuted : exists E a j,
  c_wf a /\ listable (c_shape a) /\ c_to_json E a = Ok j /\ ~ plain_json j.
Proof.
  exists K_env, (CA [1] [(K_1_5, K_2)]), (VList [VComplex K_1_5 K_2]). split; [reflexivity|].
  split; [exists [], 1; split; [reflexivity|constructor]|]. split; [reflexivity|].
  intros H. inversion H as [| | | |l F]. inversion F as [|x r P _]. inversion P.
Qed.
Print Assumptions C59_complex_refuted.
