(** Property theorems about the way through JSON and back. *)
From Verif Require Import World WorldSpec AccessSpec BasicSpec GraphSpec RoundSpec RoundGraph RoundEqual RoundBuild RoundExample RoundValid RoundBox.
Local Open Scope string_scope.
Local Open Scope list_scope.
Local Open Scope nat_scope.

(** ** C17: serialize, deserialize and copy *)
(** The graph below [l] is serialized to some JSON; deserialized in whatever
    state, the JSON gives a new graph with the same classes and values, and
    nothing that existed before changes.  Shared instances are copied once for
    each reference. *)
Theorem C17_round_trip : forall E C U so d_o w l cid, reads_special E -> (o_trusted d_o = true -> names_known C) ->
  s_dyn so = false -> o_valid d_o = false ->
  portable_graph E C U so d_o w l -> unguarded C w l -> restorable C so d_o w cid l ->
  exists depth j,
    (forall n, depth <= n -> exists w1, exec E C U n (COp (OSer l so)) w = (Ok j, w1) /\ unchanged w w1) /\
    (forall n w1, depth <= n -> exists m w2, exec E C U n (COp (ODeser cid j d_o)) w1 = (Ok (VInst m), w2) /\
       unchanged w1 w2 /\ copied C (length (w_heap w1)) w w2 l m).
Proof. exact (fun E C U so d_o w l cid HS HN Hd => round_trip E C U so d_o w HS HN Hd l cid). Qed.
Print Assumptions C17_round_trip.
Example C17_round_trip_ex : reads_special E5 /\ names_known C5 /\ portable_graph E5 C5 U5 so5 do5 w_kit 2 /\
  unguarded C5 w_kit 2 /\ restorable C5 so5 do5 w_kit 2 2 /\
  let bolt := VDict [(VStr "n", VInt 3); (VStr "size", VFloat f_size); (VStr "__class__", VStr "Bolt")] in
  let part := VDict [(VStr "n", VInt 7); (VStr "when", VStr "2020-02-29T12:30:00Z"); (VStr "__class__", VStr "Part")] in
  fst (exec E5 C5 U5 30 (COp (OSer 2 so5)) w_kit) =
    Ok (VDict [(VStr "main", bolt); (VStr "parts", VList [part; bolt]); (VStr "tags", VList [VStr "a"; VStr "b"]);
               (VStr "table", VDict [(VStr "k", part)]); (VStr "pick", VStr "abc"); (VStr "either", part);
               (VStr "__class__", VStr "Kit")]).
Proof.
  split; [exact E5_special|]. split; [exact names_C5|]. split; [exact (plain_portable _ _ _ _ _ _ _ plain_kit)|]. split; [exact unguarded_kit|].
  split; [apply restorable_kit; auto|]. vm_compute. reflexivity.
Qed.

Theorem C17_copy : forall E C U w l i, reads_special E -> names_known C ->
  portable_graph E C U (SOpt true false) (DOpt true false false) w l -> unguarded C w l ->
  nth_error (w_heap w) l = Some i -> restorable C (SOpt true false) (DOpt true false false) w (i_cls i) l ->
  exists depth, forall n, depth <= n -> exists m w1, exec E C U n (COp (OCopy l)) w = (Ok (VInst m), w1) /\
    unchanged w w1 /\ copied C (length (w_heap w)) w w1 l m.
Proof. exact copy_copies. Qed.
Print Assumptions C17_copy.
Example C17_copy_ex : reads_special E5 /\ names_known C5 /\ portable_graph E5 C5 U5 so5 do5 w_kit 2 /\ unguarded C5 w_kit 2 /\
  restorable C5 so5 do5 w_kit 2 2 /\ length (w_heap w_kit) = 4 /\ copy_gives E5 C5 U5 w_kit 2 10 (after_copy C5 w_kit 2) /\
  held (after_copy C5 w_kit 2) 10 "parts" = VList [VInst 6; VInst 7] /\ held w_kit 2 "parts" = VList [VInst 1; VInst 0].
Proof.
  split; [exact E5_special|]. split; [exact names_C5|]. split; [exact (plain_portable _ _ _ _ _ _ _ plain_kit)|]. split; [exact unguarded_kit|].
  split; [apply restorable_kit; auto|]. split; [vm_compute; reflexivity|]. split; [exact kit_copy|]. split; vm_compute; reflexivity.
Qed.

(** What a copy is, level by level: another instance of the same class, with
    values that correspond. *)
Theorem C17_copies_are_new_and_alike : forall C N w w' l m, copied C N w w' l m ->
  N <= m /\ exists i k, nth_error (w_heap w) l = Some i /\ nth_error (w_heap w') m = Some k /\ i_cls k = i_cls i /\
    forall name d, declares C w l name d ->
      held w l name = VNone /\ held w' m name = VNone \/
      held w l name <> VNone /\ copies_value (copied C N w w') (pd_type d) (held w l name) (held w' m name).
Proof. exact copied_level. Qed.
Print Assumptions C17_copies_are_new_and_alike.
Example C17_copies_are_new_and_alike_ex : exists w', copied C5 4 w_kit w' 2 10 /\ held w_kit 2 "main" = VInst 0 /\ held w' 10 "main" = VInst 5.
Proof. exact kit_copied. Qed.

(** A copy is equal to the original if the values of the properties are equal to
    themselves. *)
Theorem C17_copy_is_equal : forall E C U w l i, reads_special E -> names_known C -> wf_ctab C ->
  portable_graph E C U (SOpt true false) (DOpt true false false) w l -> unguarded C w l ->
  nth_error (w_heap w) l = Some i -> restorable C (SOpt true false) (DOpt true false false) w (i_cls i) l ->
  (forall m, descends C w l m -> comparable_node C w m) ->
  exists depth, forall n, depth <= n -> exists m w1, exec E C U n (COp (OCopy l)) w = (Ok (VInst m), w1) /\ m <> l /\
    ends (fun k => exec E C U k (COp (OEqual (VInst l) (VInst m)))) w1 (Ok (VBool true)).
Proof. exact copy_is_equal. Qed.
Print Assumptions C17_copy_is_equal.
Example C17_copy_is_equal_ex : reads_special E5 /\ names_known C5 /\ wf_ctab C5 /\ portable_graph E5 C5 U5 so5 do5 w_kit 2 /\ unguarded C5 w_kit 2 /\
  restorable C5 so5 do5 w_kit 2 2 /\ (forall m, descends C5 w_kit 2 m -> comparable_node C5 w_kit m) /\
  fst (exec E5 C5 U5 30 (COp (OEqual (VInst 2) (VInst 10))) (after_copy C5 w_kit 2)) = Ok (VBool true) /\
  fst (exec E5 C5 U5 30 (COp (OEqual (VInst 2) (VInst 1))) (after_copy C5 w_kit 2)) = Ok (VBool false).
Proof.
  split; [exact E5_special|]. split; [exact names_C5|]. split; [exact wf_C5|]. split; [exact (plain_portable _ _ _ _ _ _ _ plain_kit)|].
  split; [exact unguarded_kit|]. split; [apply restorable_kit; auto|]. split; [exact comparable_kit|]. split; vm_compute; reflexivity.
Qed.

(** The copy of a valid graph is valid, if there are no Unions, classes only have
    the built-in class validator and nobody watches the new instances. *)
Theorem C17_copy_is_valid : forall E C U w l i, reads_special E -> names_known C -> wf_ctab C -> e_idle w ->
  (forall cid c name d, nth_error (ct_cls C) cid = Some c -> dget (c_props c) name = Some d -> no_union (pd_type d)) ->
  (forall cid c, nth_error (ct_cls C) cid = Some c -> c_cvals c = [CVProps]) ->
  portable_graph E C U (SOpt true false) (DOpt true false false) w l -> unguarded C w l ->
  nth_error (w_heap w) l = Some i -> restorable C (SOpt true false) (DOpt true false false) w (i_cls i) l ->
  (forall m, descends C w l m -> comparable_node C w m) -> valid_graph E C U w l ->
  exists depth, forall n, depth <= n -> exists m w1, exec E C U n (COp (OCopy l)) w = (Ok (VInst m), w1) /\ m <> l /\
    ((forall y name, length (w_heap w) <= y -> registered w1 y name MValidate = []) -> valid_graph E C U w1 m).
Proof. exact copy_is_valid. Qed.
Print Assumptions C17_copy_is_valid.
Example C17_copy_is_valid_ex : reads_special E5 /\ names_known C7 /\ wf_ctab C7 /\ e_idle w_box /\
  (forall cid c name d, nth_error (ct_cls C7) cid = Some c -> dget (c_props c) name = Some d -> no_union (pd_type d)) /\
  (forall cid c, nth_error (ct_cls C7) cid = Some c -> c_cvals c = [CVProps]) /\
  portable_graph E5 C7 U5 so5 do5 w_box 1 /\ unguarded C7 w_box 1 /\ restorable C7 so5 do5 w_box 1 1 /\
  (forall m, descends C7 w_box 1 m -> comparable_node C7 w_box m) /\ valid_graph E5 C7 U5 w_box 1 /\
  copy_gives E5 C7 U5 w_box 1 5 (after_copy C7 w_box 1) /\ (forall y name, registered (after_copy C7 w_box 1) y name MValidate = []) /\
  held w_box 1 "items" = VList [VInst 0; VInst 0] /\ held (after_copy C7 w_box 1) 5 "items" = VList [VInst 3; VInst 4].
Proof.
  split; [exact E5_special|]. split; [exact names_C7|]. split; [exact wf_C7|]. split; [exact idle_box|]. split; [exact plain_C7|].
  split; [exact checks_C7|]. split; [exact (plain_portable _ _ _ _ _ _ _ plain_box)|]. split; [exact unguarded_box|].
  split; [apply restorable_box; auto|]. split; [exact comparable_box|]. split; [exact valid_box|]. split; [exact box_copy|]. split; [exact box_unwatched|].
  split; vm_compute; reflexivity.
Qed.

(** The hypothesis holds for graphs of classes with constant defaults, in which
    the properties with defaults are set. *)
Theorem C17_plain_graphs_are_portable : forall E C U so d_o w l,
  plain_graph E C U so d_o w l -> portable_graph E C U so d_o w l.
Proof. exact plain_portable. Qed.
Print Assumptions C17_plain_graphs_are_portable.
Example C17_plain_graphs_are_portable_ex : plain_graph E5 C5 U5 so5 do5 w_kit 2.
Proof. exact plain_kit. Qed.

(** A property with a default that was deleted comes back. *)
Theorem C17_deleted_property_comes_back_refuted : exists E C U w l name m w', reads_special E /\ names_known C /\
  copy_gives E C U w l m w' /\ held w l name = VNone /\ held w' m name = VInt 3.
Proof.
  exists E5, C6, U5, w_gone, 0, "n", 1, (after_copy C6 w_gone 0). split; [exact E5_special|]. split; [exact names_C6|].
  split; [exact gone_copy|]. split; vm_compute; reflexivity.
Qed.
Print Assumptions C17_deleted_property_comes_back_refuted.

(** A date in a Union(String, DateTime) comes back as a string. *)
Theorem C17_date_becomes_string_refuted : exists E C U w l name m w' x s, reads_special E /\ names_known C /\
  copy_gives E C U w l m w' /\ held w l name = VDate x /\ held w' m name = VStr s.
Proof.
  exists E5, C6, U5, w_date, 0, "s", 1, (after_copy C6 w_date 0), day, "2020-02-29T12:30:00Z". split; [exact E5_special|]. split; [exact names_C6|].
  split; [exact date_copy|]. split; vm_compute; reflexivity.
Qed.
Print Assumptions C17_date_becomes_string_refuted.

(** The string '5' in a Union(Integer, String) comes back as the number 5. *)
Theorem C17_string_becomes_number_refuted : exists E C U w l name m w', reads_special E /\ names_known C /\
  copy_gives E C U w l m w' /\ held w l name = VStr "5" /\ held w' m name = VInt 5.
Proof.
  exists E5, C6, U5, w_digits, 0, "i", 1, (after_copy C6 w_digits 0). split; [exact E5_special|]. split; [exact names_C6|].
  split; [exact digits_copy|]. split; vm_compute; reflexivity.
Qed.
Print Assumptions C17_string_becomes_number_refuted.

(** nan comes back as nan, so that the copy is not equal to the original. *)
Theorem C17_copy_with_nan_not_equal_refuted : exists E C U w l m w', reads_special E /\ names_known C /\
  copy_gives E C U w l m w' /\ held w l "f" = VFloat S754_nan /\ held w' m "f" = VFloat S754_nan /\
  forall n, 30 <= n -> fst (exec E C U n (COp (OEqual (VInst l) (VInst m))) w') = Ok (VBool false).
Proof.
  exists E5, C6, U5, w_nan, 0, 1, (after_copy C6 w_nan 0). split; [exact E5_special|]. split; [exact names_C6|].
  split; [exact nan_copy|]. split; [vm_compute; reflexivity|]. split; [vm_compute; reflexivity|].
  intros n Hn. replace n with (30 + (n - 30)) by lia. apply nan_unequal.
Qed.
Print Assumptions C17_copy_with_nan_not_equal_refuted.

(** The same with infinity. *)
Theorem C17_copy_with_infinity_not_equal_refuted : exists E C U w l m w', reads_special E /\ names_known C /\
  copy_gives E C U w l m w' /\ held w l "f" = VFloat (S754_infinity false) /\ held w' m "f" = VFloat (S754_infinity false) /\
  forall n, 30 <= n -> fst (exec E C U n (COp (OEqual (VInst l) (VInst m))) w') = Ok (VBool false).
Proof.
  exists E5, C6, U5, w_inf, 0, 1, (after_copy C6 w_inf 0). split; [exact E5_special|]. split; [exact names_C6|].
  split; [exact inf_copy|]. split; [vm_compute; reflexivity|]. split; [vm_compute; reflexivity|].
  intros n Hn. replace n with (30 + (n - 30)) by lia. apply inf_unequal.
Qed.
Print Assumptions C17_copy_with_infinity_not_equal_refuted.

(** One instance referred to twice becomes two. *)
Theorem C17_sharing_is_lost_refuted : exists E C U w l m w' a b c, reads_special E /\ names_known C /\
  copy_gives E C U w l m w' /\ held w l "parts" = VList [VInst a; VInst a] /\
  held w' m "parts" = VList [VInst b; VInst c] /\ b <> c.
Proof.
  exists E5, C5, U5, w_shared, 1, 4, (after_copy C5 w_shared 1), 0, 2, 3. split; [exact E5_special|]. split; [exact names_C5|].
  split; [exact shared_copy|]. split; [vm_compute; reflexivity|]. split; [vm_compute; reflexivity|discriminate].
Qed.
Print Assumptions C17_sharing_is_lost_refuted.
