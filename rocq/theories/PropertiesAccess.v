(** Property theorems about containers, unions, construction, renamed and
    dynamic properties, and deserialization.  Operations are as in
    PropertiesWorld. *)
From Verif Require Import World WorldSpec WorldFacts WorldExample WorldExampleFacts AccessSpec ContainerFacts AccessFacts.
Local Open Scope string_scope.
Local Open Scope list_scope.
Local Open Scope nat_scope.

(** ** C03: listeners are kept in the order of their registration *)
Theorem C03_registration_order : forall E C U n l d w c, has_class C w l c ->
  exists w', exec E C U (S n) (COp (OObserve l d)) w = (Ok VNone, w') /\
    (forall l' name, stored w' l' name = stored w l' name) /\ w_trace w' = w_trace w /\ w_quar w' = w_quar w /\
    forall l' name m, registered w' l' name m =
      if Nat.eqb l' l && lmode_eqb (od_mode d) m
      then registered w l name m ++
           map (fun _ => od_func d) (filter (String.eqb name) (match od_names d with Some ns => ns | None => dkeys (c_props c) end))
      else registered w l' name m.
Proof. exact observe_registers. Qed.
Print Assumptions C03_registration_order.
Example C03_registration_order_ex :
  has_class C1 w_one 0 c_pt /\
  let w := snd (exec E1 C1 U1 20 (COp (OObserve 0 (OD (Some ["tag"; "x"]) MSet (LCb 7)))) w_one) in
  registered w_one 0 "x" MSet = [LCb 2] /\ registered w 0 "x" MSet = [LCb 2; LCb 7] /\ registered w 0 "tag" MSet = [LCb 7] /\
  registered w 0 "x" MChange = [LCb 1].
Proof. split; [eexists; split; vm_compute; reflexivity|]. vm_compute. auto. Qed.

(** ** C09: defaults on construction and reset *)
Theorem C09_defaults_on_construction : forall E C U, wf_ctab C -> forall n cid c w l w',
  nth_error (ct_cls C) cid = Some c ->
  exec E C U (S n) (COp (ONew cid (Some []))) w = (Ok (VInst l), w') ->
  exists wa wb wc gs vs new1 new2,
    born cid w l wa /\
    each (gets_initial E C U n c l) (c_props c) wa gs wb /\
    each (gets_default E C U n c l) (filter is_property (c_props c)) (w_setquar all_modes wb) vs wc /\
    since wa wb new1 /\ since wb w' new2 /\ w_quar w' = w_quar w /\
    Forall (fun e => ~ is_call e) new2 /\
    (forall l' name, stored w' l' name = stored wc l' name) /\
    (forall name d o, In ((name, d), o) (combine (c_props c) gs) -> pd_kind d <> KProp -> stored w' l name = o) /\
    (forall name d v0, In ((name, d), v0) (combine (filter is_property (c_props c)) vs) ->
       writes_once l name new2 -> stored w' l name = when_set v0).
Proof. exact defaults_new. Qed.
Print Assumptions C09_defaults_on_construction.
Example C09_defaults_on_construction_ex :
  nth_error (ct_cls C1) 0 = Some c_pt /\
  fst (exec E1 C1 U1 20 (COp (ONew 0 (Some []))) w_empty) = Ok (VInst 0) /\
  stored (snd (exec E1 C1 U1 20 (COp (ONew 0 (Some []))) w_empty)) 0 "x" = Some (VInt 3) /\
  stored (snd (exec E1 C1 U1 20 (COp (ONew 0 (Some []))) w_empty)) 0 "u" = Some (VUuid 7) /\
  stored (snd (exec E1 C1 U1 20 (COp (ONew 0 (Some []))) w_empty)) 0 "tag" = None.
Proof. vm_compute. auto. Qed.

Theorem C09_reset_is_assignment_of_the_default : forall E C U, wf_ctab C -> forall n l name c d w,
  has_class C w l c -> dget (c_props c) name = Some d -> pd_kind d = KProp ->
  (forall v wa, evaluates E C U n (chosen_default c name d) w v wa ->
     exec E C U (S n) (COp (OReset l (Some name))) w = exec E C U (S n) (COp (OSet l name v)) wa) /\
  (forall cb e wa, chosen_default c name d = DCall cb -> run_prog E C U n (u_default U cb) w = (Exc e, wa) ->
     exec E C U (S n) (COp (OReset l (Some name))) w = (Exc e, wa)).
Proof. exact reset_is_set. Qed.
Print Assumptions C09_reset_is_assignment_of_the_default.
Example C09_reset_is_assignment_of_the_default_ex :
  dget (c_props c_pt) "x" = Some d_x /\ evaluates E1 C1 U1 19 (chosen_default c_pt "x" d_x) w_one (VInt 3) w_one /\
  let w2 := snd (exec E1 C1 U1 20 (COp (OSet 0 "x" (VInt 5))) w_one) in
  stored w2 0 "x" = Some (VInt 5) /\
  stored (snd (exec E1 C1 U1 20 (COp (OReset 0 (Some "x"))) w2)) 0 "x" = Some (VInt 3).
Proof. vm_compute. auto. Qed.

(** ** C10: the constructor tries every keyword and reports every error *)
Theorem C10_constructor_reports_every_error : forall E C U, wf_ctab C -> forall n cid c kw w l w0 r w',
  nth_error (ct_cls C) cid = Some c ->
  exec E C U (S n) (COp (ONew cid (Some []))) w = (Ok (VInst l), w0) ->
  exec E C U (S n) (COp (ONew cid (Some kw))) w = (r, w') ->
  (exists rs w2,
     all_tried E C U n c l kw (flagged l w0) rs w2 /\
     match all_tuples rs with
     | [] => since w2 w' [] /\
             match first_other rs with Some e => r = Exc e | None => r = Ok (VInst l) end
     | _ :: _ => r = Exc (ExValidation (all_tuples rs)) /\ since w2 w' [EHook l (all_tuples rs)]
     end /\
     (forall l' name, stored w' l' name = stored w2 l' name)) \/
  (exists pre k v post rs w2,
     kw = pre ++ (k, v) :: post /\ all_tried E C U n c l pre (flagged l w0) rs w2 /\
     ~ assignable c w2 l k /\ r = Exc ExAttr /\ since w2 w' []) \/
  (exists pre k v post rs w1 w2 e,
     kw = pre ++ (k, v) :: post /\ all_tried E C U n c l pre (flagged l w0) rs w1 /\
     attempt E C U n c l (k, v) w1 (Exc e) w2 /\ is_generic e = false /\ r = Exc e /\ since w2 w' []).
Proof. exact kw_new. Qed.
Print Assumptions C10_constructor_reports_every_error.
Example C10_constructor_reports_every_error_ex :
  fst (exec E1 C1 U1 20 (COp (ONew 0 (Some []))) w_empty) = Ok (VInst 0) /\
  fst (exec E1 C1 U1 20 (COp (ONew 0 (Some [("x", VInt 70); ("tag", VStr "a"); ("kids", VInt 1)]))) w_empty) =
    Exc (ExValidation [ET (Some "invalid") (Some "x") (Some 0); ET (Some "invalid") (Some "kids") (Some 0)]) /\
  stored (snd (exec E1 C1 U1 20 (COp (ONew 0 (Some [("x", VInt 70); ("tag", VStr "a"); ("kids", VInt 1)]))) w_empty)) 0 "tag"
    = Some (VStr "a") /\
  fst (exec E1 C1 U1 20 (COp (ONew 0 (Some [("x", VInt 70); ("nope", VNone)]))) w_empty) = Exc ExAttr.
Proof. vm_compute. auto. Qed.

(** ** C12: renamed properties are aliases *)
Theorem C12_get_through_old_name : forall E C U n l name d new_name w,
  declares C w l name d -> pd_kind d = KRenamed new_name ->
  exec E C U (S n) (COp (OGet l name)) w = exec E C U n (COp (OGet l new_name)) w.
Proof. exact renamed_get. Qed.
Print Assumptions C12_get_through_old_name.
Theorem C12_set_through_old_name : forall E C U n l name d new_name v w,
  declares C w l name d -> pd_kind d = KRenamed new_name ->
  exec E C U (S n) (COp (OSet l name v)) w = exec E C U n (COp (OSet l new_name v)) w.
Proof. exact renamed_set. Qed.
Print Assumptions C12_set_through_old_name.
Theorem C12_delete_through_old_name : forall E C U n l name d new_name w,
  declares C w l name d -> pd_kind d = KRenamed new_name ->
  exec E C U (S n) (COp (ODel l name)) w = exec E C U n (COp (ODel l new_name)) w.
Proof. exact renamed_del. Qed.
Print Assumptions C12_delete_through_old_name.
Example C12_through_old_name_ex :
  declares C1 w_one 0 "old" d_old /\ pd_kind d_old = KRenamed "x" /\
  fst (exec E1 C1 U1 20 (COp (OGet 0 "old")) w_one) = Ok (VInt 3) /\
  stored (snd (exec E1 C1 U1 20 (COp (OSet 0 "old" (VInt 4))) w_one)) 0 "x" = Some (VInt 4) /\
  stored (snd (exec E1 C1 U1 20 (COp (ODel 0 "old")) w_one)) 0 "x" = None.
Proof. split; [apply declares_one; reflexivity|]. vm_compute. auto. Qed.

Theorem C12_old_name_holds_nothing : forall E C U, wf_ctab C -> forall n p w,
  renamed_no_default C -> old_names_empty C w -> old_names_empty C (snd (run_prog E C U n p w)).
Proof. exact old_program. Qed.
Print Assumptions C12_old_name_holds_nothing.
Example C12_old_name_holds_nothing_ex : renamed_no_default C1 /\ old_names_empty C1 w_empty /\ old_names_empty C1 w_one.
Proof.
  assert (H : renamed_no_default C1).
  { intros [|[|k]] c name d nn Hc Hd Hk; simpl in Hc; try discriminate. injection Hc as <-. unfold c_pt in Hd. simpl in Hd.
    repeat match type of Hd with (if ?b then _ else _) = _ => destruct b end; try discriminate; injection Hd as <-;
      simpl in Hk; try discriminate. unfold chosen_default. reflexivity. }
  assert (H0 : old_names_empty C1 w_empty) by (intros [|l] name d nn (? & (? & K & _) & _); discriminate).
  split; [exact H|]. split; [exact H0|]. apply (old_program E1 C1 U1 wf_C1 20 _ _ H H0).
Qed.

(** A [_defaults] entry for a renamed property is stored under the old name. *)
Definition c_rd : cls := Cls "Rd" [("x", d_x); ("old", d_old)] [("old", DVal (VInt 5))] [] [CVProps] [0] [].
Definition C_rd : ctable := CT [c_rd] [("Rd", 0)].
Theorem C12_default_for_old_name_refuted : exists C w l w' d,
  wf_ctab C /\ old_names_empty C w /\
  exec E1 C U1 20 (COp (ONew 0 (Some []))) w = (Ok (VInst l), w') /\
  declares C w' l "old" d /\ pd_kind d = KRenamed "x" /\ stored w' l "old" = Some (VInt 5) /\
  fst (exec E1 C U1 20 (COp (OGet l "old")) w') = Ok (VInt 3).
Proof.
  exists C_rd, w_empty, 0, (snd (exec E1 C_rd U1 20 (COp (ONew 0 (Some []))) w_empty)), d_old.
  split. { intros [|[|k]] c H; simpl in H; try discriminate. injection H as <-. simpl. repeat constructor; simpl; intuition discriminate. }
  split; [intros [|l] name d nn (? & (? & K & _) & _); discriminate|].
  split; [vm_compute; reflexivity|]. split; [|vm_compute; auto].
  eexists. split; [eexists; split; [vm_compute; reflexivity|reflexivity]|reflexivity].
Qed.
Print Assumptions C12_default_for_old_name_refuted.

(** ** C13: dynamic properties are computed *)
Theorem C13_get_calls_the_getter : forall E C U n l name d g st dl w,
  declares C w l name d -> pd_kind d = KDynamic g st dl ->
  exec E C U (S n) (COp (OGet l name)) w =
  (let (r, w1) := run_prog E C U n (u_get U g l) w in
   match r with
   | Ok v => if is_none v || is_undef v then (Ok VNone, w1)
             else p_validate E C (exec E C U n) (pd_type d) (Some l) name v w1
   | Exc e => (Exc e, w1)
   end).
Proof. exact dynamic_get. Qed.
Print Assumptions C13_get_calls_the_getter.
Theorem C13_setter_gets_the_validated_value : forall E C U n l name d g s dl v w,
  declares C w l name d -> pd_kind d = KDynamic g (Some s) dl ->
  exec E C U (S n) (COp (OSet l name v)) w =
  (let (r, w1) := p_validate E C (exec E C U n) (pd_type d) (Some l) name v w in
   match r with
   | Ok v1 => let (r0, w2) := run_prog E C U n (u_set U s l v1) w1 in
              match r0 with Ok _ => (Ok VNone, w2) | Exc e => (Exc e, w2) end
   | Exc e => (Exc e, w1)
   end).
Proof. exact dynamic_set. Qed.
Print Assumptions C13_setter_gets_the_validated_value.
Theorem C13_delete_calls_the_deleter : forall E C U n l name d g st x w,
  declares C w l name d -> pd_kind d = KDynamic g st (Some x) ->
  exec E C U (S n) (COp (ODel l name)) w =
  (let (r, w2) := run_prog E C U n (u_del U x l) w in
   match r with Ok _ => (Ok VNone, w2) | Exc e => (Exc e, w2) end).
Proof. exact dynamic_del. Qed.
Print Assumptions C13_delete_calls_the_deleter.
Theorem C13_no_setter : forall E C U n l name d g dl v w,
  declares C w l name d -> pd_kind d = KDynamic g None dl ->
  exec E C U (S n) (COp (OSet l name v)) w = (Exc ExAttr, w).
Proof. exact dynamic_no_setter. Qed.
Print Assumptions C13_no_setter.
Theorem C13_no_deleter : forall E C U n l name d g st w,
  declares C w l name d -> pd_kind d = KDynamic g st None ->
  exec E C U (S n) (COp (ODel l name)) w = (Exc ExAttr, w).
Proof. exact dynamic_no_deleter. Qed.
Print Assumptions C13_no_deleter.
(** dynamic property with a setter writing x (through the public interface) and
    a deleter *)
Definition d_dyn : pdecl := PD (KDynamic 0 (Some 0) (Some 0)) t_x true DUndef.
Definition c_dyn : cls := Cls "Dy" [("x", d_x); ("y", d_dyn); ("sum", d_sum)] [] [] [CVProps] [0] [].
Definition C_dyn : ctable := CT [c_dyn] [("Dy", 0)].
Definition U_dyn : ucode := UC (u_listen U1) (u_default U1) (u_get U1)
  (fun _ l v => Do (OSet l "x" v) finish) (fun _ l => Do (ODel l "x") finish) (u_cval U1) (u_trans U1).
Definition w_dyn : world := snd (run_prog E1 C_dyn U_dyn 20 (Do (ONew 0 (Some [])) finish) w_empty).
Lemma declares_dyn : declares C_dyn w_dyn 0 "y" d_dyn /\ declares C_dyn w_dyn 0 "sum" d_sum.
Proof.
  split; (eexists; split; [eexists; split; [vm_compute; reflexivity|reflexivity]|reflexivity]).
Qed.
Example C13_dynamic_ex :
  declares C_dyn w_dyn 0 "y" d_dyn /\ declares C_dyn w_dyn 0 "sum" d_sum /\
  fst (exec E1 C_dyn U_dyn 20 (COp (OGet 0 "y")) w_dyn) = Ok (VInt 3) /\
  stored (snd (exec E1 C_dyn U_dyn 20 (COp (OSet 0 "y" (VInt 4))) w_dyn)) 0 "x" = Some (VInt 4) /\
  fst (exec E1 C_dyn U_dyn 20 (COp (OSet 0 "y" (VInt 40))) w_dyn) =
    Exc (ExValidation [ET (Some "invalid") (Some "y") (Some 0)]) /\
  stored (snd (exec E1 C_dyn U_dyn 20 (COp (ODel 0 "y")) w_dyn)) 0 "x" = None /\
  fst (exec E1 C_dyn U_dyn 20 (COp (OSet 0 "sum" (VInt 4))) w_dyn) = Exc ExAttr.
Proof. split; [apply declares_dyn|]. split; [apply declares_dyn|]. vm_compute. auto 10. Qed.

Theorem C13_construction_stores_nothing : forall E C U, wf_ctab C -> forall n cid c kw w l w' name d g st dl,
  nth_error (ct_cls C) cid = Some c -> dget (c_props c) name = Some d -> pd_kind d = KDynamic g st dl ->
  chosen_default c name d = DUndef ->
  exec E C U (S n) (COp (ONew cid kw)) w = (Ok (VInst l), w') -> stored w' l name = None.
Proof. exact dynamic_new. Qed.
Print Assumptions C13_construction_stores_nothing.
Example C13_construction_stores_nothing_ex :
  dget (c_props c_dyn) "y" = Some d_dyn /\ chosen_default c_dyn "y" d_dyn = DUndef /\
  fst (exec E1 C_dyn U_dyn 20 (COp (ONew 0 (Some [("x", VInt 2)]))) w_dyn) = Ok (VInst 1).
Proof. vm_compute. auto. Qed.
(** Afterwards nothing is ever stored under its name. *)
Theorem C13_nothing_is_stored : forall E C U, wf_ctab C -> forall n p w l name d,
  declares C w l name d -> pd_kind d <> KProp ->
  stored (snd (run_prog E C U n p w)) l name = stored w l name.
Proof. intros E C U HC n p w l name d. intros H1 H2; exact (imm_program E C U HC n p l name d w H1 H2). Qed.
Print Assumptions C13_nothing_is_stored.
Example C13_nothing_is_stored_ex :
  declares C_dyn w_dyn 0 "y" d_dyn /\ stored w_dyn 0 "y" = None.
Proof. split; [apply declares_dyn|reflexivity]. Qed.

(** Deserialization stores a value under a dynamic property's name. *)
Theorem C13_deserialize_stores_refuted : exists C U w v l w' d g st dl,
  wf_ctab C /\
  exec E1 C U 20 (COp (ODeser 0 v (DOpt false false false))) w = (Ok (VInst l), w') /\
  declares C w' l "y" d /\ pd_kind d = KDynamic g st dl /\ stored w' l "y" = Some (VInt 8).
Proof.
  exists C_dyn, U_dyn, w_empty, (VDict [(VStr "y", VInt 8)]), 0,
    (snd (exec E1 C_dyn U_dyn 20 (COp (ODeser 0 (VDict [(VStr "y", VInt 8)]) (DOpt false false false))) w_empty)),
    d_dyn, 0, (Some 0), (Some 0).
  split. { intros [|[|k]] c H; simpl in H; try discriminate. injection H as <-. simpl. repeat constructor; simpl; intuition discriminate. }
  split; [vm_compute; reflexivity|]. split; [|vm_compute; auto].
  eexists. split; [eexists; split; [vm_compute; reflexivity|reflexivity]|reflexivity].
Qed.
Print Assumptions C13_deserialize_stores_refuted.

(** ** C19: deserialization constructs only permitted classes *)
Theorem C19_result_class : forall E C U, wf_ctab C -> forall n cid v o w r w',
  exec E C U (S n) (COp (ODeser cid v o)) w = (Ok r, w') ->
  exists d k l, v = VDict d /\ r = VInst l /\ length (w_heap w) <= l /\
    nth_error (map i_cls (w_heap w')) l = Some k /\
    (k = cid \/ o_trusted o = true /\ names_registered C d k).
Proof. exact deser_result. Qed.
Print Assumptions C19_result_class.
Theorem C19_strict_class_mismatch : forall E C U n cid c d o w,
  nth_error (ct_cls C) cid = Some c -> o_strict o = true ->
  (o_trusted o = true -> forall nm, vd_get d (VStr "__class__") = Some nm -> hashable nm = true) ->
  ~ names_class c d -> ~ (o_trusted o = true /\ exists k, names_registered C d k) ->
  exec E C U (S n) (COp (ODeser cid (VDict d) o)) w = (Exc ExValue, w).
Proof. exact deser_strict. Qed.
Print Assumptions C19_strict_class_mismatch.
Theorem C19_strict_unused_key : forall E C U n cid c d o w k ck,
  nth_error (ct_cls C) cid = Some c -> o_strict o = true ->
  k = cid /\ names_class c d \/ ~ names_class c d /\ o_trusted o = true /\ names_registered C d k ->
  nth_error (ct_cls C) k = Some ck -> Exists (fun e => known_entry ck e = false) d ->
  exec E C U (S n) (COp (ODeser cid (VDict d) o)) w = (Exc ExValue, w).
Proof. exact deser_unused. Qed.
Print Assumptions C19_strict_unused_key.
Theorem C19_unused_keys_are_ignored : forall E C U n cid o d1 e d2 w,
  o_strict o = false ->
  (forall k c, k = cid \/ o_trusted o = true /\ names_registered C (d1 ++ d2) k ->
     nth_error (ct_cls C) k = Some c -> known_entry c e = false) ->
  exec E C U (S n) (COp (ODeser cid (VDict (d1 ++ e :: d2)) o)) w =
  exec E C U (S n) (COp (ODeser cid (VDict (d1 ++ d2)) o)) w.
Proof. exact deser_ignores. Qed.
Print Assumptions C19_unused_keys_are_ignored.
Definition d_in (cls_name : string) (rest : list (val * val)) : val := VDict ((VStr "__class__", VStr cls_name) :: rest).
Definition C_two : ctable := CT [c_pt; c_dyn] [("Pt", 0); ("Dy", 1)].
Example C19_ex :
  let go v o := exec E1 C_two U_dyn 20 (COp (ODeser 0 v o)) w_empty in
  let cls_at w := map i_cls (w_heap w) in
  cls_at (snd (go (d_in "Dy" [(VStr "x", VInt 4)]) (DOpt true false true))) = [1] /\
  cls_at (snd (go (d_in "Dy" [(VStr "x", VInt 4)]) (DOpt false false true))) = [0] /\
  go (d_in "Dy" [(VStr "x", VInt 4)]) (DOpt false true true) = (Exc ExValue, w_empty) /\
  ~ names_class c_pt [(VStr "__class__", VStr "Dy"); (VStr "x", VInt 4)] /\
  go (d_in "Pt" [(VStr "zz", VInt 4)]) (DOpt false true true) = (Exc ExValue, w_empty) /\
  known_entry c_pt (VStr "zz", VInt 4) = false /\
  go (VInt 3) (DOpt false true true) = (Exc ExValue, w_empty).
Proof.
  cbv zeta. split; [vm_compute; reflexivity|]. split; [vm_compute; reflexivity|]. split; [vm_compute; reflexivity|].
  split; [intros [H|H]; vm_compute in H; discriminate|]. vm_compute. auto.
Qed.

(** ** C28: container validation is element-wise *)
Theorem C28_accepted_container : forall E C rec k q mn mx co io name v w v' w',
  p_validate E C rec (PSeq k q mn mx co) io name v w = (Ok v', w') ->
  exists items outs, offered k co v items /\
    each (fun x wa y wb => p_validate E C rec q io name x wa = (Ok y, wb)) items w outs w' /\ holds k outs v'.
Proof. exact seq_sound. Qed.
Print Assumptions C28_accepted_container.
Theorem C28_all_items_accepted : forall E C rec k q mn mx co io name v w items outs w',
  offered k co v items ->
  each (fun x wa y wb => p_validate E C rec q io name x wa = (Ok y, wb)) items w outs w' ->
  (k = KSet -> Forall (fun y => hashable y = true) outs) ->
  exists v', p_validate E C rec (PSeq k q mn mx co) io name v w = (Ok v', w') /\ holds k outs v'.
Proof. exact seq_complete. Qed.
Print Assumptions C28_all_items_accepted.
Theorem C28_one_bad_item : forall E C rec k q mn mx co name l v xs bad ys w outs w1 e w2,
  nth_error (w_heap w2) l <> None -> offered k co v (xs ++ bad :: ys) ->
  each (fun x wa y wb => p_validate E C rec q (Some l) name x wa = (Ok y, wb)) xs w outs w1 ->
  p_validate E C rec q (Some l) name bad w1 = (Exc e, w2) ->
  exists e' w', p_validate E C rec (PSeq k q mn mx co) (Some l) name v w = (Exc e', w') /\ hooks_only w2 w' /\
    e' = if is_value_error e then ExValidation [ET (Some "invalid") (Some name) (Some l)] else e.
Proof. exact seq_item_error. Qed.
Print Assumptions C28_one_bad_item.
Theorem C28_wrong_container : forall E C rec k q mn mx co name l v w,
  nth_error (w_heap w) l <> None -> (forall items, ~ offered k co v items) ->
  exists w', p_validate E C rec (PSeq k q mn mx co) (Some l) name v w =
    (Exc (ExValidation [ET (Some "invalid") (Some name) (Some l)]), w') /\ hooks_only w w'.
Proof. exact seq_wrong. Qed.
Print Assumptions C28_wrong_container.
Definition t_cast : ptype := PLeaf (LfInt true (Some (NZ 0)) (Some (NZ 10))).
Definition t_set : ptype := PSeq KSet t_x None None true.
Definition t_list : ptype := PSeq KList t_cast None None false.
Example C28_container_ex :
  let go p v := p_validate E1 C1 (exec E1 C1 U1 5) p (Some 0) "kids" v w_one in
  fst (go t_set (VTuple [VInt 3; VInt 4; VInt 3])) = Ok (VSet [VInt 3; VInt 4]) /\
  offered KSet true (VTuple [VInt 3; VInt 4; VInt 3]) [VInt 3; VInt 4; VInt 3] /\
  fst (go t_list (VList [VInt 3; VStr "7"; VInt 3])) = Ok (VList [VInt 3; VInt 7; VInt 3]) /\
  fst (go t_list (VList [VInt 3; VInt 70; VInt 3])) = Exc (ExValidation [ET (Some "invalid") (Some "kids") (Some 0)]) /\
  offered KList false (VList [VInt 3; VInt 70; VInt 3]) ([VInt 3] ++ VInt 70 :: [VInt 3]) /\
  fst (go t_list (VTuple [VInt 3])) = Exc (ExValidation [ET (Some "invalid") (Some "kids") (Some 0)]) /\
  (forall items, ~ offered KList false (VTuple [VInt 3]) items).
Proof.
  cbv zeta. split; [vm_compute; reflexivity|]. split; [reflexivity|]. split; [vm_compute; reflexivity|].
  split; [vm_compute; reflexivity|]. split; [reflexivity|]. split; [vm_compute; reflexivity|]. intros items H. discriminate H.
Qed.

Theorem C28_accepted_dictionary : forall E C rec kp vp co io name d w v' w',
  p_validate E C rec (PDict kp vp co) io name (VDict d) w = (Ok v', w') ->
  exists out d', each (entry_accepted E C rec kp vp io name) d w out w' /\ v' = VDict d' /\ dict_from out d'.
Proof. exact dict_from_valid. Qed.
Print Assumptions C28_accepted_dictionary.
Theorem C28_all_entries_accepted : forall E C rec kp vp co io name d w out w',
  each (entry_accepted E C rec kp vp io name) d w out w' ->
  exists d', p_validate E C rec (PDict kp vp co) io name (VDict d) w = (Ok (VDict d'), w') /\ dict_from out d'.
Proof. exact dict_complete. Qed.
Print Assumptions C28_all_entries_accepted.
Theorem C28_not_a_dictionary : forall E C rec kp vp name l v w,
  nth_error (w_heap w) l <> None -> (forall d, v <> VDict d) ->
  exists w', p_validate E C rec (PDict kp vp false) (Some l) name v w =
    (Exc (ExValidation [ET (Some "invalid") (Some name) (Some l)]), w') /\ hooks_only w w'.
Proof. exact dict_wrong. Qed.
Print Assumptions C28_not_a_dictionary.
(** One bad key or value makes the assignment fail. *)
Theorem C28_one_bad_entry : forall E C rec kp vp co name l xs k x ys w outs w1 e w2,
  nth_error (w_heap w2) l <> None -> each (entry_accepted E C rec kp vp (Some l) name) xs w outs w1 ->
  (p_validate E C rec kp (Some l) name k w1 = (Exc e, w2) \/
   exists k' wk, p_validate E C rec kp (Some l) name k w1 = (Ok k', wk) /\ p_validate E C rec vp (Some l) name x wk = (Exc e, w2)) ->
  exists w', p_validate E C rec (PDict kp vp co) (Some l) name (VDict (xs ++ (k, x) :: ys)) w =
    (Exc (if is_value_error e then ExValidation [ET (Some "invalid") (Some name) (Some l)] else e), w') /\ hooks_only w2 w'.
Proof. exact dict_entry_error. Qed.
Print Assumptions C28_one_bad_entry.
(** With coerce=True an iterable of pairs is taken as the dictionary of these
    pairs, and anything else is rejected. *)
Theorem C28_coerced_dictionary : forall E C rec kp vp io name v ps, (forall d, v <> VDict d) -> gives_pairs v ps ->
  exists d, dict_from ps d /\
    forall w, p_validate E C rec (PDict kp vp true) io name v w = p_validate E C rec (PDict kp vp true) io name (VDict d) w.
Proof. exact dict_pairs. Qed.
Print Assumptions C28_coerced_dictionary.
Theorem C28_not_coerced : forall E C rec kp vp name l v w,
  nth_error (w_heap w) l <> None -> (forall d, v <> VDict d) -> (forall ps, ~ gives_pairs v ps) ->
  exists w', p_validate E C rec (PDict kp vp true) (Some l) name v w =
    (Exc (ExValidation [ET (Some "invalid") (Some name) (Some l)]), w') /\ hooks_only w w'.
Proof. exact dict_no_pairs. Qed.
Print Assumptions C28_not_coerced.
Example C28_coerced_ex :
  let go v := fst (p_validate E1 C1 (exec E1 C1 U1 5) (PDict t_cast t_str true) (Some 0) "kids" v w_one) in
  let bad := Exc (ExValidation [ET (Some "invalid") (Some "kids") (Some 0)]) in
  gives_pairs (VTuple [VTuple [VInt 1; VStr "a"]; VStr "2b"; VDict [(VInt 1, VNone); (VStr "c", VNone)]]) [(VInt 1, VStr "a"); (VStr "2", VStr "b"); (VInt 1, VStr "c")] /\
  go (VTuple [VTuple [VInt 1; VStr "a"]; VStr "2b"; VDict [(VInt 1, VNone); (VStr "c", VNone)]]) = Ok (VDict [(VInt 1, VStr "c"); (VInt 2, VStr "b")]) /\
  map go [VInt 3; VList [VInt 3]; VList [VTuple [VInt 1]]; VList [VTuple [VList []; VInt 1]]; VList [VTuple [VInt 1; VInt 1]]; VStr "a"] = [bad; bad; bad; bad; bad; bad].
Proof.
  split; [|vm_compute; auto]. eexists. split; [reflexivity|]. split; [repeat constructor|]. repeat constructor.
Qed.
Example C28_dictionary_ex :
  let go v := p_validate E1 C1 (exec E1 C1 U1 5) (PDict t_cast t_str false) (Some 0) "kids" v w_one in
  fst (go (VDict [(VInt 1, VStr "a"); (VInt 2, VStr "b"); (VStr "1", VStr "c")])) =
    Ok (VDict [(VInt 1, VStr "c"); (VInt 2, VStr "b")]) /\
  fst (go (VDict [(VInt 1, VStr "a"); (VInt 2, VInt 5)])) = Exc (ExValidation [ET (Some "invalid") (Some "kids") (Some 0)]) /\
  fst (go (VList [])) = Exc (ExValidation [ET (Some "invalid") (Some "kids") (Some 0)]).
Proof. vm_compute. auto. Qed.

(** ** C29: a union uses the first accepting alternative *)
Theorem C29_first_accepting : forall E C rec si ps io name v w v' w',
  p_validate E C rec (PUnion si ps) io name v w = (Ok v', w') <->
  exists pre q post w1, ps = pre ++ q :: post /\
    each (fun p wa (_ : unit) wb => rejects (p_validate E C rec p io name v) wa wb) pre w (map (fun _ => tt) pre) w1 /\
    p_validate E C rec q io name v w1 = (Ok v', w').
Proof. exact union_valid. Qed.
Print Assumptions C29_first_accepting.
Theorem C29_all_reject : forall E C rec si ps name l v w w1,
  nth_error (w_heap w1) l <> None ->
  each (fun p wa (_ : unit) wb => rejects (p_validate E C rec p (Some l) name v) wa wb) ps w (map (fun _ => tt) ps) w1 ->
  exists w', p_validate E C rec (PUnion si ps) (Some l) name v w =
    (Exc (ExValidation [ET (Some "invalid") (Some name) (Some l)]), w') /\ hooks_only w1 w'.
Proof. exact union_wrong. Qed.
Print Assumptions C29_all_reject.
Theorem C29_no_other_failure : forall E C rec si ps io name v w e w',
  p_validate E C rec (PUnion si ps) io name v w = (Exc e, w') ->
  (exists w1, each (fun p wa (_ : unit) wb => rejects (p_validate E C rec p io name v) wa wb) ps w (map (fun _ => tt) ps) w1) \/
  is_generic e = false /\
  (exists pre q post w1, ps = pre ++ q :: post /\
     each (fun p wa (_ : unit) wb => rejects (p_validate E C rec p io name v) wa wb) pre w (map (fun _ => tt) pre) w1 /\
     p_validate E C rec q io name v w1 = (Exc e, w')).
Proof. exact union_failure. Qed.
Print Assumptions C29_no_other_failure.
Example C29_union_ex :
  let go ps v := p_validate E1 C1 (exec E1 C1 U1 5) (PUnion false ps) (Some 0) "kids" v w_one in
  fst (go [t_cast; t_str] (VStr "7")) = Ok (VInt 7) /\ fst (go [t_str; t_cast] (VStr "7")) = Ok (VStr "7") /\
  fst (go [t_cast; t_str] (VStr "70")) = Ok (VStr "70") /\
  fst (go [t_cast; t_str] (VInt 70)) = Exc (ExValidation [ET (Some "invalid") (Some "kids") (Some 0)]).
Proof. vm_compute. auto. Qed.
