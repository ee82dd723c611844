(** Property theorems about Pointer properties: [C48].  The class pointed to is
    given by its uid property [prop], [vuid] (validate_uid), [loader], [isa],
    [make] (its constructor), [ie] and [iv] (equal and validate of its instances),
    [is] and [idz] (their JSON). *)
From Verif Require Import Pointers PointersSpec PointersFacts PropertiesLibrary.
Local Open Scope string_scope.
Local Open Scope list_scope.
Local Open Scope nat_scope.

Theorem C48_accepts : forall prop vuid load loader isa make v w,
  pointer_validate prop vuid load loader isa make v = Ok w <-> accepts prop vuid load loader isa make v w.
Proof. exact validate_iff. Qed.
Print Assumptions C48_accepts.
(** The uid property is the one of that name the class declares, if there is one. *)
Theorem C48_uid_property : forall props name vuid load loader isa make v w,
  (forall d, props = Some d -> NoDup (dkeys d)) ->
  (pointer_validate (find_prop props name) vuid load loader isa make v = Ok w <->
   (exists p, declares props name p /\ accepts (Some p) vuid load loader isa make v w) \/
   ((forall p, ~ declares props name p) /\ accepts None vuid load loader isa make v w)).
Proof. exact class_accepts. Qed.
Print Assumptions C48_uid_property.
Theorem C48_errors : forall prop vuid load loader isa make v e,
  (forall f u e, vuid = Some f -> f u = Exc e -> exists ts, e = ExValidation ts) ->
  (forall p s e, prop = Some p -> p s = Exc e -> exists ts, e = ExValidation ts) ->
  (forall f u e, loader = Some f -> f u = Exc e -> exists ts, e = ExValidation ts) ->
  (forall x e, make x = Exc e -> is_generic e = true) ->
  pointer_validate prop vuid load loader isa make v = Exc e -> e = ExValidation [].
Proof. exact validate_errors. Qed.
Print Assumptions C48_errors.

(** The checks of stored values *)
Theorem C48_check : forall prop vuid load loader isa make ie iv v,
  pointer_assert prop vuid load loader isa make ie iv v = Ok true <->
  v = PNone \/
  (v <> PNone /\ exists w, accepts prop vuid load loader isa make v w /\ alike ie v w /\
    forall l, v = PObj l -> iv l = Ok tt).
Proof. exact assert_spec. Qed.
Print Assumptions C48_check.
(** What was assigned passes, if it is an instance that is valid or not an
    instance at all - as long as the class accepts and loads the same. *)
Theorem C48_assigned_check : forall prop vuid load loader isa make ie iv v w,
  accepts prop vuid load loader isa make v w ->
  (forall s u, v = PStr s -> names_uid prop vuid s u -> exists t, u = PStr t /\ names_uid prop vuid t u) ->
  (forall x y, make x = Ok y -> isa y = true) ->
  (forall s, isa (PStr s) = false) ->
  (forall l, ie l l = Ok true) ->
  (pointer_assert prop vuid load loader isa make ie iv w = Ok true <-> forall l, w = PObj l -> iv l = Ok tt).
Proof. exact assert_assigned. Qed.
Print Assumptions C48_assigned_check.
(** A stored uid that loads an instance fails the check. *)
Theorem C48_loadable_check : forall prop vuid load loader isa make ie iv s u x,
  names_uid prop vuid s u -> loads load loader u x -> x <> PNone ->
  (forall t w, instantiates isa make x w -> w <> PStr t) ->
  pointer_assert prop vuid load loader isa make ie iv (PStr s) <> Ok true.
Proof. exact assert_loadable. Qed.
Print Assumptions C48_loadable_check.

(** Instances 0 and 9 are of the class; 0 is valid, 9 is not. *)
Definition P_isa (v : pval) : bool := match v with PObj 0 | PObj 9 => true | _ => false end.
Definition P_make (v : pval) : res pval := match v with POther 1 => Ok (PObj 9) | POther 2 => Exc (ExUser 3) | _ => Exc ExType end.
Definition P_prop (s : string) : res pval := if String.eqb s "" then Exc (ExValidation []) else Ok (PStr s).
Definition P_vuid (v : pval) : res unit := match v with PStr s => if String.eqb s "bad" then Exc (ExValidation []) else Ok tt | _ => Ok tt end.
Definition P_loader (s : ustate) (v : pval) : res pval :=
  match v with PStr u => match load_uid s u with Some l => Ok (PObj l) | None => Ok PNone end | _ => Ok PNone end.
Definition P_reg : ustate := fst (uhistory uops_ex).
Definition P_valid (l : nat) : res unit := if Nat.eqb l 0 then Ok tt else Exc (ExValidation []).
Definition P_validate (load : bool) := pointer_validate (Some P_prop) (Some P_vuid) load (Some (P_loader P_reg)) P_isa P_make.
Definition P_assert (s : ustate) := pointer_assert (Some P_prop) (Some P_vuid) true (Some (P_loader s)) P_isa P_make (fun a b => Ok (Nat.eqb a b)) P_valid.
Example C48_ex :
  map (P_validate true) [PStr "b"; PStr "zz"; PStr "c"; PStr "bad"; PStr ""; PNone; PObj 0; PObj 1; POther 1; POther 2] =
    [Ok (PObj 0); Ok (PStr "zz"); Exc (ExValidation []); Exc (ExValidation []); Exc (ExValidation []); Exc (ExValidation []);
     Ok (PObj 0); Exc (ExValidation []); Ok (PObj 9); Exc (ExUser 3)] /\
  P_validate false (PStr "b") = Ok (PStr "b") /\
  map (P_assert P_reg) [PNone; PStr "zz"; PStr "b"; PObj 0; PObj 9; PObj 1] =
    [Ok true; Ok true; Exc (ExValidation []); Ok true; Exc (ExValidation []); Exc (ExValidation [])] /\
  find_prop (Some [("uid", P_prop)]) "uid" = Some P_prop /\ find_prop (Some [("uid", P_prop)]) "id" = None.
Proof. vm_compute. repeat split. Qed.
Example C48_uid_property_ex :
  let d := [("title", fun _ => Exc (ExValidation [])); ("uid", P_prop)] in
  NoDup (dkeys d) /\ declares (Some d) "uid" P_prop /\ accepts (Some P_prop) None false None P_isa P_make (PStr "b") (PStr "b").
Proof.
  cbv zeta. split; [repeat constructor; cbn; intuition discriminate|]. split; [eexists; split; [reflexivity|right; left; reflexivity]|].
  apply ac_uid; [split; [reflexivity|discriminate]|right; auto].
Qed.
Example C48_hypotheses_ex :
  (forall s u, names_uid (Some P_prop) (Some P_vuid) s u -> exists t, u = PStr t /\ names_uid (Some P_prop) (Some P_vuid) t u) /\
  (forall x y, P_make x = Ok y -> P_isa y = true) /\ (forall s, P_isa (PStr s) = false) /\
  names_uid (Some P_prop) (Some P_vuid) "b" (PStr "b") /\ loads true (Some (P_loader P_reg)) (PStr "b") (PObj 0) /\
  (forall t w, instantiates P_isa P_make (PObj 0) w -> w <> PStr t).
Proof.
  split.
  { intros s u [H V]. unfold P_prop in *. destruct (String.eqb s "") eqn:E; [discriminate|]. injection H as <-. exists s. split; [reflexivity|].
    split; [now rewrite E|exact V]. }
  split. { intros [|s|l|[|[|[|x]]]] y H; try discriminate. injection H as <-. reflexivity. }
  split; [reflexivity|]. split; [split; [reflexivity|intros f H; injection H as <-; reflexivity]|].
  split; [left; eexists; repeat split|]. intros t w [[_ ->]|[H _]]; discriminate.
Qed.
(** So a uid that was assigned before its instance existed makes the owner
    invalid once the instance exists. *)
Theorem C48_later_refuted : exists prop vuid loader loader' isa make ie iv v w,
  pointer_validate prop vuid true (Some loader) isa make v = Ok w /\
  pointer_assert prop vuid true (Some loader) isa make ie iv w = Ok true /\
  pointer_validate prop vuid true (Some loader') isa make v = Ok (PObj 0) /\
  pointer_assert prop vuid true (Some loader') isa make ie iv w = Exc (ExValidation []).
Proof.
  exists (Some P_prop), (Some P_vuid), (P_loader (US [] [])), (P_loader P_reg), P_isa, P_make, (fun a b => Ok (Nat.eqb a b)), P_valid, (PStr "b"), (PStr "b").
  vm_compute. repeat split.
Qed.
Print Assumptions C48_later_refuted.
(** A uid property that does not keep text: what it makes of a uid is accepted,
    and fails the check. *)
Theorem C48_uid_type_refuted : exists p isa make ie iv w,
  pointer_validate (Some p) None false None isa make (PStr "u") = Ok w /\
  pointer_assert (Some p) None false None isa make ie iv w = Exc (ExValidation []).
Proof.
  exists (fun _ => Ok (POther 5)), P_isa, P_make, (fun a b => Ok (Nat.eqb a b)), P_valid, (POther 5). vm_compute. split; reflexivity.
Qed.
Print Assumptions C48_uid_type_refuted.

(** JSON *)
Theorem C48_json_uid : forall is other_json idz s j,
  pointer_serialize is other_json (PStr s) = Ok j -> pointer_deserialize idz j = Ok (PStr s).
Proof. exact json_uid. Qed.
Print Assumptions C48_json_uid.
Theorem C48_json_none : forall is other_json idz j,
  pointer_serialize is other_json PNone = Ok j -> j = JNull /\ pointer_deserialize idz j = Ok PNone.
Proof. exact json_none. Qed.
Print Assumptions C48_json_none.
Theorem C48_json_instance : forall is other_json idz l j,
  pointer_serialize is other_json (PObj l) = Ok j ->
  is l = Ok j /\
  (forall u, j = JText u -> pointer_deserialize idz j = Ok (PStr u)) /\
  (forall x, j = JOther x -> pointer_deserialize idz j = match idz with Some f => f j | None => Exc ExType end).
Proof. exact json_instance. Qed.
Print Assumptions C48_json_instance.
Example C48_json_ex :
  pointer_serialize (fun l => Ok (JOther l)) (fun _ => Exc ExType) (PObj 3) = Ok (JOther 3) /\
  pointer_deserialize (Some (fun j => match j with JOther l => Ok (PObj (10 + l)) | _ => Exc ExValue end)) (JOther 3) = Ok (PObj 13) /\
  pointer_deserialize None (JOther 3) = Exc ExType /\ pointer_deserialize None (JText "u") = Ok (PStr "u") /\
  pointer_serialize (fun l => Ok (JOther l)) (fun _ => Exc ExType) (POther 3) = Exc ExType.
Proof. repeat split. Qed.
(** An instance inside a flat dictionary is written as its uid
    ([Uid.ser_inst]), so it comes back as text, whatever the dictionary says. *)
Theorem C48_instance_lost_refuted : exists is l u, is l = Ok (JText u) /\
  forall idz j, pointer_serialize is (fun _ => Exc ExType) (PObj l) = Ok j -> pointer_deserialize idz j = Ok (PStr u).
Proof.
  exists (fun _ => Ok (JText "u")), 0, "u". split; [reflexivity|]. intros idz j H. injection H as <-. reflexivity.
Qed.
Print Assumptions C48_instance_lost_refuted.
