(** Property theorems about Instance properties of classes that are not
    HasProperties classes: [C64] values, [C65] JSON, [C66] options. *)
From Coq Require Import DecimalString.
From Verif Require Import Foreign ForeignSpec ForeignFacts.
Local Open Scope string_scope.
Local Open Scope list_scope.
Local Open Scope nat_scope.

(** ** C64: values *)
(** An instance is kept as it is; otherwise the class is called, with a
    dictionary as keywords.  ValueError, KeyError, TypeError and AttributeError
    become a ValidationError for this property, other exceptions pass. *)
Theorem C64_validate : forall name inst c v r, validate name inst c v = r <->
  (pc_is c v = true /\ r = Ok v) \/
  (pc_is c v = false /\
   ((exists x, called c v (Ok x) /\ r = Ok x) \/
    (exists e, called c v (Exc e) /\
       r = Exc (match e with
                | ExValidation _ | ExValue | ExKey | ExType | ExAttr => ExValidation [ET (Some "invalid") (Some name) inst]
                | _ => e
                end)))).
Proof. exact validate_spec. Qed.
Print Assumptions C64_validate.
(** If calling the class makes instances of it, the accepted value is one, and
    validating it again changes nothing. *)
Theorem C64_instance : forall name inst c v x, makes_instances c -> validate name inst c v = Ok x ->
  pc_is c x = true /\ forall name' inst', validate name' inst' c x = Ok x.
Proof. exact validate_instance. Qed.
Print Assumptions C64_instance.
(** The accepted value need not be an instance of the class, if calling the class makes something else. *)
Theorem C64_instance_refuted : exists c v x, validate "p" None c v = Ok x /\ pc_is c x = false.
Proof. exists odd_class, (VInt 1), (VInt 1). split; reflexivity. Qed.
Print Assumptions C64_instance_refuted.
(** A stored instance is valid exactly if it equals itself. *)
Theorem C64_assert_valid : forall name inst c v, pc_is c v = true -> v <> VNone ->
  assert_valid name inst c v = if py_eq v v then Ok true else Exc (ExValidation [ET (Some "invalid") (Some name) inst]).
Proof. exact assert_valid_instance. Qed.
Print Assumptions C64_assert_valid.
(** All outcomes of [assert_valid] for a stored value. *)
Theorem C64_assert_outcomes : forall name inst c v,
  (v = VNone -> assert_valid name inst c v = Ok true) /\
  (v <> VNone -> (forall e, validate name inst c v = Exc e -> assert_valid name inst c v = Exc e) /\
     (forall w, validate name inst c v = Ok w -> assert_valid name inst c v = if py_eq v w then Ok true else Exc (ExValidation [ET (Some "invalid") (Some name) inst]))).
Proof. exact assert_valid_outcomes. Qed.
Print Assumptions C64_assert_outcomes.
(** The classes of Python in the examples. *)
Theorem C64_classes : forall v,
  (pc_is py_int_class v = true <-> (exists z, v = VInt z) \/ exists b, v = VBool b) /\
  (pc_is py_list_class v = true <-> exists l, v = VList l) /\ (pc_is py_dict_class v = true <-> exists d, v = VDict d) /\
  (forall k x r, pc_kw py_int_class ((k, x) :: r) = Exc ExType /\ pc_kw py_list_class ((k, x) :: r) = Exc ExType) /\
  pc_new py_int_class = Ok (VInt 0) /\ pc_new py_list_class = Ok (VList []) /\ pc_new py_dict_class = Ok (VDict []).
Proof. exact sample_classes. Qed.
Print Assumptions C64_classes.
Example C64_assert_outcomes_ex :
  assert_valid "p" None py_int_class VNone = Ok true /\ assert_valid "p" None py_int_class (VInt 3) = Ok true /\
  assert_valid "p" (Some 4) py_int_class (VStr "3") = Exc (ExValidation [ET (Some "invalid") (Some "p") (Some 4)]) /\
  assert_valid "p" (Some 4) py_list_class (VInt 3) = Exc (ExValidation [ET (Some "invalid") (Some "p") (Some 4)]).
Proof. vm_compute. repeat split. Qed.
(** Values are converted as the class does: Instance('', int) takes 3.7 for 3,
    an empty dictionary for 0. *)
Theorem C64_int_refuted : exists f, ftrunc f = 3%Z /\ feq f (S754_finite false 6755399441055744 (-51)) = false /\
  validate "p" None py_int_class (VFloat f) = Ok (VInt 3) /\ validate "p" None py_int_class (VDict []) = Ok (VInt 0).
Proof. exists (S754_finite false 8331659310635417 (-51)). repeat split; vm_compute; reflexivity. Qed.
Print Assumptions C64_int_refuted.
Example C64_ex :
  makes_instances py_int_class /\ makes_instances py_list_class /\ makes_instances py_dict_class /\
  validate "p" None py_int_class (VStr "12") = Ok (VInt 12) /\
  validate "p" (Some 3) py_int_class (VStr "x") = Exc (ExValidation [ET (Some "invalid") (Some "p") (Some 3)]) /\
  validate "p" None py_list_class (VTuple [VInt 1]) = Ok (VList [VInt 1]) /\
  validate "p" None py_dict_class (VDict [(VInt 1, VInt 2)]) = Ok (VDict [(VInt 1, VInt 2)]) /\
  validate "p" None py_list_class (VDict [(VInt 1, VInt 2)]) = Exc (ExValidation [ET (Some "invalid") (Some "p") None]) /\
  validate "p" None py_int_class (VFloat (S754_infinity false)) = Exc ExOverflow /\
  assert_valid "p" None py_list_class (VList [VFloat S754_nan]) = Exc (ExValidation [ET (Some "invalid") (Some "p") None]) /\
  assert_valid "p" None py_list_class (VList [VInt 1]) = Ok true.
Proof.
  split; [split; [intros [|] x H; simpl in H; congruence || (injection H as <-; reflexivity)|intros v x; simpl; destruct (py_int v); simpl; congruence || (intros H; injection H as <-; reflexivity)]|].
  split; [split; [intros [|] x H; simpl in H; congruence || (injection H as <-; reflexivity)|intros v x; simpl; destruct (py_iter v); simpl; congruence || (intros H; injection H as <-; reflexivity)]|].
  split; [split; [intros d x H; simpl in H; injection H as <-; reflexivity|intros v x H; discriminate]|].
  vm_compute. repeat split.
Qed.

(** ** C65: JSON *)
(** A value is written as JSON exactly if it consists of numbers, strings,
    booleans, None, lists, tuples and dictionaries with such keys that are no
    containers; anything else raises TypeError. *)
Theorem C65_serialize : forall fr hp v, v <> VNone -> (forall l, v <> VInst l) ->
  (jsonable fr v -> exists w, serialize fr hp v = Ok w /\ image fr v w /\ is_json w) /\
  (~ jsonable fr v -> serialize fr hp v = Exc ExType).
Proof. exact serialize_spec. Qed.
Print Assumptions C65_serialize.
Theorem C65_others : forall fr hp, serialize fr hp VNone = Ok VNone /\ (forall l, serialize fr hp (VInst l) = hp l) /\ deserialize VNone = Ok VNone.
Proof. intros fr hp. repeat split. Qed.
Print Assumptions C65_others.
(** JSON is not changed. *)
Theorem C65_same : forall fr v, is_json v -> json_of fr v = Ok v.
Proof. exact json_same. Qed.
Print Assumptions C65_same.
(** What was written is never read back, whatever the class: this raises
    TypeError unless there is a custom deserializer. *)
Theorem C65_no_round_trip : forall fr hp v w, v <> VNone -> (forall l, v <> VInst l) ->
  serialize fr hp v = Ok w -> deserialize w = Exc ExType.
Proof. exact no_round_trip. Qed.
Print Assumptions C65_no_round_trip.
(** Keys with the same text are merged. *)
Theorem C65_keys_refuted : exists v w k1 k2 x1 x2, v = VDict [(k1, x1); (k2, x2)] /\ py_eq k1 k2 = false /\
  forall fr, json_of fr v = Ok w /\ w = VDict [(VStr "1", x2)].
Proof. exists (VDict [(VInt 1, VStr "a"); (VStr "1", VStr "b")]). do 5 eexists. split; [reflexivity|]. split; [reflexivity|]. split; vm_compute; reflexivity. Qed.
Print Assumptions C65_keys_refuted.
Example C65_ex : let fr := fun _ : float => "0.5" in let v := VDict [(VInt (-12), VTuple [VNone; VBool true]); (VBool false, VList [VStr "x"])] in
  jsonable fr v /\ json_of fr v = Ok (VDict [(VStr "-12", VList [VNone; VBool true]); (VStr "false", VList [VStr "x"])]) /\
  ~ jsonable fr (VList [VSet []]) /\ json_of fr (VList [VSet []]) = Exc ExType /\
  json_of fr (VDict [(VTuple [], VNone)]) = Exc ExType.
Proof.
  cbv zeta. split; [apply json_ok; eexists; vm_compute; reflexivity|]. split; [vm_compute; reflexivity|].
  split; [intros H; apply json_ok in H; destruct H as (w & H); discriminate H|]. split; reflexivity.
Qed.

(** ** C66: options *)
Theorem C66_class : forall name o c o', i_apply name o (SetClass c) = Ok o' <-> exists k, c = Some k /\ o' = IO k (io_auto o) (io_default o).
Proof. exact class_accepted. Qed.
Print Assumptions C66_class.
Theorem C66_auto_create : forall name o v o', i_apply name o (SetAuto v) = Ok o' <-> exists b, v = VBool b /\ o' = IO (io_class o) b (io_default o).
Proof. exact auto_accepted. Qed.
Print Assumptions C66_auto_create.
(** A default must be valid, a callable one when called; "undefined" always is. *)
Theorem C66_default : forall name o d o', i_apply name o (SetDefault d) = Ok o' <->
  o' = IO (io_class o) (io_auto o) (Some d) /\
  (d = DVal VUndef \/ exists v x, outcome d = Ok v /\ validate name None (io_class o) v = Ok x).
Proof. exact default_accepted. Qed.
Print Assumptions C66_default.
Theorem C66_error : forall name o a e, i_apply name o a = Exc e ->
  match a with
  | SetClass _ | SetAuto _ => e = ExType
  | SetDefault d => outcome d = Exc e \/ exists v, outcome d = Ok v /\ validate name None (io_class o) v = Exc e
  end.
Proof. exact option_error. Qed.
Print Assumptions C66_error.
(** The default: the last one that was accepted; if there was none, a new
    instance of the class if auto_create was last set to True, else undefined. *)
Theorem C66_default_last : forall name l1 d l2 o, accepted name (fold_left (i_step name) l1 o) (SetDefault d) ->
  (forall d', ~ In (SetDefault d') l2) -> i_default (fold_left (i_step name) (l1 ++ SetDefault d :: l2) o) = d.
Proof. exact default_last. Qed.
Print Assumptions C66_default_last.
Theorem C66_default_auto : forall name c l1 b l2, (forall d, ~ In (SetDefault d) (l1 ++ SetAuto (VBool b) :: l2)) ->
  (forall b', ~ In (SetAuto (VBool b')) l2) ->
  let o := fold_left (i_step name) (l1 ++ SetAuto (VBool b) :: l2) (IO c false None) in
  i_default o = if b then DCall (pc_new (io_class o)) else DVal VUndef.
Proof. exact default_auto. Qed.
Print Assumptions C66_default_auto.
Theorem C66_default_none : forall name c l, (forall d, ~ In (SetDefault d) l) -> (forall b, ~ In (SetAuto (VBool b)) l) ->
  i_default (fold_left (i_step name) l (IO c false None)) = DVal VUndef.
Proof. exact default_none. Qed.
Print Assumptions C66_default_none.
(** After any assignments that keep the class, and without auto_create, the
    check of the default at the declaration of a HasProperties class succeeds. *)
Theorem C66_checked : forall name c l, (forall k, ~ In (SetClass k) l) ->
  let o := fold_left (i_step name) l (IO c false None) in
  io_default o <> None \/ io_auto o = false -> check_default name o = Ok tt.
Proof. exact default_checked. Qed.
Print Assumptions C66_checked.
(** All outcomes of the check of the default: the default that is undefined or
    valid passes, ValueErrors become AttributeErrors, other errors stay. *)
Theorem C66_check_outcomes : forall name o r, (i_default o = DCall r \/ exists v, i_default o = DVal v /\ r = Ok v) ->
  (r = Ok VUndef -> check_default name o = Ok tt) /\
  (forall v w, r = Ok v -> v <> VUndef -> validate name None (io_class o) v = Ok w -> check_default name o = Ok tt) /\
  (forall e, r = Exc e \/ (exists v, r = Ok v /\ v <> VUndef /\ validate name None (io_class o) v = Exc e) ->
     (e = ExValue \/ (exists ts, e = ExValidation ts) -> check_default name o = Exc ExAttr) /\
     (e = ExType \/ e = ExKey \/ e = ExAttr \/ (exists n, e = ExUser n) -> check_default name o = Exc e)).
Proof. exact check_default_outcomes. Qed.
Print Assumptions C66_check_outcomes.
Example C66_check_outcomes_ex :
  let o d := IO py_int_class false (Some d) in
  map (fun d => check_default "p" (o d)) [DVal VUndef; DVal (VInt 3); DVal (VStr "x"); DCall (Exc ExKey); DCall (Exc ExValue); DCall (Ok (VInt 2))] =
  [Ok tt; Ok tt; Exc ExAttr; Exc ExKey; Exc ExAttr; Ok tt].
Proof. vm_compute. reflexivity. Qed.
(** With auto_create it may fail, and after a change of the class too. *)
Theorem C66_checked_refuted :
  (exists c, check_default "p" (fold_left (i_step "p") [SetAuto (VBool true)] (IO c false None)) = Exc ExType) /\
  (exists c c', check_default "p" (fold_left (i_step "p") [SetDefault (DVal (VStr "x")); SetClass (Some c')] (IO c false None)) = Exc ExAttr).
Proof. split; [exists odd_class; reflexivity|]. exists py_list_class, py_int_class. reflexivity. Qed.
Print Assumptions C66_checked_refuted.
Example C66_ex :
  let o := fold_left (i_step "p") [SetAuto (VInt 1); SetAuto (VBool true); SetDefault (DVal (VInt 3))] (IO py_list_class false None) in
  i_default o = DCall (Ok (VList [])) /\ check_default "p" o = Ok tt /\
  i_default (i_step "p" o (SetDefault (DVal (VTuple [])))) = DVal (VTuple []) /\
  i_apply "p" o (SetClass None) = Exc ExType /\
  i_default (i_step "p" o (SetDefault (DVal VUndef))) = DVal VUndef.
Proof. vm_compute. repeat split. Qed.
