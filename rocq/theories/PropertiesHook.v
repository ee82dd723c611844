(** Property theorems about [_error_hook] (C42).  Events are recorded latest
    first; the body of the hook is not modelled. *)
From Verif Require Import World WorldSpec WorldExample HookSpec HookFacts HookExample.
Local Open Scope string_scope.
Local Open Scope list_scope.
Local Open Scope nat_scope.

(** ** C42: the error hook sees failures *)
(** validate() that is not nested in another validation of the same instance
    calls the hook once, with the error tuples that it raises, if it raises a
    ValidationError, and else not at all, whatever user code runs in between. *)
Theorem C42_validate_calls_hook_once : forall E C U, wf_ctab C -> forall n l b w r w',
  validating w l b -> b <> Some true ->
  exec E C U (S n) (COp (OValidate l)) w = (r, w') -> reported l w w' (failure r).
Proof. exact validate_hook. Qed.
Print Assumptions C42_validate_calls_hook_once.
Example C42_validate_calls_hook_once_ex :
  validating w_rec 0 (Some false) /\ validating w_clash 0 (Some false) /\
  fst (exec E1 C6 U6 20 (COp (OValidate 0)) w_rec) =
    Exc (ExValidation [ET (Some "missing") (Some "n") (Some 0); ET (Some "missing") (Some "m") (Some 0)]) /\
  fst (exec E1 C6 U6 20 (COp (OValidate 0)) w_clash) = Exc (ExValidation [ET None None (Some 0)]).
Proof. split; [eexists; split; vm_compute; reflexivity|]. split; [eexists; split; vm_compute; reflexivity|]. split; vm_compute; reflexivity. Qed.

(** Beyond what happens while the defaults are assigned, so does the
    constructor. *)
Theorem C42_constructor_calls_hook_once : forall E C U, wf_ctab C -> forall n cid c kw w l w0 r w',
  nth_error (ct_cls C) cid = Some c ->
  exec E C U (S n) (COp (ONew cid (Some []))) w = (Ok (VInst l), w0) ->
  exec E C U (S n) (COp (ONew cid (Some kw))) w = (r, w') -> reported l w0 w' (failure r).
Proof. exact init_hook. Qed.
Print Assumptions C42_constructor_calls_hook_once.
Example C42_constructor_calls_hook_once_ex :
  nth_error (ct_cls C6) 0 = Some c_rec /\ fst (exec E1 C6 U6 20 (COp (ONew 0 (Some []))) w_empty) = Ok (VInst 0) /\
  fst (exec E1 C6 U6 20 (COp (ONew 0 (Some [("n", VStr "a"); ("names", VList [VInt 1])]))) w_empty) =
    Exc (ExValidation [ET (Some "invalid") (Some "n") (Some 0); ET (Some "invalid") (Some "names") (Some 0)]).
Proof. split; [reflexivity|]. split; vm_compute; reflexivity. Qed.

(** An assignment that the property rejects ends with a call of the hook with
    the error tuples that are raised. *)
Theorem C42_rejected_assignment_is_reported : forall E C U, wf_ctab C -> forall n l name d v w ts w',
  declares C w l name d -> pd_kind d = KProp -> is_undef v = false -> validating w l (Some false) ->
  p_validate E C (exec E C U n) (pd_type d) (Some l) name v w = (Exc (ExValidation ts), w') ->
  exec E C U (S n) (COp (OSet l name v)) w = (Exc (ExValidation ts), w') /\ ts = rejected l name /\
  exists earlier, since w w' (EHook l ts :: earlier).
Proof. exact set_reports. Qed.
Print Assumptions C42_rejected_assignment_is_reported.
Example C42_rejected_assignment_is_reported_ex :
  declares C6 w_rec 0 "names" (PD KProp (PSeq KList t_str None None false) false DUndef) /\ validating w_rec 0 (Some false) /\
  fst (p_validate E1 C6 (exec E1 C6 U6 20) (PSeq KList t_str None None false) (Some 0) "names" (VInt 3) w_rec) =
    Exc (ExValidation (rejected 0 "names")).
Proof. split; [apply declares_rec; reflexivity|]. split; [eexists; split; vm_compute; reflexivity|vm_compute; reflexivity]. Qed.

(** For basic properties this is the only call, except that Integer, Float and
    Complex may call it twice; other exceptions do not call it. *)
Theorem C42_basic_property_reports : forall E C U n l name d t v w r w',
  declares C w l name d -> pd_kind d = KProp -> is_undef v = false ->
  pd_type d = PLeaf t -> validating w l (Some false) ->
  p_validate E C (exec E C U n) (pd_type d) (Some l) name v w = (r, w') ->
  match r with
  | Exc (ExValidation ts) => ts = rejected l name /\
      (since w w' [EHook l ts] \/ since w w' [EHook l ts; EHook l ts] /\ numeric t)
  | _ => since w w' []
  end.
Proof. exact basic_reports. Qed.
Print Assumptions C42_basic_property_reports.
Example C42_basic_property_reports_ex :
  declares C6 w_rec 0 "n" (PD KProp t_int true DUndef) /\ validating w_rec 0 (Some false) /\
  fst (p_validate E1 C6 (exec E1 C6 U6 20) t_int (Some 0) "n" (VStr "a") w_rec) = Exc (ExValidation (rejected 0 "n")).
Proof. split; [apply declares_rec; reflexivity|]. split; [eexists; split; vm_compute; reflexivity|vm_compute; reflexivity]. Qed.

(** A successful assignment to a property without Unions and Instances, that
    nobody listens to, does not call it: storing the value is all that
    happens. *)
Theorem C42_success_is_silent : forall E C U n l name d v w r w',
  declares C w l name d -> pd_kind d = KProp -> is_undef v = false ->
  plain_type (pd_type d) -> (forall m, registered w l name m = []) ->
  exec E C U (S n) (COp (OSet l name v)) w = (Ok r, w') ->
  exists sid v0, since w w' [EWrite sid l name v0].
Proof. exact set_silent. Qed.
Print Assumptions C42_success_is_silent.
Example C42_success_is_silent_ex :
  declares C6 w_rec 0 "names" (PD KProp (PSeq KList t_str None None false) false DUndef) /\
  plain_type (PSeq KList t_str None None false) /\ (forall m, registered w_rec 0 "names" m = []) /\
  fst (exec E1 C6 U6 20 (COp (OSet 0 "names" (VList [VStr "a"; VStr "b"]))) w_rec) = Ok VNone.
Proof. split; [apply declares_rec; reflexivity|]. split; [exact I|]. split; [intros []; vm_compute; reflexivity|vm_compute; reflexivity]. Qed.

(** *** Where it is not once *)
(** A rejected number is reported twice. *)
Theorem C42_number_reported_once_refuted : exists v w',
  exec E1 C6 U6 20 (COp (OSet 0 "n" v)) w_rec = (Exc (ExValidation (rejected 0 "n")), w') /\
  reported 0 w_rec w' [rejected 0 "n"; rejected 0 "n"].
Proof.
  exists (VFloat (S754_finite false 4503599627370496 (-53))). eexists. split; [vm_compute; reflexivity|].
  exists [EHook 0 (rejected 0 "n"); EHook 0 (rejected 0 "n")]. split; [vm_compute; reflexivity|vm_compute; reflexivity].
Qed.
Print Assumptions C42_number_reported_once_refuted.

(** So is a list with a rejected item. *)
Theorem C42_item_reported_once_refuted : exists v w',
  exec E1 C6 U6 20 (COp (OSet 0 "names" v)) w_rec = (Exc (ExValidation (rejected 0 "names")), w') /\
  reported 0 w_rec w' [rejected 0 "names"; rejected 0 "names"].
Proof.
  exists (VList [VInt 1]). eexists. split; [vm_compute; reflexivity|].
  exists [EHook 0 (rejected 0 "names"); EHook 0 (rejected 0 "names")]. split; [vm_compute; reflexivity|vm_compute; reflexivity].
Qed.
Print Assumptions C42_item_reported_once_refuted.

(** A value that a Union accepts is reported if an earlier alternative rejects
    it. *)
Theorem C42_union_success_is_silent_refuted : exists v w',
  exec E1 C6 U6 20 (COp (OSet 0 "u" v)) w_rec = (Ok VNone, w') /\ stored w' 0 "u" = Some v /\
  reported 0 w_rec w' [rejected 0 "u"].
Proof.
  exists (VStr "a"). eexists. split; [vm_compute; reflexivity|]. split; [vm_compute; reflexivity|].
  exists [EWrite (w_clock w_rec + 2) 0 "u" (VStr "a"); EHook 0 (rejected 0 "u")]. split; [vm_compute; reflexivity|vm_compute; reflexivity].
Qed.
Print Assumptions C42_union_success_is_silent_refuted.

(** An invalid computed default makes the constructor fail, unreported. *)
Theorem C42_invalid_default_is_reported_refuted : exists w',
  exec E1 C6 U6 20 (COp (ONew 1 (Some []))) w_empty = (Exc (ExValidation (rejected 0 "n")), w') /\ reported 0 w_empty w' [].
Proof.
  eexists. split; [vm_compute; reflexivity|]. exists []. split; [vm_compute; reflexivity|reflexivity].
Qed.
Print Assumptions C42_invalid_default_is_reported_refuted.
