(** Property theorems about reporting the status of a task: [C72]. *)
From Verif Require Import World WorldSpec NumSpec BasicSpec WorldExample Status StatusSpec StatusFacts StatusMono StatusLoop StatusProofs.
Local Open Scope string_scope.
Local Open Scope list_scope.
Local Open Scope nat_scope.

(** ** C72: the status line shows the progress as a percentage *)
Theorem C72_percentage : forall v n, as_num v = Some n -> valid_num n ->
  within (Some (NZ 0)) (Some (NZ 1)) n -> n <> NF S754_nan ->
  exists z, percent v = Ok z /\ percentage n z.
Proof. exact percent_percentage. Qed.
Print Assumptions C72_percentage.
Example C72_percentage_ex : valid_num (NF f285) /\ within (Some (NZ 0)) (Some (NZ 1)) (NF f285) /\ percent (VFloat f285) = Ok 28%Z.
Proof. split; [reflexivity|]. split; [|reflexivity]. split; intros m Hm; injection Hm as <-; vm_compute; discriminate. Qed.
(** the double nearest to k / 100 is shown as k *)
Example C72_percentage_hundredths :
  forallb (fun k => match percent (VFloat (SFdiv prec emax (match fofZ k with Some f => f | None => fzero end) hundred)) with
                    | Ok z => Z.eqb z k | Exc _ => false end)
    (map Z.of_nat (seq 0 101)) = true.
Proof. vm_compute. reflexivity. Qed.

(** 0.125, 0.375, 0.625 and 0.875 lie half way: the even neighbour is shown *)
Example C72_percentage_halves :
  map (fun m => percent (VFloat (S754_finite false (m * 2 ^ 52) (-55)))) [1; 3; 5; 7]%positive = [Ok 12; Ok 38; Ok 62; Ok 88]%Z.
Proof. vm_compute. reflexivity. Qed.

(** More progress is never shown as a smaller percentage. *)
Theorem C72_rising : forall v v' n n' u u' z z',
  valid_num n -> within (Some (NZ 0)) (Some (NZ 1)) n -> as_num v = Some n -> ext_of n = Fin u ->
  valid_num n' -> within (Some (NZ 0)) (Some (NZ 1)) n' -> as_num v' = Some n' -> ext_of n' = Fin u' -> (u <= u')%Z ->
  percent v = Ok z -> percent v' = Ok z' -> (z <= z')%Z.
Proof. exact percent_mono. Qed.
Print Assumptions C72_rising.
(** 0.285 and the next double: the product is half way, and above *)
Definition f285' : float := match f285 with S754_finite s m e => S754_finite s (m + 1) e | f => f end.
Example C72_rising_ex : exists u u', ext_of (NF f285) = Fin u /\ ext_of (NF f285') = Fin u' /\ (u < u')%Z /\
  valid_num (NF f285') /\ within (Some (NZ 0)) (Some (NZ 1)) (NF f285') /\ percent (VFloat f285) = Ok 28%Z /\ percent (VFloat f285') = Ok 29%Z.
Proof.
  do 2 eexists. split; [reflexivity|]. split; [reflexivity|]. split; [vm_compute; reflexivity|]. split; [vm_compute; reflexivity|].
  split; [split; intros m Hm; injection Hm as <-; vm_compute; discriminate|]. vm_compute. auto.
Qed.

(** A status in a state that satisfies the declared types (C07) *)
Theorem C72_reported : forall E C U show n taskname cid l w, well_typed C w -> instance_of C w l cid ->
  declares C w l "progress" progress_decl -> declares C w l "message" message_decl ->
  (forall f, stored w l "progress" = Some (VFloat f) -> valid_float f = true) ->
  let (r, w') := report_status E C U (S n) show taskname cid (VInst l) w in
  w' = w /\
  match stored w l "progress" with
  | None => r = Exc ExType
  | Some (VFloat S754_nan) => r = Exc ExValue
  | Some (VFloat f) => exists line, r = Ok line /\ line_for taskname (NF f) (message_of w l) line
  | Some _ => False
  end.
Proof. exact status_reported. Qed.
Print Assumptions C72_reported.
Example C72_reported_ex : well_typed C_st w_285 /\ instance_of C_st w_285 0 0 /\
  declares C_st w_285 0 "progress" progress_decl /\ declares C_st w_285 0 "message" message_decl /\
  fst (report_status E1 C_st U1 3 (fun _ => "") "Load" 0 (VInst 0) w_285) = Ok "Load |  28% | loading".
Proof.
  split; [exact w_285_typed|]. split; [exists c_status; split; [eexists; split; reflexivity|left; reflexivity]|].
  split; [exists c_status; split; [eexists; split; reflexivity|reflexivity]|].
  split; [exists c_status; split; [eexists; split; reflexivity|reflexivity]|]. vm_compute. reflexivity.
Qed.

(** Progress is optional, so a status without it is valid; it cannot be
    reported. *)
Theorem C72_unset_refuted : exists E C U l w,
  fst (exec E C U 20 (COp (OValidate l)) w) = Ok (VBool true) /\
  fst (report_status E C U 20 (fun _ => "") "Load" 0 (VInst l) w) = Exc ExType.
Proof. exists E1, C_st, U1, 0, (w_status [("message", VStr "loading")]). vm_compute. auto. Qed.
Print Assumptions C72_unset_refuted.
(** The bounds let nan pass when it is assigned (validate() would reject it,
    since it is not equal to itself). *)
Theorem C72_nan_refuted : exists E C U w l w',
  exec E C U 20 (COp (ONew 0 (Some [("progress", VFloat S754_nan)]))) w = (Ok (VInst l), w') /\
  fst (report_status E C U 20 (fun _ => "") "Load" 0 (VInst l) w') = Exc ExValue.
Proof. exists E1, C_st, U1, w_empty, 0. eexists. split; [vm_compute; reflexivity|]. vm_compute. reflexivity. Qed.
Print Assumptions C72_nan_refuted.

(** A dictionary is made a status first. *)
Theorem C72_dictionary : forall E C U show cid nm cv mro attrs,
  nth_error (ct_cls C) cid = Some (Cls nm status_props [] [] cv mro attrs) ->
  forall n taskname d f s w, says d f s -> valid_float f = true ->
  within (Some (NZ 0)) (Some (NZ 1)) (NF f) -> f <> S754_nan ->
  exists line w' i, report_status E C U (S (S n)) show taskname cid (VDict d) w = (Ok line, w') /\
    line_for taskname (NF f) s line /\ w_heap w' = w_heap w ++ [i] /\ w_quar w' = w_quar w.
Proof. exact dict_reported. Qed.
Print Assumptions C72_dictionary.
Example C72_dictionary_ex : nth_error (ct_cls C_st) 0 = Some (Cls "TaskStatus" status_props [] [] [CVProps] [0] []) /\
  says [(VStr "message", VStr "Starting"); (VStr "progress", VFloat fzero)] fzero "Starting" /\
  within (Some (NZ 0)) (Some (NZ 1)) (NF fzero) /\
  fst (report_status E1 C_st U1 3 (fun _ => "") "Load" 0 (VDict [(VStr "message", VStr "Starting"); (VStr "progress", VFloat fzero)]) w_285)
    = Ok "Load |   0% | Starting".
Proof.
  split; [reflexivity|]. split; [right; right; reflexivity|].
  split; [split; intros m Hm; injection Hm as <-; vm_compute; discriminate|]. vm_compute. reflexivity.
Qed.

(** Anything that cannot be made a status is a validation error. *)
Theorem C72_out_of_bounds : forall E C U show cid nm cv mro attrs,
  nth_error (ct_cls C) cid = Some (Cls nm status_props [] [] cv mro attrs) ->
  forall n taskname f w, valid_float f = true -> ~ within (Some (NZ 0)) (Some (NZ 1)) (NF f) ->
  exists w' i, report_status E C U (S (S n)) show taskname cid (VDict [(VStr "progress", VFloat f)]) w =
      (Exc (ExValidation [ET (Some "invalid") (Some "") None]), w') /\
    w_heap w' = w_heap w ++ [i] /\ w_quar w' = w_quar w.
Proof. exact dict_rejected. Qed.
Print Assumptions C72_out_of_bounds.
Example C72_out_of_bounds_ex : valid_float hundred = true /\ ~ within (Some (NZ 0)) (Some (NZ 1)) (NF hundred).
Proof. split; [reflexivity|]. intros [_ H]. apply (H _ eq_refl). reflexivity. Qed.
Theorem C72_not_a_status : forall E C U show cid nm cv mro attrs,
  nth_error (ct_cls C) cid = Some (Cls nm status_props [] [] cv mro attrs) ->
  forall n taskname v w, (forall l, v <> VInst l) -> (forall d, v <> VDict d) ->
  exists w' i, report_status E C U (S (S n)) show taskname cid v w =
      (Exc (ExValidation [ET (Some "invalid") (Some "") None]), w') /\
    w_heap w' = w_heap w ++ [i] /\ w_quar w' = w_quar w.
Proof. exact other_rejected. Qed.
Print Assumptions C72_not_a_status.
Example C72_not_a_status_ex : 
  fst (report_status E1 C_st U1 3 (fun _ => "") "Load" 0 (VFloat f285) w_285) =
    Exc (ExValidation [ET (Some "invalid") (Some "") None]).
Proof. vm_compute. reflexivity. Qed.
