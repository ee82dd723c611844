(** Property theorems about the change dictionary handed to listeners: [C77]. *)
From Verif Require Import Changes ChangesSpec ChangesFacts.
Local Open Scope string_scope.
Local Open Scope list_scope.
Local Open Scope nat_scope.

(** Listeners of the examples *)
Inductive H_listener := HLook | HDouble | HRemove | HMislead | HRaise.
Definition H_call (f : H_listener) (c : chg) (b : dict val) : res unit * chg * dict val :=
  match f with
  | HLook => (Ok tt, c, b)
  | HDouble => (Ok tt, match dget c "value" with Some (VInt z) => dset c "value" (VInt (2 * z)) | _ => c end, b)
  | HRemove => (Ok tt, ddel c "value", b)
  | HMislead => (Ok tt, dset (dset (dset c "name" (VStr "y")) "value" (VInt 99)) "previous" VNone, b)
  | HRaise => (Exc (ExUser 3), c, b)
  end.
Definition H_equal (a b : val) : res bool := Ok (py_eq a b).
Definition H_lst (v c s : list H_listener) : dict (dict (list H_listener)) :=
  [("x", [("validate", v); ("observe_set", s); ("observe_change", c)])].
Definition H_set v c s := has_set H_listener H_call H_equal [] (H_lst v c s) "x".
Lemma H_registered v c s : registered (H_lst v c s).
Proof.
  intros name d D m M. cbn [H_lst dget] in D. destruct (String.eqb name "x"); [|discriminate]. injection D as <-.
  destruct M as [<- |[<- |[<- |[]]]]; cbn; eauto.
Qed.
Lemma H_proper f : In f [HLook; HDouble; HRaise] -> proper H_listener H_call f.
Proof.
  intros I c b V. destruct (dget c "value") as [v|] eqn:D; [|congruence].
  destruct I as [<- |[<- |[<- |[]]]]; cbn [H_call fst snd]; rewrite ?D.
  - exists v. symmetry. apply dset_same_get; auto.
  - destruct v; eauto; eexists; symmetry; apply dset_same_get; exact D.
  - exists v. symmetry. apply dset_same_get; auto.
Qed.

(** ** C77 *)
(** Listeners that only replace the value are told the name, the former value,
    the mode, and the value their predecessor left; what the validators leave is
    stored. *)
Theorem C77_values_handed_on : forall F call equal quar lst name v s out s1, registered lst ->
  (forall m, Forall (proper F call) (listening quar lst name m)) ->
  has_set F call equal quar lst name v s = (out, s1) ->
  exists calls told, s_log s1 = s_log s ++ calls /\ Forall2 (seen_as name (former (s_back s) name)) calls told /\
    assigned F call equal (listening quar lst name) name v (s_back s) told out (s_back s1).
Proof. intros F call equal quar lst name v s out s1 R P H. exact (set_refines F quar lst R call equal name v s out s1 P H). Qed.
Print Assumptions C77_values_handed_on.
Example C77_values_handed_on_ex :
  let s := ST [("x", VInt 1)] [] in
  (forall m, Forall (proper H_listener H_call) (listening [] (H_lst [HDouble; HDouble] [HLook] [HDouble; HLook]) "x" m)) /\
  H_set [HDouble; HDouble] [HLook] [HDouble; HLook] (VInt 3) s =
    (Ok tt, ST [("x", VInt 12)]
      [(HDouble, new_change "x" (VInt 1) (VInt 3) "validate"); (HDouble, new_change "x" (VInt 1) (VInt 6) "validate");
       (HLook, new_change "x" (VInt 1) (VInt 12) "observe_change");
       (HDouble, new_change "x" (VInt 1) (VInt 12) "observe_set"); (HLook, new_change "x" (VInt 1) (VInt 24) "observe_set")]) /\
  H_set [HLook] [HLook] [HRaise; HLook] (VInt 1) s =
    (Exc (ExUser 3), ST [("x", VInt 1)]
      [(HLook, new_change "x" (VInt 1) (VInt 1) "validate"); (HRaise, new_change "x" (VInt 1) (VInt 1) "observe_set")]).
Proof.
  cbv zeta. split; [|split; vm_compute; reflexivity].
  intros m. unfold listening. cbn [mem_str existsb H_lst dget String.eqb Ascii.eqb Bool.eqb].
  destruct (String.eqb m "validate"); [repeat constructor; apply H_proper; cbn; auto|].
  destruct (String.eqb m "observe_set"); [repeat constructor; apply H_proper; cbn; auto|].
  destruct (String.eqb m "observe_change"); repeat constructor. apply H_proper; cbn; auto.
Qed.
(** Whatever listeners do to the change: those of the name and mode are called in
    order, the first of each mode is told the true name, former value and mode, and no
    observer is called before all validators. *)
Theorem C77_calls : forall F call equal quar lst name v s out s1, registered lst ->
  has_set F call equal quar lst name v s = (out, s1) ->
  exists cv cc cs, s_log s1 = s_log s ++ cv ++ cc ++ cs /\
    begins (map fst cv) (listening quar lst name "validate") /\
    begins (map fst cc) (listening quar lst name "observe_change") /\
    begins (map fst cs) (listening quar lst name "observe_set") /\
    first_told cv name (former (s_back s) name) "validate" /\
    first_told cc name (former (s_back s) name) "observe_change" /\
    first_told cs name (former (s_back s) name) "observe_set" /\
    (cc ++ cs <> [] -> map fst cv = listening quar lst name "validate") /\
    (out = Ok tt -> map fst cv = listening quar lst name "validate" /\
       (map fst cc = listening quar lst name "observe_change" \/ cc = []) /\
       map fst cs = listening quar lst name "observe_set").
Proof. intros F call equal quar lst name v s out s1 R H. exact (set_calls F quar lst R call equal name v s out s1 H). Qed.
Print Assumptions C77_calls.
Example C77_calls_ex :
  let c := [("name", VStr "x"); ("previous", VUndef); ("value", VInt 99); ("mode", VStr "observe_change")] in
  H_set [HLook; HMislead] [HMislead] [HRemove; HLook] (VInt 5) (ST [] []) =
    (Ok tt, ST [("x", VInt 99)]
      [(HLook, new_change "x" VUndef (VInt 5) "validate"); (HMislead, new_change "x" VUndef (VInt 5) "validate");
       (HMislead, c);
       (HRemove, dset c "mode" (VStr "observe_set"));
       (HLook, ddel (dset c "mode" (VStr "observe_set")) "value")]).
Proof. vm_compute. reflexivity. Qed.
(** If listeners do what they like to the change, but store nothing themselves: the
    value the validators leave in the change is stored, under the name of the
    property, or nothing is. *)
Theorem C77_stored : forall F call equal quar lst name v s out s1, registered lst ->
  (forall m, Forall (stores_nothing F call) (listening quar lst name m)) ->
  has_set F call equal quar lst name v s = (out, s1) ->
  (out <> Ok tt /\ s_back s1 = s_back s) \/
  exists c v1, edited F call (s_back s) (listening quar lst name "validate")
      [("name", VStr name); ("previous", former (s_back s) name); ("value", v); ("mode", VStr "validate")] c /\
    dget c "value" = Some v1 /\ stored (s_back s) name v1 (s_back s1).
Proof. intros F call equal quar lst name v s out s1 R P H. exact (set_stores F quar lst R call equal name v s out s1 P H). Qed.
Print Assumptions C77_stored.
Example C77_stored_ex :
  (forall m, Forall (stores_nothing H_listener H_call) (listening [] (H_lst [HMislead; HDouble] [HRemove] [HMislead]) "x" m)) /\
  s_back (snd (H_set [HMislead; HDouble] [HRemove] [HMislead] (VInt 4) (ST [("y", VInt 1)] []))) = [("y", VInt 1); ("x", VInt 198)].
Proof. split; [|vm_compute; reflexivity]. intros m. apply Forall_forall. intros f _ c b. destruct f; reflexivity. Qed.
(** What observers do to the change, and whether they raise, makes no difference
    to what is stored; nor does the comparison of the values. *)
Theorem C77_observers_cannot_store : forall F call call' equal equal' quar lst name v s, registered lst ->
  (forall f c b, In f (listening quar lst name "validate") -> call f c b = call' f c b) ->
  (forall m f, In m ["observe_change"; "observe_set"] -> In f (listening quar lst name m) ->
     stores_nothing F call f /\ stores_nothing F call' f) ->
  s_back (snd (has_set F call equal quar lst name v s)) = s_back (snd (has_set F call' equal' quar lst name v s)).
Proof.
  intros F call call' equal equal' quar lst name v s R A S.
  exact (set_unmoved F quar lst R call call' equal equal' name v s A S).
Qed.
Print Assumptions C77_observers_cannot_store.
Example C77_observers_cannot_store_ex :
  let quiet (f : H_listener) (c : chg) (b : dict val) : res unit * chg * dict val :=
    match f with HDouble => H_call HDouble c b | _ => (Ok tt, c, b) end in
  (forall f c b, In f (listening [] (H_lst [HDouble] [HMislead; HRemove] [HRaise]) "x" "validate") -> H_call f c b = quiet f c b) /\
  (forall m f, In m ["observe_change"; "observe_set"] -> In f (listening [] (H_lst [HDouble] [HMislead; HRemove] [HRaise]) "x" m) ->
     stores_nothing _ H_call f /\ stores_nothing _ quiet f) /\
  fst (H_set [HDouble] [HMislead; HRemove] [HRaise] (VInt 4) (ST [] [])) = Exc (ExUser 3) /\
  s_back (snd (H_set [HDouble] [HMislead; HRemove] [HRaise] (VInt 4) (ST [] []))) = [("x", VInt 8)].
Proof.
  cbv zeta. split; [intros f c b [<- |[]]; reflexivity|]. split; [|vm_compute; split; reflexivity].
  intros m f _ _. split; intros c b; destruct f; reflexivity.
Qed.
(** A validator that removes the value: KeyError, and nothing is stored. *)
Theorem C77_value_removed : forall F call equal quar lst name v s f rest, registered lst ->
  listening quar lst name "validate" = rest ++ [f] -> Forall (stores_nothing F call) (rest ++ [f]) ->
  (forall g c b, In g rest -> fst (fst (call g c b)) = Ok tt) ->
  (forall c b, fst (fst (call f c b)) = Ok tt /\ dget (snd (fst (call f c b))) "value" = None) ->
  fst (has_set F call equal quar lst name v s) = Exc ExKey /\
  s_back (snd (has_set F call equal quar lst name v s)) = s_back s.
Proof.
  intros F call equal quar lst name v s f rest R E S O D.
  exact (set_removed F quar lst R call equal name v s f rest E S O D).
Qed.
Print Assumptions C77_value_removed.
Example C77_value_removed_ex :
  listening [] (H_lst [HDouble; HRemove] [HLook] [HLook]) "x" "validate" = [HDouble] ++ [HRemove] /\
  (forall c b, fst (fst (H_call HRemove c b)) = Ok tt /\ dget (snd (fst (H_call HRemove c b))) "value" = None) /\
  fst (H_set [HDouble; HRemove] [HLook] [HLook] (VInt 5) (ST [("x", VInt 7)] [])) = Exc ExKey /\
  s_back (snd (H_set [HDouble; HRemove] [HLook] [HLook] (VInt 5) (ST [("x", VInt 7)] []))) = [("x", VInt 7)].
Proof. split; [reflexivity|]. split; [intros c b; split; [reflexivity|apply dget_ddel_same]|]. vm_compute. split; reflexivity. Qed.
(** In validate(): what the validators make of the value is compared with it, and
    never stored. *)
Theorem C77_validate : forall F call equal quar lst name v s out s1, registered lst ->
  Forall (proper F call) (listening quar lst name "validate") -> dget (s_back s) name = Some v -> v <> VNone ->
  check_value F call equal quar lst name s = (out, s1) ->
  exists told o, passed F call name v "validate" (listening quar lst name "validate") v (s_back s) told o (s_back s1) /\
    (forall v1, o = Ok v1 -> out = equal v v1) /\ (forall e, o = Exc e -> out = Exc e).
Proof.
  intros F call equal quar lst name v s out s1 R P V N H.
  exact (check_refines F quar lst R call equal name v s out s1 P V N H).
Qed.
Print Assumptions C77_validate.
Theorem C77_validate_unset : forall F call equal quar lst name s,
  dget (s_back s) name = None \/ dget (s_back s) name = Some VNone ->
  check_value F call equal quar lst name s = (Ok true, s).
Proof. intros F call equal quar lst name s H. exact (check_none F quar lst call equal name s H). Qed.
Print Assumptions C77_validate_unset.
Theorem C77_validate_stores_nothing : forall F call equal quar lst name s, registered lst ->
  Forall (stores_nothing F call) (listening quar lst name "validate") ->
  s_back (snd (check_value F call equal quar lst name s)) = s_back s.
Proof. intros F call equal quar lst name s R P. exact (check_stores_nothing F quar lst R call equal name s P). Qed.
Print Assumptions C77_validate_stores_nothing.
Example C77_validate_ex :
  let check v x := check_value H_listener H_call H_equal [] (H_lst v [HRaise] [HRaise]) "x" (ST [("x", x)] []) in
  check [HDouble; HLook] (VInt 3) = (Ok false, ST [("x", VInt 3)]
    [(HDouble, new_change "x" (VInt 3) (VInt 3) "validate"); (HLook, new_change "x" (VInt 3) (VInt 6) "validate")]) /\
  fst (check [HDouble; HLook] (VInt 0)) = Ok true /\ fst (check [HLook; HRaise] (VInt 3)) = Exc (ExUser 3) /\
  check [HRemove] (VInt 3) = (Exc ExKey, ST [("x", VInt 3)] [(HRemove, new_change "x" (VInt 3) (VInt 3) "validate")]) /\
  check [HRaise] VNone = (Ok true, ST [("x", VNone)] []).
Proof. vm_compute. repeat split. Qed.
(** A listener can be told another name, another former value, and a value that
    was never stored. *)
Theorem C77_misled_refuted : exists lst v s c, registered lst /\
  fst (has_set H_listener H_call H_equal [] lst "x" v s) = Ok tt /\
  dget (s_back (snd (has_set H_listener H_call H_equal [] lst "x" v s))) "x" = Some v /\
  In (HLook, c) (s_log (snd (has_set H_listener H_call H_equal [] lst "x" v s))) /\
  dget c "mode" = Some (VStr "observe_set") /\ dget c "name" = Some (VStr "y") /\
  dget c "previous" <> Some (former (s_back s) "x") /\ dget c "value" <> Some v.
Proof.
  exists (H_lst [] [] [HMislead; HLook]), (VInt 5), (ST [("x", VInt 1)] []). eexists.
  split; [apply H_registered|]. split; [vm_compute; reflexivity|]. split; [vm_compute; reflexivity|].
  split; [vm_compute; right; left; reflexivity|]. repeat split; cbn; discriminate.
Qed.
Print Assumptions C77_misled_refuted.
