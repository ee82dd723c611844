(** Property theorems about extras/: tasks ([C39]), singletons ([C38]), uids
    ([C36], [C37]). *)
From Verif Require Import World WorldSpec WorldExample Tasks TasksFacts Singles Uid LibrarySpec SinglesFacts UidFacts.
Local Open Scope string_scope.
Local Open Scope list_scope.
Local Open Scope nat_scope.

(** * C39: tasks run on valid input and return valid output *)

(** Whatever [run] and [process_output] do: every call of [run] is given a new
    instance of the Input class, in the state in which its validate() has just
    succeeded (and that validate() really checked it: it was not under way
    already). *)
Theorem C39_run_gets_valid_input : forall E C U, wf_ctab C -> forall n t kw w r w' calls v w1,
  task_call E C U (S (S n)) t kw (w, []) = (r, (w', calls)) -> In (TRun v w1) calls ->
  exists l w0 i, v = VInst l /\ length (w_heap w) <= l /\
    nth_error (w_heap w0) l = Some i /\ i_cls i = tk_input t /\ i_vflag i = Some false /\
    exec E C U (S (S n)) (COp (OValidate l)) w0 = (Ok (VBool true), w1).
Proof. exact task_input. Qed.
Print Assumptions C39_run_gets_valid_input.

(** Whenever the keyword arguments deserialize (unknown ones are ignored) to an
    instance whose validate() succeeds, [run] is called with it. *)
Theorem C39_runs : forall E C U n t kw w l w1 v w2,
  exec E C U n (COp (ODeser (tk_input t) (VDict (map (fun kv => (VStr (fst kv), snd kv)) kw)) (DOpt false false false))) w = (Ok (VInst l), w1) ->
  exec E C U n (COp (OValidate l)) w1 = (Ok v, w2) ->
  exists r w' calls, task_call E C U n t kw (w, []) = (r, (w', calls ++ [TRun (VInst l) w2])).
Proof. exact task_runs. Qed.
Print Assumptions C39_runs.

(** Every call of [process_output] is given what [run] returned, an instance of
    a BaseOutput class, in the state in which its validate() has just
    succeeded. *)
Theorem C39_process_gets_valid_output : forall E C U, wf_ctab C -> forall n t kw w r w' calls v w1,
  task_call E C U (S (S n)) t kw (w, []) = (r, (w', calls)) -> In (TProcess v w1) calls ->
  (exists l w0 c, v = VInst l /\ has_class C w1 l c /\ In (tk_output t) (c_mro c) /\
     exec E C U (S (S n)) (COp (OValidate l)) w0 = (Ok (VBool true), w1)) /\
  (exists vi wi wr, In (TRun vi wi) calls /\ tk_run t vi wi = (Ok v, wr)).
Proof. exact task_output. Qed.
Print Assumptions C39_process_gets_valid_output.

(** A task that returns has run both methods once, in order, and returns what
    process_output returned; in every other case it raises. *)
Theorem C39_result : forall E C U, wf_ctab C -> forall n t kw w v w' calls,
  task_call E C U (S (S n)) t kw (w, []) = (Ok v, (w', calls)) ->
  exists vi wi vo wo wr, calls = [TProcess vo wo; TRun vi wi] /\
    tk_run t vi wi = (Ok vo, wr) /\ tk_process t vo wo = (Ok v, w').
Proof. exact task_result. Qed.
Print Assumptions C39_result.

(** An output that is no instance of BaseOutput is a ValidationError with the
    reason 'invalid_class'. *)
Theorem C39_wrong_output_class : forall E C U n t kw w r w' calls vi wi vo wr,
  task_call E C U (S (S n)) t kw (w, []) = (r, (w', calls)) ->
  In (TRun vi wi) calls -> tk_run t vi wi = (Ok vo, wr) ->
  (forall l, vo = VInst l -> exists c, has_class C wr l c /\ ~ In (tk_output t) (c_mro c)) ->
  calls = [TRun vi wi] /\ exists io, r = Exc (ExValidation [ET (Some "invalid_class") None io]) /\ forall l, io = Some l <-> vo = VInst l.
Proof. exact task_wrong_class. Qed.
Print Assumptions C39_wrong_output_class.

(** class In: x from 0 to 10, required, no default; class Out(BaseOutput):
    y required, no default.  The run function stores x in y, or returns a
    value that is no instance, or leaves y unset, depending on x. *)
Definition c_in : cls := Cls "In" [("x", PD KProp t_x true DUndef)] [] [] [CVProps] [0] [].
Definition c_base : cls := Cls "BaseOutput" [] [] [] [CVProps] [1] [].
Definition c_out : cls := Cls "Out" [("y", PD KProp t_x true DUndef)] [] [] [CVProps] [2; 1] [].
Definition C_task : ctable := CT [c_in; c_base; c_out] [].
Definition run_ex (v : val) : M val :=
  match v with
  | VInst l =>
      let* x := exec E1 C_task U1 20 (COp (OGet l "x")) in
      match x with
      | VInt 7 => ret (VStr "seven")
      | VInt 8 => exec E1 C_task U1 20 (COp (ONew 2 (Some [])))
      | VInt 9 => exec E1 C_task U1 20 (COp (ONew 0 (Some [])))
      | _ => exec E1 C_task U1 20 (COp (ONew 2 (Some [("y", x)])))
      end
  | _ => throw ExType
  end.
Definition process_ex (v : val) : M val :=
  match v with VInst l => exec E1 C_task U1 20 (COp (OSer l (SOpt false false))) | _ => throw ExType end.
Definition task_ex : task := Task 0 1 run_ex process_ex.
Lemma wf_C_task : wf_ctab C_task.
Proof.
  intros [|[|[|k]]] c H; [| | |destruct k; discriminate]; injection H as <-; repeat constructor; simpl; auto.
Qed.
Definition call_ex (kw : list (string * val)) := task_call E1 C_task U1 20 task_ex kw (w_empty, []).
Definition which (c : tcall) : string * val := match c with TRun v _ => ("run", v) | TProcess v _ => ("process", v) end.
Example C39_ex : wf_ctab C_task /\
  (fst (call_ex [("x", VInt 4)]), map which (snd (snd (call_ex [("x", VInt 4)])))) =
    (Ok (VDict [(VStr "y", VInt 4)]), [("process", VInst 1); ("run", VInst 0)]) /\
  (* unknown keywords are ignored *)
  map which (snd (snd (call_ex [("x", VInt 4); ("other", VInt 1)]))) = [("process", VInst 1); ("run", VInst 0)] /\
  (* x out of range, x missing: run is not called *)
  (fst (call_ex [("x", VInt 11)]), map which (snd (snd (call_ex [("x", VInt 11)])))) =
    (Exc (ExValidation [ET (Some "invalid") (Some "x") (Some 0)]), []) /\
  (fst (call_ex []), map which (snd (snd (call_ex [])))) =
    (Exc (ExValidation [ET (Some "missing") (Some "x") (Some 0)]), []) /\
  (* not an instance, invalid, and of a wrong class: process_output is not called *)
  (fst (call_ex [("x", VInt 7)]), map which (snd (snd (call_ex [("x", VInt 7)])))) =
    (Exc (ExValidation [ET (Some "invalid_class") None None]), [("run", VInst 0)]) /\
  (fst (call_ex [("x", VInt 8)]), map which (snd (snd (call_ex [("x", VInt 8)])))) =
    (Exc (ExValidation [ET (Some "missing") (Some "y") (Some 1)]), [("run", VInst 0)]) /\
  (fst (call_ex [("x", VInt 9)]), map which (snd (snd (call_ex [("x", VInt 9)])))) =
    (Exc (ExValidation [ET (Some "invalid_class") None (Some 1)]), [("run", VInst 0)]).
Proof. split; [exact wf_C_task|]. repeat split; vm_compute; reflexivity. Qed.

(** * C38: singletons *)

(** In any state [s] reached by any program: if a construction under [name]
    returned [l], then after any further program every construction and
    deserialization under that name, by any class with the same registry,
    returns [l]. *)
Theorem C38_constructed_once : forall V ds n0 p0 n c name a l s1 r n2 p n3 c',
  let s := shistory V n0 p0 (sstart ds) in
  se_reg V c = Some r -> se_reg V c' = Some r ->
  sexec V n (SNew c name a) s = (Ok l, s1) ->
  (forall a', sexec V (S n3) (SNew c' name a') (shistory V n2 p s1) = (Ok l, shistory V n2 p s1)) /\
  (forall d f, names (shistory V n2 p s1) d name -> name <> INone ->
     fst (sexec V (S n3) (SDeser c' d f) (shistory V n2 p s1)) = Ok l).
Proof. exact same_new. Qed.
Print Assumptions C38_constructed_once.

(** The same if it was deserialized first, provided that the class named by
    the dictionary uses the same registry and that its 'name' property
    deserializes names to themselves. *)
Theorem C38_deserialized_once : forall V ds n0 p0 n c d f name l s1 r k n2 p n3 c',
  let s := shistory V n0 p0 (sstart ds) in
  se_reg V c = Some r -> se_reg V c' = Some r -> names s d name ->
  (forall v, nth_error (s_dicts s) d = Some v -> se_class V c (sd_cls v) f = Ok k) ->
  se_reg V k = Some r -> se_name V k name = Ok (Some name) ->
  sexec V n (SDeser c d f) s = (Ok l, s1) ->
  (forall a', sexec V (S n3) (SNew c' name a') (shistory V n2 p s1) = (Ok l, shistory V n2 p s1)) /\
  (forall d' f', names (shistory V n2 p s1) d' name -> name <> INone ->
     fst (sexec V (S n3) (SDeser c' d' f') (shistory V n2 p s1)) = Ok l).
Proof. exact same_deser. Qed.
Print Assumptions C38_deserialized_once.

(** Different names, or the same name in different registries: different
    instances. *)
Theorem C38_names_differ : forall V ds n0 p0 n c name a l s1 r n2 p n3 c' name' a' l' s3 r',
  let s := shistory V n0 p0 (sstart ds) in
  se_reg V c = Some r -> se_reg V c' = Some r' ->
  sexec V n (SNew c name a) s = (Ok l, s1) ->
  sexec V n3 (SNew c' name' a') (shistory V n2 p s1) = (Ok l', s3) ->
  (r, name) <> (r', name') -> l <> l'.
Proof. exact distinct. Qed.
Print Assumptions C38_names_differ.

(** An instance whose construction failed is never registered ... *)
Theorem C38_failed_construction : forall V ds n0 p0 n c name a e s1 r n2 p,
  let s := shistory V n0 p0 (sstart ds) in
  se_reg V c = Some r -> sexec V n (SNew c name a) s = (Exc e, s1) ->
  s_objs s1 <> s_objs s ->
  forall k l, In (k, l) (s_reg (shistory V n2 p s1)) -> l <> length (s_objs s).
Proof. exact failed_new. Qed.
Print Assumptions C38_failed_construction.
(** ... and if no code that it called made other singletons, nothing was. *)
Theorem C38_failed_construction_quiet : forall V n c name a s e s1,
  (forall l, quiet (se_begin V c l name)) -> (forall l, quiet (se_init V c l a)) ->
  sexec V n (SNew c name a) s = (Exc e, s1) -> s_reg s1 = s_reg s.
Proof. exact failed_quiet. Qed.
Print Assumptions C38_failed_construction_quiet.

(** Serializing an instance and deserializing the result gives the instance. *)
Theorem C38_round_trip : forall V ds n0 p0 n c name a l s1 r n2 p n3 rest d s3 c' f n4,
  let s := shistory V n0 p0 (sstart ds) in
  se_reg V c = Some r -> se_reg V c' = Some r -> name <> INone ->
  sexec V n (SNew c name a) s = (Ok l, s1) ->
  sexec V n3 (SSer l rest) (shistory V n2 p s1) = (Ok d, s3) ->
  names s3 d name /\ fst (sexec V (S n4) (SDeser c' d f) s3) = Ok l.
Proof. exact round_trip. Qed.
Print Assumptions C38_round_trip.

(** Classes 0 and 1 share a registry, class 2 has its own; constructing with
    keyword 1 fails, with 2 makes another singleton "b" first, with 3 makes one
    of its own name; deserialization with the rest 4 fails at the end. *)
Definition V_ex : senv := SE
  (fun c => if Nat.ltb c 2 then Some 0 else if Nat.eqb c 2 then Some 1 else None)
  (fun c n f => if df_trusted f then match n with Some "C1" => Ok 1 | _ => Ok c end else Ok c)
  (fun _ _ _ => SRet) (fun _ n => Ok (Some n)) (fun _ _ _ => SRet)
  (fun c l a => match a with
                | 1 => SRaise (ExUser 0)
                | 2 => SDo (SNew 1 (IKey "b") 0) (fun r => match r with Ok _ => SRet | Exc e => SRaise e end)
                | 3 => SDo (SNew 1 (IKey "a") 0) (fun r => match r with Ok _ => SRet | Exc e => SRaise e end)
                | _ => SRet
                end)
  (fun _ _ v _ => if Nat.eqb (sd_rest v) 4 then SRaise (ExUser 1) else SRet)
  (fun _ _ => SRet) (fun _ => true).
Definition sdone (o : sop) : sprog := SDo o (fun _ => SRet).
Example C38_ex :
  let s1 := snd (sexec V_ex 5 (SNew 0 (IKey "a") 2) (sstart [SD (Some (IKey "a")) (Some (IKey "x")) None 0; SD None (Some (IKey "c")) (Some "C1") 0])) in
  (* "a" is constructed first and gets number 0, "b" meanwhile gets 1 *)
  fst (sexec V_ex 5 (SNew 0 (IKey "a") 2) (sstart [])) = Ok 0 /\
  s_reg s1 = [((0, IKey "a"), 0); ((0, IKey "b"), 1)] /\
  names s1 0 (IKey "a") /\ names s1 1 (IKey "c") /\
  fst (sexec V_ex 5 (SDeser 1 0 (DF false false false)) s1) = Ok 0 /\
  fst (sexec V_ex 5 (SDeser 0 1 (DF true false false)) s1) = Ok 2 /\
  fst (sexec V_ex 5 (SNew 2 (IKey "a") 0) s1) = Ok 2 /\
  fst (sexec V_ex 5 (SNew 0 (IKey "c") 1) s1) = Exc (ExUser 0) /\
  s_reg (snd (sexec V_ex 5 (SNew 0 (IKey "c") 1) s1)) = s_reg s1 /\
  s_objs (snd (sexec V_ex 5 (SNew 0 (IKey "c") 1) s1)) <> s_objs s1 /\
  fst (sexec V_ex 5 (SSer 1 (SD None None None 0)) s1) = Ok 2.
Proof.
  cbv zeta. repeat split; try reflexivity; try (now eexists; split; [reflexivity|reflexivity]).
  vm_compute. discriminate.
Qed.

(** What is rejected, and with which error; nothing is registered: names that
    cannot be hashed (TypeError), values that are no dictionary and dictionaries
    without a name (ValueError). *)
Theorem C38_rejected_new : forall V n c r a s, se_reg V c = Some r -> sexec V (S n) (SNew c IBad a) s = (Exc ExType, s).
Proof. exact rejected_new. Qed.
Print Assumptions C38_rejected_new.
Theorem C38_rejected : forall V n c f s,
  (forall d, nth_error (s_dicts s) d = None -> sexec V (S n) (SDeser c d f) s = (Exc ExValue, s)) /\
  (forall d, names s d INone \/ (exists v, nth_error (s_dicts s) d = Some v /\ sd_id v = None /\ sd_name v = None) ->
     exists s', sexec V (S n) (SDeser c d f) s = (Exc ExValue, s') /\ s_reg s' = s_reg s /\ s_objs s' = s_objs s) /\
  (forall d, names s d IBad -> exists s', sexec V (S n) (SDeser c d f) s = (Exc ExType, s') /\ s_reg s' = s_reg s /\ s_objs s' = s_objs s).
Proof. exact rejected_deser. Qed.
Print Assumptions C38_rejected.
(** A class without a 'name' property that can be set: if it is a Singleton
    class, an unknown name raises TypeError; if the dictionary names a class
    that is not, this is constructed. *)
Theorem C38_without_name : forall V n c f s d x r k,
  se_reg V c = Some r -> names s d (IKey x) -> lookup (s_reg s) (r, IKey x) = None ->
  (forall v, nth_error (s_dicts s) d = Some v -> se_class V c (sd_cls v) f = Ok k) -> (forall v, se_state V k v f = SRet) ->
  se_name V k (IKey x) = Ok None ->
  (forall r', se_reg V k = Some r' -> exists s', sexec V (S n) (SDeser c d f) s = (Exc ExType, s') /\ s_reg s' = s_reg s /\ s_objs s' = s_objs s) /\
  (se_reg V k = None -> (forall l v, se_after V k l v f = SRet) -> (forall l y, se_rename V l y = SRet) ->
     exists v s', nth_error (s_dicts s) d = Some v /\ s_reg s' = s_reg s /\ s_objs s' = s_objs s /\
       sexec V (S n) (SDeser c d f) s = sexec V n (SNew k INone (sd_rest v)) s').
Proof. exact deser_without_name. Qed.
Print Assumptions C38_without_name.
Example C38_rejected_ex :
  let s := sstart [SD None None None 0; SD (Some IBad) (Some (IKey "a")) None 0; SD None (Some (IKey "a")) None 0] in
  let V := SE (se_reg V_ex) (se_class V_ex) (se_state V_ex) (fun _ _ => Ok None) (se_begin V_ex) (se_init V_ex) (se_after V_ex) (se_rename V_ex) (se_truthy V_ex) in
  map (fun d => fst (sexec V 5 (SDeser 0 d (DF false false false)) s)) [0; 1; 2; 3] = [Exc ExValue; Exc ExType; Exc ExType; Exc ExValue] /\
  fst (sexec V 5 (SNew 1 IBad 0) s) = Exc ExType /\ names s 1 IBad.
Proof. cbv zeta. split; [vm_compute; reflexivity|]. split; [reflexivity|]. eexists. split; reflexivity. Qed.

(** Not so if the code that a construction calls constructs the same name: two
    instances have been registered under one name. *)
Theorem C38_reentrant_refuted : exists V c name a s1,
  sexec V 5 (SNew c name a) (sstart []) = (Ok 0, s1) /\
  In ((0, name), 0) (s_reg s1) /\ In ((0, name), 1) (s_reg s1).
Proof. exists V_ex, 0, (IKey "a"), 3. eexists. repeat split; simpl; auto. Qed.
Print Assumptions C38_reentrant_refuted.
(** A deserialization that fails may have registered its instance. *)
Theorem C38_failed_deserialization_refuted : exists V c d s e s1,
  sexec V 5 (SDeser c d (DF false false true)) s = (Exc e, s1) /\ s_reg s = [] /\
  s_reg s1 = [((0, IKey "a"), 0)].
Proof. exists V_ex, 0, 0, (sstart [SD None (Some (IKey "a")) None 4]). do 2 eexists. repeat split. Qed.
Print Assumptions C38_failed_deserialization_refuted.
(** Deserializing removes '_singleton_id' from the caller's dictionary: the
    same dictionary a second time gives another instance. *)
Theorem C38_dictionary_reused_refuted : exists V c d s s1 f,
  sexec V 5 (SDeser c d f) s = (Ok 0, s1) /\ fst (sexec V 5 (SDeser c d f) s1) = Ok 1.
Proof.
  exists V_ex, 0, 0, (sstart [SD (Some (IKey "a")) (Some (IKey "x")) None 0]). eexists.
  exists (DF false false false). split; reflexivity.
Qed.
Print Assumptions C38_dictionary_reused_refuted.

(** * C36: uids are unique and loadable *)

(** An enabled assignment of a uid that is registered, and is not the
    instance's own, is a ValidationError and changes nothing. *)
Theorem C36_used_uid_rejected : forall s l u u' l', uid_is s l u' -> u' <> u -> load_uid s u = Some l' ->
  set_uid true l (KUid u) s = (Exc (ExValidation []), s).
Proof. exact set_used_spec. Qed.
Print Assumptions C36_used_uid_rejected.

(** An unused uid, and the instance's own, are accepted. *)
Theorem C36_own_or_unused_uid_accepted : forall s l u u', uid_is s l u' -> u' = u \/ load_uid s u = None ->
  exists s', set_uid true l (KUid u) s = (Ok tt, s').
Proof. exact set_free. Qed.
Print Assumptions C36_own_or_unused_uid_accepted.
Example C36_own_or_unused_uid_accepted_ex :
  let s := fst (uhistory [UNew true "d0" (Some "a") false]) in
  uid_is s 0 "a" /\ load_uid s "a" = Some 0 /\ fst (set_uid true 0 (KUid "a") s) = Ok tt /\ load_uid s "b" = None /\ fst (set_uid true 0 (KUid "b") s) = Ok tt.
Proof. repeat split. Qed.

(** After a successful enabled assignment the instance has the uid and is loaded by it. *)
Theorem C36_assigned_is_loaded : forall s l u s', l < length (us_uids s) -> set_uid true l (KUid u) s = (Ok tt, s') ->
  uid_is s' l u /\ load_uid s' u = Some l.
Proof. exact set_ok. Qed.
Print Assumptions C36_assigned_is_loaded.

(** In every history with listeners enabled throughout, in which default uids are
    fresh: the uid of an instance loads that instance, whatever constructions and
    assignments failed or succeeded. *)
Theorem C36_uid_loads_instance : forall ops, Forall enabled ops -> fresh_defaults ops ->
  forall l u, In l (snd (uhistory ops)) -> uid_is (fst (uhistory ops)) l u ->
  load_uid (fst (uhistory ops)) u = Some l.
Proof. exact unique_load. Qed.
Print Assumptions C36_uid_loads_instance.

(** So no two instances have the same uid. *)
Theorem C36_unique : forall ops, Forall enabled ops -> fresh_defaults ops ->
  forall l l' u, In l (snd (uhistory ops)) -> In l' (snd (uhistory ops)) ->
  uid_is (fst (uhistory ops)) l u -> uid_is (fst (uhistory ops)) l' u -> l = l'.
Proof. exact unique_uids. Qed.
Print Assumptions C36_unique.

Definition uops_ex : list uop :=
  [UNew true "d0" None false; UNew true "d1" (Some "a") false; USet true 0 (KUid "a"); USet true 0 (KUid "b");
   UNew true "d2" (Some "b") false; USet true 1 KUndef; USet true 1 (KUid "c")].
Lemma fresh_uops_ex : fresh_defaults uops_ex.
Proof.
  intros pre e d kw f post H.
  destruct pre as [|o0 [|o1 [|o2 [|o3 [|o4 [|o5 [|o6 [|o7 pre]]]]]]]]; try discriminate; injection H; intros; subst; try reflexivity.
Qed.
Example C36_ex : Forall enabled uops_ex /\ fresh_defaults uops_ex /\
  snd (uhistory uops_ex) = [1; 0] /\ us_uids (fst (uhistory uops_ex)) = [Some "b"; Some "c"; Some "d2"] /\
  load_uid (fst (uhistory uops_ex)) "b" = Some 0 /\ load_uid (fst (uhistory uops_ex)) "c" = Some 1 /\
  fst (set_uid true 0 (KUid "c") (fst (uhistory uops_ex))) = Exc (ExValidation []).
Proof. split; [repeat constructor|]. split; [exact fresh_uops_ex|]. repeat split. Qed.

(** With listeners disabled uniqueness is not checked. *)
Theorem C36_listeners_disabled_refuted : exists ops l l' u, fresh_defaults ops /\
  In l (snd (uhistory ops)) /\ In l' (snd (uhistory ops)) /\ l <> l' /\
  uid_is (fst (uhistory ops)) l u /\ uid_is (fst (uhistory ops)) l' u.
Proof.
  exists [UNew true "d0" (Some "a") false; UNew true "d1" None false; USet false 1 (KUid "a")], 0, 1, "a".
  split; [|repeat split; simpl; auto; discriminate].
  intros pre e d kw f post H. destruct pre as [|o0 [|o1 [|o2 [|o3 pre]]]]; try discriminate; injection H; intros; subst; reflexivity.
Qed.
Print Assumptions C36_listeners_disabled_refuted.

(** A construction that fails because of another keyword keeps the uid: the
    corrected construction fails too, although no instance has that uid. *)
Theorem C36_failed_construction_refuted : exists s u d d', load_uid s u = None /\ load_uid s d = None /\ load_uid s d' = None /\
  let (r, s') := new_uid true d (Some u) true s in
  r = Exc (ExValidation []) /\ fst (new_uid true d' (Some u) false s') = Exc (ExValidation []).
Proof. exists (US [] []), "a", "d0", "d1". repeat split. Qed.
Print Assumptions C36_failed_construction_refuted.

(** Deleting the uid registers [undefined] as a uid, so deleting the uid of a
    second instance fails. *)
Theorem C36_second_deletion_refuted : exists s, fst (set_uid true 0 KUndef s) = Ok tt /\
  fst (set_uid true 1 KUndef s) = Ok tt /\
  fst (set_uid true 1 KUndef (snd (set_uid true 0 KUndef s))) = Exc (ExValidation []).
Proof. exists (fst (uhistory [UNew true "d0" None false; UNew true "d1" None false])). repeat split. Qed.
Print Assumptions C36_second_deletion_refuted.

(** A uid given up stays registered: load returns an instance with another uid. *)
Theorem C36_stale_uid_refuted : exists ops l u u', Forall enabled ops /\ fresh_defaults ops /\
  load_uid (fst (uhistory ops)) u = Some l /\ uid_is (fst (uhistory ops)) l u' /\ u <> u'.
Proof.
  exists [UNew true "d0" (Some "a") false; USet true 0 (KUid "b")], 0, "a", "b".
  split; [repeat constructor|]. split; [|repeat split; discriminate].
  intros pre e d kw f post H. destruct pre as [|o0 [|o1 [|o2 pre]]]; try discriminate; injection H; intros; subst; reflexivity.
Qed.
Print Assumptions C36_stale_uid_refuted.

(** * C37: flat serialization of graphs *)

(** Serialization terminates on every finite graph, whatever its cycles: the
    recursion is never deeper than the number of instances. *)
Theorem C37_serialize_terminates : forall h l n, graph h l -> length h < n -> exists d, uid_serialize h n l = Ok d.
Proof. exact serialize_total. Qed.
Print Assumptions C37_serialize_terminates.

(** The dictionary has exactly the root entry and one entry for every reachable
    instance, its class and its values with instances replaced by uids. *)
Theorem C37_serialize_entries : forall h l n d, graph h l -> distinct_uids h l -> uid_serialize h n l = Ok d ->
  NoDup (dkeys d) /\
  forall k e, dget d k = Some e <->
    (k = "__root__" /\ e = JRoot (uid_at h l)) \/
    (exists m x, reach h l m /\ nth_error h m = Some x /\ k = un_uid x /\ e = JNode (node_json (uid_at h) x)).
Proof. exact serialize_entries. Qed.
Print Assumptions C37_serialize_entries.

(** If deserialization of the dictionary returns, into whatever heap and
    registry, it has built an isomorphic graph of new instances, registered
    under their uids, and left the instances that existed alone. *)
Theorem C37_deserialize_isomorphic : forall fresh h l n d h2 inst next n2 l2 s2,
  graph h l -> distinct_uids h l -> uid_serialize h n l = Ok d ->
  (forall i, next <= i -> dget d (fresh i) = None) ->
  uid_deserialize fresh n2 d h2 inst next = (Ok l2, s2) ->
  exists f : nat -> nat, f l = l2 /\
    (forall a x, reach h l a -> nth_error h a = Some x ->
       nth_error (ds_heap s2) (f a) = Some (node_map f x) /\ length h2 <= f a /\ dget (ds_inst s2) (un_uid x) = Some (f a)) /\
    (forall a b, reach h l a -> reach h l b -> f a = f b -> a = b) /\
    (forall m, m < length h2 -> nth_error (ds_heap s2) m = nth_error h2 m).
Proof. exact deserialize_iso. Qed.
Print Assumptions C37_deserialize_isomorphic.

(** The root decides at once: without one, or with one that is neither
    registered nor in the dictionary, or both, or that is no instance there,
    ValueError is raised; one that is registered is returned.  Nothing else
    happens, except in the case of an entry that is no dictionary. *)
Theorem C37_root : forall fresh n d h inst next r s2,
  uid_deserialize fresh (S n) d h inst next = (r, s2) ->
  ((forall u, dget d "__root__" <> Some (JRoot u)) -> r = Exc ExValue /\ ds_heap s2 = h /\ ds_inst s2 = inst) /\
  (forall u, dget d "__root__" = Some (JRoot u) ->
     (forall l, dget inst u = Some l -> dget d u = None -> r = Ok l /\ ds_heap s2 = h /\ ds_inst s2 = inst) /\
     ((dget inst u <> None /\ dget d u <> None) \/ (dget inst u = None /\ dget d u = None) ->
        r = Exc ExValue /\ ds_heap s2 = h /\ ds_inst s2 = inst) /\
     (dget inst u = None -> (forall j, dget d u <> Some (JNode j)) -> r = Exc ExValue)).
Proof. exact deserialize_root. Qed.
Print Assumptions C37_root.
Example C37_root_ex : let fresh := fun _ : nat => "new" in
  fst (uid_deserialize fresh 3 [("__root__", JRoot "a")] [] [("a", 7)] 0) = Ok 7 /\
  fst (uid_deserialize fresh 3 [("__root__", JRoot "a"); ("a", JNode (JN "a" 0 []))] [] [("a", 7)] 0) = Exc ExValue /\
  fst (uid_deserialize fresh 3 [("__root__", JRoot "a")] [] [] 0) = Exc ExValue /\
  fst (uid_deserialize fresh 3 [("a", JNode (JN "a" 0 []))] [] [] 0) = Exc ExValue /\
  fst (uid_deserialize fresh 3 [("__root__", JRoot "a"); ("a", JPending)] [] [] 0) = Exc ExValue.
Proof. vm_compute. repeat split. Qed.

(** It does return if none of the uids is registered, default uids are fresh
    and no instance is referred to twice: trees, and trees with a reference
    back to the root. *)
Theorem C37_deserialize_succeeds : forall fresh h l n d h2 inst next n2,
  graph h l -> distinct_uids h l -> uid_serialize h n l = Ok d ->
  (forall i, next <= i -> dget d (fresh i) = None) ->
  (forall a, reach h l a -> dget inst (uid_at h a) = None) ->
  (forall ls, NoDup ls -> Forall (reach h l) ls -> NoDup (flat_map (refs_at h) ls)) ->
  length d < n2 ->
  exists l2 s2, uid_deserialize fresh n2 d h2 inst next = (Ok l2, s2).
Proof. exact deserialize_succeeds. Qed.
Print Assumptions C37_deserialize_succeeds.

(** a -> [b, c], b -> a; an instance x that is not reachable refers to b. *)
Definition g_ex : list unode :=
  [UN "a" 1 [("n", UData 5); ("kids", UList [URef 1; URef 2])]; UN "b" 2 [("up", URef 0)]; UN "c" 2 [("n", UData 7)];
   UN "x" 1 [("kids", UList [URef 1])]].
Definition uuid_ex (n : nat) : string := String "u" (string_of_list_ascii (repeat "u"%char n)).
Lemma reach_ex m : reach g_ex 0 m -> m = 0 \/ m = 1 \/ m = 2.
Proof.
  induction 1 as [|m k Hm IH Hk]; [auto|]. destruct IH as [->|[->| ->]]; simpl in Hk; intuition congruence.
Qed.
Lemma g_ex_ok : graph g_ex 0 /\ distinct_uids g_ex 0 /\ reach g_ex 0 1 /\ reach g_ex 0 2.
Proof.
  split; [|split; [split|split]].
  - intros m Hm. apply reach_ex in Hm. simpl. lia.
  - intros a b Ha Hb. apply reach_ex in Ha. apply reach_ex in Hb.
    destruct Ha as [->|[->| ->]]; destruct Hb as [->|[->| ->]]; cbv; congruence.
  - intros a Ha. apply reach_ex in Ha. destruct Ha as [->|[->| ->]]; discriminate.
  - apply reach_step with 0; [constructor|simpl; auto].
  - apply reach_step with 0; [constructor|simpl; auto].
Qed.
Lemma g_ex_once : forall ls, NoDup ls -> Forall (reach g_ex 0) ls -> NoDup (flat_map (refs_at g_ex) ls).
Proof.
  intros ls Hnd Hr. rewrite Forall_forall in Hr.
  assert (Hlt : forall m, In m ls -> In m [0; 1; 2]) by (intros m Hm; apply Hr, reach_ex in Hm; simpl; intuition).
  assert (Hc : forall a b k, In k (refs_at g_ex a) -> In k (refs_at g_ex b) -> In a [0;1;2] -> In b [0;1;2] -> a = b).
  { intros a b k Ha Hb Hia Hib. simpl in Hia, Hib.
    destruct Hia as [<-|[<-|[<-|[]]]]; destruct Hib as [<-|[<-|[<-|[]]]]; simpl in Ha, Hb; intuition congruence. }
  assert (Hn : forall a, In a [0;1;2] -> NoDup (refs_at g_ex a)).
  { intros a Ha. simpl in Ha. destruct Ha as [<-|[<-|[<-|[]]]]; simpl; repeat constructor; simpl; intuition congruence. }
  clear Hr. induction Hnd as [|a ls Ha Hls IH]; [constructor|]. simpl.
  assert (Hd : forall k, In k (refs_at g_ex a) -> ~ In k (flat_map (refs_at g_ex) ls)).
  { intros k Hk Hc'. apply in_flat_map in Hc' as (b & Hb & Hkb).
    assert (a = b) by (apply (Hc a b k); auto; apply Hlt; [now left|now right]). subst b. contradiction. }
  assert (HNa : NoDup (refs_at g_ex a)) by (apply Hn, Hlt; now left).
  assert (HNl : NoDup (flat_map (refs_at g_ex) ls)) by (apply IH; intros m Hm; apply Hlt; now right).
  revert HNa Hd. generalize (refs_at g_ex a). intros r HNa Hd. induction HNa as [|k r Hk Hr IHr]; [exact HNl|].
  simpl. constructor.
  - intros Hin. apply in_app_or in Hin as [Hin|Hin]; [contradiction|]. apply (Hd k); [now left|exact Hin].
  - apply IHr. intros j Hj. apply Hd. now right.
Qed.
Definition flat_ex : dict jentry :=
  [("__root__", JRoot "a");
   ("a", JNode (JN "a" 1 [("n", JData 5); ("kids", JList [JKey "b"; JKey "c"])]));
   ("b", JNode (JN "b" 2 [("up", JKey "a")])); ("c", JNode (JN "c" 2 [("n", JData 7)]))].
Example C37_ex : graph g_ex 0 /\ distinct_uids g_ex 0 /\ reach g_ex 0 1 /\ reach g_ex 0 2 /\
  (forall ls, NoDup ls -> Forall (reach g_ex 0) ls -> NoDup (flat_map (refs_at g_ex) ls)) /\
  uid_serialize g_ex 5 0 = Ok flat_ex /\
  (forall i, dget flat_ex (uuid_ex i) = None) /\
  let (r, s) := uid_deserialize uuid_ex 5 flat_ex [UN "old" 0 []] [("old", 0)] 0 in
  r = Ok 1 /\
  ds_heap s = [UN "old" 0 []; UN "a" 1 [("n", UData 5); ("kids", UList [URef 2; URef 3])]; UN "b" 2 [("up", URef 1)];
               UN "c" 2 [("n", UData 7)]] /\
  dget (ds_inst s) "b" = Some 2.
Proof.
  destruct g_ex_ok as (H1 & H2 & H3 & H4). split; [exact H1|]. split; [exact H2|]. split; [exact H3|]. split; [exact H4|].
  split; [exact g_ex_once|]. split; [reflexivity|]. split; [intros i; vm_compute; reflexivity|]. vm_compute. repeat split.
Qed.

(** The converse of what the docstring promises: an instance referred to twice
    (a -> [b, c], b -> d, c -> d) cannot be deserialized, not even into an
    empty registry: "UID already used". *)
Theorem C37_shared_reference_refuted : exists h l d fresh, graph h l /\ distinct_uids h l /\
  uid_serialize h 5 l = Ok d /\ (forall i j : nat, fresh i = fresh j -> i = j) /\ (forall i, dget d (fresh i) = None) /\
  forall n, 5 <= n -> fst (uid_deserialize fresh n d [] [] 0) = Exc ExValue.
Proof.
  set (h := [UN "a" 0 [("kids", UList [URef 1; URef 2])]; UN "b" 0 [("d", URef 3)]; UN "c" 0 [("d", URef 3)]; UN "d" 0 []]).
  assert (Hr : forall m, reach h 0 m -> In m [0; 1; 2; 3]).
  { induction 1 as [|m k Hm IH Hk]; [simpl; auto|]. simpl in IH.
    destruct IH as [<-|[<-|[<-|[<-|[]]]]]; simpl in Hk |- *; intuition. }
  exists h, 0, (match uid_serialize h 5 0 with Ok d => d | Exc _ => [] end),
    uuid_ex.
  split; [|split; [split|split; [reflexivity|split; [|split]]]].
  - intros m Hm. apply Hr in Hm. simpl in *. intuition lia.
  - intros a b Ha Hb. apply Hr in Ha. apply Hr in Hb. simpl in Ha, Hb.
    destruct Ha as [<-|[<-|[<-|[<-|[]]]]]; destruct Hb as [<-|[<-|[<-|[<-|[]]]]]; cbv; congruence.
  - intros a Ha. apply Hr in Ha. simpl in Ha. destruct Ha as [<-|[<-|[<-|[<-|[]]]]]; discriminate.
  - intros i j Hij. injection Hij as Hij. assert (Hl : list_ascii_of_string (string_of_list_ascii (repeat "u"%char i)) =
      list_ascii_of_string (string_of_list_ascii (repeat "u"%char j))) by now rewrite Hij.
    rewrite !list_ascii_of_string_of_list_ascii in Hl. apply (f_equal (@length _)) in Hl. now rewrite !repeat_length in Hl.
  - intros i. reflexivity.
  - intros n Hn. do 5 (destruct n as [|n]; [lia|]). vm_compute. reflexivity.
Qed.
Print Assumptions C37_shared_reference_refuted.

(** Nor can the same instance be deserialized while it exists. *)
Theorem C37_existing_instance_refuted : exists h l d, graph h l /\ distinct_uids h l /\ uid_serialize h 5 l = Ok d /\
  forall n, 1 <= n -> fst (uid_deserialize uuid_ex n d h [("a", l)] 0) = Exc ExValue.
Proof.
  exists g_ex, 0, flat_ex. destruct g_ex_ok as (H1 & H2 & _). split; [exact H1|]. split; [exact H2|]. split; [reflexivity|].
  intros [|n] Hn; [lia|reflexivity].
Qed.
Print Assumptions C37_existing_instance_refuted.
