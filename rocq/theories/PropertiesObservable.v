(** Property theorems about observable containers ([C33]). *)
From Verif Require Import PyBase Observable ObservableSpec ObservableFacts.
Local Open Scope list_scope.
Local Open Scope nat_scope.

(** * C33: mutations of stored containers are assignments *)

(** Listeners that do nothing, a container that is the observed value of [k].
    If the method itself raises, nothing changes.  If the new items are not
    valid, the property, its container and the trace stay.  Otherwise a new
    observed container with the validated new items becomes the value, with
    one notification of each kind (no change notification if the items are
    equal); the old container keeps its items. *)
Theorem C33_stored_mutation : forall V, silent_env V -> forall n s k c m xs, observed s k c -> holds s c xs ->
  match oe_mutate V m xs with
  | Exc e => oexec V (S n) (OMut c m) s = (Exc e, s)
  | Ok (x, ys) =>
      match oe_valid V k ys with
      | Exc e => exists s', oexec V (S n) (OMut c m) s = (Exc e, s') /\
          os_back s' = os_back s /\ os_trace s' = os_trace s /\ nth_error (os_conts s') c = nth_error (os_conts s) c
      | Ok zs => exists s' c', oexec V (S n) (OMut c m) s = (Ok (RItem x), s') /\
          length (os_conts s) <= c' /\ observed s' k c' /\ holds s' c' zs /\
          (forall k', k' <> k -> os_back s' k' = os_back s k') /\ holds s' c xs /\
          os_trace s' = ONotify k PhSet (Some c') ::
            (if oe_equal V k xs zs then [] else [ONotify k PhChange (Some c')]) ++
            OWrite k (Some c') :: ONotify k PhValidate (Some c') :: os_trace s
      end
  end.
Proof. exact stored_mutation. Qed.
Print Assumptions C33_stored_mutation.

(** Containers that are not stored mutate in place, without notifications. *)
Theorem C33_stale_mutation : forall V n s c m xs, stale s c -> holds s c xs ->
  match oe_mutate V m xs with
  | Exc e => oexec V (S n) (OMut c m) s = (Exc e, s)
  | Ok (x, ys) => exists s', oexec V (S n) (OMut c m) s = (Ok (RItem x), s') /\
      os_back s' = os_back s /\ os_trace s' = os_trace s /\ holds s' c ys /\
      forall c', c' <> c -> nth_error (os_conts s') c' = nth_error (os_conts s) c'
  end.
Proof. exact stale_mutation. Qed.
Print Assumptions C33_stale_mutation.

(** Whatever listeners do, short of in-place operators and replaced values:
    after every history of such operations every stored container is observed. *)
Theorem C33_always_observed : forall V, plain_env V -> forall n ops, Forall plain_op ops ->
  forall k c, os_back (ohistory V n ops ostart) k = Some c -> observed (ohistory V n ops ostart) k c.
Proof. exact always_observed. Qed.
Print Assumptions C33_always_observed.

(** If moreover validators change nothing, every stored container always holds
    items that its property made from some value when it validated it. *)
Theorem C33_always_valid : forall V, plain_env V -> reading_validators V -> forall n ops, Forall plain_op ops ->
  forall k c, os_back (ohistory V n ops ostart) k = Some c ->
  exists xs ys, oe_valid V k xs = Ok ys /\ holds (ohistory V n ops ostart) c ys.
Proof. exact always_valid. Qed.
Print Assumptions C33_always_valid.

(** No operation changes the value of a property or the items of its container
    without writing the property, and every write comes with a validate
    notification of the same value. *)
Theorem C33_no_silent_change : forall V, plain_env V -> forall n o s r s', plain_op o -> all_observed s ->
  oexec V n o s = (r, s') ->
  exists new, os_trace s' = new ++ os_trace s /\
    (forall k v, In (OWrite k v) new -> In (ONotify k PhValidate v) new) /\
    forall k, (forall v, ~ In (OWrite k v) new) -> os_back s' k = os_back s k /\
      forall c, os_back s k = Some c -> nth_error (os_conts s') c = nth_error (os_conts s) c.
Proof. exact no_silent_change. Qed.
Print Assumptions C33_no_silent_change.

(** A mutation that raises, for whatever reason, without having written the
    property leaves its container stored, unchanged and observed. *)
Theorem C33_failed_mutation : forall V, plain_env V -> forall n s k c m e s', all_observed s -> os_back s k = Some c ->
  oexec V n (OMut c m) s = (Exc e, s') ->
  exists new, os_trace s' = new ++ os_trace s /\
    ((forall v, ~ In (OWrite k v) new) -> os_back s' k = Some c /\ nth_error (os_conts s') c = nth_error (os_conts s) c).
Proof. exact failed_mutation. Qed.
Print Assumptions C33_failed_mutation.

(** Lists of numbers up to 10; method [m < 50] appends m, 50 clears, others
    raise.  Listeners: none; or an observer of property 0 that stores its items
    in property 1 and a validator of property 1 that raises while container 7
    is the value of property 0. *)
Definition v_ex (listen : nat -> ophase -> option nat -> oprog) : oenv :=
  OE (fun _ xs => if forallb (fun x => Nat.leb x 10) xs then Ok xs else Exc (ExValidation []))
     (fun m xs => if Nat.ltb m 50 then Ok (m, xs ++ [m]) else if Nat.eqb m 50 then Ok (0, []) else Exc ExValue)
     (fun _ a b => if list_eq_dec Nat.eq_dec a b then true else false) listen (fun _ _ => None).
Definition veto (r : res oresult) : oprog :=
  match r with Ok (RCont c) => if Nat.eqb c 7 then OpRaise (ExUser 1) else OpRet | _ => OpRet end.
Definition follow (r : res oresult) : oprog := match r with Ok _ => OpRet | Exc e => OpRaise e end.
Definition listen_ex (k : nat) (ph : ophase) (v : option nat) : oprog :=
  match k, ph, v with
  | 0, PhSet, Some c => OpDo (OAssignObj 1 c) follow
  | 1, PhValidate, _ => OpDo (ORead 0) veto
  | _, _, _ => OpRet
  end.
Definition V_silent : oenv := v_ex (fun _ _ _ => OpRet).
Definition V_listen : oenv := v_ex listen_ex.
Definition ops_ex : list oop := [OAssign 0 [1; 2]; OMut 0 3; OMut 0 4; OMut 2 77; OMut 2 20; OMut 2 8].
Lemma V_listen_plain : plain_env V_listen /\ reading_validators V_listen.
Proof.
  assert (Hv : forall r, plain (veto r) /\ reading (veto r)).
  { intros [[|c|x]|e]; simpl; try (split; constructor). destruct (Nat.eqb c 7); split; constructor. }
  assert (Hf : forall r, plain (follow r)) by (intros [r|e]; constructor).
  split; [split; [|reflexivity]|].
  - intros [|[|k]] [] [c|]; simpl; try constructor; simpl; auto; intros r; apply Hv.
  - intros [|[|k]] [c|]; simpl; try constructor; intros r; apply Hv.
Qed.
Example C33_ex : silent_env V_silent /\ plain_env V_listen /\ reading_validators V_listen /\ Forall plain_op ops_ex /\
  (let s := ohistory V_silent 5 ops_ex ostart in
   (os_conts s, os_back s 0, length (os_trace s)) =
     ([OC [1; 2; 4] None; OC [1; 2; 3] None; OC [1; 2; 3] None; OC [1; 2; 3; 20] None; OC [1; 2; 3; 8] None;
       OC [1; 2; 3; 8] (Some 0)], Some 5, 12)) /\
  (let s := ohistory V_listen 5 ops_ex ostart in
   (os_back s 0, os_back s 1, fst (oexec V_listen 5 (OMut 3 20) s), fst (oexec V_listen 5 (OMut 3 8) s)) =
     (Some 3, Some 4, Exc (ExValidation []), Ok (RItem 8)) /\
   (let s' := snd (oexec V_listen 5 (OMut 3 8) s) in
    fst (oexec V_listen 5 (OMut 6 8) s') = Exc (ExUser 1) \/ os_back s' 0 = Some 6)).
Proof.
  split; [split; reflexivity|]. split; [apply V_listen_plain|]. split; [apply V_listen_plain|].
  split; [repeat constructor|]. split; [reflexivity|]. vm_compute. split; [reflexivity|]. auto.
Qed.

(** In-place operators end the observation: [x.a += [20]] fails, but then the
    value of [x.a] is not observed any more, and [x.a.append(20)] changes it to
    something invalid, without notifications. *)
Theorem C33_inplace_operator_refuted : exists V s k c m, silent_env V /\ all_observed s /\ observed s k c /\
  let (r1, s1) := oexec V 5 (OAug k m) s in
  let (r2, s2) := oexec V 5 (OMut c m) s1 in
  r1 = Exc (ExValidation []) /\ r2 = Ok (RItem m) /\ os_trace s2 = os_trace s /\ os_back s2 k = Some c /\
  exists ys, holds s2 c ys /\ oe_valid V k ys = Exc (ExValidation []).
Proof.
  exists V_silent, (ohistory V_silent 5 [OAssign 0 [1; 2]] ostart), 0, 0, 20.
  assert (Ho : observed (ohistory V_silent 5 [OAssign 0 [1; 2]] ostart) 0 0)
    by (split; [reflexivity|eexists; split; reflexivity]).
  split; [split; reflexivity|]. split.
  - intros k c H. destruct k as [|k]; [|discriminate]. injection H as <-. exact Ho.
  - split; [exact Ho|]. simpl. repeat split. exists [1; 2; 20]. split; [eexists; split; reflexivity|reflexivity].
Qed.
Print Assumptions C33_inplace_operator_refuted.

(** So does an in-place operator on a variable, although nothing is assigned:
    [y = x.a; y += [3]]. *)
Theorem C33_inplace_variable_refuted : exists V s k c m, silent_env V /\ observed s k c /\
  fst (oexec V 5 (OIop c m) s) <> Exc ExType /\ os_back (snd (oexec V 5 (OIop c m) s)) k = Some c /\
  ~ observed (snd (oexec V 5 (OIop c m) s)) k c.
Proof.
  exists V_silent, (ohistory V_silent 5 [OAssign 0 [1; 2]] ostart), 0, 0, 3.
  split; [split; reflexivity|]. split; [split; [reflexivity|eexists; split; reflexivity]|].
  split; [discriminate|]. split; [reflexivity|]. intros (_ & o & Ho & Hown). vm_compute in Ho. injection Ho as <-. discriminate.
Qed.
Print Assumptions C33_inplace_variable_refuted.

(** A validator that mutates the new value puts items that were never validated
    into the property. *)
Theorem C33_mutating_validator_refuted : exists V ops k c ys, plain_env V /\ Forall plain_op ops /\
  os_back (ohistory V 5 ops ostart) k = Some c /\ holds (ohistory V 5 ops ostart) c ys /\
  forall xs, oe_valid V k xs <> Ok ys.
Proof.
  exists (v_ex (fun k ph v => match ph, v with PhValidate, Some c => OpDo (OMut c 20) (fun _ => OpRet) | _, _ => OpRet end)),
    [OAssign 0 [1]], 0, 0, [1; 20].
  split; [split; [intros k [] [c|]; repeat constructor|reflexivity]|]. split; [repeat constructor|].
  split; [reflexivity|]. split; [eexists; split; reflexivity|]. intros xs. simpl.
  destruct (forallb (fun x => Nat.leb x 10) xs) eqn:E; [|discriminate]. intros H. injection H as ->. discriminate.
Qed.
Print Assumptions C33_mutating_validator_refuted.
