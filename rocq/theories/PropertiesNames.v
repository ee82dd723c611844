(** Property theorems about property objects: [C60] their names, [C61] what they
    may contain, [C62] tags and terms. *)
From Verif Require Import Names NamesSpec NamesFacts.
Local Open Scope string_scope.
Local Open Scope list_scope.
Local Open Scope nat_scope.

(** A Property 0, a List 1 of it, a Union 2 of the HasProperties class A (an
    Instance 3) and of the List, a GettableProperty 4. *)
Definition N_ops : list pop :=
  [PNew NProp [VStr "p"] []; PNew (NTuple (AObj 0)) [VStr "l"; VObj 0] []; PNew (NUnion (Some [AClass "A"; AObj 1])) [VStr "u"; VObj 2] [];
   PNew NGet [VStr "g"] [("default", VInt 3)]].
Definition N_heap : heap := run 9 [] N_ops.
Definition N_f (o : nat) : string := if Nat.eqb o 4 then "g" else "u".

(** ** C60: names *)
(** Declaring a class changes nothing but names, and gives every property in
    the class body, and all it contains, the name of the (last) attribute it is in. *)
Theorem C60_declared : forall n inh own h h', step n h (PClass inh own) = (h', Ok tt) ->
  same_but_names h h' /\
  (forall q l1 k o l2, own = l1 ++ (k, o) :: l2 -> inside h o q ->
     (forall k2 o2, In (k2, o2) l2 -> ~ inside h o2 q) -> slot h' q = Some k) /\
  (forall q, (forall k o, In (k, o) own -> ~ inside h o q) -> slot h' q = slot h q).
Proof. exact class_names. Qed.
Print Assumptions C60_declared.
Theorem C60_only_names : forall n inh own h h' r, step n h (PClass inh own) = (h', r) -> same_but_names h h'.
Proof. exact class_only_names. Qed.
Print Assumptions C60_only_names.
(** As long as objects are used under one name, the names stay those of the
    attributes, whatever else happens. *)
Theorem C60_kept : forall f n inh own ops h h1, step n h (PClass inh own) = (h1, Ok tt) ->
  one_name f n h (PClass inh own :: ops) ->
  forall k o q, In (k, o) own -> inside h o q -> slot (run n h1 ops) q = Some k.
Proof. exact declared_names. Qed.
Print Assumptions C60_kept.
(** It succeeds if the targets of Renamed properties exist, and raises TypeError otherwise. *)
Theorem C60_ends : forall n inh own h, acyclic h -> closed h -> length h < n ->
  (forall k o, In (k, o) own -> o < length h) ->
  ((exists h', step n h (PClass inh own) = (h', Ok tt)) <-> renamed_ok h inh own).
Proof. exact class_ends. Qed.
Print Assumptions C60_ends.
Theorem C60_error : forall n inh own h h' e, acyclic h -> closed h -> length h < n ->
  (forall k o, In (k, o) own -> o < length h) ->
  step n h (PClass inh own) = (h', Exc e) -> e = ExType /\ ~ renamed_ok h inh own.
Proof. exact class_error. Qed.
Print Assumptions C60_error.
Lemma N_holds o q : holds N_heap o q -> (o = 1 /\ q = 0) \/ (o = 2 /\ q = 3) \/ (o = 2 /\ q = 1).
Proof.
  intros (p & Hp & H). do 5 (destruct o as [|o]; [vm_compute in Hp; injection Hp as <-; cbn in H; intuition congruence|]).
  vm_compute in Hp. destruct o; discriminate.
Qed.
Example C60_ex :
  let own := [("u", 2); ("g", 4); ("old", 5)] in
  let h := run 9 N_heap [PNew (NRenamed "u") [VStr "u"] []] in
  map o_kind N_heap = [PkProp; PkTuple (Some 0); PkUnion [3; 1]; PkInst "A"; PkGet] /\
  acyclic N_heap /\ closed N_heap /\
  (exists h', step 9 h (PClass [] own) = (h', Ok tt) /\ map o_name h' = ["u"; "u"; "u"; "u"; "g"; "old"]) /\
  snd (step 9 h (PClass [] [("v", 2); ("old", 5)])) = Exc ExType /\
  snd (step 9 h (PClass ["u"] [("v", 2); ("old", 5)])) = Ok tt /\
  one_name N_f 9 N_heap [PClass [] [("u", 2); ("g", 4)]; PTag 2 [] [("x", VInt 1)]; PClass [] [("u", 1)]] /\
  inside N_heap 2 0.
Proof.
  cbv zeta. split; [vm_compute; reflexivity|]. split; [|split; [|split; [|split; [|split; [|split]]]]].
  - assert (R : forall a b, inside N_heap a b -> b = 0 \/ b = 3 \/ a = b \/ (a = 2 /\ b = 1)).
    { induction 1 as [|o c q Hh Hi IH]; auto. apply N_holds in Hh. intuition (subst; auto; try discriminate). }
    intros o c Hh Hi. apply N_holds in Hh. apply R in Hi. intuition (subst; discriminate).
  - intros o q Hh. apply N_holds in Hh. change (length N_heap) with 5. intuition (subst; auto with arith).
  - eexists. split; vm_compute; reflexivity.
  - vm_compute. reflexivity.
  - vm_compute. reflexivity.
  - assert (E : forall h, map o_kind h = map o_kind N_heap -> forall o q, holds h o q -> N_f o = N_f q).
    { intros h Eh o q (p & Hp & H). assert (Hh : holds N_heap o q).
      { assert (Ek : nth_error (map o_kind N_heap) o = Some (o_kind p)) by (rewrite <- Eh; now apply map_nth_error).
        destruct (nth_error N_heap o) as [p0|] eqn:E0.
        - rewrite (map_nth_error _ _ _ E0) in Ek. injection Ek as Ek. exists p0. split; auto. now rewrite Ek.
        - apply nth_error_None in E0. rewrite (proj2 (nth_error_None _ _)) in Ek; [discriminate|]. now rewrite map_length. }
      apply N_holds in Hh. intuition (subst; reflexivity). }
    cbn [one_name]. split; [now apply E|]. split; [intros k o [H|[H|[]]]; injection H as <- <-; reflexivity|].
    split; [apply E; vm_compute; reflexivity|]. split; [exact I|].
    split; [apply E; vm_compute; reflexivity|]. split; [intros k o [H|[]]; injection H as <- <-; reflexivity|].
    split; [apply E; vm_compute; reflexivity|exact I].
  - apply ins_step with 1; [eexists; split; [reflexivity|cbn; auto]|]. apply ins_step with 0; [eexists; split; [reflexivity|reflexivity]|].
    constructor.
Qed.

(** A property that is used for two attributes serves the last one only: both
    read and assign the value of "b", and nothing is notified under "a". *)
Theorem C60_shared_refuted : exists h own, forall n, 1 <= n -> exists h',
  step n h (PClass [] own) = (h', Ok tt) /\ own = [("a", 0); ("b", 0)] /\ slot h' 0 = Some "b".
Proof.
  exists [PO PkProp "" [] [] []], [("a", 0); ("b", 0)]. intros [|n] H; [inversion H|]. eexists. repeat split.
Qed.
Print Assumptions C60_shared_refuted.
(** Using a property of one class for another attribute of a second class
    changes the first class, even if the second declaration fails. *)
Theorem C60_second_class_refuted : exists h o h1 h2 e,
  step 2 h (PClass [] [("x", o)]) = (h1, Ok tt) /\ slot h1 o = Some "x" /\
  step 2 h1 (PClass [] [("y", o); ("z", 1)]) = (h2, Exc e) /\ slot h2 o = Some "y".
Proof.
  exists [PO PkProp "" [] [] []; PO (PkRenamed "w") "" [] [] []], 0. eexists. eexists. eexists.
  split; [vm_compute; reflexivity|]. split; [reflexivity|]. split; [vm_compute; reflexivity|]. reflexivity.
Qed.
Print Assumptions C60_second_class_refuted.
(** A contained property that is assigned after the declaration has no name. *)
Theorem C60_later_refuted : exists h h1 h2 c,
  step 3 h (PClass [] [("x", 0)]) = (h1, Ok tt) /\ step 3 h1 (PProp 0 (AClass "A")) = (h2, Ok tt) /\
  holds h2 0 c /\ slot h2 0 = Some "x" /\ slot h2 c = Some "".
Proof.
  exists [PO (PkTuple None) "" [] [] []]. eexists. eexists. exists 1.
  split; [vm_compute; reflexivity|]. split; [vm_compute; reflexivity|]. split; [eexists; split; reflexivity|]. split; reflexivity.
Qed.
Print Assumptions C60_later_refuted.
(** A property that contains itself can be made, but never be declared. *)
Theorem C60_cycle : forall n inh own h k x o c, In (k, x) own -> inside h x o -> holds h o c -> inside h c o ->
  snd (step n h (PClass inh own)) <> Ok tt.
Proof. exact class_cycle. Qed.
Print Assumptions C60_cycle.
Example C60_cycle_ex :
  let h := run 5 [] [PNew NTupleAny [] []; PNew (NTuple (AObj 0)) [] []; PProp 0 (AObj 1)] in
  holds h 1 0 /\ inside h 0 1 /\ snd (step 50 h (PClass [] [("x", 1)])) = Exc ExRecursion.
Proof.
  cbv zeta. split; [eexists; split; reflexivity|]. split; [|vm_compute; reflexivity].
  apply ins_step with 1; [eexists; split; reflexivity|constructor].
Qed.

(** ** C61: contained properties *)
Theorem C61_prop : forall h o a p c0 h' r, nth_error h o = Some p -> o_kind p = PkTuple c0 -> exists_arg h a ->
  step 0 h (PProp o a) = (h', r) ->
  (r = Ok tt <-> acceptable h a) /\
  (r = Ok tt -> exists c, stands_for h h' a c /\ same_but_kind h h' o (PkTuple (Some c))) /\
  (r <> Ok tt -> r = Exc ExType /\ h' = h) /\ others_same h h' o.
Proof. exact set_prop_spec. Qed.
Print Assumptions C61_prop.
Theorem C61_key_prop : forall h o a p k0 v0 h' r, nth_error h o = Some p -> o_kind p = PkDict k0 v0 -> exists_arg h a ->
  step 0 h (PKey o a) = (h', r) ->
  (r = Ok tt <-> acceptable h a) /\
  (r = Ok tt -> exists c, stands_for h h' a c /\ same_but_kind h h' o (PkDict (Some c) v0)) /\
  (r <> Ok tt -> r = Exc ExType /\ h' = h) /\ others_same h h' o.
Proof. exact set_key_spec. Qed.
Print Assumptions C61_key_prop.
Theorem C61_value_prop : forall h o a p k0 v0 h' r, nth_error h o = Some p -> o_kind p = PkDict k0 v0 -> exists_arg h a ->
  step 0 h (PValue o a) = (h', r) ->
  (r = Ok tt <-> acceptable h a) /\
  (r = Ok tt -> exists c, stands_for h h' a c /\ same_but_kind h h' o (PkDict k0 (Some c))) /\
  (r <> Ok tt -> r = Exc ExType /\ h' = h) /\ others_same h h' o.
Proof. exact set_value_spec. Qed.
Print Assumptions C61_value_prop.
(** A list or tuple of alternatives; one that is refused leaves the Union as it was. *)
Theorem C61_union : forall h o l p l0 h' r, nth_error h o = Some p -> o_kind p = PkUnion l0 ->
  (forall a, In a l -> exists_arg h a) -> step 0 h (PProps o (Some l)) = (h', r) ->
  (r = Ok tt <-> forall a, In a l -> acceptable h a) /\
  (r = Ok tt -> exists cs, Forall2 (stands_for h h') l cs /\ same_but_kind h h' o (PkUnion cs)) /\
  (r <> Ok tt -> r = Exc ExType /\ nth_error h' o = nth_error h o) /\ others_same h h' o.
Proof. exact set_props_spec. Qed.
Print Assumptions C61_union.
Theorem C61_union_other : forall h o p l0, nth_error h o = Some p -> o_kind p = PkUnion l0 ->
  step 0 h (PProps o None) = (h, Exc ExType).
Proof. exact set_props_none. Qed.
Print Assumptions C61_union_other.
Example C61_ex :
  let h := run 5 N_heap [PNew NDict [] []] in
  map o_kind (fst (step 0 h (PProp 1 (AClass "B")))) =
    [PkProp; PkTuple (Some 6); PkUnion [3; 1]; PkInst "A"; PkGet; PkDict None None; PkInst "B"] /\
  step 0 h (PProp 1 (AObj 4)) = (h, Exc ExType) /\ step 0 h (PProp 1 AOther) = (h, Exc ExType) /\
  map o_kind (run 0 h [PKey 5 (AObj 0); PValue 5 (AClass "B")]) =
    [PkProp; PkTuple (Some 0); PkUnion [3; 1]; PkInst "A"; PkGet; PkDict (Some 0) (Some 6); PkInst "B"] /\
  map o_kind (fst (step 0 h (PProps 2 (Some [AObj 0; AClass "B"])))) =
    [PkProp; PkTuple (Some 0); PkUnion [0; 6]; PkInst "A"; PkGet; PkDict None None; PkInst "B"] /\
  snd (step 0 h (PProps 2 (Some [AClass "B"; AObj 4]))) = Exc ExType /\
  exists_arg h (AObj 4) /\ acceptable h (AObj 0) /\ ~ acceptable h (AObj 4).
Proof.
  cbv zeta. split; [vm_compute; reflexivity|]. split; [vm_compute; reflexivity|]. split; [vm_compute; reflexivity|].
  split; [vm_compute; reflexivity|]. split; [vm_compute; reflexivity|]. split; [vm_compute; reflexivity|].
  split; [intros o H; injection H as <-; vm_compute; auto with arith|]. split.
  - eapply acc_obj; [reflexivity|left; reflexivity].
  - intros H. inversion H as [|o p Hp Hk]; subst. vm_compute in Hp. injection Hp as <-. cbn in Hk.
    destruct Hk as [|[[]|[[]|[[? []]|[]]]]]; discriminate.
Qed.

(** What a new property is and contains; making it changes no other property. *)
Theorem C61_new : forall n h k args kw h' r, not_dynamic k -> (forall a, In a (new_args k) -> exists_arg h a) ->
  step n h (PNew k args kw) = (h', r) ->
  (r = Ok tt <-> k <> NUnion None /\ forall a, In a (new_args k) -> acceptable h a) /\
  (r <> Ok tt -> r = Exc ExType) /\
  (r = Ok tt -> exists p, nth_error h' (length h) = Some p /\ new_kind h h' k (o_kind p)) /\
  (forall o p, nth_error h o = Some p -> nth_error h' o = Some p).
Proof. exact new_result. Qed.
Print Assumptions C61_new.
(** A dynamic property is made for a property object only. *)
Theorem C61_new_dynamic : forall n h s a args kw, (forall o, a <> AObj o) -> step n h (PNew (NDyn s a) args kw) = (h, Exc ExType).
Proof. exact new_dynamic_other. Qed.
Print Assumptions C61_new_dynamic.
Example C61_new_ex :
  not_dynamic (NUnion (Some [AClass "A"; AObj 1])) /\
  map o_kind (run 0 N_heap [PNew (NUnion (Some [AClass "A"; AObj 1])) [] []]) =
    [PkProp; PkTuple (Some 0); PkUnion [3; 1]; PkInst "A"; PkGet; PkUnion [6; 1]; PkInst "A"] /\
  snd (step 0 N_heap (PNew (NTuple (AObj 4)) [] [])) = Exc ExType /\
  step 0 N_heap (PNew (NDyn "f" (AClass "A")) [] []) = (N_heap, Exc ExType).
Proof. split; [intros s a; discriminate|]. vm_compute. repeat split. Qed.

(** ** C62: tags and terms *)
(** Tags are given as keywords and at most one dictionary; keywords win. *)
Theorem C62_tag : forall n h o p pos kw h' r, nth_error h o = Some p -> NoDup (dkeys kw) ->
  step n h (PTag o pos kw) = (h', r) ->
  (r = Ok tt <-> pos = [] \/ exists d, pos = [TDict d]) /\
  (r <> Ok tt -> r = Exc ExType /\ h' = h) /\
  (r = Ok tt -> exists p', nth_error h' o = Some p' /\ o_kind p' = o_kind p /\ o_name p' = o_name p /\
     o_args p' = o_args p /\ o_kwargs p' = o_kwargs p /\
     (pos = [] -> forall k, dget (o_meta p') k = match dget kw k with Some v => Some v | None => dget (o_meta p) k end) /\
     (forall d, pos = [TDict d] -> NoDup (dkeys d) ->
        forall k, dget (o_meta p') k = match dget kw k with Some v => Some v
                                       | None => match dget d k with Some v => Some v | None => dget (o_meta p) k end end)) /\
  others_same h h' o.
Proof. exact tag_spec. Qed.
Print Assumptions C62_tag.
(** The terms of a new property are the arguments of the call; it has no tags,
    except that a dynamic property has those its property has at that time. *)
Theorem C62_new : forall n h k args kw h', step n h (PNew k args kw) = (h', Ok tt) ->
  exists p, nth_error h' (length h) = Some p /\ o_args p = args /\ o_kwargs p = kw /\
    match k with
    | NDyn s (AObj c) =>
        o_kind p = PkDyn c /\ o_name p = s /\
        exists q q', nth_error h c = Some q /\ nth_error h' c = Some q' /\ o_name q' = s /\
          (NoDup (dkeys (o_meta q)) -> forall x, dget (o_meta p) x = dget (o_meta q) x)
    | _ => o_name p = "" /\ o_meta p = []
    end.
Proof. exact new_spec. Qed.
Print Assumptions C62_new.
(** The arguments stay, whatever happens; the tags change only by tagging this object. *)
Theorem C62_terms : forall n o ops h p, nth_error h o = Some p ->
  exists p', nth_error (run n h ops) o = Some p' /\ o_args p' = o_args p /\ o_kwargs p' = o_kwargs p.
Proof. exact run_terms. Qed.
Print Assumptions C62_terms.
Theorem C62_tags_kept : forall n o ops h p, nth_error h o = Some p -> (forall pos kw, ~ In (PTag o pos kw) ops) ->
  exists p', nth_error (run n h ops) o = Some p' /\ o_meta p' = o_meta p.
Proof. exact run_meta. Qed.
Print Assumptions C62_tags_kept.
Example C62_ex :
  let h := run 9 N_heap [PTag 0 [TDict [("a", VInt 1); ("b", VInt 2)]] [("b", VInt 3)]; PNew (NDyn "f" (AObj 0)) [VStr "p"] [];
                         PTag 0 [] [("c", VInt 4)]; PTag 1 [TOther] [("c", VInt 4)]; PClass [] [("u", 2); ("f", 5)]] in
  terms h 0 = Some ("f", [VStr "p"], [], [("a", VInt 1); ("b", VInt 3); ("c", VInt 4)]) /\
  terms h 5 = Some ("f", [VStr "p"], [], [("a", VInt 1); ("b", VInt 3)]) /\
  terms h 4 = Some ("", [VStr "g"], [("default", VInt 3)], []) /\
  terms h 1 = Some ("u", [VStr "l"; VObj 0], [], []).
Proof. vm_compute. repeat split. Qed.
