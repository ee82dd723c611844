(** Property theorems about classes that override [_error_hook]: [C78]. *)
From Verif Require Import Hooks HooksSpec HooksFacts.
Local Open Scope list_scope.
Local Open Scope string_scope.
Local Open Scope nat_scope.

(** Class validators of the examples: what they add, and do; the state counts
    them.  A hook that only looks, one that empties the list, one that raises. *)
Definition K_step (k : list tup * outcome) (u : nat) : list tup * outcome * nat := (fst k, snd k, S u).
Definition K_look (ts : list tup) (u : nat) : option herr * list tup * nat := (None, ts, u + 100).
Definition K_empty (ts : list tup) (u : nat) : option herr * list tup * nat := (None, [], u).
Definition K_raise (ts : list tup) (u : nat) : option herr * list tup * nat := (Some (HOther (ExUser 7)), ts, u).
Definition K_tup (m p : string) : tup := Tup m (Some "invalid") (Some p) true.
Definition K_new : st nat := St (Some false) None None 0 [].
Definition K_run hook ks := validate nat hook _ K_step ks K_new.
Definition NL : string := String (ascii_of_nat 10) "".

(** ** C78 *)
(** validate(), with any hook: the hook is called once if tuples were collected,
    with them; then its exception is raised, or a ValidationError with the tuples
    as the hook left them. *)
Theorem C78_validate : forall S hook K step ks s out s1, h_flag s <> Some true ->
  validate S hook K step ks s = (out, s1) ->
  h_flag s1 = Some false /\ h_tuples s1 = None /\ h_other s1 = None /\
  exists calls, h_calls s1 = (h_calls s ++ calls)%list /\
    ends S hook K step "Validation failed:" ks (h_user s) out (h_user s1) calls.
Proof. exact validate_spec. Qed.
Print Assumptions C78_validate.
Example C78_validate_ex :
  K_run K_look [([], Fine); ([K_tup "x is bad" "x"], Fine); ([], Raises (HOther ExKey)); ([], Refuses); ([], Raises (HVal "m" [K_tup "y is bad" "y"]))] =
    (Some (HVal ("Validation failed:" ++ NL ++ "- x is bad" ++ NL ++ "- Validation failed" ++ NL ++ "- y is bad")
             [K_tup "x is bad" "x"; Tup "Validation failed" None None true; K_tup "y is bad" "y"]),
     St (Some false) None None 105 [[K_tup "x is bad" "x"; Tup "Validation failed" None None true; K_tup "y is bad" "y"]]) /\
  K_run K_look [([], Raises (HOther ExKey)); ([], Raises (HOther ExType))] = (Some (HOther ExKey), St (Some false) None None 2 []) /\
  K_run K_look [([K_tup "x is bad" "x"], Raises (HOther (ExUser 3))); ([], Fine)] = (Some (HOther (ExUser 3)), St (Some false) None None 1 []) /\
  K_run K_look [([], Fine); ([], Fine)] = (None, St (Some false) None None 2 []) /\
  fst (K_run K_raise [([K_tup "x is bad" "x"], Fine)]) = Some (HOther (ExUser 7)).
Proof. vm_compute. repeat split. Qed.
(** The constructor, with its keywords *)
Theorem C78_init : forall S hook K step ks s out s1,
  init S hook K step ks s = (out, s1) ->
  h_flag s1 = Some false /\ h_tuples s1 = None /\ h_other s1 = None /\
  exists calls, h_calls s1 = (h_calls s ++ calls)%list /\
    ends S hook K step "Initialization failed:" ks (h_user s) out (h_user s1) calls.
Proof. intros S hook K step ks s out s1. exact (guarded_spec S hook K step _ ks s out s1). Qed.
Print Assumptions C78_init.
Example C78_init_ex :
  init nat K_look _ K_step [([], Fine); ([], Raises (HVal "m" [K_tup "x is bad" "x"])); ([], Fine)] (St None None None 0 []) =
    (Some (HVal ("Initialization failed:" ++ NL ++ "- x is bad") [K_tup "x is bad" "x"]),
     St (Some false) None None 103 [[K_tup "x is bad" "x"]]) /\
  init nat K_look _ K_step [([], Raises (HVal "m" [K_tup "x is bad" "x"])); ([], Stops (HOther ExAttr)); ([], Fine)] (St None None None 0 []) =
    (Some (HOther ExAttr), St (Some false) None None 2 []).
Proof. vm_compute. repeat split. Qed.
(** No hook makes validate() return, if tuples were collected. *)
Theorem C78_not_hidden : forall S hook K step ks u ts x u1 s out s1,
  gathered S K step ks u ts x u1 -> ts <> [] -> h_user s = u -> h_flag s <> Some true ->
  validate S hook K step ks s = (out, s1) -> out <> None /\ h_calls s1 = (h_calls s ++ [ts])%list.
Proof. exact not_hidden. Qed.
Print Assumptions C78_not_hidden.
(** A hook that leaves the list alone and does not raise: the error has the tuples
    that were collected, and its text has their messages. *)
Theorem C78_lenient : forall S hook K step ks u ts x u1 s out s1,
  lenient S hook -> gathered S K step ks u ts x u1 -> ts <> [] -> h_user s = u -> h_flag s <> Some true ->
  validate S hook K step ks s = (out, s1) -> exists m, out = Some (HVal m ts) /\ lists "Validation failed:" ts m.
Proof. exact lenient_error. Qed.
Print Assumptions C78_lenient.
Example C78_lenient_ex :
  lenient nat K_look /\ gathered nat _ K_step [([K_tup "x is bad" "x"], Fine); ([], Refuses)] 0
    [K_tup "x is bad" "x"; Tup "Validation failed" None None true] None 2 /\ h_user K_new = 0 /\ h_flag K_new <> Some true /\
  fst (K_run K_empty [([K_tup "x is bad" "x"], Fine); ([], Refuses)]) = Some (HVal "Validation failed:" []).
Proof.
  split; [intros ts u; eexists; reflexivity|]. split.
  - apply (ga_next nat _ K_step ([K_tup "x is bad" "x"], Fine) [([], Refuses)] 0 [K_tup "x is bad" "x"] Fine 1 [] None [Tup "Validation failed" None None true] None 2); [reflexivity|constructor|].
    apply (ga_next nat _ K_step ([], Refuses) [] 1 [] Refuses 2 [Tup "Validation failed" None None true] None [] None 2); [reflexivity|constructor|constructor].
  - split; [reflexivity|]. split; [discriminate|vm_compute; reflexivity].
Qed.
(** Within a validation of the instance validate() does nothing. *)
Theorem C78_nested : forall S hook K step ks s, h_flag s = Some true -> validate S hook K step ks s = (None, s).
Proof. exact validate_again. Qed.
Print Assumptions C78_nested.
(** A single ValidationError of the instance calls the hook, unless the instance is
    being validated or constructed. *)
Theorem C78_error : forall S hook msg reason prop own s e s1,
  new_error S hook msg reason prop own None s = (e, s1) ->
  (own = true -> h_flag s = Some false ->
     h_calls s1 = (h_calls s ++ [[Tup msg reason prop true]])%list /\ h_flag s1 = Some false /\ h_tuples s1 = h_tuples s /\
     exists x ts, hook [Tup msg reason prop true] (h_user s) = (x, ts, h_user s1) /\
       (forall e', x = Some e' -> e = e') /\ (x = None -> e = HVal msg ts)) /\
  (own = false \/ h_flag s <> Some false -> e = HVal msg [Tup msg reason prop own] /\ s1 = s).
Proof.
  intros S hook msg reason prop own s e s1 H. rewrite error_spec in H. split.
  - intros -> F. rewrite F in H. destruct (hook _ _) as [[x ts] u] eqn:X. injection H as <- <-. cbn [h_calls h_flag h_tuples h_user].
    repeat split. exists x, ts. split; [reflexivity|]. split; [intros e' ->; reflexivity|intros ->; reflexivity].
  - intros N. destruct own; [destruct N as [|N]; [discriminate|]; destruct (h_flag s) as [[|]|]; [|congruence|]|]; injection H as <- <-; auto.
Qed.
Print Assumptions C78_error.
Example C78_error_ex :
  new_error nat K_look "x is bad" (Some "invalid") (Some "x") true None K_new =
    (HVal "x is bad" [K_tup "x is bad" "x"], St (Some false) None None 100 [[K_tup "x is bad" "x"]]) /\
  fst (new_error nat K_raise "x is bad" (Some "invalid") (Some "x") true None K_new) = HOther (ExUser 7) /\
  new_error nat K_raise "x is bad" (Some "invalid") (Some "x") true None (St (Some true) (Some []) None 0 []) =
    (HVal "x is bad" [K_tup "x is bad" "x"], St (Some true) (Some []) None 0 []).
Proof. vm_compute. repeat split. Qed.
(** A hook that empties its list: validate() of the instance raises an error without
    tuples, and a validate() whose class validator raises that error returns True. *)
Theorem C78_emptied_refuted : exists hook m, fst (K_run hook [([K_tup "x is bad" "x"], Fine)]) = Some (HVal m []) /\
  fst (K_run K_look [([], Raises (HVal m []))]) = None.
Proof. exists K_empty. eexists. vm_compute. split; reflexivity. Qed.
Print Assumptions C78_emptied_refuted.
