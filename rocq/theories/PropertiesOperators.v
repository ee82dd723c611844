(** Property theorems about operators of observable containers, [C82]. *)
From Verif Require Import PyBase Operators OperatorsSpec OperatorsFacts.
Local Open Scope list_scope.
Local Open Scope nat_scope.

(** An operator with observable containers gives what it gives with builtin ones with
    the same items, or raises the same, unless the left operand is observable and the
    right one, of another class, has a reflected method. *)
Theorem C82_operator : forall V op a b,
  (forall l k x, a = OObservable l k -> b = OAlien x -> op_right V op x l = Declines) ->
  like (binary V op a b) (binary V op (builtin_of a) (builtin_of b)).
Proof. exact binary_like. Qed.
Print Assumptions C82_operator.
(** In that case the reflected method is not called: the result is that of the builtin
    class, or an error. *)
Theorem C82_reflected : forall V op l k x, match op_base V op (ACont l) (AAlien x) with
  | Gives xs => binary V op (OObservable l k) (OAlien x) = Ok (OObservable xs None)
  | Declines => binary V op (OObservable l k) (OAlien x) = Exc ExType
  | Raises e => binary V op (OObservable l k) (OAlien x) = Exc e
  end.
Proof. exact binary_alien. Qed.
Print Assumptions C82_reflected.
(** So whole expressions of operators and methods have the values they have with
    builtin containers, if there are no such reflected methods. *)
Theorem C82_expressions : forall V e, passive V -> returns_no_observable V -> like (eval V e) (eval V (with_builtins e)).
Proof. exact eval_like. Qed.
Print Assumptions C82_expressions.
(** Whether the result is observable depends on the operands' classes alone; it is
    never attached to an instance: changing it changes no property. *)
Theorem C82_results : forall V e, containers_only e -> forall a, eval V e = Ok a ->
  is_observable a = observable_result V e /\ ((forall o, e <> EObj o) -> attached a = false).
Proof. exact eval_class. Qed.
Print Assumptions C82_results.

Definition join (l r : list nat) : list nat := l ++ filter (fun x => negb (existsb (Nat.eqb x) l)) r.
(** Operator 0 is | of sets, operator 1 is + of lists; objects from 100 on are frozensets
    of one item, and not [loud]; others are views of dictionaries with one key, and arrays.
    Method 0 is copy, methods from 1 on are union with one item. *)
Definition V_ex (loud : bool) : opers := Opers
  (fun op a b => match op, a, b with
    | 0, ACont l, ACont r => Gives (join l r)
    | 0, ACont l, AAlien x => if Nat.leb 100 x then Gives (join l [x]) else Declines
    | 0, AAlien x, ACont r => if Nat.leb 100 x then Gives (join [x] r) else Declines
    | 1, ACont l, ACont r => Gives (l ++ r)
    | _, _, _ => Raises ExType
    end)
  (Nat.eqb 0) (Nat.eqb 0)
  (fun op x r => match op with 0 => if Nat.leb 100 x then Gives (OAlien x) else Declines | _ => Declines end)
  (fun op x l => if loud && negb (Nat.leb 100 x) then match op with 0 => Gives (OBuiltin (join l [x])) | _ => Gives (OAlien x) end else Declines)
  (fun _ _ _ => Exc ExType)
  (fun m l => match m with 0 => Ok l | _ => Ok (join l [m]) end)
  (fun _ _ => Exc ExAttr).

Example C82_operator_ex :
  binary (V_ex true) 0 (OBuiltin [1; 2]) (OObservable [2; 3] (Some 7)) = Ok (OObservable [1; 2; 3] None) /\
  binary (V_ex true) 0 (OBuiltin [1; 2]) (OBuiltin [2; 3]) = Ok (OBuiltin [1; 2; 3]) /\
  binary (V_ex true) 1 (OBuiltin [1]) (OObservable [2] (Some 7)) = Ok (OBuiltin [1; 2]) /\
  binary (V_ex true) 0 (OObservable [1] (Some 7)) (OAlien 100) = Ok (OObservable [1; 100] None) /\
  op_right (V_ex true) 0 100 [1] = Declines.
Proof. repeat split. Qed.
Example C82_reflected_ex : op_right (V_ex true) 0 5 [1] = Gives (OBuiltin [1; 5]) /\
  op_base (V_ex true) 0 (ACont [1]) (AAlien 5) = Declines /\
  binary (V_ex true) 0 (OObservable [1] (Some 7)) (OAlien 5) = Exc ExType.
Proof. repeat split. Qed.
(** (x.s | {2, 3}).union([4]) | frozenset([100]) *)
Definition E_ex : expr := EBin 0 (EMeth 4 (EBin 0 (EObj (OObservable [1; 2] (Some 7))) (EObj (OBuiltin [2; 3])))) (EObj (OAlien 100)).
Example C82_expressions_ex : passive (V_ex false) /\ returns_no_observable (V_ex false) /\
  eval (V_ex false) E_ex = Ok (OObservable [1; 2; 3; 4; 100] None) /\
  eval (V_ex false) (with_builtins E_ex) = Ok (OBuiltin [1; 2; 3; 4; 100]).
Proof.
  split; [intros op x l; reflexivity|]. split; [|split; reflexivity].
  split; [intros [|op] x l a H; cbn [op_left V_ex] in H; [destruct (Nat.leb 100 x); [now injection H as <-|discriminate]|discriminate]|].
  repeat split; intros; discriminate.
Qed.
Example C82_results_ex :
  let e := EBin 0 (EObj (OBuiltin [1])) (EMeth 0 (EObj (OObservable [2] (Some 7)))) in
  containers_only e /\ eval (V_ex true) e = Ok (OObservable [1; 2] None) /\
  let f := EBin 1 (EObj (OBuiltin [1])) (EMeth 0 (EObj (OObservable [2] (Some 7)))) in
  containers_only f /\ eval (V_ex true) f = Ok (OBuiltin [1; 2]).
Proof. repeat split. Qed.

(** The class is to behave like the builtin one, but x.s | d.keys() is a TypeError where
    {1} | d.keys() is a set, and so is x.l + numpy.array(...), where [1] + numpy.array(...)
    is an array. *)
Theorem C82_same_operators_refuted : exists V op1 op2 l k x,
  op_number V op1 = true /\ op_number V op2 = false /\
  (exists ys, binary V op1 (OBuiltin l) (OAlien x) = Ok (OBuiltin ys)) /\
  binary V op1 (OObservable l k) (OAlien x) = Exc ExType /\
  (exists z, binary V op2 (OBuiltin l) (OAlien x) = Ok (OAlien z)) /\
  binary V op2 (OObservable l k) (OAlien x) = Exc ExType.
Proof. exists (V_ex true), 0, 1, [1], (Some 7), 5. repeat split; eexists; reflexivity. Qed.
Print Assumptions C82_same_operators_refuted.
