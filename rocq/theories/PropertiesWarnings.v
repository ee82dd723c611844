(** Property theorems about warnings: [C69].  [emit] is [warnings.warn] with any
    filters, [op] an operation on attributes that are no Renamed properties. *)
From Verif Require Import Warnings WarningsSpec WarningsFacts MessagesSpec.
From Coq Require Import Lia.
Local Open Scope list_scope.
Local Open Scope string_scope.
Local Open Scope nat_scope.

(** An old name that leads to [m] warns once for each step that is to warn, in
    order, with both names; then [m] is accessed.  A warning that raises ends the
    access before. *)
Theorem C69_old_name : forall St A emit op renamed n name ws m depth s,
  leads renamed n name ws m -> n <= depth ->
  exists o s1, emits emit ws s o s1 /\
    access St A emit op renamed depth name s = match o with None => op m s1 | Some e => (Exc e, s1) end.
Proof. exact access_leads. Qed.
Print Assumptions C69_old_name.
(** Names that lead nowhere, or too far, end with RecursionError, if no warning
    raises; nothing is accessed. *)
Theorem C69_no_end : forall St A emit op renamed depth name s,
  (forall n ws m, leads renamed n name ws m -> depth < n) ->
  exists ws o s1, emits emit ws s o s1 /\
    access St A emit op renamed depth name s = (Exc (match o with Some e => e | None => ExRecursion end), s1).
Proof. exact access_no_end. Qed.
Print Assumptions C69_no_end.
Theorem C69_declare : forall new warn o, declare_renamed new warn = Ok o <->
  new = VStr (ro_new o) /\ (warn = None /\ ro_warn o = true \/ warn = Some (VBool (ro_warn o))).
Proof. exact declare_iff. Qed.
Print Assumptions C69_declare.
Theorem C69_declare_errors : forall new warn e, declare_renamed new warn = Exc e -> e = ExType.
Proof. exact declare_error. Qed.
Print Assumptions C69_declare_errors.

(** The default of a Union is the first default of itself and its alternatives;
    each other one warns, unless it does not differ from that. *)
Theorem C69_union : forall text differ own alts pre u rest,
  own :: alts = (pre ++ u :: rest)%list -> (forall d, In d pre -> d = VUndef) -> u <> VUndef ->
  union_warnings text differ own alts =
    map (fun d => Warn RuntimeW ("Union prop default ignored: " ++ text d)) (filter (fun d => negb (is_undef d) && differ u d) rest) /\
  un_default val (fun d => d) alts own = u.
Proof. exact union_used. Qed.
Print Assumptions C69_union.
Theorem C69_union_none : forall text differ own alts,
  (forall d, In d (own :: alts) -> d = VUndef) -> union_warnings text differ own alts = [].
Proof. exact union_all_undef. Qed.
Print Assumptions C69_union_none.
(** The default of the contained property of a container is ignored, with a warning. *)
Theorem C69_contained : forall text d,
  (contained_warnings text d = [] <-> d = VUndef) /\
  (d <> VUndef -> exists w, contained_warnings text d = [w] /\ w_category w = RuntimeW /\ exists s, w_text w = s ++ text d).
Proof. exact contained_warn. Qed.
Print Assumptions C69_contained.
(** The option auto_create warns even if the value is rejected. *)
Theorem C69_auto_create : forall St (emit : warning -> St -> option exn * St) v old s,
  exists w, w_category w = FutureW /\
  forall o s1, emit w s = (o, s1) ->
  snd (set_auto_create emit v old s) = s1 /\
  (forall e, o = Some e -> fst (set_auto_create emit v old s) = (Exc e, old)) /\
  (o = None -> (forall b, v = VBool b -> fst (set_auto_create emit v old s) = (Ok b, b)) /\
               ((forall b, v <> VBool b) -> fst (set_auto_create emit v old s) = (Exc ExType, old))).
Proof. exact @auto_create_outcome. Qed.
Print Assumptions C69_auto_create.
(** Property classes with [info_text], or [info] as a method, are brought up to date. *)
Theorem C69_classes : forall V (is_callable : V -> bool) prop cls d ws d', wrangle is_callable prop cls d = (ws, d') ->
  (forall k, k <> "class_info" -> k <> "info" -> dget d' k = dget d k) /\
  (forall v, dget d "info_text" = Some v -> dget d' "class_info" = Some v) /\
  (dget d "info_text" = None -> dget d' "class_info" = dget d "class_info") /\
  dget d' "info" = match dget d "info" with Some v => Some (if is_callable v then prop v else v) | None => None end /\
  length ws = (if dget d "info_text" then 1 else 0) + (match dget d "info" with Some v => if is_callable v then 1 else 0 | None => 0 end) /\
  Forall (fun w => w_category w = FutureW /\ occurs cls (w_text w)) ws.
Proof. exact wrangle_outcome. Qed.
Print Assumptions C69_classes.

(** ** Cases: the state is a log; the third warning raises *)
Definition W_emit (w : warning) (s : list string) : option exn * list string :=
  ((if 2 <=? length s then Some (ExUser 1) else None), (s ++ [w_text w])%list).
Definition W_op (n : string) (s : list string) : res string * list string := (Ok n, (s ++ [n])%list).
Definition W_renamed (n : string) : option ropts :=
  if String.eqb n "a" then Some (RO "b" true) else if String.eqb n "b" then Some (RO "c" false) else if String.eqb n "c" then Some (RO "d" true)
  else if String.eqb n "x" then Some (RO "y" true) else if String.eqb n "y" then Some (RO "x" false) else None.
Example C69_leads : leads W_renamed 3 "a" [("a", "b"); ("c", "d")] "d".
Proof. eapply le_warn; [reflexivity|]. eapply le_quiet; [reflexivity|]. eapply le_warn; [reflexivity|]. constructor. reflexivity. Qed.
Example C69_access :
  access _ _ W_emit W_op W_renamed 9 "a" [] =
    (Ok "d", [rename_text "a" "b"; rename_text "c" "d"; "d"]) /\
  access _ _ W_emit W_op W_renamed 9 "a" ["seen"] = (Exc (ExUser 1), ["seen"; rename_text "a" "b"; rename_text "c" "d"]) /\
  access _ _ W_emit W_op W_renamed 9 "b" ["1"; "2"] = (Exc (ExUser 1), ["1"; "2"; rename_text "c" "d"]) /\
  access _ _ W_emit W_op W_renamed 9 "z" [] = (Ok "z", ["z"]) /\
  access _ _ W_emit W_op W_renamed 3 "x" [] = (Exc ExRecursion, [rename_text "x" "y"; rename_text "x" "y"]) /\
  rename_text "a" "b" = newline ++ "Property 'a' is deprecated and may be removed in the future. Please use 'b'.".
Proof. repeat split. Qed.
Example C69_cycle : forall n ws m, leads W_renamed n "x" ws m -> 100 < n.
Proof.
  assert (H : forall n s ws m, leads W_renamed n s ws m -> s = "x" \/ s = "y" -> False).
  { intros n s ws m L. induction L as [m E|n old new ws m E L IH|n old new ws m E L IH]; intros [->| ->]; try discriminate; injection E as <-; auto. }
  intros n ws m L. exfalso. eauto.
Qed.
Example C69_declared :
  declare_renamed (VStr "b") None = Ok (RO "b" true) /\ declare_renamed (VStr "b") (Some (VBool false)) = Ok (RO "b" false) /\
  declare_renamed (VInt 3) None = Exc ExType /\ declare_renamed (VStr "b") (Some VNone) = Exc ExType.
Proof. repeat split. Qed.
Example C69_union_case :
  let differ a b := match a, b with VInt x, VInt y => negb (Z.eqb x y) | _, _ => true end in
  union_warnings (fun _ => "v") differ VUndef [VUndef; VInt 3; VInt 3; VStr "v"; VUndef] = [Warn RuntimeW "Union prop default ignored: v"] /\
  un_default val (fun d => d) [VUndef; VInt 3; VInt 3; VStr "v"; VUndef] VUndef = VInt 3 /\
  VUndef :: [VUndef; VInt 3; VInt 3; VStr "v"; VUndef] = ([VUndef; VUndef] ++ VInt 3 :: [VInt 3; VStr "v"; VUndef])%list /\
  union_warnings (fun _ => "v") differ (VInt 5) [VInt 3] = [Warn RuntimeW "Union prop default ignored: v"] /\
  contained_warnings (fun _ => "v") (VInt 3) = [Warn RuntimeW "Contained prop default ignored: v"] /\ contained_warnings (fun _ => "v") VUndef = [].
Proof. repeat split. Qed.
Example C69_auto_create_case :
  fst (set_auto_create W_emit (VInt 1) false []) = (Exc ExType, false) /\ length (snd (set_auto_create W_emit (VInt 1) false [])) = 1 /\
  fst (set_auto_create W_emit (VBool true) false []) = (Ok true, true) /\ fst (set_auto_create W_emit (VBool true) false ["1"; "2"]) = (Exc (ExUser 1), false).
Proof. repeat split. Qed.
Example C69_classes_case :
  wrangle Nat.even S "Old" [("info_text", 1); ("info", 4); ("x", 7)] =
    ([Warn FutureW "Deprecation warning: info_text has been renamed class_info. Consider updating class Old ";
      Warn FutureW "Deprecation warning: info is now a @property, not a callable. Consider updating class Old"],
     [("info_text", 1); ("info", 5); ("x", 7); ("class_info", 1)]).
Proof. reflexivity. Qed.
