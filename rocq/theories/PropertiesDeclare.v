(** Property theorems about declarations: [C53] Integer and Float objects, [C54]
    dynamic properties, [C55] defaults of Union, [C56] listeners, [C57] custom
    serializers.  [ucall] says which objects are callable and what they return,
    [ucall2] what they return when called with None and a value. *)
From Coq Require Import Permutation.
From Verif Require Import Declare DeclareSpec DeclareFacts WorldExample.
Local Open Scope string_scope.
Local Open Scope list_scope.
Local Open Scope nat_scope.

Definition D_call (v : val) : option (res val) :=
  match v with
  | VObj 0 => Some (Ok (VInt 4)) | VObj 1 => Some (Ok (VStr "x")) | VObj 2 => Some (Exc (ExUser 7))
  | _ => None
  end.
Definition D_call2 (f v : val) : res val := Ok v.

(** ** C53: declaring a number *)
Theorem C53_declared : forall E ucall ucall2 k doc kws p,
  NoDup (map fst kws) -> np_declare E ucall ucall2 k doc kws = Ok p ->
  exists d, doc = VStr d /\ (forall key v, In (key, v) kws -> key <> "default" -> kw_ok ucall key v) /\
    reads_as k d kws p /\ asked_default kws (np_default p) /\ default_ok E ucall ucall2 p (np_default p).
Proof. exact declare_sound. Qed.
Print Assumptions C53_declared.
Theorem C53_accepted_iff : forall E ucall ucall2 k doc kws,
  NoDup (map fst kws) -> ucall VUndef = None -> ~ In ("min", VNone) kws -> ~ In ("max", VNone) kws ->
  ((exists p, np_declare E ucall ucall2 k doc kws = Ok p) <->
   exists d, doc = VStr d /\ (forall key v, In (key, v) kws -> key <> "default" -> kw_ok ucall key v) /\
     bounds_agree kws /\
     exists p v, reads_as k d kws p /\ asked_default kws v /\ default_ok E ucall ucall2 p v).
Proof. exact declare_iff. Qed.
Print Assumptions C53_accepted_iff.
Example C53_declared_ex :
  np_declare E1 D_call D_call2 NInteger (VStr "n") [("default", VInt 5); ("max", VInt 9); ("min", VInt 0); ("required", VBool false)] =
    Ok (NP NInteger "n" "" false false (BO (VInt 0) (VInt 9)) None None (VInt 5) []) /\
  np_declare E1 D_call D_call2 NInteger (VStr "n") [("default", VInt 12); ("max", VInt 9)] = Exc (ExValidation []) /\
  np_declare E1 D_call D_call2 NInteger (VStr "n") [("default", VObj 0); ("serializer", VObj 2)] =
    Ok (NP NInteger "n" "" true false (BO VNone VNone) (Some (VObj 2)) None (VObj 0) []) /\
  np_declare E1 D_call D_call2 NInteger (VStr "n") [("default", VObj 1)] = Exc (ExValidation []) /\
  np_declare E1 D_call D_call2 NInteger (VStr "n") [("default", VObj 2)] = Exc (ExUser 7) /\
  np_declare E1 D_call D_call2 NFloat (VStr "n") [("min", VInt 3); ("max", VInt 2)] = Exc ExType.
Proof. vm_compute. repeat split. Qed.

(** The order of keywords does not matter. *)
Theorem C53_order : forall E ucall ucall2 k doc kws kws' p,
  NoDup (map fst kws) -> ucall VUndef = None -> ~ In ("min", VNone) kws -> ~ In ("max", VNone) kws ->
  Permutation kws kws' -> np_declare E ucall ucall2 k doc kws = Ok p ->
  exists p', np_declare E ucall ucall2 k doc kws' = Ok p' /\ np_kind p' = np_kind p /\
    forall key, np_getattr p' key = np_getattr p key.
Proof. exact declare_order. Qed.
Print Assumptions C53_order.
Example C53_order_ex :
  let kws := [("default", VInt 5); ("max", VInt 9); ("min", VInt 0)] in
  NoDup (map fst kws) /\ D_call VUndef = None /\ ~ In ("min", VNone) kws /\ ~ In ("max", VNone) kws /\
  exists p, np_declare E1 D_call D_call2 NInteger (VStr "n") kws = Ok p /\ np_getattr p "max" = Some (VInt 9).
Proof.
  cbv zeta. split; [repeat constructor; cbn; intuition discriminate|]. split; [reflexivity|].
  split; [cbn; intuition discriminate|]. split; [cbn; intuition discriminate|]. eexists. vm_compute. split; reflexivity.
Qed.
(** It does with None as a bound. *)
Theorem C53_none_order_refuted : exists E ucall ucall2 k doc kws kws' p e,
  NoDup (map fst kws) /\ Permutation kws kws' /\
  np_declare E ucall ucall2 k doc kws = Ok p /\ np_declare E ucall ucall2 k doc kws' = Exc e.
Proof.
  exists E1, D_call, D_call2, NInteger, (VStr "n"), [("min", VNone); ("max", VInt 3)], [("max", VInt 3); ("min", VNone)].
  do 2 eexists. split; [repeat constructor; cbn; intuition discriminate|]. split; [apply perm_swap|].
  vm_compute. split; reflexivity.
Qed.
Print Assumptions C53_none_order_refuted.

(** Keywords that are never accepted: AttributeError. *)
Theorem C53_bad_keyword : forall E ucall ucall2 k doc pre key v post p,
  ~ In "default" (map fst pre) -> np_declare E ucall ucall2 k doc pre = Ok p -> bad_key key ->
  (forall q, In q (key :: map fst post) -> ~ In q parameters) ->
  np_declare E ucall ucall2 k doc (pre ++ (key, v) :: post) = Exc ExAttr.
Proof. exact declare_bad. Qed.
Print Assumptions C53_bad_keyword.
Example C53_bad_keyword_ex :
  bad_key "_min" /\ bad_key "terms" /\ bad_key "info" /\ bad_key "maximum" /\
  np_declare E1 D_call D_call2 NInteger (VStr "n") [("min", VInt 0); ("_max", VInt 1); ("default", VInt 0)] = Exc ExAttr.
Proof.
  split; [split; [discriminate|left; eexists; reflexivity]|].
  split; [split; [discriminate|right; left; reflexivity]|].
  split; [split; [discriminate|right; right; left; cbn; auto]|].
  split; [split; [discriminate|right; right; right; cbn; intuition discriminate]|]. reflexivity.
Qed.

(** With None or numbers as bounds, and [validate] not replaced, the default is
    checked as any value is. *)
Theorem C53_checks : forall E ucall ucall2 rc p mn mx v,
  np_getattr p "validate" = None ->
  bound_is (b_min (np_bounds p)) mn -> bound_is (b_max (np_bounds p)) mx ->
  np_validate E ucall ucall2 p v =
  leaf_validate E rc (match np_kind p with NInteger => LfInt | NFloat => LfFloat end (np_cast p) mn mx) v.
Proof. exact validate_leaf. Qed.
Print Assumptions C53_checks.
Example C53_checks_ex :
  let p := NP NInteger "" "" true false (BO (VInt 0) VNone) None None VUndef [] in
  np_getattr p "validate" = None /\ bound_is (b_min (np_bounds p)) (Some (NZ 0)) /\ bound_is (b_max (np_bounds p)) None /\
  np_validate E1 D_call D_call2 p (VInt (-1)) = LErr 0.
Proof. cbv zeta. split; [reflexivity|]. split; [constructor; reflexivity|]. split; [constructor|reflexivity]. Qed.
(** A doc that is no string, or a second value for a parameter, is a TypeError. *)
Theorem C53_parameters : forall E ucall ucall2 k doc kws,
  (exists key, In key (map fst kws) /\ In key parameters) \/ (forall d, doc <> VStr d) ->
  np_declare E ucall ucall2 k doc kws = Exc ExType.
Proof. exact declare_rejects. Qed.
Print Assumptions C53_parameters.
Example C53_parameters_ex :
  np_declare E1 D_call D_call2 NFloat (VStr "n") [("cls", VInt 0)] = Exc ExType /\
  np_declare E1 D_call D_call2 NFloat (VInt 0) [("_x", VInt 0)] = Exc ExType.
Proof. split; reflexivity. Qed.
(** Assignments to an attribute later: what is stored, what is refused and how. *)
Theorem C53_assigned : forall E ucall ucall2 key v p p', np_setattr E ucall ucall2 key v p = Ok p' ->
  np_kind p' = np_kind p /\ np_getattr p' key = Some v /\ forall k', k' <> key -> np_getattr p' k' = np_getattr p k'.
Proof. exact setattr_stores. Qed.
Print Assumptions C53_assigned.
Theorem C53_assigned_outcomes : forall E ucall ucall2 key v p,
  (In key ["name"; "doc"] -> (exists s, v = VStr s) \/ np_setattr E ucall ucall2 key v p = Exc ExType) /\
  (In key ["serializer"; "deserializer"] -> ucall v = None -> np_setattr E ucall ucall2 key v p = Exc ExType) /\
  (In key ["required"; "cast"] -> (exists b, v = VBool b) \/ np_setattr E ucall ucall2 key v p = Exc ExType) /\
  (In key getter_only -> np_setattr E ucall ucall2 key v p = Exc ExAttr) /\
  ((In key ["name"; "doc"] /\ (exists s, v = VStr s)) \/ (In key ["serializer"; "deserializer"] /\ ucall v <> None) \/
   (In key ["required"; "cast"] /\ (exists b, v = VBool b)) \/ ~ In key (["name"; "doc"; "default"; "serializer"; "deserializer"; "required"; "cast"; "min"; "max"] ++ getter_only) ->
   exists p', np_setattr E ucall ucall2 key v p = Ok p').
Proof. exact setattr_outcomes. Qed.
Print Assumptions C53_assigned_outcomes.
Example C53_assigned_ex :
  let p := NP NInteger "" "" true false (BO (VInt 0) VNone) None None VUndef [] in
  let set key v := np_setattr E1 D_call D_call2 key v p in
  set "doc" (VStr "x") = Ok (NP NInteger "x" "" true false (BO (VInt 0) VNone) None None VUndef []) /\
  set "doc" VNone = Exc ExType /\ set "serializer" (VInt 3) = Exc ExType /\ set "cast" (VInt 1) = Exc ExType /\ set "info" VNone = Exc ExAttr /\
  set "max" (VInt (-1)) = Exc ExType /\ set "other" VNone = Ok (NP NInteger "" "" true false (BO (VInt 0) VNone) None None VUndef [("other", VNone)]).
Proof. vm_compute. repeat split. Qed.
(** Validation with a replaced [validate], and with bounds that are no numbers:
    these make every value that is otherwise valid a TypeError. *)
Theorem C53_own_validate : forall E ucall ucall2 p f v, np_getattr p "validate" = Some f ->
  (ucall f = None -> np_validate E ucall ucall2 p v = LExc ExType) /\
  (ucall f <> None -> (forall w, ucall2 f v = Ok w -> np_validate E ucall ucall2 p v = LOk w) /\
                      (forall e, ucall2 f v = Exc e -> np_validate E ucall ucall2 p v = LExc e)).
Proof. exact validate_own. Qed.
Print Assumptions C53_own_validate.
Theorem C53_odd_bounds : forall E ucall ucall2 rc p v w, np_getattr p "validate" = None ->
  leaf_validate E rc (match np_kind p with NInteger => LfInt | NFloat => LfFloat end (np_cast p) None None) v = LOk w ->
  (as_num (b_min (np_bounds p)) = None -> b_min (np_bounds p) <> VNone -> np_validate E ucall ucall2 p v = LExc ExType) /\
  (forall mn, bound_is (b_min (np_bounds p)) mn -> as_num (b_max (np_bounds p)) = None -> b_max (np_bounds p) <> VNone ->
     np_validate E ucall ucall2 p v =
     match leaf_validate E rc (match np_kind p with NInteger => LfInt | NFloat => LfFloat end (np_cast p) mn None) v with
     | LOk _ => LExc ExType
     | r => r
     end).
Proof. exact validate_odd_bounds. Qed.
Print Assumptions C53_odd_bounds.
Example C53_odd_bounds_ex :
  let p own b := NP NInteger "" "" true false b None None VUndef own in
  np_validate E1 D_call D_call2 (p [] (BO (VStr "a") VNone)) (VInt 3) = LExc ExType /\
  np_validate E1 D_call D_call2 (p [] (BO (VInt 5) (VStr "a"))) (VInt 3) = LErr 0 /\
  np_validate E1 D_call D_call2 (p [] (BO (VInt 1) (VStr "a"))) (VInt 3) = LExc ExType /\
  np_validate E1 D_call D_call2 (p [("validate", VInt 3)] b_start) (VInt 3) = LExc ExType.
Proof. vm_compute. repeat split. Qed.
(** A keyword may replace [validate], so that an invalid default is accepted. *)
Theorem C53_method_refuted : exists E ucall ucall2 doc kws p v,
  NoDup (map fst kws) /\ np_declare E ucall ucall2 NInteger doc kws = Ok p /\
  np_default p = v /\ v <> VUndef /\ ucall v = None /\ np_bounds p = b_start /\
  forall w, leaf_validate E 0 (LfInt (np_cast p) None None) v <> LOk w.
Proof.
  exists E1, D_call, D_call2, (VStr "n"), [("default", VStr "five"); ("validate", VObj 0)]. do 2 eexists.
  split; [repeat constructor; cbn; intuition discriminate|]. split; [vm_compute; reflexivity|].
  cbn. repeat split; discriminate.
Qed.
Print Assumptions C53_method_refuted.
(** Options changed later leave an invalid default. *)
Theorem C53_later_refuted : exists E ucall ucall2 doc kws p p',
  np_declare E ucall ucall2 NInteger doc kws = Ok p /\ np_setattr E ucall ucall2 "min" (VInt 9) p = Ok p' /\
  np_default p' = np_default p /\ ~ default_ok E ucall ucall2 p' (np_default p').
Proof.
  exists E1, D_call, D_call2, (VStr "n"), [("default", VInt 5)]. do 2 eexists.
  split; [vm_compute; reflexivity|]. split; [vm_compute; reflexivity|]. split; [reflexivity|].
  intros [H|[[_ (w & H)]|(x & w & H & _)]]; vm_compute in H; discriminate.
Qed.
Print Assumptions C53_later_refuted.

(** ** C54: declaring a dynamic property *)
Theorem C54_getter_iff : forall f d p,
  dyn_declare f d = Ok p <-> suits 1 f /\ d = VUndef /\ exists n, fn_name f = Some n /\ p = DP f None None n n.
Proof. exact dyn_declare_iff. Qed.
Print Assumptions C54_getter_iff.
Theorem C54_setter_iff : forall p f p',
  dyn_apply p (DSetter f) = Ok p' <->
  suits 2 f /\ fn_name f = Some (dp_name p) /\ p' = DP (dp_func p) (Some f) (dp_del p) (dp_name p) (dp_inner p).
Proof. exact dyn_setter_iff. Qed.
Print Assumptions C54_setter_iff.
Theorem C54_deleter_iff : forall p f p',
  dyn_apply p (DDeleter f) = Ok p' <->
  suits 1 f /\ fn_name f = Some (dp_name p) /\ p' = DP (dp_func p) (dp_set p) (Some f) (dp_name p) (dp_inner p).
Proof. exact dyn_deleter_iff. Qed.
Print Assumptions C54_deleter_iff.
(** In every history the functions can be called as they will be, if they are
    not bound methods and have no required keyword-only parameters, and the decorated property has the
    name of the dynamic one. *)
Theorem C54_callable : forall f d p0 ops, dyn_declare f d = Ok p0 ->
  let p := assign_all dyn_apply p0 ops in
  dp_func p = f /\ dp_inner p = dp_name p /\
  forall g n, (g = f /\ n = 1) \/ (dp_set p = Some g /\ n = 2) \/ (dp_del p = Some g /\ n = 1) ->
    fn_callable g = true /\ forall s, fn_sig g = Some s -> sg_bound s = 0 -> sg_kwreq s = 0 -> takes s n.
Proof. exact dyn_callable. Qed.
Print Assumptions C54_callable.
(** Until it is renamed, setter and deleter have the name of the getter. *)
Theorem C54_names : forall f d p0 ops g, dyn_declare f d = Ok p0 -> (forall v, ~ In (DName v) ops) ->
  let p := assign_all dyn_apply p0 ops in
  dp_set p = Some g \/ dp_del p = Some g -> fn_name g = fn_name f /\ fn_name f = Some (dp_name p).
Proof. exact dyn_names. Qed.
Print Assumptions C54_names.
Example C54_ex :
  let f i n s := FN i true (Some (SIG n 0 false 0 0)) (Some s) in
  let ops := [DSetter (f 1 1 "x"); DSetter (f 2 2 "y"); DSetter (f 3 2 "x"); DDeleter (f 4 2 "x"); DDeleter (f 5 1 "x")] in
  exists p0, dyn_declare (f 0 1 "x") VUndef = Ok p0 /\
    assign_all dyn_apply p0 ops = DP (f 0 1 "x") (Some (f 3 2 "x")) (Some (f 5 1 "x")) "x" "x" /\
    assign_all dyn_apply p0 (ops ++ [DName (VInt 1); DName (VStr "z"); DSetter (f 6 2 "x")]) =
      DP (f 0 1 "x") (Some (f 3 2 "x")) (Some (f 5 1 "x")) "z" "z" /\
    dyn_declare (f 0 1 "x") (VInt 1) = Exc ExType.
Proof. eexists. vm_compute. repeat split. Qed.
(** What is refused, and how; and renaming. *)
Theorem C54_rejected : forall f d p v,
  (fn_callable f = false \/ (exists s, fn_sig f = Some s /\ sg_args s <> 1) ->
     dyn_declare f d = Exc ExType /\ dyn_apply p (DDeleter f) = Exc ExType) /\
  (fn_callable f = false \/ (exists s, fn_sig f = Some s /\ sg_args s <> 2) -> dyn_apply p (DSetter f) = Exc ExType) /\
  (suits 1 f -> d <> VUndef -> dyn_declare f d = Exc ExType) /\
  (suits 1 f -> fn_name f = None -> dyn_declare f VUndef = Exc ExAttr /\ dyn_apply p (DDeleter f) = Exc ExAttr) /\
  (suits 2 f -> fn_name f = None -> dyn_apply p (DSetter f) = Exc ExAttr) /\
  (forall n, fn_name f = Some n -> n <> dp_name p ->
     (suits 1 f -> dyn_apply p (DDeleter f) = Exc ExType) /\ (suits 2 f -> dyn_apply p (DSetter f) = Exc ExType)) /\
  ((forall s, v <> VStr s) -> dyn_apply p (DName v) = Exc ExType) /\
  (forall s, v = VStr s -> dyn_apply p (DName v) = Ok (DP (dp_func p) (dp_set p) (dp_del p) s s)).
Proof. exact dyn_rejects. Qed.
Print Assumptions C54_rejected.
Example C54_rejected_ex :
  let f i c n s := FN i c (Some (SIG n 0 false 0 0)) s in
  let p := DP (f 0 true 1 (Some "x")) None None "x" "x" in
  [dyn_declare (f 0 false 1 (Some "x")) VUndef; dyn_declare (f 0 true 1 (Some "x")) (VInt 1); dyn_declare (f 0 true 1 None) VUndef;
   dyn_apply p (DSetter (f 1 true 1 (Some "x"))); dyn_apply p (DSetter (f 1 true 2 (Some "y"))); dyn_apply p (DDeleter (f 1 true 1 None)); dyn_apply p (DName (VInt 1))] =
  [Exc ExType; Exc ExType; Exc ExAttr; Exc ExType; Exc ExType; Exc ExAttr; Exc ExType].
Proof. reflexivity. Qed.
(** A getter that needs a keyword-only argument is accepted. *)
Theorem C54_keyword_only_refuted : exists f p s, dyn_declare f VUndef = Ok p /\ fn_sig f = Some s /\ ~ takes s 1.
Proof.
  exists (FN 0 true (Some (SIG 1 0 false 1 0)) (Some "x")). do 2 eexists. split; [reflexivity|]. split; [reflexivity|].
  intros (_ & _ & H). discriminate.
Qed.
Print Assumptions C54_keyword_only_refuted.
(** So is a bound method that takes no argument. *)
Theorem C54_method_refuted : exists f p s,
  dyn_declare f VUndef = Ok p /\ fn_sig f = Some s /\ sg_kwreq s = 0 /\ sg_varargs s = false /\ ~ takes s 1.
Proof.
  exists (FN 0 true (Some (SIG 1 0 false 0 1)) (Some "x")). do 2 eexists. split; [reflexivity|]. split; [reflexivity|].
  split; [reflexivity|]. split; [reflexivity|]. intros ([H|H] & _ & _); cbn in H; [lia|discriminate].
Qed.
Print Assumptions C54_method_refuted.
(** A getter with a second parameter that has a default, and one with [*args]
    only, are rejected although they take one argument. *)
Theorem C54_defaults_refuted : exists f g s t,
  fn_callable f = true /\ fn_sig f = Some s /\ takes s 1 /\ sg_varargs s = false /\ dyn_declare f VUndef = Exc ExType /\
  fn_callable g = true /\ fn_sig g = Some t /\ takes t 1 /\ sg_defaults t = 0 /\ dyn_declare g VUndef = Exc ExType.
Proof.
  exists (FN 0 true (Some (SIG 2 1 false 0 0)) (Some "x")), (FN 0 true (Some (SIG 0 0 true 0 0)) (Some "x")).
  exists (SIG 2 1 false 0 0), (SIG 0 0 true 0 0). unfold takes. cbn. repeat split; auto.
Qed.
Print Assumptions C54_defaults_refuted.

(** ** C55: the default of a Union *)
(** An own default is accepted exactly if it is a valid value. *)
Theorem C55_own_default : forall alt alt_validate gen l v,
  gen v = None -> v <> VUndef -> v <> VNone ->
  (un_declare alt alt_validate gen l (Some v) = Ok v <-> exists w, un_validate alt alt_validate l v = LOk w) /\
  (forall o, un_declare alt alt_validate gen l (Some v) = Ok o -> o = v).
Proof. exact un_own. Qed.
Print Assumptions C55_own_default.
Theorem C55_rejected : forall alt alt_validate gen l v n,
  gen v = None -> v <> VUndef -> v <> VNone ->
  un_validate alt alt_validate l v = LErr n -> un_declare alt alt_validate gen l (Some v) = Exc ExType.
Proof. exact un_rejected. Qed.
Print Assumptions C55_rejected.
(** None and undefined as keyword: no default. *)
Theorem C55_no_default : forall alt alt_validate gen l,
  un_declare alt alt_validate gen l None = Ok VUndef /\ un_declare alt alt_validate gen l (Some VNone) = Ok VUndef /\
  un_declare alt alt_validate gen l (Some VUndef) = Ok VUndef.
Proof. exact un_no_default. Qed.
Print Assumptions C55_no_default.
Theorem C55_first_accepting : forall alt alt_validate l v w,
  un_validate alt alt_validate l v = LOk w <->
  exists pre a post, l = pre ++ a :: post /\ (forall b, In b pre -> declines (alt_validate b v)) /\ alt_validate a v = LOk w.
Proof. exact un_validate_first. Qed.
Print Assumptions C55_first_accepting.
(** The default is the own one, or that of the first alternative that has one. *)
Theorem C55_own_first : forall alt alt_default l own, own <> VUndef -> un_default alt alt_default l own = own.
Proof. exact un_default_own. Qed.
Print Assumptions C55_own_first.
Theorem C55_first_default : forall alt alt_default l d, un_default alt alt_default l VUndef = d ->
  (d = VUndef /\ forall a, In a l -> alt_default a = VUndef) \/
  (exists pre a post, l = pre ++ a :: post /\ (forall b, In b pre -> alt_default b = VUndef) /\ alt_default a = d /\ d <> VUndef).
Proof. exact un_default_first. Qed.
Print Assumptions C55_first_default.
(** It is a valid value, if the alternatives accept their own defaults and
    raise generic errors only. *)
Theorem C55_usable : forall alt alt_validate alt_default l own w,
  (forall a, In a l -> alt_default a <> VUndef -> exists x, alt_validate a (alt_default a) = LOk x) ->
  (forall a v e, In a l -> alt_validate a v = LExc e -> is_generic e = true) ->
  (own = VUndef \/ un_validate alt alt_validate l own = LOk w) ->
  un_default alt alt_default l own = VUndef \/
  exists x, un_validate alt alt_validate l (un_default alt alt_default l own) = LOk x.
Proof. exact un_default_usable. Qed.
Print Assumptions C55_usable.
Definition D_alt := (leaf * val)%type.
Definition D_validate (a : D_alt) (v : val) : lres := leaf_validate E1 0 (fst a) v.
Definition D_gen (v : val) : option (nat -> res val) :=
  match v with VObj 0 => Some (fun n => Ok (VInt (Z.of_nat n))) | _ => None end.
Definition D_str (d : val) : D_alt := (LfString (SO "" CNone None), d).
Definition D_int (d : val) : D_alt := (LfInt false None None, d).
Definition D_color (d : val) : D_alt := (LfColor, d).
Example C55_ex :
  un_declare D_alt D_validate D_gen [D_str VUndef; D_int (VInt 3)] (Some (VInt 4)) = Ok (VInt 4) /\
  un_declare D_alt D_validate D_gen [D_str VUndef; D_int (VInt 3)] (Some (VTuple [])) = Exc ExType /\
  un_default D_alt snd [D_str VUndef; D_int (VInt 3); D_color (VStr "red")] VUndef = VInt 3 /\
  un_default D_alt snd [D_str VUndef; D_int (VInt 3)] (VInt 4) = VInt 4 /\
  un_validate D_alt D_validate [D_str VUndef; D_int (VInt 3)] (VInt 3) = LOk (VInt 3).
Proof. vm_compute. repeat split. Qed.
Example C55_usable_ex :
  let l := [D_str VUndef; D_int (VInt 3)] in
  (forall a, In a l -> snd a <> VUndef -> exists x, D_validate a (snd a) = LOk x) /\
  un_validate D_alt D_validate l (VStr "s") = LOk (VStr "s").
Proof.
  cbv zeta. split; [|reflexivity]. intros a [<-|[<-|[]]] H; [exfalso; apply H; reflexivity|]. eexists. reflexivity.
Qed.
(** The default of an alternative may be read by an earlier one. *)
Theorem C55_reinterpreted_refuted : exists l (a : D_alt) d x y,
  un_default D_alt snd l VUndef = d /\ In a l /\ snd a = d /\ D_validate a d = LOk x /\
  un_validate D_alt D_validate l d = LOk y /\ x <> y.
Proof.
  exists [D_str VUndef; D_color (VStr "red")], (D_color (VStr "red")). do 3 eexists.
  split; [reflexivity|]. split; [cbn; auto|]. split; [reflexivity|]. split; [vm_compute; reflexivity|].
  split; [vm_compute; reflexivity|]. discriminate.
Qed.
Print Assumptions C55_reinterpreted_refuted.
(** [default=undefined] does not keep the default of an alternative away. *)
Theorem C55_undefined_refuted : exists l own,
  un_declare D_alt D_validate D_gen l (Some VUndef) = Ok own /\ un_default D_alt snd l own <> VUndef.
Proof. exists [D_int (VInt 3)]. eexists. split; [reflexivity|]. discriminate. Qed.
Print Assumptions C55_undefined_refuted.
(** A callable default may be called more than once when it is set. *)
Theorem C55_calls_refuted : exists l v, un_check D_alt D_validate D_gen l v 0 = (2, Ok tt).
Proof. exists [D_str VUndef; D_int VUndef], (VObj 0). reflexivity. Qed.
Print Assumptions C55_calls_refuted.

(** ** C56: declaring listeners *)
Theorem C56_decorator : forall n chg,
  (forall ns, names_of n ns -> observer (TNames n) None None chg = Ok (DecObserver ns (if chg then MChange else MSet))) /\
  ((forall ns, ~ names_of n ns) -> observer (TNames n) None None chg = Exc ExType).
Proof. exact observer_decorator. Qed.
Print Assumptions C56_decorator.
Theorem C56_on_instance : forall l n f chg ns, names_of n ns ->
  observer (TInst l) (Some n) f chg = Ok (DecInst l ns (if chg then MChange else MSet) f).
Proof. exact observer_instance. Qed.
Print Assumptions C56_on_instance.
(** Registering calls the function once more for every mention of a name. *)
Theorem C56_registered : forall C l ns m f w i c,
  nth_error (w_heap w) l = Some i -> nth_error (ct_cls C) (i_cls i) = Some c ->
  exists i' w', has_observe C l (OD ns m f) w = (Ok VNone, w') /\ nth_error (w_heap w') l = Some i' /\
    (forall k, k <> l -> nth_error (w_heap w') k = nth_error (w_heap w) k) /\ i_back i' = i_back i /\
    forall n m', listeners_of i' n m' = listeners_of i n m' ++
      (if lmode_eqb m m' then repeat f (count_occ string_dec (match ns with Some s => s | None => dkeys (c_props c) end) n) else []).
Proof. exact observe_registers. Qed.
Print Assumptions C56_registered.
(** Disabled modes: None for all, or names of modes. *)
Theorem C56_disable_type : forall v t, set_disable_type v = Ok t <->
  (v = VNone /\ t = None) \/ exists ss ms, strings_of v ss /\ Forall2 mode_named ss ms /\ t = Some ms.
Proof. exact disable_type_iff. Qed.
Print Assumptions C56_disable_type.
Theorem C56_disable_type_error : forall v e, set_disable_type v = Exc e -> e = ExType.
Proof. exact disable_type_error. Qed.
Print Assumptions C56_disable_type_error.
Example C56_ex :
  observer (TNames (NVal (VList [VStr "a"; VStr "b"]))) None None true = Ok (DecObserver (Some ["a"; "b"]) MChange) /\
  observer (TNames (NVal (VList [VStr "a"; VInt 1]))) None None true = Exc ExType /\
  observer (TNames NAll) None None false = Ok (DecObserver None MSet) /\
  observer (TInst 0) (Some (NVal (VStr "x"))) (Some 5) false = Ok (DecInst 0 (Some ["x"]) MSet (Some 5)) /\
  observer (TInst 0) None (Some 5) false = Exc ExType /\
  validator (TFun 3) None None = Ok (DecClass 3) /\
  validator (TNames (NVal (VStr "x"))) None None = Ok (DecObserver (Some ["x"]) MValidate) /\
  set_disable_type (VStr "observe_set") = Ok (Some [MSet]) /\
  set_disable_type (VTuple [VStr "validate"; VStr "observe"]) = Exc ExType /\
  set_disable_type (VDict []) = Exc ExType /\
  match nth_error (w_heap (snd (has_observe C1 0 (OD (Some ["x"; "tag"; "x"]) MSet (LCb 7)) w_one))) 0 with
  | Some i => listeners_of i "x" MSet = [LCb 2; LCb 7; LCb 7]
  | None => False
  end.
Proof. vm_compute. repeat split. Qed.
(** A validator is one of the class, of the instances by declaration, or of one instance. *)
Theorem C56_validator :
  (forall g, validator (TFun g) None None = Ok (DecClass g)) /\
  (forall n ns, names_of n ns -> validator (TNames n) None None = Ok (DecObserver ns MValidate)) /\
  (forall n, (forall ns, ~ names_of n ns) -> validator (TNames n) None None = Exc ExType) /\
  (forall l n f ns, names_of n ns -> validator (TInst l) (Some n) f = Ok (DecInst l ns MValidate f)) /\
  (forall l n f, (forall ns, ~ names_of n ns) -> validator (TInst l) (Some n) f = Exc ExType).
Proof. exact validator_all. Qed.
Print Assumptions C56_validator.
(** A listener without a function is registered. *)
Theorem C56_no_function_refuted : exists t names d l ns m,
  observer t names None false = Ok d /\ d = DecInst l ns m None.
Proof. exists (TInst 0), (Some (NVal (VStr "x"))). do 4 eexists. split; reflexivity. Qed.
Print Assumptions C56_no_function_refuted.

(** All declarations that are accepted, and how the others fail. *)
Theorem C56_observer_iff : forall t names f chg d,
  observer t names f chg = Ok d <-> declares (if chg then MChange else MSet) t names f d.
Proof. exact observer_iff. Qed.
Print Assumptions C56_observer_iff.
Theorem C56_observer_errors : forall t names f chg e, observer t names f chg = Exc e ->
  e = ExType \/ (e = ExAttr /\ (forall l, t <> TInst l) /\ exists n ns, names = Some n /\ names_of n ns).
Proof. exact observer_errors. Qed.
Print Assumptions C56_observer_errors.
Theorem C56_validator_iff : forall t names f d, validator t names f = Ok d <->
  declares MValidate t names f d \/ (names = None /\ f = None /\ exists g, t = TFun g /\ d = DecClass g).
Proof. exact validator_iff. Qed.
Print Assumptions C56_validator_iff.
Theorem C56_validator_errors : forall t names f e, validator t names f = Exc e ->
  e = ExType \/ (e = ExAttr /\ (forall l, t <> TInst l) /\ exists n ns, names = Some n /\ names_of n ns).
Proof. exact validator_errors. Qed.
Print Assumptions C56_validator_errors.
Example C56_outcomes_ex :
  observer (TFun 1) None None false = Exc ExType /\ observer (TInst 1) None None false = Exc ExType /\
  observer (TFun 1) (Some NAll) (Some 2) false = Exc ExAttr /\ observer (TInst 1) (Some NAll) (Some 2) true = Ok (DecInst 1 None MChange (Some 2)) /\
  validator (TNames NAll) (Some NAll) None = Exc ExAttr /\ validator (TInst 1) None (Some 1) = Exc ExType.
Proof. repeat split. Qed.

(** ** C57: custom serializers and deserializers *)
Theorem C57_calls : forall f json v kw,
  (exists kw', keywords "include_class" true kw kw' /\
    ((f kw' v <> Exc ExType /\ custom_serialize (Some f) json v kw = ([kw'], f kw' v)) \/
     (f kw' v = Exc ExType /\ custom_serialize (Some f) json v kw = ([kw'; []], f [] v)))) /\
  (exists kw', keywords "trusted" false kw kw' /\
    ((f kw' v <> Exc ExType /\ custom_deserialize (Some f) json v kw = ([kw'], f kw' v)) \/
     (f kw' v = Exc ExType /\ custom_deserialize (Some f) json v kw = ([kw'; []], f [] v)))).
Proof. exact custom_calls. Qed.
Print Assumptions C57_calls.
(** Without one, None stays None, and no function is called. *)
Theorem C57_default : forall json v kw,
  (v = VNone -> custom_serialize None json v kw = ([], Ok VNone) /\ custom_deserialize None json v kw = ([], Ok VNone)) /\
  (v <> VNone -> custom_serialize None json v kw = ([], json v) /\ custom_deserialize None json v kw = ([], json v)).
Proof. exact custom_default. Qed.
Print Assumptions C57_default.
Example C57_calls_ex :
  keywords "trusted" false [("x", VInt 1)] [("x", VInt 1); ("trusted", VBool false)] /\
  custom_deserialize (Some (fun kw v => Ok v)) (fun v => Ok v) (VInt 2) [("x", VInt 1)] = ([[("x", VInt 1); ("trusted", VBool false)]], Ok (VInt 2)) /\
  custom_deserialize (Some (fun kw v => Ok v)) (fun v => Ok v) (VInt 2) [("trusted", VInt 1)] = ([[("trusted", VInt 1)]], Ok (VInt 2)) /\
  custom_serialize None (fun v => Ok (VStr "j")) (VInt 2) [] = ([], Ok (VStr "j")).
Proof.
  split; [|repeat split]. split; [|split; [discriminate|reflexivity]]. intros k Hk. cbn.
  destruct (String.eqb k "x"); [reflexivity|]. destruct (String.eqb_spec k "trusted"); [congruence|reflexivity].
Qed.
(** One that does not raise TypeError is called once, with the keywords. *)
Theorem C57_called_once : forall key dflt f json v kw,
  let kw' := dset kw key (match dget kw key with Some x => x | None => VBool dflt end) in
  f kw' v <> Exc ExType -> custom_json key dflt (Some f) json v kw = ([kw'], f kw' v).
Proof. exact custom_once. Qed.
Print Assumptions C57_called_once.
(** One that takes no keywords is called without them. *)
Theorem C57_without_keywords : forall key dflt f (g : val -> res val) json v kw,
  (forall kw, f kw v = if match kw with [] => true | _ => false end then g v else Exc ExType) ->
  snd (custom_json key dflt (Some f) json v kw) = g v.
Proof. exact custom_plain. Qed.
Print Assumptions C57_without_keywords.
Example C57_ex :
  custom_serialize (Some (fun kw v => Ok (VDict [(VStr "v", v); (VStr "n", VInt (Z.of_nat (length kw)))]))) (fun v => Ok v) VNone [] =
    ([[("include_class", VBool true)]], Ok (VDict [(VStr "v", VNone); (VStr "n", VInt 1)])) /\
  custom_deserialize None (fun v => Ok v) VNone [] = ([], Ok VNone) /\
  snd (custom_serialize (Some (fun kw v => match kw with [] => Ok (VStr "plain") | _ => Exc ExType end)) (fun v => Ok v) (VInt 1) [])
    = Ok (VStr "plain").
Proof. vm_compute. repeat split. Qed.
(** A TypeError of the function itself is hidden by a second call. *)
Theorem C57_second_call_refuted : exists f v kw, 
  fst (custom_serialize (Some f) (fun v => Ok v) v kw) = [[("include_class", VBool true)]; []] /\
  f [("include_class", VBool true)] v = Exc ExType /\ snd (custom_serialize (Some f) (fun v => Ok v) v kw) = Ok v.
Proof.
  exists (fun kw v => match dget kw "include_class" with Some _ => match v with VInt _ => Exc ExType | _ => Ok VNone end | None => Ok v end), (VInt 1), [].
  vm_compute. repeat split.
Qed.
Print Assumptions C57_second_call_refuted.
