(** Property theorems about keywords: [C71] the declaration of a property of any
    class.  [W] says what Python objects are (Keywords.v [objects]). *)
From Coq Require Import Permutation.
From Verif Require Import Keywords BasicSpec OptionsSpec KeywordsSpec KeywordsProofs KeywordsErrors KeywordsNumbers KeywordsUnion.
Local Open Scope string_scope.
Local Open Scope list_scope.
Local Open Scope nat_scope.

(** Object 1 is a callable giving 5, object 2 one giving 'x', 10 a subclass of
    HasProperties and 20 the Instance made from it, 11 another class, 21 another
    property, 30 a dtype, 50 a compiled pattern.  Integers not below 'min' are
    valid. *)
Definition W1 : objects := {|
  ucall v := match v with VObj 1 => Some (Ok (VInt 5)) | VObj 2 => Some (Ok (VStr "x")) | VObj 10 | VObj 11 => Some (Ok v) | _ => None end;
  compile s := if String.eqb s "[" then None else Some (VObj 50);
  has_search v := match v with VObj 50 => true | _ => false end;
  is_class v := match v with VObj 10 | VObj 11 => true | _ => false end;
  as_instance v := match v with VObj 10 => Some (VObj 20) | _ => None end;
  is_prop v := match v with VObj 20 | VObj 21 => true | _ => false end;
  is_dtype v := match v with VObj 30 => true | _ => false end;
  text_of v := match v with VStr s => Ok s | _ => Ok "" end;
  validates k o v := match v, dget o "min" with
                     | VInt z, Some (VInt m) => if Z.leb m z then LOk v else LErr 0
                     | VInt _, _ => LOk v
                     | _, _ => LErr 0
                     end |}.

(** A property that is created has the options supplied for it, each valid by
    itself, valid together, and with a valid default; every keyword was an
    option or attribute of the class and the call fitted its parameters. *)
Theorem C71_declared : forall W k args kws o,
  NoDup (map fst kws) -> declare W k args kws = Ok o ->
  fits_params k args kws /\ allowed k kws /\ asked_for W k args kws o.
Proof. exact declared_asked. Qed.
Print Assumptions C71_declared.
Example C71_declared_ex :
  declare W1 P_Integer [VStr "n"] [("default", VInt 4); ("max", VInt 9); ("min", VInt 0); ("required", VBool false)] =
    Ok [("doc", VStr "n"); ("max", VInt 9); ("min", VInt 0); ("required", VBool false); ("default", VInt 4)] /\
  declare W1 P_Integer [VStr "n"] [("default", VInt 4); ("min", VInt 6)] = Exc (ExValidation []) /\
  declare W1 P_Integer [VStr "n"] [("default", VObj 1); ("min", VInt 5)] =
    Ok [("doc", VStr "n"); ("min", VInt 5); ("default", VObj 1)] /\
  declare W1 P_Integer [VStr "n"] [("default", VObj 2)] = Exc (ExValidation []) /\
  declare W1 P_Choice [VStr "c"] [("choices", VDict [(VStr "a", VStr "b")]); ("descriptions", VDict [(VStr "a", VStr "d")])] =
    Ok [("case_sensitive", VBool false); ("choices", VDict [(VStr "a", VList [VStr "b"])]); ("doc", VStr "c");
        ("descriptions", VDict [(VStr "a", VStr "d")])] /\
  declare W1 P_Choice [VStr "c"; VList [VStr "a"; VStr "A"]] [] = Exc ExType /\
  declare W1 P_Choice [VStr "c"; VList [VStr "a"; VStr "A"]; VBool true] [("descriptions", VDict [(VStr "a", VStr "d")])] = Exc ExType /\
  declare W1 P_List [VStr "l"; VObj 10] [("min_length", VInt 2); ("max_length", VInt 3); ("coerce", VBool true); ("default", VNone)] =
    Ok [("prop", VObj 20); ("doc", VStr "l"); ("min_length", VInt 2); ("max_length", VInt 3); ("coerce", VBool true)] /\
  declare W1 P_List [VStr "l"] [("max_length", VInt 2); ("min_length", VInt 3)] = Exc ExType /\
  declare W1 P_Pointer [VStr "p"; VObj 11] [("load", VInt 3); ("uid_prop", VStr "id")] =
    Ok [("instance_class", VObj 11); ("doc", VStr "p"); ("load", VBool true); ("uid_prop", VStr "id")] /\
  declare W1 P_String [VStr "s"] [("regex", VStr "a*"); ("change_case", VStr "upper")] =
    Ok [("doc", VStr "s"); ("regex", VObj 50); ("change_case", VStr "upper")] /\
  declare W1 P_String [VStr "s"] [("regex", VStr "[")] = Exc ExType /\
  declare W1 P_Vector3Array [VStr "v"] [("shape", VTuple [VStr "*"; VInt 3]); ("length", VInt 2)] =
    Ok [("doc", VStr "v"); ("shape", VSet [VTuple [VStr "*"; VInt 3]]); ("length", VFloat (S754_finite false (2 ^ 52) (-51)))] /\
  declare W1 P_Vector3Array [VStr "v"] [("shape", VTuple [VInt 3; VStr "*"])] = Exc ExType /\
  declare W1 P_Array [VStr "v"] [("dtype", VList []); ("shape", VNone)] = Exc ExType /\
  declare W1 P_Union [VStr "u"; VList [VObj 10; VObj 21]] [("default", VInt 3); ("strict_instances", VBool true)] =
    Ok [("props", VTuple [VObj 20; VObj 21]); ("doc", VStr "u"); ("strict_instances", VBool true); ("default", VInt 3)] /\
  declare W1 P_Union [VStr "u"; VList [VObj 10; VObj 21]] [("default", VStr "x")] = Exc ExType /\
  declare W1 P_Union [VStr "u"; VList [VObj 10; VObj 11]] [] = Exc ExType /\
  declare W1 P_Union [VStr "u"; VSet [VObj 21]] [] = Exc ExType /\
  declare W1 P_Union [VStr "u"; VTuple [VObj 21]] [("name", VInt 5)] = Exc ExType /\
  declare W1 P_Union [VStr "u"; VTuple []] [("default", VInt 5)] = Exc ExType.
Proof. vm_compute. repeat split. Qed.

(** A call is accepted exactly if it fits the parameters, its keywords are
    options or attributes of the class, and an object with the options asked for
    exists. *)
Theorem C71_accepted_iff : forall W k args kws,
  NoDup (map fst kws) -> orderless W -> ~ In "file_modes" (map fst kws) ->
  (forall key, In key ["min"; "max"] -> ~ In (key, VNone) kws) ->
  ((exists o, declare W k args kws = Ok o) <-> fits_params k args kws /\ allowed k kws /\ exists o, asked_for W k args kws o).
Proof. exact accepted_iff. Qed.
Print Assumptions C71_accepted_iff.
(** It gives that object. *)
Theorem C71_unique : forall W k args kws o o',
  NoDup (map fst kws) -> orderless W -> ~ In "file_modes" (map fst kws) ->
  (forall key, In key ["min"; "max"] -> ~ In (key, VNone) kws) ->
  declare W k args kws = Ok o -> asked_for W k args kws o' -> forall key, dget o key = dget o' key.
Proof. exact asked_unique. Qed.
Print Assumptions C71_unique.
(** The order of the keywords does not matter. *)
Theorem C71_order : forall W k args kws kws' o,
  NoDup (map fst kws) -> Permutation kws kws' -> orderless W -> ~ In "file_modes" (map fst kws) ->
  (forall key, In key ["min"; "max"] -> ~ In (key, VNone) kws) -> declare W k args kws = Ok o ->
  exists o', declare W k args kws' = Ok o' /\ forall key, dget o' key = dget o key.
Proof. exact any_order. Qed.
Print Assumptions C71_order.
Definition K1 : dict val := [("default", VInt 4); ("max", VInt 9); ("min", VInt 0); ("cast", VBool true)].
Example C71_accepted_ex :
  NoDup (map fst K1) /\ orderless W1 /\ ~ In "file_modes" (map fst K1) /\
  (forall key, In key ["min"; "max"] -> ~ In (key, VNone) K1) /\
  (exists o, declare W1 P_Float [VStr "x"] K1 = Ok o /\ declare W1 P_Float [] (("doc", VStr "x") :: rev K1) = Ok (("doc", VStr "x") :: rev (ddel K1 "default") ++ [("default", VInt 4)])) /\
  Permutation K1 (rev K1).
Proof.
  split; [repeat constructor; cbn; intuition discriminate|]. split; [intros k o o' H v; cbn; now rewrite H|].
  split; [cbn; intuition discriminate|]. split; [intros key _; cbn; intuition discriminate|].
  split; [eexists; vm_compute; split; reflexivity|apply Permutation_rev].
Qed.
(** It does with None as a bound, and with new file modes, which replace those
    that the class checks. *)
Theorem C71_order_refuted : exists W,
  (exists o, declare W P_Integer [VStr "n"] [("min", VNone); ("max", VInt 3)] = Ok o) /\
  declare W P_Integer [VStr "n"] [("max", VInt 3); ("min", VNone)] = Exc ExType /\
  (exists o, declare W P_File [VStr "f"; VStr "r"] [("file_modes", VTuple [VStr "r"; VStr "q"]); ("valid_modes", VTuple [VStr "r"; VStr "q"])] = Ok o) /\
  declare W P_File [VStr "f"; VStr "r"] [("valid_modes", VTuple [VStr "r"; VStr "q"]); ("file_modes", VTuple [VStr "r"; VStr "q"])] = Exc ExType.
Proof. exists W1. split; [eexists; reflexivity|]. split; [reflexivity|]. split; [eexists; reflexivity|reflexivity]. Qed.
Print Assumptions C71_order_refuted.

(** Any other keyword is an AttributeError: private names, 'terms', attributes
    without setter, unknown names. *)
Theorem C71_bad_keyword : forall W k args l1 l2 o key v,
  declare W k args (l1 ++ l2) = Ok o -> ~ In key (options k) -> ~ In key (methods k) ->
  ~ In key [""; "self"; "cls"; "default"] -> declare W k args (l1 ++ (key, v) :: l2) = Exc ExAttr.
Proof. exact bad_keyword. Qed.
Print Assumptions C71_bad_keyword.
(** So is a default for Uuid. *)
Theorem C71_uuid_default : forall W args l1 l2 o v,
  declare W P_Uuid args (l1 ++ l2) = Ok o -> dget (l1 ++ l2) "default" = None -> v <> VNone ->
  declare W P_Uuid args (l1 ++ ("default", v) :: l2) = Exc ExAttr.
Proof. exact uuid_default. Qed.
Print Assumptions C71_uuid_default.
(** A call that does not fit the parameters is a TypeError. *)
Theorem C71_parameters : forall W k args kws, ~ fits_params k args kws -> declare W k args kws = Exc ExType.
Proof. exact misfit. Qed.
Print Assumptions C71_parameters.
Example C71_bad_keyword_ex :
  (exists o, declare W1 P_Vector3 [VStr "v"] [("length", VInt 1); ("required", VBool true)] = Ok o) /\
  Forall (fun key => ~ In key (options P_Vector3) /\ ~ In key (methods P_Vector3) /\ ~ In key [""; "self"; "cls"; "default"])
         ["shape"; "dtype"; "terms"; "_shape"; "wrapper"; "info"; "min"] /\
  (exists o, declare W1 P_Uuid [VStr "u"] [("name", VStr "id"); ("default", VNone)] = Ok o) /\
  (exists o, declare W1 P_Uuid [VStr "u"] [("name", VStr "id")] = Ok o) /\
  ~ fits_params P_Choice [VStr "c"] [] /\ ~ fits_params P_Renamed [] [] /\ ~ fits_params P_Integer [VStr "a"; VStr "b"] [] /\
  ~ fits_params P_File [VStr "a"; VStr "r"] [("mode", VStr "w")] /\
  declare W1 P_Renamed [VStr "new"] [] =
    Ok [("new_name", VStr "new"); ("doc", VStr "This property has been renamed 'new' and may be removed in the future.")] /\
  declare W1 P_Renamed [VStr "new"] [("doc", VStr "other"); ("warn", VBool false)] =
    Ok [("new_name", VStr "new"); ("doc", VStr "other"); ("warn", VBool false)] /\
  declare W1 P_PNG [VStr "i"] [("filename", VStr "f")] =
    Ok [("mode", VStr "rb"); ("doc", VStr "i"); ("filename", VStr "f"); ("valid_modes", VTuple (map VStr png_modes))] /\
  declare W1 P_PNG [VStr "i"; VNone] [] = Exc ExType /\ declare W1 P_File [VStr "i"] [("valid_modes", VStr "r")] = Exc ExType.
Proof.
  split; [eexists; reflexivity|]. split; [repeat constructor; cbn; intuition discriminate|].
  split; [eexists; reflexivity|]. split; [eexists; reflexivity|].
  split; [intros [_ _ _ H]; apply (H "choices"); cbn; auto|]. split; [intros [_ _ _ H]; apply (H "new_name"); cbn; auto|].
  split; [intros [H _ _ _]; cbn in H; repeat apply le_S_n in H; inversion H|].
  split; [intros [_ H _ _]; apply (H 1 "mode"); cbn; auto|]. vm_compute. repeat split.
Qed.

(** A declaration that fails raises TypeError, apart from the cases of [raises]:
    AttributeError for keywords that are not allowed, and what making the text
    of uid_prop, a huge length, or the default raises. *)
Theorem C71_errors : forall W k args kws e, declare W k args kws = Exc e -> e = ExType \/ raises W k kws e.
Proof. exact declare_exc. Qed.
Print Assumptions C71_errors.
Definition W_text : objects :=
  OBJ (ucall W1) (compile W1) (has_search W1) (is_class W1) (as_instance W1) (is_prop W1) (is_dtype W1)
    (fun v => match v with VObj 7 => Exc (ExUser 4) | _ => Ok "" end) (validates W1).
Example C71_errors_ex :
  declare W1 P_Vector3 [VStr "v"] [("length", VInt (2 ^ 2000)%Z)] = Exc ExOverflow /\
  declare W1 P_Vector3 [VStr "v"] [("length", VInt 0)] = Exc ExType /\
  declare W1 P_Vector3 [VStr "v"] [("shape", VTuple [VInt 3])] = Exc ExAttr /\
  declare W1 P_Vector3 [VStr "v"] [("", VInt 3)] = Exc (ExUser 0) /\
  declare W_text P_Pointer [VStr "p"; VObj 11] [("uid_prop", VObj 7)] = Exc (ExUser 4) /\
  declare W1 P_Integer [VStr "n"] [("default", VStr "x")] = Exc (ExValidation []) /\
  declare W1 P_Integer [VStr "n"] [("serializer", VInt 3)] = Exc ExType /\
  declare W1 P_Integer [VInt 5] [] = Exc ExType /\
  (* without mode and prop *)
  declare W1 P_File [VStr "f"] [] = Ok [("mode", VNone); ("doc", VStr "f")] /\
  declare W1 P_Set [VStr "s"] [] = Ok [("doc", VStr "s")] /\
  (* replaced modes: any container *)
  declare W1 P_File [VStr "f"; VStr "r"] [("file_modes", VStr "rqs"); ("valid_modes", VTuple [VStr "r"; VStr "qs"])] =
    Ok [("mode", VStr "r"); ("doc", VStr "f"); ("file_modes", VStr "rqs"); ("valid_modes", VTuple [VStr "r"; VStr "qs"])] /\
  declare W1 P_File [VStr "f"; VStr "r"] [("file_modes", VStr "rqs"); ("valid_modes", VTuple [VStr "r"; VStr "rs"])] = Exc ExType /\
  declare W1 P_File [VStr "f"; VStr "r"] [("file_modes", VDict [(VStr "r", VInt 1)]); ("valid_modes", VStr "r")] =
    Ok [("mode", VStr "r"); ("doc", VStr "f"); ("file_modes", VDict [(VStr "r", VInt 1)]); ("valid_modes", VTuple [VStr "r"])] /\
  declare W1 P_File [VStr "f"; VStr "r"] [("file_modes", VInt 3); ("valid_modes", VStr "r")] = Exc ExType.
Proof. vm_compute. repeat split. Qed.

(** For Integer and Float the declaration is the one of C53: the same outcome,
    the same error or the same attributes. *)
Theorem C71_numbers : forall E ucall2 W k, validates_as E ucall2 W k -> forall doc kws,
  match np_declare E (ucall W) ucall2 k doc kws, declare W (pk k) [doc] kws with
  | Ok p, Ok o => np_kind p = k /\ same_attrs p o
  | Exc e, Exc e' => e = e'
  | _, _ => False
  end.
Proof. exact declare_agrees. Qed.
Print Assumptions C71_numbers.
Definition E_num : env := Env (fun _ => None) (fun _ => None) (fun _ _ => "") false (fun n => n).
Definition W_num (k : nkind) : objects :=
  OBJ (ucall W1) (compile W1) (has_search W1) (is_class W1) (as_instance W1) (is_prop W1) (is_dtype W1) (text_of W1)
    (fun _ o v => np_validate E_num (ucall W1) (fun _ _ => Exc ExType) (np_of k o) v).
Example C71_numbers_ex : (forall k, validates_as E_num (fun _ _ => Exc ExType) (W_num k) k) /\
  declare (W_num NInteger) P_Integer [VStr "n"] [("default", VInt 4); ("max", VInt 9)] =
    Ok [("doc", VStr "n"); ("max", VInt 9); ("default", VInt 4)] /\
  declare (W_num NInteger) P_Integer [VStr "n"] [("default", VInt 14); ("max", VInt 9)] = Exc (ExValidation []).
Proof.
  split; [|split; reflexivity]. intros k p o v <- S. apply np_of_reads. exact S.
Qed.

(** The default of a Union is the one of C55, if calling a default always gives
    the same. *)
Theorem C71_union : forall W av args l1 l2 o v, tries_alternatives W av -> NoDup (map fst (l1 ++ l2)) ->
  declare W P_Union args (l1 ++ l2) = Ok o -> dget (l1 ++ l2) "default" = None -> v <> VNone ->
  exists l, dget o "props" = Some (VTuple l) /\
    declare W P_Union args (l1 ++ ("default", v) :: l2) =
    rbind (un_set_default val av (fun f => option_map (fun r _ => r) (ucall W f)) l v) (fun d => Ok (dset o "default" d)).
Proof. exact union_default. Qed.
Print Assumptions C71_union.
(** Alternative 20 takes nothing, 21 integers; 22 fails. *)
Definition av1 (p v : val) : lres :=
  match p, v with VObj 21, VInt _ => LOk v | VObj 22, _ => LExc (ExUser 3) | _, _ => LErr 0 end.
Definition W_union : objects :=
  OBJ (ucall W1) (compile W1) (has_search W1) (is_class W1) (as_instance W1)
    (fun v => match v with VObj 22 => true | _ => is_prop W1 v end) (is_dtype W1) (text_of W1)
    (fun _ o v => match dget o "props" with Some (VTuple l) => un_validate val av1 l v | _ => LErr 0 end).
Example C71_union_ex :
  tries_alternatives W_union av1 /\
  (exists o, declare W_union P_Union [VStr "u"; VList [VObj 10; VObj 21; VObj 22]] [("required", VBool false)] = Ok o) /\
  (exists o, declare W_union P_Union [VStr "u"; VList [VObj 10; VObj 21; VObj 22]] [("default", VObj 1); ("required", VBool false)] = Ok o) /\
  declare W_union P_Union [VStr "u"; VList [VObj 10; VObj 21; VObj 22]] [("default", VObj 2)] = Exc (ExUser 3) /\
  declare W_union P_Union [VStr "u"; VList [VObj 10; VObj 21]] [("default", VObj 2)] = Exc ExType.
Proof.
  split; [intros o l v H; cbn; now rewrite H|]. split; [eexists; reflexivity|]. split; [eexists; reflexivity|]. split; reflexivity.
Qed.
(** A Union without alternatives takes anything as its name. *)
Theorem C71_union_name_refuted : exists W o,
  declare W P_Union [VStr "u"; VTuple []] [("name", VInt 5)] = Ok o /\ dget o "name" = Some (VInt 5).
Proof. exists W1. eexists. split; reflexivity. Qed.
Print Assumptions C71_union_name_refuted.
