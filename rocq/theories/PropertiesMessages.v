(** Property theorems about the texts that describe properties and the messages
    of validation errors: [C68]. *)
From Verif Require Import Messages MessagesSpec MessagesFacts.
Local Open Scope list_scope.
Local Open Scope string_scope.
Local Open Scope nat_scope.

(** There is a text unless a choice has no description or a dynamic property is
    made from a URL; then reading it fails with KeyError or TypeError. *)
Theorem C68_info : forall p, (exists i, info p = Ok i) <-> described p /\ no_dynamic_url p.
Proof. exact info_ok. Qed.
Print Assumptions C68_info.
Theorem C68_info_errors : forall p e, info p = Exc e ->
  (e = ExKey /\ exists cs d c, within (MChoice cs (Some d)) p /\ In c cs /\ dget d c = None) \/
  (e = ExType /\ within (MDyn MUrl) p).
Proof. exact info_error. Qed.
Print Assumptions C68_info_errors.
(** Descriptions that were accepted describe every choice *)
Theorem C68_described_choices : forall o v o',
  NoDup (map fst (c_choices o)) -> (exists kvs, v = VDict kvs /\ NoDup (map fst kvs)) ->
  set_descriptions v o = Ok o' ->
  exists t, info (MChoice (map fst (c_choices o')) (c_descr o')) = Ok (Some t).
Proof. exact described_set. Qed.
Print Assumptions C68_described_choices.

(** The text of a property contains the texts of the properties inside it, *)
Theorem C68_info_inside : forall p q s t, within q p ->
  info q = Ok (Some s) -> info p = Ok (Some t) -> occurs s t.
Proof. exact info_mentions. Qed.
Print Assumptions C68_info_inside.
(** every choice, with its description, *)
Theorem C68_info_choices : forall cs ds t c, info (MChoice cs ds) = Ok (Some t) -> In c cs ->
  occurs ("""" ++ c ++ """") t /\
  forall d x, ds = Some d -> dget d c = Some x -> occurs ("""" ++ c ++ """ (" ++ x ++ ")") t.
Proof. exact choice_mentions. Qed.
Print Assumptions C68_info_choices.
(** the bounds of a number, the bounds of a length, *)
Theorem C68_info_bounds : forall ci mn mx t, info (MRange ci mn mx) = Ok (Some t) ->
  occurs ci t /\ (forall s, mn = Some s \/ mx = Some s -> occurs s t) /\
  (forall a b, mn = Some a -> mx = Some b -> occurs (a ++ ", " ++ b) t).
Proof. exact range_mentions. Qed.
Print Assumptions C68_info_bounds.
Theorem C68_info_lengths : forall ci p mn mx t, info (MTuple ci p mn mx) = Ok (Some t) ->
  occurs ci t /\ (forall z, mn = Some z \/ mx = Some z -> occurs (int_text z) t) /\
  (forall a b, mn = Some a -> mx = Some b -> a <> b -> occurs (int_text a ++ " and " ++ int_text b) t).
Proof. exact length_mentions. Qed.
Print Assumptions C68_info_lengths.
(** the pattern, the modes, the class, the dtypes and the dimensions. *)
Theorem C68_info_others :
  (forall u p t, info (MString u (Some (Some p))) = Ok (Some t) -> occurs ("""" ++ p ++ """") t) /\
  (forall ci m t, info (MFile ci m) = Ok (Some t) -> occurs ci t /\ occurs m t) /\
  (forall c t, info (MInst c) = Ok (Some t) -> occurs c t) /\
  (forall c u t, info (MPointer c u) = Ok (Some t) -> occurs c t /\ occurs u t) /\
  (forall ci dt sh t, info (MArray ci dt sh) = Ok (Some t) -> occurs ci t /\ (forall d, In d dt -> occurs d t) /\
     forall l s z, sh = Some l -> In s l -> In (Len z) s -> occurs (int_text z) t).
Proof. exact other_mentions. Qed.
Print Assumptions C68_info_others.

(** The value is shown whole, or by its first and last 50 characters. *)
Theorem C68_value_short : forall r, String.length r <= 107 -> print_value r = r.
Proof. exact print_short. Qed.
Print Assumptions C68_value_short.
Theorem C68_value_long : forall r, 107 < String.length r ->
  exists a m b, r = a ++ m ++ b /\ String.length a = 50 /\ String.length b = 50 /\ print_value r = a ++ "  ...  " ++ b.
Proof. exact print_long. Qed.
Print Assumptions C68_value_long.

(** The message names the property, its class, the class of the instance, what is
    allowed, the value and its type, and the extra text; *)
Theorem C68_message : forall c i repr vtype extra,
  let m := prop_message c i repr vtype extra in
  occurs (print_value repr ++ " " ++ vtype) m /\ occurs extra m /\ occurs (cl_prop c) m /\ occurs (cl_name c) m /\
  (forall k, cl_inst c = Some k -> occurs k m) /\ (forall s, i = Some s -> occurs s m).
Proof. exact message_mentions. Qed.
Print Assumptions C68_message.
(** and its length does not depend on the value. *)
Theorem C68_message_length : forall c i repr vtype extra,
  String.length (prop_message c i repr vtype extra) <=
  String.length (cl_prop c) + String.length (cl_name c) + String.length (match cl_inst c with Some k => k | None => "" end) +
  String.length (match i with Some s => s | None => "" end) + String.length vtype + String.length extra + 207.
Proof. exact message_length. Qed.
Print Assumptions C68_message_length.
(** Array properties describe sequences and arrays by their size. *)
Theorem C68_array_message : forall c i d extra, (forall r t, d <> DAny r t) ->
  let m := array_message c i d extra in
  occurs extra m /\ (forall s, i = Some s -> occurs s m) /\
  (forall k, cl_inst c = Some k -> occurs k m /\ occurs (cl_name c) m) /\ (cl_inst c = None -> occurs (cl_prop c) m) /\
  (forall typ n, d = DSeq typ n -> occurs typ m /\ occurs (int_text (Z.of_nat n)) m) /\
  (forall sh dt, d = DArr sh dt -> occurs sh m /\ occurs dt m).
Proof. exact array_mentions. Qed.
Print Assumptions C68_array_message.

(** What is raised *)
Theorem C68_error : forall p c repr vtype extra isv,
  (forall e, info p = Exc e -> prop_error p c repr vtype extra isv = RInfo e) /\
  (described p -> no_dynamic_url p -> exists i, info p = Ok i /\
     prop_error p c repr vtype extra isv =
       (if isv then RValidation (prop_message c i repr vtype extra) "invalid" (cl_name c) else RClass (prop_message c i repr vtype extra))).
Proof. exact error_outcome. Qed.
Print Assumptions C68_error.
(** Choices replaced after their descriptions, and dynamic URLs, raise something
    else than a ValidationError. *)
Theorem C68_error_refuted :
  (exists v0 v1 v2 o, fold_left (fun r a => rbind r (fun o => c_apply o a)) [SetChoices v0; SetDescriptions v1; SetChoices v2] (Ok (CO false [] None)) = Ok o /\
     prop_error (MChoice (map fst (c_choices o)) (c_descr o)) (Caller "StringChoice" "mode" None) "'z'" "<class 'str'>" "" true = RInfo ExKey) /\
  (exists p, prop_error (MDyn p) (Caller "DynamicProperty" "home" None) "1" "<class 'int'>" "" true = RInfo ExType).
Proof.
  split.
  - exists (VList [VStr "a"]), (VDict [(VStr "a", VStr "first")]), (VList [VStr "b"]). eexists. split; reflexivity.
  - exists MUrl. reflexivity.
Qed.
Print Assumptions C68_error_refuted.

(** ** Cases *)
Definition M_choice : mprop := MChoice ["a"; "b"] (Some [("a", "first"); ("b", "second")]).
Definition M_nested : mprop := MDict "a dictionary" (MString true (Some (Some "x+"))) (MTuple "a list" (MUnion [MRange "an integer" (Some "0") None; M_choice; MUrl]) (Some 1%Z) (Some 3%Z)).
Definition M_who : caller := Caller "Dictionary" "table" (Some "Survey").
Example C68_nested : info M_nested = Ok (Some
  "a dictionary (keys: a unicode string that matches pattern ""x+""; values: a list (each item is an integer in range [0, inf] or either ""a"" (first) or ""b"" (second) or any value) with length between 1 and 3)").
Proof. vm_compute. reflexivity. Qed.
Example C68_texts :
  map info [MTuple "a tuple" (MPlain "") (Some 2%Z) (Some 2%Z); MTuple "a set" MUrl (Some (-5)%Z) None; MTuple "a set" MUrl None (Some 12%Z);
            MDict "a dictionary" MUrl MUrl; MChoice ["x"] None; MChoice [] None; MUnion []; MFile "an open file or filename" "r, rb"; MPointer "Well" "uid";
            MArray "a list or numpy array" ["int"; "float"] (Some [[Star; Len 3]; [Len 2]]); MArray "a list" ["bool"] None; MDyn (MInst "Well");
            MString false None; MString true (Some None); MRange "a float" None (Some "2.5");
            MDict "a dictionary" (MString false None) MUrl; MDict "a dictionary" MUrl (MInst "Well")] =
  map (fun s => Ok (Some s))
    ["a tuple with length of 2"; "a set with length >= -5"; "a set with length between 0 and 12";
     "a dictionary"; "any of ""x"""; "any of "; ""; "an open file or filename, valid modes include r, rb"; "an instance of Well or a valid uid property of that class";
     "a list or numpy array of int, float with shape (\*, 3) or (2)"; "a list of bool with any shape"; "an instance of Well created dynamically";
     "a string"; "a unicode string that matches pattern"; "a float in range [-inf, 2.5]";
     "a dictionary (keys: a string)"; "a dictionary (values: an instance of Well)"].
Proof. vm_compute. reflexivity. Qed.
Example C68_inside : within M_choice M_nested /\ within MUrl M_nested.
Proof. split; apply wi_value, wi_tuple; (eapply wi_union; [|apply wi_self]); cbn; auto. Qed.
Example C68_nested_ok : described M_nested /\ no_dynamic_url M_nested.
Proof. apply C68_info. eexists. exact C68_nested. Qed.
Example C68_described_case : exists o',
  set_descriptions (VDict [(VStr "b", VStr "second"); (VStr "a", VStr "first")]) (CO false [("a", []); ("b", ["B2"])] None) = Ok o' /\
  NoDup (map fst (c_choices (CO false [("a", []); ("b", ["B2"])] None))) /\
  info (MChoice (map fst (c_choices o')) (c_descr o')) = Ok (Some "either ""a"" (first) or ""b"" (second)").
Proof. eexists. split; [reflexivity|split; [|reflexivity]]. repeat constructor; cbn; intuition discriminate. Qed.
Example C68_bad_texts :
  info (MTuple "a list" (MChoice ["a"; "c"] (Some [("a", "first")])) None None) = Exc ExKey /\ info (MUnion [MDyn MUrl]) = Exc ExType /\
  (* the first failure counts *)
  info (MUnion [MChoice ["c"] (Some []); MDyn MUrl]) = Exc ExKey.
Proof. repeat split. Qed.
Fixpoint dashes (n : nat) : string := match n with 0 => "" | S m => "-" ++ dashes m end.
Example C68_values :
  print_value ("[" ++ dashes 105 ++ "]") = "[" ++ dashes 105 ++ "]" /\
  print_value ("[" ++ dashes 106 ++ "]") = "[" ++ dashes 49 ++ "  ...  " ++ dashes 49 ++ "]".
Proof. split; vm_compute; reflexivity. Qed.
Example C68_messages :
  prop_message M_who (Some "a dictionary") "5" "<class 'int'>" "Sorry" =
    "The Dictionary property 'table' of a Survey instance must be a dictionary. An invalid value of 5 <class 'int'> was specified. Sorry" /\
  prop_message (Caller "URL" "" None) None "5" "<class 'int'>" "" =
    "The URL property must be corrected. An invalid value of 5 <class 'int'> was specified." /\
  array_message (Caller "Array" "data" (Some "Survey")) (Some "an array") (DSeq "list" 12) "" =
    "The 'data' property of a Survey instance must be an array. A list of length 12 was specified. " /\
  array_message (Caller "Array" "data" None) (Some "an array") (DArr "(2, 3)" "int64") "Sorry" =
    "Array property must be an array. An array of shape (2, 3) and dtype int64 was specified. Sorry" /\
  array_message (Caller "Array" "data" None) (Some "an array") (DAny "5" "<class 'int'>") "" =
    "The Array property 'data' must be an array. An invalid value of 5 <class 'int'> was specified.".
Proof. repeat split. Qed.
Example C68_raised :
  prop_error (MRange "an integer" (Some "0") None) (Caller "Integer" "n" None) "-1" "<class 'int'>" "" true =
    RValidation "The Integer property 'n' must be an integer in range [0, inf]. An invalid value of -1 <class 'int'> was specified." "invalid" "n" /\
  prop_error MUrl (Caller "URL" "" None) "5" "<class 'int'>" "" false =
    RClass "The URL property must be corrected. An invalid value of 5 <class 'int'> was specified.".
Proof. repeat split. Qed.
