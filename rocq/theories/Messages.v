(** Model of the texts that describe properties ([info]) and of the messages of
    validation errors (basic.py:326-356, math.py:178-211).

    The text of a value ([repr]), of its type, of bounds that are not lengths, of
    modes and of dtypes is given.  Texts made by user classes are not modelled. *)
From Coq Require Export DecimalString.
From Verif Require Export Arrays.
Local Open Scope list_scope.
Local Open Scope string_scope.
Local Open Scope nat_scope.

(** A property as far as [info] looks at it (basic.py:222-224) *)
Inductive mprop :=
| MPlain (class_info : string)                       (* Property, Boolean, Complex, Color, DateTime, Uuid *)
| MRange (class_info : string) (mn mx : option string)   (* Integer, Float *)
| MString (unicode : bool) (regex : option (option string))  (* a regex may have no [pattern] *)
| MChoice (choices : list string) (descriptions : option (dict string))
| MFile (class_info modes : string)                  (* File, ImagePNG *)
| MUrl
| MTuple (class_info : string) (p : mprop) (mn mx : option Z)  (* Tuple, List, Set *)
| MDict (class_info : string) (key value : mprop)
| MInst (cls : string)
| MPointer (cls uid_prop : string)
| MUnion (ps : list mprop)
| MArray (class_info : string) (dtype : list string) (shape : option (list (list dim)))
| MDyn (p : mprop).

(** [str(n)] of an int (basic.py:831-839) *)
Definition int_text (z : Z) : string := NilZero.string_of_int (Z.to_int z).
(** [sep.join(l)] (basic.py:1075-1086) *)
Definition join (sep : string) (l : list string) : string := String.concat sep l.
(** [''] and None are false (basic.py:326-356) *)
Definition shown (i : option string) : option string :=
  match i with Some "" => None | _ => i end.

(** basic.py:831-839 *)
Definition range_info (ci : string) (mn mx : option string) : string :=
  match mn, mx with
  | None, None => ci
  | _, _ => ci ++ " in range [" ++ (match mn with Some s => s | None => "-inf" end) ++ ", " ++
            (match mx with Some s => s | None => "inf" end) ++ "]"
  end.
(** basic.py:1042-1048 *)
Definition string_info (unicode : bool) (regex : option (option string)) : string :=
  (if unicode then "a unicode string" else "a string") ++
  match regex with
  | None => ""
  | Some None => " that matches pattern"
  | Some (Some p) => " that matches pattern """ ++ p ++ """"
  end.
(** basic.py:1075-1086; a choice without description is a KeyError *)
Definition choice_info (cs : list string) (ds : option (dict string)) : res string :=
  rbind (match ds with
         | None => Ok (map (fun c => """" ++ c ++ """") cs)
         | Some d => (fix go (l : list string) : res (list string) :=
                        match l with
                        | [] => Ok []
                        | c :: r => match dget d c with
                                    | None => Exc ExKey
                                    | Some t => rbind (go r) (fun ts => Ok (("""" ++ c ++ """ (" ++ t ++ ")") :: ts))
                                    end
                        end) cs
         end)
        (fun l => Ok (match l with
                      | [a; b] => "either " ++ a ++ " or " ++ b
                      | _ => "any of " ++ join ", " l
                      end)).
(** base/containers.py:243-259 *)
Definition tuple_info (ci : string) (i : option string) (mn mx : option Z) : string :=
  let itext := ci ++ match shown i with Some s => " (each item is " ++ s ++ ")" | None => "" end in
  match mn, mx with
  | None, None => itext
  | Some a, None => itext ++ " with length >= " ++ int_text a
  | _, Some b =>
      itext ++ " with " ++
      (if match mn with Some a => Z.eqb a b | None => false end
       then "length of " ++ int_text b
       else "length between " ++ (match mn with Some a => int_text a | None => "0" end) ++ " and " ++ int_text b)
  end.
(** base/containers.py:557-568 *)
Definition dict_info (ci : string) (k v : option string) : string :=
  ci ++ match shown k, shown v with
        | Some a, Some b => " (keys: " ++ a ++ "; values: " ++ b ++ ")"
        | Some a, None => " (keys: " ++ a ++ ")"
        | None, Some b => " (values: " ++ b ++ ")"
        | None, None => ""
        end.
(** math.py:125-138 *)
Definition dim_text (d : dim) : string := match d with Star => "\*" | Len z => int_text z end.
(** math.py:125-138 [Array.info] *)
Definition array_info (ci : string) (dt : list string) (sh : option (list (list dim))) : string :=
  ci ++ " of " ++ join ", " dt ++ " with " ++
  match sh with
  | None => "any shape"
  | Some l => "shape " ++ join " or " (map (fun s => "(" ++ join ", " (map dim_text s) ++ ")") l)
  end.

(** [info]; None for URL, whose [info] returns nothing (extras/web.py:63-69).
    base/instance.py:85-87, extras/uid.py:226-230, base/union.py:106-108,
    basic.py:222-224, 494-496, 1404-1408 *)
Fixpoint info (p : mprop) : res (option string) :=
  let fix infos (ps : list mprop) : res (list string) :=
    match ps with
    | [] => Ok []
    | q :: r => rbind (info q) (fun i => rbind (infos r) (fun t =>
                Ok ((match shown i with Some s => s | None => "any value" end) :: t)))
    end in
  match p with
  | MPlain ci => Ok (Some ci)
  | MRange ci mn mx => Ok (Some (range_info ci mn mx))
  | MString u r => Ok (Some (string_info u r))
  | MChoice cs ds => rbind (choice_info cs ds) (fun s => Ok (Some s))
  | MFile ci modes => Ok (Some (ci ++ ", valid modes include " ++ modes))
  | MUrl => Ok None
  | MTuple ci q mn mx => rbind (info q) (fun i => Ok (Some (tuple_info ci i mn mx)))
  | MDict ci k v => rbind (info k) (fun i => rbind (info v) (fun j => Ok (Some (dict_info ci i j))))
  | MInst c => Ok (Some ("an instance of " ++ c))
  | MPointer c u => Ok (Some ("an instance of " ++ c ++ " or a valid " ++ u ++ " property of that class"))
  | MUnion ps => rbind (infos ps) (fun l => Ok (Some (join " or " l)))
  | MArray ci dt sh => Ok (Some (array_info ci dt sh))
  | MDyn q => rbind (info q) (fun i => match i with
                                       | Some s => Ok (Some (s ++ " created dynamically"))
                                       | None => Exc ExType
                                       end)
  end.

(** basic.py:340-344 *)
Definition print_value (r : string) : string :=
  if 107 <? String.length r
  then String.substring 0 50 r ++ "  ...  " ++ String.substring (String.length r - 50) 50 r
  else r.
(** The caller of [error]: the class and name of the property, the class of the
    instance, if any (basic.py:326-356) *)
Record caller := Caller { cl_prop : string; cl_name : string; cl_inst : option string }.
(** basic.py:332-356 *)
Definition prop_message (c : caller) (i : option string) (repr vtype extra : string) : string :=
  "The " ++ cl_prop c ++ " property" ++
  (if String.eqb (cl_name c) "" then "" else " '" ++ cl_name c ++ "'") ++
  (match cl_inst c with Some k => " of a " ++ k ++ " instance" | None => "" end) ++
  " must be " ++ (match shown i with Some s => s | None => "corrected" end) ++
  ". An invalid value of " ++ print_value repr ++ " " ++ vtype ++ " was specified." ++
  (if String.eqb extra "" then "" else " " ++ extra).
(** A value as an array property sees it (math.py:178-211) *)
Inductive adesc :=
| DSeq (typ : string) (len : nat)       (* list or tuple *)
| DArr (shape dtype : string)
| DAny (repr vtype : string).
(** math.py:178-211 *)
Definition array_message (c : caller) (i : option string) (d : adesc) (extra : string) : string :=
  match d with
  | DAny repr vtype => prop_message c i repr vtype extra
  | _ =>
      (match cl_inst c with
       | None => cl_prop c ++ " property"
       | Some k => "The '" ++ cl_name c ++ "' property of a " ++ k ++ " instance"
       end) ++
      " must be " ++ (match i with Some s => s | None => "None" end) ++ ". " ++
      (match d with
       | DSeq typ len => "A " ++ typ ++ " of length " ++ int_text (Z.of_nat len)
       | DArr sh dt => "An array of shape " ++ sh ++ " and dtype " ++ dt
       | DAny _ _ => ""
       end) ++
      " was specified. " ++ extra
  end.
(** What [error] raises: an exception of [info]; a ValidationError with message,
    reason and name; another class, with the message (basic.py:326-356) *)
Inductive raising := RInfo (e : exn) | RValidation (message reason name : string) | RClass (message : string).
(** basic.py:326-357; [is_validation]: the class of the error is a ValidationError *)
Definition prop_error (p : mprop) (c : caller) (repr vtype extra : string) (is_validation : bool) : raising :=
  match info p with
  | Exc e => RInfo e
  | Ok i => let m := prop_message c i repr vtype extra in
            if is_validation then RValidation m "invalid" (cl_name c) else RClass m
  end.
