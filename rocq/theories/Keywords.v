(** Model of the declaration of any property with keywords: how the constructors
    take their parameters, which attributes a keyword may name, what the setters
    check and store, and the default (basic.py:78-202 and the constructors and
    setters of the classes cited below).

    An object is the dictionary of the attributes set on it, a property and the
    private attribute behind it having one entry.  DynamicProperty is in Declare.v.
    Not modelled: hasattr failing because a getter raises, the
    keyword '' (IndexError in the code, [ExUser 0] here), [terms], tags, that
    containers pass their name on (Names.v), warnings, lists of dtypes or modes
    changed after their assignment. *)
From Verif Require Export PyBase PyFloat PyVal Basic Options Arrays Vectors Declare.
Local Open Scope string_scope.
Local Open Scope list_scope.
Local Open Scope nat_scope.

(** * Classes and their attributes (basic.py:85-1510) *)
Inductive pkind :=
| P_Gettable | P_Property | P_Boolean | P_Integer | P_Float | P_Complex | P_String | P_URL | P_Choice | P_Color
| P_DateTime | P_Uuid | P_File | P_PNG | P_Renamed | P_Tuple | P_List | P_Set | P_Dictionary | P_Instance
| P_Pointer | P_Array | P_BaseVector | P_Vector3 | P_Vector2 | P_Vector3Array | P_Vector2Array | P_Union.

(** What a setter does: see [stores] below (basic.py:103-121) *)
Inductive setter :=
| TStr | TBool | TTruth | TText | TCall | TCase | TRegex | TMin | TMax | TMinLen | TMaxLen | TMode | TValid
| TChoices | TDescr | TProp | TClass | TShape | TRows (n : Z) | TDtype | TLength | TDefault | TName | TProps.
(** An attribute of a class: a property with setter, one without, anything else (basic.py:103-121) *)
Inductive attr := Setter (s : setter) | Getter | Plain.

(** The base class (basic.py:85, 595, 709, 773, 846, 897, 946, 1051, 1173, 1225,
    1269, 1300, 1411, base/containers.py:156, 368, 425, 479, base/instance.py:23, base/union.py:23,
    math.py:22, 247, 295, 344, 395, 465, images.py:18, extras/uid.py:175,
    extras/web.py:11) *)
Definition base_of (k : pkind) : option pkind :=
  match k with
  | P_Gettable => None
  | P_Property | P_Uuid | P_Renamed => Some P_Gettable
  | P_Boolean | P_String | P_Choice | P_Color | P_DateTime | P_File | P_Tuple | P_Dictionary | P_Instance | P_Array | P_Union => Some P_Property
  | P_Integer | P_Complex => Some P_Boolean
  | P_Float => Some P_Integer
  | P_URL => Some P_String
  | P_PNG => Some P_File
  | P_List => Some P_Tuple
  | P_Set => Some P_List
  | P_Pointer => Some P_Instance
  | P_BaseVector => Some P_Array
  | P_Vector3 | P_Vector2 | P_Vector3Array | P_Vector2Array => Some P_BaseVector
  end.

(** The public attributes a class defines itself.  Methods (and [class_info])
    that a base class defines as well are left to it (basic.py:85-1510). *)
Definition own_attrs (k : pkind) : list (string * attr) :=
  match k with
  (* basic.py:95-386 *)
  | P_Gettable =>
      [("class_info", Plain); ("name", Setter TName); ("doc", Setter TStr); ("default", Setter TDefault);
       ("serializer", Setter TCall); ("deserializer", Setter TCall); ("meta", Getter); ("tag", Plain); ("info", Getter);
       ("validate", Plain); ("assert_valid", Plain); ("equal", Plain); ("get_property", Plain); ("serialize", Plain);
       ("deserialize", Plain); ("to_json", Plain); ("from_json", Plain); ("error", Plain); ("sphinx", Plain); ("sphinx_class", Plain)]
  (* basic.py:628-637 *)
  | P_Property => [("required", Setter TBool)]
  (* basic.py:721-730 *)
  | P_Boolean => [("cast", Setter TBool)]
  (* basic.py:789-809 *)
  | P_Integer => [("min", Setter TMin); ("max", Setter TMax)]
  | P_Float | P_Complex | P_Color | P_DateTime => []
  (* basic.py:967-1021 *)
  | P_String => [("strip", Setter TStr); ("change_case", Setter TCase); ("unicode", Setter TBool); ("regex", Setter TRegex)]
  (* extras/web.py:28-44 *)
  | P_URL => [("remove_parameters", Setter TTruth); ("remove_fragment", Setter TTruth)]
  (* basic.py:1088-1158 *)
  | P_Choice => [("choices", Setter TChoices); ("case_sensitive", Setter TBool); ("descriptions", Setter TDescr)]
  (* basic.py:1281-1283: no setter *)
  | P_Uuid => [("default", Getter)]
  (* basic.py:1321-1358 *)
  | P_File => [("file_modes", Plain); ("mode", Setter TMode); ("valid_modes", Setter TValid)]
  (* images.py:42-51 *)
  | P_PNG => [("filename", Setter TStr)]
  (* basic.py:1451-1484 *)
  | P_Renamed => [("new_name", Setter TStr); ("warn", Setter TBool); ("display_warning", Plain)]
  (* base/containers.py:183-240; the setter of [name] leaves the check to the
     contained property *)
  | P_Tuple => [("prop", Setter TProp); ("name", Setter TName); ("min_length", Setter TMinLen); ("max_length", Setter TMaxLen); ("coerce", Setter TBool)]
  (* base/containers.py:398-407 *)
  | P_List => [("observe_mutations", Setter TBool)]
  | P_Set => []
  (* base/containers.py:506-554 *)
  | P_Dictionary => [("observe_mutations", Setter TBool); ("key_prop", Setter TProp); ("value_prop", Setter TProp); ("name", Setter TName); ("coerce", Setter TBool)]
  (* base/instance.py:59-82 *)
  | P_Instance => [("instance_class", Setter TClass); ("auto_create", Setter TBool)]
  (* extras/uid.py:196-223 *)
  | P_Pointer => [("load", Setter TTruth); ("uid_prop", Setter TText)]
  (* math.py:44-122 *)
  | P_Array => [("wrapper", Getter); ("shape", Setter TShape); ("dtype", Setter TDtype); ("coerce", Setter TBool)]
  (* math.py:250-269 *)
  | P_BaseVector => [("dtype", Getter); ("length", Setter TLength)]
  (* math.py:320-323, 368-371 *)
  | P_Vector3 | P_Vector2 => [("shape", Getter)]
  (* math.py:420-433, 490-503 *)
  | P_Vector3Array => [("shape", Setter (TRows 3))]
  | P_Vector2Array => [("shape", Setter (TRows 2))]
  (* base/union.py:68-151 *)
  | P_Union => [("props", Setter TProps); ("strict_instances", Setter TBool); ("name", Setter TName); ("default", Setter TDefault)]
  end.
(** Attribute lookup along the bases; at most six classes (basic.py:103-121) *)
Fixpoint attr_up (n : nat) (k : pkind) (key : string) : option attr :=
  match dget (own_attrs k) key with
  | Some a => Some a
  | None => match n, base_of k with
            | S m, Some b => attr_up m b key
            | _, _ => None
            end
  end.
(** The attribute of a class or of its nearest base that has it (basic.py:103-121). *)
Definition attr_of : pkind -> string -> option attr := attr_up 5.

(** basic.py:1321-1325, images.py:34 *)
Definition modes_of (k : pkind) : val :=
  VSet (map VStr (match k with P_PNG => png_modes | _ => file_modes end)).

(** * Parameters *)
(** The parameters of [__init__] after self, with their defaults (basic.py:98,
    1069, 1327, 1442, base/containers.py:178, base/instance.py:48, base/union.py:63, images.py:36);
    all of them are followed by [**kwargs] *)
Definition params (k : pkind) : list (string * option val) :=
  match k with
  | P_Choice => [("doc", None); ("choices", None); ("case_sensitive", Some (VBool false))]
  | P_File => [("doc", None); ("mode", Some VNone)]
  | P_PNG => [("doc", None); ("mode", Some (VStr "rb"))]
  | P_Renamed => [("new_name", None)]
  | P_Tuple | P_List | P_Set => [("doc", None); ("prop", Some VNone)]
  | P_Instance | P_Pointer => [("doc", None); ("instance_class", None)]
  | P_Union => [("doc", None); ("props", None)]
  | _ => [("doc", None)]
  end.
(** A call with positional and keyword arguments: the values of the parameters
    and the remaining keywords, or TypeError: too many arguments, two values for
    a parameter, no value.  'self' and 'cls' are parameters given already (cls
    of basic.py:78). *)
Fixpoint bind_params (ps : list (string * option val)) (args : list val) (kws : dict val) : res (dict val * dict val) :=
  match ps, args with
  | [], [] => Ok ([], kws)
  | [], _ :: _ => Exc ExType
  | (n, _) :: r, a :: rest =>
      if dhas kws n then Exc ExType
      else rbind (bind_params r rest kws) (fun q => Ok ((n, a) :: fst q, snd q))
  | (n, d) :: r, [] =>
      match (match dget kws n with Some v => Some v | None => d end) with
      | None => Exc ExType
      | Some v => rbind (bind_params r [] (ddel kws n)) (fun q => Ok ((n, v) :: fst q, snd q))
      end
  end.

(** * Objects *)
(** What Python objects are: what calling one gives ([None]: not callable);
    [re.compile] ([None]: invalid pattern) and what has a method [search];
    classes, and the Instance property made from a subclass of HasProperties
    ([None]: another class); Property objects; the keys of math.py:14-19
    [TYPE_MAPPINGS]; [text_type(v)]; [self.validate(None, v)] of a class, with the
    attributes of the object; for a Union, what trying its alternatives gives. *)
Record objects := OBJ {
  ucall : val -> option (res val);
  compile : string -> option val;
  has_search : val -> bool;
  is_class : val -> bool;
  as_instance : val -> option val;
  is_prop : val -> bool;
  is_dtype : val -> bool;
  text_of : val -> res string;
  validates : pkind -> dict val -> val -> lres }.

Section Keywords.
  Variable W : objects.

  (** [x in c] (basic.py:747-749) *)
  Definition py_in (x c : val) : res bool :=
    match c with
    | VTuple l | VList l | VSet l => Ok (mem_val x l)
    | VDict kvs => Ok (mem_val x (map fst kvs))
    | VStr s => match x with VStr t => Ok (match String.index 0 t s with Some _ => true | None => false end) | _ => Exc ExType end
    | _ => Exc ExType
    end.
  (** the choices as the setter stores them (basic.py:1106-1120), and back *)
  Definition table_val (t : table) : val := VDict (map (fun kv => (VStr (fst kv), VList (map VStr (snd kv)))) t).
  (** The choices as a table (basic.py:1093-1120). *)
  Definition table_of (v : val) : table :=
    match v with
    | VDict kvs => match all_some (map (fun kv => pair_strs (fst kv, match snd kv with VList l => l | _ => [] end)) kvs) with
                   | Some t => t
                   | None => []
                   end
    | _ => []
    end.
  (** [getattr(self, '_' + key)], None when not set (basic.py:103-121). *)
  Definition get (o : dict val) (key : string) : val := match dget o key with Some v => v | None => VNone end.
  (** The length as an int, if it is one (base/containers.py:206-229). *)
  Definition the_length (v : val) : option Z := as_int v.
  (** basic.py:1348-1358 with [file_modes] as the object has it *)
  Fixpoint all_modes (l : list val) (modes : val) : res unit :=
    match l with
    | [] => Ok tt
    | x :: r => rbind (py_in x modes) (fun b : bool => if b then all_modes r modes else Exc ExType)
    end.
  (** math.py:425-433: every shape has two entries and the second is [n] *)
  Definition rows_of (n : Z) (l : list (list dim)) : bool :=
    forallb (fun s => match s with [_; Len z] => Z.eqb z n | _ => false end) l.

  (** base/containers.py:140-149, base/union.py:79-84: a contained property *)
  Definition to_prop (v : val) : res val :=
    match (if is_class W v then as_instance W v else None) with
    | Some p => Ok p
    | None => if is_prop W v then Ok v else Exc ExType
    end.
  (** base/union.py:74-86 *)
  Fixpoint to_props (l : list val) : res (list val) :=
    match l with
    | [] => Ok []
    | v :: r => rbind (to_prop v) (fun p => rbind (to_props r) (fun ps => Ok (p :: ps)))
    end.

  (** What a setter stores for [v] on the object [o] of class [k]:
      TStr basic.py:140-143, 973-976, 1457-1460, images.py:48-51;
      TBool basic.py:634-637, 727-730, 1000-1003, 1133-1136, 1468-1471,
      base/containers.py:237-240, 404-407, 512-515, 551-554, base/instance.py:76-82,
      base/union.py:99-103, math.py:119-122; TTruth extras/uid.py:210-211, extras/web.py:34-35, 43-44;
      TText extras/uid.py:222-223; TCall basic.py:188-191, 199-202 (the function
      itself is kept here); TCase 988-992; TRegex 1011-1021; TMin 795-798;
      TMax 806-809; TMinLen base/containers.py:211-216; TMaxLen 224-229;
      TMode basic.py:1337-1340; TValid 1349-1358; TChoices 1094-1120;
      TDescr 1148-1158; TProp base/containers.py:140-153, 189-190, 523-524,
      532-533; TClass base/instance.py:65-68; TShape math.py:67-90; TRows
      426-433, 496-503; TDtype 101-111; TLength 264-269; TDefault basic.py:175-180,
      base/union.py:136-151; TName basic.py:129-132, base/containers.py:201-203,
      539-543, base/union.py:118-122: the contained properties check the name;
      TProps base/union.py:73-86 *)
  Definition stores (k : pkind) (o : dict val) (s : setter) (v : val) : res val :=
    match s with
    | TStr => match v with VStr _ => Ok v | _ => Exc ExType end
    | TBool => match v with VBool _ => Ok v | _ => Exc ExType end
    | TTruth => Ok (VBool (truthy v))
    | TText => rbind (text_of W v) (fun t => Ok (VStr t))
    | TCall => match ucall W v with Some _ => Ok v | None => Exc ExType end
    | TCase => match v with
               | VNone => Ok v
               | VStr t => if str_mem t ["upper"; "lower"] then Ok v else Exc ExType
               | _ => Exc ExType
               end
    | TRegex => match v with
                | VStr t => match compile W t with
                            | Some r => if has_search W r then Ok r else Exc ExType
                            | None => Exc ExType
                            end
                | _ => if has_search W v then Ok v else Exc ExType
                end
    | TMin => rbind (set_min v (BO VNone (get o "max"))) (fun b => Ok (b_min b))
    | TMax => rbind (set_max v (BO (get o "min") VNone)) (fun b => Ok (b_max b))
    | TMinLen => rbind (set_min_length v (LO None (the_length (get o "max_length")))) (fun _ => Ok v)
    | TMaxLen => rbind (set_max_length v (LO (the_length (get o "min_length")) None)) (fun _ => Ok v)
    | TMode => if is_none v then Ok v
               else rbind (py_in v (match dget o "file_modes" with Some m => m | None => modes_of k end))
                          (fun b : bool => if b then Ok v else Exc ExType)
    | TValid =>
        let l := match v with VSet l | VList l | VTuple l => l | _ => [v] end in
        if mem_val (get o "mode") l
        then rbind (all_modes l (match dget o "file_modes" with Some m => m | None => modes_of k end)) (fun _ => Ok (VTuple l))
        else Exc ExType
    | TChoices => rbind (set_choices v (CO (truthy (get o "case_sensitive")) [] None)) (fun c => Ok (table_val (c_choices c)))
    | TDescr => rbind (set_descriptions v (CO false (table_of (get o "choices")) None)) (fun _ => Ok v)
    | TProp => to_prop v
    | TClass => if is_class W v then Ok v else Exc ExType
    | TShape => if is_none v then Ok v
                else rbind (validate_shape v) (fun _ => Ok (match v with VSet _ => v | _ => VSet [v] end))
    | TRows n => rbind (validate_shape v)
                       (fun l => if rows_of n l then Ok (match v with VSet _ => v | _ => VSet [v] end) else Exc ExType)
    | TDtype =>
        let t := match v with VList _ | VTuple _ => v | _ => VTuple [v] end in
        match t with
        | VList [] | VTuple [] => Exc ExType
        | VList l | VTuple l => if forallb (is_dtype W) l then Ok t else Exc ExType
        | _ => Exc ExType
        end
    | TLength => rbind (set_length v) (fun f => Ok (VFloat f))
    | TDefault =>
        match k with
        | P_Union =>
            if is_undef v then Ok v
            else match get o "props" with
                 | VTuple [] => Exc ExType
                 | _ => match rbind (match ucall W v with Some r => r | None => Ok v end) (fun x => raised (validates W k o x)) with
                        | Ok _ => Ok v
                        | Exc e => if is_generic e then Exc ExType else Exc e
                        end
                 end
        | _ =>
            rbind (match ucall W v with
                   | Some r => rbind r (fun x => raised (validates W k o x))
                   | None => if is_undef v then Ok tt else raised (validates W k o v)
                   end) (fun _ => Ok v)
        end
    | TName => match v with
               | VStr _ => Ok v
               | _ => match k, get o "props" with P_Union, VTuple [] => Ok v | _, _ => Exc ExType end
               end
    | TProps => match v with
                | VTuple l | VList l => rbind (to_props l) (fun ps => Ok (VTuple ps))
                | _ => Exc ExType
                end
    end.
  (** [setattr(self, key, v)] (basic.py:103-121) *)
  Definition set_attr (k : pkind) (o : dict val) (key : string) (v : val) : res (dict val) :=
    match attr_of k key with
    | Some (Setter s) => rbind (stores k o s v) (fun x => Ok (dset o key x))
    | Some Getter => Exc ExAttr
    | _ => Ok (dset o key v)
    end.
  (** one round of the loop basic.py:102-118 *)
  Definition one_keyword (k : pkind) (o : dict val) (kv : string * val) : res (dict val) :=
    let (key, v) := kv in
    if String.eqb key "terms" then Exc ExAttr
    else match key with
         | "" => Exc (ExUser 0)
         | String c _ =>
             if Ascii.eqb c "_" then Exc ExAttr
             else match attr_of k key with
                  | None => Exc ExAttr
                  | Some _ => set_attr k o key v
                  end
         end.
  (** basic.py:102-118: the keywords one after the other. *)
  Fixpoint keywords (k : pkind) (kws : dict val) (o : dict val) : res (dict val) :=
    match kws with
    | [] => Ok o
    | kv :: r => rbind (one_keyword k o kv) (keywords k r)
    end.
  (** basic.py:98-120 [GettableProperty.__init__] *)
  Definition init (k : pkind) (o : dict val) (doc : val) (kws : dict val) : res (dict val) :=
    rbind (set_attr k o "doc" doc) (fun o1 =>
    rbind (keywords k (ddel kws "default") o1) (fun o2 =>
      match dget kws "default" with
      | None | Some VNone => Ok o2
      | Some v => set_attr k o2 "default" v
      end)).
  (** basic.py:1443-1448 *)
  Definition renamed_doc (new_name : val) : val :=
    match new_name with
    | VStr s => VStr ("This property has been renamed '" ++ s ++ "' and may be removed in the future.")
    | _ => VStr ""
    end%string.
  (** basic.py:98, 1069-1072, 1327-1329, 1442-1449, base/containers.py:178-181,
      base/instance.py:48-50, base/union.py:63-66, images.py:36-40: the object made by a call *)
  Definition declare (k : pkind) (args : list val) (kws : dict val) : res (dict val) :=
    if dhas kws "self" || dhas kws "cls" then Exc ExType
    else
      rbind (bind_params (params k) args kws) (fun q =>
        let (ps, rest) := q in
        let set o key := set_attr k o key (get ps key) in
        match k with
        | P_Choice => rbind (set [] "case_sensitive") (fun o => rbind (set o "choices") (fun o' => init k o' (get ps "doc") rest))
        | P_File => rbind (set [] "mode") (fun o => init k o (get ps "doc") rest)
        | P_PNG =>
            rbind (set [] "mode") (fun o =>
              init k o (get ps "doc") (dset rest "valid_modes" (match dget rest "valid_modes" with Some v => v | None => modes_of k end)))
        | P_Tuple | P_List | P_Set =>
            rbind (if is_none (get ps "prop") then Ok [] else set [] "prop") (fun o => init k o (get ps "doc") rest)
        | P_Instance | P_Pointer => rbind (set [] "instance_class") (fun o => init k o (get ps "doc") rest)
        | P_Union => rbind (set [] "props") (fun o => init k o (get ps "doc") rest)
        | P_Renamed =>
            rbind (set [] "new_name") (fun o =>
              init k o (match dget rest "doc" with Some d => d | None => renamed_doc (get ps "new_name") end) (ddel rest "doc"))
        | _ => init k [] (get ps "doc") rest
        end).
End Keywords.
