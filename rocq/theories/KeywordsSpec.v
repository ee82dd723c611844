(** Specification of the keywords of property classes. *)
From Verif Require Import Keywords BasicSpec OptionsSpec.
Local Open Scope string_scope.
Local Open Scope list_scope.
Local Open Scope nat_scope.

(** The options that every class has, and those of each class: the parameters
    of its constructor and the keywords it documents. *)
Definition common : list string := ["name"; "doc"; "default"; "serializer"; "deserializer"].
Definition numeric : list string := ["required"; "cast"; "min"; "max"].
Definition textual : list string := ["required"; "strip"; "change_case"; "unicode"; "regex"].
Definition sized : list string := ["required"; "prop"; "min_length"; "max_length"; "coerce"].
Definition options (k : pkind) : list string :=
  match k with
  | P_Gettable => common
  | P_Uuid => ["name"; "doc"; "serializer"; "deserializer"]
  | P_Renamed => common ++ ["new_name"; "warn"]
  | P_Property | P_Color | P_DateTime => common ++ ["required"]
  | P_Boolean | P_Complex => common ++ ["required"; "cast"]
  | P_Integer | P_Float => common ++ numeric
  | P_String => common ++ textual
  | P_URL => common ++ textual ++ ["remove_parameters"; "remove_fragment"]
  | P_Choice => common ++ ["required"; "choices"; "case_sensitive"; "descriptions"]
  | P_File => common ++ ["required"; "mode"; "valid_modes"]
  | P_PNG => common ++ ["required"; "mode"; "valid_modes"; "filename"]
  | P_Tuple => common ++ sized
  | P_List | P_Set => common ++ sized ++ ["observe_mutations"]
  | P_Dictionary => common ++ ["required"; "key_prop"; "value_prop"; "coerce"; "observe_mutations"]
  | P_Instance => common ++ ["required"; "instance_class"; "auto_create"]
  | P_Pointer => common ++ ["required"; "instance_class"; "auto_create"; "load"; "uid_prop"]
  | P_Array => common ++ ["required"; "shape"; "dtype"; "coerce"]
  | P_BaseVector | P_Vector3Array | P_Vector2Array => common ++ ["required"; "shape"; "coerce"; "length"]
  | P_Vector3 | P_Vector2 => common ++ ["required"; "coerce"; "length"]
  | P_Union => common ++ ["required"; "props"; "strict_instances"]
  end.
(** The public methods and class attributes, which a keyword can replace. *)
Definition methods (k : pkind) : list string :=
  ["class_info"; "tag"; "validate"; "assert_valid"; "equal"; "get_property"; "serialize"; "deserialize";
   "to_json"; "from_json"; "error"; "sphinx"; "sphinx_class"] ++
  match k with P_File | P_PNG => ["file_modes"] | P_Renamed => ["display_warning"] | _ => [] end.

(** The value that a call supplies for a parameter or keyword: positional, by
    keyword, or by default. *)
Fixpoint position (key : string) (l : list string) : option nat :=
  match l with
  | [] => None
  | x :: r => if String.eqb x key then Some 0 else option_map S (position key r)
  end.
Definition by_default (k : pkind) (key : string) : option val :=
  match dget (params k) key with Some d => d | None => None end.
Definition direct (k : pkind) (args : list val) (kws : dict val) (key : string) : option val :=
  match match position key (map fst (params k)) with Some i => nth_error args i | None => None end with
  | Some v => Some v
  | None => match dget kws key with Some v => Some v | None => by_default k key end
  end.
(** An image takes the modes of its class as valid modes, and a renamed
    property documents its new name. *)
Definition supplied (k : pkind) (args : list val) (kws : dict val) (key : string) : option val :=
  match direct k args kws key with
  | Some v => Some v
  | None =>
      match k with
      | P_PNG => if String.eqb key "valid_modes" then Some (VSet (map VStr png_modes)) else None
      | P_Renamed =>
          if String.eqb key "doc" then
            match direct k args kws "new_name" with
            | Some (VStr s) => Some (VStr ("This property has been renamed '" ++ s ++ "' and may be removed in the future.")%string)
            | _ => None
            end
          else None
      | _ => None
      end
  end.
(** The call fits the parameters: not too many arguments, none twice, none
    missing. *)
Record fits_params (k : pkind) (args : list val) (kws : dict val) : Prop := {
  fp_many : length args <= length (params k);
  fp_twice : forall i key, position key (map fst (params k)) = Some i -> i < length args -> ~ In key (map fst kws);
  fp_self : ~ In "self" (map fst kws) /\ ~ In "cls" (map fst kws);
  fp_missing : forall key, In key (map fst (params k)) -> direct k args kws key <> None }.

(** The form in which choices are kept *)
Definition choice_dict (t : table) : val := VDict (map (fun c => (VStr (fst c), VList (map VStr (snd c)))) t).

Section Spec.
  Variables (W : objects) (k : pkind).

  (** The property that [v] stands for: itself, or an Instance of the class. *)
  Definition stands_for (v p : val) : Prop :=
    (p = v /\ is_prop W v = true /\ (is_class W v = true -> as_instance W v = None)) \/
    (is_class W v = true /\ as_instance W v = Some p).
  (** The values that an option takes by itself, and what it keeps of them. *)
  Inductive takes : string -> val -> val -> Prop :=
  | tk_string key s : In key ["name"; "doc"; "strip"; "new_name"; "filename"] -> takes key (VStr s) (VStr s)
  | tk_bool key b : In key ["required"; "cast"; "unicode"; "case_sensitive"; "warn"; "coerce"; "observe_mutations"; "auto_create"; "strict_instances"] ->
      takes key (VBool b) (VBool b)
  | tk_truth key v : In key ["load"; "remove_parameters"; "remove_fragment"] -> takes key v (VBool (truthy v))
  | tk_text v s : text_of W v = Ok s -> takes "uid_prop" v (VStr s)
  | tk_function key v r : In key ["serializer"; "deserializer"] -> ucall W v = Some r -> takes key v v
  | tk_case v : In v [VNone; VStr "upper"; VStr "lower"] -> takes "change_case" v v
  | tk_pattern s r : compile W s = Some r -> has_search W r = true -> takes "regex" (VStr s) r
  | tk_compiled v : (forall s, v <> VStr s) -> has_search W v = true -> takes "regex" v v
  | tk_bound key v : In key ["min"; "max"] -> takes key v v
  | tk_size key v z : In key ["min_length"; "max_length"] -> is_int v z -> (0 <= z)%Z -> takes key v v
  | tk_mode v : takes "mode" v v
  | tk_modes v l : collection v l -> takes "valid_modes" v (VTuple l)
  | tk_one_mode v : (forall l, ~ collection v l) -> takes "valid_modes" v (VTuple [v])
  | tk_choices v t : gives_table v t -> takes "choices" v (choice_dict t)
  | tk_descr ds : takes "descriptions" (VDict (map (fun d : string * string => (VStr (fst d), VStr (snd d))) ds))
                                       (VDict (map (fun d : string * string => (VStr (fst d), VStr (snd d))) ds))
  | tk_prop key v p : In key ["prop"; "key_prop"; "value_prop"] -> stands_for v p -> takes key v p
  | tk_class v : is_class W v = true -> takes "instance_class" v v
  | tk_any_shape : In k [P_Array; P_BaseVector] -> takes "shape" VNone VNone
  | tk_shape v l : In k [P_Array; P_BaseVector] -> gives_shapes v l -> (forall x, v <> VSet x) -> takes "shape" v (VSet [v])
  | tk_shapes x l : In k [P_Array; P_BaseVector] -> gives_shapes (VSet x) l -> takes "shape" (VSet x) (VSet x)
  | tk_rows v l n : In (k, n) [(P_Vector3Array, 3%Z); (P_Vector2Array, 2%Z)] -> gives_shapes v l ->
      Forall (fun s => exists d, s = [d; Len n]) l -> (forall x, v <> VSet x) -> takes "shape" v (VSet [v])
  | tk_all_rows x l n : In (k, n) [(P_Vector3Array, 3%Z); (P_Vector2Array, 2%Z)] -> gives_shapes (VSet x) l ->
      Forall (fun s => exists d, s = [d; Len n]) l -> takes "shape" (VSet x) (VSet x)
  | tk_dtype v : is_dtype W v = true -> (forall l, v <> VList l /\ v <> VTuple l) -> takes "dtype" v (VTuple [v])
  | tk_dtypes v l : v = VList l \/ v = VTuple l -> l <> [] -> Forall (fun d => is_dtype W d = true) l -> takes "dtype" v v
  | tk_length v n f : as_num v = Some n -> nle n (NF fzero) = false -> py_float_num n = Ok f -> takes "length" v (VFloat f)
  | tk_any_name v : k = P_Union -> takes "name" v v
  | tk_props v l ps : v = VTuple l \/ v = VList l -> Forall2 stands_for l ps -> takes "props" v (VTuple ps)
  | tk_method key v : In key (methods k) -> takes key v v.

  (** A mode of the class *)
  Definition known_mode (m : val) : Prop :=
    exists s, m = VStr s /\ In s (match k with P_PNG => png_modes | _ => file_modes end).
  (** Options that fit together.  Modes are known if 'file_modes' is not replaced. *)
  Record together (o : dict val) : Prop := {
    tg_bounds : forall a b, dget o "min" = Some a -> dget o "max" = Some b -> a <> VNone -> b <> VNone ->
      exists m n, as_num a = Some m /\ as_num b = Some n /\ ngt m n = false;
    tg_sizes : forall a b m n, dget o "min_length" = Some a -> dget o "max_length" = Some b -> is_int a m -> is_int b n -> (m <= n)%Z;
    tg_mode : forall m, dget o "mode" = Some m -> m = VNone \/ known_mode m;
    tg_valid : forall v, dget o "valid_modes" = Some v ->
      exists l m, v = VTuple l /\ dget o "mode" = Some m /\ In m l /\ (dget o "file_modes" = None -> Forall known_mode l);
    tg_choices : forall v, dget o "choices" = Some v ->
      exists t b, v = choice_dict t /\ dget o "case_sensitive" = Some (VBool b) /\ no_collisions b t;
    tg_descr : forall v, dget o "descriptions" = Some v ->
      exists t kvs, v = VDict kvs /\ dget o "choices" = Some (choice_dict t) /\ length kvs = length t /\
        forall x d, In (x, d) kvs -> exists s, x = VStr s /\ In s (map fst t);
    tg_name : forall v, dget o "name" = Some v -> (exists s, v = VStr s) \/ (k = P_Union /\ dget o "props" = Some (VTuple [])) }.

  (** The object has the values supplied, and nothing else; the default comes
      last and is checked with all other options. *)
  Record describes (args : list val) (kws : dict val) (o : dict val) : Prop := {
    ds_given : forall key v, supplied k args kws key = Some v -> key <> "default" -> (key = "prop" -> v <> VNone) ->
      exists x, takes key v x /\ dget o key = Some x;
    ds_only : forall key x, dget o key = Some x -> exists v, supplied k args kws key = Some v /\ (key = "prop" \/ key = "default" -> v <> VNone);
    ds_default : forall v, supplied k args kws "default" = Some v -> v <> VNone -> dget o "default" = Some v }.
  (** The default [v] is valid with the options [o]: undefined, a value, or a
      callable that gives one.  A Union needs an alternative for it. *)
  Definition good_default (o : dict val) (v : val) : Prop :=
    (v = VUndef /\ (k = P_Union \/ ucall W v = None)) \/
    ((exists y x, (ucall W v = None /\ y = v \/ ucall W v = Some (Ok y)) /\ validates W k o y = LOk x) /\
     (k = P_Union -> dget o "props" <> Some (VTuple []))).
  (** Every keyword is an option or attribute of the class, or a default None. *)
  Definition allowed (kws : dict val) : Prop :=
    forall key v, In (key, v) kws -> In key (options k) \/ In key (methods k) \/ (key = "default" /\ v = VNone).
  Definition defaulted (args : list val) (kws : dict val) (o : dict val) : Prop :=
    forall v, supplied k args kws "default" = Some v -> v <> VNone -> good_default (ddel o "default") v.
  (** The object that a call asks for *)
  Definition asked_for (args : list val) (kws : dict val) (o : dict val) : Prop :=
    describes args kws o /\ together o /\ defaulted args kws o.

  (** The default [v] is a callable that raises [e], or it, or what it gives, is
      refused with [e]. *)
  Definition default_raises (v : val) (e : exn) : Prop :=
    ucall W v = Some (Exc e) \/
    exists y o, (ucall W v = None /\ y = v \/ ucall W v = Some (Ok y)) /\ raised (validates W k o y) = Exc e.
  (** The exceptions other than TypeError: for keywords that are not allowed, an
      empty keyword (IndexError), text that cannot be made, a length too large
      for a float, the default. *)
  Definition raises (kws : dict val) (e : exn) : Prop :=
    e = ExAttr /\ ~ allowed kws \/
    e = ExUser 0 /\ In "" (map fst kws) \/
    (exists v, In ("uid_prop", v) kws /\ text_of W v = Exc e) \/
    e = ExOverflow /\ (exists v n, In ("length", v) kws /\ as_num v = Some n /\ nle n (NF fzero) = false /\ py_float_num n = Exc ExOverflow) \/
    (exists v, In ("default", v) kws /\ v <> VNone /\ default_raises v e).
End Spec.
(** Validation depends on the attributes, not on the order of their assignment. *)
Definition orderless (W : objects) : Prop :=
  forall k o o', (forall key, dget o key = dget o' key) -> forall v, validates W k o v = validates W k o' v.

(** * Integer and Float: the objects of Declare.v *)
Definition pk (k : nkind) : pkind := match k with NInteger => P_Integer | NFloat => P_Float end.
(** What the getters give on an object on which nothing is set *)
Definition unset (key : string) : option val :=
  if String.eqb key "name" then Some (VStr "")
  else if String.eqb key "default" then Some VUndef
  else if String.eqb key "required" then Some (VBool true)
  else if String.eqb key "cast" then Some (VBool false)
  else if existsb (String.eqb key) ["serializer"; "deserializer"; "min"; "max"] then Some VNone
  else None.
(** The two objects have the same attributes. *)
Definition same_attrs (p : nprop) (o : dict val) : Prop :=
  forall key, np_getattr p key = match dget o key with Some v => Some v | None => unset key end.
(** [validates] is the validation of Declare.v. *)
Definition validates_as (E : env) (ucall2 : val -> val -> res val) (W : objects) (k : nkind) : Prop :=
  forall p o v, np_kind p = k -> same_attrs p o -> validates W (pk k) o v = np_validate E (ucall W) ucall2 p v.

(** * Union: the alternatives of Declare.v *)
(** [validates] tries the alternatives in order, which accept values by [av]. *)
Definition tries_alternatives (W : objects) (av : val -> val -> lres) : Prop :=
  forall o l v, dget o "props" = Some (VTuple l) -> validates W P_Union o v = un_validate val av l v.
