(** Specifications for the declaration of properties and listeners. *)
From Verif Require Import Declare.
Local Open Scope string_scope.
Local Open Scope list_scope.
Local Open Scope nat_scope.

(** The public methods and class attributes of Integer and Float, those with a
    getter only, and the names of parameters of the constructor. *)
Definition public_attrs : list string :=
  ["class_info"; "tag"; "validate"; "assert_valid"; "equal"; "get_property"; "serialize"; "deserialize";
   "to_json"; "from_json"; "error"; "sphinx"; "sphinx_class"].
Definition getter_only : list string := ["meta"; "info"].
Definition parameters : list string := ["self"; "cls"; "doc"].
(** The keywords of Integer and Float, other than [default], with the values they take. *)
Inductive kw_ok (ucall : val -> option (res val)) : string -> val -> Prop :=
| kw_name s : kw_ok ucall "name" (VStr s)
| kw_required b : kw_ok ucall "required" (VBool b)
| kw_cast b : kw_ok ucall "cast" (VBool b)
| kw_ser v : ucall v <> None -> kw_ok ucall "serializer" v
| kw_deser v : ucall v <> None -> kw_ok ucall "deserializer" v
| kw_min v : kw_ok ucall "min" v
| kw_max v : kw_ok ucall "max" v
| kw_plain key v : In key public_attrs -> kw_ok ucall key v.
(** If both bounds are given, they are numbers and the minimum is not above the maximum. *)
Definition bounds_agree (kws : list (string * val)) : Prop :=
  forall mn mx, In ("min", mn) kws -> In ("max", mx) kws ->
  exists m n, as_num mn = Some m /\ as_num mx = Some n /\ ngt m n = false.
(** What an attribute is if it is not given. *)
Definition initially (d key : string) : option val :=
  if String.eqb key "name" then Some (VStr "")
  else if String.eqb key "doc" then Some (VStr d)
  else if String.eqb key "required" then Some (VBool true)
  else if String.eqb key "cast" then Some (VBool false)
  else if existsb (String.eqb key) ["serializer"; "deserializer"; "min"; "max"] then Some VNone
  else None.
(** The attributes of [p] other than the default are those given. *)
Definition reads_as (k : nkind) (d : string) (kws : list (string * val)) (p : nprop) : Prop :=
  np_kind p = k /\
  (forall key v, In (key, v) kws -> key <> "default" -> np_getattr p key = Some v) /\
  (forall key, ~ In key (map fst kws) -> key <> "default" -> np_getattr p key = initially d key).
(** [p] accepts the default: it is undefined, valid, or a callable that gives a valid value. *)
Definition default_ok E ucall ucall2 (p : nprop) (v : val) : Prop :=
  v = VUndef \/
  (ucall v = None /\ exists w, np_validate E ucall ucall2 p v = LOk w) \/
  (exists x w, ucall v = Some (Ok x) /\ np_validate E ucall ucall2 p x = LOk w).
(** The default asked for; None asks for none. *)
Inductive asked_default (kws : list (string * val)) : val -> Prop :=
| ad_none : ~ In "default" (map fst kws) -> asked_default kws VUndef
| ad_null : In ("default", VNone) kws -> asked_default kws VUndef
| ad_some v : In ("default", v) kws -> v <> VNone -> asked_default kws v.
(** Keywords that can never be given: private ones, terms, attributes without
    setter, and anything that is not an attribute. *)
Definition bad_key (key : string) : Prop :=
  key <> "" /\
  ((exists r, key = String "_" r) \/ key = "terms" \/ In key getter_only \/
   ~ In key (["name"; "doc"; "default"; "serializer"; "deserializer"; "required"; "cast"; "min"; "max"] ++ getter_only ++ public_attrs)).
(** A bound of the model of validation: None or a number. *)
Inductive bound_is : val -> option num -> Prop :=
| bi_none : bound_is VNone None
| bi_num v n : as_num v = Some n -> bound_is v (Some n).

(** A function of this signature can be called with [n] positional arguments. *)
Definition takes (s : sig) (n : nat) : Prop :=
  (sg_bound s + n <= sg_args s \/ sg_varargs s = true) /\ sg_args s <= sg_bound s + n + sg_defaults s /\ sg_kwreq s = 0.
(** [f] is callable and, if its signature is known, has [n] positional parameters. *)
Definition suits (n : nat) (f : fn) : Prop :=
  fn_callable f = true /\ forall s, fn_sig f = Some s -> sg_args s = n.

(** A failure that makes a Union go on to the next alternative. *)
Definition declines (r : lres) : Prop :=
  (exists n, r = LErr n) \/ (exists e, r = LExc e /\ is_generic e = true).
(** The strings that a value lists: itself, or the items of a tuple, list or set. *)
Inductive strings_of : val -> list string -> Prop :=
| so_one s : strings_of (VStr s) [s]
| so_tuple ss : strings_of (VTuple (map VStr ss)) ss
| so_list ss : strings_of (VList (map VStr ss)) ss
| so_set ss : strings_of (VSet (map VStr ss)) ss.
Inductive names_of : nval -> option (list string) -> Prop :=
| no_all : names_of NAll None
| no_some v ss : strings_of v ss -> names_of (NVal v) (Some ss).
(** Names of modes. *)
Inductive mode_named : string -> lmode -> Prop :=
| mn_validate : mode_named "validate" MValidate
| mn_set : mode_named "observe_set" MSet
| mn_change : mode_named "observe_change" MChange.

(** The keywords a serializer is called with: those given, and [key], which is
    [dflt] unless given *)
Definition keywords (key : string) (dflt : bool) (kw kw' : list (string * val)) : Prop :=
  (forall k, k <> key -> dget kw' k = dget kw k) /\
  (forall x, dget kw key = Some x -> dget kw' key = Some x) /\
  (dget kw key = None -> dget kw' key = Some (VBool dflt)).
(** Declarations that are accepted, with the listener's mode *)
Inductive declares (m : lmode) : target -> option nval -> option nat -> declared -> Prop :=
| de_decorator n ns : names_of n ns -> declares m (TNames n) None None (DecObserver ns m)
| de_instance l n ns f : names_of n ns -> declares m (TInst l) (Some n) f (DecInst l ns m f).
