(** Specifications for Instance properties of other classes. *)
From Coq Require Import DecimalString.
From Verif Require Import Foreign.
Local Open Scope string_scope.
Local Open Scope list_scope.
Local Open Scope nat_scope.

(** Calling the class with this value gives the outcome [r]: a dictionary is
    given as keywords, which must be strings. *)
Inductive called (c : pyclass) : val -> res val -> Prop :=
| called_keywords d : called c (VDict (map (fun p => (VStr (fst p), snd p)) d)) (pc_kw c d)
| called_other_keys l k x : In (k, x) l -> (forall s, k <> VStr s) -> called c (VDict l) (Exc ExType)
| called_value v : (forall l, v <> VDict l) -> called c v (pc_call c v).
(** The constructor of the class makes instances of it. *)
Definition makes_instances (c : pyclass) : Prop :=
  (forall d x, pc_kw c d = Ok x -> pc_is c x = true) /\ (forall v x, pc_call c v = Ok x -> pc_is c x = true).

(** JSON: what json.loads can give. *)
Inductive is_json : val -> Prop :=
| json_none : is_json VNone
| json_bool b : is_json (VBool b)
| json_int z : is_json (VInt z)
| json_float f : is_json (VFloat f)
| json_str s : is_json (VStr s)
| json_list l : Forall is_json l -> is_json (VList l)
| json_dict d : NoDup (map fst d) -> Forall is_json (map snd d) -> is_json (VDict (map (fun p => (VStr (fst p), snd p)) d)).
(** The text of a key. *)
Inductive key_text (frepr : float -> string) : val -> string -> Prop :=
| key_str s : key_text frepr (VStr s) s
| key_true : key_text frepr (VBool true) "true"
| key_false : key_text frepr (VBool false) "false"
| key_none : key_text frepr VNone "null"
| key_int z : key_text frepr (VInt z) (NilZero.string_of_int (Z.to_int z))
| key_float f : key_text frepr (VFloat f) (frepr f).
(** What json can represent: numbers, strings, booleans, None, and lists,
    tuples and dictionaries of such. *)
Inductive jsonable (frepr : float -> string) : val -> Prop :=
| able_none : jsonable frepr VNone
| able_bool b : jsonable frepr (VBool b)
| able_int z : jsonable frepr (VInt z)
| able_float f : jsonable frepr (VFloat f)
| able_str s : jsonable frepr (VStr s)
| able_list l : Forall (jsonable frepr) l -> jsonable frepr (VList l)
| able_tuple l : Forall (jsonable frepr) l -> jsonable frepr (VTuple l)
| able_dict l : Forall (fun p => (exists s, key_text frepr (fst p) s) /\ jsonable frepr (snd p)) l -> jsonable frepr (VDict l).
(** [w] is the JSON of [v]: tuples become lists, keys become text; of several
    keys with the same text, the last counts. *)
Inductive image (frepr : float -> string) : val -> val -> Prop :=
| image_none : image frepr VNone VNone
| image_bool b : image frepr (VBool b) (VBool b)
| image_int z : image frepr (VInt z) (VInt z)
| image_float f : image frepr (VFloat f) (VFloat f)
| image_str s : image frepr (VStr s) (VStr s)
| image_list l t : Forall2 (image frepr) l t -> image frepr (VList l) (VList t)
| image_tuple l t : Forall2 (image frepr) l t -> image frepr (VTuple l) (VList t)
| image_dict l d : NoDup (map fst d) ->
    (forall s x, In (s, x) d -> exists l1 k v l2, l = l1 ++ (k, v) :: l2 /\ key_text frepr k s /\ image frepr v x /\
       forall k2 v2, In (k2, v2) l2 -> ~ key_text frepr k2 s) ->
    (forall k v s, In (k, v) l -> key_text frepr k s -> exists x, In (s, x) d) ->
    image frepr (VDict l) (VDict (map (fun p => (VStr (fst p), snd p)) d)).

(** The outcome of calling a callable default. *)
Definition outcome (d : dval) : res val := match d with DVal v => Ok v | DCall f => f end.
(** The assignment is accepted. *)
Definition accepted (name : string) (o : iopts) (a : iop) : Prop := exists o', i_apply name o a = Ok o'.
