(** Model of Instance properties of classes that are not HasProperties classes
    (base/instance.py:23-181): validate, assert_valid, serialize, deserialize,
    the options instance_class, auto_create and default.

    A class is what Python can do with it, any functions at all.  Not modelled:
    values that are changed by its constructor or by json, values that contain
    themselves, warnings, Python 2, messages.  Values that are HasProperties
    instances are only passed on to their own methods, see World.v.  json.dumps
    and json.loads are modelled for values of PyVal.v. *)
From Coq Require Import DecimalString.
From Verif Require Export PyBase PyFloat PyVal.
Local Open Scope string_scope.
Local Open Scope list_scope.
Local Open Scope nat_scope.

(** [isinstance(v, cls)], [cls( **kw)], [cls(v)], [cls()] (base/instance.py:89-111) *)
Record pyclass := PC {
  pc_is : val -> bool;
  pc_kw : dict val -> res val;
  pc_call : val -> res val;
  pc_new : res val
}.
(** the keywords in [cls( **value)], instance.py:102; other keys raise TypeError *)
Fixpoint str_keys (l : list (val * val)) : option (dict val) :=
  match l with
  | [] => Some []
  | (VStr k, v) :: r => option_map (cons (k, v)) (str_keys r)
  | _ => None
  end.
(** instance.py:101-103 *)
Definition make (c : pyclass) (v : val) : res val :=
  match v with
  | VDict l => match str_keys l with Some d => pc_kw c d | None => Exc ExType end
  | _ => pc_call c v
  end.
(** basic.py:326-357 [error] *)
Definition refuse (name : string) (inst : option nat) : exn := ExValidation [ET (Some "invalid") (Some name) inst].
(** instance.py:89-111 *)
Definition validate (name : string) (inst : option nat) (c : pyclass) (v : val) : res val :=
  if pc_is c v then Ok v
  else match make c v with
       | Exc e => if is_generic e then Exc (refuse name inst) else Exc e
       | r => r
       end.
(** instance.py:113-122, basic.py:247-262, base.py:633-637; [v] is the stored value and
    no HasProperties instance *)
Definition assert_valid (name : string) (inst : option nat) (c : pyclass) (v : val) : res bool :=
  if is_none v then Ok true
  else match validate name inst c v with
       | Exc e => Exc e
       | Ok w => if py_eq v w then Ok true else Exc (refuse name inst)
       end.

(** * JSON *)
(** json.dumps, keys of dictionaries; [frepr]: repr of a float *)
Definition json_key (frepr : float -> string) (v : val) : res string :=
  match v with
  | VStr s => Ok s
  | VBool b => Ok (if b then "true" else "false")
  | VNone => Ok "null"
  | VInt z => Ok (NilZero.string_of_int (Z.to_int z))
  | VFloat f => Ok (frepr f)
  | _ => Exc ExType
  end.
(** outcomes of all, or the first that raises *)
Fixpoint all_res {A} (l : list (res A)) : res (list A) :=
  match l with
  | [] => Ok []
  | Ok x :: r => rbind (all_res r) (fun t => Ok (x :: t))
  | Exc e :: _ => Exc e
  end.
(** a dictionary from pairs, as json.loads makes it *)
Definition dict_of (l : dict val) : dict val := fold_left (fun d p => dset d (fst p) (snd p)) l [].
(** instance.py:164 [json.loads(json.dumps(v))] *)
Fixpoint json_of (frepr : float -> string) (v : val) : res val :=
  match v with
  | VNone | VBool _ | VInt _ | VFloat _ | VStr _ => Ok v
  | VList l | VTuple l => rbind (all_res (map (json_of frepr) l)) (fun t => Ok (VList t))
  | VDict l =>
      rbind (all_res (map (fun p => rbind (json_key frepr (fst p)) (fun k => rbind (json_of frepr (snd p)) (fun x => Ok (k, x)))) l))
            (fun d => Ok (VDict (map (fun p => (VStr (fst p), snd p)) (dict_of d))))
  | _ => Exc ExType
  end.
(** instance.py:125-139, 160-172, without a custom serializer; [hp l]: the
    outcome of [serialize] of the HasProperties instance [l] *)
Definition serialize (frepr : float -> string) (hp : nat -> res val) (v : val) : res val :=
  match v with
  | VNone => Ok VNone
  | VInst l => hp l
  | _ => json_of frepr v
  end.
(** instance.py:141-155, 175-181, without a custom deserializer *)
Definition deserialize (v : val) : res val :=
  match v with VNone => Ok VNone | _ => Exc ExType end.

(** * Options *)
(** The default that is set: a value that is not callable, or a callable (basic.py:170-180) *)
Inductive dval := DVal (v : val) | DCall (f : res val).
(** instance.py:60-82, basic.py:169-180 *)
Record iopts := IO { io_class : pyclass; io_auto : bool; io_default : option dval }.
(** Assignments; [None]: not a class (base/instance.py:60-82) *)
Inductive iop := SetClass (c : option pyclass) | SetAuto (v : val) | SetDefault (d : dval).
(** instance.py:64-68, 75-82; basic.py:174-180 *)
Definition i_apply (name : string) (o : iopts) (a : iop) : res iopts :=
  match a with
  | SetClass None => Exc ExType
  | SetClass (Some c) => Ok (IO c (io_auto o) (io_default o))
  | SetAuto (VBool b) => Ok (IO (io_class o) b (io_default o))
  | SetAuto _ => Exc ExType
  | SetDefault (DVal v) =>
      if is_undef v then Ok (IO (io_class o) (io_auto o) (Some (DVal v)))
      else rbind (validate name None (io_class o) v) (fun _ => Ok (IO (io_class o) (io_auto o) (Some (DVal v))))
  | SetDefault (DCall f) =>
      rbind (rbind f (validate name None (io_class o))) (fun _ => Ok (IO (io_class o) (io_auto o) (Some (DCall f))))
  end.
(** assignments that raise are caught (base/instance.py:60-82) *)
Definition i_step (name : string) (o : iopts) (a : iop) : iopts :=
  match i_apply name o a with Ok o' => o' | Exc _ => o end.
(** basic.py:170-172, instance.py:52-57 *)
Definition i_default (o : iopts) : dval :=
  match io_default o with
  | Some d => d
  | None => if io_auto o then DCall (pc_new (io_class o)) else DVal VUndef
  end.
(** base.py:229-242: the check of the default when a class is declared; ValueErrors become AttributeErrors *)
Definition check_default (name : string) (o : iopts) : res unit :=
  let r := rbind (match i_default o with DVal v => Ok v | DCall f => f end)
                 (fun v => if is_undef v then Ok VUndef else validate name None (io_class o) v) in
  match r with
  | Ok _ => Ok tt
  | Exc e => if is_value_error e then Exc ExAttr else Exc e
  end.

(** * Some classes of Python *)
(** [int]; int with keywords raises TypeError ([int(x=1)]) *)
Definition py_int_class : pyclass := PC
  (fun v => match v with VInt _ | VBool _ => true | _ => false end)
  (fun d => match d with [] => Ok (VInt 0) | _ => Exc ExType end)
  (fun v => rbind (py_int v) (fun z => Ok (VInt z))) (Ok (VInt 0)).
(** [list] *)
Definition py_list_class : pyclass := PC
  (fun v => match v with VList _ => true | _ => false end)
  (fun d => match d with [] => Ok (VList []) | _ => Exc ExType end)
  (fun v => rbind (py_iter v) (fun l => Ok (VList l))) (Ok (VList [])).
(** [dict]: [dict(v)] of an iterable of pairs is left out (TypeError) *)
Definition py_dict_class : pyclass := PC
  (fun v => match v with VDict _ => true | _ => false end)
  (fun d => Ok (VDict (map (fun p => (VStr (fst p), snd p)) d)))
  (fun _ => Exc ExType) (Ok (VDict [])).
(** a class whose [__new__] returns something else *)
Definition odd_class : pyclass := PC (fun _ => false) (fun _ => Exc ExType) (fun v => Ok v) (Exc ExType).
