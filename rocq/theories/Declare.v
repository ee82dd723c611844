(** Model of the declaration of properties: keyword handling and setters of
    Integer and Float objects (basic.py:98-202, 628-809), dynamic properties
    (basic.py:444-559), custom serializers (basic.py:34-53), defaults of Union
    (base/union.py:124-185), declarations of listeners and of disabled modes
    (handlers.py:29-53, 111-162, 176-308).

    Not modelled: the [terms] a property keeps, tags, the keyword '' (IndexError in
    the code, [ExUser 0] here), messages, and what a keyword that replaces a
    method other than [validate] does to validation. *)
From Verif Require Export PyBase PyFloat PyVal Basic Options World.
Local Open Scope string_scope.
Local Open Scope list_scope.
Local Open Scope nat_scope.

(** * Integer and Float (basic.py:773, 846) *)
Inductive nkind := NInteger | NFloat.
(** An Integer or Float object.  [np_own] are instance attributes that hide
    methods and class attributes; [np_default] is [VUndef] when not set (basic.py:773-808). *)
Record nprop := NP {
  np_kind : nkind; np_doc : string; np_name : string;
  np_required : bool; np_cast : bool; np_bounds : bopts;
  np_ser : option val; np_deser : option val; np_default : val;
  np_own : list (string * val) }.

(** The attributes with a setter (basic.py:122-202, 628-637, 721-730, 789-809) *)
Definition with_setter : list string :=
  ["name"; "doc"; "default"; "serializer"; "deserializer"; "required"; "cast"; "min"; "max"].
(** Those with a getter only (basic.py:204-207, 221-224, 830-839) *)
Definition read_only : list string := ["meta"; "info"].
(** Methods and plain class attributes of Integer and Float
    (basic.py:95, 209-386, 639-706, 732-756, 811-843, 862-894) *)
Definition plain_attrs : list string :=
  ["class_info"; "tag"; "validate"; "assert_valid"; "equal"; "get_property"; "serialize"; "deserialize";
   "to_json"; "from_json"; "error"; "sphinx"; "sphinx_class"].
(** Parameters of the constructors themselves: a second value for one of them
    is a TypeError (basic.py:78, 98) *)
Definition reserved : list string := ["self"; "cls"; "doc"].

Section Numbers.
  Variable E : env.
  (** [None]: the object is not callable; otherwise what calling it gives *)
  Variable ucall : val -> option (res val).
  (** what calling the callable [f] with (None, v) gives *)
  Variable ucall2 : val -> val -> res val.

  (** the object before the keywords are applied: the getters' defaults
      (basic.py:126, 172, 185, 196, 631, 724, 792, 803) *)
  Definition np_start (k : nkind) (doc : string) : nprop :=
    NP k doc "" true false b_start None None VUndef [].
  (** basic.py:764-770 [_in_bounds] with bounds that may be any object *)
  Definition np_in_bounds (o : bopts) (v : val) : lres :=
    match (if is_none (b_min o) then Ok false else py_gt (b_min o) v) with
    | Exc e => LExc e
    | Ok true => LErr 0
    | Ok false =>
        match (if is_none (b_max o) then Ok false else py_gt v (b_max o)) with
        | Exc e => LExc e
        | Ok true => LErr 0
        | Ok false => LOk v
        end
    end.
  (** basic.py:811-824, 862-878 [self.validate(None, v)]; an instance attribute
      'validate' comes first *)
  Definition np_validate (p : nprop) (v : val) : lres :=
    match dget (np_own p) "validate" with
    | Some f =>
        match ucall f with
        | None => LExc ExType
        | Some _ => match ucall2 f v with Ok w => LOk w | Exc e => LExc e end
        end
    | None =>
        match (match np_kind p with
               | NInteger => int_validate (np_cast p) None None v
               | NFloat => float_validate E (np_cast p) None None v
               end) with
        | LOk w => np_in_bounds (np_bounds p) w
        | r => r
        end
    end.
  (** the exception of a failed [validate] (basic.py:175-180) *)
  Definition raised (r : lres) : res unit :=
    match r with LOk _ => Ok tt | LErr _ => Exc (ExValidation []) | LExc e => Exc e end.
  (** basic.py:174-180 *)
  Definition set_default (v : val) (p : nprop) : res nprop :=
    rbind (match ucall v with
           | Some r => rbind r (fun x => raised (np_validate p x))
           | None => if is_undef v then Ok tt else raised (np_validate p v)
           end)
          (fun _ => Ok (NP (np_kind p) (np_doc p) (np_name p) (np_required p) (np_cast p) (np_bounds p)
                           (np_ser p) (np_deser p) v (np_own p))).
  (** The property with other [min] and [max] (basic.py:789-809). *)
  Definition with_bounds (p : nprop) (o : bopts) : nprop :=
    NP (np_kind p) (np_doc p) (np_name p) (np_required p) (np_cast p) o (np_ser p) (np_deser p) (np_default p) (np_own p).
  (** [setattr(self, key, v)]: name basic.py:128-132, doc 139-143, serializer
      187-191, deserializer 198-202, required 633-637, cast 725-730, min and max
      794-809; read-only attributes raise AttributeError; anything else becomes
      an instance attribute *)
  Definition np_setattr (key : string) (v : val) (p : nprop) : res nprop :=
    let (k, doc, name, rq, ca, bo, se, de, df, own) := p in
    if String.eqb key "name" then
      match v with VStr s => Ok (NP k doc s rq ca bo se de df own) | _ => Exc ExType end
    else if String.eqb key "doc" then
      match v with VStr s => Ok (NP k s name rq ca bo se de df own) | _ => Exc ExType end
    else if String.eqb key "default" then set_default v p
    else if String.eqb key "serializer" then
      match ucall v with Some _ => Ok (NP k doc name rq ca bo (Some v) de df own) | None => Exc ExType end
    else if String.eqb key "deserializer" then
      match ucall v with Some _ => Ok (NP k doc name rq ca bo se (Some v) df own) | None => Exc ExType end
    else if String.eqb key "required" then
      match v with VBool b => Ok (NP k doc name b ca bo se de df own) | _ => Exc ExType end
    else if String.eqb key "cast" then
      match v with VBool b => Ok (NP k doc name rq b bo se de df own) | _ => Exc ExType end
    else if String.eqb key "min" then rbind (set_min v bo) (fun o => Ok (with_bounds p o))
    else if String.eqb key "max" then rbind (set_max v bo) (fun o => Ok (with_bounds p o))
    else if str_mem key read_only then Exc ExAttr
    else Ok (NP k doc name rq ca bo se de df (dset own key v)).
  (** [hasattr(self, key)] for public keys (basic.py:103-121) *)
  Definition np_hasattr (key : string) (p : nprop) : bool :=
    str_mem key with_setter || str_mem key read_only || str_mem key plain_attrs || dhas (np_own p) key.
  (** one round of the loop basic.py:102-118 *)
  Definition np_keyword (p : nprop) (kv : string * val) : res nprop :=
    let (key, v) := kv in
    if String.eqb key "terms" then Exc ExAttr
    else match key with
         | "" => Exc (ExUser 0)
         | String c _ =>
             if Ascii.eqb c "_" then Exc ExAttr
             else if negb (np_hasattr key p) then Exc ExAttr
             else np_setattr key v p
         end.
  (** basic.py:102-118: the keywords one after the other. *)
  Fixpoint np_keywords (kws : list (string * val)) (p : nprop) : res nprop :=
    match kws with
    | [] => Ok p
    | kv :: r => rbind (np_keyword p kv) (np_keywords r)
    end.
  (** basic.py:98-120: [Integer(doc, **kws)] or [Float(doc, **kws)] *)
  Definition np_declare (k : nkind) (doc : val) (kws : list (string * val)) : res nprop :=
    if existsb (fun kv => str_mem (fst kv) reserved) kws then Exc ExType
    else match doc with
         | VStr d =>
             rbind (np_keywords (ddel kws "default") (np_start k d))
                   (fun p => match dget kws "default" with
                             | None | Some VNone => Ok p
                             | Some v => set_default v p
                             end)
         | _ => Exc ExType
         end.
  (** [getattr(p, key)] (basic.py:122-202, 628-631, 721-724, 789-803).  A
      serializer is read as the function it was made from. *)
  Definition np_getattr (p : nprop) (key : string) : option val :=
    if String.eqb key "name" then Some (VStr (np_name p))
    else if String.eqb key "doc" then Some (VStr (np_doc p))
    else if String.eqb key "default" then Some (np_default p)
    else if String.eqb key "serializer" then Some (match np_ser p with Some f => f | None => VNone end)
    else if String.eqb key "deserializer" then Some (match np_deser p with Some f => f | None => VNone end)
    else if String.eqb key "required" then Some (VBool (np_required p))
    else if String.eqb key "cast" then Some (VBool (np_cast p))
    else if String.eqb key "min" then Some (b_min (np_bounds p))
    else if String.eqb key "max" then Some (b_max (np_bounds p))
    else dget (np_own p) key.
End Numbers.

(** * Dynamic properties *)
(** The signature in [__code__]: positional parameters ([co_argcount]), how
    many of them have defaults, whether there is [*args], how many
    keyword-only parameters have no default, and how many positional
    parameters are bound already, 1 for a bound method (basic.py:457-462, 521-555). *)
Record sig := SIG { sg_args : nat; sg_defaults : nat; sg_varargs : bool; sg_kwreq : nat; sg_bound : nat }.
(** An object given as getter, setter or deleter; without [__code__] no
    signature is known (basic.py:457-462, 521-555). *)
Record fn := FN { fn_id : nat; fn_callable : bool; fn_sig : option sig; fn_name : option string }.
(** basic.py:460, 530, 549 *)
Definition args_ok (n : nat) (f : fn) : bool :=
  match fn_sig f with Some s => Nat.eqb (sg_args s) n | None => true end.
(** A DynamicProperty: [func], [set_func], [del_func], [name] and [prop.name] (basic.py:444-491) *)
Record dprop := DP { dp_func : fn; dp_set : option fn; dp_del : option fn; dp_name : string; dp_inner : string }.
(** basic.py:385-386, 444-449 with the setters of func (456-462), prop (469-475)
    and name (486-491): decorating [f] with a property whose default is [d] *)
Definition dyn_declare (f : fn) (d : val) : res dprop :=
  if negb (fn_callable f) then Exc ExType
  else if negb (args_ok 1 f) then Exc ExType
  else if negb (is_undef d) then Exc ExType
  else match fn_name f with None => Exc ExAttr | Some n => Ok (DP f None None n n) end.
(** [p.setter(f)], [p.deleter(f)], [p.name = v] (basic.py:486-491, 521-555) *)
Inductive dynop := DSetter (f : fn) | DDeleter (f : fn) | DName (v : val).
(** basic.py:521-535, 542-554, 486-491 *)
Definition dyn_apply (p : dprop) (a : dynop) : res dprop :=
  match a with
  | DSetter f =>
      if negb (fn_callable f) then Exc ExType
      else if negb (args_ok 2 f) then Exc ExType
      else match fn_name f with
           | None => Exc ExAttr
           | Some n => if String.eqb n (dp_name p) then Ok (DP (dp_func p) (Some f) (dp_del p) (dp_name p) (dp_inner p)) else Exc ExType
           end
  | DDeleter f =>
      if negb (fn_callable f) then Exc ExType
      else if negb (args_ok 1 f) then Exc ExType
      else match fn_name f with
           | None => Exc ExAttr
           | Some n => if String.eqb n (dp_name p) then Ok (DP (dp_func p) (dp_set p) (Some f) (dp_name p) (dp_inner p)) else Exc ExType
           end
  | DName v =>
      match v with VStr s => Ok (DP (dp_func p) (dp_set p) (dp_del p) s s) | _ => Exc ExType end
  end.

(** * Custom serializers *)
(** The function [func(val, **kwargs)]; a function without [**kwargs] raises
    TypeError when there are any (basic.py:34-53). *)
Definition userfn := list (string * val) -> val -> res val.
(** basic.py:34-53 [accept_kwargs(func)(val, **kwargs)]: the keywords of each
    call made, and the outcome *)
Definition accept_kwargs (f : userfn) (v : val) (kw : list (string * val)) : list (list (string * val)) * res val :=
  match f kw v with
  | Exc ExType => ([kw; []], f [] v)
  | r => ([kw], r)
  end.
(** basic.py:288-300 and 302-314, [key] being the keyword that gets a default *)
Definition custom_json (key : string) (dflt : bool) (ser : option userfn) (json : val -> res val)
    (v : val) (kw : list (string * val)) : list (list (string * val)) * res val :=
  let kw := dset kw key (match dget kw key with Some x => x | None => VBool dflt end) in
  match ser with
  | Some f => accept_kwargs f v kw
  | None => if is_none v then ([], Ok VNone) else ([], json v)
  end.
(** basic.py:288-300 with a serializer. *)
Definition custom_serialize := custom_json "include_class" true.
(** basic.py:302-314 with a deserializer. *)
Definition custom_deserialize := custom_json "trusted" false.

(** * Defaults of Union *)
Section UnionDefault.
  (** the alternatives: their [validate(None, v)] and [default] *)
  Variable alt : Type.
  Variable alt_validate : alt -> val -> lres.
  Variable alt_default : alt -> val.
  (** [None]: not callable; otherwise the outcome of the n-th call *)
  Variable gen : val -> option (nat -> res val).

  (** base/union.py:164-189: [validate(None, v)] *)
  Fixpoint un_validate (l : list alt) (v : val) : lres :=
    match l with
    | [] => LErr 0
    | a :: r =>
        match alt_validate a v with
        | LOk w => LOk w
        | LErr _ => un_validate r v
        | LExc e => if is_generic e then un_validate r v else LExc e
        end
    end.
  (** base/union.py:141-151; [n] calls were made before.  The number of calls
      made in the end, and the outcome *)
  Fixpoint un_check (l : list alt) (v : val) (n : nat) : nat * res unit :=
    match l with
    | [] => (n, Exc ExType)
    | a :: r =>
        let (m, o) := match gen v with
                      | Some g => (S n, rbind (g n) (fun x => raised (alt_validate a x)))
                      | None => (n, raised (alt_validate a v))
                      end in
        match o with
        | Ok _ => (m, Ok tt)
        | Exc e => if is_generic e then un_check r v m else (m, Exc e)
        end
    end.
  (** base/union.py:136-140: the new [_default] *)
  Definition un_set_default (l : list alt) (v : val) : res val :=
    if is_undef v then Ok v else rbind (snd (un_check l v 0)) (fun _ => Ok v).
  (** basic.py:101, 119-120: [_default] after [Union(doc, props=l, default=kw)] *)
  Definition un_declare (l : list alt) (kw : option val) : res val :=
    match kw with
    | None | Some VNone => Ok VUndef
    | Some v => un_set_default l v
    end.
  (** base/union.py:124-134 *)
  Fixpoint un_default (l : list alt) (own : val) : val :=
    match l with
    | [] => own
    | a :: r =>
        if is_undef (alt_default a) then un_default r own
        else if is_undef own then alt_default a
        else un_default r own
    end.
End UnionDefault.

(** * Declarations of listeners *)
(** [properties.everything], or another object, as names (handlers.py:127-142) *)
Inductive nval := NAll | NVal (v : val).
(** handlers.py:131-141 *)
Definition set_names (n : nval) : res (option (list string)) :=
  match n with
  | NAll => Ok None
  | NVal v =>
      match all_strs (match v with VTuple l | VList l | VSet l => l | _ => [v] end) with
      | Some ns => Ok (Some ns)
      | None => Exc ExType
      end
  end.
(** handlers.py:11 *)
Definition mode_name (m : lmode) : string :=
  match m with MValidate => "validate" | MSet => "observe_set" | MChange => "observe_change" end.
(** The mode of a name (handlers.py:11). *)
Definition mode_of (s : string) : option lmode := find (fun m => String.eqb s (mode_name m)) all_modes.
(** The first argument: names, a HasProperties instance, or a function (handlers.py:176-308) *)
Inductive target := TNames (n : nval) | TInst (l : loc) | TFun (f : nat).
(** An Observer that waits for its function, a ClassValidator, or the Observer
    registered on an instance; it may have no function (handlers.py:111-308) *)
Inductive declared :=
| DecObserver (names : option (list string)) (m : lmode)
| DecClass (f : nat)
| DecInst (l : loc) (names : option (list string)) (m : lmode) (f : option nat).
(** handlers.py:118-120, 89-98 *)
Definition on_instance (t : target) (names : option nval) (f : option nat) (m : lmode) : res declared :=
  rbind (set_names (match names with Some n => n | None => NVal VNone end))
        (fun ns => match t with TInst l => Ok (DecInst l ns m f) | _ => Exc ExAttr end).
(** handlers.py:224-230, 302-308: decorating a method. *)
Definition decorator (t : target) (m : lmode) : res declared :=
  match t with
  | TNames n => rbind (set_names n) (fun ns => Ok (DecObserver ns m))
  | _ => Exc ExType
  end.
(** handlers.py:224-230; names [None] is the argument None *)
Definition observer (t : target) (names : option nval) (f : option nat) (change_only : bool) : res declared :=
  let m := if change_only then MChange else MSet in
  match names, f with
  | None, None => decorator t m
  | _, _ => on_instance t names f m
  end.
(** handlers.py:302-308 *)
Definition validator (t : target) (names : option nval) (f : option nat) : res declared :=
  match names, f with
  | None, None => match t with TFun g => Ok (DecClass g) | _ => decorator t MValidate end
  | _, _ => on_instance t names f MValidate
  end.
(** handlers.py:40-53: [None] disables everything *)
Definition set_disable_type (v : val) : res (option (list lmode)) :=
  match v with
  | VNone => Ok None
  | VStr _ | VList _ | VTuple _ | VSet _ =>
      match all_strs (match v with VTuple l | VList l | VSet l => l | _ => [v] end) with
      | Some ss => match all_some (map mode_of ss) with Some ms => Ok (Some ms) | None => Exc ExType end
      | None => Exc ExType
      end
  | _ => Exc ExType
  end.
