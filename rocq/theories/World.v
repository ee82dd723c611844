(** The object model: HasProperties instances in a heap, property access,
    notification, construction, validation, serialization, comparison and
    links, together with arbitrary user code (callbacks, defaults, dynamic
    getters, transforms) that may call back into the library.

    Not modelled here: custom serializers/deserializers, subclasses that
    override library methods, the body of [_error_hook] (its calls are
    recorded), warnings and messages, Instance properties of classes that are
    not HasProperties, numpy, the [_instance] keyword of deserialize (see
    Uid.v), observe_mutations (see Observable.v), and changes that user code
    makes to keys of the change dictionary other than 'value'.  Contained
    properties (of containers and unions) are required, the default. *)
From Verif Require Export PyBase PyFloat PyVal Basic.
Local Open Scope string_scope.
Local Open Scope list_scope.
Local Open Scope nat_scope.

(** An instance: its place in the heap (base/base.py:250-281). *)
Definition loc := nat.

(** * Declarations *)

(** handlers.py:11 [LISTENER_TYPES] *)
Inductive lmode := MValidate | MSet | MChange.
(** Comparing modes, as strings in handlers.py:11. *)
Definition lmode_eqb (a b : lmode) : bool :=
  match a, b with
  | MValidate, MValidate | MSet, MSet | MChange, MChange => true
  | _, _ => false
  end.
(** handlers.py:11 [LISTENER_TYPES] *)
Definition all_modes : list lmode := [MValidate; MSet; MChange].

(** containers.py: Tuple 156, List 368, Set 425 *)
Inductive skind := KTuple | KList | KSet.

(** Property types.  Leaf: basic.py; PSeq: containers.py:156-476 with prop,
    min_length, max_length, coerce; PDict: containers.py:479-685 with key_prop,
    value_prop, coerce; PUnion: union.py with strict_instances and props;
    PInst: instance.py with a HasProperties instance_class. *)
Inductive ptype :=
| PLeaf (t : leaf)
| PSeq (k : skind) (p : ptype) (mn mx : option nat) (coerce : bool)
| PDict (k v : ptype) (coerce : bool)
| PUnion (strict_instances : bool) (ps : list ptype)
| PInst (cid : nat).

(** GettableProperty (basic.py:85), DynamicProperty (basic.py:389) with its
    getter and optional setter and deleter, Property (basic.py:595), Renamed
    (basic.py:1411) *)
Inductive pkind :=
| KGettable
| KDynamic (get : nat) (set del : option nat)
| KProp
| KRenamed (new_name : string).

(** A default: [undefined], a value, or a callable (basic.py:169-180) *)
Inductive dflt := DUndef | DVal (v : val) | DCall (cb : nat).

(** A declared property: kind, type, [required] (basic.py:628-637), [default] (basic.py:169-180). *)
Record pdecl := PD { pd_kind : pkind; pd_type : ptype; pd_required : bool; pd_default : dflt }.

(** What a listener runs: a user callback, or [_update] of link [k] (link.py:62) *)
Inductive lfunc := LCb (cb : nat) | LLink (k : nat).

(** handlers.py:111-162 [Observer]; [None] names is [everything] *)
Record obsdecl := OD { od_names : option (list string); od_mode : lmode; od_func : lfunc }.

(** handlers.py:165-173 [ClassValidator]: the built-in [_validate_props]
    (base.py:445) or a user method *)
Inductive cvalid := CVProps | CVUser (cb : nat).

(** A class as the metaclass leaves it (base.py:87-248): [_props] in order,
    [_defaults], [_prop_observers], [_class_validators], the classes it is a
    subclass of (itself included), and its other attribute names. *)
Record cls := Cls {
  c_name : string;
  c_props : dict pdecl;
  c_defaults : dict dflt;
  c_obs : list obsdecl;
  c_cvals : list cvalid;
  c_mro : list nat;
  c_attrs : dict val
}.

(** All classes, and [_REGISTRY] (base.py:303, 246) by class name *)
Record ctable := CT { ct_cls : list cls; ct_reg : dict nat }.

(** * State *)

(** One entry of [instance._listeners[name][mode]] (handlers.py:89-98): the
    nested dictionaries are flattened to one list in registration order. *)
Record listener := Lst { l_name : string; l_mode : lmode; l_func : lfunc }.

(** A HasProperties instance: [_backend], [_listeners] (base.py:257-258), the
    flags [_getting_validated] (None: attribute not set yet; base.py:307, 410),
    [_getting_serialized] (base.py:497), [_testing_equality] (base.py:640) and
    other attributes.  [_validation_error_tuples] and [_non_validation_error]
    are local to the call that guards them and modelled as locals. *)
Record inst := Inst {
  i_cls : nat;
  i_back : dict val;
  i_lst : list listener;
  i_vflag : option bool;
  i_sflag : bool;
  i_eflag : bool;
  i_attrs : dict val
}.

(** link.py:55-152 [directional_link] *)
Record dlink := DL {
  d_src : loc * string; d_tgt : loc * string; d_trans : option nat;
  d_unlinked : bool; d_updating : bool
}.

(** Ghost trace of observable events, newest first: a listener call made by
    notification [sid] (with previous and new value), a write to a backend, a
    call of [_error_hook] (base/base.py:349-375). *)
Inductive event :=
| ECall (sid : nat) (l : loc) (name : string) (m : lmode) (f : lfunc) (prev v : val)
| EWrite (sid : nat) (l : loc) (name : string) (v : val)
| EHook (l : loc) (ts : list etuple).

(** The whole state: heap (locations are indices, never freed),
    [listeners_disabled._quarantine] (handlers.py:27), links, ghost trace and a
    ghost clock for fresh notification numbers and random choices. *)
Record world := W {
  w_heap : list inst;
  w_quar : list lmode;
  w_links : list dlink;
  w_trace : list event;
  w_clock : nat
}.

(** Plumbing of the model: code that reads and changes the world and may raise. *)
Definition M (A : Type) := world -> res A * world.

(** Plumbing: [return]. *)
Definition ret {A} (a : A) : M A := fun w => (Ok a, w).
(** Plumbing: [raise]. *)
Definition throw {A} (e : exn) : M A := fun w => (Exc e, w).
(** Plumbing: sequencing. *)
Definition bind {A B} (m : M A) (k : A -> M B) : M B :=
  fun w => match m w with (Ok a, w') => k a w' | (Exc e, w') => (Exc e, w') end.
(** [try: m; except: h] where [h] decides by the exception (base/base.py:401-444) *)
Definition try_ {A} (m : M A) (h : exn -> M A) : M A :=
  fun w => match m w with (Ok a, w') => (Ok a, w') | (Exc e, w') => h e w' end.
(** [try: m; finally: f] with an [f] that cannot fail (base/base.py:401-444) *)
Definition fin {A} (m : M A) (f : world -> world) : M A :=
  fun w => let (r, w') := m w in (r, f w').
(** run and return the outcome as a value (base/base.py:401-444) *)
Definition outcome {A} (m : M A) : M (res A) := fun w => let (r, w') := m w in (Ok r, w').
(** Plumbing: code that does not touch the world. *)
Definition lift {A} (r : res A) : M A := fun w => (r, w).
(** Plumbing: the world. *)
Definition get_w : M world := fun w => (Ok w, w).
(** Plumbing: change the world. *)
Definition mod_w (f : world -> world) : M unit := fun w => (Ok tt, f w).

Notation "'let*' x ':=' m 'in' k" := (bind m (fun x => k))
  (at level 200, x name, m at level 100, k at level 200).
Notation "'let*' ' x ':=' m 'in' k" := (bind m (fun x => k))
  (at level 200, x strict pattern, m at level 100, k at level 200).
Notation "m ';;' k" := (bind m (fun _ => k)) (at level 100, k at level 200, right associativity).

(** Plumbing: a list comprehension. *)
Fixpoint mapM {A B} (f : A -> M B) (l : list A) : M (list B) :=
  match l with
  | [] => ret []
  | x :: r => let* y := f x in let* ys := mapM f r in ret (y :: ys)
  end.

(** * Primitive state changes *)

(** Plumbing: replace an item. *)
Definition set_nth {A} (l : list A) (n : nat) (a : A) : list A :=
  firstn n l ++ match skipn n l with [] => [] | _ :: r => a :: r end.

(** Plumbing: the world with other instances. *)
Definition w_setheap (h : list inst) (w : world) : world :=
  W h (w_quar w) (w_links w) (w_trace w) (w_clock w).
(** Plumbing: the world with another [_quarantine] (handlers.py:27). *)
Definition w_setquar (q : list lmode) (w : world) : world :=
  W (w_heap w) q (w_links w) (w_trace w) (w_clock w).
(** Plumbing: the world with other links. *)
Definition w_setlinks (k : list dlink) (w : world) : world :=
  W (w_heap w) (w_quar w) k (w_trace w) (w_clock w).
(** Plumbing: a ghost event. *)
Definition w_emit (e : event) (w : world) : world :=
  W (w_heap w) (w_quar w) (w_links w) (e :: w_trace w) (w_clock w).
(** Plumbing: the next time. *)
Definition w_tick (w : world) : world :=
  W (w_heap w) (w_quar w) (w_links w) (w_trace w) (S (w_clock w)).
(** Plumbing: change an instance. *)
Definition w_upd (l : loc) (f : inst -> inst) (w : world) : world :=
  match nth_error (w_heap w) l with
  | Some i => w_setheap (set_nth (w_heap w) l (f i)) w
  | None => w
  end.
(** Plumbing: change a link. *)
Definition w_updlink (k : nat) (f : dlink -> dlink) (w : world) : world :=
  match nth_error (w_links w) k with
  | Some d => w_setlinks (set_nth (w_links w) k (f d)) w
  | None => w
  end.

(** Plumbing: change [_backend] (base.py:257). *)
Definition i_setback (b : dict val) (i : inst) : inst :=
  Inst (i_cls i) b (i_lst i) (i_vflag i) (i_sflag i) (i_eflag i) (i_attrs i).
(** Plumbing: change [_listeners] (base.py:258). *)
Definition i_setlst (b : list listener) (i : inst) : inst :=
  Inst (i_cls i) (i_back i) b (i_vflag i) (i_sflag i) (i_eflag i) (i_attrs i).
(** Plumbing: change [_getting_validated] (base.py:307, 410). *)
Definition i_setv (b : option bool) (i : inst) : inst :=
  Inst (i_cls i) (i_back i) (i_lst i) b (i_sflag i) (i_eflag i) (i_attrs i).
(** Plumbing: change [_getting_serialized] (base.py:497). *)
Definition i_sets (b : bool) (i : inst) : inst :=
  Inst (i_cls i) (i_back i) (i_lst i) (i_vflag i) b (i_eflag i) (i_attrs i).
(** Plumbing: change [_testing_equality] (base.py:640). *)
Definition i_sete (b : bool) (i : inst) : inst :=
  Inst (i_cls i) (i_back i) (i_lst i) (i_vflag i) (i_sflag i) b (i_attrs i).
(** Plumbing: change other attributes. *)
Definition i_setattrs (b : dict val) (i : inst) : inst :=
  Inst (i_cls i) (i_back i) (i_lst i) (i_vflag i) (i_sflag i) (i_eflag i) b.

(** Plumbing: change an instance of the world. *)
Definition upd (l : loc) (f : inst -> inst) : M unit := mod_w (w_upd l f).
(** The instance at [l]; locations outside the heap do not occur in Python (base/base.py:284-303). *)
Definition get_inst (l : loc) : M inst :=
  fun w => match nth_error (w_heap w) l with Some i => (Ok i, w) | None => (Exc ExAttr, w) end.
(** Plumbing: read the clock. *)
Definition tick : M nat := fun w => (Ok (w_clock w), w_tick w).
(** [cls.__new__] (base.py:256): a fresh instance *)
Definition alloc (cid : nat) : M loc :=
  fun w => (Ok (length (w_heap w)),
            w_setheap (w_heap w ++ [Inst cid [] [] None false false []]) w).

(** * User programs and operations *)

(** Options of [serialize] (base.py:476) and [deserialize] (base.py:519) *)
Record sopt := SOpt { s_class : bool; s_dyn : bool }.
(** The keywords [trusted], [strict] and [assert_valid] (base.py:518-520). *)
Record dopt := DOpt { o_trusted : bool; o_strict : bool; o_valid : bool }.

(** The public operations (base/base.py:284-615). *)
Inductive op :=
| OGet (l : loc) (name : string)
| OSet (l : loc) (name : string) (v : val)
| ODel (l : loc) (name : string)
| ONew (cid : nat) (kw : option (list (string * val)))  (** None: a positional argument was given *)
| OReset (l : loc) (name : option string)
| OValidate (l : loc)
| OSer (l : loc) (o : sopt)
| ODeser (cid : nat) (v : val) (o : dopt)
| OEqual (a b : val)
| OCopy (l : loc)
| OObserve (l : loc) (d : obsdecl)
| OLink (src tgt : loc * string) (update_now change_only : bool) (trans : option nat)
| OLinkAll (items : list (loc * string)) (update_now change_only : bool)
| OUnlink (k : nat)
| ORelink (k : nat).

(** User code: return, raise, perform an operation and continue with its
    outcome (so exceptions can be caught), or run a body inside
    [with listeners_disabled(types)] on a fresh context object (handlers.py:14)
    and continue with its outcome. *)
Inductive prog :=
| Ret (v : val)
| Raise (e : exn)
| Do (o : op) (k : res val -> prog)
| With (types : option (list lmode)) (body : prog) (k : res val -> prog).

(** The code of all user callbacks.  A property listener gets the instance and
    the change dictionary; the value it returns here is the value it leaves in
    change['value'] (base/base.py:349-355, 446-474). *)
Record ucode := UC {
  u_listen : nat -> loc -> string -> val -> val -> lmode -> prog;
  u_default : nat -> prog;
  u_get : nat -> loc -> prog;
  u_set : nat -> loc -> val -> prog;
  u_del : nat -> loc -> prog;
  u_cval : nat -> loc -> prog;
  u_trans : nat -> val -> prog
}.

(** Recursive calls of the interpreter: a public operation, or the rest of a
    notification loop from listener number [i] on (base/base.py:349-375). *)
Inductive call :=
| COp (o : op)
| CNotify (sid : nat) (l : loc) (name : string) (prev v : val) (m : lmode) (i : nat).

(** handlers.py:55-63: [__enter__] (value semantics suffice for fresh,
    properly nested context objects; Utils.v has the general case) *)
Definition mode_in (m : lmode) (q : list lmode) : bool := existsb (lmode_eqb m) q.
(** handlers.py:55-60: what [_quarantine] becomes. *)
Definition quar_enter (types : option (list lmode)) (q : list lmode) : list lmode :=
  match types with None => all_modes | Some ts => q ++ ts end.

(** [with listeners_disabled(types): m]; handlers.py:55-63 *)
Definition disabled {A} (types : option (list lmode)) (m : M A) : M A :=
  fun w => let q := w_quar w in
           let (r, w') := m (w_setquar (quar_enter types q) w) in (r, w_setquar q w').

(** [dict(v)]: a dict is copied, otherwise an iterable of pairs (base/containers.py:570-583) *)
Definition pair_of (v : val) : res (val * val) :=
  match py_iter v with
  | Ok [a; b] => Ok (a, b)
  | Ok _ => Exc ExValue
  | Exc e => Exc e
  end.
(** [dict(pairs)], for containers.py:570-580. *)
Fixpoint dict_of_pairs (ps : list (val * val)) (acc : list (val * val)) : res (list (val * val)) :=
  match ps with
  | [] => Ok acc
  | (k, v) :: r => if hashable k then dict_of_pairs r (vd_set acc k v) else Exc ExType
  end.
(** The items of a sequence as pairs, for [dict(v)] (base/containers.py:570-583). *)
Fixpoint all_pairs (l : list val) : res (list (val * val)) :=
  match l with
  | [] => Ok []
  | x :: r => rbind (pair_of x) (fun p => rbind (all_pairs r) (fun ps => Ok (p :: ps)))
  end.
(** [dict(v)], for containers.py:570-580. *)
Definition py_dict (v : val) : res (list (val * val)) :=
  match v with
  | VDict d => Ok d
  | _ => rbind (py_iter v) (fun l => rbind (all_pairs l) (fun ps => dict_of_pairs ps []))
  end.

(** [cls( **d )]: keywords must be strings (base/instance.py:101-102) *)
Fixpoint kwargs_of (d : list (val * val)) : res (list (string * val)) :=
  match d with
  | [] => Ok []
  | (VStr k, v) :: r => rbind (kwargs_of r) (fun kw => Ok ((k, v) :: kw))
  | _ => Exc ExType
  end.

(** [isinstance(v, C)] for the container classes (containers.py:176, 396, 453) *)
Definition is_container (v : val) : bool :=
  match v with VTuple _ | VList _ | VSet _ => true | _ => false end.
(** [isinstance(v, self._class_container)] (containers.py:267, 571). *)
Definition is_kind (k : skind) (v : val) : bool :=
  match k, v with
  | KTuple, VTuple _ | KList, VList _ | KSet, VSet _ => true
  | _, _ => false
  end.
(** [_class_container(items)] (base/containers.py:272-281) *)
Definition build (k : skind) (l : list val) : res val :=
  match k with
  | KTuple => Ok (VTuple l)
  | KList => Ok (VList l)
  | KSet => rbind (py_set l) (fun s => Ok (VSet s))
  end.

(** The key ['__class__'] (base.py:513, 554, 566). *)
Definition class_key : val := VStr "__class__".

Section Interp.
  Variable E : env.
  Variable CTab : ctable.
  Variable U : ucode.
  (** The interpreter itself, for calls out of the current frame. *)
  Variable rec : call -> M val.

  (** Plumbing: a class by its number. *)
  Definition class_of (cid : nat) : M cls :=
    lift (match nth_error (ct_cls CTab) cid with Some c => Ok c | None => Exc ExAttr end).
  (** Plumbing: the class of an instance. *)
  Definition inst_class (l : loc) : M cls := let* i := get_inst l in class_of (i_cls i).

  (** [isinstance(value, instance_class)] (base/instance.py:99-100) *)
  Definition isinstance (v : val) (cid : nat) : M bool :=
    match v with
    | VInst l => let* c := inst_class l in ret (existsb (Nat.eqb cid) (c_mro c))
    | _ => ret false
    end.

  (** utils.py:147-165 [ValidationError.__init__]: the hook is called only if
      the instance has the attribute [_getting_validated] and it is False. *)
  Definition hook (io : option loc) (ts : list etuple) : M unit :=
    match io with
    | Some l =>
        let* i := get_inst l in
        match i_vflag i with
        | Some false => mod_w (w_emit (EHook l ts))
        | _ => ret tt
        end
    | None => ret tt
    end.
  (** A ValidationError with one error tuple (utils.py:147-165). *)
  Definition verror {A} (reason : string) (name : string) (io : option loc) : M A :=
    let ts := [ET (Some reason) (Some name) io] in
    hook io ts ;; throw (ExValidation ts).
  (** basic.py:326-357 [self.error(instance, value)] *)
  Definition perror {A} (name : string) (io : option loc) : M A := verror "invalid" name io.

  (** [n] further ValidationErrors that were raised and swallowed (basic.py:326-356) *)
  Fixpoint hooks (n : nat) (name : string) (io : option loc) : M unit :=
    match n with
    | O => ret tt
    | S n' => hook io [ET (Some "invalid") (Some name) io] ;; hooks n' name io
    end.

  (** [prop.validate(instance, value)] for leaves, see Basic.v (basic.py:226-245) *)
  Definition leaf_val (t : leaf) (io : option loc) (name : string) (v : val) : M val :=
    let* k := tick in
    match leaf_validate E (e_rand E k) t v with
    | LOk v' => ret v'
    | LErr n => hooks n name io ;; perror name io
    | LExc e => throw e
    end.

  (** [prop.validate(instance, value)]: containers.py:261-281, 409-413,
      570-598; union.py:164-189; instance.py:89-111 *)
  Fixpoint p_validate (p : ptype) (io : option loc) (name : string) (v : val) {struct p} : M val :=
    match p with
    | PLeaf t => leaf_val t io name v
    | PSeq k q _ _ coerce =>
        (if negb coerce && negb (is_kind k v) then perror name io else ret tt) ;;
        let v1 := if coerce && negb (is_container v) then VList [v] else v in
        let* items := lift (py_iter v1) in
        let* out := mapM (fun x =>
          try_ (p_validate q io name x)
               (fun e => if is_value_error e then perror name io else throw e)) items in
        lift (build k out)
    | PDict kp vp coerce =>
        (if negb coerce && negb (match v with VDict _ => true | _ => false end)
         then perror name io else ret tt) ;;
        let* d := match py_dict v with
                  | Ok d => ret d
                  | Exc e => match e with
                             | ExType | ExValue => perror name io
                             | _ => throw e
                             end
                  end in
        let* out := (fix go (d : list (val * val)) (acc : list (val * val)) : M (list (val * val)) :=
          match d with
          | [] => ret acc
          | (k, x) :: r =>
              let* k' := try_ (p_validate kp io name k)
                (fun e => if is_value_error e then perror name io else throw e) in
              let* x' := try_ (p_validate vp io name x)
                (fun e => if is_value_error e then perror name io else throw e) in
              if hashable k' then go r (vd_set acc k' x') else throw ExType
          end) d [] in
        ret (VDict out)
    | PUnion _ ps =>
        (fix go (ps : list ptype) : M val :=
           match ps with
           | [] => perror name io
           | q :: r => try_ (p_validate q io name v)
                            (fun e => if is_generic e then go r else throw e)
           end) ps
    | PInst cid =>
        try_ (let* b := isinstance v cid in
              if b then ret v
              else match v with
                   | VDict d => let* kw := lift (kwargs_of d) in rec (COp (ONew cid (Some kw)))
                   | _ => rec (COp (ONew cid None))
                   end)
             (fun e => if is_generic e then perror name io else throw e)
    end.

  (** [any(...)], stopping at the first True (base/union.py:255) *)
  Fixpoint anyM (l : list (M bool)) : M bool :=
    match l with
    | [] => ret false
    | m :: r => let* b := m in if b then ret true else anyM r
    end.

  (** the first position of [l] on which [f] holds: list without it (base/containers.py:455-467) *)
  Fixpoint take_first (f : val -> M bool) (l : list val) : M (option (list val)) :=
    match l with
    | [] => ret None
    | y :: r =>
        let* b := f y in
        if b then ret (Some r)
        else let* o := take_first f r in
             ret (match o with Some r' => Some (y :: r') | None => None end)
    end.

  (** [prop.equal(a, b)]: basic.py:264-275; containers.py:329-337, 455-467,
      659-669; union.py:254; instance.py:157; [equal] itself is base.py:617 *)
  Fixpoint p_equal (p : ptype) (a b : val) {struct p} : M bool :=
    match p with
    | PLeaf t => lift (leaf_equal t a b)
    | PSeq KSet q _ _ _ =>
        try_ (let* la := lift (py_iter a) in
              let* lb := lift (py_iter b) in
              if negb (Nat.eqb (length la) (length lb)) then ret false
              else match b with
                   | VSet _ | VList _ =>
                       let* rest := (fix go (la copy : list val) : M (list val) :=
                         match la with
                         | [] => ret copy
                         | x :: r =>
                             let* o := take_first (fun y => p_equal q x y) copy in
                             go r (match o with Some c => c | None => copy end)
                         end) la lb in
                       ret (Nat.eqb (length rest) 0)
                   | VDict d => ret (Nat.eqb (length d) 0)
                   | _ => throw ExAttr
                   end)
             (fun e => match e with ExType | ExAttr => ret false | _ => throw e end)
    | PSeq _ q _ _ _ =>
        try_ (let* la := lift (py_iter a) in
              let* lb := lift (py_iter b) in
              if negb (Nat.eqb (length la) (length lb)) then ret false
              else let* bs := mapM (fun xy => p_equal q (fst xy) (snd xy)) (combine la lb) in
                   ret (forallb (fun b => b) bs))
             (fun e => match e with ExType => ret false | _ => throw e end)
    | PDict _ vp _ =>
        try_ (match a, b with
              | VDict da, VDict db =>
                  if negb (Nat.eqb (length da) (length db)) then ret false
                  else let* bs := mapM (fun kx =>
                         match vd_get db (fst kx) with
                         | Some y => p_equal vp (snd kx) y
                         | None => throw ExKey
                         end) da in
                       ret (forallb (fun b => b) bs)
              | _, _ => throw ExAttr
              end)
             (fun e => match e with ExKey | ExType | ExAttr => ret false | _ => throw e end)
    | PUnion _ ps => anyM (map (fun q => p_equal q a b) ps)
    | PInst _ => let* r := rec (COp (OEqual a b)) in ret (truthy r)
    end.

  (** [instance._get(name)]; base.py:346 *)
  Definition back_get (l : loc) (name : string) : M val :=
    let* i := get_inst l in
    ret (match dget (i_back i) name with Some v => v | None => VNone end).

  (** [if value is None: value = instance._get(self.name)] (basic.py:649-650) *)
  Definition reread (l : loc) (name : string) (v : val) : M val :=
    if is_none v then back_get l name else ret v.

  (** basic.py:247-262 [GettableProperty.assert_valid] *)
  Definition base_assert (p : ptype) (l : loc) (name : string) (v : val) : M unit :=
    let* v1 := reread l name v in
    if is_none v1 then ret tt
    else let* v2 := p_validate p (Some l) name v1 in
         let* b := p_equal p v1 v2 in
         if b then ret tt else verror "invalid" name (Some l).

  (** basic.py:639-662 [Property.assert_valid] *)
  Definition prop_assert (required : bool) (p : ptype) (l : loc) (name : string) (v : val) : M unit :=
    let* v1 := reread l name v in
    if is_none v1 && required then verror "missing" name (Some l)
    else base_assert p l name v1.

  (** [prop.assert_valid(instance, value)]; all implementations return True or
      raise.  containers.py:283-305, 600-615; union.py:191-200; instance.py:113-122 *)
  Fixpoint p_assert (required : bool) (p : ptype) (l : loc) (name : string) (v : val) {struct p} : M unit :=
    prop_assert required p l name v ;;
    match p with
    | PLeaf _ => ret tt
    | PSeq _ q mn mx _ =>
        let* v1 := reread l name v in
        if is_none v1 then ret tt
        else
          let* items := lift (py_iter v1) in
          let n := length items in
          (if (match mn with Some m => Nat.ltb n m | None => false end) ||
              (match mx with Some m => Nat.ltb m n | None => false end)
           then perror name (Some l) else ret tt) ;;
          (fix go (xs : list val) : M unit :=
             match xs with
             | [] => ret tt
             | x :: r => p_assert true q l name x ;; go r
             end) items
    | PDict kp vp _ =>
        let* v1 := reread l name v in
        if is_none v1 then ret tt
        else match v1 with
             | VDict d =>
                 (fix go (d : list (val * val)) : M unit :=
                    match d with
                    | [] => ret tt
                    | (k, x) :: r => p_assert true kp l name k ;; p_assert true vp l name x ;; go r
                    end) d
             | _ => throw ExAttr
             end
    | PUnion _ ps =>
        let* v1 := reread l name v in
        if is_none v1 then ret tt
        else (fix go (ps : list ptype) : M unit :=
                match ps with
                | [] => perror name (Some l)
                | q :: r => try_ (p_assert true q l name v1)
                                 (fun e => if is_generic e then go r else throw e)
                end) ps
    | PInst _ =>
        let* v1 := reread l name v in
        match v1 with
        | VInst l' => rec (COp (OValidate l')) ;; ret tt
        | _ => ret tt
        end
    end.

  (** Which assert_valid a declaration has: only Property adds to the base
      (basic.py:639 and overrides); Renamed validates anything (basic.py:226). *)
  Definition decl_assert (d : pdecl) (l : loc) (name : string) : M unit :=
    match pd_kind d with
    | KProp => p_assert (pd_required d) (pd_type d) l name VNone
    | KRenamed _ => base_assert (PLeaf LfAny) l name VNone
    | _ => base_assert (pd_type d) l name VNone
    end.
  (** [prop.validate] of a declaration; DynamicProperty delegates to its prop
      (basic.py:517-519) *)
  Definition decl_type (d : pdecl) : ptype :=
    match pd_kind d with KRenamed _ => PLeaf LfAny | _ => pd_type d end.

  (** * Running user code (handlers.py:111-125) *)
  Fixpoint run (p : prog) : M val :=
    match p with
    | Ret v => ret v
    | Raise e => throw e
    | Do o k => fun w => let (r, w') := rec (COp o) w in run (k r) w'
    | With ts body k => fun w => let (r, w') := disabled ts (run body) w in run (k r) w'
    end.

  (** * Property access *)

  (** the listeners of a name and mode, in order; handlers.py:101-108 *)
  Definition listeners_of (i : inst) (name : string) (m : lmode) : list lfunc :=
    map l_func (filter (fun x => String.eqb (l_name x) name && lmode_eqb (l_mode x) m) (i_lst i)).

  (** base.py:349-355 [_notify] with handlers.py:101-108: the quarantine is
      consulted once, then the live list is iterated.  Returns the final
      change['value']. *)
  Definition notify (sid : nat) (l : loc) (name : string) (prev v : val) (m : lmode) : M val :=
    let* w := get_w in
    if mode_in m (w_quar w) then ret v
    else rec (CNotify sid l name prev v m 0).

  (** base.py:357-375 [_set] *)
  Definition has_set (p : ptype) (l : loc) (name : string) (v : val) : M val :=
    let* sid := tick in
    let* i := get_inst l in
    let prev := match dget (i_back i) name with Some x => x | None => VUndef end in
    let* v1 := notify sid l name prev v MValidate in
    upd l (fun i => i_setback (if is_undef v1 then ddel (i_back i) name
                               else dset (i_back i) name v1) i) ;;
    mod_w (w_emit (EWrite sid l name v1)) ;;
    let* changed :=
      if is_undef prev && is_undef v1 then ret false
      else if is_undef prev || is_undef v1 then ret true
      else let* b := p_equal p prev v1 in ret (negb b) in
    let* v2 := if (changed : bool) then notify sid l name prev v1 MChange else ret v1 in
    notify sid l name prev v2 MSet ;;
    ret VNone.

  (** basic.py:673-677 [Property.fset] *)
  Definition prop_fset (p : ptype) (l : loc) (name : string) (v : val) : M val :=
    let* v1 := if is_undef v then ret v else p_validate p (Some l) name v in
    has_set p l name v1.

  (** [getattr(inst, name)]: basic.py:277-286, 565-570, 664-683, 1490-1493 *)
  Definition has_getattr (l : loc) (name : string) : M val :=
    let* c := inst_class l in
    match dget (c_props c) name with
    | Some d =>
        match pd_kind d with
        | KProp | KGettable => back_get l name
        | KDynamic g _ _ =>
            let* v := run (u_get U g l) in
            if is_none v || is_undef v then ret VNone
            else p_validate (pd_type d) (Some l) name v
        | KRenamed n => rec (COp (OGet l n))
        end
    | None =>
        let* i := get_inst l in
        match dget (i_attrs i) name with
        | Some v => ret v
        | None => match dget (c_attrs c) name with Some v => ret v | None => throw ExAttr end
        end
    end.

  (** [setattr(inst, name, v)]: a GettableProperty has no setter; basic.py:572-576,
      673-677, 1495-1498 *)
  Definition has_setattr (l : loc) (name : string) (v : val) : M val :=
    let* c := inst_class l in
    match dget (c_props c) name with
    | Some d =>
        match pd_kind d with
        | KProp => prop_fset (pd_type d) l name v
        | KGettable => throw ExAttr
        | KDynamic _ None _ => throw ExAttr
        | KDynamic _ (Some s) _ =>
            let* v1 := p_validate (pd_type d) (Some l) name v in
            run (u_set U s l v1) ;; ret VNone
        | KRenamed n => rec (COp (OSet l n v))
        end
    | None => upd l (fun i => i_setattrs (dset (i_attrs i) name v) i) ;; ret VNone
    end.

  (** [delattr(inst, name)]: basic.py:578-582, 679-681, 1500-1503 *)
  Definition has_delattr (l : loc) (name : string) : M val :=
    let* c := inst_class l in
    match dget (c_props c) name with
    | Some d =>
        match pd_kind d with
        | KProp => has_set (pd_type d) l name VUndef
        | KGettable => throw ExAttr
        | KDynamic _ _ None => throw ExAttr
        | KDynamic _ _ (Some s) => run (u_del U s l) ;; ret VNone
        | KRenamed n => rec (COp (ODel l n))
        end
    | None =>
        let* i := get_inst l in
        match dget (i_attrs i) name with
        | Some _ => upd l (fun i => i_setattrs (ddel (i_attrs i) name) i) ;; ret VNone
        | None => throw ExAttr
        end
    end.

  (** handlers.py:89-98 [_set_listener] *)
  Definition has_observe (l : loc) (d : obsdecl) : M val :=
    let* c := inst_class l in
    let names := match od_names d with Some ns => ns | None => dkeys (c_props c) end in
    upd l (fun i => i_setlst (i_lst i ++ map (fun n => Lst n (od_mode d) (od_func d)) names) i) ;;
    ret VNone.

  (** the default of a property: base.py:393-398, 267-274 *)
  Definition default_of (c : cls) (name : string) (d : pdecl) : dflt :=
    match dget (c_defaults c) name with Some x => x | None => pd_default d end.
  (** [val() if callable(val) else val] (base.py:271-274, 397-398). *)
  Definition eval_default (x : dflt) : M val :=
    match x with
    | DUndef => ret VUndef
    | DVal v => ret v
    | DCall cb => run (u_default U cb)
    end.

  (** Plumbing: a [for] loop. *)
  Fixpoint iterM {A} (f : A -> M unit) (l : list A) : M unit :=
    match l with
    | [] => ret tt
    | x :: r => f x ;; iterM f r
    end.

  (** base.py:377-399 [_reset] *)
  Definition reset_prop (c : cls) (l : loc) (name : string) (d : pdecl) : M unit :=
    let* v := eval_default (default_of c name d) in
    prop_fset (pd_type d) l name v ;; ret tt.
  (** base.py:377-399 [_reset] *)
  Definition has_reset (l : loc) (name : option string) : M val :=
    let* c := inst_class l in
    match name with
    | None =>
        iterM (fun nd => match pd_kind (snd nd) with
                         | KProp => reset_prop c l (fst nd) (snd nd)
                         | _ => ret tt
                         end) (c_props c) ;;
        ret VNone
    | Some n =>
        match dget (c_props c) n with
        | Some d => match pd_kind d with
                    | KProp => reset_prop c l n d ;; ret VNone
                    | _ => throw ExAttr
                    end
        | None => throw ExAttr
        end
    end.

  (** * Construction *)

  (** base.py:264-276: initial values of properties that are not Property *)
  Definition init_gettable (c : cls) (l : loc) (nd : string * pdecl) : M unit :=
    match pd_kind (snd nd) with
    | KProp => ret tt
    | _ =>
        match default_of c (fst nd) (snd nd) with
        | DUndef | DVal VUndef => ret tt
        | x =>
            let* v := eval_default x in
            let* v1 := p_validate (decl_type (snd nd)) (Some l) (fst nd) v in
            upd l (fun i => i_setback (dset (i_back i) (fst nd) v1) i)
        end
    end.

  (** base.py:311-330, one keyword: collected ValidationErrors and the first
      other generic error *)
  Definition errs := (list etuple * option exn)%type.
  (** base.py:325-330, 424-428: collect an error. *)
  Definition add_err (a : errs) (e : exn) : M errs :=
    match e with
    | ExValidation ts => ret (fst a ++ ts, snd a)
    | _ => if is_generic e
           then ret (fst a, match snd a with Some e0 => Some e0 | None => Some e end)
           else throw e
    end.
  (** base.py:311-330: one keyword of [__init__]. *)
  Definition init_kw (c : cls) (l : loc) (a : errs) (kv : string * val) : M errs :=
    let (key, v) := kv in
    let* i := get_inst l in
    match dget (c_props c) key with
    | None =>
        if dhas (i_attrs i) key || dhas (c_attrs c) key
        then let* r := outcome (has_setattr l key v) in
             match r with Ok _ => ret a | Exc e => add_err a e end
        else throw ExAttr
    | Some d =>
        match pd_kind d with
        | KDynamic _ _ _ => throw ExAttr
        | _ => let* r := outcome (has_setattr l key v) in
               match r with Ok _ => ret a | Exc e => add_err a e end
        end
    end.
  (** Plumbing: a [for] loop with an accumulator. *)
  Fixpoint foldM {A B} (f : A -> B -> M A) (a : A) (l : list B) : M A :=
    match l with
    | [] => ret a
    | x :: r => let* a' := f a x in foldM f a' r
    end.

  (** base.py:331-340, 429-438: raise what was collected *)
  Definition raise_collected (l : loc) (a : errs) : M unit :=
    match fst a with
    | _ :: _ => mod_w (w_emit (EHook l (fst a))) ;; throw (ExValidation (fst a))
    | [] => match snd a with Some e => throw e | None => ret tt end
    end.

  (** base.py:305-344 [HasProperties.__init__] *)
  Definition has_init (c : cls) (l : loc) (kw : list (string * val)) : M unit :=
    upd l (i_setv (Some true)) ;;
    fin (let* a := foldM (init_kw c l) ([], None) kw in raise_collected l a)
        (w_upd l (i_setv (Some false))).

  (** base.py:250-281 [PropertyMetaclass.__call__]; [__init__] takes no
      positional argument *)
  Definition has_new (cid : nat) (kw : option (list (string * val))) : M val :=
    let* c := class_of cid in
    let* l := alloc cid in
    iterM (fun d => has_observe l d ;; ret tt) (c_obs c) ;;
    iterM (init_gettable c l) (c_props c) ;;
    disabled None (has_reset l None) ;;
    match kw with
    | Some kw => has_init c l kw ;; ret (VInst l)
    | None => throw ExType
    end.

  (** * validate() *)

  (** base.py:448-466: one property *)
  Definition check_prop (l : loc) (nd : string * pdecl) : M unit :=
    let (name, d) := nd in
    let* v := back_get l name in
    (if is_none v then ret tt
     else let* sid := tick in
          let* v1 := notify sid l name v v MValidate in
          let* b := p_equal (decl_type d) v v1 in
          if b then ret tt else verror "invalid" name (Some l)) ;;
    decl_assert d l name.

  (** base.py:445-467 [_validate_props]: error tuples collected so far, and the
      exception that ended the loop, if any *)
  Fixpoint validate_props (l : loc) (ps : list (string * pdecl)) : M errs :=
    match ps with
    | [] => ret ([], None)
    | nd :: r =>
        let* o := outcome (check_prop l nd) in
        match o with
        | Ok _ => validate_props l r
        | Exc (ExValidation ts) =>
            let* a := validate_props l r in ret (ts ++ fst a, snd a)
        | Exc e => ret ([], Some e)
        end
    end.

  (** base.py:414-428, one class validator *)
  Definition run_cval (c : cls) (l : loc) (a : errs) (cv : cvalid) : M errs :=
    match cv with
    | CVProps =>
        let* b := validate_props l (c_props c) in
        let a1 := (fst a ++ fst b, snd a) in
        match snd b with None => ret a1 | Some e => add_err a1 e end
    | CVUser cb =>
        let* r := outcome (
          let* v := run (u_cval U cb l) in
          match v with
          | VBool false =>
              let ts := [ET None None (Some l)] in
              hook (Some l) ts ;; throw (ExValidation ts)
          | _ => ret tt
          end) in
        match r with Ok _ => ret a | Exc e => add_err a e end
    end.

  (** base.py:401-443 [validate] *)
  Definition has_validate (l : loc) : M val :=
    let* i := get_inst l in
    match i_vflag i with
    | Some true => ret (VBool true)
    | _ =>
        upd l (i_setv (Some true)) ;;
        fin (let* c := inst_class l in
             let* a := foldM (run_cval c l) ([], None) (c_cvals c) in
             raise_collected l a ;; ret (VBool true))
            (w_upd l (i_setv (Some false)))
    end.

  (** * Serialization *)

  (** [prop.serialize(value)]: basic.py:288-300; containers.py:307-316, 617-636;
      union.py:202-219, 257-262; instance.py:125-139, 160-172 (JSON of values
      that are not HasProperties is not modelled there) *)
  Fixpoint p_serialize (o : sopt) (p : ptype) (v : val) {struct p} : M val :=
    if is_none v then ret VNone
    else match p with
    | PLeaf t => lift (leaf_to_json E t v)
    | PSeq _ q _ _ _ =>
        let* items := lift (py_iter v) in
        let* out := mapM (p_serialize o q) items in
        ret (VList out)
    | PDict kp vp _ =>
        match v with
        | VDict d =>
            let* out := mapM (fun kx =>
              let* k := p_serialize o kp (fst kx) in
              let* x := p_serialize o vp (snd kx) in
              ret (k, x)) d in
            let* sd := lift (dict_of_pairs out []) in
            ret (VDict sd)
        | _ => throw ExAttr
        end
    | PUnion _ ps =>
        (fix go (ps : list ptype) : M val :=
           match ps with
           | [] => match v with VInst l => rec (COp (OSer l o)) | _ => ret v end
           | q :: r =>
               let* t := outcome (p_validate q None "" v) in
               match t with
               | Ok _ => p_serialize o q v
               | Exc e => if is_generic e then go r else throw e
               end
           end) ps
    | PInst _ => match v with VInst l => rec (COp (OSer l o)) | _ => throw ExType end
    end.
  (** DynamicProperty and Renamed inherit [to_json] (basic.py:316), which
      returns the value itself *)
  Definition decl_serialize (o : sopt) (d : pdecl) (v : val) : M val :=
    match pd_kind d with
    | KProp | KGettable => p_serialize o (pd_type d) v
    | _ => ret v
    end.

  (** base.py:476-516 [serialize] *)
  Definition has_serialize (l : loc) (o : sopt) : M val :=
    let* i := get_inst l in
    if i_sflag i then throw ExSelfRef
    else
      upd l (i_sets true) ;;
      fin (let* c := inst_class l in
           let* i := get_inst l in
           let keys := if s_dyn o then dkeys (c_props c) else dkeys (i_back i) in
           let* data := mapM (fun k =>
             match dget (c_props c) k with
             | Some d => let* v := has_getattr l k in
                         let* x := decl_serialize o d v in
                         ret (k, x)
             | None => throw ExKey
             end) keys in
           let entries := map (fun kx => (VStr (fst kx), snd kx))
                              (filter (fun kx => negb (is_none (snd kx))) data) in
           ret (VDict (if s_class o then vd_set entries class_key (VStr (c_name c)) else entries)))
          (w_upd l (i_sets false)).

  (** [prop.deserialize(value, ...)]: basic.py:302-314; containers.py:318-327,
      638-657; union.py:221-252; instance.py:141-155 *)
  Fixpoint p_deserialize (o : dopt) (p : ptype) (v : val) {struct p} : M val :=
    if is_none v then ret VNone
    else match p with
    | PLeaf t => lift (leaf_from_json E t v)
    | PSeq k q _ _ _ =>
        let* items := lift (py_iter v) in
        let* out := mapM (p_deserialize o q) items in
        lift (build k out)
    | PDict kp vp _ =>
        match v with
        | VDict d =>
            let* out := mapM (fun kx =>
              let* k := p_deserialize o kp (fst kx) in
              let* x := p_deserialize o vp (snd kx) in
              ret (k, x)) d in
            let* sd := lift (dict_of_pairs out []) in
            ret (VDict sd)
        | _ => throw ExAttr
        end
    | PUnion si ps =>
        let o1 := DOpt (o_trusted o) (o_strict o || si) si in
        let cname := match v with
                     | VDict d => match vd_get d class_key with
                                  | Some c => if truthy c then Some c else None
                                  | None => None
                                  end
                     | _ => None
                     end in
        let all := (fix go (ps : list ptype) : M val :=
          match ps with
          | [] => ret v
          | q :: r =>
              let* t := outcome (let* out := p_deserialize o1 q v in
                                 p_validate q None "" out ;; ret out) in
              match t with
              | Ok out => ret out
              | Exc e => if is_generic e then go r else throw e
              end
          end) in
        match cname with
        | None => all ps
        | Some c =>
            (fix go (qs : list ptype) : M val :=
               match qs with
               | [] => all ps
               | q :: r =>
                   match q with
                   | PInst cid =>
                       let* k := class_of cid in
                       if py_eq c (VStr (c_name k)) then p_deserialize o1 q v else go r
                   | _ => go r
                   end
               end) ps
        end
    | PInst cid => rec (COp (ODeser cid v o))
    end.
  (** [prop.deserialize] of a declaration (base.py:576). *)
  Definition decl_deserialize (o : dopt) (d : pdecl) (v : val) : M val :=
    match pd_kind d with
    | KProp | KGettable => p_deserialize o (pd_type d) v
    | _ => ret v
    end.

  (** base.py:591-603 [_deserialize_class] *)
  Definition deser_class (cid : nat) (input : option val) (o : dopt) : M nat :=
    let* c := class_of cid in
    match input with
    | None => ret cid
    | Some n =>
        if negb (truthy n) || py_eq n (VStr (c_name c)) then ret cid
        else if o_trusted o && negb (hashable n) then throw ExType
        else match (if o_trusted o then
                      match n with VStr s => dget (ct_reg CTab) s | _ => None end
                    else None) with
             | Some k => ret k
             | None => if o_strict o then throw ExValue else ret cid
             end
    end.

  (** utils.py:13-64 [filter_props] for a class and a dict: entries whose key
      names a property *)
  Fixpoint known_props (c : cls) (d : list (val * val)) : list (string * val) :=
    match d with
    | [] => []
    | (VStr k, v) :: r => if dhas (c_props c) k then (k, v) :: known_props c r else known_props c r
    | _ :: r => known_props c r
    end.
  (** base.py:565-567: are there unused keys besides ['__class__']? *)
  Definition has_unused (c : cls) (d : list (val * val)) : bool :=
    existsb (fun kv => match fst kv with
                       | VStr k => negb (dhas (c_props c) k) && negb (String.eqb k "__class__")
                       | _ => true
                       end) d.
  (** utils.py:52-60: mutable means it has [required] or [new_name] *)
  Definition is_mutable (d : pdecl) : bool :=
    match pd_kind d with KProp | KRenamed _ => true | _ => false end.
  (** utils.py:52-60: does [filter_props] keep the key when only mutable properties are allowed? *)
  Definition key_mutable (c : cls) (k : string) : bool :=
    match dget (c_props c) k with Some d => is_mutable d | None => false end.

  (** base.py:518-589 [deserialize] without [_instance], which is in DeserInto.v *)
  Definition has_deserialize (cid : nat) (v : val) (o : dopt) : M val :=
    match v with
    | VDict d =>
        let* k := deser_class cid (vd_get d class_key) o in
        let* c := class_of k in
        if has_unused c d && o_strict o then throw ExValue
        else
          let o1 := DOpt (o_trusted o) (o_strict o) false in
          let* newstate := mapM (fun kv =>
            match dget (c_props c) (fst kv) with
            | Some pd => let* x := decl_deserialize o1 pd (snd kv) in ret (fst kv, x)
            | None => throw ExKey
            end) (known_props c d) in
          let* iv := disabled None
            (has_new k (Some (filter (fun kv => key_mutable c (fst kv)) newstate))) in
          match iv with
          | VInst l =>
              iterM (fun kv =>
                match dget (c_props c) (fst kv) with
                | Some pd =>
                    let* x := p_validate (decl_type pd) (Some l) (fst kv) (snd kv) in
                    upd l (fun i => i_setback (dset (i_back i) (fst kv) x) i)
                | None => throw ExKey
                end) (filter (fun kv => negb (key_mutable c (fst kv))) newstate) ;;
              (if o_valid o then rec (COp (OValidate l)) ;; ret tt else ret tt) ;;
              ret (VInst l)
          | _ => throw ExType
          end
    | _ => throw ExValue
    end.

  (** base.py:663-678 [copy] *)
  Definition has_copy (l : loc) : M val :=
    let* i := get_inst l in
    let* j := rec (COp (OSer l (SOpt true false))) in
    rec (COp (ODeser (i_cls i) j (DOpt true false false))).

  (** base.py:617-660 [equal] *)
  Fixpoint equal_props (la lb : loc) (ps : list (string * pdecl)) : M bool :=
    match ps with
    | [] => ret true
    | (name, d) :: r =>
        let* a := has_getattr la name in
        let* b := has_getattr lb name in
        if is_none a && is_none b then equal_props la lb r
        else if negb (is_none a) && negb (is_none b) then
          let* e := p_equal (decl_type d) a b in
          if e then equal_props la lb r else ret false
        else ret false
    end.
  (** base.py:617-660 [equal] *)
  Definition has_equal (a b : val) : M bool :=
    match a, b with
    | VInst la, VInst lb =>
        let* ia := get_inst la in
        let* ib := get_inst lb in
        if i_eflag ia then ret false
        else
          upd la (i_sete true) ;;
          fin (if Nat.eqb la lb then ret true
               else if negb (Nat.eqb (i_cls ia) (i_cls ib)) then ret false
               else let* c := class_of (i_cls ia) in equal_props la lb (c_props c))
              (w_upd la (i_sete false))
    | _, _ => ret (py_eq a b)
    end.

  (** * Links *)

  (** link.py:110-122 [_update] *)
  Definition link_update (k : nat) : M val :=
    let* w := get_w in
    match nth_error (w_links w) k with
    | None => throw ExAttr
    | Some d =>
        if d_unlinked d || d_updating d then ret VNone
        else
          mod_w (w_updlink k (fun d => DL (d_src d) (d_tgt d) (d_trans d) (d_unlinked d) true)) ;;
          fin (let* v := rec (COp (OGet (fst (d_src d)) (snd (d_src d)))) in
               let* v1 := match d_trans d with Some t => run (u_trans U t v) | None => ret v end in
               rec (COp (OSet (fst (d_tgt d)) (snd (d_tgt d)) v1)))
              (w_updlink k (fun d => DL (d_src d) (d_tgt d) (d_trans d) (d_unlinked d) false))
    end.

  (** link.py:124-138 [_validate]: the attribute must exist *)
  Definition link_item (it : loc * string) : M unit :=
    let* r := outcome (has_getattr (fst it) (snd it)) in
    match r with
    | Ok _ => ret tt
    | Exc ExAttr => throw ExValue
    | Exc e => throw e
    end.

  (** [source == target] (link.py:59). *)
  Definition item_eqb (a b : loc * string) : bool :=
    Nat.eqb (fst a) (fst b) && String.eqb (snd a) (snd b).

  (** link.py:55-67 [directional_link.__init__] with link.py:13-16 *)
  Definition dlink_new (src tgt : loc * string) (now chg : bool) (t : option nat) : M val :=
    link_item src ;; link_item tgt ;;
    if item_eqb src tgt then throw ExValue
    else
      let* w := get_w in
      let k := length (w_links w) in
      mod_w (fun w => w_setlinks (w_links w ++ [DL src tgt t false false]) w) ;;
      (if now then link_update k ;; ret tt else ret tt) ;;
      has_observe (fst src) (OD (Some [snd src]) (if chg then MChange else MSet) (LLink k)) ;;
      ret (VObj k).

  (** link.py:182-192 [link.__init__] *)
  Definition link_all (items : list (loc * string)) (now chg : bool) : M val :=
    if Nat.ltb (length items) 2 then throw ExValue
    else
      let n := length items in
      let pairs := flat_map (fun i => flat_map (fun j =>
        if Nat.eqb i j then [] else
        match nth_error items i, nth_error items j with
        | Some a, Some b => [(a, b)]
        | _, _ => []
        end) (seq 0 n)) (seq 0 n) in
      let* ks := mapM (fun ab => dlink_new (fst ab) (snd ab) now chg None) pairs in
      ret (VList ks).

  (** One call.  CNotify is one round of the loop of base.py:350-355: listener
      number [i] of the list as it is now, then the next. *)
  Definition step (c : call) : M val :=
    match c with
    | COp (OGet l n) => has_getattr l n
    | COp (OSet l n v) => has_setattr l n v
    | COp (ODel l n) => has_delattr l n
    | COp (ONew cid kw) => has_new cid kw
    | COp (OReset l n) => has_reset l n
    | COp (OValidate l) => has_validate l
    | COp (OSer l o) => has_serialize l o
    | COp (ODeser cid v o) => has_deserialize cid v o
    | COp (OEqual a b) => let* r := has_equal a b in ret (VBool r)
    | COp (OCopy l) => has_copy l
    | COp (OObserve l d) => has_observe l d
    | COp (OLink s t now chg f) => dlink_new s t now chg f
    | COp (OLinkAll items now chg) => link_all items now chg
    | COp (OUnlink k) =>
        mod_w (w_updlink k (fun d => DL (d_src d) (d_tgt d) (d_trans d) true (d_updating d))) ;; ret VNone
    | COp (ORelink k) =>
        mod_w (w_updlink k (fun d => DL (d_src d) (d_tgt d) (d_trans d) false (d_updating d))) ;; ret VNone
    | CNotify sid l n prev v m i =>
        let* x := get_inst l in
        match nth_error (listeners_of x n m) i with
        | None => ret v
        | Some f =>
            mod_w (w_emit (ECall sid l n m f prev v)) ;;
            let* v1 := match f with
                       | LCb cb => run (u_listen U cb l n prev v m)
                       | LLink k => link_update k ;; ret v
                       end in
            rec (CNotify sid l n prev v1 m (S i))
        end
    end.
End Interp.

(** The interpreter with a budget of nested calls; running out is Python's
    RecursionError (also used for listener loops, whose length user code can
    extend without bound) (base/base.py:284-615). *)
Fixpoint exec (E : env) (CTab : ctable) (U : ucode) (fuel : nat) (c : call) : M val :=
  match fuel with
  | O => throw ExRecursion
  | S n => step E CTab U (exec E CTab U n) c
  end.

(** A whole user program (base/base.py:284-615) *)
Definition run_prog (E : env) (CTab : ctable) (U : ucode) (fuel : nat) (p : prog) : M val :=
  run (exec E CTab U fuel) p.
