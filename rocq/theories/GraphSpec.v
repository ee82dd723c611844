(** Specification vocabulary for operations on object graphs (validate,
    serialize, equal). *)
From Coq Require Export Permutation.
From Verif Require Import World WorldSpec AccessSpec.
Local Open Scope string_scope.
Local Open Scope list_scope.
Local Open Scope nat_scope.

(** Every instance mentioned in a value has a location below [N]. *)
Fixpoint below (N : nat) (v : val) : bool :=
  match v with
  | VInst l => Nat.ltb l N
  | VTuple l | VList l | VSet l => forallb (below N) l
  | VDict d => forallb (fun kx => below N (fst kx) && below N (snd kx)) d
  | _ => true
  end.
Definition below_res (N : nat) (r : res val) : Prop :=
  match r with Ok v => below N v = true | Exc _ => True end.

(** Validating [v] draws no random numbers (as the text 'random' for a Color
    does) and constructs no instance from a dictionary, and no container holds
    None. *)
Fixpoint calm (E : env) (p : ptype) (v : val) : Prop :=
  match p with
  | PLeaf t => forall r r', leaf_validate E r t v = leaf_validate E r' t v
  | PSeq _ q _ _ _ =>
      (forall l, py_iter v = Ok l -> Forall (fun x => x <> VNone /\ calm E q x) l) /\ (elements v = None -> calm E q v)
  | PDict kp vp _ =>
      forall d, py_dict v = Ok d ->
        Forall (fun kx => (fst kx <> VNone /\ calm E kp (fst kx)) /\ (snd kx <> VNone /\ calm E vp (snd kx))) d
  | PUnion _ ps => (fix all (ps : list ptype) : Prop :=
                      match ps with [] => True | q :: r => calm E q v /\ all r end) ps
  | PInst _ => forall d, v <> VDict d
  end.

(** Reading a property of this name reads what is stored. *)
Definition plain_name (C : ctable) (name : string) : Prop :=
  forall cid c d, nth_error (ct_cls C) cid = Some c -> dget (c_props c) name = Some d ->
    pd_kind d = KProp \/ pd_kind d = KGettable.

(** ValidationErrors carry at least one error tuple. *)
Definition proper (e : exn) : Prop := e <> ExValidation [].

(** A program that only reads plain properties of the instances below [N] and
    returns values with [Q], if any. *)
Fixpoint reader (C : ctable) (N : nat) (Q : val -> Prop) (p : prog) : Prop :=
  match p with
  | Ret v => below N v = true /\ Q v
  | Raise e => proper e
  | Do o k => (exists l name, o = OGet l name /\ l < N /\ plain_name C name) /\
              forall r, below_res N r -> reader C N Q (k r)
  | With _ body k => reader C N (fun _ => True) body /\ forall r, below_res N r -> reader C N Q (k r)
  end.

(** Every object of [w] is unchanged in [w'], which may have more objects. *)
Definition unchanged (w w' : world) : Prop :=
  (exists more, w_heap w' = w_heap w ++ more) /\ w_quar w' = w_quar w /\ w_links w' = w_links w.

(** Calling the class with a positional argument fails (as Instance properties
    do to convert a value), and does nothing to existing objects. *)
Definition spare (E : env) (C : ctable) (U : ucode) (cid : nat) : Prop :=
  forall n w, exists e w', exec E C U (S (S n)) (COp (ONew cid None)) w = (Exc e, w') /\
    is_generic e = true /\ unchanged w w'.

(** A state on which validation, comparison and serialization only read. *)
Record settled (E : env) (C : ctable) (U : ucode) (w : world) : Prop := {
  st_class : forall l i, nth_error (w_heap w) l = Some i -> nth_error (ct_cls C) (i_cls i) <> None;
  st_back : forall l i name v, nth_error (w_heap w) l = Some i -> dget (i_back i) name = Some v ->
    below (length (w_heap w)) v = true;
  st_attrs : forall l i name v, nth_error (w_heap w) l = Some i -> dget (i_attrs i) name = Some v ->
    below (length (w_heap w)) v = true;
  st_cattrs : forall cid c name v, nth_error (ct_cls C) cid = Some c -> dget (c_attrs c) name = Some v ->
    below (length (w_heap w)) v = true;
  st_calm : forall l name d v, declares C w l name d -> (forall nn, pd_kind d <> KRenamed nn) ->
    stored w l name = Some v -> calm E (pd_type d) v;
  st_spare : forall cid, spare E C U cid;
  (** a renamed property refers to one that is not renamed *)
  st_renamed : forall cid c name d nn d', nth_error (ct_cls C) cid = Some c -> dget (c_props c) name = Some d ->
    pd_kind d = KRenamed nn -> dget (c_props c) nn = Some d' -> forall nn', pd_kind d' <> KRenamed nn';
  (** getters, validators and class validators only read *)
  st_getters : forall cid c name d g s x l, nth_error (ct_cls C) cid = Some c -> dget (c_props c) name = Some d ->
    pd_kind d = KDynamic g s x -> l < length (w_heap w) ->
    reader C (length (w_heap w)) (calm E (pd_type d)) (u_get U g l);
  st_validators : forall l i x, nth_error (w_heap w) l = Some i -> In x (i_lst i) -> l_mode x = MValidate ->
    exists cb, l_func x = LCb cb /\
      forall name prev v, below (length (w_heap w)) prev = true -> below (length (w_heap w)) v = true ->
        reader C (length (w_heap w)) (fun _ => True) (u_listen U cb l name prev v MValidate);
  st_cvals : forall cid c cb l, nth_error (ct_cls C) cid = Some c -> In (CVUser cb) (c_cvals c) ->
    l < length (w_heap w) -> reader C (length (w_heap w)) (fun _ => True) (u_cval U cb l)
}.

(** Every instance has been initialized. *)
Definition initialized (w : world) : Prop :=
  forall l i, nth_error (w_heap w) l = Some i -> i_vflag i <> None.

(** A call ends with outcome [r] however much stack it is given beyond some
    depth. *)
Definition answers {A} (m : nat -> M A) (w : world) (r : res A) : Prop :=
  exists depth, forall n, depth <= n -> exists w', m n w = (r, w').

(** * Valid object graphs *)
Section Valid.
  Variable E : env.
  Variable C : ctable.
  Variable U : ucode.
  Variable w : world.

  (** The value is set and not None. *)
  Definition has_value (l : loc) (name : string) (v : val) : Prop := stored w l name = Some v /\ v <> VNone.
  (** [v] is a fixed point of the property's validation, up to the property's
      equality. *)
  Definition fixed_point (p : ptype) (l : loc) (name : string) (v : val) : Prop :=
    exists v', answers (fun n => p_validate E C (exec E C U n) p (Some l) name v) w (Ok v') /\
               answers (fun n => p_equal (exec E C U n) p v v') w (Ok true).
  (** [fs], called one after another with [v] at first, leave [v']. *)
  Inductive leave (l : loc) (name : string) (prev : val) : list lfunc -> val -> val -> Prop :=
  | leave_nil v : leave l name prev [] v v
  | leave_cons cb fs v v1 v2 :
      answers (fun n => run_prog E C U n (u_listen U cb l name prev v MValidate)) w (Ok v1) ->
      leave l name prev fs v1 v2 -> leave l name prev (LCb cb :: fs) v v2.
  (** The validators leave [v] as it is, up to the property's equality. *)
  Definition validators_agree (p : ptype) (l : loc) (name : string) (v : val) : Prop :=
    exists v', leave l name v (if mode_in MValidate (w_quar w) then [] else registered w l name MValidate) v v' /\
               answers (fun n => p_equal (exec E C U n) p v v') w (Ok true).
  Definition within_limits (mn mx : option nat) (n : nat) : Prop :=
    (forall m, mn = Some m -> m <= n) /\ (forall m, mx = Some m -> n <= m).

  Section Among.
  (** the instances taken to be valid *)
  Variable S : loc -> Prop.
  (** [v] is valid for property type [p] *)
  Fixpoint valid_value (p : ptype) (l : loc) (name : string) (v : val) : Prop :=
    fixed_point p l name v /\
    match p with
    | PLeaf _ => True
    | PSeq _ q mn mx _ => exists items, py_iter v = Ok items /\ within_limits mn mx (length items) /\
        Forall (valid_value q l name) items
    | PDict kp vp _ => exists d, v = VDict d /\
        Forall (fun kx => valid_value kp l name (fst kx) /\ valid_value vp l name (snd kx)) d
    | PUnion _ ps => (fix some (ps : list ptype) : Prop :=
                        match ps with [] => False | q :: r => valid_value q l name v \/ some r end) ps
    | PInst _ => forall m, v = VInst m -> S m
    end.
  Definition valid_prop (l : loc) (name : string) (d : pdecl) : Prop :=
    match pd_kind d with
    | KProp => (pd_required d = true -> exists v, has_value l name v) /\
               forall v, has_value l name v ->
                 validators_agree (pd_type d) l name v /\ valid_value (pd_type d) l name v
    | KRenamed _ => forall v, has_value l name v ->
                 validators_agree (PLeaf LfAny) l name v /\ fixed_point (PLeaf LfAny) l name v
    | _ => forall v, has_value l name v ->
                 validators_agree (pd_type d) l name v /\ fixed_point (pd_type d) l name v
    end.
  (** Every class validator of instance [l] passes: the built-in one if all
      properties are valid, the others if they neither raise nor return False. *)
  Definition valid_at (l : loc) : Prop :=
    exists c, has_class C w l c /\ forall cv, In cv (c_cvals c) ->
      match cv with
      | CVProps => forall name d, dget (c_props c) name = Some d -> valid_prop l name d
      | CVUser cb => exists v, answers (fun n => run_prog E C U n (u_cval U cb l)) w (Ok v) /\ v <> VBool false
      end.
  End Among.

  (** Instance [l] and the instances its validity depends on are valid: cycles
      are valid unless something on them is not. *)
  Definition valid_graph (l : loc) : Prop :=
    exists S : loc -> Prop, S l /\ forall m, S m -> valid_at S m.

  (** Instances that a value of a property holds. *)
  Fixpoint holds_inst (p : ptype) (v : val) (m : loc) : Prop :=
    match p with
    | PLeaf _ => False
    | PSeq _ q _ _ _ => exists items x, py_iter v = Ok items /\ In x items /\ holds_inst q x m
    | PDict kp vp _ => exists d k x, v = VDict d /\ In (k, x) d /\ (holds_inst kp k m \/ holds_inst vp x m)
    | PUnion _ ps => (fix some (ps : list ptype) : Prop :=
                        match ps with [] => False | q :: r => holds_inst q v m \/ some r end) ps
    | PInst _ => v = VInst m
    end.
  Definition refers (l m : loc) : Prop :=
    exists name d v, declares C w l name d /\ pd_kind d = KProp /\ has_value l name v /\ holds_inst (pd_type d) v m.
  Inductive reachable (l : loc) : loc -> Prop :=
  | reach_here : reachable l l
  | reach_step m k : reachable l m -> refers m k -> reachable l k.
End Valid.
(** No Union inside. *)
Fixpoint no_union (p : ptype) : Prop :=
  match p with
  | PLeaf _ | PInst _ => True
  | PSeq _ q _ _ _ => no_union q
  | PDict k v _ => no_union k /\ no_union v
  | PUnion _ _ => False
  end.
(** No validation is in progress. *)
Definition idle (w : world) : Prop := forall l i, nth_error (w_heap w) l = Some i -> i_vflag i = Some false.
(** A call ends with outcome [r] however much stack it is given beyond some
    depth, and leaves every object as it was. *)
Definition ends {A} (m : nat -> M A) (w : world) (r : res A) : Prop :=
  exists depth, forall n, depth <= n -> exists w', m n w = (r, w') /\ unchanged w w'.
(** No Property has a Union in its type. *)
Definition union_free (C : ctable) : Prop :=
  forall cid c name d, nth_error (ct_cls C) cid = Some c -> dget (c_props c) name = Some d -> pd_kind d = KProp -> no_union (pd_type d).
(** Every class has the built-in class validator. *)
Definition checks_props (C : ctable) : Prop :=
  forall cid c, nth_error (ct_cls C) cid = Some c -> In CVProps (c_cvals c).

(** * Container lengths *)
(** The containers inside a value have lengths within their limits; one
    alternative of a Union is enough. *)
Fixpoint sizes_ok (p : ptype) (v : val) : Prop :=
  match p with
  | PLeaf _ | PInst _ => True
  | PSeq _ q mn mx _ => exists items, py_iter v = Ok items /\ within_limits mn mx (length items) /\ Forall (sizes_ok q) items
  | PDict kp vp _ => exists d, v = VDict d /\ Forall (fun kx => sizes_ok kp (fst kx) /\ sizes_ok vp (snd kx)) d
  | PUnion _ ps => (fix some (ps : list ptype) : Prop :=
                      match ps with [] => False | q :: r => sizes_ok q v \/ some r end) ps
  end.
(** The same type without limits. *)
Fixpoint no_limits (p : ptype) : ptype :=
  match p with
  | PSeq k q _ _ co => PSeq k (no_limits q) None None co
  | PDict kp vp co => PDict (no_limits kp) (no_limits vp) co
  | PUnion si ps => PUnion si (map no_limits ps)
  | p => p
  end.

(** * Serialization *)
Section Encode.
  Variable E : env.
  Variable C : ctable.
  Variable U : ucode.
  Variable o : sopt.
  Variable w : world.
  (** Union properties serialize with the first alternative that accepts. *)
  Definition accepts (p : ptype) (v : val) : Prop :=
    exists v', answers (fun n => p_validate E C (exec E C U n) p None "" v) w (Ok v').
  Definition refuses (p : ptype) (v : val) : Prop :=
    exists e, answers (fun n => p_validate E C (exec E C U n) p None "" v) w (Exc e) /\ is_generic e = true.

  (** Serializing [v] as a value of type [p] serializes instance [m]. *)
  Fixpoint sends (p : ptype) (v : val) (m : loc) : Prop :=
    match p with
    | PLeaf _ => False
    | PSeq _ q _ _ _ => exists items x, py_iter v = Ok items /\ In x items /\ sends q x m
    | PDict kp vp _ => exists d k x, v = VDict d /\ In (k, x) d /\ (sends kp k m \/ sends vp x m)
    | PUnion _ ps => (fix go (ps : list ptype) : Prop :=
                        match ps with
                        | [] => v = VInst m
                        | q :: r => accepts q v /\ sends q v m \/ refuses q v /\ go r
                        end) ps
    | PInst _ => v = VInst m
    end.
  Definition serializes (l m : loc) : Prop :=
    exists name d v, declares C w l name d /\ (pd_kind d = KProp \/ pd_kind d = KGettable) /\ has_value w l name v /\ sends (pd_type d) v m.
  Inductive sreach (l : loc) : loc -> Prop :=
  | sreach_here : sreach l l
  | sreach_step m k : serializes l m -> sreach m k -> sreach l k.
  Definition on_cycle (m : loc) : Prop := exists k, serializes m k /\ sreach k m.
  Definition cyclic (l : loc) : Prop := exists m, sreach l m /\ on_cycle m.

  (** [j] is the JSON of [v], given that of instances. *)
  Fixpoint encodes_value (G : loc -> val -> Prop) (p : ptype) (v j : val) : Prop :=
    v = VNone /\ j = VNone \/
    v <> VNone /\
    match p with
    | PLeaf t => leaf_to_json E t v = Ok j
    | PSeq _ q _ _ _ => exists items js, py_iter v = Ok items /\ Forall2 (encodes_value G q) items js /\ j = VList js
    | PDict kp vp _ => exists d js sd, v = VDict d /\
        Forall2 (fun kx jx => encodes_value G kp (fst kx) (fst jx) /\ encodes_value G vp (snd kx) (snd jx)) d js /\
        dict_of_pairs js [] = Ok sd /\ j = VDict sd
    | PUnion _ ps => (fix go (ps : list ptype) : Prop :=
                        match ps with
                        | [] => (exists m, v = VInst m /\ G m j) \/ (forall m, v <> VInst m) /\ j = v
                        | q :: r => accepts q v /\ encodes_value G q v j \/ refuses q v /\ go r
                        end) ps
    | PInst _ => exists m, v = VInst m /\ G m j
    end.
  (** The entry of one property: the value encoded, or as it is if the property
      is dynamic or renamed. *)
  Definition encodes_entry (G : loc -> val -> Prop) (l : loc) (name : string) (j : val) : Prop :=
    exists d, declares C w l name d /\
    match pd_kind d with
    | KProp | KGettable => encodes_value G (pd_type d) (match stored w l name with Some v => v | None => VNone end) j
    | _ => answers (fun n => exec E C U n (COp (OGet l name))) w (Ok j)
    end.
  (** All entries that are not None, and the class name. *)
  Definition encodes_node (G : loc -> val -> Prop) (l : loc) (j : val) : Prop :=
    exists i c js, nth_error (w_heap w) l = Some i /\ nth_error (ct_cls C) (i_cls i) = Some c /\
    let keys := if s_dyn o then dkeys (c_props c) else dkeys (i_back i) in
    Forall2 (encodes_entry G l) keys js /\
    let entries := map (fun kx => (VStr (fst kx), snd kx)) (filter (fun kx => negb (is_none (snd kx))) (combine keys js)) in
    j = VDict (if s_class o then vd_set entries class_key (VStr (c_name c)) else entries).
  (** [j] is the JSON of instance [l] and everything below it. *)
  Inductive encodes : loc -> val -> Prop :=
  | encodes_intro (G : loc -> val -> Prop) l j : (forall m x, G m x -> encodes m x) -> encodes_node G l j -> encodes l j.
  (** The instance itself has JSON, whatever dictionaries nested instances give. *)
  Definition encodable (l : loc) : Prop := exists j, encodes_node (fun _ x => exists d, x = VDict d) l j.
End Encode.
(** No serialization is in progress. *)
Definition s_idle (w : world) : Prop := forall l i, nth_error (w_heap w) l = Some i -> i_sflag i = false.

(** * Equality *)
(** No Set inside. *)
Fixpoint no_set (p : ptype) : Prop :=
  match p with
  | PLeaf _ | PInst _ => True
  | PSeq k q _ _ _ => k <> KSet /\ no_set q
  | PDict k v _ => no_set k /\ no_set v
  | PUnion _ ps => (fix all (ps : list ptype) : Prop := match ps with [] => True | q :: r => no_set q /\ all r end) ps
  end.
Section Equal.
  Variable E : env.
  Variable C : ctable.
  Variable U : ucode.
  Variable w : world.
  Definition reads (l : loc) (name : string) (v : val) : Prop :=
    answers (fun n => exec E C U n (COp (OGet l name))) w (Ok v).

  (** [a] and [b] are equal values for property type [p], given which instances
      are equal: lists and tuples pairwise, sets after reordering, dictionaries
      key by key. *)
  Fixpoint equal_value (G : loc -> loc -> Prop) (p : ptype) (a b : val) : Prop :=
    match p with
    | PLeaf t => leaf_equal t a b = Ok true
    | PSeq k q _ _ _ => exists xs ys zs, py_iter a = Ok xs /\ py_iter b = Ok ys /\
        (ys = zs \/ k = KSet /\ Permutation ys zs) /\ Forall2 (equal_value G q) xs zs
    | PDict _ vp _ => exists da db, a = VDict da /\ b = VDict db /\ length da = length db /\
        Forall (fun kx => exists y, vd_get db (fst kx) = Some y /\ equal_value G vp (snd kx) y) da
    | PUnion _ ps => (fix some (ps : list ptype) : Prop :=
                        match ps with [] => False | q :: r => equal_value G q a b \/ some r end) ps
    | PInst _ => (exists l m, a = VInst l /\ b = VInst m /\ G l m) \/
                 (forall l m, ~ (a = VInst l /\ b = VInst m)) /\ py_eq a b = true
    end.
  (** The same instance, or the same class and equal properties. *)
  Definition equal_node (G : loc -> loc -> Prop) (l m : loc) : Prop :=
    l = m \/
    exists i j c, nth_error (w_heap w) l = Some i /\ nth_error (w_heap w) m = Some j /\ i_cls i = i_cls j /\
      nth_error (ct_cls C) (i_cls i) = Some c /\
      forall name d, In (name, d) (c_props c) -> exists a b, reads l name a /\ reads m name b /\
        (a = VNone /\ b = VNone \/ a <> VNone /\ b <> VNone /\ equal_value G (decl_type d) a b).
  (** [l] and [m] are equal down to finite depth. *)
  Inductive equals : loc -> loc -> Prop :=
  | equals_intro (G : loc -> loc -> Prop) l m : (forall x y, G x y -> equals x y) -> equal_node G l m -> equals l m.

  (** Comparing [l] may compare [m]. *)
  Definition compares (l m : loc) : Prop :=
    exists c name d v, has_class C w l c /\ In (name, d) (c_props c) /\ reads l name v /\ holds_inst (decl_type d) v m.
  Inductive creach (l : loc) : loc -> Prop :=
  | creach_here : creach l l
  | creach_step m k : compares l m -> creach m k -> creach l k.
  (** No instance that [l] refers to, directly or not, refers back to itself. *)
  Definition acyclic (l : loc) : Prop := forall m k, creach l m -> compares m k -> ~ creach k m.
End Equal.
(** Neither Sets nor Unions in the types of the properties. *)
Definition simple_types (C : ctable) : Prop :=
  forall cid c name d, nth_error (ct_cls C) cid = Some c -> In (name, d) (c_props c) -> no_set (decl_type d) /\ no_union (decl_type d).
(** No sets and dictionaries inside. *)
Fixpoint flat (v : val) : bool :=
  match v with
  | VSet _ | VDict _ => false
  | VTuple l | VList l => forallb flat l
  | _ => true
  end.
(** Sets occur only where a Set property has them, dictionaries only where a
    Dictionary property has them, with distinct strings as keys. *)
Fixpoint comparable (p : ptype) (v : val) : Prop :=
  match p with
  | PLeaf _ | PInst _ => flat v = true
  | PSeq _ q _ _ _ => forall xs, py_iter v = Ok xs -> Forall (comparable q) xs
  | PDict _ vp _ => forall d, v = VDict d ->
      (exists ks, map fst d = map VStr ks /\ NoDup ks) /\ Forall (fun kx => comparable vp (snd kx)) d
  | PUnion _ ps => (fix all (ps : list ptype) : Prop := match ps with [] => True | q :: r => comparable q v /\ all r end) ps
  end.
Definition comparable_state (E : env) (C : ctable) (U : ucode) (w : world) : Prop :=
  forall l c name d v, has_class C w l c -> In (name, d) (c_props c) -> reads E C U w l name v -> comparable (decl_type d) v.
(** No comparison is in progress. *)
Definition e_idle (w : world) : Prop := forall l i, nth_error (w_heap w) l = Some i -> i_eflag i = false.
