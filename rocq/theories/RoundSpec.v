(** Specification vocabulary for the round trip through [serialize] and
    [deserialize], and for [copy]. *)
From Verif Require Import World WorldSpec AccessSpec BasicSpec GraphSpec.
Local Open Scope string_scope.
Local Open Scope list_scope.
Local Open Scope nat_scope.

(** The value of a property, None if it is not set. *)
Definition held (w : world) (l : loc) (name : string) : val :=
  match stored w l name with Some v => v | None => VNone end.

(** * Copies *)
(** [b] has the same contents as [a], which is a value for property type [p],
    where instances correspond by [G]. *)
Fixpoint copies_value (G : loc -> loc -> Prop) (p : ptype) (a b : val) : Prop :=
  match p with
  | PLeaf _ => b = a
  | PSeq k q _ _ _ => exists xs ys, of_kind k a xs /\ of_kind k b ys /\ Forall2 (copies_value G q) xs ys /\
      (k = KSet -> ForallOrdPairs (fun x y => py_eq x y = false) ys)
  | PDict _ vp _ => exists da db, a = VDict da /\ b = VDict db /\
      Forall2 (fun x y => fst y = fst x /\ copies_value G vp (snd x) (snd y)) da db
  | PUnion _ ps => (fix some (ps : list ptype) : Prop :=
                      match ps with [] => False | q :: r => copies_value G q a b \/ some r end) ps
  | PInst _ => exists l m, a = VInst l /\ b = VInst m /\ G l m
  end.
(** Instance [m] of [w'] has the class and the property values of instance [l]
    of [w], at every depth, and all instances below it are at locations from [N]
    on. *)
Inductive copied (C : ctable) (N : nat) (w w' : world) : loc -> loc -> Prop :=
| copied_intro (G : loc -> loc -> Prop) l m i k :
    (forall x y, G x y -> copied C N w w' x y) ->
    N <= m -> nth_error (w_heap w) l = Some i -> nth_error (w_heap w') m = Some k -> i_cls k = i_cls i ->
    (forall name d, declares C w l name d ->
       held w l name = VNone /\ held w' m name = VNone \/
       held w l name <> VNone /\ copies_value G (pd_type d) (held w l name) (held w' m name)) ->
    copied C N w w' l m.

(** * What JSON can carry *)
Section Portable.
  Variable E : env.
  Variable C : ctable.
  Variable U : ucode.
  Variable so : sopt.
  Variable d_o : dopt.
  Variable w : world.

  (** Validation leaves [v] as it is; DateTimes are calendar dates with whole
      seconds that strftime writes with four digits; Uuids have 128 bits; Python
      reads back the complex numbers it writes; properties without a type hold
      no instances. *)
  Definition portable_leaf (t : leaf) (v : val) : Prop :=
    (forall r, leaf_validate E r t v = LOk v) /\
    match t with
    | LfAny => below 0 v = true
    | LfComplex _ => forall a b, v = VComplex a b -> e_cparse E (e_cstr E a b) = Some (a, b)
    | LfDate => exists x, v = VDate x /\ calendar x /\ dmicro x = 0%Z /\ (e_padyear E = true \/ (1000 <= dyear x)%Z)
    | LfUuid => exists n, v = VUuid n /\ (n < 2 ^ 128)%N
    | _ => True
    end.
  Definition refused_leaf (t : leaf) (v : val) : Prop := forall r, exists k, leaf_validate E r t v = LErr k.
  (** The JSON [j] is not mistaken for a value of type [t]. *)
  Definition unread_leaf (t : leaf) (j : val) : Prop :=
    (exists e, leaf_from_json E t j = Exc e /\ is_generic e = true) \/
    exists x, leaf_from_json E t j = Ok x /\ refused_leaf t x.
  (** Instance [m] can be deserialized by class [cid]: it is its class, or the
      JSON says which class it is and is trusted. *)
  Definition restorable (cid : nat) (m : loc) : Prop :=
    exists i c, nth_error (w_heap w) m = Some i /\ nth_error (ct_cls C) (i_cls i) = Some c /\ In cid (c_mro c) /\
      nth_error (ct_cls C) cid <> None /\ (i_cls i = cid \/ s_class so = true /\ o_trusted d_o = true).

  (** Alternative [q] of a Union rejects [v] (an Instance property tries to
      construct the class). *)
  Definition refused (q : ptype) (v : val) : Prop :=
    match q with
    | PLeaf t => refused_leaf t v
    | PInst cid => nth_error (ct_cls C) cid <> None /\ spare E C U cid /\ (forall e, v <> VDict e) /\ forall m c, v = VInst m -> has_class C w m c -> ~ In cid (c_mro c)
    | _ => False
    end.
  Definition unread (q : ptype) (j : val) : Prop :=
    match q with
    | PLeaf t => unread_leaf t j
    | PInst cid => forall e, j <> VDict e
    | _ => False
    end.

  (** Sets hold no Unions.  Dictionary keys have JSON that is hashable, and are equal to themselves
      (nan is not).  The alternatives of a Union before the one the value belongs
      to are leaves and Instances that reject the value and its JSON. *)
  Fixpoint portable (p : ptype) (v : val) : Prop :=
    match p with
    | PLeaf t => portable_leaf t v
    | PSeq k q _ _ _ => exists items, of_kind k v items /\ Forall (portable q) items /\
        (k = KSet -> no_union q /\ Forall (fun x => hashable x = true) items /\ ForallOrdPairs (fun x y => py_eq x y = false) items)
    | PDict kp vp _ => exists t entries, kp = PLeaf t /\ t <> LfColor /\ v = VDict entries /\ distinct_keys entries /\
        Forall (fun kx => (portable_leaf t (fst kx) /\ hashable (fst kx) = true /\ py_eq (fst kx) (fst kx) = true) /\
                          portable vp (snd kx)) entries
    | PUnion si ps =>
        exists before q after, ps = before ++ q :: after /\ Forall (fun x => refused x v) before /\
          ((exists t j, q = PLeaf t /\ portable_leaf t v /\ v <> VNone /\ leaf_to_json E t v = Ok j /\ (forall e, j <> VDict e) /\
             Forall (fun x => unread x j) before) \/
           (exists cid m i c, q = PInst cid /\ v = VInst m /\ restorable cid m /\ si = false /\ s_class so = true /\
             nth_error (w_heap w) m = Some i /\ i_cls i = cid /\ nth_error (ct_cls C) cid = Some c /\ c_name c <> "" /\
             Forall (fun x => forall k c', x = PInst k -> nth_error (ct_cls C) k = Some c' -> c_name c' <> c_name c) before))
    | PInst cid => exists m, v = VInst m /\ restorable cid m
    end.

  (** Calling the class without arguments gives a new instance [i] and does
      nothing to existing objects. *)
  Definition constructs (cid : nat) (ok : inst -> Prop) : Prop :=
    exists depth, forall n w1, depth <= n -> exists i w2,
      exec E C U n (COp (ONew cid (Some []))) w1 = (Ok (VInst (length (w_heap w1))), w2) /\
      unchanged w1 w2 /\ nth_error (w_heap w2) (length (w_heap w1)) = Some i /\ i_cls i = cid /\ ok i.
  (** Every stored value can be carried; what a new instance has set is set here
      too, holds no instances and is of the right type. *)
  Definition portable_node (l : loc) : Prop :=
    exists i c, nth_error (w_heap w) l = Some i /\ nth_error (ct_cls C) (i_cls i) = Some c /\
      NoDup (dkeys (i_back i)) /\ ~ In "__class__" (dkeys (c_props c)) /\
      (forall name v, dget (i_back i) name = Some v -> exists d, dget (c_props c) name = Some d /\
         (pd_kind d = KProp \/ pd_kind d = KGettable) /\
         (v <> VNone -> v <> VUndef /\ portable (pd_type d) v)) /\
      constructs (i_cls i) (fun i0 => forall name x, dget (i_back i0) name = Some x ->
         x = VNone /\ held w l name = VNone \/
         held w l name <> VNone /\ exists d, dget (c_props c) name = Some d /\
           inst_free (pd_type d) /\ no_union (pd_type d) /\ has_type C [] (pd_type d) x).
  (** The same in terms of the declarations, for classes whose defaults are
      constants of leaf type that validate. *)
  Definition plain_default (d : pdecl) (x : dflt) : Prop :=
    x = DUndef \/ exists v t, x = DVal v /\ v <> VUndef /\ (pd_kind d = KProp \/ pd_kind d = KGettable) /\ pd_type d = PLeaf t /\
      forall r, exists v', leaf_validate E r t v = LOk v'.
  Definition plain_node (l : loc) : Prop :=
    exists i c, nth_error (w_heap w) l = Some i /\ nth_error (ct_cls C) (i_cls i) = Some c /\
      NoDup (dkeys (i_back i)) /\ NoDup (dkeys (c_props c)) /\ ~ In "__class__" (dkeys (c_props c)) /\
      (forall name v, dget (i_back i) name = Some v -> exists d, dget (c_props c) name = Some d /\
         (pd_kind d = KProp \/ pd_kind d = KGettable) /\
         (v <> VNone -> v <> VUndef /\ portable (pd_type d) v)) /\
      (forall name d, In (name, d) (c_props c) -> plain_default d (default_of c name d) /\
         (default_of c name d <> DUndef -> held w l name <> VNone)).

  (** * References *)
  Definition child (l m : loc) : Prop :=
    exists name d, declares C w l name d /\ held w l name <> VNone /\ holds_inst (pd_type d) (held w l name) m.
  Inductive descends (l : loc) : loc -> Prop :=
  | descends_here : descends l l
  | descends_step m k : child l m -> descends m k -> descends l k.
  (** No instance below [l] is below itself. *)
  Definition treelike (l : loc) : Prop := forall m k, descends l m -> child m k -> ~ descends k m.
  (** No serialize call is in progress. *)
  Definition unguarded (l : loc) : Prop := forall m i, descends l m -> nth_error (w_heap w) m = Some i -> i_sflag i = false.
  Definition plain_graph (l : loc) : Prop := treelike l /\ forall m, descends l m -> plain_node m.
  Definition portable_graph (l : loc) : Prop := treelike l /\ forall m, descends l m -> portable_node m.
End Portable.

(** * Comparing a copy *)
(** The comparison of two values of leaf type [t] is [==]. *)
Definition exact (t : leaf) : Prop := forall a b, leaf_equal t a b = Ok (py_eq a b).
(** [v] compares equal to itself, which infinite numbers and nan do not; the
    comparison of sets does not depend on the order of their elements; one
    alternative of a Union compares [v] equal (an Instance if [v] is an instance,
    or a leaf), and the ones before it are leaves and Instances. *)
Fixpoint equals_itself (p : ptype) (v : val) : Prop :=
  match p with
  | PLeaf t => leaf_equal t v v = Ok true
  | PSeq k q _ _ _ => (k = KSet -> exists t, q = PLeaf t /\ exact t) /\
      forall items, of_kind k v items -> Forall (equals_itself q) items
  | PDict _ vp _ => forall d, v = VDict d -> Forall (fun kx => equals_itself vp (snd kx)) d
  | PUnion _ ps => (fix some (ps : list ptype) : Prop :=
                      match ps with
                      | PLeaf t :: r => leaf_equal t v v = Ok true /\ (forall m, v <> VInst m) \/ some r
                      | PInst _ :: r => (exists m, v = VInst m) \/ some r
                      | _ => False
                      end) ps
  | PInst _ => True
  end.
(** Instance [l] is not being compared, has no dynamic and no renamed
    properties, and its values are equal to themselves. *)
Definition comparable_node (C : ctable) (w : world) (l : loc) : Prop :=
  exists i c, nth_error (w_heap w) l = Some i /\ nth_error (ct_cls C) (i_cls i) = Some c /\ i_eflag i = false /\
    forall name d, In (name, d) (c_props c) -> (pd_kind d = KProp \/ pd_kind d = KGettable) /\
      (held w l name <> VNone -> equals_itself (pd_type d) (held w l name)).

(** Class names are not empty, are registered and tell classes apart. *)
Definition names_known (C : ctable) : Prop :=
  forall k c, nth_error (ct_cls C) k = Some c -> c_name c <> "" /\ dget (ct_reg C) (c_name c) = Some k.
(** [copy] of [l] returns [m]. *)
Definition copy_gives (E : env) (C : ctable) (U : ucode) (w : world) (l m : loc) (w' : world) : Prop :=
  exists depth, forall n, depth <= n -> exec E C U n (COp (OCopy l)) w = (Ok (VInst m), w').
