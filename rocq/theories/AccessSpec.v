(** Specification vocabulary for containers, unions, construction, renamed and
    dynamic properties, and deserialization. *)
From Verif Require Import World WorldSpec BasicSpec.
Local Open Scope string_scope.
Local Open Scope list_scope.
Local Open Scope nat_scope.

(** The items of [xs] are processed in order, each starting in the state the
    one before left, with results [ys]. *)
Inductive each {A B} (act : A -> world -> B -> world -> Prop) : list A -> world -> list B -> world -> Prop :=
| each_nil w : each act [] w [] w
| each_cons x xs w y w1 ys w2 : act x w y w1 -> each act xs w1 ys w2 -> each act (x :: xs) w (y :: ys) w2.

(** * Containers *)
Definition elements (v : val) : option (list val) :=
  match v with VTuple l | VList l | VSet l => Some l | _ => None end.
Definition of_kind (k : skind) (v : val) (items : list val) : Prop :=
  v = match k with KTuple => VTuple items | KList => VList items | KSet => VSet items end.
(** [items] are what a container property of kind [k] validates one by one when
    it is given [v]. *)
Definition offered (k : skind) (coerce : bool) (v : val) (items : list val) : Prop :=
  if coerce
  then match elements v with Some l => items = l | None => items = [v] end
  else of_kind k v items.
(** The distinct values of [xs]. *)
Definition distinct_of (xs s : list val) : Prop :=
  ForallOrdPairs (fun x y => py_eq x y = false) s /\
  (forall x, In x s -> In x xs) /\ (forall x, In x xs -> exists y, In y s /\ (y = x \/ py_eq y x = true)).
Definition holds (k : skind) (items : list val) (v : val) : Prop :=
  match k with
  | KTuple => v = VTuple items
  | KList => v = VList items
  | KSet => exists s, v = VSet s /\ distinct_of items s
  end.
(** [d] is the dictionary made from the entries [ps] in order: keys are distinct,
    keys and values come from [ps], every key of [ps] has an entry, nothing is lost
    or reordered if the keys of [ps] are distinct, and otherwise the last entry wins. *)
Definition distinct_keys (d : list (val * val)) : Prop :=
  ForallOrdPairs (fun a b : val * val => py_eq (fst a) (fst b) = false) d.
Definition dict_from (ps d : list (val * val)) : Prop :=
  distinct_keys d /\
  (forall k v, In (k, v) d -> In k (map fst ps) /\ In v (map snd ps)) /\
  (forall k, In k (map fst ps) -> exists k', In k' (map fst d) /\ (k' = k \/ py_eq k' k = true)) /\
  (distinct_keys ps -> d = ps) /\
  (forall before k v, ps = before ++ [(k, v)] -> exists k', In (k', v) d /\ (k' = k \/ py_eq k' k = true)).
(** What iterating over a value gives. *)
Definition iterates (v : val) (l : list val) : Prop :=
  match v with
  | VTuple l' | VList l' | VSet l' => l = l'
  | VDict d => l = map fst d
  | VStr s => l = map (fun c => VStr (String c "")) (chars s)
  | _ => False
  end.
(** The value is an iterable of these pairs, and their keys are hashable. *)
Definition gives_pairs (v : val) (ps : list (val * val)) : Prop :=
  exists l, iterates v l /\ Forall2 (fun x p => iterates x [fst p; snd p]) l ps /\ Forall (fun p => hashable (fst p) = true) ps.
(** One dictionary entry: the key, then the value, is accepted with these results. *)
Definition entry_accepted (E : env) (C : ctable) (rec : call -> M val) (kp vp : ptype) (io : option loc) (name : string)
    (kx : val * val) (w : world) (ky : val * val) (w' : world) : Prop :=
  exists w1, p_validate E C rec kp io name (fst kx) w = (Ok (fst ky), w1) /\
    p_validate E C rec vp io name (snd kx) w1 = (Ok (snd ky), w') /\ hashable (fst ky) = true.

(** Types without Unions whose leaves do not undo what they did (BasicSpec.v). *)
Fixpoint coherent_type (p : ptype) : Prop :=
  match p with
  | PLeaf t => coherent t
  | PSeq _ q _ _ _ => coherent_type q
  | PDict kp vp _ => coherent_type kp /\ coherent_type vp
  | PUnion _ _ => False
  | PInst _ => True
  end.
(** The objects of [w] exist in [w'], with the same classes. *)
Definition still_there (w w' : world) : Prop :=
  forall l i, nth_error (w_heap w) l = Some i -> exists i', nth_error (w_heap w') l = Some i' /\ i_cls i' = i_cls i.
(** Nothing but the clock differs. *)
Definition untouched (w w' : world) : Prop :=
  w_heap w' = w_heap w /\ w_trace w' = w_trace w /\ w_quar w' = w_quar w /\ w_links w' = w_links w.

(** Every stored value of such a type is accepted as it is. *)
Definition values_accepted (E : env) (C : ctable) (U : ucode) (w : world) : Prop :=
  forall l name d v, declares C w l name d -> stored w l name = Some v -> coherent_type (decl_type d) ->
  forall n, exists w', p_validate E C (exec E C U n) (decl_type d) (Some l) name v w = (Ok v, w') /\ untouched w w'.

(** [f] rejects, [w'] is the state afterwards. *)
Definition rejects {A} (m : M A) (w w' : world) : Prop :=
  exists e, m w = (Exc e, w') /\ is_generic e = true.

(** * Construction *)
(** A result the constructor collects and carries on. *)
Definition collectable (r : res val) : Prop := match r with Ok _ => True | Exc e => is_generic e = true end.
Section Construct.
  Variable E : env.
  Variable C : ctable.
  Variable U : ucode.

  (** A class-level default takes precedence over the property's own. *)
  Definition chosen_default (c : cls) (name : string) (d : pdecl) : dflt :=
    match dget (c_defaults c) name with Some x => x | None => pd_default d end.
  Definition evaluates (n : nat) (x : dflt) (w : world) (v : val) (w' : world) : Prop :=
    match x with
    | DUndef => v = VUndef /\ w' = w
    | DVal y => v = y /\ w' = w
    | DCall cb => run_prog E C U n (u_default U cb) w = (Ok v, w')
    end.
  (** [v] passes the property's validation, giving [v0]; undefined is not validated. *)
  Definition validated (n : nat) (p : ptype) (l : loc) (name : string) (v : val) (w : world) (v0 : val) (w' : world) : Prop :=
    if is_undef v then v0 = v /\ w' = w
    else p_validate E C (exec E C U n) p (Some l) name v w = (Ok v0, w').

  (** Property [name] of instance [l] gets its default, silently: between [w]
      and [w'] the default is evaluated and validated and written once. *)
  Definition gets_default (n : nat) (c : cls) (l : loc) (nd : string * pdecl) (w : world) (v0 : val) (w' : world) : Prop :=
    let (name, d) := nd in
    exists v wa wb new sid,
      evaluates n (chosen_default c name d) w v wa /\ validated n (pd_type d) l name v wa v0 wb /\
      since wb w' new /\ of_sid sid new = [EWrite sid l name v0].

  (** A property that is not a [Property] gets its initial value: nothing if the
      default is undefined, otherwise the validated default. *)
  Definition gets_initial (n : nat) (c : cls) (l : loc) (nd : string * pdecl) (w : world) (o : option val) (w' : world) : Prop :=
    let (name, d) := nd in
    match pd_kind d, chosen_default c name d with
    | KProp, _ | _, DUndef | _, DVal VUndef => o = None /\ w' = w
    | _, x => exists v wa v0 wb,
        evaluates n x w v wa /\
        p_validate E C (exec E C U n) (match pd_kind d with KRenamed _ => PLeaf LfAny | _ => pd_type d end)
                   (Some l) name v wa = (Ok v0, wb) /\
        o = Some v0 /\ w' = w_upd l (fun i => i_setback (dset (i_back i) name v0) i) wb
    end.
  Definition is_property (nd : string * pdecl) : bool :=
    match pd_kind (snd nd) with KProp => true | _ => false end.
  (** [wa] is [w] with one new instance [l] of class [cid]. *)
  Definition born (cid : nat) (w : world) (l : loc) (wa : world) : Prop :=
    l = length (w_heap w) /\
    exists ls, wa = W (w_heap w ++ [Inst cid [] ls None false false []]) (w_quar w) (w_links w) (w_trace w) (w_clock w).

  (** A keyword the constructor accepts. *)
  Definition assignable (c : cls) (w : world) (l : loc) (key : string) : Prop :=
    match dget (c_props c) key with
    | Some d => forall g s x, pd_kind d <> KDynamic g s x
    | None => dhas (c_attrs c) key = true \/ exists i, nth_error (w_heap w) l = Some i /\ dhas (i_attrs i) key = true
    end.
  (** One keyword: it is acceptable and [setattr] is tried, with result [r]. *)
  Definition attempt (n : nat) (c : cls) (l : loc) (kv : string * val) (w : world) (r : res val) (w' : world) : Prop :=
    assignable c w l (fst kv) /\ exec E C U (S n) (COp (OSet l (fst kv) (snd kv))) w = (r, w').
  (** All keywords are tried in order; [rs] are the results. *)
  Definition all_tried (n : nat) (c : cls) (l : loc) (kw : list (string * val)) (w : world) (rs : list (res val)) (w' : world) : Prop :=
    each (attempt n c l) kw w rs w' /\ Forall collectable rs.
End Construct.
(** [w] with the validation flag of [l] raised: errors are reported to the hook
    only once, at the end. *)
Definition flagged (l : loc) (w : world) : world := w_upd l (i_setv (Some true)) w.

(** At most one event of [new] writes property [name] of [l]. *)
Definition writes_once (l : loc) (name : string) (new : list event) : Prop :=
  forall a e1 b e2 c, new = a ++ e1 :: b ++ e2 :: c -> is_write l name e1 -> is_write l name e2 -> False.

(** The error tuples of all ValidationErrors, in order. *)
Fixpoint all_tuples (rs : list (res val)) : list etuple :=
  match rs with
  | [] => []
  | Exc (ExValidation ts) :: r => ts ++ all_tuples r
  | _ :: r => all_tuples r
  end.
(** The first other error. *)
Fixpoint first_other (rs : list (res val)) : option exn :=
  match rs with
  | [] => None
  | Exc (ExValidation _) :: r => first_other r
  | Exc e :: _ => Some e
  | Ok _ :: r => first_other r
  end.

(** * Renamed properties *)
(** No instance holds a value under a renamed property's own name. *)
Definition old_names_empty (C : ctable) (w : world) : Prop :=
  forall l name d new_name, declares C w l name d -> pd_kind d = KRenamed new_name -> stored w l name = None.
(** No class gives a default to a renamed property. *)
Definition renamed_no_default (C : ctable) : Prop :=
  forall cid c name d new_name, nth_error (ct_cls C) cid = Some c -> dget (c_props c) name = Some d ->
    pd_kind d = KRenamed new_name -> chosen_default c name d = DUndef.

(** * Deserialization *)
(** An entry of the input that deserialization of class [c] looks at. *)
Definition known_entry (c : cls) (e : val * val) : bool :=
  match fst e with
  | VStr k => (match dget (c_props c) k with Some _ => true | None => false end) || String.eqb k "__class__"
  | _ => false
  end.
(** The class deserialization builds for the input [d], if it is permitted. *)
Definition names_class (c : cls) (d : list (val * val)) : Prop :=
  match vd_get d (VStr "__class__") with
  | None => True
  | Some nm => truthy nm = false \/ py_eq nm (VStr (c_name c)) = true
  end.
Definition names_registered (C : ctable) (d : list (val * val)) (k : nat) : Prop :=
  exists s, vd_get d (VStr "__class__") = Some (VStr s) /\ dget (ct_reg C) s = Some k.
