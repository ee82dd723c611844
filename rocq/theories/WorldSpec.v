(** Specification vocabulary for the object layer.  It uses the state and
    declaration types of World.v; the two relations about one call of user code
    or of one comparison, near the end, use its interpreter. *)
From Verif Require Import World NumSpec BasicSpec.
Local Open Scope string_scope.
Local Open Scope list_scope.
Local Open Scope nat_scope.

(** Python class dictionaries have one entry per name. *)
Definition wf_ctab (C : ctable) : Prop :=
  forall cid c, nth_error (ct_cls C) cid = Some c -> NoDup (dkeys (c_props c)).
(** Every class is a subclass of itself. *)
Definition wf_mro (C : ctable) : Prop :=
  forall cid c, nth_error (ct_cls C) cid = Some c -> In cid (c_mro c).

(** Instance [l] of [w] has class [c]. *)
Definition has_class (C : ctable) (w : world) (l : loc) (c : cls) : Prop :=
  exists i, nth_error (w_heap w) l = Some i /\ nth_error (ct_cls C) (i_cls i) = Some c.
(** Property [name] of instance [l] is declared as [d]. *)
Definition declares (C : ctable) (w : world) (l : loc) (name : string) (d : pdecl) : Prop :=
  exists c, has_class C w l c /\ dget (c_props c) name = Some d.
(** The stored value of a property, if it is set. *)
Definition stored (w : world) (l : loc) (name : string) : option val :=
  match nth_error (w_heap w) l with Some i => dget (i_back i) name | None => None end.

(** * What values a property type contains *)
Definition leaf_typed (t : leaf) (v : val) : Prop :=
  match t with
  | LfAny => True
  | LfBool _ => exists b, v = VBool b
  | LfInt _ mn mx => exists z, v = VInt z /\
      (valid_opt mn -> valid_opt mx -> within mn mx (NZ z))
  | LfFloat _ mn mx => exists f, v = VFloat f /\
      (valid_float f = true -> valid_opt mn -> valid_opt mx -> within mn mx (NF f))
  | LfComplex _ => exists a b, v = VComplex a b
  | LfString o => exists s0 t, (forall r, so_regex o = Some r -> r s0 = true) /\
        stripped (chars (so_strip o)) (chars s0) t /\
        v = VStr (unchars (match so_case o with
                           | CUpper => map ch_upper t | CLower => map ch_lower t | CNone => t end))
  | LfChoice _ ch => exists k aliases, v = VStr k /\ In (k, aliases) ch
  | LfColor => exists a b c, v = VTuple [a; b; c] /\ Forall (int_in 0 255) [a; b; c]
  | LfDate => exists d, v = VDate d
  | LfUuid => exists n, v = VUuid n
  end.

(** [classes] gives the class of every instance. *)
Fixpoint has_type (C : ctable) (classes : list nat) (p : ptype) (v : val) : Prop :=
  match p with
  | PLeaf t => leaf_typed t v
  | PSeq k q _ _ _ =>
      exists l, Forall (has_type C classes q) l /\
      match k with
      | KTuple => v = VTuple l
      | KList => v = VList l
      | KSet => v = VSet l /\ ForallOrdPairs (fun x y => py_eq x y = false) l
      end
  | PDict kp vp _ =>
      exists d, v = VDict d /\
      Forall (fun kx => has_type C classes kp (fst kx) /\ has_type C classes vp (snd kx)) d
  | PUnion _ ps => (fix any (ps : list ptype) : Prop :=
                      match ps with
                      | [] => False
                      | q :: r => has_type C classes q v \/ any r
                      end) ps
  | PInst cid => exists l k c, v = VInst l /\ nth_error classes l = Some k /\
                               nth_error (ct_cls C) k = Some c /\ In cid (c_mro c)
  end.

(** Every set property of every instance holds a value of its declared type. *)
Definition well_typed (C : ctable) (w : world) : Prop :=
  forall l name d v, declares C w l name d -> (forall new_name, pd_kind d <> KRenamed new_name) ->
    stored w l name = Some v -> has_type C (map i_cls (w_heap w)) (pd_type d) v.

(** [@validator] callbacks leave change['value'] alone (but may do anything
    else, and may reject). *)
Fixpoint returns_only (Q : val -> Prop) (p : prog) : Prop :=
  match p with
  | Ret v => Q v
  | Raise _ => True
  | Do _ k => forall r, returns_only Q (k r)
  | With _ _ k => forall r, returns_only Q (k r)
  end.
(** Continue with the outcome of the block. *)
Definition finish (r : res val) : prog := match r with Ok v => Ret v | Exc e => Raise e end.
Definition validators_keep (U : ucode) : Prop :=
  forall cb l n p v, returns_only (fun v' => v' = v) (u_listen U cb l n p v MValidate).

(** * Traces *)
(** Events since [w]. *)
Definition since (w w' : world) (new : list event) : Prop := w_trace w' = new ++ w_trace w.
(** The modes a with-block on listeners_disabled(types) suppresses. *)
Definition disables (types : option (list lmode)) (m : lmode) : Prop :=
  match types with None => True | Some ts => In m ts end.
Definition calls_mode (m : lmode) (e : event) : Prop :=
  match e with ECall _ _ _ m' _ _ _ => m' = m | _ => False end.
Definition is_call (e : event) : Prop := match e with ECall _ _ _ _ _ _ _ => True | _ => False end.

(** The stored value after replaying the writes of [new] (newest first). *)
Fixpoint replay (new : list event) (l : loc) (name : string) (old : option val) : option val :=
  match new with
  | [] => old
  | EWrite _ l' name' v :: r =>
      if Nat.eqb l l' && String.eqb name name'
      then (if is_undef v then None else Some v)
      else replay r l name old
  | _ :: r => replay r l name old
  end.
Definition is_write (l : loc) (name : string) (e : event) : Prop :=
  exists sid v, e = EWrite sid l name v.

(** Events of one notification number, oldest first. *)
Definition has_sid (sid : nat) (e : event) : bool :=
  match e with
  | ECall s _ _ _ _ _ _ | EWrite s _ _ _ => Nat.eqb s sid
  | EHook _ _ => false
  end.
Definition of_sid (sid : nat) (new : list event) : list event := filter (has_sid sid) (rev new).

(** The listeners of an instance for a name and mode, in registration order. *)
Definition registered (w : world) (l : loc) (name : string) (m : lmode) : list lfunc :=
  match nth_error (w_heap w) l with
  | Some i => map l_func (filter (fun x => String.eqb (l_name x) name && lmode_eqb (l_mode x) m) (i_lst i))
  | None => []
  end.

Definition prefix {A} (a b : list A) : Prop := exists c, b = a ++ c.

(** The calls of the listeners [fs] in order: each gets the previous value,
    the name, the mode and the value left by the one before it ([left_by]). *)
Inductive calls (left_by : lfunc -> val -> val -> Prop) (sid : nat) (l : loc) (name : string) (m : lmode) (prev : val)
  : val -> list lfunc -> val -> list event -> Prop :=
| calls_nil v : calls left_by sid l name m prev v [] v []
| calls_cons v f v1 fs v' evs :
    left_by f v v1 -> calls left_by sid l name m prev v1 fs v' evs ->
    calls left_by sid l name m prev v (f :: fs) v' (ECall sid l name m f prev v :: evs).

(** A property type that mentions no HasProperties class. *)
Fixpoint inst_free (p : ptype) : Prop :=
  match p with
  | PLeaf _ => True
  | PSeq _ q _ _ _ => inst_free q
  | PDict k v _ => inst_free k /\ inst_free v
  | PUnion _ ps => (fix all (ps : list ptype) : Prop :=
                      match ps with [] => True | q :: r => inst_free q /\ all r end) ps
  | PInst _ => False
  end.
Definition is_hook (e : event) : Prop := match e with EHook _ _ => True | _ => False end.

(** * One assignment *)

(** The listeners [fs] called in mode [m] between [w] and [w']: none if the
    mode is disabled, otherwise all those registered at the start, and
    possibly ones that were registered meanwhile. *)
Definition notified (w w' : world) (l : loc) (name : string) (m : lmode) (fs : list lfunc) : Prop :=
  (In m (w_quar w) -> fs = []) /\
  (~ In m (w_quar w) -> prefix (registered w l name m) fs /\ prefix fs (registered w' l name m)).

(** Does the stored value count as changed? [eq] is the property's equality. *)
Definition changes (eq : val -> val -> bool -> Prop) (prev v : val) (b : bool) : Prop :=
  match is_undef prev, is_undef v with
  | true, true => b = false
  | true, false | false, true => b = true
  | false, false => eq prev v (negb b)
  end.

Definition unset_or (o : option val) : val := match o with Some v => v | None => VUndef end.
Definition when_set (v : val) : option val := if is_undef v then None else Some v.

(** What happens when the (validated) value [v0] is assigned to property
    [name] of instance [l] in state [w] with final state [w']: [new] are the
    events, [sid] the number of this notification, [v1] the value that is
    stored, [changed] tells whether it counts as a change, and [fv], [fc], [fs]
    are the validators, change observers and set observers that are called. *)
Record assignment (left_by : lmode -> val -> lfunc -> val -> val -> Prop) (eq : val -> val -> bool -> Prop)
    (l : loc) (name : string) (v0 : val) (w w' : world)
    (new : list event) (sid : nat) (v1 : val) (changed : bool) (fv fc fs : list lfunc) : Prop := {
  as_since : since w w' new;
  as_events : exists ev ec es v2 v3,
    let prev := unset_or (stored w l name) in
    of_sid sid new = ev ++ [EWrite sid l name v1] ++ ec ++ es /\
    calls (left_by MValidate prev) sid l name MValidate prev v0 fv v1 ev /\
    calls (left_by MChange prev) sid l name MChange prev v1 fc v2 ec /\
    calls (left_by MSet prev) sid l name MSet prev v2 fs v3 es;
  as_changed : changes eq (unset_or (stored w l name)) v1 changed;
  as_validators : notified w w' l name MValidate fv;
  as_change : if changed then notified w w' l name MChange fc else fc = [];
  as_set : notified w w' l name MSet fs
}.

(** Only [_error_hook] calls and ghost clock ticks between [w] and [w']. *)
Record hooks_only (w w' : world) : Prop := {
  ho_heap : w_heap w' = w_heap w;
  ho_quar : w_quar w' = w_quar w;
  ho_links : w_links w' = w_links w;
  ho_clock : w_clock w <= w_clock w';
  ho_trace : exists hs, since w w' hs /\ Forall is_hook hs
}.

(** [f] called with value [v] left [v1] in change['value']. *)
Definition left_by (E : env) (C : ctable) (U : ucode) (l : loc) (name : string) (m : lmode) (prev : val)
    (f : lfunc) (v v1 : val) : Prop :=
  match f with
  | LLink _ => v1 = v
  | LCb cb => exists n wa wb, run_prog E C U n (u_listen U cb l name prev v m) wa = (Ok v1, wb)
  end.
(** The property's own equal method answered [r]. *)
Definition own_equal (E : env) (C : ctable) (U : ucode) (p : ptype) (a b : val) (r : bool) : Prop :=
  exists n wa wb, p_equal (exec E C U n) p a b wa = (Ok r, wb).

Definition call_of (sid : nat) (l : loc) (name : string) (m : lmode) (prev : val) (e : event) : Prop :=
  exists f v, e = ECall sid l name m f prev v.
Definition observer_call (sid : nat) (l : loc) (name : string) (prev : val) (e : event) : Prop :=
  call_of sid l name MChange prev e \/ call_of sid l name MSet prev e.
