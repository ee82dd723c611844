(** Vocabulary for the theorems about links. *)
From Verif Require Import World WorldSpec.
Local Open Scope string_scope.
Local Open Scope list_scope.
Local Open Scope nat_scope.

(** An (instance, property name) pair, as links take them. *)
Definition item : Type := (loc * string)%type.
Definition value_of (w : world) (a : item) : option val := stored w (fst a) (snd a).
(** [a] is a settable property of type [p], with no HasProperties class in [p]. *)
Definition settable (C : ctable) (w : world) (a : item) (p : ptype) : Prop :=
  inst_free p /\ exists d, declares C w (fst a) (snd a) d /\ pd_kind d = KProp /\ pd_type d = p.
(** [o] assigns or deletes [a]. *)
Definition writes (o : op) (a : item) : Prop :=
  o = ODel (fst a) (snd a) \/ exists v, o = OSet (fst a) (snd a) v.

(** User code that returns or raises, without touching any instance. *)
Definition computes (p : prog) : Prop :=
  match p with Ret _ => True | Raise e => e <> ExRecursion | _ => False end.
(** All listeners are links, or do not touch any instance; links are between
    settable properties, and their transforms do not touch any instance. *)
Definition only_links (C : ctable) (U : ucode) (w : world) : Prop :=
  (forall l i x, nth_error (w_heap w) l = Some i -> In x (i_lst i) ->
     match l_func x with LLink _ => True | LCb cb => forall l n p v m, computes (u_listen U cb l n p v m) end) /\
  (forall k d, nth_error (w_links w) k = Some d ->
     (exists p, settable C w (d_src d) p) /\ (exists p, settable C w (d_tgt d) p) /\
     match d_trans d with Some t => forall v, computes (u_trans U t v) | None => True end).

(** Link [k], which is not unlinked, listens to [a]. *)
Definition listens (w : world) (k : nat) (d : dlink) (m : lmode) (a : item) : Prop :=
  nth_error (w_links w) k = Some d /\ d_unlinked d = false /\ In (LLink k) (registered w (fst a) (snd a) m).
(** Such a link has target [b]. *)
Definition feeds (w : world) (a b : item) : Prop := exists k d m, listens w k d m a /\ d_tgt d = b.
(** There is a path of such links. *)
Inductive reaches (w : world) : item -> item -> Prop :=
| reach_here a : reaches w a a
| reach_next a b c : feeds w a b -> reaches w b c -> reaches w a c.

(** Same classes, listeners, links and disabled modes. *)
Definition same_links (w w' : world) : Prop :=
  map (fun i => (i_cls i, i_lst i)) (w_heap w') = map (fun i => (i_cls i, i_lst i)) (w_heap w) /\
  w_links w' = w_links w /\ w_quar w' = w_quar w.

(** A call ends, with this outcome and state however much stack it is given
    beyond some depth. *)
Definition halts {A} (m : nat -> M A) (w : world) : Prop :=
  exists depth r w', r <> Exc ExRecursion /\ forall n, depth <= n -> m n w = (r, w').

(** Validation by a property of type [p] turns [v] into [v']. *)
Definition validated (E : env) (C : ctable) (p : ptype) (v v' : val) : Prop :=
  forall rec io name w, exists w', p_validate E C rec p io name v w = (Ok v', w').

(** A property of type [p] compares [u] with [v], with result [b]. *)
Definition compares (p : ptype) (u v : val) (b : bool) : Prop :=
  forall rec w, p_equal rec p u v w = (Ok b, w).
(** [a] does not hold [v], and assigning [v] to it counts as a change. *)
Definition differs (C : ctable) (w : world) (a : item) (v : val) : Prop :=
  match value_of w a with
  | Some u => u <> v /\ (u = VUndef \/ exists p, settable C w a p /\ compares p u v false)
  | None => True
  end.
(** Link [d] turns the value [v] of its source into [v'] at its target. *)
Definition carries (E : env) (C : ctable) (U : ucode) (w : world) (d : dlink) (v v' : val) : Prop :=
  exists u q, match d_trans d with Some t => u_trans U t v = Ret u | None => u = v end /\
    u <> VUndef /\ settable C w (d_tgt d) q /\ validated E C q u v'.
(** The items [P] and everything linked from them can hold the values [f]:
    each link carries the value of its source to the value of its target, other
    listeners do not raise exceptions, there are none before the change, and
    the values can be compared with those held. *)
Record consistent (E : env) (C : ctable) (U : ucode) (w : world) (P : item -> Prop) (f : item -> val) : Prop := {
  co_item : forall a, P a -> f a <> VUndef /\ exists p, settable C w a p /\ (exists b, compares p (f a) (f a) b) /\
    forall u, value_of w a = Some u -> u <> VUndef -> exists b, compares p u (f a) b;
  co_before : forall a, P a -> registered w (fst a) (snd a) MValidate = [];
  co_call : forall a cb m prev v, P a -> In (LCb cb) (registered w (fst a) (snd a) m) ->
    exists v', u_listen U cb (fst a) (snd a) prev v m = Ret v';
  co_made : forall a k m, P a -> In (LLink k) (registered w (fst a) (snd a) m) -> exists d, nth_error (w_links w) k = Some d;
  co_link : forall a k d m, P a -> listens w k d m a ->
    d_src d = a /\ P (d_tgt d) /\ carries E C U w d (f a) (f (d_tgt d)) }.
(** A link that is not updating, in a mode that is not disabled, from [a] to [b]. *)
Definition drives (w : world) (m : lmode) (a b : item) : Prop :=
  exists k d, listens w k d m a /\ d_tgt d = b /\ d_updating d = false /\ ~ In m (w_quar w).
(** A path of such links from [a], along items whose value is to change. *)
Inductive spreads (C : ctable) (w : world) (f : item -> val) : item -> item -> Prop :=
| spread_here a : spreads C w f a a
| spread_next a b c m : differs C w a (f a) -> m <> MValidate -> drives w m a b -> spreads C w f b c -> spreads C w f a c.

(** A network of links at rest: each link listens to its source, and none is
    in the middle of an update. *)
Record network (C : ctable) (U : ucode) (w : world) : Prop := {
  nw_only : only_links C U w;
  nw_wired : forall a m k, In (LLink k) (registered w (fst a) (snd a) m) -> exists d, nth_error (w_links w) k = Some d /\ d_src d = a;
  nw_idle : forall k d, nth_error (w_links w) k = Some d -> d_updating d = false }.
(** Operations that keep it a network. *)
Inductive does (C : ctable) (U : ucode) (w : world) : op -> Prop :=
| does_write o a p : writes o a -> settable C w a p -> does C U w o
| does_observe l c names m cb : has_class C w l c -> (forall l n p v m, computes (u_listen U cb l n p v m)) ->
    does C U w (OObserve l (OD names m (LCb cb)))
| does_link s t p q now chg f : settable C w s p -> settable C w t q ->
    match f with Some x => forall v, computes (u_trans U x v) | None => True end -> does C U w (OLink s t now chg f)
| does_link_all items now chg : (forall a, In a items -> exists p, settable C w a p) -> does C U w (OLinkAll items now chg)
| does_unlink k : does C U w (OUnlink k)
| does_relink k : does C U w (ORelink k).
(** [w'] comes from [w] by such operations, each with some stack depth, and
    whatever their outcomes. *)
Inductive history (E : env) (C : ctable) (U : ucode) : world -> world -> Prop :=
| hist_none w : history E C U w w
| hist_some w o n w' : does C U w o -> history E C U (snd (exec E C U n (COp o) w)) w' -> history E C U w w'.

(** [a] names an attribute that its instance does not have. *)
Definition lacks (C : ctable) (w : world) (a : item) : Prop :=
  exists c i, nth_error (w_heap w) (fst a) = Some i /\ nth_error (ct_cls C) (i_cls i) = Some c /\
    dget (c_props c) (snd a) = None /\ dget (i_attrs i) (snd a) = None /\ dget (c_attrs c) (snd a) = None.
(** [a] is a settable property, of some type. *)
Definition linkable (C : ctable) (w : world) (a : item) : Prop := exists p, settable C w a p.
