(** Specification vocabulary for the parts in extras/, using their state types
    and, for the freshness of uids, the lookup of a uid after a history. *)
From Verif Require Import PyBase Singles Uid.
Local Open Scope list_scope.

(** * Singletons *)

(** [d] is a serialized singleton whose identifying name is [name]: its
    '_singleton_id', or else its 'name'. *)
Definition names (s : sstate) (d : nat) (name : ident) : Prop :=
  exists v, nth_error (s_dicts s) d = Some v /\
    match sd_id v with Some i => i = name | None => sd_name v = Some name end.

(** user code that uses no singletons *)
Definition quiet (p : sprog) : Prop := match p with SDo _ _ => False | _ => True end.

(** The state before anything was constructed, with some dictionaries *)
Definition sstart (ds : list sdict) : sstate := SS [] ds [] [].

(** * Uids *)

(** the uid of an instance *)
Definition uid_is (s : ustate) (l : nat) (u : string) : Prop := nth_error (us_uids s) l = Some (Some u).

(** Listeners were enabled throughout. *)
Definition enabled (o : uop) : Prop := match o with UNew e _ _ _ => e = true | USet e _ _ => e = true end.

(** Every default uid was not registered when it was drawn (uuid4). *)
Definition fresh_defaults (ops : list uop) : Prop :=
  forall pre e d kw f post, ops = pre ++ UNew e d kw f :: post -> load_uid (fst (uhistory pre)) d = None.

(** * Graphs of instances *)

(** the instances a value refers to, in order *)
Fixpoint vrefs (v : uval) : list nat :=
  match v with UData _ => [] | URef l => [l] | UList xs => flat_map vrefs xs end.
Definition node_refs (x : unode) : list nat := flat_map (fun f => vrefs (snd f)) (un_fields x).
Definition refs_at (h : list unode) (l : nat) : list nat :=
  match nth_error h l with Some x => node_refs x | None => [] end.

Inductive reach (h : list unode) (l : nat) : nat -> Prop :=
| reach_refl : reach h l l
| reach_step m k : reach h l m -> In k (refs_at h m) -> reach h l k.

(** reachable without passing [c] *)
Inductive reach_past (h : list unode) (l c : nat) : nat -> Prop :=
| past_refl : l <> c -> reach_past h l c l
| past_step m k : reach_past h l c m -> In k (refs_at h m) -> k <> c -> reach_past h l c k.

(** every reachable instance exists *)
Definition graph (h : list unode) (l : nat) : Prop := forall m, reach h l m -> m < length h.
(** the reachable instances have distinct uids other than '__root__' *)
Definition uid_at (h : list unode) (l : nat) : string :=
  match nth_error h l with Some x => un_uid x | None => EmptyString end.
Definition distinct_uids (h : list unode) (l : nat) : Prop :=
  (forall a b, reach h l a -> reach h l b -> uid_at h a = uid_at h b -> a = b) /\
  (forall a, reach h l a -> uid_at h a <> "__root__"%string).

(** a value with its references replaced: by uids, by other instances *)
Fixpoint vjson (uid : nat -> string) (v : uval) : jval :=
  match v with UData d => JData d | URef l => JKey (uid l) | UList xs => JList (map (vjson uid) xs) end.
Fixpoint vmap (f : nat -> nat) (v : uval) : uval :=
  match v with UData d => UData d | URef l => URef (f l) | UList xs => UList (map (vmap f) xs) end.
(** the dictionary of an instance, and its image under a renaming of instances *)
Definition node_json (uid : nat -> string) (x : unode) : jnode :=
  JN (un_uid x) (un_cls x) (map (fun f => (fst f, vjson uid (snd f))) (un_fields x)).
Definition node_map (f : nat -> nat) (x : unode) : unode :=
  UN (un_uid x) (un_cls x) (map (fun g => (fst g, vmap f (snd g))) (un_fields x)).
