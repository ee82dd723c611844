(** Specifications for the dictionary behind StringChoice.choices. *)
From Verif Require Import Choices BasicSpec OptionsSpec.
Local Open Scope string_scope.
Local Open Scope list_scope.
Local Open Scope nat_scope.

(** The dictionary goes from the choices to the lists of their synonyms. *)
Definition holds (c : content) (t : table) : Prop :=
  Forall2 (fun kv e => fst kv = VStr (fst e) /\ snd kv = VList (map VStr (snd e))) c t.
(** [y] is a list: of the items of the collection [x], or of [x]. *)
Definition made_list (x y : val) : Prop :=
  (exists l, collection x l /\ y = VList l) \/ ((forall l, ~ collection x l) /\ y = VList [x]).
(** The same keys in the same order, lists as values *)
Definition rewritten (c c' : content) : Prop :=
  Forall2 (fun kv kv' => fst kv' = fst kv /\ made_list (snd kv) (snd kv')) c c'.
(** The dictionary [d] of the property [p] has the choices [t], without collisions. *)
Definition sound (s : cstate) (p : nat) (cs : bool) (d : nat) (t : table) : Prop :=
  nth_error (cs_props s) p = Some (CP cs d) /\ no_collisions cs t /\
  exists c, nth_error (cs_dicts s) d = Some c /\ holds c t.
(** Nothing is assigned to options of the property, nor in the dictionary. *)
Definition leaves_alone (d p : nat) (a : cact) : Prop :=
  match a with
  | ASetItem d' _ _ | ADelItem d' _ => d' <> d
  | ASetChoices p' _ | ASetCase p' _ => p' <> p
  | _ => True
  end.
(** The items given to [choices], as a value of Options.v *)
Definition given (s : cstate) (v : cval) (t : table) : Prop :=
  match v with
  | CvSeq l => gives_table (VList l) t
  | CvDict d => exists c, nth_error (cs_dicts s) d = Some c /\ gives_table (VDict c) t
  | CvOther => False
  end.
