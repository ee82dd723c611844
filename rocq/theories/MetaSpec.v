(** Specification vocabulary for class creation. *)
From Verif Require Import World WorldSpec AccessSpec Meta.
Local Open Scope string_scope.
Local Open Scope list_scope.
Local Open Scope nat_scope.

Definition class_at (T : list mcls) (k : nat) (c : mcls) : Prop := nth_error T k = Some c.

(** What a class statement can contain: a dictionary without duplicate keys,
    distinct existing bases. *)
Definition wf_body (T : list mcls) (b : cbody) : Prop :=
  NoDup (dkeys (b_dict b)) /\ NoDup (b_bases b) /\ Forall (fun k => k < length T) (b_bases b) /\
  match b_defaults b with Some d => NoDup (dkeys d) | None => True end.
(** The class tables that class statements can produce. *)
Inductive built (E : env) (U : ucode) (reg : dict nat) : list mcls -> Prop :=
| built_nil : built E U reg []
| built_class T b n w c w' : built E U reg T -> wf_body T b ->
    create E U reg n T b w = (Ok c, w') -> built E U reg (T ++ [c]).

(** Attribute lookup: the first class of the MRO whose dictionary has the key. *)
Fixpoint lookup (T : list mcls) (mro : list nat) (key : string) : option (nat * member) :=
  match mro with
  | [] => None
  | k :: r => match nth_error T k with
              | Some c => match dget (b_dict (m_body c)) key with
                          | Some m => Some (k, m)
                          | None => lookup T r key
                          end
              | None => lookup T r key
              end
  end.
(** The class that lookup finds is a HasProperties class. *)
Definition found_in (T : list mcls) (mro : list nat) (key : string) (m : member) : Prop :=
  exists k c, lookup T mro key = Some (k, m) /\ class_at T k c /\ m_meta c = true.

(** The list without all but the last occurrence of each element. *)
Fixpoint keep_last (l : list nat) : list nat :=
  match l with
  | [] => []
  | x :: r => if mem_nat x r then keep_last r else x :: keep_last r
  end.
Definition metas (T : list mcls) (l : list nat) : list nat :=
  filter (fun k => match nth_error T k with Some c => m_meta c | None => false end) l.
Definition mro_at (T : list mcls) (k : nat) : list nat :=
  match nth_error T k with Some c => m_mro c | None => [] end.
(** The MROs of the bases written one after the other, keeping last occurrences,
    give the HasProperties classes in MRO order. *)
Definition in_order (T : list mcls) (c : mcls) : Prop :=
  metas T (keep_last (concat (map (mro_at T) (b_bases (m_body c))))) = metas T (tl (m_mro c)).
(** No other attribute comes before a property that one of the bases has. *)
Definition none_hidden {A} (attr : mcls -> dict A) (wrap : A -> member) (T : list mcls) (c : mcls) : Prop :=
  forall b cb key a, In b (b_bases (m_body c)) -> class_at T b cb -> dget (attr cb) key = Some a ->
    exists a', found_in T (tl (m_mro c)) key (wrap a').
(** Every class has at most one base. *)
Definition single_inheritance (T : list mcls) : Prop :=
  forall k c, class_at T k c -> length (b_bases (m_body c)) <= 1.

(** The default that the class bodies along the MRO give for a property. *)
Fixpoint body_default (T : list mcls) (mro : list nat) (key : string) : option dflt :=
  match mro with
  | [] => None
  | k :: r => match nth_error T k with
              | Some c => match b_defaults (m_body c) with
                          | Some d => match dget d key with Some x => Some x | None => body_default T r key end
                          | None => body_default T r key
                          end
              | None => body_default T r key
              end
  end.
(** The first class of the MRO whose own table of defaults has the key decides. *)
Fixpoint table_default (T : list mcls) (mro : list nat) (key : string) : option dflt :=
  match mro with
  | [] => None
  | k :: r => match nth_error T k with
              | Some c => match m_def c with
                          | Some d => match dget d key with Some x => Some x | None => table_default T r key end
                          | None => table_default T r key
                          end
              | None => table_default T r key
              end
  end.

(** No class that is not a HasProperties class has an attribute [_defaults]. *)
Definition plain_mixins (T : list mcls) : Prop :=
  forall k c, class_at T k c -> m_meta c = false -> b_defaults (m_body c) = None.
(** The defaults of a class with body [b] whose ancestors are [mro]: the own
    ones, then the tables of the ancestors in MRO order. *)
Definition defaults_are (T : list mcls) (b : cbody) (mro : list nat) (defs : dict dflt) : Prop :=
  forall key, dget defs key =
    match b_defaults b with
    | Some d => match dget d key with Some x => Some x | None => table_default T mro key end
    | None => table_default T mro key
    end.
Section Check.
  Variable E : env.
  Variable C : ctable.
  Variable U : ucode.
  (** A default names a property and its value is undefined or valid. *)
  Definition default_accepted (n : nat) (props : dict pdecl) (kx : string * dflt) (w : world) (v : val) (w' : world) : Prop :=
    exists d wa, dget props (fst kx) = Some d /\ evaluates E C U n (snd kx) w v wa /\
      (v = VUndef /\ w' = wa \/
       is_undef v = false /\ exists v0, p_validate E C (exec E C U n) (decl_type d) None (fst kx) v wa = (Ok v0, w')).
  (** A default names no property, or computing or validating it raises. *)
  Definition default_fails (n : nat) (props : dict pdecl) (kx : string * dflt) (w : world) (e : exn) (w' : world) : Prop :=
    dget props (fst kx) = None /\ e = ExAttr /\ w' = w \/
    exists d e0, dget props (fst kx) = Some d /\ e = (if is_value_error e0 then ExAttr else e0) /\
      ((exists cb, snd kx = DCall cb /\ run_prog E C U n (u_default U cb) w = (Exc e0, w')) \/
       exists v wa, evaluates E C U n (snd kx) w v wa /\ is_undef v = false /\
         p_validate E C (exec E C U n) (decl_type d) None (fst kx) v wa = (Exc e0, w')).
End Check.

(** The name is a property of the class with this body: defined in the body, or
    not mentioned there and a property of one of the bases. *)
Definition names_property (T : list mcls) (b : cbody) (key : string) : Prop :=
  (exists d, dget (b_dict b) key = Some (MProp d)) \/
  dget (b_dict b) key = None /\ exists k c, In k (b_bases b) /\ class_at T k c /\ In key (dkeys (m_props c)).
(** the names an observer of the class listens to *)
Definition observes (c : mcls) (o : obsdecl) (name : string) : Prop :=
  match od_names o with Some ns => In name ns | None => In name (dkeys (m_props c)) end.
