(** Specification of documentation strings. *)
From Verif Require Import Docs.
From Verif Require Export MessagesSpec.
Local Open Scope list_scope.
Local Open Scope string_scope.
Local Open Scope nat_scope.

(** ** Lines *)
(** The classes linked in a text, in order *)
Definition links (l : list piece) : list (string * string) :=
  flat_map (fun p => match p with PLink c m => [(c, m)] | PText _ => [] end) l.
(** The types a property is made of, in order *)
Fixpoint types_of (p : sprop) : list (string * string) :=
  match p with
  | SClass c m | SInst c m | SPointer c m => [(c, m)]
  | STuple _ q | SDyn q => types_of q
  | SUnion ps => flat_map types_of ps
  | SRenamed => []
  end.
(** Containers inside each other, the outermost first *)
Definition nest (cis : list string) (p : sprop) : sprop := fold_right STuple p cis.

(** ** Orders *)
(** [getattr(base, attr)] is [x]; there is no such attribute *)
Definition has_attr {A} (T : list mcls) (own : nat -> option A) (b : nat) (x : A) : Prop :=
  exists pre k post, mro_of T b = (pre ++ k :: post)%list /\ own k = Some x /\ forall j, In j pre -> own j = None.
Definition lacks {A} (T : list mcls) (own : nat -> option A) (b : nat) : Prop := forall k, In k (mro_of T b) -> own k = None.
(** The first base with the attribute has [x] *)
Definition inherits {A} (T : list mcls) (own : nat -> option A) (bases : list nat) (x : A) : Prop :=
  exists pre b post, bases = (pre ++ b :: post)%list /\ has_attr T own b x /\ forall j, In j pre -> lacks T own j.
(** An order of exactly these names *)
Definition orders (o : oval) (names ns : list string) : Prop := o = OSeq (map OName ns) /\ Permutation ns names.
(** Names and integers in one order *)
Definition mixed (l : list oitem) : Prop := exists s z, In (OName s) l /\ In (OInt z) l.
(** No order in the dictionary of a class made before is mixed *)
Definition named (c_order : nat -> option oval) : Prop := forall k l, c_order k = Some (OSeq l) -> ~ mixed l.
(** The order documented for these names *)
Definition order_is (T : list mcls) (c_order : nat -> option oval) (bases : list nat) (own : option oval) (names order : list string) : Prop :=
  match own with
  | Some o => (o = ONone /\ order = names) \/ orders o names order
  | None => (exists o, inherits T c_order bases o /\ orders o names order) \/
            ((forall o ns, inherits T c_order bases o -> ~ orders o names ns) /\ order = names)
  end.
Definition private_is (T : list mcls) (c_private : nat -> option val) (bases : list nat) (own : option val) (b : bool) : Prop :=
  match own with
  | Some v => v = VBool b
  | None => inherits T c_private bases (VBool b) \/ ((forall v, ~ inherits T c_private bases v) /\ b = false)
  end.

(** ** Groups *)
Definition is_private (key : string) : Prop := exists r, key = String "_"%char r.
(** [l] is part of [order], in the same order *)
Inductive subseq : list string -> list string -> Prop :=
| ss_nil : subseq [] []
| ss_skip x l m : subseq l m -> subseq l (x :: m)
| ss_take x l m : subseq l m -> subseq (x :: l) (x :: m).
(** The names of [order] with [P], in order *)
Definition chosen (P : string -> Prop) (l order : list string) : Prop :=
  subseq l order /\ (NoDup order -> NoDup l) /\ forall k, In k l <-> In k order /\ P k.
Definition needed (props : dict pdecl) (k : string) : Prop :=
  ~ is_private k /\ exists d, dget props k = Some d /\ pd_kind d = KProp /\ pd_required d = true.
Definition optional (props : dict pdecl) (k : string) : Prop :=
  ~ is_private k /\ exists d, dget props k = Some d /\ pd_kind d = KProp /\ pd_required d = false.
Definition unsettable (props : dict pdecl) (k : string) : Prop :=
  ~ is_private k /\ exists d, dget props k = Some d /\ pd_kind d <> KProp.
(** A headline and a line for each name; nothing without names *)
Definition lists (line : string -> pdecl -> res string) (props : dict pdecl) (title : string) (keys : list string) (t : string) : Prop :=
  (keys = [] /\ t = "") \/
  (keys <> [] /\ exists ts, Forall2 (fun k s => exists d, dget props k = Some d /\ line k d = Ok s) keys ts /\
     t = newline ++ newline ++ "**" ++ title ++ " Properties:**" ++ newline ++ newline ++ String.concat newline (map (fun s => "* " ++ s) ts)).
