(** Model of the documentation strings: the line of a property (basic.py:359-383,
    685-706 and the [sphinx_class] of the other property classes) and the text the
    metaclass writes for a class (base/base.py:152-214).

    Names of properties are not empty.  The entries of an order are strings or
    integers; sorting both together raises TypeError (Python 3).  Names of classes
    and modules, and the [class_info] of containers, contain no [':class:`'] and no
    braces, so that [replace] and [format] only add what is meant. *)
From Coq Require Export Permutation.
From Verif Require Export Messages Meta.
Local Open Scope list_scope.
Local Open Scope string_scope.
Local Open Scope nat_scope.

(** * The line of a property *)
(** A property as its documentation sees it: a property class and the prefix of
    its link, a Tuple, List or Set with its [class_info], an Instance or Pointer
    of a class of a module, a Union, a DynamicProperty, or Renamed (basic.py:359-383). *)
Inductive sprop :=
| SClass (cls pref : string)
| STuple (ci : string) (q : sprop)
| SInst (cls modul : string)
| SPointer (cls modul : string)
| SUnion (ps : list sprop)
| SDyn (q : sprop)
| SRenamed.
(** Pieces of the text: words, or a link [:class:`cls <pref.cls>`] (basic.py:376-383) *)
Inductive piece := PText (s : string) | PLink (cls pref : string).
(** The text of a piece (basic.py:376-383). *)
Definition piece_text (p : piece) : string :=
  match p with PText s => s | PLink c m => ":class:`" ++ c ++ " <" ++ m ++ "." ++ c ++ ">`" end.
(** The text of pieces one after the other (basic.py:359-383). *)
Definition render (l : list piece) : string := String.concat "" (map piece_text l).
(** base/containers.py:360-365: [replace] puts the words in front of each link *)
Definition put_info (ci : string) (l : list piece) : list piece :=
  flat_map (fun p => match p with PLink _ _ => [PText (ci ++ " of "); p] | PText _ => [p] end) l.
(** base/union.py:264-266 *)
Fixpoint with_commas (ls : list (list piece)) : list piece :=
  match ls with
  | [] => []
  | [l] => l
  | l :: r => (l ++ PText ", " :: with_commas r)%list
  end.
(** basic.py:376-383, 590-592, 1474-1475, base/containers.py:360-365,
    base/instance.py:183-189, base/union.py:264-266, extras/uid.py:273-276 *)
Fixpoint sphinx_class (p : sprop) : list piece :=
  match p with
  | SClass c m => [PLink c m]
  | STuple ci q => put_info ci (sphinx_class q)
  | SInst c m => [PLink c m]
  | SPointer c m => [PLink c m; PText " instance or UID"]
  | SUnion ps => with_commas ((fix go l := match l with [] => [] | q :: r => sphinx_class q :: go r end) ps)
  | SDyn q => PText "dynamic " :: sphinx_class q
  | SRenamed => []
  end.

Section Line.
  (** [format] of a value, [__class__.__name__] of a value, [len] of a value
      ([None]: it has no length, TypeError) *)
  Variable text : val -> string.
  Variable class_name : val -> string.
  Variable len : val -> option nat.
  (** basic.py:361-366: inside IPython the classes are left out *)
  Variable ipython : bool.

  (** basic.py:359-374 [GettableProperty.sphinx]; [info] may raise (Messages.v) *)
  Definition sphinx (name doc : string) (p : sprop) (info : res (option string)) : res string :=
    let c := render (sphinx_class p) in
    let classdoc := if ipython then "" else if String.eqb c "" then "" else " (" ++ c ++ ")" in
    rbind info (fun i =>
    Ok ("**" ++ name ++ "**" ++ classdoc ++ ": " ++ doc ++ match shown i with Some s => ", " ++ s | None => "" end)).
  (** A default: a value, or a callable and what it does (basic.py:685-706) *)
  Inductive ddflt := DdVal (v : val) | DdCall (r : res val).
  (** basic.py:687-703 *)
  Definition default_text (d : ddflt) : res string :=
    rbind (match d with DdVal v => Ok (v, text v) | DdCall r => rbind r (fun v => Ok (v, "new instance of " ++ class_name v)) end)
      (fun vs => let (v, s) := vs in
       Ok (match v with
           | VNone | VUndef => ""
           | _ => match len v with Some 0 => "" | _ => ", Default: " ++ s end
           end)).
  (** basic.py:685-706 [Property.sphinx] *)
  Definition property_sphinx (name doc : string) (p : sprop) (info : res (option string)) (d : ddflt) : res string :=
    rbind (default_text d) (fun t => rbind (sphinx name doc p info) (fun s => Ok (s ++ t))).
End Line.

(** * The text of a class *)
(** The value of [_doc_order]: None, a list or tuple of strings and integers, or anything else
    (base/base.py:175-182) *)
Inductive oitem := OName (s : string) | OInt (z : Z).
(** What [_doc_order] may be (base/base.py:175-182). *)
Inductive oval := ONone | OSeq (l : list oitem) | OOther.
(** Names in code point order (base/base.py:161-164) *)
Fixpoint name_leb (a b : string) : bool :=
  match a, b with
  | EmptyString, _ => true
  | String _ _, EmptyString => false
  | String c r, String d s =>
      if N.eqb (Ascii.N_of_ascii c) (Ascii.N_of_ascii d) then name_leb r s else N.ltb (Ascii.N_of_ascii c) (Ascii.N_of_ascii d)
  end.
(** Of [sorted] (base/base.py:161-164, 182). *)
Fixpoint insert (x : string) (l : list string) : list string :=
  match l with [] => [x] | y :: r => if name_leb x y then x :: l else y :: insert x r end.
(** [sorted] of names (base/base.py:161-164, 182). *)
Fixpoint sorted (l : list string) : list string := match l with [] => [] | x :: r => insert x (sorted r) end.
(** [key[0] == '_'] (base/base.py:161-164) *)
Definition private (key : string) : bool := match key with String c _ => Ascii.eqb c "_"%char | EmptyString => false end.
(** [list(_doc_order)] if all items are names (base/base.py:182). *)
Definition names_of (l : list oitem) : option (list string) :=
  fold_right (fun x acc => match x, acc with OName s, Some r => Some (s :: r) | _, _ => None end) (Some []) l.
(** [sorted(list(order)) != documented]; mixed entries raise TypeError (base/base.py:175-190) *)
Definition same_names (l : list oitem) (documented : list string) : res bool :=
  match names_of l with
  | Some ns => Ok (if list_eq_dec string_dec (sorted ns) documented then true else false)
  | None => if existsb (fun x => match x with OName _ => true | OInt _ => false end) l then Exc ExType
            else Ok false
  end.

Section Class.
  (** the classes created so far, with [_doc_private] and [_doc_order] of their
      own dictionaries ([b] of [VBool b], or anything else) *)
  Variable T : list mcls.
  Variable c_private : nat -> option val.
  Variable c_order : nat -> option oval.
  (** [getattr(base, attr, default)]: the first class of the MRO of [base] that has it (base/base.py:25-56) *)
  Definition inherited {A} (own : nat -> option A) (default : A) (base : nat) : A :=
    fold_right (fun k r => match own k with Some x => x | None => r end) default (mro_of T base).
  (** base/base.py:152-159 *)
  Definition find_private (bases : list nat) (own : option val) : res bool :=
    let v := fold_left (fun p b => inherited c_private p b) (rev bases) (VBool false) in
    match (match own with Some x => x | None => v end) with
    | VBool b => Ok b
    | _ => Exc ExAttr
    end.
  (** base/base.py:161-164 *)
  Definition documented (props : dict pdecl) (priv : bool) : list string :=
    sorted (filter (fun key => priv || negb (private key)) (dkeys props)).
  (** base/base.py:167-174: the order found in the bases, from the last to the first *)
  Fixpoint base_order (names : list string) (bases : list nat) (cur : oval) : res oval :=
    match bases with
    | [] => Ok cur
    | b :: r =>
        match inherited c_order cur b with
        | OSeq l => rbind (same_names l names) (fun ok => base_order names r (if ok then OSeq l else ONone))
        | _ => base_order names r ONone
        end
    end.
  (** base/base.py:175-185 *)
  Definition find_order (names : list string) (bases : list nat) (own : option oval) : res (list string) :=
    rbind (base_order names (rev bases) ONone) (fun inh =>
    match (match own with Some o => o | None => inh end) with
    | ONone => Ok names
    | OOther => Exc ExAttr
    | OSeq l => rbind (same_names l names) (fun ok => if ok then match names_of l with Some ns => Ok ns | None => Exc ExAttr end else Exc ExAttr)
    end).

  (** [sphinx()] of a property *)
  Variable line : string -> pdecl -> res string.
  Variable props : dict pdecl.
  (** base/base.py:189-196: [required] of the property, which only a Property has *)
  Definition required_of (key : string) : option bool :=
    match dget props key with
    | Some d => match pd_kind d with KProp => Some (pd_required d) | _ => None end
    | None => None
    end.
  (** base/base.py:189-190 *)
  Definition g_required (order : list string) : list string :=
    filter (fun k => negb (private k) && match required_of k with Some b => b | None => false end) order.
  (** base/base.py:191-192 *)
  Definition g_optional (order : list string) : list string :=
    filter (fun k => negb (private k) && negb match required_of k with Some b => b | None => true end) order.
  (** base/base.py:193-194 *)
  Definition g_other (order : list string) : list string :=
    filter (fun k => negb (private k) && match required_of k with Some _ => false | None => true end) order.
  (** base/base.py:195-196 *)
  Definition g_private (order : list string) : list string := filter private order.
  (** base/base.py:199-215: the lines of a group, joined with newlines *)
  Definition newline : string := String (Ascii.ascii_of_nat 10) "".
  (** base/base.py:201, 205, 209, 213: the lines of a group. *)
  Fixpoint lines (keys : list string) : res (list string) :=
    match keys with
    | [] => Ok []
    | k :: r => rbind (match dget props k with Some d => line k d | None => Exc ExKey end) (fun t =>
                rbind (lines r) (fun ts => Ok (("* " ++ t) :: ts)))
    end.
  (** base/base.py:199-214: one group, if it has members. *)
  Definition group (title : string) (keys : list string) : res string :=
    match keys with
    | [] => Ok ""
    | _ => rbind (lines keys) (fun ts => Ok (newline ++ newline ++ "**" ++ title ++ " Properties:**" ++ newline ++ newline ++ String.concat newline ts))
    end.
  (** base/base.py:189-215; [doc] is the doc string in the body, or '' *)
  Definition doc_text (doc : string) (order : list string) : res string :=
    rbind (group "Required" (g_required order)) (fun a =>
    rbind (group "Optional" (g_optional order)) (fun b =>
    rbind (group "Other" (g_other order)) (fun c =>
    rbind (group "Private" (g_private order)) (fun d => Ok (doc ++ a ++ b ++ c ++ d))))).
  (** base/base.py:152-215 for a class with these properties *)
  Definition class_doc (doc : string) (bases : list nat) (own_private : option val) (own_order : option oval) : res string :=
    rbind (find_private bases own_private) (fun priv =>
    rbind (find_order (documented props priv) bases own_order) (fun order =>
    doc_text doc order)).
End Class.
