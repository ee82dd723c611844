(** Model of warnings: access through old names (basic.py:1442-1505), ignored
    defaults, deprecated options.

    [warnings.warn] is a function of the text and the state, which may raise:
    filters may count, print, drop or turn a warning into an exception.  The
    property called [name] of a class is the one with that attribute
    ([C60] says when that is so).  Comparisons of defaults that raise, as those of
    arrays, are not modelled. *)
From Verif Require Export PyBase PyVal Declare.
Local Open Scope list_scope.
Local Open Scope string_scope.
Local Open Scope nat_scope.

(** FutureWarning and RuntimeWarning (basic.py:1477-1484, base/union.py:153-162). *)
Inductive category := FutureW | RuntimeW.
(** What [warnings.warn] is called with (basic.py:1477-1484, base/union.py:153-162). *)
Record warning := Warn { w_category : category; w_text : string }.
(** A line end (basic.py:1477-1484). *)
Definition newline : string := String (Ascii.ascii_of_nat 10) "".

(** ** Renamed *)
(** [new_name] and [warn] (basic.py:1442-1471) *)
Record ropts := RO { ro_new : string; ro_warn : bool }.
(** basic.py:1456-1460 *)
Definition set_new_name (v : val) (o : ropts) : res ropts :=
  match v with VStr s => Ok (RO s (ro_warn o)) | _ => Exc ExType end.
(** basic.py:1467-1471 *)
Definition set_warn (v : val) (o : ropts) : res ropts :=
  match v with VBool b => Ok (RO (ro_new o) b) | _ => Exc ExType end.
(** basic.py:1442-1449, for the keyword [warn] alone; [RO "" true]: the
    values before anything is set (1463-1465) *)
Definition declare_renamed (new : val) (warn : option val) : res ropts :=
  rbind (set_new_name new (RO "" true)) (fun o =>
  match warn with None => Ok o | Some v => set_warn v o end).

Section Access.
  Variables St A : Type.
  (** [warnings.warn]: what it raises *)
  Variable emit : warning -> St -> option exn * St.
  (** getattr, setattr or delattr of a name that is no Renamed property *)
  Variable op : string -> St -> res A * St.
  (** the Renamed property of that name *)
  Variable renamed : string -> option ropts.

  (** basic.py:1477-1484: the text of the warning. *)
  Definition rename_text (old new : string) : string :=
    newline ++ "Property '" ++ old ++ "' is deprecated and may be removed in the future. Please use '" ++ new ++ "'.".
  (** basic.py:1477-1484 *)
  Definition display_warning (old : string) (o : ropts) (s : St) : option exn * St :=
    if ro_warn o then emit (Warn FutureW (rename_text old (ro_new o))) s else (None, s).
  (** basic.py:1486-1505; [depth]: the calls that may still be nested *)
  Fixpoint access (depth : nat) (name : string) (s : St) : res A * St :=
    match renamed name with
    | None => op name s
    | Some o =>
        match depth with
        | 0 => (Exc ExRecursion, s)
        | S d =>
            match display_warning name o s with
            | (Some e, s1) => (Exc e, s1)
            | (None, s1) => access d (ro_new o) s1
            end
        end
    end.
End Access.

(** ** Ignored defaults *)
Section Defaults.
  (** [format] of a default, [!=] of two *)
  Variable text : val -> string.
  Variable differ : val -> val -> bool.
  (** base/containers.py:140-153: the warnings of a contained property with that default *)
  Definition contained_warnings (default : val) : list warning :=
    if is_undef default then [] else [Warn RuntimeW ("Contained prop default ignored: " ++ text default)].
  (** base/union.py:153-162: [own] is the default of the Union *)
  Fixpoint union_warnings (own : val) (alts : list val) : list warning :=
    match alts with
    | [] => []
    | d :: r =>
        if is_undef d then union_warnings own r
        else if is_undef own then union_warnings d r
        else if differ own d then Warn RuntimeW ("Union prop default ignored: " ++ text d) :: union_warnings own r
        else union_warnings own r
    end.
End Defaults.

(** ** Deprecated options *)
(** base/instance.py:75-82: the warning comes before the check *)
Definition set_auto_create {St} (emit : warning -> St -> option exn * St) (v : val) (old : bool) (s : St) : res bool * bool * St :=
  match emit (Warn FutureW "Deprecation warning: auto_create will be removed in a future release. Please set default to the instance_class instead") s with
  | (Some e, s1) => (Exc e, old, s1)
  | (None, s1) => match v with
                  | VBool b => (Ok b, b, s1)
                  | _ => (Exc ExType, old, s1)
                  end
  end.
(** basic.py:59-71: the class attributes [class_info] and [info] of a new property
    class; [is_callable] of the value of [info], [prop] makes a property of it *)
Definition wrangle {V} (is_callable : V -> bool) (prop : V -> V) (cls : string) (d : dict V) : list warning * dict V :=
  let (w1, d1) := match dget d "info_text" with
                  | Some v => ([Warn FutureW ("Deprecation warning: info_text has been renamed class_info. Consider updating class " ++ cls ++ " ")], dset d "class_info" v)
                  | None => ([], d)
                  end in
  match dget d1 "info" with
  | Some v => if is_callable v
              then ((w1 ++ [Warn FutureW ("Deprecation warning: info is now a @property, not a callable. Consider updating class " ++ cls)])%list, dset d1 "info" (prop v))
              else (w1, d1)
  | None => (w1, d1)
  end.
