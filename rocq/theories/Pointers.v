(** Model of Pointer properties (extras/uid.py:169-276) on the level of values:
    validation, checks, JSON, and the options.

    The class pointed to is given by functions: its uid property, [validate_uid],
    [load], the constructor, [serialize] and [deserialize] of its instances.
    [==] of values that are not instances is taken to be identity.  Custom
    serializers are in [Declare]. *)
From Verif Require Export PyBase PyVal Uid.
Local Open Scope string_scope.
Local Open Scope list_scope.
Local Open Scope nat_scope.

(** None, a string, an instance of some HasProperties class, anything else (extras/uid.py:232-253) *)
Inductive pval := PNone | PStr (s : string) | PObj (l : nat) | POther (x : nat).
(** JSON: null, a string, anything else (extras/uid.py:255-271) *)
Inductive pjson := JNull | JText (s : string) | JOther (x : nat).

(** uid.py:236-238: the property [uid_prop] of the class, which may have no properties *)
Definition find_prop {P} (props : option (dict P)) (uid_prop : string) : option P :=
  match props with Some d => dget d uid_prop | None => None end.

Section Pointer.
  (** [prop.validate(None, uid)], if there is the property *)
  Variable prop : option (string -> res pval).
  (** [validate_uid], if there is one; what it returns is not used *)
  Variable validate_uid : option (pval -> res unit).
  (** the option [load] (the truth of the value given, uid.py:209-211), and [instance_class.load], if there is one *)
  Variable load : bool.
  Variable loader : option (pval -> res pval).
  (** isinstance(value, instance_class) *)
  Variable isa : pval -> bool.
  (** [instance_class(value)], or [instance_class( **value )] for dictionaries *)
  Variable make : pval -> res pval.

  (** base/instance.py:89-111 [Instance.validate] *)
  Definition instance_validate (v : pval) : res pval :=
    if isa v then Ok v
    else match make v with
         | Ok w => Ok w
         | Exc e => Exc (if is_generic e then ExValidation [] else e)
         end.
  (** uid.py:236-244: the uid, and what was loaded *)
  Definition check_uid (s : string) : res (pval * pval) :=
    rbind (match prop with Some p => p s | None => Ok (PStr s) end) (fun u =>
    rbind (match validate_uid with Some f => f u | None => Ok tt end) (fun _ =>
    rbind (match loader with Some f => if load then f u else Ok PNone | None => Ok PNone end) (fun x =>
    Ok (u, x)))).
  (** uid.py:232-253 *)
  Definition pointer_validate (v : pval) : res pval :=
    match v with
    | PNone => Exc (ExValidation [])
    | PStr s =>
        match check_uid s with
        | Exc e => Exc (match e with ExValidation _ => ExValidation [] | _ => e end)
        | Ok (u, PNone) => Ok u
        | Ok (_, x) => instance_validate x
        end
    | _ => instance_validate v
    end.

  (** [properties.equal] of two instances, [validate] of one *)
  Variable inst_equal : nat -> nat -> res bool.
  Variable inst_valid : nat -> res unit.
  (** base/base.py:617-660 [equal] *)
  Definition pointer_equal (v w : pval) : res bool :=
    match v, w with
    | PObj a, PObj b => inst_equal a b
    | PNone, PNone => Ok true
    | PStr s, PStr u => Ok (String.eqb s u)
    | POther x, POther y => Ok (Nat.eqb x y)
    | _, _ => Ok false
    end.
  (** base/instance.py:113-122 with basic.py:247-262: the check of a stored value *)
  Definition pointer_assert (v : pval) : res bool :=
    match v with
    | PNone => Ok true
    | _ =>
        rbind (pointer_validate v) (fun w =>
        rbind (pointer_equal v w) (fun b =>
        if negb b then Exc (ExValidation [])
        else match v with
             | PObj l => rbind (inst_valid l) (fun _ => Ok true)
             | _ => Ok true
             end))
    end.

  (** [value.serialize( **kwargs )] of an instance, [to_json] of other values *)
  Variable inst_ser : nat -> res pjson.
  Variable other_json : nat -> res pjson.
  (** base/instance.py:125-139, 160-172 *)
  Definition pointer_serialize (v : pval) : res pjson :=
    match v with
    | PNone => Ok JNull
    | PStr s => Ok (JText s)
    | PObj l => inst_ser l
    | POther x => other_json x
    end.
  (** [instance_class.deserialize]; [None]: the class is not a HasProperties class *)
  Variable inst_deser : option (pjson -> res pval).
  (** uid.py:255-271, base/instance.py:141-155 *)
  Definition pointer_deserialize (j : pjson) : res pval :=
    match j with
    | JNull => Ok PNone
    | JText s => Ok (PStr s)
    | _ => match inst_deser with Some f => f j | None => Exc ExType end
    end.
End Pointer.
