(** The arguments of [directional_link] and [link], as Python values; World.v
    has the same constructors with arguments of the right types.

    Not modelled: traitlets (link.py:20-30, so LINK_OBSERVERS has the single key
    HasProperties), subclasses of tuple and str, the text of the errors, and
    HasProperties instances that can be called. *)
From Verif Require Import World Keywords.
Local Open Scope string_scope.
Local Open Scope list_scope.
Local Open Scope nat_scope.

(** What object number [t] is for link.py:102-108: not callable, callable
    without an attribute [__code__] (classes, builtins), or with one, whose
    [co_argcount] counts the parameters that can be given by position, among
    them the [self] of a method. *)
Inductive callee := NotCallable | NoCode | Code (argcount : nat).

Section Args.
  Variables (E : env) (C : ctable) (U : ucode) (rec : call -> M val) (kinds : nat -> callee).

  (** link.py:124-138 [_validate] *)
  Definition validate_item (v : val) : M (loc * string) :=
    match v with
    | VTuple [a; b] =>
        match a with
        | VInst l => match b with VStr n => link_item E C U rec (l, n) ;; ret (l, n) | _ => throw ExValue end
        | _ => throw ExValue
        end
    | _ => throw ExValue
    end.

  (** link.py:100-108, the setter of transform; the result is the number of the
      function, if there is one *)
  Definition set_transform (v : val) : res (option nat) :=
    match v with
    | VNone => Ok None
    | VObj t =>
        match kinds t with
        | NotCallable => Exc ExValue
        | NoCode => Ok (Some t)
        | Code a => if Nat.eqb a 1 then Ok (Some t) else Exc ExValue
        end
    | _ => Exc ExValue
    end.

  (** link.py:55-67 [directional_link.__init__] *)
  Definition dlink_init (source target update_now change_only transform : val) : M val :=
    let* s := validate_item source in
    let* t := validate_item target in
    if item_eqb s t then throw ExValue
    else
      let* g := lift (set_transform transform) in
      let* w := get_w in
      let k := length (w_links w) in
      mod_w (fun w => w_setlinks (w_links w ++ [DL s t g false false]) w) ;;
      (if truthy update_now then link_update U rec k ;; ret tt else ret tt) ;;
      has_observe C (fst s) (OD (Some [snd s]) (if truthy change_only then MChange else MSet) (LLink k)) ;;
      ret (VObj k).

  (** link.py:55-56, the parameters after self *)
  Definition dlink_params : list (string * option val) :=
    [("source", None); ("target", None); ("update_now", Some (VBool false)); ("change_only", Some (VBool true)); ("transform", Some VNone)].
  (** A call of [directional_link]; a keyword that is not a parameter is a
      TypeError, and so is self. *)
  Definition dlink_call (args : list val) (kws : dict val) : M val :=
    match bind_params dlink_params args kws with
    | Exc e => throw e
    | Ok ([(_, s); (_, t); (_, now); (_, chg); (_, tr)], []) => dlink_init s t now chg tr
    | Ok _ => throw ExType
    end.

  (** link.py:182-192 [link.__init__] *)
  Definition link_call (items : list val) (kws : dict val) : M val :=
    if dhas kws "self" then throw ExType
    else if Nat.ltb (length items) 2 then throw ExValue
    else if match dget kws "transform" with None | Some VNone => false | _ => true end then throw ExValue
    else
      let n := length items in
      let pairs := flat_map (fun i => flat_map (fun j =>
        if Nat.eqb i j then [] else
        match nth_error items i, nth_error items j with
        | Some a, Some b => [(a, b)]
        | _, _ => []
        end) (seq 0 n)) (seq 0 n) in
      let* ks := mapM (fun ab => dlink_call [fst ab; snd ab] kws) pairs in
      ret (VList ks).
End Args.
