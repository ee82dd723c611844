(** Model of classes that override [_error_hook]: ValidationError.__init__
    (utils.py:147-165), HasProperties.validate (base.py:401-443) and __init__
    (base.py:305-344).

    World.v records the calls of the hook; here the hook is any function that may
    change the list it is given (the list of the error that is then raised),
    change the state, and raise.  The class validators and the keywords of the
    constructor are given by what they do.  Simplifications: [reason] and [prop]
    are None or strings; user code leaves the private attributes alone, apart
    from the list; exceptions and instances are true in conditions. *)
From Verif Require Export PyBase.
Local Open Scope list_scope.
Local Open Scope string_scope.
Local Open Scope nat_scope.

(** utils.py:127-130; [t_own]: the instance is the one under consideration,
    otherwise it is None *)
Record tup := Tup { t_msg : string; t_reason : option string; t_prop : option string; t_own : bool }.
(** Exceptions: a ValidationError with its text and its [error_tuples], or any other (utils.py:132-165) *)
Inductive herr := HVal (msg : string) (ts : list tup) | HOther (e : exn).
(** [utils.ValidationError] and [GENERIC_ERRORS] (base.py:22) *)
Definition generic (e : herr) : bool := match e with HVal _ _ => true | HOther x => is_generic x end.
(** What a class validator does (base.py:414-427): it returns something else than
    False, returns False, or raises.  A keyword (base.py:310-330) is set, or raises
    in [setattr]; or it is refused before that ([Stops], base.py:312-322). *)
Inductive outcome := Fine | Refuses | Raises (e : herr) | Stops (e : herr).
(** ['\n- '.join(msgs)] (base/base.py:401-444) *)
Fixpoint join (msgs : list string) : string :=
  match msgs with
  | [] => ""
  | [m] => m
  | m :: r => m ++ String (ascii_of_nat 10) "- " ++ join r
  end.

Section Hooks.
  (** the state that user code sees *)
  Variable S : Type.
  (** the body of [_error_hook]: an exception or None, the list, the state *)
  Variable hook : list tup -> S -> option herr * list tup * S.
  (** class validators, or keywords: what they add to [_validation_error_tuples]
      themselves ([_validate_props], base.py:462-464), and do *)
  Variable K : Type.
  Variable step : K -> S -> list tup * outcome * S.

  (** [_getting_validated] ([None]: not set), [_validation_error_tuples],
      [_non_validation_error]; the lists the hook was called with (base/base.py:401-444) *)
  Record st := St { h_flag : option bool; h_tuples : option (list tup); h_other : option herr;
                    h_user : S; h_calls : list (list tup) }.

  (** a call of [_error_hook] (base/base.py:469-474) *)
  Definition call_hook (ts : list tup) (s : st) : option herr * list tup * st :=
    let '(x, ts1, u) := hook ts (h_user s) in
    (x, ts1, St (h_flag s) (h_tuples s) (h_other s) u (h_calls s ++ [ts])%list).
  (** Is the text neither None nor empty? (base/base.py:401-444) *)
  Definition filled (o : option string) : bool := match o with Some (String _ _) => true | _ => false end.
  (** utils.py:147-165: the exception that [raise ValidationError(...)] raises *)
  Definition new_error (msg : string) (reason prop : option string) (own : bool) (given : option (list tup)) (s : st) : herr * st :=
    let t := Tup msg reason prop own in
    let ts := match given with
              | None => [t]
              | Some g => if filled reason || filled prop || own then (g ++ [t])%list else g
              end in
    match own, h_flag s with
    | true, Some false =>
        let '(x, ts1, s1) := call_hook ts s in
        match x with
        | Some e => (e, s1)
        | None => (HVal msg ts1, s1)
        end
    | _, _ => (HVal msg ts, s)
    end.
  (** [self._validation_error_tuples += ts] (base/base.py:401-444) *)
  Definition add (ts : list tup) (s : st) : st :=
    St (h_flag s) (match h_tuples s with Some l => Some (l ++ ts)%list | None => None end) (h_other s) (h_user s) (h_calls s).
  (** base.py:424-428, 325-330: the handlers; [Some e] goes on *)
  Definition handle (e : herr) (s : st) : option herr * st :=
    match e with
    | HVal _ ts => (None, add ts s)
    | HOther _ =>
        if generic e
        then (None, match h_other s with
                    | None => St (h_flag s) (h_tuples s) (Some e) (h_user s) (h_calls s)
                    | Some _ => s
                    end)
        else (Some e, s)
    end.
  (** base.py:414-428, 310-330 *)
  Fixpoint collect (ks : list K) (s : st) : option herr * st :=
    match ks with
    | [] => (None, s)
    | k :: r =>
        let '(ts, o, u) := step k (h_user s) in
        let s1 := add ts (St (h_flag s) (h_tuples s) (h_other s) u (h_calls s)) in
        let '(x, s2) :=
          match o with
          | Fine => (None, s1)
          | Refuses => let '(e, s2) := new_error "Validation failed" None None true None s1 in handle e s2
          | Raises e => handle e s1
          | Stops e => (Some e, s1)
          end in
        match x with
        | Some e => (Some e, s2)
        | None => collect r s2
        end
    end.
  (** base.py:429-439, 331-340 *)
  Definition finish (title : string) (s : st) : option herr * st :=
    match h_tuples s with
    | Some (t :: r) =>
        let '(x, ts, s1) := call_hook (t :: r) s in
        match x with
        | Some e => (Some e, s1)
        | None => let '(e, s2) := new_error (join (title :: map t_msg ts)) None None false (Some ts) s1 in (Some e, s2)
        end
    | _ => (h_other s, s)
    end.
  (** base.py:410-443, 307-344, with the [finally] clause *)
  Definition guarded (title : string) (ks : list K) (s : st) : option herr * st :=
    let '(x, s1) := collect ks (St (Some true) (Some []) None (h_user s) (h_calls s)) in
    let '(y, s2) := match x with Some e => (Some e, s1) | None => finish title s1 end in
    (y, St (Some false) None None (h_user s2) (h_calls s2)).
  (** base.py:401-443; [None]: it returns True *)
  Definition validate (ks : list K) (s : st) : option herr * st :=
    match h_flag s with
    | Some true => (None, s)
    | _ => guarded "Validation failed:" ks s
    end.
  (** base.py:305-344; [ks] are the keywords *)
  Definition init (ks : list K) (s : st) : option herr * st := guarded "Initialization failed:" ks s.
End Hooks.
Arguments St {S} _ _ _ _ _.
Arguments h_flag {S} _.
Arguments h_tuples {S} _.
Arguments h_other {S} _.
Arguments h_user {S} _.
Arguments h_calls {S} _.
