(** Models of small self-contained parts: [filter_props] and
    [stop_recursion_with] of utils.py and the context managers of handlers.py
    with their object identities.

    Not modelled: two functions decorated with one [stop_recursion_with]
    object, threads, subclasses overriding [==], assigning to [disable_type]
    of an existing context manager. *)
From Verif Require Export World.
Local Open Scope string_scope.
Local Open Scope list_scope.
Local Open Scope nat_scope.

(** * filter_props *)

(** utils.py:55-58: the property has an attribute [required] (Property,
    basic.py:629) or [new_name] (Renamed, basic.py:1452) *)
Definition settable_kind (k : pkind) : bool :=
  match k with KProp | KRenamed _ => true | KGettable | KDynamic _ _ _ => false end.
(** utils.py:13-64 [filter_props] *)
Definition filter_props {A} (props : dict pdecl) (input : dict A) (include_immutable : bool) : dict A * dict A :=
  let props_dict := filter (fun kv => match dget props (fst kv) with
                                      | Some d => include_immutable || settable_kind (pd_kind d)
                                      | None => false
                                      end) input in
  (props_dict, filter (fun kv => negb (dhas props_dict (fst kv))) input).

(** * stop_recursion_with *)

(** A method body: it returns, raises, or calls the decorated method on an
    object and goes on with the outcome (utils.py:95-120). *)
Inductive rprog :=
| RRet (v : val)
| RRaise (e : exn)
| RCall (o : nat) (a : val) (k : res val -> rprog).
(** What happens, in order: a body starts, is left, a backup is used (utils.py:95-120). *)
Inductive revent := RBody (o : nat) | RDone (o : nat) | RBackup (o : nat).
(** [held_objects] and the events so far, latest first (utils.py:95-120) *)
Record rstate := RS { r_held : list nat; r_trace : list revent }.
(** Plumbing: a ghost event. *)
Definition r_emit (e : revent) (s : rstate) : rstate := RS (r_held s) (e :: r_trace s).

(** [list.remove]: the first occurrence (utils.py:95-120) *)
Fixpoint remove1 (o : nat) (l : list nat) : list nat :=
  match l with [] => [] | x :: r => if Nat.eqb x o then r else x :: remove1 o r end.

Section Once.
  (** the decorated function and the backup; a backup that is a value or an
      exception is a program without calls (utils.py:105-112) *)
  Variable body backup : nat -> val -> rprog.

  (** utils.py:98-118 [run_once]; [None] when the fuel is used up *)
  Fixpoint run_once (fuel : nat) (o : nat) (a : val) (s : rstate) {struct fuel} : option (res val * rstate) :=
    match fuel with
    | 0 => None
    | S f =>
        let fix go (p : rprog) (s : rstate) : option (res val * rstate) :=
          match p with
          | RRet v => Some (Ok v, s)
          | RRaise e => Some (Exc e, s)
          | RCall o' a' k => match run_once f o' a' s with
                             | Some (r, s1) => go (k r) s1
                             | None => None
                             end
          end in
        if existsb (Nat.eqb o) (r_held s) then go (backup o a) (r_emit (RBackup o) s)
        else match go (body o a) (r_emit (RBody o) (RS (r_held s ++ [o]) (r_trace s))) with
             | Some (r, s1) => Some (r, r_emit (RDone o) (RS (remove1 o (r_held s1)) (r_trace s1)))
             | None => None
             end
    end.
End Once.

(** * listeners_disabled *)

(** The sets that exist, which of them is the class attribute [_quarantine],
    and the set that each context manager has in [_previous_state] (handlers.py:14-63). *)
Record lstate := LS { ls_sets : list (list lmode); ls_cur : nat; ls_prev : nat -> option nat }.
(** handlers.py:27: the set that [_quarantine] is. *)
Definition ls_modes (s : lstate) : list lmode := nth (ls_cur s) (ls_sets s) [].
(** Code that uses context managers [0, 1, ...]: looking at the disabled modes
    (as a notification does), raising, sequences, with statements (handlers.py:14-63). *)
Inductive lcode :=
| LLook
| LRaise
| LSeq (a b : lcode)
| LWith (c : nat) (b : lcode)
| LTry (b : lcode).

Section Context.
  (** [disable_type] of each context manager *)
  Variable types : nat -> option (list lmode).

  (** handlers.py:55-60 [__enter__]; [set(...)] allocates, [update] changes the
      set in place *)
  Definition l_enter (c : nat) (s : lstate) : lstate :=
    let sets := ls_sets s ++ [ls_modes s] in
    let prev := fun x => if Nat.eqb x c then Some (length (ls_sets s)) else ls_prev s x in
    match types c with
    | None => LS (sets ++ [all_modes]) (length sets) prev
    | Some ts => LS (set_nth sets (ls_cur s) (ls_modes s ++ ts)) (ls_cur s) prev
    end.
  (** handlers.py:62-63 [__exit__] *)
  Definition l_exit (c : nat) (s : lstate) : lstate :=
    match ls_prev s c with
    | Some p => LS (ls_sets s) p (ls_prev s)
    | None => s
    end.
  (** [true]: no exception; what each [LLook] saw, in order (handlers.py:14-63) *)
  Fixpoint l_run (p : lcode) (s : lstate) : bool * list (list lmode) * lstate :=
    match p with
    | LLook => (true, [ls_modes s], s)
    | LRaise => (false, [], s)
    | LSeq a b => let '(ok, t, s1) := l_run a s in
                  if ok then let '(ok2, t2, s2) := l_run b s1 in (ok2, t ++ t2, s2) else (ok, t, s1)
    | LWith c b => let '(ok, t, s1) := l_run b (l_enter c s) in (ok, t, l_exit c s1)
    | LTry b => let '(_, t, s1) := l_run b s in (true, t, s1)
    end.
End Context.
