(** extras/task.py: running a task.  [run] and [process_output] are methods of
    the user's subclass; here they are arbitrary functions on the state.

    [report_status] is in Status.v.  Not modelled: the exception classes at the
    end of the file, which have no behaviour. *)
From Verif Require Import World.
Local Open Scope string_scope.
Local Open Scope list_scope.

(** A task: its [Input] class, the class BaseOutput, and the two overridable
    methods.  task.py:57-79, 90-98 (the default process_output is
    [OSer l (SOpt false false)]), 100-115 *)
Record task := Task {
  tk_input : nat;
  tk_output : nat;
  tk_run : val -> M val;
  tk_process : val -> M val
}.

(** The calls of the user's methods, with their argument and the state they
    start in (extras/task.py:57-112) *)
Inductive tcall := TRun (v : val) (w : world) | TProcess (v : val) (w : world).

(** The state with the calls made so far, newest first (extras/task.py:57-112) *)
Definition TM (A : Type) := world * list tcall -> res A * (world * list tcall).
(** Plumbing: sequencing. *)
Definition tbind {A B} (m : TM A) (k : A -> TM B) : TM B :=
  fun s => match m s with (Ok a, s') => k a s' | (Exc e, s') => (Exc e, s') end.
(** Plumbing: code of World.v. *)
Definition low {A} (m : M A) : TM A :=
  fun s => let (r, w) := m (fst s) in (r, (w, snd s)).
(** Plumbing: the same, with a ghost event. *)
Definition logged {A} (c : world -> tcall) (m : M A) : TM A :=
  fun s => let (r, w) := m (fst s) in (r, (w, c (fst s) :: snd s)).

Section Call.
  Variable E : env.
  Variable C : ctable.
  Variable U : ucode.
  Variable fuel : nat.

  (** task.py:67-77: the error for an output of a wrong class; its instance is
      given only if it is a HasProperties instance *)
  Definition wrong_output {A} (v : val) : M A :=
    let io := match v with VInst l => Some l | _ => None end in
    let ts := [ET (Some "invalid_class") None io] in
    hook io ts ;; throw (ExValidation ts).

  (** [output_obj.validate()]; only called on instances (extras/task.py:57-98) *)
  Definition validate_val (v : val) : M val :=
    match v with
    | VInst l => exec E C U fuel (COp (OValidate l))
    | _ => throw ExAttr
    end.

  (** task.py:57-79 [BaseTask.__call__] *)
  Definition task_call (t : task) (kw : list (string * val)) : TM val :=
    tbind (low (exec E C U fuel
      (COp (ODeser (tk_input t) (VDict (map (fun kv => (VStr (fst kv), snd kv)) kw)) (DOpt false false false)))))
      (fun input =>
    tbind (low (validate_val input)) (fun _ =>
    tbind (logged (TRun input) (tk_run t input)) (fun output =>
    tbind (low (isinstance C output (tk_output t))) (fun b =>
    if (b : bool) then
      tbind (low (validate_val output)) (fun _ =>
      logged (TProcess output) (tk_process t output))
    else low (wrong_output output))))).
End Call.
