(** extras/task.py: reporting the status of a task.

    Not modelled: the output stream of [print] (the printed line is the result
    here) and the formatting of a message that is not a string, which only a
    subclass of TaskStatus can hold ([show], arbitrary).  [round] is Python
    3's, to the nearest integer and to the even one if there are two; Python 2
    rounds those away from zero. *)
From Verif Require Import World.
From Coq Require Import DecimalString.
Local Open Scope string_scope.
Local Open Scope list_scope.

(** task.py:29-41 [TaskStatus]; the class has no listeners and no defaults *)
Definition progress_decl : pdecl := PD KProp (PLeaf (LfFloat false (Some (NZ 0)) (Some (NZ 1)))) false DUndef.
(** task.py:38-41 *)
Definition message_decl : pdecl := PD KProp (PLeaf (LfString (SO "" CNone None))) false DUndef.
(** task.py:32-41 *)
Definition status_props : list (string * pdecl) := [("progress", progress_decl); ("message", message_decl)].

(** [float(100)] *)
Definition hundred : float := S754_finite false 7036874417766400 (-46).

(** [round(f)] of a float without a number of digits (CPython's
    float.__round__), an int *)
Definition fround (f : float) : res Z :=
  match f with
  | S754_nan => Exc ExValue
  | S754_infinity _ => Exc ExOverflow
  | S754_zero _ => Ok 0%Z
  | S754_finite s m e =>
      let a := if (0 <=? e)%Z then (Z.pos m * 2 ^ e)%Z
               else let d := (2 ^ (- e))%Z in
                    let q := (Z.pos m / d)%Z in
                    match (2 * (Z.pos m mod d) ?= d)%Z with
                    | Lt => q
                    | Gt => (q + 1)%Z
                    | Eq => if Z.even q then q else (q + 1)%Z
                    end in
      Ok (if s then (- a)%Z else a)
  end.

(** task.py:86 [int(round(100*progress))]; a sequence is repeated, which
    cannot be rounded *)
Definition percent (v : val) : res Z :=
  match as_num v with
  | Some (NZ z) => Ok (100 * z)%Z
  | Some (NF f) => fround (SFmul prec emax hundred f)
  | None => Exc ExType
  end.

(** [{percent:>3}] *)
Definition pad3 (s : string) : string :=
  match s with
  | EmptyString => "   "
  | String _ EmptyString => ("  " ++ s)%string
  | String _ (String _ EmptyString) => (" " ++ s)%string
  | _ => s
  end.
(** [str] of an int (task.py:86). *)
Definition show_int (z : Z) : string := NilZero.string_of_int (Z.to_int z).

(** task.py:84-88 *)
Definition status_line (taskname : string) (z : Z) (message : string) : string :=
  (taskname ++ " | " ++ pad3 (show_int z) ++ "% | " ++ message)%string.

Section Report.
  Variable E : env.
  Variable C : ctable.
  Variable U : ucode.
  Variable fuel : nat.
  Variable show : val -> string.

  (** [{message}] *)
  Definition show_message (v : val) : string := match v with VStr s => s | _ => show v end.

  (** task.py:81-88 [BaseTask.report_status]; [cid] is the class TaskStatus,
      [taskname] the name of the class of the task.  The attribute [message]
      is read a second time if it is true. *)
  Definition report_status (taskname : string) (cid : nat) (status : val) : M string :=
    let* s := p_validate E C (exec E C U fuel) (PInst cid) None "" status in
    match s with
    | VInst l =>
        let* p := exec E C U fuel (COp (OGet l "progress")) in
        let* z := lift (percent p) in
        let* m := exec E C U fuel (COp (OGet l "message")) in
        let* t := (if truthy m then let* m' := exec E C U fuel (COp (OGet l "message")) in ret (show_message m')
                   else ret "") in
        ret (status_line taskname z t)
    | _ => throw ExAttr
    end.
End Report.
