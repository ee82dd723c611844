(** Specifications for Utils.v. *)
From Verif Require Import World Utils.
Local Open Scope string_scope.
Local Open Scope list_scope.
Local Open Scope nat_scope.

(** [l] is an interleaving of [a] and [b]: each keeps its order. *)
Inductive interleaved {A} : list A -> list A -> list A -> Prop :=
| il_nil : interleaved [] [] []
| il_left x a b l : interleaved a b l -> interleaved (x :: a) b (x :: l)
| il_right x a b l : interleaved a b l -> interleaved a (x :: b) (x :: l).

(** Going through the events in order with the stack of running bodies: a body
    starts only for an object that is not on the stack, the backup is used only
    for one that is, and bodies are left in reverse order; [out] is the stack at
    the end. *)
Inductive nested : list nat -> list revent -> list nat -> Prop :=
| ns_nil st : nested st [] st
| ns_body o st t out : ~ In o st -> nested (o :: st) t out -> nested st (RBody o :: t) out
| ns_done o st t out : nested st t out -> nested (o :: st) (RDone o :: t) out
| ns_backup o st t out : In o st -> nested st t out -> nested st (RBackup o :: t) out.
(** All calls made by the program are on objects of the list. *)
Inductive calls_within (objs : list nat) : rprog -> Prop :=
| cw_ret v : calls_within objs (RRet v)
| cw_raise e : calls_within objs (RRaise e)
| cw_call o a k : In o objs -> (forall r, calls_within objs (k r)) -> calls_within objs (RCall o a k).
(** No calls at all: a constant or an exception. *)
Definition constant (p : rprog) : Prop := match p with RCall _ _ _ => False | _ => True end.
(** The program run with a fixed meaning of the calls. *)
Fixpoint meaning (call : nat -> val -> rstate -> option (res val * rstate)) (p : rprog) (s : rstate) : option (res val * rstate) :=
  match p with
  | RRet v => Some (Ok v, s)
  | RRaise e => Some (Exc e, s)
  | RCall o a k => match call o a s with
                   | Some (r, s1) => meaning call (k r) s1
                   | None => None
                   end
  end.

(** What the with statement should do: the modes disabled inside are those of
    the context manager and those disabled outside; afterwards it is as before. *)
Fixpoint scoped (types : nat -> option (list lmode)) (p : lcode) (q : list lmode) : bool * list (list lmode) :=
  match p with
  | LLook => (true, [q])
  | LRaise => (false, [])
  | LSeq a b => let (ok, t) := scoped types a q in
                if ok then let (ok2, t2) := scoped types b q in (ok2, t ++ t2) else (ok, t)
  | LWith c b => scoped types b (match types c with None => all_modes | Some ts => q ++ ts end)
  | LTry b => (true, snd (scoped types b q))
  end.
(** No with statement uses a context manager inside its own block. *)
Fixpoint not_reentered (active : list nat) (p : lcode) : Prop :=
  match p with
  | LLook | LRaise => True
  | LSeq a b => not_reentered active a /\ not_reentered active b
  | LWith c b => ~ In c active /\ not_reentered (c :: active) b
  | LTry b => not_reentered active b
  end.
(** The state at import: one set, no modes disabled. *)
Definition ls_start : lstate := LS [[]] 0 (fun _ => None).
