(** Specification of warnings. *)
From Verif Require Import Warnings MessagesSpec.
Local Open Scope list_scope.
Local Open Scope string_scope.
Local Open Scope nat_scope.

(** [name] leads through [n] Renamed properties to [m], which is none; [ws]: the
    pairs of old and new name of those that warn *)
Inductive leads (renamed : string -> option ropts) : nat -> string -> list (string * string) -> string -> Prop :=
| le_end m : renamed m = None -> leads renamed 0 m [] m
| le_quiet n old new ws m : renamed old = Some (RO new false) -> leads renamed n new ws m -> leads renamed (S n) old ws m
| le_warn n old new ws m : renamed old = Some (RO new true) -> leads renamed n new ws m -> leads renamed (S n) old ((old, new) :: ws) m.
(** Warnings for these pairs, one after the other, up to the first that raises *)
Inductive emits {St} (emit : warning -> St -> option exn * St) : list (string * string) -> St -> option exn -> St -> Prop :=
| em_done s : emits emit [] s None s
| em_raise old new ws w s e s' : w_category w = FutureW -> occurs ("'" ++ old ++ "'") (w_text w) -> occurs ("'" ++ new ++ "'") (w_text w) ->
    emit w s = (Some e, s') -> emits emit ((old, new) :: ws) s (Some e) s'
| em_next old new ws w s s1 o s' : w_category w = FutureW -> occurs ("'" ++ old ++ "'") (w_text w) -> occurs ("'" ++ new ++ "'") (w_text w) ->
    emit w s = (None, s1) -> emits emit ws s1 o s' -> emits emit ((old, new) :: ws) s o s'.
