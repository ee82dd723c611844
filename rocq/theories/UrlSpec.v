(** Specification vocabulary for URL: what the text of a URL looks like. *)
From Verif Require Import PyBase PyFloat PyVal Basic Url.
Local Open Scope list_scope.

(** [c] is [l] without control characters and spaces in front, and without
    tabs and newlines. *)
Definition cleaned (l c : list ascii) : Prop :=
  exists pre post, l = pre ++ post /\ Forall (fun x => (code x <= 32)%N) pre /\
    (forall x r, post = x :: r -> (32 < code x)%N) /\
    c = filter (fun x => negb (existsb (N.eqb (code x)) [9; 10; 13]%N)) post.

Definition letters : list ascii := chars "abcdefghijklmnopqrstuvwxyzABCDEFGHIJKLMNOPQRSTUVWXYZ".
Definition lacks (cs : string) (l : list ascii) : Prop := forall x, In x (chars cs) -> ~ In x l.
(** nothing, or text that begins with [x] *)
Definition begins (x : ascii) (l : list ascii) : Prop := l = [] \/ exists r, l = x :: r.

(** [c] is S://NPQF: scheme, network location, path with its parameters, query
    with its '?', fragment with its '#'. *)
Definition reads (c S N P Q F : list ascii) : Prop :=
  c = S ++ chars "://" ++ N ++ P ++ Q ++ F /\
  (exists x r, S = x :: r /\ In x letters) /\
  Forall (fun x => In x (letters ++ chars "0123456789+-.")) S /\
  lacks "/?#" N /\
  begins "/" P /\ lacks "?#" P /\
  begins "?" Q /\ lacks "#" Q /\
  begins "#" F.

(** Brackets in the network location come in pairs, around a host that is
    accepted. *)
Definition brackets_ok (host_ok : string -> bool) (N : list ascii) : Prop :=
  lacks "[]" N \/
  In "]"%char N /\
  exists pre host post, N = pre ++ "["%char :: host ++ post /\ lacks "[" pre /\ lacks "]" host /\
    begins "]" post /\ host_ok (unchars host) = true.

(** The path [P] is [A;B] where [B] are the parameters of its last segment. *)
Definition last_params (P A B : list ascii) : Prop :=
  P = A ++ ";"%char :: B /\ lacks "/" B /\
  exists dirs name, A = dirs ++ name /\ (dirs = [] \/ exists d, dirs = d ++ ["/"%char]) /\ lacks "/;" name.

(** The schemes for which Python recognizes parameters in the path. *)
Definition with_params : list string :=
  ["http"; "https"; "shttp"; "ftp"; "sftp"; "hdl"; "prospero"; "imap"; "rtsp"; "rtsps"; "rtspu"; "sip"; "sips"; "mms"; "tel"]%string.
(** What becomes of the path: parameters of the last segment are recognized for
    some schemes only; empty ones are dropped. *)
Definition path_kept (scheme : string) (remove : bool) (P P' : list ascii) : Prop :=
  (In scheme with_params /\ exists A B, last_params P A B /\ P' = if remove then A else match B with [] => A | _ => P end) \/
  ((In scheme with_params -> forall A B, ~ last_params P A B) /\ P' = P).
(** Query or fragment: an empty one is dropped. *)
Definition part_kept (remove : bool) (Q : list ascii) : list ascii :=
  if remove then [] else match Q with [_] => [] | _ => Q end.
