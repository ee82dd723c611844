(** Specification of the texts that Python reads as whole numbers ([int(text)]
    and [int(text, 16)]), and of the colour and uuid texts made of them,
    independent of the parsers of PyBase.v and Basic.v. *)
From Verif Require Import PyBase PyFloat PyVal Basic BasicSpec.
Open Scope Z_scope.

(** White space: tab, line feed, vertical tab, form feed, carriage return, the
    four ASCII separators and the space. *)
Definition spaces : list ascii := map ascii_of_nat [9; 10; 11; 12; 13; 28; 29; 30; 31; 32]%nat.

(** The digits and their values. *)
Definition digit_table : list (ascii * Z) :=
  combine (chars "0123456789abcdefghijklmnopqrstuvwxyz") (map Z.of_nat (seq 0 36)) ++
  combine (chars "ABCDEFGHIJKLMNOPQRSTUVWXYZ") (map Z.of_nat (seq 10 26)).
Definition digit (base : Z) (c : ascii) (d : Z) : Prop := In (c, d) digit_table /\ d < base.

(** Digits with at most one underscore between two of them, and their value. *)
Inductive digits (base : Z) : list ascii -> Z -> Prop :=
| ds_one c d : digit base c d -> digits base [c] d
| ds_next l n c d : digits base l n -> digit base c d -> digits base (l ++ [c]) (n * base + d)
| ds_under l n c d : digits base l n -> digit base c d -> digits base (l ++ ["_"%char; c]) (n * base + d).

Inductive sign : list ascii -> Z -> Prop :=
| sg_none : sign [] 1
| sg_plus : sign ["+"%char] 1
| sg_minus : sign ["-"%char] (-1).

(** In base 16 the digits may follow 0x or 0X, and one underscore. *)
Inductive prefix (base : Z) : list ascii -> Prop :=
| px_none : prefix base []
| px_0x x u : base = 16 -> x = "x"%char \/ x = "X"%char -> u = [] \/ u = ["_"%char] ->
    prefix base ("0"%char :: x :: u).

(** [l] is a text of the number [z]. *)
Definition int_text (base : Z) (l : list ascii) (z : Z) : Prop :=
  exists sp sg px ds sp' k n,
    l = sp ++ sg ++ px ++ ds ++ sp' /\
    Forall (fun c => In c spaces) sp /\ Forall (fun c => In c spaces) sp' /\
    sign sg k /\ prefix base px /\ digits base ds n /\ z = k * n.

(** The text of a colour: any number of #, then three pairs of characters, or
    three characters that count twice, each a text of a number in base 16. *)
Definition color_text (s : string) (r g b : Z) : Prop :=
  exists n body,
    chars s = repeat "#"%char n ++ body /\ (forall t, body <> "#"%char :: t) /\
    (exists c1 c2 c3 c4 c5 c6,
       (body = [c1; c2; c3; c4; c5; c6] \/ body = [c1; c3; c5] /\ c2 = c1 /\ c4 = c3 /\ c6 = c5) /\
       int_text 16 [c1; c2] r /\ int_text 16 [c3; c4] g /\ int_text 16 [c5; c6] b) /\
    0 <= r /\ 0 <= g /\ 0 <= b.

(** [r] is [l] without the occurrences of [pat], found from the left. *)
Inductive removed (pat : list ascii) : list ascii -> list ascii -> Prop :=
| rm_nil : removed pat [] []
| rm_hit l r : removed pat l r -> removed pat (pat ++ l) r
| rm_keep c l r : (forall t, c :: l <> pat ++ t) -> removed pat l r -> removed pat (c :: l) (c :: r).

(** The text of a uuid: what is left of it without urn:, uuid:, braces at the
    ends and dashes has 32 characters that are a text of the number in base 16. *)
Definition uuid_text (s : string) (n : N) : Prop :=
  exists l1 l2 l3 l4,
    removed (chars "urn:") (chars s) l1 /\ removed (chars "uuid:") l1 l2 /\
    stripped (chars "{}") l2 l3 /\ removed (chars "-") l3 l4 /\
    length l4 = 32%nat /\ int_text 16 l4 (Z.of_N n).
