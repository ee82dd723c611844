(** Specification vocabulary for the leaf properties, independent of the
    validators of Basic.v. *)
From Verif Require Import PyBase PyFloat PyVal Basic NumSpec.
Open Scope Z_scope.

(** Bounds are inclusive; an absent bound does not constrain. *)
Definition within (mn mx : option num) (x : num) : Prop :=
  (forall m, mn = Some m -> ~ ext_lt (ext_of x) (ext_of m)) /\
  (forall m, mx = Some m -> ~ ext_lt (ext_of m) (ext_of x)).

Definition valid_opt (o : option num) : Prop := forall m, o = Some m -> valid_num m.

(** [|a - b| <= 1e-9] in exact arithmetic, for finite numbers. *)
Definition close (a b : num) : Prop :=
  exists x y, ext_of a = Fin x /\ ext_of b = Fin y /\ Z.abs (x - y) <= tol_units.

(** All strings of a choice table, compared as the property compares them. *)
Definition table_keys (cs : bool) (choices : list (string * list string)) : list string :=
  map (fun s => if cs then s else str_upper s) (flat_map (fun kv => fst kv :: snd kv) choices).
Definition no_collisions (cs : bool) (choices : list (string * list string)) : Prop :=
  NoDup (table_keys cs choices).
(** [s] is the key or one of the aliases of the entry [kv]. *)
Definition names_entry (cs : bool) (s : string) (kv : string * list string) : Prop :=
  exists a, In a (fst kv :: snd kv) /\ (if cs then s = a else str_upper s = str_upper a).

(** [r] is [l] with all characters of [cs] removed at both ends. *)
Definition stripped (cs l r : list ascii) : Prop :=
  exists pre post, l = pre ++ r ++ post /\ Forall (fun c => In c cs) pre /\ Forall (fun c => In c cs) post /\
  (forall c r', r = c :: r' -> ~ In c cs) /\ (forall c r', r = r' ++ [c] -> ~ In c cs).

(** A hexadecimal digit and its value. *)
Definition hex_table : list (ascii * Z) :=
  combine (chars "0123456789abcdefABCDEF")
          [0;1;2;3;4;5;6;7;8;9;10;11;12;13;14;15;10;11;12;13;14;15].
Definition hexval (c : ascii) (z : Z) : Prop := In (c, z) hex_table.

(** A Python int (bool included) between [lo] and [hi]. *)
Definition int_in (lo hi : Z) (v : val) : Prop :=
  match v with
  | VInt z => lo <= z <= hi
  | VBool b => lo <= (if b then 1 else 0) <= hi
  | _ => False
  end.

Definition no_micro (d : datetime) : datetime :=
  DT (dyear d) (dmonth d) (dday d) (dhour d) (dmin d) (dsec d) 0.

(** Decimal text of [n] in [k] digits. *)
Fixpoint decimal (k : nat) (n : Z) : list ascii :=
  match k with
  | O => []
  | S k' => decimal k' (n / 10) ++ [ascii_of_N (48 + Z.to_N (n mod 10))]
  end.

(** When revalidation of a leaf is the identity: string options must not
    interact (see the refutation in PropertiesBasic.v) and choice tables must
    be the ones the setter accepts. *)
Definition coherent (t : leaf) : Prop :=
  match t with
  | LfString o =>
      so_regex o = None /\
      match so_case o with
      | CNone => True
      | CUpper => forall c, In (ch_upper c) (chars (so_strip o)) -> In c (chars (so_strip o))
      | CLower => forall c, In (ch_lower c) (chars (so_strip o)) -> In c (chars (so_strip o))
      end
  | LfChoice cs ch => no_collisions cs ch
  | _ => True
  end.

(** * The accepted date texts *)

(** Text of a two-digit field with value [n]: two digits, or one digit not
    below [lo1], or (if [space]) a space and one non-zero digit. *)
Inductive fld (lo1 : Z) (space : bool) (n : Z) : list ascii -> Prop :=
| fld_two : 0 <= n <= 99 -> fld lo1 space n (decimal 2 n)
| fld_one : lo1 <= n <= 9 -> 0 <= n -> fld lo1 space n (decimal 1 n)
| fld_space : space = true -> 1 <= n <= 9 -> fld lo1 space n (" "%char :: decimal 1 n).

(** Date text: YYYY-MM-DD with '-' or '/' separators, ten characters in total. *)
Definition date_text (l : list ascii) (y m d : Z) : Prop :=
  exists s1 s2 tm td, l = decimal 4 y ++ [s1] ++ tm ++ [s2] ++ td /\
    In s1 (chars "-/") /\ In s2 (chars "-/") /\ fld 1 false m tm /\ fld 1 true d td.

(** Date and time text: YYYY-MM-DDTHH:MM:SSZ ('T' and 'Z' in either case). *)
Definition datetime_text (l : list ascii) (x : datetime) : Prop :=
  exists tm td th tmi ts ct cz,
    l = decimal 4 (dyear x) ++ ["-"%char] ++ tm ++ ["-"%char] ++ td ++ [ct] ++ th ++ [":"%char] ++ tmi
        ++ [":"%char] ++ ts ++ [cz] /\
    In ct (chars "Tt") /\ In cz (chars "Zz") /\
    fld 1 false (dmonth x) tm /\ fld 1 true (dday x) td /\
    fld 0 false (dhour x) th /\ fld 0 false (dmin x) tmi /\ fld 0 false (dsec x) ts.

(** A possible calendar date and time of day (Gregorian calendar, years 1-9999). *)
Definition calendar (x : datetime) : Prop :=
  1 <= dyear x <= 9999 /\ 1 <= dmonth x <= 12 /\
  1 <= dday x <= (if (dmonth x =? 2) then
                    (if ((dyear x mod 4 =? 0) && (negb (dyear x mod 100 =? 0) || (dyear x mod 400 =? 0))) then 29 else 28)
                  else if existsb (Z.eqb (dmonth x)) [4; 6; 9; 11] then 30 else 31) /\
  0 <= dhour x <= 23 /\ 0 <= dmin x <= 59 /\ 0 <= dsec x <= 59 /\ 0 <= dmicro x <= 999999.

(** * JSON words for booleans *)
Definition true_words : list string := ["true"; "y"; "yes"; "on"]%string.
Definition false_words : list string := ["false"; "n"; "no"; "off"]%string.

(** Values whose floats are IEEE doubles; conversions by the environment
    return doubles. *)
Definition valid_val (v : val) : Prop := match v with VFloat f => valid_float f = true | _ => True end.
Definition valid_env (E : env) : Prop := forall s f, e_fparse E s = Some f -> valid_float f = true.


(** The environment's [float()] reads the names of the special values. *)
Definition reads_special (E : env) : Prop :=
  e_fparse E "nan" = Some S754_nan /\
  e_fparse E "inf" = Some (S754_infinity false) /\
  e_fparse E "-inf" = Some (S754_infinity true).
