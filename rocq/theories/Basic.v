(** Shallow model of the leaf properties of basic.py: [validate], [equal],
    [to_json], [from_json], function by function. *)
From Verif Require Import PyBase PyFloat PyVal Colors.
Open Scope Z_scope.

(** Result of a leaf [validate]:
    - [LOk v]: the (possibly coerced) value;
    - [LErr n]: [self.error(instance, value)] is raised, i.e.
      ValidationError(reason 'invalid', prop self.name, instance) (basic.py:355-356),
      after [n] earlier ValidationErrors that were constructed (and therefore
      reached [instance._error_hook], utils.py:164-165) and swallowed;
    - [LExc e]: another exception escapes. *)
Inductive lres := LOk (v : val) | LErr (swallowed : nat) | LExc (e : exn).

(** String options, basic.py:967-1021.  The compiled regex is represented by
    the predicate "[regex.search(s) is not None]". *)
Inductive ccase := CNone | CUpper | CLower.
(** The options of String (basic.py:967-1021). *)
Record sopts := SO { so_strip : string; so_case : ccase; so_regex : option (string -> bool) }.

(** Leaf property types with their options.
    [LfAny]: Property (basic.py:595) and GettableProperty; [LfUuid]: Uuid. *)
Inductive leaf :=
| LfAny
| LfBool (cast : bool)
| LfInt (cast : bool) (mn mx : option num)
| LfFloat (cast : bool) (mn mx : option num)
| LfComplex (cast : bool)
| LfString (o : sopts)
| LfChoice (case_sensitive : bool) (choices : list (string * list string))
| LfColor
| LfDate
| LfUuid.

(** * Boolean, basic.py:732-756 *)

(** basic.py:732-738 ([BOOLEAN_TYPES] without numpy) *)
Definition bool_validate (cast : bool) (v : val) : lres :=
  let v := if cast then VBool (truthy v) else v in
  match v with VBool _ => LOk v | _ => LErr 0 end.

(** basic.py:743-756 *)
Definition bool_from_json (v : val) : res val :=
  match v with
  | VStr s =>
      let u := str_upper s in
      if mem_str u ["TRUE"; "Y"; "YES"; "ON"]%string then Ok (VBool true)
      else if mem_str u ["FALSE"; "N"; "NO"; "OFF"]%string then Ok (VBool false)
      else Exc ExValue
  | VInt _ | VBool _ => Ok v
  | _ => Exc ExValue
  end.

(** * Integer and Float *)

(** basic.py:764-770 [_in_bounds]: true when no error is raised *)
Definition in_bounds (mn mx : option num) (n : num) : bool :=
  negb (match mn with Some m => nlt n m | None => false end
        || match mx with Some m => ngt n m | None => false end).

(** [except (TypeError, ValueError): self.error(...)], basic.py:821-822, 875-876 *)
Definition catch_cast (e : exn) (k : nat) : lres :=
  match e with
  | ExType | ExValue => LErr k
  | ExValidation _ => LErr (S k)
  | _ => LExc e
  end.

(** [abs(value - converted) > TOL], TypeError for values without subtraction
    of numbers (strings); the operands reaching this point are int, bool,
    float or str (basic.py:815, 869). *)
Definition off_tolerance (v : val) (n : num) : res bool :=
  match as_num v with
  | Some m => rbind (absdiff m n) (fun d => Ok (ngt d (NF TOL)))
  | None => Exc ExType
  end.

(** basic.py:811-824. A tolerance failure raises inside the [try], is caught as
    a ValueError and raised again (line 822): one swallowed error. *)
Definition int_validate (cast : bool) (mn mx : option num) (v : val) : lres :=
  match py_int v with
  | Exc e => catch_cast e 0
  | Ok z =>
      match (if cast then Ok false else off_tolerance v (NZ z)) with
      | Exc e => catch_cast e 0
      | Ok true => LErr 1
      | Ok false => if in_bounds mn mx (NZ z) then LOk (VInt z) else LErr 0
      end
  end.

(** basic.py:862-878 *)
Definition float_validate (E : env) (cast : bool) (mn mx : option num) (v : val) : lres :=
  match py_float E v with
  | Exc e => catch_cast e 0
  | Ok f =>
      match (if cast then Ok false else off_tolerance v (NF f)) with
      | Exc e => catch_cast e 0
      | Ok true => LErr 1
      | Ok false => if in_bounds mn mx (NF f) then LOk (VFloat f) else LErr 0
      end
  end.

(** basic.py:880-884.  Complex operands (never valid Float values) are not
    modelled and give False. *)
Definition float_equal (a b : val) : res bool :=
  match as_num a, as_num b with
  | Some m, Some n => rbind (absdiff m n) (fun d => Ok (nle d (NF TOL)))
  | _, _ => Ok false
  end.

(** basic.py:886-890 *)
Definition float_to_json (v : val) : res val :=
  match v with
  | VFloat f => Ok (if is_special f then VStr (special_str f) else v)
  | VInt z => match fofZ z with Some _ => Ok v | None => Exc ExOverflow end
  | VBool _ => Ok v
  | _ => Exc ExType
  end.

(** * Complex *)

(** [value.real], [value.imag] (basic.py:917-926) *)
Definition re_im (v : val) : res (num * num) :=
  match v with
  | VComplex r i => Ok (NF r, NF i)
  | VFloat f => Ok (NF f, NF fzero)
  | VInt z => Ok (NZ z, NZ 0)
  | VBool b => Ok (NZ (if b then 1 else 0), NZ 0)
  | _ => Exc ExAttr
  end.

(** basic.py:925-926 also catches AttributeError *)
Definition catch_complex (e : exn) : lres :=
  match e with ExAttr => LErr 0 | _ => catch_cast e 0 end.

(** basic.py:909-927 *)
Definition complex_validate (E : env) (cast : bool) (v : val) : lres :=
  match py_complex E v with
  | Exc e => catch_complex e
  | Ok (r, i) =>
      match (if cast then Ok false else
             rbind (re_im v) (fun p =>
             rbind (absdiff (fst p) (NF r)) (fun d =>
             if ngt d (NF TOL) then Ok true else
             rbind (absdiff (snd p) (NF i)) (fun d' => Ok (ngt d' (NF TOL)))))) with
      | Exc e => catch_complex e
      | Ok true => LErr 1
      | Ok false => LOk (VComplex r i)
      end
  end.

(** basic.py:929-935 *)
Definition complex_equal (a b : val) : res bool :=
  match re_im a, re_im b with
  | Ok (ra, ia), Ok (rb, ib) =>
      rbind (absdiff ra rb) (fun d =>
      rbind (absdiff ia ib) (fun d' =>
      Ok (nle d (NF TOL) && nle d' (NF TOL))))
  | _, _ => Ok false
  end.

(** basic.py:937-939 [str(value)]; only complex values are modelled. *)
Definition complex_to_json (E : env) (v : val) : res val :=
  match v with VComplex r i => Ok (VStr (e_cstr E r i)) | _ => Exc ExNotImpl end.

(** * String, basic.py:1023-1039 ([unicode] has no effect on Python 3) *)
Definition string_validate (o : sopts) (v : val) : lres :=
  match v with
  | VStr s =>
      if match so_regex o with Some r => negb (r s) | None => false end then LErr 0
      else
        let s := str_strip (so_strip o) s in
        LOk (VStr (match so_case o with
                   | CUpper => str_upper s
                   | CLower => str_lower s
                   | CNone => s
                   end))
  | _ => LErr 0
  end.

(** * StringChoice, basic.py:1160-1170 *)
Definition choice_test (cs : bool) (s : string) : string := if cs then s else str_upper s.
(** basic.py:1164-1169: does the choice or one of its synonyms match? *)
Definition choice_match (cs : bool) (s : string) (kv : string * list string) : bool :=
  String.eqb (choice_test cs s) (choice_test cs (fst kv)) ||
  mem_str (choice_test cs s) (map (choice_test cs) (snd kv)).
(** basic.py:1160-1170 [StringChoice.validate] *)
Definition choice_validate (cs : bool) (choices : list (string * list string)) (v : val) : lres :=
  match v with
  | VStr s =>
      match find (choice_match cs s) choices with
      | Some (key, _) => LOk (VStr key)
      | None => LErr 0
      end
  | _ => LErr 0
  end.

(** * Color, basic.py:1186-1222 *)

(** basic.py:1211 [isinstance(val, integer_types) and 0 <= val <= 255] *)
Definition color_comp (v : val) : bool :=
  match v with
  | VInt z => (0 <=? z) && (z <=? 255)
  | VBool _ => true
  | _ => false
  end.

(** basic.py:1193-1194: three digits become six. *)
Definition double_chars (l : list ascii) : list ascii := flat_map (fun c => [c; c]) l.

(** basic.py:1198-1204 *)
Definition hex_triple (l : list ascii) : option (list val) :=
  match l with
  | [a; b; c; d; e; f] =>
      match parse_int_chars 16 [a; b], parse_int_chars 16 [c; d], parse_int_chars 16 [e; f] with
      | Some r, Some g, Some bl => Some [VInt r; VInt g; VInt bl]
      | _, _, _ => None
      end
  | _ => None
  end.

(** basic.py:1205-1214 *)
Definition color_components (l : list val) : lres :=
  if Nat.eqb (length l) 3 then
    if forallb color_comp l then LOk (VTuple l) else LErr 0
  else LErr 0.

(** basic.py:1186-1214; [rc] is the index picked by [random.choice]. *)
Definition color_validate (rc : nat) (v : val) : lres :=
  match v with
  | VStr s =>
      let s := match dget COLORS_NAMED s with Some h => h | None => s end in
      let s := if String.eqb (str_upper s) "RANDOM" then nth (rc mod 20) COLORS_20 ""%string else s in
      let l := chars (str_lstrip "#" (str_upper s)) in
      let l := if Nat.eqb (length l) 3 then double_chars l else l in
      match hex_triple l with
      | Some comps => color_components comps
      | None => LErr 0
      end
  | VList l | VTuple l => color_components l
  | _ => LErr 0
  end.

(** * DateTime, basic.py:1238-1266 *)

(** Of the standard library's datetime (basic.py:1262-1266). *)
Definition is_leap (y : Z) : bool :=
  (y mod 4 =? 0) && (negb (y mod 100 =? 0) || (y mod 400 =? 0)).
(** Of the standard library's datetime (basic.py:1262-1266). *)
Definition days_in_month (y m : Z) : Z :=
  if m =? 2 then (if is_leap y then 29 else 28)
  else if (m =? 4) || (m =? 6) || (m =? 9) || (m =? 11) then 30 else 31.
(** The range checks of the [datetime] constructor (basic.py:1262-1266). *)
Definition dt_ok (d : datetime) : bool :=
  (1 <=? dyear d) && (dyear d <=? 9999) && (1 <=? dmonth d) && (dmonth d <=? 12) &&
  (1 <=? dday d) && (dday d <=? days_in_month (dyear d) (dmonth d)) &&
  (0 <=? dhour d) && (dhour d <=? 23) && (0 <=? dmin d) && (dmin d <=? 59) &&
  (0 <=? dsec d) && (dsec d <=? 59) && (0 <=? dmicro d) && (dmicro d <=? 999999).

(** A decimal digit, for [strptime] (basic.py:1261-1266). *)
Definition dig (c : ascii) : option Z :=
  match digit_val c with Some d => if d <? 10 then Some d else None | None => None end.

(** One strptime field: the regular expressions of CPython's _strptime accept
    the two-digit alternatives first, then one digit; [%d] also accepts a
    space followed by a digit. [lo1] is the least one-digit value (basic.py:1262-1266). *)
Definition field (lo hi lo1 : Z) (space : bool) (l : list ascii) : option (Z * list ascii) :=
  match l with
  | c1 :: r1 =>
      let one := match dig c1 with
                 | Some d => if lo1 <=? d then Some (d, r1) else None
                 | None =>
                     if space && Ascii.eqb c1 " " then
                       match r1 with
                       | c2 :: r2 => match dig c2 with Some d => if 1 <=? d then Some (d, r2) else None | None => None end
                       | [] => None
                       end
                     else None
                 end in
      match r1 with
      | c2 :: r2 =>
          match dig c1, dig c2 with
          | Some a, Some b =>
              let n := 10 * a + b in
              if (lo <=? n) && (n <=? hi) then Some (n, r2) else one
          | _, _ => one
          end
      | [] => one
      end
  | [] => None
  end.

(** [%Y]: exactly four digits (basic.py:1262-1266). *)
Definition year_field (l : list ascii) : option (Z * list ascii) :=
  match l with
  | a :: b :: c :: d :: r =>
      match dig a, dig b, dig c, dig d with
      | Some a, Some b, Some c, Some d => Some (1000 * a + 100 * b + 10 * c + d, r)
      | _, _, _, _ => None
      end
  | _ => None
  end.

(** A literal character of the format (matching ignores case) (basic.py:1262-1266). *)
Definition lit (c : ascii) (l : list ascii) : option (list ascii) :=
  match l with
  | x :: r => if Ascii.eqb (ch_lower x) (ch_lower c) then Some r else None
  | [] => None
  end.

Notation "'let?' x ':=' e 'in' k" := (match e with Some x => k | None => None end)
  (at level 200, x pattern, k at level 200).

(** [strptime(s, '%Y/%m/%d')] (basic.py:1262-1266) *)
Definition parse_date (l : list ascii) : option datetime :=
  let? (y, l) := year_field l in
  let? l := lit "/" l in
  let? (m, l) := field 1 12 1 false l in
  let? l := lit "/" l in
  let? (d, l) := field 1 31 1 true l in
  match l with
  | [] => let r := DT y m d 0 0 0 0 in if dt_ok r then Some r else None
  | _ => None
  end.

(** [strptime(s, '%Y-%m-%dT%H:%M:%SZ')] (basic.py:1262-1266) *)
Definition parse_datetime (l : list ascii) : option datetime :=
  let? (y, l) := year_field l in
  let? l := lit "-" l in
  let? (m, l) := field 1 12 1 false l in
  let? l := lit "-" l in
  let? (d, l) := field 1 31 1 true l in
  let? l := lit "T" l in
  let? (hh, l) := field 0 23 0 false l in
  let? l := lit ":" l in
  let? (mi, l) := field 0 59 0 false l in
  let? l := lit ":" l in
  let? (ss, l) := field 0 61 0 false l in
  let? l := lit "Z" l in
  match l with
  | [] => let r := DT y m d hh mi ss 0 in if dt_ok r then Some r else None
  | _ => None
  end.

(** basic.py:1261-1266 on a string; ValueError is [None] *)
Definition date_of_string (s : string) : option datetime :=
  let l := chars s in
  if Nat.eqb (length l) 10
  then parse_date (map (fun c => if Ascii.eqb c "-" then "/"%char else c) l)
  else parse_datetime l.

(** basic.py:1261-1266; on non-strings [len] or [replace]/[strptime] fail *)
Definition date_from_json (v : val) : res val :=
  match v with
  | VStr s => match date_of_string s with Some d => Ok (VDate d) | None => Exc ExValue end
  | VList l | VTuple l | VSet l => if Nat.eqb (length l) 10 then Exc ExAttr else Exc ExType
  | VDict l => if Nat.eqb (length l) 10 then Exc ExAttr else Exc ExType
  | _ => Exc ExType
  end.

(** basic.py:1238-1255 *)
Definition date_validate (v : val) : lres :=
  match v with
  | VDate _ => LOk v
  | VStr s => match date_of_string s with Some d => LOk (VDate d) | None => LErr 0 end
  | _ => LErr 0
  end.

(** A decimal digit, for [strftime] (basic.py:1257-1259). *)
Definition digit_chr (d : Z) : ascii := ascii_of_N (48 + Z.to_N d).
(** Two digits, for [strftime] (basic.py:1257-1259). *)
Definition pad2 (n : Z) : list ascii := [digit_chr (n / 10 mod 10); digit_chr (n mod 10)].
(** Four digits, for [strftime] (basic.py:1257-1259). *)
Definition pad4 (n : Z) : list ascii :=
  [digit_chr (n / 1000 mod 10); digit_chr (n / 100 mod 10); digit_chr (n / 10 mod 10); digit_chr (n mod 10)].
(** [%Y] without padding (glibc), for years 1-9999 (basic.py:1258-1259) *)
Definition year_str (pad : bool) (y : Z) : list ascii :=
  if pad then pad4 y
  else if y <? 10 then [digit_chr (y mod 10)]
  else if y <? 100 then pad2 y
  else if y <? 1000 then [digit_chr (y / 100 mod 10); digit_chr (y / 10 mod 10); digit_chr (y mod 10)]
  else pad4 y.

(** basic.py:1257-1259 *)
Definition date_to_string (E : env) (d : datetime) : string :=
  unchars (year_str (e_padyear E) (dyear d) ++ ["-"%char] ++ pad2 (dmonth d) ++ ["-"%char] ++ pad2 (dday d)
           ++ ["T"%char] ++ pad2 (dhour d) ++ [":"%char] ++ pad2 (dmin d) ++ [":"%char] ++ pad2 (dsec d)
           ++ ["Z"%char]).
(** basic.py:1257-1259 [DateTime.to_json] *)
Definition date_to_json (E : env) (v : val) : res val :=
  match v with VDate d => Ok (VStr (date_to_string E d)) | _ => Exc ExAttr end.

(** * Uuid, basic.py:1285-1297 *)

(** basic.py:1285-1289 *)
Definition uuid_validate (v : val) : lres :=
  match v with VUuid _ => LOk v | _ => LErr 0 end.

(** A hexadecimal digit of [str(uuid)] (basic.py:1291-1293). *)
Definition hex_chr (d : N) : ascii :=
  if (d <? 10)%N then ascii_of_N (48 + d) else ascii_of_N (87 + d).
(** [k] lower-case hex digits of [n], most significant first (basic.py:1292-1293) *)
Fixpoint hex_digits (k : nat) (n : N) : list ascii :=
  match k with
  | O => []
  | S k' => hex_digits k' (n / 16) ++ [hex_chr (n mod 16)]
  end.
(** The dash of [str(uuid)] (basic.py:1292-1293). *)
Definition dash : ascii := "-"%char.
(** [str(uuid)]: hyphens after 8, 12, 16 and 20 digits (basic.py:1292-1293) *)
Definition uuid_str (n : N) : string :=
  let h := hex_digits 32 n in
  unchars (firstn 8 h ++ [dash] ++ firstn 4 (skipn 8 h) ++ [dash] ++ firstn 4 (skipn 12 h)
           ++ [dash] ++ firstn 4 (skipn 16 h) ++ [dash] ++ skipn 20 h).

(** [str.startswith], for reading a UUID (basic.py:1295-1297). *)
Fixpoint starts_with (p l : list ascii) : bool :=
  match p, l with
  | [], _ => true
  | a :: p', b :: l' => Ascii.eqb a b && starts_with p' l'
  | _, [] => false
  end.
(** [s.replace(pat, '')] for a non-empty pattern; [skip] characters of a
    match remain to be dropped (basic.py:1296-1297) *)
Fixpoint remove_all (pat : list ascii) (l : list ascii) (skip : nat) : list ascii :=
  match l with
  | [] => []
  | c :: r =>
      match skip with
      | S k => remove_all pat r k
      | O => if starts_with pat l then remove_all pat r (length pat - 1)
             else c :: remove_all pat r 0
      end
  end.

(** [uuid.UUID(hex)] (CPython uuid.py): ValueError is [None] (basic.py:1296-1297) *)
Definition uuid_of_string (s : string) : option N :=
  let l := remove_all (chars "urn:") (chars s) 0 in
  let l := remove_all (chars "uuid:") l 0 in
  let l := remove_all [dash] (strip_by (mem_ch (chars "{}")) l) 0 in
  if Nat.eqb (length l) 32 then
    match parse_int_chars 16 l with
    | Some z => if (0 <=? z) && (z <? 2 ^ 128) then Some (Z.to_N z) else None
    | None => None
    end
  else None.

(** basic.py:1291-1293 *)
Definition uuid_to_json (v : val) : res val :=
  match v with VUuid n => Ok (VStr (uuid_str n)) | _ => Exc ExNotImpl end.
(** basic.py:1295-1297; [str()] of values other than str and UUID is not
    modelled (ValueError). *)
Definition uuid_from_json (v : val) : res val :=
  match v with
  | VStr s => match uuid_of_string s with Some n => Ok (VUuid n) | None => Exc ExValue end
  | VUuid n => match uuid_of_string (uuid_str n) with Some n => Ok (VUuid n) | None => Exc ExValue end
  | _ => Exc ExValue
  end.

(** * Dispatch *)

(** [prop.validate(instance, value)] for leaf properties; LfAny: basic.py:226-245 *)
Definition leaf_validate (E : env) (rc : nat) (t : leaf) (v : val) : lres :=
  match t with
  | LfAny => LOk v
  | LfBool c => bool_validate c v
  | LfInt c mn mx => int_validate c mn mx v
  | LfFloat c mn mx => float_validate E c mn mx v
  | LfComplex c => complex_validate E c v
  | LfString o => string_validate o v
  | LfChoice cs ch => choice_validate cs ch v
  | LfColor => color_validate rc v
  | LfDate => date_validate v
  | LfUuid => uuid_validate v
  end.

(** [prop.equal(a, b)]: basic.py:264-275 (no numpy arrays), 740-741, 826-828,
    880-884, 929-935 *)
Definition leaf_equal (t : leaf) (a b : val) : res bool :=
  match t with
  | LfBool _ => Ok (py_is a b)
  | LfFloat _ _ _ => float_equal a b
  | LfComplex _ => complex_equal a b
  | _ => Ok (py_eq a b)
  end.

(** [prop.to_json(value)]: basic.py:316-319 and overrides *)
Definition leaf_to_json (E : env) (t : leaf) (v : val) : res val :=
  match t with
  | LfFloat _ _ _ => float_to_json v
  | LfComplex _ => complex_to_json E v
  | LfColor => rbind (py_iter v) (fun l => Ok (VList l))
  | LfDate => date_to_json E v
  | LfUuid => uuid_to_json v
  | _ => Ok v
  end.

(** [prop.from_json(value)]: basic.py:321-324 and overrides *)
Definition leaf_from_json (E : env) (t : leaf) (v : val) : res val :=
  match t with
  | LfBool _ => bool_from_json v
  | LfInt _ _ _ => rbind (py_int v) (fun z => Ok (VInt z))
  | LfFloat _ _ _ => rbind (py_float E v) (fun f => Ok (VFloat f))
  | LfComplex _ => rbind (py_complex E v) (fun c => Ok (VComplex (fst c) (snd c)))
  | LfColor => rbind (py_iter v) (fun l => Ok (VTuple l))
  | LfDate => date_from_json v
  | LfUuid => uuid_from_json v
  | _ => Ok v
  end.
