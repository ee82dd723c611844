(** Model of the dictionary behind StringChoice.choices (basic.py:1069-1170): the
    property keeps the caller's dictionary itself, and the setter rewrites it.

    Dictionaries are objects of a heap.  The lists in them are made by the setter;
    changing such a list in place is modelled as assigning the changed list to its
    key.  Values that are not strings, lists, tuples, sets or dictionaries are not
    iterable. *)
From Verif Require Export PyBase PyVal Basic Options.
Local Open Scope string_scope.
Local Open Scope list_scope.
Local Open Scope nat_scope.

(** The content of a dictionary (basic.py:1089-1120) *)
Definition content := list (val * val).
(** A StringChoice: [case_sensitive], and the dictionary that is [_choices] (basic.py:1051-1073) *)
Record cprop := CP { cp_case : bool; cp_dict : nat }.
(** The dictionaries and the properties (basic.py:1051-1073) *)
Record cstate := CS { cs_dicts : list content; cs_props : list cprop }.
(** What is assigned to [choices]: the items of a list, tuple or set; a dictionary;
    anything else (basic.py:1093-1100) *)
Inductive cval := CvSeq (l : list val) | CvDict (d : nat) | CvOther.
(** What is done: the caller makes a dictionary, assigns to a key, deletes a key;
    makes a property (basic.py:1069-1073), assigns to its options. *)
Inductive cact :=
| ANewDict (c : content) | ASetItem (d : nat) (k v : val) | ADelItem (d : nat) (k : val)
| ANew (cs : bool) (v : cval) | ASetChoices (p : nat) (v : cval) | ASetCase (p : nat) (b : bool).

(** Plumbing: replace an item. *)
Fixpoint put {A} (n : nat) (a : A) (l : list A) : list A :=
  match l, n with
  | [], _ => []
  | _ :: r, 0 => a :: r
  | x :: r, S m => x :: put m a r
  end.
(** basic.py:1102-1105: the list stored for a value *)
Definition as_list (x : val) : val :=
  match x with VSet l | VList l | VTuple l => VList l | _ => VList [x] end.
(** basic.py:1101-1105: the loop that rewrites the dictionary *)
Definition rewrite (c : content) : content := map (fun kv => (fst kv, as_list (snd kv))) c.
(** basic.py:1106-1119: the checks, of a dictionary from keys to lists *)
Definition check (cs : bool) (c : content) : bool :=
  match all_some (map (fun kv => match snd kv with VList l => pair_strs (fst kv, l) | _ => None end) c) with
  | None => false
  | Some t =>
      let items := flat_map (fun kv => fst kv :: snd kv) t in
      Nat.eqb (length items) (length (nodup string_dec (if cs then items else map str_upper items)))
  end.
(** basic.py:1093-1120: the dictionary to be stored, or TypeError, and the
    dictionaries afterwards *)
Definition store (cs : bool) (v : cval) (h : list content) : res nat * list content :=
  let checked d h1 :=
    match nth_error h1 d with
    | None => (Exc ExType, h1)
    | Some c => let h2 := put d (rewrite c) h1 in
                (if check cs (rewrite c) then Ok d else Exc ExType, h2)
    end in
  match v with
  | CvOther => (Exc ExType, h)
  | CvDict d => checked d h
  | CvSeq l =>
      match py_set l with
      | Exc e => (Exc e, h)
      | Ok s => if Nat.eqb (length l) (length s) then checked (length h) (h ++ [map (fun x => (x, VList [])) l])
                else (Exc ExType, h)
      end
  end.
(** One of these; errors are caught (basic.py:1069-1136). *)
Definition act (s : cstate) (a : cact) : cstate :=
  match a with
  | ANewDict c => CS (cs_dicts s ++ [c]) (cs_props s)
  | ASetItem d k v =>
      match nth_error (cs_dicts s) d with
      | Some c => CS (put d (vd_set c k v) (cs_dicts s)) (cs_props s)
      | None => s
      end
  | ADelItem d k =>
      match nth_error (cs_dicts s) d with
      | Some c => CS (put d (filter (fun kv => negb (py_eq (fst kv) k)) c) (cs_dicts s)) (cs_props s)
      | None => s
      end
  | ANew cs v =>
      match store cs v (cs_dicts s) with
      | (Ok d, h) => CS h (cs_props s ++ [CP cs d])
      | (Exc _, h) => CS h (cs_props s)
      end
  | ASetChoices p v =>
      match nth_error (cs_props s) p with
      | Some q => match store (cp_case q) v (cs_dicts s) with
                  | (Ok d, h) => CS h (put p (CP (cp_case q) d) (cs_props s))
                  | (Exc _, h) => CS h (cs_props s)
                  end
      | None => s
      end
  | ASetCase p b =>
      match nth_error (cs_props s) p with
      | Some q => CS (cs_dicts s) (put p (CP b (cp_dict q)) (cs_props s))
      | None => s
      end
  end.
(** Several (basic.py:1069-1136) *)
Definition acts (l : list cact) (s : cstate) : cstate := fold_left act l s.

(** [v.upper()] (basic.py:1165-1167) *)
Definition upper_of (v : val) : res val := match v with VStr s => Ok (VStr (str_upper s)) | _ => Exc ExAttr end.
(** Is the text part of the other? ([in] of strings) (basic.py:1164-1170) *)
Definition occurs (s t : string) : bool :=
  existsb (fun n => String.prefix s (substring n (String.length t) t)) (seq 0 (S (String.length t))).
(** The items over which [for _ in val] goes (basic.py:1164-1170) *)
Definition items_of (x : val) : res (list val) :=
  match x with
  | VSet l | VList l | VTuple l => Ok l
  | VDict c => Ok (map fst c)
  | VStr s => Ok (map (fun a => VStr (String a "")) (list_ascii_of_string s))
  | _ => Exc ExType
  end.
(** [[f(v) for v in l]] (basic.py:1164-1170) *)
Fixpoint each_ok (f : val -> res val) (l : list val) : res (list val) :=
  match l with [] => Ok [] | x :: r => rbind (f x) (fun y => rbind (each_ok f r) (fun t => Ok (y :: t))) end.
(** basic.py:1165-1168: does the entry match? *)
Definition entry_matches (cs : bool) (s : string) (kv : val * val) : res bool :=
  if cs then
    if py_eq (VStr s) (fst kv) then Ok true
    else match snd kv with
         | VStr t => Ok (occurs s t)
         | x => rbind (items_of x) (fun l => Ok (mem_val (VStr s) l))
         end
  else rbind (upper_of (fst kv)) (fun key =>
       rbind (items_of (snd kv)) (fun l =>
       rbind (each_ok upper_of l) (fun ups =>
       Ok (py_eq (VStr (str_upper s)) key || mem_val (VStr (str_upper s)) ups)))).
(** basic.py:1164-1170: the loop; [None]: no choice, an error of the property *)
Fixpoint search (cs : bool) (s : string) (c : content) : res (option val) :=
  match c with
  | [] => Ok None
  | kv :: r => rbind (entry_matches cs s kv) (fun b => if b then Ok (Some (fst kv)) else search cs s r)
  end.
(** basic.py:1160-1170 [validate] of the property [p]: the value, an error of the
    property ([None]), or another exception *)
Definition validate (s : cstate) (p : nat) (v : val) : res (option val) :=
  match nth_error (cs_props s) p with
  | None => Exc ExAttr
  | Some q =>
      match v with
      | VStr x => search (cp_case q) x (match nth_error (cs_dicts s) (cp_dict q) with Some c => c | None => [] end)
      | _ => Ok None
      end
  end.
