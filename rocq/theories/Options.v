(** Models of the setters of Property options: bounds of Integer and Float,
    lengths of containers, modes of File, choices of StringChoice.

    Each setter gives the new options or the exception; a rejected assignment
    changes nothing.  [bool] is a subclass of [int].  Not modelled: comparing two
    bounds neither of which is a number (strings with strings and so on); here
    that raises TypeError. *)
From Verif Require Export PyBase PyFloat PyVal Basic.
Local Open Scope string_scope.
Local Open Scope list_scope.

(** * Integer and Float bounds (basic.py:790-808) *)
Record bopts := BO { b_min : val; b_max : val }.
(** basic.py:790-792, 801-803: the getters' default *)
Definition b_start : bopts := BO VNone VNone.
(** [a > b] (basic.py:790-808) *)
Definition py_gt (a b : val) : res bool :=
  match as_num a, as_num b with
  | Some m, Some n => Ok (ngt m n)
  | _, _ => Exc ExType
  end.
(** basic.py:794-798 *)
Definition set_min (v : val) (o : bopts) : res bopts :=
  rbind (if is_none (b_max o) then Ok false else py_gt v (b_max o))
        (fun bad : bool => if bad then Exc ExType else Ok (BO v (b_max o))).
(** basic.py:805-809; [value < self.min] *)
Definition set_max (v : val) (o : bopts) : res bopts :=
  rbind (if is_none (b_min o) then Ok false else py_gt (b_min o) v)
        (fun bad : bool => if bad then Exc ExType else Ok (BO (b_min o) v)).
(** Assignments to [min] and [max] (basic.py:789-809). *)
Inductive bop := SetMin (v : val) | SetMax (v : val).
(** basic.py:789-809: the setters. *)
Definition b_apply (o : bopts) (a : bop) : res bopts :=
  match a with SetMin v => set_min v o | SetMax v => set_max v o end.

(** * Lengths of containers (base/containers.py:206-229) *)
Record lopts := LO { l_min : option Z; l_max : option Z }.
(** base/containers.py:205-208, 218-221 *)
Definition l_start : lopts := LO None None.
(** [isinstance(value, integer_types)] with the integer (base/containers.py:211-229) *)
Definition as_int (v : val) : option Z :=
  match v with VInt z => Some z | VBool b => Some (if b then 1 else 0)%Z | _ => None end.
(** base/containers.py:210-216 *)
Definition set_min_length (v : val) (o : lopts) : res lopts :=
  match as_int v with
  | None => Exc ExType
  | Some z => if Z.ltb z 0 then Exc ExType
              else if match l_max o with Some m => Z.ltb m z | None => false end then Exc ExType
              else Ok (LO (Some z) (l_max o))
  end.
(** base/containers.py:223-229 *)
Definition set_max_length (v : val) (o : lopts) : res lopts :=
  match as_int v with
  | None => Exc ExType
  | Some z => if Z.ltb z 0 then Exc ExType
              else if match l_min o with Some m => Z.ltb z m | None => false end then Exc ExType
              else Ok (LO (l_min o) (Some z))
  end.
(** Assignments to [min_length] and [max_length] (base/containers.py:210-216, 223-229). *)
Inductive lop := SetMinLength (v : val) | SetMaxLength (v : val).
(** base/containers.py:210-216, 223-229: the setters. *)
Definition l_apply (o : lopts) (a : lop) : res lopts :=
  match a with SetMinLength v => set_min_length v o | SetMaxLength v => set_max_length v o end.

(** * Modes of File *)
(** basic.py:1321-1325 *)
Definition file_modes : list string := ["r"; "r+"; "rb"; "rb+"; "w"; "w+"; "wb"; "wb+"; "a"; "a+"; "ab"; "ab+"].
(** images.py:34 *)
Definition png_modes : list string := ["rb"; "rb+"; "wb+"; "ab+"].
(** [mode] and [valid_modes] (basic.py:1327-1358). *)
Record mopts := MO { m_mode : option string; m_valid : option (list string) }.
Section Modes.
  (** the class attribute [file_modes] *)
  Variable modes : list string.
  (** [s in l] (basic.py:1094-1120) *)
  Definition str_mem (s : string) (l : list string) : bool := existsb (String.eqb s) l.
  (** basic.py:1336-1340 *)
  Definition set_mode (v : val) (o : mopts) : res mopts :=
    match v with
    | VNone => Ok (MO None (m_valid o))
    | VStr s => if str_mem s modes then Ok (MO (Some s) (m_valid o)) else Exc ExType
    | _ => Exc ExType
    end.
  (** basic.py:1342-1346 *)
  Definition valid_modes (o : mopts) : option (list string) :=
    match m_valid o with
    | Some l => Some l
    | None => match m_mode o with Some m => Some [m] | None => None end
    end.
  (** All strings of the list, if all items are strings (basic.py:1094-1120). *)
  Fixpoint all_strs (l : list val) : option (list string) :=
    match l with
    | [] => Some []
    | VStr s :: r => match all_strs r with Some t => Some (s :: t) | None => None end
    | _ => None
    end.
  (** basic.py:1348-1358; with an item that is not a mode (and so with mode
      None, which would have to be an item) the outcome is TypeError *)
  Definition set_valid_modes (v : val) (o : mopts) : res mopts :=
    let value := match v with VSet l | VList l | VTuple l => l | _ => [v] end in
    if negb (mem_val (match m_mode o with Some m => VStr m | None => VNone end) value) then Exc ExType
    else match all_strs value with
         | Some l => if forallb (fun s => str_mem s modes) l then Ok (MO (m_mode o) (Some l)) else Exc ExType
         | None => Exc ExType
         end.
End Modes.
(** Assignments to [mode] and [valid_modes] (basic.py:1327-1358). *)
Inductive mop := SetMode (v : val) | SetValidModes (v : val).
(** basic.py:1327-1358: the setters. *)
Definition m_apply modes (o : mopts) (a : mop) : res mopts :=
  match a with SetMode v => set_mode modes v o | SetValidModes v => set_valid_modes modes v o end.

(** * Choices of StringChoice (basic.py:1089-1120) *)
Definition table := list (string * list string).
(** The options of StringChoice (basic.py:1069-1158). *)
Record copts := CO { c_case : bool; c_choices : table; c_descr : option (list (string * string)) }.
(** A choice with its synonyms, if all are strings (basic.py:1093-1120). *)
Definition pair_strs (kv : val * list val) : option (string * list string) :=
  match fst kv, all_strs (snd kv) with
  | VStr k, Some l => Some (k, l)
  | _, _ => None
  end.
(** Plumbing: all are there. *)
Fixpoint all_some {A} (l : list (option A)) : option (list A) :=
  match l with
  | [] => Some []
  | Some a :: r => match all_some r with Some t => Some (a :: t) | None => None end
  | None :: _ => None
  end.
(** basic.py:1093-1120.  Setting a dict also replaces its values by lists in
    the caller's dict; that is modelled in Choices.v. *)
Definition set_choices (v : val) (o : copts) : res copts :=
  rbind (match v with
         | VSet l | VList l | VTuple l =>
             rbind (py_set l) (fun s => if Nat.eqb (length l) (length s) then Ok (map (fun x => (x, [])) l) else Exc ExType)
         | VDict kvs => Ok (map (fun kv => (fst kv, match snd kv with VSet l | VList l | VTuple l => l | x => [x] end)) kvs)
         | _ => Exc ExType
         end)
        (fun pairs =>
           match all_some (map pair_strs pairs) with
           | None => Exc ExType
           | Some t =>
               let items := flat_map (fun kv => fst kv :: snd kv) t in
               let shown := if c_case o then items else map str_upper items in
               if Nat.eqb (length items) (length (nodup string_dec shown)) then Ok (CO (c_case o) t (c_descr o)) else Exc ExType
           end).
(** basic.py:1132-1136 *)
Definition set_case (v : val) (o : copts) : res copts :=
  match v with VBool b => Ok (CO b (c_choices o) (c_descr o)) | _ => Exc ExType end.
(** basic.py:1147-1158 *)
Definition set_descriptions (v : val) (o : copts) : res copts :=
  match v with
  | VDict kvs =>
      if negb (Nat.eqb (length kvs) (length (c_choices o))) then Exc ExType
      else match all_some (map (fun kv => match fst kv, snd kv with VStr k, VStr d => Some (k, d) | _, _ => None end) kvs) with
           | Some ds => if forallb (fun kd => dhas (c_choices o) (fst kd)) ds then Ok (CO (c_case o) (c_choices o) (Some ds)) else Exc ExType
           | None => Exc ExType
           end
  | _ => Exc ExType
  end.
(** Assignments to the options of StringChoice (basic.py:1069-1158). *)
Inductive cop := SetChoices (v : val) | SetCase (v : val) | SetDescriptions (v : val).
(** basic.py:1069-1158: the setters. *)
Definition c_apply (o : copts) (a : cop) : res copts :=
  match a with SetChoices v => set_choices v o | SetCase v => set_case v o | SetDescriptions v => set_descriptions v o end.

(** A sequence of assignments; the rejected ones are caught. *)
Definition assign_all {O A} (apply : O -> A -> res O) (o : O) (l : list A) : O :=
  fold_left (fun o a => match apply o a with Ok o' => o' | Exc _ => o end) l o.
