(** Model of the lists in VECTOR_DIRECTIONS (math.py:538-552) as objects: Vector3Array
    stores them in the caller's list (math.py:456), Vector2Array stores copies
    (math.py:529).

    Rows (lists of numbers) and the caller's lists are objects of two heaps.  Shapes,
    dtypes and scaling are not in this model but in Arrays.v and Vectors.v: here the
    outcome of a validation is what is handed to the wrapper, which makes a new array. *)
From Verif Require Export PyBase PyVal Arrays.
Local Open Scope string_scope.
Local Open Scope list_scope.
Local Open Scope nat_scope.

(** An item of the caller's list: a string or a row (math.py:438-458, 508-531) *)
Inductive ritem := RStr (s : string) | RRow (r : nat).
(** The rows, those of the module first, and the caller's lists (math.py:538-552) *)
Record rstate := RS { rs_rows : list (list Z); rs_lists : list (list ritem) }.
(** After the import of the module (math.py:538-552) *)
Definition imported : rstate := RS (map snd directions) [].
(** Plumbing: the place of a name *)
Fixpoint place (s : string) (l : list string) : option nat :=
  match l with
  | [] => None
  | x :: r => if String.eqb s x then Some 0 else match place s r with Some n => Some (S n) | None => None end
  end.
(** [VECTOR_DIRECTIONS[val.upper()]], for two dimensions without some of the names
    (math.py:333-335, 380-386, 449-456, 519-529) *)
Definition row_of (two : bool) (s : string) : option nat :=
  let name := str_upper s in
  if two && str_mem name ["Z"; "-Z"; "UP"; "DOWN"] then None else place name (map fst directions).
(** Plumbing: the row *)
Definition row (h : list (list Z)) (r : nat) : list Z := match nth_error h r with Some l => l | None => [] end.
(** math.py:332-337, 380-388: a string assigned to a Vector3, a Vector2; [None]: an
    error of the property *)
Definition vector (s : rstate) (two : bool) (x : string) : option (list Z) :=
  match row_of two x with
  | None => None
  | Some r => Some (if two then firstn 2 (row (rs_rows s) r) else row (rs_rows s) r)
  end.
(** math.py:448-456, 518-529: the loop over the caller's list; was it finished, the
    list and the rows afterwards *)
Fixpoint fill (two : bool) (l : list ritem) (h : list (list Z)) : bool * list ritem * list (list Z) :=
  match l with
  | [] => (true, [], h)
  | RRow r :: t => let '(ok, u, h') := fill two t h in (ok, RRow r :: u, h')
  | RStr x :: t =>
      match row_of two x with
      | None => (false, l, h)
      | Some r =>
          if two then let '(ok, u, h') := fill two t (h ++ [firstn 2 (row h r)]) in (ok, RRow (length h) :: u, h')
          else let '(ok, u, h') := fill two t h in (ok, RRow r :: u, h')
      end
  end.
(** math.py:438-458, 508-531: a list assigned to a Vector3Array, a Vector2Array; [None]:
    an error for one of the strings; then the state *)
Definition array (s : rstate) (two : bool) (n : nat) : option (list (list Z)) * rstate :=
  match nth_error (rs_lists s) n with
  | None => (None, s)
  | Some l =>
      let '(ok, u, h) := fill two l (rs_rows s) in
      (if ok then Some (map (fun i => match i with RRow r => row h r | RStr _ => [] end) u) else None,
       RS h (firstn n (rs_lists s) ++ u :: skipn (S n) (rs_lists s)))
  end.
(** What is done: the caller makes a row or a list, changes a row or a list in place;
    a string is assigned to a vector, a list to a vector array (math.py:325-337, 438-458, 508-531). *)
Inductive ract :=
| RNewRow (row : list Z) | RNewList (l : list ritem) | RChange (r : nat) (row : list Z) | RChangeList (n : nat) (l : list ritem)
| RVector (two : bool) (x : string) | RArray (two : bool) (n : nat).
(** Plumbing: replace an item. *)
Definition put {A} (n : nat) (a : A) (l : list A) : list A :=
  match nth_error l n with Some _ => firstn n l ++ a :: skipn (S n) l | None => l end.
(** One of these; errors are caught (math.py:325-337, 438-458, 508-531). *)
Definition act (s : rstate) (a : ract) : rstate :=
  match a with
  | RNewRow l => RS (rs_rows s ++ [l]) (rs_lists s)
  | RNewList l => RS (rs_rows s) (rs_lists s ++ [l])
  | RChange r l => RS (put r l (rs_rows s)) (rs_lists s)
  | RChangeList n l => RS (rs_rows s) (put n l (rs_lists s))
  | RVector _ _ => s
  | RArray two n => snd (array s two n)
  end.
(** Several (math.py:325-337, 438-458, 508-531) *)
Definition acts (l : list ract) (s : rstate) : rstate := fold_left act l s.
