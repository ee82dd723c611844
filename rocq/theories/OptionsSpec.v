(** Specifications for the options, File, ImagePNG and Array. *)
From Verif Require Import Options Files Arrays.
Local Open Scope string_scope.
Local Open Scope list_scope.

(** A float of the model is a binary64 value. *)
Definition valid_val (v : val) : Prop := match v with VFloat f => valid_float f = true | _ => True end.
(** The value assigned. *)
Definition bop_val (a : bop) : val := match a with SetMin v | SetMax v => v end.
(** Lengths are not negative, and the minimum is at most the maximum. *)
Definition l_good (o : lopts) : Prop :=
  (forall m, l_min o = Some m -> (0 <= m)%Z) /\ (forall n, l_max o = Some n -> (0 <= n)%Z) /\
  (forall m n, l_min o = Some m -> l_max o = Some n -> (m <= n)%Z).
(** [v] is the integer [z]; True and False are 1 and 0. *)
Definition is_int (v : val) (z : Z) : Prop :=
  v = VInt z \/ (v = VBool true /\ z = 1%Z) \/ (v = VBool false /\ z = 0%Z).
(** [v] is a set, list or tuple of [items]. *)
Definition collection (v : val) (items : list val) : Prop := v = VSet items \/ v = VList items \/ v = VTuple items.
(** [v] is a collection of strings, or one string. *)
Definition strings (v : val) (l : list string) : Prop :=
  collection v (map VStr l) \/ exists s, v = VStr s /\ l = [s].
(** [v] is a collection of choices, or a dictionary from choices to alternatives. *)
Definition gives_table (v : val) (t : table) : Prop :=
  (collection v (map (fun kv => VStr (fst kv)) t) /\ Forall (fun kv => snd kv = []) t) \/
  exists kvs, v = VDict kvs /\ Forall2 (fun kv c => fst kv = VStr (fst c) /\ strings (snd kv) (snd c)) kvs t.
(** [v] is a shape, a tuple of integers and ['*'], or a set of shapes. *)
Definition gives_dim (v : val) (d : dim) : Prop := (v = VStr "*" /\ d = Star) \/ exists z, is_int v z /\ d = Len z.
Definition gives_shape (v : val) (s : list dim) : Prop := exists l, v = VTuple l /\ Forall2 gives_dim l s.
Definition gives_shapes (v : val) (l : list (list dim)) : Prop :=
  (exists x, v = VSet x /\ Forall2 gives_shape x l) \/ exists s, gives_shape v s /\ l = [s].
(** Only modes of the class. *)
Definition m_known modes (o : mopts) : Prop :=
  (forall m, m_mode o = Some m -> In m modes) /\ (forall l, m_valid o = Some l -> incl l modes).
(** A file-like object that is not closed and whose mode, if it has one, is
    among the valid modes, if there are any. *)
Definition open_file_of (o : mopts) (f : fobj) : Prop :=
  f_read f = true /\ f_seek f = true /\ f_closed f <> Some true /\
  forall m l, f_mode f = Some m -> valid_modes o = Some l -> exists s, In s l /\ m = VStr s.
Definition byte (b : Z) : Prop := (0 <= b < 256)%Z.
(** RFC 4648: the character of a number below 64, and the text of bytes.  Three
    bytes and the four numbers are the same 24 bits; what is left over is filled
    with zeros and padded. *)
Definition sextet (s : Z) : Prop := (0 <= s < 64)%Z.
Definition sextet_char (s : Z) : ascii :=
  ascii_of_nat (Z.to_nat (if Z.ltb s 26 then s + 65 else if Z.ltb s 52 then s - 26 + 97 else if Z.ltb s 62 then s - 52 + 48
                          else if Z.eqb s 62 then 43 else 47)%Z).
Inductive b64_text : list Z -> list ascii -> Prop :=
| bt_nil : b64_text [] []
| bt_one a s t : sextet s -> sextet t -> (a * 16 = s * 64 + t)%Z -> b64_text [a] [sextet_char s; sextet_char t; "="%char; "="%char]
| bt_two a b s t u : sextet s -> sextet t -> sextet u -> ((a * 256 + b) * 4 = (s * 64 + t) * 64 + u)%Z ->
    b64_text [a; b] [sextet_char s; sextet_char t; sextet_char u; "="%char]
| bt_three a b c s t u w r x : sextet s -> sextet t -> sextet u -> sextet w ->
    ((a * 256 + b) * 256 + c = ((s * 64 + t) * 64 + u) * 64 + w)%Z -> b64_text r x ->
    b64_text (a :: b :: c :: r) (sextet_char s :: sextet_char t :: sextet_char u :: sextet_char w :: x).
(** The whole bytes of a list of such numbers. *)
Inductive whole_bytes : list Z -> list Z -> Prop :=
| wb_nil : whole_bytes [] []
| wb_one s : sextet s -> whole_bytes [s] []
| wb_two s t a k : sextet s -> sextet t -> (s * 64 + t = a * 16 + k)%Z -> (0 <= k < 16)%Z -> whole_bytes [s; t] [a]
| wb_three s t u a b k : sextet s -> sextet t -> sextet u -> byte b -> ((s * 64 + t) * 64 + u = (a * 256 + b) * 4 + k)%Z -> (0 <= k < 4)%Z ->
    whole_bytes [s; t; u] [a; b]
| wb_four s t u w a b c r x : sextet s -> sextet t -> sextet u -> sextet w -> byte b -> byte c ->
    (((s * 64 + t) * 64 + u) * 64 + w = (a * 256 + b) * 256 + c)%Z -> whole_bytes r x ->
    whole_bytes (s :: t :: u :: w :: r) (a :: b :: c :: x).
(** The lengths are those of the shape, ['*'] being any. *)
Definition fits (s : list dim) (dims : list Z) : Prop := Forall2 (fun d n => d = Star \/ d = Len n) s dims.
(** The numpy kinds of the Python types. *)
Inductive kind_for : adtype -> ascii -> Prop :=
| kf_int_u : kind_for DInt "u"%char
| kf_int_i : kind_for DInt "i"%char
| kf_float : kind_for DFloat "f"%char
| kf_bool : kind_for DBool "b"%char
| kf_complex : kind_for DComplex "c"%char.
(** The class, dtype kind and shape are allowed. *)
Definition acceptable (k : akind) (o : aopts) (a : arr) : Prop :=
  (k = KArray \/ a_class a = k) /\ (exists d, In d (dtype_opt k o) /\ kind_for d (a_kind a)) /\
  (shape_opt k o = None \/ exists l s, shape_opt k o = Some l /\ In s l /\ fits s (a_shape a)).
(** What a vector property converts to an array: a direction name stands for its
    vector; in arrays of vectors each item that is a name does, but not in a tuple. *)
Definition is_vector (k : akind) : Prop := k = KVec3 \/ k = KVec2.
Definition is_vectors (k : akind) : Prop := k = KVec3Array \/ k = KVec2Array.
Definition no_name (x : aitem) : Prop := forall s, x <> AiStr s.
Inductive item_reads (k : akind) : aitem -> aitem -> Prop :=
| ir_name s d : direction k s = Some d -> item_reads k (AiStr s) (AiDir d)
| ir_item x : no_name x -> item_reads k x x.
Inductive reads_as (k : akind) : aval -> aval -> Prop :=
| ra_name s d : is_vector k -> direction k s = Some d -> reads_as k (AvStr s) (AvList (map (fun z => AiNum z) d))
| ra_list l : is_vector k -> reads_as k (AvList l) (AvList l)
| ra_tuple l : is_vector k -> reads_as k (AvTuple l) (AvTuple l)
| ra_items l t : is_vectors k -> Forall2 (item_reads k) l t -> reads_as k (AvList l) (AvList t)
| ra_unnamed l : is_vectors k -> Forall no_name l -> reads_as k (AvTuple l) (AvTuple l)
| ra_array a : reads_as k (AvArr a) (AvArr a).
(** What a vector property refuses for its names or its type, with the outcome and
    the value of the caller afterwards: the names before the first that is no
    direction have been replaced in a list; a direction cannot be stored in a tuple. *)
Inductive refuses_as (k : akind) : aval -> ares -> aval -> Prop :=
| rf_name s : is_vector k -> direction k s = None -> refuses_as k (AvStr s) AErr (AvStr s)
| rf_string s : is_vectors k -> refuses_as k (AvStr s) AErr (AvStr s)
| rf_other : refuses_as k AvOther AErr AvOther
| rf_items l t s r : is_vectors k -> Forall2 (item_reads k) l t -> direction k s = None ->
    refuses_as k (AvList (l ++ AiStr s :: r)) AErr (AvList (t ++ AiStr s :: r))
| rf_stored l s d r : is_vectors k -> Forall no_name l -> direction k s = Some d ->
    refuses_as k (AvTuple (l ++ AiStr s :: r)) (AExc ExType) (AvTuple (l ++ AiStr s :: r))
| rf_unknown l s r : is_vectors k -> Forall no_name l -> direction k s = None ->
    refuses_as k (AvTuple (l ++ AiStr s :: r)) AErr (AvTuple (l ++ AiStr s :: r)).
(** The array made of [u] is not acceptable, or the constructor raises. *)
Inductive unacceptable (wrap : akind -> aval -> res arr) (k : akind) (o : aopts) (u : aval) : ares -> Prop :=
| un_raises e : ao_coerce o = true -> wrap k u = Exc e -> unacceptable wrap k o u (AExc e)
| un_made a : ao_coerce o = true -> wrap k u = Ok a -> ~ acceptable k o a -> unacceptable wrap k o u AErr
| un_given : ao_coerce o = false -> (forall a, u = AvArr a -> ~ acceptable k o a) -> unacceptable wrap k o u AErr.
(** The vector with entry [z] on axis [i] of [n]. *)
Definition axis (n i : nat) (z : Z) : list Z := map (fun j => if Nat.eqb j i then z else 0%Z) (seq 0 n).
