(** Model of File (basic.py:1300-1408) and ImagePNG (images.py) with a heap of
    file-like objects.

    [VObj i] is the object at place [i] of the heap.  Not modelled: [png.Image]
    values, text streams for ImagePNG, attributes other than the ones below,
    listeners (the [veto] of an operation stands for them), errors of
    [read]/[seek]. *)
From Verif Require Export Options.
Local Open Scope string_scope.
Local Open Scope list_scope.
Local Open Scope nat_scope.

(** Which methods the object has, its [mode] and [closed] if any, whether it
    has [__valid__], its content and position, and how often it was closed (basic.py:1378-1398). *)
Record fobj := FO { f_read : bool; f_seek : bool; f_close : bool; f_mode : option val; f_closed : option bool;
                    f_marked : bool; f_bytes : list Z; f_pos : nat; f_closes : nat }.
(** Plumbing: the file objects. *)
Definition fheap := list fobj.
(** What [open(name, mode)] does: a file with the mode that the file reports,
    content and position; IOError or TypeError; another exception (basic.py:1378-1390). *)
Inductive opened := Opened (reported : string) (content : list Z) (pos : nat) | OpenFails | OpenRaises (e : exn).
(** What [open] gives (basic.py:1389-1397, images.py:53-82). *)
Definition opened_file (reported : string) (content : list Z) (pos : nat) : fobj :=
  FO true true true (Some (VStr reported)) (Some false) false content pos 0.
(** Plumbing: replace an item. *)
Fixpoint set_at {A} (l : list A) (n : nat) (a : A) : list A :=
  match l, n with
  | [], _ => []
  | _ :: r, 0 => a :: r
  | x :: r, S m => x :: set_at r m a
  end.
(** [value.close()] (basic.py:1360-1376) *)
Definition closed_file (f : fobj) : fobj :=
  FO (f_read f) (f_seek f) (f_close f) (f_mode f) (match f_closed f with Some _ => Some true | None => None end)
     (f_marked f) (f_bytes f) (f_pos f) (S (f_closes f)).
(** [value.seek(p)] (images.py:53-83) *)
Definition at_pos (f : fobj) (p : nat) : fobj :=
  FO (f_read f) (f_seek f) (f_close f) (f_mode f) (f_closed f) (f_marked f) (f_bytes f) p (f_closes f).

Section Files.
  (** [open]; the options of the Property *)
  Variable fs : string -> string -> opened.
  Variable o : mopts.

  (** basic.py:1389-1397: the checks on an object *)
  Definition file_checks (v : val) (h : fheap) : lres :=
    match (match v with VObj i => nth_error h i | _ => None end) with
    | None => LErr 0
    | Some f =>
        if negb (f_read f && f_seek f) then LErr 0
        else if match f_mode f, valid_modes o with Some m, Some l => negb (mem_val m (map VStr l)) | _, _ => false end then LErr 0
        else if match f_closed f with Some b => b | None => false end then LErr 0
        else LOk v
    end.
  (** basic.py:1378-1398 [File.validate] *)
  Definition file_validate (v : val) (h : fheap) : lres * fheap :=
    match v, m_mode o with
    | VStr s, Some m => match fs s m with
                        | Opened rm bs p => let h1 := h ++ [opened_file rm bs p] in (file_checks (VObj (length h)) h1, h1)
                        | OpenFails => (LErr 0, h)
                        | OpenRaises e => (LExc e, h)
                        end
    | _, _ => (file_checks v h, h)
    end.

  (** pypng [Reader(value).validate_signature()]: the 8 bytes of the signature (images.py:53-83) *)
  Definition png_signature : list Z := [137; 80; 78; 71; 13; 10; 26; 10]%Z.
  (** images.py:71-81: the copy written to a new BytesIO *)
  Definition png_copy (bs : list Z) : fobj := FO true true true None (Some false) true bs 0 0.
  (** images.py:53-82 [ImagePNG.validate] *)
  Definition png_validate (v : val) (h : fheap) : lres * fheap :=
    if match v with VObj i => match nth_error h i with Some f => f_marked f | None => false end | _ => false end then (LOk v, h)
    else match file_validate v h with
         | (LOk (VObj i), h1) =>
             match nth_error h1 i with
             | Some f =>
                 let sig := firstn 8 (skipn (f_pos f) (f_bytes f)) in
                 if list_eq_dec Z.eq_dec sig png_signature then
                   if f_close f then (LOk (VObj (length h1)),
                                      set_at h1 i (closed_file (at_pos f (length (f_bytes f)))) ++ [png_copy (f_bytes f)])
                   else (LExc ExAttr, set_at h1 i (at_pos f (length (f_bytes f))))
                 else (LErr 0, set_at h1 i (at_pos f (f_pos f + length sig)))
             | None => (LErr 0, h1)
             end
         | r => r
         end.
End Files.

(** An instance with one File property: the stored value ([None]: nothing in
    [_backend]) and the heap (basic.py:1360-1376). *)
Record fstate := FS { fs_slot : option val; fs_heap : fheap }.
(** basic.py:673-677 [fset] and [_set]; [veto]: a listener raises *)
Definition file_set (validate : val -> fheap -> lres * fheap) (v : val) (veto : option exn) (s : fstate) : res val * fstate :=
  match validate v (fs_heap s) with
  | (LOk v1, h1) => match veto with
                    | None => (Ok VNone, FS (Some v1) h1)
                    | Some e => (Exc e, FS (fs_slot s) h1)
                    end
  | (LErr _, h1) => (Exc (ExValidation []), FS (fs_slot s) h1)
  | (LExc e, h1) => (Exc e, FS (fs_slot s) h1)
  end.
(** basic.py:1368-1372 [fdel] *)
Definition file_del (veto : option exn) (s : fstate) : res val * fstate :=
  match (match fs_slot s with
         | None | Some VNone => Ok (fs_heap s)
         | Some (VObj i) => match nth_error (fs_heap s) i with
                            | Some f => if f_close f then Ok (set_at (fs_heap s) i (closed_file f)) else Exc ExAttr
                            | None => Exc ExAttr
                            end
         | Some _ => Exc ExAttr
         end) with
  | Exc e => (Exc e, s)
  | Ok h1 => match veto with
             | None => (Ok VNone, FS None h1)
             | Some e => (Exc e, FS (fs_slot s) h1)
             end
  end.

(** * base64 *)
Local Open Scope Z_scope.
(** Of the standard library's base64 (images.py:86-104). *)
Definition alphabet : list ascii := list_ascii_of_string "ABCDEFGHIJKLMNOPQRSTUVWXYZabcdefghijklmnopqrstuvwxyz0123456789+/".
(** Of the standard library's base64 (images.py:86-104). *)
Definition pad : ascii := "="%char.
(** Of the standard library's base64 (images.py:86-104). *)
Definition b64_char (n : Z) : ascii := nth (Z.to_nat n) alphabet pad.
(** Plumbing: the position of a character. *)
Fixpoint index_of (c : ascii) (l : list ascii) (i : Z) : option Z :=
  match l with
  | [] => None
  | x :: r => if Ascii.eqb x c then Some i else index_of c r (i + 1)
  end.
(** Of the standard library's base64 (images.py:86-104). *)
Definition b64_value (c : ascii) : option Z := index_of c alphabet 0.
(** [base64.b64encode] (images.py:86-98) *)
Fixpoint b64encode (l : list Z) : list ascii :=
  match l with
  | a :: b :: c :: r => b64_char (a / 4) :: b64_char (a mod 4 * 16 + b / 16) :: b64_char (b mod 16 * 4 + c / 64) :: b64_char (c mod 64) :: b64encode r
  | [a; b] => [b64_char (a / 4); b64_char (a mod 4 * 16 + b / 16); b64_char (b mod 16 * 4); pad]
  | [a] => [b64_char (a / 4); b64_char (a mod 4 * 16); pad; pad]
  | [] => []
  end.
(** [base64.b64decode], i.e. CPython's [binascii.a2b_base64] in its lenient
    mode: characters outside the alphabet are skipped, decoding stops at a
    complete padding, an incomplete group at the end is a ValueError.  [quad] is
    the number of characters of the current group, [left] the bits not written
    yet, [pads] the padding seen since the last character (images.py:100-104). *)
Fixpoint a2b (l : list ascii) (quad : Z) (left : Z) (pads : Z) : res (list Z) :=
  match l with
  | [] => if quad =? 0 then Ok [] else Exc ExValue
  | c :: r =>
      if Ascii.eqb c pad then
        if (2 <=? quad) && (4 <=? quad + (pads + 1)) then Ok []
        else a2b r quad left (if 2 <=? quad then pads + 1 else pads)
      else match b64_value c with
           | None => a2b r quad left pads
           | Some n =>
               if quad =? 0 then a2b r 1 n 0
               else if quad =? 1 then rbind (a2b r 2 (n mod 16) 0) (fun t => Ok (left * 4 + n / 16 :: t))
               else if quad =? 2 then rbind (a2b r 3 (n mod 4) 0) (fun t => Ok (left * 16 + n / 4 :: t))
               else rbind (a2b r 0 0 0) (fun t => Ok (left * 64 + n :: t))
           end
  end.
(** [base64.b64decode], for images.py [from_json] (images.py:100-104). *)
Definition b64decode (l : list ascii) : res (list Z) := a2b l 0 0 0.
(** images.py:15 *)
Definition png_preamble : string := "data:image/png;base64,".
(** images.py:85-97 [to_json]: the text and the stream afterwards *)
Definition png_to_json (f : fobj) : string * fobj :=
  (png_preamble ++ unchars (b64encode (skipn (f_pos f) (f_bytes f))), at_pos f 0)%string.
(** [s[n:]] (images.py:100-104) *)
Definition str_drop (n : nat) (s : string) : string := unchars (skipn n (chars s)).
(** images.py:99-108 [from_json]: a new BytesIO *)
Definition png_from_json (s : string) : res fobj :=
  if String.prefix png_preamble s
  then rbind (b64decode (chars (str_drop (String.length png_preamble) s)))
             (fun bs => Ok (FO true true true None (Some false) false bs 0 0))
  else Exc ExValue.
