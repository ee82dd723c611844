(** Model of URL (extras/web.py).

    [urlparse] and [geturl] are those of CPython 3.11, urllib/parse.py, for
    ASCII text ([_checknetloc] then accepts everything).  Other versions of
    Python treat whitespace and brackets differently.  Not modelled: [info]
    (web.py:63-69, which returns None), and whether the text between brackets is
    an IPv6 address: that is an arbitrary function [host_ok]. *)
From Verif Require Import PyBase PyFloat PyVal Basic.
Local Open Scope list_scope.

(** the text before the first character with [p], and the rest from it on (extras/web.py:46-62) *)
Fixpoint break (p : ascii -> bool) (l : list ascii) : list ascii * list ascii :=
  match l with
  | [] => ([], [])
  | c :: r => if p c then ([], l) else let (a, b) := break p r in (c :: a, b)
  end.
(** Plumbing: is it this character? *)
Definition is (c : ascii) : ascii -> bool := Ascii.eqb c.
(** [url.split(c, 1)] with '' for a missing second part (extras/web.py:46-62) *)
Definition cut (c : ascii) (l : list ascii) : list ascii * list ascii :=
  let (a, b) := break (is c) l in (a, tl b).

(** urllib/parse.py:477-482: leading control characters and spaces, and all
    tabs and newlines, are removed *)
Definition is_c0 (c : ascii) : bool := (code c <=? 32)%N.
(** urllib/parse.py: characters taken out of the text. *)
Definition is_tab (c : ascii) : bool := ((code c =? 9) || (code c =? 10) || (code c =? 13))%N.
(** urllib/parse.py:477-482 *)
Definition url_clean (l : list ascii) : list ascii := filter (fun c => negb (is_tab c)) (drop_while is_c0 l).

(** urllib/parse.py:82-85 [scheme_chars] *)
Definition is_alpha (c : ascii) : bool := is_lower c || is_upper c.
(** A decimal digit (extras/web.py:46-62). *)
Definition is_digit (c : ascii) : bool := ((48 <=? code c) && (code c <=? 57))%N.
(** urllib/parse.py:82-85 *)
Definition scheme_char (c : ascii) : bool :=
  is_alpha c || is_digit c || is "+" c || is "-" c || is "." c.

(** urllib/parse.py:486-492: scheme and the rest of the text *)
Definition split_scheme (l : list ascii) : list ascii * list ascii :=
  let (a, b) := break (is ":") l in
  match a, b with
  | c :: _, _ :: r => if is_alpha c && forallb scheme_char a then (map ch_lower a, r) else ([], l)
  | _, _ => ([], l)
  end.

(** urllib/parse.py:413-419 [_splitnetloc], 493-500; [None] is ValueError *)
Definition ends_netloc (c : ascii) : bool := is "/" c || is "?" c || is "#" c.
(** urllib/parse.py:413-419, 486-492: brackets. *)
Definition netloc_ok (host_ok : string -> bool) (n : list ascii) : bool :=
  let opening := mem_ch n "[" in
  let closing := mem_ch n "]" in
  if opening && closing
  then host_ok (unchars (fst (break (is "]") (snd (cut "[" n)))))
  else negb (opening || closing).
(** urllib/parse.py:404-411 with the check of brackets. *)
Definition split_netloc (host_ok : string -> bool) (l : list ascii) : option (list ascii * list ascii) :=
  match l with
  | c :: d :: r =>
      if is "/" c && is "/" d
      then let (n, rest) := break ends_netloc r in
           if netloc_ok host_ok n then Some (n, rest) else None
      else Some ([], l)
  | _ => Some ([], l)
  end.

(** urllib/parse.py:64-66 [uses_params] *)
Definition uses_params : list string :=
  [""; "ftp"; "hdl"; "prospero"; "http"; "imap"; "https"; "shttp"; "rtsp"; "rtsps"; "rtspu";
   "sip"; "sips"; "mms"; "sftp"; "tel"]%string.
(** urllib/parse.py:404-411 [_splitparams]: the first ';' at or after the last
    '/' *)
Definition split_params (l : list ascii) : list ascii * list ascii :=
  let (last, before) := break (is "/") (rev l) in
  let (a, b) := cut ";" (rev last) in
  (rev before ++ a, b).

(** The result of [urlparse] (extras/web.py:46-62). *)
Record parsed := Parsed {
  u_scheme : list ascii; u_netloc : list ascii; u_path : list ascii;
  u_params : list ascii; u_query : list ascii; u_fragment : list ascii }.

(** urllib/parse.py:374-402 [urlparse], 453-507 [urlsplit] *)
Definition urlparse (host_ok : string -> bool) (l : list ascii) : option parsed :=
  let (scheme, r) := split_scheme (url_clean l) in
  match split_netloc host_ok r with
  | None => None
  | Some (netloc, r1) =>
      let (r2, fragment) := cut "#" r1 in
      let (path, query) := cut "?" r2 in
      let (path1, params) :=
        if existsb (String.eqb (unchars scheme)) uses_params && mem_ch path ";"
        then split_params path else (path, []) in
      Some (Parsed scheme netloc path1 params query fragment)
  end.

(** urllib/parse.py:58-62 [uses_netloc] *)
Definition uses_netloc : list string :=
  [""; "ftp"; "http"; "gopher"; "nntp"; "telnet"; "imap"; "wais"; "file"; "mms"; "https"; "shttp";
   "snews"; "prospero"; "rtsp"; "rtsps"; "rtspu"; "rsync"; "svn"; "svn+ssh"; "sftp"; "nfs"; "git";
   "git+ssh"; "ws"; "wss"]%string.

(** [if x: ... c + x] (extras/web.py:46-62) *)
Definition part (c : ascii) (l : list ascii) : list ascii := match l with [] => [] | _ => c :: l end.
(** urllib/parse.py:509-537 [ParseResult.geturl]: [urlunparse], [urlunsplit] *)
Definition geturl (u : parsed) : list ascii :=
  let url := u_path u ++ part ";" (u_params u) in
  let has_scheme := match u_scheme u with [] => false | _ => true end in
  let url1 :=
    if (match u_netloc u with [] => false | _ => true end)
       || has_scheme && existsb (String.eqb (unchars (u_scheme u))) uses_netloc
       || (match url with c :: d :: _ => is "/" c && is "/" d | _ => false end)
    then let url0 := match url with
                     | c :: _ => if is "/" c then url else "/"%char :: url
                     | [] => url
                     end in
         "/"%char :: "/"%char :: u_netloc u ++ url0
    else url in
  let url2 := if has_scheme then u_scheme u ++ ":"%char :: url1 else url1 in
  url2 ++ part "?" (u_query u) ++ part "#" (u_fragment u).

(** web.py:28-44: the options besides those of String *)
Record uopts := UO { uo_string : sopts; uo_params : bool; uo_fragment : bool }.

(** web.py:46-61 [URL.validate]; the ValueError of [urlparse] is not caught *)
Definition url_validate (host_ok : string -> bool) (o : uopts) (v : val) : lres :=
  match string_validate (uo_string o) v with
  | LOk (VStr s) =>
      match urlparse host_ok (chars s) with
      | None => LExc ExValue
      | Some u =>
          match u_scheme u, u_netloc u with
          | [], _ | _, [] => LErr 0
          | _, _ =>
              LOk (VStr (unchars (geturl (Parsed (u_scheme u) (u_netloc u) (u_path u)
                (if uo_params o then [] else u_params u)
                (if uo_params o then [] else u_query u)
                (if uo_fragment o then [] else u_fragment u)))))
          end
      end
  | r => r
  end.
