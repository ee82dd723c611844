(** Property theorems about URL (extras/web.py): [C52].  [host_ok] says which
    texts are IPv6 addresses. *)
From Verif Require Import PyBase PyFloat PyVal Basic Url UrlSpec UrlFacts.
Local Open Scope list_scope.

Definition C52_plain : sopts := SO "" CNone None.
Definition C52_any : string -> bool := fun _ => true.

(** ** C52: which text is accepted, and what becomes of it *)
Theorem C52_url : forall host_ok o v w,
  url_validate host_ok o v = LOk w <->
  exists s c S N P Q F P',
    string_validate (uo_string o) v = LOk (VStr s) /\ cleaned (chars s) c /\
    reads c S N P Q F /\ N <> [] /\ brackets_ok host_ok N /\
    path_kept (unchars (map ch_lower S)) (uo_params o) P P' /\
    w = VStr (unchars (map ch_lower S ++ chars "://" ++ N ++ P' ++
                       part_kept (uo_params o) Q ++ part_kept (uo_fragment o) F)).
Proof. exact url_spec. Qed.
Print Assumptions C52_url.
Example C52_url_ex :
  url_validate C52_any (UO C52_plain true true) (VStr " HTTP://a.b:80/c/d;e?f=g#h") = LOk (VStr "http://a.b:80/c/d") /\
  url_validate C52_any (UO C52_plain false false) (VStr "http://[::1]/a;?#") = LOk (VStr "http://[::1]/a") /\
  url_validate C52_any (UO C52_plain false false) (VStr "a.b/c") = LErr 0 /\
  url_validate C52_any (UO C52_plain false false) (VStr "file:///c") = LErr 0.
Proof. vm_compute. auto. Qed.

(** What is not accepted is a ValidationError, except when there are brackets in
    the text: that can be a ValueError. *)
Theorem C52_rejected : forall host_ok o v,
  (exists w, url_validate host_ok o v = LOk w) \/ url_validate host_ok o v = LErr 0 \/
  (url_validate host_ok o v = LExc ExValue /\
   exists s, string_validate (uo_string o) v = LOk (VStr s) /\ (In "["%char (chars s) \/ In "]"%char (chars s))).
Proof. exact url_outcomes. Qed.
Print Assumptions C52_rejected.
Example C52_rejected_ex :
  url_validate C52_any (UO C52_plain false false) (VStr "http:a") = LErr 0 /\
  url_validate C52_any (UO C52_plain false false) (VInt 3) = LErr 0 /\
  url_validate C52_any (UO C52_plain false false) (VStr "http://a]") = LExc ExValue.
Proof. vm_compute. auto. Qed.

(** With remove_fragment there is no fragment. *)
Theorem C52_fragment_removed : forall host_ok o v t,
  url_validate host_ok o v = LOk (VStr t) -> uo_fragment o = true -> ~ In "#"%char (chars t).
Proof. exact url_no_fragment. Qed.
Print Assumptions C52_fragment_removed.
Example C52_fragment_removed_ex : exists t,
  url_validate C52_any (UO C52_plain false true) (VStr "http://a/?b#c#d") = LOk (VStr t) /\ t = "http://a/?b"%string.
Proof. eexists. vm_compute. split; reflexivity. Qed.

(** With remove_parameters there is no query: no '?' before the fragment. *)
Theorem C52_query_removed : forall host_ok o v t x y,
  url_validate host_ok o v = LOk (VStr t) -> uo_params o = true ->
  chars t = x ++ y -> ~ In "#"%char x -> ~ In "?"%char x.
Proof. exact url_no_query. Qed.
Print Assumptions C52_query_removed.
Example C52_query_removed_ex :
  url_validate C52_any (UO C52_plain true false) (VStr "http://a?b?c#d?e") = LOk (VStr "http://a#d?e") /\
  chars "http://a#d?e" = chars "http://a" ++ chars "#d?e" /\ ~ In "#"%char (chars "http://a").
Proof. vm_compute. repeat split; auto. intuition discriminate. Qed.

(** A validated URL is validated to itself. *)
Theorem C52_idempotent : forall host_ok o v w,
  so_strip (uo_string o) = ""%string -> so_regex (uo_string o) = None ->
  url_validate host_ok o v = LOk w -> url_validate host_ok o w = LOk w.
Proof. exact url_again. Qed.
Print Assumptions C52_idempotent.
Example C52_idempotent_ex :
  url_validate C52_any (UO (SO "" CUpper None) true false) (VStr "http://a/b;c?d#e") = LOk (VStr "http://A/B#E").
Proof. vm_compute. reflexivity. Qed.

(** Not so with [strip] or [regex]: both come before the removal. *)
Theorem C52_strip_refuted : exists host_ok o v w,
  so_regex (uo_string o) = None /\ url_validate host_ok o v = LOk w /\ url_validate host_ok o w <> LOk w.
Proof.
  exists C52_any, (UO (SO " " CNone None) false true), (VStr "http://a/b #c"), (VStr "http://a/b ").
  vm_compute. repeat split; discriminate.
Qed.
Print Assumptions C52_strip_refuted.
Theorem C52_regex_refuted : exists host_ok o v w,
  so_strip (uo_string o) = ""%string /\ url_validate host_ok o v = LOk w /\ url_validate host_ok o w = LErr 0.
Proof.
  exists C52_any, (UO (SO "" CNone (Some (fun s => mem_ch (chars s) "?"))) true false), (VStr "http://a/b?c"), (VStr "http://a/b").
  vm_compute. auto.
Qed.
Print Assumptions C52_regex_refuted.

(** Path parameters stay, although remove_parameters is set, in segments before
    the last, and for schemes that urllib does not list. *)
Theorem C52_path_parameters_refuted :
  (exists host_ok o, uo_params o = true /\
    url_validate host_ok o (VStr "http://a/b;c/d;e") = LOk (VStr "http://a/b;c/d")) /\
  (exists host_ok o, uo_params o = true /\
    url_validate host_ok o (VStr "ws://a/b;c") = LOk (VStr "ws://a/b;c")).
Proof. split; exists C52_any, (UO C52_plain true true); vm_compute; auto. Qed.
Print Assumptions C52_path_parameters_refuted.

(** Unbalanced brackets are not reported as a ValidationError. *)
Theorem C52_brackets_refuted : forall host_ok o, uo_string o = C52_plain ->
  url_validate host_ok o (VStr "http://[a") = LExc ExValue.
Proof. intros host_ok [so p f] H. simpl in H. subst so. reflexivity. Qed.
Print Assumptions C52_brackets_refuted.
