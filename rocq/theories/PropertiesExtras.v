(** Property theorems about Property options, File, ImagePNG and Array: [C40],
    [C41], [C44], [C50], [C51]. *)
From Verif Require Import Options Files Arrays NumSpec BasicSpec OptionsSpec OptionsFacts FilesFacts ArraysFacts OptionsExact.
Local Open Scope string_scope.
Local Open Scope list_scope.

(** * C41: option setters keep options consistent *)

(** Bounds of Integer and Float after any assignments, rejected ones included:
    one is missing, or both are numbers and the maximum is not below the minimum. *)
Theorem C41_bounds_consistent : forall l, Forall (fun a => valid_val (bop_val a)) l ->
  let o := assign_all b_apply b_start l in
  b_min o = VNone \/ b_max o = VNone \/
  exists m n, as_num (b_min o) = Some m /\ as_num (b_max o) = Some n /\ ~ ext_lt (ext_of n) (ext_of m).
Proof. exact bounds_consistent. Qed.
Print Assumptions C41_bounds_consistent.
Example C41_bounds_consistent_ex :
  assign_all b_apply b_start [SetMin (VInt 3); SetMax (VInt 2); SetMax (VStr "x"); SetMax (VFloat (S754_infinity false)); SetMin (VInt 5)] =
  BO (VInt 5) (VFloat (S754_infinity false)).
Proof. reflexivity. Qed.
(** A bound is accepted exactly when the other one is missing, or both are
    numbers and in order; only that bound changes. *)
Theorem C41_bounds_exact : forall o v o', valid_val v -> valid_val (b_min o) -> valid_val (b_max o) ->
  (b_apply o (SetMin v) = Ok o' <-> o' = BO v (b_max o) /\
     (b_max o = VNone \/ exists m n, as_num v = Some m /\ as_num (b_max o) = Some n /\ ~ ext_lt (ext_of n) (ext_of m))) /\
  (b_apply o (SetMax v) = Ok o' <-> o' = BO (b_min o) v /\
     (b_min o = VNone \/ exists m n, as_num (b_min o) = Some m /\ as_num v = Some n /\ ~ ext_lt (ext_of n) (ext_of m))).
Proof. exact bounds_iff. Qed.
Print Assumptions C41_bounds_exact.
Example C41_bounds_exact_ex :
  b_apply (BO (VInt 1) (VInt 4)) (SetMin (VInt 4)) = Ok (BO (VInt 4) (VInt 4)) /\
  b_apply (BO (VInt 1) (VInt 4)) (SetMin (VInt 5)) = Exc ExType /\ b_apply (BO (VInt 1) (VInt 4)) (SetMax (VInt 0)) = Exc ExType.
Proof. repeat split. Qed.
(** So a bound that is no number at all is accepted when there is no other, and a
    bound cannot be taken back while there is another. *)
Theorem C41_any_bound_refuted :
  b_apply b_start (SetMin (VStr "x")) = Ok (BO (VStr "x") VNone) /\
  forall m n, b_apply (BO (VInt m) (VInt n)) (SetMin VNone) = Exc ExType /\ b_apply (BO (VInt m) (VInt n)) (SetMax VNone) = Exc ExType.
Proof. repeat split. Qed.
Print Assumptions C41_any_bound_refuted.
(** A minimum of nan is accepted with any maximum and then excludes nothing. *)
Theorem C41_nan_bound_refuted : exists l m n, let o := assign_all b_apply b_start l in
  Forall (fun a => valid_val (bop_val a)) l /\ as_num (b_min o) = Some m /\ as_num (b_max o) = Some n /\ nle m n = false.
Proof.
  exists [SetMax (VInt 0); SetMin (VFloat S754_nan)], (NF S754_nan), (NZ 0). simpl. repeat split. repeat constructor.
Qed.
Print Assumptions C41_nan_bound_refuted.

(** Lengths of containers. *)
Theorem C41_lengths_consistent : forall l, l_good (assign_all l_apply l_start l).
Proof. exact lengths_consistent. Qed.
Print Assumptions C41_lengths_consistent.
Example C41_lengths_consistent_ex :
  assign_all l_apply l_start [SetMinLength (VInt 2); SetMaxLength (VInt 1); SetMinLength (VInt (-1)); SetMaxLength (VInt 7); SetMinLength (VBool true)] =
  LO (Some 1%Z) (Some 7%Z).
Proof. reflexivity. Qed.
Theorem C41_lengths_exact : forall o v o',
  (l_apply o (SetMinLength v) = Ok o' <->
     exists z, is_int v z /\ (0 <= z)%Z /\ (forall n, l_max o = Some n -> (z <= n)%Z) /\ o' = LO (Some z) (l_max o)) /\
  (l_apply o (SetMaxLength v) = Ok o' <->
     exists z, is_int v z /\ (0 <= z)%Z /\ (forall n, l_min o = Some n -> (n <= z)%Z) /\ o' = LO (l_min o) (Some z)).
Proof. exact lengths_iff. Qed.
Print Assumptions C41_lengths_exact.
Example C41_lengths_exact_ex :
  l_apply (LO (Some 2%Z) (Some 4%Z)) (SetMinLength (VInt 4)) = Ok (LO (Some 4%Z) (Some 4%Z)) /\
  l_apply (LO (Some 2%Z) (Some 4%Z)) (SetMaxLength (VInt 1)) = Exc ExType /\
  l_apply (LO None (Some 4%Z)) (SetMinLength (VBool true)) = Ok (LO (Some 1%Z) (Some 4%Z)).
Proof. repeat split. Qed.

(** Every rejected option assignment raises TypeError (Array options: below). *)
Theorem C41_type_error :
  (forall o a e, b_apply o a = Exc e -> e = ExType) /\
  (forall o a e, l_apply o a = Exc e -> e = ExType) /\
  (forall modes o a e, m_apply modes o a = Exc e -> e = ExType) /\
  (forall o a e, c_apply o a = Exc e -> e = ExType).
Proof. exact (conj rejected_bounds (conj rejected_lengths (conj rejected_modes rejected_choices))). Qed.
Print Assumptions C41_type_error.
Example C41_type_error_ex :
  b_apply (BO VNone (VInt 1)) (SetMin (VStr "x")) = Exc ExType /\ l_apply l_start (SetMinLength (VStr "x")) = Exc ExType /\
  m_apply file_modes (MO None None) (SetMode (VInt 1)) = Exc ExType /\ c_apply (CO false [] None) (SetCase (VInt 1)) = Exc ExType.
Proof. repeat split. Qed.

(** Modes of File (or of a subclass with its own [file_modes]): always modes of
    the class. *)
Theorem C41_modes_known : forall modes l, m_known modes (assign_all (m_apply modes) (MO None None) l).
Proof. exact modes_known. Qed.
Print Assumptions C41_modes_known.
(** Assigned in the order of the constructor, the mode is among the valid modes. *)
Theorem C41_modes_consistent : forall modes ms vs m,
  let o := assign_all (m_apply modes) (assign_all (m_apply modes) (MO None None) (map SetMode ms)) (map SetValidModes vs) in
  m_mode o = Some m -> exists l, valid_modes o = Some l /\ In m l.
Proof. exact modes_consistent. Qed.
Print Assumptions C41_modes_consistent.
Example C41_modes_consistent_ex :
  let o := assign_all (m_apply file_modes) (assign_all (m_apply file_modes) (MO None None) (map SetMode [VStr "z"; VStr "r"]))
             (map SetValidModes [VTuple [VStr "w"]; VList [VStr "w"; VStr "r"]; VStr "a"]) in
  o = MO (Some "r") (Some ["w"; "r"]) /\ m_known file_modes o.
Proof. cbv zeta. split; [reflexivity|]. split; simpl; intros ? E; injection E as <-; [auto 20|]. intros x [<-|[<-|[]]]; simpl; auto 20. Qed.
(** Which modes and valid modes are accepted; with mode None, no valid modes are. *)
Theorem C41_mode_exact : forall modes o v o', m_apply modes o (SetMode v) = Ok o' <->
  (v = VNone /\ o' = MO None (m_valid o)) \/ exists s, v = VStr s /\ In s modes /\ o' = MO (Some s) (m_valid o).
Proof. exact mode_iff. Qed.
Print Assumptions C41_mode_exact.
Theorem C41_valid_modes_exact : forall modes o v o', m_apply modes o (SetValidModes v) = Ok o' <->
  exists l m, strings v l /\ incl l modes /\ m_mode o = Some m /\ In m l /\ o' = MO (m_mode o) (Some l).
Proof. exact valid_modes_iff. Qed.
Print Assumptions C41_valid_modes_exact.
(** The modes of File are those of [open]; those of ImagePNG are the binary ones
    that can be read. *)
Theorem C41_mode_tables :
  (forall s, In s file_modes <->
     exists a b c, In a ["r"; "w"; "a"] /\ In b [""; "b"] /\ In c [""; "+"] /\ s = (a ++ b ++ c)%string) /\
  (forall s, In s png_modes <-> In s file_modes /\ In "b"%char (chars s) /\ (In "r"%char (chars s) \/ In "+"%char (chars s))).
Proof. exact (conj file_modes_iff png_modes_iff). Qed.
Print Assumptions C41_mode_tables.
Example C41_mode_tables_ex : In "ab+" file_modes /\ ~ In "x" file_modes /\ In "wb+" png_modes /\ ~ In "wb" png_modes.
Proof. repeat split; simpl; intuition discriminate. Qed.
Example C41_valid_modes_exact_ex :
  m_apply file_modes (MO (Some "r") None) (SetValidModes (VTuple [VStr "r"; VStr "rb"])) = Ok (MO (Some "r") (Some ["r"; "rb"])) /\
  m_apply file_modes (MO None None) (SetValidModes (VTuple [VStr "r"; VStr "rb"])) = Exc ExType.
Proof. split; reflexivity. Qed.
(** The mode assigned after the valid modes need not be one of them. *)
Theorem C41_mode_after_valid_refuted : exists l m vm, let o := assign_all (m_apply file_modes) (MO None None) l in
  m_mode o = Some m /\ valid_modes o = Some vm /\ ~ In m vm.
Proof.
  exists [SetMode (VStr "r"); SetValidModes (VTuple [VStr "r"; VStr "rb"]); SetMode (VStr "w")], "w", ["r"; "rb"].
  simpl. repeat split. intuition discriminate.
Qed.
Print Assumptions C41_mode_after_valid_refuted.

(** * C51: options of StringChoice *)

(** Choices are accepted exactly when they are a collection of strings, or a
    dictionary from strings to strings, without two strings that are the same up
    to the case rule. *)
Theorem C51_choices_exact : forall o v o', c_apply o (SetChoices v) = Ok o' <->
  exists t, gives_table v t /\ no_collisions (c_case o) t /\ o' = CO (c_case o) t (c_descr o).
Proof. exact choices_iff. Qed.
Print Assumptions C51_choices_exact.
Example C51_choices_exact_ex :
  let t := [("red", ["crimson"; "r"]); ("Blue", ["b"])] in
  c_apply (CO false [] None) (SetChoices (VDict [(VStr "red", VSet [VStr "crimson"; VStr "r"]); (VStr "Blue", VStr "b")])) = Ok (CO false t None) /\
  c_apply (CO false [] None) (SetChoices (VTuple [VStr "x"; VStr "y"])) = Ok (CO false [("x", []); ("y", [])] None) /\
  c_apply (CO false [] None) (SetChoices (VDict [(VStr "red", VList [VStr "RED"])])) = Exc ExType /\
  c_apply (CO true [] None) (SetChoices (VDict [(VStr "red", VList [VStr "RED"])])) = Ok (CO true [("red", ["RED"])] None).
Proof. cbv zeta. repeat split. Qed.
Theorem C51_case_exact : forall o v o', c_apply o (SetCase v) = Ok o' <-> exists b, v = VBool b /\ o' = CO b (c_choices o) (c_descr o).
Proof. exact case_iff. Qed.
Print Assumptions C51_case_exact.
(** Whatever is assigned (lists, sets, dictionaries, descriptions, anything
    else), the table stays free of collisions while the case rule is not changed. *)
Theorem C51_choices_kept : forall o l, no_collisions (c_case o) (c_choices o) -> Forall (fun a => forall v, a <> SetCase v) l ->
  let o' := assign_all c_apply o l in c_case o' = c_case o /\ no_collisions (c_case o') (c_choices o').
Proof. exact choices_kept. Qed.
Print Assumptions C51_choices_kept.
Example C51_choices_kept_ex :
  assign_all c_apply (CO false [] None)
    [SetChoices (VList [VStr "a"; VStr "b"]); SetChoices (VList [VStr "a"; VStr "A"]); SetChoices (VList [VStr "a"; VInt 1]);
     SetDescriptions (VDict [(VStr "b", VStr "B."); (VStr "a", VStr "A.")]); SetDescriptions (VDict [(VStr "b", VStr "only b")])] =
  CO false [("a", []); ("b", [])] (Some [("b", "B."); ("a", "A.")]) /\ no_collisions false ([] : table).
Proof. split; [reflexivity|constructor]. Qed.
(** Descriptions are accepted exactly when they describe the choices (the keys of
    a dictionary are distinct). *)
Theorem C51_descriptions : forall o v o', NoDup (map fst (c_choices o)) -> (forall kvs, v = VDict kvs -> NoDup (map fst kvs)) ->
  (c_apply o (SetDescriptions v) = Ok o' <->
   exists ds, v = VDict (map (fun kd => (VStr (fst kd), VStr (snd kd))) ds) /\
     (forall k, In k (map fst ds) <-> In k (map fst (c_choices o))) /\ o' = CO (c_case o) (c_choices o) (Some ds)).
Proof. exact descriptions_iff. Qed.
Print Assumptions C51_descriptions.
Example C51_descriptions_ex :
  let o := CO false [("a", ["x"]); ("b", [])] None in
  NoDup (map fst (c_choices o)) /\
  c_apply o (SetDescriptions (VDict [(VStr "b", VStr "B."); (VStr "a", VStr "A.")])) = Ok (CO false (c_choices o) (Some [("b", "B."); ("a", "A.")])).
Proof. cbv zeta. split; [repeat constructor; simpl; intuition discriminate|reflexivity]. Qed.
(** Changing the case rule or the choices later can break both. *)
Theorem C51_case_after_choices_refuted : exists o l, no_collisions (c_case o) (c_choices o) /\
  ~ no_collisions (c_case (assign_all c_apply o l)) (c_choices (assign_all c_apply o l)).
Proof.
  exists (CO true [("a", []); ("A", [])] None), [SetCase (VBool false)]. unfold no_collisions. simpl. split.
  - repeat constructor; simpl; intuition discriminate.
  - intros H. inversion H as [|? ? K _]. apply K. simpl. auto.
Qed.
Print Assumptions C51_case_after_choices_refuted.
Theorem C51_choices_after_descriptions_refuted : exists l, let o := assign_all c_apply (CO false [] None) l in
  exists ds, c_descr o = Some ds /\ ~ In "c" (map fst ds) /\ In "c" (map fst (c_choices o)).
Proof.
  exists [SetChoices (VList [VStr "a"; VStr "b"]); SetDescriptions (VDict [(VStr "a", VStr "A"); (VStr "b", VStr "B")]); SetChoices (VList [VStr "c"])].
  simpl. eexists. split; [reflexivity|]. simpl. intuition discriminate.
Qed.
Print Assumptions C51_choices_after_descriptions_refuted.

(** * C50: File *)

(** A value is accepted exactly when it is an open file-like object with an
    allowed mode, or a name that opens to one; the object is the result. *)
Theorem C50_accepts : forall fs o v h r h', file_validate fs o v h = (LOk r, h') <->
  exists i f, r = VObj i /\ nth_error h' i = Some f /\ open_file_of o f /\
    (v = r /\ h' = h \/
     exists s m rm bs p, v = VStr s /\ m_mode o = Some m /\ fs s m = Opened rm bs p /\ i = length h /\
       f = FO true true true (Some (VStr rm)) (Some false) false bs p 0 /\ h' = h ++ [f]).
Proof. exact file_accepts. Qed.
Print Assumptions C50_accepts.
(** [open] of CPython: a file opened with 'wb+' reports mode 'rb+'. *)
Definition fs_ex (name mode : string) : opened :=
  if String.eqb name "missing" then OpenFails else Opened (if String.eqb mode "wb+" then "rb+" else mode) [1; 2]%Z 0.
Example C50_accepts_ex :
  let o := MO (Some "r") (Some ["r"; "rb"]) in
  let f m c := FO true true true m c false [] 0 0 in
  let h := [f (Some (VStr "rb")) (Some false); f (Some (VStr "w")) (Some false); f None None; f None (Some true)] in
  map (fun v => fst (file_validate fs_ex o v h)) [VObj 0; VObj 1; VObj 2; VObj 3; VStr "x"; VStr "missing"; VNone] =
  [LOk (VObj 0); LErr 0; LOk (VObj 2); LErr 0; LOk (VObj 4); LErr 0; LErr 0].
Proof. reflexivity. Qed.
(** Everything else is a ValidationError or the exception that [open] raised;
    only opening a file adds an object. *)
Theorem C50_outcomes : forall fs o v h r h', file_validate fs o v h = (r, h') ->
  (exists s m, v = VStr s /\ m_mode o = Some m /\
     ((fs s m = OpenFails /\ r = LErr 0 /\ h' = h) \/
      (exists e, fs s m = OpenRaises e /\ r = LExc e /\ h' = h) \/
      (exists rm bs p, fs s m = Opened rm bs p /\ h' = h ++ [FO true true true (Some (VStr rm)) (Some false) false bs p 0] /\
         (r = LOk (VObj (length h)) \/ r = LErr 0)))) \/
  ((forall s m, ~ (v = VStr s /\ m_mode o = Some m)) /\ h' = h /\ (r = LOk v \/ r = LErr 0)).
Proof. exact file_outcomes. Qed.
Print Assumptions C50_outcomes.
Example C50_outcomes_ex :
  let o := MO (Some "r") None in
  let fs n m := if String.eqb n "dir" then OpenFails else if String.eqb n "bad" then OpenRaises ExValue else fs_ex n m in
  file_validate fs o (VStr "dir") [] = (LErr 0, []) /\ file_validate fs o (VStr "bad") [] = (LExc ExValue, []) /\
  file_validate fs o (VStr "x") [] = (LOk (VObj 0), [FO true true true (Some (VStr "r")) (Some false) false [1; 2]%Z 0 0]) /\
  file_validate fs (MO None None) (VStr "x") [] = (LErr 0, []).
Proof. repeat split. Qed.
(** The outcomes of an assignment, for File and ImagePNG: what [validate]
    returns is stored unless a listener raises. *)
Theorem C50_assigned : forall validate v veto s h1,
  (forall w, validate v (fs_heap s) = (LOk w, h1) ->
     (veto = None -> file_set validate v veto s = (Ok VNone, FS (Some w) h1)) /\
     (forall e, veto = Some e -> file_set validate v veto s = (Exc e, FS (fs_slot s) h1))) /\
  (forall n, validate v (fs_heap s) = (LErr n, h1) -> file_set validate v veto s = (Exc (ExValidation []), FS (fs_slot s) h1)) /\
  (forall e, validate v (fs_heap s) = (LExc e, h1) -> file_set validate v veto s = (Exc e, FS (fs_slot s) h1)).
Proof. exact set_outcomes. Qed.
Print Assumptions C50_assigned.
Example C50_assigned_ex :
  let fs n m := if String.eqb n "bad" then OpenRaises ExValue else fs_ex n m in
  let set := file_set (file_validate fs (MO (Some "r") None)) in
  set (VStr "bad") None (FS None []) = (Exc ExValue, FS None []) /\ fst (set (VStr "x") (Some (ExUser 3)) (FS None [])) = Exc (ExUser 3) /\
  fs_slot (snd (set (VStr "x") (Some (ExUser 3)) (FS None []))) = None.
Proof. repeat split. Qed.
(** The other deletions: nothing stored, a stored value that has no [close],
    and a listener that raises (the file is closed all the same). *)
Theorem C50_deleted : forall veto s r s', file_del veto s = (r, s') ->
  ((fs_slot s = None \/ fs_slot s = Some VNone) ->
     fs_heap s' = fs_heap s /\ (veto = None -> r = Ok VNone /\ fs_slot s' = None) /\ (forall e, veto = Some e -> r = Exc e /\ s' = s)) /\
  (forall v, fs_slot s = Some v -> v <> VNone -> (forall i, v <> VObj i) -> r = Exc ExAttr /\ s' = s) /\
  (forall i f e, fs_slot s = Some (VObj i) -> nth_error (fs_heap s) i = Some f -> f_close f = true -> veto = Some e ->
     r = Exc e /\ fs_slot s' = fs_slot s /\
     exists f', nth_error (fs_heap s') i = Some f' /\ f_closes f' = S (f_closes f)).
Proof. exact delete_outcomes. Qed.
Print Assumptions C50_deleted.
Example C50_deleted_ex :
  map (fun x => fst (file_del None (FS x []))) [None; Some VNone; Some (VInt 3)] = [Ok VNone; Ok VNone; Exc ExAttr] /\
  fst (file_del (Some (ExUser 1)) (FS (Some (VObj 0)) [FO true true true None None false [] 0 0])) = Exc (ExUser 1).
Proof. split; reflexivity. Qed.
(** Deleting the property closes the stored file and nothing else; an object
    that cannot be closed stays stored. *)
Theorem C50_delete_closes : forall h i f r s', nth_error h i = Some f -> file_del None (FS (Some (VObj i)) h) = (r, s') ->
  (f_close f = false /\ r = Exc ExAttr /\ s' = FS (Some (VObj i)) h) \/
  (f_close f = true /\ r = Ok VNone /\ fs_slot s' = None /\ length (fs_heap s') = length h /\
   (exists f', nth_error (fs_heap s') i = Some f' /\ f_closes f' = S (f_closes f) /\ (f_closed f <> None -> f_closed f' = Some true)) /\
   forall j, j <> i -> nth_error (fs_heap s') j = nth_error h j).
Proof. exact delete_closes. Qed.
Print Assumptions C50_delete_closes.
Example C50_delete_closes_ex :
  let f := FO true true true None (Some false) false [] 0 0 in
  file_del None (FS (Some (VObj 1)) [f; f]) = (Ok VNone, FS None [f; FO true true true None (Some true) false [] 0 1]).
Proof. reflexivity. Qed.
(** An assignment stores an open file-like object with an allowed mode, the one
    assigned or a new one, or raises and stores nothing. *)
Theorem C50_assignment : forall fs o v veto s r s', file_set (file_validate fs o) v veto s = (r, s') ->
  (r = Ok VNone /\ exists i f, fs_slot s' = Some (VObj i) /\ nth_error (fs_heap s') i = Some f /\ open_file_of o f /\
     (v = VObj i \/ nth_error (fs_heap s) i = None)) \/
  ((exists e, r = Exc e) /\ fs_slot s' = fs_slot s).
Proof. exact set_file. Qed.
Print Assumptions C50_assignment.
Example C50_assignment_ex :
  let o := MO (Some "r") (Some ["r"; "rb"]) in
  let f m c := FO true true true m c false [] 0 0 in
  let s := FS (Some (VObj 0)) [f (Some (VStr "r")) (Some false); f (Some (VStr "w")) (Some false)] in
  fst (file_set (file_validate fs_ex o) (VObj 1) None s) = Exc (ExValidation []) /\
  fs_slot (snd (file_set (file_validate fs_ex o) (VStr "name") None s)) = Some (VObj 2).
Proof. repeat split. Qed.
(** A deletion that a listener vetoes has already closed the file. *)
Theorem C50_vetoed_delete_refuted : exists h, let (r, s') := file_del (Some (ExUser 0)) (FS (Some (VObj 0)) h) in
  r = Exc (ExUser 0) /\ fs_slot s' = Some (VObj 0) /\ exists f, nth_error (fs_heap s') 0 = Some f /\ f_closed f = Some true.
Proof.
  exists [FO true true true None (Some false) false [] 0 0]. simpl. repeat split. eexists. split; reflexivity.
Qed.
Print Assumptions C50_vetoed_delete_refuted.
(** With mode 'wb+' every file name is rejected, after the file was opened (and
    emptied); it stays open. *)
Theorem C50_wb_plus_refuted : exists o, m_mode o = Some "wb+" /\ m_known file_modes o /\
  forall name h, name <> "missing" ->
  exists f, file_validate fs_ex o (VStr name) h = (LErr 0, h ++ [f]) /\ f_closed f = Some false.
Proof.
  exists (MO (Some "wb+") None). split; [reflexivity|]. split; [split; simpl; intros ? E; [injection E as <-; auto 20|discriminate]|].
  intros name h Hn. unfold file_validate, fs_ex. simpl. apply String.eqb_neq in Hn. rewrite Hn. eexists. split; [|].
  - f_equal. unfold file_checks. now rewrite nth_error_app2, Nat.sub_diag by apply le_n.
  - reflexivity.
Qed.
Print Assumptions C50_wb_plus_refuted.
(** ImagePNG accepts a closed stream if it was validated before. *)
Theorem C50_png_closed_refuted : exists fs o v h f, png_validate fs o v h = (LOk v, h) /\
  v = VObj 0 /\ nth_error h 0 = Some f /\ f_closed f = Some true.
Proof.
  exists fs_ex, (MO (Some "rb") None), (VObj 0), [FO true true true None (Some true) true [] 0 0]. eexists. repeat split.
Qed.
Print Assumptions C50_png_closed_refuted.

(** * C44: PNG bytes survive JSON *)

(** The stream read back holds exactly the bytes from the position of the image
    on: all of them if it is at the start. *)
Theorem C44_json_round_trip : forall f, Forall byte (f_bytes f) ->
  exists g, png_from_json (fst (png_to_json f)) = Ok g /\ f_bytes g = skipn (f_pos f) (f_bytes f) /\ f_pos g = 0%nat /\
    f_closed g = Some false /\ (f_pos f = 0%nat -> f_bytes g = f_bytes f) /\ snd (png_to_json f) = at_pos f 0.
Proof. exact json_round_trip. Qed.
Print Assumptions C44_json_round_trip.
Example C44_json_round_trip_ex :
  let f := png_copy [137; 80; 78; 71; 13; 10; 26; 10; 255; 0; 128] in
  fst (png_to_json f) = "data:image/png;base64,iVBORw0KGgr/AIA=" /\
  (exists g, png_from_json (fst (png_to_json f)) = Ok g /\ f_bytes g = f_bytes f) /\ Forall byte (f_bytes f).
Proof.
  cbv zeta. split; [reflexivity|]. split; [eexists; split; reflexivity|]. unfold byte. simpl. repeat constructor; discriminate.
Qed.
(** Accepted images are open copies at the start of the stream with the same
    bytes, and validating them again changes nothing; so after [validate] and as
    long as nobody reads the stream, JSON keeps all bytes. *)
Theorem C44_validate_copies : forall fs o v h r h', png_validate fs o v h = (LOk r, h') ->
  (exists i f, v = VObj i /\ nth_error h i = Some f /\ f_marked f = true /\ r = v /\ h' = h) \/
  exists i j f c, r = VObj j /\ nth_error h' j = Some c /\ f_marked c = true /\ f_closed c = Some false /\ f_pos c = 0%nat /\
    nth_error h j = None /\
    (forall h1, file_validate fs o v h = (LOk (VObj i), h1) -> nth_error h1 i = Some f) /\
    (exists h1, file_validate fs o v h = (LOk (VObj i), h1)) /\
    f_bytes c = f_bytes f /\ firstn 8 (skipn (f_pos f) (f_bytes f)) = [137; 80; 78; 71; 13; 10; 26; 10]%Z.
Proof. exact png_accepts. Qed.
Print Assumptions C44_validate_copies.
Example C44_validate_copies_ex :
  let f := FO true true true None (Some false) false ([137; 80; 78; 71; 13; 10; 26; 10; 7])%Z 0 0 in
  png_validate fs_ex (MO (Some "rb") None) (VObj 0) [f] = (LOk (VObj 1), [closed_file (at_pos f 9); png_copy (f_bytes f)]) /\
  fst (png_validate fs_ex (MO (Some "rb") None) (VObj 0) [at_pos f 1]) = LErr 0.
Proof. split; reflexivity. Qed.
(** All outcomes of [ImagePNG.validate] for a value that has not been
    validated before: the signature is 8 fixed bytes at the position of the
    file; a file without them is left open after what was read; a copied file is
    closed. *)
Theorem C44_outcomes : forall fs o v h, (forall i f, v = VObj i -> nth_error h i = Some f -> f_marked f = false) ->
  (forall h1, (forall n, file_validate fs o v h = (LErr n, h1) -> png_validate fs o v h = (LErr n, h1)) /\
     (forall e, file_validate fs o v h = (LExc e, h1) -> png_validate fs o v h = (LExc e, h1))) /\
  (forall i h1 f, file_validate fs o v h = (LOk (VObj i), h1) -> nth_error h1 i = Some f ->
     let sig := firstn 8 (skipn (f_pos f) (f_bytes f)) in
     (forall h', (exists r, png_validate fs o v h = (r, h')) -> forall j, (j < length h1)%nat -> j <> i -> nth_error h' j = nth_error h1 j) /\
     (sig <> [137; 80; 78; 71; 13; 10; 26; 10]%Z ->
        exists h', png_validate fs o v h = (LErr 0, h') /\ length h' = length h1 /\
          nth_error h' i = Some (FO (f_read f) (f_seek f) (f_close f) (f_mode f) (f_closed f) (f_marked f) (f_bytes f) (f_pos f + length sig)%nat (f_closes f))) /\
     (sig = [137; 80; 78; 71; 13; 10; 26; 10]%Z -> f_close f = false ->
        exists h', png_validate fs o v h = (LExc ExAttr, h') /\ length h' = length h1 /\
          nth_error h' i = Some (FO (f_read f) (f_seek f) (f_close f) (f_mode f) (f_closed f) (f_marked f) (f_bytes f) (length (f_bytes f)) (f_closes f))) /\
     (sig = [137; 80; 78; 71; 13; 10; 26; 10]%Z -> f_close f = true ->
        exists h', png_validate fs o v h = (LOk (VObj (length h1)), h') /\ length h' = S (length h1) /\
          nth_error h' (length h1) = Some (FO true true true None (Some false) true (f_bytes f) 0 0)%nat /\
          nth_error h' i = Some (FO (f_read f) (f_seek f) true (f_mode f) (if f_closed f then Some true else None) (f_marked f) (f_bytes f) (length (f_bytes f)) (S (f_closes f))))).
Proof. exact png_outcomes. Qed.
Print Assumptions C44_outcomes.
Example C44_outcomes_ex :
  let f c b := FO true true c None (Some false) false b 0 0 in
  let o := MO (Some "rb") None in
  let sig := [137; 80; 78; 71; 13; 10; 26; 10]%Z in
  png_validate fs_ex o (VObj 0) [f true (sig ++ [5]%Z)] =
    (LOk (VObj 1), [FO true true true None (Some true) false (sig ++ [5]%Z) 9 1; FO true true true None (Some false) true (sig ++ [5]%Z) 0 0]) /\
  fst (png_validate fs_ex o (VObj 0) [f false sig]) = LExc ExAttr /\
  png_validate fs_ex o (VObj 0) [f true [1; 2]%Z] = (LErr 0, [FO true true true None (Some false) false [1; 2]%Z 2 0]).
Proof. repeat split. Qed.
(** Text without the preamble is refused. *)
Theorem C44_preamble : forall s, (forall t, s <> String.append "data:image/png;base64," t) -> png_from_json s = Exc ExValue.
Proof. exact from_json_rejects. Qed.
Print Assumptions C44_preamble.
Example C44_preamble_ex : png_from_json "data:image/jpg;base64,iVBO" = Exc ExValue.
Proof. reflexivity. Qed.
(** The text is the preamble and the RFC 4648 text of the bytes. *)
Theorem C44_text : forall f, Forall byte (f_bytes f) ->
  exists t, fst (png_to_json f) = String.append "data:image/png;base64," (unchars t) /\ b64_text (skipn (f_pos f) (f_bytes f)) t.
Proof. exact json_text. Qed.
Print Assumptions C44_text.
Example C44_text_ex : let f := FO true true true None (Some false) true [255; 16; 77; 97]%Z 1 0 in
  fst (png_to_json f) = "data:image/png;base64,EE1h" /\ Forall byte (f_bytes f) /\
  b64_text [16; 77; 97]%Z (chars "EE1h").
Proof.
  cbv zeta. split; [reflexivity|]. split; [unfold byte; simpl; repeat constructor; discriminate|].
  apply (bt_three 16 77 97 4 4 53 33 [] []); unfold sextet; try (split; [discriminate|reflexivity]); [reflexivity|constructor].
Qed.
(** Reading back: exactly what decoding gives. *)
Theorem C44_reads : forall t,
  (forall bs, b64decode t = Ok bs -> png_from_json (String.append "data:image/png;base64," (unchars t)) = Ok (FO true true true None (Some false) false bs 0 0)) /\
  (forall e, b64decode t = Exc e -> png_from_json (String.append "data:image/png;base64," (unchars t)) = Exc e).
Proof. exact from_json_decodes. Qed.
Print Assumptions C44_reads.
(** Decoding any text: characters outside the alphabet do not count; complete
    groups give their bytes, an incomplete group raises ValueError unless padding
    completes it; then the rest of the text is ignored.  Other padding is. *)
Theorem C44_decode : forall ss bs, whole_bytes ss bs ->
  let text := map sextet_char ss in let q := Nat.modulo (length ss) 4 in
  (q = 0%nat -> b64decode text = Ok bs) /\
  (q <> 0%nat -> b64decode text = Exc ExValue) /\
  (q = 2%nat -> b64decode (text ++ ["="%char]) = Exc ExValue /\ forall rest, b64decode (text ++ "="%char :: "="%char :: rest) = Ok bs) /\
  (q = 3%nat -> forall rest, b64decode (text ++ "="%char :: rest) = Ok bs) /\
  (q < 2 -> forall rest, b64decode (text ++ "="%char :: rest) = b64decode (text ++ rest))%nat /\
  (q = 2%nat -> forall s rest, sextet s -> b64decode (text ++ "="%char :: sextet_char s :: rest) = b64decode (text ++ sextet_char s :: rest)).
Proof. exact decode_exact. Qed.
Print Assumptions C44_decode.
Theorem C44_decode_skips : forall c a b, (forall s, sextet s -> c <> sextet_char s) -> c <> "="%char -> b64decode (a ++ c :: b) = b64decode (a ++ b).
Proof. exact decode_skips. Qed.
Print Assumptions C44_decode_skips.
Example C44_decode_ex : whole_bytes [4; 4; 53; 33]%Z [16; 77; 97]%Z /\ whole_bytes [4; 4]%Z [16]%Z /\
  map (fun s => b64decode (chars s)) ["EE1h"; "E=E1 h"; "EE"; "EE="; "EE==xx"; "EE=1h"; "EE1=EE1h"; "E!E1h"] =
  [Ok [16; 77; 97]; Ok [16; 77; 97]; Exc ExValue; Exc ExValue; Ok [16]; Ok [16; 77; 97]; Ok [16; 77]; Ok [16; 77; 97]]%Z.
Proof.
  split; [|split; [|vm_compute; reflexivity]].
  - apply wb_four; unfold sextet, byte; try (split; [discriminate|reflexivity]); [reflexivity|constructor].
  - apply (wb_two 4 4 16 4); unfold sextet; try (split; [discriminate|reflexivity]). reflexivity.
Qed.
(** The whole way: an image as [validate] returns it, whose bytes start with the
    signature, keeps its text however often it is serialized; what is read from
    the text is accepted by any ImagePNG property, and the new image is the same. *)
Theorem C44_cycle : forall fs o bs h, Forall byte bs -> firstn 8 bs = [137; 80; 78; 71; 13; 10; 26; 10]%Z ->
  let image := FO true true true None (Some false) true bs 0 0 in
  exists t g h', png_to_json image = (t, image) /\ png_from_json t = Ok g /\
    png_validate fs o (VObj (length h)) (h ++ [g]) = (LOk (VObj (S (length h))), h') /\
    nth_error h' (S (length h)) = Some image /\ (forall j, (j < length h)%nat -> nth_error h' j = nth_error h j).
Proof. exact png_cycle. Qed.
Print Assumptions C44_cycle.
Example C44_cycle_ex : let bs := [137; 80; 78; 71; 13; 10; 26; 10; 255; 0; 128]%Z in
  Forall byte bs /\ firstn 8 bs = [137; 80; 78; 71; 13; 10; 26; 10]%Z /\
  png_to_json (png_copy bs) = ("data:image/png;base64,iVBORw0KGgr/AIA=", png_copy bs).
Proof. cbv zeta. split; [unfold byte; simpl; repeat constructor; discriminate|]. split; reflexivity. Qed.
(** The signature is looked for at the position of the file, but the copy has all
    its bytes: such an image does not come back. *)
Theorem C44_cycle_refuted : exists fs o f h c t g,
  Forall byte (f_bytes f) /\ png_validate fs o (VObj 0) [f] = (LOk (VObj 1), h) /\ nth_error h 1 = Some c /\
  png_to_json c = (t, c) /\ png_from_json t = Ok g /\ fst (png_validate fs o (VObj 0) [g]) = LErr 0.
Proof.
  exists (fun _ _ => OpenFails), (MO (Some "rb") None), (FO true true true None (Some false) false [7; 137; 80; 78; 71; 13; 10; 26; 10]%Z 1 0).
  do 4 eexists. split; [unfold byte; simpl; repeat constructor; discriminate|]. split; [reflexivity|]. split; [reflexivity|].
  split; [reflexivity|]. split; [vm_compute; reflexivity|]. reflexivity.
Qed.
Print Assumptions C44_cycle_refuted.
(** An image that has been read is serialized from its position: bytes are lost. *)
Theorem C44_read_image_refuted : exists f g, Forall byte (f_bytes f) /\ f_marked f = true /\
  png_from_json (fst (png_to_json f)) = Ok g /\ f_bytes g <> f_bytes f.
Proof.
  exists (at_pos (png_copy [1; 2; 3]) 2). eexists. split; [unfold byte; simpl; repeat constructor; discriminate|].
  split; [reflexivity|]. split; [vm_compute; reflexivity|discriminate].
Qed.
Print Assumptions C44_read_image_refuted.

(** * C40: Array and Vectors *)

(** Accepted exactly when the (converted) value is an array of an allowed dtype
    kind whose shape fits one of the allowed shapes. *)
Theorem C40_array_accepts : forall wrap k o v a, array_validate wrap k o v = AOk a <->
  (match v with AvArr _ | AvList _ | AvTuple _ => True | _ => False end) /\
  (if ao_coerce o then wrap k v = Ok a else v = AvArr a) /\ acceptable k o a.
Proof. exact array_iff. Qed.
Print Assumptions C40_array_accepts.
(** numpy for the examples: lists become arrays of the length of the list *)
Definition wrap_ex (k : akind) (v : aval) : res arr :=
  match v with
  | AvArr a => Ok a
  | AvList l | AvTuple l => Ok (Arr k "f"%char (match k with KVec3Array => [Z.of_nat (length l); 3] | _ => [Z.of_nat (length l)] end))%Z
  | _ => Exc ExValue
  end.
Example C40_array_accepts_ex :
  let o := AO (Some (Some [[Star; Len 3]; [Len 2]]))%Z (Some [DBool; DInt]) true in
  map (fun a => array_validate wrap_ex KArray o (AvArr (Arr KArray (fst a) (snd a))))
    [("i"%char, [7; 3]%Z); ("b"%char, [2]%Z); ("u"%char, [2; 2]%Z); ("f"%char, [2]%Z); ("i"%char, []%Z); ("i"%char, [3]%Z)] =
  [AOk (Arr KArray "i"%char [7; 3]); AOk (Arr KArray "b"%char [2]); AErr; AErr; AErr; AErr]%Z.
Proof. reflexivity. Qed.
(** Without options: one dimension of floats or integers, converted from lists
    and tuples. *)
Theorem C40_array_default : forall wrap v a, array_validate wrap KArray a_start v = AOk a <->
  (match v with AvArr _ | AvList _ | AvTuple _ => True | _ => False end) /\ wrap KArray v = Ok a /\
  In (a_kind a) ["f"; "i"; "u"]%char /\ exists n, a_shape a = [n].
Proof. exact array_default_iff. Qed.
Print Assumptions C40_array_default.
Example C40_array_default_ex :
  array_validate wrap_ex KArray a_start (AvTuple [AiNum 1; AiNum 2]%Z) = AOk (Arr KArray "f"%char [2%Z]) /\
  array_validate wrap_ex KArray a_start (AvArr (Arr KArray "u"%char [2%Z; 2%Z])) = AErr.
Proof. split; reflexivity. Qed.
(** Which options are accepted. *)
Theorem C40_options : forall k o a o', a_apply k o a = Ok o' <->
  match a with
  | SetShape v =>
      (k = KArray /\ v = VNone /\ o' = AO (Some None) (ao_dtype o) (ao_coerce o)) \/
      exists l, gives_shapes v l /\ o' = AO (Some (Some l)) (ao_dtype o) (ao_coerce o) /\
        match k with
        | KArray => True
        | KVec3Array => Forall (fun s => exists d, s = [d; Len 3]) l
        | KVec2Array => Forall (fun s => exists d, s = [d; Len 2]) l
        | _ => False
        end
  | SetDtype l => k = KArray /\ l <> [] /\ ~ In DNoType l /\ o' = AO (ao_shape o) (Some l) (ao_coerce o)
  | SetCoerce v => exists b, v = VBool b /\ o' = AO (ao_shape o) (ao_dtype o) b
  end.
Proof. exact array_options. Qed.
Print Assumptions C40_options.
Example C40_options_ex :
  a_apply KArray a_start (SetShape (VSet [VTuple [VInt 3; VStr "*"]; VTuple []])) = Ok (AO (Some (Some [[Len 3; Star]; []]))%Z None true) /\
  a_apply KVec3Array a_start (SetShape (VTuple [VInt 7; VInt 3])) = Ok (AO (Some (Some [[Len 7; Len 3]]))%Z None true) /\
  a_apply KVec3Array a_start (SetShape (VTuple [VInt 7; VInt 2])) = Exc ExType /\
  a_apply KArray a_start (SetDtype [DInt; DFloat]) = Ok (AO None (Some [DInt; DFloat]) true) /\
  a_apply KArray a_start (SetDtype []) = Exc ExType /\
  a_apply KVec2 a_start (SetCoerce (VBool false)) = Ok (AO None None false).
Proof. repeat split. Qed.
(** A rejected option raises TypeError; vectors have no setter for dtype, and
    Vector3 and Vector2 none for shape: AttributeError. *)
Theorem C40_options_rejected : forall k o a e, a_apply k o a = Exc e ->
  e = if match k, a with KArray, _ | _, SetCoerce _ | KVec3Array, SetShape _ | KVec2Array, SetShape _ => true | _, _ => false end
      then ExType else ExAttr.
Proof. exact rejected_array. Qed.
Print Assumptions C40_options_rejected.
Example C40_options_rejected_ex :
  a_apply KVec3 a_start (SetShape (VTuple [VInt 3])) = Exc ExAttr /\ a_apply KVec2Array a_start (SetDtype [DInt]) = Exc ExAttr /\
  a_apply KArray a_start (SetShape (VTuple [VStr "x"])) = Exc ExType.
Proof. repeat split. Qed.
(** Direction names are the axes and their opposites; two dimensional vectors
    know those that lie in the plane. *)
Theorem C40_direction_names :
  (forall pos neg n, In (pos, neg, n) [("X", "-X", 0); ("EAST", "WEST", 0); ("Y", "-Y", 1); ("NORTH", "SOUTH", 1); ("Z", "-Z", 2); ("UP", "DOWN", 2)]%nat ->
     forall k, In k [KVec3; KVec3Array] -> direction k pos = Some (axis 3 n 1) /\ direction k neg = Some (axis 3 n (-1))) /\
  (forall pos neg n, In (pos, neg, n) [("X", "-X", 0); ("EAST", "WEST", 0); ("Y", "-Y", 1); ("NORTH", "SOUTH", 1)]%nat ->
     forall k, In k [KVec2; KVec2Array] -> direction k pos = Some (axis 2 n 1) /\ direction k neg = Some (axis 2 n (-1))) /\
  (forall s k, In s ["Z"; "-Z"; "UP"; "DOWN"] -> In k [KVec2; KVec2Array] -> direction k s = None) /\
  (forall k s, direction k s <> None -> exists name, str_upper s = name /\
     In name ["ZERO"; "X"; "-X"; "EAST"; "WEST"; "Y"; "-Y"; "NORTH"; "SOUTH"; "Z"; "-Z"; "UP"; "DOWN"]) /\
  (forall k, direction k "ZERO" = Some (axis (match k with KVec3 | KVec3Array => 3 | _ => 2 end) 0 0)) /\
  (forall k s t, str_upper s = str_upper t -> direction k s = direction k t).
Proof. exact direction_names. Qed.
Print Assumptions C40_direction_names.
Example C40_direction_names_ex : direction KVec3 "Down" = Some [0; 0; -1]%Z /\ direction KVec2 "west" = Some [-1; 0]%Z /\ direction KVec2 "up" = None.
Proof. repeat split. Qed.
(** The vector properties accept float vectors of their class and shape only,
    whatever was assigned to their options before. *)
Theorem C40_vector_shapes : forall wrap k ops v a v', k <> KArray ->
  validate wrap k (assign_all (a_apply k) a_start ops) v = (AOk a, v') ->
  a_class a = k /\ a_kind a = "f"%char /\
  match k with
  | KVec3 => a_shape a = [3%Z]
  | KVec2 => a_shape a = [2%Z]
  | KVec3Array => exists n, a_shape a = [n; 3%Z]
  | _ => exists n, a_shape a = [n; 2%Z]
  end.
Proof. exact vector_shapes. Qed.
Print Assumptions C40_vector_shapes.
Example C40_vector_shapes_ex :
  let ops := [SetShape (VTuple [VInt 4; VInt 3]); SetShape (VTuple [VInt 4; VInt 2]); SetShape VNone; SetDtype [DInt]] in
  let o := assign_all (a_apply KVec3Array) a_start ops in
  shape_opt KVec3Array o = Some [[Len 4; Len 3]]%Z /\
  validate wrap_ex KVec3Array o (AvList [AiStr "x"; AiOther 0; AiStr "Up"; AiOther 1]) =
    (AOk (Arr KVec3Array "f"%char [4; 3]), AvList [AiDir [1; 0; 0]; AiOther 0; AiDir [0; 0; 1]; AiOther 1])%Z /\
  fst (validate wrap_ex KVec3 a_start (AvStr "north")) = AOk (Arr KVec3 "f"%char [3%Z]) /\
  fst (validate wrap_ex KVec2 a_start (AvStr "up")) = AErr.
Proof. cbv zeta. repeat split. Qed.
(** Exactly what the vector properties accept, and what becomes of the list of the caller. *)
Theorem C40_vector_accepts : forall wrap k o v a v', k <> KArray ->
  (validate wrap k o v = (AOk a, v') <->
   exists u, reads_as k v u /\ (if ao_coerce o then wrap k u = Ok a else u = AvArr a) /\ acceptable k o a /\
     (is_vector k -> v' = v) /\ (is_vectors k -> v' = u)).
Proof. exact vector_accepts. Qed.
Print Assumptions C40_vector_accepts.
Example C40_vector_accepts_ex :
  reads_as KVec3Array (AvList [AiStr "x"; AiOther 0]) (AvList [AiDir [1; 0; 0]; AiOther 0])%Z /\
  reads_as KVec2 (AvStr "south") (AvList [AiNum 0; AiNum (-1)])%Z.
Proof.
  split.
  - constructor; [left; reflexivity|]. constructor; [now constructor|]. constructor; [|constructor]. constructor. discriminate.
  - apply (ra_name KVec2 "south" [0; -1]%Z); [now right|reflexivity].
Qed.
(** Exactly how they refuse, and what becomes of the list of the caller then. *)
Theorem C40_vector_refuses : forall wrap k o v r v', k <> KArray ->
  validate wrap k o v = (r, v') -> (forall a, r <> AOk a) ->
  refuses_as k v r v' \/
  exists u, reads_as k v u /\ unacceptable wrap k o u r /\ (is_vector k -> v' = v) /\ (is_vectors k -> v' = u).
Proof. exact vector_refuses. Qed.
Print Assumptions C40_vector_refuses.
Example C40_vector_refuses_ex :
  validate wrap_ex KVec2Array a_start (AvList [AiStr "x"; AiOther 0; AiStr "up"; AiStr "y"]) =
    (AErr, AvList [AiDir [1; 0]; AiOther 0; AiStr "up"; AiStr "y"])%Z /\
  refuses_as KVec2Array (AvList [AiStr "x"; AiOther 0; AiStr "up"; AiStr "y"]) AErr
    (AvList [AiDir [1; 0]; AiOther 0; AiStr "up"; AiStr "y"])%Z.
Proof.
  split; [reflexivity|].
  apply (rf_items KVec2Array [AiStr "x"; AiOther 0] [AiDir [1; 0]%Z; AiOther 0] "up" [AiStr "y"]); [now right| |reflexivity].
  constructor; [now constructor|]. constructor; [constructor; discriminate|constructor].
Qed.
(** A tuple of direction names raises TypeError, and the list of the caller is
    changed even when it is rejected. *)
Theorem C40_names_refuted :
  (exists v, fst (validate wrap_ex KVec3Array a_start v) = AExc ExType /\ v = AvTuple [AiStr "x"; AiStr "y"]) /\
  exists v v', validate wrap_ex KVec3Array a_start v = (AErr, v') /\ v' <> v.
Proof.
  split; [exists (AvTuple [AiStr "x"; AiStr "y"]); split; reflexivity|]. exists (AvList [AiStr "x"; AiStr "q"]). eexists. split; [reflexivity|discriminate].
Qed.
Print Assumptions C40_names_refuted.
