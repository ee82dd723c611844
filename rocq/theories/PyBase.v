(** Foundations shared by all models: exceptions and results, ASCII strings,
    [int(str, base)], and insertion-ordered dictionaries.

    Strings: Python [str] is modelled by Coq [string]; case mapping and the
    whitespace class are the ASCII ones (non-ASCII case mapping such as
    'ß'.upper() == 'SS' is outside the model). *)
From Coq Require Export String Ascii Bool ZArith NArith Lia List.
Export ListNotations.
Open Scope list_scope.
Open Scope bool_scope.

(** properties/utils.py:127-130 [ErrorTuple]; the human readable [message] is
    not modelled, [instance] is the location of the HasProperties instance. *)
Record etuple := ET { et_reason : option string; et_prop : option string; et_inst : option nat }.

(** Python exceptions that occur in the library.  [ExValidation] is
    utils.py:132-165 [ValidationError] with its [error_tuples].
    [ExUser n] stands for any other exception class raised by user code. *)
Inductive exn :=
| ExValidation (ts : list etuple)
| ExValue | ExKey | ExType | ExAttr
| ExSelfRef | ExOverflow | ExRecursion | ExNotImpl
| ExUser (n : nat).

(** base.py:22 [GENERIC_ERRORS]; ValidationError is a ValueError (utils.py:132);
    SelfReferenceError is a plain Exception (utils.py:123). *)
Definition is_generic (e : exn) : bool :=
  match e with
  | ExValidation _ | ExValue | ExKey | ExType | ExAttr => true
  | _ => false
  end.

(** [except ValueError] *)
Definition is_value_error (e : exn) : bool :=
  match e with ExValidation _ | ExValue => true | _ => false end.

(** [except utils.ValidationError] *)
Definition is_validation (e : exn) : bool :=
  match e with ExValidation _ => true | _ => false end.

Inductive res (A : Type) := Ok (a : A) | Exc (e : exn).
Arguments Ok {A} _.
Arguments Exc {A} _.

Definition rbind {A B} (r : res A) (k : A -> res B) : res B :=
  match r with Ok a => k a | Exc e => Exc e end.

(** * ASCII strings *)

Definition code (c : ascii) : N := N_of_ascii c.
Definition is_lower (c : ascii) : bool := (97 <=? code c)%N && (code c <=? 122)%N.
Definition is_upper (c : ascii) : bool := (65 <=? code c)%N && (code c <=? 90)%N.
(** [str.upper] / [str.lower] on one ASCII character. *)
Definition ch_upper (c : ascii) : ascii := if is_lower c then ascii_of_N (code c - 32) else c.
Definition ch_lower (c : ascii) : ascii := if is_upper c then ascii_of_N (code c + 32) else c.
(** [str.isspace] restricted to ASCII. *)
Definition is_space (c : ascii) : bool :=
  let n := code c in ((9 <=? n) && (n <=? 13) || (28 <=? n) && (n <=? 32))%N.

Notation chars := list_ascii_of_string.
Notation unchars := string_of_list_ascii.

Definition str_upper (s : string) : string := unchars (map ch_upper (chars s)).
Definition str_lower (s : string) : string := unchars (map ch_lower (chars s)).

Fixpoint drop_while {A} (p : A -> bool) (l : list A) : list A :=
  match l with
  | [] => []
  | x :: r => if p x then drop_while p r else l
  end.

Definition strip_by (p : ascii -> bool) (l : list ascii) : list ascii :=
  rev (drop_while p (rev (drop_while p l))).

Definition mem_ch (cs : list ascii) (c : ascii) : bool := existsb (Ascii.eqb c) cs.

(** [s.strip(chars)] with a string argument: removes the characters of the
    argument from both ends ([s.strip('')] removes nothing). *)
Definition str_strip (cs : string) (s : string) : string :=
  unchars (strip_by (mem_ch (chars cs)) (chars s)).
(** [s.lstrip(chars)] *)
Definition str_lstrip (cs : string) (s : string) : string :=
  unchars (drop_while (mem_ch (chars cs)) (chars s)).

(** * [int(str)] and [int(str, 16)] (CPython longobject.c): surrounding
    whitespace, optional sign, optional 0x prefix in base 16, digits with
    single underscores between them.  [None] is ValueError. *)
Definition digit_val (c : ascii) : option Z :=
  let n := code c in
  if ((48 <=? n) && (n <=? 57))%N then Some (Z.of_N (n - 48))
  else if ((65 <=? n) && (n <=? 90))%N then Some (Z.of_N (n - 55))
  else if ((97 <=? n) && (n <=? 122))%N then Some (Z.of_N (n - 87))
  else None.

Definition ch_us : ascii := "_"%char.

Fixpoint int_digits (base : Z) (l : list ascii) (acc : Z) (after_digit : bool) : option Z :=
  match l with
  | [] => if after_digit then Some acc else None
  | c :: r =>
      if Ascii.eqb c ch_us then
        if after_digit then int_digits base r acc false else None
      else match digit_val c with
           | Some d => if (d <? base)%Z then int_digits base r (acc * base + d)%Z true else None
           | None => None
           end
  end.

Definition int_prefix (base : Z) (l : list ascii) : list ascii :=
  if (base =? 16)%Z then
    match l with
    | z :: x :: r =>
        if Ascii.eqb z "0" && (Ascii.eqb x "x" || Ascii.eqb x "X") then
          match r with
          | u :: r' => if Ascii.eqb u ch_us then r' else r
          | [] => r
          end
        else l
    | _ => l
    end
  else l.

Definition parse_int_chars (base : Z) (l : list ascii) : option Z :=
  let l := strip_by is_space l in
  match l with
  | [] => None
  | c :: r =>
      if Ascii.eqb c "-" then option_map Z.opp (int_digits base (int_prefix base r) 0 false)
      else if Ascii.eqb c "+" then int_digits base (int_prefix base r) 0 false
      else int_digits base (int_prefix base l) 0 false
  end.

Definition parse_int (base : Z) (s : string) : option Z := parse_int_chars base (chars s).

(** * Insertion-ordered dictionaries with string keys *)
Section Dict.
  Context {V : Type}.
  Definition dict := list (string * V).

  Fixpoint dget (d : dict) (k : string) : option V :=
    match d with
    | [] => None
    | (k', v) :: r => if String.eqb k k' then Some v else dget r k
    end.

  (** [d[k] = v]: an existing key keeps its position. *)
  Fixpoint dset (d : dict) (k : string) (v : V) : dict :=
    match d with
    | [] => [(k, v)]
    | (k', v') :: r => if String.eqb k k' then (k', v) :: r else (k', v') :: dset r k v
    end.

  (** [d.pop(k, None)] *)
  Definition ddel (d : dict) (k : string) : dict :=
    filter (fun p => negb (String.eqb k (fst p))) d.

  Definition dhas (d : dict) (k : string) : bool :=
    match dget d k with Some _ => true | None => false end.

  Definition dkeys (d : dict) : list string := map fst d.
End Dict.
Arguments dict : clear implicits.

Definition mem_str (s : string) (l : list string) : bool := existsb (String.eqb s) l.

(** * Facts about dictionaries *)
Section DictFacts.
  Context {V : Type}.
  Implicit Types (d : dict V) (k : string) (v : V).

  Lemma dget_dset_same d k v : dget (dset d k v) k = Some v.
  Proof.
    induction d as [|[k' v'] r IH]; simpl.
    - now rewrite String.eqb_refl.
    - destruct (String.eqb k k') eqn:E; simpl; rewrite E; auto.
  Qed.

  Lemma dget_dset_other d k k' v : k <> k' -> dget (dset d k v) k' = dget d k'.
  Proof.
    intros Hne. induction d as [|[k0 v0] r IH]; simpl.
    - destruct (String.eqb_spec k' k); congruence.
    - destruct (String.eqb_spec k k0) as [->|Hk]; simpl.
      + destruct (String.eqb_spec k' k0); congruence.
      + destruct (String.eqb k' k0); auto.
  Qed.

  Lemma dget_ddel_same d k : dget (ddel d k) k = None.
  Proof.
    unfold ddel. induction d as [|[k' v'] r IH]; simpl; auto.
    destruct (String.eqb k k') eqn:E; simpl; rewrite ?E; auto.
  Qed.

  Lemma dget_ddel_other d k k' : k <> k' -> dget (ddel d k) k' = dget d k'.
  Proof.
    intros Hne. unfold ddel. induction d as [|[k0 v0] r IH]; simpl; auto.
    destruct (String.eqb_spec k k0) as [->|Hk]; simpl.
    - destruct (String.eqb_spec k' k0); congruence.
    - destruct (String.eqb k' k0); auto.
  Qed.

  Lemma dget_in d k v : dget d k = Some v -> In (k, v) d.
  Proof.
    induction d as [|[k' v'] r IH]; simpl; [discriminate|].
    destruct (String.eqb_spec k k') as [->|Hk]; intros H.
    - injection H as ->. now left.
    - right. auto.
  Qed.

  Lemma dget_none d k : dget d k = None <-> ~ In k (dkeys d).
  Proof.
    unfold dkeys. induction d as [|[k' v'] r IH]; simpl; [intuition|].
    destruct (String.eqb_spec k k') as [->|Hk].
    - split; [discriminate|intuition].
    - rewrite IH. intuition congruence.
  Qed.

  Lemma dget_nodup_in d k v : NoDup (dkeys d) -> In (k, v) d -> dget d k = Some v.
  Proof.
    unfold dkeys. induction d as [|[k' v'] r IH]; simpl; [tauto|].
    intros Hnd [Heq|Hin].
    - injection Heq as -> ->. now rewrite String.eqb_refl.
    - inversion Hnd as [|? ? Hni Hnd' E]; subst.
      destruct (String.eqb_spec k k') as [->|Hk]; auto.
      exfalso. apply Hni. change k' with (fst (k', v)). now apply in_map.
  Qed.

  Lemma dkeys_dset d k v :
    dkeys (dset d k v) = if dhas d k then dkeys d else dkeys d ++ [k].
  Proof.
    unfold dhas, dkeys. induction d as [|[k' v'] r IH]; simpl; auto.
    destruct (String.eqb_spec k k') as [->|Hk]; simpl; auto.
    rewrite IH. destruct (dget r k); auto.
  Qed.

  Lemma nodup_dset d k v : NoDup (dkeys d) -> NoDup (dkeys (dset d k v)).
  Proof.
    intros H. rewrite dkeys_dset. unfold dhas. destruct (dget d k) eqn:E; auto.
    apply dget_none in E.
    induction (dkeys d) as [|x l IH]; simpl; [repeat constructor; auto|].
    inversion H as [|? ? Hx Hl E']; subst. constructor.
    - rewrite in_app_iff. simpl. intros [Hi|[Hi|[]]]; [auto|]. subst. apply E. now left.
    - apply IH; auto. intros Hi. apply E. now right.
  Qed.

  Lemma nodup_ddel d k : NoDup (dkeys d) -> NoDup (dkeys (ddel d k)).
  Proof.
    unfold dkeys, ddel. induction d as [|[k' v'] r IH]; simpl; intros H; auto.
    inversion H as [|? ? Hx Hl E']; subst.
    destruct (String.eqb k k'); simpl; auto.
    constructor; auto.
    intros Hi. apply Hx. clear - Hi.
    induction r as [|[k0 v0] r IH]; simpl in *; auto.
    destruct (String.eqb k k0); simpl in *; intuition.
  Qed.

  Lemma dset_same_get d k v : dget d k = Some v -> dset d k v = d.
  Proof.
    induction d as [|[k' v'] r IH]; simpl; [discriminate|].
    destruct (String.eqb_spec k k') as [->|Hk]; intros H.
    - now injection H as ->.
    - now rewrite IH.
  Qed.

  Lemma ddel_absent d k : dget d k = None -> ddel d k = d.
  Proof.
    unfold ddel. induction d as [|[k' v'] r IH]; simpl; auto.
    destruct (String.eqb_spec k k') as [->|Hk]; intros H; [discriminate|].
    simpl. now rewrite IH.
  Qed.
End DictFacts.

Lemma mem_str_In s l : mem_str s l = true <-> In s l.
Proof.
  unfold mem_str. rewrite existsb_exists. split.
  - intros (x & Hx & E). apply String.eqb_eq in E. now subst.
  - intros H. exists s. split; auto. apply String.eqb_refl.
Qed.

Lemma mem_ch_In c l : mem_ch l c = true <-> In c l.
Proof.
  unfold mem_ch. rewrite existsb_exists. split.
  - intros (x & Hx & E). apply Ascii.eqb_eq in E. now subst.
  - intros H. exists c. split; auto. apply Ascii.eqb_refl.
Qed.

(** * Facts about strings *)
Lemma chars_unchars l : chars (unchars l) = l.
Proof. apply list_ascii_of_string_of_list_ascii. Qed.
Lemma unchars_chars s : unchars (chars s) = s.
Proof. apply string_of_list_ascii_of_string. Qed.

Lemma ch_upper_idem c : ch_upper (ch_upper c) = ch_upper c.
Proof. destruct c as [[] [] [] [] [] [] [] []]; reflexivity. Qed.
Lemma ch_lower_idem c : ch_lower (ch_lower c) = ch_lower c.
Proof. destruct c as [[] [] [] [] [] [] [] []]; reflexivity. Qed.

Lemma str_upper_idem s : str_upper (str_upper s) = str_upper s.
Proof.
  unfold str_upper. rewrite chars_unchars, map_map. f_equal.
  apply map_ext. intros; apply ch_upper_idem.
Qed.
Lemma str_lower_idem s : str_lower (str_lower s) = str_lower s.
Proof.
  unfold str_lower. rewrite chars_unchars, map_map. f_equal.
  apply map_ext. intros; apply ch_lower_idem.
Qed.

Lemma drop_while_idem {A} (p : A -> bool) l : drop_while p (drop_while p l) = drop_while p l.
Proof.
  induction l as [|x r IH]; simpl; auto.
  destruct (p x) eqn:E; auto. simpl. now rewrite E.
Qed.

Lemma drop_while_suffix {A} (p : A -> bool) l : exists pre, l = pre ++ drop_while p l /\ Forall (fun x => p x = true) pre.
Proof.
  induction l as [|x r (pre & IH & Hp)]; simpl.
  - exists []. auto.
  - destruct (p x) eqn:E.
    + exists (x :: pre). simpl. rewrite <- IH. auto.
    + exists []. auto.
Qed.

Lemma drop_while_head {A} (p : A -> bool) l x r : drop_while p l = x :: r -> p x = false.
Proof.
  induction l as [|y l' IH]; simpl; [discriminate|].
  destruct (p y) eqn:E; auto. intros H. injection H as -> ->. exact E.
Qed.

Lemma drop_while_id {A} (p : A -> bool) l :
  match l with [] => True | x :: _ => p x = false end -> drop_while p l = l.
Proof. destruct l as [|x r]; simpl; auto. intros ->. reflexivity. Qed.
