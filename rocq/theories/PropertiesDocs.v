(** Property theorems about documentation strings: [C70]. *)
From Verif Require Import Docs DocsSpec DocsFacts.
Local Open Scope list_scope.
Local Open Scope string_scope.
Local Open Scope nat_scope.

(** The text of a class lists each documented property once, in its group and
    in the order found. *)
Theorem C70_class : forall T c_private c_order line props doc bases op oo s, named c_order -> NoDup (dkeys props) ->
  class_doc T c_private c_order line props doc bases op oo = Ok s ->
  exists priv order req opt oth pri a b c d,
    private_is T c_private bases op priv /\ order_is T c_order bases oo (documented props priv) order /\
    NoDup order /\ (forall k, In k order <-> In k (dkeys props) /\ (priv = true \/ ~ is_private k)) /\
    s = doc ++ a ++ b ++ c ++ d /\
    chosen (needed props) req order /\ chosen (optional props) opt order /\ chosen (unsettable props) oth order /\ chosen is_private pri order /\
    lists line props "Required" req a /\ lists line props "Optional" opt b /\ lists line props "Other" oth c /\ lists line props "Private" pri d.
Proof. exact class_lists. Qed.
Print Assumptions C70_class.
(** There is a text exactly when [_doc_private] and the order are right and the
    line of each documented property can be written. *)
Theorem C70_class_ok : forall T c_private c_order line props doc bases op oo, named c_order ->
  ((exists s, class_doc T c_private c_order line props doc bases op oo = Ok s) <->
   exists priv order, private_is T c_private bases op priv /\ order_is T c_order bases oo (documented props priv) order /\
     forall k d, dget props k = Some d -> priv = true \/ ~ is_private k -> exists t, line k d = Ok t).
Proof. exact class_ok. Qed.
Print Assumptions C70_class_ok.
(** Without an order of its own a class has that of its first base with one, if
    it is an order of exactly its names, and else the alphabetical one. *)
Theorem C70_order : forall T c_order names bases own order, named c_order ->
  (find_order T c_order (sorted names) bases own = Ok order <-> order_is T c_order bases own (sorted names) order).
Proof. exact order_iff. Qed.
Print Assumptions C70_order.
Theorem C70_alphabetical : forall names, Permutation (sorted names) names /\
  forall pre a mid b post, sorted names = (pre ++ a :: mid ++ b :: post)%list -> name_leb a b = true.
Proof. exact alphabetical. Qed.
Print Assumptions C70_alphabetical.
(** Only an order of the class itself is an error: AttributeError, or TypeError
    if names and numbers are mixed. *)
Theorem C70_order_errors : forall T c_order names bases own e, named c_order ->
  find_order T c_order (sorted names) bases own = Exc e -> exists o, own = Some o /\
    ((exists l, o = OSeq l /\ mixed l /\ e = ExType) \/ ((forall l, o = OSeq l -> ~ mixed l) /\ e = ExAttr)).
Proof. exact order_error. Qed.
Print Assumptions C70_order_errors.
Theorem C70_private : forall T c_private bases own,
  (forall b, find_private T c_private bases own = Ok b <-> private_is T c_private bases own b) /\
  (forall e, find_private T c_private bases own = Exc e -> e = ExAttr).
Proof. intros. split; [apply private_iff|apply private_error]. Qed.
Print Assumptions C70_private.

(** The line of a property links the types it is made of. *)
Theorem C70_links : forall p, links (sphinx_class p) = types_of p.
Proof. exact sphinx_links. Qed.
Print Assumptions C70_links.
(** It has the name, the doc and the info text, and shows a default other than
    None, undefined and what is empty. *)
Theorem C70_line : forall text class_name len ipython name doc p info d s,
  property_sphinx text class_name len ipython name doc p info d = Ok s ->
  exists t i, default_text text class_name len d = Ok t /\ info = Ok i /\
    s = "**" ++ name ++ "**" ++ (if ipython then "" else if String.eqb (render (sphinx_class p)) "" then "" else " (" ++ render (sphinx_class p) ++ ")") ++ ": " ++ doc ++
        match i with None | Some "" => "" | Some x => ", " ++ x end ++ t.
Proof. exact line_ok. Qed.
Print Assumptions C70_line.
Theorem C70_default : forall text class_name len v,
  (exists s, default_text text class_name len (DdVal v) = Ok s) /\
  (default_text text class_name len (DdVal v) = Ok "" <-> v = VNone \/ v = VUndef \/ len v = Some 0) /\
  (forall s, default_text text class_name len (DdVal v) = Ok s -> s <> "" -> s = ", Default: " ++ text v).
Proof. exact default_shown. Qed.
Print Assumptions C70_default.
(** Containers inside each other are named from the inside out: a list of tuples
    is documented as a tuple of lists. *)
Theorem C70_nested : forall cis c m,
  sphinx_class (nest cis (SClass c m)) = (map (fun ci => PText (ci ++ " of ")) (rev cis) ++ [PLink c m])%list.
Proof. exact nest_words. Qed.
Print Assumptions C70_nested.
Theorem C70_nested_refuted : exists p, p = STuple "a list" (STuple "a tuple" (SClass "Integer" "properties")) /\
  render (sphinx_class p) = "a tuple of a list of :class:`Integer <properties.Integer>`".
Proof. eexists. split; reflexivity. Qed.
Print Assumptions C70_nested_refuted.

(** Class 0 with the order c, a, b and private names, class 1 below it, class 2
    with an order of other names, class 3 without any. *)
Definition D_cls (mro : list nat) : mcls := MC (Body "" [] true [] None) mro true [] [] [] None.
Definition D_T : list mcls := [D_cls [0]; D_cls [1; 0]; D_cls [2; 0]; D_cls [3]].
Definition D_private (k : nat) : option val := if Nat.eqb k 1 then Some (VBool true) else None.
Definition D_order (k : nat) : option oval :=
  match k with 0 => Some (OSeq (map OName ["c"; "a"; "b"])) | 2 => Some (OSeq (map OName ["x"])) | _ => None end.
Definition D_prop (r : bool) : pdecl := PD KProp (PLeaf LfAny) r DUndef.
Definition D_props : dict pdecl := [("a", D_prop true); ("c", PD (KRenamed "a") (PLeaf LfAny) true DUndef); ("b", D_prop false); ("_h", D_prop true)].
Definition D_line (k : string) (d : pdecl) : res string := if String.eqb k "bad" then Exc ExKey else Ok ("<" ++ k ++ ">").
Definition D_doc := class_doc D_T D_private D_order D_line D_props "Doc".
Example C70_named : named D_order /\ NoDup (dkeys D_props).
Proof.
  split.
  - intros k l H (s & z & _ & I). destruct k as [|[|[|k]]]; try discriminate; injection H as <-; cbn in I; intuition discriminate.
  - repeat constructor; cbn; intuition discriminate.
Qed.
Example C70_text :
  (exists s, D_doc [2; 0] (Some (VBool true)) None = Ok s /\ s = "Doc

**Required Properties:**

* <a>

**Optional Properties:**

* <b>

**Other Properties:**

* <c>

**Private Properties:**

* <_h>") /\
  (exists s, class_doc D_T D_private D_order D_line [("b", D_prop true); ("a", D_prop true); ("c", D_prop true); ("_h", D_prop true)] "" [3; 0; 2] None None = Ok s /\ s = "

**Required Properties:**

* <c>
* <a>
* <b>").
Proof. split; eexists; split; vm_compute; reflexivity. Qed.
Example C70_orders :
  map (fun own => find_order D_T D_order ["a"; "b"; "c"] [3; 1] own)
    [None; Some ONone; Some (OSeq (map OName ["b"; "c"; "a"])); Some (OSeq (map OName ["b"; "c"])); Some (OSeq [OName "a"; OInt 3]); Some (OSeq [OInt 3]); Some OOther] =
    [Ok ["c"; "a"; "b"]; Ok ["a"; "b"; "c"]; Ok ["b"; "c"; "a"]; Exc ExAttr; Exc ExType; Exc ExAttr; Exc ExAttr] /\
  (* an order that does not fit hides one that does *)
  find_order D_T D_order ["a"; "b"; "c"] [2; 0] None = Ok ["a"; "b"; "c"] /\
  sorted ["b"; "a"; "c"] = ["a"; "b"; "c"] /\
  map (find_private D_T D_private [3; 1]) [None; Some (VBool false); Some VNone] = [Ok true; Ok false; Exc ExAttr].
Proof. vm_compute. repeat split. Qed.
Example C70_order_errors_ex : exists e, named D_order /\ find_order D_T D_order (sorted ["b"; "a"; "c"]) [3; 1] (Some OOther) = Exc e.
Proof. exists ExAttr. split; [exact (proj1 C70_named)|reflexivity]. Qed.
Example C70_lines :
  property_sphinx (fun _ => "v") (fun _ => "Well") (fun v => match v with VStr "" => Some 0 | _ => None end) false "x" "some value"
    (STuple "a list" (SUnion [SPointer "Well" "wells"; SDyn (SClass "Float" "properties")])) (Ok (Some "a list")) (DdVal (VInt 0)) =
    Ok "**x** (a list of :class:`Well <wells.Well>` instance or UID, dynamic a list of :class:`Float <properties.Float>`): some value, a list, Default: v" /\
  property_sphinx (fun _ => "v") (fun _ => "Well") (fun v => match v with VStr "" => Some 0 | _ => None end) false "x" "" SRenamed (Ok None) (DdCall (Ok (VObj 3))) =
    Ok "**x**: , Default: new instance of Well" /\
  property_sphinx (fun _ => "v") (fun _ => "Well") (fun v => match v with VStr "" => Some 0 | _ => None end) true "x" "d" (SInst "A" "b") (Ok (Some "")) (DdVal (VStr "")) = Ok "**x**: d" /\
  render (sphinx_class (SInst "A" "b")) = ":class:`A <b.A>`" /\
  property_sphinx (fun _ => "v") (fun _ => "Well") (fun _ => None) true "x" "d" (SInst "A" "b") (Exc ExKey) (DdCall (Exc (ExUser 1))) = Exc (ExUser 1).
Proof. vm_compute. repeat split. Qed.
