(** Concrete classes and object graphs for the examples beside the round trip
    theorems. *)
From Verif Require Import World WorldSpec AccessSpec WorldExample BasicSpec GraphSpec GraphHelp GraphExample RoundSpec RoundGraph RoundBuild.
Local Open Scope string_scope.
Local Open Scope list_scope.
Local Open Scope nat_scope.

(** float() reads the special values; strftime pads years *)
Definition E5 : env := Env (fun s => if String.eqb s "nan" then Some S754_nan
                                     else if String.eqb s "inf" then Some (S754_infinity false)
                                     else if String.eqb s "-inf" then Some (S754_infinity true) else None)
                           (fun _ => None) (fun _ _ => "") true (fun n => n).
Definition U5 : ucode := UC (fun _ _ _ _ v _ => Ret v) (fun _ => Ret VNone) (fun _ _ => Ret VNone)
  (fun _ _ _ => Ret VNone) (fun _ _ => Ret VNone) (fun _ _ => Ret VNone) (fun _ v => Ret v).

Definition t_int : leaf := LfInt false None None.
Definition t_text : leaf := LfString (SO "" CNone None).
(** class Part: a number with a default, a date and an identifier *)
Definition p_part : list (string * pdecl) :=
  [("n", PD KProp (PLeaf t_int) true (DVal (VInt 3))); ("when", PD KProp (PLeaf LfDate) false DUndef);
   ("u", PD KGettable (PLeaf LfUuid) false DUndef)].
Definition c_part : cls := Cls "Part" p_part [] [] [CVProps] [0] [].
(** class Bolt(Part): a length *)
Definition c_bolt : cls :=
  Cls "Bolt" (p_part ++ [("size", PD KProp (PLeaf (LfFloat false None None)) false DUndef)]) [] [] [CVProps] [1; 0] [].
(** class Kit: parts in different places *)
Definition t_pick : ptype := PUnion false [PLeaf t_int; PLeaf t_text].
Definition t_either : ptype := PUnion false [PInst 2; PInst 0].
Definition c_kit : cls :=
  Cls "Kit" [("main", PD KProp (PInst 0) true DUndef); ("parts", PD KProp (PSeq KList (PInst 0) None None false) false DUndef);
             ("tags", PD KProp (PSeq KSet (PLeaf t_text) None None false) false DUndef);
             ("table", PD KProp (PDict (PLeaf t_text) (PInst 0) false) false DUndef);
             ("pick", PD KProp t_pick false DUndef); ("either", PD KProp t_either false DUndef);
             ("none", PD KProp (PLeaf t_int) false DUndef)] [] [] [CVProps] [2] [].
Definition C5 : ctable := CT [c_part; c_bolt; c_kit] [("Part", 0); ("Bolt", 1); ("Kit", 2)].

Definition day : datetime := DT 2020 2 29 12 30 0 0.
(** 2.5 *)
Definition f_size : spec_float := S754_finite false 5629499534213120 (-51).
(** a bolt, a part and a kit that holds the bolt twice and the part three times *)
Definition w_kit : world := snd (run_prog E5 C5 U5 30 (doing
  [ONew 1 (Some [("size", VFloat f_size)]); ONew 0 (Some [("n", VInt 7); ("when", VDate day)]);
   ONew 2 (Some [("main", VInst 0); ("parts", VList [VInst 1; VInst 0]); ("tags", VSet [VStr "a"; VStr "b"]);
                 ("table", VDict [(VStr "k", VInst 1)]); ("pick", VStr "abc"); ("either", VInst 1)])]) w_empty).

Lemma E5_special : reads_special E5.
Proof. split; [|split]; reflexivity. Qed.
Lemma wf_C5 : wf_ctab C5.
Proof.
  intros [|[|[|[|k]]]] c H; simpl in H; try discriminate; injection H as <-; simpl; repeat constructor; simpl; intuition discriminate.
Qed.
Lemma names_C5 : names_known C5.
Proof. intros [|[|[|[|k]]]] c H; simpl in H; try discriminate; injection H as <-; split; try discriminate; reflexivity. Qed.
Lemma spare_C5 cid : spare E5 C5 U5 cid.
Proof.
  apply spare_easy; [exact wf_C5|]. intros [|[|[|[|k]]]] c name d H; simpl in H; try discriminate; injection H as <-; cbn [c_props c_part c_bolt c_kit p_part app In]; intros K;
    repeat (destruct K as [K|K]; [injection K as <- <-; first [left; reflexivity|right; exists (VInt 3), t_int; repeat split; try discriminate; intros r; exists (VInt 3); (split; [reflexivity|discriminate])]|]); contradiction.
Qed.
Definition so5 : sopt := SOpt true false.
Definition do5 : dopt := DOpt true false false.
Lemma defaults_C5 c name d : In c [c_part; c_bolt; c_kit] -> In (name, d) (c_props c) -> plain_default E5 d (default_of c name d) /\ (default_of c name d <> DUndef -> name = "n").
Proof.
  intros Hc K. cbn [In] in Hc. destruct Hc as [<-|[<-|[<-|[]]]]; cbn [c_props c_part c_bolt c_kit p_part app In] in K;
    repeat (destruct K as [K|K]; [injection K as <- <-; (split; [|first [reflexivity|intros X; now destruct X]]);
      first [left; reflexivity|right; exists (VInt 3), t_int; repeat split; try discriminate; auto; intros r; exists (VInt 3); reflexivity]|]); contradiction.
Qed.
Definition facts (l : loc) : list (string * val) := match nth_error (w_heap w_kit) l with Some i => i_back i | None => [] end.
Lemma facts_kit : facts 0 = [("n", VInt 3); ("size", VFloat f_size)] /\
  facts 1 = [("n", VInt 7); ("when", VDate day)] /\
  facts 2 = [("main", VInst 0); ("parts", VList [VInst 1; VInst 0]); ("tags", VSet [VStr "a"; VStr "b"]);
             ("table", VDict [(VStr "k", VInst 1)]); ("pick", VStr "abc"); ("either", VInst 1)] /\
  length (w_heap w_kit) = 4 /\ facts 3 = [].
Proof. vm_compute. auto. Qed.
Lemma restorable_kit cid m : (m = 0 /\ (cid = 0 \/ cid = 1)) \/ (m = 1 /\ cid = 0) \/ (m = 2 /\ cid = 2) -> restorable C5 so5 do5 w_kit cid m.
Proof.
  intros [(-> & [-> | ->])|[(-> & ->)|(-> & ->)]]; eexists _, _; (split; [vm_compute; reflexivity|]); (split; [reflexivity|]); cbn; repeat split; auto; discriminate.
Qed.
Ltac leaf5 := split; [intros r; reflexivity|first [exact I|cbn; auto]].
Lemma values_kit l k v : In (k, v) (facts l) -> exists c d, has_class C5 w_kit l c /\ In c [c_part; c_bolt; c_kit] /\
  dget (c_props c) k = Some d /\ pd_kind d = KProp /\ v <> VNone /\ v <> VUndef /\ portable E5 C5 U5 so5 do5 w_kit (pd_type d) v.
Proof.
  destruct facts_kit as (F0 & F1 & F2 & L & F3). destruct l as [|[|[|[|l]]]].
  - rewrite F0. intros K. exists c_bolt. cbn [In] in K. destruct K as [K|[K|[]]]; injection K as <- <-; eexists;
      (split; [eexists; split; [vm_compute; reflexivity|reflexivity]|]); (split; [cbn; auto|]); (split; [reflexivity|]); (split; [reflexivity|]); (split; [discriminate|]); (split; [discriminate|]); cbn [portable pd_type]; leaf5.
  - rewrite F1. intros K. exists c_part. cbn [In] in K. destruct K as [K|[K|[]]]; injection K as <- <-; eexists;
      (split; [eexists; split; [vm_compute; reflexivity|reflexivity]|]); (split; [cbn; auto|]); (split; [reflexivity|]); (split; [reflexivity|]); (split; [discriminate|]); (split; [discriminate|]); cbn [portable pd_type].
    + leaf5.
    + split; [intros r; reflexivity|]. exists day. split; [reflexivity|]. split; [vm_compute; intuition discriminate|]. split; [reflexivity|now left].
  - rewrite F2. intros K. exists c_kit. cbn [In] in K. destruct K as [K|[K|[K|[K|[K|[K|[]]]]]]]; injection K as <- <-; eexists;
      (split; [eexists; split; [vm_compute; reflexivity|reflexivity]|]); (split; [cbn; auto|]); (split; [reflexivity|]); (split; [reflexivity|]); (split; [discriminate|]); (split; [discriminate|]); cbn [portable pd_type t_pick t_either].
    + exists 0. split; [reflexivity|]. apply restorable_kit. auto.
    + exists [VInst 1; VInst 0]. split; [reflexivity|]. split; [|discriminate]. repeat constructor; eexists; (split; [reflexivity|]); apply restorable_kit; auto.
    + exists [VStr "a"; VStr "b"]. split; [reflexivity|]. split; [repeat constructor; intros r; reflexivity|]. intros _. split; [exact I|]. split; repeat constructor.
    + exists t_text, [(VStr "k", VInst 1)]. split; [reflexivity|]. split; [discriminate|]. split; [reflexivity|]. split; [repeat constructor; intros []|].
      constructor; [|constructor]. split; [split; [split; [intros r; reflexivity|exact I]|split; reflexivity]|]. exists 1. split; [reflexivity|]. apply restorable_kit. auto.
    + exists [PLeaf t_int], (PLeaf t_text), []. split; [reflexivity|]. split; [constructor; [intros r; eexists; reflexivity|constructor]|]. left.
      exists t_text, (VStr "abc"). split; [reflexivity|]. split; [leaf5|]. split; [discriminate|]. split; [reflexivity|]. split; [discriminate|].
      constructor; [|constructor]. left. eexists. split; reflexivity.
    + exists [PInst 2], (PInst 0), []. split; [reflexivity|]. split.
      { constructor; [|constructor]. split; [discriminate|]. split; [apply spare_C5|]. split; [discriminate|].
        intros m c [= <-] (i & Hi & Hc) Hm. vm_compute in Hi. injection Hi as <-. cbn in Hc. injection Hc as <-. cbn in Hm. intuition discriminate. }
      right. exists 0, 1. eexists _, c_part. split; [reflexivity|]. split; [reflexivity|]. split; [apply restorable_kit; auto|]. split; [reflexivity|]. split; [reflexivity|].
      split; [vm_compute; reflexivity|]. split; [reflexivity|]. split; [reflexivity|]. split; [discriminate|].
      constructor; [|constructor]. intros k c' [= <-] [= <-]. discriminate.
  - rewrite F3. intros [].
  - replace (facts (S (S (S (S l))))) with (@nil (string * val)); [intros []|]. unfold facts.
    rewrite (proj2 (nth_error_None _ _)); [reflexivity|]. rewrite L. lia.
Qed.

Lemma held_kit l k v : held w_kit l k = v -> v <> VNone -> In (k, v) (facts l).
Proof.
  unfold held, stored, facts. destruct (nth_error (w_heap w_kit) l) as [i|]; [|congruence]. intros <- H. destruct (dget (i_back i) k) eqn:Ek; [now apply dget_in|congruence].
Qed.
Lemma child_kit l m : child C5 w_kit l m -> l = 2 /\ (m = 0 \/ m = 1).
Proof.
  intros (k & d & (c & (i & Hi & Hc) & Hd) & Hn & Hh). pose proof (held_kit l k _ eq_refl Hn) as Hf. set (v := held w_kit l k) in *. clearbody v.
  destruct (values_kit l k v Hf) as (c' & d' & (i' & Hi' & Hc') & _ & Hd' & _ & _ & _ & _). rewrite Hi in Hi'. injection Hi' as <-. rewrite Hc in Hc'. injection Hc' as <-.
  rewrite Hd in Hd'. injection Hd' as <-. destruct facts_kit as (F0 & F1 & F2 & L & F3).
  assert (l < 4) as Hl by (rewrite <- L; apply nth_error_Some; congruence).
  destruct l as [|[|[|[|l]]]]; [..|lia].
  - rewrite F0 in Hf. vm_compute in Hi. injection Hi as <-. cbn in Hc. injection Hc as <-. cbn [In] in Hf.
    destruct Hf as [K|[K|[]]]; injection K as <- <-; vm_compute in Hd; injection Hd as <-; cbn in Hh; contradiction.
  - rewrite F1 in Hf. vm_compute in Hi. injection Hi as <-. cbn in Hc. injection Hc as <-. cbn [In] in Hf.
    destruct Hf as [K|[K|[]]]; injection K as <- <-; vm_compute in Hd; injection Hd as <-; cbn in Hh; contradiction.
  - split; [reflexivity|]. rewrite F2 in Hf. vm_compute in Hi. injection Hi as <-. cbn in Hc. injection Hc as <-. cbn [In] in Hf.
    destruct Hf as [K|[K|[K|[K|[K|[K|[]]]]]]]; injection K as <- <-; vm_compute in Hd; injection Hd as <-; cbn in Hh.
    all: try (injection Hh as <-; auto).
    + destruct Hh as (items & x & [= <-] & Hx & Hh). cbn in Hx. destruct Hx as [<-|[<-|[]]]; injection Hh as <-; auto.
    + destruct Hh as (items & x & [= <-] & Hx & Hh). contradiction.
    + destruct Hh as (e & k & x & [= <-] & Hx & [Hh|Hh]); [contradiction|]. destruct Hx as [Hx|[]]. injection Hx as <- <-. injection Hh as <-. auto.
    + destruct Hh as [[]|[[]|[]]].
    + destruct Hh as [Hh|[Hh|[]]]; injection Hh as <-; auto.
  - rewrite F3 in Hf. destruct Hf.
Qed.
Lemma descends_kit l m : descends C5 w_kit l m -> l = m \/ l = 2 /\ (m = 0 \/ m = 1).
Proof.
  induction 1 as [l|l m k Hc Hd IH]; auto. apply child_kit in Hc as [-> Hc]. right. split; [reflexivity|].
  destruct IH as [<-|[-> _]]; auto. destruct Hc; discriminate.
Qed.
Lemma plain_kit : plain_graph E5 C5 U5 so5 do5 w_kit 2.
Proof.
  split.
  - intros m k _ Hc Hd. apply child_kit in Hc as [-> Hc]. apply descends_kit in Hd. destruct Hc as [-> | ->]; destruct Hd as [Hd|[Hd _]]; discriminate.
  - intros m Hm. apply descends_kit in Hm. assert (Hm3 : m = 0 \/ m = 1 \/ m = 2) by (destruct Hm as [<-|[_ [-> | ->]]]; auto).
    assert (Hn : exists i c, nth_error (w_heap w_kit) m = Some i /\ nth_error (ct_cls C5) (i_cls i) = Some c /\ In c [c_part; c_bolt; c_kit] /\
      NoDup (dkeys (i_back i)) /\ NoDup (dkeys (c_props c)) /\ ~ In "__class__" (dkeys (c_props c)) /\
      (dget (c_props c) "n" <> None -> held w_kit m "n" <> VNone)).
    { destruct Hm3 as [->|[->| ->]]; eexists _, _; (split; [vm_compute; reflexivity|]); (split; [reflexivity|]); (split; [cbn; auto|]);
        (split; [cbn; repeat constructor; cbn; intuition discriminate|]); (split; [cbn; repeat constructor; cbn; intuition discriminate|]); (split; [cbn; intuition discriminate|]).
      - intros _. vm_compute. discriminate.
      - intros _. vm_compute. discriminate.
      - intros H. exfalso. now apply H. }
    destruct Hn as (i & c & Hi & Hc & Hin & N1 & N2 & N3 & Hdn). exists i, c. split; [exact Hi|]. split; [exact Hc|]. split; [exact N1|]. split; [exact N2|]. split; [exact N3|]. split.
    + intros name v Hv. assert (Hf : In (name, v) (facts m)) by (unfold facts; rewrite Hi; now apply dget_in).
      destruct (values_kit m name v Hf) as (c' & d & (i' & Hi' & Hc') & _ & Hd & Hk & _ & H1 & H2). rewrite Hi in Hi'. injection Hi' as <-. rewrite Hc in Hc'. injection Hc' as <-.
      exists d. auto.
    + intros name d Hd. destruct (defaults_C5 c name d Hin Hd) as [H1 H2]. split; [exact H1|]. intros K. rewrite (H2 K) in *. apply Hdn. 
      apply (dget_nodup_in _ _ _ N2) in Hd. congruence.
Qed.
Lemma unguarded_kit : unguarded C5 w_kit 2.
Proof.
  intros m i Hm. apply descends_kit in Hm. destruct Hm as [<-|[_ [-> | ->]]]; intros Hi; vm_compute in Hi; injection Hi as <-; reflexivity.
Qed.

Lemma comparable_kit m : descends C5 w_kit 2 m -> comparable_node C5 w_kit m.
Proof.
  intros Hm. apply descends_kit in Hm. destruct Hm as [<-|[_ [-> | ->]]]; eexists _, _; (split; [vm_compute; reflexivity|]); (split; [reflexivity|]); (split; [reflexivity|]);
    intros name d Hd; cbn [c_props c_part c_bolt c_kit p_part app In] in Hd;
    repeat (destruct Hd as [Hd|Hd]; [injection Hd as <- <-; (split; [cbn; auto|]); intros Hn; cbn [pd_type]|]); try contradiction.
  all: try (exfalso; apply Hn; vm_compute; reflexivity).
  all: try exact I.
  all: try (match goal with |- equals_itself (PLeaf _) _ => cbn [equals_itself]; vm_compute; reflexivity end).
  - split; [discriminate|]. intros items _. apply Forall_forall. intros x _. exact I.
  - split; [intros _; exists t_text; split; [reflexivity|intros a b; reflexivity]|]. intros items Hi.
    assert (K : held w_kit 2 "tags" = VSet [VStr "a"; VStr "b"]) by (vm_compute; reflexivity). rewrite K in Hi. injection Hi as <-. repeat constructor.
  - intros e _. apply Forall_forall. intros x _. exact I.
  - assert (K : held w_kit 2 "pick" = VStr "abc") by (vm_compute; reflexivity). rewrite K. right. left. split; [vm_compute; reflexivity|discriminate].
  - left. exists 1. vm_compute. reflexivity.
Qed.

(** * Values that do not survive *)
Definition c_odd : cls :=
  Cls "Odd" [("n", PD KProp (PLeaf t_int) false (DVal (VInt 3))); ("s", PD KProp (PUnion false [PLeaf t_text; PLeaf LfDate]) false DUndef);
             ("i", PD KProp (PUnion false [PLeaf t_int; PLeaf t_text]) false DUndef);
             ("f", PD KProp (PLeaf (LfFloat false None None)) false DUndef)] [] [] [CVProps] [0] [].
Definition C6 : ctable := CT [c_odd] [("Odd", 0)].
Definition odd (os : list op) : world := snd (run_prog E5 C6 U5 30 (doing (ONew 0 (Some []) :: os)) w_empty).
Definition w_gone : world := odd [ODel 0 "n"].
Definition w_date : world := odd [OSet 0 "s" (VDate day)].
Definition w_digits : world := odd [OSet 0 "i" (VStr "5")].
Definition w_nan : world := odd [OSet 0 "f" (VFloat S754_nan)].
Definition w_inf : world := odd [OSet 0 "f" (VFloat (S754_infinity false))].
Definition w_shared : world := snd (run_prog E5 C5 U5 30 (doing [ONew 0 (Some []); ONew 2 (Some [("parts", VList [VInst 0; VInst 0])])]) w_empty).

Lemma gives_at E C U w l m w' k : (forall n, exec E C U (k + n) (COp (OCopy l)) w = (Ok (VInst m), w')) -> copy_gives E C U w l m w'.
Proof. intros H. exists k. intros n Hn. specialize (H (n - k)). now replace (k + (n - k)) with n in H by lia. Qed.
Definition after_copy (C : ctable) (w : world) (l : loc) : world := snd (exec E5 C U5 30 (COp (OCopy l)) w).
Lemma names_C6 : names_known C6.
Proof. intros [|[|k]] c H; simpl in H; try discriminate; injection H as <-; split; try discriminate; reflexivity. Qed.
Lemma gone_copy : copy_gives E5 C6 U5 w_gone 0 1 (after_copy C6 w_gone 0).
Proof. apply gives_at with (k := 30). intros n. vm_compute. reflexivity. Qed.
Lemma date_copy : copy_gives E5 C6 U5 w_date 0 1 (after_copy C6 w_date 0).
Proof. apply gives_at with (k := 30). intros n. vm_compute. reflexivity. Qed.
Lemma digits_copy : copy_gives E5 C6 U5 w_digits 0 1 (after_copy C6 w_digits 0).
Proof. apply gives_at with (k := 30). intros n. vm_compute. reflexivity. Qed.
Lemma nan_copy : copy_gives E5 C6 U5 w_nan 0 1 (after_copy C6 w_nan 0).
Proof. apply gives_at with (k := 30). intros n. vm_compute. reflexivity. Qed.
Lemma nan_unequal n : fst (exec E5 C6 U5 (30 + n) (COp (OEqual (VInst 0) (VInst 1))) (after_copy C6 w_nan 0)) = Ok (VBool false).
Proof. vm_compute. reflexivity. Qed.
Lemma inf_copy : copy_gives E5 C6 U5 w_inf 0 1 (after_copy C6 w_inf 0).
Proof. apply gives_at with (k := 30). intros n. vm_compute. reflexivity. Qed.
Lemma inf_unequal n : fst (exec E5 C6 U5 (30 + n) (COp (OEqual (VInst 0) (VInst 1))) (after_copy C6 w_inf 0)) = Ok (VBool false).
Proof. vm_compute. reflexivity. Qed.
Lemma shared_copy : copy_gives E5 C5 U5 w_shared 1 4 (after_copy C5 w_shared 1).
Proof. apply gives_at with (k := 30). intros n. vm_compute. reflexivity. Qed.
Lemma kit_copy : copy_gives E5 C5 U5 w_kit 2 10 (after_copy C5 w_kit 2).
Proof. apply gives_at with (k := 30). intros n. vm_compute. reflexivity. Qed.
Lemma kit_copied : exists w', copied C5 4 w_kit w' 2 10 /\ held w_kit 2 "main" = VInst 0 /\ held w' 10 "main" = VInst 5.
Proof.
  assert (Hi : exists i, nth_error (w_heap w_kit) 2 = Some i /\ i_cls i = 2) by (eexists; split; vm_compute; reflexivity). destruct Hi as (i & Hi & Hc).
  assert (L : length (w_heap w_kit) = 4) by (vm_compute; reflexivity).
  assert (H1 : held w_kit 2 "main" = VInst 0) by (vm_compute; reflexivity).
  assert (H2 : held (after_copy C5 w_kit 2) 10 "main" = VInst 5) by (vm_compute; reflexivity).
  assert (R : restorable C5 so5 do5 w_kit (i_cls i) 2) by (rewrite Hc; apply restorable_kit; auto).
  destruct (copy_copies E5 C5 U5 w_kit 2 i E5_special names_C5 (plain_portable _ _ _ _ _ _ _ plain_kit) unguarded_kit Hi R) as (n0 & K).
  pose proof kit_copy as (n1 & K1). exists (after_copy C5 w_kit 2). generalize dependent (after_copy C5 w_kit 2). intros w' H2 K1.
  destruct (K (max n0 n1) (Nat.le_max_l _ _)) as (m & w1 & K2 & _ & K3).
  rewrite (K1 (max n0 n1) (Nat.le_max_r _ _)) in K2. injection K2 as <- <-. rewrite L in K3. auto.
Qed.
