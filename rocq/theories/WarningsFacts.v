(** Lemmas behind the theorems on warnings. *)
From Coq Require Import Lia.
From Verif Require Import Warnings WarningsSpec MessagesSpec MessagesFacts.
Local Open Scope list_scope.
Local Open Scope string_scope.
Local Open Scope nat_scope.

Lemma text_old a b : occurs ("'" ++ a ++ "'") (rename_text a b).
Proof.
  unfold rename_text. apply occ_left.
  exists "Property ", (" is deprecated and may be removed in the future. Please use '" ++ b ++ "'."). cbn. do 10 f_equal. now rewrite sapp_assoc.
Qed.
Lemma text_new a b : occurs ("'" ++ b ++ "'") (rename_text a b).
Proof.
  unfold rename_text. do 3 apply occ_left.
  exists "' is deprecated and may be removed in the future. Please use ", ".". cbn. do 62 f_equal. now rewrite sapp_assoc.
Qed.
Section Access.
  Variables St A : Type.
  Variable emit : warning -> St -> option exn * St.
  Variable op : string -> St -> res A * St.
  Variable renamed : string -> option ropts.
  Notation access := (access St A emit op renamed).
  Lemma access_leads n name ws m depth s : leads renamed n name ws m -> n <= depth ->
    exists o s1, emits emit ws s o s1 /\ access depth name s = match o with None => op m s1 | Some e => (Exc e, s1) end.
  Proof.
    intros L. revert depth s. induction L as [m E|n old new ws m E L IH|n old new ws m E L IH]; intros depth s D.
    - exists None, s. split; [constructor|]. destruct depth; cbn; now rewrite E.
    - destruct depth as [|d]; [lia|]. destruct (IH d s) as (o & s1 & H & K); [lia|]. exists o, s1. split; [exact H|]. cbn. rewrite E. exact K.
    - destruct depth as [|d]; [lia|]. cbn [Warnings.access]. rewrite E. unfold display_warning. cbn [ro_warn ro_new].
      destruct (emit (Warn FutureW (rename_text old new)) s) as [[e|] s1] eqn:X.
      + exists (Some e), s1. split; [|reflexivity]. eapply em_raise; [| | |exact X]; [reflexivity|apply text_old|apply text_new].
      + destruct (IH d s1) as (o & s2 & H & K); [lia|]. exists o, s2. split; [|exact K]. eapply em_next; [| | |exact X|exact H]; [reflexivity|apply text_old|apply text_new].
  Qed.
  Lemma access_no_end depth name s : (forall n ws m, leads renamed n name ws m -> depth < n) ->
    exists ws o s1, emits emit ws s o s1 /\ access depth name s = (Exc (match o with Some e => e | None => ExRecursion end), s1).
  Proof.
    revert name s. induction depth as [|d IH]; intros name s H.
    - cbn. destruct (renamed name) as [o|] eqn:E; [|pose proof (H 0 [] name (le_end _ _ E)); lia]. exists [], None, s. split; [constructor|reflexivity].
    - cbn [Warnings.access]. destruct (renamed name) as [[new w]|] eqn:E; [|pose proof (H 0 [] name (le_end _ _ E)); lia].
      assert (N : forall n ws m, leads renamed n new ws m -> d < n).
      { intros n ws m L. destruct w; [pose proof (H _ _ _ (le_warn _ _ _ _ _ _ E L))|pose proof (H _ _ _ (le_quiet _ _ _ _ _ _ E L))]; lia. }
      unfold display_warning. cbn [ro_warn ro_new]. destruct w.
      + destruct (emit (Warn FutureW (rename_text name new)) s) as [[e|] s1] eqn:X.
        * exists [(name, new)], (Some e), s1. split; [|reflexivity]. eapply em_raise; [| | |exact X]; [reflexivity|apply text_old|apply text_new].
        * destruct (IH new s1 N) as (ws & o & s2 & K1 & K2). exists ((name, new) :: ws), o, s2. split; [|exact K2].
          eapply em_next; [| | |exact X|exact K1]; [reflexivity|apply text_old|apply text_new].
      + destruct (IH new s N) as (ws & o & s2 & K1 & K2). exists ws, o, s2. split; [exact K1|exact K2].
  Qed.
End Access.
Lemma declare_iff new warn o : declare_renamed new warn = Ok o <->
  new = VStr (ro_new o) /\ (warn = None /\ ro_warn o = true \/ warn = Some (VBool (ro_warn o))).
Proof.
  unfold declare_renamed, set_new_name, set_warn. split.
  - destruct new; try discriminate. cbn. destruct warn as [[]|]; try discriminate; intros H; injection H as <-; cbn; auto.
  - intros [-> [[-> H]| ->]]; cbn; destruct o; cbn in *; subst; reflexivity.
Qed.
Lemma declare_error new warn e : declare_renamed new warn = Exc e -> e = ExType.
Proof. unfold declare_renamed, set_new_name, set_warn. destruct new; cbn; try congruence. destruct warn as [[]|]; congruence. Qed.

Section Defaults.
  Variable text : val -> string.
  Variable differ : val -> val -> bool.
  Lemma is_undef_iff v : is_undef v = true <-> v = VUndef.
  Proof. destruct v; cbn; split; congruence. Qed.
  Lemma union_all_undef own alts : (forall d, In d (own :: alts) -> d = VUndef) -> union_warnings text differ own alts = [].
  Proof.
    intros H. rewrite (H own (or_introl eq_refl)). induction alts as [|d r IH]; [reflexivity|]. cbn. rewrite (H d) by (right; now left). cbn.
    apply IH. intros x [<-|Hx]; [apply H; now left|apply H; right; now right].
  Qed.
  Lemma union_own own alts : own <> VUndef -> union_warnings text differ own alts =
    map (fun d => Warn RuntimeW ("Union prop default ignored: " ++ text d)) (filter (fun d => negb (is_undef d) && differ own d) alts).
  Proof.
    intros N. induction alts as [|d r IH]; [reflexivity|]. cbn. destruct (is_undef d); cbn; [exact IH|].
    destruct (is_undef own) eqn:U; [apply is_undef_iff in U; contradiction|]. rewrite IH. destruct (differ own d); reflexivity.
  Qed.
  Lemma union_used own alts pre u rest : own :: alts = (pre ++ u :: rest)%list -> (forall d, In d pre -> d = VUndef) -> u <> VUndef ->
    union_warnings text differ own alts =
      map (fun d => Warn RuntimeW ("Union prop default ignored: " ++ text d)) (filter (fun d => negb (is_undef d) && differ u d) rest) /\
    un_default val (fun d => d) alts own = u.
  Proof.
    intros E P U. destruct pre as [|p pre]; injection E as -> E.
    - subst. split; [now apply union_own|]. clear -U. induction rest as [|d r IH]; [reflexivity|]. cbn.
      destruct (is_undef d); [exact IH|]. destruct (is_undef u) eqn:X; [apply is_undef_iff in X; contradiction|exact IH].
    - rewrite (P p (or_introl eq_refl)). subst alts.
      assert (Q : forall d, In d pre -> d = VUndef) by (intros d Hd; apply P; now right). clear P.
      induction pre as [|q pre IH].
      + cbn. destruct (is_undef u) eqn:X; [apply is_undef_iff in X; contradiction|]. split; [now apply union_own|reflexivity].
      + cbn. rewrite (Q q (or_introl eq_refl)). cbn. apply IH. intros d Hd. apply Q. now right.
  Qed.
End Defaults.
Lemma auto_create_outcome {St} (emit : warning -> St -> option exn * St) v old s : exists w, w_category w = FutureW /\
  forall o s1, emit w s = (o, s1) ->
  snd (set_auto_create emit v old s) = s1 /\
  (forall e, o = Some e -> fst (set_auto_create emit v old s) = (Exc e, old)) /\
  (o = None -> (forall b, v = VBool b -> fst (set_auto_create emit v old s) = (Ok b, b)) /\
               ((forall b, v <> VBool b) -> fst (set_auto_create emit v old s) = (Exc ExType, old))).
Proof.
  exists (Warn FutureW "Deprecation warning: auto_create will be removed in a future release. Please set default to the instance_class instead").
  split; [reflexivity|]. intros o s1 H. unfold set_auto_create. rewrite H. destruct o as [e|].
  - cbn. split; [reflexivity|]. split; [intros e' K; now injection K as ->|discriminate].
  - split; [destruct v; reflexivity|]. split; [discriminate|]. intros _. split; [intros b ->; reflexivity|]. intros N. destruct v; try reflexivity. now destruct (N b).
Qed.
Section Wrangle.
  Variable V : Type.
  Variable is_callable : V -> bool.
  Variable prop : V -> V.
  Lemma wrangle_outcome cls (d : dict V) ws d' : wrangle is_callable prop cls d = (ws, d') ->
    (forall k, k <> "class_info" -> k <> "info" -> dget d' k = dget d k) /\
    (forall v, dget d "info_text" = Some v -> dget d' "class_info" = Some v) /\
    (dget d "info_text" = None -> dget d' "class_info" = dget d "class_info") /\
    dget d' "info" = match dget d "info" with Some v => Some (if is_callable v then prop v else v) | None => None end /\
    length ws = (if dget d "info_text" then 1 else 0) + (match dget d "info" with Some v => if is_callable v then 1 else 0 | None => 0 end) /\
    Forall (fun w => w_category w = FutureW /\ occurs cls (w_text w)) ws.
  Proof.
    unfold wrangle. set (w1 := Warn FutureW (_ ++ cls ++ " ")). set (w2 := Warn FutureW (_ ++ cls)).
    assert (F1 : w_category w1 = FutureW /\ occurs cls (w_text w1)) by (split; [reflexivity|]; unfold w1, w_text; apply occ_left, occ_right, occ_refl).
    assert (F2 : w_category w2 = FutureW /\ occurs cls (w_text w2)) by (split; [reflexivity|]; unfold w2, w_text; apply occ_left, occ_refl).
    clearbody w1 w2.
    destruct (dget d "info_text") as [t|] eqn:T.
    - assert (I : dget (dset d "class_info" t) "info" = dget d "info") by (apply dget_dset_other; discriminate). rewrite I.
      destruct (dget d "info") as [v|] eqn:J; [destruct (is_callable v) eqn:C|]; intros H; injection H as <- <-.
      + split; [intros k N1 N2; rewrite !dget_dset_other by congruence; reflexivity|].
        split; [intros u U; injection U as ->; rewrite dget_dset_other by discriminate; apply dget_dset_same|]. split; [discriminate|].
        split; [apply dget_dset_same|]. split; [reflexivity|]. cbn. auto.
      + split; [intros k N1 N2; rewrite !dget_dset_other by congruence; reflexivity|].
        split; [intros u U; injection U as ->; apply dget_dset_same|]. split; [discriminate|].
        split; [exact I|]. split; [reflexivity|]. auto.
      + split; [intros k N1 N2; rewrite !dget_dset_other by congruence; reflexivity|].
        split; [intros u U; injection U as ->; apply dget_dset_same|]. split; [discriminate|].
        split; [exact I|]. split; [reflexivity|]. auto.
    - destruct (dget d "info") as [v|] eqn:J; [destruct (is_callable v) eqn:C|]; intros H; injection H as <- <-.
      + split; [intros k N1 N2; rewrite !dget_dset_other by congruence; reflexivity|].
        split; [discriminate|]. split; [intros _; rewrite dget_dset_other by discriminate; reflexivity|].
        split; [apply dget_dset_same|]. split; [reflexivity|]. cbn. auto.
      + split; [reflexivity|]. split; [discriminate|]. split; [reflexivity|]. split; [exact J|]. split; [reflexivity|constructor].
      + split; [reflexivity|]. split; [discriminate|]. split; [reflexivity|]. split; [exact J|]. split; [reflexivity|constructor].
  Qed.
End Wrangle.

Lemma contained_warn text d :
  (contained_warnings text d = [] <-> d = VUndef) /\
  (d <> VUndef -> exists w, contained_warnings text d = [w] /\ w_category w = RuntimeW /\ exists s, w_text w = s ++ text d).
Proof.
  unfold contained_warnings. split.
  - destruct d; cbn [is_undef]; split; try discriminate; reflexivity.
  - intros N. exists (Warn RuntimeW ("Contained prop default ignored: " ++ text d)).
    split; [destruct d; try reflexivity; contradiction|]. split; [reflexivity|]. eexists. reflexivity.
Qed.
