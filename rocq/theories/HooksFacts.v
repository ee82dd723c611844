(** Lemmas behind the theorems on overriding [_error_hook]. *)
From Verif Require Import Hooks HooksSpec.
Local Open Scope list_scope.
Local Open Scope string_scope.
Local Open Scope nat_scope.

Lemma app_str_assoc a b c : (a ++ b) ++ c = a ++ b ++ c.
Proof. induction a; cbn; congruence. Qed.
Lemma join_head a b r : join ((a ++ b) :: r) = a ++ join (b :: r).
Proof. destruct r; cbn [join]; [reflexivity|]. now rewrite !app_str_assoc. Qed.
Lemma join_lists ts : forall a, lists a ts (join (a :: map t_msg ts)).
Proof.
  induction ts as [|t r IH]; intros a; [constructor|]. constructor.
  specialize (IH (a ++ String (ascii_of_nat 10) ("- " ++ t_msg t))).
  replace (join (a :: map t_msg (t :: r))) with (join ((a ++ String (ascii_of_nat 10) ("- " ++ t_msg t)) :: map t_msg r)); [exact IH|].
  cbn [map]. change (join (a :: t_msg t :: map t_msg r)) with (a ++ String (ascii_of_nat 10) "- " ++ join (t_msg t :: map t_msg r)).
  rewrite join_head. f_equal.
  change (String (ascii_of_nat 10) ("- " ++ t_msg t)) with (String (ascii_of_nat 10) "- " ++ t_msg t).
  apply join_head.
Qed.

Section Facts.
  Variable S : Type.
  Variable hook : list tup -> S -> option herr * list tup * S.
  Variable K : Type.
  Variable step : K -> S -> list tup * outcome * S.
  Notation collect := (collect S hook K step).
  Notation gathered := (gathered S K step).
  Notation broken_off := (broken_off S K step).

  Definition first (o : option herr) (x : option exn) : option herr :=
    match o with Some e => Some e | None => match x with Some e => Some (HOther e) | None => None end end.
  Lemma collect_spec ks : forall acc o u calls y s1,
    collect ks (St (Some true) (Some acc) o u calls) = (y, s1) ->
    (exists e u1, y = Some e /\ broken_off ks u e u1 /\ h_user s1 = u1 /\ h_calls s1 = calls) \/
    (exists ts x u1, y = None /\ gathered ks u ts x u1 /\
       s1 = St (Some true) (Some (acc ++ ts)%list) (first o x) u1 calls).
  Proof.
    induction ks as [|k r IH]; intros acc o u calls y s1 H; cbn [Hooks.collect] in H.
    { injection H as <- <-. right. exists [], None, u. split; [reflexivity|]. split; [constructor|].
      rewrite app_nil_r. destruct o; reflexivity. }
    cbn [h_user h_flag h_tuples h_other h_calls] in H.
    destruct (step k u) as [[added oc] u1] eqn:X.
    unfold add, new_error, handle in H. cbn [h_user h_flag h_tuples h_other h_calls] in H.
    assert (NEXT : forall ts x, yields oc ts x ->
      collect r (St (Some true) (Some ((acc ++ added) ++ ts)%list) (first o x) u1 calls) = (y, s1) ->
      (exists e u1, y = Some e /\ broken_off (k :: r) u e u1 /\ h_user s1 = u1 /\ h_calls s1 = calls) \/
      (exists ts x u1, y = None /\ gathered (k :: r) u ts x u1 /\
         s1 = St (Some true) (Some (acc ++ ts)%list) (first o x) u1 calls)).
    { intros ts x Y H'. apply IH in H'. destruct H' as [(e & u2 & A & B & C & D)|(ts' & x' & u2 & A & B & C)].
      - left. exists e, u2. repeat split; auto. eapply br_later; eauto.
      - right. do 3 eexists. split; [exact A|]. split; [eapply ga_next; eauto|].
        rewrite C, <- !app_assoc. destruct o, x; reflexivity. }
    destruct oc as [| |[m ts|e]|e].
    - apply (NEXT [] None); [constructor|]. rewrite app_nil_r. destruct o; exact H.
    - apply (NEXT [Tup "Validation failed" None None true] None); [constructor|]. destruct o; exact H.
    - apply (NEXT ts None); [constructor|]. destruct o; exact H.
    - cbn [generic] in H. destruct (is_generic e) eqn:G.
      + apply (NEXT [] (Some e)); [constructor; exact G|]. rewrite app_nil_r. destruct o; exact H.
      + injection H as <- <-. left. exists (HOther e), u1. repeat split. eapply br_here; [exact X|constructor; exact G].
    - injection H as <- <-. left. exists e, u1. repeat split. eapply br_here; [exact X|constructor].
  Qed.

  Lemma guarded_spec title ks s y s1 : guarded S hook K step title ks s = (y, s1) ->
    h_flag s1 = Some false /\ h_tuples s1 = None /\ h_other s1 = None /\
    exists calls, h_calls s1 = (h_calls s ++ calls)%list /\ ends S hook K step title ks (h_user s) y (h_user s1) calls.
  Proof.
    unfold guarded. intros H.
    destruct (collect ks (St (Some true) (Some []) None (h_user s) (h_calls s))) as [x t] eqn:X.
    apply collect_spec in X. destruct X as [(e & u1 & -> & B & C & D)|(ts & o & u1 & -> & G & ->)].
    - injection H as <- <-. cbn [h_flag h_tuples h_other h_calls h_user]. repeat split; auto.
      exists []. rewrite app_nil_r, C. split; [exact D|]. now apply en_broken.
    - cbn [app] in H. unfold finish in H. cbn [h_tuples] in H. destruct ts as [|t r].
      + injection H as <- <-. cbn [h_flag h_tuples h_other h_calls h_user]. repeat split; auto.
        exists []. rewrite app_nil_r. split; [reflexivity|]. cbn [first].
        destruct o as [e|]; [now apply en_other|now apply en_fine].
      + unfold call_hook in H. cbn [h_flag h_tuples h_other h_calls h_user] in H.
        destruct (hook (t :: r) u1) as [[x ts'] u2] eqn:Y. destruct x as [e|].
        * injection H as <- <-. cbn [h_flag h_tuples h_other h_calls h_user]. repeat split; auto.
          exists [t :: r]. split; [reflexivity|]. eapply en_hook; eauto.
        * cbn [new_error filled orb h_flag] in H. injection H as <- <-.
          cbn [h_flag h_tuples h_other h_calls h_user]. repeat split; auto.
          exists [t :: r]. split; [reflexivity|]. eapply en_invalid; eauto. apply join_lists.
  Qed.
  Lemma validate_spec ks s y s1 : h_flag s <> Some true -> validate S hook K step ks s = (y, s1) ->
    h_flag s1 = Some false /\ h_tuples s1 = None /\ h_other s1 = None /\
    exists calls, h_calls s1 = (h_calls s ++ calls)%list /\ ends S hook K step "Validation failed:" ks (h_user s) y (h_user s1) calls.
  Proof. unfold validate. intros F H. destruct (h_flag s) as [[|]|]; [congruence| |]; apply guarded_spec in H; exact H. Qed.
  Lemma validate_again ks s : h_flag s = Some true -> validate S hook K step ks s = (None, s).
  Proof. unfold validate. intros ->. reflexivity. Qed.

  (** the relations are functional *)
  Lemma yields_fun o ts x ts' x' : yields o ts x -> yields o ts' x' -> ts = ts' /\ x = x'.
  Proof. inversion 1; inversion 1; subst; split; congruence. Qed.
  Lemma yields_escapes o ts x e : yields o ts x -> escapes o e -> False.
  Proof. inversion 1; inversion 1; subst; congruence. Qed.
  Lemma gathered_fun ks : forall u ts x u1, gathered ks u ts x u1 -> forall ts' x' u2, gathered ks u ts' x' u2 -> ts = ts' /\ x = x' /\ u1 = u2.
  Proof.
    induction 1 as [u|k r u added o u1 ts x ts1 x1 u2 X Y G IH]; intros ts' x' u3 H; inversion H as [|k0 r0 u0 a0 o0 v0 t0 y0 t1 y1 v1 X' Y' G']; subst; auto.
    rewrite X in X'. injection X' as <- <- <-. destruct (yields_fun _ _ _ _ _ Y Y') as (-> & ->).
    destruct (IH _ _ _ G') as (-> & -> & ->). auto.
  Qed.
  Lemma gathered_not_broken ks : forall u ts x u1, gathered ks u ts x u1 -> forall e u2, ~ broken_off ks u e u2.
  Proof.
    induction 1 as [u|k r u added o u1 ts x ts1 x1 u2 X Y G IH]; intros e u3 B;
      inversion B as [k0 r0 u0 a0 o0 v0 e0 X' Y'|k0 r0 u0 a0 o0 v0 t0 y0 e0 v1 X' Y' B']; subst.
    - rewrite X in X'. injection X' as <- <- <-. eapply yields_escapes; eauto.
    - rewrite X in X'. injection X' as <- <- <-. eapply IH; eauto.
  Qed.
  Lemma not_hidden ks u ts x u1 s y s1 : gathered ks u ts x u1 -> ts <> [] -> h_user s = u -> h_flag s <> Some true ->
    validate S hook K step ks s = (y, s1) -> y <> None /\ h_calls s1 = (h_calls s ++ [ts])%list.
  Proof.
    intros G N U F H. apply validate_spec in H; [|exact F]. destruct H as (_ & _ & _ & calls & C & E). subst u.
    destruct E as [e u2 B|u2 G'|e u2 G'|t r o u2 ts' u3 m G' _ _|t r o u2 e ts' u3 G' _].
    - destruct (gathered_not_broken _ _ _ _ _ G _ _ B).
    - destruct (gathered_fun _ _ _ _ _ G _ _ _ G'). congruence.
    - destruct (gathered_fun _ _ _ _ _ G _ _ _ G'). congruence.
    - destruct (gathered_fun _ _ _ _ _ G _ _ _ G') as (-> & _). split; [discriminate|exact C].
    - destruct (gathered_fun _ _ _ _ _ G _ _ _ G') as (-> & _). split; [discriminate|exact C].
  Qed.
  Lemma lenient_error ks u ts x u1 s y s1 : lenient S hook -> gathered ks u ts x u1 -> ts <> [] -> h_user s = u -> h_flag s <> Some true ->
    validate S hook K step ks s = (y, s1) -> exists m, y = Some (HVal m ts) /\ lists "Validation failed:" ts m.
  Proof.
    intros L G N U F H. apply validate_spec in H; [|exact F]. destruct H as (_ & _ & _ & calls & C & E). subst u.
    destruct E as [e u2 B|u2 G'|e u2 G'|t r o u2 ts' u3 m G' Hk M|t r o u2 e ts' u3 G' Hk].
    - destruct (gathered_not_broken _ _ _ _ _ G _ _ B).
    - destruct (gathered_fun _ _ _ _ _ G _ _ _ G'). congruence.
    - destruct (gathered_fun _ _ _ _ _ G _ _ _ G'). congruence.
    - destruct (gathered_fun _ _ _ _ _ G _ _ _ G') as (-> & _). destruct (L (t :: r) u2) as (v & Hv). rewrite Hv in Hk.
      injection Hk as <- <-. eauto.
    - destruct (L (t :: r) u2) as (v & Hv). congruence.
  Qed.
  (** a single error *)
  Lemma error_spec msg reason prop own s : 
    let t := Tup msg reason prop own in
    new_error S hook msg reason prop own None s =
      match own, h_flag s with
      | true, Some false =>
          let '(x, ts, u) := hook [t] (h_user s) in
          (match x with Some e => e | None => HVal msg ts end, St (Some false) (h_tuples s) (h_other s) u (h_calls s ++ [[t]])%list)
      | _, _ => (HVal msg [t], s)
      end.
  Proof.
    cbv zeta. unfold new_error, call_hook. destruct own; [|reflexivity]. destruct (h_flag s) as [[|]|]; try reflexivity.
    destruct (hook _ _) as [[[e|] ts] u]; reflexivity.
  Qed.
End Facts.
