(** Keywords.v and Declare.v agree on Integer and Float. *)
From Verif Require Import Keywords KeywordsSpec KeywordsFacts DeclareSpec DeclareFacts.
Local Open Scope string_scope.
Local Open Scope list_scope.
Local Open Scope nat_scope.

Section Numbers.
  Variable E : env.
  Variable ucall2 : val -> val -> res val.
  Variable W : objects.
  Local Notation declN := (np_declare E (ucall W) ucall2).

  Definition all_attrs : list (string * attr) :=
    own_attrs P_Float ++ own_attrs P_Integer ++ own_attrs P_Boolean ++ own_attrs P_Property ++ own_attrs P_Gettable.
  Lemma attr_list k key : attr_of (pk k) key = dget all_attrs key.
  Proof. unfold attr_of. rewrite attr_flat. destruct k; reflexivity. Qed.
  Lemma attr_listed key : In key (dkeys all_attrs) \/ (dget all_attrs key = None /\
     str_mem key with_setter = false /\ str_mem key read_only = false /\ str_mem key plain_attrs = false).
  Proof.
    destruct (in_dec string_dec key (dkeys all_attrs)) as [I|N]; [left; auto|right].
    split; [now apply dget_none|].
    assert (forall l, (forall x, In x l -> In x (dkeys all_attrs)) -> str_mem key l = false) as A.
    { intros l H. destruct (str_mem key l) eqn:M; auto. apply str_mem_in in M. exfalso. auto. }
    assert (forall l, forallb (fun x => if in_dec string_dec x (dkeys all_attrs) then true else false) l = true ->
       forall x, In x l -> In x (dkeys all_attrs)) as B.
    { intros l H x I. rewrite forallb_forall in H. specialize (H x I). destruct (in_dec string_dec x (dkeys all_attrs)); [auto|discriminate]. }
    split; [|split]; apply A, B; vm_compute; reflexivity.
  Qed.


  Variable k : nkind.
  Hypothesis HV : validates_as E ucall2 W k.
  Definition sim (p : nprop) (o : dict val) : Prop :=
    np_kind p = k /\ same_attrs p o /\ (forall key, In key (map fst (np_own p)) -> In key plain_attrs).
  Definition agree (a : res nprop) (b : res (dict val)) : Prop :=
    match a, b with
    | Ok p, Ok o => sim p o
    | Exc e, Exc e' => e = e'
    | _, _ => False
    end.
  Lemma same_set p o key v p' : same_attrs p o -> np_getattr p' key = Some v ->
    (forall key', key' <> key -> np_getattr p' key' = np_getattr p key') -> same_attrs p' (dset o key v).
  Proof.
    intros S G F key'. destruct (string_dec key' key) as [->|N].
    - rewrite dget_dset_same. exact G.
    - rewrite dget_dset_other by congruence. rewrite F by auto. apply S.
  Qed.
  Lemma getter p o key v : same_attrs p o -> np_getattr p key = Some v -> unset key = Some VNone -> get o key = v.
  Proof. intros S G N. specialize (S key). rewrite G in S. unfold get. destruct (dget o key); congruence. Qed.

  Lemma default_agrees p o v : sim p o ->
    agree (set_default E (ucall W) ucall2 v p) (set_attr W (pk k) o "default" v).
  Proof.
    intros (K & S & P). unfold set_attr. rewrite attr_list. change (dget all_attrs "default") with (Some (Setter TDefault)).
    unfold set_default.
    replace (stores W (pk k) o TDefault v) with
      (rbind (match ucall W v with Some r => rbind r (fun x => raised (validates W (pk k) o x))
              | None => if is_undef v then Ok tt else raised (validates W (pk k) o v) end) (fun _ => Ok v)) by (destruct k; reflexivity).
    assert (forall x, validates W (pk k) o x = np_validate E (ucall W) ucall2 p x) as V by (intros; apply HV; auto).
    assert (sim (NP (np_kind p) (np_doc p) (np_name p) (np_required p) (np_cast p) (np_bounds p)
                           (np_ser p) (np_deser p) v (np_own p)) (dset o "default" v)) as Q.
    { split; [exact K|]. split; [|exact P]. eapply same_set; [exact S|reflexivity|].
      intros key' N. unfold np_getattr. cbn. apply String.eqb_neq in N. rewrite N. reflexivity. }
    destruct (ucall W v) as [[x|e]|]; cbn [rbind].
    - rewrite V. destruct (raised _); cbn; auto.
    - reflexivity.
    - destruct (is_undef v); cbn; auto. rewrite V. destruct (raised _); cbn; auto.
  Qed.

  Lemma keys_dset (d : list (string * val)) key v x : In x (map fst (dset d key v)) -> x = key \/ In x (map fst d).
  Proof.
    induction d as [|[a b] d IH]; cbn; [intuition|].
    destruct (String.eqb key a) eqn:Q; cbn; [apply String.eqb_eq in Q; subst|]; intuition.
  Qed.
  Ltac field_ S K P :=
    split; [exact K|]; split; [|exact P]; eapply same_set; [exact S|reflexivity|];
    let key' := fresh in let N := fresh in
    intros key' N; unfold np_getattr; cbn; apply String.eqb_neq in N; rewrite N; reflexivity.

  Lemma attr_agrees p o key v : sim p o -> In key (dkeys all_attrs) ->
    agree (np_setattr E (ucall W) ucall2 key v p) (set_attr W (pk k) o key v).
  Proof.
    intros H I.
    destruct (string_dec key "default") as [->|ND].
    { unfold np_setattr. destruct p. apply (default_agrees _ _ v H). }
    pose proof H as (K & S & P). unfold set_attr. rewrite attr_list.
    destruct p as [kk doc name rq ca bo se de df own]. cbn [np_kind np_own] in *.
    assert (forall key, In key plain_attrs -> In key (dkeys all_attrs) ->
      np_getattr (NP kk doc name rq ca bo se de df (dset own key v)) key = Some v ->
      sim (NP kk doc name rq ca bo se de df (dset own key v)) (dset o key v)) as PL.
    { intros key0 I0 _ G. split; [exact K|]. split.
      - eapply same_set; [exact S|exact G|]. intros key' N. unfold np_getattr. cbn. rewrite dget_dset_other by congruence. reflexivity.
      - cbn [np_own]. intros x X. apply keys_dset in X as [-> |X]; auto. }
    assert (get o "max" = b_max bo) as MX by (eapply getter; [exact S|reflexivity|reflexivity]).
    assert (get o "min" = b_min bo) as MN by (eapply getter; [exact S|reflexivity|reflexivity]).
    cbn [dkeys map fst all_attrs own_attrs app] in I.
    repeat (destruct I as [<-|I]; [try (exfalso; congruence)|]); try contradiction;
      cbn -[np_getattr sim with_bounds]; 
      try (apply PL; [cbn; tauto|cbn; tauto|unfold np_getattr; cbn; apply dget_dset_same]).
    - rewrite MX. unfold set_min. cbn [b_max b_min]. destruct (if is_none (b_max bo) then _ else _) as [[]|]; cbn -[sim]; auto. field_ S K P.
    - rewrite MN. unfold set_max. cbn [b_max b_min]. destruct (if is_none (b_min bo) then _ else _) as [[]|]; cbn -[sim]; auto. field_ S K P.
    - destruct v; cbn -[sim]; auto. field_ S K P.
    - destruct v; cbn -[sim]; auto. field_ S K P.
    - destruct v; cbn -[sim]; try (destruct k; reflexivity). field_ S K P.
    - destruct v; cbn -[sim]; auto. field_ S K P.
    - destruct (ucall W v); cbn -[sim]; auto. field_ S K P.
    - destruct (ucall W v); cbn -[sim]; auto. field_ S K P.
    - reflexivity.
    - reflexivity.
  Qed.

  Lemma keyword_agrees p o kv : sim p o ->
    agree (np_keyword E (ucall W) ucall2 p kv) (one_keyword W (pk k) o kv).
  Proof.
    intros H. destruct kv as [key v]. unfold np_keyword, one_keyword.
    destruct (String.eqb key "terms"); [reflexivity|]. destruct key as [|c r] eqn:Ek; [reflexivity|].
    destruct (Ascii.eqb c "_"); [reflexivity|]. rewrite <- Ek. clear c r Ek. rewrite attr_list.
    destruct (attr_listed key) as [I|(N & A & B & D)].
    - assert (np_hasattr key p = true) as ->.
      { unfold np_hasattr. clear - I. cbn [dkeys map fst all_attrs own_attrs app] in I.
        repeat (destruct I as [<-|I]; [reflexivity|]); contradiction. }
      cbn [negb]. assert (exists a, dget all_attrs key = Some a) as [a ->].
      { destruct (dget all_attrs key) eqn:Q; [eauto|]. apply dget_none in Q. contradiction. }
      now apply attr_agrees.
    - unfold np_hasattr. rewrite N, A, B, D. cbn [orb].
      destruct (dhas (np_own p) key) eqn:X; [exfalso|reflexivity].
      destruct H as (_ & _ & P). assert (str_mem key plain_attrs = true); [|congruence].
      apply str_mem_in, P. unfold dhas in X. destruct (dget (np_own p) key) eqn:Y; [|discriminate].
      apply dget_in in Y. apply (in_map fst) in Y. exact Y.
  Qed.
  Lemma keywords_agree kws : forall p o, sim p o ->
    agree (np_keywords E (ucall W) ucall2 kws p) (Keywords.keywords W (pk k) kws o).
  Proof.
    induction kws as [|kv kws IH]; intros p o H; cbn [np_keywords Keywords.keywords]; [exact H|].
    pose proof (keyword_agrees p o kv H) as A.
    destruct (np_keyword E (ucall W) ucall2 p kv), (one_keyword W (pk k) o kv); cbn [agree rbind] in *; try contradiction; auto.
  Qed.
  Lemma start_sim d : sim (np_start k d) (dset [] "doc" (VStr d)).
  Proof.
    split; [reflexivity|]. split; [|intros key []].
    intros key. unfold np_getattr, unset. cbn.
    destruct (String.eqb_spec key "name") as [->|]; [reflexivity|].
    destruct (String.eqb_spec key "doc") as [->|]; [reflexivity|].
    destruct (String.eqb_spec key "default") as [->|]; [reflexivity|].
    destruct (String.eqb_spec key "serializer") as [->|]; [reflexivity|].
    destruct (String.eqb_spec key "deserializer") as [->|]; [reflexivity|].
    destruct (String.eqb_spec key "required") as [->|]; [reflexivity|].
    destruct (String.eqb_spec key "cast") as [->|]; [reflexivity|].
    destruct (String.eqb_spec key "min") as [->|]; [reflexivity|].
    destruct (String.eqb_spec key "max") as [->|]; [reflexivity|].
    reflexivity.
  Qed.

  Lemma set_doc v : set_attr W (pk k) [] "doc" v = match v with VStr s => Ok (dset [] "doc" (VStr s)) | _ => Exc ExType end.
  Proof. unfold set_attr. rewrite attr_list. destruct v; reflexivity. Qed.
  Lemma declare_agrees doc kws :
    match declN k doc kws, declare W (pk k) [doc] kws with
    | Ok p, Ok o => np_kind p = k /\ same_attrs p o
    | Exc e, Exc e' => e = e'
    | _, _ => False
    end.
  Proof.
    assert (existsb (fun kv => str_mem (fst kv) reserved) kws = (dhas kws "self" || dhas kws "cls") || dhas kws "doc")%bool as R.
    { clear HV. induction kws as [|[a b] r IH]; [reflexivity|]. cbn [existsb fst]. rewrite IH. unfold dhas. cbn [dget].
      unfold str_mem, reserved. cbn [existsb]. rewrite !(String.eqb_sym a).
      destruct (String.eqb "self" a), (String.eqb "cls" a), (String.eqb "doc" a), (dget r "self"), (dget r "cls"), (dget r "doc"); reflexivity. }
    unfold np_declare, declare. rewrite R. destruct (dhas kws "self" || dhas kws "cls")%bool; [reflexivity|]. cbn [orb].
    assert (params (pk k) = [("doc", None)]) as -> by (destruct k; reflexivity). cbn [bind_params].
    destruct (dhas kws "doc"); [reflexivity|]. cbn [rbind bind_params fst snd].
    change (get [("doc", doc)] "doc") with doc.
    assert (match k return Prop with NInteger | NFloat => True end) by (destruct k; exact I).
    match goal with |- match _ with Ok p => match ?x with _ => _ end | Exc e => _ end => 
      replace x with (init W (pk k) [] doc kws) by (destruct k; reflexivity) end.
    unfold init. rewrite set_doc.
    destruct doc; try reflexivity. cbn [rbind].
    match goal with |- context [np_start k ?x] => rename x into s end.
    pose proof (keywords_agree (ddel kws "default") _ _ (start_sim s)) as A.
    destruct (np_keywords E (ucall W) ucall2 (ddel kws "default") (np_start k s)) as [p|e],
      (Keywords.keywords W (pk k) (ddel kws "default") (dset [] "doc" (VStr s))) as [o|e']; cbn [agree rbind] in *; try contradiction; auto.
    assert (forall v, agree (set_default E (ucall W) ucall2 v p) (set_attr W (pk k) o "default" v) ->
      match set_default E (ucall W) ucall2 v p, set_attr W (pk k) o "default" v with
      | Ok p, Ok o => np_kind p = k /\ same_attrs p o
      | Exc e, Exc e' => e = e' | _, _ => False end) as F.
    { intros v. destruct (set_default E (ucall W) ucall2 v p), (set_attr W (pk k) o "default" v); cbn [agree]; auto. unfold sim. tauto. }
    destruct (dget kws "default") as [v|]; [|destruct A as (? & ? & _); auto].
    destruct v; try (apply F, default_agrees; exact A). destruct A as (? & ? & _); auto.
  Qed.
End Numbers.

(** ** An example *)
Definition np_of (k : nkind) (o : dict val) : nprop :=
  NP k "" "" true (match dget o "cast" with Some (VBool b) => b | _ => false end) (BO (get o "min") (get o "max")) None None VUndef
    (match dget o "validate" with Some f => [("validate", f)] | None => [] end).
Lemma np_of_reads E uc uc2 p o v : same_attrs p o -> np_validate E uc uc2 (np_of (np_kind p) o) v = np_validate E uc uc2 p v.
Proof.
  intros S. unfold np_validate, np_of. cbn [np_own np_kind np_cast np_bounds].
  assert (V := S "validate"). cbn in V.
  assert (forall x : option val, dget (match x with Some f => [("validate", f)] | None => [] end) "validate" = x) as G by (intros [x|]; reflexivity).
  rewrite G. replace (dget (np_own p) "validate") with (dget o "validate") by (rewrite V; destruct (dget o "validate"); reflexivity).
  assert (Q := S "cast"). cbn in Q.
  assert ((match dget o "cast" with Some (VBool b) => b | _ => false end) = np_cast p) as ->.
  { destruct (dget o "cast") as [x|]; [injection Q as <-; reflexivity|congruence]. }
  assert (Mn := S "min"). assert (Mx := S "max"). cbn in Mn, Mx.
  assert (BO (get o "min") (get o "max") = np_bounds p) as ->.
  { unfold get. destruct (np_bounds p) as [mn mx]. cbn in *. destruct (dget o "min"), (dget o "max"); congruence. }
  reflexivity.
Qed.
