(** Facts about the keywords of property classes: the assignments of a call. *)
From Verif Require Import Keywords BasicSpec OptionsSpec OptionsFacts KeywordsSpec KeywordsFacts.
From Coq Require Import Lia Permutation.
Local Open Scope string_scope.
Local Open Scope list_scope.
Local Open Scope nat_scope.

Section Loop.
  Variables (W : objects) (k : pkind).
  Notation takes := (takes W k).
  Notation together := (together k).

  Definition typed (o : dict val) : Prop := forall key x, dget o key = Some x -> exists v, takes key v x.
  (** the keys that others need come first *)
  Definition may_come (seen : list string) (s : setter) : Prop :=
    match s with
    | TMode => ~ In "file_modes" seen
    | TValid => In "mode" seen
    | TChoices => In "case_sensitive" seen
    | TDescr => In "choices" seen
    | TName => k = P_Union -> In "props" seen
    | _ => True
    end.
  Fixpoint ordered (seen l : list string) : Prop :=
    match l with
    | [] => True
    | key :: r => (forall s, attr_of k key = Some (Setter s) -> may_come seen s) /\ ordered (key :: seen) r
    end.

  Lemma takes_case v x : takes "case_sensitive" v x -> exists b, x = VBool b.
  Proof.
    intros H. inversion H; subst; eauto;
      try match goal with H : In "case_sensitive" (methods k) |- _ => destruct k; cbn in H; intuition discriminate end;
      match goal with H : In "case_sensitive" _ |- _ => cbn in H; intuition discriminate end.
  Qed.
  Lemma takes_table v x : takes "choices" v x -> exists t, x = choice_dict t.
  Proof.
    intros H. inversion H; subst; eauto;
      try match goal with H : In "choices" (methods k) |- _ => destruct k; cbn in H; intuition discriminate end;
      match goal with H : In "choices" _ |- _ => cbn in H; intuition discriminate end.
  Qed.
  Lemma ready_of o seen s : together o -> typed o -> (forall y, In y seen <-> dget o y <> None) -> may_come seen s -> ready k o s.
  Proof.
    intros T Ty Hs Hm. destruct s; cbn [may_come ready] in *; auto.
    - destruct (dget o "file_modes") eqn:E; [|reflexivity]. exfalso. apply Hm, Hs. congruence.
    - apply Hs in Hm. destruct (dget o "mode") as [m|] eqn:E; [|congruence]. exists m. split; [reflexivity|].
      destruct (tg_mode k o T m E) as [->|(s & -> & _)]; eauto.
    - apply Hs in Hm. destruct (dget o "case_sensitive") as [m|] eqn:E; [|congruence]. destruct (Ty _ _ E) as (v & Hv). apply takes_case in Hv as (b & ->). eauto.
    - apply Hs in Hm. destruct (dget o "choices") as [m|] eqn:E; [|congruence]. destruct (Ty _ _ E) as (v & Hv). apply takes_table in Hv as (b & ->). eauto.
    - intros E. apply Hs. auto.
  Qed.
  Lemma default_key key : attr_of k key = Some (Setter TDefault) -> key = "default".
  Proof. intros H. apply setter_facts in H as ([H|[]] & _). auto. Qed.
  Lemma one_ok o key v o1 : one_keyword W k o (key, v) = Ok o1 -> exists x, o1 = dset o key x /\
    ((exists s, attr_of k key = Some (Setter s) /\ stores W k o s v = Ok x) \/ (attr_of k key = Some Plain /\ x = v)).
  Proof.
    cbn [one_keyword]. destruct (String.eqb key "terms"); [discriminate|]. destruct key as [|c r]; [discriminate|]. destruct (Ascii.eqb c "_"); [discriminate|].
    unfold set_attr. destruct (attr_of k (String c r)) as [[s| |]|]; try discriminate.
    - destruct (stores W k o s v) as [x|] eqn:E; [|discriminate]. cbn [rbind]. intros [= <-]. exists x. split; [reflexivity|]. left. eauto.
    - intros [= <-]. exists v. auto.
  Qed.
  Lemma seen_set (o : dict val) key x seen : (forall y, In y seen <-> dget o y <> None) -> forall y, In y (key :: seen) <-> dget (dset o key x) y <> None.
  Proof.
    intros Hs y. rewrite dget_dset. destruct (String.eqb_spec y key) as [->|N]; cbn; [split; [congruence|auto]|]. rewrite Hs. split; [|auto]. intros [->|H]; [contradiction|exact H].
  Qed.
  Lemma typed_set o key v x : typed o -> takes key v x -> typed (dset o key x).
  Proof. intros Ty Hx y z. rewrite dget_dset. destruct (String.eqb_spec y key) as [->|N]; [intros [= <-]; eauto|apply Ty]. Qed.

  Lemma loop_forward l : forall o o' seen, NoDup (map fst l) -> ~ In "default" (map fst l) -> (forall y, In y seen <-> dget o y <> None) ->
    (forall y, In y (map fst l) -> dget o y = None) -> ordered seen (map fst l) -> together o -> typed o -> keywords W k l o = Ok o' ->
    together o' /\ (forall y, In y (map fst l) -> In y (options k) \/ In y (methods k)) /\
    (forall y v, In (y, v) l -> exists x, takes y v x /\ dget o' y = Some x) /\ (forall y, ~ In y (map fst l) -> dget o' y = dget o y).
  Proof.
    induction l as [|[key v] l IH]; intros o o' seen Hnd Hdef Hseen Hfresh Hord T Ty H.
    - injection H as <-. split; [exact T|]. split; [intros y []|]. split; [intros y v []|reflexivity].
    - cbn [map fst] in *. cbn [keywords] in H. destruct (one_keyword W k o (key, v)) as [o1|] eqn:E; [|discriminate]. cbn [rbind] in H.
      apply one_ok in E as (x & -> & Hx). inversion Hnd as [|? ? Hni Hnd']; subst. cbn [ordered] in Hord. destruct Hord as [Ho1 Ho2].
      assert (Hkey : takes key v x /\ (In key (options k) \/ In key (methods k)) /\ together (dset o key x)).
      { destruct Hx as [(s & Ha & Hst)|(Ha & ->)].
        - assert (s <> TDefault) as Hsd. { intros ->. apply default_key in Ha. apply Hdef. left. auto. }
          pose proof (ready_of o seen s T Ty Hseen (Ho1 s Ha)) as Hr. destruct (setter_facts k key s Ha) as (Hk & _ & Hop & _).
          split; [eapply stores_takes; eauto|]. split; [auto|]. apply together_set; auto; [apply Hfresh; left; auto|]. left. exists s. split; [exact Hk|]. eapply stores_local; eauto.
        - destruct (plain_facts k key Ha) as [Hm _]. split; [now apply tk_method|]. split; [auto|]. apply together_set; auto. apply Hfresh. left. auto. }
      destruct Hkey as (Ht & Hin & T1).
      destruct (IH (dset o key x) o' (key :: seen)) as (R1 & R2 & R3 & R4); auto.
      + intros C. apply Hdef. right. exact C.
      + now apply seen_set.
      + intros y Hy. rewrite dget_dset. destruct (String.eqb_spec y key) as [->|N]; [contradiction|]. apply Hfresh. right. exact Hy.
      + eapply typed_set; eauto.
      + split; [exact R1|]. split; [intros y [<-|Hy]; auto|]. split.
        * intros y w [[= <- <-]|Hy]; [|apply R3; exact Hy]. exists x. split; [exact Ht|]. rewrite R4 by exact Hni. apply dget_dset_same.
        * intros y Hy. rewrite R4 by (intros C; apply Hy; right; exact C). apply dget_dset_other. intros ->. apply Hy. left. reflexivity.
  Qed.

  Definition setters : list setter :=
    [TStr; TBool; TTruth; TText; TCall; TCase; TRegex; TMin; TMax; TMinLen; TMaxLen; TMode; TValid; TChoices; TDescr; TProp; TClass; TShape; TDtype; TLength; TDefault; TName; TProps].
  Lemma methods_apart : forallb (fun s => forallb (fun key => negb (str_mem key (methods k))) (keys_of s)) setters = true.
  Proof. destruct k; vm_compute; reflexivity. Qed.
  Lemma method_takes key v x : In key (methods k) -> takes key v x -> x = v.
  Proof.
    intros Hm Ht.
    assert (G : forall s, In s setters -> In key (keys_of s) -> False).
    { intros s Hs Hk. pose proof methods_apart as K. rewrite forallb_forall in K. specialize (K s Hs). cbv beta in K. rewrite forallb_forall in K. specialize (K key Hk). cbv beta in K.
      apply str_mem_not in K. contradiction. }
    destruct Ht; try reflexivity; exfalso; unfold setters in G; cbn [In] in G.
    - apply (G TTruth); [tauto|assumption].
    - apply (G TText); cbn; tauto.
    - apply (G TRegex); cbn; tauto.
    - apply (G TValid); cbn; tauto.
    - apply (G TValid); cbn; tauto.
    - apply (G TChoices); cbn; tauto.
    - apply (G TProp); [tauto|assumption].
    - apply (G TShape); cbn; tauto.
    - apply (G TShape); cbn; tauto.
    - apply (G TDtype); cbn; tauto.
    - apply (G TLength); cbn; tauto.
    - apply (G TProps); cbn; tauto.
  Qed.

  Lemma bound_takes key v x : In key ["min"; "max"] -> takes key v x -> x = v.
  Proof.
    intros Hk Ht. destruct Ht; try reflexivity; exfalso; cbn in Hk;
      try match goal with H : In key _ |- _ => cbn in H end; intuition (subst; discriminate).
  Qed.
  Lemma loop_back l : forall o oo seen, NoDup (map fst l) -> ~ In "default" (map fst l) -> (forall y, In y seen <-> dget o y <> None) ->
    (forall y, In y (map fst l) -> dget o y = None) -> ordered seen (map fst l) -> together o -> typed o ->
    together oo -> (forall y z, dget o y = Some z -> dget oo y = Some z) -> dget oo "file_modes" = None ->
    (forall y v, In (y, v) l -> (In y (options k) \/ In y (methods k)) /\ (In y ["min"; "max"] -> v <> VNone) /\ exists x, takes y v x /\ dget oo y = Some x) ->
    exists o', keywords W k l o = Ok o' /\ (forall y, In y (map fst l) -> dget o' y = dget oo y).
  Proof.
    induction l as [|[key v] l IH]; intros o oo seen Hnd Hdef Hseen Hfresh Hord T Ty TT Hsub Hf Hall.
    - exists o. split; [reflexivity|intros y []].
    - cbn [map fst] in *. inversion Hnd as [|? ? Hni Hnd']; subst. cbn [ordered] in Hord. destruct Hord as [Ho1 Ho2].
      destruct (Hall key v (or_introl eq_refl)) as (Hin & Hnone & x & Ht & Hx).
      assert (Hof : dget o "file_modes" = None). { destruct (dget o "file_modes") eqn:E; [|reflexivity]. apply Hsub in E. congruence. }
      assert (Hone : one_keyword W k o (key, v) = Ok (dset o key x) /\ together (dset o key x)).
      { destruct Hin as [Hin|Hin].
        - destruct (options_setter k key Hin) as [Hp (s & Ha)]. rewrite keyword_public by exact Hp. rewrite Ha. unfold set_attr. rewrite Ha.
          assert (s <> TDefault) as Hsd. { intros ->. apply default_key in Ha. apply Hdef. left. auto. }
          pose proof (ready_of o seen s T Ty Hseen (Ho1 s Ha)) as Hr. destruct (setter_facts k key s Ha) as (Hk & _ & Hop & _).
          assert (Hl : local k o s x).
          { eapply local_from; eauto. assert (s = TMin \/ s = TMax -> In key ["min"; "max"]) as G by (intros [-> | ->]; cbn in Hk |- *; tauto). intros Hs. specialize (Hnone (G Hs)).
            intros ->. apply Hnone. symmetry. eapply bound_takes; eauto. }
          rewrite (stores_back W k o s key v x Ha Hsd Hof Hr Ht Hl). split; [reflexivity|]. apply together_set; auto; [apply Hfresh; left; auto|]. left. exists s. auto.
        - destruct (methods_plain k key Hin) as [Hp Ha]. rewrite keyword_public by exact Hp. rewrite Ha. unfold set_attr. rewrite Ha.
          assert (Hxv : x = v) by (eapply method_takes; eauto).
          subst x. split; [reflexivity|]. apply together_set; auto. apply Hfresh. left. auto. }
      destruct Hone as [Hone T1]. cbn [keywords]. rewrite Hone. cbn [rbind].
      destruct (IH (dset o key x) oo (key :: seen)) as (o' & R1 & R2); auto.
      + intros C. apply Hdef. right. exact C.
      + now apply seen_set.
      + intros y Hy. rewrite dget_dset. destruct (String.eqb_spec y key) as [->|N]; [contradiction|]. apply Hfresh. right. exact Hy.
      + eapply typed_set; eauto.
      + intros y z. rewrite dget_dset. destruct (String.eqb_spec y key) as [->|N]; [congruence|apply Hsub].
      + intros y w Hy. apply Hall. right. exact Hy.
      + exists o'. split; [exact R1|]. intros y [<-|Hy]; [|apply R2; exact Hy].
        destruct (loop_forward l (dset o key x) o' (key :: seen)) as (_ & _ & _ & R4); auto.
        * intros C. apply Hdef. right. exact C.
        * now apply seen_set.
        * intros y Hy. rewrite dget_dset. destruct (String.eqb_spec y key) as [->|N]; [contradiction|]. apply Hfresh. right. exact Hy.
        * eapply typed_set; eauto.
        * rewrite R4 by exact Hni. rewrite dget_dset_same. congruence.
  Qed.

  Lemma ordered_rest l : forall seen, (In k [P_File; P_PNG] -> In "mode" seen /\ ~ In "mode" l) -> (k = P_Choice -> In "choices" seen /\ ~ In "choices" l) ->
    (k = P_Union -> In "props" seen) -> ordered seen l.
  Proof.
    induction l as [|key l IH]; intros seen H1 H2 H3; cbn [ordered]; [exact I|]. split.
    - intros s Ha. destruct (setter_facts k key s Ha) as (Hk & Hok & _ & _). destruct s; cbn [may_come keys_of] in *; auto; destruct Hk as [<-|[]].
      + exfalso. destruct k; cbn in Hok; try discriminate; destruct H1 as [_ H1]; cbn; auto; apply H1; left; auto.
      + destruct k; cbn in Hok; try discriminate; apply H1; cbn; auto.
      + destruct k; cbn in Hok; try discriminate. exfalso. destruct H2 as [_ H2]; auto. apply H2. left. auto.
      + destruct k; cbn in Hok; try discriminate. apply H2. auto.
    - apply IH; [intros Hk; destruct (H1 Hk) as [K1 K2]|intros Hk; destruct (H2 Hk) as [K1 K2]|intros Hk; right; auto];
        (split; [right; exact K1|intros C; apply K2; right; exact C]).
  Qed.
End Loop.

(** ** Parameters *)
Definition dir (ps : list (string * option val)) (args : list val) (kws : dict val) (key : string) : option val :=
  match match position key (map fst ps) with Some i => nth_error args i | None => None end with
  | Some v => Some v
  | None => match dget kws key with Some v => Some v | None => match dget ps key with Some d => d | None => None end end
  end.
Definition fits (ps : list (string * option val)) (args : list val) (kws : dict val) : Prop :=
  length args <= length ps /\
  (forall i key, position key (map fst ps) = Some i -> i < length args -> ~ In key (map fst kws)) /\
  (forall key, In key (map fst ps) -> dir ps args kws key <> None).
Lemma dhas_in (d : dict val) key : dhas d key = true <-> In key (map fst d).
Proof.
  unfold dhas. destruct (dget d key) eqn:E.
  - split; [|auto]. intros _. destruct (in_dec string_dec key (dkeys d)) as [H|H]; [exact H|]. apply dget_none in H. congruence.
  - apply dget_none in E. split; [discriminate|]. intros H. contradiction.
Qed.
Lemma nodup_ddel (d : dict val) key : NoDup (map fst d) -> NoDup (map fst (ddel d key)).
Proof.
  unfold ddel. induction d as [|[y w] d IH]; cbn; intros H; [constructor|]. inversion H as [|? ? H1 H2]; subst.
  destruct (negb (String.eqb key y)); cbn; auto. constructor; auto. intros C. apply H1. apply in_map_iff in C as ([a b] & <- & C). apply filter_In in C as [C _].
  apply in_map_iff. exists (a, b). auto.
Qed.
Lemma position_in key l : In key l <-> position key l <> None.
Proof.
  induction l as [|x l IH]; cbn; [tauto|]. destruct (String.eqb_spec x key) as [->|N]; [split; [congruence|auto]|].
  destruct (position key l); cbn; [split; [congruence|]|]; intuition congruence.
Qed.
Lemma dir_head n d r a args kws : dir ((n, d) :: r) (a :: args) kws n = Some a.
Proof. unfold dir. cbn. now rewrite String.eqb_refl. Qed.
Lemma dir_head_nil n d r kws : dir ((n, d) :: r) [] kws n = match dget kws n with Some v => Some v | None => d end.
Proof. unfold dir. cbn. rewrite String.eqb_refl. cbn. reflexivity. Qed.
Lemma dir_tail n d r a args kws key : n <> key -> dir ((n, d) :: r) (a :: args) kws key = dir r args kws key.
Proof.
  intros N. unfold dir. cbn [map fst position]. destruct (String.eqb_spec n key); [contradiction|]. cbn [dget]. destruct (String.eqb_spec key n); [congruence|].
  destruct (position key (map fst r)); reflexivity.
Qed.
Lemma dir_tail_nil n d r kws key : n <> key -> dir ((n, d) :: r) [] kws key = dir r [] (ddel kws n) key.
Proof.
  intros N. unfold dir. cbn [map fst position]. destruct (String.eqb_spec n key); [contradiction|]. cbn [dget]. destruct (String.eqb_spec key n); [congruence|].
  rewrite dget_ddel_other by exact N. destruct (position key (map fst r)) as [i|]; cbn; [|reflexivity]. destruct i; reflexivity.
Qed.
Lemma in_ddel (d : dict val) n key : In key (map fst (ddel d n)) -> In key (map fst d).
Proof. unfold ddel. intros H. apply in_map_iff in H as (p & <- & H). apply filter_In in H as [H _]. now apply in_map. Qed.

Lemma bind_spec ps : forall args kws q rest, NoDup (map fst ps) -> bind_params ps args kws = Ok (q, rest) ->
  (forall key, In key (map fst ps) -> dget q key = dir ps args kws key /\ dget rest key = None) /\ fits ps args kws /\
  (forall key, ~ In key (map fst ps) -> dget rest key = dget kws key) /\ (NoDup (map fst kws) -> NoDup (map fst rest)).
Proof.
  induction ps as [|[n d] ps IH]; intros args kws q rest Hnd H.
  - destruct args; [|discriminate]. injection H as <- <-. split; [intros key []|]. split; [|auto]. split; [cbn; lia|]. split; [discriminate|intros key []].
  - cbn [map fst] in Hnd. inversion Hnd as [|? ? Hni Hnd']; subst. destruct args as [|a args]; cbn [bind_params] in H.
    + destruct (match dget kws n with Some v => Some v | None => d end) as [v|] eqn:Ev; [|discriminate].
      destruct (bind_params ps [] (ddel kws n)) as [[q1 r1]|] eqn:E; [|discriminate]. injection H as <- <-.
      destruct (IH _ _ _ _ Hnd' E) as (R1 & R2 & R3 & R4). cbn [map fst]. split; [|split; [|split]].
      * intros key [<-|Hin].
        { rewrite dir_head_nil, Ev. cbn. rewrite String.eqb_refl. split; [reflexivity|]. rewrite R3 by exact Hni. apply dget_ddel_same. }
        { assert (n <> key) as N by (intros ->; contradiction). rewrite dir_tail_nil by exact N. cbn. destruct (String.eqb_spec key n); [congruence|]. auto. }
      * split; [cbn; lia|]. split; [intros; cbn in *; lia|]. intros key [<-|Hin]; [cbn [fst]; rewrite dir_head_nil, Ev; discriminate|].
        assert (n <> key) as N by (intros ->; contradiction). rewrite dir_tail_nil by exact N. now apply R2.
      * intros key Hk. rewrite R3 by (intros C; apply Hk; right; exact C). apply dget_ddel_other. intros ->. apply Hk. left. reflexivity.
      * intros Hk. apply R4. now apply nodup_ddel.
    + destruct (dhas kws n) eqn:En; [discriminate|]. destruct (bind_params ps args kws) as [[q1 r1]|] eqn:E; [|discriminate]. injection H as <- <-.
      destruct (IH _ _ _ _ Hnd' E) as (R1 & R2 & R3 & R4). cbn [map fst]. split; [|split; [|split]].
      * intros key [<-|Hin].
        { rewrite dir_head. cbn. rewrite String.eqb_refl. split; [reflexivity|]. rewrite R3 by exact Hni. unfold dhas in En. destruct (dget kws n); [discriminate|reflexivity]. }
        { assert (n <> key) as N by (intros ->; contradiction). rewrite dir_tail by exact N. cbn. destruct (String.eqb_spec key n); [congruence|]. auto. }
      * destruct R2 as (F1 & F2 & F3). split; [cbn; lia|]. split.
        { intros i key. cbn [map fst position]. destruct (String.eqb_spec n key) as [<-|N]; [intros _ _ C; apply dhas_in in C; congruence|].
          destruct (position key (map fst ps)) as [j|] eqn:P; [|discriminate]. cbn. intros [= <-] Hj. apply (F2 j); [exact P|lia]. }
        { intros key [<-|Hin]; [cbn [fst]; rewrite dir_head; discriminate|]. assert (n <> key) as N by (intros ->; contradiction). rewrite dir_tail by exact N. auto. }
      * intros key Hk. apply R3. intros C. apply Hk. right. exact C.
      * exact R4.
Qed.
Lemma bind_fits ps : forall args kws, NoDup (map fst ps) -> fits ps args kws -> exists q rest, bind_params ps args kws = Ok (q, rest).
Proof.
  induction ps as [|[n d] ps IH]; intros args kws Hnd (F1 & F2 & F3).
  - destruct args; [cbn; eauto|cbn in F1; lia].
  - cbn [map fst] in Hnd. inversion Hnd as [|? ? Hni Hnd']; subst. destruct args as [|a args]; cbn [bind_params].
    + pose proof (F3 n (or_introl eq_refl)) as Hn. rewrite dir_head_nil in Hn. destruct (match dget kws n with Some v => Some v | None => d end) as [v|]; [|congruence].
      destruct (IH [] (ddel kws n) Hnd') as (q & rest & E).
      { split; [cbn; lia|]. split; [intros; cbn in *; lia|]. intros key Hk. assert (n <> key) as N by (intros ->; contradiction). rewrite <- (dir_tail_nil n d) by exact N. apply F3. right. exact Hk. }
      rewrite E. cbn. eauto.
    + assert (dhas kws n = false) as ->.
      { destruct (dhas kws n) eqn:E; [|reflexivity]. apply dhas_in in E. exfalso. apply (F2 0 n); [cbn; now rewrite String.eqb_refl|cbn; lia|exact E]. }
      destruct (IH args kws Hnd') as (q & rest & E).
      { split; [cbn in F1; lia|]. split.
        - intros i key Hp Hi. assert (n <> key) as N. { intros ->. apply Hni. apply position_in. congruence. }
          apply (F2 (S i)); [|cbn; lia]. cbn. destruct (String.eqb_spec n key); [contradiction|]. now rewrite Hp.
        - intros key Hk. assert (n <> key) as N by (intros ->; contradiction). rewrite <- (dir_tail n d _ a) by exact N. apply F3. right. exact Hk. }
      rewrite E. cbn. eauto.
Qed.
Lemma bind_exc ps : forall args kws e, bind_params ps args kws = Exc e -> e = ExType.
Proof.
  induction ps as [|[n d] ps IH]; intros [|a args] kws e; cbn [bind_params]; try congruence.
  - destruct (match dget kws n with Some v => Some v | None => d end); [|congruence]. destruct (bind_params ps [] (ddel kws n)) eqn:E; cbn; [discriminate|]. intros [= <-]. eauto.
  - destruct (dhas kws n); [congruence|]. destruct (bind_params ps args kws) eqn:E; cbn; [discriminate|]. intros [= <-]. eauto.
Qed.
Lemma params_nodup k : NoDup (map fst (params k)).
Proof. destruct k; cbn; repeat constructor; cbn; intuition discriminate. Qed.

(** ** A call as a sequence of assignments *)
Definition assigns (k : pkind) (ps rest : dict val) : dict val :=
  match k with
  | P_Choice => ("case_sensitive", get ps "case_sensitive") :: ("choices", get ps "choices") :: ("doc", get ps "doc") :: ddel rest "default"
  | P_File => ("mode", get ps "mode") :: ("doc", get ps "doc") :: ddel rest "default"
  | P_PNG => ("mode", get ps "mode") :: ("doc", get ps "doc") ::
             ddel (dset rest "valid_modes" (match dget rest "valid_modes" with Some v => v | None => modes_of k end)) "default"
  | P_Tuple | P_List | P_Set => (if is_none (get ps "prop") then [] else [("prop", get ps "prop")]) ++ ("doc", get ps "doc") :: ddel rest "default"
  | P_Instance | P_Pointer => ("instance_class", get ps "instance_class") :: ("doc", get ps "doc") :: ddel rest "default"
  | P_Union => ("props", get ps "props") :: ("doc", get ps "doc") :: ddel rest "default"
  | P_Renamed => ("new_name", get ps "new_name") :: ("doc", match dget rest "doc" with Some d => d | None => renamed_doc (get ps "new_name") end) ::
                 ddel (ddel rest "doc") "default"
  | _ => ("doc", get ps "doc") :: ddel rest "default"
  end.
Lemma set_one W k o key v : In key (options k) -> set_attr W k o key v = one_keyword W k o (key, v).
Proof. intros H. destruct (options_setter k key H) as [Hp (s & Ha)]. now rewrite keyword_public, Ha by exact Hp. Qed.
Lemma rbind_assoc {A B C} (m : res A) (f : A -> res B) (g : B -> res C) : rbind (rbind m f) g = rbind m (fun x => rbind (f x) g).
Proof. destruct m; reflexivity. Qed.
Lemma rbind_ext {A B} (m : res A) (f g : A -> res B) : (forall x, f x = g x) -> rbind m f = rbind m g.
Proof. intros H. destruct m; cbn; auto. Qed.
Definition last_step (W : objects) (k : pkind) (d : option val) (o : dict val) : res (dict val) :=
  match d with None | Some VNone => Ok o | Some v => set_attr W k o "default" v end.
Lemma init_loop W k o doc kws : In "doc" (options k) ->
  init W k o doc kws = rbind (keywords W k (("doc", doc) :: ddel kws "default") o) (last_step W k (dget kws "default")).
Proof. intros H. unfold init. cbn [keywords]. rewrite set_one by exact H. now rewrite rbind_assoc. Qed.
Lemma declare_assigns W k args kws : declare W k args kws =
  if dhas kws "self" || dhas kws "cls" then Exc ExType
  else rbind (bind_params (params k) args kws) (fun q =>
         rbind (keywords W k (assigns k (fst q) (snd q)) []) (last_step W k (dget (snd q) "default"))).
Proof.
  unfold declare. destruct (_ || _); [reflexivity|]. apply rbind_ext. intros [ps rest]. cbn [fst snd].
  assert (Hdoc : In "doc" (options k)) by (apply str_mem_In; destruct k; reflexivity).
  destruct k; cbn [assigns]; try (now rewrite init_loop by exact Hdoc).
  - rewrite set_one by (apply str_mem_In; reflexivity). cbn [keywords]. rewrite rbind_assoc. apply rbind_ext. intros o1.
    rewrite set_one by (apply str_mem_In; reflexivity). cbn [keywords]. rewrite rbind_assoc. apply rbind_ext. intros o2. now rewrite init_loop by exact Hdoc.
  - rewrite set_one by (apply str_mem_In; reflexivity). cbn [keywords]. rewrite rbind_assoc. apply rbind_ext. intros o1. now rewrite init_loop by exact Hdoc.
  - rewrite set_one by (apply str_mem_In; reflexivity). cbn [keywords]. rewrite rbind_assoc. apply rbind_ext. intros o1. rewrite init_loop by exact Hdoc.
    rewrite dget_dset_other by discriminate. reflexivity.
  - rewrite set_one by (apply str_mem_In; reflexivity). cbn [keywords]. rewrite rbind_assoc. apply rbind_ext. intros o1. rewrite init_loop by exact Hdoc.
    rewrite dget_ddel_other by discriminate. reflexivity.
  - destruct (is_none (get ps "prop")); [cbn [rbind]; now rewrite init_loop by exact Hdoc|]. rewrite set_one by (apply str_mem_In; reflexivity). cbn [app keywords]. rewrite rbind_assoc. apply rbind_ext. intros o1. now rewrite init_loop by exact Hdoc.
  - destruct (is_none (get ps "prop")); [cbn [rbind]; now rewrite init_loop by exact Hdoc|]. rewrite set_one by (apply str_mem_In; reflexivity). cbn [app keywords]. rewrite rbind_assoc. apply rbind_ext. intros o1. now rewrite init_loop by exact Hdoc.
  - destruct (is_none (get ps "prop")); [cbn [rbind]; now rewrite init_loop by exact Hdoc|]. rewrite set_one by (apply str_mem_In; reflexivity). cbn [app keywords]. rewrite rbind_assoc. apply rbind_ext. intros o1. now rewrite init_loop by exact Hdoc.
  - rewrite set_one by (apply str_mem_In; reflexivity). cbn [keywords]. rewrite rbind_assoc. apply rbind_ext. intros o1. now rewrite init_loop by exact Hdoc.
  - rewrite set_one by (apply str_mem_In; reflexivity). cbn [keywords]. rewrite rbind_assoc. apply rbind_ext. intros o1. now rewrite init_loop by exact Hdoc.
  - rewrite set_one by (apply str_mem_In; reflexivity). cbn [keywords]. rewrite rbind_assoc. apply rbind_ext. intros o1. now rewrite init_loop by exact Hdoc.
Qed.

Definition is_sized (k : pkind) : bool := match k with P_Tuple | P_List | P_Set => true | _ => false end.
Lemma default_free k : ~ In "default" (map fst (params k)).
Proof. destruct k; cbn; intuition discriminate. Qed.
Section Call.
  Variables (k : pkind) (args : list val) (kws ps rest : dict val).
  Hypothesis Hnd : NoDup (map fst kws).
  Hypothesis Hbind : bind_params (params k) args kws = Ok (ps, rest).

  Lemma call_fits : fits (params k) args kws.
  Proof. exact (proj1 (proj2 (bind_spec _ _ _ _ _ (params_nodup k) Hbind))). Qed.
  Lemma call_param key : In key (map fst (params k)) -> direct k args kws key = Some (get ps key) /\ dget rest key = None.
  Proof.
    intros H. destruct (bind_spec _ _ _ _ _ (params_nodup k) Hbind) as (R1 & (_ & _ & R2) & _). destruct (R1 key H) as [R3 R4]. split; [|exact R4].
    specialize (R2 key H). unfold get. rewrite R3. change (direct k args kws key) with (dir (params k) args kws key) in *. destruct (dir (params k) args kws key); [reflexivity|congruence].
  Qed.
  Lemma call_rest key : ~ In key (map fst (params k)) -> dget rest key = direct k args kws key.
  Proof.
    intros H. destruct (bind_spec _ _ _ _ _ (params_nodup k) Hbind) as (_ & _ & R3 & _). rewrite (R3 key H). unfold direct.
    destruct (position key (map fst (params k))) eqn:P; [exfalso; apply H, position_in; congruence|]. destruct (dget kws key); [reflexivity|].
    unfold by_default. apply dget_none in H. now rewrite H.
  Qed.
  Lemma call_nodup : NoDup (map fst rest).
  Proof. destruct (bind_spec _ _ _ _ _ (params_nodup k) Hbind) as (_ & _ & _ & R). auto. Qed.
  Lemma call_not key : In key (map fst (params k)) -> ~ In key (map fst rest).
  Proof. intros H. apply dget_none. now apply call_param. Qed.
  Lemma call_default : dget rest "default" = supplied k args kws "default".
  Proof. rewrite call_rest by apply default_free. unfold supplied. destruct (direct k args kws "default"); [reflexivity|]. destruct k; reflexivity. Qed.

  Lemma not_ddel (d : dict val) key : ~ In key (map fst (ddel d key)).
  Proof. apply dget_none, dget_ddel_same. Qed.
  Lemma in_dset (d : dict val) key x y : In y (map fst (dset d key x)) -> y = key \/ In y (map fst d).
  Proof.
    intros H. destruct (string_dec y key) as [->|N]; [auto|]. right. destruct (in_dec string_dec y (map fst d)) as [I|I]; [exact I|]. apply dget_none in I.
    assert (dget (dset d key x) y = None) as E by (rewrite dget_dset_other; congruence). apply dget_none in E. contradiction.
  Qed.

  Lemma assigns_nodup : NoDup (map fst (assigns k ps rest)) /\ ~ In "default" (map fst (assigns k ps rest)).
  Proof.
    pose proof call_nodup as Hr. pose proof call_not as Hc.
    assert (Hd : NoDup (map fst (ddel rest "default"))) by now apply nodup_ddel.
    assert (Hin : forall y, In y (map fst (ddel rest "default")) -> In y (map fst rest)) by (intros y; apply in_ddel).
    assert (Hdef := not_ddel rest "default").
    assert (G : forall l, NoDup l -> (forall y, In y l -> In y (map fst (params k))) -> ~ In "default" l ->
                NoDup (l ++ map fst (ddel rest "default")) /\ ~ In "default" (l ++ map fst (ddel rest "default"))).
    { intros l Hl Hp Hdl. split.
      - induction l as [|a l IH]; [exact Hd|]. inversion Hl as [|? ? Ha Hl']; subst. cbn [app]. constructor.
        + rewrite in_app_iff. intros [C|C]; [contradiction|]. apply (Hc a); [apply Hp; left; reflexivity|auto].
        + apply IH; auto; [intros y Hy; apply Hp; right; exact Hy|intros C; apply Hdl; right; exact C].
      - rewrite in_app_iff. tauto. }
    assert (S : forall l, forallb (fun y => str_mem y (map fst (params k))) l = true -> forall y, In y l -> In y (map fst (params k))).
    { intros l H y Hy. rewrite forallb_forall in H. specialize (H y Hy). now apply str_mem_In. }
    assert (D : forall l, str_mem "default" l = false -> ~ In "default" l) by (intros l H C; apply str_mem_In in C; congruence).
    assert (N2 : forall a b : string, a <> b -> NoDup [a; b]) by (intros a b H; repeat constructor; cbn; intuition).
    destruct k; cbn [assigns map fst];
      try (apply (G ["doc"]); [repeat constructor; cbn; tauto|apply S; reflexivity|apply D; reflexivity]; fail).
    - apply (G ["case_sensitive"; "choices"; "doc"]); [|apply S; reflexivity|apply D; reflexivity]. repeat constructor; cbn; intuition discriminate.
    - apply (G ["mode"; "doc"]); [apply N2; discriminate|apply S; reflexivity|apply D; reflexivity].
    - set (d := dset rest "valid_modes" _). assert (Hdn : NoDup (map fst (ddel d "default"))) by (now apply nodup_ddel, nodup_dset).
      assert (Hdi : forall y, In y (map fst (ddel d "default")) -> y = "valid_modes" \/ In y (map fst rest)) by (intros y Hy; apply in_ddel in Hy; now apply in_dset in Hy).
      assert (Hm := Hc "mode"). assert (Ho := Hc "doc"). cbn in Hm, Ho. split.
      + constructor; [intros [C|C]; [discriminate|apply Hdi in C as [C|C]; [discriminate|tauto]]|]. constructor; [intros C; apply Hdi in C as [C|C]; [discriminate|tauto]|exact Hdn].
      + intros [C|[C|C]]; try discriminate. exact (not_ddel d "default" C).
    - assert (Hm := Hc "new_name"). cbn in Hm. split.
      + constructor; [intros [C|C]; [discriminate|apply in_ddel, in_ddel in C; tauto]|]. constructor; [intros C; apply in_ddel in C; exact (not_ddel rest "doc" C)|now apply nodup_ddel, nodup_ddel].
      + intros [C|[C|C]]; try discriminate. exact (not_ddel (ddel rest "doc") "default" C).
    - rewrite map_app. cbn [map fst]. destruct (is_none _); cbn [app map fst]; [apply (G ["doc"])|apply (G ["prop"; "doc"])];
        [repeat constructor; cbn; tauto|apply S; reflexivity|apply D; reflexivity|apply N2; discriminate|apply S; reflexivity|apply D; reflexivity].
    - rewrite map_app. cbn [map fst]. destruct (is_none _); cbn [app map fst]; [apply (G ["doc"])|apply (G ["prop"; "doc"])];
        [repeat constructor; cbn; tauto|apply S; reflexivity|apply D; reflexivity|apply N2; discriminate|apply S; reflexivity|apply D; reflexivity].
    - rewrite map_app. cbn [map fst]. destruct (is_none _); cbn [app map fst]; [apply (G ["doc"])|apply (G ["prop"; "doc"])];
        [repeat constructor; cbn; tauto|apply S; reflexivity|apply D; reflexivity|apply N2; discriminate|apply S; reflexivity|apply D; reflexivity].
    - apply (G ["instance_class"; "doc"]); [apply N2; discriminate|apply S; reflexivity|apply D; reflexivity].
    - apply (G ["instance_class"; "doc"]); [apply N2; discriminate|apply S; reflexivity|apply D; reflexivity].
    - apply (G ["props"; "doc"]); [apply N2; discriminate|apply S; reflexivity|apply D; reflexivity].
  Qed.

  Lemma assigns_ordered : ordered k [] (map fst (assigns k ps rest)).
  Proof.
    pose proof call_not as Hc.
    assert (O : forall l, In k [P_File; P_PNG] \/ k = P_Choice \/ k = P_Union \/ ordered k [] l) by (intros l; destruct k; cbn; auto; right; right; right; apply ordered_rest; cbn; intuition discriminate).
    destruct (O (map fst (assigns k ps rest))) as [H|[H|[H|H]]]; [| | |exact H].
    - assert (Hm : In "mode" (map fst (params k))) by (destruct k; cbn in H |- *; intuition discriminate).
      assert (exists l, map fst (assigns k ps rest) = "mode" :: l /\ ~ In "mode" l) as (l & -> & Hl).
      { destruct assigns_nodup as [Hn _]. destruct k; cbn in H; try (exfalso; intuition discriminate); cbn [assigns map fst] in *; inversion Hn; subst; eauto. }
      cbn [ordered]. split; [|apply ordered_rest].
      + intros s Ha. apply setter_facts in Ha as (Hk & _). destruct s; cbn in Hk |- *; try exact I; intuition discriminate.
      + intros _. split; [left; reflexivity|exact Hl].
      + intros ->. cbn in H. intuition discriminate.
      + intros ->. cbn in H. intuition discriminate.
    - subst k. cbn [assigns map fst ordered]. split; [|split].
      + intros s Ha. apply setter_facts in Ha as (Hk & _). destruct s; cbn in Hk |- *; try exact I; intuition discriminate.
      + intros s Ha. apply setter_facts in Ha as (Hk & _). destruct s; cbn in Hk |- *; try exact I; intuition discriminate.
      + assert (H := ordered_rest P_Choice ("doc" :: map fst (ddel rest "default")) ["choices"; "case_sensitive"]). apply H.
        * cbn. intuition discriminate.
        * intros _. split; [left; reflexivity|]. intros [C|C]; [discriminate|]. apply in_ddel in C. eapply Hc; [|exact C]. cbn. auto.
        * discriminate.
    - subst k. cbn [assigns map fst ordered]. split.
      + intros s Ha. apply setter_facts in Ha as (Hk & _). destruct s; cbn in Hk |- *; try exact I; intuition discriminate.
      + assert (H := ordered_rest P_Union ("doc" :: map fst (ddel rest "default")) ["props"]). apply H; [cbn; intuition discriminate|discriminate|cbn; auto].
  Qed.

  Lemma assigns_get key : (k = P_Renamed -> exists s, direct k args kws "new_name" = Some (VStr s)) -> key <> "default" ->
    dget (assigns k ps rest) key =
    match supplied k args kws key with
    | Some VNone => if is_sized k && String.eqb key "prop" then None else Some VNone
    | r => r
    end.
  Proof.
    intros Hren Hdef. pose proof call_rest as CR. pose proof call_param as CP.
    assert (P : forall y, In y (map fst (params k)) -> supplied k args kws y = Some (get ps y)).
    { intros y Hy. unfold supplied. now rewrite (proj1 (call_param y Hy)). }
    assert (R : ~ In key (map fst (params k)) -> dget (ddel rest "default") key = direct k args kws key).
    { intros Hy. rewrite dget_ddel_other by congruence. now apply call_rest. }
    match goal with |- _ = ?r => set (target := r) end.
    assert (Same : is_sized k && String.eqb key "prop" = false -> target = supplied k args kws key).
    { intros Hf. unfold target. rewrite Hf. destruct (supplied k args kws key) as [[]|]; reflexivity. }
    destruct k; cbn [assigns];
      try (rewrite Same by reflexivity; cbn [dget]; destruct (String.eqb_spec key "doc") as [->|N]; [symmetry; apply P; cbn; auto|];
           rewrite R by (cbn; intuition congruence); unfold supplied; destruct (direct _ args kws key); reflexivity).
    all: try rewrite Same by reflexivity.
    - cbn [dget]. destruct (String.eqb_spec key "case_sensitive") as [->|N1]; [symmetry; apply P; cbn; auto|]. destruct (String.eqb_spec key "choices") as [->|N2]; [symmetry; apply P; cbn; auto|].
      destruct (String.eqb_spec key "doc") as [->|N3]; [symmetry; apply P; cbn; auto|].
      rewrite R by (cbn; intuition congruence); unfold supplied; destruct (direct _ args kws key); reflexivity.
    - cbn [dget]. destruct (String.eqb_spec key "mode") as [->|N1]; [symmetry; apply P; cbn; auto|]. destruct (String.eqb_spec key "doc") as [->|N3]; [symmetry; apply P; cbn; auto|].
      rewrite R by (cbn; intuition congruence); unfold supplied; destruct (direct _ args kws key); reflexivity.
    - cbn [dget]. destruct (String.eqb_spec key "mode") as [->|N1]; [symmetry; apply P; cbn; auto|]. destruct (String.eqb_spec key "doc") as [->|N3]; [symmetry; apply P; cbn; auto|].
      rewrite dget_ddel_other by congruence. rewrite dget_dset. unfold supplied. destruct (String.eqb_spec key "valid_modes") as [->|N4].
      + rewrite CR by (cbn; intuition congruence). destruct (direct P_PNG args kws "valid_modes"); reflexivity.
      + rewrite CR by (cbn; intuition congruence). destruct (direct P_PNG args kws key); reflexivity.
    - cbn [dget]. destruct (String.eqb_spec key "new_name") as [->|N1]; [symmetry; apply P; cbn; auto|]. unfold supplied. destruct (String.eqb_spec key "doc") as [->|N3].
      + rewrite CR by (cbn; intuition congruence). destruct (direct P_Renamed args kws "doc"); [reflexivity|].
        destruct (Hren eq_refl) as (s & Hs). rewrite Hs. destruct (CP "new_name") as [E _]; [cbn; auto|]. rewrite Hs in E. injection E as <-. reflexivity.
      + rewrite dget_ddel_other by congruence. rewrite dget_ddel_other by congruence. rewrite CR by (cbn; intuition congruence). destruct (direct P_Renamed args kws key); reflexivity.
    - rewrite dget_app. destruct (String.eqb_spec key "prop") as [->|N1].
      + unfold target. rewrite (P "prop") by (cbn; auto). destruct (get ps "prop"); try reflexivity. cbn. rewrite dget_ddel_other by congruence. apply CP. cbn. auto.
      + rewrite Same by reflexivity.
        match goal with |- match ?m with _ => _ end = _ => assert (m = None) as -> end.
        { destruct (is_none _); [reflexivity|]. cbn. destruct (String.eqb_spec key "prop"); [contradiction|reflexivity]. }
        cbn [dget]. destruct (String.eqb_spec key "doc") as [->|N]; [symmetry; apply P; cbn; auto|].
        rewrite R by (cbn; intuition congruence); unfold supplied; destruct (direct _ args kws key); reflexivity.
    - rewrite dget_app. destruct (String.eqb_spec key "prop") as [->|N1].
      + unfold target. rewrite (P "prop") by (cbn; auto). destruct (get ps "prop"); try reflexivity. cbn. rewrite dget_ddel_other by congruence. apply CP. cbn. auto.
      + rewrite Same by reflexivity.
        match goal with |- match ?m with _ => _ end = _ => assert (m = None) as -> end.
        { destruct (is_none _); [reflexivity|]. cbn. destruct (String.eqb_spec key "prop"); [contradiction|reflexivity]. }
        cbn [dget]. destruct (String.eqb_spec key "doc") as [->|N]; [symmetry; apply P; cbn; auto|].
        rewrite R by (cbn; intuition congruence); unfold supplied; destruct (direct _ args kws key); reflexivity.
    - rewrite dget_app. destruct (String.eqb_spec key "prop") as [->|N1].
      + unfold target. rewrite (P "prop") by (cbn; auto). destruct (get ps "prop"); try reflexivity. cbn. rewrite dget_ddel_other by congruence. apply CP. cbn. auto.
      + rewrite Same by reflexivity.
        match goal with |- match ?m with _ => _ end = _ => assert (m = None) as -> end.
        { destruct (is_none _); [reflexivity|]. cbn. destruct (String.eqb_spec key "prop"); [contradiction|reflexivity]. }
        cbn [dget]. destruct (String.eqb_spec key "doc") as [->|N]; [symmetry; apply P; cbn; auto|].
        rewrite R by (cbn; intuition congruence); unfold supplied; destruct (direct _ args kws key); reflexivity.
    - cbn [dget]. destruct (String.eqb_spec key "instance_class") as [->|N1]; [symmetry; apply P; cbn; auto|]. destruct (String.eqb_spec key "doc") as [->|N3]; [symmetry; apply P; cbn; auto|].
      rewrite R by (cbn; intuition congruence); unfold supplied; destruct (direct _ args kws key); reflexivity.
    - cbn [dget]. destruct (String.eqb_spec key "instance_class") as [->|N1]; [symmetry; apply P; cbn; auto|]. destruct (String.eqb_spec key "doc") as [->|N3]; [symmetry; apply P; cbn; auto|].
      rewrite R by (cbn; intuition congruence); unfold supplied; destruct (direct _ args kws key); reflexivity.
    - cbn [dget]. destruct (String.eqb_spec key "props") as [->|N1]; [symmetry; apply P; cbn; auto|]. destruct (String.eqb_spec key "doc") as [->|N3]; [symmetry; apply P; cbn; auto|].
      rewrite R by (cbn; intuition congruence); unfold supplied; destruct (direct _ args kws key); reflexivity.
  Qed.
End Call.
