(** Proofs about the declaration of properties with keywords. *)
From Verif Require Import Keywords BasicSpec OptionsSpec OptionsFacts KeywordsSpec KeywordsFacts KeywordsLoop.
From Coq Require Import Lia Permutation.
Local Open Scope string_scope.
Local Open Scope list_scope.
Local Open Scope nat_scope.

Lemma fits_iff k args kws : fits_params k args kws <-> fits (params k) args kws /\ ~ In "self" (map fst kws) /\ ~ In "cls" (map fst kws).
Proof.
  split.
  - intros [H1 H2 H3 H4]. split; [|exact H3]. split; [exact H1|]. split; [exact H2|exact H4].
  - intros [(H1 & H2 & H4) H3]. split; [exact H1|exact H2|exact H3|exact H4].
Qed.
Lemma params_options k key : In key (map fst (params k)) -> In key (options k).
Proof.
  assert (H : forallb (fun y => str_mem y (options k)) (map fst (params k)) = true) by (destruct k; reflexivity).
  rewrite forallb_forall in H. intros Hk. apply str_mem_In. auto.
Qed.
Lemma prop_sized k : In "prop" (options k) \/ In "prop" (methods k) -> is_sized k = true.
Proof. rewrite <- !str_mem_In. destruct k; cbn; intuition discriminate. Qed.
Lemma default_options k : In "default" (options k) \/ In "default" (methods k) -> In "default" (options k) /\ attr_of k "default" = Some (Setter TDefault).
Proof. rewrite <- !str_mem_In. destruct k; intros [H|H]; try discriminate H; split; reflexivity. Qed.
Lemma default_getter k : ~ In "default" (options k) -> attr_of k "default" = Some Getter.
Proof. rewrite <- str_mem_In. destruct k; intros H; try reflexivity; exfalso; apply H; reflexivity. Qed.
Lemma takes_new_name W k v x : takes W k "new_name" v x -> exists s, v = VStr s.
Proof.
  intros H. inversion H; subst; eauto;
    try match goal with H : In "new_name" (methods k) |- _ => exfalso; apply str_mem_In in H; destruct k; discriminate H end;
    match goal with H : In "new_name" _ |- _ => cbn in H; intuition discriminate end.
Qed.
Lemma supplied_key k args kws key v : supplied k args kws key = Some v -> In key (options k) \/ In (key, v) kws.
Proof.
  unfold supplied. destruct (direct k args kws key) as [w|] eqn:E.
  - intros [= ->]. unfold direct in E. destruct (match position key (map fst (params k)) with Some i => nth_error args i | None => None end) as [w|] eqn:P.
    + left. apply params_options. apply position_in. destruct (position key (map fst (params k))); congruence.
    + destruct (dget kws key) as [w|] eqn:D; [injection E as ->; right; now apply dget_in in D|].
      left. apply params_options. unfold by_default in E. destruct (in_dec string_dec key (map fst (params k))) as [H|H]; [exact H|]. apply dget_none in H. rewrite H in E. discriminate.
  - destruct k; try discriminate.
    + destruct (String.eqb_spec key "valid_modes") as [->|]; [|discriminate]. intros _. left. apply str_mem_In. reflexivity.
    + destruct (String.eqb_spec key "doc") as [->|]; [|discriminate]. intros _. left. apply str_mem_In. reflexivity.
Qed.
Lemma supplied_kws k args kws key v : supplied k args kws key = Some v -> ~ In key (map fst (params k)) -> key <> "valid_modes" -> key <> "doc" -> In (key, v) kws.
Proof.
  unfold supplied. destruct (direct k args kws key) as [w|] eqn:E.
  - intros [= ->] Hp _ _. unfold direct in E. destruct (position key (map fst (params k))) eqn:P; [exfalso; apply Hp, position_in; congruence|].
    destruct (dget kws key) as [w|] eqn:D; [injection E as ->; now apply dget_in in D|]. unfold by_default in E. apply dget_none in Hp. rewrite Hp in E. discriminate.
  - intros H Hp H1 H2. destruct k; try discriminate.
    + destruct (String.eqb_spec key "valid_modes"); [contradiction|discriminate].
    + destruct (String.eqb_spec key "doc"); [contradiction|discriminate].
Qed.
Lemma ddel_dset_fresh (d : dict val) key x : dget d key = None -> ddel (dset d key x) key = d.
Proof.
  unfold ddel. induction d as [|[a b] d IH]; cbn [dget dset filter].
  - intros _. cbn. now rewrite String.eqb_refl.
  - destruct (String.eqb_spec key a) as [->|N]; [discriminate|]. intros H. cbn [filter fst]. destruct (String.eqb_spec key a); [contradiction|]. cbn. now rewrite IH.
Qed.

Section Declared.
  Variables (W : objects) (k : pkind).
  (** The keywords are options or attributes of the class. *)
  Notation allowed kws := (forall key v, In (key, v) kws -> In key (options k) \/ In key (methods k) \/ (key = "default" /\ v = VNone)).
  Notation default_ok args kws o := (forall v, supplied k args kws "default" = Some v -> v <> VNone -> good_default W k (ddel o "default") v).

  Lemma union_dec : {k = P_Union} + {k <> P_Union}.
  Proof. destruct k; (now left) || now right. Qed.
  Lemma stores_default_union o v : k = P_Union -> stores W k o TDefault v =
    if is_undef v then Ok v
    else if (match get o "props" with VTuple [] => true | _ => false end) then Exc ExType
    else match rbind (match ucall W v with Some r => r | None => Ok v end) (fun x => raised (validates W k o x)) with
         | Ok _ => Ok v
         | Exc e => if is_generic e then Exc ExType else Exc e
         end.
  Proof. intros ->. cbn [stores]. destruct (is_undef v); [reflexivity|]. destruct (get o "props") as [| | | | | | | | | |[|]| | | |]; reflexivity. Qed.
  Lemma stores_default_other o v : k <> P_Union -> stores W k o TDefault v =
    rbind (match ucall W v with
           | Some r => rbind r (fun x => raised (validates W k o x))
           | None => if is_undef v then Ok tt else raised (validates W k o v)
           end) (fun _ => Ok v).
  Proof. intros H. destruct k; try reflexivity. contradiction. Qed.
  Lemma empty_props (o : dict val) : (match get o "props" with VTuple [] => true | _ => false end) = true <-> dget o "props" = Some (VTuple []).
  Proof.
    unfold get. destruct (dget o "props") as [[| | | | | | | | | |[|]| | | |]|]; split; try discriminate; reflexivity.
  Qed.
  Lemma raised_ok r : raised r = Ok tt <-> exists x, r = LOk x.
  Proof. destruct r; cbn; split; try discriminate; eauto; intros (? & [=]). Qed.
  Lemma stores_default o v : stores W k o TDefault v = Ok v <-> good_default W k o v.
  Proof.
    unfold good_default. destruct union_dec as [E|N].
    - rewrite stores_default_union by exact E. destruct (is_undef v) eqn:Hu.
      { destruct v; try discriminate. split; auto. }
      destruct (match get o "props" with VTuple [] => true | _ => false end) eqn:Hp.
      { apply empty_props in Hp. split; [discriminate|]. intros [[-> _]|[_ H]]; [discriminate|]. exfalso. exact (H E Hp). }
      assert (Hne : dget o "props" <> Some (VTuple [])) by (intros C; apply empty_props in C; congruence). split.
      + intros H. right. split; [|auto]. destruct (ucall W v) as [[y|e]|]; cbn [rbind] in H.
        * destruct (raised (validates W k o y)) as [[]|e] eqn:R; [apply raised_ok in R as (x & R); exists y, x; auto|destruct (is_generic e); discriminate].
        * destruct (is_generic e); discriminate.
        * destruct (raised (validates W k o v)) as [[]|e] eqn:R; [apply raised_ok in R as (x & R); exists v, x; auto|destruct (is_generic e); discriminate].
      + intros [[-> _]|[(y & x & Hy & V) _]]; [discriminate|].
        assert (R : rbind (match ucall W v with Some r => r | None => Ok v end) (fun z => raised (validates W k o z)) = Ok tt); [|now rewrite R].
        destruct Hy as [[-> ->]| ->]; cbn [rbind]; now rewrite V.
    - rewrite stores_default_other by exact N. split.
      + destruct (ucall W v) as [r|] eqn:U.
        * intros H. right. split; [|contradiction]. destruct r as [y|]; [|discriminate]. cbn in H. destruct (validates W k o y) as [x| |] eqn:V; try discriminate. exists y, x. auto.
        * intros H. destruct (is_undef v) eqn:Hu; [left; destruct v; try discriminate; auto|]. right. split; [|contradiction].
          destruct (validates W k o v) as [x| |] eqn:V; try discriminate. exists v, x. auto.
      + intros [[-> [C|U]]|[(y & x & Hy & V) _]]; [contradiction|now rewrite U|].
        destruct Hy as [[U ->]|U]; rewrite U; [destruct (is_undef v); [reflexivity|]|]; cbn [rbind]; now rewrite V.
  Qed.
  Lemma stores_default_same o v x : stores W k o TDefault v = Ok x -> x = v.
  Proof.
    destruct union_dec as [E|N].
    - rewrite stores_default_union by exact E. destruct (is_undef v); [congruence|]. destruct (match get o "props" with VTuple [] => true | _ => false end); [discriminate|].
      destruct (rbind _ _) as [|e]; [congruence|destruct (is_generic e); discriminate].
    - rewrite stores_default_other by exact N. destruct (match ucall W v with Some r => _ | None => _ end); cbn; [congruence|discriminate].
  Qed.

  Lemma declared args kws o : NoDup (map fst kws) -> declare W k args kws = Ok o ->
    fits_params k args kws /\ allowed kws /\ describes W k args kws o /\ together k o /\ default_ok args kws o.
  Proof.
    intros Hnd H. rewrite declare_assigns in H. destruct (dhas kws "self" || dhas kws "cls") eqn:Hself; [discriminate|].
    apply orb_false_iff in Hself as [Hs1 Hs2].
    assert (Hn1 : ~ In "self" (map fst kws)) by (intros C; apply dhas_in in C; congruence).
    assert (Hn2 : ~ In "cls" (map fst kws)) by (intros C; apply dhas_in in C; congruence).
    destruct (bind_params (params k) args kws) as [[ps rest]|] eqn:Hb; [|discriminate]. cbn [rbind fst snd] in H.
    destruct (keywords W k (assigns k ps rest) []) as [ob|] eqn:Hk; [|discriminate]. cbn [rbind] in H.
    destruct (assigns_nodup k args kws ps rest Hnd Hb) as [An Ad].
    destruct (loop_forward W k (assigns k ps rest) [] ob [] An Ad) as (T & Hopt & Htakes & Hother); auto.
    { cbn. intros y. split; [intros []|congruence]. }
    { apply (assigns_ordered k args kws); auto. }
    { apply together_nil. }
    { intros y x Hx. discriminate Hx. }
    assert (Hren : k = P_Renamed -> exists s, direct k args kws "new_name" = Some (VStr s)).
    { intros ->. destruct (call_param P_Renamed args kws ps rest Hb "new_name") as [E _]; [cbn; auto|]. rewrite E.
      destruct (Htakes "new_name" (get ps "new_name")) as (x & Hx & _); [cbn; auto|]. apply takes_new_name in Hx as (s & ->). eauto. }
    pose proof (assigns_get k args kws ps rest Hb) as Hget.
    assert (Hgive : forall key v, supplied k args kws key = Some v -> key <> "default" -> (key = "prop" -> v <> VNone) -> exists x, takes W k key v x /\ dget ob key = Some x).
    { intros key v Hs Hd Hp. apply Htakes. apply dget_in. rewrite Hget by auto. rewrite Hs. destruct v; try reflexivity.
      destruct (String.eqb_spec key "prop") as [->|N]; [exfalso; now apply Hp|]. now rewrite andb_false_r. }
    assert (Honly : forall key x, dget ob key = Some x -> key <> "default" /\ exists v, supplied k args kws key = Some v /\ (key = "prop" -> v <> VNone)).
    { intros key x Hx. destruct (in_dec string_dec key (map fst (assigns k ps rest))) as [Hin|Hni]; [|rewrite Hother in Hx by exact Hni; discriminate].
      assert (key <> "default") as Hd by (intros ->; contradiction). split; [exact Hd|].
      destruct (dget (assigns k ps rest) key) as [v|] eqn:Ev; [|apply dget_none in Ev; contradiction]. specialize (Hopt key Hin).
      rewrite Hget in Ev by auto. destruct (supplied k args kws key) as [w|]; [|discriminate]. exists w. split; [reflexivity|]. intros -> ->. rewrite (prop_sized k Hopt) in Ev. cbn in Ev. discriminate. }
    assert (Hbd : dget ob "default" = None) by (rewrite Hother by exact Ad; reflexivity).
    pose proof (call_default k args kws ps rest Hb) as Hdef. rewrite Hdef in H.
    assert (Hallow : forall key v, In (key, v) kws -> key <> "default" -> In key (options k) \/ In key (methods k)).
    { intros key v Hin Hd. destruct (in_dec string_dec key (map fst (params k))) as [Hp|Hp]; [left; now apply params_options|].
      assert (Hs : supplied k args kws key = Some v).
      { unfold supplied. rewrite <- (call_rest k args kws ps rest Hb key Hp). destruct (bind_spec _ _ _ _ _ (params_nodup k) Hb) as (_ & _ & R3 & _). rewrite R3 by exact Hp.
        now rewrite (dget_nodup_in kws key v Hnd Hin). }
      destruct (in_dec string_dec key (map fst (assigns k ps rest))) as [Hi|Hi]; [auto|]. apply dget_none in Hi. rewrite Hget in Hi by auto. rewrite Hs in Hi.
      destruct v; try discriminate. destruct (is_sized k) eqn:Es; [|discriminate]. destruct (String.eqb_spec key "prop") as [->|]; [|discriminate].
      exfalso. apply Hp. destruct k; try discriminate; cbn; auto. }
    assert (Hfit : fits_params k args kws) by (apply fits_iff; split; [exact (call_fits k args kws ps rest Hb)|auto]).
    assert (Hin_def : forall v, supplied k args kws "default" = Some v -> In ("default", v) kws).
    { intros v Hv. apply (supplied_kws k args kws); try discriminate; auto. apply default_free. }
    assert (Hcases : (o = ob /\ (supplied k args kws "default" = None \/ supplied k args kws "default" = Some VNone)) \/
                     exists v, supplied k args kws "default" = Some v /\ v <> VNone /\ set_attr W k ob "default" v = Ok o).
    { unfold last_step in H. destruct (supplied k args kws "default") as [[]|]; try (right; eexists; split; [reflexivity|split; [discriminate|exact H]]); injection H as <-; auto. }
    destruct Hcases as [(-> & Hdv)|(v & Hv & Hvn & Hset)].
    - split; [exact Hfit|]. split; [|split; [|split; [exact T|]]].
      + intros key v Hin. destruct (string_dec key "default") as [->|Hd]; [|destruct (Hallow key v Hin Hd); auto].
        right. right. split; [reflexivity|]. assert (Hv : supplied k args kws "default" = Some v).
        { rewrite <- Hdef. destruct (bind_spec _ _ _ _ _ (params_nodup k) Hb) as (_ & _ & R3 & _). rewrite R3 by apply default_free. now apply dget_nodup_in. }
        destruct Hdv; congruence.
      + split.
        * exact Hgive.
        * intros key x Hx. destruct (Honly key x Hx) as (Hd & v & Hv & Hp). exists v. split; [exact Hv|]. intros [->| ->]; [auto|contradiction].
        * intros v Hv Hvn. destruct Hdv; congruence.
      + intros v Hv Hvn. destruct Hdv; congruence.
    - assert (Ho : In "default" (options k)).
      { destruct (in_dec string_dec "default" (options k)) as [Hi|Hi]; [exact Hi|]. unfold set_attr in Hset. rewrite (default_getter k Hi) in Hset. discriminate. }
      destruct (default_options k (or_introl Ho)) as [_ Ha]. unfold set_attr in Hset. rewrite Ha in Hset.
      destruct (stores W k ob TDefault v) as [x|] eqn:Est; [|discriminate]. pose proof (stores_default_same ob v x Est) as ->. cbn [rbind] in Hset. injection Hset as <-.
      apply stores_default in Est. split; [exact Hfit|]. split; [|split; [|split]].
      + intros key w Hin. destruct (string_dec key "default") as [->|Hd]; [auto|destruct (Hallow key w Hin Hd); auto].
      + split.
        * intros key w Hs Hd Hp. destruct (Hgive key w Hs Hd Hp) as (x & Hx & Hg). exists x. split; [exact Hx|]. rewrite dget_dset_other by congruence. exact Hg.
        * intros key x. rewrite dget_dset. destruct (String.eqb_spec key "default") as [->|N]; [intros [= <-]; exists v; auto|].
          intros Hx. destruct (Honly key x Hx) as (_ & w & Hw & Hp). exists w. split; [exact Hw|]. intros [->| ->]; [auto|contradiction].
        * intros w Hw _. rewrite dget_dset_same. congruence.
      + apply together_set; auto. left. exists TDefault. split; [cbn; auto|exact I].
      + intros w Hw _. rewrite ddel_dset_fresh by exact Hbd. assert (w = v) as -> by congruence. exact Est.
  Qed.

  Lemma accepted args kws oo : NoDup (map fst kws) -> orderless W -> ~ In "file_modes" (map fst kws) ->
    (forall key, In key ["min"; "max"] -> ~ In (key, VNone) kws) ->
    fits_params k args kws -> allowed kws -> describes W k args kws oo -> together k oo -> default_ok args kws oo ->
    exists o, declare W k args kws = Ok o /\ forall key, dget o key = dget oo key.
  Proof.
    intros Hnd Hord Hfm Hnone Hfit Hallow Hdes T Hdok. rewrite declare_assigns.
    apply fits_iff in Hfit as (Hfit & Hs1 & Hs2).
    assert (dhas kws "self" = false) as -> by (destruct (dhas kws "self") eqn:E; [apply dhas_in in E; contradiction|reflexivity]).
    assert (dhas kws "cls" = false) as -> by (destruct (dhas kws "cls") eqn:E; [apply dhas_in in E; contradiction|reflexivity]).
    cbn [orb]. destruct (bind_fits _ _ _ (params_nodup k) Hfit) as (ps & rest & Hb). rewrite Hb. cbn [rbind fst snd].
    destruct (assigns_nodup k args kws ps rest Hnd Hb) as [An Ad].
    assert (Hren : k = P_Renamed -> exists s, direct k args kws "new_name" = Some (VStr s)).
    { intros Hk. assert (Hp : In "new_name" (map fst (params k))) by (rewrite Hk; cbn; auto). destruct (call_param k args kws ps rest Hb "new_name" Hp) as [E _].
      assert (Hs : supplied k args kws "new_name" = Some (get ps "new_name")) by (unfold supplied; now rewrite E).
      destruct (ds_given _ _ _ _ _ Hdes "new_name" _ Hs) as (x & Hx & _); try discriminate. apply takes_new_name in Hx as (s & Es). rewrite E, Es. eauto. }
    pose proof (assigns_get k args kws ps rest Hb) as Hget.
    assert (Hkey : forall y v, supplied k args kws y = Some v -> y <> "default" -> In y (options k) \/ In y (methods k)).
    { intros y v Hs Hd. apply supplied_key in Hs as [Hs|Hs]; [auto|]. destruct (Hallow y v Hs) as [?|[?|[? _]]]; auto. contradiction. }
    assert (Hof : dget oo "file_modes" = None).
    { destruct (dget oo "file_modes") as [x|] eqn:E; [|reflexivity]. exfalso. apply (ds_only _ _ _ _ _ Hdes) in E as (v & Hv & _).
      apply Hfm. apply in_map_iff. exists ("file_modes", v). split; [reflexivity|]. apply (supplied_kws k args kws); try discriminate; auto. destruct k; cbn; intuition discriminate. }
    destruct (loop_back W k (assigns k ps rest) [] oo []) as (ob & Hk & Hsame); auto.
    { cbn. intros y. split; [intros []|congruence]. }
    { apply (assigns_ordered k args kws); auto. }
    { apply together_nil. }
    { intros y x Hx. discriminate Hx. }
    { intros y z Hz. discriminate Hz. }
    { intros y v Hin. assert (Hd : y <> "default") by (intros ->; apply Ad; apply in_map_iff; exists ("default", v); auto).
      apply (dget_nodup_in _ y v An) in Hin. rewrite Hget in Hin by auto.
      destruct (supplied k args kws y) as [w|] eqn:Hs; [|discriminate]. specialize (Hkey y w Hs Hd).
      assert (w = v /\ (y = "prop" -> v <> VNone)) as [-> Hp].
      { destruct w; try (injection Hin as <-; split; [reflexivity|discriminate]). destruct (String.eqb_spec y "prop") as [->|N].
        - rewrite (prop_sized k Hkey) in Hin. discriminate.
        - rewrite andb_false_r in Hin. injection Hin as <-. split; [reflexivity|contradiction]. }
      split; [exact Hkey|]. split; [|apply (ds_given _ _ _ _ _ Hdes); auto].
      intros Hm ->. apply (Hnone y Hm). apply (supplied_kws k args kws); auto; cbn in Hm; destruct Hm as [<-|[<-|[]]]; try discriminate; destruct k; cbn; intuition discriminate. }
    rewrite Hk. cbn [rbind].
    destruct (loop_forward W k (assigns k ps rest) [] ob [] An Ad) as (_ & _ & _ & Hother); auto.
    { cbn. intros y. split; [intros []|congruence]. }
    { apply (assigns_ordered k args kws); auto. }
    { apply together_nil. }
    { intros y x Hx. discriminate Hx. }
    assert (Hagree : forall y, y <> "default" -> dget ob y = dget oo y).
    { intros y Hd. destruct (in_dec string_dec y (map fst (assigns k ps rest))) as [Hi|Hi]; [auto|]. rewrite Hother by exact Hi. cbn.
      destruct (dget oo y) as [x|] eqn:E; [|reflexivity]. exfalso. apply (ds_only _ _ _ _ _ Hdes) in E as (v & Hv & Hp). apply Hi.
      apply dget_none in Hi. rewrite Hget in Hi by auto. rewrite Hv in Hi. destruct v; try discriminate. destruct (String.eqb_spec y "prop") as [->|N]; [exfalso; now apply Hp; auto|].
      rewrite andb_false_r in Hi. discriminate. }
    assert (Hbd : dget ob "default" = None) by (rewrite Hother by exact Ad; reflexivity).
    rewrite (call_default k args kws ps rest Hb).
    assert (Hcases : (last_step W k (supplied k args kws "default") ob = Ok ob /\ (supplied k args kws "default" = None \/ supplied k args kws "default" = Some VNone)) \/
                     exists v, supplied k args kws "default" = Some v /\ v <> VNone /\ last_step W k (supplied k args kws "default") ob = set_attr W k ob "default" v).
    { destruct (supplied k args kws "default") as [[]|]; try (right; eexists; split; [reflexivity|split; [discriminate|reflexivity]]); left; cbn; auto. }
    destruct Hcases as [(-> & Hdv)|(v & Hv & Hvn & ->)].
    - exists ob. split; [reflexivity|]. intros key. destruct (string_dec key "default") as [->|N]; [|auto]. rewrite Hbd. destruct (dget oo "default") as [x|] eqn:E; [|reflexivity].
      exfalso. apply (ds_only _ _ _ _ _ Hdes) in E as (v & Hv & Hp). destruct Hdv as [Hdv|Hdv]; [congruence|]. apply Hp; auto. congruence.
    - assert (Hin : In ("default", v) kws) by (apply (supplied_kws k args kws); try discriminate; auto; apply default_free).
      assert (Ha : attr_of k "default" = Some (Setter TDefault)).
      { destruct (Hallow _ _ Hin) as [Hi|[Hi|[_ Hi]]]; [apply default_options; auto|apply default_options; auto|contradiction]. }
      unfold set_attr. rewrite Ha.
      assert (Hst : stores W k ob TDefault v = Ok v).
      { apply stores_default. specialize (Hdok v Hv Hvn). unfold good_default in *.
        assert (Hval : forall y, validates W k ob y = validates W k (ddel oo "default") y).
        { apply Hord. intros key. destruct (string_dec key "default") as [->|N]; [now rewrite Hbd, dget_ddel_same|]. rewrite dget_ddel_other by congruence. auto. }
        destruct Hdok as [H|[(y & x & Hy & V) Hp]]; [left; exact H|right]. split; [exists y, x; now rewrite Hval|].
        intros E. rewrite Hagree by discriminate. specialize (Hp E). rewrite dget_ddel_other in Hp by discriminate. exact Hp. }
      rewrite Hst. cbn [rbind]. eexists. split; [reflexivity|]. intros key. rewrite dget_dset. destruct (String.eqb_spec key "default") as [->|N]; [|auto].
      symmetry. now apply (ds_default _ _ _ _ _ Hdes).
  Qed.
End Declared.

(** ** The order of keywords *)
Lemma dget_perm (d d' : dict val) key : NoDup (map fst d) -> Permutation d d' -> dget d key = dget d' key.
Proof.
  intros Hn Hp. assert (Hn' : NoDup (map fst d')) by (eapply Permutation_NoDup; [apply Permutation_map; exact Hp|exact Hn]).
  destruct (dget d key) as [v|] eqn:E.
  - apply dget_in in E. symmetry. apply dget_nodup_in; [exact Hn'|]. eapply Permutation_in; eauto.
  - destruct (dget d' key) as [v|] eqn:E'; [|reflexivity]. apply dget_in in E'. apply Permutation_sym in Hp. apply (Permutation_in _ Hp) in E'. apply (dget_nodup_in d key v Hn) in E'. congruence.
Qed.
Lemma supplied_ext k args kws kws' : (forall key, dget kws key = dget kws' key) -> forall key, supplied k args kws key = supplied k args kws' key.
Proof.
  intros H key. assert (D : forall y, direct k args kws y = direct k args kws' y) by (intros y; unfold direct; now rewrite H).
  unfold supplied. rewrite D. destruct (direct k args kws' key); [reflexivity|]. destruct k; try reflexivity. destruct (String.eqb key "doc"); [|reflexivity]. now rewrite D.
Qed.
Lemma describes_ext W k args kws kws' o : (forall key, dget kws key = dget kws' key) -> describes W k args kws o -> describes W k args kws' o.
Proof.
  intros H [H1 H2 H3]. pose proof (supplied_ext k args kws kws' H) as S. split.
  - intros key v. rewrite <- S. apply H1.
  - intros key x Hx. destruct (H2 key x Hx) as (v & Hv & Hp). exists v. now rewrite <- S.
  - intros v. rewrite <- S. apply H3.
Qed.
Lemma keys_in_perm (d d' : dict val) key : Permutation d d' -> In key (map fst d') -> In key (map fst d).
Proof. intros H. apply Permutation_in. apply Permutation_map. now apply Permutation_sym. Qed.
Lemma fits_perm k args kws kws' : NoDup (map fst kws) -> Permutation kws kws' -> fits_params k args kws -> fits_params k args kws'.
Proof.
  intros Hn Hp [H1 H2 [H3 H3'] H4]. split.
  - exact H1.
  - intros i key Hi Hl C. apply (H2 i key Hi Hl). eapply keys_in_perm; eauto.
  - split; intros C; [apply H3|apply H3']; eapply keys_in_perm; eauto.
  - intros key Hk. specialize (H4 key Hk). unfold direct in *. now rewrite <- (dget_perm kws kws' key Hn Hp).
Qed.
Lemma any_order W k args kws kws' o : NoDup (map fst kws) -> Permutation kws kws' -> orderless W -> ~ In "file_modes" (map fst kws) ->
  (forall key, In key ["min"; "max"] -> ~ In (key, VNone) kws) -> declare W k args kws = Ok o ->
  exists o', declare W k args kws' = Ok o' /\ forall key, dget o' key = dget o key.
Proof.
  intros Hn Hp Ho Hf Hm H. destruct (declared W k args kws o Hn H) as (F & A & D & T & G).
  assert (Hd : forall key, dget kws key = dget kws' key) by (intros key; now apply dget_perm).
  apply accepted; auto.
  - eapply Permutation_NoDup; [apply Permutation_map; exact Hp|exact Hn].
  - intros C. apply Hf. eapply keys_in_perm; eauto.
  - intros key Hk C. apply (Hm key Hk). apply Permutation_sym in Hp. eapply Permutation_in; eauto.
  - now apply (fits_perm k args kws).
  - intros key v Hin. apply A. apply Permutation_sym in Hp. eapply Permutation_in; eauto.
  - now apply (describes_ext W k args kws).
  - intros v Hv. apply G. now rewrite (supplied_ext k args kws kws' Hd).
Qed.

(** ** Calls that are rejected *)
Lemma misfit W k args kws : ~ fits_params k args kws -> declare W k args kws = Exc ExType.
Proof.
  intros H. rewrite declare_assigns. destruct (dhas kws "self") eqn:E1; [reflexivity|]. destruct (dhas kws "cls") eqn:E2; [reflexivity|]. cbn [orb].
  destruct (bind_params (params k) args kws) as [[ps rest]|e] eqn:Hb; [|now rewrite (bind_exc _ _ _ _ Hb)]. exfalso. apply H. apply fits_iff.
  split; [exact (call_fits k args kws ps rest Hb)|]. split; intros C; apply dhas_in in C; congruence.
Qed.

Lemma dget_insert (l1 l2 : dict val) key v n : n <> key -> dget (l1 ++ (key, v) :: l2) n = dget (l1 ++ l2) n.
Proof. intros N. rewrite !dget_app. cbn [dget]. destruct (String.eqb_spec n key); [contradiction|reflexivity]. Qed.
Lemma ddel_insert (l1 l2 : dict val) key v n : n <> key -> ddel (l1 ++ (key, v) :: l2) n = ddel l1 n ++ (key, v) :: ddel l2 n.
Proof. intros N. unfold ddel. rewrite filter_app. cbn [filter fst]. destruct (String.eqb_spec n key); [contradiction|reflexivity]. Qed.
Lemma ddel_app (l1 l2 : dict val) n : ddel (l1 ++ l2) n = ddel l1 n ++ ddel l2 n.
Proof. apply filter_app. Qed.
Lemma bind_insert ps : forall args l1 l2 q rest key v, ~ In key (map fst ps) -> bind_params ps args (l1 ++ l2) = Ok (q, rest) ->
  exists r1 r2, rest = r1 ++ r2 /\ bind_params ps args (l1 ++ (key, v) :: l2) = Ok (q, r1 ++ (key, v) :: r2).
Proof.
  induction ps as [|[n d] ps IH]; intros args l1 l2 q rest key v Hk H.
  - destruct args; [|discriminate]. injection H as <- <-. exists l1, l2. auto.
  - assert (N : n <> key) by (intros ->; apply Hk; left; reflexivity). assert (Hk' : ~ In key (map fst ps)) by (intros C; apply Hk; right; exact C).
    destruct args as [|a args]; cbn [bind_params] in *.
    + rewrite dget_insert by exact N. destruct (match dget (l1 ++ l2) n with Some w => Some w | None => d end) as [w|]; [|discriminate].
      destruct (bind_params ps [] (ddel (l1 ++ l2) n)) as [[q1 r]|] eqn:E; [|discriminate]. injection H as <- <-. rewrite ddel_app in E.
      destruct (IH _ _ _ _ _ key v Hk' E) as (r1 & r2 & -> & E'). exists r1, r2. split; [reflexivity|]. rewrite ddel_insert by exact N. now rewrite E'.
    + unfold dhas in *. rewrite dget_insert by exact N. destruct (dget (l1 ++ l2) n); [discriminate|].
      destruct (bind_params ps args (l1 ++ l2)) as [[q1 r]|] eqn:E; [|discriminate]. injection H as <- <-.
      destruct (IH _ _ _ _ _ key v Hk' E) as (r1 & r2 & -> & E'). exists r1, r2. split; [reflexivity|]. now rewrite E'.
Qed.
Lemma dset_insert (d1 d2 : dict val) key v n x : n <> key ->
  exists e1 e2, dset (d1 ++ d2) n x = e1 ++ e2 /\ dset (d1 ++ (key, v) :: d2) n x = e1 ++ (key, v) :: e2.
Proof.
  intros N. induction d1 as [|[a b] d1 IH]; cbn [app dset].
  - destruct (String.eqb_spec n key); [contradiction|]. exists [], (dset d2 n x). auto.
  - destruct (String.eqb n a); [exists ((a, x) :: d1), d2; auto|]. destruct IH as (e1 & e2 & E1 & E2). exists ((a, b) :: e1), e2. cbn [app]. now rewrite E1, E2.
Qed.
Lemma assigns_insert k ps r1 r2 key v : key <> "default" -> key <> "doc" -> key <> "valid_modes" ->
  exists a1 a2, assigns k ps (r1 ++ r2) = a1 ++ a2 /\ assigns k ps (r1 ++ (key, v) :: r2) = a1 ++ (key, v) :: a2.
Proof.
  intros N1 N2 N3.
  assert (G : forall pre, exists a1 a2, pre ++ ddel (r1 ++ r2) "default" = a1 ++ a2 /\ pre ++ ddel (r1 ++ (key, v) :: r2) "default" = a1 ++ (key, v) :: a2).
  { intros pre. exists (pre ++ ddel r1 "default"), (ddel r2 "default"). rewrite ddel_app, ddel_insert by congruence. now rewrite <- !app_assoc. }
  destruct k; cbn [assigns]; try exact (G [_]); try exact (G [_; _]); try exact (G [_; _; _]).
  - rewrite dget_insert by congruence. set (x := match dget (r1 ++ r2) "valid_modes" with Some _ => _ | None => _ end).
    destruct (dset_insert r1 r2 key v "valid_modes" x) as (e1 & e2 & E1 & E2); [congruence|]. rewrite E1, E2.
    exists (("mode", get ps "mode") :: ("doc", get ps "doc") :: ddel e1 "default"), (ddel e2 "default"). rewrite ddel_app, ddel_insert by congruence. auto.
  - rewrite dget_insert by congruence. set (x := match dget (r1 ++ r2) "doc" with Some _ => _ | None => _ end).
    exists (("new_name", get ps "new_name") :: ("doc", x) :: ddel (ddel r1 "doc") "default"), (ddel (ddel r2 "doc") "default").
    rewrite !ddel_insert by congruence; rewrite !ddel_app. auto.
  - destruct (is_none _); [exact (G [_])|exact (G [_; _])].
  - destruct (is_none _); [exact (G [_])|exact (G [_; _])].
  - destruct (is_none _); [exact (G [_])|exact (G [_; _])].
Qed.
Lemma keywords_app W k a b : forall o, keywords W k (a ++ b) o = rbind (keywords W k a o) (keywords W k b).
Proof. induction a as [|kv a IH]; intros o; [reflexivity|]. cbn [app keywords]. rewrite rbind_assoc. now apply rbind_ext. Qed.
Lemma unknown_one W k o key v : ~ In key (options k) -> ~ In key (methods k) -> key <> "" -> one_keyword W k o (key, v) = Exc ExAttr.
Proof.
  intros H1 H2 H3. cbn [one_keyword]. destruct (String.eqb key "terms"); [reflexivity|]. destruct key as [|c r]; [contradiction|]. destruct (Ascii.eqb c "_"); [reflexivity|].
  unfold set_attr. destruct (attr_none k _ H1 H2) as [E|E]; rewrite E; reflexivity.
Qed.
Lemma bad_keyword W k args l1 l2 o key v : declare W k args (l1 ++ l2) = Ok o -> ~ In key (options k) -> ~ In key (methods k) ->
  ~ In key [""; "self"; "cls"; "default"] -> declare W k args (l1 ++ (key, v) :: l2) = Exc ExAttr.
Proof.
  intros H H1 H2 H3. cbn in H3. rewrite declare_assigns in *. unfold dhas in *. rewrite !dget_insert by (intros E; apply H3; auto).
  destruct (_ || _); [discriminate|]. destruct (bind_params (params k) args (l1 ++ l2)) as [[ps rest]|] eqn:Hb; [|discriminate]. cbn [rbind fst snd] in H.
  assert (Hp : ~ In key (map fst (params k))) by (intros C; apply params_options in C; contradiction).
  assert (Hdoc : In "doc" (options k)) by (apply str_mem_In; destruct k; reflexivity).
  destruct (bind_insert _ _ _ _ _ _ key v Hp Hb) as (r1 & r2 & -> & ->). cbn [rbind fst snd].
  assert (Hv : key = "valid_modes" -> k <> P_PNG) by (intros -> ->; apply H1, str_mem_In; reflexivity).
  assert (exists a1 a2, assigns k ps (r1 ++ r2) = a1 ++ a2 /\ assigns k ps (r1 ++ (key, v) :: r2) = a1 ++ (key, v) :: a2) as (a1 & a2 & E1 & E2).
  { destruct (string_dec key "valid_modes") as [->|N]; [|apply assigns_insert; auto; intros ->; [apply H3; auto|contradiction]].
    specialize (Hv eq_refl).
    assert (G : forall pre, exists a1 a2, pre ++ ddel (r1 ++ r2) "default" = a1 ++ a2 /\ pre ++ ddel (r1 ++ ("valid_modes", v) :: r2) "default" = a1 ++ ("valid_modes", v) :: a2).
    { intros pre. exists (pre ++ ddel r1 "default"), (ddel r2 "default"). rewrite ddel_app, ddel_insert by congruence. now rewrite <- !app_assoc. }
    destruct k; cbn [assigns]; try exact (G [_]); try exact (G [_; _]); try exact (G [_; _; _]); try contradiction.
    - rewrite dget_insert by congruence. set (x := match dget (r1 ++ r2) "doc" with Some _ => _ | None => _ end).
      exists (("new_name", get ps "new_name") :: ("doc", x) :: ddel (ddel r1 "doc") "default"), (ddel (ddel r2 "doc") "default").
      rewrite !ddel_insert by congruence; rewrite !ddel_app. auto.
    - destruct (is_none _); [exact (G [_])|exact (G [_; _])].
    - destruct (is_none _); [exact (G [_])|exact (G [_; _])].
    - destruct (is_none _); [exact (G [_])|exact (G [_; _])]. }
  rewrite E1 in H. rewrite E2. rewrite keywords_app in *. destruct (keywords W k a1 []) as [o1|]; [|discriminate]. cbn [rbind keywords].
  rewrite unknown_one; auto.
Qed.
Lemma uuid_default W args l1 l2 o v : declare W P_Uuid args (l1 ++ l2) = Ok o -> dget (l1 ++ l2) "default" = None -> v <> VNone ->
  declare W P_Uuid args (l1 ++ ("default", v) :: l2) = Exc ExAttr.
Proof.
  intros H Hd Hv. rewrite declare_assigns in *. unfold dhas in *. rewrite !dget_insert by discriminate.
  destruct (_ || _); [discriminate|]. destruct (bind_params (params P_Uuid) args (l1 ++ l2)) as [[ps rest]|] eqn:Hb; [|discriminate]. cbn [rbind fst snd] in H.
  destruct (bind_insert _ _ _ _ _ _ "default" v (default_free P_Uuid) Hb) as (r1 & r2 & -> & ->). cbn [rbind fst snd].
  assert (dget (r1 ++ r2) "default" = None) as Hr.
  { destruct (bind_spec _ _ _ _ _ (params_nodup P_Uuid) Hb) as (_ & _ & R & _). rewrite R by apply default_free. exact Hd. }
  cbn [assigns] in *.
  assert (ddel (r1 ++ ("default", v) :: r2) "default" = ddel (r1 ++ r2) "default") as -> by (unfold ddel; rewrite !filter_app; reflexivity).
  destruct (keywords W P_Uuid _ []) as [o1|]; [|discriminate]. cbn [rbind]. rewrite dget_app in *. destruct (dget r1 "default"); [discriminate|]. cbn [dget String.eqb].
  cbn. destruct v; try reflexivity. contradiction.
Qed.

Lemma declared_asked W k args kws o : NoDup (map fst kws) -> declare W k args kws = Ok o ->
  fits_params k args kws /\ allowed k kws /\ asked_for W k args kws o.
Proof. intros Hn H. destruct (declared W k args kws o Hn H) as (F & A & D & T & G). unfold asked_for. auto. Qed.
Lemma asked_accepted W k args kws oo : NoDup (map fst kws) -> orderless W -> ~ In "file_modes" (map fst kws) ->
  (forall key, In key ["min"; "max"] -> ~ In (key, VNone) kws) ->
  fits_params k args kws -> allowed k kws -> asked_for W k args kws oo ->
  exists o, declare W k args kws = Ok o /\ forall key, dget o key = dget oo key.
Proof. intros Hn Ho Hf Hm F A (D & T & G). now apply accepted. Qed.
Lemma accepted_iff W k args kws : NoDup (map fst kws) -> orderless W -> ~ In "file_modes" (map fst kws) ->
  (forall key, In key ["min"; "max"] -> ~ In (key, VNone) kws) ->
  ((exists o, declare W k args kws = Ok o) <-> fits_params k args kws /\ allowed k kws /\ exists o, asked_for W k args kws o).
Proof.
  intros Hn Ho Hf Hm. split.
  - intros (o & H). destruct (declared_asked W k args kws o Hn H) as (F & A & K). eauto.
  - intros (F & A & o & K). destruct (asked_accepted W k args kws o) as (o' & H & _); eauto.
Qed.
Lemma asked_unique W k args kws o oo : NoDup (map fst kws) -> orderless W -> ~ In "file_modes" (map fst kws) ->
  (forall key, In key ["min"; "max"] -> ~ In (key, VNone) kws) ->
  declare W k args kws = Ok o -> asked_for W k args kws oo -> forall key, dget o key = dget oo key.
Proof.
  intros Hn Ho Hf Hm H K. destruct (declared_asked W k args kws o Hn H) as (F & A & _). destruct (asked_accepted W k args kws oo) as (o' & H' & E); auto.
  rewrite H in H'. injection H' as <-. exact E.
Qed.
