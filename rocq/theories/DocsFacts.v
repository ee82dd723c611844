(** Facts about documentation strings. *)
From Verif Require Import Docs DocsSpec MessagesFacts.
From Coq Require Import Sorted.
Local Open Scope list_scope.
Local Open Scope string_scope.
Local Open Scope nat_scope.

(** ** sorting names *)
Lemma name_leb_refl a : name_leb a a = true.
Proof. induction a as [|c r IH]; cbn [name_leb]; [reflexivity|]. now rewrite N.eqb_refl. Qed.
Lemma name_leb_total a b : name_leb a b = true \/ name_leb b a = true.
Proof.
  revert b. induction a as [|c r IH]; intros [|d s]; cbn [name_leb]; auto.
  rewrite (N.eqb_sym (Ascii.N_of_ascii d)). destruct (N.eqb_spec (Ascii.N_of_ascii c) (Ascii.N_of_ascii d)); [apply IH|].
  rewrite !N.ltb_lt. lia.
Qed.
Lemma ascii_N a b : Ascii.N_of_ascii a = Ascii.N_of_ascii b -> a = b.
Proof. intros H. rewrite <- (Ascii.ascii_N_embedding a), <- (Ascii.ascii_N_embedding b). now rewrite H. Qed.
Lemma name_leb_antisym a b : name_leb a b = true -> name_leb b a = true -> a = b.
Proof.
  revert b. induction a as [|c r IH]; intros [|d s]; cbn [name_leb]; try discriminate; [reflexivity|].
  rewrite (N.eqb_sym (Ascii.N_of_ascii d)). destruct (N.eqb_spec (Ascii.N_of_ascii c) (Ascii.N_of_ascii d)) as [E|E].
  - intros H K. apply ascii_N in E. subst. f_equal. auto.
  - rewrite !N.ltb_lt. lia.
Qed.
Lemma name_leb_trans a b c : name_leb a b = true -> name_leb b c = true -> name_leb a c = true.
Proof.
  revert b c. induction a as [|x r IH]; intros [|y s] [|z t]; cbn [name_leb]; try discriminate; try reflexivity.
  destruct (N.eqb_spec (Ascii.N_of_ascii x) (Ascii.N_of_ascii y)), (N.eqb_spec (Ascii.N_of_ascii y) (Ascii.N_of_ascii z)),
    (N.eqb_spec (Ascii.N_of_ascii x) (Ascii.N_of_ascii z)); rewrite ?N.ltb_lt; try lia. eauto.
Qed.
Definition nle a b := name_leb a b = true.
Lemma insert_perm x l : Permutation (insert x l) (x :: l).
Proof.
  induction l as [|y r IH]; cbn [insert]; [reflexivity|]. destruct (name_leb x y); [reflexivity|].
  rewrite IH. constructor.
Qed.
Lemma sorted_perm l : Permutation (sorted l) l.
Proof. induction l as [|x r IH]; cbn [sorted]; [reflexivity|]. rewrite insert_perm. now constructor. Qed.
Lemma insert_sorted x l : StronglySorted nle l -> StronglySorted nle (insert x l).
Proof.
  induction 1 as [|y r Hr IH Hy]; cbn [insert]; [repeat constructor|]. destruct (name_leb x y) eqn:E.
  - constructor; [now constructor|]. constructor; [exact E|]. eapply Forall_impl; [|exact Hy]. intros z Hz. eapply name_leb_trans; eauto.
  - constructor; [exact IH|]. assert (F : Forall (nle y) (x :: r)).
    { constructor; [|exact Hy]. destruct (name_leb_total y x); [assumption|congruence]. }
    eapply Permutation_Forall; [|exact F]. symmetry. apply insert_perm.
Qed.
Lemma sorted_sorted l : StronglySorted nle (sorted l).
Proof. induction l; cbn [sorted]; [constructor|now apply insert_sorted]. Qed.
Lemma sorted_unique l m : StronglySorted nle l -> StronglySorted nle m -> Permutation l m -> l = m.
Proof.
  intros Hl. revert m. induction Hl as [|x r Hr IH Hx]; intros m Hm P; [now apply Permutation_nil in P|].
  destruct Hm as [|y s Hs Hy]; [symmetry in P; now apply Permutation_nil in P|].
  assert (x = y).
  { apply name_leb_antisym.
    - assert (I : In y (x :: r)) by (eapply Permutation_in; [symmetry; exact P|now left]).
      destruct I as [->|I]; [apply name_leb_refl|]. rewrite Forall_forall in Hx. now apply Hx.
    - assert (I : In x (y :: s)) by (eapply Permutation_in; [exact P|now left]).
      destruct I as [->|I]; [apply name_leb_refl|]. rewrite Forall_forall in Hy. now apply Hy. }
  subst. f_equal. apply IH; [exact Hs|]. now apply Permutation_cons_inv in P.
Qed.
Lemma sorted_iff ns l : sorted ns = sorted l <-> Permutation ns (sorted l).
Proof.
  split.
  - intros <-. symmetry. apply sorted_perm.
  - intros P. apply sorted_unique; try apply sorted_sorted. rewrite sorted_perm. exact P.
Qed.

(** ** orders *)
Lemma names_of_iff l ns : names_of l = Some ns <-> l = map OName ns.
Proof.
  revert ns. induction l as [|x r IH]; intros ns; cbn [names_of fold_right].
  - split; [intros H; injection H as <-; reflexivity|destruct ns; [reflexivity|discriminate]].
  - fold (names_of r). destruct x as [s|z].
    + destruct (names_of r) as [t|] eqn:E.
      * split; [intros H; injection H as <-; cbn [map]; f_equal; now apply IH|].
        destruct ns as [|n ns]; [discriminate|]. cbn [map]. intros H. injection H as -> H. apply IH in H. congruence.
      * split; [discriminate|]. destruct ns as [|n ns]; [discriminate|]. cbn [map]. intros H. injection H as -> H. apply IH in H. congruence.
    + split; [discriminate|]. destruct ns; discriminate.
Qed.
Lemma has_int l : names_of l = None <-> exists z, In (OInt z) l.
Proof.
  induction l as [|x r IH]; cbn [names_of fold_right].
  - split; [discriminate|intros [z []]].
  - fold (names_of r). destruct x as [s|z].
    + destruct (names_of r) as [t|] eqn:E.
      * split; [discriminate|]. intros [z [H|H]]; [discriminate|]. destruct IH as [_ IH]. discriminate IH. eauto.
      * split; [|reflexivity]. intros _. destruct IH as [IH _]. destruct (IH eq_refl) as [z Hz]. exists z. now right.
    + split; [|reflexivity]. intros _. exists z. now left.
Qed.
Lemma same_names_true l names0 : same_names l (sorted names0) = Ok true <-> exists ns, orders (OSeq l) (sorted names0) ns.
Proof.
  unfold same_names, orders. destruct (names_of l) as [ns|] eqn:E.
  - assert (L := E). apply names_of_iff in L. destruct (list_eq_dec _ _ _) as [S|S].
    + split; [|reflexivity]. intros _. exists ns. split; [now rewrite L|]. now apply sorted_iff.
    + split; [discriminate|]. intros (ms & H & P). injection H as H. apply names_of_iff in H. rewrite E in H. injection H as <-.
      apply sorted_iff in P. contradiction.
  - split; [destruct (existsb _ l); discriminate|]. intros (ms & H & P). injection H as H. apply names_of_iff in H. congruence.
Qed.
Lemma same_names_exc l names e : same_names l names = Exc e <-> mixed l /\ e = ExType.
Proof.
  unfold same_names, mixed. destruct (names_of l) as [ns|] eqn:E.
  - split; [discriminate|]. intros [(s & z & _ & H) _]. assert (N : names_of l = None) by (apply has_int; eauto). congruence.
  - apply has_int in E. destruct E as [z Hz]. destruct (existsb _ l) eqn:X.
    + apply existsb_exists in X. destruct X as ([s|z'] & I & X); [|discriminate].
      split; [intros H; injection H as <-; eauto|]. intros [_ ->]. reflexivity.
    + split; [discriminate|]. intros [(s & z' & I & _) _]. exfalso.
      assert (Y : existsb (fun x => match x with OName _ => true | OInt _ => false end) l = true) by (apply existsb_exists; exists (OName s); auto). congruence.
Qed.

Section Inherit.
  Context {A : Type}.
  Variable T : list mcls.
  Variable own : nat -> option A.
  Lemma inherited_cases b : (lacks T own b /\ forall d, inherited T own d b = d) \/ exists x, has_attr T own b x /\ forall d, inherited T own d b = x.
  Proof.
    unfold lacks, has_attr, inherited. generalize (mro_of T b). induction l as [|k r IH]; cbn [fold_right].
    - left. split; [intros k []|reflexivity].
    - destruct (own k) as [x|] eqn:E.
      + right. exists x. split; [|reflexivity]. exists [], k, r. split; [reflexivity|]. split; [exact E|intros j []].
      + destruct IH as [[L H]|(x & (pre & j & post & -> & J & N) & H)].
        * left. split; [|exact H]. intros j [<-|I]; auto.
        * right. exists x. split; [|exact H]. exists (k :: pre), j, post. split; [reflexivity|]. split; [exact J|].
          intros i [<-|I]; auto.
  Qed.
  Lemma has_attr_one b x y : has_attr T own b x -> has_attr T own b y -> x = y.
  Proof.
    intros (p & k & q & E & K & N) (p' & k' & q' & E' & K' & N'). rewrite E in E'. clear E. revert p' E' N'.
    induction p as [|a p IH]; intros [|a' p'] E' N'; cbn in E'; injection E' as <- E'.
    - congruence.
    - rewrite (N' k) in K by now left. discriminate.
    - rewrite (N a) in K' by now left. discriminate.
    - apply (IH (fun j H => N j (or_intror H)) p' E'). intros j H. apply N'. now right.
  Qed.
  Lemma lacks_not b x : lacks T own b -> ~ has_attr T own b x.
  Proof. intros L (p & k & q & E & K & N). rewrite (L k) in K; [discriminate|]. rewrite E. apply in_or_app. right. now left. Qed.
  Lemma inherits_one bases x y : inherits T own bases x -> inherits T own bases y -> x = y.
  Proof.
    intros (p & b & q & E & K & N) (p' & b' & q' & E' & K' & N'). rewrite E in E'. clear E. revert p' E' N'.
    induction p as [|a p IH]; intros [|a' p'] E' N'; cbn in E'; injection E' as <- E'.
    - eapply has_attr_one; eauto.
    - exfalso. eapply lacks_not; [apply N'; now left|exact K].
    - exfalso. eapply lacks_not; [apply N; now left|exact K'].
    - apply (IH (fun j H => N j (or_intror H)) p' E'). intros j H. apply N'. now right.
  Qed.
  Lemma inherits_nil x : ~ inherits T own [] x.
  Proof. intros (p & b & q & E & _). destruct p; discriminate. Qed.
  Lemma inherits_cons b r x : inherits T own (b :: r) x <-> has_attr T own b x \/ (lacks T own b /\ inherits T own r x).
  Proof.
    split.
    - intros (p & k & q & E & K & N). destruct p as [|a p]; cbn in E; injection E as <- ->; [now left|].
      right. split; [apply N; now left|]. exists p, k, q. split; [reflexivity|]. split; [exact K|]. intros j H. apply N. now right.
    - intros [H|(L & p & k & q & -> & K & N)].
      + exists [], b, r. split; [reflexivity|]. split; [exact H|intros j []].
      + exists (b :: p), k, q. split; [reflexivity|]. split; [exact K|]. intros j [<-|H]; auto.
  Qed.
End Inherit.

Lemma private_cases T c_private bases : exists v,
  fold_left (fun p b => inherited T c_private p b) (rev bases) (VBool false) = v /\
  (inherits T c_private bases v \/ ((forall x, ~ inherits T c_private bases x) /\ v = VBool false)).
Proof.
  induction bases as [|b r (v & F & H)].
  - exists (VBool false). split; [reflexivity|]. right. split; [|reflexivity]. intros x. apply inherits_nil.
  - cbn [rev]. rewrite fold_left_app, F. cbn [fold_left]. destruct (inherited_cases T c_private b) as [[L E]|(x & Hx & E)].
    + exists v. split; [apply E|]. destruct H as [H|[H ->]].
      * left. apply inherits_cons. auto.
      * right. split; [|reflexivity]. intros y Hy. apply inherits_cons in Hy. destruct Hy as [Hy|[_ Hy]]; [eapply lacks_not; eauto|eapply H; eauto].
    + exists x. split; [apply E|]. left. apply inherits_cons. now left.
Qed.
Lemma private_iff T c_private bases own b : find_private T c_private bases own = Ok b <-> private_is T c_private bases own b.
Proof.
  unfold find_private, private_is. destruct own as [v|].
  - destruct v; split; congruence.
  - destruct (private_cases T c_private bases) as (v & -> & H). destruct H as [H|[H ->]].
    + split.
      * destruct v; try discriminate. intros X. injection X as ->. now left.
      * intros [K|[N _]]; [|now destruct (N v)]. rewrite (inherits_one _ _ _ _ _ H K). reflexivity.
    + split.
      * intros X. injection X as <-. now right.
      * intros [K|[_ ->]]; [now destruct (H (VBool b))|reflexivity].
Qed.
Lemma private_error T c_private bases own e : find_private T c_private bases own = Exc e -> e = ExAttr.
Proof. unfold find_private. destruct (match own with Some x => x | None => _ end); congruence. Qed.

Lemma base_order_app T c_order names l m cur :
  base_order T c_order names (l ++ m)%list cur = rbind (base_order T c_order names l cur) (base_order T c_order names m).
Proof.
  revert cur. induction l as [|b r IH]; intros cur; cbn [app base_order rbind]; [reflexivity|].
  destruct (inherited T c_order cur b) as [|l'|]; auto. destruct (same_names l' names) as [ok|e]; cbn [rbind]; auto.
Qed.
Lemma base_order_cases T c_order names0 bases : let names := sorted names0 in named c_order ->
  exists o, base_order T c_order names (rev bases) ONone = Ok o /\
  ((exists ns, inherits T c_order bases o /\ orders o names ns) \/ ((forall x ns, inherits T c_order bases x -> ~ orders x names ns) /\ o = ONone)).
Proof.
  intros names Hn. induction bases as [|b r (o & F & H)].
  - exists ONone. split; [reflexivity|]. right. split; [|reflexivity]. intros x ns I. now apply inherits_nil in I.
  - cbn [rev]. rewrite base_order_app, F. cbn [rbind base_order]. destruct (inherited_cases T c_order b) as [[L E]|(x & Hx & E)]; rewrite E.
    + assert (N : forall x, inherits T c_order (b :: r) x <-> inherits T c_order r x).
      { intros x. rewrite inherits_cons. split; [intros [K|[_ K]]; [now apply (lacks_not _ _ _ x) in L|exact K]|auto]. }
      destruct H as [(ns & I & O)|[H ->]].
      * assert (O' := O). destruct O' as [-> P]. assert (S : same_names (map OName ns) names = Ok true) by (apply same_names_true; eauto).
        rewrite S. cbn [rbind]. eexists. split; [reflexivity|]. left. exists ns. split; [now apply N|exact O].
      * exists ONone. split; [reflexivity|]. right. split; [|reflexivity]. intros x ns I. apply N in I. eauto.
    + assert (I : inherits T c_order (b :: r) x) by (apply inherits_cons; now left).
      assert (B : ~ (exists ns, orders x names ns) -> forall y ns, inherits T c_order (b :: r) y -> ~ orders y names ns).
      { intros N y ns K O. apply N. exists ns. now rewrite (inherits_one _ _ _ _ _ I K). }
      destruct x as [|l|].
      * exists ONone. split; [reflexivity|]. right. split; [|reflexivity]. apply B. intros (ns & O & _). discriminate.
      * assert (M : ~ mixed l). { destruct Hx as (p & k & q & _ & K & _). eapply Hn; eauto. }
        destruct (same_names l names) as [[]|e] eqn:S; cbn [rbind].
        -- assert (O := S). apply same_names_true in O. destruct O as [ns O]. exists (OSeq l). split; [reflexivity|]. left. eauto.
        -- exists ONone. split; [reflexivity|]. right. split; [|reflexivity]. apply B. intros [ns O].
           assert (K : same_names l names = Ok true) by (apply same_names_true; eauto). congruence.
        -- apply same_names_exc in S. tauto.
      * exists ONone. split; [reflexivity|]. right. split; [|reflexivity]. apply B. intros (ns & O & _). discriminate.
Qed.
Lemma map_OName ns ms : map OName ns = map OName ms -> ns = ms.
Proof. revert ms. induction ns as [|n ns IH]; intros [|m ms] H; try discriminate; [reflexivity|]. injection H as -> H. f_equal. auto. Qed.
Lemma use_order o names0 order : let names := sorted names0 in
  match o with
  | ONone => Ok names
  | OOther => Exc ExAttr
  | OSeq l => rbind (same_names l names) (fun ok => if ok then match names_of l with Some ns => Ok ns | None => Exc ExAttr end else Exc ExAttr)
  end = Ok order <-> (o = ONone /\ order = names) \/ orders o names order.
Proof.
  intros names. destruct o as [|l|].
  - split; [intros H; injection H as <-; auto|]. intros [[_ ->]|[O _]]; [reflexivity|discriminate].
  - destruct (same_names l names) as [[]|e] eqn:S; cbn [rbind].
    + apply same_names_true in S. destruct S as (ns & O & P). injection O as ->.
      assert (N : names_of (map OName ns) = Some ns) by now apply names_of_iff. rewrite N. split.
      * intros H. injection H as <-. right. now split.
      * intros [[H _]|[O _]]; [discriminate|]. injection O as O. apply map_OName in O. now subst.
    + split; [discriminate|]. intros [[H _]|O]; [discriminate|]. assert (K : same_names l names = Ok true) by (apply same_names_true; eauto). congruence.
    + split; [discriminate|]. intros [[H _]|O]; [discriminate|]. assert (K : same_names l names = Ok true) by (apply same_names_true; eauto). congruence.
  - split; [discriminate|]. intros [[H _]|[O _]]; discriminate.
Qed.
Lemma order_iff T c_order names0 bases own order : let names := sorted names0 in named c_order ->
  (find_order T c_order names bases own = Ok order <-> order_is T c_order bases own names order).
Proof.
  intros names Hn. unfold find_order, order_is. destruct (base_order_cases T c_order names0 bases Hn) as (o & F & H). fold names in F, H.
  rewrite F. cbn [rbind]. destruct own as [x|]; [apply use_order|].
  etransitivity; [apply use_order|]. fold names. destruct H as [(ns & I & O)|[H ->]].
  - split.
    + intros [[-> _]|O']; [destruct O as [O _]; discriminate|]. left. eauto.
    + intros [(x & I' & O')|[N _]]; [|now destruct (N o ns)]. rewrite (inherits_one _ _ _ _ _ I I'). now right.
  - split.
    + intros [[_ ->]|[O _]]; [auto|discriminate].
    + intros [(x & I' & O')|[_ ->]]; [now destruct (H x order)|auto].
Qed.
Lemma order_error T c_order names0 bases own e : let names := sorted names0 in named c_order ->
  find_order T c_order names bases own = Exc e -> exists o, own = Some o /\
    ((exists l, o = OSeq l /\ mixed l /\ e = ExType) \/ ((forall l, o = OSeq l -> ~ mixed l) /\ e = ExAttr)).
Proof.
  intros names Hn. unfold find_order. destruct (base_order_cases T c_order names0 bases Hn) as (o & F & H). fold names in F, H.
  rewrite F. cbn [rbind]. destruct own as [x|].
  - intros E. exists x. split; [reflexivity|]. destruct x as [|l|]; [discriminate| |injection E as <-; right; split; [discriminate|reflexivity]].
    destruct (same_names l names) as [[]|e'] eqn:S; cbn [rbind] in E.
    + apply same_names_true in S. destruct S as (ns & O & P). injection O as ->.
      assert (N : names_of (map OName ns) = Some ns) by now apply names_of_iff. rewrite N in E. discriminate.
    + injection E as <-. right. split; [|reflexivity]. intros l' H' M. injection H' as <-.
      assert (K : same_names l names = Exc ExType) by (apply same_names_exc; auto). congruence.
    + injection E as <-. apply same_names_exc in S. left. exists l. tauto.
  - destruct H as [(ns & I & [-> P])|[H ->]]; [|discriminate].
    assert (S : same_names (map OName ns) names = Ok true) by (apply same_names_true; exists ns; now split). rewrite S. cbn [rbind].
    assert (N : names_of (map OName ns) = Some ns) by now apply names_of_iff. rewrite N. discriminate.
Qed.

(** ** groups *)
Lemma filter_subseq f l : subseq (filter f l) l.
Proof. induction l as [|x r IH]; cbn [filter]; [constructor|]. destruct (f x); now constructor. Qed.
Lemma filter_chosen f P l : (forall k, In k l -> (f k = true <-> P k)) -> chosen P (filter f l) l.
Proof.
  intros H. split; [apply filter_subseq|]. split; [apply NoDup_filter|]. intros k. rewrite filter_In. split.
  - intros [I F]. split; [exact I|]. now apply H.
  - intros [I F]. split; [exact I|]. now apply H.
Qed.
Lemma private_true k : private k = true <-> is_private k.
Proof.
  unfold is_private. destruct k as [|c r]; cbn [private]; [split; [discriminate|intros [r H]; discriminate]|].
  rewrite Ascii.eqb_eq. split; [intros ->; eauto|intros [r' H]; congruence].
Qed.
Lemma private_false k : private k = false <-> ~ is_private k.
Proof. rewrite <- private_true. destruct (private k); split; congruence. Qed.
Lemma group_iff line props title keys t : group line props title keys = Ok t <-> lists line props title keys t.
Proof.
  assert (L : forall ks us, lines line props ks = Ok us <->
    exists ts, us = map (fun s => "* " ++ s) ts /\ Forall2 (fun k s => exists d, dget props k = Some d /\ line k d = Ok s) ks ts).
  { induction ks as [|k r IH]; intros us; cbn [lines].
    - split; [intros H; injection H as <-; exists []; split; [reflexivity|constructor]|].
      intros (ts & -> & F). inversion F; subst. reflexivity.
    - destruct (dget props k) as [d|] eqn:D; [destruct (line k d) as [s|e] eqn:Ln|]; cbn [rbind].
      + destruct (lines line props r) as [us'|e] eqn:R; cbn [rbind].
        * destruct (proj1 (IH us') eq_refl) as (ts & -> & F). split.
          -- intros H. injection H as <-. exists (s :: ts). split; [reflexivity|]. constructor; eauto.
          -- intros (ts' & -> & F'). inversion F' as [|? s' ? ts'' (d' & D' & L') F'']; subst. rewrite D in D'. injection D' as <-.
             rewrite Ln in L'. injection L' as <-. assert (K : Ok (map (fun s => "* " ++ s) ts) = Ok (map (fun s => "* " ++ s) ts'')) by (apply IH; eauto).
             cbn [map]. congruence.
        * split; [discriminate|]. intros (ts' & -> & F'). inversion F' as [|? s' ? ts'' _ F'']; subst.
          assert (K : Exc e = Ok (map (fun s => "* " ++ s) ts'')) by (apply IH; eauto). discriminate.
      + split; [discriminate|]. intros (ts' & -> & F'). inversion F' as [|? s' ? ts'' (d' & D' & L') F'']; subst. congruence.
      + split; [discriminate|]. intros (ts' & -> & F'). inversion F' as [|? s' ? ts'' (d' & D' & L') F'']; subst. congruence. }
  unfold group, lists. destruct keys as [|k r].
  - split; [intros H; injection H as <-; auto|]. intros [[_ ->]|[N _]]; [reflexivity|contradiction].
  - destruct (lines line props (k :: r)) as [us|e] eqn:E; cbn [rbind].
    + destruct (proj1 (L _ us) E) as (ts & -> & F). split.
      * intros H. injection H as <-. right. split; [discriminate|]. exists ts. split; [exact F|reflexivity].
      * intros [[N _]|(_ & ts' & F' & ->)]; [discriminate|].
        assert (K : lines line props (k :: r) = Ok (map (fun s => "* " ++ s) ts')) by (apply L; eauto). rewrite E in K. assert (K' : map (fun s => "* " ++ s) ts = map (fun s => "* " ++ s) ts') by congruence. now rewrite K'.
    + split; [discriminate|]. intros [[N _]|(_ & ts' & F' & ->)]; [discriminate|].
      assert (K : lines line props (k :: r) = Ok (map (fun s => "* " ++ s) ts')) by (apply L; eauto). congruence.
Qed.
Lemma documented_in props priv k : In k (documented props priv) <-> In k (dkeys props) /\ (priv = true \/ ~ is_private k).
Proof.
  unfold documented. rewrite (Permutation_in' eq_refl (sorted_perm _)), filter_In. rewrite Bool.orb_true_iff, Bool.negb_true_iff, private_false. tauto.
Qed.
Lemma documented_nodup props priv : NoDup (dkeys props) -> NoDup (documented props priv).
Proof. intros H. unfold documented. eapply Permutation_NoDup; [symmetry; apply sorted_perm|]. now apply NoDup_filter. Qed.
Lemma order_perm T c_order bases own names order : order_is T c_order bases own names order -> Permutation order names.
Proof.
  unfold order_is, orders. destruct own as [o|].
  - intros [[_ ->]|[_ P]]; [reflexivity|exact P].
  - intros [(o & _ & _ & P)|[_ ->]]; [exact P|reflexivity].
Qed.
Lemma text_of line props doc order s : (forall k, In k order -> In k (dkeys props)) ->
  doc_text line props doc order = Ok s ->
  exists req opt oth pri a b c d, s = doc ++ a ++ b ++ c ++ d /\
    chosen (needed props) req order /\ chosen (optional props) opt order /\ chosen (unsettable props) oth order /\ chosen is_private pri order /\
    lists line props "Required" req a /\ lists line props "Optional" opt b /\ lists line props "Other" oth c /\ lists line props "Private" pri d.
Proof.
  intros Hk. unfold doc_text.
  destruct (group line props "Required" _) as [a|] eqn:A; [|discriminate]. destruct (group line props "Optional" _) as [b|] eqn:B; [|discriminate].
  destruct (group line props "Other" _) as [c|] eqn:C; [|discriminate]. destruct (group line props "Private" _) as [d|] eqn:D; [|discriminate].
  cbn [rbind]. intros H. injection H as <-. apply group_iff in A, B, C, D.
  assert (G : forall k, In k order -> exists p, dget props k = Some p).
  { intros k I. destruct (dget props k) eqn:E; [eauto|]. apply dget_none in E. apply Hk in I. contradiction. }
  exists (g_required props order), (g_optional props order), (g_other props order), (g_private order), a, b, c, d.
  split; [reflexivity|].
  split; [|split; [|split; [|split; [|auto]]]]; apply filter_chosen; intros k I.
  - rewrite Bool.andb_true_iff, Bool.negb_true_iff, private_false. unfold needed, required_of. destruct (G k I) as [p E]. rewrite E.
    split; intros [N H]; (split; [exact N|]).
    + exists p. destruct (pd_kind p); try discriminate. auto.
    + destruct H as (p' & E' & K & R). injection E' as <-. now rewrite K.
  - rewrite Bool.andb_true_iff, Bool.negb_true_iff, private_false. unfold optional, required_of. destruct (G k I) as [p E]. rewrite E.
    split; intros [N H]; (split; [exact N|]).
    + exists p. destruct (pd_kind p); try discriminate. rewrite Bool.negb_true_iff in H. auto.
    + destruct H as (p' & E' & K & R). injection E' as <-. now rewrite K, R.
  - rewrite Bool.andb_true_iff, Bool.negb_true_iff, private_false. unfold unsettable, required_of. destruct (G k I) as [p E]. rewrite E.
    split; intros [N H]; (split; [exact N|]).
    + exists p. split; [reflexivity|]. destruct (pd_kind p); discriminate.
    + destruct H as (p' & E' & K). injection E' as <-. destruct (pd_kind p); reflexivity || contradiction.
  - apply private_true.
Qed.
Lemma class_text T c_private c_order line props doc bases op oo s : named c_order -> 
  class_doc T c_private c_order line props doc bases op oo = Ok s ->
  exists priv order, private_is T c_private bases op priv /\ order_is T c_order bases oo (documented props priv) order /\
    doc_text line props doc order = Ok s.
Proof.
  intros Hn. unfold class_doc. destruct (find_private T c_private bases op) as [priv|] eqn:P; [|discriminate]. cbn [rbind].
  destruct (find_order _ _ _ _ _) as [order|] eqn:O; [|discriminate]. cbn [rbind]. intros H. exists priv, order.
  split; [now apply private_iff|]. split; [|exact H]. unfold documented in *. now apply order_iff.
Qed.
Lemma class_lists T c_private c_order line props doc bases op oo s : named c_order -> NoDup (dkeys props) ->
  class_doc T c_private c_order line props doc bases op oo = Ok s ->
  exists priv order req opt oth pri a b c d,
    private_is T c_private bases op priv /\ order_is T c_order bases oo (documented props priv) order /\
    NoDup order /\ (forall k, In k order <-> In k (dkeys props) /\ (priv = true \/ ~ is_private k)) /\
    s = doc ++ a ++ b ++ c ++ d /\
    chosen (needed props) req order /\ chosen (optional props) opt order /\ chosen (unsettable props) oth order /\ chosen is_private pri order /\
    lists line props "Required" req a /\ lists line props "Optional" opt b /\ lists line props "Other" oth c /\ lists line props "Private" pri d.
Proof.
  intros Hn N H. destruct (class_text _ _ _ _ _ _ _ _ _ _ Hn H) as (priv & order & P & O & D).
  assert (Q := order_perm _ _ _ _ _ _ O).
  assert (I : forall k, In k order <-> In k (dkeys props) /\ (priv = true \/ ~ is_private k)).
  { intros k. rewrite (Permutation_in' eq_refl Q). apply documented_in. }
  destruct (text_of line props doc order s) as (req & opt & oth & pri & a & b & c & d & R); [intros k K; now apply I|exact D|].
  exists priv, order, req, opt, oth, pri, a, b, c, d. split; [exact P|]. split; [exact O|].
  split; [eapply Permutation_NoDup; [symmetry; exact Q|]; now apply documented_nodup|]. split; [exact I|exact R].
Qed.
Lemma lists_exists line props title keys : (forall k, In k keys -> exists d t, dget props k = Some d /\ line k d = Ok t) -> exists t, group line props title keys = Ok t.
Proof.
  intros H. destruct keys as [|k r]; [eexists; reflexivity|].
  assert (X : exists us, lines line props (k :: r) = Ok us).
  { revert H. generalize (k :: r). clear. induction l as [|k r IH]; intros H; cbn [lines]; [eauto|].
    destruct (H k (or_introl eq_refl)) as (d & t & D & L). rewrite D, L. cbn [rbind]. destruct IH as [us U]; [intros j J; apply H; now right|].
    rewrite U. cbn [rbind]. eauto. }
  destruct X as [us U]. unfold group. rewrite U. cbn [rbind]. eauto.
Qed.
(** When there is a documentation string *)
Lemma class_ok T c_private c_order line props doc bases op oo : named c_order ->
  ((exists s, class_doc T c_private c_order line props doc bases op oo = Ok s) <->
   exists priv order, private_is T c_private bases op priv /\ order_is T c_order bases oo (documented props priv) order /\
     forall k d, dget props k = Some d -> priv = true \/ ~ is_private k -> exists t, line k d = Ok t).
Proof.
  intros Hn. split.
  - intros [s H]. destruct (class_text _ _ _ _ _ _ _ _ _ _ Hn H) as (priv & order & P & O & D).
    assert (Q := order_perm _ _ _ _ _ _ O). exists priv, order. split; [exact P|]. split; [exact O|]. intros k p G V.
    assert (KP : In k (dkeys props)).
    { destruct (in_dec string_dec k (dkeys props)) as [I|I]; [exact I|]. apply dget_none in I. congruence. }
    assert (K : In k order). { apply (Permutation_in _ (Permutation_sym Q)). apply documented_in. auto. }
    destruct (text_of line props doc order s) as (req & opt & oth & pri & a & b & c & d & _ & A & B & C & E & LA & LB & LC & LE).
    { intros j J. apply (Permutation_in _ Q) in J. now apply documented_in in J. }
    { exact D. }
    assert (W : forall title keys t, lists line props title keys t -> In k keys -> exists t, line k p = Ok t).
    { intros title keys t [[-> _]|(_ & ts & F & _)] I; [destruct I|]. induction F as [|x y l m (q & X & Y) F IH]; [destruct I|].
      destruct I as [->|I]; [|auto]. rewrite G in X. injection X as <-. eauto. }
    destruct (private k) eqn:V'.
    + apply private_true in V'. eapply W; [exact LE|]. apply E. auto.
    + apply private_false in V'. destruct (pd_kind p) eqn:Kd.
      * eapply W; [exact LC|]. apply C. split; [exact K|]. split; [exact V'|]. exists p. split; [exact G|]. congruence.
      * eapply W; [exact LC|]. apply C. split; [exact K|]. split; [exact V'|]. exists p. split; [exact G|]. congruence.
      * destruct (pd_required p) eqn:R.
        -- eapply W; [exact LA|]. apply A. split; [exact K|]. split; [exact V'|]. eauto.
        -- eapply W; [exact LB|]. apply B. split; [exact K|]. split; [exact V'|]. eauto.
      * eapply W; [exact LC|]. apply C. split; [exact K|]. split; [exact V'|]. exists p. split; [exact G|]. congruence.
  - intros (priv & order & P & O & L). unfold class_doc. apply private_iff in P. rewrite P. cbn [rbind].
    assert (Q := order_perm _ _ _ _ _ _ O). unfold documented in *. apply order_iff in O; [|exact Hn]. rewrite O. cbn [rbind].
    fold (documented props priv) in Q.
    assert (F : forall title f, exists t, group line props title (filter f order) = Ok t).
    { intros title f. apply lists_exists. intros k I. apply filter_In in I. destruct I as [I _]. apply (Permutation_in _ Q) in I.
      apply documented_in in I. destruct I as [I V]. destruct (dget props k) as [d|] eqn:G; [|apply dget_none in G; contradiction].
      destruct (L k d G V) as [t Ht]. eauto. }
    unfold doc_text, g_required, g_optional, g_other, g_private.
    edestruct F as [a A]; rewrite A; cbn [rbind]. edestruct F as [b B]; rewrite B; cbn [rbind].
    edestruct F as [c C]; rewrite C; cbn [rbind]. edestruct F as [d D]; rewrite D; cbn [rbind]. eauto.
Qed.

(** ** lines *)
Lemma links_app l m : links (l ++ m)%list = (links l ++ links m)%list.
Proof. unfold links. apply flat_map_app. Qed.
Lemma links_put ci l : links (put_info ci l) = links l.
Proof. induction l as [|[s|c m] r IH]; cbn; [reflexivity|exact IH|]. now f_equal. Qed.
Lemma links_commas ls : links (with_commas ls) = flat_map links ls.
Proof.
  induction ls as [|l r IH]; [reflexivity|]. destruct r as [|l' r'].
  - cbn [with_commas flat_map]. now rewrite app_nil_r.
  - change (with_commas (l :: l' :: r')) with (l ++ PText ", " :: with_commas (l' :: r'))%list. rewrite links_app. cbn [flat_map] in *.
    change (links (PText ", " :: with_commas (l' :: r'))) with (links (with_commas (l' :: r'))). now rewrite IH.
Qed.
Lemma sphinx_links : forall p, links (sphinx_class p) = types_of p.
Proof.
  fix IH 1. intros [c m|ci q|c m|c m|ps|q|]; cbn [sphinx_class types_of]; try reflexivity.
  - rewrite links_put. apply IH.
  - rewrite links_commas. induction ps as [|q r IHr]; [reflexivity|]. cbn [flat_map]. rewrite IH. now rewrite IHr.
  - apply IH.
Qed.
Lemma put_words ci ws c m : (forall w, In w ws -> exists s, w = PText s) ->
  put_info ci (ws ++ [PLink c m])%list = (ws ++ [PText (ci ++ " of "); PLink c m])%list.
Proof.
  intros H. unfold put_info. rewrite flat_map_app. cbn [flat_map]. rewrite app_nil_r. f_equal.
  induction ws as [|w r IH]; [reflexivity|]. cbn [flat_map]. destruct (H w (or_introl eq_refl)) as [s ->]. cbn [app]. f_equal.
  apply IH. intros x X. apply H. now right.
Qed.
Lemma nest_words cis c m : sphinx_class (nest cis (SClass c m)) = (map (fun ci => PText (ci ++ " of ")) (rev cis) ++ [PLink c m])%list.
Proof.
  induction cis as [|ci r IH]; [reflexivity|]. change (sphinx_class (nest (ci :: r) (SClass c m))) with (put_info ci (sphinx_class (nest r (SClass c m)))).
  rewrite IH, put_words. { cbn [rev]. rewrite map_app, <- app_assoc. reflexivity. }
  intros w W. apply in_map_iff in W. destruct W as (x & <- & _). eauto.
Qed.
Lemma default_shown text class_name len v :
  (exists s, default_text text class_name len (DdVal v) = Ok s) /\
  (default_text text class_name len (DdVal v) = Ok "" <-> v = VNone \/ v = VUndef \/ len v = Some 0) /\
  (forall s, default_text text class_name len (DdVal v) = Ok s -> s <> "" -> s = ", Default: " ++ text v).
Proof.
  unfold default_text. cbn [rbind]. split; [eauto|]. split.
  - destruct v; try (split; [auto|reflexivity]).
    all: destruct (len _) as [[|]|]; split; intros H; try reflexivity; try discriminate; auto; decompose [or] H; discriminate.
  - intros s H N. destruct v; try congruence; destruct (len _) as [[|]|]; congruence.
Qed.
Lemma line_ok text class_name len ipython name doc p info d s :
  property_sphinx text class_name len ipython name doc p info d = Ok s ->
  exists t i, default_text text class_name len d = Ok t /\ info = Ok i /\
    s = "**" ++ name ++ "**" ++ (if ipython then "" else if String.eqb (render (sphinx_class p)) "" then "" else " (" ++ render (sphinx_class p) ++ ")") ++ ": " ++ doc ++
        match i with None | Some "" => "" | Some x => ", " ++ x end ++ t.
Proof.
  unfold property_sphinx, sphinx. destruct (default_text text class_name len d) as [t|]; [|discriminate]. cbn [rbind].
  destruct info as [i|]; [|discriminate]. cbn [rbind]. intros H. injection H as <-. exists t, i. split; [reflexivity|]. split; [reflexivity|].
  cbn [String.append]. do 2 f_equal. destruct ipython; [|destruct (String.eqb _ "")];
    destruct i as [[|]|]; cbn [shown]; repeat progress (cbn [String.append]; rewrite ?sapp_assoc); reflexivity.
Qed.
Lemma alphabetical names : Permutation (sorted names) names /\
  forall pre a mid b post, sorted names = (pre ++ a :: mid ++ b :: post)%list -> name_leb a b = true.
Proof.
  split; [apply sorted_perm|]. intros pre a mid b post H. assert (S := sorted_sorted names). rewrite H in S. clear H.
  induction pre as [|x r IH]; cbn [app] in S; inversion S as [|y l Sl F]; subst; [|auto].
  rewrite Forall_forall in F. apply F. apply in_or_app. right. now left.
Qed.
