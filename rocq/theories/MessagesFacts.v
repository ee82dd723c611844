(** Lemmas behind the theorems on texts and messages. *)
From Coq Require Import Lia.
From Verif Require Import Messages MessagesSpec OptionsFacts.
Local Open Scope list_scope.
Local Open Scope string_scope.
Local Open Scope nat_scope.

(** ** Strings *)
Lemma sapp_assoc a b c : (a ++ b) ++ c = a ++ (b ++ c).
Proof. induction a as [|x a IH]; cbn; [reflexivity|]. now rewrite IH. Qed.
Lemma sapp_nil a : a ++ "" = a.
Proof. induction a as [|x a IH]; cbn; [reflexivity|]. now rewrite IH. Qed.
Lemma slen_app a b : String.length (a ++ b) = String.length a + String.length b.
Proof. induction a as [|x a IH]; cbn; [reflexivity|]. now rewrite IH. Qed.
Lemma occ_refl s : occurs s s.
Proof. exists "", "". now rewrite sapp_nil. Qed.
Lemma occ_left s a t : occurs s t -> occurs s (a ++ t).
Proof. intros (x & y & ->). exists (a ++ x), y. now rewrite sapp_assoc. Qed.
Lemma occ_right s t b : occurs s t -> occurs s (t ++ b).
Proof. intros (x & y & ->). exists x, (y ++ b). now rewrite !sapp_assoc. Qed.
Lemma occ_trans s t u : occurs s t -> occurs t u -> occurs s u.
Proof. intros H (x & y & ->). apply occ_left, occ_right, H. Qed.
Lemma occ_join sep s l : In s l -> occurs s (join sep l).
Proof.
  unfold join. induction l as [|x l IH]; [intros []|]. intros [->|H].
  - cbn. destruct l; [apply occ_refl|]. apply occ_right, occ_refl.
  - cbn. destruct l as [|y l]; [destruct H|]. apply occ_left, occ_left. now apply IH.
Qed.
Lemma sub_all r : String.substring 0 (String.length r) r = r.
Proof. induction r as [|x r IH]; cbn; [reflexivity|]. now rewrite IH. Qed.
Lemma sub_split n r : n <= String.length r -> r = String.substring 0 n r ++ String.substring n (String.length r - n) r.
Proof.
  revert r. induction n as [|n IH]; intros r H.
  - cbn [String.substring]. rewrite Nat.sub_0_r.
    assert (E : String.substring 0 0 r = "") by (destruct r; reflexivity). rewrite E. cbn. now rewrite sub_all.
  - destruct r as [|x r]; [cbn in H; lia|]. cbn in *. rewrite <- IH by lia. reflexivity.
Qed.
Lemma sub_len n m r : n + m <= String.length r -> String.length (String.substring n m r) = m.
Proof.
  revert n m. induction r as [|x r IH]; intros n m H; cbn in H.
  - assert (n = 0) as -> by lia. assert (m = 0) as -> by lia. reflexivity.
  - destruct n as [|n]; [destruct m as [|m]; [reflexivity|]; cbn; rewrite IH by lia; reflexivity|]. cbn. apply IH. lia.
Qed.

Lemma shown_some i s : shown i = Some s <-> i = Some s /\ s <> "".
Proof.
  destruct i as [[|c t]|]; cbn; split; try discriminate.
  - intros [H N]. injection H as <-. congruence.
  - intros H. injection H as <-. split; [reflexivity|discriminate].
  - intros [H _]. exact H.
  - intros [H _]. discriminate.
Qed.

(** ** Induction over properties *)
Section Ind.
  Variable P : mprop -> Prop.
  Hypothesis Hp : forall c, P (MPlain c).
  Hypothesis Hr : forall c a b, P (MRange c a b).
  Hypothesis Hs : forall u r, P (MString u r).
  Hypothesis Hc : forall c d, P (MChoice c d).
  Hypothesis Hf : forall c m, P (MFile c m).
  Hypothesis Hu : P MUrl.
  Hypothesis Ht : forall c p a b, P p -> P (MTuple c p a b).
  Hypothesis Hd : forall c k v, P k -> P v -> P (MDict c k v).
  Hypothesis Hi : forall c, P (MInst c).
  Hypothesis Hq : forall c u, P (MPointer c u).
  Hypothesis Hn : forall ps, Forall P ps -> P (MUnion ps).
  Hypothesis Ha : forall c d s, P (MArray c d s).
  Hypothesis Hy : forall p, P p -> P (MDyn p).
  Fixpoint mprop_ind' (p : mprop) : P p :=
    match p with
    | MPlain c => Hp c | MRange c a b => Hr c a b | MString u r => Hs u r | MChoice c d => Hc c d | MFile c m => Hf c m
    | MUrl => Hu | MTuple c p a b => Ht c p a b (mprop_ind' p) | MDict c k v => Hd c k v (mprop_ind' k) (mprop_ind' v)
    | MInst c => Hi c | MPointer c u => Hq c u
    | MUnion ps => Hn ps ((fix go (l : list mprop) : Forall P l := match l with [] => Forall_nil P | q :: r => Forall_cons q (mprop_ind' q) (go r) end) ps)
    | MArray c d s => Ha c d s | MDyn p => Hy p (mprop_ind' p)
    end.
End Ind.
Fixpoint infos (ps : list mprop) : res (list string) :=
  match ps with
  | [] => Ok []
  | q :: r => rbind (info q) (fun i => rbind (infos r) (fun t => Ok ((match shown i with Some s => s | None => "any value" end) :: t)))
  end.
Lemma info_union ps : info (MUnion ps) = rbind (infos ps) (fun l => Ok (Some (join " or " l))).
Proof. reflexivity. Qed.
Lemma infos_ok ps : (exists l, infos ps = Ok l) <-> Forall (fun q => exists i, info q = Ok i) ps.
Proof.
  induction ps as [|q r IH]; cbn [infos].
  - split; [constructor|eauto].
  - split.
    + intros [l H]. destruct (info q) as [i|] eqn:E; [cbn in H|discriminate]. destruct (infos r) as [t|]; [cbn in H|discriminate].
      constructor; [eauto|]. apply IH. eauto.
    + intros H. inversion H as [|? ? [i E] F]; subst. apply IH in F as [t F]. rewrite E, F. cbn. eauto.
Qed.
Lemma infos_in ps l q s : infos ps = Ok l -> In q ps -> info q = Ok (Some s) -> s = "" \/ In s l.
Proof.
  revert l. induction ps as [|p r IH]; intros l H Hin Hq; [destruct Hin|]. cbn [infos] in H.
  destruct (info p) as [i|] eqn:E; [cbn in H|discriminate]. destruct (infos r) as [t|] eqn:F; [cbn in H|discriminate]. injection H as <-.
  destruct Hin as [->|Hin].
  - rewrite E in Hq. injection Hq as ->. destruct s; [auto|]. right. left. reflexivity.
  - destruct (IH t eq_refl Hin Hq); [auto|]. right. now right.
Qed.

(** ** When there is a text *)
Definition described_choices (cs : list string) (d : dict string) : Prop := forall c, In c cs -> exists t, dget d c = Some t.
Lemma choice_ok cs ds : (exists s, choice_info cs ds = Ok s) <-> (forall d, ds = Some d -> described_choices cs d).
Proof.
  unfold choice_info, described_choices. destruct ds as [d|].
  2:{ split; [discriminate|]. cbn. eauto. }
  set (go := fix go (l : list string) : res (list string) := match l with [] => Ok [] | c :: r => match dget d c with None => Exc ExKey | Some t => rbind (go r) (fun ts => Ok (("""" ++ c ++ """ (" ++ t ++ ")") :: ts)) end end).
  assert (A : forall l, (exists ts, go l = Ok ts) <-> (forall c, In c l -> exists t, dget d c = Some t)).
  { induction l as [|c r IH]; [split; [intros _ c []|cbn; eauto]|]. cbn [go]. fold go. destruct (dget d c) as [t|] eqn:E.
    - split.
      + intros [ts H]. destruct (go r) as [us|] eqn:G; [|discriminate]. intros c' [<-|H']; [eauto|]. apply IH; eauto.
      + intros H. assert (H' : exists ts, go r = Ok ts) by (apply IH; intros c' Hc; apply H; now right). destruct H' as [ts ->]. cbn. eauto.
    - split; [intros [ts H]; discriminate|]. intros H. destruct (H c (or_introl eq_refl)). congruence. }
  split.
  - intros [s H] d' Hd. injection Hd as <-. apply A. destruct (go cs); [eauto|discriminate].
  - intros H. destruct (proj2 (A cs) (H d eq_refl)) as [ts E]. rewrite E. cbn. eauto.
Qed.
Lemma info_none p : info p = Ok None <-> p = MUrl.
Proof.
  split; [|intros ->; reflexivity]. destruct p; try discriminate; try reflexivity.
  - cbn. destruct (choice_info choices descriptions); discriminate.
  - cbn. destruct (info p); discriminate.
  - cbn. destruct (info p1); [cbn|discriminate]. destruct (info p2); discriminate.
  - rewrite info_union. destruct (infos ps); discriminate.
  - cbn. destruct (info p) as [[s|]|]; discriminate.
Qed.
Lemma within_trans a b c : within a b -> within b c -> within a c.
Proof. intros H. induction 1; eauto using within. Qed.
Lemma described_sub p q : described p -> within q p -> described q.
Proof. intros H W cs d W' c Hc. eapply H; [|exact Hc]. eapply within_trans; eauto. Qed.
Lemma no_url_sub p q : no_dynamic_url p -> within q p -> no_dynamic_url q.
Proof. intros H W W'. apply H. eapply within_trans; eauto. Qed.
Lemma info_ok p : (exists i, info p = Ok i) <-> described p /\ no_dynamic_url p.
Proof.
  assert (leaf : forall p, (forall q, within q p -> q = p) -> (forall cs d, p <> MChoice cs (Some d)) -> p <> MDyn MUrl -> described p /\ no_dynamic_url p).
  { intros q Hq Hc Hd. split.
    - intros cs d W. apply Hq in W. destruct (Hc cs d); congruence.
    - intros W. apply Hq in W; congruence. }
  induction p using mprop_ind'; try (split; [intros _; apply leaf; [intros q W; now inversion W|discriminate..]|intros _; cbn; eauto]; fail).
  - (* choice *)
    cbn [info]. split.
    + intros [i H]. destruct (choice_info c d) as [s|] eqn:E; [|discriminate]. split.
      * intros cs d' W. inversion W; subst. eapply (proj1 (choice_ok _ _)); eauto.
      * intros W. inversion W.
    + intros [H _]. destruct (proj2 (choice_ok c d)) as [s E]; [|rewrite E; cbn; eauto].
      intros d' ->. intros x Hx. eapply H; [constructor|exact Hx].
  - (* tuple *)
    cbn [info]. split.
    + intros [i H]. destruct (info p) as [j|] eqn:E; [|discriminate]. destruct (proj1 IHp) as [D U]; [eauto|]. split.
      * intros cs d W. inversion W; subst. eauto.
      * intros W. inversion W; subst. auto.
    + intros [D U]. destruct (proj2 IHp) as [j E]; [split; [eapply described_sub|eapply no_url_sub]; eauto using within|]. rewrite E. cbn. eauto.
  - (* dict *)
    cbn [info]. split.
    + intros [i H]. destruct (info p1) as [j|] eqn:E; [cbn in H|discriminate]. destruct (info p2) as [j'|] eqn:E'; [|discriminate].
      destruct (proj1 IHp1) as [D U]; [eauto|]. destruct (proj1 IHp2) as [D' U']; [eauto|]. split.
      * intros cs d W. inversion W; subst; eauto.
      * intros W. inversion W; subst; auto.
    + intros [D U]. destruct (proj2 IHp1) as [j E]; [split; [eapply described_sub|eapply no_url_sub]; eauto using within|].
      destruct (proj2 IHp2) as [j' E']; [split; [eapply described_sub|eapply no_url_sub]; eauto using within|]. rewrite E, E'. cbn. eauto.
  - (* union *)
    rewrite info_union. split.
    + intros [i H0]. destruct (infos ps) as [l|] eqn:E; [|discriminate].
      assert (F : Forall (fun q => exists i, info q = Ok i) ps) by (apply infos_ok; eauto). rewrite Forall_forall in F, H. split.
      * intros cs d W. inversion W as [| | | |p ps' Hin W'|]; subst. destruct (proj1 (H p Hin) (F p Hin)) as [D _]. eauto.
      * intros W. inversion W as [| | | |p ps' Hin W'|]; subst. destruct (proj1 (H p Hin) (F p Hin)) as [_ U]. auto.
    + intros [D U]. destruct (proj2 (infos_ok ps)) as [l E]; [|rewrite E; cbn; eauto].
      rewrite Forall_forall in *. intros q Hq. apply H; [exact Hq|]. split; [eapply described_sub|eapply no_url_sub]; eauto using within.
  - (* dynamic *)
    cbn [info]. split.
    + intros [i H]. destruct (info p) as [j|] eqn:E; [cbn in H|discriminate]. destruct (proj1 IHp) as [D U]; [eauto|]. split.
      * intros cs d W. inversion W; subst. eauto.
      * intros W. inversion W; subst; [|auto]. apply info_none in E as -> || (cbn in E; injection E as <-; discriminate).
    + intros [D U]. destruct (proj2 IHp) as [j E]; [split; [eapply described_sub|eapply no_url_sub]; eauto using within|]. rewrite E. cbn.
      destruct j as [s|]; [eauto|]. apply info_none in E as ->. destruct U. constructor.
Qed.

Lemma choice_error cs ds e : choice_info cs ds = Exc e -> e = ExKey /\ exists d c, ds = Some d /\ In c cs /\ dget d c = None.
Proof.
  unfold choice_info. destruct ds as [d|]; [|discriminate].
  set (go := fix go (l : list string) : res (list string) := match l with [] => Ok [] | c :: r => match dget d c with None => Exc ExKey | Some t => rbind (go r) (fun ts => Ok (("""" ++ c ++ """ (" ++ t ++ ")") :: ts)) end end).
  assert (A : forall l, go l = Exc e -> e = ExKey /\ exists c, In c l /\ dget d c = None).
  { induction l as [|c r IH]; [discriminate|]. cbn [go]. fold go. destruct (dget d c) as [t|] eqn:E.
    - destruct (go r) as [us|e'] eqn:G; [discriminate|]. cbn. intros H. injection H as ->. destruct (IH eq_refl) as (-> & c' & Hc & D).
      split; [reflexivity|]. exists c'. split; [now right|exact D].
    - intros H. injection H as <-. split; [reflexivity|]. exists c. split; [now left|exact E]. }
  destruct (go cs) as [l|e'] eqn:G; [discriminate|]. cbn. intros H. injection H as ->. destruct (A cs G) as (-> & c & Hc & D). split; [reflexivity|]. eauto 6.
Qed.
Lemma info_error p e : info p = Exc e ->
  (e = ExKey /\ exists cs d c, within (MChoice cs (Some d)) p /\ In c cs /\ dget d c = None) \/
  (e = ExType /\ within (MDyn MUrl) p).
Proof.
  assert (up : forall p q, within q p -> (e = ExKey /\ exists cs d c, within (MChoice cs (Some d)) q /\ In c cs /\ dget d c = None) \/ (e = ExType /\ within (MDyn MUrl) q) ->
    (e = ExKey /\ exists cs d c, within (MChoice cs (Some d)) p /\ In c cs /\ dget d c = None) \/ (e = ExType /\ within (MDyn MUrl) p)).
  { intros p' q W [(-> & cs & d & c & W' & H)|[-> W']]; [left|right]; (split; [reflexivity|]); [exists cs, d, c; split; [|exact H]|]; eapply within_trans; eauto. }
  induction p using mprop_ind'; try discriminate.
  - cbn [info]. destruct (choice_info c d) as [s|e'] eqn:E; [discriminate|]. cbn. intros H. injection H as ->.
    destruct (choice_error _ _ _ E) as (-> & d' & c' & -> & Hc & D). left. split; [reflexivity|]. exists c, d', c'. split; [constructor|auto].
  - cbn [info]. destruct (info p) as [s|e'] eqn:E; [discriminate|]. cbn. intros H. injection H as ->. apply (up _ p); eauto using within.
  - cbn [info]. destruct (info p1) as [s|e'] eqn:E; cbn.
    + destruct (info p2) as [s'|e'] eqn:E'; [discriminate|]. cbn. intros H. injection H as ->. apply (up _ p2); eauto using within.
    + intros H. injection H as ->. apply (up _ p1); eauto using within.
  - rewrite info_union. destruct (infos ps) as [l|e'] eqn:E; [discriminate|]. cbn. intros H0. injection H0 as ->.
    assert (X : exists q, In q ps /\ info q = Exc e).
    { clear H up. induction ps as [|q r IH]; [discriminate|]. cbn [infos] in E. destruct (info q) as [i|e'] eqn:Q; cbn in E.
      - destruct (infos r) as [t|e'']; [discriminate|]. cbn in E. injection E as ->. destruct IH as (q' & Hq & Hi); [reflexivity|]. exists q'. split; [now right|exact Hi].
      - injection E as ->. exists q. split; [now left|exact Q]. }
    destruct X as (q & Hq & Hi). rewrite Forall_forall in H. apply (up _ q); eauto using within.
  - cbn [info]. destruct (info p) as [[s|]|e'] eqn:E; cbn; try discriminate.
    + intros H. injection H as <-. apply info_none in E as ->. right. split; [reflexivity|constructor].
    + intros H. injection H as ->. apply (up _ p); eauto using within.
Qed.

(** ** What is mentioned *)
Ltac occ := first [apply occ_refl | apply occ_right; occ | apply occ_left; occ].
Lemma occ_empty t : occurs "" t.
Proof. exists "", t. reflexivity. Qed.
Lemma tuple_mentions ci s mn mx : occurs s (tuple_info ci (Some s) mn mx).
Proof.
  unfold tuple_info. destruct s as [|x s]; [apply occ_empty|]. cbn [shown].
  assert (A : occurs (String x s) (ci ++ (" (each item is " ++ String x s ++ ")"))) by (apply occ_left, occ_left, occ_right, occ_refl).
  destruct mn, mx; first [exact A|apply occ_right; exact A].
Qed.
Lemma dict_mentions ci i j s : i = Some s \/ j = Some s -> occurs s (dict_info ci i j).
Proof.
  unfold dict_info. destruct s as [|x s]; [intros _; apply occ_empty|]. intros [->| ->]; cbn [shown].
  - destruct (shown j); apply occ_left, occ_left, occ_right, occ_refl.
  - destruct (shown i); apply occ_left; [do 3 apply occ_left|apply occ_left]; apply occ_right, occ_refl.
Qed.
Lemma info_mentions p q s t : within q p -> info q = Ok (Some s) -> info p = Ok (Some t) -> occurs s t.
Proof.
  intros W Hq. revert t. induction W as [|ci p mn mx W IH|ci k v W IH|ci k v W IH|p ps Hin W IH|p W IH]; intros t Ht.
  - rewrite Hq in Ht. injection Ht as <-. apply occ_refl.
  - cbn [info] in Ht. destruct (info p) as [[u|]|] eqn:E; cbn in Ht; try discriminate; injection Ht as <-.
    + eapply occ_trans; [apply (IH u eq_refl)|apply tuple_mentions].
    + apply info_none in E as ->. inversion W; subst. discriminate.
  - cbn [info] in Ht. destruct (info k) as [[u|]|] eqn:E; cbn in Ht; try discriminate.
    + destruct (info v) as [j|]; [|discriminate]. injection Ht as <-. eapply occ_trans; [apply (IH u eq_refl)|apply dict_mentions; auto].
    + apply info_none in E as ->. inversion W; subst. discriminate.
  - cbn [info] in Ht. destruct (info k) as [i|]; [cbn in Ht|discriminate]. destruct (info v) as [[u|]|] eqn:E; cbn in Ht; try discriminate; injection Ht as <-.
    + eapply occ_trans; [apply (IH u eq_refl)|apply dict_mentions; auto].
    + apply info_none in E as ->. inversion W; subst. discriminate.
  - rewrite info_union in Ht. destruct (infos ps) as [l|] eqn:E; [|discriminate]. injection Ht as <-.
    assert (F : exists i, info p = Ok i) by (assert (F : exists l, infos ps = Ok l) by eauto; apply infos_ok in F; rewrite Forall_forall in F; auto).
    destruct F as [[u|] F].
    + destruct (infos_in _ _ _ _ E Hin F) as [->|H].
      * pose proof (IH _ F) as O. destruct s as [|x s]; [apply occ_empty|]. destruct O as (a & b & O). destruct a; discriminate.
      * eapply occ_trans; [apply (IH u F)|now apply occ_join].
    + apply info_none in F as ->. inversion W; subst. discriminate.
  - cbn [info] in Ht. destruct (info p) as [[u|]|] eqn:E; cbn in Ht; try discriminate. injection Ht as <-. apply occ_right, IH. reflexivity.
Qed.
Lemma choice_mentions cs ds t c : info (MChoice cs ds) = Ok (Some t) -> In c cs ->
  occurs ("""" ++ c ++ """") t /\ forall d x, ds = Some d -> dget d c = Some x -> occurs ("""" ++ c ++ """ (" ++ x ++ ")") t.
Proof.
  cbn [info]. destruct (choice_info cs ds) as [s|] eqn:E; [|discriminate]. intros H Hc. injection H as ->. unfold choice_info in E.
  assert (J : forall l u, In u l -> occurs u (match l with [a; b] => "either " ++ a ++ " or " ++ b | _ => "any of " ++ join ", " l end)).
  { intros l u Hu. assert (K : occurs u ("any of " ++ join ", " l)) by now apply occ_left, occ_join.
    destruct l as [|a [|b [|x l]]]; try exact K. destruct Hu as [->|[->|[]]]; [apply occ_left, occ_right, occ_refl|apply occ_left, occ_left, occ_left, occ_refl]. }
  destruct ds as [d|].
  - set (go := fix go (l : list string) : res (list string) := match l with [] => Ok [] | c :: r => match dget d c with None => Exc ExKey | Some t => rbind (go r) (fun ts => Ok (("""" ++ c ++ """ (" ++ t ++ ")") :: ts)) end end) in E.
    assert (A : forall l ts, go l = Ok ts -> In c l -> exists x, dget d c = Some x /\ In ("""" ++ c ++ """ (" ++ x ++ ")") ts).
    { induction l as [|c' r IH]; intros ts G Hin; [destruct Hin|]. cbn [go] in G. fold go in G. destruct (dget d c') as [x|] eqn:D; [|discriminate].
      destruct (go r) as [us|] eqn:R; [cbn in G|discriminate]. injection G as <-. destruct Hin as [->|Hin].
      - exists x. split; [exact D|now left].
      - destruct (IH us eq_refl Hin) as (y & Dy & Hy). exists y. split; [exact Dy|now right]. }
    destruct (go cs) as [ts|] eqn:G; [|discriminate]. cbn [rbind] in E. injection E as <-. destruct (A cs ts G Hc) as (x & D & Hx). pose proof (J ts _ Hx) as O. split.
    + eapply occ_trans; [|exact O]. exists "", (" (" ++ x ++ ")"). cbn. f_equal. rewrite sapp_assoc. reflexivity.
    + intros d' y Hd Hy. injection Hd as <-. rewrite D in Hy. injection Hy as <-. exact O.
  - cbn [rbind] in E. injection E as <-. split; [|discriminate]. apply J. apply in_map_iff. exists c. auto.
Qed.
Lemma range_mentions ci mn mx t : info (MRange ci mn mx) = Ok (Some t) ->
  occurs ci t /\ (forall s, mn = Some s \/ mx = Some s -> occurs s t) /\
  (forall a b, mn = Some a -> mx = Some b -> occurs (a ++ ", " ++ b) t).
Proof.
  cbn [info]. intros H. injection H as <-. unfold range_info. split; [|split].
  - destruct mn, mx; first [apply occ_refl|apply occ_right, occ_refl].
  - intros s [->| ->]; [do 2 apply occ_left; apply occ_right, occ_refl|]. destruct mn; do 4 apply occ_left; apply occ_right, occ_refl.
  - intros a b -> ->. do 2 apply occ_left. exists "", "]". cbn. now rewrite !sapp_assoc.
Qed.
Lemma length_mentions ci p mn mx t : info (MTuple ci p mn mx) = Ok (Some t) ->
  occurs ci t /\ (forall z, mn = Some z \/ mx = Some z -> occurs (int_text z) t) /\
  (forall a b, mn = Some a -> mx = Some b -> a <> b -> occurs (int_text a ++ " and " ++ int_text b) t).
Proof.
  cbn [info]. destruct (info p) as [i|]; [|discriminate]. cbn [rbind]. intros H. injection H as <-. unfold tuple_info.
  set (it := ci ++ _). assert (I : occurs ci it) by apply occ_right, occ_refl. clearbody it. split; [|split].
  - destruct mn, mx; first [exact I|apply occ_right; exact I].
  - intros z H. destruct mn as [a|], mx as [b|]; destruct H as [H|H]; try discriminate; injection H as ->; apply occ_left, occ_left.
    + destruct (Z.eqb_spec z b) as [->|_]; [apply occ_left, occ_refl|]. apply occ_left, occ_right, occ_refl.
    + destruct (Z.eqb_spec a z) as [->|_]; [apply occ_left, occ_refl|]. do 3 apply occ_left. apply occ_refl.
    + apply occ_refl.
    + do 3 apply occ_left. apply occ_refl.
  - intros a b -> -> N. do 2 apply occ_left. destruct (Z.eqb_spec a b); [contradiction|]. apply occ_left, occ_refl.
Qed.
Lemma other_mentions :
  (forall u p t, info (MString u (Some (Some p))) = Ok (Some t) -> occurs ("""" ++ p ++ """") t) /\
  (forall ci m t, info (MFile ci m) = Ok (Some t) -> occurs ci t /\ occurs m t) /\
  (forall c t, info (MInst c) = Ok (Some t) -> occurs c t) /\
  (forall c u t, info (MPointer c u) = Ok (Some t) -> occurs c t /\ occurs u t) /\
  (forall ci dt sh t, info (MArray ci dt sh) = Ok (Some t) -> occurs ci t /\ (forall d, In d dt -> occurs d t) /\
     forall l s z, sh = Some l -> In s l -> In (Len z) s -> occurs (int_text z) t).
Proof.
  split; [|split; [|split; [|split]]].
  - intros u p t H. injection H as <-. unfold string_info. apply occ_left. exists " that matches pattern ", "". rewrite sapp_nil. reflexivity.
  - intros ci m t H. injection H as <-. split; [apply occ_right, occ_refl|]. apply occ_left, (occ_left _ ", valid modes include "), occ_refl.
  - intros c t H. injection H as <-. apply (occ_left _ "an instance of "), occ_refl.
  - intros c u t H. injection H as <-.
    change (occurs c ("an instance of " ++ c ++ " or a valid " ++ u ++ " property of that class") /\ occurs u ("an instance of " ++ c ++ " or a valid " ++ u ++ " property of that class")).
    split; apply occ_left; [apply occ_right, occ_refl|do 2 apply occ_left; apply occ_right, occ_refl].
  - intros ci dt sh t H. injection H as <-. unfold array_info. split; [apply occ_right, occ_refl|split].
    + intros d Hd. do 2 apply occ_left. apply occ_right. now apply occ_join.
    + intros l s z -> Hs Hz. do 5 apply occ_left. apply occ_trans with ("(" ++ join ", " (map dim_text s) ++ ")").
      * apply occ_left, occ_right, occ_join. apply in_map_iff. exists (Len z). auto.
      * apply occ_join. apply in_map_iff. exists s. auto.
Qed.

(** ** Messages *)
Lemma print_short r : String.length r <= 107 -> print_value r = r.
Proof. intros H. unfold print_value. destruct (Nat.ltb_spec 107 (String.length r)); [lia|reflexivity]. Qed.
Lemma print_long r : 107 < String.length r ->
  exists a m b, r = a ++ m ++ b /\ String.length a = 50 /\ String.length b = 50 /\ print_value r = a ++ "  ...  " ++ b.
Proof.
  intros H. unfold print_value. destruct (Nat.ltb_spec 107 (String.length r)); [|lia].
  set (n := String.length r) in *.
  exists (String.substring 0 50 r), (String.substring 50 (n - 100) r), (String.substring (n - 50) 50 r).
  split; [|split; [apply sub_len; fold n; lia|split; [apply sub_len; fold n; lia|reflexivity]]].
  assert (E1 : r = String.substring 0 50 r ++ String.substring 50 (n - 50) r) by (apply sub_split; fold n; lia).
  assert (S : forall k m l r, k + m + l <= String.length r -> String.substring k (m + l) r = String.substring k m r ++ String.substring (k + m) l r).
  { clear. intros k m l r. revert k m. induction r as [|x r IH]; intros k m H; cbn in H.
    - assert (k = 0) as -> by lia. assert (m = 0) as -> by lia. assert (l = 0) as -> by lia. reflexivity.
    - destruct k as [|k].
      + destruct m as [|m].
        * cbn [Nat.add]. assert (Z : String.substring 0 0 (String x r) = "") by reflexivity. rewrite Z. reflexivity.
        * cbn. f_equal. apply (IH 0 m). lia.
      + cbn. apply IH. lia. }
  rewrite E1 at 1. f_equal. replace (n - 50) with ((n - 100) + 50) at 1 by lia. rewrite S by (fold n; lia). f_equal. f_equal. lia.
Qed.
Lemma print_length r : String.length (print_value r) <= 107.
Proof.
  destruct (Nat.le_gt_cases (String.length r) 107) as [H|H]; [now rewrite print_short|].
  destruct (print_long r H) as (a & m & b & _ & Ha & Hb & ->). rewrite !slen_app, Ha, Hb. cbn. lia.
Qed.
Lemma message_mentions c i repr vtype extra :
  let m := prop_message c i repr vtype extra in
  occurs (print_value repr ++ " " ++ vtype) m /\ occurs extra m /\ occurs (cl_prop c) m /\ occurs (cl_name c) m /\
  (forall k, cl_inst c = Some k -> occurs k m) /\ (forall s, i = Some s -> occurs s m).
Proof.
  cbv zeta. unfold prop_message. split; [|split; [|split; [|split; [|split]]]].
  - do 8 apply occ_left. exists "", (" was specified." ++ (if String.eqb extra "" then "" else " " ++ extra)). cbn [String.append]. now rewrite !sapp_assoc.
  - destruct (String.eqb_spec extra "") as [->|_]; [apply occ_empty|]. do 13 apply occ_left. apply occ_refl.
  - apply occ_left, occ_right, occ_refl.
  - destruct (String.eqb_spec (cl_name c) "") as [->|_]; [apply occ_empty|]. do 3 apply occ_left. apply occ_right, occ_left, occ_right, occ_refl.
  - intros k ->. do 4 apply occ_left. apply occ_right, occ_left, occ_right, occ_refl.
  - intros s ->. destruct s as [|x s]; [apply occ_empty|]. do 6 apply occ_left. apply occ_right, occ_refl.
Qed.
Lemma message_length c i repr vtype extra :
  String.length (prop_message c i repr vtype extra) <=
  String.length (cl_prop c) + String.length (cl_name c) + String.length (match cl_inst c with Some k => k | None => "" end) +
  String.length (match i with Some s => s | None => "" end) + String.length vtype + String.length extra + 207.
Proof.
  unfold prop_message. rewrite !slen_app. pose proof (print_length repr) as P.
  assert (N : String.length (if String.eqb (cl_name c) "" then "" else " '" ++ cl_name c ++ "'") <= String.length (cl_name c) + 3)
    by (destruct (String.eqb (cl_name c) ""); rewrite ?slen_app; cbn; lia).
  assert (K : String.length (match cl_inst c with Some k => " of a " ++ k ++ " instance" | None => "" end) <= String.length (match cl_inst c with Some k => k | None => "" end) + 15)
    by (destruct (cl_inst c); rewrite ?slen_app; cbn; lia).
  assert (I : String.length (match shown i with Some s => s | None => "corrected" end) <= String.length (match i with Some s => s | None => "" end) + 9)
    by (destruct i as [[|x s]|]; cbn; lia).
  assert (X : String.length (if String.eqb extra "" then "" else " " ++ extra) <= String.length extra + 1)
    by (destruct (String.eqb extra ""); rewrite ?slen_app; cbn; lia).
  cbn in *. lia.
Qed.
Lemma error_outcome p c repr vtype extra isv :
  (forall e, info p = Exc e -> prop_error p c repr vtype extra isv = RInfo e) /\
  (described p -> no_dynamic_url p -> exists i, info p = Ok i /\
     prop_error p c repr vtype extra isv =
       (if isv then RValidation (prop_message c i repr vtype extra) "invalid" (cl_name c) else RClass (prop_message c i repr vtype extra))).
Proof.
  unfold prop_error. split.
  - intros e ->. reflexivity.
  - intros D U. destruct (proj2 (info_ok p) (conj D U)) as [i E]. exists i. rewrite E. auto.
Qed.
Lemma array_mentions c i d extra : (forall r t, d <> DAny r t) ->
  let m := array_message c i d extra in
  occurs extra m /\ (forall s, i = Some s -> occurs s m) /\
  (forall k, cl_inst c = Some k -> occurs k m /\ occurs (cl_name c) m) /\ (cl_inst c = None -> occurs (cl_prop c) m) /\
  (forall typ n, d = DSeq typ n -> occurs typ m /\ occurs (int_text (Z.of_nat n)) m) /\
  (forall sh dt, d = DArr sh dt -> occurs sh m /\ occurs dt m).
Proof.
  intros N. cbv zeta. assert (M : array_message c i d extra =
     ((match cl_inst c with None => cl_prop c ++ " property" | Some k => "The '" ++ cl_name c ++ "' property of a " ++ k ++ " instance" end) ++
      " must be " ++ (match i with Some s => s | None => "None" end) ++ ". " ++
      (match d with DSeq typ len => "A " ++ typ ++ " of length " ++ int_text (Z.of_nat len) | DArr sh dt => "An array of shape " ++ sh ++ " and dtype " ++ dt | DAny _ _ => "" end) ++
      " was specified. " ++ extra)) by (destruct d; [reflexivity..|destruct (N repr vtype); reflexivity]).
  rewrite M. split; [|split; [|split; [|split; [|split]]]].
  - do 6 apply occ_left. apply occ_refl.
  - intros s ->. do 2 apply occ_left. apply occ_right, occ_refl.
  - intros k ->. split; apply occ_right; [do 3 apply occ_left|apply occ_left]; apply occ_right, occ_refl.
  - intros ->. apply occ_right, occ_right, occ_refl.
  - intros typ n ->. split; do 4 apply occ_left; apply occ_right; [apply occ_left, occ_right, occ_refl|do 3 apply occ_left; apply occ_refl].
  - intros sh dt ->. split; do 4 apply occ_left; apply occ_right; [apply occ_left, occ_right, occ_refl|do 3 apply occ_left; apply occ_refl].
Qed.

(** ** Choices set with descriptions *)
Lemma described_set o v o' : NoDup (map fst (c_choices o)) -> (exists kvs, v = VDict kvs /\ NoDup (map fst kvs)) ->
  set_descriptions v o = Ok o' ->
  exists t, info (MChoice (map fst (c_choices o')) (c_descr o')) = Ok (Some t).
Proof.
  intros N K H. destruct (descriptions_cover o v o' N K H) as (ds & D & _ & C & I).
  cbn [info]. destruct (proj2 (choice_ok (map fst (c_choices o')) (c_descr o'))) as [s E]; [|rewrite E; cbn; eauto].
  intros d Hd c Hc. rewrite D in Hd. injection Hd as <-. rewrite C in Hc. apply I in Hc.
  destruct (dget ds c) as [t|] eqn:G; [eauto|]. apply dget_none in G. contradiction.
Qed.
