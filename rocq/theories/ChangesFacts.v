(** Lemmas behind the theorems on the change dictionary. *)
From Verif Require Import Changes ChangesSpec.
Local Open Scope string_scope.
Local Open Scope list_scope.
Local Open Scope nat_scope.

Lemma put_stored b name v : stored b name v (put b name v).
Proof.
  unfold stored, put. destruct v; cbn [is_undef];
    try (split; [apply dget_dset_same|intros k K; apply dget_dset_other; congruence]).
  split; [apply dget_ddel_same|intros k K; apply dget_ddel_other; congruence].
Qed.
Lemma differs_altered equal prev v : altered equal prev v (differs equal prev v).
Proof.
  unfold differs. destruct (is_undef prev) eqn:P, (is_undef v) eqn:Q; cbn [andb orb].
  - apply al_unset; [destruct prev|destruct v]; cbn in *; congruence.
  - apply al_set; [destruct prev; cbn in *; congruence|intros ->; discriminate].
  - apply al_deleted; [intros ->; discriminate|destruct v; cbn in *; congruence].
  - assert (prev <> VUndef) by (intros ->; discriminate). assert (v <> VUndef) by (intros ->; discriminate).
    destruct (equal prev v) as [b|e] eqn:X; cbn [rbind]; [apply al_equal|apply al_raise]; auto.
Qed.
Lemma tells_new name prev v m : tells (new_change name prev v m) name prev m.
Proof. repeat split. Qed.
Lemma tells_update c name prev m : tells (update c name prev m) name prev m.
Proof.
  unfold tells, update. split; [|split].
  - rewrite !dget_dset_other by discriminate. apply dget_dset_same.
  - rewrite dget_dset_other by discriminate. apply dget_dset_same.
  - apply dget_dset_same.
Qed.
Lemma value_update c name prev m : dget (update c name prev m) "value" = dget c "value".
Proof. unfold update. rewrite !dget_dset_other by discriminate. reflexivity. Qed.

Section Facts.
  Variable F : Type.
  Variable quar : list string.
  Variable lst : dict (dict (list F)).
  Hypothesis REG : registered lst.
  Notation L := (listening quar lst).

  Lemma listeners_told c name prev m :
    tells c name prev m -> In m ["validate"; "observe_change"; "observe_set"] ->
    get_listeners F quar lst c = Ok (L name m).
  Proof.
    intros (N & _ & M) I. unfold get_listeners, listening. rewrite M, N.
    destruct (mem_str m quar); auto. destruct (dget lst name) as [d|] eqn:D; auto.
    destruct (REG _ _ D _ I) as (l & ->). reflexivity.
  Qed.
  Lemma notify_fire call c name prev m s :
    tells c name prev m -> In m ["validate"; "observe_change"; "observe_set"] ->
    notify F call quar lst c s = fire F call (L name m) c s.
  Proof. intros T I. unfold notify. now rewrite (listeners_told _ _ _ _ T I). Qed.

  Section One.
  Variable call : F -> chg -> dict val -> res unit * chg * dict val.
  Lemma fire_calls fs : forall c s x c1 s1, fire F call fs c s = (x, c1, s1) ->
    exists calls, s_log s1 = s_log s ++ calls /\ begins (map fst calls) fs /\
      (x = Ok tt -> map fst calls = fs) /\ (calls = [] \/ exists f r, calls = (f, c) :: r).
  Proof.
    induction fs as [|f r IH]; intros c s x c1 s1 H; cbn [fire] in H.
    { injection H as <- <- <-. exists []. rewrite app_nil_r. repeat split; auto. exists []; auto. }
    destruct (call f c (s_back s)) as [[y c2] b2]. destruct y as [[]|e].
    - apply IH in H. destruct H as (calls & A & (q & B) & C & D). cbn [s_log] in A.
      exists ((f, c) :: calls). rewrite A, <- app_assoc. split; [reflexivity|]. split; [exists q; cbn; congruence|].
      split; [intros X; cbn; f_equal; auto|]. right. eauto.
    - injection H as <- <- <-. exists [(f, c)]. split; [reflexivity|]. split; [exists r; reflexivity|].
      split; [discriminate|]. right. eauto.
  Qed.
  Lemma first_of name prev m c (calls : list (F * chg)) : tells c name prev m ->
    (calls = [] \/ exists f r, calls = (f, c) :: r) -> first_told calls name prev m.
  Proof. intros T [-> | (f & r & ->)]; [exact I|exact T]. Qed.
  Lemma fire_passed name prev m fs : forall v s x c1 s1,
    Forall (proper F call) fs -> fire F call fs (new_change name prev v m) s = (x, c1, s1) ->
    exists told out, passed F call name prev m fs v (s_back s) told out (s_back s1) /\
      s_log s1 = s_log s ++ map (fun p => (fst p, new_change name prev (snd p) m)) told /\
      match out with Ok v1 => x = Ok tt /\ c1 = new_change name prev v1 m | Exc e => x = Exc e end.
  Proof.
    induction fs as [|f r IH]; intros v s x c1 s1 P H; cbn [fire] in H.
    { injection H as <- <- <-. exists [], (Ok v). rewrite app_nil_r. split; [constructor|]. auto. }
    pose proof (Forall_inv P) as Pf. apply Forall_inv_tail in P.
    destruct (call f (new_change name prev v m) (s_back s)) as [[y c2] b2] eqn:X.
    destruct (Pf (new_change name prev v m) (s_back s)) as (v' & V); [cbn; discriminate|].
    rewrite X in V. cbn [fst snd] in V. change (dset (new_change name prev v m) "value" v') with (new_change name prev v' m) in V.
    subst c2. destruct y as [[]|e].
    - apply IH in H; auto. destruct H as (told & out & A & B & C). cbn [s_back s_log] in *.
      exists ((f, v) :: told), out. split; [eapply pa_next; [exact X|exact A]|].
      rewrite B, <- app_assoc. split; [reflexivity|exact C].
    - injection H as <- <- <-. exists [(f, v)], (Exc e). split; [eapply pa_raise; exact X|]. split; reflexivity.
  Qed.
  Lemma tagged_seen name prev m told :
    Forall2 (seen_as name prev) (map (fun p : F * val => (fst p, new_change name prev (snd p) m)) told) (tagged F m told).
  Proof. induction told as [|[f v] r IH]; constructor; auto. constructor. Qed.

  Variable equal : val -> val -> res bool.
  Lemma set_refines name v s out s1 :
    (forall m, Forall (proper F call) (L name m)) ->
    has_set F call equal quar lst name v s = (out, s1) ->
    exists calls told, s_log s1 = s_log s ++ calls /\ Forall2 (seen_as name (former (s_back s) name)) calls told /\
      assigned F call equal (L name) name v (s_back s) told out (s_back s1).
  Proof.
    intros P H. unfold has_set in H.
    change (match dget (s_back s) name with Some x => x | None => VUndef end) with (former (s_back s) name) in H.
    set (prev := former (s_back s) name) in *.
    rewrite (notify_fire call _ name prev "validate" s (tells_new _ _ _ _)) in H by (cbn; auto).
    destruct (fire F call (L name "validate") (new_change name prev v "validate") s) as [[x c1] t1] eqn:X.
    destruct (fire_passed _ _ _ _ _ _ _ _ _ (P _) X) as (told & o & A & B & C).
    destruct o as [v1|e].
    2: { subst x. injection H as <- <-. do 2 eexists. split; [exact B|]. split; [apply tagged_seen|]. eapply as_refused. exact A. }
    destruct C as (-> & ->). change (dget (new_change name prev v1 "validate") "value") with (Some v1) in H. cbv iota beta in H.
    pose proof (differs_altered equal prev v1) as D. destruct (differs equal prev v1) as [[|]|e].
    - change (update (new_change name prev v1 "validate") name prev "observe_change") with (new_change name prev v1 "observe_change") in H.
      rewrite (notify_fire call _ name prev "observe_change" _ (tells_new _ _ _ _)) in H by (cbn; auto).
      destruct (fire F call (L name "observe_change") _ _) as [[y c2] t2] eqn:Y.
      destruct (fire_passed _ _ _ _ _ _ _ _ _ (P _) Y) as (told' & o' & A' & B' & C'). cbn [s_log s_back] in *.
      destruct o' as [v2|e].
      2: { subst y. injection H as <- <-. do 2 eexists.
           split; [rewrite B', B, <- app_assoc; reflexivity|]. split; [apply Forall2_app; apply tagged_seen|].
           eapply as_interrupted; eauto. apply put_stored. }
      destruct C' as (-> & ->). unfold set_phase in H.
      change (update (new_change name prev v2 "observe_change") name prev "observe_set") with (new_change name prev v2 "observe_set") in H.
      rewrite (notify_fire call _ name prev "observe_set" _ (tells_new _ _ _ _)) in H by (cbn; auto).
      destruct (fire F call (L name "observe_set") _ _) as [[z c3] t3] eqn:Z.
      destruct (fire_passed _ _ _ _ _ _ _ _ _ (P _) Z) as (told'' & o'' & A'' & B'' & C'').
      injection H as <- <-. do 2 eexists.
      split; [rewrite B'', B', B, <- !app_assoc; reflexivity|].
      split; [apply Forall2_app; [|apply Forall2_app]; apply tagged_seen|].
      replace z with (match o'' with Ok _ => Ok tt | Exc e => Exc e end) by (destruct o''; [destruct C''; congruence|congruence]).
      eapply as_changed; eauto. apply put_stored.
    - unfold set_phase in H.
      change (update (new_change name prev v1 "validate") name prev "observe_set") with (new_change name prev v1 "observe_set") in H.
      rewrite (notify_fire call _ name prev "observe_set" _ (tells_new _ _ _ _)) in H by (cbn; auto).
      destruct (fire F call (L name "observe_set") _ _) as [[z c3] t3] eqn:Z.
      destruct (fire_passed _ _ _ _ _ _ _ _ _ (P _) Z) as (told'' & o'' & A'' & B'' & C''). cbn [s_log s_back] in *.
      injection H as <- <-. do 2 eexists.
      split; [rewrite B'', B, <- !app_assoc; reflexivity|].
      split; [apply Forall2_app; apply tagged_seen|].
      replace z with (match o'' with Ok _ => Ok tt | Exc e => Exc e end) by (destruct o''; [destruct C''; congruence|congruence]).
      eapply as_same; eauto. apply put_stored.
    - injection H as <- <-. do 2 eexists. split; [exact B|]. split; [apply tagged_seen|].
      eapply as_incomparable; eauto. apply put_stored.
  Qed.
  (** Any listeners *)
  Lemma set_calls name v s out s1 :
    has_set F call equal quar lst name v s = (out, s1) ->
    exists cv cc cs, s_log s1 = s_log s ++ cv ++ cc ++ cs /\
      begins (map fst cv) (L name "validate") /\ begins (map fst cc) (L name "observe_change") /\
      begins (map fst cs) (L name "observe_set") /\
      first_told cv name (former (s_back s) name) "validate" /\
      first_told cc name (former (s_back s) name) "observe_change" /\
      first_told cs name (former (s_back s) name) "observe_set" /\
      (cc ++ cs <> [] -> map fst cv = L name "validate") /\
      (out = Ok tt -> map fst cv = L name "validate" /\ (map fst cc = L name "observe_change" \/ cc = []) /\
         map fst cs = L name "observe_set").
  Proof.
    intros H. unfold has_set in H.
    change (match dget (s_back s) name with Some x => x | None => VUndef end) with (former (s_back s) name) in H.
    set (prev := former (s_back s) name) in *.
    rewrite (notify_fire call _ name prev "validate" s (tells_new _ _ _ _)) in H by (cbn; auto).
    destruct (fire F call (L name "validate") (new_change name prev v "validate") s) as [[x c1] t1] eqn:X.
    destruct (fire_calls _ _ _ _ _ _ X) as (cv & A & B & C & D).
    pose proof (first_of _ _ _ _ _ (tells_new name prev v "validate") D) as D1.
    assert (NIL : forall m, begins (map fst (@nil (F * chg))) (L name m)) by (intros m; exists (L name m); reflexivity).
    destruct x as [[]|e].
    2: { injection H as <- <-. exists cv, [], []. cbn [app]. rewrite app_nil_r. repeat split; auto; try congruence. }
    specialize (C eq_refl).
    destruct (dget c1 "value") as [v1|].
    2: { injection H as <- <-. exists cv, [], []. cbn [app]. rewrite app_nil_r. repeat split; auto; try congruence. }
    destruct (differs equal prev v1) as [[|]|e].
    - rewrite (notify_fire call _ name prev "observe_change" _ (tells_update _ _ _ _)) in H by (cbn; auto).
      destruct (fire F call (L name "observe_change") _ _) as [[y c2] t2] eqn:Y.
      destruct (fire_calls _ _ _ _ _ _ Y) as (cc & A' & B' & C' & D'). cbn [s_log] in A'.
      pose proof (first_of _ _ _ _ _ (tells_update c1 name prev "observe_change") D') as D1'.
      destruct y as [[]|e].
      2: { injection H as <- <-. exists cv, cc, []. rewrite A', A, app_nil_r, <- app_assoc. repeat split; auto; try congruence. }
      specialize (C' eq_refl). unfold set_phase in H.
      rewrite (notify_fire call _ name prev "observe_set" _ (tells_update _ _ _ _)) in H by (cbn; auto).
      destruct (fire F call (L name "observe_set") _ _) as [[z c3] t3] eqn:Z.
      destruct (fire_calls _ _ _ _ _ _ Z) as (cs & A'' & B'' & C'' & D'').
      pose proof (first_of _ _ _ _ _ (tells_update c2 name prev "observe_set") D'') as D1''.
      injection H as <- <-. exists cv, cc, cs. rewrite A'', A', A, <- !app_assoc. repeat split; auto; try congruence.
    - unfold set_phase in H.
      rewrite (notify_fire call _ name prev "observe_set" _ (tells_update _ _ _ _)) in H by (cbn; auto).
      destruct (fire F call (L name "observe_set") _ _) as [[z c3] t3] eqn:Z.
      destruct (fire_calls _ _ _ _ _ _ Z) as (cs & A'' & B'' & C'' & D''). cbn [s_log] in A''.
      pose proof (first_of _ _ _ _ _ (tells_update c1 name prev "observe_set") D'') as D1''.
      injection H as <- <-. exists cv, [], cs. rewrite A'', A, <- !app_assoc. repeat split; auto; try congruence.
    - injection H as <- <-. exists cv, [], []. cbn [app]. rewrite app_nil_r. repeat split; auto; try congruence.
  Qed.
  Lemma fire_keeps fs : Forall (stores_nothing F call) fs -> forall c s x c1 s1,
    fire F call fs c s = (x, c1, s1) -> s_back s1 = s_back s.
  Proof.
    induction 1 as [|f r Hf _ IH]; intros c s x c1 s1 H; cbn [fire] in H; [congruence|].
    specialize (Hf c (s_back s)). destruct (call f c (s_back s)) as [[y c2] b2]. cbn [snd] in Hf. subst b2.
    destruct y; [apply IH in H; exact H|injection H as <- <- <-; reflexivity].
  Qed.
  End One.

  (** Two sets of listeners with the same validators *)
  Lemma fire_agree call call' fs : (forall f c b, In f fs -> call f c b = call' f c b) ->
    forall c s, fire F call fs c s = fire F call' fs c s.
  Proof.
    induction fs as [|f r IH]; intros A c s; [reflexivity|]. cbn [fire]. rewrite (A f) by (left; reflexivity).
    destruct (call' f c (s_back s)) as [[[[]|e] c2] b2]; auto. apply IH. intros; apply A; right; auto.
  Qed.
  Lemma set_unmoved call call' equal equal' name v s :
    (forall f c b, In f (L name "validate") -> call f c b = call' f c b) ->
    (forall m f, In m ["observe_change"; "observe_set"] -> In f (L name m) ->
       stores_nothing F call f /\ stores_nothing F call' f) ->
    s_back (snd (has_set F call equal quar lst name v s)) = s_back (snd (has_set F call' equal' quar lst name v s)).
  Proof.
    intros A S. unfold has_set.
    change (match dget (s_back s) name with Some x => x | None => VUndef end) with (former (s_back s) name).
    set (prev := former (s_back s) name).
    rewrite !(fun k => notify_fire k _ name prev "validate" s (tells_new _ _ _ _)) by (cbn; auto).
    rewrite (fire_agree call call') by exact A.
    destruct (fire F call' (L name "validate") (new_change name prev v "validate") s) as [[x c1] t1].
    destruct x as [[]|e]; [|reflexivity]. destruct (dget c1 "value") as [v1|]; [|reflexivity].
    assert (Q : forall k, k = call \/ k = call' -> forall m, In m ["observe_change"; "observe_set"] -> Forall (stores_nothing F k) (L name m)).
    { intros k K m M. apply Forall_forall. intros f I. destruct (S m f M I). destruct K; subst; auto. }
    assert (R : forall k q, k = call \/ k = call' ->
      s_back (snd (match differs q prev v1 with
                   | Exc e => (Exc e, ST (put (s_back t1) name v1) (s_log t1))
                   | Ok false => set_phase F k quar lst name prev c1 (ST (put (s_back t1) name v1) (s_log t1))
                   | Ok true =>
                       let '(y, c2, s3) := notify F k quar lst (update c1 name prev "observe_change") (ST (put (s_back t1) name v1) (s_log t1)) in
                       match y with Exc e => (Exc e, s3) | Ok _ => set_phase F k quar lst name prev c2 s3 end
                   end)) = put (s_back t1) name v1).
    { intros k q K. unfold set_phase. destruct (differs q prev v1) as [[|]|e]; [| |reflexivity].
      - rewrite (notify_fire k _ name prev "observe_change" _ (tells_update _ _ _ _)) by (cbn; auto).
        destruct (fire F k (L name "observe_change") _ _) as [[y c2] t2] eqn:Y.
        apply fire_keeps in Y; [|apply Q; [exact K|cbn; auto]]. cbn [s_back] in Y.
        destruct y as [[]|e]; [|exact Y].
        rewrite (notify_fire k _ name prev "observe_set" _ (tells_update _ _ _ _)) by (cbn; auto).
        destruct (fire F k (L name "observe_set") _ _) as [[z c3] t3] eqn:Z.
        apply fire_keeps in Z; [|apply Q; [exact K|cbn; auto]]. cbn [snd]. congruence.
      - rewrite (notify_fire k _ name prev "observe_set" _ (tells_update _ _ _ _)) by (cbn; auto).
        destruct (fire F k (L name "observe_set") _ _) as [[z c3] t3] eqn:Z.
        apply fire_keeps in Z; [|apply Q; [exact K|cbn; auto]]. exact Z. }
    rewrite !R by auto. reflexivity.
  Qed.
  Lemma fire_edited call fs : Forall (stores_nothing F call) fs -> forall c s c1 s1,
    fire F call fs c s = (Ok tt, c1, s1) -> edited F call (s_back s) fs c c1.
  Proof.
    induction 1 as [|f r Hf _ IH]; intros c s c1 s1 H; cbn [fire] in H.
    { injection H as <- <-. constructor. }
    specialize (Hf c (s_back s)). destruct (call f c (s_back s)) as [[y c2] b2] eqn:X. cbn [snd] in Hf. subst b2.
    destruct y as [[]|e]; [|discriminate]. apply IH in H. cbn [s_back] in H. econstructor; eauto.
  Qed.
  Lemma set_stores call equal name v s out s1 :
    (forall m, Forall (stores_nothing F call) (L name m)) ->
    has_set F call equal quar lst name v s = (out, s1) ->
    (out <> Ok tt /\ s_back s1 = s_back s) \/
    exists c v1, edited F call (s_back s) (L name "validate") (new_change name (former (s_back s) name) v "validate") c /\
      dget c "value" = Some v1 /\ stored (s_back s) name v1 (s_back s1).
  Proof.
    intros P H. unfold has_set in H.
    change (match dget (s_back s) name with Some x => x | None => VUndef end) with (former (s_back s) name) in H.
    set (prev := former (s_back s) name) in *.
    rewrite (notify_fire call _ name prev "validate" s (tells_new _ _ _ _)) in H by (cbn; auto).
    destruct (fire F call (L name "validate") (new_change name prev v "validate") s) as [[x c1] t1] eqn:X.
    pose proof (fire_keeps _ _ (P _) _ _ _ _ _ X) as K.
    destruct x as [[]|e]; [|injection H as <- <-; left; split; [discriminate|exact K]].
    pose proof (fire_edited _ _ (P _) _ _ _ _ X) as E.
    destruct (dget c1 "value") as [v1|] eqn:V; [|injection H as <- <-; left; split; [discriminate|exact K]].
    right. exists c1, v1. split; [exact E|]. split; [exact V|].
    assert (Q : s_back s1 = put (s_back t1) name v1); [|rewrite Q, K; apply put_stored].
    unfold set_phase in H. destruct (differs equal prev v1) as [[|]|e]; [| |injection H as <- <-; reflexivity].
    - rewrite (notify_fire call _ name prev "observe_change" _ (tells_update _ _ _ _)) in H by (cbn; auto).
      destruct (fire F call (L name "observe_change") _ _) as [[y c2] t2] eqn:Y.
      apply fire_keeps in Y; [|apply P]. cbn [s_back] in Y.
      destruct y as [[]|e]; [|injection H as <- <-; exact Y].
      rewrite (notify_fire call _ name prev "observe_set" _ (tells_update _ _ _ _)) in H by (cbn; auto).
      destruct (fire F call (L name "observe_set") _ _) as [[z c3] t3] eqn:Z.
      apply fire_keeps in Z; [|apply P]. injection H as <- <-. congruence.
    - rewrite (notify_fire call _ name prev "observe_set" _ (tells_update _ _ _ _)) in H by (cbn; auto).
      destruct (fire F call (L name "observe_set") _ _) as [[z c3] t3] eqn:Z.
      apply fire_keeps in Z; [|apply P]. injection H as <- <-. exact Z.
  Qed.
  (** Removing the value *)
  Lemma set_removed call equal name v s f rest :
    L name "validate" = rest ++ [f] -> Forall (stores_nothing F call) (rest ++ [f]) ->
    (forall g c b, In g rest -> fst (fst (call g c b)) = Ok tt) ->
    (forall c b, fst (fst (call f c b)) = Ok tt /\ dget (snd (fst (call f c b))) "value" = None) ->
    fst (has_set F call equal quar lst name v s) = Exc ExKey /\
    s_back (snd (has_set F call equal quar lst name v s)) = s_back s.
  Proof.
    intros E S R D. unfold has_set.
    change (match dget (s_back s) name with Some x => x | None => VUndef end) with (former (s_back s) name).
    set (prev := former (s_back s) name).
    rewrite (notify_fire call _ name prev "validate" s (tells_new _ _ _ _)) by (cbn; auto). rewrite E.
    destruct (fire F call (rest ++ [f]) (new_change name prev v "validate") s) as [[x c1] t1] eqn:X.
    pose proof (fire_keeps _ _ S _ _ _ _ _ X) as K.
    assert (G : forall l c s x c1 t1, (forall g, In g l -> In g rest) -> fire F call (l ++ [f]) c s = (x, c1, t1) -> x = Ok tt /\ dget c1 "value" = None).
    { clear X K. intros l. induction l as [|g r IH]; intros c s0 x0 c0 t0 I X; cbn [fire app] in X.
      - destruct (D c (s_back s0)) as (D1 & D2). destruct (call f c (s_back s0)) as [[y c2] b2]. cbn [fst snd] in *. subst y.
        injection X as <- <- <-. auto.
      - specialize (R g c (s_back s0) (I g (or_introl eq_refl))). destruct (call g c (s_back s0)) as [[y c2] b2]. cbn [fst] in R. subst y.
        apply IH in X; auto. intros; apply I; right; auto. }
    destruct (G rest _ _ _ _ _ (fun g i => i) X) as (-> & V). rewrite V. cbn [fst snd]. auto.
  Qed.
  (** One property in validate() *)
  Lemma check_refines call equal name v s out s1 :
    Forall (proper F call) (L name "validate") -> dget (s_back s) name = Some v -> v <> VNone ->
    check_value F call equal quar lst name s = (out, s1) ->
    exists told o, passed F call name v "validate" (L name "validate") v (s_back s) told o (s_back s1) /\
      (forall v1, o = Ok v1 -> out = equal v v1) /\ (forall e, o = Exc e -> out = Exc e).
  Proof.
    intros P V N H. unfold check_value in H. rewrite V in H.
    assert (H' : (let '(x, c1, s1) := notify F call quar lst (new_change name v v "validate") s in
      match x with
      | Ok _ => match dget c1 "value" with Some v1 => (equal v v1, s1) | None => (Exc ExKey, s1) end
      | Exc e => (Exc e, s1)
      end) = (out, s1)) by (destruct v; auto; congruence).
    clear H. rewrite (notify_fire call _ name v "validate" s (tells_new _ _ _ _)) in H' by (cbn; auto).
    destruct (fire F call (L name "validate") _ s) as [[x c1] t1] eqn:X.
    destruct (fire_passed _ _ _ _ _ _ _ _ _ _ P X) as (told & o & A & _ & C). exists told, o. destruct o as [v1|e].
    - destruct C as (-> & ->). injection H' as <- <-. split; [exact A|]. split; [intros ? [= <-]; reflexivity|discriminate].
    - subst x. injection H' as <- <-. split; [exact A|]. split; [discriminate|congruence].
  Qed.
  Lemma check_none call equal name s : dget (s_back s) name = None \/ dget (s_back s) name = Some VNone ->
    check_value F call equal quar lst name s = (Ok true, s).
  Proof. unfold check_value. intros [-> | ->]; reflexivity. Qed.
  Lemma check_stores_nothing call equal name s :
    Forall (stores_nothing F call) (L name "validate") -> s_back (snd (check_value F call equal quar lst name s)) = s_back s.
  Proof.
    intros P. unfold check_value. destruct (dget (s_back s) name) as [v|]; [|reflexivity].
    assert (Q : s_back (snd (let '(x, c1, s1) := notify F call quar lst (new_change name v v "validate") s in
      match x with
      | Ok _ => match dget c1 "value" with Some v1 => (equal v v1, s1) | None => (Exc ExKey, s1) end
      | Exc e => (Exc e, s1)
      end)) = s_back s).
    { rewrite (notify_fire call _ name v "validate" s (tells_new _ _ _ _)) by (cbn; auto).
      destruct (fire F call (L name "validate") _ s) as [[x c1] t1] eqn:X. apply fire_keeps in X; [|exact P].
      destruct x; [destruct (dget c1 "value")|]; exact X. }
    destruct v; try exact Q; reflexivity.
  Qed.
End Facts.
