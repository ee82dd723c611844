(** Proofs about the rows of VECTOR_DIRECTIONS. *)
From Verif Require Import Rows RowsSpec.
From Coq Require Import Lia.
Local Open Scope string_scope.
Local Open Scope list_scope.
Local Open Scope nat_scope.

Definition intact_h (h : list (list Z)) : Prop := forall r l, r < 13 -> nth_error (rs_rows imported) r = Some l -> nth_error h r = Some l.
Definition reads_h (h : list (list Z)) (two : bool) (i : ritem) (v : list Z) : Prop :=
  match i with RStr x => means two x v | RRow r => nth_error h r = Some v end.
Definition content (h : list (list Z)) (i : ritem) : list Z := match i with RRow r => row h r | RStr _ => [] end.

Lemma place_lt s l n : place s l = Some n -> n < length l.
Proof.
  revert n; induction l as [|x l IH]; cbn; [discriminate|]. intros n. destruct (String.eqb s x); [intros [= <-]; lia|].
  destruct (place s l); [intros [= <-]; specialize (IH _ eq_refl); lia|discriminate].
Qed.
Lemma row_of_lt two x r : row_of two x = Some r -> r < 13.
Proof. unfold row_of. destruct (_ && _); [discriminate|]. intros H. apply place_lt in H. exact H. Qed.
Lemma row_intact h r : intact_h h -> r < 13 -> row h r = row (rs_rows imported) r.
Proof.
  intros I L. unfold row. destruct (nth_error (rs_rows imported) r) as [l|] eqn:E; [now rewrite (I r l L E)|].
  apply nth_error_None in E. change (length (rs_rows imported)) with 13 in E. lia.
Qed.
Lemma vector_intact s two x : intact_h (rs_rows s) -> vector s two x = vector imported two x.
Proof.
  intros I. unfold vector. destruct (row_of two x) as [r|] eqn:R; auto. apply row_of_lt in R. now rewrite (row_intact _ _ I R).
Qed.
Ltac split_names name :=
  destruct (String.eqb_spec name "ZERO"); [|destruct (String.eqb_spec name "X"); [|destruct (String.eqb_spec name "Y"); [|
  destruct (String.eqb_spec name "Z"); [|destruct (String.eqb_spec name "-X"); [|destruct (String.eqb_spec name "-Y"); [|
  destruct (String.eqb_spec name "-Z"); [|destruct (String.eqb_spec name "EAST"); [|destruct (String.eqb_spec name "WEST"); [|
  destruct (String.eqb_spec name "NORTH"); [|destruct (String.eqb_spec name "SOUTH"); [|destruct (String.eqb_spec name "UP"); [|
  destruct (String.eqb_spec name "DOWN")]]]]]]]]]]]].
Lemma vector3_iff x v : vector imported false x = Some v <-> means3 x v.
Proof.
  unfold vector, row_of, means3. cbn [andb map fst directions place In]. generalize (str_upper x) as name. intros name.
  split_names name; subst; cbn [row nth_error rs_rows imported map snd directions];
    (split; [intros H; first [injection H as <-; tauto|discriminate H]|]);
    intros H; repeat match goal with H : _ \/ _ |- _ => destruct H | H : _ /\ _ |- _ => destruct H | H : False |- _ => destruct H end;
    subst; try congruence; discriminate.
Qed.
Lemma vector2_of x : vector imported true x = if str_mem (str_upper x) ["Z"; "-Z"; "UP"; "DOWN"] then None
  else match vector imported false x with Some v => Some (firstn 2 v) | None => None end.
Proof. unfold vector, row_of. cbn [andb]. destruct (str_mem _ _); auto. destruct (place _ _); auto. Qed.
Lemma vector2_iff x v : vector imported true x = Some v <-> means true x v.
Proof.
  rewrite vector2_of. cbn [means]. destruct (str_mem (str_upper x) ["Z"; "-Z"; "UP"; "DOWN"]) eqn:M.
  - split; [discriminate|]. intros (a & b & _ & H). exfalso. unfold means3 in H.
    cbn in M.
    repeat match goal with H : _ \/ _ |- _ => destruct H | H : _ /\ _ |- _ => destruct H | H : In _ _ |- _ => destruct H | H : False |- _ => destruct H end;
      try discriminate; match goal with H : _ = str_upper x |- _ => rewrite <- H in M | H : str_upper x = _ |- _ => rewrite H in M end; discriminate.
  - split.
    + destruct (vector imported false x) as [w|] eqn:V; [|discriminate]. intros [= <-]. apply vector3_iff in V.
      unfold means3 in V.
      assert (N : ~ In (str_upper x) ["Z"; "UP"] /\ ~ In (str_upper x) ["-Z"; "DOWN"]).
      { split; intros [H|[H|[]]]; rewrite <- H in M; discriminate. }
      destruct N as [N1 N2].
      assert (W : exists a b, w = [a; b; 0%Z]) by (destruct V as [[_ V]|[[_ V]|[[_ V]|[[_ V]|[[_ V]|[[V _]|[V _]]]]]]]; subst; eauto; contradiction).
      destruct W as (a & b & ->). exists a, b. split; [reflexivity|]. exact V.
    + intros (a & b & -> & H). apply vector3_iff in H. now rewrite H.
Qed.
Lemma imported_iff two x v : vector imported two x = Some v <-> means two x v.
Proof. destruct two; [apply vector2_iff|apply vector3_iff]. Qed.
Theorem vector_iff s two x v : intact s -> (vector s two x = Some v <-> means two x v).
Proof. intros I. rewrite vector_intact; [apply imported_iff|exact I]. Qed.

(** * The loop *)
Lemma nth_app h e r (x : list Z) : nth_error h r = Some x -> nth_error (h ++ e) r = Some x.
Proof. intros H. rewrite nth_error_app1; auto. apply nth_error_Some. congruence. Qed.
Lemma intact_app h e : intact_h h -> intact_h (h ++ e).
Proof. intros I r l L H. apply nth_app. auto. Qed.
Lemma fill_spec two l : forall h0 e0 ok u h', fill two l (h0 ++ e0) = (ok, u, h') -> intact_h h0 ->
  (forall r, In (RRow r) l -> r < length h0) ->
  exists e, h' = h0 ++ e0 ++ e /\
  (ok = true -> Forall2 (reads_h h0 two) l (map (content h') u) /\
     Forall2 (fun i j => match i with RRow _ => j = i | RStr _ => exists r, j = RRow r /\ if two then length h0 <= r else r < 13 end) l u) /\
  (ok = false -> exists x, In (RStr x) l /\ forall v, ~ means two x v) /\
  (forall r, In (RRow r) u -> In (RRow r) l \/ if two then length h0 <= r else r < 13).
Proof.
  induction l as [|[x|r] l IH]; intros h0 e0 ok u h' F I L; cbn [fill] in F.
  - injection F as <- <- <-. exists []. rewrite app_nil_r. repeat split; try constructor; try discriminate; auto.
  - destruct (row_of two x) as [r|] eqn:R.
    + assert (V : means two x (if two then firstn 2 (row (h0 ++ e0) r) else row (h0 ++ e0) r)).
      { apply imported_iff. unfold vector. rewrite R. rewrite (row_intact (h0 ++ e0) r (intact_app _ _ I) (row_of_lt _ _ _ R)). reflexivity. }
      assert (L' : forall r, In (RRow r) l -> r < length h0) by (intros; apply L; now right).
      destruct two.
      * destruct (fill true l _) as [[ok1 u1] h1] eqn:E. injection F as <- <- <-. rewrite <- app_assoc in E.
        destruct (IH _ _ _ _ _ E I L') as (e & -> & A & B & C). exists ([firstn 2 (row (h0 ++ e0) r)] ++ e).
        rewrite <- (app_assoc e0) in A |- *. split; [reflexivity|].
        split; [|split].
        -- intros T. destruct (A T) as [A1 A2]. split; constructor; auto.
           ++ cbn [reads_h content]. rewrite !app_assoc. rewrite <- (app_assoc _ _ e). unfold row at 1.
              rewrite nth_error_app2 by lia. rewrite Nat.sub_diag. exact V.
           ++ exists (length (h0 ++ e0)). split; auto. rewrite app_length; lia.
        -- intros T. destruct (B T) as (y & Y & Z). exists y. split; [now right|auto].
        -- intros q [[= <-]|Q]; [right; rewrite app_length; lia|]. destruct (C q Q); [left; now right|auto].
      * destruct (fill false l _) as [[ok1 u1] h1] eqn:E. injection F as <- <- <-.
        destruct (IH _ _ _ _ _ E I L') as (e & -> & A & B & C). exists e. split; [reflexivity|].
        pose proof (row_of_lt _ _ _ R) as RL.
        split; [|split].
        -- intros T. destruct (A T) as [A1 A2]. split; constructor; auto; [|eauto].
           cbn [reads_h content]. rewrite row_intact in V by auto using intact_app. rewrite row_intact by auto using intact_app. exact V.
        -- intros T. destruct (B T) as (y & Y & Z). exists y. split; [now right|auto].
        -- intros q [[= <-]|Q]; [now right|]. destruct (C q Q); [left; now right|auto].
    + injection F as <- <- <-. exists []. rewrite app_nil_r. split; [reflexivity|]. split; [discriminate|]. split; [|auto].
      intros _. exists x. split; [now left|]. intros v V. apply imported_iff in V. unfold vector in V. rewrite R in V. discriminate.
  - destruct (fill two l _) as [[ok1 u1] h1] eqn:E. injection F as <- <- <-.
    assert (L' : forall r, In (RRow r) l -> r < length h0) by (intros; apply L; now right).
    destruct (IH _ _ _ _ _ E I L') as (e & -> & A & B & C). exists e. split; [reflexivity|].
    split; [|split].
    + intros T. destruct (A T) as [A1 A2]. split; constructor; auto. cbn [reads_h content].
      destruct (nth_error h0 r) as [y|] eqn:Y; [|apply nth_error_None in Y; specialize (L r (or_introl eq_refl)); lia].
      unfold row. now rewrite (nth_app _ _ _ _ Y).
    + intros T. destruct (B T) as (y & Y & Z). exists y. split; [now right|auto].
    + intros q [[= <-]|Q]; [left; now left|]. destruct (C q Q); [left; now right|auto].
Qed.
Lemma reads_fun h two i v w : reads_h h two i v -> reads_h h two i w -> v = w.
Proof. destruct i; cbn; [rewrite <- !imported_iff|]; congruence. Qed.
Lemma all_reads_fun h two l : forall a b, Forall2 (reads_h h two) l a -> Forall2 (reads_h h two) l b -> a = b.
Proof.
  induction l as [|i l IH]; intros a b A B; inversion A; inversion B; subst; auto. f_equal; eauto using reads_fun.
Qed.
Lemma exist_list s n l : exist s -> nth_error (rs_lists s) n = Some l -> forall r, In (RRow r) l -> r < length (rs_rows s).
Proof. intros E H r R. eapply E; eauto using nth_error_In. Qed.
Theorem array_iff s two n l rows : intact s -> exist s -> nth_error (rs_lists s) n = Some l ->
  (fst (array s two n) = Some rows <-> Forall2 (reads s two) l rows).
Proof.
  intros I X H. unfold array. rewrite H. destruct (fill two l (rs_rows s)) as [[ok u] h] eqn:F. cbn [fst].
  rewrite <- (app_nil_r (rs_rows s)) in F. destruct (fill_spec _ _ _ _ _ _ _ F I (exist_list _ _ _ X H)) as (e & _ & A & B & _).
  change (reads s two) with (reads_h (rs_rows s) two).
  change (fun i => match i with RStr _ => [] | RRow r => row h r end) with (content h).
  destruct ok.
  - destruct (A eq_refl) as [A1 _]. split; [now intros [= <-]|]. intros G. f_equal. eauto using all_reads_fun.
  - split; [discriminate|]. intros G. destruct (B eq_refl) as (x & Y & N). exfalso. clear -G Y N.
    induction G as [|i v l vs R G IH]; [destruct Y|]. destruct Y as [->|Y]; [exact (N v R)|auto].
Qed.
(** the lists and the rows after it *)
Theorem array_effect s two n l : intact s -> exist s -> nth_error (rs_lists s) n = Some l ->
  let s' := snd (array s two n) in
  (forall r x, nth_error (rs_rows s) r = Some x -> nth_error (rs_rows s') r = Some x) /\
  (forall m, m <> n -> nth_error (rs_lists s') m = nth_error (rs_lists s) m) /\
  (fst (array s two n) <> None -> exists u, nth_error (rs_lists s') n = Some u /\ Forall2 (becomes s two) l u).
Proof.
  intros I X H. unfold array. rewrite H. destruct (fill two l (rs_rows s)) as [[ok u] h] eqn:F. cbn [fst snd rs_rows rs_lists].
  rewrite <- (app_nil_r (rs_rows s)) in F. destruct (fill_spec _ _ _ _ _ _ _ F I (exist_list _ _ _ X H)) as (e & -> & A & _).
  assert (N : n < length (rs_lists s)) by (apply nth_error_Some; congruence).
  split; [|split].
  - intros r x R. now apply nth_app.
  - intros m M. destruct (Nat.lt_ge_cases m n).
    + rewrite nth_error_app1 by (rewrite firstn_length; lia). clear -H0. revert n H0. generalize (rs_lists s) as L.
      induction m; intros [|x L] [|n] H; cbn; auto; try lia. apply IHm. lia.
    + rewrite nth_error_app2 by (rewrite firstn_length; lia). rewrite firstn_length. replace (m - Nat.min n (length (rs_lists s))) with (S (m - S n)) by lia.
      cbn [nth_error]. clear -M H0. assert (E : m = S n + (m - S n)) by lia. rewrite E at 2. generalize (m - S n) as k. generalize (S n) as q. clear.
      generalize (rs_lists s) as L. intros L q k. revert L; induction q; intros [|x L]; cbn; auto. destruct k; auto.
  - intros T. destruct ok; [|congruence]. destruct (A eq_refl) as [_ A2]. exists u.
    split; [rewrite nth_error_app2 by (rewrite firstn_length; lia); rewrite firstn_length; replace (n - _) with 0 by lia; reflexivity|].
    clear -A2. induction A2 as [|i j l u R A IH]; constructor; auto.
Qed.

(** * Sequences *)
Lemma put_nth {A} n (a : A) l m x : nth_error (put n a l) m = Some x -> (m = n /\ x = a) \/ nth_error l m = Some x.
Proof.
  unfold put. destruct (nth_error l n) eqn:E; [|auto].
  assert (N : n < length l) by (apply nth_error_Some; congruence). clear E.
  revert m l N. induction n; intros [|m] [|y l] N H; cbn in *; try lia; auto.
  - injection H as <-. auto.
  - destruct (IHn m l) as [[-> ->]|K]; auto; lia.
Qed.
Lemma put_other {A} n (a : A) l m : m <> n -> nth_error (put n a l) m = nth_error l m.
Proof.
  unfold put. destruct (nth_error l n) eqn:E; [|auto].
  assert (N : n < length l) by (apply nth_error_Some; congruence). clear E.
  revert m l N. induction n; intros [|m] [|y l] N H; cbn in *; try lia; auto. apply IHn; lia.
Qed.
Lemma fill_grows two l : forall h, exists e, snd (fill two l h) = h ++ e.
Proof.
  induction l as [|[x|r] l IH]; intros h; cbn [fill].
  - exists []. now rewrite app_nil_r.
  - destruct (row_of two x); [|exists []; now rewrite app_nil_r]. destruct two.
    + destruct (fill true l _) as [[ok u] h'] eqn:E. destruct (IH (h ++ [firstn 2 (row h n)])) as (e & H). rewrite E in H. cbn in *. subst.
      exists ([firstn 2 (row h n)] ++ e). now rewrite <- app_assoc.
    + destruct (fill false l _) as [[ok u] h'] eqn:E. destruct (IH h) as (e & H). rewrite E in H. cbn in *. eauto.
  - destruct (fill two l _) as [[ok u] h'] eqn:E. destruct (IH h) as (e & H). rewrite E in H. cbn in *. eauto.
Qed.
Lemma act_intact s a : intact s -> (forall r l, a = RChange r l -> ~ of_module r) -> intact (act s a).
Proof.
  intros I N. destruct a as [l|l|r l|n l|two x|two n]; cbn [act]; try exact I.
  - exact (intact_app _ [l] I).
  - intros q x L H. cbn [rs_rows]. rewrite put_other; [exact (I q x L H)|]. intros ->. exact (N r l eq_refl L).
  - unfold array. destruct (nth_error (rs_lists s) n) as [l|]; auto. destruct (fill_grows two l (rs_rows s)) as (e & H).
    destruct (fill two l (rs_rows s)) as [[ok u] h]. cbn in *. subst. exact (intact_app _ e I).
Qed.
Theorem untouched l : forall s, intact s -> Forall (fun a => forall r w, a = RChange r w -> ~ of_module r) l -> intact (acts l s).
Proof.
  induction l as [|a l IH]; intros s I F; [exact I|]. inversion F; subst. apply IH; auto using act_intact.
Qed.
Definition apart (s : rstate) : Prop := intact s /\ forall l r, In l (rs_lists s) -> In (RRow r) l -> ~ of_module r.
Lemma intact_length h : intact_h h -> 13 <= length h.
Proof. intros I. assert (H : nth_error h 12 <> None) by (rewrite (I 12 [0; 0; -1]%Z); [discriminate|lia|reflexivity]). apply nth_error_Some in H. lia. Qed.
Lemma fill_apart l : forall h ok u h', fill true l h = (ok, u, h') -> 13 <= length h -> (forall r, In (RRow r) l -> ~ of_module r) ->
  forall r, In (RRow r) u -> ~ of_module r.
Proof.
  unfold of_module. induction l as [|[x|q] l IH]; intros h ok u h' F L N r R; cbn [fill] in F.
  - injection F as <- <- <-. destruct R.
  - destruct (row_of true x).
    + destruct (fill true l _) as [[ok1 u1] h1] eqn:E. injection F as <- <- <-. destruct R as [[= <-]|R]; [lia|].
      eapply IH in E; eauto; [rewrite app_length; lia|]. intros; apply N; now right.
    + injection F as <- <- <-. auto.
  - destruct (fill true l _) as [[ok1 u1] h1] eqn:E. injection F as <- <- <-. destruct R as [[= <-]|R]; [apply N; now left|].
    eapply IH in E; eauto. intros; apply N; now right.
Qed.
Lemma has_apart s r : apart s -> has s r -> ~ of_module r.
Proof. intros [_ A] [H|(l & H & K)]; eauto. Qed.
Lemma act_apart s a : apart s -> caller s a -> (forall n, a <> RArray false n) -> apart (act s a).
Proof.
  intros A C N. pose proof A as [I P]. split.
  - apply act_intact; auto. intros r l ->. eapply has_apart; eauto.
  - destruct a as [l|l|r l|n l|two x|two n]; cbn [act rs_lists]; auto.
    + intros w r W. apply in_app_iff in W. destruct W as [W|[<-|[]]]; eauto. intros R. eapply has_apart; eauto.
    + intros w r W. apply In_nth_error in W. destruct W as (m & W). apply put_nth in W. destruct W as [[-> ->]|W].
      * intros R. eapply has_apart; eauto.
      * apply nth_error_In in W. eauto.
    + destruct two; [|now destruct (N n)]. unfold array. destruct (nth_error (rs_lists s) n) as [l|] eqn:H; auto.
      destruct (fill true l (rs_rows s)) as [[ok u] h] eqn:F. cbn [snd rs_lists]. intros w r W. apply in_app_iff in W.
      destruct W as [W|[<-|W]].
      * apply P. rewrite <- (firstn_skipn n). apply in_app_iff; auto.
      * eapply fill_apart; eauto using intact_length, nth_error_In.
      * apply P. rewrite <- (firstn_skipn (S n)). apply in_app_iff; auto.
Qed.
Lemma acts_apart l : forall s, apart s -> callers s l -> (forall n, ~ In (RArray false n) l) -> apart (acts l s).
Proof.
  induction l as [|a l IH]; intros s A C N; [exact A|]. destruct C as [C1 C2]. apply IH; auto.
  - apply act_apart; auto. intros n ->. apply (N n). now left.
  - intros n H. apply (N n). now right.
Qed.
Theorem private l : callers imported l -> (forall n, ~ In (RArray false n) l) -> intact (acts l imported).
Proof. intros C N. apply acts_apart; auto. split; [intros r x L H; exact H|intros w r []]. Qed.
