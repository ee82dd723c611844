(** Lemmas behind the URL theorems. *)
From Verif Require Import PyBase PyFloat PyVal Basic Url UrlSpec.
Local Open Scope list_scope.

Lemma is_spec c x : is c x = true <-> x = c.
Proof. unfold is. rewrite Ascii.eqb_eq. split; congruence. Qed.
Lemma is_no c x : is c x = false <-> x <> c.
Proof. unfold is. rewrite Ascii.eqb_neq. split; congruence. Qed.

Lemma break_app p l : fst (break p l) ++ snd (break p l) = l.
Proof. induction l as [|c r IH]; auto. simpl. destruct (p c); auto. destruct (break p r). simpl in *. congruence. Qed.
Lemma break_fst p l : Forall (fun x => p x = false) (fst (break p l)).
Proof. induction l as [|c r IH]; simpl; auto. destruct (p c) eqn:E; simpl; auto. destruct (break p r). simpl in *. auto. Qed.
Lemma break_snd p l x r : snd (break p l) = x :: r -> p x = true.
Proof.
  induction l as [|c l IH]; simpl; [discriminate|]. destruct (p c) eqn:E; simpl; [congruence|].
  destruct (break p l). simpl in *. auto.
Qed.
Lemma break_eq p a b : Forall (fun x => p x = false) a -> (forall x r, b = x :: r -> p x = true) -> break p (a ++ b) = (a, b).
Proof.
  intros Fa Hb. induction Fa as [|c a Hc Fa IH]; simpl.
  - destruct b as [|x r]; auto. simpl. now rewrite (Hb x r eq_refl).
  - rewrite Hc, IH. reflexivity.
Qed.
Lemma break_inv p l a b : break p l = (a, b) ->
  l = a ++ b /\ Forall (fun x => p x = false) a /\ (forall x r, b = x :: r -> p x = true).
Proof.
  intros H. pose proof (break_app p l). pose proof (break_fst p l). pose proof (break_snd p l).
  rewrite H in *. simpl in *. auto.
Qed.

Lemma lacks_one c l : lacks (String c EmptyString) l <-> Forall (fun x => is c x = false) l.
Proof.
  unfold lacks. rewrite Forall_forall. simpl. split.
  - intros H x Hx. apply is_no. intros ->. apply (H c); auto.
  - intros H x [<-|[]] Hx. apply H in Hx. apply is_no in Hx. auto.
Qed.
Lemma lacks_cons c s l : lacks (String c s) l <-> Forall (fun x => is c x = false) l /\ lacks s l.
Proof.
  rewrite <- lacks_one. unfold lacks. simpl. split.
  - intros H. split; intros x Hx; apply H; tauto.
  - intros [H1 H2] x [<-|Hx]; [apply H1; auto|auto].
Qed.
Lemma mem_in l c : mem_ch l c = true <-> In c l.
Proof. unfold mem_ch. rewrite existsb_exists. split; [intros (x & H & E); apply Ascii.eqb_eq in E; congruence|intros H; exists c; split; auto; apply Ascii.eqb_refl]. Qed.
Lemma mem_out l c : mem_ch l c = false <-> ~ In c l.
Proof. rewrite <- mem_in. destruct (mem_ch l c); split; congruence. Qed.

(** ** cleaning *)
Lemma drop_while_spec {A} (p : A -> bool) l : exists pre, l = pre ++ drop_while p l /\ Forall (fun x => p x = true) pre /\
  forall x r, drop_while p l = x :: r -> p x = false.
Proof.
  induction l as [|c l (pre & E & F & H)].
  - exists []. repeat split; auto. discriminate.
  - simpl. destruct (p c) eqn:Ec.
    + exists (c :: pre). simpl. repeat split; auto. congruence.
    + exists []. repeat split; auto. congruence.
Qed.
Lemma drop_while_eq {A} (p : A -> bool) pre post : Forall (fun x => p x = true) pre ->
  (forall x r, post = x :: r -> p x = false) -> drop_while p (pre ++ post) = post.
Proof.
  intros F H. induction F as [|c pre Hc F IH]; simpl.
  - destruct post as [|x r]; auto. simpl. now rewrite (H x r eq_refl).
  - now rewrite Hc.
Qed.
Lemma tab_eq x : is_tab x = existsb (N.eqb (code x)) [9; 10; 13]%N.
Proof. unfold is_tab. simpl. now rewrite orb_false_r, orb_assoc. Qed.
Lemma clean_spec l c : cleaned l c <-> c = url_clean l.
Proof.
  unfold url_clean. assert (X : forall post, filter (fun x => negb (is_tab x)) post =
    filter (fun x => negb (existsb (N.eqb (code x)) [9; 10; 13]%N)) post).
  { intros post. apply filter_ext. intros x. now rewrite tab_eq. }
  split.
  - intros (pre & post & -> & F & H & ->). rewrite drop_while_eq; auto.
    + eapply Forall_impl; [|exact F]. intros x Hx. unfold is_c0. now apply N.leb_le.
    + intros x r E. unfold is_c0. apply N.leb_gt. eauto.
  - intros ->. destruct (drop_while_spec is_c0 l) as (pre & E & F & H). exists pre, (drop_while is_c0 l).
    repeat split; auto.
    + eapply Forall_impl; [|exact F]. intros x Hx. unfold is_c0 in Hx. now apply N.leb_le.
    + intros x r Er. apply H in Er. unfold is_c0 in Er. now apply N.leb_gt.
Qed.

(** ** characters of a scheme *)
Lemma alpha_letters x : is_alpha x = true <-> In x letters.
Proof.
  split.
  - destruct x as [[] [] [] [] [] [] [] []]; intros H; vm_compute in H; try discriminate H; apply mem_in; vm_compute; reflexivity.
  - intros H. apply mem_in in H. destruct x as [[] [] [] [] [] [] [] []]; vm_compute in H; try discriminate H; reflexivity.
Qed.
Lemma scheme_letters x : scheme_char x = true <-> In x (letters ++ chars "0123456789+-.").
Proof.
  split.
  - destruct x as [[] [] [] [] [] [] [] []]; intros H; vm_compute in H; try discriminate H; apply mem_in; vm_compute; reflexivity.
  - intros H. apply mem_in in H. destruct x as [[] [] [] [] [] [] [] []]; vm_compute in H; try discriminate H; reflexivity.
Qed.
Lemma scheme_no_colon x : scheme_char x = true -> is ":" x = false.
Proof. destruct x as [[] [] [] [] [] [] [] []]; vm_compute; congruence. Qed.

Lemma split_scheme_eq x S r : is_alpha x = true -> forallb scheme_char (x :: S) = true ->
  split_scheme ((x :: S) ++ ":"%char :: r) = (map ch_lower (x :: S), r).
Proof.
  intros Hx HS. unfold split_scheme. rewrite (break_eq (is ":") (x :: S) (":"%char :: r)).
  - rewrite Hx, HS. reflexivity.
  - apply Forall_forall. intros y Hy. apply scheme_no_colon. rewrite forallb_forall in HS. auto.
  - intros y q [= <- <-]. reflexivity.
Qed.
Lemma split_scheme_inv c s r : split_scheme c = (s, r) -> s <> [] ->
  exists x S, s = map ch_lower (x :: S) /\ c = (x :: S) ++ ":"%char :: r /\ is_alpha x = true /\ forallb scheme_char (x :: S) = true.
Proof.
  unfold split_scheme. destruct (break (is ":") c) as [a b] eqn:B. apply break_inv in B. destruct B as (-> & Fa & Hb).
  destruct a as [|x S]; [intros [= <- <-]; congruence|].
  destruct b as [|y q]; [intros [= <- <-]; congruence|].
  destruct (is_alpha x && forallb scheme_char (x :: S)) eqn:K; [|intros [= <- <-]; congruence].
  apply andb_true_iff in K. destruct K as [K1 K2].
  intros [= <- <-] _. exists x, S. specialize (Hb y q eq_refl). apply is_spec in Hb. subst y. auto.
Qed.

(** ** network location *)
Lemma ends_spec x : ends_netloc x = false <-> is "/" x = false /\ is "?" x = false /\ is "#" x = false.
Proof. unfold ends_netloc. rewrite !orb_false_iff. tauto. Qed.
Lemma lacks_netloc N : lacks "/?#" N <-> Forall (fun x => ends_netloc x = false) N.
Proof.
  rewrite !lacks_cons, !Forall_forall. setoid_rewrite ends_spec.
  assert (lacks "" N) by (intros x []). split.
  - intros (A & B & C & _) x Hx. auto.
  - intros K. repeat split; try (intros x Hx; apply (K x Hx)); auto.
Qed.
Lemma netloc_spec h N : netloc_ok h N = true <-> brackets_ok h N.
Proof.
  unfold netloc_ok, brackets_ok. split.
  - destruct (mem_ch N "[") eqn:A, (mem_ch N "]") eqn:B; simpl; try discriminate.
    + intros H. right. apply mem_in in A, B. split; auto. unfold cut in H.
      destruct (break (is "[") N) as [pre r] eqn:K. apply break_inv in K. destruct K as (-> & Fp & Hr).
      destruct r as [|y r].
      { exfalso. rewrite app_nil_r in A. rewrite Forall_forall in Fp. apply Fp in A. discriminate A. }
      specialize (Hr y r eq_refl). apply is_spec in Hr. subst y. simpl in H.
      destruct (break (is "]") r) as [host post] eqn:K. apply break_inv in K. destruct K as (-> & Fh & Hq).
      exists pre, host, post. repeat split; auto; try (apply lacks_one; auto).
      destruct post as [|z post]; [left; auto|right]. exists post. specialize (Hq z post eq_refl). apply is_spec in Hq. now subst.
    + intros _. left. apply mem_out in A, B. intros x [<-|[<-|[]]]; auto.
  - intros [L|(B & pre & host & post & -> & Lp & Lh & Bp & H)].
    + assert (A : mem_ch N "[" = false) by (apply mem_out, L; simpl; auto).
      assert (B : mem_ch N "]" = false) by (apply mem_out, L; simpl; auto). now rewrite A, B.
    + assert (A : mem_ch (pre ++ "["%char :: host ++ post) "[" = true) by (apply mem_in, in_app_iff; simpl; auto).
      apply mem_in in B. rewrite A, B. unfold cut. apply lacks_one in Lp, Lh. simpl.
      rewrite (break_eq (is "[") pre ("["%char :: host ++ post)); auto; [|intros x r [= <- <-]; auto].
      simpl. rewrite (break_eq (is "]") host post); auto.
      intros x r ->. destruct Bp as [?|(q & [= -> _])]; [discriminate|reflexivity].
Qed.

(** ** cutting *)
Lemma cut_eq x a b : Forall (fun y => is x y = false) a -> begins x b -> cut x (a ++ b) = (a, tl b).
Proof.
  intros F B. unfold cut. rewrite (break_eq (is x) a b); auto.
  intros y r ->. destruct B as [?|(q & [= -> _])]; [discriminate|]. now apply is_spec.
Qed.
Lemma cut_inv x l a b : cut x l = (a, b) -> exists t, l = a ++ t /\ Forall (fun y => is x y = false) a /\ begins x t /\ b = tl t.
Proof.
  unfold cut. destruct (break (is x) l) as [a' t] eqn:K. apply break_inv in K. destruct K as (-> & F & H).
  intros [= <- <-]. exists t. repeat split; auto. destruct t as [|y r]; [left; auto|right]. exists r.
  specialize (H y r eq_refl). apply is_spec in H. now subst.
Qed.

(** ** path parameters *)
Lemma split_params_eq P A B : last_params P A B -> split_params P = (A, B).
Proof.
  intros (-> & LB & dirs & name & -> & D & Ln). apply lacks_one in LB.
  apply lacks_cons in Ln. destruct Ln as [Ln1 Ln2]. apply lacks_one in Ln2.
  unfold split_params.
  assert (K : break (is "/") (rev ((dirs ++ name) ++ ";"%char :: B)) = (rev (name ++ ";"%char :: B), rev dirs)).
  { rewrite <- app_assoc, rev_app_distr. apply break_eq.
    - apply Forall_rev, Forall_app. split; auto.
    - intros x r E. destruct D as [->|(d & ->)]; [discriminate|]. rewrite rev_app_distr in E. simpl in E.
      injection E as <- _. reflexivity. }
  rewrite K, !rev_involutive. rewrite (cut_eq ";" name (";"%char :: B)); auto. right. eauto.
Qed.
Lemma split_params_inv P A B : split_params P = (A, B) -> last_params P A B \/ (A = P /\ B = [] /\ forall A B, ~ last_params P A B).
Proof.
  intros H. pose proof H as H0. unfold split_params in H.
  destruct (break (is "/") (rev P)) as [last before] eqn:K. apply break_inv in K. destruct K as (E & F & Hb).
  apply (f_equal (@rev ascii)) in E. rewrite rev_involutive, rev_app_distr in E.
  destruct (cut ";" (rev last)) as [a b] eqn:C. injection H as <- <-.
  apply cut_inv in C. destruct C as (t & Et & Fa & Bt & ->). rewrite Et in E.
  assert (Fl : Forall (fun y => is "/" y = false) (a ++ t)) by (rewrite <- Et; apply Forall_rev; auto).
  apply Forall_app in Fl. destruct Fl as [Fl1 Fl2].
  destruct Bt as [->|(q & ->)].
  - right. rewrite app_nil_r in E. repeat split; auto.
    intros A B L. pose proof (split_params_eq _ _ _ L) as L2. rewrite H0 in L2. injection L2 as La Lb.
    destruct L as (EP & _). rewrite <- La, <- E in EP. apply (f_equal (@length ascii)) in EP.
    rewrite app_length in EP. simpl in EP. lia.
  - left. simpl. unfold last_params. inversion Fl2; subst. repeat split.
    + rewrite <- app_assoc. reflexivity.
    + apply lacks_one. auto.
    + exists (rev before), a. split; [reflexivity|]. split.
      * destruct before as [|y r]; [left; reflexivity|right]. specialize (Hb y r eq_refl). apply is_spec in Hb. subst y.
        exists (rev r). reflexivity.
      * apply lacks_cons. split; auto. apply lacks_one. auto.
Qed.

(** ** the whole *)
Lemma in_params s : s <> ""%string -> (existsb (String.eqb s) uses_params = true <-> In s with_params).
Proof.
  intros Hs. rewrite existsb_exists. split.
  - intros (x & H & E). apply String.eqb_eq in E. subst x. unfold uses_params, with_params in *. cbn [In] in *. intuition congruence.
  - intros H. exists s. split; [|apply String.eqb_refl]. unfold uses_params, with_params in *. cbn [In] in *. intuition congruence.
Qed.
Lemma params_has P A B : last_params P A B -> mem_ch P ";" = true.
Proof. intros (-> & _). apply mem_in, in_app_iff. simpl. auto. Qed.

Definition path_split (scheme P : list ascii) : list ascii * list ascii :=
  if existsb (String.eqb (unchars scheme)) uses_params && mem_ch P ";" then split_params P else (P, []).

Lemma path_split_spec scheme remove P P' : scheme <> [] ->
  path_kept (unchars scheme) remove P P' <->
  P' = fst (path_split scheme P) ++ part ";" (if remove then [] else snd (path_split scheme P)).
Proof.
  intros Hs. unfold path_kept, path_split. rewrite <- in_params by (destruct scheme; [congruence|discriminate]).
  destruct (existsb (String.eqb (unchars scheme)) uses_params) eqn:U; simpl.
  - destruct (mem_ch P ";") eqn:M.
    + destruct (split_params P) as [A B] eqn:S. simpl. split.
      * intros [(_ & A' & B' & L & ->)|[N ->]].
        -- pose proof (split_params_eq _ _ _ L) as K. rewrite S in K. injection K as <- <-.
           destruct remove; simpl; [now rewrite app_nil_r|].
           destruct B; simpl; [now rewrite app_nil_r|]. apply L.
        -- destruct (split_params_inv _ _ _ S) as [L|(-> & -> & _)]; [destruct (N eq_refl _ _ L)|].
           destruct remove; simpl; now rewrite app_nil_r.
      * intros ->. destruct (split_params_inv _ _ _ S) as [L|(-> & -> & N)].
        -- left. split; auto. exists A, B. split; auto. destruct remove; simpl; [now rewrite app_nil_r|].
           destruct B; simpl; [now rewrite app_nil_r|]. symmetry. apply L.
        -- right. split; auto. destruct remove; simpl; now rewrite app_nil_r.
    + simpl. split.
      * intros [(_ & A & B & L & _)|[_ ->]]; [apply params_has in L; congruence|]. destruct remove; simpl; now rewrite app_nil_r.
      * intros ->. right. split; [|destruct remove; simpl; now rewrite app_nil_r].
        intros _ A B L. apply params_has in L. congruence.
  - split.
    + intros [[? _]|[_ ->]]; [discriminate|]. destruct remove; simpl; now rewrite app_nil_r.
    + intros ->. right. split; [discriminate|]. destruct remove; simpl; now rewrite app_nil_r.
Qed.

Lemma parse_reads h l S N P Q F : reads (url_clean l) S N P Q F -> brackets_ok h N ->
  urlparse h l = Some (Parsed (map ch_lower S) N (fst (path_split (map ch_lower S) P))
    (snd (path_split (map ch_lower S) P)) (tl Q) (tl F)).
Proof.
  intros (E & (x & r & -> & Hx) & HS & LN & BP & LP & BQ & LQ & BF) HN. unfold urlparse. rewrite E.
  change (chars "://" ++ N ++ P ++ Q ++ F) with (":"%char :: "/"%char :: "/"%char :: N ++ P ++ Q ++ F).
  rewrite split_scheme_eq.
  2:{ now apply alpha_letters. }
  2:{ apply forallb_forall. rewrite Forall_forall in HS. intros y Hy. apply scheme_letters. auto. }
  unfold split_netloc. change (is "/" "/" && is "/" "/") with true. cbv iota.
  rewrite (break_eq ends_netloc N (P ++ Q ++ F)).
  2:{ now apply lacks_netloc. }
  2:{ intros y q Ey. destruct BP as [->|(p & ->)]; [|injection Ey as <- _; reflexivity].
      destruct BQ as [->|(p & ->)]; [|injection Ey as <- _; reflexivity].
      destruct BF as [->|(p & ->)]; [discriminate|injection Ey as <- _; reflexivity]. }
  apply netloc_spec in HN. rewrite HN.
  apply lacks_cons in LP. destruct LP as [LP1 LP2]. apply lacks_one in LP2, LQ.
  rewrite (app_assoc P Q F), (cut_eq "#" (P ++ Q) F); auto; [|apply Forall_app; auto].
  rewrite (cut_eq "?" P Q); auto. unfold path_split.
  destruct (existsb (String.eqb (unchars (map ch_lower (x :: r)))) uses_params && mem_ch P ";");
    [destruct (split_params P)|]; reflexivity.
Qed.

Lemma parse_inv h l u : urlparse h l = Some u -> u_scheme u <> [] -> u_netloc u <> [] ->
  exists S N P Q F, reads (url_clean l) S N P Q F /\ brackets_ok h N /\ N <> [] /\ u_scheme u = map ch_lower S /\ u_netloc u = N.
Proof.
  unfold urlparse. destruct (split_scheme (url_clean l)) as [s r] eqn:Es.
  destruct (split_netloc h r) as [[n r1]|] eqn:En; [|discriminate].
  destruct (cut "#" r1) as [r2 f] eqn:Ef. destruct (cut "?" r2) as [p q] eqn:Eq.
  assert (G : forall X : list ascii * list ascii, (let (path1, params) := X in Some (Parsed s n path1 params q f)) = Some u ->
    u_scheme u = s /\ u_netloc u = n) by (intros [? ?] [= <-]; auto).
  intros H. apply G in H. destruct H as [-> ->]. intros Hs Hn.
  apply split_scheme_inv in Es; auto. destruct Es as (x & S & -> & Ec & Hx & HS).
  unfold split_netloc in En. destruct r as [|c [|d r]]; try (injection En as <- _; congruence).
  destruct (is "/" c && is "/" d) eqn:K; [|injection En as <- _; congruence].
  apply andb_true_iff in K. destruct K as [K1 K2]. apply is_spec in K1, K2. subst c d.
  destruct (break ends_netloc r) as [n' rest] eqn:B. destruct (netloc_ok h n') eqn:O; [|discriminate].
  injection En as -> ->. apply break_inv in B. destruct B as (-> & Fn & Hr).
  apply cut_inv in Ef. destruct Ef as (F & -> & Ff & BF & ->).
  apply cut_inv in Eq. destruct Eq as (Q & -> & Fq & BQ & ->).
  apply Forall_app in Ff. destruct Ff as [Fp FQ].
  exists (x :: S), n, p, Q, F. repeat split; auto.
  - rewrite Ec. rewrite <- !app_assoc. reflexivity.
  - exists x, S. split; auto. now apply alpha_letters.
  - apply Forall_forall. intros y Hy. apply scheme_letters. rewrite forallb_forall in HS. auto.
  - now apply lacks_netloc.
  - destruct p as [|y p]; [left; auto|right]. exists p. f_equal.
    specialize (Hr y ((p ++ Q) ++ F) eq_refl). unfold ends_netloc in Hr.
    inversion Fp; inversion Fq; subst. rewrite H1, H5, !orb_false_r in Hr. now apply is_spec.
  - apply lacks_cons. split; auto. now apply lacks_one.
  - now apply lacks_one.
  - now apply netloc_spec.
Qed.

Lemma part_tl x T : begins x T -> part x (tl T) = match T with [_] => [] | _ => T end.
Proof. intros [->|(r & ->)]; reflexivity. Qed.

Lemma url_spec h o v w :
  url_validate h o v = LOk w <->
  exists s c S N P Q F P',
    string_validate (uo_string o) v = LOk (VStr s) /\ cleaned (chars s) c /\
    reads c S N P Q F /\ N <> [] /\ brackets_ok h N /\
    path_kept (unchars (map ch_lower S)) (uo_params o) P P' /\
    w = VStr (unchars (map ch_lower S ++ chars "://" ++ N ++ P' ++
                       part_kept (uo_params o) Q ++ part_kept (uo_fragment o) F)).
Proof.
  assert (Out : forall S N P Q F P', reads (S ++ chars "://" ++ N ++ P ++ Q ++ F) S N P Q F -> N <> [] ->
    path_kept (unchars (map ch_lower S)) (uo_params o) P P' ->
    geturl (Parsed (map ch_lower S) N (fst (path_split (map ch_lower S) P))
      (if uo_params o then [] else snd (path_split (map ch_lower S) P)) (if uo_params o then [] else tl Q)
      (if uo_fragment o then [] else tl F)) =
    map ch_lower S ++ chars "://" ++ N ++ P' ++ part_kept (uo_params o) Q ++ part_kept (uo_fragment o) F).
  { intros S N P Q F P' (_ & (x & r & -> & _) & _ & _ & BP & _ & BQ & _ & BF) HN HP.
    pose proof HP as HP0. apply path_split_spec in HP0; [|discriminate]. unfold geturl. cbn [u_path u_params u_scheme u_netloc u_query u_fragment].
    rewrite <- HP0. destruct N as [|y N]; [congruence|]. cbn [map orb].
    assert (BP' : match P' with c :: _ => if is "/" c then P' else "/"%char :: P' | [] => P' end = P').
    { assert (begins "/" P') as [->|(q & ->)]; [|reflexivity|reflexivity].
      destruct HP as [(_ & A & B & (EP & LB & dirs & name & EA & D & Ln) & E)|[_ ->]]; auto.
      assert (BA : begins "/" A).
      { destruct A as [|z A]; [left; auto|]. right. exists A. f_equal.
        destruct BP as [->|(q & ->)]; [discriminate|]. now injection EP as <- _. }
      destruct (uo_params o); [now subst|]. destruct B; now subst. }
    rewrite BP'.
    assert (PQ : part "?" (if uo_params o then [] else tl Q) = part_kept (uo_params o) Q)
      by (unfold part_kept; destruct (uo_params o); auto; now apply part_tl).
    assert (PF : part "#" (if uo_fragment o then [] else tl F) = part_kept (uo_fragment o) F)
      by (unfold part_kept; destruct (uo_fragment o); auto; now apply part_tl).
    rewrite PQ, PF. cbn [list_ascii_of_string]. rewrite <- !app_assoc. cbn [app]. rewrite <- !app_assoc. reflexivity. }
  unfold url_validate. split.
  - destruct (string_validate (uo_string o) v) as [[]| |] eqn:V; try discriminate;
      try (unfold string_validate in V; destruct v; try discriminate;
           destruct (match so_regex (uo_string o) with Some r => negb (r s) | None => false end); discriminate).
    destruct (urlparse h (chars s)) as [u|] eqn:Pu; [|discriminate].
    destruct (u_scheme u) as [|a sc] eqn:Us; [discriminate|]. destruct (u_netloc u) as [|b nt] eqn:Un; [discriminate|].
    rewrite <- Us, <- Un. intros [= <-].
    destruct (parse_inv h (chars s) u Pu) as (S & N & P & Q & F & R & BN & HN & ES & EN); try congruence.
    pose proof (parse_reads h _ _ _ _ _ _ R BN) as E. rewrite Pu in E. injection E as ->. cbn [u_path u_params u_query u_fragment u_scheme u_netloc].
    assert (HS : map ch_lower S <> []) by (destruct R as (_ & (x & q & -> & _) & _); discriminate).
    pose proof (proj2 (path_split_spec (map ch_lower S) (uo_params o) P _ HS) eq_refl) as HP.
    assert (R' : reads (S ++ chars "://" ++ N ++ P ++ Q ++ F) S N P Q F) by (destruct R as [Ec R]; split; auto).
    eexists s, _, S, N, P, Q, F, _. repeat (split; [first [reflexivity|eassumption|apply clean_spec; reflexivity]|]).
    do 2 f_equal. now apply Out.
  - intros (s & c & S & N & P & Q & F & P' & -> & C & R & HN & BN & HP & ->). apply clean_spec in C. subst c.
    rewrite (parse_reads h _ _ _ _ _ _ R BN). cbn [u_path u_params u_query u_fragment u_scheme u_netloc].
    assert (R' : reads (S ++ chars "://" ++ N ++ P ++ Q ++ F) S N P Q F) by (destruct R as [Ec R]; split; auto).
    rewrite (Out _ _ _ _ _ _ R' HN HP).
    destruct R as (_ & (x & r & -> & _) & _). destruct N as [|y N]; [congruence|]. reflexivity.
Qed.

(** ** removal *)
Lemma kept_path scheme rm P P' : path_kept scheme rm P P' -> begins "/" P ->
  begins "/" P' /\ forall x, In x P' -> In x P.
Proof.
  intros [(_ & A & B & (EP & _) & E)|[_ ->]] BP; auto.
  assert (BA : begins "/" A).
  { destruct A as [|z A]; [left; auto|]. right. exists A. f_equal.
    destruct BP as [->|(q & ->)]; [discriminate|]. now injection EP as <- _. }
  assert (K : P' = A \/ P' = P) by (destruct rm; [auto|]; destruct B; auto).
  destruct K as [->| ->]; auto. split; auto. intros x Hx. rewrite EP. apply in_app_iff. auto.
Qed.
Lemma kept_part rm x Q : begins x Q -> begins x (part_kept rm Q) /\ forall y, In y (part_kept rm Q) -> In y Q.
Proof.
  intros B. unfold part_kept. destruct rm; [split; [left; auto|intros y []]|].
  destruct Q as [|a [|b Q]]; auto; (split; [left; auto|intros y []]).
Qed.
Lemma kept_part_again rm Q : part_kept rm (part_kept rm Q) = part_kept rm Q.
Proof. unfold part_kept. destruct rm; auto. destruct Q as [|a [|b Q]]; auto. Qed.
Lemma no_more_params A : (exists dirs name, A = dirs ++ name /\ (dirs = [] \/ exists d, dirs = d ++ ["/"%char]) /\ lacks "/;" name) ->
  forall A2 B2, ~ last_params A A2 B2.
Proof.
  intros (dirs & name & EA & D & Ln) A2 B2 L. pose proof (split_params_eq _ _ _ L) as K.
  apply lacks_cons in Ln. destruct Ln as [Ln1 Ln2]. apply lacks_one in Ln2.
  unfold split_params in K. rewrite EA, rev_app_distr, (break_eq (is "/") (rev name) (rev dirs)) in K.
  - rewrite !rev_involutive in K. rewrite <- (app_nil_r name), (cut_eq ";" name []) in K; auto; [|left; auto].
    injection K as K _. rewrite <- EA in K. destruct L as (E & _). subst A2. apply (f_equal (@length ascii)) in E.
    rewrite app_length in E. simpl in E. lia.
  - apply Forall_rev. auto.
  - intros x r E. destruct D as [->|(d & ->)]; [discriminate|]. rewrite rev_app_distr in E. injection E as <- _. reflexivity.
Qed.
Lemma kept_path_again scheme rm P P' : path_kept scheme rm P P' -> path_kept scheme rm P' P'.
Proof.
  intros [(I & A & B & L & E)|[N ->]]; [|right; auto].
  assert (K : P' = A \/ (rm = false /\ P' = P /\ B <> [])).
  { destruct rm; [auto|]. destruct B; [auto|]. right. repeat split; auto. discriminate. }
  destruct K as [->|(-> & -> & HB)].
  - right. split; auto. intros _. apply no_more_params. apply L.
  - left. split; auto. exists A, B. auto.
Qed.

Lemma lower_in x : In x (letters ++ chars "0123456789+-.") ->
  In (ch_lower x) (letters ++ chars "0123456789+-.") /\ ~ In (ch_lower x) (chars "?#").
Proof.
  intros H. apply scheme_letters in H. split.
  - apply scheme_letters. destruct x as [[] [] [] [] [] [] [] []]; vm_compute in H; try discriminate H; reflexivity.
  - intros K. apply mem_in in K. destruct x as [[] [] [] [] [] [] [] []]; vm_compute in H; try discriminate H; discriminate K.
Qed.
Lemma lower_first x : In x letters -> In (ch_lower x) letters /\ In (ch_upper (ch_lower x)) letters /\ (32 < code (ch_lower x))%N /\
  (32 < code (ch_upper (ch_lower x)))%N.
Proof.
  intros H. apply alpha_letters in H. rewrite <- !alpha_letters.
  destruct x as [[] [] [] [] [] [] [] []]; vm_compute in H; try discriminate H; vm_compute; auto.
Qed.

Lemma scheme_lacks S c : In c (chars "?#") -> Forall (fun x => In x (letters ++ chars "0123456789+-.")) S ->
  ~ In c (map ch_lower S).
Proof.
  intros Hc F K. apply in_map_iff in K. destruct K as (x & <- & Hx). rewrite Forall_forall in F.
  apply F in Hx. apply lower_in in Hx. tauto.
Qed.

Lemma head_lacks S c l : In c (chars "?#") -> Forall (fun x => In x (letters ++ chars "0123456789+-.")) S ->
  In c (map ch_lower S ++ chars "://" ++ l) -> In c l.
Proof.
  intros Hc F K. apply in_app_iff in K. destruct K as [K|K]; [destruct (scheme_lacks _ _ Hc F K)|].
  apply in_app_iff in K. destruct K as [K|K]; auto.
  exfalso. destruct Hc as [<-|[<-|[]]]; apply mem_in in K; discriminate K.
Qed.

Lemma url_no_fragment h o v t : url_validate h o v = LOk (VStr t) -> uo_fragment o = true -> ~ In "#"%char (chars t).
Proof.
  intros H Ho. apply url_spec in H. destruct H as (s & c & S & N & P & Q & F & P' & _ & _ & R & _ & _ & HP & E).
  injection E as ->. rewrite chars_unchars. destruct R as (_ & _ & HS & LN & BP & LP & BQ & LQ & BF).
  rewrite Ho. unfold part_kept at 2. rewrite app_nil_r. intros K.
  apply head_lacks in K; simpl; auto. revert K. rewrite !in_app_iff.
  destruct (kept_path _ _ _ _ HP BP) as [_ KP]. destruct (kept_part (uo_params o) _ _ BQ) as [_ KQ].
  intros [K|[K|K]].
  - revert K. apply LN. simpl; auto.
  - apply KP in K. revert K. apply LP. simpl; auto.
  - apply KQ in K. revert K. apply LQ. simpl; auto.
Qed.
Lemma url_no_query h o v t x y : url_validate h o v = LOk (VStr t) -> uo_params o = true ->
  chars t = x ++ y -> ~ In "#"%char x -> ~ In "?"%char x.
Proof.
  intros H Ho Ex Hx Kx. apply url_spec in H. destruct H as (s & c & S & N & P & Q & F & P' & _ & _ & R & _ & _ & HP & E).
  injection E as ->. rewrite chars_unchars in Ex. destruct R as (_ & _ & HS & LN & BP & LP & BQ & LQ & BF).
  rewrite Ho in Ex. unfold part_kept at 1 in Ex. simpl app in Ex.
  destruct (kept_path _ _ _ _ HP BP) as [_ KP]. destruct (kept_part (uo_fragment o) _ _ BF) as [BF' _].
  remember (part_kept (uo_fragment o) F) as F'. clear HeqF'.
  assert (NH : ~ In "?"%char (map ch_lower S ++ chars "://" ++ N ++ P')).
  { intros K. apply head_lacks in K; simpl; auto. revert K. rewrite in_app_iff. intros [K|K].
    - revert K. apply LN. simpl; auto.
    - apply KP in K. revert K. apply LP. simpl; auto. }
  assert (EH : (map ch_lower S ++ chars "://" ++ N ++ P') ++ F' = x ++ y).
  { rewrite <- Ex. rewrite <- !app_assoc. reflexivity. }
  generalize dependent (map ch_lower S ++ chars "://" ++ N ++ P'). clear - BF' Hx Kx.
  induction x as [|a x IH]; intros H NH EH; [destruct Kx|].
  destruct H as [|b H].
  - simpl in EH. destruct BF' as [->|(r & ->)]; [discriminate|]. injection EH as <- _. apply Hx. left. auto.
  - simpl in EH. injection EH as -> EH. destruct Kx as [->|Kx].
    + apply NH. left. auto.
    + apply (IH (fun K => Hx (or_intror K)) Kx H (fun K => NH (or_intror K)) EH).
Qed.

(** ** a second validation *)
Definition casef (o : ccase) : ascii -> ascii :=
  match o with CUpper => ch_upper | CLower => ch_lower | CNone => fun c => c end.
Lemma casef_idem o x : casef o (casef o x) = casef o x.
Proof. destruct o; simpl; auto; destruct x as [[] [] [] [] [] [] [] []]; reflexivity. Qed.
Lemma casef_scheme o x : In x (letters ++ chars "0123456789+-.") ->
  In (casef o (ch_lower x)) (letters ++ chars "0123456789+-.") /\ ch_lower (casef o (ch_lower x)) = ch_lower x /\
  is_tab (casef o (ch_lower x)) = false.
Proof.
  intros H. apply scheme_letters in H. rewrite <- scheme_letters.
  destruct o, x as [[] [] [] [] [] [] [] []]; vm_compute in H; try discriminate H; vm_compute; auto.
Qed.
Lemma casef_first o x : In x letters -> In (casef o (ch_lower x)) letters /\ (32 < code (casef o (ch_lower x)))%N.
Proof.
  intros H. apply alpha_letters in H. rewrite <- alpha_letters.
  destruct o, x as [[] [] [] [] [] [] [] []]; vm_compute in H; try discriminate H; vm_compute; auto.
Qed.
Lemma drop_while_none {A} (l : list A) : drop_while (fun _ => false) l = l.
Proof. destruct l; auto. Qed.
Lemma string_nostrip o s : so_strip o = ""%string -> so_regex o = None ->
  string_validate o (VStr s) = LOk (VStr (unchars (map (casef (so_case o)) (chars s)))).
Proof.
  intros Hs Hr. unfold string_validate. rewrite Hr, Hs. unfold str_strip, strip_by.
  change (mem_ch (chars "")) with (fun _ : ascii => false). rewrite !drop_while_none, rev_involutive, unchars_chars.
  destruct (so_case o); simpl; unfold str_upper, str_lower; auto. now rewrite map_id, unchars_chars.
Qed.
Lemma map_fix f (l : list ascii) : (forall x, In x l -> f x = x) -> map f l = l.
Proof. intros H. rewrite <- (map_id l) at 2. apply map_ext_in. auto. Qed.
Lemma in_drop_while {A} (p : A -> bool) l x : In x (drop_while p l) -> In x l.
Proof. induction l as [|a l IH]; simpl; auto. destruct (p a); simpl; auto. Qed.

Lemma url_again h o v w : so_strip (uo_string o) = ""%string -> so_regex (uo_string o) = None ->
  url_validate h o v = LOk w -> url_validate h o w = LOk w.
Proof.
  intros Hs Hr H. apply url_spec in H.
  destruct H as (s & c & S & N & P & Q & F & P' & V & C & R & HN & BN & HP & ->). apply url_spec.
  set (f := casef (so_case (uo_string o))) in *.
  assert (Fs : forall x, In x (chars s) -> f x = x).
  { assert (exists s0, v = VStr s0) as [s0 ->] by (unfold string_validate in V; destruct v; try discriminate; eauto).
    rewrite string_nostrip in V by auto. injection V as <-. rewrite chars_unchars. intros x Hx.
    apply in_map_iff in Hx. destruct Hx as (y & <- & _). apply casef_idem. }
  apply clean_spec in C. unfold url_clean in C.
  assert (Fc : forall x, In x c -> f x = x /\ is_tab x = false).
  { intros x Hx. rewrite C in Hx. apply filter_In in Hx. destruct Hx as [Hx T]. apply in_drop_while in Hx.
    split; auto. now apply negb_true_iff in T. }
  destruct R as (Ec & (a & r & ES & Ha) & HS & LN & BP & LP & BQ & LQ & BF).
  destruct (kept_path _ _ _ _ HP BP) as [BP' KP].
  destruct (kept_part (uo_params o) _ _ BQ) as [BQ' KQ]. destruct (kept_part (uo_fragment o) _ _ BF) as [BF' KF].
  set (Q' := part_kept (uo_params o) Q) in *. set (F' := part_kept (uo_fragment o) F) in *.
  assert (Frest : forall x, In x (N ++ P' ++ Q' ++ F') -> f x = x /\ is_tab x = false).
  { intros x Hx. apply Fc. rewrite Ec. apply in_app_iff. right. apply in_app_iff. right.
    rewrite !in_app_iff in *. intuition. }
  set (S2 := map f (map ch_lower S)).
  assert (HS2 : Forall (fun x => In x (letters ++ chars "0123456789+-.") /\ is_tab x = false) S2).
  { apply Forall_forall. intros x Hx. unfold S2 in Hx. rewrite map_map in Hx. apply in_map_iff in Hx.
    destruct Hx as (y & <- & Hy). rewrite Forall_forall in HS. apply HS in Hy.
    destruct (casef_scheme (so_case (uo_string o)) y Hy) as (K1 & _ & K3). auto. }
  assert (LS2 : map ch_lower S2 = map ch_lower S).
  { unfold S2. rewrite !map_map. apply map_ext_in. intros y Hy. rewrite Forall_forall in HS. apply HS in Hy.
    apply (casef_scheme (so_case (uo_string o)) y Hy). }
  assert (Em : map f (map ch_lower S ++ chars "://" ++ N ++ P' ++ Q' ++ F') = S2 ++ chars "://" ++ N ++ P' ++ Q' ++ F').
  { rewrite map_app. fold S2. f_equal. rewrite map_app. f_equal.
    - unfold f. destruct (so_case (uo_string o)); reflexivity.
    - apply map_fix. intros x Hx. apply Frest. auto. }
  exists (unchars (S2 ++ chars "://" ++ N ++ P' ++ Q' ++ F')), (S2 ++ chars "://" ++ N ++ P' ++ Q' ++ F'), S2, N, P', Q', F', P'.
  split. { rewrite string_nostrip by auto. fold f. rewrite chars_unchars, Em. reflexivity. }
  split.
  { apply clean_spec. rewrite chars_unchars. unfold url_clean.
    assert (D : forall l, drop_while is_c0 (S2 ++ l) = S2 ++ l).
    { intros l. unfold S2. rewrite ES. cbn [map app drop_while].
      destruct (casef_first (so_case (uo_string o)) a Ha) as [_ K]. fold f in K. unfold is_c0 at 1.
      apply N.leb_gt in K. rewrite K. reflexivity. }
    rewrite D. symmetry. set (X := S2 ++ chars "://" ++ N ++ P' ++ Q' ++ F').
    assert (T : forall x, In x X -> is_tab x = false).
    { intros x Hx. unfold X in Hx. apply in_app_iff in Hx. destruct Hx as [Hx|Hx].
      - rewrite Forall_forall in HS2. apply HS2. auto.
      - apply in_app_iff in Hx. destruct Hx as [[<-|[<-|[<-|[]]]]|Hx]; try reflexivity. apply Frest. auto. }
    clear - T. induction X as [|x X IH]; auto. simpl. rewrite (T x) by (left; auto). simpl. f_equal. apply IH.
    intros y Hy. apply T. right. auto. }
  split.
  { split; [reflexivity|]. split.
    { exists (f (ch_lower a)), (map f (map ch_lower r)). split; [unfold S2; rewrite ES; reflexivity|].
      apply (casef_first (so_case (uo_string o)) a Ha). }
    split. { eapply Forall_impl; [|exact HS2]. intros x [K _]. exact K. }
    split; [exact LN|]. split; [exact BP'|].
    split. { intros x Hx K. apply (LP x Hx). auto. }
    split; [exact BQ'|]. split. { intros x Hx K. apply (LQ x Hx). auto. } exact BF'. }
  split; [exact HN|]. split; [exact BN|]. rewrite LS2.
  split; [eapply kept_path_again; exact HP|]. unfold Q', F'. rewrite !kept_part_again. reflexivity.
Qed.

(** ** the other outcomes *)
Lemma clean_in l x : In x (url_clean l) -> In x l.
Proof. unfold url_clean. intros H. apply filter_In in H. destruct H as [H _]. now apply in_drop_while in H. Qed.
Lemma split_scheme_in l s r x : split_scheme l = (s, r) -> In x r -> In x l.
Proof.
  unfold split_scheme. destruct (break (is ":") l) as [a b] eqn:B. pose proof (break_app (is ":") l) as A. rewrite B in A. simpl in A.
  destruct a as [|c a]; [intros [= <- <-]; auto|]. destruct b as [|d b]; [intros [= <- <-]; auto|].
  destruct (is_alpha c && forallb scheme_char (c :: a)); intros [= <- <-]; auto.
  intros H. rewrite <- A. apply in_app_iff. right. now right.
Qed.
Lemma url_outcomes h o v :
  (exists w, url_validate h o v = LOk w) \/ url_validate h o v = LErr 0 \/
  (url_validate h o v = LExc ExValue /\
   exists s, string_validate (uo_string o) v = LOk (VStr s) /\ (In "["%char (chars s) \/ In "]"%char (chars s))).
Proof.
  unfold url_validate. destruct (string_validate (uo_string o) v) as [w|n|e] eqn:V.
  - assert (exists s, w = VStr s) as [s ->].
    { unfold string_validate in V. destruct v; try discriminate. destruct (match so_regex _ with Some _ => _ | None => _ end); [discriminate|].
      injection V as <-. eauto. }
    destruct (urlparse h (chars s)) as [u|] eqn:Pu.
    + destruct (u_scheme u); [auto|]. destruct (u_netloc u); [auto|]. eauto.
    + right; right. split; auto. exists s. split; auto. unfold urlparse in Pu.
      destruct (split_scheme (url_clean (chars s))) as [sc r] eqn:S.
      destruct (split_netloc h r) as [[]|] eqn:N.
      { destruct (cut "#" _). destruct (cut "?" _). destruct (if _ && _ then _ else _). discriminate. }
      unfold split_netloc in N. destruct r as [|c [|d r]]; try discriminate.
      destruct (is "/" c && is "/" d); [|discriminate].
      destruct (break ends_netloc r) as [n rest] eqn:B. pose proof (break_app ends_netloc r) as A. rewrite B in A. simpl in A.
      destruct (netloc_ok h n) eqn:K; [discriminate|].
      assert (forall x, In x n -> In x (chars s)) as Hin.
      { intros x Hx. apply clean_in. eapply split_scheme_in; [exact S|]. do 2 right. rewrite <- A. apply in_app_iff. auto. }
      unfold netloc_ok in K. destruct (mem_ch n "[") eqn:M1.
      * left. apply Hin. now apply mem_in.
      * destruct (mem_ch n "]") eqn:M2; [|discriminate]. right. apply Hin. now apply mem_in.
  - unfold string_validate in V. destruct v; try (injection V as <-; auto).
    destruct (match so_regex _ with Some _ => _ | None => _ end); [injection V as <-; auto|discriminate].
  - unfold string_validate in V. destruct v; try discriminate. destruct (match so_regex _ with Some _ => _ | None => _ end); discriminate.
Qed.
