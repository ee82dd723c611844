(** Facts about the arguments of links. *)
From Verif Require Import World WorldFrame WorldSpec ContainerFacts GraphLimits LinkSpec LinkFacts LinkNet LinkNow Keywords KeywordsSpec KeywordsLoop LinkArgs LinkArgsSpec.
From Coq Require Import Lia ListDec.
Local Open Scope string_scope.
Local Open Scope list_scope.
Local Open Scope nat_scope.

Lemma bind_names ps : forall args kws q rest, bind_params ps args kws = Ok (q, rest) -> map fst q = map fst ps.
Proof.
  induction ps as [|[n d] ps IH]; intros [|a args] kws q rest; cbn [bind_params]; try discriminate.
  - now intros [= <- <-].
  - destruct (match dget kws n with Some v => Some v | None => d end); [|discriminate].
    destruct (bind_params ps [] (ddel kws n)) as [[q' r']|] eqn:B; [|discriminate]. intros [= <- <-]. cbn. f_equal. eauto.
  - destruct (dhas kws n); [discriminate|]. destruct (bind_params ps args kws) as [[q' r']|] eqn:B; [|discriminate]. intros [= <- <-]. cbn. f_equal. eauto.
Qed.
Lemma no_keys (d : dict val) : (forall key, dget d key = None) -> d = [].
Proof. destruct d as [|[k v] d]; [reflexivity|]. intros H. specialize (H k). cbn in H. now rewrite String.eqb_refl in H. Qed.
Lemma params_nodup : NoDup (map fst dlink_params).
Proof. repeat constructor; cbn; intuition discriminate. Qed.
Lemma dhas_none (d : dict val) key : dhas d key = false <-> dget d key = None.
Proof. unfold dhas. destruct (dget d key); split; congruence. Qed.
Lemma bind_ret {A B D} (m : M A) (x : B) (k : B -> M D) w : bind (bind m (fun _ => ret x)) k w = bind m (fun _ => k x) w.
Proof. unfold bind. destruct (m w) as [[|] ?]; reflexivity. Qed.
Lemma bind_same {A B} (m : M A) (f g : A -> M B) w : (forall a w', f a w' = g a w') -> bind m f w = bind m g w.
Proof. intros H. unfold bind. destruct (m w) as [[|] ?]; auto. Qed.
Lemma twice_in {A} (D : forall x y : A, {x = y} + {x <> y}) : forall l : list A, ~ NoDup l -> exists a l1 l2 l3, l = l1 ++ a :: l2 ++ a :: l3.
Proof.
  induction l as [|x l IH]; intros H; [destruct (H (NoDup_nil _))|]. destruct (in_dec D x l) as [Hin|Hin].
  - apply in_split in Hin as (l2 & l3 & ->). exists x, [], l2, l3. reflexivity.
  - destruct IH as (a & l1 & l2 & l3 & ->); [intros N; apply H; now constructor|]. exists a, (x :: l1), l2, l3. reflexivity.
Qed.
Section Call.
  Variables (args : list val) (kws : dict val).
  Lemma given_key i name d v : argument args kws i name d = Some v -> i < length args -> ~ In name (map fst kws).
  Proof.
    unfold argument. intros H Hi. apply nth_error_Some in Hi. destruct (nth_error args i); [|congruence].
    destruct (dget kws name) eqn:Hd; [discriminate|]. rewrite <- dhas_in. apply dhas_none in Hd. congruence.
  Qed.
  Lemma dir_argument i name d v : position name (map fst dlink_params) = Some i -> dget dlink_params name = Some d ->
    argument args kws i name d = Some v -> dir dlink_params args kws name = Some v.
  Proof. unfold dir, argument. intros -> ->. destruct (nth_error args i), (dget kws name); congruence. Qed.
  Lemma called_bind s t now chg tr : called_with args kws s t now chg tr ->
    bind_params dlink_params args kws = Ok ([("source", s); ("target", t); ("update_now", now); ("change_only", chg); ("transform", tr)], []).
  Proof.
    intros (Hl & Hk & H0 & H1 & H2 & H3 & H4).
    pose proof (dir_argument 0 "source" _ _ eq_refl eq_refl H0) as D0. pose proof (dir_argument 1 "target" _ _ eq_refl eq_refl H1) as D1.
    pose proof (dir_argument 2 "update_now" _ _ eq_refl eq_refl H2) as D2. pose proof (dir_argument 3 "change_only" _ _ eq_refl eq_refl H3) as D3.
    pose proof (dir_argument 4 "transform" _ _ eq_refl eq_refl H4) as D4.
    assert (F : fits dlink_params args kws).
    { split; [exact Hl|]. split.
      - intros i key Hp Hi. cbn [dlink_params map fst position] in Hp.
        repeat match type of Hp with context [String.eqb ?a key] => destruct (String.eqb_spec a key) as [X|_]; [subst key|]; cbn [option_map] in Hp end;
          try discriminate; injection Hp as <-; eapply given_key; eauto.
      - intros key Hin. cbn [dlink_params map fst In] in Hin. intuition (subst key; congruence). }
    destruct (bind_fits _ _ _ params_nodup F) as (q & rest & B). pose proof (bind_names _ _ _ _ _ B) as N.
    destruct (bind_spec _ _ _ _ _ params_nodup B) as (G1 & _ & G3 & _).
    assert (rest = []) as ->.
    { apply no_keys. intros key. destruct (in_dec string_dec key (map fst dlink_params)) as [Hin|Hin]; [now apply G1|].
      rewrite G3 by exact Hin. apply dhas_none. destruct (dhas kws key) eqn:X; [|reflexivity]. destruct (Hin (Hk key X)). }
    rewrite B. f_equal. f_equal.
    do 6 (destruct q as [|[? ?] q]; [try discriminate N|]); [|discriminate N]. cbn in N. injection N as -> -> -> -> ->.
    pose proof (proj1 (G1 "source" ltac:(cbn; tauto))) as K0. pose proof (proj1 (G1 "target" ltac:(cbn; tauto))) as K1.
    pose proof (proj1 (G1 "update_now" ltac:(cbn; tauto))) as K2. pose proof (proj1 (G1 "change_only" ltac:(cbn; tauto))) as K3.
    pose proof (proj1 (G1 "transform" ltac:(cbn; tauto))) as K4.
    rewrite D0 in K0. rewrite D1 in K1. rewrite D2 in K2. rewrite D3 in K3. rewrite D4 in K4. cbn in K0, K1, K2, K3, K4. congruence.
  Qed.
  Lemma bind_called q : bind_params dlink_params args kws = Ok (q, []) ->
    exists s t now chg tr, called_with args kws s t now chg tr.
  Proof.
    intros B. destruct (bind_spec _ _ _ _ _ params_nodup B) as (G1 & (F1 & F2 & F3) & G3 & _).
    assert (A : forall i name d, position name (map fst dlink_params) = Some i -> dget dlink_params name = Some d -> exists v, argument args kws i name d = Some v).
    { intros i name d Hp Hd. specialize (F3 name). unfold dir in F3. rewrite Hp, Hd in F3. unfold argument.
      assert (Hin : In name (map fst dlink_params)) by (apply position_in; congruence). specialize (F3 Hin).
      destruct (nth_error args i) eqn:En.
      - assert (dget kws name = None) as ->; [|eauto]. apply dhas_none. destruct (dhas kws name) eqn:X; [|reflexivity].
        exfalso. apply (F2 i name Hp); [apply nth_error_Some; congruence|now apply dhas_in].
      - destruct (dget kws name); [eauto|]. destruct d; [eauto|congruence]. }
    destruct (A 0 "source" _ eq_refl eq_refl) as [s Hs]. destruct (A 1 "target" _ eq_refl eq_refl) as [t Ht].
    destruct (A 2 "update_now" _ eq_refl eq_refl) as [now Hn]. destruct (A 3 "change_only" _ eq_refl eq_refl) as [chg Hc].
    destruct (A 4 "transform" _ eq_refl eq_refl) as [tr Htr].
    exists s, t, now, chg, tr. split; [exact F1|]. split; [|auto].
    intros key Hk. destruct (in_dec string_dec key (map fst dlink_params)) as [Hin|Hin]; [exact Hin|].
    apply G3 in Hin. cbn in Hin. apply dhas_none in Hk || (unfold dhas in Hk; now rewrite <- Hin in Hk).
  Qed.
End Call.

Section Facts.
  Variables (E : env) (C : ctable) (U : ucode) (kinds : nat -> callee).
  Notation ex := (exec E C U).

  Lemma call_eq n args kws s t now chg tr : called_with args kws s t now chg tr ->
    dlink_call E C U (ex n) kinds args kws = dlink_init E C U (ex n) kinds s t now chg tr.
  Proof. intros H. unfold dlink_call. now rewrite (called_bind _ _ _ _ _ _ _ H). Qed.
  Lemma not_called n args kws w : (forall s t now chg tr, ~ called_with args kws s t now chg tr) ->
    dlink_call E C U (ex n) kinds args kws w = (Exc ExType, w).
  Proof.
    intros H. unfold dlink_call. destruct (bind_params dlink_params args kws) as [[q rest]|e] eqn:B; [|now rewrite (bind_exc _ _ _ _ B)].
    destruct rest.
    - destruct (bind_called _ _ _ B) as (s & t & now & chg & tr & K). destruct (H _ _ _ _ _ K).
    - repeat (destruct q as [|[? ?] q]; try reflexivity).
  Qed.

  Lemma transform_ok v g : transform_as kinds v g -> set_transform kinds v = Ok g.
  Proof. intros [(-> & ->)|(t & -> & -> & [K|K])]; cbn [set_transform]; [reflexivity|now rewrite K|now rewrite K]. Qed.
  Lemma transform_bad v : (forall g, ~ transform_as kinds v g) -> set_transform kinds v = Exc ExValue.
  Proof.
    intros H. destruct v as [| | | | | | | | |o| | | | |]; try reflexivity.
    - destruct (H None). now left.
    - cbn [set_transform]. destruct (kinds o) as [| |a] eqn:K; [reflexivity| |].
      + destruct (H (Some o)). right. eauto.
      + destruct (Nat.eqb_spec a 1) as [->|]; [|reflexivity]. destruct (H (Some o)). right. eauto.
  Qed.

  Lemma link_made n args kws s t now chg tr g w : called_with args kws (pair_of s) (pair_of t) now chg tr -> transform_as kinds tr g ->
    dlink_call E C U (ex n) kinds args kws w = ex (S n) (COp (OLink s t (truthy now) (truthy chg) g)) w.
  Proof.
    intros H G. rewrite (call_eq _ _ _ _ _ _ _ _ H). cbn [exec step]. unfold dlink_init, dlink_new, pair_of, validate_item.
    destruct s as [l a], t as [m b]. cbn [fst snd]. rewrite bind_ret. apply bind_same. intros [] w1. rewrite bind_ret. apply bind_same. intros [] w2.
    rewrite (transform_ok _ _ G). lazymatch goal with |- (if ?b1 then _ else _) _ = (if ?b2 then _ else _) _ => change b2 with b1; destruct b1; reflexivity end.
  Qed.

  Lemma good_validate n v w : good_item C w v -> exists a, v = pair_of a /\ linkable C w a /\ validate_item E C U (ex n) v w = (Ok a, w).
  Proof.
    intros ([l a] & -> & Hl). exists (l, a). split; [reflexivity|]. split; [exact Hl|]. destruct Hl as (p & Hp). cbn [pair_of fst snd validate_item].
    unfold bind. now rewrite (proj2 (settable_item E C U w (l, a) p Hp)).
  Qed.
  Lemma bad_validate n v w : bad_item C w v -> validate_item E C U (ex n) v w = (Exc ExValue, w).
  Proof.
    intros [H|([l a] & -> & Hl)].
    - unfold validate_item. destruct v as [| | | | | | | | | |q| | | |]; try reflexivity. destruct q as [|x [|y [|]]]; try reflexivity.
      + destruct x; reflexivity || destruct y; reflexivity || idtac.
        destruct (H (l, s)). reflexivity.
    - cbn [pair_of fst snd validate_item]. unfold bind. now rewrite (lacks_item E C U w (l, a) Hl).
  Qed.
  Lemma pair_inj a b : pair_of a = pair_of b -> a = b.
  Proof. destruct a, b. unfold pair_of. cbn. congruence. Qed.
  Lemma link_refused n args kws src tgt now chg tr w : called_with args kws src tgt now chg tr ->
    good_item C w src \/ bad_item C w src -> good_item C w tgt \/ bad_item C w tgt ->
    bad_item C w src \/ bad_item C w tgt \/ src = tgt \/ (forall g, ~ transform_as kinds tr g) ->
    dlink_call E C U (ex n) kinds args kws w = (Exc ExValue, w).
  Proof.
    intros H Hs Ht X. rewrite (call_eq _ _ _ _ _ _ _ _ H). unfold dlink_init.
    destruct Hs as [Hs|Hs]; [|unfold bind at 1; now rewrite (bad_validate n _ _ Hs)].
    destruct (good_validate n _ _ Hs) as (a & -> & La & Va). rewrite (bind_eq _ _ _ _ _ Va).
    destruct Ht as [Ht|Ht]; [|unfold bind at 1; now rewrite (bad_validate n _ _ Ht)].
    destruct (good_validate n _ _ Ht) as (b & -> & Lb & Vb). rewrite (bind_eq _ _ _ _ _ Vb).
    destruct (item_eqb_spec a b) as [|Hne]; [reflexivity|].
    destruct X as [X|[X|[X|X]]].
    - pose proof (bad_validate n _ _ X). congruence.
    - pose proof (bad_validate n _ _ X). congruence.
    - destruct (Hne (pair_inj _ _ X)).
    - unfold bind at 1. now rewrite (transform_bad _ X).
  Qed.

  (** ** [link] *)
  Lemma pair_called a b kws : only_keys kws ["update_now"; "change_only"; "transform"] ->
    called_with [a; b] kws a b (opt kws "update_now" (VBool false)) (opt kws "change_only" (VBool true)) (opt kws "transform" VNone).
  Proof.
    intros H. assert (K : forall key, ~ In key ["update_now"; "change_only"; "transform"] -> dget kws key = None).
    { intros key Hn. apply dhas_none. destruct (dhas kws key) eqn:X; [destruct (Hn (H key X))|reflexivity]. }
    split; [cbn; lia|]. split; [intros key X; specialize (H key X); cbn in *; tauto|].
    unfold argument, opt. cbn [nth_error]. rewrite (K "source"), (K "target") by (cbn; intuition discriminate).
    repeat split; match goal with |- context [dget kws ?k] => destruct (dget kws k) end; reflexivity.
  Qed.
  Lemma pair_misfit a b kws key : dhas kws key = true -> ~ In key ["update_now"; "change_only"; "transform"] ->
    forall s t now chg tr, ~ called_with [a; b] kws s t now chg tr.
  Proof.
    intros Hk Hn s t now chg tr (_ & H & Hs & Ht & _). specialize (H key Hk). unfold argument in Hs, Ht. cbn [nth_error] in Hs, Ht. unfold dhas in Hk.
    cbn [In] in H, Hn. destruct H as [<-|[<-|H]]; [..|tauto]; [destruct (dget kws "source")|destruct (dget kws "target")]; discriminate.
  Qed.
  Definition pairs {A} (items : list A) : list (A * A) :=
    flat_map (fun i => flat_map (fun j =>
        if Nat.eqb i j then [] else
        match nth_error items i, nth_error items j with
        | Some a, Some b => [(a, b)]
        | _, _ => []
        end) (seq 0 (length items))) (seq 0 (length items)).
  Lemma in_pairs {A} (items : list A) a b : In (a, b) (pairs items) <->
    exists i j, i <> j /\ nth_error items i = Some a /\ nth_error items j = Some b.
  Proof.
    unfold pairs. split.
    - intros H. apply in_flat_map in H as (i & _ & H). apply in_flat_map in H as (j & _ & H). cbn beta in H.
      destruct (Nat.eqb_spec i j) as [|Hn]; [destruct H|]. exists i, j. split; [exact Hn|].
      destruct (nth_error items i); [|destruct H]. destruct (nth_error items j); [|destruct H]. destruct H as [H|[]]. injection H as <- <-. auto.
    - intros (i & j & Hn & Hi & Hj). apply in_flat_map. exists i. split; [apply in_seq; split; [lia|]; apply nth_error_Some; congruence|].
      apply in_flat_map. exists j. split; [apply in_seq; split; [lia|]; apply nth_error_Some; congruence|].
      destruct (Nat.eqb_spec i j); [contradiction|]. rewrite Hi, Hj. now left.
  Qed.
  Lemma map_flat {A B D} (f : B -> D) (g : A -> list B) l : map f (flat_map g l) = flat_map (fun a => map f (g a)) l.
  Proof. induction l as [|a l IH]; cbn; [reflexivity|]. now rewrite map_app, IH. Qed.
  Lemma flat_map_same {A B} (f g : A -> list B) l : (forall a, f a = g a) -> flat_map f l = flat_map g l.
  Proof. intros H. induction l as [|a l IH]; cbn; [reflexivity|]. now rewrite H, IH. Qed.
  Lemma pairs_map {A B} (f : A -> B) items : pairs (map f items) = map (fun ab => (f (fst ab), f (snd ab))) (pairs items).
  Proof.
    unfold pairs. rewrite map_length, map_flat. apply flat_map_same. intros i. rewrite map_flat. apply flat_map_same. intros j.
    destruct (Nat.eqb i j); [reflexivity|]. rewrite !nth_error_map. destruct (nth_error items i), (nth_error items j); reflexivity.
  Qed.
  Lemma mapM_of_map {A B D} (f : B -> M D) (g : A -> B) l : forall w, mapM f (map g l) w = mapM (fun a => f (g a)) l w.
  Proof.
    induction l as [|a l IH]; intros w; [reflexivity|]. cbn [map mapM]. apply bind_same. intros x w1. unfold bind. now rewrite IH.
  Qed.
  Lemma no_self kws : only_keys kws ["update_now"; "change_only"; "transform"] -> dhas kws "self" = false.
  Proof. intros H. destruct (dhas kws "self") eqn:X; [|reflexivity]. specialize (H _ X). cbn in H. intuition discriminate. Qed.
  Lemma link_call_eq n items kws w : only_keys kws ["update_now"; "change_only"; "transform"] -> opt kws "transform" VNone = VNone -> 2 <= length items ->
    link_call E C U (ex n) kinds items kws w =
    (let* ks := mapM (fun ab => dlink_call E C U (ex n) kinds [fst ab; snd ab] kws) (pairs items) in ret (VList ks)) w.
  Proof.
    intros H Ht Hl. unfold link_call. rewrite (no_self _ H). apply Nat.ltb_ge in Hl. rewrite Hl. unfold opt in Ht.
    destruct (dget kws "transform") as [v|]; [subst v|]; reflexivity.
  Qed.
  Lemma link_is_all n items kws w : only_keys kws ["update_now"; "change_only"; "transform"] -> opt kws "transform" VNone = VNone -> 2 <= length items ->
    link_call E C U (ex n) kinds (map pair_of items) kws w =
    ex (S n) (COp (OLinkAll items (truthy (opt kws "update_now" (VBool false))) (truthy (opt kws "change_only" (VBool true))))) w.
  Proof.
    intros H Ht Hl. rewrite (link_call_eq n) by (try rewrite map_length; assumption). cbn [exec step]. unfold link_all.
    assert (@length (loc * string) items <? 2 = false) as -> by (apply Nat.ltb_ge; exact Hl).
    cbv zeta. unfold bind. rewrite pairs_map, mapM_of_map. cbn [fst snd].
    rewrite (mapM_ext _ (fun ab : item * item => dlink_new E C U (ex n) (fst ab) (snd ab) (truthy (opt kws "update_now" (VBool false))) (truthy (opt kws "change_only" (VBool true))) None));
      [reflexivity|].
    intros [a b] w1. cbn [fst snd]. pose proof (pair_called (pair_of a) (pair_of b) kws H) as Q. rewrite Ht in Q.
    apply (link_made n _ _ a b _ _ VNone None w1 Q). now left.
  Qed.
  Lemma link_kept n items kws w : dhas kws "self" = false -> length items < 2 \/ opt kws "transform" VNone <> VNone ->
    link_call E C U (ex n) kinds items kws w = (Exc ExValue, w).
  Proof.
    intros Hs H. unfold link_call. rewrite Hs. destruct (Nat.ltb_spec (length items) 2) as [|Hl]; [reflexivity|].
    destruct H as [H|H]; [lia|]. unfold opt in H. destruct (dget kws "transform") as [[]|]; congruence || reflexivity.
  Qed.
  Lemma pairs_some {A} (items : list A) : 2 <= length items -> exists a b ps, pairs items = (a, b) :: ps.
  Proof.
    intros H. destruct items as [|a [|b items]]; cbn in H; try lia.
    assert (X : In (a, b) (pairs (a :: b :: items))) by (apply in_pairs; exists 0, 1; cbn; auto).
    destruct (pairs (a :: b :: items)) as [|[x y] ps]; [destruct X|eauto].
  Qed.
  Lemma link_unknown n items kws key w : dhas kws key = true -> ~ In key ["update_now"; "change_only"; "transform"] ->
    2 <= length items -> opt kws "transform" VNone = VNone -> link_call E C U (ex n) kinds items kws w = (Exc ExType, w).
  Proof.
    intros Hk Hn Hl Ht. unfold link_call. destruct (dhas kws "self"); [reflexivity|]. apply Nat.ltb_ge in Hl as Hl'. rewrite Hl'.
    assert (match dget kws "transform" with None | Some VNone => false | _ => true end = false) as ->.
    { unfold opt in Ht. destruct (dget kws "transform") as [v|]; [subst v|]; reflexivity. }
    cbv zeta. fold (pairs items). destruct (pairs_some items Hl) as (a & b & ps & ->). cbn [mapM fst snd]. unfold bind.
    now rewrite (not_called n [a; b] kws w (pair_misfit a b kws key Hk Hn)).
  Qed.

  (** ** When it succeeds *)
  Lemma one_made n s t chg w : linkable C w s -> linkable C w t -> s <> t ->
    exists k w', ex (S n) (COp (OLink s t false chg None)) w = (Ok (VObj k), w') /\
      forall l i, nth_error (w_heap w) l = Some i -> exists j, nth_error (w_heap w') l = Some j /\ i_cls j = i_cls i /\ i_attrs j = i_attrs i.
  Proof.
    intros (p & Hs) (q & Ht) Hne. pose (k := length (w_links w)). pose (d := DL s t None false false). pose (w1 := with_link w d).
    assert (Hs1 : settable C w1 s p) by exact Hs.
    exists (length (w_links w)), (with_listener w1 s (if chg then MChange else MSet) (length (w_links w))). split.
    - cbn [exec step]. rewrite (dlink_eq E C U _ s t p q) by assumption. unfold dlink_rest. destruct (item_eqb_spec s t); [contradiction|].
      destruct Hs1 as (_ & d0 & (c & (i & Hi & Hci) & _) & _).
      assert (Hcl : inst_class C (fst s) w1 = (Ok c, w1)). { unfold inst_class, class_of, get_inst, bind, lift. now rewrite Hi, Hci. }
      unfold bind at 1, get_w. cbv zeta. unfold bind at 1, mod_w. change (w_setlinks (w_links w ++ [DL s t None false false]) w) with w1.
      unfold bind at 1, ret at 1. unfold has_observe. unfold bind at 1. unfold bind at 1. rewrite Hcl. reflexivity.
    - intros l i Hi. unfold with_listener. destruct (Nat.eq_dec (fst s) l) as [<-|N].
      + rewrite w_upd_nth_same. change (w_heap w1) with (w_heap w). rewrite Hi. cbn. eauto.
      + rewrite w_upd_nth_other by exact N. change (w_heap w1) with (w_heap w). eauto.
  Qed.
  Definition keeps (w w' : world) : Prop :=
    forall l i, nth_error (w_heap w) l = Some i -> exists j, nth_error (w_heap w') l = Some j /\ i_cls j = i_cls i /\ i_attrs j = i_attrs i.
  Lemma keeps_good w w' v : keeps w w' -> good_item C w v -> good_item C w' v.
  Proof.
    intros K (a & -> & p & Hp & d & (c & (i & Hi & Hc) & Hd) & R). exists a. split; [reflexivity|]. exists p. split; [exact Hp|]. exists d. split; [|exact R].
    destruct (K _ _ Hi) as (j & Hj & Ej & _). exists c. split; [|exact Hd]. exists j. split; [exact Hj|]. now rewrite Ej.
  Qed.
  Lemma keeps_bad w w' v : keeps w w' -> bad_item C w v -> bad_item C w' v.
  Proof.
    intros K [H|(a & -> & c & i & Hi & Hc & H1 & H2 & H3)]; [now left|]. right. exists a. split; [reflexivity|].
    destruct (K _ _ Hi) as (j & Hj & Ej & Aj). exists c, j. rewrite Ej, Aj. auto.
  Qed.
  Definition known (w : world) (v : val) : Prop := good_item C w v \/ bad_item C w v.
  Lemma known_keeps w w' v : keeps w w' -> known w v -> known w' v.
  Proof. intros K [H|H]; [left; eapply keeps_good|right; eapply keeps_bad]; eauto. Qed.
  Definition wrong (w : world) (ab : val * val) : Prop := bad_item C w (fst ab) \/ bad_item C w (snd ab) \/ fst ab = snd ab.

  Section Fails.
    Variables (kws : dict val) (n : nat).
    Hypothesis Hk : only_keys kws ["update_now"; "change_only"; "transform"].
    Hypothesis Ht : opt kws "transform" VNone = VNone.
    Hypothesis Hn : truthy (opt kws "update_now" (VBool false)) = false.
    Notation make := (fun ab : val * val => dlink_call E C U (ex n) kinds [fst ab; snd ab] kws).
    Lemma wrong_dec w v : known w v -> bad_item C w v \/ ~ bad_item C w v /\ good_item C w v.
    Proof.
      intros [H|H]; [right|now left]. split; [|exact H]. intros B. destruct (good_validate n _ _ H) as (a & _ & _ & G). pose proof (bad_validate n _ _ B). congruence.
    Qed.
    Lemma some_wrong : forall ps w, (forall ab, In ab ps -> known w (fst ab) /\ known w (snd ab)) -> (exists ab, In ab ps /\ wrong w ab) ->
      exists w', mapM make ps w = (Exc ExValue, w').
    Proof.
      induction ps as [|[a b] ps IH]; intros w Hps (x & Hin & Hw); [destruct Hin|].
      destruct (Hps (a, b) (or_introl eq_refl)) as [Ka Kb]. cbn [fst snd] in Ka, Kb.
      pose proof (pair_called a b kws Hk) as Q.
      assert (X : wrong w (a, b) \/ exists s t, a = pair_of s /\ b = pair_of t /\ linkable C w s /\ linkable C w t /\ s <> t).
      { destruct (wrong_dec w a Ka) as [Ba|(_ & s & -> & Ls)]; [left; now left|]. destruct (wrong_dec w b Kb) as [Bb|(_ & t & -> & Lt)]; [left; right; now left|].
        destruct (item_eqb_spec s t) as [->|N]; [left; right; right; reflexivity|]. right. exists s, t. auto. }
      destruct X as [X|(s & t & -> & -> & Ls & Lt & N)].
      - exists w. cbn [mapM]. unfold bind at 1. cbn [fst snd].
        rewrite (link_refused n _ _ _ _ _ _ _ w Q Ka Kb); [reflexivity|]. unfold wrong in X. cbn [fst snd] in X. tauto.
      - assert (G : transform_as kinds (opt kws "transform" VNone) None) by (left; auto).
        pose proof (link_made n _ _ s t _ _ _ _ w Q G) as M1. rewrite Hn in M1.
        destruct (one_made n s t (truthy (opt kws "change_only" (VBool true))) w Ls Lt N) as (k & w1 & E1 & K1). rewrite E1 in M1.
        destruct Hin as [<-|Hin].
        { exfalso. destruct Hw as [Hw|[Hw|Hw]]; cbn [fst snd] in Hw.
          - pose proof (bad_validate n _ _ Hw). destruct (good_validate n (pair_of s) w) as (? & _ & _ & ?); [exists s; auto|congruence].
          - pose proof (bad_validate n _ _ Hw). destruct (good_validate n (pair_of t) w) as (? & _ & _ & ?); [exists t; auto|congruence].
          - apply N. now apply pair_inj. }
        destruct (IH w1) as (w2 & E2).
        { intros ab Hab. destruct (Hps ab (or_intror Hab)) as [A B]. split; eapply known_keeps; eauto. }
        { exists x. split; [exact Hin|]. destruct Hw as [Hw|[Hw|Hw]]; [left|right; left|right; right; exact Hw]; eapply keeps_bad; eauto. }
        exists w2. cbn [mapM]. cbn [fst snd]. rewrite (bind_eq _ _ _ _ _ M1). unfold bind at 1. now rewrite E2.
    Qed.
    Lemma all_good w : forall items, (forall v, In v items -> known w v) ->
      (exists v, In v items /\ bad_item C w v) \/ exists l, items = map pair_of l /\ forall a, In a l -> linkable C w a.
    Proof.
      induction items as [|v items IH]; intros H; [right; exists []; split; [reflexivity|intros ? []]|].
      destruct (H v (or_introl eq_refl)) as [(a & -> & La)|B]; [|left; exists v; split; [now left|exact B]].
      destruct IH as [(x & Hx & B)|(l & -> & Hl)]; [intros y Hy; apply H; now right|left; exists x; split; [now right|exact B]|].
      right. exists (a :: l). split; [reflexivity|]. intros y [<-|Hy]; auto.
    Qed.
    Lemma link_result items w : 2 <= length items -> (forall v, In v items -> known w v) ->
      ((forall v, In v items -> good_item C w v) /\ NoDup items /\ exists r w', link_call E C U (ex n) kinds items kws w = (Ok r, w')) \/
      (((exists v, In v items /\ bad_item C w v) \/ ~ NoDup items) /\ exists w', link_call E C U (ex n) kinds items kws w = (Exc ExValue, w')).
    Proof.
      intros Hl H.
      assert (Hps : forall ab, In ab (pairs items) -> known w (fst ab) /\ known w (snd ab)).
      { intros [a b] Hab. apply in_pairs in Hab as (i & j & _ & Hi & Hj). split; apply H; eapply nth_error_In; eauto. }
      assert (F : (exists ab, In ab (pairs items) /\ wrong w ab) -> exists w', link_call E C U (ex n) kinds items kws w = (Exc ExValue, w')).
      { intros X. destruct (some_wrong (pairs items) w Hps X) as (w' & M1). exists w'. rewrite (link_call_eq n) by assumption. unfold bind at 1. now rewrite M1. }
      destruct (all_good w items H) as [(v & Hv & B)|(l & -> & Ll)].
      - right. split; [left; eauto|]. apply F. apply In_nth_error in Hv as (i & Hi).
        assert (exists j b, i <> j /\ nth_error items j = Some b) as (j & b & Hij & Hj).
        { destruct items as [|x [|y items]]; cbn in Hl; try lia. destruct i; [exists 1, y|exists 0, x]; split; auto. }
        exists (v, b). split; [apply in_pairs; eauto|left; exact B].
      - assert (D : forall x y : item, {x = y} + {x <> y}) by (intros; repeat decide equality).
        destruct (NoDup_dec D l) as [Nd|Nd].
        + left. split; [intros v Hv; apply in_map_iff in Hv as (a & <- & Ha); exists a; auto|]. split.
          { apply FinFun.Injective_map_NoDup; [intros x y; apply pair_inj|exact Nd]. }
          rewrite map_length in Hl. rewrite (link_is_all n l kws w Hk Ht Hl), Hn.
          destruct (link_all_joined E C U n l (truthy (opt kws "change_only" (VBool true))) w Nd Hl Ll) as (w' & -> & _). eauto.
        + right. split.
          { right. intros X. apply Nd. now apply NoDup_map_inv in X. }
          apply F. destruct (twice_in D l Nd) as (a & l1 & l2 & l3 & El). subst l.
          exists (pair_of a, pair_of a). split; [|right; right; reflexivity]. apply in_pairs. exists (length l1), (length l1 + S (length l2)).
          split; [lia|]. rewrite !nth_error_map. rewrite nth_error_app2, Nat.sub_diag by lia. split; [reflexivity|].
          rewrite nth_error_app2 by lia. replace (length l1 + S (length l2) - length l1) with (S (length l2)) by lia. cbn [nth_error].
          rewrite nth_error_app2, Nat.sub_diag by lia. reflexivity.
    Qed.
  End Fails.
End Facts.

Lemma plain_check f : plain f -> (positional f = 1 <-> takes_one f).
Proof. intros (H1 & H2 & H3 & H4). unfold takes_one. rewrite H1, H2, H3, H4. intuition (lia || congruence). Qed.
