(** Comparison, validation and serialization end, and leave every existing
    object as it is. *)
From Verif Require Import World LeafFacts WorldFrame WorldSpec AccessSpec GraphSpec GraphConv.
Local Open Scope string_scope.
Local Open Scope list_scope.
Local Open Scope nat_scope.

(** * Values *)
Lemma below_list N l : forallb (below N) l = true <-> Forall (fun x => below N x = true) l.
Proof. rewrite forallb_forall, Forall_forall. reflexivity. Qed.
Lemma below_iter N v l : below N v = true -> py_iter v = Ok l -> Forall (fun x => below N x = true) l.
Proof.
  intros H. destruct v as [| | | | | |s| | | | | | |d|]; cbn [py_iter]; try discriminate; intros K; injection K as <-;
    try (apply below_list; exact H).
  - apply Forall_forall. intros x Hx. apply in_map_iff in Hx. destruct Hx as (c & <- & _). reflexivity.
  - cbn [below] in H. rewrite forallb_forall in H. apply Forall_forall. intros x Hx.
    apply in_map_iff in Hx. destruct Hx as ([a b] & <- & Hab). apply H in Hab. apply andb_true_iff in Hab. tauto.
Qed.
Lemma dedup_forall (Q : val -> Prop) l : forall acc, Forall Q l -> Forall Q acc -> Forall Q (dedup l acc).
Proof.
  induction l as [|x l IH]; intros acc Hl Ha; cbn [dedup]; auto. inversion Hl; subst. apply IH; auto.
  destruct mem_val; auto. apply Forall_app. auto.
Qed.
Lemma below_build N k l v : Forall (fun x => below N x = true) l -> build k l = Ok v -> below N v = true.
Proof.
  intros H. destruct k; cbn [build].
  - intros K. injection K as <-. cbn [below]. now apply below_list.
  - intros K. injection K as <-. cbn [below]. now apply below_list.
  - unfold py_set. destruct forallb; cbn [rbind]; [|discriminate]. intros K. injection K as <-. cbn [below].
    apply below_list. apply dedup_forall; auto.
Qed.
Definition pbelow N (kx : val * val) : Prop := below N (fst kx) = true /\ below N (snd kx) = true.
Lemma below_dict N d : below N (VDict d) = true <-> Forall (pbelow N) d.
Proof.
  cbn [below]. rewrite forallb_forall, Forall_forall. split; intros H x Hx.
  - specialize (H x Hx). apply andb_true_iff in H. exact H.
  - apply andb_true_iff. exact (H x Hx).
Qed.
Lemma vd_set_pbelow N d k v : Forall (pbelow N) d -> below N k = true -> below N v = true -> Forall (pbelow N) (vd_set d k v).
Proof.
  intros H Hk Hv. induction d as [|[k' v'] d IH]; cbn [vd_set].
  - repeat constructor; auto.
  - inversion H as [|? ? [H1 H2] H3]; subst. destruct py_eq; constructor; auto; split; auto.
Qed.
Lemma dict_of_pairs_pbelow N ps : forall acc d, Forall (pbelow N) ps -> Forall (pbelow N) acc ->
  dict_of_pairs ps acc = Ok d -> Forall (pbelow N) d.
Proof.
  induction ps as [|[k v] ps IH]; intros acc d H Ha; cbn [dict_of_pairs]; [intros K; now injection K as <-|].
  inversion H as [|? ? [H1 H2] H3]; subst. destruct hashable; [|discriminate]. apply IH; auto.
  apply vd_set_pbelow; auto.
Qed.
Lemma pair_of_pbelow N v p : below N v = true -> pair_of v = Ok p -> pbelow N p.
Proof.
  unfold pair_of. intros H. destruct (py_iter v) as [l|e] eqn:E; [|discriminate].
  apply (below_iter N) in E; auto. destruct l as [|a [|b [|? ?]]]; try discriminate. intros K. injection K as <-.
  inversion E as [|? ? E1 E2]; subst. inversion E2; subst. split; auto.
Qed.
Lemma all_pairs_pbelow N l : forall ps, Forall (fun x => below N x = true) l -> all_pairs l = Ok ps -> Forall (pbelow N) ps.
Proof.
  induction l as [|x l IH]; intros ps H; cbn [all_pairs]; [intros K; injection K as <-; constructor|].
  inversion H; subst. destruct (pair_of x) as [p|e] eqn:Ep; cbn [rbind]; [|discriminate].
  destruct (all_pairs l) as [qs|e] eqn:Eq; cbn [rbind]; [|discriminate]. intros K. injection K as <-.
  constructor; auto. eapply pair_of_pbelow; eauto.
Qed.
Lemma below_pydict N v d : below N v = true -> py_dict v = Ok d -> Forall (pbelow N) d.
Proof.
  intros H. assert (G : rbind (py_iter v) (fun l => rbind (all_pairs l) (fun ps => dict_of_pairs ps [])) = Ok d -> Forall (pbelow N) d).
  { destruct (py_iter v) as [l|e] eqn:E; cbn [rbind]; [|discriminate]. apply (below_iter N) in E; auto.
    destruct (all_pairs l) as [ps|e] eqn:Ep; cbn [rbind]; [|discriminate]. apply (all_pairs_pbelow N) in Ep; auto.
    apply dict_of_pairs_pbelow; auto. }
  destruct v as [| | | | | | | | | | | | |d'|]; cbn [py_dict]; try exact G. intros K. injection K as <-. now apply below_dict.
Qed.
Lemma color_components_below N l v : color_components l = LOk v -> below N v = true.
Proof.
  unfold color_components. destruct Nat.eqb; [|discriminate]. destruct forallb eqn:H; [|discriminate].
  intros K. injection K as <-. cbn [below]. rewrite forallb_forall in *. intros x Hx. specialize (H x Hx).
  destruct x; try discriminate; reflexivity.
Qed.
Lemma leaf_below E N r t v v' : below N v = true -> leaf_validate E r t v = LOk v' -> below N v' = true.
Proof.
  intros H. destruct t; cbn [leaf_validate].
  - intros K. now injection K as <-.
  - unfold bool_validate. destruct cast; [intros K; now injection K as <-|]. destruct v; try discriminate; intros K; now injection K as <-.
  - unfold int_validate. destruct (py_int v) as [z|e]; [|destruct e; discriminate].
    destruct (if cast then _ else _) as [[|]|e]; [discriminate| |destruct e; discriminate].
    destruct in_bounds; [|discriminate]. intros K. now injection K as <-.
  - unfold float_validate. destruct (py_float E v) as [z|e]; [|destruct e; discriminate].
    destruct (if cast then _ else _) as [[|]|e]; [discriminate| |destruct e; discriminate].
    destruct in_bounds; [|discriminate]. intros K. now injection K as <-.
  - unfold complex_validate. destruct (py_complex E v) as [[r0 i0]|e]; [|destruct e; discriminate].
    destruct (if cast then _ else _) as [[|]|e]; [discriminate| |destruct e; discriminate].
    intros K. now injection K as <-.
  - unfold string_validate. destruct v; try discriminate. destruct (match so_regex o with Some _ => _ | None => _ end); [discriminate|].
    intros K. now injection K as <-.
  - unfold choice_validate. destruct v; try discriminate. destruct find as [[? ?]|]; [|discriminate]. intros K. now injection K as <-.
  - unfold color_validate. destruct v; try discriminate; try apply color_components_below.
    cbv zeta. destruct hex_triple; [apply color_components_below|discriminate].
  - unfold date_validate. destruct v; try discriminate; [|intros K; now injection K as <-].
    destruct date_of_string; [|discriminate]. intros K. now injection K as <-.
  - unfold uuid_validate. destruct v; try discriminate. intros K. now injection K as <-.
Qed.
Lemma calm_union E si ps v : calm E (PUnion si ps) v <-> Forall (fun q => calm E q v) ps.
Proof.
  cbn [calm]. induction ps as [|q ps IH]; [split; constructor|].
  rewrite IH. split; [intros [H K]; now constructor|]. intros K. inversion K; auto.
Qed.

(** * Exceptions of pure functions *)
Lemma proper_iter v e : py_iter v = Exc e -> proper e.
Proof. destruct v; cbn [py_iter]; try discriminate; intros K; injection K as <-; discriminate. Qed.
Lemma proper_build k l e : build k l = Exc e -> proper e.
Proof.
  destruct k; cbn [build]; try discriminate. unfold py_set. destruct forallb; cbn [rbind]; [discriminate|].
  intros K. injection K as <-. discriminate.
Qed.
Lemma proper_pairs ps : forall acc e, dict_of_pairs ps acc = Exc e -> proper e.
Proof.
  induction ps as [|[k v] ps IH]; intros acc e; cbn [dict_of_pairs]; [discriminate|]. destruct hashable; [apply IH|].
  intros K. injection K as <-. discriminate.
Qed.
Lemma proper_pair v e : pair_of v = Exc e -> proper e.
Proof.
  unfold pair_of. destruct (py_iter v) as [l|e'] eqn:K; [|intros Q; injection Q as <-; eapply proper_iter; eauto].
  destruct l as [|a [|b [|? ?]]]; try discriminate; intros Q; injection Q as <-; discriminate.
Qed.
Lemma proper_all_pairs l : forall e, all_pairs l = Exc e -> proper e.
Proof.
  induction l as [|x l IH]; intros e; cbn [all_pairs]; [discriminate|].
  destruct (pair_of x) as [p|e'] eqn:Ep; cbn [rbind]; [|intros Q; injection Q as <-; eapply proper_pair; eauto].
  destruct (all_pairs l) as [qs|e'] eqn:Eq; cbn [rbind]; [discriminate|]. intros Q. injection Q as <-. auto.
Qed.
Lemma proper_pydict v e : py_dict v = Exc e -> proper e.
Proof.
  assert (G : rbind (py_iter v) (fun l => rbind (all_pairs l) (fun ps => dict_of_pairs ps [])) = Exc e -> proper e).
  { destruct (py_iter v) as [l|e'] eqn:K; cbn [rbind]; [|intros Q; injection Q as <-; eapply proper_iter; eauto].
    destruct (all_pairs l) as [ps|e'] eqn:Kp; cbn [rbind]; [|intros Q; injection Q as <-; eapply proper_all_pairs; eauto].
    apply proper_pairs. }
  destruct v; cbn [py_dict]; try exact G. discriminate.
Qed.
Lemma proper_cast e k e' : catch_cast e k = LExc e' -> proper e'.
Proof. destruct e; cbn; try discriminate; intros K; injection K as <-; discriminate. Qed.
Lemma proper_complex e e' : catch_complex e = LExc e' -> proper e'.
Proof. destruct e; cbn; try discriminate; intros K; injection K as <-; discriminate. Qed.
Lemma leaf_proper E r t v e : leaf_validate E r t v = LExc e -> proper e.
Proof.
  destruct t; cbn [leaf_validate].
  - discriminate.
  - unfold bool_validate. destruct cast; [discriminate|]. destruct v; discriminate.
  - unfold int_validate. destruct (py_int v) as [z|e']; [|apply proper_cast].
    destruct (if cast then _ else _) as [[|]|e']; [discriminate| |apply proper_cast]. destruct in_bounds; discriminate.
  - unfold float_validate. destruct (py_float E v) as [z|e']; [|apply proper_cast].
    destruct (if cast then _ else _) as [[|]|e']; [discriminate| |apply proper_cast]. destruct in_bounds; discriminate.
  - unfold complex_validate. destruct (py_complex E v) as [[r0 i0]|e']; [|apply proper_complex].
    destruct (if cast then _ else _) as [[|]|e']; [discriminate|discriminate|apply proper_complex].
  - unfold string_validate. destruct v; try discriminate. destruct (match so_regex o with Some _ => _ | None => _ end); discriminate.
  - unfold choice_validate. destruct v; try discriminate. destruct find as [[? ?]|]; discriminate.
  - assert (G : forall l, color_components l = LExc e -> proper e).
    { intros l. unfold color_components. destruct Nat.eqb; [|discriminate]. destruct forallb; discriminate. }
    unfold color_validate. destruct v; try discriminate; try apply G. cbv zeta. destruct hex_triple; [apply G|discriminate].
  - unfold date_validate. destruct v; try discriminate. destruct date_of_string; discriminate.
  - unfold uuid_validate. destruct v; discriminate.
Qed.
Lemma proper_absdiff a b e : absdiff a b = Exc e -> proper e.
Proof. intros H. apply absdiff_exc in H. subst. discriminate. Qed.
Lemma proper_leaf_equal t a b e : leaf_equal t a b = Exc e -> proper e.
Proof.
  destruct t; cbn [leaf_equal]; try discriminate.
  - unfold float_equal. destruct (as_num a); [|discriminate]. destruct (as_num b); [|discriminate].
    destruct absdiff eqn:K; cbn [rbind]; [discriminate|]. intros Q. injection Q as <-. eapply proper_absdiff; eauto.
  - unfold complex_equal. destruct (re_im a) as [[ra ia]|]; [|discriminate]. destruct (re_im b) as [[rb ib]|]; [|discriminate].
    destruct (absdiff ra rb) eqn:K; cbn [rbind]; [|intros Q; injection Q as <-; eapply proper_absdiff; eauto].
    destruct (absdiff ia ib) eqn:K2; cbn [rbind]; [discriminate|]. intros Q. injection Q as <-. eapply proper_absdiff; eauto.
Qed.

(** * Settled states *)
(** an instance without its flags *)
Definition bare (i : inst) : inst := Inst (i_cls i) (i_back i) (i_lst i) None false false (i_attrs i).
Definition alike (w w' : world) : Prop := map bare (w_heap w) = map bare (w_heap w').
Lemma alike_sym a b : alike a b -> alike b a.
Proof. unfold alike. auto. Qed.
Lemma alike_len a b : alike a b -> length (w_heap a) = length (w_heap b).
Proof. intros H. apply (f_equal (@length inst)) in H. now rewrite !map_length in H. Qed.
Lemma alike_nth a b l i : alike a b -> nth_error (w_heap a) l = Some i ->
  exists j, nth_error (w_heap b) l = Some j /\ bare j = bare i.
Proof.
  intros H Hi. apply (map_nth_error bare) in Hi. rewrite H in Hi. rewrite nth_error_map in Hi.
  destruct (nth_error (w_heap b) l) as [j|]; [|discriminate].
  exists j. split; [reflexivity|]. cbn [option_map] in Hi. congruence.
Qed.
Lemma bare_eq i j : bare i = bare j -> i_cls i = i_cls j /\ i_back i = i_back j /\ i_lst i = i_lst j /\ i_attrs i = i_attrs j.
Proof. intros H. injection H. auto. Qed.
Lemma alike_upd w l g : (forall i, bare (g i) = bare i) -> alike w (w_upd l g w).
Proof.
  intros H. unfold alike, w_upd. destruct (nth_error (w_heap w) l) as [i|] eqn:E; [|reflexivity].
  cbn [w_setheap w_heap]. symmetry. apply set_nth_map. intros x Hx. rewrite E in Hx. injection Hx as <-. symmetry. apply H.
Qed.
Lemma alike_stored a b l name : alike a b -> stored b l name = stored a l name.
Proof.
  intros H. unfold stored. destruct (nth_error (w_heap a) l) as [i|] eqn:Ei.
  - destruct (alike_nth _ _ _ _ H Ei) as (j & Hj & Hb). rewrite Hj. apply bare_eq in Hb. destruct Hb as (_ & Hb & _). now rewrite Hb.
  - apply nth_error_None in Ei. rewrite (alike_len _ _ H) in Ei. apply nth_error_None in Ei. now rewrite Ei.
Qed.
Lemma alike_declares C a b l name d : alike a b -> declares C b l name d -> declares C a l name d.
Proof.
  intros H (c & (i & Hi & Hc) & Hd). destruct (alike_nth _ _ _ _ (alike_sym _ _ H) Hi) as (j & Hj & Hb).
  apply bare_eq in Hb. destruct Hb as (Hb & _). exists c. split; [|exact Hd]. exists j. rewrite Hb. auto.
Qed.
Lemma settled_alike E C U w w' : alike w w' -> settled E C U w -> settled E C U w'.
Proof.
  intros H S. pose proof (alike_len _ _ H) as Len. pose proof (alike_sym _ _ H) as H'.
  assert (N : forall l j, nth_error (w_heap w') l = Some j -> exists i, nth_error (w_heap w) l = Some i /\
    i_cls i = i_cls j /\ i_back i = i_back j /\ i_lst i = i_lst j /\ i_attrs i = i_attrs j).
  { intros l j Hj. destruct (alike_nth _ _ _ _ H' Hj) as (i & Hi & Hb). apply bare_eq in Hb. exists i. split; auto. }
  constructor; rewrite <- ?Len.
  - intros l j Hj. destruct (N l j Hj) as (i & Hi & Hc & _). rewrite <- Hc. eapply st_class; eauto.
  - intros l j name v Hj Hv. destruct (N l j Hj) as (i & Hi & _ & Hb & _). rewrite <- Hb in Hv. eapply st_back; eauto.
  - intros l j name v Hj Hv. destruct (N l j Hj) as (i & Hi & _ & _ & _ & Hb). rewrite <- Hb in Hv. eapply st_attrs; eauto.
  - exact (st_cattrs _ _ _ _ S).
  - intros l name d v Hd Hk Hv. rewrite (alike_stored _ _ _ _ H) in Hv. eapply st_calm; eauto. eapply alike_declares; eauto.
  - exact (st_spare _ _ _ _ S).
  - exact (st_renamed _ _ _ _ S).
  - exact (st_getters _ _ _ _ S).
  - intros l j x Hj Hx. destruct (N l j Hj) as (i & Hi & _ & _ & Hb & _). rewrite <- Hb in Hx. eapply st_validators; eauto.
  - exact (st_cvals _ _ _ _ S).
Qed.

Section Total.
  Variable E : env.
  Variable C : ctable.
  Variable U : ucode.
  Notation X := (exec E C U).

  Section Reading.
  (** what is ignored; anything but the flags counts *)
  Variable f : inst -> inst.
  Hypothesis Hf : forall i j, f i = f j -> bare i = bare j.

  Lemma conv_step c w r : conv f (fun n => step E C U (X n) c) w r -> conv f (fun n => X n c) w r.
  Proof.
    intros [n0 H]. exists (S n0). intros [|n] Hn w1 Hw; [lia|]. apply (H n); [lia|exact Hw].
  Qed.
  Lemma tot_step Q c w : tot f Q (fun n => step E C U (X n) c) w -> tot f Q (fun n => X n c) w.
  Proof. intros (r & H & HQ). exists r. split; auto. now apply conv_step. Qed.

  Lemma like_get w w1 l i : like f w w1 -> nth_error (w_heap w) l = Some i ->
    exists i1, nth_error (w_heap w1) l = Some i1 /\ bare i1 = bare i.
  Proof. intros Hw Hi. destruct (like_nth f _ _ _ _ Hw Hi) as (i1 & H1 & H2). eauto. Qed.

  (** ** Error hooks *)
  Definition there (w : world) (io : option loc) : Prop := forall l, io = Some l -> l < length (w_heap w).
  Lemma conv_hook w io ts : there w io -> conv f (fun _ => hook io ts) w (Ok tt).
  Proof.
    intros H. destruct io as [l|]; [|apply conv_ret]. specialize (H l eq_refl).
    exists 0. intros n _ w1 Hw. unfold hook, bind, get_inst.
    destruct (nth_error (w_heap w1) l) as [i|] eqn:Ei.
    - destruct (i_vflag i) as [[|]|]; try (exists w1; split; [reflexivity|apply unchanged_refl]).
      exists (w_emit (EHook l ts) w1). split; [reflexivity|apply unchanged_emit].
    - apply nth_error_None in Ei. pose proof (like_len f _ _ Hw). lia.
  Qed.
  Lemma conv_verror {A} w reason name io : there w io ->
    conv f (fun _ => @verror A reason name io) w (Exc (ExValidation [ET (Some reason) (Some name) io])).
  Proof. intros H. unfold verror. eapply conv_bind; [now apply conv_hook|]. apply conv_throw. Qed.
  Lemma tot_verror {A} (Q : A -> Prop) w reason name io : there w io -> tot f Q (fun _ => verror reason name io) w.
  Proof. intros H. eexists. split; [now apply conv_verror|discriminate]. Qed.
  Lemma tot_perror {A} (Q : A -> Prop) w name io : there w io -> tot f Q (fun _ => perror name io) w.
  Proof. apply tot_verror. Qed.
  Lemma conv_hooks w k name io : there w io -> conv f (fun _ => hooks k name io) w (Ok tt).
  Proof.
    intros H. induction k as [|k IH]; cbn [hooks]; [apply conv_ret|].
    eapply conv_bind; [now apply conv_hook|exact IH].
  Qed.

  (** ** Reading instances *)
  Lemma conv_cls l i w : nth_error (w_heap w) l = Some i ->
    conv f (fun _ => inst_class C l) w (match nth_error (ct_cls C) (i_cls i) with Some c => Ok c | None => Exc ExAttr end).
  Proof.
    intros Hi. unfold inst_class. eapply conv_get; [exact Hi| |apply conv_lift].
    intros n i1 H1. apply Hf, bare_eq in H1. destruct H1 as (H1 & _). now rewrite H1.
  Qed.
  Lemma conv_back_get l i name w : nth_error (w_heap w) l = Some i ->
    conv f (fun _ => back_get l name) w (Ok (match dget (i_back i) name with Some v => v | None => VNone end)).
  Proof.
    intros Hi. unfold back_get. eapply conv_get; [exact Hi| |apply conv_ret].
    intros n i1 H1. apply Hf, bare_eq in H1. destruct H1 as (_ & H1 & _). now rewrite H1.
  Qed.
  Definition value_or_none (o : option val) : val := match o with Some v => v | None => VNone end.
  Lemma conv_back l name w : l < length (w_heap w) ->
    conv f (fun _ => back_get l name) w (Ok (value_or_none (stored w l name))).
  Proof.
    intros Hl. destruct (nth_error (w_heap w) l) as [i|] eqn:Hi; [|apply nth_error_None in Hi; lia].
    unfold stored. rewrite Hi. now apply conv_back_get.
  Qed.
  Lemma st_stored w l name v : settled E C U w -> stored w l name = Some v -> below (length (w_heap w)) v = true.
  Proof.
    intros S. unfold stored. destruct (nth_error (w_heap w) l) as [i|] eqn:Hi; [|discriminate].
    intros H. eapply st_back; eauto.
  Qed.
  Lemma tot_back l name w : settled E C U w -> l < length (w_heap w) ->
    tot f (fun v => v = value_or_none (stored w l name) /\ below (length (w_heap w)) v = true) (fun _ => back_get l name) w.
  Proof.
    intros S Hl. eexists. split; [now apply conv_back|]. split; [reflexivity|].
    destruct (stored w l name) as [v|] eqn:Es; [|reflexivity]. eapply st_stored; eauto.
  Qed.

  Lemma tot_plain l name w : settled E C U w -> l < length (w_heap w) -> plain_name C name ->
    tot f (fun v => below (length (w_heap w)) v = true) (fun n => has_getattr E C U (X n) l name) w.
  Proof.
    intros S Hl Hp. destruct (nth_error (w_heap w) l) as [i|] eqn:Hi; [|apply nth_error_None in Hi; lia].
    unfold has_getattr. eapply tot_bind with (P := fun c => nth_error (ct_cls C) (i_cls i) = Some c).
    { eexists. split; [apply conv_cls; eauto|]. destruct (nth_error (ct_cls C) (i_cls i)); cbn; auto; discriminate. }
    intros c Hc _. destruct (dget (c_props c) name) as [d|] eqn:Ed.
    - assert (B : tot f (fun v => below (length (w_heap w)) v = true) (fun _ => back_get l name) w)
        by (eapply tot_weaken; [|now apply tot_back]; intros a [_ Ha]; exact Ha).
      destruct (Hp _ _ _ Hc Ed) as [Ek|Ek]; rewrite Ek; exact B.
    - eapply tot_get; [exact Hi| |].
      + intros n i1 H1. apply Hf, bare_eq in H1. destruct H1 as (_ & _ & _ & H1). now rewrite H1.
      + destruct (dget (i_attrs i) name) as [v|] eqn:Ea.
        * apply tot_ret. eapply st_attrs; eauto.
        * destruct (dget (c_attrs c) name) as [v|] eqn:Eca; [|now apply tot_throw].
          apply tot_ret. eapply st_cattrs; eauto.
  Qed.

  (** ** User code that only reads *)
  Lemma conv_do (m : nat -> M val) (k : nat -> res val -> M val) w r r2 :
    conv f m w r -> conv f (fun n => k n r) w r2 ->
    conv f (fun n => fun w0 => let (a, w') := m n w0 in k n a w') w r2.
  Proof.
    intros H K. apply conv_outcome in H. eapply conv_ext; [|eapply conv_bind with (k := k); [exact H|exact K]].
    intros n w1. unfold bind, outcome. now destruct (m n w1).
  Qed.
  Lemma tot_disabled {A} (Q : A -> Prop) ts (m : nat -> M A) w :
    tot f Q m (w_setquar (quar_enter ts (w_quar w)) w) -> tot f Q (fun n => disabled ts (m n)) w.
  Proof. intros (r & H & HQ). exists r. split; auto. now apply conv_disabled. Qed.
  Lemma tot_run p : forall w Q, settled E C U w -> reader C (length (w_heap w)) Q p ->
    tot f (fun v => below (length (w_heap w)) v = true /\ Q v) (fun n => run (X n) p) w.
  Proof.
    induction p as [v|e|o k IH|ts body IHb k IH]; intros w Q S R; cbn [run].
    - apply tot_ret. exact R.
    - now apply tot_throw.
    - destruct R as ((l & name & -> & Hl & Hp) & R).
      assert (T : tot f (fun v => below (length (w_heap w)) v = true) (fun n => X n (COp (OGet l name))) w)
        by (apply tot_step; apply tot_plain; auto).
      destruct T as (r & T & Hr). destruct (IH r w Q S) as (r2 & T2 & H2); [apply R; destruct r; cbn in *; auto|].
      exists r2. split; auto. eapply conv_do with (m := fun n => X n (COp (OGet l name))) (k := fun n a => run (X n) (k a)); eauto.
    - destruct R as (Rb & R).
      assert (T : tot f (fun v => below (length (w_heap w)) v = true /\ True) (fun n => disabled ts (run (X n) body)) w).
      { apply tot_disabled. apply (IHb (w_setquar (quar_enter ts (w_quar w)) w) (fun _ => True)); auto.
        eapply settled_alike; [|exact S]. reflexivity. }
      destruct T as (r & T & Hr). destruct (IH r w Q S) as (r2 & T2 & H2); [apply R; destruct r; cbn in *; tauto|].
      exists r2. split; auto.
      eapply conv_do with (m := fun n => disabled ts (run (X n) body)) (k := fun n a => run (X n) (k a)); eauto.
  Qed.

  (** ** Validation of values *)
  Lemma tot_isinstance v cid w : settled E C U w -> below (length (w_heap w)) v = true ->
    tot f (fun _ => True) (fun _ => isinstance C v cid) w.
  Proof.
    intros S Hv. unfold isinstance. destruct v; try (now apply tot_ret).
    cbn [below] in Hv. apply Nat.ltb_lt in Hv.
    destruct (nth_error (w_heap w) l) as [i|] eqn:Hi; [|apply nth_error_None in Hi; lia].
    eapply tot_bind with (P := fun _ => True); [|intros; now apply tot_ret].
    eexists. split; [apply conv_cls; eauto|]. destruct (nth_error (ct_cls C) (i_cls i)); cbn; auto; discriminate.
  Qed.
  Lemma conv_spare cid w name io : settled E C U w -> there w io ->
    conv f (fun n => try_ (X n (COp (ONew cid None))) (fun e => if is_generic e then perror name io else throw e)) w
      (Exc (ExValidation [ET (Some "invalid") (Some name) io])).
  Proof.
    intros S H. destruct (@conv_verror val w "invalid" name io H) as [n0 K]. exists (2 + n0).
    intros [|[|n]] Hn w1 Hw; try lia. destruct (st_spare _ _ _ _ S cid n w1) as (e & w2 & He & G & Un).
    unfold try_. rewrite He, G. destruct (K n0 (le_n _) w2 (like_unchanged f _ _ _ Hw Un)) as (w3 & H3 & U3).
    exists w3. split; [exact H3|]. eapply unchanged_trans; eauto.
  Qed.
  Lemma tot_rescue (Q : val -> Prop) (m : nat -> M val) (g : exn -> bool) w name io : there w io ->
    tot f Q m w -> tot f Q (fun n => try_ (m n) (fun e => if g e then perror name io else throw e)) w.
  Proof.
    intros H T. apply tot_try; auto. intros e He. destruct (g e); [now apply tot_perror|now apply tot_throw].
  Qed.

  Lemma tot_validate p : forall io name v w, settled E C U w -> there w io -> below (length (w_heap w)) v = true ->
    calm E p v -> tot f (fun v' => below (length (w_heap w)) v' = true) (fun n => p_validate E C (X n) p io name v) w.
  Proof.
    induction p as [t|k q mn mx co IH|kp vp co IHk IHv|si ps IH|cid] using ptype_ind'; intros io name v w S Hio Hv Hc.
    - cbn [p_validate]. unfold leaf_val. cbn [calm] in Hc.
      destruct (leaf_validate E 0 t v) as [v'|k|e] eqn:El.
      + exists (Ok v'). split; [|eapply leaf_below; eauto].
        eapply conv_tick with (k' := fun _ => ret v'); [|apply conv_ret]. intros n k. now rewrite (Hc _ 0), El.
      + exists (Exc (ExValidation [ET (Some "invalid") (Some name) io])). split; [|discriminate].
        eapply conv_tick with (k' := fun _ => hooks k name io ;; perror name io).
        { intros n k0. now rewrite (Hc _ 0), El. }
        eapply conv_bind; [now apply conv_hooks|now apply conv_verror].
      + exists (Exc e). split; [|cbn; eapply leaf_proper; eauto].
        eapply conv_tick with (k' := fun _ => throw e); [|apply conv_throw]. intros n k. now rewrite (Hc _ 0), El.
    - cbn [p_validate]. eapply tot_bind with (P := fun _ => True).
      { destruct (_ && _); [now apply tot_perror|now apply tot_ret]. }
      intros _ _ _. cbv zeta. destruct Hc as [Hc1 Hc2].
      set (v1 := if co && negb (is_container v) then VList [v] else v).
      assert (H1 : forall l, py_iter v1 = Ok l -> Forall (fun x => below (length (w_heap w)) x = true /\ calm E q x) l).
      { intros l Hl. subst v1. destruct (co && negb (is_container v)) eqn:Ec.
        - injection Hl as <-. constructor; [|constructor]. split; auto. apply Hc2.
          apply andb_true_iff in Ec. destruct Ec as [_ Ec]. destruct v; try discriminate; reflexivity.
        - pose proof (Hc1 l Hl) as A. pose proof (below_iter _ _ _ Hv Hl) as B.
          rewrite Forall_forall in *. intros x Hx. split; auto. apply (A x Hx). }
      eapply tot_bind with (P := fun l => Forall (fun x => below (length (w_heap w)) x = true /\ calm E q x) l).
      { apply tot_lift; [exact H1|apply proper_iter]. }
      intros items Hi _. eapply tot_bind.
      { apply tot_mapM with (Q := fun x => below (length (w_heap w)) x = true).
        eapply Forall_impl; [|exact Hi]. intros x [Hx Hx2]. apply tot_rescue; auto. }
      intros out Hout _. apply tot_lift; [|apply proper_build]. intros a Ha. eapply below_build; eauto.
    - cbn [p_validate]. eapply tot_bind with (P := fun _ => True).
      { destruct (_ && _); [now apply tot_perror|now apply tot_ret]. }
      intros _ _ _. cbn [calm] in Hc.
      set (Good := fun kx : val * val => pbelow (length (w_heap w)) kx /\ calm E kp (fst kx) /\ calm E vp (snd kx)).
      eapply tot_bind with (P := Forall Good).
      { destruct (py_dict v) as [d|e] eqn:Ed.
        - apply tot_ret. pose proof (below_pydict _ _ _ Hv Ed) as A. specialize (Hc d eq_refl).
          rewrite Forall_forall in *. intros x Hx. split; [auto|]. destruct (Hc x Hx) as ((_ & ?) & (_ & ?)). auto.
        - destruct e; try (now apply tot_perror); apply tot_throw; eapply proper_pydict; eauto. }
      intros d Hd _. eapply tot_bind with (P := Forall (pbelow (length (w_heap w)))); [|intros out Ho _; apply tot_ret; now apply below_dict].
      assert (Ha : Forall (pbelow (length (w_heap w))) []) by constructor. revert Ha. generalize (@nil (val * val)) as acc.
      induction Hd as [|[k x] d (Hb & Hk & Hx) Hd IHd]; intros acc Ha; [now apply tot_ret|].
      destruct Hb as [Hb1 Hb2]. cbn [fst snd] in *.
      eapply tot_bind. { apply tot_rescue with (Q := fun x => below (length (w_heap w)) x = true); auto. }
      intros k' Hk' _. cbv beta.
      eapply tot_bind. { apply tot_rescue with (Q := fun x => below (length (w_heap w)) x = true); auto. }
      intros x' Hx' _. cbv beta. destruct (hashable k'); [|now apply tot_throw]. apply IHd. apply vd_set_pbelow; auto.
    - cbn [p_validate]. apply calm_union in Hc.
      induction IH as [|q ps Hq Hps IHps]; [now apply tot_perror|]. inversion Hc; subst. apply tot_try; auto.
      intros e He. destruct (is_generic e); [auto|now apply tot_throw].
    - cbn [p_validate]. cbn [calm] in Hc. destruct (tot_isinstance v cid w S Hv) as ([[|]|e] & T & He).
      + exists (Ok v). split; auto. apply conv_try. eapply conv_bind; [exact T|]. apply conv_ret.
      + exists (Exc (ExValidation [ET (Some "invalid") (Some name) io])). split; [|discriminate].
        pose proof (conv_spare cid w name io S Hio) as K.
        assert (G : conv f (fun n => let* b := isinstance C v cid in
            try_ (if b then ret v else X n (COp (ONew cid None))) (fun e => if is_generic e then perror name io else throw e)) w
              (Exc (ExValidation [ET (Some "invalid") (Some name) io]))).
        { eapply conv_bind; [exact T|]. exact K. }
        destruct G as [n0 G]. destruct T as [n1 T]. exists (max n0 n1). intros n Hn w1 Hw. destruct (G n ltac:(lia) w1 Hw) as (w2 & G1 & G2).
        exists w2. split; auto. rewrite <- G1. destruct (T n ltac:(lia) w1 Hw) as (w3 & T1 & _).
        unfold bind, try_. rewrite T1. destruct v; try reflexivity. exfalso. eapply Hc. reflexivity.
      + apply tot_rescue; auto. exists (Exc e). split; [|exact He]. now apply conv_bind_exc.
  Qed.

  (** ** Attributes *)
  Lemma tot_getattr l name w : settled E C U w -> l < length (w_heap w) ->
    tot f (fun v => below (length (w_heap w)) v = true) (fun n => has_getattr E C U (X n) l name) w.
  Proof.
    assert (G : forall name c i, settled E C U w -> nth_error (w_heap w) l = Some i -> nth_error (ct_cls C) (i_cls i) = Some c ->
      (forall d nn, dget (c_props c) name = Some d -> pd_kind d <> KRenamed nn) ->
      tot f (fun v => below (length (w_heap w)) v = true) (fun n => has_getattr E C U (X n) l name) w).
    { intros nm c i S Hi Hc Hn. assert (Hl : l < length (w_heap w)) by (apply nth_error_Some; congruence).
      unfold has_getattr. eapply tot_bind with (P := fun c' => c' = c).
      { eexists. split; [apply conv_cls; eauto|]. now rewrite Hc. }
      intros c' -> _. assert (B : tot f (fun v => below (length (w_heap w)) v = true) (fun _ => back_get l nm) w)
        by (eapply tot_weaken; [|now apply tot_back]; intros a [_ Ha]; exact Ha).
      destruct (dget (c_props c) nm) as [d|] eqn:Ed.
      - destruct (pd_kind d) as [|g s x| |nn] eqn:Ek; [exact B| |exact B|now destruct (Hn d nn)].
        eapply tot_bind; [apply tot_run; [exact S|eapply st_getters; eauto]|]. intros v (Hv & Hcv) _. cbv beta.
        destruct (_ || _); [now apply tot_ret|]. apply tot_validate; auto. intros l0 Hl0. injection Hl0 as <-. exact Hl.
      - eapply tot_get; [exact Hi| |].
        + intros n i1 H1. apply Hf, bare_eq in H1. destruct H1 as (_ & _ & _ & H1). now rewrite H1.
        + destruct (dget (i_attrs i) nm) as [v|] eqn:Ea.
          * apply tot_ret. eapply st_attrs; eauto.
          * destruct (dget (c_attrs c) nm) as [v|] eqn:Eca; [|now apply tot_throw].
            apply tot_ret. eapply st_cattrs; eauto. }
    intros S Hl. destruct (nth_error (w_heap w) l) as [i|] eqn:Hi; [|apply nth_error_None in Hi; lia].
    destruct (nth_error (ct_cls C) (i_cls i)) as [c|] eqn:Hc; [|now destruct (st_class _ _ _ _ S _ _ Hi)].
    destruct (dget (c_props c) name) as [d|] eqn:Ed.
    - destruct (pd_kind d) as [|g s x| |nn] eqn:Ek;
        try (apply (G name c i); auto; intros d' nn' Hd'; rewrite Ed in Hd'; injection Hd' as <-; congruence).
      unfold has_getattr. eapply tot_bind with (P := fun c' => c' = c).
      { eexists. split; [apply conv_cls; eauto|]. now rewrite Hc. }
      intros c' -> _. rewrite Ed, Ek. apply tot_step. apply (G nn c i); auto.
      intros d' nn' Hd'. exact (st_renamed _ _ _ _ S _ _ _ _ _ _ Hc Ed Ek Hd' nn').
    - apply (G name c i); auto. intros d nn Hd. congruence.
  Qed.

  (** ** Equality of values, if equality of instances ends *)
  Lemma tot_anyM (ms : list (nat -> M bool)) w : Forall (fun m => tot f (fun _ => True) m w) ms ->
    tot f (fun _ => True) (fun n => anyM (map (fun m => m n) ms)) w.
  Proof.
    induction 1 as [|m ms Hm Hms IH]; cbn [map anyM]; [now apply tot_ret|].
    eapply tot_bind; [exact Hm|]. intros [|] _ _; [now apply tot_ret|exact IH].
  Qed.
  Lemma tot_take_first (g : nat -> val -> M bool) w l (P : val -> Prop) :
    Forall P l -> (forall y, P y -> tot f (fun _ => True) (fun n => g n y) w) ->
    tot f (fun o => match o with Some r => Forall P r | None => True end) (fun n => take_first (g n) l) w.
  Proof.
    intros Hl Hg. induction Hl as [|y l Hy Hl IH]; cbn [take_first]; [now apply tot_ret|].
    eapply tot_bind; [apply Hg; exact Hy|]. intros [|] _ _; [now apply tot_ret|].
    eapply tot_bind; [exact IH|]. intros [r|] Hr _; apply tot_ret; auto.
  Qed.
  Definition ends_equal (w : world) : Prop := forall a b,
    below (length (w_heap w)) a = true -> below (length (w_heap w)) b = true ->
    tot f (fun _ => True) (fun n => X n (COp (OEqual a b))) w.
  Lemma combine_forall {A B} (P : A -> Prop) (Q : B -> Prop) l : forall r, Forall P l -> Forall Q r ->
    Forall (fun xy => P (fst xy) /\ Q (snd xy)) (combine l r).
  Proof.
    induction l as [|x l IH]; intros [|y r] Hl Hr; try constructor; inversion Hl; inversion Hr; subst; auto.
  Qed.
  Lemma vd_get_below N d k y : Forall (pbelow N) d -> vd_get d k = Some y -> below N y = true.
  Proof.
    intros H. induction H as [|[k' v'] d [H1 H2] Hd IH]; cbn [vd_get]; [discriminate|].
    destruct py_eq; [intros K; injection K as <-; exact H2|exact IH].
  Qed.
  Lemma tot_p_equal p : forall a b w, ends_equal w ->
    below (length (w_heap w)) a = true -> below (length (w_heap w)) b = true ->
    tot f (fun _ => True) (fun n => p_equal (X n) p a b) w.
  Proof.
    induction p as [t|k q mn mx co IH|kp vp co IHk IHv|si ps IH|cid] using ptype_ind'; intros a b w Q Ha Hb.
    - cbn [p_equal]. apply tot_lift; [auto|apply proper_leaf_equal].
    - assert (I1 : forall v, below (length (w_heap w)) v = true ->
          tot f (Forall (fun x => below (length (w_heap w)) x = true)) (fun _ => lift (py_iter v)) w).
      { intros v Hv. apply tot_lift; [intros l; now apply below_iter|apply proper_iter]. }
      assert (Seq : tot f (fun _ => True) (fun n => try_ (let* la := lift (py_iter a) in
              let* lb := lift (py_iter b) in
              if negb (Nat.eqb (length la) (length lb)) then ret false
              else let* bs := mapM (fun xy => p_equal (X n) q (fst xy) (snd xy)) (combine la lb) in
                   ret (forallb (fun b => b) bs))
             (fun e => match e with ExType => ret false | _ => throw e end)) w).
      { apply tot_try.
        - eapply tot_bind; [apply I1; exact Ha|]. intros la Hla _. eapply tot_bind; [apply I1; exact Hb|]. intros lb Hlb _.
          destruct negb; [now apply tot_ret|]. eapply tot_bind; [|intros; now apply tot_ret].
          apply tot_mapM with (Q := fun _ => True). eapply Forall_impl; [|apply (combine_forall _ _ _ _ Hla Hlb)].
          intros [x y] [Hx Hy]. apply IH; auto.
        - intros e He. destruct e; try (now apply tot_throw). now apply tot_ret. }
      destruct k; try exact Seq. clear Seq. cbn [p_equal]. apply tot_try.
      + eapply tot_bind; [apply I1; exact Ha|]. intros la Hla _. eapply tot_bind; [apply I1; exact Hb|]. intros lb Hlb _.
        destruct negb; [now apply tot_ret|].
        assert (G : tot f (fun _ => True) (fun n => let* rest := (fix go (la copy : list val) : M (list val) :=
                         match la with
                         | [] => ret copy
                         | x :: r =>
                             let* o := take_first (fun y => p_equal (X n) q x y) copy in
                             go r (match o with Some c => c | None => copy end)
                         end) la lb in
                       ret (Nat.eqb (length rest) 0)) w).
        { eapply tot_bind with (P := fun _ => True); [|intros; now apply tot_ret].
          revert lb Hlb. induction Hla as [|x la Hx Hla IHl]; intros lb Hlb; [now apply tot_ret|].
          eapply tot_bind; [eapply tot_take_first; [exact Hlb|]|].
          - intros y Hy. apply IH; auto.
          - intros [r|] Hr _; apply IHl; auto. }
        destruct b; try (now apply tot_throw); try exact G. now apply tot_ret.
      + intros e He. destruct e; try (now apply tot_throw); now apply tot_ret.
    - cbn [p_equal]. apply tot_try.
      + destruct a; try (now apply tot_throw). destruct b; try (now apply tot_throw). destruct negb; [now apply tot_ret|].
        eapply tot_bind; [|intros; now apply tot_ret]. apply tot_mapM with (Q := fun _ => True).
        apply below_dict in Ha. apply below_dict in Hb. eapply Forall_impl; [|exact Ha]. intros [x y] [Hx Hy]. cbn [fst snd] in *.
        destruct vd_get as [z|] eqn:Ez; [|now apply tot_throw]. apply IHv; auto. eapply vd_get_below; eauto.
      + intros e He. destruct e; try (now apply tot_throw); now apply tot_ret.
    - cbn [p_equal]. eapply tot_ext with (m := fun n => anyM (map (fun m : nat -> M bool => m n)
          (map (fun q => fun n => p_equal (X n) q a b) ps))).
      { intros n w1. now rewrite map_map. }
      apply tot_anyM. apply Forall_map. eapply Forall_impl; [|exact IH]. intros q Hq. now apply Hq.
    - cbn [p_equal]. eapply tot_bind; [now apply Q|]. intros; now apply tot_ret.
  Qed.
  End Reading.

  (** * Equality of instances *)
  (** everything but the validation and serialization flags *)
  Definition no_vs (i : inst) : inst := i_setv None (i_sets false i).
  Lemma no_vs_eq i j : no_vs i = no_vs j -> bare i = bare j /\ i_eflag i = i_eflag j.
  Proof. destruct i, j. unfold no_vs, bare. cbn. intros H. injection H. intros; subst. auto. Qed.
  Lemma no_vs_bare i j : no_vs i = no_vs j -> bare i = bare j.
  Proof. intros H. now apply no_vs_eq in H. Qed.
  Definition open_e (i : inst) : bool := negb (i_eflag i).
  Definition count (g : inst -> bool) (w : world) : nat := length (filter g (w_heap w)).
  Lemma count_upd g l h w i : nth_error (w_heap w) l = Some i -> g i = true -> g (h i) = false ->
    S (count g (w_upd l h w)) = count g w.
  Proof.
    intros Hi G1 G2. unfold count, w_upd. rewrite Hi. cbn [w_setheap w_heap].
    revert l Hi. induction (w_heap w) as [|x t IH]; intros [|l] Hi; try discriminate.
    - injection Hi as ->. unfold set_nth. cbn [firstn skipn app filter]. now rewrite G1, G2.
    - cbn in Hi. specialize (IH l Hi). unfold set_nth in *. cbn [firstn skipn app filter].
      destruct (g x); cbn [length]; lia.
  Qed.
  Lemma get_in w l : l < length (w_heap w) -> exists i, nth_error (w_heap w) l = Some i.
  Proof. intros H. destruct (nth_error (w_heap w) l) eqn:K; [eauto|]. apply nth_error_None in K. lia. Qed.

  Lemma tot_equal_props la lb ps w : settled E C U w -> ends_equal no_vs w ->
    la < length (w_heap w) -> lb < length (w_heap w) ->
    tot no_vs (fun _ => True) (fun n => equal_props E C U (X n) la lb ps) w.
  Proof.
    intros S Q Ha Hb. induction ps as [|[name d] ps IH]; cbn [equal_props]; [now apply tot_ret|].
    eapply tot_bind; [apply tot_getattr; auto using no_vs_bare|]. intros a Hxa _.
    eapply tot_bind; [apply tot_getattr; auto using no_vs_bare|]. intros b Hxb _.
    destruct (_ && _); [exact IH|]. destruct (_ && _); [|now apply tot_ret].
    eapply tot_bind; [apply tot_p_equal; auto|]. intros [|] _ _; [exact IH|now apply tot_ret].
  Qed.
  Lemma tot_flag {A} (f : inst -> inst) (Q : A -> Prop) (m : nat -> M A) w l g g' : l < length (w_heap w) ->
    (forall i j, f i = f j -> f (g i) = f (g j)) ->
    (forall i j, nth_error (w_heap w) l = Some i -> f j = f i -> g' (g j) = j) ->
    tot f Q m (w_upd l g w) -> tot f Q (fun n => upd l g ;; fin (m n) (w_upd l g')) w.
  Proof. intros Hl H1 H2 (r & H & HQ). exists r. split; auto. now apply conv_flag. Qed.
  Lemma tot_equal_inst : forall k w, count open_e w = k -> settled E C U w -> ends_equal no_vs w.
  Proof.
    induction k as [k IH] using lt_wf_ind. intros w Hk S a b Ha Hb. apply tot_step. cbn [step].
    eapply tot_bind with (P := fun _ => True); [|intros; now apply tot_ret].
    destruct a; try (now apply tot_ret). destruct b; try (now apply tot_ret).
    cbn [below] in Ha, Hb. apply Nat.ltb_lt in Ha, Hb. destruct (get_in w l Ha) as (i & Hi). destruct (get_in w l0 Hb) as (j & Hj).
    unfold has_equal. eapply tot_get; [exact Hi| |].
    { intros n i1 H1. apply no_vs_eq in H1. destruct H1 as (H1 & H2). apply bare_eq in H1. destruct H1 as (H1 & _).
      now rewrite H1, H2. }
    eapply tot_get; [exact Hj| |].
    { intros n i1 H1. apply no_vs_eq in H1. destruct H1 as (H1 & H2). apply bare_eq in H1. destruct H1 as (H1 & _).
      now rewrite H1. }
    destruct (i_eflag i) eqn:Ee; [now apply tot_ret|].
    apply tot_flag; auto.
    - intros x y H. apply no_vs_eq in H. destruct x, y. unfold bare in H. cbn in H. destruct H as [H _]. injection H. intros; subst. reflexivity.
    - intros x y Hx Hy. rewrite Hi in Hx. injection Hx as <-. apply no_vs_eq in Hy. destruct Hy as [_ Hy].
      rewrite Ee in Hy. destruct y. cbn in *. now subst.
    - destruct (Nat.eqb l l0); [now apply tot_ret|]. destruct negb; [now apply tot_ret|].
      eapply tot_bind with (P := fun _ => True); [apply tot_lift; auto; intros e; destruct (nth_error (ct_cls C) (i_cls i)); [discriminate|]; intros K; now injection K as <-|]. intros c _ _.
      assert (Al : alike w (w_upd l (i_sete true) w)) by (apply alike_upd; reflexivity).
      assert (S' : settled E C U (w_upd l (i_sete true) w)) by (eapply settled_alike; eauto).
      pose proof (alike_len _ _ Al) as Len.
      apply tot_equal_props; auto; try lia. eapply IH; [|reflexivity|exact S'].
      pose proof (count_upd open_e l (i_sete true) w i Hi) as K. unfold open_e in K. cbn in K. rewrite Ee in K.
      specialize (K eq_refl eq_refl). fold open_e in K. unfold open_e in *. lia.
  Qed.
  Lemma ends_equal_settled w : settled E C U w -> ends_equal no_vs w.
  Proof. intros S. eapply tot_equal_inst; eauto. Qed.
  Lemma tot_p_equal_settled p a b w : settled E C U w -> below (length (w_heap w)) a = true -> below (length (w_heap w)) b = true ->
    tot no_vs (fun _ => True) (fun n => p_equal (X n) p a b) w.
  Proof. intros S Ha Hb. apply tot_p_equal; auto. now apply ends_equal_settled. Qed.
End Total.
