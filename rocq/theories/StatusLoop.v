(** Lemmas on report_status. *)
From Verif Require Import World WorldSpec WorldFacts AccessFacts NumSpec BasicSpec BasicProofs Status StatusSpec StatusFacts.
From Coq Require Import Lia.
Local Open Scope string_scope.
Local Open Scope list_scope.
Local Open Scope nat_scope.

Section Report.
  Variable E : env.
  Variable C : ctable.
  Variable U : ucode.
  Variable show : val -> string.
  Local Notation ex := (exec E C U).

  Lemma isinst l cid w : instance_of C w l cid -> isinstance C (VInst l) cid w = (Ok true, w).
  Proof.
    intros (c & (i & Hi & Hc) & Hm). cbn [isinstance].
    unfold inst_class, bind, get_inst, class_of, lift. rewrite Hi, Hc.
    unfold ret. do 2 f_equal. apply existsb_exists. exists cid. split; auto. apply Nat.eqb_refl.
  Qed.

  (** The part after validation *)
  Definition report_on (n : nat) (taskname : string) (l : loc) : M string :=
    let* p := ex n (COp (OGet l "progress")) in
    let* z := lift (percent p) in
    let* m := ex n (COp (OGet l "message")) in
    let* t := (if truthy m then let* m' := ex n (COp (OGet l "message")) in ret (show_message show m')
               else ret "") in
    ret (status_line taskname z t).

  Lemma report_instance n taskname cid l w : instance_of C w l cid ->
    report_status E C U n show taskname cid (VInst l) w = report_on n taskname l w.
  Proof.
    intros H. unfold report_status. cbn [p_validate]. unfold bind at 1. unfold try_. unfold bind at 1.
    rewrite (isinst _ _ _ H). reflexivity.
  Qed.

  Lemma report_on_value n taskname l w : 
    declares C w l "progress" progress_decl -> declares C w l "message" message_decl ->
    (stored w l "message" = None \/ exists s, stored w l "message" = Some (VStr s)) ->
    report_on (S n) taskname l w =
      (rbind (percent (match stored w l "progress" with Some v => v | None => VNone end))
         (fun z => Ok (status_line taskname z (message_of w l))), w).
  Proof.
    intros Hp Hm Ht. unfold report_on. unfold bind at 1.
    rewrite (get_prop E C U n l "progress" _ w Hp ltac:(left; reflexivity)).
    unfold bind at 1, lift. destruct (percent _) as [z|e]; [|reflexivity]. cbn [rbind].
    unfold bind at 1.
    pose proof (get_prop E C U n l "message" _ w Hm ltac:(left; reflexivity)) as G. rewrite G.
    unfold message_of. destruct Ht as [T|[s T]]; rewrite T in *.
    - reflexivity.
    - cbn [truthy]. destruct (String.eqb s "") eqn:Es.
      + apply String.eqb_eq in Es. subst. reflexivity.
      + cbn [negb]. unfold bind. rewrite G. reflexivity.
  Qed.

  Lemma line_of z n taskname m : percentage n z -> line_for taskname n m (status_line taskname z m).
  Proof.
    intros P. exists z, (pad3 (show_int z)). split; auto. split; [apply field_aligned, P|reflexivity].
  Qed.

  Lemma message_typed w l : well_typed C w -> declares C w l "message" message_decl ->
    stored w l "message" = None \/ exists s, stored w l "message" = Some (VStr s).
  Proof.
    intros W D. destruct (stored w l "message") as [v|] eqn:S; [right|left; auto].
    specialize (W l "message" message_decl v D ltac:(discriminate) S). cbn in W.
    destruct W as (s0 & t & _ & _ & ->). eexists; reflexivity.
  Qed.
  Lemma progress_typed w l v : well_typed C w -> declares C w l "progress" progress_decl ->
    stored w l "progress" = Some v ->
    exists f, v = VFloat f /\ (valid_float f = true -> within (Some (NZ 0)) (Some (NZ 1)) (NF f)).
  Proof.
    intros W D S. specialize (W l "progress" progress_decl v D ltac:(discriminate) S). cbn [progress_decl pd_type has_type leaf_typed] in W.
    destruct W as (f & -> & H). exists f. split; auto. intros V. apply H; auto; intros m Hm; injection Hm as <-; exact I.
  Qed.

  Lemma status_reported n taskname cid l w : well_typed C w -> instance_of C w l cid ->
    declares C w l "progress" progress_decl -> declares C w l "message" message_decl ->
    (forall f, stored w l "progress" = Some (VFloat f) -> valid_float f = true) ->
    let (r, w') := report_status E C U (S n) show taskname cid (VInst l) w in
    w' = w /\
    match stored w l "progress" with
    | None => r = Exc ExType
    | Some (VFloat S754_nan) => r = Exc ExValue
    | Some (VFloat f) => exists line, r = Ok line /\ line_for taskname (NF f) (message_of w l) line
    | Some _ => False
    end.
  Proof.
    intros W I Dp Dm V. rewrite report_instance by auto.
    rewrite report_on_value; auto; [|apply message_typed; auto].
    split; auto. destruct (stored w l "progress") as [v|] eqn:S; [|reflexivity].
    destruct (progress_typed w l v W Dp S) as (f & -> & Wi). specialize (V f eq_refl). specialize (Wi V).
    assert (G : NF f <> NF S754_nan -> exists line, rbind (percent (VFloat f)) (fun z => Ok (status_line taskname z (message_of w l))) = Ok line /\
       line_for taskname (NF f) (message_of w l) line).
    { intros N. destruct (percent_unit (NF f) V Wi N (VFloat f) eq_refl) as (z & u & Hz & B & Hu & Hn).
      rewrite Hz. cbn [rbind]. eexists. split; [reflexivity|]. apply line_of. split; auto. exists u. auto. }
    destruct f; try (apply G; congruence). reflexivity.
  Qed.
End Report.

(** * A status given as a dictionary *)
Section Given.
  Variable E : env.
  Variable C : ctable.
  Variable U : ucode.
  Variable show : val -> string.
  Local Notation ex := (exec E C U).
  Variables (cid : nat) (nm : string) (cv : list cvalid) (mro : list nat) (attrs : dict val).
  Local Notation c := (Cls nm status_props [] [] cv mro attrs).
  Hypothesis Hcls : nth_error (ct_cls C) cid = Some c.

  (** A state whose last instance is the new status *)
  Definition st (h : list inst) (i : inst) (q : list lmode) (k : list dlink) (t : list event) (x : nat) : world :=
    W (h ++ [i]) q k t x.
  Lemma st_nth (h : list inst) (i : inst) : nth_error (h ++ [i]) (length h) = Some i.
  Proof. rewrite nth_error_app2, Nat.sub_diag; auto. Qed.
  Lemma st_upd (h : list inst) i q k t x f : w_upd (length h) f (st h i q k t x) = st h (f i) q k t x.
  Proof. unfold w_upd, st. cbn [w_heap]. rewrite st_nth. unfold w_setheap. cbn [w_quar w_links w_trace w_clock]. rewrite set_nth_app. reflexivity. Qed.
  Lemma st_get (h : list inst) i q k t x : get_inst (length h) (st h i q k t x) = (Ok i, st h i q k t x).
  Proof. unfold get_inst, st. cbn [w_heap]. rewrite st_nth. reflexivity. Qed.
  Lemma st_class (h : list inst) i q k t x : i_cls i = cid -> inst_class C (length h) (st h i q k t x) = (Ok c, st h i q k t x).
  Proof. intros H. unfold inst_class, bind. rewrite st_get. unfold class_of, lift. rewrite H, Hcls. reflexivity. Qed.

  Lemma st_notify n sid (h : list inst) i q k t x name prev v m : i_lst i = [] ->
    notify (ex (S n)) sid (length h) name prev v m (st h i q k t x) = (Ok v, st h i q k t x).
  Proof.
    intros L. unfold notify, bind, get_w. destruct (mode_in m _); [reflexivity|].
    cbn [exec step]. unfold bind. rewrite st_get. unfold listeners_of. rewrite L. reflexivity.
  Qed.

  (** Setting a property that is not set *)
  Lemma st_set n (h : list inst) i q k t x p name v : i_lst i = [] -> dget (i_back i) name = None -> is_undef v = false ->
    exists t' x', has_set (ex (S n)) p (length h) name v (st h i q k t x) =
      (Ok VNone, st h (i_setback (dset (i_back i) name v) i) q k t' x').
  Proof.
    intros L N Uv. unfold has_set. unfold bind at 1. cbn [tick st w_clock w_tick w_heap w_quar w_links w_trace].
    unfold tick. change (w_tick (st h i q k t x)) with (st h i q k t (S x)).
    unfold bind at 1. rewrite st_get. rewrite N. unfold bind at 1. rewrite st_notify by auto.
    unfold upd, mod_w. unfold bind at 1. rewrite st_upd. rewrite Uv.
    unfold bind at 1. 
    match goal with |- context [w_emit ?e (st h ?j q k t ?y)] =>
      change (w_emit e (st h j q k t y)) with (st h j q k (e :: t) y) end.
    unfold bind at 1. cbn [is_undef andb orb]. unfold ret at 1.
    unfold bind at 1. rewrite st_notify by exact L.
    unfold bind at 1. rewrite st_notify by exact L. eexists; eexists; reflexivity.
  Qed.
  Lemma st_reset n (h : list inst) i q k t x p name : i_lst i = [] -> dget (i_back i) name = None ->
    exists t' x', has_set (ex (S n)) p (length h) name VUndef (st h i q k t x) =
      (Ok VNone, st h (i_setback (ddel (i_back i) name) i) q k t' x').
  Proof.
    intros L N. unfold has_set. unfold bind at 1, tick.
    change (w_tick (st h i q k t x)) with (st h i q k t (S x)).
    unfold bind at 1. rewrite st_get. rewrite N. unfold bind at 1. rewrite st_notify by auto.
    unfold upd, mod_w. unfold bind at 1. rewrite st_upd. cbn [is_undef].
    unfold bind at 1.
    match goal with |- context [w_emit ?e (st h ?j q k t ?y)] =>
      change (w_emit e (st h j q k t y)) with (st h j q k (e :: t) y) end.
    unfold bind at 1. cbn [andb ret].
    unfold bind at 1. unfold ret at 1.
    unfold bind at 1. rewrite st_notify by exact L. eexists; eexists; reflexivity.
  Qed.

  (** An accepted keyword *)
  Definition accepts (t : leaf) (v v' : val) : Prop := forall r, leaf_validate E r t v = LOk v'.
  Lemma st_kw n (h : list inst) i q k t x es name tl v v' : i_cls i = cid -> i_lst i = [] -> dget (i_back i) name = None ->
    dget status_props name = Some (PD KProp (PLeaf tl) false DUndef) -> accepts tl v v' -> is_undef v = false -> is_undef v' = false ->
    exists t' x', init_kw E C U (ex (S n)) c (length h) es (name, v) (st h i q k t x) =
      (Ok es, st h (i_setback (dset (i_back i) name v') i) q k t' x').
  Proof.
    intros Ci L N D A U1 U2. unfold init_kw. unfold bind at 1. rewrite st_get. cbn [c_props]. rewrite D. cbn [pd_kind].
    unfold bind at 1, outcome, has_setattr. unfold bind at 1. rewrite st_class by auto. cbn [c_props]. rewrite D. cbn [pd_kind pd_type].
    unfold prop_fset. rewrite U1. unfold bind at 1. cbn [p_validate]. unfold leaf_val. unfold bind at 1, tick.
    change (w_tick (st h i q k t x)) with (st h i q k t (S x)). rewrite A.
    unfold ret at 1.
    destruct (st_set n h i q k t (S x) (PLeaf tl) name v' L N U2) as (t' & x' & H). rewrite H.
    exists t', x'. reflexivity.
  Qed.
  Lemma st_kw_bad n (h : list inst) i q k t x es name tl v e : i_cls i = cid -> i_vflag i = Some true ->
    dget status_props name = Some (PD KProp (PLeaf tl) false DUndef) -> (forall r, leaf_validate E r tl v = LErr e) -> is_undef v = false ->
    exists x', init_kw E C U (ex (S n)) c (length h) es (name, v) (st h i q k t x) =
      (Ok (fst es ++ [ET (Some "invalid") (Some name) (Some (length h))], snd es), st h i q k t x').
  Proof.
    intros Ci F D A U1. unfold init_kw. unfold bind at 1. rewrite st_get. cbn [c_props]. rewrite D. cbn [pd_kind].
    unfold bind at 1, outcome, has_setattr. unfold bind at 1. rewrite st_class by auto. cbn [c_props]. rewrite D. cbn [pd_kind pd_type].
    unfold prop_fset. rewrite U1. unfold bind at 1. cbn [p_validate]. unfold leaf_val. unfold bind at 1, tick.
    change (w_tick (st h i q k t x)) with (st h i q k t (S x)). rewrite A.
    assert (HK : forall ts y, hook (Some (length h)) ts (st h i q k t y) = (Ok tt, st h i q k t y)).
    { intros ts y. cbn [hook]. unfold bind. rewrite st_get, F. reflexivity. }
    assert (HS : forall m y, hooks m name (Some (length h)) (st h i q k t y) = (Ok tt, st h i q k t y)).
    { induction m as [|m IH]; intros y; cbn [hooks]; [reflexivity|]. unfold bind. rewrite HK. apply IH. }
    unfold bind at 1. rewrite HS. unfold perror, verror. unfold bind at 1. rewrite HK.
    exists (S x). destruct es; reflexivity.
  Qed.

  Lemma st_resetp n (h : list inst) i q k t x name p : i_lst i = [] -> dget (i_back i) name = None ->
    exists t' x', reset_prop E C U (ex (S n)) c (length h) name (PD KProp p false DUndef) (st h i q k t x) =
      (Ok tt, st h (i_setback (ddel (i_back i) name) i) q k t' x').
  Proof.
    intros L N. unfold reset_prop, default_of. cbn [c_defaults dget pd_default pd_type].
    unfold bind at 1, eval_default, ret at 1. unfold prop_fset. cbn [is_undef].
    destruct (st_reset n h i q k t x p name L N) as (t' & x' & H). exists t', x'.
    unfold bind, ret. rewrite H. reflexivity.
  Qed.

  (** Up to __init__ *)
  Lemma st_prelude n w : exists t x, 
    (let* l := alloc cid in
     iterM (fun d => has_observe C l d ;; ret tt) (c_obs c) ;;
     iterM (init_gettable E C U (ex (S n)) c l) (c_props c) ;;
     disabled None (has_reset E C U (ex (S n)) l None) ;; ret l) w =
    (Ok (length (w_heap w)), st (w_heap w) (Inst cid [] [] None false false []) (w_quar w) (w_links w) t x).
  Proof.
    set (h := w_heap w). set (i0 := Inst cid [] [] None false false []).
    unfold bind at 1, alloc. fold h i0.
    change (w_setheap (h ++ [i0]) w) with (st h i0 (w_quar w) (w_links w) (w_trace w) (w_clock w)).
    unfold c_obs, c_props, status_props. cbn [iterM]. unfold bind at 1, ret at 1.
    cbn [init_gettable snd pd_kind progress_decl message_decl]. unfold bind at 1. unfold bind at 1, ret at 1. unfold bind at 1, ret at 1. unfold ret at 1.
    unfold bind at 1, disabled. cbn [w_quar st].
    change (w_setquar (quar_enter None (w_quar w)) (st h i0 (w_quar w) (w_links w) (w_trace w) (w_clock w)))
      with (st h i0 all_modes (w_links w) (w_trace w) (w_clock w)).
    unfold has_reset. unfold bind at 1. rewrite st_class by reflexivity. unfold c_props, status_props.
    cbn [iterM snd fst pd_kind progress_decl message_decl].
    destruct (st_resetp n h i0 all_modes (w_links w) (w_trace w) (w_clock w) "progress" (PLeaf (LfFloat false (Some (NZ 0)) (Some (NZ 1)))) eq_refl eq_refl) as (t1 & x1 & H1).
    unfold bind at 1. unfold bind at 1. change (PD KProp (PLeaf (LfFloat false (Some (NZ 0)) (Some (NZ 1)))) false DUndef) with progress_decl in H1. unfold status_props in H1. rewrite H1. change (i_setback (ddel (i_back i0) "progress") i0) with i0.
    destruct (st_resetp n h i0 all_modes (w_links w) t1 x1 "message" (pd_type message_decl) eq_refl eq_refl) as (t2 & x2 & H2).
    unfold bind at 1. change (PD KProp (pd_type message_decl) false DUndef) with message_decl in H2. unfold status_props in H2. rewrite H2. change (i_setback (ddel (i_back i0) "message") i0) with i0.
    unfold ret. exists t2, x2. reflexivity.
  Qed.

  Lemma new_status n w kw : exists t x,
    ex (S (S n)) (COp (ONew cid (Some kw))) w =
    (has_init E C U (ex (S n)) c (length (w_heap w)) kw ;; ret (VInst (length (w_heap w))))
      (st (w_heap w) (Inst cid [] [] None false false []) (w_quar w) (w_links w) t x).
  Proof.
    destruct (st_prelude n w) as (t & x & P). exists t, x.
    change (ex (S (S n)) (COp (ONew cid (Some kw)))) with (has_new E C U (ex (S n)) cid (Some kw)).
    unfold has_new. unfold bind at 1. unfold class_of, lift. rewrite Hcls.
    revert P. unfold bind, alloc, ret. intros P.
    destruct (iterM (fun d w0 => let (r, w') := has_observe C (length (w_heap w)) d w0 in
        match r with Ok _ => (Ok tt, w') | Exc e => (Exc e, w') end) (c_obs c) _) as [[[]|e1] w1]; [|discriminate].
    destruct (iterM (init_gettable E C U (ex (S n)) c (length (w_heap w))) (c_props c) w1) as [[[]|e2] w2]; [|discriminate].
    destruct (disabled None (has_reset E C U (ex (S n)) (length (w_heap w)) None) w2) as [[v3|e3] w3]; [|discriminate].
    injection P as ->. reflexivity.
  Qed.
  Lemma new_none n w : exists t x,
    ex (S (S n)) (COp (ONew cid None)) w =
    (Exc ExType, st (w_heap w) (Inst cid [] [] None false false []) (w_quar w) (w_links w) t x).
  Proof.
    destruct (st_prelude n w) as (t & x & P). exists t, x.
    change (ex (S (S n)) (COp (ONew cid None))) with (has_new E C U (ex (S n)) cid None).
    unfold has_new. unfold bind at 1. unfold class_of, lift. rewrite Hcls.
    revert P. unfold bind, alloc, ret. intros P.
    destruct (iterM (fun d w0 => let (r, w') := has_observe C (length (w_heap w)) d w0 in
        match r with Ok _ => (Ok tt, w') | Exc e => (Exc e, w') end) (c_obs c) _) as [[[]|e1] w1]; [|discriminate].
    destruct (iterM (init_gettable E C U (ex (S n)) c (length (w_heap w))) (c_props c) w1) as [[[]|e2] w2]; [|discriminate].
    destruct (disabled None (has_reset E C U (ex (S n)) (length (w_heap w)) None) w2) as [[v3|e3] w3]; [|discriminate].
    injection P as ->. reflexivity.
  Qed.

  (** The keywords are applied one after the other. *)
  Definition kw_ok (kw : list (string * val)) (out : dict val) : Prop :=
    Forall2 (fun a b => fst a = fst b /\ is_undef (snd a) = false /\ is_undef (snd b) = false /\
      exists tl, dget status_props (fst a) = Some (PD KProp (PLeaf tl) false DUndef) /\ accepts tl (snd a) (snd b)) kw out.
  Lemma st_kws n h q k es : forall kw out, kw_ok kw out -> NoDup (dkeys kw) ->
    forall i t x, i_cls i = cid -> i_lst i = [] -> (forall a, In a (dkeys kw) -> dget (i_back i) a = None) ->
    exists i' t' x', foldM (init_kw E C U (ex (S n)) c (length h)) es kw (st h i q k t x) = (Ok es, st h i' q k t' x') /\
      i_cls i' = cid /\ i_lst i' = [] /\
      (forall a, dget (i_back i') a = match dget out a with Some v => Some v | None => dget (i_back i) a end).
  Proof.
    induction kw as [|[name v] kw IH]; intros out H ND.
    - inversion H; subst. intros i t x Ci Li N. exists i, t, x. cbn [foldM dget]. auto.
    - inversion H as [|? [nm' v'] ? out' (F1 & F2 & F3 & tl & F4 & F5) H']; subst. cbn [fst snd] in *. subst nm'.
      cbn [dkeys map fst] in *. inversion ND as [|? ? ND1 ND2]; subst. intros i t x Ci Li N.
      destruct (st_kw n h i q k t x es name tl v v' Ci Li (N _ (or_introl eq_refl)) F4 F5 F2 F3) as (t1 & x1 & H1).
      destruct (IH out' H' ND2 (i_setback (dset (i_back i) name v') i) t1 x1 Ci Li) as (i' & t' & x' & G1 & G2 & G3 & G4).
      { intros a Ha. cbn [i_back i_setback]. rewrite dget_dset_other by (intros ->; auto). apply N. right. auto. }
      exists i', t', x'. split; [|split; [auto|split; auto]].
      + cbn [foldM]. unfold bind. rewrite H1. exact G1.
      + intros a. rewrite G4. cbn [i_back i_setback dget].
        destruct (String.eqb a name) eqn:Ea.
        * apply String.eqb_eq in Ea. subst a.
          assert (dget out' name = None) as ->.
          { apply dget_none. intros I. apply ND1. clear -H' I. induction H' as [|[a b] [a' b'] ? ? (F & _) ? IH]; cbn in *; auto.
            destruct I as [I|I]; [left; congruence|auto]. }
          rewrite dget_dset_same. reflexivity.
        * destruct (dget out' a); auto. rewrite dget_dset_other; auto. intros ->. rewrite String.eqb_refl in Ea. discriminate.
  Qed.

  Lemma given_ok n w kw out : kw_ok kw out -> NoDup (dkeys kw) ->
    exists i t x, ex (S (S n)) (COp (ONew cid (Some kw))) w =
      (Ok (VInst (length (w_heap w))), st (w_heap w) i (w_quar w) (w_links w) t x) /\ i_cls i = cid /\
      (forall a, dget (i_back i) a = dget out a).
  Proof.
    intros K ND. destruct (new_status n w kw) as (t & x & ->).
    unfold has_init. unfold bind at 1. unfold bind at 1, upd, mod_w. rewrite st_upd. unfold fin, bind at 1.
    destruct (st_kws n (w_heap w) (w_quar w) (w_links w) ([], None) kw out K ND
      (i_setv (Some true) (Inst cid [] [] None false false [])) t x eq_refl eq_refl ltac:(reflexivity)) as (i' & t' & x' & G1 & G2 & G3 & G4).
    rewrite G1. cbn [raise_collected fst snd]. unfold ret at 1. rewrite st_upd. unfold ret.
    exists (i_setv (Some false) i'), t', x'. split; [reflexivity|]. split; [exact G2|].
    intros a. cbn [i_back i_setv]. rewrite G4. cbn. destruct (dget out a); reflexivity.
  Qed.
  Lemma given_bad n w name v tl e : dget status_props name = Some (PD KProp (PLeaf tl) false DUndef) ->
    (forall r, leaf_validate E r tl v = LErr e) -> is_undef v = false ->
    exists i t x, ex (S (S n)) (COp (ONew cid (Some [(name, v)]))) w =
      (Exc (ExValidation [ET (Some "invalid") (Some name) (Some (length (w_heap w)))]),
       st (w_heap w) i (w_quar w) (w_links w) (EHook (length (w_heap w)) [ET (Some "invalid") (Some name) (Some (length (w_heap w)))] :: t) x).
  Proof.
    intros D A Uv. destruct (new_status n w [(name, v)]) as (t & x & ->).
    unfold has_init. unfold bind at 1. unfold bind at 1, upd, mod_w. rewrite st_upd. unfold fin, bind at 1. cbn [foldM]. unfold bind at 1.
    destruct (st_kw_bad n (w_heap w) (i_setv (Some true) (Inst cid [] [] None false false [])) (w_quar w) (w_links w) t x ([], None) name tl v e
      eq_refl eq_refl D A Uv) as (x' & G). rewrite G. cbn [fst snd app]. unfold ret at 1. cbn [raise_collected fst].
    unfold bind at 1, mod_w, throw.
    match goal with |- context [w_emit ?e (st ?h ?j ?q ?k t ?y)] =>
      change (w_emit e (st h j q k t y)) with (st h j q k (e :: t) y) end.
    rewrite st_upd. eexists; eexists; eexists. reflexivity.
  Qed.
End Given.

Section Dict.
  Variable E : env.
  Variable C : ctable.
  Variable U : ucode.
  Variable show : val -> string.
  Variables (cid : nat) (nm : string) (cv : list cvalid) (mro : list nat) (attrs : dict val).
  Local Notation c := (Cls nm status_props [] [] cv mro attrs).
  Hypothesis Hcls : nth_error (ct_cls C) cid = Some c.

  Lemma accept_message s : accepts E (LfString (SO "" CNone None)) (VStr s) (VStr s).
  Proof.
    intros r. cbn [leaf_validate string_validate so_regex so_strip so_case]. do 2 f_equal. unfold str_strip.
    rewrite strip_by_id by reflexivity. apply string_of_list_ascii_of_string.
  Qed.
  Lemma accept_progress f : valid_float f = true -> within (Some (NZ 0)) (Some (NZ 1)) (NF f) ->
    accepts E (LfFloat false (Some (NZ 0)) (Some (NZ 1))) (VFloat f) (VFloat f).
  Proof.
    intros V W r. cbn [leaf_validate]. rewrite float_validate_float.
    assert (in_bounds (Some (NZ 0)) (Some (NZ 1)) (NF f) = true) as ->; [|reflexivity].
    apply in_bounds_within; auto; intros m Hm; injection Hm as <-; exact I.
  Qed.
  Lemma reject_progress f : valid_float f = true -> ~ within (Some (NZ 0)) (Some (NZ 1)) (NF f) ->
    exists e, forall r, leaf_validate E r (LfFloat false (Some (NZ 0)) (Some (NZ 1))) (VFloat f) = LErr e.
  Proof.
    intros V W. exists 0. intros r. cbn [leaf_validate]. rewrite float_validate_float.
    destruct (in_bounds (Some (NZ 0)) (Some (NZ 1)) (NF f)) eqn:B; [|reflexivity]. exfalso. apply W.
    apply in_bounds_within in B; auto; intros m Hm; injection Hm as <-; exact I.
  Qed.

  Lemma said_ok d f s : says d f s -> valid_float f = true -> within (Some (NZ 0)) (Some (NZ 1)) (NF f) ->
    exists kw, kwargs_of d = Ok kw /\ NoDup (dkeys kw) /\ kw_ok E kw kw /\
      dget kw "progress" = Some (VFloat f) /\
      (dget kw "message" = Some (VStr s) \/ (dget kw "message" = None /\ s = "")).
  Proof.
    intros D V W.
    assert (P : fst ("progress", VFloat f) = "progress" /\ is_undef (VFloat f) = false /\ is_undef (VFloat f) = false /\
      exists tl, dget status_props "progress" = Some (PD KProp (PLeaf tl) false DUndef) /\ accepts E tl (VFloat f) (VFloat f)).
    { split; auto. split; auto. split; auto. eexists. split; [reflexivity|]. now apply accept_progress. }
    assert (M : fst ("message", VStr s) = "message" /\ is_undef (VStr s) = false /\ is_undef (VStr s) = false /\
      exists tl, dget status_props "message" = Some (PD KProp (PLeaf tl) false DUndef) /\ accepts E tl (VStr s) (VStr s)).
    { split; auto. split; auto. split; auto. eexists. split; [reflexivity|]. apply accept_message. }
    assert (N1 : ~ In "progress" ["message"]) by (intros [X|[]]; discriminate).
    assert (N2 : ~ In "message" ["progress"]) by (intros [X|[]]; discriminate).
    destruct D as [[-> ->]|[-> | ->]]; eexists; (split; [reflexivity|]);
      (split; [repeat constructor; auto|]); (split; [repeat (apply Forall2_cons; [assumption|]); apply Forall2_nil|]); (split; [reflexivity|]).
    - right. auto.
    - left. reflexivity.
    - left. reflexivity.
  Qed.

  Lemma dict_reported n taskname d f s w : says d f s -> valid_float f = true ->
    within (Some (NZ 0)) (Some (NZ 1)) (NF f) -> f <> S754_nan ->
    exists line w' i, report_status E C U (S (S n)) show taskname cid (VDict d) w = (Ok line, w') /\
      line_for taskname (NF f) s line /\ w_heap w' = w_heap w ++ [i] /\ w_quar w' = w_quar w.
  Proof.
    intros D V W N. destruct (said_ok d f s D V W) as (kw & Hk & ND & K & Kp & Km).
    destruct (given_ok E C U cid nm cv mro attrs Hcls n w kw kw K ND) as (i & t & x & Hn & Ci & B).
    set (w' := st (w_heap w) i (w_quar w) (w_links w) t x) in *.
    assert (Hi : nth_error (w_heap w') (length (w_heap w)) = Some i) by apply st_nth.
    assert (Dp : declares C w' (length (w_heap w)) "progress" progress_decl).
    { exists c. split; [|reflexivity]. exists i. rewrite Ci. auto. }
    assert (Dm : declares C w' (length (w_heap w)) "message" message_decl).
    { exists c. split; [|reflexivity]. exists i. rewrite Ci. auto. }
    assert (Sp : stored w' (length (w_heap w)) "progress" = Some (VFloat f)).
    { unfold stored. rewrite Hi, B. exact Kp. }
    assert (Sm : stored w' (length (w_heap w)) "message" = dget kw "message").
    { unfold stored. rewrite Hi, B. reflexivity. }
    assert (Em : message_of w' (length (w_heap w)) = s).
    { unfold message_of. rewrite Sm. destruct Km as [-> |[-> ->]]; reflexivity. }
    destruct (percent_unit (NF f) V W ltac:(congruence) (VFloat f) eq_refl) as (z & u & Hz & Bz & Hu & Nz).
    exists (status_line taskname z s), w', i. split; [|split; [|split; reflexivity]].
    - unfold report_status. cbn [p_validate isinstance]. unfold bind at 1. unfold try_. unfold bind at 1. unfold ret at 1.
      unfold bind at 1, lift at 1. rewrite Hk, Hn.
      fold (report_on E C U show (S (S n)) taskname (length (w_heap w))).
      rewrite report_on_value; auto.
      + rewrite Sp, Hz, Em. reflexivity.
      + rewrite Sm. destruct Km as [-> |[-> _]]; eauto.
    - apply line_of. split; auto. exists u. auto.
  Qed.

  Lemma generic_perror {A} (m : M A) e w w' : m w = (Exc e, w') -> is_generic e = true ->
    try_ m (fun e => if is_generic e then perror "" None else throw e) w =
      (Exc (ExValidation [ET (Some "invalid") (Some "") None]), w').
  Proof. intros H G. unfold try_. rewrite H, G. reflexivity. Qed.

  Lemma dict_rejected n taskname f w : valid_float f = true -> ~ within (Some (NZ 0)) (Some (NZ 1)) (NF f) ->
    exists w' i, report_status E C U (S (S n)) show taskname cid (VDict [(VStr "progress", VFloat f)]) w =
        (Exc (ExValidation [ET (Some "invalid") (Some "") None]), w') /\
      w_heap w' = w_heap w ++ [i] /\ w_quar w' = w_quar w.
  Proof.
    intros V W. destruct (reject_progress f V W) as (e & He).
    destruct (given_bad E C U cid nm cv mro attrs Hcls n w "progress" (VFloat f) _ e eq_refl He eq_refl) as (i & t & x & H).
    match type of H with _ = (_, ?x) => exists x end. exists i. split; [|split; [reflexivity|reflexivity]].
    unfold report_status. cbn [p_validate isinstance]. unfold bind at 1.
    erewrite generic_perror; [reflexivity| |].
    { unfold bind at 1. unfold ret at 1. unfold bind at 1, lift at 1. cbn [kwargs_of rbind]. exact H. }
    reflexivity.
  Qed.

  Lemma other_rejected n taskname v w : (forall l, v <> VInst l) -> (forall d, v <> VDict d) ->
    exists w' i, report_status E C U (S (S n)) show taskname cid v w =
        (Exc (ExValidation [ET (Some "invalid") (Some "") None]), w') /\
      w_heap w' = w_heap w ++ [i] /\ w_quar w' = w_quar w.
  Proof.
    intros NI ND. destruct (new_none E C U cid nm cv mro attrs Hcls n w) as (t & x & H).
    match type of H with _ = (_, ?x) => exists x end. eexists. split; [|split; [reflexivity|reflexivity]].
    unfold report_status. cbn [p_validate]. unfold bind at 1.
    erewrite (generic_perror _ ExType); [reflexivity| |reflexivity].
    destruct v; try (exfalso; eapply NI; reflexivity); try (exfalso; eapply ND; reflexivity);
      cbn [isinstance]; unfold bind, ret; exact H.
  Qed.
End Dict.
