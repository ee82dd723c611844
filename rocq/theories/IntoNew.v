(** Deserializing into a new instance is deserializing. *)
From Verif Require Import World WorldFrame WorldSpec WorldInv WorldSet WorldFacts GraphSpec AccessSpec AccessFacts DeserSpec DeserFacts DeserInto IntoSpec IntoFacts IntoProper.
From Coq Require Import Lia.
Local Open Scope string_scope.
Local Open Scope list_scope.
Local Open Scope nat_scope.

Definition flag (l : loc) (b : bool) (w : world) : world := w_upd l (i_setv (Some b)) w.

(** Successful runs do not depend on the flag [_getting_validated]. *)
Definition okb {A} (l : loc) (P : world -> Prop) (m : M A) : Prop :=
  forall b w a w', P w -> m w = (Ok a, w') -> m (flag l b w) = (Ok a, flag l b w') /\ P w'.

Section Blind.
  Variables (E : env) (C : ctable) (U : ucode).
  Variable l : loc.
  Variable P : world -> Prop.
  Hypothesis Ptick : forall w, P w -> P (w_tick w).
  Lemma okb_ret {A} (a : A) : okb l P (ret a).
  Proof. intros b w a' w' Hp K. injection K as <- <-. auto. Qed.
  Lemma okb_throw {A} e : okb l P (@throw A e).
  Proof. intros b w a' w' Hp K. discriminate. Qed.
  Lemma okb_lift {A} (r : res A) : okb l P (lift r).
  Proof. intros b w a' w' Hp K. unfold lift in *. injection K as -> <-. auto. Qed.
  Lemma okb_bind {A B} (m : M A) (k : A -> M B) : okb l P m -> (forall a, okb l P (k a)) -> okb l P (bind m k).
  Proof.
    intros H K b w a' w' Hp Hb. apply bind_ok in Hb as (x & w1 & H1 & H2). destruct (H b w x w1 Hp H1) as [G1 P1]. destruct (K x b w1 a' w' P1 H2) as [G2 P2].
    unfold bind. now rewrite G1.
  Qed.
  Lemma okb_fail {A} (m : M A) (h : exn -> M A) : okb l P m -> (forall e w a w', h e w <> (Ok a, w')) -> okb l P (try_ m h).
  Proof.
    intros H K b w a' w' Hp Hb. unfold try_ in *. destruct (m w) as [[x|e] w1] eqn:Em; [|now destruct (K e w1 a' w')].
    injection Hb as <- <-. destruct (H b w x w1 Hp Em) as [G1 P1]. now rewrite G1.
  Qed.
  Lemma okb_mapM {A B} (f : A -> M B) xs : (forall x, okb l P (f x)) -> okb l P (mapM f xs).
  Proof. intros H. induction xs; cbn [mapM]; [apply okb_ret|]. apply okb_bind; auto. intros. apply okb_bind; auto. intros. apply okb_ret. Qed.
  Lemma okb_iterM {A} (f : A -> M unit) xs : (forall x, In x xs -> okb l P (f x)) -> okb l P (iterM f xs).
  Proof. induction xs as [|x xs IH]; intros H; cbn [iterM]; [apply okb_ret|]. apply okb_bind; [apply H; now left|]. intros _. apply IH. intros; apply H; now right. Qed.
  Lemma perror_fails {A} name io w (a : A) w' : perror name io w <> (Ok a, w').
  Proof. unfold perror, verror, bind. destruct (hook io _ w) as [[|] ?]; discriminate. Qed.
  Lemma okb_rescue {A} (m : M A) (g : exn -> bool) name io : okb l P m -> okb l P (try_ m (fun e => if g e then perror name io else throw e)).
  Proof. intros H. apply okb_fail; [exact H|]. intros e w a w'. destruct (g e); [apply perror_fails|discriminate]. Qed.
  Lemma okb_perror {A} name io : okb l P (@perror A name io).
  Proof. intros b w a w' _ K. now apply perror_fails in K. Qed.
  Lemma flag_tick b w : flag l b (w_tick w) = w_tick (flag l b w).
  Proof. unfold flag, w_upd, w_tick. cbn [w_heap]. destruct (nth_error (w_heap w) l); reflexivity. Qed.
  Lemma okb_tick : okb l P tick.
  Proof. intros b w a w' Hp K. unfold tick in *. injection K as <- <-. rewrite flag_tick. replace (w_clock (flag l b w)) with (w_clock w) by (symmetry; apply w_upd_clock). auto. Qed.
  Lemma okb_leaf t io name v : okb l P (leaf_val E t io name v).
  Proof.
    unfold leaf_val. apply okb_bind; [apply okb_tick|]. intros k. destruct (leaf_validate E (e_rand E k) t v) as [v'|j|e]; [apply okb_ret| |apply okb_throw].
    intros b w a w' _ K. apply bind_ok in K as ([] & w1 & _ & K). now apply perror_fails in K.
  Qed.
  Lemma okb_validate rec p : inst_free p -> no_union p -> forall io name v, okb l P (p_validate E C rec p io name v).
  Proof.
    induction p as [t|k q mn mx co IH|kp vp co IHk IHv|si ps IH|cid] using ptype_ind'; intros Hf Hn io name v; simpl in *.
    - apply okb_leaf.
    - apply okb_bind. { destruct (_ && _); [apply okb_perror|apply okb_ret]. }
      intros _. apply okb_bind; [apply okb_lift|]. intros items. apply okb_bind; [|intros; apply okb_lift].
      apply okb_mapM. intros x. apply okb_rescue. now apply IH.
    - destruct Hf as [Hk Hv], Hn as [Nk Nv]. apply okb_bind; [destruct (_ && _); [apply okb_perror|apply okb_ret]|].
      intros _. apply okb_bind.
      { destruct (py_dict v) as [d|[]]; try apply okb_ret; try apply okb_perror; apply okb_throw. }
      intros d. apply okb_bind; [|intros; apply okb_ret]. generalize (@nil (val * val)) as acc.
      induction d as [|[k x] d IHd]; intros acc; [apply okb_ret|].
      apply okb_bind; [apply okb_rescue; now apply IHk|]. intros k'. apply okb_bind; [apply okb_rescue; now apply IHv|].
      intros x'. destruct (hashable k'); [apply IHd|apply okb_throw].
    - destruct Hn.
    - destruct Hf.
  Qed.
End Blind.

Lemma flag_flag l b b' w : flag l b (flag l b' w) = flag l b w.
Proof. unfold flag. rewrite upd_upd. reflexivity. Qed.
Lemma flag_nth l b w : nth_error (w_heap (flag l b w)) l = option_map (i_setv (Some b)) (nth_error (w_heap w) l).
Proof. apply w_upd_nth_same. Qed.
Lemma flag_upd l b f w : (forall i, f (i_setv (Some b) i) = i_setv (Some b) (f i)) -> w_upd l f (flag l b w) = flag l b (w_upd l f w).
Proof.
  intros H. unfold flag. rewrite !upd_upd. unfold w_upd. destruct (nth_error (w_heap w) l); [now rewrite H|reflexivity].
Qed.
Lemma flag_emit l b e w : w_emit e (flag l b w) = flag l b (w_emit e w).
Proof. unfold flag, w_upd. cbn [w_emit w_heap]. destruct (nth_error (w_heap w) l); reflexivity. Qed.
Lemma flag_quar l b w : w_quar (flag l b w) = w_quar w.
Proof. apply w_upd_quar. Qed.
Lemma flag_setquar l b q w : w_setquar q (flag l b w) = flag l b (w_setquar q w).
Proof. unfold flag, w_upd. cbn [w_setquar w_heap]. destruct (nth_error (w_heap w) l); reflexivity. Qed.

(** A type whose values are read and checked without side effects. *)
Definition simple (p : ptype) : Prop := inst_free p /\ no_union p.

Section New.
  Variables (E : env) (C : ctable) (U : ucode).
  Hypothesis HC : wf_ctab C.
  Notation ex := (exec E C U).

  Definition here (l : loc) (c : cls) (w : world) : Prop := has_class C w l c /\ w_quar w = all_modes.
  Lemma here_tick l c w : here l c w -> here l c (w_tick w).
  Proof. intros [(i & Hi & Hc) Hq]. split; [exists i; auto|exact Hq]. Qed.

  Lemma okb_set n l c name d v : dget (c_props c) name = Some d -> pd_kind d = KProp -> simple (pd_type d) ->
    okb l (here l c) (has_setattr E C U (ex n) l name v).
  Proof.
    intros Hd Hk [Hf Hn] b w a w' [Hc Hq] H.
    destruct (set_off E C U n l c name d v w (Ok a) w' Hc Hd Hk Hf Hq H) as [Q _].
    assert (Hw' : here l c w') by (split; [exact (ov_class _ _ _ _ _ Q Hc)|rewrite <- Hq; exact (ov_quar _ _ _ Q)]).
    split; [|exact Hw']. clear Q.
    destruct Hc as (i & Hi & Hci). unfold has_setattr, inst_class in *.
    unfold bind at 1 in H. unfold bind at 1 in H. unfold get_inst at 1 in H. rewrite Hi in H. unfold class_of, lift in H. rewrite Hci, Hd, Hk in H.
    unfold bind at 1. unfold bind at 1. unfold get_inst at 1. rewrite flag_nth, Hi. cbn [option_map]. change (i_cls (i_setv (Some b) i)) with (i_cls i).
    unfold class_of, lift. rewrite Hci, Hd, Hk.
    unfold prop_fset in *. apply bind_ok in H as (v0 & w1 & Hv & H).
    assert (V : okb l (here l c) (if is_undef v then ret v else p_validate E C (ex n) (pd_type d) (Some l) name v)).
    { destruct (is_undef v); [apply okb_ret|]. apply okb_validate; auto using here_tick. }
    destruct (V b w v0 w1) as [G1 [Hc1 Hq1]]; [split; [exists i; auto|exact Hq]|exact Hv|]. unfold bind at 1. rewrite G1. clear V G1 Hv.
    unfold has_set in *.
    assert (Off : forall sid p x m wz, w_quar wz = all_modes -> notify (ex n) sid l name p x m wz = (Ok x, wz)).
    { intros sid p x m wz Hz. unfold notify, bind, get_w. rewrite Hz. now destruct m. }
    unfold bind at 1, tick in H. unfold bind at 1, tick.
    replace (w_clock (flag l b w1)) with (w_clock w1) by (symmetry; apply w_upd_clock). rewrite <- flag_tick.
    set (sid := w_clock w1) in *. set (w2 := w_tick w1) in *.
    assert (Hq2 : w_quar w2 = all_modes) by exact Hq1.
    assert (Hc2 : has_class C w2 l c) by (destruct Hc1 as (j & Hj & Hcj); exists j; auto).
    destruct Hc2 as (j & Hj & Hcj).
    unfold bind at 1, get_inst in H. rewrite Hj in H. unfold bind at 1, get_inst. rewrite flag_nth, Hj. cbn [option_map].
    change (i_back (i_setv (Some b) j)) with (i_back j).
    set (prev := match dget (i_back j) name with Some x => x | None => VUndef end) in *.
    unfold bind at 1 in H. rewrite (Off _ _ _ _ _ Hq2) in H.
    unfold bind at 1. rewrite Off by (now rewrite flag_quar).
    unfold bind at 1, upd, mod_w in H. unfold bind at 1 in H. unfold bind at 1, upd, mod_w. unfold bind at 1.
    rewrite flag_upd by reflexivity. rewrite flag_emit.
    set (w3 := w_emit _ (w_upd l _ w2)) in *.
    assert (Hq3 : w_quar w3 = all_modes). { unfold w3. cbn [w_emit w_quar]. now rewrite w_upd_quar. }
    clearbody w3.
    assert (Ec : exists rc, forall wz, (if is_undef prev && is_undef v0 then ret false else if is_undef prev || is_undef v0 then ret true
       else let* b := p_equal (ex n) (pd_type d) prev v0 in ret (negb b)) wz = (rc, wz)).
    { destruct (_ && _); [eexists; reflexivity|]. destruct (_ || _); [eexists; reflexivity|].
      destruct (equal_free _ Hf prev v0) as [rr Hrr]. destruct rr as [x|e]; [exists (Ok (negb x))|exists (Exc e)]; intros wz; unfold bind; now rewrite Hrr. }
    destruct Ec as [rc Ec]. unfold bind at 1 in H. rewrite Ec in H. unfold bind at 1. rewrite Ec. destruct rc as [ch|e]; [|discriminate].
    assert (Hqf : w_quar (flag l b w3) = all_modes) by (now rewrite flag_quar).
    unfold bind at 1 in H. rewrite (match ch as c return (if c then notify (ex n) sid l name prev v0 MChange else ret v0) w3 = (Ok v0, w3) with true => Off _ _ _ _ _ Hq3 | false => eq_refl end) in H.
    unfold bind in H. rewrite (Off _ _ _ _ _ Hq3) in H. injection H as <- <-.
    unfold bind at 1. rewrite (match ch as c return (if c then notify (ex n) sid l name prev v0 MChange else ret v0) (flag l b w3) = (Ok v0, flag l b w3) with true => Off _ _ _ _ _ Hqf | false => eq_refl end).
    unfold bind. rewrite (Off _ _ _ _ _ Hqf). reflexivity.
  Qed.

  (** an assignment never raises a ValidationError without tuples *)
  Lemma set_proper n l c name d v w e w' : has_class C w l c -> dget (c_props c) name = Some d -> pd_kind d = KProp -> inst_free (pd_type d) ->
    w_quar w = all_modes -> has_setattr E C U (ex n) l name v w = (Exc e, w') -> proper e.
  Proof.
    intros (i & Hi & Hci) Hd Hk Hf Hq H.
    destruct (validate_free E C (ex n) _ Hf (Some l) name v w) as [_ Qv _ _ _].
    unfold has_setattr, inst_class in H.
    unfold bind at 1 in H. unfold bind at 1 in H. unfold get_inst at 1 in H. rewrite Hi in H. unfold class_of, lift in H. rewrite Hci, Hd, Hk in H.
    unfold prop_fset in H. unfold bind at 1 in H.
    assert (V : exists rv w1, (if is_undef v then ret v else p_validate E C (ex n) (pd_type d) (Some l) name v) w = (rv, w1) /\ (forall e, rv = Exc e -> proper e) /\ w_quar w1 = all_modes).
    { destruct (is_undef v); [exists (Ok v), w; split; [reflexivity|split; [discriminate|exact Hq]]|].
      destruct (p_validate E C (ex n) (pd_type d) (Some l) name v w) as [rv w1] eqn:Ev. exists rv, w1. split; [reflexivity|]. split.
      - intros e0 ->. eapply (pvr_validate E C (ex n)); eauto.
      - cbn [snd] in Qv. congruence. }
    destruct V as (rv & w1 & Ev & Pv & Q1). rewrite Ev in H. destruct rv as [v0|e0]; [|injection H as <- _; now apply Pv].
    assert (Off : forall sid p x m wz, w_quar wz = all_modes -> notify (ex n) sid l name p x m wz = (Ok x, wz)).
    { intros sid p x m wz Hz. unfold notify, bind, get_w. rewrite Hz. now destruct m. }
    unfold has_set in H. unfold bind at 1, tick in H. unfold bind at 1, get_inst in H.
    destruct (nth_error (w_heap (w_tick w1)) l) as [j|]; [|injection H as <- _; discriminate].
    unfold bind at 1 in H. rewrite Off in H by exact Q1. unfold bind at 1, upd, mod_w in H. unfold bind at 1 in H.
    set (w3 := w_emit _ (w_upd l _ (w_tick w1))) in *. assert (Hq3 : w_quar w3 = all_modes). { unfold w3. cbn [w_emit w_quar]. rewrite w_upd_quar. exact Q1. }
    clearbody w3. unfold bind at 1 in H.
    match type of H with (let (_, _) := ?m in _) = _ => destruct m as [[ch|e0] w4] eqn:Ec end.
    - assert (Hq4 : w_quar w4 = all_modes).
      { destruct (_ && _) in Ec; [injection Ec as _ <-; exact Hq3|]. destruct (_ || _) in Ec; [injection Ec as _ <-; exact Hq3|].
        apply bind_ok in Ec as (x & w5 & Ex & Ec). injection Ec as _ <-. destruct (equal_free _ Hf (match dget (i_back j) name with Some x => x | None => VUndef end) v0) as [rr Hrr]. rewrite Hrr in Ex. injection Ex as _ <-. exact Hq3. }
      unfold bind at 1 in H.
      match type of H with (let (_, _) := ?m in _) = _ => assert (E5 : m = (Ok v0, w4)) by (destruct ch; [now apply Off|reflexivity]); rewrite E5 in H end.
      unfold bind in H. rewrite Off in H by exact Hq4. discriminate.
    - injection H as <- _. destruct (_ && _) in Ec; [discriminate|]. destruct (_ || _) in Ec; [discriminate|].
      unfold bind in Ec. destruct (p_equal _ _ _ _ w3) as [[x|e1] w5] eqn:Ee; [discriminate|]. injection Ec as <- _. eapply (pvr_equal (ex n)); eauto.
  Qed.

  Definition clean (a : errs) : Prop := fst a = [] /\ snd a = None.
  Lemma kw_iff n l c kvs : (forall key y, In (key, y) kvs -> exists d, dget (c_props c) key = Some d /\ pd_kind d = KProp /\ simple (pd_type d)) ->
    forall a w w', here l c w ->
      (exists a', foldM (init_kw E C U (ex n) c l) a kvs w = (Ok a', w') /\ clean a') <->
      clean a /\ iterM (into_mutable E C U (ex n) l) kvs w = (Ok tt, w').
  Proof.
    induction kvs as [|[key y] kvs IH]; intros Hk a w w' Hw; cbn [foldM iterM].
    - split.
      + intros (a' & H & Ha). injection H as -> <-. auto.
      + intros [Ha H]. injection H as <-. exists a. auto.
    - destruct (Hk key y (or_introl eq_refl)) as (d & Hd & Hkd & Hsd).
      assert (Hk' : forall k0 y0, In (k0, y0) kvs -> exists d, dget (c_props c) k0 = Some d /\ pd_kind d = KProp /\ simple (pd_type d)) by (intros k0 y0 H0; apply (Hk k0 y0); now right).
      destruct Hw as [Hc Hq]. destruct Hc as (i & Hi & Hci).
      assert (Hc : has_class C w l c) by (exists i; auto).
      destruct (has_setattr E C U (ex n) l key y w) as [r1 w1] eqn:E1.
      assert (A1 : init_kw E C U (ex n) c l a (key, y) w = match r1 with Ok _ => (Ok a, w1) | Exc e => add_err a e w1 end).
      { cbn [init_kw]. unfold bind at 1, get_inst. rewrite Hi, Hd, Hkd. unfold bind, outcome. rewrite E1. destruct r1; reflexivity. }
      assert (A2 : into_mutable E C U (ex n) l (key, y) w = match r1 with Ok _ => (Ok tt, w1) | Exc e => (Exc e, w1) end).
      { unfold into_mutable. cbn [fst snd]. unfold bind. rewrite E1. destruct r1; reflexivity. }
      destruct (set_off E C U n l c key d y w r1 w1 Hc Hd Hkd (proj1 Hsd) Hq E1) as [Q _].
      assert (Hw1 : here l c w1) by (split; [exact (ov_class _ _ _ _ _ Q Hc)|rewrite <- Hq; exact (ov_quar _ _ _ Q)]).
      unfold bind. rewrite A1, A2.
      destruct r1 as [x|e].
      + apply (IH Hk' a w1 w' Hw1).
      + assert (Pe : proper e) by (eapply set_proper; eauto; apply Hsd). split.
        * intros (a' & H & Ha). exfalso.
          assert (K : forall a1, foldM (init_kw E C U (ex n) c l) a1 kvs w1 = (Ok a', w') -> clean a1).
          { intros a1 H1. apply (IH Hk' a1 w1 w' Hw1). eauto. }
          unfold add_err in H. destruct e as [ts| | | | | | | | | ];
            cbn [is_generic ret throw] in H; try discriminate; destruct (K _ H) as [K1 K2]; cbn [fst snd] in *.
          -- apply app_eq_nil in K1 as [_ K1]. apply Pe. now rewrite K1.
          -- destruct (snd a); discriminate.
          -- destruct (snd a); discriminate.
          -- destruct (snd a); discriminate.
          -- destruct (snd a); discriminate.
        * intros [_ H]. discriminate.
  Qed.

  (** reading such values has no effects *)
  Definition same {A} (m : M A) : Prop := exists r, forall w, m w = (r, w).
  Lemma same_ret {A} (a : A) : same (ret a).
  Proof. exists (Ok a). reflexivity. Qed.
  Lemma same_throw {A} e : same (@throw A e).
  Proof. exists (Exc e). reflexivity. Qed.
  Lemma same_lift {A} (r : res A) : same (lift r).
  Proof. exists r. reflexivity. Qed.
  Lemma same_bind {A B} (m : M A) (k : A -> M B) : same m -> (forall a, same (k a)) -> same (bind m k).
  Proof.
    intros [[a|e] H] K.
    - destruct (K a) as [r Hr]. exists r. intros w. unfold bind. now rewrite H.
    - exists (Exc e). intros w. unfold bind. now rewrite H.
  Qed.
  Lemma same_mapM {A B} (f : A -> M B) xs : (forall x, In x xs -> same (f x)) -> same (mapM f xs).
  Proof.
    induction xs as [|x xs IH]; intros H; cbn [mapM]; [apply same_ret|]. apply same_bind; [apply H; now left|]. intros y.
    apply same_bind; [apply IH; intros; apply H; now right|]. intros. apply same_ret.
  Qed.
  Lemma same_deserialize rec p : simple p -> forall o v, same (p_deserialize E C rec o p v).
  Proof.
    unfold simple. induction p as [t|k q mn mx co IH|kp vp co IHk IHv|si ps IH|cid] using ptype_ind'; intros [Hp Hn] o v; cbn [p_deserialize];
      (destruct (is_none v); [apply same_ret|]); cbn [inst_free no_union] in Hp, Hn.
    - apply same_lift.
    - apply same_bind; [apply same_lift|]. intros items. apply same_bind; [|intros; apply same_lift]. apply same_mapM. intros; now apply IH.
    - destruct v; try apply same_throw. destruct Hp, Hn. apply same_bind; [|intros; apply same_bind; [apply same_lift|intros; apply same_ret]].
      apply same_mapM. intros kx _. apply same_bind; [now apply IHk|]. intros. apply same_bind; [now apply IHv|]. intros. apply same_ret.
    - destruct Hn.
    - destruct Hp.
  Qed.
  Lemma same_class cid i o : same (deser_class C cid i o).
  Proof.
    unfold deser_class. apply same_bind; [apply same_lift|]. intros c. destruct i; [|apply same_ret]. destruct (_ || _); [apply same_ret|].
    destruct (_ && _); [apply same_throw|]. match goal with |- same (match ?m with Some _ => _ | None => _ end) => destruct m end; [apply same_ret|].
    destruct (o_strict o); [apply same_throw|apply same_ret].
  Qed.
  Lemma same_state rec c o d : (forall key j d0, In (VStr key, j) d -> dget (c_props c) key = Some d0 -> simple (pd_type d0)) ->
    same (into_state E C rec c o d).
  Proof.
    intros H. unfold into_state. apply same_mapM. intros [key j] Hin. cbn [fst snd]. destruct (dget (c_props c) key) as [pd|] eqn:Ed; [|apply same_throw].
    apply known_in in Hin as [Hin _]. apply same_bind; [|intros; apply same_ret]. unfold decl_deserialize.
    destruct (pd_kind pd); try apply same_ret; apply same_deserialize; eauto.
  Qed.
  Lemma state_keys rec c o d w ns w' : into_state E C rec c o d w = (Ok ns, w') -> forall key y, In (key, y) ns -> exists j, In (VStr key, j) d /\ dhas (c_props c) key = true.
  Proof.
    unfold into_state. intros H key y Hin.
    assert (G : forall kn, incl kn (known_props c d) -> forall w ns w', mapM (fun kv =>
      match dget (c_props c) (fst kv) with
      | Some pd => let* x := decl_deserialize E C rec (DOpt (o_trusted o) (o_strict o) false) pd (snd kv) in ret (fst kv, x)
      | None => throw ExKey
      end) kn w = (Ok ns, w') -> In (key, y) ns -> exists j, In (VStr key, j) d /\ dhas (c_props c) key = true).
    { clear. induction kn as [|[k j] kn IH]; intros Hi w ns w' H Hin; cbn [mapM] in H.
      - injection H as <- <-. destruct Hin.
      - apply bind_ok in H as (b & w1 & H1 & H). apply bind_ok in H as (bs & w2 & H2 & H). injection H as <- <-.
        destruct Hin as [->|Hin]; [|eapply IH; eauto; intros z Hz; apply Hi; now right].
        cbn [fst snd] in H1. destruct (dget (c_props c) k); [|discriminate]. apply bind_ok in H1 as (x & w3 & _ & H1). injection H1 as <- <- <-.
        exists j. apply known_in. apply Hi. now left. }
    eapply G; eauto. apply incl_refl.
  Qed.
  (** storing directly does not look at the suppressed modes *)
  Lemma bl_iterM {A} (f : A -> M unit) xs : (forall x, In x xs -> blind (f x)) -> blind (iterM f xs).
  Proof.
    induction xs as [|x xs IH]; intros H; cbn [iterM]; [apply bl_ret|]. apply bl_bind; [apply H; now left|]. intros _. apply IH. intros; apply H; now right.
  Qed.
  Lemma bl_upd l f : blind (upd l f).
  Proof. intros q w. unfold upd, mod_w, w_upd. cbn [w_setquar w_heap]. destruct (nth_error (w_heap w) l); reflexivity. Qed.

  Theorem into_new n cid d o k c w x w' :
    deser_class C cid (vd_get d class_key) o w = (Ok k, w) -> nth_error (ct_cls C) k = Some c -> In k (c_mro c) ->
    (forall key j d0, In (VStr key, j) d -> dget (c_props c) key = Some d0 -> simple (pd_type d0) /\ (forall s, pd_kind d0 <> KRenamed s)) ->
    o_valid o = false ->
    (ex (S n) (COp (ODeser cid (VDict d) o)) w = (Ok x, w') <->
     disabled None (let* y := ex (S n) (COp (ONew k (Some []))) in
       match y with VInst l => deser_into E C U (ex n) cid (VDict d) o l | _ => throw ExType end) w = (Ok x, w')).
  Proof.
    intros Hk Hc Hm Hd Hv.
    destruct (same_class cid (vd_get d class_key) o) as [rk Hrk]. rewrite Hrk in Hk. injection Hk as ->.
    destruct (same_state (ex n) c o d) as [rs Hrs]; [intros; eapply Hd; eauto|].
    set (q := w_quar w). set (wq := w_setquar all_modes w). set (l := length (w_heap wq)).
    assert (New : forall kw, ex (S n) (COp (ONew k (Some kw))) wq =
      match prelude E C U n c l (blank k wq) with
      | (Ok _, wk) => (has_init E C U (ex n) c l kw ;; ret (VInst l)) wk
      | (Exc e, wk) => (Exc e, wk)
      end) by (intros kw; exact (new_split E C U n k c (Some kw) wq Hc)).
    (* the left side *)
    change (ex (S n) (COp (ODeser cid (VDict d) o)) w) with (has_deserialize E C U (ex n) cid (VDict d) o w).
    unfold has_deserialize. unfold bind at 1. rewrite Hrk. unfold bind at 1, class_of at 1, lift at 1. rewrite Hc.
    (* the right side *)
    unfold disabled at 2. fold q. change (quar_enter None q) with all_modes. fold wq.
    destruct (has_unused c d && o_strict o) eqn:Eu.
    { split; [discriminate|]. intros H. exfalso. unfold bind at 1 in H.
      destruct (ex (S n) (COp (ONew k (Some []))) wq) as [[y|e] w1]; [|discriminate]. destruct y; try discriminate.
      unfold deser_into in H. unfold bind at 1 in H. rewrite Hrk in H. unfold bind at 1, class_of at 1, lift at 1 in H. rewrite Hc in H.
      unfold bind at 1 in H. destruct (isinstance C (VInst l0) k w1) as [[b|e] w2]; [|discriminate]. destruct (negb b); [discriminate|]. rewrite Eu in H. discriminate. }
    change (mapM _ (known_props c d)) with (into_state E C (ex n) c o d). unfold bind at 1. rewrite Hrs.
    destruct rs as [ns|e].
    2:{ split; [discriminate|]. intros H. exfalso. unfold bind at 1 in H.
      destruct (ex (S n) (COp (ONew k (Some []))) wq) as [[y|e'] w1]; [|discriminate]. destruct y; try discriminate.
      unfold deser_into in H. unfold bind at 1 in H. rewrite Hrk in H. unfold bind at 1, class_of at 1, lift at 1 in H. rewrite Hc in H.
      unfold bind at 1 in H. destruct (isinstance C (VInst l0) k w1) as [[b|e'] w2]; [|discriminate]. destruct (negb b); [discriminate|]. rewrite Eu in H.
      unfold bind at 1 in H. rewrite Hrs in H. discriminate. }
    set (mut := filter (fun kv => key_mutable c (fst kv)) ns). set (imm := filter (fun kv => negb (key_mutable c (fst kv))) ns).
    unfold bind at 1, disabled at 1. fold q. change (quar_enter None q) with all_modes. fold wq.
    change (has_new E C U (ex n) k (Some mut) wq) with (ex (S n) (COp (ONew k (Some mut))) wq).
    match goal with |- context [bind (ex (S n) (COp (ONew k (Some [])))) ?f] =>
      assert (RHS : bind (ex (S n) (COp (ONew k (Some [])))) f wq = match ex (S n) (COp (ONew k (Some []))) wq with (Ok y, w1) => f y w1 | (Exc e, w1) => (Exc e, w1) end) by reflexivity
    end. cbv beta in RHS. rewrite RHS. clear RHS.
    pose proof (New []) as N0. rewrite !New.
    destruct (prelude E C U n c l (blank k wq)) as [[[]|e] wk] eqn:Ep.
    2:{ split; discriminate. }
    assert (I0 : (has_init E C U (ex n) c l [];; ret (VInst l)) wk = (Ok (VInst l), flag l false wk)).
    { unfold bind at 1. rewrite init_split. cbn. now rewrite upd_upd. }
    rewrite I0 in *. clear New.
    (* the new instance *)
    assert (Hh : forall b, here l c (flag l b wk)).
    { destruct (frame_exec E C U _ _ (frame_ext E C U) HC (S n) (COp (ONew k (Some []))) 0 wq) as [G P]; [lia|exact I|].
      rewrite N0 in G, P. cbn [fst snd] in G, P. cbn [cpost] in P. destruct P as (l' & El & _ & Sh & _). injection El as <-.
      intros b. split.
      - unfold shape in Sh. rewrite nth_error_map, flag_nth in Sh. unfold has_class. rewrite flag_nth.
        destruct (nth_error (w_heap wk) l) as [i|]; [|discriminate]. cbn [option_map] in *. injection Sh as Sh. eexists. split; [reflexivity|]. cbn [i_setv i_cls] in *. now rewrite Sh.
      - rewrite flag_quar. destruct G as [_ _ G]. rewrite flag_quar in G. exact G. }
    assert (Hmut : forall key y, In (key, y) mut -> exists pd, dget (c_props c) key = Some pd /\ pd_kind pd = KProp /\ simple (pd_type pd)).
    { intros key y Hin. apply filter_In in Hin as [Hin Hmu]. destruct (state_keys _ _ _ _ _ _ _ (Hrs w) _ _ Hin) as (j & Hj & _).
      cbn [fst] in Hmu. unfold key_mutable in Hmu. destruct (dget (c_props c) key) as [pd|] eqn:Ed; [|discriminate]. exists pd. split; [reflexivity|].
      destruct (Hd _ _ _ Hj Ed) as [Hs Hr]. split; [|exact Hs]. unfold is_mutable in Hmu. destruct (pd_kind pd) eqn:Kd; try discriminate; [reflexivity|]. now destruct (Hr new_name). }
    assert (Bimm : blind (iterM (into_immutable E C (ex n) c l) imm)).
    { apply bl_iterM. intros [key y] Hin. apply filter_In in Hin as [Hin _]. destruct (state_keys _ _ _ _ _ _ _ (Hrs w) _ _ Hin) as (j & Hj & _).
      unfold into_immutable. cbn [fst snd]. destruct (dget (c_props c) key) as [pd|] eqn:Ed; [|apply bl_throw].
      destruct (Hd _ _ _ Hj Ed) as [[Hf _] Hr]. apply bl_bind; [|intros; apply bl_upd]. apply validate_blind.
      unfold decl_type. destruct (pd_kind pd) eqn:Kd; try exact Hf. now destruct (Hr new_name). }
    assert (Bmut : okb l (here l c) (iterM (into_mutable E C U (ex n) l) mut)).
    { apply okb_iterM. intros [key y] Hin. destruct (Hmut _ _ Hin) as (pd & Ed & Kd & Sd). unfold into_mutable. cbn [fst snd].
      apply okb_bind; [eapply okb_set; eauto|]. intros; apply okb_ret. }
    (* what both do *)
    pose (Both := exists w2, iterM (into_mutable E C U (ex n) l) mut (flag l false wk) = (Ok tt, w2) /\ x = VInst l /\
      iterM (into_immutable E C (ex n) c l) imm (w_setquar q w2) = (Ok tt, w')).
    transitivity Both.
    - unfold bind at 1. rewrite init_split. fold (flag l true wk). unfold kwloop.
      split.
      + intros H. destruct ((let* a := foldM (init_kw E C U (ex n) c l) ([], None) mut in raise_collected l a) (flag l true wk)) as [[[]|e] w1] eqn:Ek; [|discriminate].
        apply bind_ok in Ek as (a & w2 & Ef & Er).
        assert (clean a /\ w1 = w2) as [Ha ->].
        { unfold raise_collected in Er. destruct a as [[|t ts] [e|]]; cbn in Er; try discriminate. injection Er as <-. repeat split. }
        destruct (kw_iff n l c mut Hmut ([], None) (flag l true wk) w2 (Hh true)) as [K _]. destruct K as [_ K]; [eauto|].
        destruct (Bmut false _ _ _ (Hh true) K) as [K' _]. rewrite flag_flag in K'.
        change ((let* _ := iterM (into_immutable E C (ex n) c l) imm in
          (if o_valid o then ex n (COp (OValidate l));; ret tt else ret tt);; ret (VInst l)) (w_setquar q (flag l false w2)) = (Ok x, w')) in H.
        unfold bind at 1 in H.
        destruct (iterM (into_immutable E C (ex n) c l) imm (w_setquar q (flag l false w2))) as [[[]|e] w3] eqn:Ei; [|discriminate].
        rewrite Hv in H. unfold bind, ret in H. injection H as <- <-. exists (flag l false w2). split; [exact K'|]. split; [reflexivity|exact Ei].
      + intros (w2 & K & -> & Ei).
        destruct (Bmut true _ _ _ (Hh false) K) as [K' _]. rewrite flag_flag in K'.
        destruct (Bmut false _ _ _ (Hh false) K) as [K2 _]. rewrite flag_flag, K in K2. injection K2 as K2.
        destruct (kw_iff n l c mut Hmut ([], None) (flag l true wk) (flag l true w2) (Hh true)) as [_ G]. destruct G as (a & Ef & Ha); [split; [split; reflexivity|exact K']|].
        unfold bind at 1. rewrite Ef. destruct Ha as [Ha1 Ha2]. unfold raise_collected. rewrite Ha1, Ha2.
        change ((let* _ := iterM (into_immutable E C (ex n) c l) imm in
          (if o_valid o then ex n (COp (OValidate l));; ret tt else ret tt);; ret (VInst l)) (w_setquar q (flag l false (flag l true w2))) = (Ok (VInst l), w')).
        rewrite flag_flag, <- K2. unfold bind at 1. rewrite Ei. rewrite Hv. reflexivity.
    - destruct (Hh false) as [Hcl Hqf]. destruct Hcl as (i & Hi & Hci).
      assert (Eq : w_setquar all_modes (flag l false wk) = flag l false wk) by (rewrite <- Hqf at 1; now destruct (flag l false wk)).
      unfold deser_into. unfold bind at 1. rewrite Hrk. unfold bind at 1, class_of at 1, lift at 1. rewrite Hc.
      unfold bind at 1, isinstance at 1. unfold bind at 1, inst_class. unfold bind at 1, get_inst. rewrite Hi. unfold class_of, lift. rewrite Hci. unfold ret at 1.
      assert (Hex : existsb (Nat.eqb k) (c_mro c) = true) by (apply existsb_exists; exists k; split; [exact Hm|apply Nat.eqb_refl]).
      rewrite Hex, Eu. cbn [negb]. unfold bind at 1. rewrite Hrs. fold mut imm.
      unfold bind at 1, disabled. rewrite Hqf. change (quar_enter None all_modes) with all_modes. rewrite Eq.
      split.
      + intros (w2 & K & -> & Ei). rewrite K. unfold bind at 1. rewrite Bimm in Ei.
        destruct (Bmut false _ _ _ (Hh false) K) as [_ [_ Hq2]].
        assert (Eq2 : w_setquar all_modes w2 = w2) by (rewrite <- Hq2; now destruct w2). rewrite Eq2.
        destruct (iterM (into_immutable E C (ex n) c l) imm w2) as [ri w3]. cbn [fst snd] in Ei. injection Ei as -> <-. rewrite Hv. reflexivity.
      + intros H. destruct (iterM (into_mutable E C U (ex n) l) mut (flag l false wk)) as [[[]|e] w2] eqn:K; [|discriminate].
        destruct (Bmut false _ _ _ (Hh false) K) as [_ [_ Hq2]].
        assert (Eq2 : w_setquar all_modes w2 = w2) by (rewrite <- Hq2; now destruct w2). rewrite Eq2 in H.
        exists w2. split; [reflexivity|]. rewrite Bimm. unfold bind at 1 in H.
        destruct (iterM (into_immutable E C (ex n) c l) imm w2) as [[[]|e] w3] eqn:Ei; [|discriminate].
        rewrite Hv in H. unfold bind, ret in H. injection H as <- <-. split; reflexivity.
  Qed.
End New.
