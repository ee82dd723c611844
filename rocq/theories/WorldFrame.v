(** A frame rule for the whole interpreter: a relation between worlds that is
    a preorder and that every primitive state change of the library respects
    is respected by every execution, for all user code. *)
From Verif Require Import World.
Local Open Scope nat_scope.

Definition shape (w : world) : list nat := map i_cls (w_heap w).

(** [rets Q p]: every value that [p] can return satisfies [Q] *)
Fixpoint rets (Q : val -> Prop) (p : prog) : Prop :=
  match p with
  | Ret v => Q v
  | Raise _ => True
  | Do _ k => forall r, rets Q (k r)
  | With _ _ k => forall r, rets Q (k r)
  end.

Definition decl_at (CTab : ctable) (sh : list nat) (l : loc) (name : string) (d : pdecl) : Prop :=
  exists cid c, nth_error sh l = Some cid /\ nth_error (ct_cls CTab) cid = Some c /\
                dget (c_props c) name = Some d.

Definition write (l : loc) (name : string) (v : val) : world -> world :=
  w_upd l (fun i => i_setback (if is_undef v then ddel (i_back i) name
                               else dset (i_back i) name v) i).

Definition set_updating (k : nat) (b : bool) : world -> world :=
  w_updlink k (fun d => DL (d_src d) (d_tgt d) (d_trans d) (d_unlinked d) b).
Definition set_unlinked (k : nat) (b : bool) : world -> world :=
  w_updlink k (fun d => DL (d_src d) (d_tgt d) (d_trans d) b (d_updating d)).

Record grows (w w' : world) : Prop := Grows {
  ext_shape : exists x, shape w' = shape w ++ x;
  ext_clock : w_clock w <= w_clock w';
  ext_quar : w_quar w' = w_quar w
}.

Lemma ext_refl w : grows w w.
Proof. split; auto. exists []. now rewrite app_nil_r. Qed.
Lemma ext_trans a b c : grows a b -> grows b c -> grows a c.
Proof.
  intros [[x Hx] H1 H2] [[y Hy] H3 H4]. split; [|lia|congruence].
  exists (x ++ y). now rewrite Hy, Hx, app_assoc.
Qed.

(** * Shapes under the primitives *)
Lemma set_nth_length {A} (l : list A) n a : length (set_nth l n a) = length l.
Proof.
  unfold set_nth. rewrite app_length, firstn_length.
  pose proof (skipn_length n l). destruct (skipn n l) eqn:E; simpl in *; lia.
Qed.
Lemma set_nth_map {A B} (f : A -> B) l n a :
  (forall x, nth_error l n = Some x -> f x = f a) -> map f (set_nth l n a) = map f l.
Proof.
  revert n. induction l as [|x l IH]; intros [|n] H; try reflexivity; unfold set_nth in *; simpl in *.
  - f_equal. symmetry. apply H. reflexivity.
  - f_equal. apply IH. intros y Hy. apply H. exact Hy.
Qed.
Lemma set_nth_same {A} (l : list A) n a : n < length l -> nth_error (set_nth l n a) n = Some a.
Proof.
  revert n. induction l as [|x l IH]; intros [|n] H; simpl in *; try lia; [reflexivity|].
  apply IH. lia.
Qed.
Lemma set_nth_other {A} (l : list A) n m a : n <> m -> nth_error (set_nth l n a) m = nth_error l m.
Proof.
  revert n m. induction l as [|x l IH]; intros [|n] [|m] H; simpl in *; try reflexivity; try lia.
  - apply IH. lia.
Qed.
Lemma nth_error_nil {A} n : nth_error (@nil A) n = None.
Proof. destruct n; reflexivity. Qed.

Lemma w_upd_shape l f w : (forall i, i_cls (f i) = i_cls i) -> shape (w_upd l f w) = shape w.
Proof.
  intros H. unfold shape, w_upd. destruct (nth_error (w_heap w) l) as [i|] eqn:E; [|reflexivity].
  simpl. apply set_nth_map. intros x Hx. rewrite E in Hx. injection Hx as <-. symmetry. apply H.
Qed.
Lemma w_upd_quar l f w : w_quar (w_upd l f w) = w_quar w.
Proof. unfold w_upd. destruct nth_error; reflexivity. Qed.
Lemma w_upd_clock l f w : w_clock (w_upd l f w) = w_clock w.
Proof. unfold w_upd. destruct nth_error; reflexivity. Qed.
Lemma w_upd_links l f w : w_links (w_upd l f w) = w_links w.
Proof. unfold w_upd. destruct nth_error; reflexivity. Qed.
Lemma w_upd_trace l f w : w_trace (w_upd l f w) = w_trace w.
Proof. unfold w_upd. destruct nth_error; reflexivity. Qed.
Lemma w_updlink_heap k f w : w_heap (w_updlink k f w) = w_heap w.
Proof. unfold w_updlink. destruct nth_error; reflexivity. Qed.
Lemma w_updlink_quar k f w : w_quar (w_updlink k f w) = w_quar w.
Proof. unfold w_updlink. destruct nth_error; reflexivity. Qed.
Lemma w_updlink_clock k f w : w_clock (w_updlink k f w) = w_clock w.
Proof. unfold w_updlink. destruct nth_error; reflexivity. Qed.
Lemma w_updlink_trace k f w : w_trace (w_updlink k f w) = w_trace w.
Proof. unfold w_updlink. destruct nth_error; reflexivity. Qed.

Lemma w_upd_nth_same l f w :
  nth_error (w_heap (w_upd l f w)) l = option_map f (nth_error (w_heap w) l).
Proof.
  unfold w_upd. destruct (nth_error (w_heap w) l) eqn:E; simpl; [|exact E].
  apply set_nth_same. apply nth_error_Some. congruence.
Qed.
Lemma w_upd_nth_other l l' f w : l <> l' ->
  nth_error (w_heap (w_upd l f w)) l' = nth_error (w_heap w) l'.
Proof.
  intros H. unfold w_upd. destruct (nth_error (w_heap w) l) eqn:E; simpl; [|reflexivity].
  now apply set_nth_other.
Qed.
Lemma w_upd_len l f w : length (w_heap (w_upd l f w)) = length (w_heap w).
Proof. unfold w_upd. destruct nth_error; simpl; [apply set_nth_length|reflexivity]. Qed.
Lemma shape_len w : length (shape w) = length (w_heap w).
Proof. apply map_length. Qed.

Lemma ext_upd l f w : (forall i, i_cls (f i) = i_cls i) -> grows w (w_upd l f w).
Proof.
  intros H. split; [|rewrite w_upd_clock; lia|apply w_upd_quar].
  exists []. rewrite app_nil_r. now apply w_upd_shape.
Qed.
Lemma ext_updlink k f w : grows w (w_updlink k f w).
Proof.
  split; [|rewrite w_updlink_clock; lia|apply w_updlink_quar].
  exists []. rewrite app_nil_r. unfold shape. now rewrite w_updlink_heap.
Qed.
Lemma ext_emit e w : grows w (w_emit e w).
Proof. split; auto. exists []. now rewrite app_nil_r. Qed.
Lemma ext_tick w : grows w (w_tick w).
Proof. split; simpl; auto. exists []. now rewrite app_nil_r. Qed.

Lemma decl_at_ext CT w w' l n d : grows w w' -> decl_at CT (shape w) l n d -> decl_at CT (shape w') l n d.
Proof.
  intros [[x Hx] _ _] (cid & c & H1 & H2 & H3). exists cid, c. repeat split; auto.
  rewrite Hx. rewrite nth_error_app1; auto. apply nth_error_Some. congruence.
Qed.
Lemma nth_shape_ext w w' l cid : grows w w' -> nth_error (shape w) l = Some cid -> nth_error (shape w') l = Some cid.
Proof.
  intros [[x Hx] _ _] H. rewrite Hx, nth_error_app1; auto. apply nth_error_Some. congruence.
Qed.
Lemma ext_len w w' : grows w w' -> length (w_heap w) <= length (w_heap w').
Proof. intros [[x Hx] _ _]. rewrite <- !shape_len, Hx, app_length. lia. Qed.
Lemma shape_nth w l i : nth_error (w_heap w) l = Some i -> nth_error (shape w) l = Some (i_cls i).
Proof. intros H. unfold shape. now rewrite nth_error_map, H. Qed.

(** * Induction on property types *)
Section PtypeInd.
  Variable P : ptype -> Prop.
  Hypothesis Hl : forall t, P (PLeaf t).
  Hypothesis Hs : forall k p mn mx c, P p -> P (PSeq k p mn mx c).
  Hypothesis Hd : forall k v c, P k -> P v -> P (PDict k v c).
  Hypothesis Hu : forall si ps, Forall P ps -> P (PUnion si ps).
  Hypothesis Hi : forall cid, P (PInst cid).
  Fixpoint ptype_ind' (p : ptype) : P p :=
    match p with
    | PLeaf t => Hl t
    | PSeq k p mn mx c => Hs k p mn mx c (ptype_ind' p)
    | PDict k v c => Hd k v c (ptype_ind' k) (ptype_ind' v)
    | PUnion si ps =>
        Hu si ps ((fix go (l : list ptype) : Forall P l :=
          match l with [] => Forall_nil _ | q :: r => Forall_cons q (ptype_ind' q) (go r) end) ps)
    | PInst cid => Hi cid
    end.
End PtypeInd.

(** * The rule *)
Section Frame.
  Variable E : env.
  Variable CTab : ctable.
  Variable U : ucode.
  (** [R s w w']: the relation; [s] bounds the notification numbers of new events from below *)
  Variable R : nat -> world -> world -> Prop.
  (** [T shape p v]: what is known about validated values *)
  Variable T : list nat -> ptype -> val -> Prop.

  Record frame : Prop := Frame {
    f_refl : forall s w, R s w w;
    f_trans : forall s a b c, R s a b -> R s b c -> R s a c;
    f_ext : forall s w w', R s w w' -> grows w w';
    f_tick : forall s w, R s w (w_tick w);
    f_hook : forall s l i ts w, nth_error (w_heap w) l = Some i -> i_vflag i = Some false ->
      R s w (w_emit (EHook l ts) w);
    f_call : forall s sid l n m f p v w, s <= sid -> sid < w_clock w ->
      mode_in m (w_quar w) = false -> R s w (w_emit (ECall sid l n m f p v) w);
    f_write : forall s sid l n d v w, s <= sid -> sid < w_clock w ->
      decl_at CTab (shape w) l n d -> pd_kind d = KProp ->
      (is_undef v = true \/ T (shape w) (pd_type d) v) ->
      R s w (w_emit (EWrite sid l n v) (write l n v w));
    f_alloc : forall s w cid,
      R s w (w_setheap (w_heap w ++ [Inst cid [] [] None false false []]) w);
    f_lst : forall s w l xs, R s w (w_upd l (fun i => i_setlst (i_lst i ++ xs) i) w);
    f_attr : forall s w l n c v, nth_error (shape w) l = Some c ->
      (forall c', nth_error (ct_cls CTab) c = Some c' -> dget (c_props c') n = None) ->
      R s w (w_upd l (fun i => i_setattrs (dset (i_attrs i) n v) i) w);
    f_attrdel : forall s w l n c, nth_error (shape w) l = Some c ->
      (forall c', nth_error (ct_cls CTab) c = Some c' -> dget (c_props c') n = None) ->
      R s w (w_upd l (fun i => i_setattrs (ddel (i_attrs i) n) i) w);
    f_vbr : forall s w w2 l i, nth_error (w_heap w) l = Some i -> i_vflag i <> Some true ->
      R s (w_upd l (i_setv (Some true)) w) w2 -> R s w (w_upd l (i_setv (Some false)) w2);
    f_initbr : forall s w0 w w2 l, R s w0 w -> length (w_heap w0) <= l ->
      R s (w_upd l (i_setv (Some true)) w) w2 -> R s w0 (w_upd l (i_setv (Some false)) w2);
    f_fresh : forall s w0 w l n d v, R s w0 w -> length (w_heap w0) <= l ->
      decl_at CTab (shape w) l n d -> pd_kind d <> KProp -> T (shape w) (decl_type d) v ->
      (is_mutable d = false \/ (forall k c, nth_error (shape w) l = Some k ->
         nth_error (ct_cls CTab) k = Some c -> default_of c n d <> DUndef)) ->
      R s w0 (w_upd l (fun i => i_setback (dset (i_back i) n v) i) w);
    f_sbr : forall s w w2 l i, nth_error (w_heap w) l = Some i -> i_sflag i = false ->
      R s (w_upd l (i_sets true) w) w2 -> R s w (w_upd l (i_sets false) w2);
    f_ebr : forall s w w2 l i, nth_error (w_heap w) l = Some i -> i_eflag i = false ->
      R s (w_upd l (i_sete true) w) w2 -> R s w (w_upd l (i_sete false) w2);
    f_quarbr : forall s w w2 types,
      R s (w_setquar (quar_enter types (w_quar w)) w) w2 -> R s w (w_setquar (w_quar w) w2);
    f_newlink : forall s w d, d_updating d = false -> R s w (w_setlinks (w_links w ++ [d]) w);
    f_unlink : forall s w k b, R s w (set_unlinked k b w);
    f_linkbr : forall s w w2 k d, nth_error (w_links w) k = Some d -> d_updating d = false ->
      R s (set_updating k true w) w2 -> R s w (set_updating k false w2);
    t_mono : forall sh x p v, T sh p v -> T (sh ++ x) p v;
    t_leaf : forall sh rc t v v', leaf_validate E rc t v = LOk v' -> T sh (PLeaf t) v';
    t_seq : forall sh k q mn mx c out v, build k out = Ok v -> Forall (T sh q) out ->
      T sh (PSeq k q mn mx c) v;
    t_dict : forall sh kp vp c d,
      Forall (fun kx => T sh kp (fst kx) /\ T sh vp (snd kx) /\ hashable (fst kx) = true) d ->
      ForallOrdPairs (fun a b : val * val => py_eq (fst a) (fst b) = false) d ->
      T sh (PDict kp vp c) (VDict d);
    t_union : forall sh si ps q v, In q ps -> T sh q v -> T sh (PUnion si ps) v;
    t_inst : forall sh l cid c k, nth_error sh l = Some k -> nth_error (ct_cls CTab) k = Some c ->
      existsb (Nat.eqb cid) (c_mro c) = true -> T sh (PInst cid) (VInst l);
    t_new : forall sh l cid, nth_error sh l = Some cid -> nth_error (ct_cls CTab) cid <> None ->
      T sh (PInst cid) (VInst l);
    t_listen : (forall sh p v, T sh p v) \/
               (forall cb l n p v, rets (eq v) (u_listen U cb l n p v MValidate))
  }.

  Hypothesis F : frame.

  Definition keeps (v v' : val) : Prop := v' = v \/ (forall sh p x, T sh p x).

  Definition cpre (c : call) (s : nat) (w : world) : Prop :=
    match c with
    | COp _ => True
    | CNotify sid l n prev v m i => s <= sid /\ sid < w_clock w /\ mode_in m (w_quar w) = false
    end.
  Definition cpost (c : call) (w : world) (r : res val) (w' : world) : Prop :=
    match c, r with
    | COp (ONew cid kw), Ok v =>
        exists l, v = VInst l /\ length (w_heap w) <= l /\ nth_error (shape w') l = Some cid /\
                  nth_error (ct_cls CTab) cid <> None
    | CNotify sid l n prev v MValidate i, Ok v' => keeps v v'
    | _, _ => True
    end.
  Definition rspec (rec : call -> M val) : Prop :=
    forall c s w, s <= w_clock w -> cpre c s w ->
      R s w (snd (rec c w)) /\ cpost c w (fst (rec c w)) (snd (rec c w)).

  (** Outcome of [m] from [w]: related to [w0], and [Q] holds of a normal result *)
  Definition good {A} (s : nat) (w0 : world) (m : M A) (w : world) (Q : world -> A -> Prop) : Prop :=
    R s w0 (snd (m w)) /\ grows w (snd (m w)) /\
    forall a, fst (m w) = Ok a -> Q (snd (m w)) a.

  Lemma good_ret {A} s w0 (a : A) w (Q : world -> A -> Prop) :
    R s w0 w -> Q w a -> good s w0 (ret a) w Q.
  Proof.
    intros H1 H2. split; [exact H1|]. split; [apply ext_refl|]. intros b [= <-]. exact H2.
  Qed.
  Lemma good_throw {A} s w0 e w (Q : world -> A -> Prop) : R s w0 w -> good s w0 (throw e) w Q.
  Proof. intros H1. split; [exact H1|]. split; [apply ext_refl|]. discriminate. Qed.
  Lemma good_lift {A} s w0 (r : res A) w (Q : world -> A -> Prop) :
    R s w0 w -> (forall a, r = Ok a -> Q w a) -> good s w0 (lift r) w Q.
  Proof. intros H1 H2. split; [exact H1|]. split; [apply ext_refl|]. exact H2. Qed.
  Lemma good_bind {A B} s w0 (m : M A) (k : A -> M B) w Q1 Q2 :
    good s w0 m w Q1 ->
    (forall a w1, R s w0 w1 -> grows w w1 -> Q1 w1 a -> good s w0 (k a) w1 Q2) ->
    good s w0 (bind m k) w Q2.
  Proof.
    intros (H1 & H2 & H3) Hk. unfold good, bind. destruct (m w) as [[a|e] w1] eqn:Em; simpl in *.
    - destruct (Hk a w1 H1 H2 (H3 a eq_refl)) as (K1 & K2 & K3).
      split; [exact K1|]. split; [eapply ext_trans; eauto|]. exact K3.
    - split; [exact H1|]. split; [exact H2|]. discriminate.
  Qed.
  Lemma good_try {A} s w0 (m : M A) h w Q :
    good s w0 m w Q ->
    (forall e w1, R s w0 w1 -> grows w w1 -> good s w0 (h e) w1 Q) ->
    good s w0 (try_ m h) w Q.
  Proof.
    intros (H1 & H2 & H3) Hk. unfold good, try_. destruct (m w) as [[a|e] w1] eqn:Em; simpl in *.
    - split; [exact H1|]. split; [exact H2|]. exact H3.
    - destruct (Hk e w1 H1 H2) as (K1 & K2 & K3).
      split; [exact K1|]. split; [eapply ext_trans; eauto|]. exact K3.
  Qed.
  Lemma good_outcome {A} s w0 (m : M A) w Q :
    good s w0 m w Q ->
    good s w0 (outcome m) w (fun w' r => match r with Ok a => Q w' a | Exc _ => True end).
  Proof.
    intros (H1 & H2 & H3). unfold good, outcome. destruct (m w) as [r w1] eqn:Em; simpl in *.
    split; [exact H1|]. split; [exact H2|]. intros b [= <-]. destruct r; auto.
  Qed.
  Lemma good_weaken {A} s w0 (m : M A) w (Q Q' : world -> A -> Prop) :
    good s w0 m w Q -> (forall w' a, grows w w' -> Q w' a -> Q' w' a) -> good s w0 m w Q'.
  Proof. intros (H1 & H2 & H3) H. split; [exact H1|]. split; [exact H2|]. intros a Ha. apply H; auto. Qed.
  Lemma good_get_w s w0 w (Q : world -> world -> Prop) : R s w0 w -> Q w w -> good s w0 get_w w Q.
  Proof. intros H1 H2. split; [exact H1|]. split; [apply ext_refl|]. intros b [= <-]. exact H2. Qed.
  Lemma good_mod s w0 f w (Q : world -> unit -> Prop) :
    R s w0 (f w) -> grows w (f w) -> Q (f w) tt -> good s w0 (mod_w f) w Q.
  Proof. intros H1 H2 H3. split; [exact H1|]. split; [exact H2|]. intros [] _. exact H3. Qed.
  Lemma good_get_inst s w0 l w (Q : world -> inst -> Prop) :
    R s w0 w -> (forall i, nth_error (w_heap w) l = Some i -> Q w i) -> good s w0 (get_inst l) w Q.
  Proof.
    intros H1 H2. unfold good, get_inst. destruct (nth_error (w_heap w) l) as [i|] eqn:Ei; simpl.
    - split; [exact H1|]. split; [apply ext_refl|]. intros b [= <-]. auto.
    - split; [exact H1|]. split; [apply ext_refl|]. discriminate.
  Qed.
  Lemma good_tick s w0 w (Q : world -> nat -> Prop) :
    R s w0 w -> Q (w_tick w) (w_clock w) -> good s w0 tick w Q.
  Proof.
    intros H1 H2. unfold good, tick; simpl. split; [eapply (f_trans F); [exact H1|apply (f_tick F)]|].
    split; [apply ext_tick|]. intros b [= <-]. exact H2.
  Qed.
  Lemma good_class_of s w0 cid w (Q : world -> cls -> Prop) :
    R s w0 w -> (forall c, nth_error (ct_cls CTab) cid = Some c -> Q w c) ->
    good s w0 (class_of CTab cid) w Q.
  Proof.
    intros H1 H2. apply good_lift; [exact H1|]. intros c.
    destruct nth_error eqn:Ec; [intros [= <-]; auto|discriminate].
  Qed.
  Lemma good_mapM {A B} s w0 (f : A -> M B) (Q : world -> B -> Prop) :
    (forall w w' b, grows w w' -> Q w b -> Q w' b) ->
    forall l w, R s w0 w ->
    (forall x w1, In x l -> R s w0 w1 -> grows w w1 -> good s w0 (f x) w1 Q) ->
    good s w0 (mapM f l) w (fun w' bs => Forall (Q w') bs).
  Proof.
    intros Hst. induction l as [|x l IH]; intros w H Hf; simpl.
    - apply good_ret; auto.
    - eapply good_bind; [apply Hf; [left; reflexivity|exact H|apply ext_refl]|].
      intros b w1 R1 E1 Qb. eapply good_bind.
      { apply IH; [exact R1|]. intros y w2 Hy R2 E2. apply Hf; [right; exact Hy|exact R2|].
        eapply ext_trans; eauto. }
      intros bs w2 R2 E2 Qs. apply good_ret; [exact R2|]. constructor; [eapply Hst; eauto|exact Qs].
  Qed.
  Lemma good_iterM {A} s w0 (f : A -> M unit) :
    forall l w, R s w0 w ->
    (forall x w1, In x l -> R s w0 w1 -> grows w w1 -> good s w0 (f x) w1 (fun _ _ => True)) ->
    good s w0 (iterM f l) w (fun _ _ => True).
  Proof.
    induction l as [|x l IH]; intros w H Hf; simpl.
    - apply good_ret; auto.
    - eapply good_bind; [apply Hf; [left; reflexivity|exact H|apply ext_refl]|].
      intros b w1 R1 E1 _. apply IH; [exact R1|].
      intros y w2 Hy R2 E2. apply Hf; [right; exact Hy|exact R2|]. eapply ext_trans; eauto.
  Qed.
  Lemma good_foldM {A B} s w0 (f : A -> B -> M A) :
    forall l a w, R s w0 w ->
    (forall a x w1, In x l -> R s w0 w1 -> grows w w1 -> good s w0 (f a x) w1 (fun _ _ => True)) ->
    good s w0 (foldM f a l) w (fun _ _ => True).
  Proof.
    induction l as [|x l IH]; intros a w H Hf; simpl.
    - apply good_ret; auto.
    - eapply good_bind; [apply Hf; [left; reflexivity|exact H|apply ext_refl]|].
      intros b w1 R1 E1 _. apply IH; [exact R1|].
      intros a' y w2 Hy R2 E2. apply Hf; [right; exact Hy|exact R2|]. eapply ext_trans; eauto.
  Qed.
  (** rebase: a computation that is good from its own start *)
  Lemma good_rebase {A} s w0 (m : M A) w Q : R s w0 w -> good s w m w Q -> good s w0 m w Q.
  Proof.
    intros H (H1 & H2 & H3). split; [eapply (f_trans F); eauto|]. auto.
  Qed.

  Lemma good_disabled {A} s w0 ts (m : M A) w (Q : list nat -> A -> Prop) :
    R s w0 w ->
    (let wq := w_setquar (quar_enter ts (w_quar w)) w in
     good s wq m wq (fun w' a => Q (shape w') a)) ->
    good s w0 (disabled ts m) w (fun w' a => Q (shape w') a).
  Proof.
    intros H (H1 & H2 & H3). unfold good, disabled.
    destruct (m (w_setquar (quar_enter ts (w_quar w)) w)) as [r w1] eqn:Em; simpl in *.
    split. { eapply (f_trans F); [exact H|]. eapply (f_quarbr F). exact H1. }
    split. { destruct H2 as [Hx Hc Hq]. split; simpl in *; auto. }
    exact H3.
  Qed.

  (** * User code *)
  Variable rec : call -> M val.
  Hypothesis Hrec : rspec rec.

  Lemma clock_le s w0 w w1 : s <= w_clock w -> R s w0 w -> grows w w1 -> s <= w_clock w1.
  Proof. intros H _ [_ H2 _]. lia. Qed.

  Lemma good_op s w0 o w : R s w0 w -> s <= w_clock w -> good s w0 (rec (COp o)) w (fun w' v => cpost (COp o) w (Ok v) w').
  Proof.
    intros H Hs. destruct (Hrec (COp o) s w Hs I) as [H1 H2].
    split; [eapply (f_trans F); eauto|]. split; [eapply (f_ext F); eauto|].
    intros a Ha. rewrite Ha in H2. exact H2.
  Qed.
  Lemma good_op' s w0 o w : R s w0 w -> s <= w_clock w -> good s w0 (rec (COp o)) w (fun _ _ => True).
  Proof. intros H Hs. eapply good_weaken; [apply good_op; auto|auto]. Qed.

  Lemma good_run s w0 Q p :
    rets Q p -> forall w, R s w0 w -> s <= w_clock w ->
    good s w0 (run rec p) w (fun _ v => Q v).
  Proof.
    revert s w0 Q. induction p as [v|e|o k IH|ts body IHb k IHk]; intros s w0 Q HQ w H Hs; simpl in *.
    - apply good_ret; auto.
    - apply good_throw; auto.
    - destruct (good_op' s w0 o w H Hs) as (H1 & H2 & _).
      unfold good. destruct (rec (COp o) w) as [r w1] eqn:Er; simpl in *.
      destruct (IH r s w0 Q (HQ r) w1 H1) as (K1 & K2 & K3). { destruct H2; lia. }
      split; [exact K1|]. split; [eapply ext_trans; eauto|exact K3].
    - assert (G : good s w0 (disabled ts (run rec body)) w (fun _ _ => True)).
      { apply (good_disabled s w0 ts (run rec body) w (fun _ _ => True)); [exact H|].
        eapply good_weaken; [apply (IHb s _ (fun _ => True))|auto].
        - clear. induction body; simpl; auto.
        - apply (f_refl F).
        - simpl. exact Hs. }
      destruct G as (H1 & H2 & _).
      unfold good. destruct (disabled ts (run rec body) w) as [r w1] eqn:Er; simpl in *.
      destruct (IHk r s w0 Q (HQ r) w1 H1) as (K1 & K2 & K3). { destruct H2; lia. }
      split; [exact K1|]. split; [eapply ext_trans; eauto|exact K3].
  Qed.
  Lemma rets_true p : rets (fun _ => True) p.
  Proof. induction p; simpl; auto. Qed.
  Lemma good_run' s w0 p w : R s w0 w -> s <= w_clock w -> good s w0 (run rec p) w (fun _ _ => True).
  Proof. intros H Hs. apply (good_run s w0 (fun _ => True)); auto using rets_true. Qed.

  (** * Errors *)
  Lemma good_hook s w0 io ts w : R s w0 w -> good s w0 (hook io ts) w (fun _ _ => True).
  Proof.
    intros H. destruct io as [l|]; simpl; [|apply good_ret; auto].
    eapply good_bind; [apply (good_get_inst s w0 l w (fun w1 i => nth_error (w_heap w1) l = Some i)); auto|].
    intros i w1 R1 E1 Hi. destruct (i_vflag i) as [[|]|] eqn:Ev; try (apply good_ret; now auto).
    apply good_mod; auto using ext_emit. eapply (f_trans F); [exact R1|]. now apply (f_hook F) with (i := i).
  Qed.
  Lemma good_verror {A} s w0 r n io w (Q : world -> A -> Prop) : R s w0 w -> good s w0 (verror r n io) w Q.
  Proof.
    intros H. unfold verror. eapply good_bind; [apply good_hook; exact H|].
    intros a w1 R1 E1 _. apply good_throw; auto.
  Qed.
  Lemma good_perror {A} s w0 n io w (Q : world -> A -> Prop) : R s w0 w -> good s w0 (perror n io) w Q.
  Proof. apply good_verror. Qed.
  Lemma good_hooks s w0 n nm io : forall w, R s w0 w -> good s w0 (hooks n nm io) w (fun _ _ => True).
  Proof.
    induction n; intros w H; simpl; [apply good_ret; auto|].
    eapply good_bind; [apply good_hook; exact H|]. intros a w1 R1 E1 _. apply IHn; auto.
  Qed.

  Definition Tw (w : world) (p : ptype) (v : val) : Prop := T (shape w) p v.
  Lemma Tw_ext w w' p v : grows w w' -> Tw w p v -> Tw w' p v.
  Proof. intros [[x Hx] _ _] H. unfold Tw in *. rewrite Hx. now apply (t_mono F). Qed.

  Lemma good_leaf s w0 t io n v w : R s w0 w -> good s w0 (leaf_val E t io n v) w (fun w' v' => Tw w' (PLeaf t) v').
  Proof.
    intros H. unfold leaf_val. eapply good_bind; [apply (good_tick s w0 w (fun _ _ => True)); auto|].
    intros k w1 R1 E1 _. destruct leaf_validate eqn:El.
    - apply good_ret; auto. eapply (t_leaf F); eauto.
    - eapply good_bind; [apply good_hooks; exact R1|]. intros. apply good_perror; auto.
    - apply good_throw; auto.
  Qed.

  Lemma good_isinstance s w0 v cid w : R s w0 w ->
    good s w0 (isinstance CTab v cid) w (fun w' b => b = true -> Tw w' (PInst cid) v).
  Proof.
    intros H. destruct v; try (apply good_ret; [exact H|discriminate]).
    simpl. unfold inst_class. eapply good_bind with (Q1 := fun w c => exists k, nth_error (shape w) l = Some k /\ nth_error (ct_cls CTab) k = Some c).
    - eapply good_bind with (Q1 := fun w i => nth_error (shape w) l = Some (i_cls i)).
      + apply good_get_inst; auto. intros. now apply shape_nth.
      + intros i w1 R1 E1 Hi. apply good_class_of; auto. intros c Hc. eauto.
    - intros c w1 R1 E1 (k & Hk & Hc). apply good_ret; auto. intros Hb. eapply (t_inst F); eauto.
  Qed.

  Lemma vd_set_pairs d k v : ForallOrdPairs (fun a b : val * val => py_eq (fst a) (fst b) = false) d ->
    ForallOrdPairs (fun a b : val * val => py_eq (fst a) (fst b) = false) (vd_set d k v).
  Proof.
    induction d as [|[k' v'] d IH]; intros H; simpl; [repeat constructor|]. inversion H as [|? ? H1 H2]; subst.
    destruct (py_eq k' k) eqn:E1; constructor; auto.
    clear - H1 E1. induction d as [|[k1 v1] d IH]; simpl; [repeat constructor; exact E1|].
    inversion H1; subst. destruct (py_eq k1 k); constructor; auto.
  Qed.
  Lemma vd_set_forall (Q : val -> Prop) (Q2 : val -> Prop) d k v :
    Forall (fun kx => Q (fst kx) /\ Q2 (snd kx) /\ hashable (fst kx) = true) d ->
    Q k -> Q2 v -> hashable k = true ->
    Forall (fun kx => Q (fst kx) /\ Q2 (snd kx) /\ hashable (fst kx) = true) (vd_set d k v).
  Proof.
    intros H Hk Hv Hh. induction d as [|[k' v'] d IH]; simpl.
    - constructor; auto.
    - inversion H; subst. destruct (py_eq k' k).
      + constructor; auto. simpl in *. tauto.
      + constructor; auto.
  Qed.

  Lemma good_validate s p : forall w0 io n v w, R s w0 w -> s <= w_clock w ->
    good s w0 (p_validate E CTab rec p io n v) w (fun w' v' => Tw w' p v').
  Proof.
    induction p as [t|k q mn mx co IH|kp vp co IHk IHv|si ps IH|cid] using ptype_ind';
      intros w0 io n v w H Hs.
    - apply good_leaf; auto.
    - simpl. eapply good_bind with (Q1 := fun _ _ => True).
      { destruct (_ && _); [apply good_perror; auto|apply good_ret; auto]. }
      intros [] w1 R1 E1 _. eapply good_bind with (Q1 := fun _ _ => True).
      { apply good_lift; auto. }
      intros items w2 R2 E2 _. eapply good_bind.
      { apply good_mapM with (Q := fun w v => Tw w q v); [intros; eapply Tw_ext; eauto|exact R2|].
        intros x w3 _ R3 E3. apply good_try.
        - apply IH; auto. destruct E1, E2, E3; lia.
        - intros e w4 R4 E4. destruct is_value_error; [apply good_perror|apply good_throw]; auto. }
      intros out w3 R3 E3 Hout. apply good_lift; auto. intros a Ha. eapply (t_seq F); eauto.
    - simpl. eapply good_bind with (Q1 := fun _ _ => True).
      { destruct (_ && _); [apply good_perror; auto|apply good_ret; auto]. }
      intros [] w1 R1 E1 _. eapply good_bind with (Q1 := fun _ _ => True).
      { destruct (py_dict v) as [d|e]; [apply good_ret; auto|].
        destruct e; try (apply good_throw; now auto); apply good_perror; auto. }
      intros d w2 R2 E2 _.
      eapply good_bind with (Q1 := fun w d => Forall (fun kx => Tw w kp (fst kx) /\ Tw w vp (snd kx) /\ hashable (fst kx) = true) d /\
        ForallOrdPairs (fun a b : val * val => py_eq (fst a) (fst b) = false) d).
      { assert (Hacc : Forall (fun kx => Tw w2 kp (fst kx) /\ Tw w2 vp (snd kx) /\ hashable (fst kx) = true) []) by constructor.
        assert (Hdis : ForallOrdPairs (fun a b : val * val => py_eq (fst a) (fst b) = false) []) by constructor.
        assert (Hs2 : s <= w_clock w2) by (destruct E1, E2; lia).
        clear - IHk IHv R2 Hs2 Hacc Hdis F. revert w2 R2 Hs2 Hacc Hdis. generalize (@nil (val * val)) as acc.
        induction d as [|[k x] d IHd]; intros acc w2 R2 Hs2 Hacc Hdis.
        - apply good_ret; auto.
        - eapply good_bind with (Q1 := fun w v => Tw w kp v).
          { apply good_try; [apply IHk; auto|]. intros e w4 R4 E4.
            destruct is_value_error; [apply good_perror|apply good_throw]; auto. }
          intros k' w3 R3 E3 Hk. eapply good_bind with (Q1 := fun w v => Tw w vp v).
          { apply good_try; [apply IHv; auto; destruct E3; lia|]. intros e w4 R4 E4.
            destruct is_value_error; [apply good_perror|apply good_throw]; auto. }
          intros x' w4 R4 E4 Hx. destruct (hashable k') eqn:Hh; [|apply good_throw; auto].
          apply IHd; auto using vd_set_pairs. { destruct E3, E4; lia. }
          apply (vd_set_forall (Tw w4 kp) (Tw w4 vp)); auto; [|eapply Tw_ext; eauto].
          eapply Forall_impl; [|exact Hacc]. simpl. intros [a b] (A & B & C). simpl in *.
          assert (grows w2 w4) by (eapply ext_trans; eauto). repeat split; auto; eapply Tw_ext; eauto. }
      intros out w3 R3 E3 Hout. apply good_ret; auto. apply (t_dict F); apply Hout.
    - simpl. assert (Hin : forall q, In q ps -> In q ps) by auto. revert Hin H Hs.
      generalize ps at 1 3 as qs. intros qs. revert w.
      assert (IH' : forall q, In q ps -> forall w0 io n v w, R s w0 w -> s <= w_clock w ->
          good s w0 (p_validate E CTab rec q io n v) w (fun w' v' => Tw w' q v')).
      { intros q Hq. rewrite Forall_forall in IH. intros. apply IH; auto. }
      induction qs as [|q qs IHq]; intros w Hin H Hs.
      + apply good_perror; auto.
      + apply good_try.
        * eapply good_weaken; [apply IH'; auto|].
          { apply Hin. left. reflexivity. }
          intros w' a _ Ha. eapply (t_union F); [|exact Ha]. apply Hin. left. reflexivity.
        * intros e w1 R1 E1. destruct is_generic; [|apply good_throw; auto].
          apply IHq; auto. { intros. apply Hin. now right. } destruct E1; lia.
    - simpl. apply good_try.
      + eapply good_bind; [apply good_isinstance; auto|]. intros b w1 R1 E1 Hb.
        assert (Hs1 : s <= w_clock w1) by (destruct E1; lia).
        destruct b; [apply good_ret; auto|].
        assert (G : forall kw w1, R s w0 w1 -> s <= w_clock w1 ->
            good s w0 (rec (COp (ONew cid kw))) w1 (fun w' v' => Tw w' (PInst cid) v')).
        { intros kw w2 R2 H2. eapply good_weaken; [apply good_op; auto|].
          intros w' a _ (l & -> & _ & Hl & Hc). apply (t_new F); assumption. }
        destruct v; try (apply G; now auto).
        eapply good_bind with (Q1 := fun _ _ => True); [apply good_lift; auto|].
        intros kw w2 R2 E2 _. apply G; auto. destruct E2; lia.
      + intros e w1 R1 E1. destruct is_generic; [apply good_perror|apply good_throw]; auto.
  Qed.
  Lemma good_validate' s p w0 io n v w : R s w0 w -> s <= w_clock w ->
    good s w0 (p_validate E CTab rec p io n v) w (fun _ _ => True).
  Proof. intros. eapply good_weaken; [apply good_validate; auto|auto]. Qed.

  (** * A tactic for the functions whose result does not matter *)
  Ltac clk := repeat match goal with H : grows _ _ |- _ => destruct H as [_ ? _] end; simpl in *; lia.
  Ltac extok := eauto using ext_refl, ext_trans, ext_emit, ext_tick.

  Lemma good_anyM s w0 l : forall w, R s w0 w ->
    (forall m w1, In m l -> R s w0 w1 -> grows w w1 -> good s w0 m w1 (fun _ _ => True)) ->
    good s w0 (anyM l) w (fun _ _ => True).
  Proof.
    induction l as [|m l IH]; intros w H Hm; simpl; [apply good_ret; auto|].
    eapply good_bind; [apply Hm; [left; reflexivity|exact H|apply ext_refl]|].
    intros b w1 R1 E1 _. destruct b; [apply good_ret; auto|]. apply IH; auto.
    intros m' w2 Hi R2 E2. apply Hm; [now right|exact R2|]. extok.
  Qed.
  Lemma good_take_first s w0 f l : forall w, R s w0 w ->
    (forall y w1, R s w0 w1 -> grows w w1 -> good s w0 (f y) w1 (fun _ _ => True)) ->
    good s w0 (take_first f l) w (fun _ _ => True).
  Proof.
    induction l as [|y l IH]; intros w H Hm; simpl; [apply good_ret; auto|].
    eapply good_bind; [apply Hm; [exact H|apply ext_refl]|].
    intros b w1 R1 E1 _. destruct b; [apply good_ret; auto|].
    eapply good_bind; [apply IH; auto|]. { intros y' w2 R2 E2. apply Hm; auto. extok. }
    intros o w2 R2 E2 _. apply good_ret; auto.
  Qed.

  Lemma good_equal s p : forall w0 a b w, R s w0 w -> s <= w_clock w ->
    good s w0 (p_equal rec p a b) w (fun _ _ => True).
  Proof.
    induction p as [t|k q mn mx co IH|kp vp co IHk IHv|si ps IH|cid] using ptype_ind';
      intros w0 a b w H Hs.
    - apply good_lift; auto.
    - assert (Seq : good s w0 (try_ (let* la := lift (py_iter a) in
              let* lb := lift (py_iter b) in
              if negb (Nat.eqb (length la) (length lb)) then ret false
              else let* bs := mapM (fun xy => p_equal rec q (fst xy) (snd xy)) (combine la lb) in
                   ret (forallb (fun b => b) bs))
             (fun e => match e with ExType => ret false | _ => throw e end)) w (fun _ _ => True)).
      { apply good_try.
        - eapply good_bind with (Q1 := fun _ _ => True); [apply good_lift; auto|]. intros la w1 R1 E1 _.
          eapply good_bind with (Q1 := fun _ _ => True); [apply good_lift; auto|]. intros lb w2 R2 E2 _.
          destruct negb; [apply good_ret; auto|].
          eapply good_bind.
          { apply good_mapM with (Q := fun _ _ => True); auto.
            intros [x y] w3 _ R3 E3. apply IH; auto. clk. }
          intros bs w3 R3 E3 _. apply good_ret; auto.
        - intros e w1 R1 E1. destruct e; try (apply good_throw; now auto); apply good_ret; auto. }
      destruct k; try exact Seq. clear Seq. simpl. apply good_try.
      + eapply good_bind with (Q1 := fun _ _ => True); [apply good_lift; auto|]. intros la w1 R1 E1 _.
        eapply good_bind with (Q1 := fun _ _ => True); [apply good_lift; auto|]. intros lb w2 R2 E2 _.
        destruct negb; [apply good_ret; auto|].
        assert (G : good s w0 (let* rest := (fix go (la copy : list val) : M (list val) :=
                         match la with
                         | [] => ret copy
                         | x :: r =>
                             let* o := take_first (fun y => p_equal rec q x y) copy in
                             go r (match o with Some c => c | None => copy end)
                         end) la lb in
                       ret (Nat.eqb (length rest) 0)) w2 (fun _ _ => True)).
        { eapply good_bind with (Q1 := fun _ _ => True).
          - assert (Hs2 : s <= w_clock w2) by clk. clear E1 E2 R1. revert lb w2 R2 Hs2.
            induction la as [|x la IHl]; intros lb w2 R2 Hs2; [apply good_ret; auto|].
            eapply good_bind.
            { apply good_take_first; auto. intros y w3 R3 E3. apply IH; auto. clk. }
            intros o w3 R3 E3 _. apply IHl; auto. clk.
          - intros. apply good_ret; auto. }
        destruct b; try (apply good_throw; now auto); try exact G. apply good_ret; auto.
      + intros e w1 R1 E1. destruct e; try (apply good_throw; now auto); apply good_ret; auto.
    - simpl. apply good_try.
      + destruct a; try (apply good_throw; now auto). destruct b; try (apply good_throw; now auto).
        destruct negb; [apply good_ret; auto|].
        eapply good_bind.
        { apply good_mapM with (Q := fun _ _ => True); auto.
          intros [x y] w3 _ R3 E3. destruct vd_get; [|apply good_throw; auto]. apply IHv; auto. clk. }
        intros bs w3 R3 E3 _. apply good_ret; auto.
      + intros e w1 R1 E1. destruct e; try (apply good_throw; now auto); apply good_ret; auto.
    - simpl. apply good_anyM; auto. intros m w1 Hm R1 E1.
      apply in_map_iff in Hm. destruct Hm as (q & <- & Hq). rewrite Forall_forall in IH.
      apply IH; auto. clk.
    - simpl. eapply good_bind; [apply good_op'; auto|]. intros. apply good_ret; auto.
  Qed.

  Lemma good_back_get s w0 l n w : R s w0 w -> good s w0 (back_get l n) w (fun _ _ => True).
  Proof.
    intros H. unfold back_get. eapply good_bind with (Q1 := fun _ _ => True);
      [apply good_get_inst; auto|]. intros. apply good_ret; auto.
  Qed.
  Lemma good_reread s w0 l n v w : R s w0 w -> good s w0 (reread l n v) w (fun _ _ => True).
  Proof. intros H. unfold reread. destruct is_none; [apply good_back_get|apply good_ret]; auto. Qed.

  Lemma good_base_assert s w0 p l n v w : R s w0 w -> s <= w_clock w ->
    good s w0 (base_assert E CTab rec p l n v) w (fun _ _ => True).
  Proof.
    intros H Hs. unfold base_assert. eapply good_bind; [apply good_reread; auto|]. intros v1 w1 R1 E1 _.
    destruct is_none; [apply good_ret; auto|].
    eapply good_bind; [apply good_validate'; auto; clk|]. intros v2 w2 R2 E2 _.
    eapply good_bind; [apply good_equal; auto; clk|]. intros b w3 R3 E3 _.
    destruct b; [apply good_ret|apply good_verror]; auto.
  Qed.
  Lemma good_prop_assert s w0 rq p l n v w : R s w0 w -> s <= w_clock w ->
    good s w0 (prop_assert E CTab rec rq p l n v) w (fun _ _ => True).
  Proof.
    intros H Hs. unfold prop_assert. eapply good_bind; [apply good_reread; auto|]. intros v1 w1 R1 E1 _.
    destruct (_ && _); [apply good_verror; auto|]. apply good_base_assert; auto. clk.
  Qed.

  Lemma good_p_assert s p : forall w0 rq l n v w, R s w0 w -> s <= w_clock w ->
    good s w0 (p_assert E CTab rec rq p l n v) w (fun _ _ => True).
  Proof.
    induction p as [t|k q mn mx co IH|kp vp co IHk IHv|si ps IH|cid] using ptype_ind';
      intros w0 rq l n v w H Hs;
      (eapply good_bind; [apply good_prop_assert; auto|]; intros [] w1 R1 E1 _;
       assert (Hs1 : s <= w_clock w1) by clk).
    - apply good_ret; auto.
    - eapply good_bind; [apply good_reread; auto|]. intros v1 w2 R2 E2 _.
      destruct is_none; [apply good_ret; auto|].
      eapply good_bind with (Q1 := fun _ _ => True); [apply good_lift; auto|]. intros items w3 R3 E3 _.
      cbv zeta. eapply good_bind with (Q1 := fun _ _ => True).
      { destruct (_ || _); [apply good_perror|apply good_ret]; auto. }
      intros [] w4 R4 E4 _. assert (Hs4 : s <= w_clock w4) by clk. clear - IH R4 Hs4 F.
      revert w4 R4 Hs4. induction items as [|x items IHi]; intros w4 R4 Hs4; [apply good_ret; auto|].
      eapply good_bind; [apply IH; auto|]. intros [] w5 R5 E5 _. apply IHi; auto. clk.
    - eapply good_bind; [apply good_reread; auto|]. intros v1 w2 R2 E2 _.
      destruct is_none; [apply good_ret; auto|].
      destruct v1; try (apply good_throw; now auto).
      assert (Hs2 : s <= w_clock w2) by clk. clear - IHk IHv R2 Hs2 F.
      revert w2 R2 Hs2. induction l0 as [|[k x] d IHd]; intros w2 R2 Hs2; [apply good_ret; auto|].
      eapply good_bind; [apply IHk; auto|]. intros [] w3 R3 E3 _.
      eapply good_bind; [apply IHv; auto; clk|]. intros [] w4 R4 E4 _. apply IHd; auto. clk.
    - eapply good_bind; [apply good_reread; auto|]. intros v1 w2 R2 E2 _.
      destruct is_none; [apply good_ret; auto|].
      assert (Hs2 : s <= w_clock w2) by clk. clear - IH R2 Hs2 F.
      revert w2 R2 Hs2. induction IH as [|q ps Hq Hps IHd]; intros w2 R2 Hs2; [apply good_perror; auto|].
      apply good_try; [apply Hq; auto|].
      intros e w3 R3 E3. destruct is_generic; [|apply good_throw; auto]. apply IHd; auto. clk.
    - eapply good_bind; [apply good_reread; auto|]. intros v1 w2 R2 E2 _.
      destruct v1; try (apply good_ret; now auto).
      eapply good_bind; [apply good_op'; auto; clk|]. intros. apply good_ret; auto.
  Qed.

  Lemma good_decl_assert s d w0 l n w : R s w0 w -> s <= w_clock w ->
    good s w0 (decl_assert E CTab rec d l n) w (fun _ _ => True).
  Proof.
    intros H Hs. unfold decl_assert.
    destruct (pd_kind d); try (apply good_base_assert; now auto). apply good_p_assert; auto.
  Qed.

  (** * Property access *)
  Lemma good_notify s w0 sid l n prev v m w : R s w0 w -> s <= sid -> sid < w_clock w -> s <= w_clock w ->
    good s w0 (notify rec sid l n prev v m) w (fun _ v' => m = MValidate -> keeps v v').
  Proof.
    intros H H1 H2 Hs. unfold notify. eapply good_bind; [apply good_get_w; [exact H|exact (eq_refl w)]|].
    intros w' w1 R1 E1 <-. destruct (mode_in m (w_quar w1)) eqn:Em.
    - apply good_ret; auto. intros _. now left.
    - assert (Hsid : sid < w_clock w1) by clk.
      destruct (Hrec (CNotify sid l n prev v m 0) s w1) as [K1 K2]; [clk|simpl; auto|].
      split; [eapply (f_trans F); eauto|]. split; [eapply (f_ext F); eauto|].
      intros a Ha. rewrite Ha in K2. intros ->. exact K2.
  Qed.

  Lemma good_has_set s w0 l n d v w : R s w0 w -> s <= w_clock w ->
    decl_at CTab (shape w) l n d -> pd_kind d = KProp ->
    (is_undef v = true \/ Tw w (pd_type d) v) ->
    good s w0 (has_set rec (pd_type d) l n v) w (fun _ _ => True).
  Proof.
    intros H Hs Hd Hk Hv. unfold has_set.
    eapply good_bind with (Q1 := fun w1 sid => s <= sid /\ sid < w_clock w1).
    { apply good_tick; simpl; auto. }
    intros sid w1 R1 E1 [Hsid Hlt].
    eapply good_bind with (Q1 := fun _ _ => True); [apply good_get_inst; auto|]. intros i w2 R2 E2 _.
    set (prev := match dget (i_back i) n with Some x => x | None => VUndef end).
    eapply good_bind; [apply good_notify; auto; clk|]. intros v1 w3 R3 E3 Hkeep.
    specialize (Hkeep eq_refl). simpl in Hkeep.
    assert (E03 : grows w w3) by extok.
    assert (Hv1 : is_undef v1 = true \/ Tw w3 (pd_type d) v1).
    { destruct Hkeep as [->|Hall]; [|right; apply Hall]. destruct Hv as [Hv|Hv]; [now left|].
      right. eapply Tw_ext; eauto. }
    assert (Good : good s w0 (upd l (fun i0 => i_setback (if is_undef v1 then ddel (i_back i0) n
                    else dset (i_back i0) n v1) i0) ;; mod_w (w_emit (EWrite sid l n v1))) w3 (fun _ _ => True)).
    { unfold good, bind, upd, mod_w; simpl.
      assert (K : R s w3 (w_emit (EWrite sid l n v1) (write l n v1 w3))).
      { apply (f_write F) with (d := d); auto; try clk. eapply decl_at_ext; eauto. }
      split; [eapply (f_trans F); eauto|]. split; [eapply (f_ext F); eauto|]. auto. }
    assert (K : forall k, (forall w4, R s w0 w4 -> grows w3 w4 -> good s w0 k w4 (fun _ (_ : val) => True)) ->
       good s w0 (upd l (fun i0 => i_setback (if is_undef v1 then ddel (i_back i0) n
                    else dset (i_back i0) n v1) i0) ;; mod_w (w_emit (EWrite sid l n v1)) ;; k) w3 (fun _ _ => True)).
    { intros k Hk'. change (good s w0 (bind (bind (upd l (fun i0 => i_setback (if is_undef v1 then ddel (i_back i0) n
                    else dset (i_back i0) n v1) i0)) (fun _ => mod_w (w_emit (EWrite sid l n v1)))) (fun _ => k)) w3 (fun _ _ => True)).
      eapply good_bind; [exact Good|]. auto. }
    apply K. clear K Good. intros w4 R4 E4.
    eapply good_bind with (Q1 := fun _ _ => True).
    { destruct (_ && _); [apply good_ret; auto|]. destruct (_ || _); [apply good_ret; auto|].
      eapply good_bind; [apply good_equal; auto; clk|]. intros. apply good_ret; auto. }
    intros ch w5 R5 E5 _. eapply good_bind with (Q1 := fun _ _ => True).
    { destruct ch; [|apply good_ret; auto]. eapply good_weaken; [apply good_notify; auto; clk|auto]. }
    intros v2 w6 R6 E6 _. eapply good_bind; [apply good_notify; auto; clk|].
    intros. apply good_ret; auto.
  Qed.

  Lemma good_prop_fset s w0 l n d v w : R s w0 w -> s <= w_clock w ->
    decl_at CTab (shape w) l n d -> pd_kind d = KProp ->
    good s w0 (prop_fset E CTab rec (pd_type d) l n v) w (fun _ _ => True).
  Proof.
    intros H Hs Hd Hk. unfold prop_fset.
    eapply good_bind with (Q1 := fun w1 v1 => is_undef v1 = true \/ Tw w1 (pd_type d) v1).
    { destruct (is_undef v) eqn:Eu; [apply good_ret; auto|].
      eapply good_weaken; [apply good_validate; auto|]. intros; now right. }
    intros v1 w1 R1 E1 Hv. apply good_has_set; auto; [clk|]. eapply decl_at_ext; eauto.
  Qed.

  Lemma good_inst_class s w0 l w : R s w0 w ->
    good s w0 (inst_class CTab l) w (fun w1 c => exists k, nth_error (shape w1) l = Some k /\ nth_error (ct_cls CTab) k = Some c).
  Proof.
    intros H. unfold inst_class. eapply good_bind with (Q1 := fun w i => nth_error (shape w) l = Some (i_cls i)).
    + apply good_get_inst; auto. intros. now apply shape_nth.
    + intros i w1 R1 E1 Hi. apply good_class_of; auto. intros c Hc. eauto.
  Qed.

  Lemma good_getattr s w0 l n w : R s w0 w -> s <= w_clock w ->
    good s w0 (has_getattr E CTab U rec l n) w (fun _ _ => True).
  Proof.
    intros H Hs. unfold has_getattr. eapply good_bind; [apply good_inst_class; auto|].
    intros c w1 R1 E1 (k & Hk & Hc). destruct (dget (c_props c) n) as [d|] eqn:Ed.
    - destruct (pd_kind d).
      + apply good_back_get; auto.
      + eapply good_bind; [apply good_run'; auto; clk|]. intros v w2 R2 E2 _.
        destruct (_ || _); [apply good_ret; auto|]. apply good_validate'; auto. clk.
      + apply good_back_get; auto.
      + apply good_op'; auto. clk.
    - eapply good_bind with (Q1 := fun _ _ => True); [apply good_get_inst; auto|]. intros i w2 R2 E2 _.
      destruct (dget (i_attrs i) n); [apply good_ret; auto|].
      destruct (dget (c_attrs c) n); [apply good_ret|apply good_throw]; auto.
  Qed.

  Lemma good_setattr s w0 l n v w : R s w0 w -> s <= w_clock w ->
    good s w0 (has_setattr E CTab U rec l n v) w (fun _ _ => True).
  Proof.
    intros H Hs. unfold has_setattr. eapply good_bind; [apply good_inst_class; auto|].
    intros c w1 R1 E1 (k & Hk & Hc). destruct (dget (c_props c) n) as [d|] eqn:Ed.
    - assert (Hd : decl_at CTab (shape w1) l n d) by (exists k, c; auto).
      destruct (pd_kind d) as [|g [st|] dl| |] eqn:Ekd.
      + apply good_throw; auto.
      + eapply good_bind; [apply good_validate'; auto; clk|]. intros v1 w2 R2 E2 _.
        eapply good_bind; [apply good_run'; auto; clk|]. intros. apply good_ret; auto.
      + apply good_throw; auto.
      + apply good_prop_fset; auto. clk.
      + apply good_op'; auto. clk.
    - eapply good_bind with (Q1 := fun _ _ => True).
      { apply good_mod; auto.
        - eapply (f_trans F); [exact R1|]. eapply (f_attr F); [exact Hk|]. intros c' Hc'. congruence.
        - apply ext_upd. reflexivity. }
      intros. apply good_ret; auto.
  Qed.

  Lemma good_delattr s w0 l n w : R s w0 w -> s <= w_clock w ->
    good s w0 (has_delattr CTab U rec l n) w (fun _ _ => True).
  Proof.
    intros H Hs. unfold has_delattr. eapply good_bind; [apply good_inst_class; auto|].
    intros c w1 R1 E1 (k & Hk & Hc). destruct (dget (c_props c) n) as [d|] eqn:Ed.
    - assert (Hd : decl_at CTab (shape w1) l n d) by (exists k, c; auto).
      destruct (pd_kind d) as [|g st [dl|]| |] eqn:Ekd.
      + apply good_throw; auto.
      + eapply good_bind; [apply good_run'; auto; clk|]. intros. apply good_ret; auto.
      + apply good_throw; auto.
      + apply good_has_set; auto. clk.
      + apply good_op'; auto. clk.
    - eapply good_bind with (Q1 := fun w2 _ => nth_error (shape w2) l = Some k).
      { apply good_get_inst; auto. }
      intros i w2 R2 E2 Hk2. destruct (dget (i_attrs i) n); [|apply good_throw; auto].
      eapply good_bind with (Q1 := fun _ _ => True).
      { apply good_mod; auto.
        - eapply (f_trans F); [exact R2|]. eapply (f_attrdel F); [exact Hk2|]. intros c' Hc'. congruence.
        - apply ext_upd. reflexivity. }
      intros. apply good_ret; auto.
  Qed.

  Lemma good_observe s w0 l d w : R s w0 w -> good s w0 (has_observe CTab l d) w (fun _ _ => True).
  Proof.
    intros H. unfold has_observe. eapply good_bind; [apply good_inst_class; auto|].
    intros c w1 R1 E1 _. cbv zeta. eapply good_bind with (Q1 := fun _ _ => True).
    { apply good_mod; auto.
      - eapply (f_trans F); [exact R1|]. apply (f_lst F).
      - apply ext_upd. reflexivity. }
    intros. apply good_ret; auto.
  Qed.

  Lemma good_eval_default s w0 x w : R s w0 w -> s <= w_clock w ->
    good s w0 (eval_default U rec x) w (fun _ _ => True).
  Proof. intros H Hs. destruct x; simpl; try (apply good_ret; now auto). apply good_run'; auto. Qed.

  Lemma good_reset_prop s w0 c l n d w : R s w0 w -> s <= w_clock w ->
    decl_at CTab (shape w) l n d -> pd_kind d = KProp ->
    good s w0 (reset_prop E CTab U rec c l n d) w (fun _ _ => True).
  Proof.
    intros H Hs Hd Hk. unfold reset_prop. eapply good_bind; [apply good_eval_default; auto|].
    intros v w1 R1 E1 _. eapply good_bind; [apply good_prop_fset; auto; [clk|eapply decl_at_ext; eauto]|].
    intros. apply good_ret; auto.
  Qed.

  (** The table of a class has one entry per name; [In] is enough here. *)
  Hypothesis Hnodup : forall cid c, nth_error (ct_cls CTab) cid = Some c -> NoDup (dkeys (c_props c)).

  Lemma good_reset s w0 l o w : R s w0 w -> s <= w_clock w ->
    good s w0 (has_reset E CTab U rec l o) w (fun _ _ => True).
  Proof.
    intros H Hs. unfold has_reset. eapply good_bind; [apply good_inst_class; auto|].
    intros c w1 R1 E1 (k & Hk & Hc). destruct o as [n|].
    - destruct (dget (c_props c) n) as [d|] eqn:Ed; [|apply good_throw; auto].
      destruct (pd_kind d) eqn:Ekd; try (apply good_throw; now auto).
      eapply good_bind; [apply good_reset_prop; auto; [clk|exists k, c; auto]|]. intros. apply good_ret; auto.
    - eapply good_bind.
      { apply good_iterM; auto. intros [n d] w2 Hin R2 E2. simpl.
        destruct (pd_kind d) eqn:Ekd; try (apply good_ret; now auto).
        apply good_reset_prop; auto; [clk|]. exists k, c. repeat split; auto.
        - eapply nth_shape_ext; eauto.
        - apply dget_nodup_in; auto. eapply Hnodup; eauto. }
      intros. apply good_ret; auto.
  Qed.

  (** * Construction *)
  Lemma good_init_gettable s w0 c k l nd w : R s w0 w -> s <= w_clock w ->
    length (w_heap w0) <= l -> nth_error (shape w) l = Some k -> nth_error (ct_cls CTab) k = Some c ->
    In nd (c_props c) ->
    good s w0 (init_gettable E CTab U rec c l nd) w (fun _ _ => True).
  Proof.
    intros H Hs Hl Hk Hc Hin. unfold init_gettable. destruct nd as [n d]; simpl.
    assert (G : pd_kind d <> KProp -> default_of c n d <> DUndef -> forall x, good s w0
       (let* v := eval_default U rec x in
        let* v1 := p_validate E CTab rec (decl_type d) (Some l) n v in
        upd l (fun i => i_setback (dset (i_back i) n v1) i)) w (fun _ _ => True)).
    { intros Hkd Hdf x. eapply good_bind; [apply good_eval_default; auto|]. intros v w1 R1 E1 _.
      eapply good_bind; [apply good_validate; auto; clk|]. intros v1 w2 R2 E2 Hv.
      assert (Hk2 : nth_error (shape w2) l = Some k) by (eapply nth_shape_ext; [|exact Hk]; extok).
      apply good_mod; auto; [|apply ext_upd; reflexivity].
      apply (f_fresh F) with (d := d); auto.
      - exists k, c. repeat split; auto. apply dget_nodup_in; auto. eapply Hnodup; eauto.
      - right. intros k' c' Hk' Hc'. congruence. }
    destruct (pd_kind d) eqn:Ekd; try (apply good_ret; now auto);
      (destruct (default_of c n d) as [|v|cb] eqn:Edf;
       [apply good_ret; now auto| |apply (G ltac:(discriminate) ltac:(discriminate) (DCall cb))];
       destruct v; try (apply good_ret; now auto);
       match goal with |- good _ _ (let* _ := ret ?x in _) _ _ =>
                           apply (G ltac:(discriminate) ltac:(discriminate) (DVal x))
                     | |- good _ _ (let* _ := eval_default _ _ ?x in _) _ _ =>
                           apply (G ltac:(discriminate) ltac:(discriminate) x) end).
  Qed.

  Lemma good_add_err s w0 a e w : R s w0 w -> good s w0 (add_err a e) w (fun _ _ => True).
  Proof.
    intros H. unfold add_err. destruct e; simpl; try (apply good_throw; now auto); apply good_ret; auto.
  Qed.
  Lemma good_init_kw s w0 c l a kv w : R s w0 w -> s <= w_clock w ->
    good s w0 (init_kw E CTab U rec c l a kv) w (fun _ _ => True).
  Proof.
    intros H Hs. unfold init_kw. destruct kv as [key v].
    eapply good_bind with (Q1 := fun _ _ => True); [apply good_get_inst; auto|]. intros i w1 R1 E1 _.
    assert (G : good s w0 (let* r := outcome (has_setattr E CTab U rec l key v) in
             match r with Ok _ => ret a | Exc e => add_err a e end) w1 (fun _ _ => True)).
    { eapply good_bind; [apply good_outcome; apply good_setattr; auto; clk|].
      intros [x|e] w2 R2 E2 _; [apply good_ret; auto|apply good_add_err; auto]. }
    destruct (dget (c_props c) key) as [d|].
    - destruct (pd_kind d); try exact G. apply good_throw; auto.
    - destruct (_ || _); [exact G|apply good_throw; auto].
  Qed.
  Definition lowered (l : loc) (w : world) : Prop :=
    forall i, nth_error (w_heap w) l = Some i -> i_vflag i = Some false.
  Lemma lowered_upd l w : lowered l (w_upd l (i_setv (Some false)) w).
  Proof. intros i H. rewrite w_upd_nth_same in H. destruct (nth_error (w_heap w) l); simpl in H; [|discriminate]. now injection H as <-. Qed.
  Lemma good_raise_collected s w0 l a w : R s w0 w -> l < length (w_heap w) -> lowered l w ->
    good s w0 (raise_collected l a) w (fun _ _ => True).
  Proof.
    intros H Hl Hv. unfold raise_collected. destruct (fst a).
    - destruct (snd a); [apply good_throw|apply good_ret]; auto.
    - eapply good_bind with (Q1 := fun _ _ => True).
      { apply good_mod; auto using ext_emit. eapply (f_trans F); [exact H|]. apply nth_error_Some in Hl.
        destruct (nth_error (w_heap w) l) as [i|] eqn:Ei; [|congruence]. apply (f_hook F) with (i := i); auto. }
      intros. apply good_throw; auto.
  Qed.
  Lemma upd_emit l f e w : w_upd l f (w_emit e w) = w_emit e (w_upd l f w).
  Proof. unfold w_upd. simpl. destruct (nth_error (w_heap w) l); reflexivity. Qed.

  Lemma good_fin {A} s w0 (m : M A) w f w1 :
    (forall w2, R s w1 w2 -> grows w1 w2 -> R s w0 (f w2) /\ grows w (f w2)) ->
    good s w1 m w1 (fun _ _ => True) ->
    R s w0 (snd (fin m f w1)) /\ grows w (snd (fin m f w1)).
  Proof.
    intros Hf (H1 & H2 & _). unfold fin. destruct (m w1) as [r w2] eqn:Em. simpl in *. apply Hf; auto.
  Qed.

  (** Whether the collected errors are reported just before or just after the
      flag is lowered makes no difference. *)
  Lemma good_report s w0 l (m : M errs) w w1 : l < length (w_heap w) ->
    (forall w2, R s w1 w2 -> grows w1 w2 ->
       R s w0 (w_upd l (i_setv (Some false)) w2) /\ grows w (w_upd l (i_setv (Some false)) w2)) ->
    good s w1 m w1 (fun _ _ => True) ->
    let w' := snd (fin (let* a := m in raise_collected l a) (w_upd l (i_setv (Some false))) w1) in
    R s w0 w' /\ grows w w'.
  Proof.
    intros Hl Hf (H1 & H2 & _). cbn zeta. unfold fin, bind. destruct (m w1) as [[a|e] w2] eqn:Em; cbn [snd] in *; [|now apply Hf].
    destruct (Hf w2 H1 H2) as [K1 K2].
    destruct (good_raise_collected s w0 l a (w_upd l (i_setv (Some false)) w2) K1) as (K3 & K4 & _).
    { pose proof (ext_len _ _ K2). lia. } { apply lowered_upd. }
    replace (snd (let (r, w') := raise_collected l a w2 in (r, w_upd l (i_setv (Some false)) w')))
      with (snd (raise_collected l a (w_upd l (i_setv (Some false)) w2))); [split; [exact K3|eapply ext_trans; eauto]|].
    unfold raise_collected. destruct (fst a); [destruct (snd a); reflexivity|]. unfold bind, mod_w, throw. cbn [snd]. now rewrite upd_emit.
  Qed.

  Lemma good_init s w0 c l kw w : R s w0 w -> s <= w_clock w -> length (w_heap w0) <= l -> l < length (w_heap w) ->
    good s w0 (has_init E CTab U rec c l kw) w (fun _ _ => True).
  Proof.
    intros H Hs Hl Hlt. unfold has_init. set (w1 := w_upd l (i_setv (Some true)) w).
    destruct (good_report s w0 l (foldM (init_kw E CTab U rec c l) ([], None) kw) w w1 Hlt) as [K1 K2].
    - intros w2 R2 E2. split; [eapply (f_initbr F); eauto|].
      eapply ext_trans; [|apply ext_upd; reflexivity]. eapply ext_trans; [|exact E2]. apply ext_upd. reflexivity.
    - assert (Hs1 : s <= w_clock w1) by (unfold w1; rewrite w_upd_clock; auto).
      apply good_foldM; [apply (f_refl F)|]. intros a x w2 _ R2 E2. apply good_init_kw; auto. clk.
    - unfold good, bind at 1 2 3, upd, mod_w. fold w1. split; [exact K1|]. split; [exact K2|]. auto.
  Qed.

  Lemma good_new s w0 cid kw w : R s w0 w -> s <= w_clock w ->
    good s w0 (has_new E CTab U rec cid kw) w
      (fun w' v => exists l, v = VInst l /\ length (w_heap w) <= l /\ nth_error (shape w') l = Some cid /\
                             nth_error (ct_cls CTab) cid <> None).
  Proof.
    intros H Hs. apply good_rebase; [exact H|]. clear H w0.
    assert (H : R s w w) by apply (f_refl F).
    unfold has_new. eapply good_bind with (Q1 := fun w1 c => w1 = w /\ nth_error (ct_cls CTab) cid = Some c).
    { apply good_class_of; auto. }
    intros c w1 _ E1 [-> Hc].
    eapply good_bind with (Q1 := fun w1 l => l = length (w_heap w) /\ nth_error (shape w1) l = Some cid).
    { unfold good, alloc; simpl. split; [apply (f_alloc F)|]. split.
      - split; simpl; auto. exists [cid]. unfold shape; simpl. now rewrite map_app.
      - intros a [= <-]. split; auto. unfold shape; simpl. rewrite map_app; simpl.
        rewrite nth_error_app2; rewrite map_length; auto. now rewrite Nat.sub_diag. }
    intros l w2 R2 E2 [-> Hl]. set (l := length (w_heap w)) in *.
    eapply good_bind.
    { apply good_iterM; auto. intros d w3 _ R3 E3. eapply good_bind; [apply good_observe; auto|].
      intros. apply good_ret; auto. }
    intros [] w3 R3 E3 _.
    eapply good_bind.
    { apply good_iterM; auto. intros nd w4 Hin R4 E4. eapply good_init_gettable; eauto; try clk.
      eapply nth_shape_ext; [|exact Hl]. extok. }
    intros [] w4 R4 E4 _.
    eapply good_bind with (Q1 := fun _ _ => True).
    { eapply (good_disabled s w None (has_reset E CTab U rec l None) w4 (fun _ _ => True)); auto.
      apply good_reset; [apply (f_refl F)|]. clk. }
    intros _ w5 R5 E5 _. destruct kw as [kw|]; [|apply good_throw; auto].
    assert (L5 : l < length (w_heap w5)).
    { assert (K : nth_error (shape w5) l = Some cid) by (eapply nth_shape_ext; [|exact Hl]; extok).
      rewrite <- shape_len. apply nth_error_Some. congruence. }
    eapply good_bind; [apply good_init; auto; clk|]. intros [] w6 R6 E6 _. apply good_ret; auto.
    exists l. repeat split; auto; [|congruence]. eapply nth_shape_ext; [|exact Hl]. extok.
  Qed.

  (** * validate() *)
  Lemma good_check_prop s w0 l nd w : R s w0 w -> s <= w_clock w ->
    good s w0 (check_prop E CTab rec l nd) w (fun _ _ => True).
  Proof.
    intros H Hs. unfold check_prop. destruct nd as [n d].
    eapply good_bind; [apply good_back_get; auto|]. intros v w1 R1 E1 _.
    eapply good_bind with (Q1 := fun _ _ => True).
    { destruct is_none; [apply good_ret; auto|].
      eapply good_bind with (Q1 := fun w1 sid => s <= sid /\ sid < w_clock w1).
      { apply good_tick; simpl; auto. split; clk. }
      intros sid w2 R2 E2 [Hsid Hlt]. eapply good_bind; [apply good_notify; auto; clk|].
      intros v1 w3 R3 E3 _. eapply good_bind; [apply good_equal; auto; clk|].
      intros b w4 R4 E4 _. destruct b; [apply good_ret|apply good_verror]; auto. }
    intros [] w2 R2 E2 _. apply good_decl_assert; auto. clk.
  Qed.
  Lemma good_validate_props s w0 l ps : forall w, R s w0 w -> s <= w_clock w ->
    good s w0 (validate_props E CTab rec l ps) w (fun _ _ => True).
  Proof.
    induction ps as [|nd ps IH]; intros w H Hs; simpl; [apply good_ret; auto|].
    eapply good_bind; [apply good_outcome; apply good_check_prop; auto|].
    intros [x|e] w1 R1 E1 _; [apply IH; auto; clk|].
    destruct e; try (apply good_ret; now auto).
    eapply good_bind; [apply IH; auto; clk|]. intros. apply good_ret; auto.
  Qed.
  Lemma good_run_cval s w0 c l a cv w : R s w0 w -> s <= w_clock w ->
    good s w0 (run_cval E CTab U rec c l a cv) w (fun _ _ => True).
  Proof.
    intros H Hs. destruct cv as [|cb]; simpl.
    - eapply good_bind; [apply good_validate_props; auto|]. intros b w1 R1 E1 _.
      destruct (snd b); [apply good_add_err|apply good_ret]; auto.
    - eapply good_bind.
      { apply good_outcome with (Q := fun _ _ => True).
        eapply good_bind; [apply good_run'; auto|]. intros v w1 R1 E1 _.
        destruct v as [| |[|]| | | | | | | | | | | |]; try (apply good_ret; now auto).
        eapply good_bind; [apply (good_hook s w0 (Some l) [ET None None (Some l)]); auto|].
        intros. apply good_throw; auto. }
      intros [x|e] w1 R1 E1 _; [apply good_ret; auto|apply good_add_err; auto].
  Qed.

  Lemma good_has_validate s w0 l w : R s w0 w -> s <= w_clock w ->
    good s w0 (has_validate E CTab U rec l) w (fun _ _ => True).
  Proof.
    intros H Hs. unfold has_validate.
    eapply good_bind with (Q1 := fun w1 i => w1 = w /\ nth_error (w_heap w) l = Some i).
    { apply good_get_inst; auto. }
    intros i w1 _ E1 [-> Hi].
    assert (G : i_vflag i <> Some true -> good s w0 (upd l (i_setv (Some true)) ;;
        fin (let* c := inst_class CTab l in
             let* a := foldM (run_cval E CTab U rec c l) ([], None) (c_cvals c) in
             raise_collected l a ;; ret (VBool true))
            (w_upd l (i_setv (Some false)))) w (fun _ _ => True)).
    { intros Hv. set (w1 := w_upd l (i_setv (Some true)) w).
      assert (Hl : l < length (w_heap w)) by (apply nth_error_Some; congruence).
      destruct (good_report s w0 l (let* c := inst_class CTab l in foldM (run_cval E CTab U rec c l) ([], None) (c_cvals c)) w w1 Hl) as [K1 K2].
      - intros w2 R2 E2. split.
        + eapply (f_trans F); [exact H|]. eapply (f_vbr F); eauto.
        + eapply ext_trans; [|apply ext_upd; reflexivity]. eapply ext_trans; [|exact E2]. apply ext_upd. reflexivity.
      - assert (Hs1 : s <= w_clock w1) by (unfold w1; rewrite w_upd_clock; auto).
        eapply good_bind; [apply good_inst_class; apply (f_refl F)|]. intros c w2 R2 E2 _.
        apply good_foldM; auto. intros a x w3 _ R3 E3. apply good_run_cval; auto. clk.
      - set (fl := w_upd l (i_setv (Some false))) in *.
        match type of K1 with R _ _ (snd (fin ?m _ _)) => match goal with |- good _ _ (_ ;; fin ?m' _) _ _ =>
          assert (Eq : snd (m' w1) = snd (m w1)) end end.
        { unfold bind. destruct (inst_class CTab l w1) as [[c|e] w2]; [|reflexivity]. destruct (foldM _ _ _ w2) as [[a|e] w3]; [|reflexivity].
          destruct (raise_collected l a w3) as [[?|?] ?]; reflexivity. }
        assert (Ef : forall A B (m : M A) (m' : M B), snd (m' w1) = snd (m w1) -> snd (fin m' fl w1) = snd (fin m fl w1)).
        { intros A B m m' K. unfold fin. destruct (m w1), (m' w1). simpl in *. now rewrite K. }
        apply Ef in Eq. match goal with |- good _ _ (_ ;; fin ?m' _) _ _ =>
          change (R s w0 (snd (fin m' fl w1)) /\ grows w (snd (fin m' fl w1)) /\ forall b, fst (fin m' fl w1) = Ok b -> True) end.
        rewrite Eq. split; [exact K1|]. split; [exact K2|]. auto. }
    destruct (i_vflag i) as [[|]|]; [apply good_ret; now auto|apply G; discriminate|apply G; discriminate].
  Qed.

  (** * Serialization *)
  Lemma good_p_serialize s o p : forall w0 v w, R s w0 w -> s <= w_clock w ->
    good s w0 (p_serialize E CTab rec o p v) w (fun _ _ => True).
  Proof.
    induction p as [t|k q mn mx co IH|kp vp co IHk IHv|si ps IH|cid] using ptype_ind';
      intros w0 v w H Hs; simpl; (destruct (is_none v); [apply good_ret; now auto|]).
    - apply good_lift; auto.
    - eapply good_bind with (Q1 := fun _ _ => True); [apply good_lift; auto|]. intros items w1 R1 E1 _.
      eapply good_bind.
      { apply good_mapM with (Q := fun _ _ => True); auto. intros x w2 _ R2 E2. apply IH; auto. clk. }
      intros. apply good_ret; auto.
    - destruct v; try (apply good_throw; now auto).
      eapply good_bind.
      { apply good_mapM with (Q := fun _ _ => True); auto. intros [k x] w2 _ R2 E2.
        eapply good_bind; [apply IHk; auto; clk|]. intros k' w3 R3 E3 _.
        eapply good_bind; [apply IHv; auto; clk|]. intros. apply good_ret; auto. }
      intros out w1 R1 E1 _. eapply good_bind with (Q1 := fun _ _ => True); [apply good_lift; auto|].
      intros. apply good_ret; auto.
    - revert w H Hs. induction IH as [|q ps Hq Hps IHd]; intros w H Hs.
      + destruct v; try (apply good_ret; now auto). apply good_op'; auto.
      + eapply good_bind; [apply good_outcome; apply good_validate'; auto|].
        intros [x|e] w1 R1 E1 _; [apply Hq; auto; clk|].
        destruct is_generic; [|apply good_throw; auto]. apply IHd; auto. clk.
    - destruct v; try (apply good_throw; now auto). apply good_op'; auto.
  Qed.
  Lemma good_decl_serialize s o d w0 v w : R s w0 w -> s <= w_clock w ->
    good s w0 (decl_serialize E CTab rec o d v) w (fun _ _ => True).
  Proof.
    intros H Hs. unfold decl_serialize. destruct (pd_kind d); try (apply good_ret; now auto);
      apply good_p_serialize; auto.
  Qed.

  Lemma good_serialize s w0 l o w : R s w0 w -> s <= w_clock w ->
    good s w0 (has_serialize E CTab U rec l o) w (fun _ _ => True).
  Proof.
    intros H Hs. unfold has_serialize.
    eapply good_bind with (Q1 := fun w1 i => w1 = w /\ nth_error (w_heap w) l = Some i).
    { apply good_get_inst; auto. }
    intros i w1 _ E1 [-> Hi]. destruct (i_sflag i) eqn:Ef; [apply good_throw; auto|].
    set (w1 := w_upd l (i_sets true) w).
    match goal with |- good _ _ (upd _ _ ;; fin ?m ?f) _ _ =>
      destruct (good_fin s w0 m w f w1) as [K1 K2] end.
    - intros w2 R2 E2. split.
      + eapply (f_trans F); [exact H|]. eapply (f_sbr F); eauto.
      + eapply ext_trans; [|apply ext_upd; reflexivity]. eapply ext_trans; [|exact E2]. apply ext_upd. reflexivity.
    - assert (Hs1 : s <= w_clock w1) by (unfold w1; rewrite w_upd_clock; auto).
      eapply good_bind; [apply good_inst_class; apply (f_refl F)|]. intros c w2 R2 E2 _.
      eapply good_bind with (Q1 := fun _ _ => True); [apply good_get_inst; auto|]. intros i' w3 R3 E3 _.
      cbv zeta. eapply good_bind.
      { apply good_mapM with (Q := fun _ _ => True); auto. intros k w4 _ R4 E4.
        destruct (dget (c_props c) k); [|apply good_throw; auto].
        eapply good_bind; [apply good_getattr; auto; clk|]. intros v w5 R5 E5 _.
        eapply good_bind; [apply good_decl_serialize; auto; clk|]. intros. apply good_ret; auto. }
      intros. apply good_ret; auto.
    - unfold good, bind, upd, mod_w in *. fold w1. split; [exact K1|]. split; [exact K2|]. auto.
  Qed.

  Lemma good_p_deserialize s p : forall o w0 v w, R s w0 w -> s <= w_clock w ->
    good s w0 (p_deserialize E CTab rec o p v) w (fun _ _ => True).
  Proof.
    induction p as [t|k q mn mx co IH|kp vp co IHk IHv|si ps IH|cid] using ptype_ind';
      intros o w0 v w H Hs; simpl; (destruct (is_none v); [apply good_ret; now auto|]).
    - apply good_lift; auto.
    - eapply good_bind with (Q1 := fun _ _ => True); [apply good_lift; auto|]. intros items w1 R1 E1 _.
      eapply good_bind.
      { apply good_mapM with (Q := fun _ _ => True); auto. intros x w2 _ R2 E2. apply IH; auto. clk. }
      intros. apply good_lift; auto.
    - destruct v; try (apply good_throw; now auto).
      eapply good_bind.
      { apply good_mapM with (Q := fun _ _ => True); auto. intros [k x] w2 _ R2 E2.
        eapply good_bind; [apply IHk; auto; clk|]. intros k' w3 R3 E3 _.
        eapply good_bind; [apply IHv; auto; clk|]. intros. apply good_ret; auto. }
      intros out w1 R1 E1 _. eapply good_bind with (Q1 := fun _ _ => True); [apply good_lift; auto|].
      intros. apply good_ret; auto.
    - set (o1 := DOpt (o_trusted o) (o_strict o || si) si).
      set (all := fix go (ps : list ptype) : M val :=
          match ps with
          | [] => ret v
          | q :: r =>
              let* t := outcome (let* out := p_deserialize E CTab rec o1 q v in
                                 p_validate E CTab rec q None ""%string out ;; ret out) in
              match t with
              | Ok out => ret out
              | Exc e => if is_generic e then go r else throw e
              end
          end).
      assert (IH' : Forall (fun q => forall o w0 v w, R s w0 w -> s <= w_clock w ->
         good s w0 (p_deserialize E CTab rec o q v) w (fun _ _ => True)) ps) by exact IH.
      assert (Gall : forall w, R s w0 w -> s <= w_clock w -> good s w0 (all ps) w (fun _ _ => True)).
      { clear - IH' F Hrec. induction IH' as [|q ps Hq Hps IHd]; intros w H Hs; [apply good_ret; auto|].
        simpl. eapply good_bind.
        { apply good_outcome with (Q := fun _ _ => True).
          eapply good_bind; [apply Hq; auto|]. intros out w1 R1 E1 _.
          eapply good_bind; [apply good_validate'; auto; clk|]. intros. apply good_ret; auto. }
        intros [x|e] w1 R1 E1 _; [apply good_ret; auto|].
        destruct is_generic; [|apply good_throw; auto]. apply IHd; auto. clk. }
      match goal with |- good _ _ (match ?cc with _ => _ end) _ _ => destruct cc as [c0|] end;
        [|apply Gall; auto].
      revert w H Hs. generalize (all ps) as fallback, Gall. clear Gall. intros fb Gfb.
      clear IH. induction IH' as [|q ps' Hq Hps IHd]; intros w H Hs; [apply Gfb; auto|].
      destruct q; try (apply IHd; now auto).
      eapply good_bind with (Q1 := fun _ _ => True); [apply good_class_of; auto|].
      intros k w1 R1 E1 _. destruct py_eq; [apply Hq; auto; clk|]. apply IHd; auto. clk.
    - apply good_op'; auto.
  Qed.
  Lemma good_decl_deserialize s o d w0 v w : R s w0 w -> s <= w_clock w ->
    good s w0 (decl_deserialize E CTab rec o d v) w (fun _ _ => True).
  Proof.
    intros H Hs. unfold decl_deserialize. destruct (pd_kind d); try (apply good_ret; now auto);
      apply good_p_deserialize; auto.
  Qed.
  Lemma good_deser_class s w0 cid i o w : R s w0 w -> good s w0 (deser_class CTab cid i o) w (fun _ _ => True).
  Proof.
    intros H. unfold deser_class. eapply good_bind with (Q1 := fun _ _ => True); [apply good_class_of; auto|].
    intros c w1 R1 E1 _. destruct i; [|apply good_ret; auto].
    destruct (_ || _); [apply good_ret; auto|]. destruct (_ && _); [apply good_throw; auto|].
    match goal with |- good _ _ (match ?c with _ => _ end) _ _ => destruct c end; [apply good_ret; auto|].
    destruct (o_strict o); [apply good_throw|apply good_ret]; auto.
  Qed.

  Lemma key_mutable_false c k d : dget (c_props c) k = Some d -> key_mutable c k = false -> pd_kind d <> KProp.
  Proof. intros Hd. unfold key_mutable. rewrite Hd. unfold is_mutable. destruct (pd_kind d); congruence. Qed.

  Lemma good_deserialize s w0 cid v o w : R s w0 w -> s <= w_clock w ->
    good s w0 (has_deserialize E CTab U rec cid v o) w (fun _ _ => True).
  Proof.
    intros H Hs. apply good_rebase; [exact H|]. clear H w0.
    assert (H : R s w w) by apply (f_refl F).
    unfold has_deserialize. destruct v; try (apply good_throw; now auto).
    eapply good_bind; [apply good_deser_class; auto|]. intros k w1 R1 E1 _.
    eapply good_bind with (Q1 := fun _ c => nth_error (ct_cls CTab) k = Some c); [apply good_class_of; auto|].
    intros c w2 R2 E2 Hc. destruct (_ && _); [apply good_throw; auto|]. cbv zeta.
    eapply good_bind with (Q1 := fun _ _ => True).
    { eapply good_weaken; [apply good_mapM with (Q := fun _ _ => True); auto|auto].
      intros [key x] w3 _ R3 E3. simpl.
      destruct (dget (c_props c) key); [|apply good_throw; auto].
      eapply good_bind; [apply good_decl_deserialize; auto; clk|]. intros. apply good_ret; auto. }
    intros ns w3 R3 E3 _.
    eapply good_bind with (Q1 := fun w' v => exists l, v = VInst l /\ length (w_heap w) <= l /\ nth_error (shape w') l = Some k).
    { eapply good_weaken.
      - eapply (good_disabled s w None _ w3 (fun sh v => exists l, v = VInst l /\ length (w_heap w3) <= l /\ nth_error sh l = Some k)); auto.
        cbv zeta. eapply good_weaken; [apply good_new; [apply (f_refl F)|simpl; clk]|].
        intros w' a _ (l1 & -> & Hl & Hk & _). exists l1. auto.
      - intros w' a _ (l1 & -> & Hl & Hk). exists l1. repeat split; auto.
        assert (grows w w3) by extok. pose proof (ext_len _ _ H0). lia. }
    intros iv w4 R4 E4 (li & -> & Hli & Hk).
    eapply good_bind.
    { apply good_iterM; auto. intros [key x] w5 Hin R5 E5. simpl.
      apply filter_In in Hin. destruct Hin as [_ Hm]. simpl in Hm. apply negb_true_iff in Hm.
      destruct (dget (c_props c) key) as [d|] eqn:Ed; [|apply good_throw; auto].
      eapply good_bind; [apply good_validate; auto; clk|]. intros v1 w6 R6 E6 Hv.
      apply good_mod; auto; [|apply ext_upd; reflexivity].
      apply (f_fresh F) with (d := d); auto.
      - exists k, c. repeat split; auto. eapply nth_shape_ext; [|exact Hk]. extok.
      - eapply key_mutable_false; eauto.
      - left. unfold key_mutable in Hm. now rewrite Ed in Hm. }
    intros [] w5 R5 E5 _.
    eapply good_bind with (Q1 := fun _ _ => True).
    { destruct (o_valid o); [|apply good_ret; auto]. eapply good_bind; [apply good_op'; auto; clk|].
      intros. apply good_ret; auto. }
    intros. apply good_ret; auto.
  Qed.

  Lemma good_equal_props s w0 la lb ps : forall w, R s w0 w -> s <= w_clock w ->
    good s w0 (equal_props E CTab U rec la lb ps) w (fun _ _ => True).
  Proof.
    induction ps as [|[n d] ps IH]; intros w H Hs; simpl; [apply good_ret; auto|].
    eapply good_bind; [apply good_getattr; auto|]. intros a w1 R1 E1 _.
    eapply good_bind; [apply good_getattr; auto; clk|]. intros b w2 R2 E2 _.
    destruct (_ && _); [apply IH; auto; clk|]. destruct (_ && _); [|apply good_ret; auto].
    eapply good_bind; [apply good_equal; auto; clk|]. intros e w3 R3 E3 _.
    destruct e; [apply IH; auto; clk|apply good_ret; auto].
  Qed.

  Lemma good_has_equal s w0 a b w : R s w0 w -> s <= w_clock w ->
    good s w0 (has_equal E CTab U rec a b) w (fun _ _ => True).
  Proof.
    intros H Hs. destruct a; try (apply good_ret; now auto). destruct b; try (apply good_ret; now auto).
    simpl. rename l into la, l0 into lb.
    eapply good_bind with (Q1 := fun w1 i => w1 = w /\ nth_error (w_heap w) la = Some i).
    { apply good_get_inst; auto. }
    intros ia w1 _ E1 [-> Hi].
    eapply good_bind with (Q1 := fun w1 i => w1 = w). { apply good_get_inst; auto. }
    intros ib w1 _ _ ->. destruct (i_eflag ia) eqn:Ef; [apply good_ret; auto|].
    set (w1 := w_upd la (i_sete true) w).
    match goal with |- good _ _ (upd _ _ ;; fin ?m ?f) _ _ =>
      destruct (good_fin s w0 m w f w1) as [K1 K2] end.
    - intros w2 R2 E2. split.
      + eapply (f_trans F); [exact H|]. eapply (f_ebr F); eauto.
      + eapply ext_trans; [|apply ext_upd; reflexivity]. eapply ext_trans; [|exact E2]. apply ext_upd. reflexivity.
    - assert (Hs1 : s <= w_clock w1) by (unfold w1; rewrite w_upd_clock; auto).
      destruct (Nat.eqb la lb); [apply good_ret; auto; apply (f_refl F)|].
      destruct negb; [apply good_ret; auto; apply (f_refl F)|].
      eapply good_bind with (Q1 := fun _ _ => True); [apply good_class_of; auto; apply (f_refl F)|].
      intros c w2 R2 E2 _. apply good_equal_props; auto. clk.
    - unfold good, bind, upd, mod_w in *. fold w1. split; [exact K1|]. split; [exact K2|]. auto.
  Qed.

  (** * Links *)
  Lemma good_link_update s w0 k w : R s w0 w -> s <= w_clock w ->
    good s w0 (link_update U rec k) w (fun _ _ => True).
  Proof.
    intros H Hs. unfold link_update.
    eapply good_bind; [apply good_get_w with (Q := fun w1 w2 => w1 = w /\ w2 = w); auto|].
    intros w' w1 _ E1 [-> ->]. destruct (nth_error (w_links w) k) as [d|] eqn:Ed; [|apply good_throw; auto].
    destruct (_ || _) eqn:Eo; [apply good_ret; auto|]. apply orb_false_iff in Eo. destruct Eo as [_ Eu].
    set (w1 := set_updating k true w).
    match goal with |- good _ _ (mod_w _ ;; fin ?m ?f) _ _ =>
      destruct (good_fin s w0 m w f w1) as [K1 K2] end.
    - intros w2 R2 E2. split.
      + eapply (f_trans F); [exact H|]. eapply (f_linkbr F); eauto.
      + eapply ext_trans; [|apply ext_updlink]. eapply ext_trans; [|exact E2]. apply ext_updlink.
    - assert (Hs1 : s <= w_clock w1) by (unfold w1, set_updating; rewrite w_updlink_clock; auto).
      eapply good_bind; [apply good_op'; auto; apply (f_refl F)|]. intros v w2 R2 E2 _.
      eapply good_bind with (Q1 := fun _ _ => True).
      { destruct (d_trans d); [apply good_run'; auto; clk|apply good_ret; auto]. }
      intros v1 w3 R3 E3 _. apply good_op'; auto. clk.
    - unfold good, bind, mod_w in *. fold w1. split; [exact K1|]. split; [exact K2|]. auto.
  Qed.
  Lemma good_link_item s w0 it w : R s w0 w -> s <= w_clock w ->
    good s w0 (link_item E CTab U rec it) w (fun _ _ => True).
  Proof.
    intros H Hs. unfold link_item. eapply good_bind; [apply good_outcome; apply good_getattr; auto|].
    intros [x|e] w1 R1 E1 _; [apply good_ret; auto|]. destruct e; apply good_throw; auto.
  Qed.
  Lemma good_dlink_new s w0 a b now chg t w : R s w0 w -> s <= w_clock w ->
    good s w0 (dlink_new E CTab U rec a b now chg t) w (fun _ _ => True).
  Proof.
    intros H Hs. unfold dlink_new. eapply good_bind; [apply good_link_item; auto|]. intros [] w1 R1 E1 _.
    eapply good_bind; [apply good_link_item; auto; clk|]. intros [] w2 R2 E2 _.
    destruct item_eqb; [apply good_throw; auto|].
    eapply good_bind with (Q1 := fun _ _ => True); [apply good_get_w; auto|]. intros w' w3 R3 E3 _.
    cbv zeta. eapply good_bind with (Q1 := fun _ _ => True).
    { apply good_mod; auto.
      - eapply (f_trans F); [exact R3|]. apply (f_newlink F). reflexivity.
      - split; simpl; auto. exists []. now rewrite app_nil_r. }
    intros [] w4 R4 E4 _. eapply good_bind with (Q1 := fun _ _ => True).
    { destruct now; [|apply good_ret; auto]. eapply good_bind; [apply good_link_update; auto; clk|].
      intros. apply good_ret; auto. }
    intros [] w5 R5 E5 _. eapply good_bind; [apply good_observe; auto|]. intros. apply good_ret; auto.
  Qed.
  Lemma good_link_all s w0 items now chg w : R s w0 w -> s <= w_clock w ->
    good s w0 (link_all E CTab U rec items now chg) w (fun _ _ => True).
  Proof.
    intros H Hs. unfold link_all. destruct Nat.ltb; [apply good_throw; auto|]. cbv zeta.
    eapply good_bind.
    { apply good_mapM with (Q := fun _ _ => True); auto. intros ab w1 _ R1 E1.
      apply good_dlink_new; auto. clk. }
    intros. apply good_ret; auto.
  Qed.

  Lemma good_step : rspec (step E CTab U rec).
  Proof.
    intros c s w Hs Hp.
    assert (H : R s w w) by apply (f_refl F).
    assert (G : good s w (step E CTab U rec c) w (fun w' v => cpost c w (Ok v) w')).
    { destruct c as [o|sid l n prev v m i].
      - destruct o; simpl.
        + apply good_getattr; auto.
        + apply good_setattr; auto.
        + apply good_delattr; auto.
        + apply good_new; auto.
        + apply good_reset; auto.
        + apply good_has_validate; auto.
        + apply good_serialize; auto.
        + apply good_deserialize; auto.
        + eapply good_bind; [apply good_has_equal; auto|]. intros. apply good_ret; auto.
        + unfold has_copy. eapply good_bind with (Q1 := fun _ _ => True); [apply good_get_inst; auto|].
          intros i w1 R1 E1 _. eapply good_bind; [apply good_op'; auto; clk|].
          intros j w2 R2 E2 _. apply good_op'; auto. clk.
        + apply good_observe; auto.
        + apply good_dlink_new; auto.
        + apply good_link_all; auto.
        + eapply good_bind with (Q1 := fun _ _ => True); [|intros; apply good_ret; auto].
          apply good_mod; auto; [apply (f_unlink F)|apply ext_updlink].
        + eapply good_bind with (Q1 := fun _ _ => True); [|intros; apply good_ret; auto].
          apply good_mod; auto; [apply (f_unlink F)|apply ext_updlink].
      - destruct Hp as (Hp1 & Hp2 & Hp3).
        assert (Hq : forall w', (match m with MValidate => True | _ => False end) \/
                     (forall x : val, cpost (CNotify sid l n prev v m i) w (Ok x) w')).
        { intros w'. destruct m; [left; exact I|right; simpl; auto|right; simpl; auto]. }
        cbn [step].
        eapply good_bind with (Q1 := fun w1 _ => w1 = w); [apply good_get_inst; auto|].
        intros x w1 _ _ ->. destruct (nth_error (listeners_of x n m) i) as [f|].
        + eapply good_bind with (Q1 := fun _ _ => True).
          { apply good_mod; auto using ext_emit. apply (f_call F); auto. }
          intros [] w1 R1 E1 _. eapply good_bind with (Q1 := fun _ v1 => m = MValidate -> keeps v v1).
          { destruct f as [cb|k].
            - destruct m; try (eapply good_weaken; [apply good_run'; [exact R1|clk]|discriminate]).
              destruct (t_listen F) as [Hall|Hl].
              + eapply good_weaken; [apply good_run'; [exact R1|clk]|]. intros. now right.
              + eapply good_weaken; [apply good_run; [apply Hl|exact R1|clk]|].
                intros w' a _ <- _. now left.
            - eapply good_bind; [apply good_link_update; auto; clk|]. intros. apply good_ret; auto.
              intros _. now left. }
          intros v1 w2 R2 E2 Hk.
          assert (Hs2 : s <= w_clock w2) by clk.
          assert (Hpre : cpre (CNotify sid l n prev v1 m (S i)) s w2).
          { simpl. repeat split; auto; [clk|]. destruct E1 as [_ _ Q1], E2 as [_ _ Q2]. now rewrite Q2, Q1. }
          destruct (Hrec _ s w2 Hs2 Hpre) as [K1 K2].
          split; [eapply (f_trans F); eauto|]. split; [eapply (f_ext F); eauto|].
          intros a Ha. rewrite Ha in K2. destruct m; simpl in *; auto.
          specialize (Hk eq_refl). destruct Hk as [->|Hk]; [exact K2|right; exact Hk].
        + apply good_ret; auto. destruct m; simpl; auto. now left. }
    destruct G as (G1 & G2 & G3). split; [exact G1|].
    destruct (fst (step E CTab U rec c w)) eqn:Er; [apply G3; reflexivity|].
    unfold cpost. destruct c as [o|sid l n prev v m i]; [destruct o|destruct m]; exact I.
  Qed.
End Frame.

Theorem frame_exec E CTab U R T :
  frame E CTab U R T ->
  (forall cid c, nth_error (ct_cls CTab) cid = Some c -> NoDup (dkeys (c_props c))) ->
  forall n, rspec CTab R T (exec E CTab U n).
Proof.
  intros F Hnd. induction n as [|n IH]; simpl.
  - intros c s w Hs Hp. split; [apply (f_refl _ _ _ _ _ F)|].
    destruct c as [o|sid l nm prev v m i]; [destruct o|destruct m]; exact I.
  - apply good_step; auto.
Qed.

(** The same for user programs run at top level. *)
Theorem frame_run E CTab U R T :
  frame E CTab U R T ->
  (forall cid c, nth_error (ct_cls CTab) cid = Some c -> NoDup (dkeys (c_props c))) ->
  forall n p s w, s <= w_clock w -> R s w (snd (run (exec E CTab U n) p w)).
Proof.
  intros F Hnd n p s w Hs. pose proof (frame_exec E CTab U R T F Hnd n) as HR.
  destruct (good_run' E CTab U R T F _ HR s w p w) as [H _]; auto. apply (f_refl _ _ _ _ _ F).
Qed.
