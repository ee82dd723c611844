(** [equal] is a sound comparison, and decides equality of acyclic graphs. *)
From Verif Require Import World WorldFrame WorldSpec AccessSpec GraphSpec GraphConv GraphFacts GraphValidate GraphSerial GraphValid GraphCycle LeafFacts LeafSym.
Local Open Scope string_scope.
Local Open Scope list_scope.
Local Open Scope nat_scope.

Lemma gives_try {A} (Q : A -> Prop) (B B' : exn -> Prop) (m : nat -> M A) (h : nat -> exn -> M A) w :
  gives Q B m w -> (forall e, B e -> gives Q B' (fun n => h n e) w) -> gives Q B' (fun n => try_ (m n) (h n)) w.
Proof.
  intros ([a|e] & H & HP) K.
  - exists (Ok a). split; auto. now apply conv_try.
  - destruct (K e HP) as (r & Hr & HQ). exists r. split; auto. eapply conv_try_exc; eauto.
Qed.
Lemma Forall2_combine {A B} (R : A -> B -> Prop) l : forall r, length l = length r ->
  Forall (fun xy => R (fst xy) (snd xy)) (combine l r) -> Forall2 R l r.
Proof.
  induction l as [|x l IH]; intros [|y r] Hl H; try discriminate; [constructor|]. cbn in *. inversion H; subst. constructor; auto.
Qed.
Lemma combine_Forall2 {A B} (R : A -> B -> Prop) l r : Forall2 R l r -> Forall (fun xy => R (fst xy) (snd xy)) (combine l r).
Proof. induction 1; cbn; constructor; auto. Qed.
Lemma Forall2_flags {A} (P Q : A -> Prop) l bs : Forall2 (fun x (t : bool) => if t then P x else Q x) l bs ->
  if forallb (fun t => t) bs then Forall P l else exists x, In x l /\ Q x.
Proof.
  induction 1 as [|x [|] l bs Hx HF IH]; cbn [forallb andb].
  - constructor.
  - destruct (forallb _ bs); [constructor; auto|]. destruct IH as (y & Hy & K). exists y. split; [now right|exact K].
  - exists x. split; [now left|exact Hx].
Qed.

Section Equals.
  Variable E : env.
  Variable C : ctable.
  Variable U : ucode.
  Variable b : world.
  Notation X := (exec E C U).
  Notation N := (length (w_heap b)).
  Notation eqs := (equals E C U b).
  Notation eqv := equal_value.
  Notation comp := (compares E C U b).
  Notation reach := (creach E C U b).
  Hypothesis Sb : settled E C U b.

  (** ** Facts about the specification *)
  Lemma eqv_mono (G1 G2 : loc -> loc -> Prop) p : (forall l m, G1 l m -> G2 l m) -> forall x y, eqv G1 p x y -> eqv G2 p x y.
  Proof.
    intros HG. induction p as [t|k q mn mx co IH|kp vp co IHk IHv|si ps IH|cid] using ptype_ind'; intros x y H.
    - exact H.
    - destruct H as (xs & ys & zs & Hx & Hy & Hz & HF). exists xs, ys, zs. split; [exact Hx|]. split; [exact Hy|]. split; [exact Hz|].
      clear -IH HF. induction HF; constructor; auto.
    - destruct H as (da & db & -> & -> & Hl & HF). exists da, db. repeat split; auto.
      eapply Forall_impl; [|exact HF]. intros kx (z & Hz & K). exists z. split; auto.
    - induction IH as [|q ps Hq Hps IHps]; [exact H|]. destruct H as [H|H]; [left; now apply Hq|right; exact (IHps H)].
    - destruct H as [(l & m & -> & -> & H)|H]; [left; exists l, m; auto|right; exact H].
  Qed.
  Lemma node_mono (G1 G2 : loc -> loc -> Prop) l m : (forall x y, G1 x y -> G2 x y) ->
    equal_node E C U b G1 l m -> equal_node E C U b G2 l m.
  Proof.
    intros HG [H|(i & j & c & Hi & Hj & Hc & Hcl & H)]; [now left|right]. exists i, j, c. repeat split; auto.
    intros name d Hd. destruct (H name d Hd) as (x & y & Hx & Hy & [K|(K1 & K2 & K3)]); exists x, y; repeat split; auto.
    right. repeat split; auto. eapply eqv_mono; eauto.
  Qed.
  Lemma eqs_node l m : eqs l m -> equal_node E C U b eqs l m.
  Proof. intros [G l' m' HG Hn]. eapply node_mono; eauto. Qed.
  Lemma reads_fun l name x y : reads E C U b l name x -> reads E C U b l name y -> x = y.
  Proof. intros H K. pose proof (answers_fun _ _ _ _ H K) as Q. congruence. Qed.

  Definition safe (F : loc -> Prop) (l : loc) : Prop := forall m, reach l m -> ~ F m /\ forall k, comp m k -> ~ reach k m.
  Definition simple (p : ptype) : Prop := no_set p /\ no_union p.
  Definition says (P NP : Prop) (t : bool) : Prop := if t then P else NP.

  Definition refutes (F : loc -> Prop) (l m : loc) : Prop := simple_types C -> safe F l -> ~ eqs l m.
  Definition compared (F : loc -> Prop) (w : world) (l m : loc) : Prop :=
    gives (fun r => exists t, r = VBool t /\ says (eqs l m) (refutes F l m) t) (fun _ => refutes F l m)
      (fun n => X n (COp (OEqual (VInst l) (VInst m)))) w.

  Section Values.
  Variable w : world.
  Variable F : loc -> Prop.
  Hypothesis Hs : forall l m, l < N -> m < N -> compared F w l m.
  Definition vrefutes (p : ptype) (x y : val) : Prop :=
    simple_types C -> simple p -> (forall m, holds_inst p x m -> safe F m) -> ~ eqv eqs p x y.

  Lemma take_perm (R : val -> Prop) (B : exn -> Prop) (f : nat -> val -> M bool) (l : list val) : (forall e, B e) ->
    Forall (fun y => gives (fun t : bool => t = true -> R y) B (fun n => f n y) w) l ->
    gives (fun o => match o with Some c => exists y, R y /\ Permutation l (y :: c) | None => True end) B (fun n => take_first (f n) l) w.
  Proof.
    intros HB H. induction H as [|y l Hy Hl IH]; cbn [take_first]; [now apply gives_ret|].
    eapply gives_bind; [exact Hy|]. intros [|] K.
    - apply gives_ret. exists y. split; auto.
    - eapply gives_bind; [exact IH|]. intros [c|] Kc; apply gives_ret; [|exact I].
      destruct Kc as (z & Hz & P). exists z. split; auto. rewrite P. constructor.
  Qed.
  Lemma equal_value_gives p : forall x y, below N x = true -> below N y = true ->
    gives (says (eqv eqs p x y) (vrefutes p x y)) (fun _ => vrefutes p x y) (fun n => p_equal (X n) p x y) w.
  Proof.
    induction p as [t|k q mn mx co IH|kp vp co IHk IHv|si ps IH|cid] using ptype_ind'; intros x y Hx Hy.
    - cbn [p_equal]. apply gives_lift. destruct (leaf_equal t x y) as [[|]|e] eqn:El; cbn [says]; [exact El| |];
        intros _ _ _ K; cbn [equal_value] in K; congruence.
    - assert (Seq : k <> KSet -> gives (says (eqv eqs (PSeq k q mn mx co) x y) (vrefutes (PSeq k q mn mx co) x y))
          (fun _ => vrefutes (PSeq k q mn mx co) x y)
          (fun n => try_ (let* la := lift (py_iter x) in
              let* lb := lift (py_iter y) in
              if negb (Nat.eqb (length la) (length lb)) then ret false
              else let* bs := mapM (fun xy => p_equal (X n) q (fst xy) (snd xy)) (combine la lb) in
                   ret (forallb (fun b => b) bs))
             (fun e => match e with ExType => ret false | _ => throw e end)) w).
      { intros Hk. eapply gives_try with (B := fun _ => vrefutes (PSeq k q mn mx co) x y).
        2:{ intros e He. destruct e; try (now apply gives_throw). now apply gives_ret. }
        eapply gives_bind with (P := fun l => py_iter x = Ok l).
        { apply gives_lift. destruct (py_iter x) eqn:Ex; [reflexivity|]. intros _ _ _ (? & ? & ? & K & _). congruence. }
        intros la Ha. eapply gives_bind with (P := fun l => py_iter y = Ok l).
        { apply gives_lift. destruct (py_iter y) eqn:Ey; [reflexivity|]. intros _ _ _ (? & ? & ? & _ & K & _). congruence. }
        intros lb Hb. pose proof (below_iter _ _ _ Hx Ha) as Ba. pose proof (below_iter _ _ _ Hy Hb) as Bb.
        assert (Inv : eqv eqs (PSeq k q mn mx co) x y -> Forall2 (eqv eqs q) la lb).
        { intros (xs & ys & zs & K1 & K2 & [<-|[K3 _]] & K4); [|contradiction]. congruence. }
        destruct (Nat.eqb (length la) (length lb)) eqn:Len; cbn [negb].
        2:{ apply gives_ret. intros _ _ _ K. apply Inv in K. apply Nat.eqb_neq in Len. apply Len. clear -K. induction K; cbn; congruence. }
        apply Nat.eqb_eq in Len.
        assert (Sub : forall xy, In xy (combine la lb) -> vrefutes q (fst xy) (snd xy) -> vrefutes (PSeq k q mn mx co) x y).
        { intros xy Hxy R St [S1 S2] Sf K. apply Inv in K. apply combine_Forall2 in K. rewrite Forall_forall in K.
          specialize (K _ Hxy). revert K. apply R; auto.
          - split; [exact (proj2 S1)|exact S2].
          - intros m Hm. apply Sf. exists la, (fst xy). split; [exact Ha|]. split; [|exact Hm].
            destruct xy as [p1 p2]. apply in_combine_l in Hxy. exact Hxy. }
        eapply gives_bind with (P := Forall2 (fun xy (t : bool) => if t then eqv eqs q (fst xy) (snd xy) else vrefutes q (fst xy) (snd xy)) (combine la lb)).
        - apply gives_mapM. apply Forall_forall. intros xy Hxy. pose proof (combine_forall _ _ _ _ Ba Bb) as Bc.
          rewrite Forall_forall in Bc. destruct (Bc _ Hxy) as [B1 B2].
          eapply gives_weaken; [intros a Ha'; exact Ha'| |apply IH; auto]. intros e9 K9. now apply (Sub xy).
        - intros bs HF. apply gives_ret. apply Forall2_flags in HF. destruct (forallb _ bs); cbn [says].
          + exists la, lb, lb. repeat split; auto. now apply Forall2_combine.
          + destruct HF as (xy & Hxy & K). now apply (Sub xy). }
      destruct k; try (apply Seq; discriminate). clear Seq. cbn [p_equal].
      assert (NP : vrefutes (PSeq KSet q mn mx co) x y) by (intros _ [[K _] _]; now destruct K).
      eapply gives_try with (B := fun _ => True).
      2:{ intros e _. destruct e; try (apply gives_throw; exact NP); apply gives_ret; exact NP. }
      eapply gives_bind with (P := fun l => py_iter x = Ok l); [apply gives_lift; destruct (py_iter x); auto|].
      intros la Ha. eapply gives_bind with (P := fun l => py_iter y = Ok l); [apply gives_lift; destruct (py_iter y); auto|].
      intros lb Hb. pose proof (below_iter _ _ _ Hx Ha) as Ba. pose proof (below_iter _ _ _ Hy Hb) as Bb.
      destruct (Nat.eqb (length la) (length lb)) eqn:Len; cbn [negb]; [|now apply gives_ret]. apply Nat.eqb_eq in Len.
      assert (G : gives (says (eqv eqs (PSeq KSet q mn mx co) x y) (vrefutes (PSeq KSet q mn mx co) x y)) (fun _ => True)
        (fun n => let* rest := (fix go (la copy : list val) : M (list val) :=
                         match la with
                         | [] => ret copy
                         | x :: r =>
                             let* o := take_first (fun y => p_equal (X n) q x y) copy in
                             go r (match o with Some c => c | None => copy end)
                         end) la lb in
                  ret (Nat.eqb (length rest) 0)) w).
      { eapply gives_bind with (P := fun rest => exists ys, Permutation lb (ys ++ rest) /\ length ys <= length la /\
            (length ys = length la -> Forall2 (eqv eqs q) la ys)).
        - clear Ha Hb Len Hx Hy. revert lb Bb. induction Ba as [|z la Hz Hla IHl]; intros lb Bb.
          + apply gives_ret. exists []. repeat split; auto.
          + eapply gives_bind with (P := fun o => match o with Some c => exists y0, eqv eqs q z y0 /\ Permutation lb (y0 :: c) | None => True end).
            { apply take_perm; [auto|]. eapply Forall_impl; [|exact Bb]. intros y0 Hy0. eapply gives_weaken; [| |apply IH; [exact Hz|exact Hy0]]; auto.
              intros [|] K; [auto|discriminate]. }
            intros [c|] K; cbv beta iota.
            * destruct K as (y0 & K & P).
              assert (Bc : Forall (fun v => below N v = true) c).
              { apply (Permutation_Forall P) in Bb. now inversion Bb. }
              eapply gives_weaken; [|intros e He; exact He|exact (IHl c Bc)]. intros rest (ys & P2 & L & HF). exists (y0 :: ys).
              split; [rewrite P; cbn [app]; now constructor|]. cbn [length]. split; [lia|]. intros HL. constructor; auto.
            * eapply gives_weaken; [|intros e He; exact He|exact (IHl lb Bb)]. intros rest (ys & P2 & L & HF). exists ys. split; [exact P2|].
              cbn [length]. split; [lia|]. intros HL. lia.
        - intros rest (ys & P & L & HF). apply gives_ret. destruct (Nat.eqb (length rest) 0) eqn:Er; cbn [says]; [|exact NP].
          apply Nat.eqb_eq in Er. destruct rest; [|discriminate]. rewrite app_nil_r in P.
          exists la, lb, ys. repeat split; auto. apply HF. apply Permutation_length in P. lia. }
      destruct y as [| | | | | | | | | | | | |d|]; try exact G; try (apply gives_throw; exact I).
      apply gives_ret. destruct (Nat.eqb (length d) 0) eqn:Ed; cbn [says]; [|exact NP].
      apply Nat.eqb_eq in Ed. destruct d; [|discriminate]. cbn [py_iter map] in Hb. injection Hb as <-. destruct la; [|discriminate].
      exists [], [], []. repeat split; auto.
    - cbn [p_equal]. eapply gives_try with (B := fun _ => vrefutes (PDict kp vp co) x y).
      2:{ intros e He. destruct e; try (now apply gives_throw); now apply gives_ret. }
      assert (ND : (forall dx dy, ~ (x = VDict dx /\ y = VDict dy)) ->
        gives (says (eqv eqs (PDict kp vp co) x y) (vrefutes (PDict kp vp co) x y)) (fun _ => vrefutes (PDict kp vp co) x y)
          (fun _ => throw ExAttr) w).
      { intros K. apply gives_throw. intros _ _ _ (dx & dy & K1 & K2 & _). now apply (K dx dy). }
      destruct x as [| | | | | | | | | | | | |dx|]; try (apply ND; intros dx dy [K _]; discriminate K).
      destruct y as [| | | | | | | | | | | | |dy|]; try (apply ND; intros dx' dy' [_ K]; discriminate K). clear ND.
      apply below_dict in Hx. apply below_dict in Hy.
      destruct (Nat.eqb (length dx) (length dy)) eqn:Len; cbn [negb].
      2:{ apply gives_ret. intros _ _ _ (? & ? & K1 & K2 & K3 & _). injection K1 as <-. injection K2 as <-. apply Nat.eqb_neq in Len. contradiction. }
      apply Nat.eqb_eq in Len. set (ok := fun kx : val * val => exists y, vd_get dy (fst kx) = Some y /\ eqv eqs vp (snd kx) y).
      set (no := fun kx : val * val => simple_types C -> simple vp -> (forall m, holds_inst vp (snd kx) m -> safe F m) -> ~ ok kx).
      assert (Sub : forall kx, In kx dx -> no kx -> vrefutes (PDict kp vp co) (VDict dx) (VDict dy)).
      { intros kx Hk R St [S1 S2] Sf (? & ? & K1 & K2 & _ & K3). injection K1 as <-. injection K2 as <-.
        rewrite Forall_forall in K3. revert Hk. intros Hk. specialize (K3 _ Hk). revert K3. apply R; auto.
        - split; [exact (proj2 S1)|exact (proj2 S2)].
        - intros m Hm. apply Sf. exists dx, (fst kx), (snd kx). split; [reflexivity|]. split; [now destruct kx|now right]. }
      eapply gives_bind with (P := Forall2 (fun kx (t : bool) => if t then ok kx else no kx) dx).
      + apply gives_mapM. apply Forall_forall. intros kx Hk. rewrite Forall_forall in Hx. destruct (Hx _ Hk) as [_ Bx].
        destruct (vd_get dy (fst kx)) as [z|] eqn:Eg.
        * eapply gives_weaken; [| |apply IHv; [exact Bx|eapply vd_get_below; eauto]].
          -- intros [|] K; cbn [says] in K; [now exists z|]. intros St Sp Sf (z' & Hz & K'). rewrite Eg in Hz. injection Hz as <-. now apply K in K'.
          -- intros e9 K. apply (Sub kx Hk). intros St Sp Sf (z' & Hz & K'). rewrite Eg in Hz. injection Hz as <-. now apply K in K'.
        * apply gives_throw. apply (Sub kx Hk). intros _ _ _ (z' & Hz & _). congruence.
      + intros bs HF. apply gives_ret. apply Forall2_flags in HF. destruct (forallb _ bs); cbn [says].
        * exists dx, dy. repeat split; auto.
        * destruct HF as (kx & Hk & K). now apply (Sub kx).
    - cbn [p_equal]. assert (NP : vrefutes (PUnion si ps) x y) by (intros _ [_ []]).
      eapply gives_weaken with (Q := fun t : bool => t = true -> eqv eqs (PUnion si ps) x y) (B := fun _ => True);
        [intros [|] K; cbn [says]; [now apply K|exact NP]|intros; exact NP|]. clear NP. cbn [equal_value].
      induction IH as [|q ps Hq Hps IHps]; cbn [map anyM]; [apply gives_ret; discriminate|].
      eapply gives_bind with (P := fun t : bool => t = true -> eqv eqs q x y).
      + eapply gives_weaken; [| |apply Hq; [exact Hx|exact Hy]]; auto. intros [|] K; [auto|discriminate].
      + intros [|] K; [apply gives_ret; intros _; left; now apply K|].
        eapply gives_weaken; [|intros e He; exact He|exact IHps]. intros t K2 Ht. right. now apply K2.
    - cbn [p_equal].
      assert (NI : (forall l m, ~ (x = VInst l /\ y = VInst m)) ->
        gives (says (eqv eqs (PInst cid) x y) (vrefutes (PInst cid) x y)) (fun _ => vrefutes (PInst cid) x y)
          (fun n => let* r := X n (COp (OEqual x y)) in ret (truthy r)) w).
      { intros K. eapply gives_bind with (P := fun r => r = VBool (py_eq x y)).
        - exists (Ok (VBool (py_eq x y))). split; [|reflexivity]. apply conv_step. cbn [step].
          eapply conv_bind with (a := py_eq x y); [|apply conv_ret].
          destruct x; try apply conv_ret. destruct y; try apply conv_ret. exfalso. eapply K. split; reflexivity.
        - intros r ->. apply gives_ret. cbn [truthy]. destruct (py_eq x y) eqn:Ep; cbn [says]; [right; auto|].
          intros _ _ _ [(l & m & K1 & K2 & _)|[_ K1]]; [eapply K; eauto|congruence]. }
      destruct x; try (apply NI; intros l9 m9 [K9 _]; discriminate K9). destruct y; try (apply NI; intros l9 m9 [_ K9]; discriminate K9). clear NI.
      cbn [below] in Hx, Hy. apply Nat.ltb_lt in Hx, Hy.
      assert (R : refutes F l l0 -> vrefutes (PInst cid) (VInst l) (VInst l0)).
      { intros K St _ Sf [(l1 & m1 & K1 & K2 & K3)|[K1 _]]; [|now destruct (K1 l l0)]. injection K1 as <-. injection K2 as <-.
        revert K3. apply K; auto. apply Sf. reflexivity. }
      eapply gives_bind with (P := fun r => exists t, r = VBool t /\ says (eqs l l0) (refutes F l l0) t).
      + eapply gives_weaken; [intros a Ha; exact Ha| |exact (Hs _ _ Hx Hy)]. intros e9. exact R.
      + intros r (t & -> & K). apply gives_ret. cbn [truthy]. destruct t; cbn [says] in *; [left; now exists l, l0|now apply R].
  Qed.

  (** ** Properties *)
  Definition alike_at (l m : loc) (nd : string * pdecl) : Prop :=
    exists x y, reads E C U b l (fst nd) x /\ reads E C U b m (fst nd) y /\
      (x = VNone /\ y = VNone \/ x <> VNone /\ y <> VNone /\ eqv eqs (decl_type (snd nd)) x y).
  Hypothesis Hw : base b w.
  Lemma equal_props_gives l m c ps : l < N -> m < N -> has_class C b l c -> (forall nd, In nd ps -> In nd (c_props c)) ->
    let no := simple_types C -> (forall k, comp l k -> safe F k) -> ~ Forall (alike_at l m) ps in
    gives (says (Forall (alike_at l m) ps) no) (fun _ => no) (fun n => equal_props E C U (X n) l m ps) w.
  Proof.
    intros Hl Hm Hc. induction ps as [|[name d] ps IH]; intros Hin no; cbn [equal_props]; [apply gives_ret; constructor|].
    destruct (tell _ _ _ _ Hw (tot_getattr E C U bare (fun i j K => K) l name b Sb Hl)) as (r1 & R1 & R2 & R3).
    destruct (tell _ _ _ _ Hw (tot_getattr E C U bare (fun i j K => K) m name b Sb Hm)) as (r2 & R4 & R5 & R6).
    assert (A1 : answers (fun n => X n (COp (OGet l name))) b r1) by (eapply conv_answers; eapply conv_step; exact R1).
    assert (A2 : answers (fun n => X n (COp (OGet m name))) b r2) by (eapply conv_answers; eapply conv_step; exact R4).
    assert (No : ((simple_types C -> (forall k, comp l k -> safe F k) -> ~ alike_at l m (name, d)) -> no)).
    { intros K St Sf Q. inversion Q; subst. now apply (K St Sf). }
    eapply gives_bind with (P := fun v => r1 = Ok v).
    { exists r1. split; [exact R2|]. destruct r1 as [v|e]; [reflexivity|]. apply No. intros _ _ (x & y & K & _).
      pose proof (answers_fun _ _ _ _ A1 K). discriminate. }
    intros x ->. eapply gives_bind with (P := fun v => r2 = Ok v).
    { exists r2. split; [exact R5|]. destruct r2 as [v|e]; [reflexivity|]. apply No. intros _ _ (x' & y & _ & K & _).
      pose proof (answers_fun _ _ _ _ A2 K). discriminate. }
    intros y ->. assert (Inv : alike_at l m (name, d) -> x = VNone /\ y = VNone \/ x <> VNone /\ y <> VNone /\ eqv eqs (decl_type d) x y).
    { intros (x' & y' & K1 & K2 & K). cbn [fst snd] in *. now rewrite (reads_fun _ _ _ _ A1 K1), (reads_fun _ _ _ _ A2 K2). }
    assert (Rest : alike_at l m (name, d) -> gives (says (Forall (alike_at l m) ((name, d) :: ps)) no) (fun _ => no) (fun n => equal_props E C U (X n) l m ps) w).
    { intros K. assert (No2 : (simple_types C -> (forall k, comp l k -> safe F k) -> ~ Forall (alike_at l m) ps) -> no).
      { intros K2 St Sf Q. inversion Q; subst. now apply (K2 St Sf). }
      eapply gives_weaken; [| |apply IH; intros nd Hnd; apply Hin; now right].
      - intros [|] K2; cbn [says] in *; [now constructor|now apply No2].
      - intros e9. exact No2. }
    destruct (is_none x) eqn:Nx, (is_none y) eqn:Ny; cbn [negb andb].
    - apply Rest. exists x, y. repeat split; [exact A1|exact A2|]. left. destruct x; try discriminate. destruct y; try discriminate. auto.
    - apply gives_ret. apply No. intros _ _ K. apply Inv in K. destruct x; try discriminate.
      destruct K as [[_ ->]|[K _]]; [discriminate|now destruct K].
    - apply gives_ret. apply No. intros _ _ K. apply Inv in K. destruct y; try discriminate.
      destruct K as [[-> _]|[_ [K _]]]; [discriminate|now destruct K].
    - assert (Nx' : x <> VNone) by (intros ->; discriminate). assert (Ny' : y <> VNone) by (intros ->; discriminate).
      assert (V : vrefutes (decl_type d) x y -> no).
      { intros V. apply No. intros St Sf K. apply Inv in K. destruct K as [[K _]|(_ & _ & K)]; [contradiction|]. revert K. apply V; auto.
        - destruct Hc as (i & Hi & Hc). apply (St (i_cls i) c name d Hc). apply Hin. now left.
        - intros k Hk. apply Sf. exists c, name, d, x. repeat split; auto. apply Hin. now left. }
      eapply gives_bind with (P := says (eqv eqs (decl_type d) x y) (vrefutes (decl_type d) x y)).
      + eapply gives_weaken; [intros a Ha; exact Ha| |apply equal_value_gives; [exact R3|exact R6]]. intros e9. exact V.
      + intros [|] K; cbn [says] in K; [|apply gives_ret; now apply V].
        apply Rest. exists x, y. split; [exact A1|]. split; [exact A2|]. right. auto.
  Qed.
  End Values.

  (** ** Instances *)
  Definition eflagged (w : world) (m : loc) : Prop := exists i, nth_error (w_heap w) m = Some i /\ i_eflag i = true.
  Lemma eflagged_upd w l i m : nth_error (w_heap w) l = Some i ->
    eflagged (w_upd l (i_sete true) w) m <-> eflagged w m \/ m = l.
  Proof.
    intros Hi. unfold eflagged, w_upd. rewrite Hi. cbn [w_setheap w_heap].
    assert (Hl : l < length (w_heap w)) by (apply nth_error_Some; congruence).
    destruct (Nat.eq_dec m l) as [->|Hm].
    - rewrite set_nth_same by exact Hl. split; [auto|]. intros _. eexists. split; [reflexivity|]. reflexivity.
    - rewrite set_nth_other by auto. split; [auto|]. intros [K|K]; [exact K|contradiction].
  Qed.
  Lemma base_upd w l : base b w -> base b (w_upd l (i_sete true) w).
  Proof.
    intros (H & Q & L). split; [|unfold w_upd; destruct (nth_error (w_heap w) l); auto].
    unfold alike in *. rewrite H. apply alike_upd. reflexivity.
  Qed.
  Lemma equal_inst : forall k w, count open_e w = k -> base b w -> forall l m, l < N -> m < N -> compared (eflagged w) w l m.
  Proof.
    induction k as [k IH] using lt_wf_ind. intros w Hk Hw l m Hl Hm.
    pose proof (alike_len _ _ (proj1 Hw)) as Len. destruct (get_in w l) as (i & Hi); [lia|]. destruct (get_in w m) as (j & Hj); [lia|].
    unfold compared. set (F := eflagged w).
    assert (G : gives (says (eqs l m) (refutes F l m)) (fun _ => refutes F l m) (fun n => has_equal E C U (X n) (VInst l) (VInst m)) w).
    2:{ assert (K : gives (fun r => exists t, r = VBool t /\ says (eqs l m) (refutes F l m) t) (fun _ => refutes F l m)
          (fun n => let* r := has_equal E C U (X n) (VInst l) (VInst m) in ret (VBool r)) w).
        { eapply gives_bind; [exact G|]. intros t Ht. apply gives_ret. now exists t. }
        destruct K as (r & R & K). exists r. split; [|exact K]. apply conv_step. exact R. }
    unfold has_equal. eapply gives_get; [exact Hi|]. eapply gives_get; [exact Hj|]. cbv beta. destruct (i_eflag i) eqn:Ee.
    { apply gives_ret. intros _ Sf _. destruct (Sf l (creach_here _ _ _ _ _)) as [K _]. apply K. now exists i. }
    set (w' := w_upd l (i_sete true) w). assert (Hw' : base b w') by (now apply base_upd).
    assert (IH' : forall x y, x < N -> y < N -> compared (eflagged w') w' x y).
    { intros x y Hx Hy. eapply IH; [|reflexivity|exact Hw'|exact Hx|exact Hy].
      pose proof (count_upd open_e l (i_sete true) w i Hi) as K. unfold open_e in K at 1 2. cbn in K. rewrite Ee in K.
      specialize (K eq_refl eq_refl). unfold w'. lia. }
    assert (Fl : forall x, eflagged w' x <-> eflagged w x \/ x = l) by (intros x; eapply eflagged_upd; eauto).
    destruct (alike_nth _ _ _ _ (alike_sym _ _ (proj1 Hw)) Hi) as (ib & Hib & Kib). apply bare_eq in Kib. destruct Kib as (Kib & _).
    destruct (alike_nth _ _ _ _ (alike_sym _ _ (proj1 Hw)) Hj) as (jb & Hjb & Kjb). apply bare_eq in Kjb. destruct Kjb as (Kjb & _).
    assert (G : gives (says (eqs l m) (refutes F l m)) (fun _ => refutes F l m)
      (fun n => if Nat.eqb l m then ret true
               else if negb (Nat.eqb (i_cls i) (i_cls j)) then ret false
               else let* c := class_of C (i_cls i) in equal_props E C U (X n) l m (c_props c)) w').
    { destruct (Nat.eqb l m) eqn:Elm.
      { apply Nat.eqb_eq in Elm. subst m. apply gives_ret. apply (equals_intro E C U b (fun _ _ => False)); [intros x y []|now left]. }
      apply Nat.eqb_neq in Elm. destruct (Nat.eqb (i_cls i) (i_cls j)) eqn:Ec; cbn [negb].
      2:{ apply gives_ret. intros _ _ K. apply eqs_node in K. destruct K as [K|(i' & j' & c & Hi' & Hj' & K & _)]; [contradiction|].
          apply Nat.eqb_neq in Ec. congruence. }
      apply Nat.eqb_eq in Ec. destruct (nth_error (ct_cls C) (i_cls ib)) as [c|] eqn:Hc; [|now destruct (st_class _ _ _ _ Sb _ _ Hib)].
      eapply gives_bind with (P := fun c' => c' = c).
      { unfold class_of. apply gives_lift. now rewrite <- Kib, Hc. }
      intros c' ->. assert (Hcl : has_class C b l c) by (now exists ib).
      assert (Ch : safe F l -> forall x, comp l x -> safe (eflagged w') x).
      { intros Sf x Hx z Hz. assert (Rz : reach l z) by (eapply creach_step; eauto). destruct (Sf z Rz) as [K1 K2]. split; [|exact K2].
        intros K. apply Fl in K. destruct K as [K| ->]; [contradiction|]. destruct (Sf l (creach_here _ _ _ _ _)) as [_ K3]. now apply (K3 x). }
      assert (No : (simple_types C -> (forall x, comp l x -> safe (eflagged w') x) -> ~ Forall (alike_at l m) (c_props c)) -> refutes F l m).
      { intros K St Sf Q. apply (K St (Ch Sf)). apply eqs_node in Q. destruct Q as [Q|(i' & j' & c2 & Hi' & Hj' & _ & Hc2 & Q)]; [contradiction|].
        rewrite Hib in Hi'. injection Hi' as <-. rewrite Hc in Hc2. injection Hc2 as <-. apply Forall_forall. intros [name d] Hd. exact (Q name d Hd). }
      eapply gives_weaken; [| |apply (equal_props_gives w' (eflagged w') IH' Hw' l m c (c_props c)); auto].
      - intros [|] K; cbn [says] in *; [|now apply No].
        apply (equals_intro E C U b eqs); [auto|]. right. exists ib, jb, c. repeat split; [exact Hib|exact Hjb|congruence|exact Hc|].
        rewrite Forall_forall in K. intros name d Hd. exact (K (name, d) Hd).
      - intros e9. exact No. }
    destruct G as (r & R & K). exists r. split; [|exact K]. apply conv_flag.
    - lia.
    - unfold same. intros; congruence.
    - intros x y Hx Hy. unfold same in Hy. subst y. rewrite Hi in Hx. injection Hx as <-. destruct i. cbn in *. now subst.
    - exact R.
  Qed.
End Equals.

(** * Theorems *)
Lemma e_idle_intro w : forallb (fun i => negb (i_eflag i)) (w_heap w) = true -> e_idle w.
Proof.
  intros H l i Hi. apply nth_error_In in Hi. rewrite forallb_forall in H. specialize (H _ Hi). now destruct (i_eflag i).
Qed.
Lemma equal_outcome E C U w l m : settled E C U w -> l < length (w_heap w) -> m < length (w_heap w) ->
  exists r, ends (fun n => exec E C U n (COp (OEqual (VInst l) (VInst m)))) w r /\
    ((exists t, r = Ok (VBool t)) \/ exists e, r = Exc e) /\
    (r = Ok (VBool true) -> equals E C U w l m) /\
    (e_idle w -> simple_types C -> acyclic E C U w l -> equals E C U w l m -> r = Ok (VBool true)).
Proof.
  intros S Hl Hm. assert (B : base w w) by (repeat split).
  destruct (equal_inst E C U w S _ w eq_refl B l m Hl Hm) as (r & R & K). exists r. split; [eapply conv_ends; exact R|].
  assert (Sf : e_idle w -> acyclic E C U w l -> safe E C U w (eflagged w) l).
  { intros I A k Hk. split; [intros (i & Hi & He); rewrite (I _ _ Hi) in He; discriminate|]. intros x Hx. now apply (A k x). }
  destruct r as [v|e].
  - destruct K as (t & -> & K). split; [left; now exists t|]. destruct t; cbn [says] in K.
    + split; auto.
    + split; [discriminate|]. intros I St A Q. exfalso. exact (K St (Sf I A) Q).
  - split; [right; now exists e|]. split; [discriminate|]. intros I St A Q. exfalso. exact (K St (Sf I A) Q).
Qed.
Lemma equal_ends E C U w l m : settled E C U w -> l < length (w_heap w) -> m < length (w_heap w) ->
  exists r, ends (fun n => exec E C U n (COp (OEqual (VInst l) (VInst m)))) w r /\
    ((exists t, r = Ok (VBool t)) \/ exists e, r = Exc e).
Proof. intros S Hl Hm. destruct (equal_outcome E C U w l m S Hl Hm) as (r & R & K & _). eauto. Qed.
Lemma equal_sound E C U w l m : settled E C U w -> l < length (w_heap w) -> m < length (w_heap w) ->
  ends (fun n => exec E C U n (COp (OEqual (VInst l) (VInst m)))) w (Ok (VBool true)) -> equals E C U w l m.
Proof.
  intros S Hl Hm H. destruct (equal_outcome E C U w l m S Hl Hm) as (r & R & _ & K & _). apply K. exact (ends_fun _ _ _ _ R H).
Qed.
Lemma equal_decides E C U w l m : settled E C U w -> e_idle w -> simple_types C -> l < length (w_heap w) -> m < length (w_heap w) ->
  acyclic E C U w l ->
  (ends (fun n => exec E C U n (COp (OEqual (VInst l) (VInst m)))) w (Ok (VBool true)) <-> equals E C U w l m).
Proof.
  intros S I St Hl Hm A. split; [now apply equal_sound|]. intros Q.
  destruct (equal_outcome E C U w l m S Hl Hm) as (r & R & _ & _ & K). now rewrite <- (K I St A Q).
Qed.
Lemma equal_reflexive E C U w l i : nth_error (w_heap w) l = Some i -> i_eflag i = false ->
  ends (fun n => exec E C U n (COp (OEqual (VInst l) (VInst l)))) w (Ok (VBool true)).
Proof.
  intros Hi He. apply conv_ends with (f := same). apply conv_step. cbn [step]. eapply conv_bind with (a := true); [|apply conv_ret].
  unfold has_equal. eapply conv_get; [exact Hi|unfold same; intros n i1 ->; reflexivity|].
  eapply conv_get; [exact Hi|unfold same; intros n i1 ->; reflexivity|]. rewrite He. apply conv_flag.
  - apply nth_error_Some. congruence.
  - unfold same. intros; congruence.
  - intros x y Hx Hy. unfold same in Hy. subst y. rewrite Hi in Hx. injection Hx as <-. destruct i. cbn in *. now subst.
  - rewrite Nat.eqb_refl. apply conv_ret.
Qed.

(** ** Symmetry *)
Lemma vd_get_str d ks s : map fst d = map VStr ks -> NoDup ks -> forall x, vd_get d (VStr s) = Some x <-> In (VStr s, x) d.
Proof.
  revert ks. induction d as [|[k y] d IH]; intros [|s' ks] Hk Hn x; try discriminate; cbn [vd_get In]; [split; [discriminate|intros []]|].
  cbn [map fst] in Hk. injection Hk as -> Hk. inversion Hn as [|? ? Hs Hn']; subst. cbn [py_eq].
  match goal with |- context [String.eqb ?a ?b] => destruct (String.eqb a b) eqn:Es end.
  - apply String.eqb_eq in Es. subst s'. split.
    + intros K. injection K as <-. now left.
    + intros [K|K]; [now injection K as <-|]. exfalso. apply Hs. assert (K2 : In (VStr s) (map fst d)) by (apply in_map_iff; now exists (VStr s, x)).
      rewrite Hk in K2. apply in_map_iff in K2. destruct K2 as (z & Hz & K2). injection Hz as ->. exact K2.
  - apply String.eqb_neq in Es. rewrite (IH ks Hk Hn' x). split; [auto|]. intros [K|K]; [|exact K]. injection K as K _. congruence.
Qed.
Lemma dict_flip (R : val -> val -> Prop) da db ka kb : map fst da = map VStr ka -> NoDup ka -> map fst db = map VStr kb -> NoDup kb ->
  length da = length db -> Forall (fun kx => exists y, vd_get db (fst kx) = Some y /\ R (snd kx) y) da ->
  Forall (fun kx => exists x, vd_get da (fst kx) = Some x /\ R x (snd kx)) db.
Proof.
  intros Ha Na Hb Nb Len HF. rewrite Forall_forall in *.
  assert (Inc : incl ka kb).
  { intros s Hs. assert (K : In (VStr s) (map fst da)) by (rewrite Ha; now apply in_map). apply in_map_iff in K. destruct K as ([k x] & Hk & K).
    cbn [fst] in Hk. subst k. destruct (HF _ K) as (y & Hy & _). cbn [fst] in Hy. apply (vd_get_str db kb s Hb Nb) in Hy.
    apply (in_map fst) in Hy. rewrite Hb in Hy. apply in_map_iff in Hy. destruct Hy as (z & Hz & Hy). injection Hz as ->. exact Hy. }
  assert (Inc2 : incl kb ka).
  { apply NoDup_length_incl; auto. apply (f_equal (@length val)) in Ha, Hb. rewrite !map_length in Ha, Hb. lia. }
  intros [k y] Hy. assert (K : In k (map fst db)) by (apply in_map_iff; now exists (k, y)). rewrite Hb in K. apply in_map_iff in K.
  destruct K as (s & <- & Hs). apply Inc2 in Hs. assert (K : In (VStr s) (map fst da)) by (rewrite Ha; now apply in_map).
  apply in_map_iff in K. destruct K as ([k x] & Hk & K). cbn [fst] in Hk. subst k. exists x. cbn [fst snd].
  split; [now apply (vd_get_str da ka s Ha Na)|]. destruct (HF _ K) as (y' & Hy' & HR). cbn [fst snd] in *.
  apply (vd_get_str db kb s Hb Nb) in Hy. congruence.
Qed.
Lemma eqv_sym (G : loc -> loc -> Prop) p : forall x y, comparable p x -> comparable p y ->
  equal_value G p x y -> equal_value (fun l m => G m l) p y x.
Proof.
  induction p as [t|k q mn mx co IH|kp vp co IHk IHv|si ps IH|cid] using ptype_ind'; intros x y Cx Cy H.
  - cbn [equal_value comparable] in *. now rewrite <- leaf_equal_comm.
  - destruct H as (xs & ys & zs & Hx & Hy & Hz & HF). specialize (Cx _ Hx). specialize (Cy _ Hy).
    assert (Cz : Forall (comparable q) zs) by (destruct Hz as [<-|[_ Hz]]; [exact Cy|eapply Permutation_Forall; eauto]).
    assert (HF' : Forall2 (equal_value (fun l m => G m l) q) zs xs).
    { clear -IH HF Cx Cz. induction HF; [constructor|]. inversion Cx; inversion Cz; subst. constructor; auto. }
    destruct Hz as [<-|[Hk Hz]].
    + exists ys, xs, xs. split; [exact Hy|]. split; [exact Hx|]. split; [now left|exact HF'].
    + destruct (Permutation_Forall2 (Permutation_sym Hz) HF') as (xs' & P & K). exists ys, xs, xs'. repeat split; auto.
  - destruct H as (da & db & -> & -> & Len & HF). destruct (Cx da eq_refl) as ((ka & Ha & Na) & Fa). destruct (Cy db eq_refl) as ((kb & Hb & Nb) & Fb).
    exists db, da. repeat split; auto.
    apply (dict_flip (fun x y => equal_value (fun l m => G m l) vp y x) da db ka kb); auto.
    rewrite Forall_forall in *. intros kx Hk. destruct (HF _ Hk) as (y & Hy & K). exists y. split; [exact Hy|]. apply IHv; [exact (Fa _ Hk)| |exact K].
    assert (Hin : exists k', In (k', y) db).
    { clear -Hy. induction db as [|[k' y'] db IHd]; cbn [vd_get] in Hy; [discriminate|]. destruct py_eq.
      - injection Hy as <-. exists k'. now left.
      - destruct (IHd Hy) as (k2 & K). exists k2. now right. }
    destruct Hin as (k' & Hin). exact (Fb (k', y) Hin).
  - cbn [equal_value comparable] in *. induction IH as [|q ps Hq Hps IHps]; [exact H|]. destruct Cx as [C1 C2], Cy as [C3 C4].
    destruct H as [H|H]; [left; now apply Hq|right; exact (IHps C2 C4 H)].
  - cbn [equal_value comparable] in *. destruct H as [(l & m & -> & -> & H)|[H1 H2]]; [left; exists m, l; auto|right].
    split; [intros l m [K1 K2]; now apply (H1 m l)|]. now rewrite <- py_eq_comm.
Qed.
Lemma equals_sym E C U w l m : comparable_state E C U w -> equals E C U w l m -> equals E C U w m l.
Proof.
  intros Cs H. induction H as [G l m HG IH Hn]. apply (equals_intro E C U w (fun x y => G y x)); [auto|].
  destruct Hn as [Hn|(i & j & c & Hi & Hj & Hc & Hcl & H)]; [now left|right]. exists j, i, c. repeat split; auto; [congruence|].
  intros name d Hd. destruct (H name d Hd) as (x & y & Hx & Hy & K). exists y, x. split; [exact Hy|]. split; [exact Hx|].
  destruct K as [[K1 K2]|(K1 & K2 & K3)]; [left; auto|right]. repeat split; auto. apply eqv_sym; auto.
  - apply (Cs l c name d x); auto. now exists i.
  - apply (Cs m c name d y); auto. exists j. split; [exact Hj|congruence].
Qed.
Lemma equal_symmetric E C U w l m : settled E C U w -> e_idle w -> simple_types C -> comparable_state E C U w ->
  l < length (w_heap w) -> m < length (w_heap w) -> acyclic E C U w l -> acyclic E C U w m ->
  (ends (fun n => exec E C U n (COp (OEqual (VInst l) (VInst m)))) w (Ok (VBool true)) <->
   ends (fun n => exec E C U n (COp (OEqual (VInst m) (VInst l)))) w (Ok (VBool true))).
Proof.
  intros S I St Cs Hl Hm Al Am. rewrite (equal_decides E C U w l m), (equal_decides E C U w m l) by auto. split; apply equals_sym; exact Cs.
Qed.
