(** Proofs about extras/singleton.py *)
From Verif Require Import PyBase Singles LibrarySpec.
Local Open Scope string_scope.
Local Open Scope list_scope.
Local Open Scope nat_scope.

Lemma ident_eqb_spec a b : reflect (a = b) (ident_eqb a b).
Proof.
  destruct a, b; simpl; try (constructor; congruence).
  destruct (String.eqb_spec k k0); constructor; congruence.
Qed.
Lemma key_eqb_spec a b : reflect (a = b) (key_eqb a b).
Proof.
  destruct a as [r n], b as [r' n']. unfold key_eqb. simpl.
  destruct (Nat.eqb_spec r r'), (ident_eqb_spec n n'); simpl; constructor; congruence.
Qed.
Lemma lookup_cons k l t k' : lookup ((k, l) :: t) k' = if key_eqb k k' then Some l else lookup t k'.
Proof. reflexivity. Qed.
Lemma lookup_in t k l : lookup t k = Some l -> In (k, l) t.
Proof.
  induction t as [|[k' l'] t IH]; simpl; [discriminate|].
  destruct (key_eqb_spec k' k) as [->|]; [intros [= ->]; auto|auto].
Qed.

Lemma replace_at_length {A} n (a : A) l : length (replace_at n a l) = length l.
Proof. revert n. induction l; intros [|n]; simpl; auto. Qed.
Lemma replace_at_same {A} n (a : A) l : n < length l -> nth_error (replace_at n a l) n = Some a.
Proof. revert n. induction l; intros [|n] H; simpl in *; try lia; auto. apply IHl. lia. Qed.
Lemma replace_at_other {A} n m (a : A) l : n <> m -> nth_error (replace_at n a l) m = nth_error l m.
Proof.
  revert n m. induction l; intros [|n] [|m] H; simpl; auto; try lia.
Qed.

(** Registered instances exist, each is registered under one name only, which
    is its [_singleton_id]. *)
Record swf (s : sstate) : Prop := Swf {
  wf_ids : forall r n l, In ((r, n), l) (s_reg s) -> exists c, nth_error (s_objs s) l = Some (SO c (Some n));
  wf_once : NoDup (map snd (s_reg s))
}.

Record srel (s s' : sstate) : Prop := Srel {
  sr_open : s_open s' = s_open s;
  sr_len : length (s_objs s) <= length (s_objs s');
  sr_objs : forall l, l < length (s_objs s) -> nth_error (s_objs s') l = nth_error (s_objs s) l;
  sr_keep : forall k l, lookup (s_reg s) k = Some l -> ~ In k (s_open s) -> lookup (s_reg s') k = Some l;
  sr_new : exists new, s_reg s' = new ++ s_reg s /\ forall k l, In (k, l) new -> length (s_objs s) <= l
}.

Lemma srel_refl s : srel s s.
Proof. split; auto. exists []. split; auto. intros k l []. Qed.
Lemma srel_trans a b c : srel a b -> srel b c -> srel a c.
Proof.
  intros [O1 L1 B1 K1 (n1 & N1 & F1)] [O2 L2 B2 K2 (n2 & N2 & F2)]. split.
  - congruence.
  - lia.
  - intros l Hl. rewrite B2 by lia. auto.
  - intros k l H Ho. apply K2; auto. now rewrite O1.
  - exists (n2 ++ n1). split; [now rewrite N2, N1, app_assoc|].
    intros k l [H|H]%in_app_iff; [apply F2 in H; lia|eauto].
Qed.
Lemma srel_dicts x s : srel s (put_dicts x s).
Proof. split; auto. exists []. split; auto. intros k l []. Qed.
Lemma swf_dicts x s : swf s -> swf (put_dicts x s).
Proof. intros [H1 H2]. split; auto. Qed.
Lemma swf_alloc s cid : swf s -> swf (put_objs (s_objs s ++ [SO cid None]) s).
Proof.
  intros [H1 H2]. split; auto. simpl. intros r n l H. destruct (H1 r n l H) as (c & Hc). exists c.
  rewrite nth_error_app1; auto. apply nth_error_Some. congruence.
Qed.
Lemma srel_alloc s cid : srel s (put_objs (s_objs s ++ [SO cid None]) s).
Proof.
  split; simpl; auto.
  - rewrite app_length. lia.
  - intros l Hl. now rewrite nth_error_app1.
  - exists []. split; auto. intros k l [].
Qed.

Section Facts.
  Variable V : senv.

  Definition sok (rec : sop -> SM nat) : Prop := forall o s, swf s ->
    srel s (snd (rec o s)) /\ swf (snd (rec o s)) /\
    (forall cid name arg r l, o = SNew cid name arg -> se_reg V cid = Some r -> fst (rec o s) = Ok l ->
       lookup (s_reg (snd (rec o s))) (r, name) = Some l).

  Lemma srun_ok rec : sok rec -> forall p s, swf s ->
    srel s (snd (srun rec p s)) /\ swf (snd (srun rec p s)).
  Proof.
    intros Hrec. induction p as [|e|o k IH]; intros s Hs; simpl.
    - split; [apply srel_refl|exact Hs].
    - split; [apply srel_refl|exact Hs].
    - destruct (Hrec o s Hs) as (R1 & W1 & _). destruct (rec o s) as [r s1]. simpl in *.
      destruct (IH r s1 W1) as (R2 & W2). split; [eapply srel_trans; eauto|exact W2].
  Qed.

  Definition keep {A} (s0 : sstate) (m : SM A) (s : sstate) : Prop :=
    srel s0 (snd (m s)) /\ swf (snd (m s)).
  Lemma keep_ret {A} s0 (a : A) s : srel s0 s -> swf s -> keep s0 (sret a) s.
  Proof. split; assumption. Qed.
  Lemma keep_throw {A} s0 e s : srel s0 s -> swf s -> keep s0 (sthrow e : SM A) s.
  Proof. split; assumption. Qed.
  Lemma keep_bind {A B} s0 (m : SM A) (k : A -> SM B) s : keep s0 m s ->
    (forall a s1, srel s0 s1 -> swf s1 -> keep s0 (k a) s1) -> keep s0 (sbind m k) s.
  Proof.
    intros [H1 H2] Hk. unfold keep, sbind. destruct (m s) as [[a|e] s1]; simpl in *; [now apply Hk|split; assumption].
  Qed.
  Lemma keep_srun rec : sok rec -> forall p s0 s, srel s0 s -> swf s -> keep s0 (srun rec p) s.
  Proof.
    intros Hrec p s0 s R W. destruct (srun_ok rec Hrec p s W) as (R1 & W1). split; [eapply srel_trans; eauto|exact W1].
  Qed.
  Lemma keep_rec rec : sok rec -> forall o s0 s, srel s0 s -> swf s -> keep s0 (rec o) s.
  Proof.
    intros Hrec o s0 s R W. destruct (Hrec o s W) as (R1 & W1 & _). split; [eapply srel_trans; eauto|exact W1].
  Qed.

  (** The construction proper *)
  Lemma build_ok rec cid name arg s r : sok rec -> swf s -> lookup (s_reg s) (r, name) = None ->
    forall res s1,
    sbind (salloc cid) (fun l =>
                  sbind (srun rec (se_begin V cid l name)) (fun _ =>
                  sbind (set_id l name) (fun _ =>
                  sbind (srun rec (se_init V cid l arg)) (fun _ => sret l))))
                  (put_open ((r, name) :: s_open s) s) = (res, s1) ->
    let s2 := put_open (s_open s) s1 in
    srel s s2 /\ swf s2 /\
    (exists new, s_reg s2 = new ++ s_reg s /\ forall k l, In (k, l) new -> length (s_objs s) < l) /\
    (forall l, res = Ok l -> l = length (s_objs s) /\ exists c, nth_error (s_objs s2) l = Some (SO c (Some name))).
  Proof.
    intros Hrec Hs Hn res s1 H s2. unfold sbind in H. simpl in H.
    set (sa := put_objs (s_objs s ++ [SO cid None]) (put_open ((r, name) :: s_open s) s)) in *.
    assert (Wa : swf sa).
    { apply (swf_alloc (put_open ((r, name) :: s_open s) s) cid). destruct Hs. split; auto. }
    assert (Lb : length (s_objs sa) = S (length (s_objs s))) by (unfold sa; simpl; rewrite app_length; simpl; lia).
    (* what the steps after the allocation establish *)
    assert (Gen : forall sx, srel sa sx \/ (exists l0, length (s_objs s) = l0 /\
        s_open sx = s_open sa /\ length (s_objs sa) <= length (s_objs sx) /\
        (forall l, l < length (s_objs s) -> nth_error (s_objs sx) l = nth_error (s_objs s) l) /\
        (forall k l, lookup (s_reg sa) k = Some l -> ~ In k (s_open sa) -> lookup (s_reg sx) k = Some l) /\
        exists new, s_reg sx = new ++ s_reg sa /\ forall k l, In (k, l) new -> length (s_objs sa) <= l) ->
      swf sx ->
      srel s (put_open (s_open s) sx) /\ swf (put_open (s_open s) sx) /\
      (exists new, s_reg (put_open (s_open s) sx) = new ++ s_reg s /\ forall k l, In (k, l) new -> length (s_objs s) < l)).
    { intros sx Hx Wx.
      assert (K : s_open sx = s_open sa /\ length (s_objs sa) <= length (s_objs sx) /\
        (forall l, l < length (s_objs s) -> nth_error (s_objs sx) l = nth_error (s_objs s) l) /\
        (forall k l, lookup (s_reg sa) k = Some l -> ~ In k (s_open sa) -> lookup (s_reg sx) k = Some l) /\
        exists new, s_reg sx = new ++ s_reg sa /\ forall k l, In (k, l) new -> length (s_objs sa) <= l).
      { destruct Hx as [[O L B K N]|(l0 & _ & O & L & B & K & N)].
        - split; [exact O|]. split; [exact L|]. split; [|split; [exact K|exact N]].
          intros l Hl. rewrite B by lia. unfold sa. simpl. now rewrite nth_error_app1.
        - split; [exact O|]. split; [exact L|]. split; [exact B|]. split; [exact K|exact N]. }
      clear Hx. destruct K as (O & L & B & K & (new & N & F)). split; [|split].
      - split; simpl; auto.
        + lia.
        + intros k l Hk Ho. apply K; [exact Hk|]. unfold sa. simpl. intros [<-|Hi]; [congruence|auto].
        + exists new. split; [exact N|]. intros k l Hk. apply F in Hk. lia.
      - destruct Wx. split; auto.
      - exists new. split; [exact N|]. intros k l Hk. apply F in Hk. lia. }
    destruct (srun_ok rec Hrec (se_begin V cid (length (s_objs s)) name) sa Wa) as (R1 & W1).
    destruct (srun rec (se_begin V cid (length (s_objs s)) name) sa) as [[u|e] sb]; simpl in R1, W1.
    2:{ injection H as <- <-. destruct (Gen sb (or_introl R1) W1) as (G1 & G2 & G3).
        repeat split; try apply G1; try apply G2; try discriminate. exact G3. }
    unfold set_id in H.
    assert (Hl0 : nth_error (s_objs sb) (length (s_objs s)) = Some (SO cid None)).
    { rewrite (sr_objs _ _ R1) by lia. unfold sa. simpl. rewrite nth_error_app2 by lia.
      now rewrite Nat.sub_diag. }
    rewrite Hl0 in H. simpl in H.
    set (sc := put_objs (replace_at (length (s_objs s)) (SO cid (Some name)) (s_objs sb)) sb) in *.
    assert (Lc : length (s_objs sb) = length (s_objs sc)) by (unfold sc; simpl; now rewrite replace_at_length).
    assert (Hne : forall k l, In (k, l) (s_reg sb) -> l <> length (s_objs s)).
    { destruct R1 as [_ _ _ _ (new & N & F)]. intros k l Hk. rewrite N in Hk. apply in_app_iff in Hk as [Hk|Hk].
      - apply F in Hk. lia.
      - destruct k as [rr nn]. unfold sa in Hk. simpl in Hk. destruct (wf_ids _ Hs _ _ _ Hk) as (c & Hc).
        assert (l < length (s_objs s)) by (apply nth_error_Some; congruence). lia. }
    assert (Wc : swf sc).
    { destruct W1 as [I1 I2]. split; auto. unfold sc. simpl. intros rr nn l Hk. destruct (I1 rr nn l Hk) as (c & Hc).
      exists c. rewrite replace_at_other; auto. apply not_eq_sym. eapply Hne; eauto. }
    destruct (srun_ok rec Hrec (se_init V cid (length (s_objs s)) arg) sc Wc) as (R2 & W2).
    assert (Hx : forall sd, srel sc sd -> srel sa sd \/ (exists l0, length (s_objs s) = l0 /\
        s_open sd = s_open sa /\ length (s_objs sa) <= length (s_objs sd) /\
        (forall l, l < length (s_objs s) -> nth_error (s_objs sd) l = nth_error (s_objs s) l) /\
        (forall k l, lookup (s_reg sa) k = Some l -> ~ In k (s_open sa) -> lookup (s_reg sd) k = Some l) /\
        exists new, s_reg sd = new ++ s_reg sa /\ forall k l, In (k, l) new -> length (s_objs sa) <= l)).
    { intros sd [O2 L2 B2 K2 (n2 & N2 & F2)]. right. exists (length (s_objs s)). split; [reflexivity|].
      destruct R1 as [O1 L1 B1 K1 (n1 & N1 & F1)].
      split; [rewrite O2; exact O1|]. split; [lia|]. split; [|split].
      - intros l Hl. rewrite B2 by lia. unfold sc. simpl. rewrite replace_at_other by lia.
        rewrite B1 by lia. unfold sa. simpl. now rewrite nth_error_app1.
      - intros k l Hk Ho. apply K2; [unfold sc; simpl; apply K1; auto|]. unfold sc. simpl. now rewrite O1.
      - exists (n2 ++ n1). unfold sc in N2. simpl in N2. split; [now rewrite N2, N1, app_assoc|].
        intros k l [Hk|Hk]%in_app_iff; [apply F2 in Hk; lia|eauto]. }
    destruct (srun rec (se_init V cid (length (s_objs s)) arg) sc) as [[u'|e] sd]; simpl in R2, W2.
    - injection H as <- <-. destruct (Gen sd (Hx sd R2) W2) as (G1 & G2 & G3).
      split; [exact G1|]. split; [exact G2|]. split; [exact G3|].
      intros l [= <-]. split; [reflexivity|]. exists cid. unfold s2. simpl. pose proof (sr_len _ _ R1).
      rewrite (sr_objs _ _ R2) by lia. unfold sc. simpl. apply replace_at_same. lia.
    - injection H as <- <-. destruct (Gen sd (Hx sd R2) W2) as (G1 & G2 & G3).
      split; [exact G1|]. split; [exact G2|]. split; [exact G3|]. discriminate.
  Qed.

  Lemma new_ok rec cid name arg s : sok rec -> swf s ->
    let m := s_new V rec cid name arg in
    srel s (snd (m s)) /\ swf (snd (m s)) /\
    (forall r l, se_reg V cid = Some r -> fst (m s) = Ok l -> lookup (s_reg (snd (m s))) (r, name) = Some l).
  Proof.
    intros Hrec Hs m. unfold m, s_new. destruct (se_reg V cid) as [r|] eqn:Er.
    - assert (K : name = IBad \/ name <> IBad) by (destruct name; auto; right; discriminate).
      destruct K as [->|Hnb].
      { split; [apply srel_refl|]. split; [exact Hs|]. discriminate. }
      assert (Eq : forall A (a b : A), match name with IBad => a | _ => b end = b) by (destruct name; congruence).
      rewrite Eq. clear Eq m. destruct (lookup (s_reg s) (r, name)) as [l|] eqn:El.
      { split; [apply srel_refl|]. split; [exact Hs|]. simpl. intros r0 l0 [= <-] [= <-]. exact El. }
      match goal with |- context [let (_, _) := ?x in _] => destruct x as [res s1] eqn:Eb end.
      destruct (build_ok rec cid name arg s r Hrec Hs El res s1 Eb) as (R1 & W1 & (new & N1 & F1) & P).
      destruct res as [l|e]; [|split; [exact R1|]; split; [exact W1|discriminate]].
      destruct (P l eq_refl) as (-> & c & Hc).
      assert (Hne : forall k l, In (k, l) (s_reg (put_open (s_open s) s1)) -> l <> length (s_objs s)).
      { intros k l Hk. rewrite N1 in Hk. apply in_app_iff in Hk as [Hk|Hk]; [apply F1 in Hk; lia|].
        destruct k as [rr nn]. destruct (wf_ids _ Hs _ _ _ Hk) as (c0 & Hc0).
        assert (l < length (s_objs s)) by (apply nth_error_Some; congruence). lia. }
      cbn [snd fst]. split; [|split].
      + destruct R1 as [O1 L1 B1 K1 _]. split; auto.
        * intros k l Hk Ho. cbn [s_reg put_reg]. rewrite lookup_cons.
          destruct (key_eqb_spec (r, name) k) as [<-|]; [congruence|]. now apply K1.
        * exists (((r, name), length (s_objs s)) :: new). split; [cbn [s_reg put_reg]; rewrite N1; reflexivity|].
          intros k l [[= <- <-]|Hk]; [lia|]. apply F1 in Hk. lia.
      + destruct W1 as [I1 I2]. split.
        * cbn [s_reg put_reg s_objs]. intros rr nn l [[= <- <- <-]|Hk]; eauto.
        * cbn [s_reg put_reg map snd]. constructor; [|exact I2].
          intros [[k l] [Hl Hk]]%in_map_iff. cbn [snd] in Hl. subst l. now apply Hne in Hk.
      + intros r0 l [= <-] [= <-]. cbn [s_reg put_reg]. rewrite lookup_cons.
        destruct (key_eqb_spec (r, name) (r, name)); congruence.
    - unfold sbind. simpl. set (sa := put_objs (s_objs s ++ [SO cid None]) s).
      assert (Wa : swf sa) by now apply swf_alloc. pose proof (srel_alloc s cid : srel s sa) as Ra.
      destruct (srun_ok rec Hrec (se_begin V cid (length (s_objs s)) name) sa Wa) as (R1 & W1).
      destruct (srun rec (se_begin V cid (length (s_objs s)) name) sa) as [[u|e] sb]; simpl in R1, W1 |- *.
      2:{ split; [eapply srel_trans; eauto|]. split; [exact W1|discriminate]. }
      destruct (srun_ok rec Hrec (se_init V cid (length (s_objs s)) arg) sb W1) as (R2 & W2).
      destruct (srun rec (se_init V cid (length (s_objs s)) arg) sb) as [[u'|e] sc]; simpl in R2, W2 |- *.
      all: split; [eapply srel_trans; [|exact R2]; eapply srel_trans; eauto|]; split; [exact W2|discriminate].
  Qed.

  Lemma step_ok rec : sok rec -> sok (s_step V rec).
  Proof.
    intros Hrec o s Hs. destruct o as [cid name arg|cid d f|l rest].
    - destruct (new_ok rec cid name arg s Hrec Hs) as (R & W & P). split; [exact R|]. split; [exact W|].
      intros c0 n0 a0 r l [= -> -> ->]. apply P.
    - cbn [s_step]. unfold s_deser. destruct (nth_error (s_dicts s) d) as [v|].
      2:{ split; [apply srel_refl|]. split; [exact Hs|]. intros; discriminate. }
      set (s1 := put_dicts _ s). pose proof (srel_dicts _ s : srel s s1) as R1. pose proof (swf_dicts _ s Hs : swf s1) as W1.
      cbv zeta. set (id := match sd_id v with Some i => i | None => _ end).
      assert (Fin : forall r, srel s (snd (r, s1)) /\ swf (snd (r, s1)) /\
        (forall cid0 name arg r0 l, SDeser cid d f = SNew cid0 name arg -> se_reg V cid0 = Some r0 -> fst (r, s1) = Ok l ->
           lookup (s_reg (snd (r, s1))) (r0, name) = Some l)).
      { intros r. split; [exact R1|]. split; [exact W1|]. intros; discriminate. }
      assert (Main : forall r, let x := match lookup (s_reg s1) (r, id) with
            | Some l => (Ok l, s1)
            | None =>
                sbind (super_deser V rec cid (SD None (Some id) (sd_cls v) (sd_rest v)) id f) (fun l =>
                match sd_name v with
                | Some n => if se_truthy V n then sbind (srun rec (se_rename V l n)) (fun _ => sret l) else sret l
                | None => sret l
                end) s1
            end in srel s (snd x) /\ swf (snd x)).
      { intros r. destruct (lookup (s_reg s1) (r, id)) as [l|]; [split; assumption|].
        cbv zeta. set (v' := SD None (Some id) (sd_cls v) (sd_rest v)). clearbody v'.
        change (keep s (sbind (super_deser V rec cid v' id f) (fun l =>
                match sd_name v with
                | Some n => if se_truthy V n then sbind (srun rec (se_rename V l n)) (fun _ => sret l) else sret l
                | None => sret l
                end)) s1).
        apply keep_bind.
        - unfold super_deser. destruct (se_class V cid (sd_cls v') f) as [k|e]; [|now apply keep_throw].
          apply keep_bind; [now apply keep_srun|]. intros _ s2 R2 W2.
          destruct (se_name V k id) as [n|e]; [|now apply keep_throw].
          apply keep_bind.
          + destruct n as [n|]; [|destruct (se_reg V k)]; first [now apply keep_throw|now apply keep_rec].
          + intros l s3 R3 W3. apply keep_bind; [now apply keep_srun|]. intros _ s4 R4 W4. now apply keep_ret.
        - intros l s2 R2 W2. destruct (sd_name v) as [n|]; [|now apply keep_ret].
          destruct (se_truthy V n); [|now apply keep_ret].
          apply keep_bind; [now apply keep_srun|]. intros _ s4 R4 W4. now apply keep_ret. }
      destruct id; try apply Fin; destruct (se_reg V cid) as [r|]; try apply Fin;
        destruct (Main r) as (X & Y); (split; [exact X|]; split; [exact Y|intros; discriminate]).
    - cbn [s_step]. unfold s_ser. destruct (nth_error (s_objs s) l) as [[c [id|]]|]; simpl.
      + split; [apply srel_dicts|]. split; [now apply swf_dicts|]. intros; discriminate.
      + split; [apply srel_refl|]. split; [exact Hs|]. intros; discriminate.
      + split; [apply srel_refl|]. split; [exact Hs|]. intros; discriminate.
  Qed.

  Lemma exec_sok n : sok (sexec V n).
  Proof.
    induction n as [|n IH]; [|now apply step_ok]. intros o s Hs. simpl.
    split; [apply srel_refl|]. split; [exact Hs|]. intros; discriminate.
  Qed.
End Facts.

(** * The properties *)
Section Results.
  Variable V : senv.

  Lemma start_wf ds : swf (sstart ds).
  Proof. split; [intros r n l []|constructor]. Qed.
  Lemma history_wf n p s : swf s -> srel s (shistory V n p s) /\ swf (shistory V n p s).
  Proof. intros W. exact (srun_ok V _ (exec_sok V n) p s W). Qed.
  Lemma start_history n p ds : swf (shistory V n p (sstart ds)) /\ s_open (shistory V n p (sstart ds)) = [].
  Proof. destruct (history_wf n p _ (start_wf ds)) as (R & W). split; [exact W|]. apply (sr_open _ _ R). Qed.

  Lemma new_name n c name a s l s1 : se_reg V c <> None -> sexec V n (SNew c name a) s = (Ok l, s1) -> name <> IBad.
  Proof.
    destruct n; [discriminate|]. cbn [sexec s_step]. unfold s_new. destruct (se_reg V c); [|congruence].
    destruct name; discriminate.
  Qed.
  Lemma new_found n c name a s r l : se_reg V c = Some r -> name <> IBad -> lookup (s_reg s) (r, name) = Some l ->
    sexec V (S n) (SNew c name a) s = (Ok l, s).
  Proof. intros Hr Hn Hl. cbn [sexec s_step]. unfold s_new. rewrite Hr. destruct name; [| |congruence]; now rewrite Hl. Qed.

  Lemma deser_found n c d f s r name l : se_reg V c = Some r -> names s d name -> name <> IBad -> name <> INone ->
    lookup (s_reg s) (r, name) = Some l -> fst (sexec V (S n) (SDeser c d f) s) = Ok l /\ s_reg (snd (sexec V (S n) (SDeser c d f) s)) = s_reg s.
  Proof.
    intros Hr (v & Hv & Hid) Hb Hn Hl. cbn [sexec s_step]. unfold s_deser. rewrite Hv, Hr.
    assert (Hid' : match sd_id v with Some i => i | None => match sd_name v with Some i => i | None => INone end end = name).
    { destruct (sd_id v); [exact Hid|]. now rewrite Hid. }
    cbv zeta. rewrite Hid'. simpl. rewrite Hl. destruct name; try congruence. auto.
  Qed.

  Lemma registered_stays n p s k l : swf s -> s_open s = [] -> lookup (s_reg s) k = Some l ->
    lookup (s_reg (shistory V n p s)) k = Some l.
  Proof. intros W O H. destruct (history_wf n p s W) as (R & _). apply (sr_keep _ _ R); auto. rewrite O. intros []. Qed.

  Lemma new_lookup n c name a s l s1 r : swf s -> se_reg V c = Some r -> sexec V n (SNew c name a) s = (Ok l, s1) ->
    lookup (s_reg s1) (r, name) = Some l /\ swf s1 /\ srel s s1.
  Proof.
    intros W Hr H. destruct (exec_sok V n (SNew c name a) s W) as (R & W' & P). rewrite H in *. simpl in *.
    split; [eapply P; eauto|]. auto.
  Qed.

  Lemma same_new ds n0 p0 n c name a l s1 r n2 p n3 c' : let s := shistory V n0 p0 (sstart ds) in
    se_reg V c = Some r -> se_reg V c' = Some r ->
    sexec V n (SNew c name a) s = (Ok l, s1) ->
    (forall a', sexec V (S n3) (SNew c' name a') (shistory V n2 p s1) = (Ok l, shistory V n2 p s1)) /\
    (forall d f, names (shistory V n2 p s1) d name -> name <> INone ->
       fst (sexec V (S n3) (SDeser c' d f) (shistory V n2 p s1)) = Ok l).
  Proof.
    intros s Hr Hr' H. destruct (start_history n0 p0 ds) as (W & O). fold s in W, O.
    destruct (new_lookup _ _ _ _ _ _ _ _ W Hr H) as (L & W1 & R1).
    assert (O1 : s_open s1 = []) by (rewrite (sr_open _ _ R1); exact O).
    pose proof (registered_stays n2 p s1 _ _ W1 O1 L) as L2.
    assert (Hb : name <> IBad) by (eapply new_name; [|exact H]; congruence).
    split.
    - intros a'. now apply new_found with (r := r).
    - intros d f Hd Hn. eapply deser_found; eauto.
  Qed.

  Lemma deser_lookup n c d f s l s1 r name k : swf s -> s_open s = [] ->
    se_reg V c = Some r -> names s d name ->
    (forall v, nth_error (s_dicts s) d = Some v -> se_class V c (sd_cls v) f = Ok k) ->
    se_reg V k = Some r -> se_name V k name = Ok (Some name) ->
    sexec V n (SDeser c d f) s = (Ok l, s1) ->
    lookup (s_reg s1) (r, name) = Some l /\ name <> IBad /\ swf s1 /\ s_open s1 = [].
  Proof.
    intros W O Hr (v & Hv & Hid) Hc Hk Hnm H.
    destruct n; [discriminate|]. destruct (exec_sok V (S n) (SDeser c d f) s W) as (R & W' & _).
    rewrite H in R, W'. cbn [snd] in R, W'.
    assert (O1 : s_open s1 = []) by (rewrite (sr_open _ _ R); exact O).
    cbn [sexec s_step] in H. unfold s_deser in H. rewrite Hv, Hr in H.
    assert (Hid' : match sd_id v with Some i => i | None => match sd_name v with Some i => i | None => INone end end = name).
    { destruct (sd_id v); [exact Hid|]. now rewrite Hid. }
    cbv zeta in H. rewrite Hid' in H.
    set (s0 := put_dicts _ s) in *.
    assert (W0 : swf s0) by now apply swf_dicts.
    assert (Hb : name <> IBad) by (intros ->; discriminate H).
    assert (Hi : name <> INone) by (intros ->; discriminate H).
    assert (Eq : forall A (x y z : A), match name with INone => x | IKey _ => y | IBad => z end = y) by (destruct name; congruence).
    rewrite Eq in H. clear Eq. simpl (s_reg s0) in H.
    destruct (lookup (s_reg s) (r, name)) as [l0|] eqn:El.
    { injection H as <- <-. auto. }
    split; [|auto]. pose proof (exec_sok V n) as Hrec.
    unfold sbind at 1 in H. set (v' := SD None (Some name) (sd_cls v) (sd_rest v)) in *.
    destruct (super_deser V (sexec V n) c v' name f s0) as [[l1|e] s2] eqn:Ed; [|discriminate].
    assert (K : lookup (s_reg s2) (r, name) = Some l1 /\ swf s2 /\ s_open s2 = []).
    { unfold super_deser in Ed. unfold v' in Ed at 1. cbn [sd_cls] in Ed. rewrite (Hc v Hv) in Ed. unfold sbind at 1 in Ed.
      destruct (srun_ok V _ Hrec (se_state V k v' f) s0 W0) as (R3 & W3).
      destruct (srun (sexec V n) (se_state V k v' f) s0) as [[u|e] s3]; simpl in R3, W3; [|discriminate].
      rewrite Hnm in Ed. unfold sbind in Ed.
      destruct (Hrec (SNew k name (sd_rest v')) s3 W3) as (R4 & W4 & P4).
      destruct (sexec V n (SNew k name (sd_rest v')) s3) as [[l4|e] s4] eqn:E4; [|discriminate].
      cbn [snd fst] in *. specialize (P4 _ _ _ _ _ eq_refl Hk eq_refl).
      destruct (srun_ok V _ Hrec (se_after V k l4 v' f) s4 W4) as (R5 & W5).
      destruct (srun (sexec V n) (se_after V k l4 v' f) s4) as [[u'|e] s5]; simpl in R5, W5; [|discriminate].
      injection Ed as <- <-.
      assert (O4 : s_open s4 = []) by (rewrite (sr_open _ _ R4), (sr_open _ _ R3); exact O).
      split; [|split; [exact W5|rewrite (sr_open _ _ R5); exact O4]].
      apply (sr_keep _ _ R5); auto. rewrite O4. intros []. }
    destruct K as (L & W2 & O2).
    assert (Z : forall s3, srel s2 s3 -> lookup (s_reg s3) (r, name) = Some l1).
    { intros s3 R3. apply (sr_keep _ _ R3); auto. rewrite O2. intros []. }
    destruct (sd_name v) as [nm|]; [|injection H as <- <-; exact L].
    destruct (se_truthy V nm); [|injection H as <- <-; exact L].
    unfold sbind in H. destruct (srun_ok V _ Hrec (se_rename V l1 nm) s2 W2) as (R3 & W3).
    destruct (srun (sexec V n) (se_rename V l1 nm) s2) as [[u|e] s3]; [|discriminate].
    injection H as <- <-. now apply Z.
  Qed.

  Lemma same_deser ds n0 p0 n c d f name l s1 r k n2 p n3 c' : let s := shistory V n0 p0 (sstart ds) in
    se_reg V c = Some r -> se_reg V c' = Some r -> names s d name ->
    (forall v, nth_error (s_dicts s) d = Some v -> se_class V c (sd_cls v) f = Ok k) ->
    se_reg V k = Some r -> se_name V k name = Ok (Some name) ->
    sexec V n (SDeser c d f) s = (Ok l, s1) ->
    (forall a', sexec V (S n3) (SNew c' name a') (shistory V n2 p s1) = (Ok l, shistory V n2 p s1)) /\
    (forall d' f', names (shistory V n2 p s1) d' name -> name <> INone ->
       fst (sexec V (S n3) (SDeser c' d' f') (shistory V n2 p s1)) = Ok l).
  Proof.
    intros s Hr Hr' Hd Hc Hk Hn H. destruct (start_history n0 p0 ds) as (W & O). fold s in W, O.
    destruct (deser_lookup _ _ _ _ _ _ _ _ _ _ W O Hr Hd Hc Hk Hn H) as (L & Hb & W1 & O1).
    pose proof (registered_stays n2 p s1 _ _ W1 O1 L) as L2.
    split.
    - intros a'. now apply new_found with (r := r).
    - intros d' f' Hd' Hn'. eapply deser_found; eauto.
  Qed.

  Lemma nodup_snd {A B} (t : list (A * B)) k k' l : NoDup (map snd t) -> In (k, l) t -> In (k', l) t -> k = k'.
  Proof.
    induction t as [|[k0 l0] t IH]; simpl; [intros _ []|]. intros Hnd. inversion Hnd as [|x y Hx Hy]; subst.
    intros [H1|H1] [H2|H2]; [congruence| | |auto].
    - injection H1 as -> ->. destruct Hx. apply in_map_iff. now exists (k', l).
    - injection H2 as -> ->. destruct Hx. apply in_map_iff. now exists (k, l).
  Qed.

  Lemma distinct ds n0 p0 n c name a l s1 r n2 p n3 c' name' a' l' s3 r' : let s := shistory V n0 p0 (sstart ds) in
    se_reg V c = Some r -> se_reg V c' = Some r' ->
    sexec V n (SNew c name a) s = (Ok l, s1) ->
    sexec V n3 (SNew c' name' a') (shistory V n2 p s1) = (Ok l', s3) ->
    (r, name) <> (r', name') -> l <> l'.
  Proof.
    intros s Hr Hr' H H' Hne <-. destruct (start_history n0 p0 ds) as (W & O). fold s in W, O.
    destruct (new_lookup _ _ _ _ _ _ _ _ W Hr H) as (L & W1 & R1).
    destruct (history_wf n2 p s1 W1) as (R2 & W2).
    destruct (new_lookup _ _ _ _ _ _ _ _ W2 Hr' H') as (L3 & W3 & R3).
    apply Hne. eapply nodup_snd; [apply (wf_once _ W3)| |apply lookup_in; exact L3].
    destruct (sr_new _ _ R2) as (x & Hx & _). destruct (sr_new _ _ R3) as (y & Hy & _).
    rewrite Hy, Hx. rewrite !in_app_iff. right. right. now apply lookup_in.
  Qed.

  (** the instance a construction allocates, if it fails *)
  Lemma failed_new ds n0 p0 n c name a e s1 r n2 p : let s := shistory V n0 p0 (sstart ds) in
    se_reg V c = Some r -> sexec V n (SNew c name a) s = (Exc e, s1) ->
    s_objs s1 <> s_objs s -> forall k l, In (k, l) (s_reg (shistory V n2 p s1)) -> l <> length (s_objs s).
  Proof.
    intros s Hr H Hd k l. destruct (start_history n0 p0 ds) as (W & O). fold s in W, O.
    destruct n; [injection H as _ <-; congruence|].
    destruct (exec_sok V (S n) (SNew c name a) s W) as (R & W1 & _). rewrite H in R, W1. cbn [snd] in R, W1.
    cbn [sexec s_step] in H. unfold s_new in H. rewrite Hr in H.
    assert (K : name = IBad \/ name <> IBad) by (destruct name; auto; right; discriminate).
    destruct K as [->|Hnb]; [injection H as _ <-; congruence|].
    assert (Eq : forall A (x y : A), match name with IBad => x | _ => y end = y) by (destruct name; congruence).
    rewrite Eq in H. clear Eq. destruct (lookup (s_reg s) (r, name)) as [l0|] eqn:El; [discriminate|].
    match type of H with (let (_, _) := ?x in _) = _ => destruct x as [res s2] eqn:Eb end.
    destruct (build_ok V _ c name a s r (exec_sok V n) W El res s2 Eb) as (R2 & W2 & (new & N & F) & _).
    destruct res as [l0|e0]; [discriminate|]. injection H as _ <-.
    destruct (history_wf n2 p _ W1) as (R3 & W3). destruct (sr_new _ _ R3) as (y & Hy & Fy).
    assert (Hlen : length (s_objs s) < length (s_objs (put_open (s_open s) s2))).
    { unfold sbind in Eb. simpl in Eb. simpl.
      set (sa := put_objs (s_objs s ++ [SO c None]) (put_open ((r, name) :: s_open s) s)) in *.
      assert (La : length (s_objs sa) = S (length (s_objs s))) by (unfold sa; simpl; rewrite app_length; simpl; lia).
      assert (Wa : swf sa).
      { apply (swf_alloc (put_open ((r, name) :: s_open s) s) c). destruct W. split; auto. }
      destruct (srun_ok V _ (exec_sok V n) (se_begin V c (length (s_objs s)) name) sa Wa) as (R4 & W4).
      destruct (srun (sexec V n) (se_begin V c (length (s_objs s)) name) sa) as [[u|e'] sb]; simpl in R4, W4.
      2:{ injection Eb as _ <-. pose proof (sr_len _ _ R4). lia. }
      unfold set_id in Eb. destruct (nth_error (s_objs sb) (length (s_objs s))) as [o|] eqn:Eo.
      2:{ injection Eb as _ <-. pose proof (sr_len _ _ R4). lia. }
      simpl in Eb. set (sc := put_objs (replace_at (length (s_objs s)) (SO (so_cls o) (Some name)) (s_objs sb)) sb) in *.
      assert (Lc : length (s_objs sb) = length (s_objs sc)) by (unfold sc; simpl; now rewrite replace_at_length).
      assert (Wc : swf sc).
      { destruct W4 as [I1 I2]. split; auto. unfold sc. simpl. intros rr nn l1 Hk. destruct (I1 rr nn l1 Hk) as (c1 & Hc1).
        exists c1. rewrite replace_at_other; auto. intros <-.
        destruct (sr_new _ _ R4) as (z & Hz & Fz). rewrite Hz in Hk. apply in_app_iff in Hk as [Hk|Hk].
        - apply Fz in Hk. lia.
        - destruct (wf_ids _ W rr nn _ Hk) as (c2 & Hc2).
          assert (length (s_objs s) < length (s_objs s)) by (apply nth_error_Some; congruence). lia. }
      destruct (srun_ok V _ (exec_sok V n) (se_init V c (length (s_objs s)) a) sc Wc) as (R5 & W5).
      pose proof (sr_len _ _ R4). pose proof (sr_len _ _ R5).
      destruct (srun (sexec V n) (se_init V c (length (s_objs s)) a) sc) as [[u'|e'] sd]; injection Eb as _ <-; simpl in *; lia. }
    rewrite Hy, N. rewrite !in_app_iff. intros [Hi|[Hi|Hi]].
    - apply Fy in Hi. lia.
    - apply F in Hi. lia.
    - destruct k as [rr nn]. destruct (wf_ids _ W rr nn _ Hi) as (c2 & Hc2).
      assert (l < length (s_objs s)) by (apply nth_error_Some; congruence). lia.
  Qed.

  Lemma srun_quiet rec p s : quiet p -> snd (srun rec p s) = s.
  Proof. destruct p; simpl; auto. intros []. Qed.
  Lemma failed_quiet n c name a s e s1 :
    (forall l, quiet (se_begin V c l name)) -> (forall l, quiet (se_init V c l a)) ->
    sexec V n (SNew c name a) s = (Exc e, s1) -> s_reg s1 = s_reg s.
  Proof.
    intros Q1 Q2 H. destruct n; [injection H as _ <-; reflexivity|]. cbn [sexec s_step] in H. unfold s_new in H.
    assert (K : forall m : SM unit, (exists p, quiet p /\ m = srun (sexec V n) p) -> forall s, s_reg (snd (m s)) = s_reg s).
    { intros m (p & Qp & ->) s0. now rewrite srun_quiet. }
    assert (KB : forall l s0, s_reg (snd (srun (sexec V n) (se_begin V c l name) s0)) = s_reg s0) by (intros; apply K; eauto).
    assert (KI : forall l s0, s_reg (snd (srun (sexec V n) (se_init V c l a) s0)) = s_reg s0) by (intros; apply K; eauto).
    destruct (se_reg V c) as [r|].
    - assert (B : name = IBad \/ name <> IBad) by (destruct name; auto; right; discriminate).
      destruct B as [->|Hnb]; [injection H as _ <-; reflexivity|].
      assert (Eq : forall A (x y : A), match name with IBad => x | _ => y end = y) by (destruct name; congruence).
      rewrite Eq in H. clear Eq. destruct (lookup (s_reg s) (r, name)) as [l0|]; [discriminate|].
      unfold sbind in H. simpl in H. set (sa := put_objs _ _) in H.
      specialize (KB (length (s_objs s)) sa). destruct (srun _ _ sa) as [[u|e'] sb]; simpl in KB.
      2:{ injection H as _ <-. simpl. now rewrite KB. }
      unfold set_id in H. destruct (nth_error (s_objs sb) (length (s_objs s))) as [o|].
      2:{ injection H as _ <-. simpl. now rewrite KB. }
      simpl in H. set (sc := put_objs _ sb) in H. specialize (KI (length (s_objs s)) sc).
      destruct (srun _ _ sc) as [[u'|e'] sd]; simpl in KI; [discriminate|].
      injection H as _ <-. simpl. now rewrite KI, KB.
    - unfold sbind in H. simpl in H. set (sa := put_objs _ _) in H.
      specialize (KB (length (s_objs s)) sa). destruct (srun _ _ sa) as [[u|e'] sb]; simpl in KB.
      2:{ injection H as _ <-. simpl. now rewrite KB. }
      specialize (KI (length (s_objs s)) sb).
      destruct (srun _ _ sb) as [[u'|e'] sd]; simpl in KI; [discriminate|]. injection H as _ <-. now rewrite KI, KB.
  Qed.

  Lemma round_trip ds n0 p0 n c name a l s1 r n2 p n3 rest d s3 c' f n4 : let s := shistory V n0 p0 (sstart ds) in
    se_reg V c = Some r -> se_reg V c' = Some r -> name <> INone ->
    sexec V n (SNew c name a) s = (Ok l, s1) ->
    sexec V n3 (SSer l rest) (shistory V n2 p s1) = (Ok d, s3) ->
    names s3 d name /\ fst (sexec V (S n4) (SDeser c' d f) s3) = Ok l.
  Proof.
    intros s Hr Hr' Hn H H3. destruct (start_history n0 p0 ds) as (W & O). fold s in W, O.
    destruct (new_lookup _ _ _ _ _ _ _ _ W Hr H) as (L & W1 & R1).
    assert (O1 : s_open s1 = []) by (rewrite (sr_open _ _ R1); exact O).
    pose proof (registered_stays n2 p s1 _ _ W1 O1 L) as L2.
    destruct (history_wf n2 p s1 W1) as (R2 & W2). set (s2 := shistory V n2 p s1) in *.
    destruct (wf_ids _ W2 _ _ _ (lookup_in _ _ _ L2)) as (c0 & Hc0).
    destruct n3; [discriminate|]. cbn [sexec s_step] in H3. unfold s_ser in H3. rewrite Hc0 in H3. injection H3 as <- <-.
    assert (Hd : names (put_dicts (s_dicts s2 ++ [SD (Some name) (sd_name rest) (sd_cls rest) (sd_rest rest)]) s2) (length (s_dicts s2)) name).
    { eexists. simpl. rewrite nth_error_app2, Nat.sub_diag by lia. split; reflexivity. }
    split; [exact Hd|]. eapply deser_found; eauto. eapply new_name; [|exact H]; congruence.
  Qed.
End Results.

(** * What is rejected *)
Lemma rejected_new V n c r a s : se_reg V c = Some r -> sexec V (S n) (SNew c IBad a) s = (Exc ExType, s).
Proof. intros H. cbn [sexec s_step]. unfold s_new. now rewrite H. Qed.
Lemma rejected_deser V n c f s :
  (forall d, nth_error (s_dicts s) d = None -> sexec V (S n) (SDeser c d f) s = (Exc ExValue, s)) /\
  (forall d, names s d INone \/ (exists v, nth_error (s_dicts s) d = Some v /\ sd_id v = None /\ sd_name v = None) ->
     exists s', sexec V (S n) (SDeser c d f) s = (Exc ExValue, s') /\ s_reg s' = s_reg s /\ s_objs s' = s_objs s) /\
  (forall d, names s d IBad -> exists s', sexec V (S n) (SDeser c d f) s = (Exc ExType, s') /\ s_reg s' = s_reg s /\ s_objs s' = s_objs s).
Proof.
  cbn [sexec s_step]. unfold s_deser. split; [|split].
  - intros d ->. reflexivity.
  - intros d [(v & -> & Hv)|(v & -> & H1 & H2)].
    + destruct (sd_id v) as [i|]; [subst i|rewrite Hv]; eexists; (split; [reflexivity|split; reflexivity]).
    + rewrite H1, H2. eexists; (split; [reflexivity|split; reflexivity]).
  - intros d (v & -> & Hv). destruct (sd_id v) as [i|]; [subst i|rewrite Hv]; eexists; (split; [reflexivity|split; reflexivity]).
Qed.
(** a dictionary whose class has no 'name' to construct with *)
Lemma deser_without_name V n c f s d x r k : se_reg V c = Some r -> names s d (IKey x) -> lookup (s_reg s) (r, IKey x) = None ->
  (forall v, nth_error (s_dicts s) d = Some v -> se_class V c (sd_cls v) f = Ok k) -> (forall v, se_state V k v f = SRet) ->
  se_name V k (IKey x) = Ok None ->
  (forall r', se_reg V k = Some r' -> exists s', sexec V (S n) (SDeser c d f) s = (Exc ExType, s') /\ s_reg s' = s_reg s /\ s_objs s' = s_objs s) /\
  (se_reg V k = None -> (forall l v, se_after V k l v f = SRet) -> (forall l y, se_rename V l y = SRet) ->
     exists v s', nth_error (s_dicts s) d = Some v /\ s_reg s' = s_reg s /\ s_objs s' = s_objs s /\
       sexec V (S n) (SDeser c d f) s = sexec V n (SNew k INone (sd_rest v)) s').
Proof.
  intros Hr (v & Hv & Hid) Hl Hk Hs Hn. specialize (Hk v Hv). cbn [sexec s_step]. unfold s_deser. rewrite Hv.
  assert (E : match sd_id v with Some i => i | None => match sd_name v with Some i => i | None => INone end end = IKey x).
  { destruct (sd_id v); [exact Hid|]. now rewrite Hid. }
  rewrite E, Hr. cbn [put_dicts s_reg]. rewrite Hl. unfold super_deser. cbn [sd_cls sd_rest]. rewrite Hk, Hs, Hn. split.
  - intros r' ->. eexists. split; [reflexivity|]. split; reflexivity.
  - intros -> Ha Hre. eexists v, _. split; [reflexivity|]. split; [|split; [|
      unfold sbind; cbn [srun sret]; destruct (sexec V n (SNew k INone (sd_rest v)) _) as [[l|e] s'] eqn:Ee;
      [|exact (eq_sym Ee)]; rewrite Ha; cbn [srun sret]; destruct (sd_name v) as [y|]; [|exact (eq_sym Ee)];
      destruct (se_truthy V y); [|exact (eq_sym Ee)]; rewrite Hre; cbn [srun sret]; exact (eq_sym Ee)]]; reflexivity.
Qed.
