(** Lemmas behind the theorems on the scaling of vectors. *)
From Verif Require Import Vectors VectorsSpec ContentsSpec ContentsFacts FilesFacts OptionsSpec ArraysFacts.
From Coq Require Import Lia.
Local Open Scope string_scope.
Local Open Scope list_scope.
Local Open Scope nat_scope.

(** ** The option *)
Lemma set_length_ok v f : set_length v = Ok f <-> positive_number v (Some f).
Proof.
  split.
  - unfold set_length. destruct v as [| |[|]|z|g| | | | | | | | | |]; cbn [as_num]; try discriminate.
    + change (match fofZ 1 with Some f => Ok f | None => Exc ExOverflow end = Ok f -> positive_number (VBool true) (Some f)).
      destruct (fofZ 1) eqn:E; [|discriminate]. intros H. injection H as <-. rewrite <- E. constructor.
    + unfold nle, ncmp, fcmpZ, fzero, option_map, py_float_num. destruct (0 ?= z)%Z eqn:C; cbn [CompOpp]; try discriminate.
      apply Z.compare_lt_iff in C. destruct (fofZ z) eqn:E; [|discriminate]. intros H. injection H as <-. rewrite <- E. now constructor.
    + destruct g as [[|]|[|]| |[|] m e]; cbn; intros H; try discriminate; injection H as <-; constructor.
  - intros H. remember (Some f) as x eqn:Ex. destruct H; unfold set_length, as_num, nle, ncmp, fcmpZ, fzero, option_map, py_float_num; try (injection Ex as <-; reflexivity).
    + apply Z.compare_lt_iff in H. rewrite H, Ex. reflexivity.
Qed.
Lemma set_length_overflow v : set_length v = Exc ExOverflow <-> positive_number v None.
Proof.
  split.
  - unfold set_length. destruct v as [| |[|]|z|g| | | | | | | | | |]; cbn [as_num]; try discriminate.
    + unfold nle, ncmp, fcmpZ, fzero, option_map, py_float_num. destruct (0 ?= z)%Z eqn:C; cbn [CompOpp]; try discriminate.
      apply Z.compare_lt_iff in C. destruct (fofZ z) eqn:E; [discriminate|]. intros _. rewrite <- E. now constructor.
    + destruct g as [[|]|[|]| |[|] m e]; cbn; discriminate.
  - intros H. remember (@None float) as x eqn:Ex. destruct H; unfold set_length, as_num, nle, ncmp, fcmpZ, fzero, option_map, py_float_num; try discriminate.
    apply Z.compare_lt_iff in H. rewrite H, Ex. reflexivity.
Qed.
Lemma set_length_error v e : set_length v = Exc e -> e = ExType \/ e = ExOverflow.
Proof.
  unfold set_length, py_float_num. destruct (as_num v) as [n|]; [|intros H; injection H; auto].
  destruct (nle _ _); [intros H; injection H; auto|]. destruct n; [|discriminate]. destruct (fofZ z); [discriminate|]. intros H. injection H; auto.
Qed.

Section Vectors.
  Variable k : akind.
  Variable o : aopts.
  Variable wrap : vheap -> vin -> res nda.
  Variable scale : nda -> float -> scaled.
  Notation validate := (vec_validate k o wrap scale).
  Notation vassert := (vec_assert k o wrap scale).

  Lemma fits_iff a : vec_fits k o a = true <-> vector_of k o a.
  Proof.
    unfold vec_fits, vector_of. rewrite !Bool.andb_true_iff, akind_eqb_eq. split.
    - intros [[H1 H2] H3]. split; [exact H1|]. split; [now destruct (n_type a)|]. intros l Hl. rewrite Hl in H3.
      apply existsb_exists in H3 as (s & Hs & H3). exists s. split; [exact Hs|]. now apply shape_ok_iff.
    - intros (H1 & H2 & H3). rewrite H2. split; [auto|]. destruct (shape_opt k o) as [l|]; [|reflexivity].
      destruct (H3 l eq_refl) as (s & Hs & Hf). apply existsb_exists. exists s. split; [exact Hs|]. now apply shape_ok_iff.
  Qed.

  Lemma fits_not a : vec_fits k o a = false <-> ~ vector_of k o a.
  Proof. rewrite <- fits_iff. now destruct (vec_fits k o a). Qed.

  (** ** coerce: a copy is scaled *)
  Lemma coerced len v h r h' : ao_coerce o = true -> validate len v h = (r, h') ->
    (forall j, j < length h -> nth_error h' j = nth_error h j) /\
    ((v = VNot /\ r = VecErr /\ h' = h) \/
     (exists e, v <> VNot /\ wrap h v = Exc e /\ r = VecExc e /\ h' = h) \/
     (exists a, v <> VNot /\ wrap h v = Ok a /\
        (if vec_fits k o a
         then match len with
              | None => r = VecOk (length h) /\ h' = h ++ [a]
              | Some f => match scale a f with
                          | SDone b => r = VecOk (length h) /\ h' = h ++ [b]
                          | SZero b => r = VecZero /\ h' = h ++ [b]
                          | SRaises e b => r = VecExc e /\ h' = h ++ [b]
                          end
              end
         else r = VecErr /\ h' = h ++ [a]))).
  Proof.
    intros Hc H. unfold vec_validate, vec_taken in H. rewrite Hc in H.
    assert (A : forall x, (forall j, j < length h -> nth_error (h ++ [x]) j = nth_error h j)) by (intros x j Hj; now apply nth_error_app1).
    assert (B : forall a b, set_at (h ++ [a]) (length h) b = h ++ [b]).
    { intros a b. clear. induction h as [|x l IH]; simpl; [reflexivity|]. now rewrite IH. }
    assert (P : v = VNot \/ v <> VNot) by (destruct v; auto; right; discriminate). destruct P as [->|P].
    { injection H as <- <-. auto. }
    assert (H0 : (let (t, h1) := (match wrap h v with Ok a => (Ok (Some (length h)), h ++ [a]) | Exc e => (Exc e, h) end : res (option nat) * vheap) in
      match t with
      | Exc e => (VecExc e, h1)
      | Ok None => (VecErr, h1)
      | Ok (Some i) => match nth_error h1 i with None => (VecErr, h1) | Some a => if negb (vec_fits k o a) then (VecErr, h1) else
          match len with None => (VecOk i, h1) | Some f => match scale a f with SDone b => (VecOk i, set_at h1 i b) | SZero b => (VecZero, set_at h1 i b) | SRaises e b => (VecExc e, set_at h1 i b) end end end
      end) = (r, h')).
    { destruct v; try congruence; destruct (wrap h _); exact H. }
    clear H. destruct (wrap h v) as [a|e]; [|injection H0 as <- <-; split; [auto|right; left; eauto]].
    rewrite nth_error_app2, Nat.sub_diag in H0 by lia. cbn [nth_error] in H0.
    destruct (vec_fits k o a) eqn:F; cbn [negb] in H0.
    - destruct len as [f|].
      + destruct (scale a f) as [b|b|e b] eqn:S; injection H0 as <- <-; rewrite B; (split; [apply A|]); right; right; exists a; rewrite F, S; auto 6.
      + injection H0 as <- <-. split; [apply A|]. right. right. exists a. rewrite F. auto 6.
    - injection H0 as <- <-. split; [apply A|]. right. right. exists a. rewrite F. auto 6.
  Qed.

  (** ** no coerce: the array itself is scaled *)
  Lemma in_place len v h r h' : ao_coerce o = false -> validate len v h = (r, h') ->
    length h' = length h /\ (forall j, v <> VArr j -> nth_error h' j = nth_error h j) /\
    ((forall i, v <> VArr i) -> r = VecErr) /\
    (forall i a, v = VArr i -> nth_error h i = Some a ->
       if vec_fits k o a
       then match len with
            | None => r = VecOk i /\ h' = h
            | Some f => match scale a f with
                        | SDone b => r = VecOk i /\ nth_error h' i = Some b
                        | SZero b => r = VecZero /\ nth_error h' i = Some b
                        | SRaises e b => r = VecExc e /\ nth_error h' i = Some b
                        end
            end
       else r = VecErr /\ h' = h).
  Proof.
    intros Hc H. unfold vec_validate, vec_taken in H. rewrite Hc in H.
    destruct v as [i|n|]; try (injection H as <- <-; repeat split; auto; intros; discriminate).
    destruct (nth_error h i) as [a|] eqn:E.
    2:{ injection H as <- <-. split; [reflexivity|]. split; [auto|]. split; [auto|]. intros j b Hj Hb. congruence. }
    assert (Li : i < length h) by (apply nth_error_Some; congruence).
    assert (O : forall b j, VArr i <> VArr j -> nth_error (set_at h i b) j = nth_error h j) by (intros b j Hj; apply set_at_other; congruence).
    destruct (vec_fits k o a) eqn:F; cbn [negb] in H.
    - destruct len as [f|].
      + destruct (scale a f) as [b|b|e b] eqn:S; injection H as <- <-; (split; [apply set_at_length|split; [apply O|split; [intros X; destruct (X i); reflexivity|]]]);
          intros j c Hj Hc'; injection Hj as <-; assert (c = a) as -> by congruence; rewrite F, S; (split; [reflexivity|now apply set_at_same]).
      + injection H as <- <-. split; [reflexivity|]. split; [auto|]. split; [intros X; destruct (X i); reflexivity|].
        intros j c Hj Hc'. injection Hj as <-. assert (c = a) as -> by congruence. rewrite F. auto.
    - injection H as <- <-. split; [reflexivity|]. split; [auto|]. split; [intros X; destruct (X i); reflexivity|].
      intros j c Hj Hc'. injection Hj as <-. assert (c = a) as -> by congruence. rewrite F. auto.
  Qed.

  (** ** in terms of the specification *)
  Lemma coerced_spec len v h r h' : ao_coerce o = true -> validate len v h = (r, h') ->
    match v with
    | VNot => r = VecErr /\ h' = h
    | _ => match wrap h v with
           | Exc e => r = VecExc e /\ h' = h
           | Ok a => exists b, h' = h ++ [b] /\ outcome k o scale len (length h) a r b
           end
    end.
  Proof.
    intros Hc H. destruct (coerced _ _ _ _ _ Hc H) as [_ [(-> & -> & ->)|[(e & Hv & Hw & -> & ->)|(a & Hv & Hw & X)]]].
    - auto.
    - destruct v; try congruence; rewrite Hw; auto.
    - assert (Y : exists b, h' = h ++ [b] /\ outcome k o scale len (length h) a r b).
      { destruct (vec_fits k o a) eqn:F.
        - apply fits_iff in F. destruct len as [f|].
          + destruct (scale a f) as [b|b|e b] eqn:S; destruct X as [-> ->]; exists b; (split; [reflexivity|]).
            * now apply oc_scaled with f.
            * now apply oc_zero with f.
            * now apply oc_raises with f.
          + destruct X as [-> ->]. exists a. split; [reflexivity|]. now constructor.
        - apply fits_not in F. destruct X as [-> ->]. exists a. split; [reflexivity|]. now constructor. }
      destruct v; try congruence; rewrite Hw; exact Y.
  Qed.
  Lemma in_place_spec len v h r h' : ao_coerce o = false -> validate len v h = (r, h') ->
    match v with
    | VArr i => forall a, nth_error h i = Some a ->
        exists b, outcome k o scale len i a r b /\ nth_error h' i = Some b /\ length h' = length h /\
          forall j, j <> i -> nth_error h' j = nth_error h j
    | _ => r = VecErr /\ h' = h
    end.
  Proof.
    intros Hc H. destruct v as [i|n|]; [|unfold vec_validate, vec_taken in H; rewrite Hc in H; injection H as <- <-; auto..|injection H as <- <-; auto].
    destruct (in_place _ _ _ _ _ Hc H) as (L & O & _ & X). intros a Ha. specialize (X i a eq_refl Ha).
    assert (O' : forall j, j <> i -> nth_error h' j = nth_error h j) by (intros j Hj; apply O; congruence).
    destruct (vec_fits k o a) eqn:F.
    - apply fits_iff in F. destruct len as [f|].
      + destruct (scale a f) as [b|b|e b] eqn:S; destruct X as [-> X]; exists b; (split; [|auto]).
        * now apply oc_scaled with f.
        * now apply oc_zero with f.
        * now apply oc_raises with f.
      + destruct X as [-> ->]. exists a. split; [now constructor|auto].
    - apply fits_not in F. destruct X as [-> ->]. exists a. split; [now constructor|auto].
  Qed.
  Lemma outcome_fun len i a r b r' b' : outcome k o scale len i a r b -> outcome k o scale len i a r' b' -> r = r' /\ b = b'.
  Proof. intros [] [] ; split; congruence. Qed.
  Lemma assert_spec len i h a b r h' : nth_error h i = Some a -> (ao_coerce o = true -> wrap h (VArr i) = Ok b) ->
    (ao_coerce o = false -> b = a) ->
    validate len (VArr i) h = (r, h') ->
    exists c, outcome k o scale len (if ao_coerce o then length h else i) b r c /\
    vassert len i h = (match r with
                       | VecOk _ => if array_equal (if ao_coerce o then a else c) c then Ok true else Exc (ExValidation [])
                       | VecExc e => Exc e
                       | _ => Exc (ExValidation [])
                       end, h').
  Proof.
    intros Ha Hw Hb H. assert (Li : i < length h) by (apply nth_error_Some; congruence).
    unfold vec_assert. rewrite H. destruct (ao_coerce o) eqn:Hc.
    - pose proof (coerced_spec _ _ _ _ _ Hc H) as X. cbn in X. rewrite Hw in X by reflexivity. destruct X as (c & -> & X). exists c. split; [exact X|].
      destruct X; try reflexivity; rewrite (nth_error_app1 h _ Li), Ha, nth_error_app2, Nat.sub_diag by lia; reflexivity.
    - pose proof (in_place_spec _ _ _ _ _ Hc H) as X. cbn in X. rewrite Hb by reflexivity. destruct (X a Ha) as (c & Hoc & Hi & _ & _). exists c. split; [exact Hoc|].
      destruct Hoc; try reflexivity; rewrite Hi; reflexivity.
  Qed.
  Lemma assert_copy len i h a b r h' : ao_coerce o = true -> nth_error h i = Some a -> wrap h (VArr i) = Ok b ->
    vassert len i h = (r, h') ->
    exists c q, h' = h ++ [c] /\ outcome k o scale len (length h) b q c /\
      (r = Ok true <-> q = VecOk (length h) /\ array_equal a c = true) /\
      (r <> Ok true -> r = Exc (ExValidation []) \/ exists e, q = VecExc e /\ r = Exc e).
  Proof.
    intros Hc Ha Hw H. destruct (validate len (VArr i) h) as [q h1] eqn:V.
    destruct (assert_spec len i h a b q h1 Ha) as (c & Hoc & X); try congruence. rewrite Hc in Hoc, X. rewrite X in H. injection H as <- <-.
    pose proof (coerced_spec _ _ _ _ _ Hc V) as Y. cbn in Y. rewrite Hw in Y. destruct Y as (c' & -> & Y).
    destruct (outcome_fun _ _ _ _ _ _ _ Hoc Y) as [_ ->].
    exists c', q. split; [reflexivity|]. split; [exact Y|].
    destruct Y; try (destruct (array_equal a _) eqn:Q); split;
      first [ split; [auto; discriminate|intros [? ?]; congruence] | split; [discriminate|intros [? ?]; discriminate] | auto; fail | intros; congruence | intros _; right; eauto ].
  Qed.
  Lemma assert_self len i h a r h' : ao_coerce o = false -> nth_error h i = Some a -> vassert len i h = (r, h') ->
    exists c q, outcome k o scale len i a q c /\ nth_error h' i = Some c /\ (forall j, j <> i -> nth_error h' j = nth_error h j) /\
      r = match q with
          | VecOk _ => if array_equal c c then Ok true else Exc (ExValidation [])
          | VecExc e => Exc e
          | _ => Exc (ExValidation [])
          end.
  Proof.
    intros Hc Ha H. destruct (validate len (VArr i) h) as [q h1] eqn:V.
    destruct (assert_spec len i h a a q h1 Ha) as (c & Hoc & X); try congruence. rewrite Hc in Hoc, X. rewrite X in H. injection H as <- <-.
    pose proof (in_place_spec _ _ _ _ _ Hc V) as Y. cbn in Y. destruct (Y a Ha) as (c' & Hoc' & Hi & _ & Ho).
    destruct (outcome_fun _ _ _ _ _ _ _ Hoc Hoc') as [_ ->]. exists c', q. auto.
  Qed.
  Lemma assert_self_ok len i h a r h' : ao_coerce o = false -> nth_error h i = Some a -> vassert len i h = (r, h') ->
    (forall b f c, scale b f = SDone c -> wf c /\ n_type c <> TStr) -> wf a ->
    (r = Ok true <-> vector_of k o a /\ forall f, len = Some f -> exists c, scale a f = SDone c).
  Proof.
    intros Hc Ha H Hs Hwf. destruct (assert_self _ _ _ _ _ _ Hc Ha H) as (c & q & Hoc & _ & _ & ->).
    destruct Hoc as [N|V L|f b V L S|f b V L S|f e b V L S].
    - split; [discriminate|]. intros [V _]. contradiction.
    - rewrite equal_refl; [|exact Hwf|destruct V as (_ & -> & _); discriminate]. split; [|auto]. intros _. split; [exact V|]. intros f Hf. congruence.
    - destruct (Hs _ _ _ S). rewrite equal_refl by auto. split; [|auto]. intros _. split; [exact V|]. intros g Hg. exists b. congruence.
    - split; [discriminate|]. intros [_ X]. destruct (X f L). congruence.
    - split; [discriminate|]. intros [_ X]. destruct (X f L). congruence.
  Qed.
End Vectors.
