(** Which exceptions a declaration raises. *)
From Verif Require Import Keywords BasicSpec OptionsSpec OptionsFacts KeywordsSpec KeywordsFacts KeywordsLoop KeywordsProofs.
Local Open Scope string_scope.
Local Open Scope list_scope.
Local Open Scope nat_scope.

Lemma in_ddel_pair (d : dict val) n p : In p (ddel d n) -> In p d.
Proof. induction d as [|[a b] d IH]; cbn; [auto|]. destruct (String.eqb_spec n a); cbn; tauto. Qed.
Lemma bind_rest ps : forall args kws q rest p, bind_params ps args kws = Ok (q, rest) -> In p rest -> In p kws.
Proof.
  induction ps as [|[n d] ps IH]; intros [|a args] kws q rest p; cbn [bind_params].
  - now intros [= <- <-].
  - discriminate.
  - destruct (match dget kws n with Some v => Some v | None => d end); [|discriminate].
    destruct (bind_params ps [] (ddel kws n)) as [[q' r']|] eqn:B; [|discriminate]. intros [= <- <-] H. eapply in_ddel_pair, IH; eauto.
  - destruct (dhas kws n); [discriminate|]. destruct (bind_params ps args kws) as [[q' r']|] eqn:B; [|discriminate]. intros [= <- <-] H. eapply IH; eauto.
Qed.
Lemma in_dset_pair (d : dict val) key x p : In p (dset d key x) -> fst p = key \/ In p d.
Proof. induction d as [|[a b] d IH]; cbn; [intros [<-|[]]; auto|]. destruct (String.eqb_spec key a); cbn; intros [<-|H]; auto. tauto. Qed.
Lemma assigns_in k ps rest key v : In (key, v) (assigns k ps rest) -> In key (map fst (params k)) \/ In key ["doc"; "valid_modes"] /\ In key (options k) \/ In (key, v) rest.
Proof.
  assert (D : In (key, v) (ddel rest "default") -> In (key, v) rest) by apply in_ddel_pair.
  destruct k; cbn [assigns params map fst In options]; intros H;
    repeat match goal with
    | H : _ \/ _ |- _ => destruct H as [H|H]
    | H : (_, _) = (_, _) |- _ => injection H as <- <-; first [tauto|right; left; split; [tauto|apply str_mem_In; reflexivity]]
    end; auto.
  all: try (apply in_app_or in H as [H|H]; [destruct (is_none (get ps "prop")); [destruct H|destruct H as [[= <- <-]|[]]; tauto]|];
       destruct H as [[= <- <-]|H]; auto; tauto).
  - apply in_ddel_pair in H. apply in_dset_pair in H as [H|H]; [|auto]. cbn [fst] in H. subst key. right. left. split; [tauto|apply str_mem_In; reflexivity].
  - apply in_ddel_pair, in_ddel_pair in H. auto.
Qed.


Ltac crush := repeat first
  [ congruence
  | discriminate
  | match goal with
    | H : rbind ?m _ = Exc _ |- _ => let E := fresh in destruct m eqn:E; cbn [rbind] in H
    | H : (match ?x with _ => _ end) = Exc _ |- _ => let E := fresh in destruct x eqn:E
    end ].
Section Errors.
  Variables (W : objects) (k : pkind).
  Lemma py_in_exc x c e : py_in x c = Exc e -> e = ExType.
  Proof. unfold py_in. intros H. crush. Qed.
  Lemma all_modes_exc l m e : all_modes l m = Exc e -> e = ExType.
  Proof.
    induction l as [|x l IH]; cbn [all_modes]; [discriminate|]. destruct (py_in x m) as [[|]|e'] eqn:Hp; cbn [rbind]; auto; [congruence|].
    intros [= <-]. now apply py_in_exc in Hp.
  Qed.
  Lemma to_prop_exc v e : to_prop W v = Exc e -> e = ExType.
  Proof. unfold to_prop. intros H. crush. Qed.
  Lemma to_props_exc l e : to_props W l = Exc e -> e = ExType.
  Proof.
    induction l as [|x l IH]; cbn [to_props]; [discriminate|]. destruct (to_prop W x) eqn:Hp; cbn [rbind]; [|intros [= <-]; now apply to_prop_exc in Hp].
    destruct (to_props W l); [discriminate|]. cbn [rbind]. intros [= <-]. now apply IH.
  Qed.
  Lemma py_set_exc l e : py_set l = Exc e -> e = ExType.
  Proof. unfold py_set. intros H. crush. Qed.
  Lemma stores_exc o s v e : s <> TText -> s <> TLength -> s <> TDefault -> stores W k o s v = Exc e -> e = ExType.
  Proof.
    intros N1 N2 N3 H. destruct s; cbn [stores] in H; try congruence.
    - crush.
    - crush.
    - crush.
    - crush.
    - crush.
    - unfold set_min, py_gt in H. cbn [b_min b_max] in H. crush.
    - unfold set_max, py_gt in H. cbn [b_min b_max] in H. crush.
    - unfold set_min_length in H. crush.
    - unfold set_max_length in H. crush.
    - destruct (is_none v); [discriminate|]. destruct (py_in v _) as [[|]|e'] eqn:Hp; cbn [rbind] in H; try congruence. apply py_in_exc in Hp. congruence.
    - destruct (mem_val _ _); [|congruence]. destruct (all_modes _ _) as [u|e'] eqn:Hm; cbn [rbind] in H; [discriminate|]. apply all_modes_exc in Hm. congruence.
    - unfold set_choices in H. destruct v; cbn [rbind] in H; try congruence;
        try (match type of H with context [py_set ?l] => destruct (py_set l) eqn:Hp; cbn [rbind] in H; [|apply py_set_exc in Hp; congruence] end); crush.
    - unfold set_descriptions in H. crush.
    - now apply to_prop_exc in H.
    - crush.
    - unfold validate_shape in H. crush.
    - unfold validate_shape in H. crush.
    - crush.
    - destruct v; try (injection H as <-; destruct k; try reflexivity); destruct k; try congruence; destruct (get o "props") as [| | | | | | | | | |[|]| | | |]; congruence.
    - destruct v; try congruence; match type of H with context [to_props W ?l] => destruct (to_props W l) eqn:Hp; cbn [rbind] in H; [discriminate|apply to_props_exc in Hp; congruence] end.
  Qed.
  (** The default [v] is a callable that raises [e], or it or what it gives is
      refused with [e]. *)
  Lemma default_exc o v e : stores W k o TDefault v = Exc e -> e = ExType \/ default_raises W k v e.
  Proof.
    intros H. destruct (union_dec k) as [Hk|Hk].
    - rewrite (stores_default_union W k o v Hk) in H. destruct (is_undef v); [discriminate|].
      destruct (match get o "props" with VTuple [] => true | _ => false end); [left; congruence|].
      unfold default_raises. destruct (ucall W v) as [[y|e']|]; cbn [rbind] in H.
      + destruct (raised (validates W k o y)) as [u|e'] eqn:R; [discriminate|]. destruct (is_generic e'); [left; congruence|]. injection H as <-. right. right. exists y, o. auto.
      + destruct (is_generic e'); [left; congruence|]. injection H as <-. auto.
      + destruct (raised (validates W k o v)) as [u|e'] eqn:R; [discriminate|]. destruct (is_generic e'); [left; congruence|]. injection H as <-. right. right. exists v, o. auto.
    - rewrite (stores_default_other W k o v Hk) in H. right. unfold default_raises. destruct (ucall W v) as [[y|e']|]; cbn [rbind] in H.
      + destruct (raised (validates W k o y)) as [u|e'] eqn:R; [discriminate|]. cbn [rbind] in H. injection H as <-. right. exists y, o. auto.
      + injection H as <-. auto.
      + destruct (is_undef v); [discriminate|]. destruct (raised (validates W k o v)) as [u|e'] eqn:R; [discriminate|]. cbn [rbind] in H. injection H as <-. right. exists v, o. auto.
  Qed.
  Lemma keywords_exc l : forall o e, keywords W k l o = Exc e -> exists key v o', In (key, v) l /\ one_keyword W k o' (key, v) = Exc e.
  Proof.
    induction l as [|[key v] l IH]; intros o e; cbn [keywords]; [discriminate|]. destruct (one_keyword W k o (key, v)) as [o1|e1] eqn:H1; cbn [rbind].
    - intros H. destruct (IH _ _ H) as (key' & v' & o' & Hin & Ho). exists key', v', o'. split; [now right|exact Ho].
    - intros [= <-]. exists key, v, o. split; [now left|exact H1].
  Qed.
  Theorem declare_exc args kws e : declare W k args kws = Exc e -> e = ExType \/ raises W k kws e.
  Proof.
    rewrite declare_assigns. destruct (_ || _); [intros [= <-]; auto|].
    destruct (bind_params (params k) args kws) as [[ps rest]|e'] eqn:Hb; cbn [rbind fst snd]; [|intros [= <-]; left; eapply bind_exc; eauto].
    assert (Hrest : forall p, In p rest -> In p kws) by (intros p; eapply bind_rest; eauto).
    destruct (keywords W k (assigns k ps rest) []) as [o|e'] eqn:Hk; cbn [rbind].
    - unfold last_step. destruct (dget rest "default") as [v|] eqn:Hd; [|discriminate]. intros H.
      assert (Hin : In ("default", v) kws) by (apply Hrest, dget_in; exact Hd).
      assert (Hv : v <> VNone) by (intros ->; discriminate).
      assert (H' : set_attr W k o "default" v = Exc e) by (destruct v; auto; discriminate). clear H.
      unfold set_attr in H'. destruct (attr_of k "default") as [[s| |]|] eqn:Ha.
      + destruct (stores W k o s v) as [x|e'] eqn:Hs; cbn [rbind] in H'; [discriminate|]. injection H' as <-.
        assert (Hs' : s = TDefault).
        { destruct (in_dec string_dec "default" (options k)) as [I|I].
          - destruct (default_options k (or_introl I)) as [_ E]. congruence.
          - pose proof (default_getter k I). congruence. }
        subst s. apply default_exc in Hs as [Hs|Hs]; [auto|]. right. right. right. right. right. exists v. auto.
      + injection H' as <-. right. left. split; [reflexivity|]. intros A. destruct (A _ _ Hin) as [I|[I|[_ I]]]; [| |contradiction].
        * apply getter_facts in Ha. tauto.
        * apply getter_facts in Ha. tauto.
      + discriminate.
      + discriminate.
    - intros [= <-]. destruct (keywords_exc _ _ _ Hk) as (key & v & o & Hin & Ho).
      assert (Hnd : key <> "default").
      { intros ->. revert Hin. clear. assert (D : forall d : dict val, ~ In ("default", v) (ddel d "default")).
        { intros d H. apply (in_map fst) in H. apply not_ddel in H; auto. }
        destruct k; cbn [assigns In]; try (destruct (is_none _); cbn [app In]); intuition (try discriminate); eapply D; eassumption. }
      apply assigns_in in Hin. 
      assert (Hopt : In key (options k) \/ In (key, v) kws).
      { destruct Hin as [Hin|[[_ Hin]|Hin]]; [left; now apply params_options|auto|auto]. }
      destruct (in_dec string_dec key (options k)) as [I|I].
      + destruct (options_setter k key I) as [Hp (s & Ha)]. rewrite keyword_public, Ha in Ho by exact Hp. unfold set_attr in Ho. rewrite Ha in Ho.
        destruct (stores W k o s v) as [x|e1] eqn:Hs; cbn [rbind] in Ho; [discriminate|]. injection Ho as <-.
        assert (Hkw : forall t, keys_of s = [t] -> In key [t] -> ~ In t (map fst (params k)) -> In t ["doc"; "valid_modes"] -> False \/ True) by auto. clear Hkw.
        pose proof (setter_facts k key s Ha) as (Hks & _).
        destruct s; try (left; eapply stores_exc; [| | |exact Hs]; congruence).
        * cbn [keys_of In] in Hks. destruct Hks as [<-|[]]. right. right. right. left. cbn [stores] in Hs.
          destruct (text_of W v) as [t|e2] eqn:Ht; cbn [rbind] in Hs; [discriminate|]. injection Hs as <-.
          exists v. split; [|exact Ht]. destruct Hin as [Hin|[[Hin _]|Hin]]; [exfalso; destruct k; cbn in Hin; intuition discriminate|exfalso; cbn in Hin; intuition discriminate|auto].
        * cbn [keys_of In] in Hks. destruct Hks as [<-|[]]. cbn [stores] in Hs. unfold set_length in Hs. destruct (as_num v) as [n|] eqn:Hn; [|left; now injection Hs as <-].
          destruct (nle n (NF fzero)) eqn:Hl; [left; now injection Hs as <-|]. destruct (py_float_num n) as [f|e2] eqn:Hf; cbn [rbind] in Hs; [discriminate|]. injection Hs as <-.
          right. right. right. right. left. assert (e2 = ExOverflow) as ->. { unfold py_float_num in Hf. destruct n; [|discriminate]. destruct (fofZ z); [discriminate|]. now injection Hf as <-. }
          split; [reflexivity|]. exists v, n. repeat split; auto.
          destruct Hin as [Hin|[[Hin _]|Hin]]; [exfalso; destruct k; cbn in Hin; intuition discriminate|exfalso; cbn in Hin; intuition discriminate|auto].
        * exfalso. apply default_key in Ha. contradiction.
      + destruct (in_dec string_dec key (methods k)) as [M|M].
        * destruct (methods_plain k key M) as [Hp Ha]. rewrite keyword_public, Ha in Ho by exact Hp. unfold set_attr in Ho. rewrite Ha in Ho. discriminate.
        * destruct Hopt as [Hopt|Hopt]; [contradiction|]. destruct (string_dec key "") as [->|Hne].
          -- right. right. left. cbn in Ho. injection Ho as <-. split; [reflexivity|]. now apply (in_map fst) in Hopt.
          -- rewrite (unknown_one W k o key v I M Hne) in Ho. injection Ho as <-. right. left. split; [reflexivity|]. intros A. destruct (A _ _ Hopt) as [?|[?|[? _]]]; contradiction.
  Qed.
End Errors.
