(** Keywords.v and Declare.v agree on the default of Union. *)
From Verif Require Import Keywords KeywordsSpec KeywordsFacts KeywordsLoop KeywordsProofs.
Local Open Scope string_scope.
Local Open Scope list_scope.
Local Open Scope nat_scope.

(** A callable that always does the same. *)
Definition constant (W : objects) (f : val) : option (nat -> res val) := option_map (fun r (_ : nat) => r) (ucall W f).

Lemma check_all_alternatives W av l v : forall n, snd (un_check val av (constant W) l v n) =
  match rbind (match ucall W v with Some r => r | None => Ok v end) (fun x => raised (un_validate val av l x)) with
  | Ok _ => Ok tt
  | Exc e => match l with [] => Exc ExType | _ => if is_generic e then Exc ExType else Exc e end
  end.
Proof.
  unfold constant.
  assert (T : forall r x, raised (un_validate val av r x) = Ok tt \/ exists e, raised (un_validate val av r x) = Exc e /\ (r = [] -> is_generic e = true)).
  { intros r x. destruct r as [|b r]; [right; exists (ExValidation []); auto|].
    destruct (raised (un_validate val av (b :: r) x)) as [[]|e]; [auto|]. right. exists e. split; [reflexivity|discriminate]. }
  assert (Q : forall r x, match raised (un_validate val av r x) with
     | Ok _ => Ok tt
     | Exc e => match r with [] => Exc ExType | _ => if is_generic e then Exc ExType else Exc e end
     end = match raised (un_validate val av r x) with Ok _ => Ok tt | Exc e => if is_generic e then Exc ExType else Exc e end).
  { intros r x. destruct (T r x) as [->|(e & -> & H)]; [reflexivity|]. destruct r; [|reflexivity]. now rewrite H. }
  induction l as [|a l IH]; intros n; cbn [un_check un_validate].
  - destruct (ucall W v) as [[x|e]|]; cbn; reflexivity.
  - destruct (ucall W v) as [[x|e]|] eqn:U; cbn [option_map rbind] in *.
    + destruct (av a x) as [w|m|e]; cbn [raised is_generic snd]; [reflexivity| |].
      * now rewrite IH, Q.
      * destruct (is_generic e) eqn:G; cbn [raised snd]; [now rewrite IH, Q|now rewrite G].
    + destruct (is_generic e) eqn:G; [rewrite IH|reflexivity]. destruct l; reflexivity.
    + destruct (av a v) as [w|m|e]; cbn [raised is_generic snd]; [reflexivity| |].
      * now rewrite IH, Q.
      * destruct (is_generic e) eqn:G; cbn [raised snd]; [now rewrite IH, Q|now rewrite G].
Qed.

Lemma takes_props W k v x : takes W k "props" v x -> exists l, x = VTuple l.
Proof.
  intros H. remember "props" as key eqn:E. destruct H; try (exists ps; reflexivity); try discriminate E; rewrite E in *.
  all: try match goal with H : In "props" (methods _) |- _ => idtac | H : In "props" _ |- _ => exfalso; cbn in H; intuition discriminate end.
  exfalso. destruct k; cbn in H; intuition discriminate.
Qed.

Lemma union_default W av args l1 l2 o v : tries_alternatives W av -> NoDup (map fst (l1 ++ l2)) ->
  declare W P_Union args (l1 ++ l2) = Ok o -> dget (l1 ++ l2) "default" = None -> v <> VNone ->
  exists l, dget o "props" = Some (VTuple l) /\
    declare W P_Union args (l1 ++ ("default", v) :: l2) =
    rbind (un_set_default val av (fun f => option_map (fun r _ => r) (ucall W f)) l v) (fun d => Ok (dset o "default" d)).
Proof.
  intros TA Hnd H Hd Hv. destruct (declared W P_Union args _ o Hnd H) as (F & _ & D & _ & _).
  assert (exists l, dget o "props" = Some (VTuple l)) as (l & Hl).
  { assert (direct P_Union args (l1 ++ l2) "props" <> None) as N by (apply (fp_missing _ _ _ F); cbn; auto).
    destruct (direct P_Union args (l1 ++ l2) "props") as [w|] eqn:Ew; [|congruence].
    destruct (ds_given _ _ _ _ _ D "props" w) as (x & Tx & Gx); try discriminate; [unfold supplied; now rewrite Ew|].
    apply takes_props in Tx as (l & ->). eauto. }
  exists l. split; [exact Hl|]. rewrite declare_assigns in *. unfold dhas in *. rewrite !dget_insert by discriminate.
  destruct (_ || _); [discriminate|]. destruct (bind_params (params P_Union) args (l1 ++ l2)) as [[ps rest]|] eqn:Hb; [|discriminate]. cbn [rbind fst snd] in H.
  destruct (bind_insert _ _ _ _ _ _ "default" v (default_free P_Union) Hb) as (r1 & r2 & -> & ->). cbn [rbind fst snd].
  assert (dget (r1 ++ r2) "default" = None) as Hr.
  { destruct (bind_spec _ _ _ _ _ (params_nodup P_Union) Hb) as (_ & _ & R & _). rewrite R by apply default_free. exact Hd. }
  rewrite Hr in H. cbn [assigns] in *.
  assert (ddel (r1 ++ ("default", v) :: r2) "default" = ddel (r1 ++ r2) "default") as -> by (unfold ddel; rewrite !filter_app; reflexivity).
  destruct (keywords W P_Union _ []) as [o1|]; [|discriminate]. cbn [rbind last_step] in H. injection H as ->. cbn [rbind].
  rewrite dget_app in *. destruct (dget r1 "default"); [discriminate|]. change (dget (("default", v) :: r2) "default") with (Some v).
  assert (forall d, last_step W P_Union (Some d) o = if is_none d then Ok o else set_attr W P_Union o "default" d) as -> by (intros []; reflexivity).
  replace (is_none v) with false by (destruct v; try reflexivity; contradiction).
  change (set_attr W P_Union o "default" v) with (rbind (stores W P_Union o TDefault v) (fun x => Ok (dset o "default" x))).
  f_equal. rewrite stores_default_union by reflexivity. unfold un_set_default. destruct (is_undef v); [reflexivity|].
  fold (constant W). rewrite (check_all_alternatives W av l v 0). unfold get. rewrite Hl.
  assert (rbind (match ucall W v with Some r => r | None => Ok v end) (fun x => raised (validates W P_Union o x)) =
          rbind (match ucall W v with Some r => r | None => Ok v end) (fun x => raised (un_validate val av l x))) as ->.
  { apply rbind_ext. intros x. now rewrite (TA o l x Hl). }
  destruct l as [|p l]; [destruct (ucall W v) as [[x|e]|]; reflexivity|].
  destruct (rbind _ _) as [[]|e]; [reflexivity|]. destruct (is_generic e); reflexivity.
Qed.
