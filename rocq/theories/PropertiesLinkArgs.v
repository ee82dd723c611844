(** Property theorems about the arguments of links (C75).  [called_with],
    [good_item], [bad_item], [transform_as] and [takes_one] are in
    LinkArgsSpec.v. *)
From Verif Require Import World WorldSpec WorldExample LinkSpec LinkExample LinkArgs LinkArgsSpec LinkArgsFacts.
Local Open Scope string_scope.
Local Open Scope list_scope.
Local Open Scope nat_scope.

(** ** C75: the arguments of links *)
(** A call of directional_link with two pairs of an instance and a name and with
    a transform of one argument is the operation that C34 and C73 are about. *)
Theorem C75_made : forall E C U kinds n args kws s t now chg tr g w, called_with args kws (pair_of s) (pair_of t) now chg tr ->
  transform_as kinds tr g ->
  dlink_call E C U (exec E C U n) kinds args kws w = exec E C U (S n) (COp (OLink s t (truthy now) (truthy chg) g)) w.
Proof. exact link_made. Qed.
Print Assumptions C75_made.
(** 0 and 2 are functions of one argument, 1 of two; 3 is a class *)
Definition kinds9 (t : nat) : callee := match t with 0 | 2 => Code 1 | 1 => Code 2 | 3 => NoCode | _ => NotCallable end.
Definition p_ (l : loc) : val := pair_of (n_ l).
Example C75_made_ex :
  called_with [p_ 0; p_ 1; VInt 1] [("transform", VObj 3); ("change_only", VStr "")] (p_ 0) (p_ 1) (VInt 1) (VStr "") (VObj 3) /\
  transform_as kinds9 (VObj 3) (Some 3) /\ truthy (VInt 1) = true /\ truthy (VStr "") = false.
Proof.
  split; [|split; [right; exists 3; auto|split; reflexivity]]. split; [cbn; auto|]. split.
  - intros key H. unfold dhas in H. cbn [dget] in H. destruct (String.eqb_spec key "transform") as [X|_]; [rewrite X; cbn; tauto|].
    destruct (String.eqb_spec key "change_only") as [X|_]; [rewrite X; cbn; tauto|discriminate].
  - repeat split.
Qed.

(** Something else than such a pair, a name that the instance does not have,
    twice the same item, or another transform is a ValueError, and nothing
    changes. *)
Theorem C75_refused : forall E C U kinds n args kws src tgt now chg tr w, called_with args kws src tgt now chg tr ->
  good_item C w src \/ bad_item C w src -> good_item C w tgt \/ bad_item C w tgt ->
  bad_item C w src \/ bad_item C w tgt \/ src = tgt \/ (forall g, ~ transform_as kinds tr g) ->
  dlink_call E C U (exec E C U n) kinds args kws w = (Exc ExValue, w).
Proof. exact link_refused. Qed.
Print Assumptions C75_refused.
Example C75_refused_ex :
  good_item C9 w_nums (p_ 0) /\
  Forall (bad_item C9 w_nums) [VList [VInst 0; VStr "v"]; VTuple [VInst 0; VStr "v"; VStr "v"]; VTuple [VStr "v"; VStr "v"]; VTuple [VInst 0; VInt 0]; VNone; VTuple [VInst 1; VStr "x"]] /\
  Forall (fun v => forall g, ~ transform_as kinds9 v g) [VObj 1; VObj 4; VInt 0; VBool false; VUndef; VStr "abs"] /\
  dlink_call E1 C9 U9 (exec E1 C9 U9 9) kinds9 [p_ 0; p_ 0] [] w_nums = (Exc ExValue, w_nums) /\
  dlink_call E1 C9 U9 (exec E1 C9 U9 9) kinds9 [p_ 0; p_ 1; VBool true; VBool true; VObj 1] [] w_nums = (Exc ExValue, w_nums).
Proof.
  split; [exists (n_ 0); split; [reflexivity|exists t_n; settab]|]. split.
  - do 5 (apply Forall_cons; [left; intros [a b]; discriminate|]). apply Forall_cons; [|constructor]. right. exists (1, "x"). split; [reflexivity|]. do 2 eexists. repeat split.
  - split; [repeat (apply Forall_cons; [|]); try apply Forall_nil; intros g [(K & _)|(t & K & _ & [L|L])]; (discriminate K || (injection K as <-; discriminate L))|].
    split; vm_compute; reflexivity.
Qed.

(** Arguments that do not fit the parameters are a TypeError. *)
Theorem C75_misfit : forall E C U kinds n args kws w, (forall s t now chg tr, ~ called_with args kws s t now chg tr) ->
  dlink_call E C U (exec E C U n) kinds args kws w = (Exc ExType, w).
Proof. exact not_called. Qed.
Print Assumptions C75_misfit.
Example C75_misfit_ex :
  (forall s t now chg tr, ~ called_with [p_ 0] [] s t now chg tr) /\
  (forall s t now chg tr, ~ called_with [p_ 0; p_ 1; VNone; VNone; VNone; VNone] [] s t now chg tr) /\
  (forall s t now chg tr, ~ called_with [p_ 0; p_ 1] [("target", p_ 1)] s t now chg tr) /\
  (forall s t now chg tr, ~ called_with [p_ 0; p_ 1] [("Transform", VNone)] s t now chg tr).
Proof.
  split; [intros s t now chg tr (_ & _ & _ & H & _); discriminate|]. split; [intros s t now chg tr (H & _); cbn in H; lia|].
  split; [intros s t now chg tr (_ & _ & _ & H & _); discriminate|].
  intros s t now chg tr (_ & H & _). specialize (H "Transform" eq_refl). cbn in H. intuition discriminate.
Qed.

(** The check of the transform is right for functions that only have parameters
    without default. *)
Theorem C75_plain_transform : forall f, plain f ->
  (exists g, transform_as (fun _ => Code (positional f)) (VObj 0) g) <-> takes_one f.
Proof.
  intros f H. rewrite <- (plain_check f H). split.
  - intros (g & [(K & _)|(t & _ & _ & [K|K])]); try discriminate. now injection K.
  - intros ->. exists (Some 0). right. eauto.
Qed.
Print Assumptions C75_plain_transform.
Example C75_plain_transform_ex : plain (Sig 1 0 false 0 false) /\ takes_one (Sig 1 0 false 0 false) /\ plain (Sig 2 0 false 0 false) /\ ~ takes_one (Sig 2 0 false 0 false).
Proof. unfold plain, takes_one. cbn. repeat split; auto. intros (H & _). lia. Qed.
(** But bound methods of one argument, functions whose further parameters have
    defaults, and those with only a star parameter are refused, and bound
    methods without argument and functions that need a keyword are accepted. *)
Theorem C75_transform_refuted :
  (exists f, takes_one f /\ bound f = true /\ forall g, ~ transform_as (fun _ => Code (positional f)) (VObj 0) g) /\
  (exists f, takes_one f /\ bound f = false /\ defaults f = 1 /\ forall g, ~ transform_as (fun _ => Code (positional f)) (VObj 0) g) /\
  (exists f, takes_one f /\ bound f = false /\ star f = true /\ forall g, ~ transform_as (fun _ => Code (positional f)) (VObj 0) g) /\
  (exists f, ~ takes_one f /\ bound f = true /\ transform_as (fun _ => Code (positional f)) (VObj 0) (Some 0)) /\
  (exists f, ~ takes_one f /\ bound f = false /\ transform_as (fun _ => Code (positional f)) (VObj 0) (Some 0)).
Proof.
  assert (N : forall a, a <> 1 -> forall g, ~ transform_as (fun _ => Code a) (VObj 0) g).
  { intros a Ha g [(K & _)|(t & _ & _ & [K|K])]; try discriminate. injection K as ->. congruence. }
  split; [exists (Sig 2 0 false 0 true); split; [unfold takes_one; cbn; lia|split; [reflexivity|now apply N]]|].
  split; [exists (Sig 2 1 false 0 false); split; [unfold takes_one; cbn; lia|split; [reflexivity|split; [reflexivity|now apply N]]]|].
  split; [exists (Sig 0 0 true 0 false); split; [unfold takes_one; cbn; repeat split; auto|split; [reflexivity|split; [reflexivity|now apply N]]]|].
  split; [exists (Sig 1 0 false 0 true)|exists (Sig 1 0 false 1 false)]; (split; [unfold takes_one; cbn|split; [reflexivity|right; exists 0; auto]]).
  - intros (_ & [H|H] & _); [lia|discriminate].
  - intros (_ & _ & H). discriminate.
Qed.
Print Assumptions C75_transform_refuted.

(** [link] on pairs is the operation that C34 and C73 are about. *)
Theorem C75_link : forall E C U kinds n items kws w, only_keys kws ["update_now"; "change_only"; "transform"] ->
  opt kws "transform" VNone = VNone -> 2 <= length items ->
  link_call E C U (exec E C U n) kinds (map pair_of items) kws w =
  exec E C U (S n) (COp (OLinkAll items (truthy (opt kws "update_now" (VBool false))) (truthy (opt kws "change_only" (VBool true))))) w.
Proof. exact link_is_all. Qed.
Print Assumptions C75_link.
(** Fewer than two items, or a transform, are a ValueError; another keyword is a
    TypeError.  Nothing changes. *)
Theorem C75_link_refused : forall E C U kinds n items kws w, dhas kws "self" = false ->
  length items < 2 \/ opt kws "transform" VNone <> VNone -> link_call E C U (exec E C U n) kinds items kws w = (Exc ExValue, w).
Proof. exact link_kept. Qed.
Print Assumptions C75_link_refused.
Theorem C75_link_keyword : forall E C U kinds n items kws key w, dhas kws key = true -> ~ In key ["update_now"; "change_only"; "transform"] ->
  2 <= length items -> opt kws "transform" VNone = VNone -> link_call E C U (exec E C U n) kinds items kws w = (Exc ExType, w).
Proof. exact link_unknown. Qed.
Print Assumptions C75_link_keyword.
Example C75_link_ex :
  only_keys [("change_only", VBool false); ("transform", VNone)] ["update_now"; "change_only"; "transform"] /\
  opt [("change_only", VBool false); ("transform", VNone)] "transform" VNone = VNone /\ opt [("transform", VObj 0)] "transform" VNone <> VNone /\
  ~ In "source" ["update_now"; "change_only"; "transform"] /\
  (exists r w', link_call E1 C9 U9 (exec E1 C9 U9 9) kinds9 [p_ 0; p_ 1; p_ 2] [("change_only", VBool false); ("transform", VNone)] w_nums = (Ok r, w') /\
     length (w_links w') = 6).
Proof.
  split.
  { intros key H. unfold dhas in H. cbn [dget] in H. destruct (String.eqb_spec key "change_only") as [X|_]; [rewrite X; cbn; tauto|].
    destruct (String.eqb_spec key "transform") as [X|_]; [rewrite X; cbn; tauto|discriminate]. }
  split; [reflexivity|]. split; [discriminate|]. split; [cbn; intuition discriminate|]. do 2 eexists. vm_compute. auto.
Qed.
(** Otherwise, without update_now, [link] succeeds exactly if all items are good
    and none is given twice; if not it raises ValueError. *)
Theorem C75_link_result : forall E C U kinds kws n, only_keys kws ["update_now"; "change_only"; "transform"] ->
  opt kws "transform" VNone = VNone -> truthy (opt kws "update_now" (VBool false)) = false ->
  forall items w, 2 <= length items -> (forall v, In v items -> good_item C w v \/ bad_item C w v) ->
  ((forall v, In v items -> good_item C w v) /\ NoDup items /\ exists r w', link_call E C U (exec E C U n) kinds items kws w = (Ok r, w')) \/
  (((exists v, In v items /\ bad_item C w v) \/ ~ NoDup items) /\ exists w', link_call E C U (exec E C U n) kinds items kws w = (Exc ExValue, w')).
Proof. exact link_result. Qed.
Print Assumptions C75_link_result.
Example C75_link_result_ex :
  (forall v, In v [p_ 0; p_ 1; VNone; p_ 0] -> good_item C9 w_nums v \/ bad_item C9 w_nums v) /\
  (exists w', link_call E1 C9 U9 (exec E1 C9 U9 9) kinds9 [p_ 0; p_ 1; p_ 0] [] w_nums = (Exc ExValue, w') /\ length (w_links w') = 1) /\
  (exists w', link_call E1 C9 U9 (exec E1 C9 U9 9) kinds9 [p_ 0; p_ 1; p_ 2; VNone] [] w_nums = (Exc ExValue, w') /\ length (w_links w') = 2).
Proof.
  split; [|split; eexists; vm_compute; auto]. intros v [<-|[<-|[<-|[<-|[]]]]]; [left|left|right|left].
  - exists (n_ 0). split; [reflexivity|exists t_n; settab].
  - exists (n_ 1). split; [reflexivity|exists t_n; settab].
  - left. intros [a b]. discriminate.
  - exists (n_ 0). split; [reflexivity|exists t_n; settab].
Qed.
