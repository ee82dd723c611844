(** Property theorems about creating links (C73).  [settable], [consistent],
    [carries], [reaches], [drives], [spreads], [listens] and [lacks] are in
    LinkSpec.v. *)
From Verif Require Import World WorldSpec WorldExample LinkSpec LinkFacts LinkHalt LinkSync LinkNet LinkNow LinkExample.
Local Open Scope string_scope.
Local Open Scope list_scope.
Local Open Scope nat_scope.

(** ** C73: creating a link *)
(** Linking an item to itself, or naming an attribute that the instance does
    not have, raises ValueError and changes nothing. *)
Theorem C73_rejected : forall E C U n s t now chg g w, linkable C w s \/ lacks C w s -> linkable C w t \/ lacks C w t ->
  lacks C w s \/ lacks C w t \/ s = t -> exec E C U (S n) (COp (OLink s t now chg g)) w = (Exc ExValue, w).
Proof. exact link_rejected. Qed.
Print Assumptions C73_rejected.
Example C73_rejected_ex : linkable C9 w_nums (n_ 0) /\ lacks C9 w_nums (1, "x") /\ ~ linkable C9 w_nums (1, "x").
Proof.
  split; [exists t_n; settab|]. split; [do 2 eexists; repeat split|].
  intros (p & _ & d & (c & (i & Hi & Hc) & Hd) & _). vm_compute in Hi. injection Hi as <-. vm_compute in Hc. injection Hc as <-. discriminate.
Qed.
(** So does a link of fewer than two items. *)
Theorem C73_too_few : forall E C U n items now chg w, length items < 2 ->
  exec E C U (S n) (COp (OLinkAll items now chg)) w = (Exc ExValue, w).
Proof. exact link_too_few. Qed.
Print Assumptions C73_too_few.
Example C73_too_few_ex : length [n_ 0] < 2.
Proof. vm_compute. auto. Qed.

(** Without update_now the new link listens to its source, and no value
    changes. *)
Theorem C73_later : forall E C U n w s t p q chg g, settable C w s p -> settable C w t q -> s <> t ->
  exists k w', exec E C U (S n) (COp (OLink s t false chg g)) w = (Ok (VObj k), w') /\
    listens w' k (DL s t g false false) (if chg then MChange else MSet) s /\
    forall b, value_of w' b = value_of w b.
Proof. exact link_later. Qed.
Print Assumptions C73_later.
Example C73_later_ex : settable C9 w_ring (n_ 3) t_n /\ settable C9 w_ring (n_ 0) t_n /\ n_ 3 <> n_ 0 /\
  registered (after (OLink (n_ 3) (n_ 0) false false None) w_ring) 3 "v" MSet = [LLink 3].
Proof. split; [settab|]. split; [settab|]. split; [discriminate|]. vm_compute. reflexivity. Qed.
(** With update_now the target takes the validated transform of the value that
    the source has, which spreads along the existing links from the target
    exactly as an assignment to it does; nothing else changes, and the new link
    listens to its source. *)
Theorem C73_now : forall E C U w P f s t p q chg g u, network C U w -> consistent E C U w P f -> P t -> s <> t ->
  settable C w s p -> settable C w t q -> match g with Some x => forall v, computes (u_trans U x v) | None => True end ->
  value_of w s = Some u -> carries E C U w (DL s t g false false) u (f t) ->
  exists depth k w', (forall n, depth <= n -> exec E C U n (COp (OLink s t true chg g)) w = (Ok (VObj k), w')) /\
    listens w' k (DL s t g false false) (if chg then MChange else MSet) s /\
    (forall b, ~ reaches w t b -> value_of w' b = value_of w b) /\
    (forall b, P b -> value_of w' b = value_of w b \/ value_of w' b = Some (f b)) /\
    (forall b, drives w MSet t b -> value_of w' b = Some (f b)) /\
    forall b, spreads C w f t b -> value_of w' b = Some (f b).
Proof. exact link_now. Qed.
Print Assumptions C73_now.
(** Item 0 feeds items 1 and 2; linking it from item 3 carries the value of
    item 3 on to them. *)
Example C73_now_ex :
  let w := after (OSet 3 "v" (VInt 10)) w_ring in
  network C9 U9 w /\ consistent E1 C9 U9 w (fun a => In a [n_ 0; n_ 1; n_ 2]) f_ring /\ n_ 3 <> n_ 0 /\
  settable C9 w (n_ 3) t_n /\ settable C9 w (n_ 0) t_n /\ value_of w (n_ 3) = Some (VInt 10) /\
  carries E1 C9 U9 w (DL (n_ 3) (n_ 0) None false false) (VInt 10) (f_ring (n_ 0)) /\
  spreads C9 w f_ring (n_ 0) (n_ 1) /\
  map (value_of w) [n_ 0; n_ 1; n_ 2; n_ 3] = map Some [VInt 1; VInt 2; VInt 3; VInt 10] /\
  map (value_of (after (OLink (n_ 3) (n_ 0) true true None) w)) [n_ 0; n_ 1; n_ 2; n_ 3] = map Some [VInt 10; VInt 11; VInt 11; VInt 10].
Proof.
  set (w := after (OSet 3 "v" (VInt 10)) w_ring).
  assert (D : does C9 U9 w_ring (OSet 3 "v" (VInt 10))) by (apply (does_write _ _ _ _ (n_ 3) t_n); [right; eexists; reflexivity|settab]).
  split; [apply network_step; [exact net_ring|exact D]|]. split.
  { apply (cons_keep E1 C9 U9 _ _ w_ring); [|intros b Hb; left; destruct Hb as [<-|[<-|[<-|[]]]]; vm_compute; reflexivity|exact ring_cons].
    apply links_net. vm_compute. auto. }
  split; [discriminate|]. split; [settab|]. split; [settab|]. split; [vm_compute; reflexivity|]. split.
  { exists (VInt 10), t_n. split; [reflexivity|]. split; [discriminate|]. split; [settab|]. apply valid_num. auto. }
  split; [|split; vm_compute; reflexivity].
  apply (spread_next _ _ _ (n_ 0) (n_ 1) (n_ 1) MChange); [eapply num_differs; [vm_compute; reflexivity|settab|discriminate|reflexivity]|discriminate| |apply spread_here].
  exists 0. eexists. split; [split; [vm_compute; reflexivity|split; [reflexivity|vm_compute; auto]]|]. split; [reflexivity|]. split; [reflexivity|]. vm_compute. tauto.
Qed.

(** [link] with update_now on any number of different items that have no
    listeners yet makes all of them hold the value of the first. *)
Theorem C73_all_now : forall E C U a rest chg w v0, network C U w -> NoDup (a :: rest) -> rest <> [] -> v0 <> VUndef -> value_of w a = Some v0 ->
  (forall b, In b (a :: rest) -> (forall m, registered w (fst b) (snd b) m = []) /\ exists p, settable C w b p /\ validated E C p v0 v0 /\
     (exists r, compares p v0 v0 r) /\ forall u, value_of w b = Some u -> u <> VUndef -> exists r, compares p u v0 r) ->
  exists depth r w', (forall n, depth <= n -> exec E C U n (COp (OLinkAll (a :: rest) true chg)) w = (Ok r, w')) /\
    (forall b, In b (a :: rest) -> value_of w' b = Some v0) /\ (forall b, ~ In b (a :: rest) -> value_of w' b = value_of w b).
Proof. exact link_all_now. Qed.
Print Assumptions C73_all_now.
Example C73_all_now_ex :
  let w := after (OSet 1 "v" (VInt 10)) w_nums in
  network C9 U9 w /\ NoDup [n_ 1; n_ 0; n_ 3] /\ value_of w (n_ 1) = Some (VInt 10) /\
  (forall b, In b [n_ 1; n_ 0; n_ 3] -> (forall m, registered w (fst b) (snd b) m = []) /\
     exists p, settable C9 w b p /\ validated E1 C9 p (VInt 10) (VInt 10) /\
     (exists r, compares p (VInt 10) (VInt 10) r) /\ forall u, value_of w b = Some u -> u <> VUndef -> exists r, compares p u (VInt 10) r) /\
  map (value_of (after (OLinkAll [n_ 1; n_ 0; n_ 3] true true) w)) [n_ 0; n_ 1; n_ 2; n_ 3] = map Some [VInt 10; VInt 10; VInt 3; VInt 10].
Proof.
  set (w := after (OSet 1 "v" (VInt 10)) w_nums).
  split. { apply network_step; [exact net_nums|]. apply (does_write _ _ _ _ (n_ 1) t_n); [right; eexists; reflexivity|settab]. }
  split; [repeat constructor; cbn; intuition discriminate|]. split; [vm_compute; reflexivity|]. split; [|vm_compute; reflexivity].
  intros b Hb. destruct Hb as [<-|[<-|[<-|[]]]]; (split; [intros m; reflexivity|]; exists t_n; split; [settab|]; split; [apply valid_num; auto|]; split; [apply compares_num|]);
    intros u Hu _; vm_compute in Hu; try discriminate; injection Hu as <-; apply compares_num.
Qed.

(** If creating a link between settable properties raises an exception (for
    instance because the target does not accept the value), it does not listen. *)
Theorem C73_failed : forall E C U n w s t p q now chg g e w', network C U w -> settable C w s p -> settable C w t q ->
  match g with Some x => forall v, computes (u_trans U x v) | None => True end ->
  exec E C U n (COp (OLink s t now chg g)) w = (Exc e, w') ->
  forall a m, registered w' (fst a) (snd a) m = registered w (fst a) (snd a) m.
Proof. exact link_failed. Qed.
Print Assumptions C73_failed.
Example C73_failed_ex : network C9 U9 w_nums /\ settable C9 w_nums (n_ 3) t_n /\ settable C9 w_nums (n_ 0) t_n /\
  exists e w', exec E1 C9 U9 9 (COp (OLink (n_ 3) (n_ 0) true true None)) w_nums = (Exc e, w') /\ length (w_links w') = 1.
Proof. split; [exact net_nums|]. split; [settab|]. split; [settab|]. do 2 eexists. vm_compute. auto. Qed.
(** update_now from a property that is not set assigns None to the target,
    which is a validation error. *)
Theorem C73_unset_source_refuted : exists E C U w s t p ts w', network C U w /\ settable C w s p /\ settable C w t p /\ value_of w s = None /\
  forall n, exec E C U (2 + n) (COp (OLink s t true true None)) w = (Exc (ExValidation ts), w').
Proof.
  exists E1, C9, U9, w_nums, (n_ 3), (n_ 0), t_n. do 2 eexists. split; [exact net_nums|]. split; [settab|]. split; [settab|]. split; [reflexivity|].
  intros n. vm_compute. reflexivity.
Qed.
Print Assumptions C73_unset_source_refuted.
(** [link] that raises because of one of its items leaves the links made
    before that; there is no object to unlink them with. *)
Theorem C73_half_made_refuted : exists E C U w items a b e w' r w'', network C U w /\ In a items /\ In b items /\ ~ feeds w a b /\
  exec E C U 9 (COp (OLinkAll items false true)) w = (Exc e, w') /\ feeds w' a b /\
  exec E C U 9 (COp (OSet (fst a) (snd a) (VInt 10))) w' = (Ok r, w'') /\ value_of w b <> Some (VInt 10) /\ value_of w'' b = Some (VInt 10).
Proof.
  exists E1, C9, U9, w_nums, [n_ 0; n_ 1; (2, "x")], (n_ 0), (n_ 1). do 4 eexists. split; [exact net_nums|]. split; [now left|]. split; [right; now left|].
  split. { intros (k & d & m & (Hk & _) & _). destruct k; discriminate. }
  split; [vm_compute; reflexivity|]. split. { exists 0. do 2 eexists. split; [split; [vm_compute; reflexivity|split; [reflexivity|]]|reflexivity]. instantiate (1 := MChange). vm_compute. auto. }
  split; [vm_compute; reflexivity|]. split; [discriminate|]. vm_compute. reflexivity.
Qed.
Print Assumptions C73_half_made_refuted.
