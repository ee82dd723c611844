(** Property theorems about links (C34, C35).  An item is an (instance, name)
    pair; [network], [history], [reaches], [consistent], [drives] and [spreads]
    are in LinkSpec.v. *)
From Verif Require Import World WorldSpec WorldExample LinkSpec LinkFacts LinkHalt LinkSync LinkNet LinkGroup LinkGroupFacts LinkExample.
Local Open Scope string_scope.
Local Open Scope list_scope.
Local Open Scope nat_scope.

(** ** C34: directional_link propagates source to target *)
(** Every history of creating links (one by one or all at once, updating now or
    not), unlinking, relinking, registering listeners, assigning and deleting,
    whatever the outcomes, leaves each link listening to its own source and no
    link in the middle of an update. *)
Theorem C34_history_keeps_network : forall E C U w w', history E C U w w' -> network C U w -> network C U w'.
Proof. exact network_history. Qed.
Print Assumptions C34_history_keeps_network.
Example C34_history_keeps_network_ex :
  network C9 U9 w_nums /\ history E1 C9 U9 w_nums w_ring /\ length (w_links w_ring) = 3.
Proof. split; [exact net_nums|]. split; [exact hist_ring|]. vm_compute. reflexivity. Qed.

(** An assignment or deletion, whatever its outcome, keeps all links and
    changes no item but those with a path of links from the one written: the
    reverse direction does not propagate. *)
Theorem C34_only_reached : forall E C U w o a p, only_links C U w -> writes o a -> settable C w a p ->
  forall n, same_links w (snd (exec E C U n (COp o) w)) /\
    forall b, ~ reaches w a b -> value_of (snd (exec E C U n (COp o) w)) b = value_of w b.
Proof. intros E C U w o a p Hw Ho Hp n. exact (proj1 (reach_all E C U n w Hw) o a p Ho Hp). Qed.
Print Assumptions C34_only_reached.
Example C34_only_reached_ex :
  only_links C9 U9 w_chain /\ settable C9 w_chain (n_ 1) t_n /\ ~ reaches w_chain (n_ 1) (n_ 0) /\
  let w := after (OSet 1 "v" (VInt 10)) w_chain in
  (value_of w (n_ 0), value_of w (n_ 1), value_of w (n_ 2)) = (Some (VInt 1), Some (VInt 10), Some (VInt 10)).
Proof.
  split; [apply net_chain|]. split; [settab|]. split; [|vm_compute; reflexivity].
  assert (G : forall a b, In a [n_ 1; n_ 2] -> feeds w_chain a b -> In b [n_ 1; n_ 2]).
  { intros a b Ha (k & d & m & (Hk & Hu & Hin) & <-). destruct Ha as [<-|[<-|[]]], m; vm_compute in Hin; try contradiction.
    destruct Hin as [[= <-]|[]]. vm_compute in Hk. injection Hk as <-. vm_compute. auto. }
  intros H. apply (reaches_in w_chain (fun a => In a [n_ 1; n_ 2]) G) in H; [|now left]. destruct H as [H|[H|[]]]; discriminate.
Qed.

(** While linked, an assignment to [a] succeeds and each item along a path of
    enabled links from [a], all of whose items are to change, ends with the
    value that the links on the way carry to it: the validated transform of the
    value of its source.  Cycles are allowed; the values [f] must then agree
    along them. *)
Theorem C34_propagates : forall E C U w P f a p v, only_links C U w -> consistent E C U w P f ->
  P a -> v <> VUndef -> settable C w a p -> validated E C p v (f a) ->
  exists depth r w', (forall n, depth <= n -> exec E C U n (COp (OSet (fst a) (snd a) v)) w = (Ok r, w')) /\
    same_links w w' /\ (forall b, ~ reaches w a b -> value_of w' b = value_of w b) /\
    (forall b, P b -> value_of w' b = value_of w b \/ value_of w' b = Some (f b)) /\
    (forall b, drives w MSet a b -> value_of w' b = Some (f b)) /\
    forall b, spreads C w f a b -> value_of w' b = Some (f b).
Proof. exact assign_spreads. Qed.
Print Assumptions C34_propagates.
Example C34_propagates_ex :
  only_links C9 U9 w_ring /\ consistent E1 C9 U9 w_ring (fun a => In a [n_ 0; n_ 1; n_ 2]) f_ring /\
  settable C9 w_ring (n_ 0) t_n /\ validated E1 C9 t_n (VInt 10) (f_ring (n_ 0)) /\
  spreads C9 w_ring f_ring (n_ 0) (n_ 2) /\
  (let w := after (OSet 0 "v" (VInt 10)) w_ring in
   (value_of w (n_ 0), value_of w (n_ 1), value_of w (n_ 2), value_of w (n_ 3)) = (Some (VInt 10), Some (VInt 11), Some (VInt 11), None)).
Proof.
  split; [apply net_ring|]. split; [exact ring_cons|]. split; [settab|]. split; [apply valid_num; auto|]. split; [|vm_compute; reflexivity].
  apply (spread_next _ _ _ (n_ 0) (n_ 1) (n_ 2) MChange); [eapply num_differs; [vm_compute; reflexivity|settab|discriminate|reflexivity]|discriminate| |].
  { exists 0. eexists. split; [split; [vm_compute; reflexivity|split; [reflexivity|vm_compute; auto]]|]. split; [reflexivity|]. split; [reflexivity|]. vm_compute. tauto. }
  apply (spread_next _ _ _ (n_ 1) (n_ 2) (n_ 2) MSet); [eapply num_differs; [vm_compute; reflexivity|settab|discriminate|reflexivity]|discriminate| |apply spread_here].
  exists 2. eexists. split; [split; [vm_compute; reflexivity|split; [reflexivity|vm_compute; auto]]|]. split; [reflexivity|]. split; [reflexivity|]. vm_compute. tauto.
Qed.

(** After unlinking the only link that listens to [a], assigning or deleting
    [a] changes nothing else. *)
Theorem C34_unlink_stops : forall E C U n k w a p, network C U w -> settable C w a p ->
  (forall m k', In (LLink k') (registered w (fst a) (snd a) m) -> k' = k) ->
  forall n2 o b, writes o a -> b <> a ->
    value_of (snd (exec E C U n2 (COp o) (snd (exec E C U (S n) (COp (OUnlink k)) w)))) b = value_of w b.
Proof. exact unlink_stops. Qed.
Print Assumptions C34_unlink_stops.
(** relink undoes unlink *)
Theorem C34_relink_restores : forall E C U n k d w, nth_error (w_links w) k = Some d -> d_unlinked d = false ->
  exec E C U (S n) (COp (ORelink k)) (snd (exec E C U (S n) (COp (OUnlink k)) w)) = (Ok VNone, w).
Proof. exact relink_restores. Qed.
Print Assumptions C34_relink_restores.
Example C34_unlink_stops_ex :
  network C9 U9 w_chain /\ settable C9 w_chain (n_ 0) t_n /\
  (forall m k', In (LLink k') (registered w_chain 0 "v" m) -> k' = 0) /\
  value_of (after (OSet 0 "v" (VInt 10)) (after (OUnlink 0) w_chain)) (n_ 1) = Some (VInt 2) /\
  value_of (after (OSet 0 "v" (VInt 10)) (after (ORelink 0) (after (OUnlink 0) w_chain))) (n_ 1) = Some (VInt 10).
Proof.
  split; [exact net_chain|]. split; [settab|]. split; [|vm_compute; auto].
  intros m k' H. destruct m; vm_compute in H; try contradiction. destruct H as [[= <-]|[]]. reflexivity.
Qed.

(** Where the transforms of a cycle do not agree, the target of a link ends
    with another value than the transform of its source's value. *)
Theorem C34_cycle_out_of_sync_refuted : exists E C U w k d a v w',
  network C U w /\ listens w k d MChange a /\ drives w MChange a (d_tgt d) /\ d_trans d = None /\
  exec E C U 30 (COp (OSet (fst a) (snd a) v)) w = (Ok VNone, w') /\ value_of w' (d_tgt d) <> value_of w' a.
Proof.
  exists E1, C9, U9, w_twist, 0. do 1 eexists. exists (n_ 0), (VInt 10). eexists. split; [exact net_twist|].
  split; [split; [vm_compute; reflexivity|split; [reflexivity|vm_compute; auto]]|].
  split. { exists 0. eexists. split; [split; [vm_compute; reflexivity|split; [reflexivity|vm_compute; auto]]|]. split; [reflexivity|]. split; [reflexivity|]. vm_compute. tauto. }
  split; [reflexivity|]. split; [vm_compute; reflexivity|]. vm_compute. discriminate.
Qed.
Print Assumptions C34_cycle_out_of_sync_refuted.
(** Deleting a linked source raises an exception, with the source deleted: the
    target is assigned None. *)
Theorem C34_delete_raises_refuted : exists E C U w a b w' e,
  network C U w /\ drives w MChange a b /\ exec E C U 30 (COp (ODel (fst a) (snd a))) w = (Exc (ExValidation e), w') /\
  value_of w a <> None /\ value_of w' a = None /\ value_of w' b = value_of w b.
Proof.
  exists E1, C9, U9, w_chain, (n_ 0), (n_ 1). do 2 eexists. split; [exact net_chain|].
  split. { exists 0. eexists. split; [split; [vm_compute; reflexivity|split; [reflexivity|vm_compute; auto]]|]. split; [reflexivity|]. split; [reflexivity|]. vm_compute. tauto. }
  split; [vm_compute; reflexivity|]. vm_compute. split; [discriminate|auto].
Qed.
Print Assumptions C34_delete_raises_refuted.
(** With [change_only], a value does not pass through an item that holds it
    already. *)
Theorem C34_chain_stops_refuted : exists E C U w a b c v w',
  network C U w /\ drives w MChange a b /\ drives w MChange b c /\ differs C w a v /\
  exec E C U 30 (COp (OSet (fst a) (snd a) v)) w = (Ok VNone, w') /\
  value_of w' a = Some v /\ value_of w' b = Some v /\ value_of w' c <> Some v.
Proof.
  exists E1, C9, U9, w_chain, (n_ 0), (n_ 1), (n_ 2), (VInt 2). eexists. split; [exact net_chain|].
  split. { exists 0. eexists. split; [split; [vm_compute; reflexivity|split; [reflexivity|vm_compute; auto]]|]. split; [reflexivity|]. split; [reflexivity|]. vm_compute. tauto. }
  split. { exists 1. eexists. split; [split; [vm_compute; reflexivity|split; [reflexivity|vm_compute; auto]]|]. split; [reflexivity|]. split; [reflexivity|]. vm_compute. tauto. }
  split. { eapply num_differs; [vm_compute; reflexivity|settab|discriminate|reflexivity]. }
  split; [vm_compute; reflexivity|]. vm_compute. repeat split. discriminate.
Qed.
Print Assumptions C34_chain_stops_refuted.

(** ** C35: link keeps all items in sync and terminates *)
(** Whatever the links and listeners are, including cycles, an assignment or
    deletion ends: beyond some depth of the stack, more stack makes no
    difference. *)
Theorem C35_terminates : forall E C U w o a p, only_links C U w -> writes o a -> settable C w a p ->
  halts (fun n => exec E C U n (COp o)) w.
Proof. exact halt_assign. Qed.
Print Assumptions C35_terminates.
Example C35_terminates_ex :
  only_links C9 U9 w_twist /\ writes (OSet 0 "v" (VInt 10)) (n_ 0) /\ settable C9 w_twist (n_ 0) t_n /\
  reaches w_twist (n_ 0) (n_ 1) /\ reaches w_twist (n_ 1) (n_ 0) /\
  exec E1 C9 U9 3 (COp (OSet 0 "v" (VInt 10))) w_twist <> exec E1 C9 U9 30 (COp (OSet 0 "v" (VInt 10))) w_twist.
Proof.
  split; [apply net_twist|]. split; [right; eexists; reflexivity|]. split; [settab|].
  split. { eapply reach_next; [|apply reach_here]. exists 0. do 2 eexists. split; [split; [vm_compute; reflexivity|split; [reflexivity|]]|reflexivity]. instantiate (1 := MChange). vm_compute. auto. }
  split. { eapply reach_next; [|apply reach_here]. exists 1. do 2 eexists. split; [split; [vm_compute; reflexivity|split; [reflexivity|]]|reflexivity]. instantiate (1 := MChange). vm_compute. auto. }
  vm_compute. discriminate.
Qed.

(** [link] on any number of different items that have no listeners yet: then
    changing any one of them makes all of them hold the new value, and changes
    nothing else. *)
Theorem C35_link_in_sync : forall E C U n items (chg : bool) w a p v v0, network C U w -> NoDup items -> 2 <= length items -> v0 <> VUndef ->
  (forall b, In b items -> (forall m, registered w (fst b) (snd b) m = []) /\ exists p, settable C w b p /\ validated E C p v0 v0 /\
     (exists r, compares p v0 v0 r) /\ forall u, value_of w b = Some u -> u <> VUndef -> exists r, compares p u v0 r) ->
  ~ In (if chg then MChange else MSet) (w_quar w) -> In a items -> settable C w a p -> v <> VUndef -> validated E C p v v0 ->
  (chg = true -> differs C w a v0) ->
  exists r w1, exec E C U (S n) (COp (OLinkAll items false chg)) w = (Ok r, w1) /\ (forall b, value_of w1 b = value_of w b) /\
  exists depth r2 w2, (forall n, depth <= n -> exec E C U n (COp (OSet (fst a) (snd a) v)) w1 = (Ok r2, w2)) /\
    (forall b, In b items -> value_of w2 b = Some v0) /\ (forall b, ~ In b items -> value_of w2 b = value_of w b).
Proof. exact link_in_sync. Qed.
Print Assumptions C35_link_in_sync.
Example C35_link_in_sync_ex :
  network C9 U9 w_nums /\ NoDup [n_ 0; n_ 1; n_ 2; n_ 3] /\
  (forall b, In b [n_ 0; n_ 1; n_ 2; n_ 3] -> (forall m, registered w_nums (fst b) (snd b) m = []) /\
     exists p, settable C9 w_nums b p /\ validated E1 C9 p (VInt 10) (VInt 10) /\
     (exists r, compares p (VInt 10) (VInt 10) r) /\ forall u, value_of w_nums b = Some u -> u <> VUndef -> exists r, compares p u (VInt 10) r) /\
  differs C9 w_nums (n_ 2) (VInt 10) /\
  let w := after (OSet 2 "v" (VInt 10)) (after (OLinkAll [n_ 0; n_ 1; n_ 2; n_ 3] false true) w_nums) in
  length (w_links w) = 12 /\ map (value_of w) [n_ 0; n_ 1; n_ 2; n_ 3] = map Some [VInt 10; VInt 10; VInt 10; VInt 10].
Proof.
  split; [exact net_nums|]. split; [repeat constructor; cbn; intuition discriminate|]. split.
  { intros b Hb. destruct Hb as [<-|[<-|[<-|[<-|[]]]]]; (split; [intros m; reflexivity|]; exists t_n; split; [settab|]; split; [apply valid_num; auto|]; split; [apply compares_num|]);
      intros u Hu _; vm_compute in Hu; try discriminate; injection Hu as <-; apply compares_num. }
  split. { eapply num_differs; [vm_compute; reflexivity|settab|discriminate|reflexivity]. }
  vm_compute. auto.
Qed.

(** The same in every state in which the items are linked with each other, for
    instance after earlier assignments and with further listeners. *)
Theorem C35_stays_in_sync : forall E C U w items m v0 a p v, only_links C U w ->
  consistent E C U w (fun b => In b items) (fun _ => v0) ->
  (forall a b, In a items -> In b items -> a <> b -> drives w m a b) -> m <> MValidate ->
  In a items -> settable C w a p -> v <> VUndef -> validated E C p v v0 -> (m = MChange -> differs C w a v0) ->
  exists depth r w', (forall n, depth <= n -> exec E C U n (COp (OSet (fst a) (snd a) v)) w = (Ok r, w')) /\ same_links w w' /\
    (forall b, In b items -> value_of w' b = Some v0) /\ (forall b, ~ In b items -> value_of w' b = value_of w b).
Proof. exact in_sync. Qed.
Print Assumptions C35_stays_in_sync.
Example C35_stays_in_sync_ex :
  only_links C9 U9 w_all /\ consistent E1 C9 U9 w_all (fun a => In a all4) (fun _ => VInt 11) /\
  (forall a b, In a all4 -> In b all4 -> a <> b -> drives w_all MChange a b) /\
  settable C9 w_all (n_ 3) t_n /\ validated E1 C9 t_n (VInt 11) (VInt 11) /\ differs C9 w_all (n_ 3) (VInt 11) /\
  let w2 := after (OSet 3 "v" (VInt 11)) w_all in
  map (value_of w2) all4 = map Some [VInt 11; VInt 11; VInt 11; VInt 11].
Proof.
  split; [apply net_all|]. split; [exact all_cons|]. split.
  { intros a b Ha Hb Hn. eapply drives_links.
    2:{ eapply (joined_drives w_nums (after (OLinkAll all4 false true) w_nums)); [|exact Ha|exact Hb|exact Hn|cbn; tauto].
        destruct (link_all_joined E1 C9 U9 29 all4 true w_nums) as (w' & Er & J).
        - repeat constructor; cbn; intuition discriminate.
        - cbn. auto with arith.
        - intros x Hx. exists t_n. destruct Hx as [<-|[<-|[<-|[<-|[]]]]]; settab.
        - unfold after. rewrite Er. exact J. }
    split; [|split]; vm_compute; reflexivity. }
  split; [settab|]. split; [apply valid_num; auto|].
  split. { eapply num_differs; [vm_compute; reflexivity|settab|discriminate|reflexivity]. }
  vm_compute. reflexivity.
Qed.

(** [link.unlink] disables all directional links of a link: an item none of
    whose links is outside the link no longer changes any other item. *)
Theorem C35_unlink_stops : forall E C U n ks w a p, network C U w -> settable C w a p ->
  (forall m k, In (LLink k) (registered w (fst a) (snd a) m) -> In k ks) ->
  exists w', link_unlink (exec E C U (S n)) ks w = (Ok VNone, w') /\ (forall b, value_of w' b = value_of w b) /\
  forall n2 o b, writes o a -> b <> a -> value_of (snd (exec E C U n2 (COp o) w')) b = value_of w b.
Proof. exact group_unlink_stops. Qed.
Print Assumptions C35_unlink_stops.
(** unlinking eleven of the twelve links still lets the twelfth carry a value *)
Example C35_unlink_stops_ex :
  network C9 U9 w_all /\ settable C9 w_all (n_ 0) t_n /\
  (forall m k, In (LLink k) (registered w_all 0 "v" m) -> In k (seq 0 12)) /\
  let un ks := snd (link_unlink (exec E1 C9 U9 30) ks w_all) in
  let set w := map (value_of (after (OSet 0 "v" (VInt 77)) w)) all4 in
  set w_all = map Some [VInt 77; VInt 77; VInt 77; VInt 77] /\
  set (un (seq 0 12)) = Some (VInt 77) :: skipn 1 (map (value_of w_all) all4) /\
  set (un (seq 1 11)) = Some (VInt 77) :: Some (VInt 77) :: skipn 2 (map (value_of w_all) all4).
Proof.
  split; [exact net_all|]. split; [settab|]. split.
  { intros m k Hin. destruct m; vm_compute in Hin; try contradiction. repeat (destruct Hin as [[= <-]|Hin]; [vm_compute; tauto|]). destruct Hin. }
  vm_compute. auto.
Qed.

(** Relinking after unlinking gives back the state of before, if no link of the
    group had been disabled on its own. *)
Theorem C35_relink_restores : forall E C U n n2 ks w,
  (forall k, In k ks -> exists d, nth_error (w_links w) k = Some d /\ d_unlinked d = false) ->
  link_relink (exec E C U (S n2)) ks (snd (link_unlink (exec E C U (S n)) ks w)) = (Ok VNone, w).
Proof. exact group_relink_restores. Qed.
Print Assumptions C35_relink_restores.
(** a link disabled on its own before is enabled by relinking the group *)
Example C35_relink_restores_ex :
  (forall k, In k (seq 0 12) -> exists d, nth_error (w_links w_all) k = Some d /\ d_unlinked d = false) /\
  snd (link_unlink (exec E1 C9 U9 1) (seq 0 12) w_all) <> w_all /\
  (let w := after (OUnlink 4) w_all in
   snd (link_relink (exec E1 C9 U9 1) (seq 0 12) (snd (link_unlink (exec E1 C9 U9 1) (seq 0 12) w))) = w_all /\ w <> w_all).
Proof.
  split. { intros k Hk. do 12 (destruct Hk as [<-|Hk]; [eexists; split; vm_compute; reflexivity|]). destruct Hk. }
  split.
  { intros H. apply (f_equal (fun w => map d_unlinked (w_links w))) in H. vm_compute in H. discriminate. }
  split; [vm_compute; reflexivity|]. intros H. apply (f_equal (fun w => map d_unlinked (w_links w))) in H. vm_compute in H. discriminate.
Qed.

(** The same for a link made with [link]: the directional links it returns are
    all it made, so unlinking them separates its items completely, and
    relinking them gives back the state right after [link]. *)
Theorem C35_unlink_relink : forall E C U n items chg w, network C U w -> NoDup items -> 2 <= length items ->
  (forall b, In b items -> (forall m k, ~ In (LLink k) (registered w (fst b) (snd b) m)) /\ exists p, settable C w b p) ->
  exists ks w1 w2, exec E C U (S n) (COp (OLinkAll items false chg)) w = (Ok (VList (map VObj ks)), w1) /\
    link_unlink (exec E C U (S n)) ks w1 = (Ok VNone, w2) /\
    (forall a o b n2, In a items -> writes o a -> b <> a -> value_of (snd (exec E C U n2 (COp o) w2)) b = value_of w b) /\
    link_relink (exec E C U (S n)) ks w2 = (Ok VNone, w1).
Proof. exact link_unlink_relink. Qed.
Print Assumptions C35_unlink_relink.
Example C35_unlink_relink_ex :
  network C9 U9 w_nums /\ NoDup all4 /\
  (forall b, In b all4 -> (forall m k, ~ In (LLink k) (registered w_nums (fst b) (snd b) m)) /\ exists p, settable C9 w_nums b p) /\
  let w1 := after (OLinkAll all4 false true) w_nums in
  let w2 := snd (link_unlink (exec E1 C9 U9 30) (seq 0 12) w1) in
  let set w := map (value_of (after (OSet 2 "v" (VInt 10)) w)) all4 in
  fst (exec E1 C9 U9 30 (COp (OLinkAll all4 false true)) w_nums) = Ok (VList (map VObj (seq 0 12))) /\
  set w2 <> set w1 /\ set (snd (link_relink (exec E1 C9 U9 30) (seq 0 12) w2)) = set w1.
Proof.
  split; [exact net_nums|]. split; [repeat constructor; cbn; intuition discriminate|]. split.
  { intros b Hb. destruct Hb as [<-|[<-|[<-|[<-|[]]]]]; (split; [intros [] k H; vm_compute in H; exact H|exists t_n; settab]). }
  split; [vm_compute; reflexivity|]. split; [|vm_compute; reflexivity]. intros H. vm_compute in H. discriminate.
Qed.
