(** C37: exactly when deserializing a HasUID graph returns.  The other
    theorems about HasUID are in PropertiesLibrary.v. *)
From Verif Require Import PyBase Uid LibrarySpec UidFacts UidExact UidTree UidAny.
Local Open Scope string_scope.
Local Open Scope list_scope.
Local Open Scope nat_scope.

(** An instance that is registered cannot be rebuilt from its dictionary,
    whatever graph it is the root of: ValueError, and nothing has happened.
    [properties.copy] does this for every HasUID instance. *)
Theorem C37_no_copy : forall fresh h l n d n2 h2 inst next,
  graph h l -> distinct_uids h l -> uid_serialize h n l = Ok d -> dget inst (uid_at h l) <> None ->
  exists s2, uid_deserialize fresh (S n2) d h2 inst next = (Exc ExValue, s2) /\ ds_heap s2 = h2 /\ ds_inst s2 = inst.
Proof. exact no_copy. Qed.
Print Assumptions C37_no_copy.

(** Deserialization returns only if no reachable instance has a registered
    uid, at any depth. *)
Theorem C37_returns_unregistered : forall fresh h l n d h2 inst next n2 l2 s2,
  graph h l -> distinct_uids h l -> uid_serialize h n l = Ok d ->
  (forall i, next <= i -> dget d (fresh i) = None) ->
  uid_deserialize fresh n2 d h2 inst next = (Ok l2, s2) ->
  forall c, reach h l c -> dget inst (uid_at h c) = None.
Proof. exact run_unused. Qed.
Print Assumptions C37_returns_unregistered.

(** It returns only if every instance that is not on a cycle is referred to
    at most once by the instances reachable from the root ... *)
Theorem C37_returns_once : forall fresh h l n d h2 inst next n2 l2 s2,
  graph h l -> distinct_uids h l -> uid_serialize h n l = Ok d ->
  (forall i, next <= i -> dget d (fresh i) = None) ->
  uid_deserialize fresh n2 d h2 inst next = (Ok l2, s2) ->
  forall c ls, reach h l c -> (forall a, reach h c a -> ~ In c (refs_at h a)) ->
    NoDup ls -> Forall (reach h l) ls -> count_occ Nat.eq_dec (flat_map (refs_at h) ls) c <= 1.
Proof. exact run_once. Qed.
Print Assumptions C37_returns_once.

(** ... and every other one at most twice, the root at most once. *)
Theorem C37_returns_twice : forall fresh h l n d h2 inst next n2 l2 s2,
  graph h l -> distinct_uids h l -> uid_serialize h n l = Ok d ->
  (forall i, next <= i -> dget d (fresh i) = None) ->
  uid_deserialize fresh n2 d h2 inst next = (Ok l2, s2) ->
  forall c ls, reach h l c -> NoDup ls -> Forall (reach h l) ls ->
    count_occ Nat.eq_dec (flat_map (refs_at h) ls) c + (if Nat.eqb c l then 1 else 0) <= 2.
Proof. exact run_twice. Qed.
Print Assumptions C37_returns_twice.

(** For graphs without cycles this is exact: deserialization returns if and
    only if no uid is registered and no instance is referred to twice. *)
Theorem C37_acyclic_exact : forall fresh h l n d h2 inst next n2,
  graph h l -> distinct_uids h l -> uid_serialize h n l = Ok d ->
  (forall i, next <= i -> dget d (fresh i) = None) ->
  (forall c a, reach h l c -> reach h c a -> ~ In c (refs_at h a)) ->
  length d < n2 ->
  ((exists l2 s2, uid_deserialize fresh n2 d h2 inst next = (Ok l2, s2)) <->
   (forall a, reach h l a -> dget inst (uid_at h a) = None) /\
   (forall ls, NoDup ls -> Forall (reach h l) ls -> NoDup (flat_map (refs_at h) ls))).
Proof. exact acyclic_exact. Qed.
Print Assumptions C37_acyclic_exact.

(** Any graph, with or without cycles: deserialization returns if and only if
    no uid is registered and every instance [c] is referred to at most once by
    the instances reachable from the root without passing [c], and at most
    once by the other ones, [c] among them. *)
Theorem C37_returns_exact : forall fresh h l n d h2 inst next n2,
  graph h l -> distinct_uids h l -> uid_serialize h n l = Ok d ->
  (forall i, next <= i -> dget d (fresh i) = None) ->
  length d < n2 ->
  ((exists l2 s2, uid_deserialize fresh n2 d h2 inst next = (Ok l2, s2)) <->
   (forall a, reach h l a -> dget inst (uid_at h a) = None) /\
   (forall c ls, reach h l c -> NoDup ls -> Forall (reach_past h l c) ls ->
      count_occ Nat.eq_dec (flat_map (refs_at h) ls) c <= 1) /\
   (forall c ls, reach h l c -> NoDup ls -> Forall (fun a => reach h l a /\ ~ reach_past h l c a) ls ->
      count_occ Nat.eq_dec (flat_map (refs_at h) ls) c <= 1)).
Proof. exact any_exact. Qed.
Print Assumptions C37_returns_exact.

(** r -> p, p -> q, q -> p: p, on a cycle, is referred to twice and the graph
    can be deserialized; with a second reference back to p it cannot, nor can
    r -> [p, p]. *)
Definition back1 : list unode := [UN "r" 0 [("x", URef 1)]; UN "p" 0 [("x", URef 2)]; UN "q" 0 [("x", URef 1)]].
Definition back2 : list unode := [UN "r" 0 [("x", URef 1)]; UN "p" 0 [("x", URef 2)]; UN "q" 0 [("x", UList [URef 1; URef 1])]].
Definition same2 : list unode := [UN "r" 0 [("x", UList [URef 1; URef 1])]; UN "p" 0 [("x", UData 3)]].
Definition tree2 : list unode := [UN "r" 0 [("x", UList [URef 1; URef 2])]; UN "p" 0 [("x", UData 3)]; UN "q" 0 []].
Definition rebuilt (h : list unode) (inst : dict nat) : res (res nat * list unode) :=
  match uid_serialize h 5 0 with
  | Ok d => let (r, s) := uid_deserialize (fun _ => "new") 5 d [] inst 0 in Ok (r, ds_heap s)
  | Exc e => Exc e
  end.
Lemma back1_reach m : reach back1 0 m -> m < 3.
Proof. induction 1 as [|m k Hm IH Hk]; [lia|]. do 3 (destruct m as [|m]; [simpl in Hk; lia|]). lia. Qed.
Lemma tree2_reach m : reach tree2 0 m -> m < 3.
Proof. induction 1 as [|m k Hm IH Hk]; [lia|]. do 3 (destruct m as [|m]; [simpl in Hk; lia|]). lia. Qed.
Example C37_returns_ex :
  graph back1 0 /\ distinct_uids back1 0 /\ reach back1 0 1 /\ rebuilt back1 [] = Ok (Ok 0, back1) /\
  count_occ Nat.eq_dec (flat_map (refs_at back1) [0; 1; 2]) 1 = 2 /\
  rebuilt back2 [] = Ok (Exc ExValue, [UN "new" 0 []; UN "new" 0 []; UN "new" 0 []]) /\
  rebuilt same2 [] = Ok (Exc ExValue, [UN "new" 0 []; UN "p" 0 [("x", UData 3)]]) /\
  rebuilt back1 [("q", 7)] = Ok (Exc ExValue, [UN "new" 0 []; UN "new" 0 []]).
Proof.
  split; [intros m Hm; now apply back1_reach|]. split.
  { split.
    - intros a b Ha Hb. apply back1_reach in Ha, Hb.
      do 3 (destruct a as [|a]; [do 3 (destruct b as [|b]; [cbv; congruence|]); lia|]). lia.
    - intros a Ha. apply back1_reach in Ha. do 3 (destruct a as [|a]; [discriminate|]). lia. }
  split; [apply reach_step with 0; [constructor|now left]|]. vm_compute. repeat split.
Qed.

(** In r -> p, p -> q, q -> p and in r -> [p, q], p -> q, q -> p there are two
    references to p.  In the first one q is reached through p only, and the
    graph can be deserialized; in the second one q is reached without p, and it
    cannot. *)
Definition cross : list unode :=
  [UN "r" 0 [("x", UList [URef 1; URef 2])]; UN "p" 0 [("x", URef 2)]; UN "q" 0 [("x", URef 1)]].
Example C37_returns_exact_ex :
  graph back1 0 /\ distinct_uids back1 0 /\ graph cross 0 /\ distinct_uids cross 0 /\
  (exists d, uid_serialize back1 5 0 = Ok d /\ length d < 5 /\ dget d "new" = None) /\
  (exists d, uid_serialize cross 5 0 = Ok d /\ length d < 5 /\ dget d "new" = None) /\
  count_occ Nat.eq_dec (flat_map (refs_at back1) [0; 1; 2]) 1 = 2 /\
  count_occ Nat.eq_dec (flat_map (refs_at cross) [0; 1; 2]) 1 = 2 /\
  (forall a, reach_past back1 0 1 a <-> a = 0) /\ reach_past cross 0 1 0 /\ reach_past cross 0 1 2 /\
  (exists r, rebuilt back1 [] = Ok (Ok 0, r)) /\ (exists r, rebuilt cross [] = Ok (Exc ExValue, r)).
Proof.
  assert (Hr : forall m, reach cross 0 m -> m < 3).
  { induction 1 as [|m k Hm IH Hk]; [lia|]. do 3 (destruct m as [|m]; [simpl in Hk; lia|]). lia. }
  split; [intros m Hm; now apply back1_reach|]. split.
  { split.
    - intros a b Ha Hb. apply back1_reach in Ha, Hb.
      do 3 (destruct a as [|a]; [do 3 (destruct b as [|b]; [cbv; congruence|]); lia|]). lia.
    - intros a Ha. apply back1_reach in Ha. do 3 (destruct a as [|a]; [discriminate|]). lia. }
  split; [intros m Hm; now apply Hr|]. split.
  { split.
    - intros a b Ha Hb. apply Hr in Ha, Hb.
      do 3 (destruct a as [|a]; [do 3 (destruct b as [|b]; [cbv; congruence|]); lia|]). lia.
    - intros a Ha. apply Hr in Ha. do 3 (destruct a as [|a]; [discriminate|]). lia. }
  split; [eexists; split; [vm_compute; reflexivity|]; split; [simpl; lia|reflexivity]|].
  split; [eexists; split; [vm_compute; reflexivity|]; split; [simpl; lia|reflexivity]|].
  split; [reflexivity|]. split; [reflexivity|]. split.
  { intros a. split.
    - induction 1 as [|m k Hm -> Hk Hne]; [reflexivity|]. simpl in Hk. lia.
    - intros ->. apply past_refl. discriminate. }
  split; [apply past_refl; discriminate|]. split.
  { apply past_step with 0; [apply past_refl; discriminate|simpl; tauto|discriminate]. }
  split; eexists; vm_compute; reflexivity.
Qed.
Example C37_acyclic_ex :
  graph tree2 0 /\ distinct_uids tree2 0 /\ (forall c a, reach tree2 0 c -> reach tree2 c a -> ~ In c (refs_at tree2 a)) /\
  rebuilt tree2 [] = Ok (Ok 0, tree2) /\ rebuilt tree2 [("p", 7)] = Ok (Exc ExValue, [UN "new" 0 []]) /\
  uid_at tree2 0 = "r" /\ rebuilt tree2 [("r", 7)] = Ok (Exc ExValue, []).
Proof.
  split; [intros m Hm; now apply tree2_reach|]. split.
  { split.
    - intros a b Ha Hb. apply tree2_reach in Ha, Hb.
      do 3 (destruct a as [|a]; [do 3 (destruct b as [|b]; [cbv; congruence|]); lia|]). lia.
    - intros a Ha. apply tree2_reach in Ha. do 3 (destruct a as [|a]; [discriminate|]). lia. }
  split.
  { intros c a Hc Ha Hin. assert (Ht : a < 3 /\ c < 3).
    { split; [|now apply tree2_reach]. apply tree2_reach.
      clear Hin. induction Ha as [|m k Hm IH Hk]; [exact Hc|econstructor; eauto]. }
    destruct Ht as [Ht Hct]. destruct a as [|a].
    - assert (c = 0); [|subst; simpl in Hin; lia]. revert Ha. clear -Hct. intros Ha.
      assert (G : forall m, reach tree2 c m -> m = c \/ m <> 0).
      { induction 1 as [|m k Hm IH Hk]; [now left|]. right. do 3 (destruct m as [|m]; [simpl in Hk; lia|]). destruct m; simpl in Hk; contradiction. }
      destruct (G 0 Ha) as [E|E]; [auto|congruence].
    - do 2 (destruct a as [|a]; [simpl in Hin; contradiction|]). lia. }
  vm_compute. repeat split.
Qed.

(** With the keyword argument [root] any instance of the dictionary can be
    rebuilt in place of its root: what comes back is isomorphic to the part of
    the graph reachable from that instance. *)
Theorem C37_other_root_isomorphic : forall fresh h l n d h2 inst next n2 l2 s2,
  graph h l -> distinct_uids h l -> uid_serialize h n l = Ok d ->
  (forall i, next <= i -> dget d (fresh i) = None) ->
  forall c, reach h l c -> uid_deserialize_at fresh n2 (uid_at h c) d h2 inst next = (Ok l2, s2) ->
  exists f : nat -> nat, f c = l2 /\
    (forall a x, reach h c a -> nth_error h a = Some x ->
       nth_error (ds_heap s2) (f a) = Some (node_map f x) /\ length h2 <= f a /\ dget (ds_inst s2) (un_uid x) = Some (f a)) /\
    (forall a b, reach h c a -> reach h c b -> f a = f b -> a = b) /\
    (forall m, m < length h2 -> nth_error (ds_heap s2) m = nth_error h2 m).
Proof. exact deserialize_at_iso. Qed.
Print Assumptions C37_other_root_isomorphic.

(** It is rejected like the root if it is registered. *)
Theorem C37_other_root_registered : forall fresh h l n d n2 h2 inst next c,
  graph h l -> distinct_uids h l -> uid_serialize h n l = Ok d -> reach h l c -> dget inst (uid_at h c) <> None ->
  exists s2, uid_deserialize_at fresh (S n2) (uid_at h c) d h2 inst next = (Exc ExValue, s2) /\ ds_heap s2 = h2 /\ ds_inst s2 = inst.
Proof. exact no_copy_at. Qed.
Print Assumptions C37_other_root_registered.

(** Of r -> p, p -> q, q -> p rebuild q: the root r is left out. *)
Example C37_other_root_ex :
  uid_serialize back1 5 0 = Ok [("__root__", JRoot "r"); ("r", JNode (JN "r" 0 [("x", JKey "p")]));
     ("p", JNode (JN "p" 0 [("x", JKey "q")])); ("q", JNode (JN "q" 0 [("x", JKey "p")]))] /\
  (let (r, s) := uid_deserialize_at (fun _ => "new") 5 "q" (match uid_serialize back1 5 0 with Ok d => d | _ => [] end) [] [] 0 in
   (r, ds_heap s)) = (Ok 0, [UN "q" 0 [("x", URef 1)]; UN "p" 0 [("x", URef 0)]]).
Proof. vm_compute. repeat split. Qed.
