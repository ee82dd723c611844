(** Property theorems about the sharing of containers, [C83]. *)
From Verif Require Import PyBase Sharing SharingSpec SharingFacts.
Local Open Scope list_scope.
Local Open Scope nat_scope.

(** An accepted container is copied at every level that has a container property: the
    copies are new and all different, and hold the converted items. *)
Theorem C83_copied : forall V p v h v' h', closed h -> exists_in h v -> s_validate V p v h = (Some v', h') ->
  stands_for V h p v (view h' p v') /\ NoDup (parts h' p v') /\ (forall a, In a (parts h' p v') -> length h <= a) /\
  exists new, h' = h ++ new.
Proof. exact copied. Qed.
Print Assumptions C83_copied.
Theorem C83_refused : forall V p v h h', closed h -> exists_in h v -> s_validate V p v h = (None, h') -> forall t, ~ stands_for V h p v t.
Proof. exact refused. Qed.
Print Assumptions C83_refused.
(** So in all histories the containers that make up the value of a property were made
    for that property and are part of no other, and nobody else's, ... *)
Theorem C83_private : forall V T xs k v, tame_from V T nothing xs -> let s := after V T xs in s_store s k = Some v ->
  forall a, In a (parts (s_heap s) (T k) v) -> made_for s a k.
Proof. exact private. Qed.
Print Assumptions C83_private.
Theorem C83_disjoint : forall V T xs k j v u, tame_from V T nothing xs -> k <> j -> let s := after V T xs in
  s_store s k = Some v -> s_store s j = Some u -> forall a, In a (parts (s_heap s) (T k) v) -> ~ In a (parts (s_heap s) (T j) u).
Proof. exact disjoint. Qed.
Print Assumptions C83_disjoint.
(** ... and nothing but an action on the property or on containers made for it changes
    what is seen of its value. *)
Theorem C83_isolated : forall V T xs x k, tame_from V T nothing xs -> let s := after V T xs in ~ concerns s x k ->
  seen T (snd (act V T x s)) k = seen T s k.
Proof. exact isolated. Qed.
Print Assumptions C83_isolated.
(** serialize gives new containers, made for no property. *)
Theorem C83_json : forall V T xs k r s', tame_from V T nothing xs -> let s := after V T xs in act V T (ASerialize k) s = (Some r, s') ->
  NoDup (parts (s_heap s') (T k) r) /\ forall a, In a (parts (s_heap s') (T k) r) -> length (s_heap s) <= a /\ forall j, ~ made_for s' a j.
Proof. exact json_new. Qed.
Print Assumptions C83_json.

(** Integers below 100; JSON adds 1000.  Kind 0: lists, 1: tuples *)
Definition V1 : senv := SE (fun _ n => if Nat.ltb n 100 then Some n else None) (fun _ n => Some (1000 + n)) (fun _ n => Some (n - 1000))
  (fun _ _ => true) (fun _ => 0).
(** properties 0 and 1: List(List(Integer)) with coerce inside; others: Property *)
Definition T1 (k : nat) : stype := match k with 0 | 1 => TCont 0 false (TCont 0 true (TLeaf 0)) | _ => TAny end.
(** l = [5]; x.a = [l, l, (7,), 8]; y.b = x.a *)
Definition X1 : list saction := [ANew (Cell 0 [] [SAtom 5]); ANew (Cell 1 [] [SAtom 7]);
  ANew (Cell 0 [] [SRef 0; SRef 0; SRef 1; SAtom 8]); AAssign 0 (SRef 2); AAssign 1 (SRef 7)].
Definition tree1 : stree := Node 0 [] [Node 0 [] [Plain (SAtom 5)]; Node 0 [] [Plain (SAtom 5)]; Node 0 [] [Plain (SAtom 7)]; Node 0 [] [Plain (SAtom 8)]].
Example C83_copied_ex : let h := s_heap (after V1 T1 (firstn 3 X1)) in
  closed h /\ exists_in h (SRef 2) /\ (exists h', s_validate V1 (T1 0) (SRef 2) h = (Some (SRef 7), h') /\ view h' (T1 0) (SRef 7) = tree1 /\
    parts h' (T1 0) (SRef 7) = [7; 3; 4; 5; 6]) /\
  (exists h', s_validate V1 (TCont 0 false (TLeaf 0)) (SRef 2) h = (None, h')).
Proof.
  split; [repeat constructor|]. split; [repeat constructor|]. split; eexists; vm_compute; auto.
Qed.
Example C83_refused_ex : let h := [Cell 0 [] [SAtom 5; SAtom 100]] in
  closed h /\ exists_in h (SRef 0) /\ s_validate V1 (TCont 0 false (TLeaf 0)) (SRef 0) h = (None, h).
Proof. split; [repeat constructor|]. split; [repeat constructor|]. reflexivity. Qed.
(** x.a[0].append(6), x.a.pop(), l.append(9), j = serialize, j[0].clear(), and with
    observe_mutations y.b.append(l) *)
Definition X2 : list saction := X1 ++ [AChange 3 (Cell 0 [] [SAtom 5; SAtom 6]); AChange 7 (Cell 0 [] [SRef 3; SRef 4; SRef 5]);
  AChange 0 (Cell 0 [] [SAtom 5; SAtom 9]); ASerialize 0; AChange 13 (Cell 0 [] []);
  AMutate 1 (Cell 0 [] [SRef 8; SRef 9; SRef 10; SRef 11; SRef 0])].
Example C83_private_ex : tame_from V1 T1 nothing X2 /\ let s := after V1 T1 X2 in
  s_store s 0 = Some (SRef 7) /\ parts (s_heap s) (T1 0) (SRef 7) = [7; 3; 4; 5] /\
  seen T1 s 0 = Some (Node 0 [] [Node 0 [] [Plain (SAtom 5); Plain (SAtom 6)]; Node 0 [] [Plain (SAtom 5)]; Node 0 [] [Plain (SAtom 7)]]) /\
  seen T1 s 1 = Some (Node 0 [] [Node 0 [] [Plain (SAtom 5)]; Node 0 [] [Plain (SAtom 5)]; Node 0 [] [Plain (SAtom 7)]; Node 0 [] [Plain (SAtom 8)];
    Node 0 [] [Plain (SAtom 5); Plain (SAtom 9)]]).
Proof.
  split; [|vm_compute; auto].
  cbn -[Nat.ltb]. repeat split; intros k c0 M N b Hb; vm_compute in N; try (injection N as <-); cbn in *; intuition (try discriminate; try congruence; auto).
Qed.
(** d = [[5]] is the default of both properties: x.a = d, y.b = d *)
Example C83_disjoint_ex : let xs := [ANew (Cell 0 [] [SAtom 5]); ANew (Cell 0 [] [SRef 0]); AAssign 0 (SRef 1); AAssign 1 (SRef 1)] in
  tame_from V1 T1 nothing xs /\ let s := after V1 T1 xs in
  s_store s 0 = Some (SRef 3) /\ s_store s 1 = Some (SRef 5) /\ parts (s_heap s) (T1 0) (SRef 3) = [3; 2] /\
  parts (s_heap s) (T1 1) (SRef 5) = [5; 4] /\ seen T1 s 0 = seen T1 s 1.
Proof. vm_compute. repeat split. Qed.
Example C83_isolated_ex : let s := after V1 T1 X1 in
  ~ concerns s (AChange 0 (Cell 0 [] [])) 0 /\ ~ concerns s (AChange 3 (Cell 0 [] [])) 1 /\ concerns s (AChange 3 (Cell 0 [] [])) 0 /\
  seen T1 s 1 = Some tree1.
Proof. vm_compute. repeat split; try discriminate. Qed.
Example C83_json_ex : exists r s', act V1 T1 (ASerialize 0) (after V1 T1 X1) = (Some r, s') /\ parts (s_heap s') (T1 0) r = [17; 13; 14; 15; 16].
Proof. do 2 eexists. vm_compute. auto. Qed.

(** Not so for Property itself, which accepts everything: a list assigned to one is kept,
    so that properties with the same default share it, and so does the JSON. *)
Theorem C83_property_refuted : exists V T xs k j a, T k = TAny /\ T j = TAny /\ k <> j /\ tame_from V T nothing xs /\
  let s := after V T xs in
  s_store s k = Some (SRef a) /\ s_store s j = Some (SRef a) /\ nth_error (s_made s) a = Some None /\
  exists s', act V T (ASerialize k) s = (Some (SRef a), s').
Proof.
  exists V1, T1, [ANew (Cell 0 [] []); AAssign 2 (SRef 0); AAssign 3 (SRef 0)], 2, 3, 0. repeat split; try discriminate. eexists. reflexivity.
Qed.
Print Assumptions C83_property_refuted.
