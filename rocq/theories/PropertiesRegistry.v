(** Property theorems about class registries [C63]. *)
From Coq Require Import Lia.
From Verif Require Import Registry RegistrySpec RegistryFacts.
Local Open Scope string_scope.
Local Open Scope list_scope.
Local Open Scope nat_scope.

(** Classes A and B (a child of A); HasUID, which has a registry of its own, and
    a child U of it; a second class B. *)
Definition R_prog : list (string * list nat * bool) :=
  [("A", [0], false); ("B", [1; 0], false); ("HasUID", [0], true); ("U", [3; 0], false); ("B", [0], false)].
Definition R_T : rtable := declare_all r_start R_prog.

(** After any declarations, a name is looked up among the classes registered
    with the same dictionary: it gives the last one declared with this name. *)
Theorem C63_registry : forall l c o s d, program_ok r_start l -> registered_with (declare_all r_start l) c o ->
  (dget (registry (declare_all r_start l) c) s = Some d <-> last_named (declare_all r_start l) o s d).
Proof. exact registry_spec. Qed.
Print Assumptions C63_registry.
(** Every class is registered somewhere. *)
Theorem C63_owner : forall l c, program_ok r_start l -> c < length (declare_all r_start l) ->
  exists o, registered_with (declare_all r_start l) c o.
Proof. exact has_owner. Qed.
Print Assumptions C63_owner.
(** The class that a trusted deserialization constructs. *)
Theorem C63_class : forall l c o t s strict x, let T := declare_all r_start l in
  program_ok r_start l -> registered_with T c o -> named T c t ->
  deserialize_class T c (Some s) true strict = x ->
  (s = "" \/ s = t -> x = Ok c) /\
  (s <> "" -> s <> t -> forall d, last_named T o s d -> x = Ok d) /\
  (s <> "" -> s <> t -> (forall d, ~ last_named T o s d) -> x = if strict then Exc ExValue else Ok c).
Proof. exact class_spec. Qed.
Print Assumptions C63_class.
(** An untrusted one constructs only the class it is called on. *)
Theorem C63_untrusted : forall T c t s strict x, named T c t -> deserialize_class T c s false strict = x ->
  (s = None \/ s = Some "" \/ s = Some t -> x = Ok c) /\
  (forall u, s = Some u -> u <> "" -> u <> t -> x = if strict then Exc ExValue else Ok c).
Proof. exact class_untrusted. Qed.
Print Assumptions C63_untrusted.
(** What was serialized by an instance of [d] is restored to an instance of [d],
    when read by another class, exactly if [d] is the last class of its name
    registered with that class, and that class has another name. *)
Theorem C63_restored : forall l c o d s strict, let T := declare_all r_start l in
  program_ok r_start l -> registered_with T c o -> named T d s -> s <> "" -> d <> c ->
  (deserialize_class T c (Some s) true strict = Ok d <-> ~ named T c s /\ last_named T o s d).
Proof. exact class_restored. Qed.
Print Assumptions C63_restored.

Lemma R_ok : program_ok r_start R_prog.
Proof.
  unfold R_prog. cbn [program_ok].
  repeat (split; [split; [simpl; auto|intros p H; cbn [In] in H; match goal with |- _ < ?n => let m := eval vm_compute in n in change (p < m) end; intuition lia]|]).
  exact I.
Qed.
Example C63_ex_restored : registered_with R_T 0 0 /\ last_named R_T 0 "A" 1 /\ deserialize_class R_T 0 (Some "A") true true = Ok 1.
Proof.
  assert (W : registered_with R_T 0 0) by (apply reg_owner_spec; vm_compute; reflexivity).
  split; [exact W|]. split; [|vm_compute; reflexivity]. apply (C63_registry _ _ _ _ _ R_ok W). vm_compute. reflexivity.
Qed.
(** A class of the same name, declared later anywhere in the program, takes its place. *)
Theorem C63_same_name_refuted : exists l c d s, let T := declare_all r_start l in
  program_ok r_start l /\ named T d s /\ registered_with T d 0 /\ registered_with T c 0 /\ ~ named T c s /\
  exists e, deserialize_class T c (Some s) true true = Ok e /\ e <> d.
Proof.
  exists R_prog, 0, 2, "B". cbv zeta. split; [exact R_ok|]. split; [eexists; split; [vm_compute; reflexivity|reflexivity]|].
  split; [apply reg_owner_spec; vm_compute; reflexivity|]. split; [apply reg_owner_spec; vm_compute; reflexivity|].
  split; [intros (x & E & H); vm_compute in E; injection E as <-; discriminate H|].
  exists 5. split; [vm_compute; reflexivity|discriminate].
Qed.
Print Assumptions C63_same_name_refuted.
(** The classes of a new registry, such as that of HasUID, are not found by the
    classes above it, nor those above it by them. *)
Theorem C63_new_registry_refuted : exists l c d s t, let T := declare_all r_start l in
  program_ok r_start l /\ named T c t /\ named T d s /\ s <> t /\ s <> "" /\ t <> "" /\
  (exists x, nth_error T d = Some x /\ In c (rc_mro x)) /\
  deserialize_class T c (Some s) true true = Exc ExValue /\ deserialize_class T d (Some t) true true = Exc ExValue.
Proof.
  exists R_prog, 0, 4, "U", "HasProperties". cbv zeta. split; [exact R_ok|].
  split; [eexists; split; [vm_compute; reflexivity|reflexivity]|]. split; [eexists; split; [vm_compute; reflexivity|reflexivity]|].
  split; [discriminate|]. split; [discriminate|]. split; [discriminate|].
  split; [eexists; split; [vm_compute; reflexivity|simpl; auto]|]. split; vm_compute; reflexivity.
Qed.
Print Assumptions C63_new_registry_refuted.
