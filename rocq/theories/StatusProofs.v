(** Proofs behind PropertiesStatus.v *)
From Verif Require Import World WorldSpec WorldFacts NumSpec BasicSpec BasicProofs WorldExample Status StatusSpec StatusFacts StatusLoop.
From Coq Require Import Lia.
Local Open Scope string_scope.
Local Open Scope list_scope.
Local Open Scope nat_scope.

Lemma percent_percentage v n : as_num v = Some n -> valid_num n -> within (Some (NZ 0)) (Some (NZ 1)) n -> n <> NF S754_nan ->
  exists z, percent v = Ok z /\ percentage n z.
Proof.
  intros A V W N. destruct (percent_unit n V W N v A) as (z & u & H & B & X & Y).
  exists z. split; auto. split; auto. exists u. auto.
Qed.

(** * An example: the class TaskStatus alone *)
Definition c_status : cls := Cls "TaskStatus" status_props [] [] [CVProps] [0] [].
Definition C_st : ctable := CT [c_status] [("TaskStatus", 0)].
Definition w_status (kw : list (string * val)) : world :=
  snd (exec E1 C_st U1 20 (COp (ONew 0 (Some kw))) w_empty).
(** 0.285: a percentage of 28 or 29 *)
Definition f285 : float := S754_finite false 5134103575202365 (-54).
Definition w_285 : world := w_status [("progress", VFloat f285); ("message", VStr "loading")].

Lemma w_285_typed : well_typed C_st w_285.
Proof.
  intros l name d v (c & (i & Hi & Hc) & Hd) Hk Hs. unfold stored in Hs.
  assert (w_heap w_285 = [Inst 0 [("progress", VFloat f285); ("message", VStr "loading")] [] (Some false) false false []]) as H by (vm_compute; reflexivity).
  rewrite H in *. destruct l as [|[|l]]; try discriminate. injection Hi as <-. injection Hc as <-.
  destruct (String.eqb_spec name "progress") as [-> |Np].
  - injection Hs as <-. injection Hd as <-. cbn. exists f285. split; auto. intros _ _ _. split; intros m Hm; injection Hm as <-; vm_compute; discriminate.
  - destruct (String.eqb_spec name "message") as [-> |Nm].
    2: { exfalso. apply dget_in in Hd. cbn in Hd. destruct Hd as [X|[X|[]]]; injection X; intros; congruence. }
    injection Hs as <-. injection Hd as <-. cbn.
    exists "loading", (chars "loading"). split; [discriminate|]. split; [|reflexivity].
    apply (BasicProofs.stripped_spec [] (chars "loading")).
Qed.
