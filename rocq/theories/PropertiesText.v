(** Property theorems about numbers, colours and uuids that are given as text
    (C76).  [leaf_validate E rc t v] is [prop.validate(instance, v)]. *)
From Verif Require Import PyBase PyFloat PyVal Colors Basic BasicSpec NumSpec TextSpec TextFacts.
Local Open Scope Z_scope.

(** ** C76: numbers written as text *)
(** [int(text)] and [int(text, 16)] read exactly the texts of the grammar. *)
Theorem C76_int_text : forall base s z, parse_int base s = Some z <-> int_text base (chars s) z.
Proof. intros base s. exact (parse_iff base (chars s)). Qed.
Print Assumptions C76_int_text.
Example C76_int_text_ex :
  int_text 16 (chars " -0x_1f_F ") (-511) /\ parse_int 16 " -0x_1f_F " = Some (-511) /\
  (forall z, ~ int_text 10 (chars "1__0") z).
Proof.
  split; [|split; [reflexivity|intros z H; apply parse_iff in H; discriminate]].
  exists (chars " "), (chars "-"), (chars "0x_"), (chars "1f_F"), (chars " "), (-1), 511.
  split; [reflexivity|]. split; [constructor; [vm_compute; tauto|constructor]|].
  split; [constructor; [vm_compute; tauto|constructor]|]. split; [constructor|].
  split; [constructor; auto|]. split; [|reflexivity].
  apply (ds_under 16 ["1"; "f"]%char 31 "F" 15); [|split; [vm_compute; tauto|reflexivity]].
  apply (ds_next 16 ["1"]%char 1 "f" 15); [|split; [vm_compute; tauto|reflexivity]].
  constructor. split; [vm_compute; tauto|reflexivity].
Qed.

(** A text has at most one value, and it has no more digits than characters. *)
Theorem C76_one_value : forall base s z z', int_text base (chars s) z -> int_text base (chars s) z' -> z = z'.
Proof. exact (fun base s => int_text_uniq base (chars s)). Qed.
Print Assumptions C76_one_value.
Theorem C76_size : forall base s z, 1 < base -> int_text base (chars s) z -> Z.abs z < base ^ Z.of_nat (String.length s).
Proof. exact int_text_size. Qed.
Print Assumptions C76_size.
Example C76_size_ex : int_text 16 (chars "ff") 255 /\ 255 < 16 ^ Z.of_nat (String.length "ff").
Proof. split; [apply parse_iff; reflexivity|reflexivity]. Qed.

(** Integer(cast=True) accepts exactly the decimal texts within its bounds, and
    without cast no text at all; everything else is a ValidationError. *)
Theorem C76_integer : forall E rc mn mx s v, valid_opt mn -> valid_opt mx ->
  (leaf_validate E rc (LfInt true mn mx) (VStr s) = LOk v <->
   exists z, int_text 10 (chars s) z /\ within mn mx (NZ z) /\ v = VInt z).
Proof. exact (fun E rc => integer_text_valid). Qed.
Print Assumptions C76_integer.
Theorem C76_integer_refuses : forall E rc cast mn mx s,
  (forall v, leaf_validate E rc (LfInt cast mn mx) (VStr s) <> LOk v) ->
  leaf_validate E rc (LfInt cast mn mx) (VStr s) = LErr 0.
Proof. exact (fun E rc => integer_text_no). Qed.
Print Assumptions C76_integer_refuses.
Theorem C76_integer_no_cast : forall E rc mn mx s, leaf_validate E rc (LfInt false mn mx) (VStr s) = LErr 0.
Proof. exact (fun E rc => integer_no_cast). Qed.
Print Assumptions C76_integer_no_cast.
Example C76_integer_ex :
  (forall E, leaf_validate E 0 (LfInt true (Some (NZ 0)) None) (VStr " +1_0 ") = LOk (VInt 10)) /\
  int_text 10 (chars " +1_0 ") 10 /\
  (forall E, leaf_validate E 0 (LfInt true (Some (NZ 0)) None) (VStr "-1") = LErr 0) /\
  (forall E, leaf_validate E 0 (LfInt true None None) (VStr "0x10") = LErr 0).
Proof. split; [reflexivity|]. split; [apply parse_iff; reflexivity|]. split; reflexivity. Qed.

(** Color accepts exactly the colour texts, besides the names and 'random'. *)
Theorem C76_color : forall E rc s v, (forall h, ~ In (s, h) COLORS_NAMED) -> str_upper s <> "RANDOM"%string ->
  (leaf_validate E rc LfColor (VStr s) = LOk v <->
   exists r g b, v = VTuple [VInt r; VInt g; VInt b] /\ color_text s r g b).
Proof. exact (fun E => color_text_spec). Qed.
Print Assumptions C76_color.
Theorem C76_color_refuses : forall E rc v, (forall w, leaf_validate E rc LfColor v <> LOk w) ->
  leaf_validate E rc LfColor v = LErr 0.
Proof. exact (fun E => color_refuses). Qed.
Print Assumptions C76_color_refuses.
Example C76_color_ex :
  (forall h, ~ In ("##-0 fF_", h)%string COLORS_NAMED) /\
  color_text "##-0 fff" 0 15 255 /\
  (forall E, leaf_validate E 0 LfColor (VStr "##-0 fff") = LOk (VTuple [VInt 0; VInt 15; VInt 255])) /\
  (forall E, leaf_validate E 0 LfColor (VStr "-1-1-1") = LErr 0) /\
  (forall E, leaf_validate E 0 LfColor (VStr "_f0000") = LErr 0).
Proof.
  split; [intros h I; vm_compute in I; intuition discriminate|].
  split; [|repeat split; reflexivity].
  exists 2%nat, (chars "-0 fff"). split; [reflexivity|]. split; [discriminate|]. split; [|lia].
  exists "-"%char, "0"%char, " "%char, "f"%char, "f"%char, "f"%char. split; [now left|].
  repeat split; apply parse_iff; reflexivity.
Qed.
(** Uuid.from_json accepts exactly the uuid texts; other texts are a ValueError. *)
Theorem C76_uuid : forall E s,
  (forall v, leaf_from_json E LfUuid (VStr s) = Ok v <-> exists n, v = VUuid n /\ uuid_text s n) /\
  ((forall n, ~ uuid_text s n) -> leaf_from_json E LfUuid (VStr s) = Exc ExValue).
Proof. exact (fun E => uuid_from_text). Qed.
Print Assumptions C76_uuid.
Example C76_uuid_ex :
  uuid_text "urn:uuid:{00000000-0000-0000-0000-0000000000ff}" 255 /\
  uuid_text "--0x_000000000000000000000000000-f " 15 /\
  forall n, ~ uuid_text "000000000000000000000000000000ff0" n.
Proof.
  split; [apply uuid_text_spec; reflexivity|]. split; [apply uuid_text_spec; reflexivity|].
  intros n H. apply uuid_text_spec in H. vm_compute in H. discriminate.
Qed.
