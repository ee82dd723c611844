(** Equality of leaf values is symmetric. *)
From Verif Require Import World WorldFrame WorldSpec AccessSpec GraphSpec.
From Coq Require Import SpecFloat.
Local Open Scope string_scope.
Local Open Scope list_scope.
Local Open Scope Z_scope.

Lemma SFcompare_swap x y : SFcompare y x = option_map CompOpp (SFcompare x y).
Proof.
  destruct x as [sx|sx| |sx mx ex], y as [sy|sy| |sy my ey]; cbn [SFcompare option_map]; try reflexivity;
    try (destruct sx; reflexivity); try (destruct sy; reflexivity); try (destruct sx, sy; reflexivity).
  f_equal. destruct sx, sy; try reflexivity.
  - rewrite (Z.compare_antisym ex ey). destruct (ex ?= ey); cbn [CompOpp]; try reflexivity.
    change (Pos.compare_cont Eq my mx) with (Pos.compare my mx). change (Pos.compare_cont Eq mx my) with (Pos.compare mx my).
    rewrite (Pos.compare_antisym mx my). now destruct (Pos.compare mx my).
  - rewrite (Z.compare_antisym ex ey). destruct (ex ?= ey); cbn [CompOpp]; try reflexivity.
    change (Pos.compare_cont Eq my mx) with (Pos.compare my mx). change (Pos.compare_cont Eq mx my) with (Pos.compare mx my).
    rewrite (Pos.compare_antisym mx my). now destruct (Pos.compare mx my).
Qed.
Lemma neq_num_comm a b : neq_num a b = neq_num b a.
Proof.
  unfold neq_num. destruct a as [x|x], b as [y|y]; cbn [ncmp].
  - rewrite (Z.compare_antisym x y). now destruct (x ?= y).
  - destruct (fcmpZ y x) as [[| |]|]; reflexivity.
  - destruct (fcmpZ x y) as [[| |]|]; reflexivity.
  - rewrite (SFcompare_swap x y). destruct (SFcompare x y) as [[| |]|]; reflexivity.
Qed.
Lemma feq_comm a b : feq a b = feq b a.
Proof. unfold feq, SFeqb. rewrite (SFcompare_swap a b). destruct (SFcompare a b) as [[| |]|]; reflexivity. Qed.
Lemma abs_round s m e : SFabs (binary_round prec emax s m e) = SFabs (binary_round prec emax false m e).
Proof.
  unfold binary_round. destruct (shl_align _ _ _) as [mz ez]. unfold binary_round_aux.
  destruct (shr_fexp _ _ _ _ _) as [r' e']. destruct (shr_fexp _ _ _ _ _) as [r'' e''].
  destruct (shr_m r''); try reflexivity. destruct (Zle_bool _ _); reflexivity.
Qed.
Lemma abs_normalize m e : SFabs (binary_normalize prec emax (- m) e false) = SFabs (binary_normalize prec emax m e false).
Proof.
  destruct m as [|m|m]; cbn [binary_normalize Z.opp]; [reflexivity| |].
  - apply abs_round.
  - symmetry. apply abs_round.
Qed.
Lemma fabs_fsub_comm x y : fabs (fsub x y) = fabs (fsub y x).
Proof.
  unfold fabs, fsub.
  assert (G : forall sx mx ex sy my ey, SFabs (SFsub prec emax (S754_finite sx mx ex) (S754_finite sy my ey)) =
                                        SFabs (SFsub prec emax (S754_finite sy my ey) (S754_finite sx mx ex))).
  { intros. cbn [SFsub]. rewrite (Z.min_comm ey ex). rewrite <- abs_normalize. f_equal. f_equal. ring. }
  destruct x as [sx|sx| |sx mx ex], y as [sy|sy| |sy my ey]; try apply G;
    try (cbn [SFsub SFabs]; try destruct sx; try destruct sy; reflexivity).
Qed.
Lemma absdiff_comm a b : absdiff a b = absdiff b a.
Proof.
  destruct a as [x|x], b as [y|y]; cbn [absdiff].
  - f_equal. f_equal. lia.
  - cbn [py_float_num]. destruct (fofZ x); cbn [rbind]; [|reflexivity]. now rewrite fabs_fsub_comm.
  - cbn [py_float_num]. destruct (fofZ y); cbn [rbind]; [|reflexivity]. now rewrite fabs_fsub_comm.
  - cbn [py_float_num rbind]. now rewrite fabs_fsub_comm.
Qed.
Lemma float_equal_comm a b : float_equal a b = float_equal b a.
Proof.
  unfold float_equal. destruct (as_num a), (as_num b); try reflexivity. now rewrite absdiff_comm.
Qed.
Lemma complex_equal_comm a b : complex_equal a b = complex_equal b a.
Proof.
  unfold complex_equal. destruct (re_im a) as [[ra ia]|], (re_im b) as [[rb ib]|]; try reflexivity.
  now rewrite (absdiff_comm ra), (absdiff_comm ia).
Qed.
Lemma dt_eqb_comm a b : dt_eqb a b = dt_eqb b a.
Proof.
  unfold dt_eqb. rewrite (Z.eqb_sym (dyear a)), (Z.eqb_sym (dmonth a)), (Z.eqb_sym (dday a)), (Z.eqb_sym (dhour a)),
    (Z.eqb_sym (dmin a)), (Z.eqb_sym (dsec a)), (Z.eqb_sym (dmicro a)). reflexivity.
Qed.
Definition eql := fix eql (l1 l2 : list val) {struct l1} : bool :=
    match l1, l2 with
    | [], [] => true
    | x :: r1, y :: r2 => py_eq x y && eql r1 r2
    | _, _ => false
    end.
Lemma eql_comm l : Forall (fun x => forall y, py_eq x y = py_eq y x) l -> forall k, eql l k = eql k l.
Proof.
  induction 1 as [|x l Hx Hl IH]; intros [|y k]; try reflexivity. cbn [eql]. now rewrite Hx, IH.
Qed.
Lemma as_num_comm a b : match as_num a, as_num b with Some m, Some n => neq_num m n | _, _ => false end =
  match as_num b, as_num a with Some m, Some n => neq_num m n | _, _ => false end.
Proof. destruct (as_num a), (as_num b); try reflexivity. apply neq_num_comm. Qed.
Local Opaque neq_num feq dt_eqb.
Lemma py_eq_comm a : flat a = true -> forall b, py_eq a b = py_eq b a.
Proof.
  induction a as [v Hv|l IH|l IH|l IH|d IH] using val_ind'; intros Hf b.
  - assert (Cx : forall r i (n : num), neq_num (NF r) n && neq_num (NF i) (NZ 0) = neq_num n (NF r) && neq_num (NF i) (NZ 0)).
    { intros r i n. now rewrite neq_num_comm. }
    assert (Cy : forall r i (n : num), neq_num n (NF r) && neq_num (NF i) (NZ 0) = neq_num (NF r) n && neq_num (NF i) (NZ 0)) by auto.
    destruct v; try contradiction; destruct b; cbn [py_eq as_num]; try exact eq_refl;
      try apply neq_num_comm; try apply Cx; try apply Cy; try apply String.eqb_sym; try apply Nat.eqb_sym; try apply N.eqb_sym; try apply dt_eqb_comm.
    match goal with |- feq ?r _ && feq ?i _ = _ => now rewrite (feq_comm r), (feq_comm i) end.
  - cbn [flat] in Hf. rewrite forallb_forall in Hf. destruct b; try reflexivity. change (eql l l0 = eql l0 l). apply eql_comm.
    rewrite Forall_forall in *. auto.
  - cbn [flat] in Hf. rewrite forallb_forall in Hf. destruct b; try reflexivity. change (eql l l0 = eql l0 l). apply eql_comm.
    rewrite Forall_forall in *. auto.
  - discriminate.
  - discriminate.
Qed.
Lemma py_is_comm a : flat a = true -> forall b, py_is a b = py_is b a.
Proof.
  intros H b. pose proof (py_eq_comm a H b) as K. destruct a, b; try reflexivity; try exact K; cbn [py_is].
  - match goal with |- Bool.eqb ?x ?y = _ => destruct x, y; reflexivity end.
  - apply Z.eqb_sym.
Qed.
Lemma leaf_equal_comm t a b : flat a = true -> leaf_equal t a b = leaf_equal t b a.
Proof.
  intros H. destruct t; cbn [leaf_equal]; rewrite ?(py_eq_comm a H b), ?(py_is_comm a H b); auto using float_equal_comm, complex_equal_comm.
Qed.
