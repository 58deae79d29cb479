(** * What is assumed of the C library in the floating-point theorems

    IEEE-754 fixes + - * / sqrt and the comparisons, not pow.  These are facts
    of every pow (C99 Annex F): in the format of the data, the sign bit of
    [pow x y] is clear when that of [x] is, and always for the exponent 2.  A
    NaN counts as having a clear sign bit. *)
From Coq Require Import ZArith QArith Bool Reals.
From Flocq Require Import Core IEEE754.BinarySingleNaN.
From Verif Require Import Base.Num Base.XReal Base.Ieee.

Section S.
Variables (prec emax : Z).
Context (Hp : Prec_gt_0 prec) (He : Prec_lt_emax prec emax).
Notation bf := (binary_float prec emax).

Record pow_signs (lm : libm bf) : Prop := {
  pow_pos : forall x y, Bsign x = false -> Bsign (lm_pow lm x y) = false;
  pow_sq : forall x, Bsign (lm_pow lm x (b_lit prec emax Hp He 2)) = false }.

(** a power of ten with an exponent that is not positive is at most one; pi is
    positive *)
Record pow_ten (lm : libm bf) : Prop := {
  pow_10 : forall y, Bleb y (b_lit prec emax Hp He 0) = true ->
     Bleb (lm_pow lm (b_lit prec emax Hp He 10) y) (b_lit prec emax Hp He 1) = true;
  pi_pos : Bsign (lm_pi lm) = false }.

(** zero to a positive power is zero *)
Definition pow_zero (lm : libm bf) : Prop :=
  forall y, Bltb (b_lit prec emax Hp He 0) y = true -> lm_pow lm (b_lit prec emax Hp He 0) y = b_lit prec emax Hp He 0.
End S.

(** IEEE double precision with single-precision storage *)
Definition p53 : Prec_gt_0 53 := eq_refl.
Definition e1024 : Prec_lt_emax 53 1024 := eq_refl.
Definition p24 : Prec_gt_0 24 := eq_refl.
Definition e128 : Prec_lt_emax 24 128 := eq_refl.
Notation double := (binary_float 53 1024).
(** [np1]: NumPy before 2.0; [lm]: the C library *)
Definition double_ops (np1 : bool) (lm : libm double) : FloatOps double :=
  ieee_ops 53 1024 24 128 p53 e1024 p24 e128 np1 lm.

(** pow returns x to the power y to within one unit in the last place, for x > 0
    and results far from overflow and underflow (the bound common libms document) *)
Definition pow_accurate (lm : libm double) : Prop :=
  forall x y a b, val 53 1024 x = Fin a -> val 53 1024 y = Fin b -> (0 < a)%R ->
  (exp (-500) <= Rpower a b <= exp 500)%R ->
  exists v, val 53 1024 (lm_pow lm x y) = Fin v /\
    (Rabs (v - Rpower a b) <= bpow radix2 (-52) * Rpower a b)%R.

(** a crude C library that meets all of the above (for the non-vacuity
    examples): x ** y is 1 for y <= 0, |x| otherwise *)
Definition lm_stub : libm double :=
  mklibm (fun x y => if Bleb y (b_lit 53 1024 p53 e1024 0) then b_lit 53 1024 p53 e1024 1 else Babs x)
    (fun x => x) (fun x => x) (fun x => x) (fun x => x) (fun x => x)
    (b_lit 53 1024 p53 e1024 (Qmake 355 113)).
Lemma stub_signs : pow_signs 53 1024 p53 e1024 lm_stub.
Proof.
  split.
  - intros x y _. cbn [lm_stub lm_pow]. destruct (Bleb _ _); [vm_compute; reflexivity|now destruct x].
  - intro x. cbn [lm_stub lm_pow].
    replace (Bleb (b_lit 53 1024 p53 e1024 2) (b_lit 53 1024 p53 e1024 0)) with false by (vm_compute; reflexivity).
    now destruct x.
Qed.
Lemma stub_ten : pow_ten 53 1024 p53 e1024 lm_stub.
Proof.
  split.
  - intros y Hy. cbn [lm_stub lm_pow]. rewrite Hy. vm_compute. reflexivity.
  - vm_compute. reflexivity.
Qed.
Lemma stub_zero : pow_zero 53 1024 p53 e1024 lm_stub.
Proof.
  intros y Hy. cbn [lm_stub lm_pow].
  replace (Bleb y (b_lit 53 1024 p53 e1024 0)) with false; [reflexivity|].
  change (b_lit 53 1024 p53 e1024 0) with (B754_zero false : double) in *.
  destruct y as [s|[]| |[] m e H]; cbn in *; congruence || reflexivity.
Qed.
