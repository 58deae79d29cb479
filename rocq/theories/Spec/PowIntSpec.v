(** * What is assumed of the C library's pow in the drop-size retrievals

    One unit in the last place where the result is far from overflow and
    underflow, for positive bases and, with the exponents 1 to 4, for bases of
    either sign; zero to these powers is zero, and a zero of either sign to a
    positive power that is not a whole number is plus zero (C99 Annex F). *)
From Coq Require Import Reals ZArith QArith.
From Flocq Require Import Core IEEE754.BinarySingleNaN.
From Verif Require Import Base.Num Base.XReal Base.Ieee Spec.IeeeSpec.
Open Scope R_scope.

Record pow_int (lm : libm double) : Prop := {
  pi_pow : pow_accurate lm;
  pi_int : forall x a n, (1 <= n <= 4)%nat -> val 53 1024 x = Fin a ->
    a = 0 \/ exp (-100) <= Rabs a <= exp 100 ->
    exists v, val 53 1024 (lm_pow lm x (b_lit 53 1024 p53 e1024 (inject_Z (Z.of_nat n)))) = Fin v /\
      Rabs (v - a ^ n) <= bpow radix2 (-52) * Rabs (a ^ n);
  pi_zero : forall x y b, val 53 1024 x = Fin 0 -> val 53 1024 y = Fin b -> 0 < b ->
    (forall n, b <> IZR n) -> lm_pow lm x y = B754_zero false }.
