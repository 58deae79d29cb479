(** * What is assumed of the C library at the edges of its range

    Facts of pow and log10 of the common C libraries (C99 Annex F): a power
    below e^-1000 (doubles end near e^-745) comes out as plus zero; plus zero
    to a positive power is plus zero; a NaN base with a nonzero exponent, or a
    NaN exponent with a base other than 1, gives NaN; log10 of NaN is NaN and
    log10 of a positive number is off by less than one (in fact by 10^-13). *)
From Coq Require Import Reals ZArith QArith.
From Flocq Require Import Core IEEE754.BinarySingleNaN.
From Verif Require Import Base.Num Base.XReal Base.Ieee Spec.IeeeSpec.
Open Scope R_scope.

Record edges (lm : libm double) : Prop := {
  e_tiny : forall x y a b, val 53 1024 x = Fin a -> val 53 1024 y = Fin b -> 0 < a ->
    Rpower a b < exp (-1000) -> lm_pow lm x y = B754_zero false;
  e_zero : forall y b, val 53 1024 y = Fin b -> 0 < b -> lm_pow lm (B754_zero false) y = B754_zero false;
  e_nan_base : forall y b, val 53 1024 y = Fin b -> b <> 0 -> lm_pow lm B754_nan y = B754_nan;
  e_nan_exp : forall x a, val 53 1024 x = Fin a -> a <> 1 -> lm_pow lm x B754_nan = B754_nan;
  e_log_nan : lm_log10 lm B754_nan = B754_nan;
  e_log : forall x a, val 53 1024 x = Fin a -> 0 < a ->
    exists v, val 53 1024 (lm_log10 lm x) = Fin v /\ Rabs (v - ln a / ln 10) < 1 }.

(** a measurement marked missing by a large negative number (-9999, -32768, ...) *)
Definition missing (x : double) : Prop := exists a, val 53 1024 x = Fin a /\ a <= -9000.
