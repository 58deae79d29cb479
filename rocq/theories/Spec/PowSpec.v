(** * What is assumed of the C library's pow in the theorems on classifier accuracy

    Facts of the pow of the common C libraries: accurate to one unit in the last
    place where the result is far from overflow and underflow; a square does not
    care about the sign; zero to a positive power is zero; a result beyond
    e^500 comes out as infinity or a number of that size, one below e^-500 as
    a number not above e^-499 (zero included). *)
From Coq Require Import Reals.
From Flocq Require Import Core IEEE754.BinarySingleNaN.
From Verif Require Import Base.Num Base.XReal Base.Ieee Spec.IeeeSpec.
Open Scope R_scope.

Record pow_good (lm : libm double) : Prop := {
  pg_accurate : pow_accurate lm;
  pg_square : forall x a, val 53 1024 x = Fin a -> a <> 0 -> exp (-500) <= a ^ 2 <= exp 500 ->
    exists v, val 53 1024 (lm_pow lm x (b_lit 53 1024 p53 e1024 2)) = Fin v /\
      Rabs (v - a ^ 2) <= bpow radix2 (-52) * a ^ 2;
  pg_zero : forall x y b, val 53 1024 x = Fin 0 -> val 53 1024 y = Fin b -> 0 < b ->
    val 53 1024 (lm_pow lm x y) = Fin 0;
  pg_large : forall x y a b, val 53 1024 x = Fin a -> val 53 1024 y = Fin b -> 0 < a ->
    exp 500 < Rpower a b ->
    val 53 1024 (lm_pow lm x y) = PInf \/ exists v, val 53 1024 (lm_pow lm x y) = Fin v /\ exp 499 <= v;
  pg_small : forall x y a b, val 53 1024 x = Fin a -> val 53 1024 y = Fin b -> 0 < a ->
    Rpower a b < exp (-500) ->
    exists v, val 53 1024 (lm_pow lm x y) = Fin v /\ 0 <= v <= exp (-499) }.
