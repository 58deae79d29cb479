(** * Accuracy of the C library's elementary functions in double precision

    One unit in the last place at most for pow, log and sin, two for log10 (the
    bounds common libms document); [np.pi] is the double nearest to pi. *)
From Coq Require Import ZArith QArith Reals.
From Flocq Require Import Core IEEE754.BinarySingleNaN.
From Verif Require Import Base.Num Base.XReal Base.Ieee Spec.IeeeSpec.
Open Scope R_scope.

(** [x] stands for the real number [v] *)
Definition denotes (x : double) (v : R) : Prop := val 53 1024 x = Fin v.
(** [x] is [v] up to the relative error [e] *)
Definition within (e : R) (x : double) (v : R) : Prop :=
  exists w, denotes x w /\ Rabs (w - v) <= e * Rabs v.

Record libm_accurate (lm : libm double) : Prop := {
  acc_pow : pow_accurate lm;
  acc_pi : within (bpow radix2 (-53)) (lm_pi lm) PI;
  acc_log : within (bpow radix2 (-52)) (lm_log lm (b_lit 53 1024 p53 e1024 2)) (ln 2);
  acc_log10 : forall x a, denotes x a -> exp (-500) <= a <= exp 500 ->
    within (bpow radix2 (-51)) (lm_log10 lm x) (ln a / ln 10);
  acc_sin : forall x a, denotes x a -> a = 0 \/ exp (-100) <= a <= 21 / 10 ->
    within (bpow radix2 (-52)) (lm_sin lm x) (sin a) }.

(** a quantity given in SI units: a positive double between 1e-10 and 1e10 *)
Definition quantity (x : double) (v : R) : Prop := denotes x v /\ / 10 ^ 10 <= v <= 10 ^ 10.
(** a gain or loss in decibels: zero, or of a size between 1e-10 and 100 dB *)
Definition decibels (x : double) (g : R) : Prop := denotes x g /\ (g = 0 \/ / 10 ^ 10 <= Rabs g <= 100).
