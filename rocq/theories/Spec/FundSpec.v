(** Physical quantities used to state the properties of fundamentals.py. *)
From Coq Require Import Reals.
Open Scope R_scope.

(** the speed of light the module uses, m/s *)
Definition c0 : R := 300000000.
(** degrees to radians *)
Definition rad (x : R) : R := x * (PI / 180).
(** decibels to a linear ratio *)
Definition lin (g : R) : R := Rpower 10 (g / 10).
(** a linear ratio to decibels *)
Definition dB (z : R) : R := 10 * (ln z / ln 10).
(** the imaginary part and the squared modulus of (m^2 - 1) / (m^2 + 2) for
    m = n + i k: with m^2 = u + i v, u = n^2 - k^2, v = 2 n k *)
Definition kim (n k : R) : R :=
  3 * (2 * n * k) / ((n ^ 2 - k ^ 2 + 2) ^ 2 + (2 * n * k) ^ 2).
Definition kabs2 (n k : R) : R :=
  ((n ^ 2 - k ^ 2 - 1) ^ 2 + (2 * n * k) ^ 2) / ((n ^ 2 - k ^ 2 + 2) ^ 2 + (2 * n * k) ^ 2).
