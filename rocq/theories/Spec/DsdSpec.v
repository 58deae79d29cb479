(** * Specification of the drop size distribution retrievals at one gate, in
    real numbers *)
From Coq Require Import Reals.
Open Scope R_scope.

Record dsd_point := DP { D0 : R; NW : R; MU : R }.

Definition linZ (dbz : R) : R := Rpower 10 (dbz / 10).

(** Bringi et al. (2009), C band *)
Definition d0_2009 (zdr : R) : R :=
  if Rlt_dec zdr (-5/10) then 0
  else if Rle_dec zdr (125/100)
  then 203/10000 * zdr^4 - 1488/10000 * zdr^3 + 2209/10000 * zdr^2 + 5571/10000 * zdr + 801/1000
  else 355/10000 * zdr^3 - 3021/10000 * zdr^2 + 10556/10000 * zdr + 6844/10000.

(** Bringi et al. (2013), S band *)
Definition d0_2013 (zdr : R) : R :=
  if Rlt_dec zdr 1
  then 424/10000 * zdr^4 - 4571/10000 * zdr^3 + 6125/10000 * zdr^2 + 457/1000 * zdr + 8808/10000
  else 536/10000 * zdr^3 - 1971/10000 * zdr^2 + 6261/10000 * zdr + 10815/10000.

(** Bringi et al. (2004), S band.  [m2], [m4] are the diameters of methods 2
    (A.15) and 4 (A.20). *)
Definition d0_m2 (zdr : R) : R := 181/100 * Rpower zdr (486/1000).
Definition d0_m4 (dbz zdr : R) : R :=
  6096/10000 * Rpower (linZ dbz) (516/10000) * Rpower (linZ zdr) (3111/1000).
(** Eq. A.18 as printed: a convex combination of the two *)
Definition d0_A18 (dbz zdr : R) : R :=
  (zdr - 2/10) / (3/10) * d0_m2 zdr + (5/10 - zdr) / (3/10) * d0_m4 dbz zdr.
Definition nw_A17 (dbz d0 : R) : R := 21 * linZ dbz / Rpower d0 (73529/10000).

Definition beta_2004 (dbz kdp zdr : R) : R :=
  208/100 * Rpower (linZ dbz) (-365/1000) * Rpower kdp (38/100) * Rpower (linZ zdr) (965/1000).
Definition m1 (dbz zdr kdp : R) : dsd_point :=
  let be := beta_2004 dbz kdp zdr in
  let z := linZ dbz in let zeta := linZ zdr in
  let d0 := 56/100 * Rpower z (64/1000) * Rpower zeta (24/1000 * Rpower be (-142/100)) in
  {| D0 := d0;
     NW := Rpower 10 (329/100 * Rpower z (58/1000) * Rpower zeta (-23/1000 * Rpower be (-1389/1000)));
     MU := 203 * Rpower be (189/100) * (Rpower d0 (223/100 * Rpower be (388/10000)) / (zeta - 1))
           - 316/100 * Rpower be (-463/10000) * Rpower zeta (374/1000 * Rpower be (-355/1000)) |}.

(** Which 2004 method serves a gate (None: the gate is left at zero). *)
Inductive m04 := M1 | M2 | M3 | M4.
Definition select_2004 (dbz zdr kdp : R) : option m04 :=
  if Rle_dec (3/10) kdp then
    if Rle_dec 35 dbz then if Rle_dec (2/10) zdr then Some M1 else None else None
  else if Rle_dec (5/10) zdr then Some M2
  else if Rle_dec (2/10) zdr then Some M3
  else if Rle_dec (-5/10) zdr then Some M4
  else None.
