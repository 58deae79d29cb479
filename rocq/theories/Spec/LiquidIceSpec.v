(** * Specification of the Zdp liquid/ice partition at one gate, in real numbers *)
From Coq Require Import Reals.
Open Scope R_scope.

(** linear reflectivities *)
Definition Zh (dbz : R) : R := Rpower 10 (dbz / 10).
Definition Zv (dbz zdr : R) : R := Rpower 10 (dbz / 10) / Rpower 10 (zdr / 10).
(** difference reflectivity in dB, floored *)
Definition Zdp (dbz zdr : R) : R :=
  let x := Zh dbz - Zv dbz zdr in
  10 * (ln (if Rle_dec x 0 then 1 / 1000000000000 else x) / ln 10).
(** excess of the reflectivity over the rain line, never negative *)
Definition excess (fa fb dbz zdr : R) : R := Rmax 0 (dbz - (fa * Zdp dbz zdr + fb)).
(** threshold on the excess, by height and freezing level *)
Definition delta_threshold (hfrz z : R) : R :=
  if Rle_dec z hfrz then 8 / 3 * (hfrz - z) + 2 else 11 / 10.
(** partition of the reflectivity *)
Definition Z_rain (fa fb dbz zdr : R) : R := Zh dbz * Rpower 10 (- (excess fa fb dbz zdr) / 10).
Definition Z_ice (fa fb dbz zdr : R) : R := Zh dbz - Z_rain fa fb dbz zdr.
(** mass relations, g m^-3 *)
Definition water_all_rain (zh zv : R) : R :=
  70 / 100 * Rpower 10 (-3) * Rpower zh (886 / 1000) * Rpower (zh / zv) (- 4159 / 1000).
Definition water_of (zr : R) : R := 344 / 100 * Rpower 10 (-3) * Rpower zr (4 / 7).
Definition ice_of (zi : R) : R :=
  1000 * PI * 917 * Rpower (4 * Rpower 10 6) (3 / 7)
  * Rpower (528 / 100 * Rpower 10 (-18) * zi / 720) (4 / 7).
Definition spec_water (fa fb hfrz dbz zdr z : R) : R :=
  if Rlt_dec zdr 0 then 0
  else if Rlt_dec (excess fa fb dbz zdr) (delta_threshold hfrz z)
       then water_all_rain (Zh dbz) (Zv dbz zdr)
       else water_of (Z_rain fa fb dbz zdr).
Definition spec_ice (fa fb hfrz dbz zdr z : R) : R :=
  if Rlt_dec (excess fa fb dbz zdr) (delta_threshold hfrz z) then 0
  else ice_of (Z_ice fa fb dbz zdr).
