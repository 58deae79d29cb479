(** * The rain algorithms with their default numbers, in real arithmetic

    Plain real functions of one gate: [d] reflectivity (dBZ), [r] differential
    reflectivity (dB), [k] specific differential phase (deg/km).  Each returns
    (method code, rain rate in mm/h).  Nothing here refers to the model. *)
From Coq Require Import Reals ZArith.
Open Scope R_scope.

Definition lg (x : R) : R := ln x / ln 10.
Definition Zlin (d : R) : R := Rpower 10 (d / 10).
(** difference reflectivity Zh - Zv in dB, with the floor 1e-12 *)
Definition Zdp_dB (d r : R) : R :=
  let x := Zlin d - Zlin d / Zlin r in
  10 * lg (if Rle_dec x 0 then 1 / 1000000000000 else x).
(** rain-only reflectivity (dBZ) on the default line of Carey and Rutledge 1995 *)
Definition rain_dBZ (d r : R) : R := 0.9091 * Zdp_dB d r + 8.5091.
Definition ice_frac (d r : R) : R := 1 - Zlin (rain_dBZ d r) / Zlin d.

(** The S-band estimators of calc_blended_rain / csu_hidro_rain. *)
Definition nexrad (d : R) : R := Rpower (Zlin (Rmin d 53) / 300) (1 / 1.4).
Definition by_kdp (k : R) : R := 40.5 * Rpower k 0.85.
Definition by_kdp_zdr (k r : R) : R := 90.8 * Rpower k 0.93 * Rpower 10 (-0.169 * r).
Definition by_z_zdr (d r : R) : R := 0.0067 * Rpower (Zlin d) 0.927 * Rpower 10 (-0.343 * r).

Definition blended_S (d r k : R) : Z * R :=
  if Rle_dec 38 d then
    if Rle_dec 0.3 k then
      if Rlt_dec (ice_frac d r) 0.1 then
        if Rle_dec 0.5 r then (1%Z, by_kdp_zdr k r) else (2%Z, by_kdp k)
      else (2%Z, by_kdp k)
    else if Rlt_dec (ice_frac d r) 0.1 then
        if Rle_dec 0.5 r then (3%Z, by_z_zdr d r) else (4%Z, nexrad d)
      else (5%Z, nexrad (rain_dBZ d r))
  else if Rlt_dec (ice_frac d r) 0.1 then
        if Rle_dec 0.5 r then (3%Z, by_z_zdr d r) else (4%Z, nexrad d)
      else (5%Z, nexrad (rain_dBZ d r)).

Definition blended_other (d k : R) : Z * R :=
  if Rle_dec 38 d then
    if Rle_dec 0.3 k then (2%Z, by_kdp k) else (4%Z, nexrad d)
  else (4%Z, nexrad d).

(** csu_hidro_rain, by class. *)
Definition is_rain_class (c : R) : Prop := c = 1 \/ c = 2 \/ c = 10.
Definition is_ice_class (c : R) : Prop := c = 5 \/ c = 7 \/ c = 8 \/ c = 9.
Definition hidro_S_rain (d r k : R) : Z * R :=
  if Rle_dec 38 d then
    if Rle_dec 0.3 k then
      if Rle_dec 0.5 r then (1%Z, by_kdp_zdr k r) else (2%Z, by_kdp k)
    else if Rle_dec 0.5 r then (3%Z, by_z_zdr d r) else (4%Z, nexrad d)
  else (4%Z, nexrad d).
Definition hidro_S_ice (k : R) : Z * R :=
  if Rle_dec 0.3 k then (2%Z, by_kdp k) else (0%Z, 0).

(** Tropical (Thompson et al.) estimators by band. *)
Inductive tband := TS | TC | TX.
Definition t_kdp (b : tband) (k : R) : R :=
  match b with
  | TS => 59.5202 * Rpower k 0.7451
  | TC => 34.5703 * Rpower k 0.7331
  | TX => 21.9729 * Rpower k 0.7221
  end.
Definition t_kdp_zdr (b : tband) (k r : R) : R :=
  match b with
  | TS => 96.5726 * Rpower k 0.9315 * Rpower 10 (-0.21140 * r)
  | TC => 45.6976 * Rpower k 0.8763 * Rpower 10 (-0.16718 * r)
  | TX => 28.1289 * Rpower k 0.9194 * Rpower 10 (-0.16876 * r)
  end.
Definition t_z_zdr (b : tband) (d r : R) : R :=
  match b with
  | TS => 0.0085 * Rpower (Zlin d) 0.9237 * Rpower 10 (-0.52389 * r)
  | TC => 0.0086 * Rpower (Zlin d) 0.9088 * Rpower 10 (-0.42059 * r)
  | TX => 0.0085 * Rpower (Zlin d) 0.9294 * Rpower 10 (-0.44580 * r)
  end.
Definition t_z_all (d : R) : R := Rpower (Zlin d / 216) (1 / 1.39).
Definition t_z_conv (d : R) : R := Rpower (Zlin d / 126) (1 / 1.39).
Definition t_z_strat (d : R) : R := Rpower (Zlin d / 291) (1 / 1.55).

(** [echo]: what the convective/stratiform map says at the gate. *)
Inductive echo := NoMap | Strat | Conv | Mixed.
Definition t_z (e : echo) (d : R) : Z * R :=
  match e with
  | NoMap | Mixed => (4%Z, t_z_all d)
  | Conv => (5%Z, t_z_conv d)
  | Strat => (6%Z, t_z_strat d)
  end.
Definition tropical (b : tband) (e : echo) (d r k : R) : Z * R :=
  if Rlt_dec d (-10) then ((-1)%Z, 0) else
  if Rle_dec 38 d then
    if Rle_dec 0.3 k then
      if Rle_dec 0.25 r then (1%Z, t_kdp_zdr b k r) else (2%Z, t_kdp b k)
    else if Rle_dec 0.25 r then (3%Z, t_z_zdr b d r) else t_z e d
  else if Rle_dec 0.25 r then (3%Z, t_z_zdr b d r) else t_z e d.
