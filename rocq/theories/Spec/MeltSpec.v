(** * What the melting-level detection should compute

    Gates are records; arrays are lists of gates. *)
From Coq Require Import Reals List Permutation Sorted ZArith.
From Verif Require Import Base.XReal.
Import ListNotations.
Open Scope R_scope.

(** m is the median of l: mean of the two middle elements of the sorted list
    (the same element twice for an odd count) *)
Definition is_median (l : list R) (m : R) : Prop :=
  exists s, Permutation l s /\ StronglySorted Rle s /\
    m = (nth ((length l - 1) / 2) s 0 + nth (length l / 2) s 0) / 2.

(** wet snow is class 2 of the melting-layer step *)
Definition wet_snow (c : Z) : bool := (c =? 2)%Z.

(** RHI: heights of wet-snow gates within 1.5 km of e *)
Definition near_points (e : R) (gs : list (Z * xr)) : list R :=
  flat_map (fun g => match g with
    | (c, Fin z) => if wet_snow c then if Rle_dec (Rabs (z - e)) (3 / 2) then [z] else [] else []
    | _ => [] end) gs.

(** 0 below (warm), 2 above (cold), 1 at the level *)
Definition level (m : R) (z : xr) : Z :=
  match z with
  | Fin z => if Rlt_dec z m then 0 else if Rlt_dec m z then 2 else 1
  | NInf => 0 | PInf => 2 | NaN => 1
  end%Z.

(** PPI *)
Record gate := mkgate { g_class : Z; g_height : R; g_dz : option R (* None: NaN *) }.

(** the azimuth a lies in sector i of n - 1 equal sectors of [0, 360) *)
Definition in_sector (n : nat) (i : nat) (a : R) : bool :=
  let w := 360 / INR (n - 1) in
  if Rle_dec (INR i * w) a then if Rlt_dec a (INR (S i) * w) then true else false else false.

(** all gates of a scan: (azimuth, gate) *)
Definition scan_gates (rays : list (R * list gate)) : list (R * gate) :=
  flat_map (fun r => map (fun g => (fst r, g)) (snd r)) rays.

Definition sector_gates n i (rays : list (R * list gate)) : list gate :=
  map snd (filter (fun ag => in_sector n i (fst ag)) (scan_gates rays)).
Definition sector_wet n i rays : list gate := filter (fun g => wet_snow (g_class g)) (sector_gates n i rays).

Definition dz_values (gs : list gate) : list R :=
  flat_map (fun g => match g_dz g with Some z => [z] | None => [] end) gs.
Definition Rsum (l : list R) : R := fold_right Rplus 0 l.
Definition mean (l : list R) : R := Rsum l / INR (length l).

(** the sector has a melting level: more than one gate in a thousand is wet
    snow, their mean reflectivity exceeds 15 dBZ, and their median height is
    within 2 km of the expected one *)
Definition sector_ok n i rays (e med : R) : Prop :=
  INR (length (sector_gates n i rays)) < 1000 * INR (length (sector_wet n i rays)) /\
  dz_values (sector_wet n i rays) <> [] /\ 15 < mean (dz_values (sector_wet n i rays)) /\
  Rabs (med - e) <= 2.

Definition sector_height n i rays (e h : R) : Prop :=
  exists med, is_median (map g_height (sector_wet n i rays)) med /\
    ((sector_ok n i rays e med /\ h = med) \/ (~ sector_ok n i rays e med /\ h = 0)).

(** ** run_winter: the code of one gate
    [bad]: rho missing or too low, or signal-to-noise ratio too low;
    [wet]: the melting-layer step says wet snow; [lev]: 0 warm, 1 melting, 2
    cold; [w], [c]: index of the best warm and cold class. *)
Definition winter_code (bad wet grid : bool) (lev : Z) (w c : nat) : Z :=
  (if bad then -1
   else if wet then 5
   else if lev =? 0 then 6 + Z.of_nat w
   else if lev =? 2 then 1 + Z.of_nat c
   else if ((lev =? 1) && grid)%bool then 1 + Z.of_nat c
   else -1)%Z.
