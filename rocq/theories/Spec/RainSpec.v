(** * Specification of the rain algorithms, gate by gate

    Written with numbers and if-then-else only; no masks, no arrays. *)
From Verif Require Import Base.Num.
Open Scope fl_scope.

Section RainSpec.
Context {F : Type} `{FloatOps F}.

(** Linear reflectivity of a dBZ value. *)
Definition lin (dbz : F) : F := #10 ** (dbz / #10).

(** The estimators. *)
Definition R_Z (a b dz : F) : F := (lin dz / a) ** (#1 / b).
Definition R_Z_capped (cap a b dz : F) : F :=
  if cap <? dz then R_Z a b cap else R_Z a b dz.
Definition R_Kdp (a b kdp : F) : F := a * kdp ** b.
Definition R_Kdp_Zdr (a b c kdp zdr : F) : F := a * kdp ** b * #10 ** (c * zdr).
Definition R_Z_Zdr (a b c dz zdr : F) : F := a * lin dz ** b * #10 ** (c * zdr).

(** Difference reflectivity (dB), rain line and ice fraction. *)
Definition zdp_of (dz zdr : F) : F :=
  let diff := lin dz - lin dz / lin zdr in
  #10 * flog10 (if diff <=? #0 then #0.000000000001 else diff).
Definition zrain_of (fa fb dz zdr : F) : F := #10 ** ((fa * zdp_of dz zdr + fb) / #10).
Definition ice_fraction (fa fb dz zdr : F) : F := #1 - zrain_of fa fb dz zdr / lin dz.

(** calc_blended_rain, S band: the method by (ice fraction below threshold,
    Z and Kdp at threshold, Zdr at threshold). *)
Definition blended_S_method (ice_free zk_high zdr_high : bool) : Z :=
  if zk_high then (if ice_free && zdr_high then 1 else 2)
  else if ice_free then (if zdr_high then 3 else 4) else 5.

(** calc_blended_rain, other bands. *)
Definition blended_other_method (zk_high : bool) : Z := if zk_high then 2 else 4.

(** csu_hidro_rain.  Classes: 1 drizzle, 2 rain, 10 big drops are rain;
    5 wet snow, 7, 8 graupel, 9 hail are ice. *)
Inductive phase := Rain | Ice | Neither.
Definition phase_of (fhc : F) : phase :=
  if ((fhc ==? #1) || (fhc ==? #2) || (fhc ==? #10))%bool then Rain
  else if ((fhc ==? #5) || (fhc ==? #7) || (fhc ==? #8) || (fhc ==? #9))%bool then Ice
  else Neither.

(** S band: method (0 = none). *)
Definition hidro_S_method (p : phase) (dz_high kdp_high zdr_high : bool) : Z :=
  match p with
  | Rain => if dz_high
            then (if kdp_high then (if zdr_high then 1 else 2) else (if zdr_high then 3 else 4))
            else 4
  | Ice => if kdp_high then 2 else 0
  | Neither => 0
  end.

(** Tropical algorithm without fhc. *)
Definition trop_method (cs : option F) (zk_high zdr_high : bool) : Z :=
  match zk_high, zdr_high with
  | true, true => 1
  | true, false => 2
  | false, true => 3
  | false, false =>
      match cs with
      | None => 4
      | Some c => if c ==? #3 then 4 else if c ==? #1 then 6 else if c ==? #2 then 5 else -1
      end
  end.
End RainSpec.
