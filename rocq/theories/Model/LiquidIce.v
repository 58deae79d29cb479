(** * Model of csu_radartools/csu_liquid_ice_mass.py *)
From Verif Require Import Base.Num.
From Verif Require Model.Common.
Set Implicit Arguments.
Open Scope fl_scope.

Section LiquidIce.
Context {F : Type} `{FloatOps F}.

(** csu_liquid_ice_mass.py:18 *)
Definition DEFAULT_HFRZ : F := #4.5.

(** csu_liquid_ice_mass.py:81-83, linearize (one element) *)
Definition linearize (dz : F) : F := #10 ** (dz / #10).

(** csu_liquid_ice_mass.py:136-157, get_linear_fits *)
Definition get_linear_fits (method : string) : F * F :=
  if String.eqb method "cifelli" then (#0.8178, #12.5088)
  else if String.eqb method "cr1995" then (#0.9091, #8.5091)
  else (#0.77, #14).

(** csu_liquid_ice_mass.py:160-162, calc_zh_zv on arrays *)
Definition calc_zh_zv (dbz zdr : list F) : list F * list F :=
  let Zh := map linearize dbz in
  (Zh, map2 (fun zh r => zh / linearize r) Zh zdr).

(** csu_liquid_ice_mass.py:165-168, calc_zdp on arrays *)
Definition calc_zdp (Zh Zv : list F) : list F :=
  let Z_dp := map2 fsub Zh Zv in
  let Z_dp := msetc (map (fun d => d <=? #0) Z_dp) (#0.000000000001) Z_dp in
  map (fun d => #10 * flog10 d) Z_dp.

(** csu_liquid_ice_mass.py:123-133, get_delta_thresh on arrays *)
Definition get_delta_thresh (z : list F) (Hfrz : F) : list F :=
  let delta_thresh := map (fun _ => #0 + #1.1) z in
  let cond := map (fun h => h <=? Hfrz) z in
  mset cond (map (fun h => ((#0 - #8) / #3) * (h - Hfrz) + #2) z) delta_thresh.

(** np.interp(x, [x0, x1], [f0, f1]): two-point linear interpolation, constant
    outside (external routine, modelled from its documentation for
    x0 <= x1) *)
Definition interp2 (x x0 x1 f0 f1 : F) : F :=
  if x <? x0 then f0
  else if x1 <? x then f1
  else if x ==? x1 then f1
  else ((f1 - f0) / (x1 - x0)) * (x - x0) + f0.

(** np.argsort(z) applied to the pairs (z, T): an insertion sort on z.  numpy's
    default sort is not stable; for distinct heights the order is the same. *)
Fixpoint insert_zT (p : F * F) (l : list (F * F)) : list (F * F) :=
  match l with
  | [] => [p]
  | q :: r => if fst q <? fst p then q :: insert_zT p r else p :: l
  end.
Definition sort_zT (l : list (F * F)) : list (F * F) := fold_right insert_zT [] l.

(** np.max / np.min of an array: NaN if any element is NaN; empty raises *)
Definition npmax2 (x y : F) : F :=
  if fisnan x then x else if fisnan y then y else if x <? y then y else x.
Definition npmin2 (x y : F) : F :=
  if fisnan x then x else if fisnan y then y else if y <? x then y else x.
Definition npmax (l : list F) : res F :=
  match l with [] => Raise ValueError | x :: r => Ok (fold_left npmax2 r x) end.
Definition npmin (l : list F) : res F :=
  match l with [] => Raise ValueError | x :: r => Ok (fold_left npmin2 r x) end.
(** np.argmax: index of the first maximum (no NaN among the values) *)
Fixpoint argmax_from (best : F) (bi i : nat) (l : list F) : nat :=
  match l with
  | [] => bi
  | x :: r => if best <? x then argmax_from x i (S i) r else argmax_from best bi (S i) r
  end.
Definition argmax (l : list F) : res nat :=
  match l with [] => Raise ValueError | x :: r => Ok (argmax_from x 0 1 r) end.

(** csu_liquid_ice_mass.py:86-120, get_freezing_altitude on raveled arrays.
    [polyfit1 Tz zs] stands for [np.polyfit(Tz, zs, 1)[1]] (external).
    [PyNone]: fell off the end of the function.  Different sizes: the boolean
    index of line 98 raises, which the bare except catches; line 106 then takes
    the temperatures at the positions of the heights, an IndexError when there
    are fewer temperatures than heights. *)
Definition get_freezing_altitude (polyfit1 : list F -> list F -> F)
  (T z : list F) : res F :=
  match (if (List.length T =? List.length z)%nat then npmax (msel (map (fun t => t ==? #0) T) z)
         else Raise IndexError) with
  | Ok m => Ok m
  | _ =>
      if (List.length T <? List.length z)%nat then Raise IndexError else
      let srt := sort_zT (combine z T) in
      let zs := map fst srt in
      let Tz := map snd srt in
      mx <- npmax T ;; mn <- npmin T ;;
      if ((mx >? #0) && (mn <? #0))%bool then
        zarg <- argmax (msel (map (fun t => t >? #0) Tz) zs) ;;
        match skipn zarg Tz, skipn zarg zs with
        | ta :: tb :: _, za :: zb :: _ =>
            if tb <? ta then Ok (interp2 (#0) tb ta zb za)
            else Ok (interp2 (#0) ta tb za zb)
        | _, _ => Raise IndexError
        end
      else if ((mx <? #0) || (mn >? #0))%bool then Ok (polyfit1 Tz zs)
      else PyNone
  end.

(** csu_liquid_ice_mass.py:171-181, _get_hfrz.  Its only caller has already
    turned [T] into an array, so the scalar branch (warn) is not modelled. *)
Definition get_hfrz (polyfit1 : list F -> list F -> F)
  (T : option (list F)) (z : list F) (Hfrz : option F) : res F :=
  match T, Hfrz with
  | _, Some h => Ok h
  | None, None => Ok DEFAULT_HFRZ
  | Some t, None => get_freezing_altitude polyfit1 t z
  end.

(** csu_liquid_ice_mass.py:184-216, _liquid_ice_calcs on arrays.
    [fit_a] given and [fit_b] None: [fit_a * Zdp + None] raises TypeError. *)
Definition liquid_ice_calcs (dbz zdr delta_thresh : list F) (fit_a fit_b : option F)
  : res (list F * list F) :=
  let mass_w := map (fun d => d * #0) dbz in
  let mass_i := map (fun d => d * #0) dbz in
  let '(Zh, Zv) := calc_zh_zv dbz zdr in
  let Zdp := calc_zdp Zh Zv in
  ' (fa, fb) <- match fit_a, fit_b with
                | None, _ => Ok (get_linear_fits "cifelli")
                | Some a, Some b => Ok (a, b)
                | Some _, None => Raise TypeError
                end ;;
  let dbz_est := map (fun p => fa * p + fb) Zdp in
  let delta_z := map2 fsub dbz dbz_est in
  let delta_z := msetc (map (fun d => d <? #0) delta_z) (#0) delta_z in
  let ice_frac := map (fun d => #1 - #10 ** (#(-0.1) * d)) delta_z in
  let Zh_rain := map2 (fun zh fr => zh * (#1 - fr)) Zh ice_frac in
  let Zh_ice := map2 fsub Zh Zh_rain in
  let check := map2 fsub delta_z delta_thresh in
  let above := map (fun c => c >=? #0) check in
  let below := map (fun c => c <? #0) check in
  let mass_w := mset below
    (map2 (fun zh zv => #0.70 * #10 ** #(-3) * zh ** #0.886 * (zh / zv) ** #(-4.159)) Zh Zv)
    mass_w in
  let mass_w := mset above
    (map (fun zr => #3.44 * #10 ** #(-3) * zr ** (#4 / #7)) Zh_rain) mass_w in
  let mass_i := mset above
    (map (fun zi => #1000 * fpi * #917 * (#4 * #10 ** #6) ** (#3 / #7)
                    * ((#5.28 * #10 ** #(-18) * zi) / #720) ** (#4 / #7)) Zh_ice) mass_i in
  let mass_w := msetc (map (fun r => r <? #0) zdr) (#0) mass_w in
  Ok (mass_w, mass_i).

(** csu_liquid_ice_mass.py:21-78, calc_liquid_ice_mass.  Arrays are raveled (lines
    58-62), so only their sizes matter, and the masses take dbz's shape.  Either
    all of dbz, zdr, z are arrays or all are numbers, anything else is [Unmodelled]. zdr meets dbz at line
    190, z's thresholds meet dbz at line 204, after the freezing level is known.
    [method] is accepted and never read (csu_liquid_ice_mass.py:73-74). *)
Definition calc_liquid_ice_mass (polyfit1 : list F -> list F -> F)
  (dbz zdr z : pyarg F) (T : pyarg F) (Hfrz : option F) (method : string)
  (fit_a fit_b : option F) : res (pyret F * pyret F) :=
  let core (d r h : list F) (t : option (list F)) : res (list F * list F) :=
    hf <- get_hfrz polyfit1 t h Hfrz ;;
    let delta_thresh := get_delta_thresh h hf in
    if negb (List.length d =? List.length r)%nat then Common.misfit [([List.length d], [List.length r])] else
    if negb (List.length d =? List.length h)%nat then
      match fit_a, fit_b with
      | Some _, None => Raise TypeError
      | _, _ => Common.misfit [([List.length d], [List.length h])]
      end else
    liquid_ice_calcs d r delta_thresh fit_a fit_b in
  match dbz, zdr, z with
  | AArr d, AArr r, AArr h =>
      t <- match T with
           | ANone => Ok None
           | AArr a => Ok (Some (adata a))
           | AScalar _ _ => Unmodelled
           end ;;
      ' (mw, mi) <- core (adata d) (adata r) (adata h) t ;;
      Ok (RArr (ashape d) mw, RArr (ashape d) mi)
  | AScalar _ d, AScalar _ r, AScalar _ h =>
      t <- match T with
           | ANone => Ok None
           | AScalar _ v => Ok (Some [v])
           | AArr _ => Unmodelled
           end ;;
      ' (mw, mi) <- core [d] [r] [h] t ;;
      w <- elem0 mw ;; i <- elem0 mi ;; Ok (w, i)
  | _, _, _ => Unmodelled
  end.

End LiquidIce.
