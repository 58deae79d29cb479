(** * Model of csu_radartools/fundamentals.py

    Formulas are given for one element, in the order the source evaluates
    them; numpy applies them elementwise.  The functions whose docstring lets
    two arguments be arrays are also modelled at array level ([nd]). *)
From Coq Require Import Ascii.
From Verif Require Import Base.Num.
Set Implicit Arguments.
Open Scope fl_scope.

(** Python floats raise ZeroDivisionError on x / 0; numpy floats and arrays do
    not. *)
Inductive kind := PyFloat | NpFloat.

(** The ASCII part of str.upper (no other character has W, D, B or M as its
    upper case). *)
Definition upper_ascii (c : ascii) : ascii :=
  let n := nat_of_ascii c in
  if ((97 <=? n) && (n <=? 122))%nat%bool then ascii_of_nat (n - 32)%nat else c.
Fixpoint upper (s : string) : string :=
  match s with
  | EmptyString => EmptyString
  | String c r => String (upper_ascii c) (upper r)
  end.

Section Fundamentals.
Context {F : Type} `{FloatOps F}.

(** fundamentals.py:29-32, the module constants *)
Definition speed_of_light : F := #300000000.
Definition k_boltz : F := #(Qmake 1381 (10 ^ 26)).
Definition earth_radius : F := #6371000.
Definition r43 : F := earth_radius * #4 / #3.

(** np.deg2rad (numpy computes x * (pi / 180)) *)
Definition deg2rad (x : F) : F := x * (fpi / #180).

(** x / y for the two kinds of number *)
Definition kdiv (k : kind) (x y : F) : res F :=
  match k with
  | PyFloat => if feq y #0 then Raise ZeroDivisionError else Ok (x / y)
  | NpFloat => Ok (x / y)
  end.

(** ** Arrays: a number or an ndarray, numpy broadcasting of a number against
    an array, of equal shapes, and of two 1-D arrays.  Other pairs of shapes
    are outside the model. *)
Inductive nd := NS (x : F) | NA (shape : list nat) (d : list F).

Definition nd1 (f : F -> F) (x : nd) : nd :=
  match x with NS v => NS (f v) | NA s d => NA s (map f d) end.

Definition nd2 (f : F -> F -> F) (x y : nd) : res nd :=
  match x, y with
  | NS a, NS b => Ok (NS (f a b))
  | NS a, NA s d => Ok (NA s (map (f a) d))
  | NA s d, NS b => Ok (NA s (map (fun v => f v b) d))
  | NA s d, NA t e =>
      if shape_eqb s t then Ok (NA s (map2 f d e))
      else match s, t with
           | [_], [_] =>
               match d, e with
               | [a], _ => Ok (NA t (map (f a) e))
               | _, [b] => Ok (NA s (map (fun v => f v b) d))
               | _, _ => Raise ValueError
               end
           | _, _ => Unmodelled
           end
  end.

(** ** System *)

(** fundamentals.py:41-59, antenna_gain *)
Definition antenna_gain (p1 p2 : F) : F := #10 * flog10 (p1 / p2).
Definition antenna_gain_nd (p1 p2 : nd) : res nd :=
  r <- nd2 fdiv p1 p2 ;; Ok (nd1 (fun v => #10 * flog10 v) r).
(** fundamentals.py:62-71, frequency *)
Definition frequency (wl : F) : F := speed_of_light / wl.
(** fundamentals.py:74-83, wavelength *)
Definition wavelength (freq : F) : F := speed_of_light / freq.
(** fundamentals.py:86-100, pulse_length *)
Definition pulse_length (pdur : F) : F := speed_of_light * pdur / #2.
(** fundamentals.py:103-112, pulse_duration *)
Definition pulse_duration (tau : F) : F := #2 * tau / speed_of_light.

(** fundamentals.py:115-155, radar_const.  [numer] is a numpy float (deg2rad),
    so the division never raises. *)
Definition radar_const (power_t gain tau wl bw_h bw_v aloss rloss : F) : F :=
  let alosslin := #10 ** (aloss / #10) in
  let rlosslin := #10 ** (rloss / #10) in
  let gainlin := #10 ** (gain / #10) in
  let bw_hr := deg2rad bw_h in
  let bw_vr := deg2rad bw_v in
  let numer := fpi ** #3 * speed_of_light * power_t * gainlin ** #2 * tau *
               bw_hr * bw_vr * alosslin * rlosslin in
  let denom := #1024 * flog #2 * wl ** #2 in
  numer / denom.

(** fundamentals.py:158-173, ant_eff_area *)
Definition ant_eff_area (gain wl : F) : F :=
  let gainlin := #10 ** (gain / #10) in
  gainlin * wl ** #2 / (#4 * fpi).

(** fundamentals.py:176-195, power_target *)
Definition power_target (power_t gain areat range : F) : F :=
  let gainlin := #10 ** (gain / #10) in
  (power_t * gainlin * areat) / (#4 * fpi * range ** #2).

(** fundamentals.py:198-225, xsec_bscatter_sphere (default dielectric 0.93) *)
Definition dielectric_default : F := #0.93.
Definition xsec_bscatter_sphere (diam wl dielectric : F) : F :=
  (fpi ** #5 * dielectric ** #2 * diam ** #6) / wl ** #4.

(** fundamentals.py:228-258, norm_xsec_bscatter_sphere *)
Definition norm_xsec_bscatter_sphere (diam wl dielectric : F) : F :=
  let sig := xsec_bscatter_sphere diam wl dielectric in
  sig / (fpi * (diam / #2) ** #2).

(** fundamentals.py:261-284, size_param *)
Definition size_param (diam wl : F) : F := #2 * fpi * diam / #2 / wl.

(** fundamentals.py:287-310, power_return_target *)
Definition power_return_target (power_t gain wl sig range : F) : F :=
  let gainlin := #10 ** (gain / #10) in
  (power_t * gainlin ** #2 * wl ** #2 * sig) / (#64 * fpi ** #3 * range ** #4).

(** fundamentals.py:313-342, thermal_noise (default noise_temp 290.).  The
    unknown-units branch prints a message and returns the number NaN whatever
    the bandwidth's shape.  Python's 10**-3 is the float 0.001. *)
Definition noise_temp_default : F := #290.
Definition thermal_noise (bandwidth : nd) (units : string) (noise_temp : F) : nd :=
  let noise := nd1 (fun b => k_boltz * noise_temp * b) bandwidth in
  if String.eqb (upper units) "W" then noise
  else if String.eqb (upper units) "DBM" then nd1 (fun x => #10 * flog10 (x / #0.001)) noise
  else NS fnan.

(** ** Doppler *)

(** fundamentals.py:349-359, fmax *)
Definition fmax (prf : F) : F := prf / #2.
(** fundamentals.py:362-374, vmax *)
Definition vmax (prf wl : F) : F := prf * wl / #4.
Definition vmax_nd (prf wl : nd) : res nd :=
  r <- nd2 fmul prf wl ;; Ok (nd1 (fun v => v / #4) r).
(** fundamentals.py:377-379, nyquist *)
Definition nyquist (prf wl : F) : F := vmax prf wl.
(** fundamentals.py:382-392, rmax *)
Definition rmax (prf : F) : F := speed_of_light / (#2 * prf).
(** fundamentals.py:395-397, unambiguous_range *)
Definition unambiguous_range (prf : F) : F := rmax prf.
(** fundamentals.py:400-420, doppler_dilemma *)
Definition doppler_dilemma (varin wl : F) : F := (speed_of_light * wl / #8) / varin.

(** fundamentals.py:427-452, vel_shift.  [len] of a 0-d array raises
    TypeError, for the first argument and then for the second; a list or an
    ndarray of at least one dimension has a length. *)
Definition np_len (x : nd) : res nat :=
  match x with
  | NS _ => Raise TypeError
  | NA [] _ => Raise TypeError
  | NA (n :: _) _ => Ok n
  end.
Definition vel_shift (ground_speed psi : nd) : res nd :=
  _ <- np_len ground_speed ;;
  _ <- np_len psi ;;
  nd2 fmul ground_speed (nd1 (fun p => fcos (deg2rad p)) psi).

(** fundamentals.py:455-477, vmax_dual *)
Definition vmax_dual (k : kind) (wl prf1 prf2 : F) : res F :=
  t1 <- kdiv k #1 prf1 ;;
  t2 <- kdiv k #1 prf2 ;;
  kdiv k wl (#4 * (t1 - t2)).
(** fundamentals.py:480-482, dual_nyquist *)
Definition dual_nyquist (k : kind) (wl prf1 prf2 : F) : res F := vmax_dual k wl prf1 prf2.

(** ** Geometry *)

(** fundamentals.py:490-509, r_effective (default dndh -39e-6) *)
Definition dndh_default : F := #(Qmake (-39) 1000000).
Definition r_effective (k : kind) (dndh : F) : res F :=
  let inv := #1 / (earth_radius / #1000) in
  t <- kdiv k #1 (inv + dndh) ;;
  Ok (t * #1000).

(** fundamentals.py:512-527, half_power_radius *)
Definition half_power_radius (range bwhalf : F) : F := range * deg2rad bwhalf / #2.

(** fundamentals.py:530-560, ray_height (default reff r43) *)
Definition ray_height (range elev h0 reff : F) : F :=
  let term1 := fsqrt (range ** #2 + reff ** #2 +
                      #2 * range * reff * fsin (deg2rad elev)) in
  term1 - reff + h0.

(** fundamentals.py:563-586, sample_vol_ideal *)
Definition sample_vol_ideal (r bw_h bw_v pulse_len : F) : F :=
  fpi * (r * deg2rad bw_h / #2) * (r * deg2rad bw_v / #2) * (pulse_len / #2).

(** fundamentals.py:589-616, sample_vol_gauss *)
Definition sample_vol_gauss (range bw_h bw_v pulse_len : F) : F :=
  let numer := fpi * range ** #2 * deg2rad bw_h * deg2rad bw_v * pulse_len in
  let denom := #16 * flog #2 in
  numer / denom.

(** fundamentals.py:619-654, range_correct: its first statement reads the
    undefined name [hheight] (the parameter is called height). *)
Definition range_correct (range height elev : nd) : res nd := Raise NameError.

(** fundamentals.py:657-691, beam_block_frac.  [numer] is a numpy float
    (np.sqrt), so only [y / a] can raise. *)
Definition beam_block_frac (k : kind) (terrain beam_height a : F) : res F :=
  let y := terrain - beam_height in
  q <- kdiv k y a ;;
  let numer := y * fsqrt (a ** #2 - y ** #2) + a ** #2 * fasin q +
               fpi * a ** #2 / #2 in
  let denom := fpi * a ** #2 in
  Ok (numer / denom).

(** ** Variables *)

(** fundamentals.py:698-739, reflectivity: calls the undefined name
    [radar_constant] (the function is called radar_const). *)
Definition reflectivity (power_t gain pulse_width wl bw_h bw_v aloss rloss
                         power_return range dielectric : nd) : res nd := Raise NameError.

(** fundamentals.py:742-759, radial_velocity *)
Definition radial_velocity (freq wl : F) : F := freq * wl / #2.
Definition radial_velocity_nd (freq wl : nd) : res nd :=
  r <- nd2 fmul freq wl ;; Ok (nd1 (fun v => v / #2) r).

(** fundamentals.py:762-792, cdr *)
Definition cdr (par orth : F) : F := #10 * flog10 (par / orth).
Definition cdr_nd (par orth : nd) : res nd :=
  r <- nd2 fdiv par orth ;; Ok (nd1 (fun v => #10 * flog10 v) r).
(** fundamentals.py:795-822, ldr *)
Definition ldr (z_h z_v : F) : F := #10 * flog10 (z_h / z_v).
Definition ldr_nd (z_h z_v : nd) : res nd :=
  r <- nd2 fdiv z_h z_v ;; Ok (nd1 (fun v => #10 * flog10 v) r).
(** fundamentals.py:825-848, zdr *)
Definition zdr (z_h z_v : F) : F := #10 * flog10 (z_h / z_v).
Definition zdr_nd (z_h z_v : nd) : res nd :=
  r <- nd2 fdiv z_h z_v ;; Ok (nd1 (fun v => #10 * flog10 v) r).

(** np.atleast_1d *)
Definition atleast_1d (x : pyarg F) : res (arr F) :=
  match x with
  | ANone => Unmodelled
  | AScalar d v => Ok (arr1 d v)
  | AArr a => match ashape a with
              | [] => Ok (mkarr (adt a) [1%nat] (adata a))
              | _ => Ok a
              end
  end.
(** len of an array of at least one dimension *)
Definition alen (a : arr F) : nat := match ashape a with [] => 0%nat | n :: _ => n end.

(** fundamentals.py:851-879, zdp.  The result has the dtype of z_h
    (np.full_like): an integer array stores truncated values.  Arrays of equal
    first dimension but different shapes are outside the model. *)
Definition zdp (z_h z_v : pyarg F) : res (list nat * list F) :=
  zh <- atleast_1d z_h ;;
  zv <- atleast_1d z_v ;;
  if negb (Nat.eqb (alen zh) (alen zv)) then Raise ValueError
  else if negb (shape_eqb (ashape zh) (ashape zv)) then Unmodelled
  else
    let out := map (fun _ => cast (adt zh) fnan) (adata zh) in
    let good := map2 (fun h v => h >? v) (adata zh) (adata zv) in
    let val := map2 (fun h v => cast (adt zh) (#10 * flog10 (h - v))) (adata zh) (adata zv) in
    Ok (ashape zh, mset good val out).

(** fundamentals.py:882-922, hdr: the reference level [f].  [f] has the dtype
    of zdr (np.full_like). *)
Definition hdr_ref (dt : dtype) (zdr : list F) : list F :=
  let f := map (fun _ => cast dt fnan) zdr in
  let negind := map (fun z => z <=? #0) zdr in
  let lowind := map (fun z => (z >? #0) && (z <=? #1.74)) zdr in
  let highind := map (fun z => z >? #1.74) zdr in
  let f := msetc negind (cast dt #27) f in
  let f := mset lowind (map (fun z => cast dt (#19 * z + #27)) zdr) f in
  let f := msetc highind (cast dt #60) f in
  f.
(** fundamentals.py:882-922, hdr *)
Definition hdr (dbz_h : nd) (zdr : pyarg F) : res nd :=
  z <- atleast_1d zdr ;;
  nd2 fsub dbz_h (NA (ashape z) (hdr_ref (adt z) (adata z))).

(** ** Attenuation: complex numbers are pairs (real, imaginary) *)
Definition cx := (F * F)%type.
(** product of Python complex numbers *)
Definition cmul (x y : cx) : cx :=
  let '(a, b) := x in let '(c, d) := y in (a * c - b * d, a * d + b * c).
(** CPython's complex division (Objects/complexobject.c, _Py_c_quot) *)
Definition cdiv (x y : cx) : res cx :=
  let '(a, b) := x in let '(c, d) := y in
  if fabs d <=? fabs c then
    if feq (fabs c) #0 then Raise ZeroDivisionError
    else let ratio := d / c in
         let denom := c + d * ratio in
         Ok ((a + b * ratio) / denom, (b - a * ratio) / denom)
  else if fabs c <=? fabs d then
         let ratio := c / d in
         let denom := c * ratio + d in
         Ok ((a * ratio + b) / denom, (b * ratio - a) / denom)
  else Ok (fnan, fnan).

(** fundamentals.py:1008-1015, k_complex, for a Python complex m.  m**2 is
    computed by one multiplication. *)
Definition k_complex (m : cx) : res cx :=
  let m2 := cmul m m in
  cdiv (fst m2 - #1, snd m2 - #0) (fst m2 + #2, snd m2 + #0).

(** fundamentals.py:929-955, abs_coeff *)
Definition abs_coeff (diam wl : F) (m : cx) : res F :=
  k <- k_complex m ;;
  let km_im := snd (cmul (#(-1), #0) k) in
  Ok (fpi ** #2 * diam ** #3 / wl * km_im).

(** fundamentals.py:958-975, scat_coeff.  np.absolute of a complex number is
    hypot, modelled as the square root of the sum of squares. *)
Definition scat_coeff (diam wl : F) (m : cx) : res F :=
  k <- k_complex m ;;
  let km_abs := fsqrt (fst k * fst k + snd k * snd k) in
  Ok (#2 * fpi ** #5 * diam ** #6 / (#3 * wl ** #4) * km_abs ** #2).

(** fundamentals.py:978-1005, ext_coeff *)
Definition ext_coeff (diam wl : F) (m : cx) : res F :=
  qa <- abs_coeff diam wl m ;;
  qs <- scat_coeff diam wl m ;;
  Ok (qa + qs).

End Fundamentals.
Arguments nd F : clear implicits.
Arguments NS {F}. Arguments NA {F}.
Arguments cx F : clear implicits.
