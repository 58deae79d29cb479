(** * C88: every function of fundamentals.py computes its documented formula

    Statements use plain real expressions with the numbers of the docstrings
    (speed of light 3e8 m/s, Boltzmann 1.381e-23, earth radius 6371 km). *)
From Coq Require Import Reals Lra Lia Qreals.
From Verif Require Import Base.Num Base.XReal Base.XTac Base.XArith.
From Verif Require Import Model.Common Model.Fundamentals Spec.FundSpec Proofs.FundReal.
Open Scope R_scope.

Theorem C88_system_formulas :
  (forall wl, wl <> 0 -> frequency (Fin wl) = Fin (300000000 / wl)) /\
  (forall f, f <> 0 -> wavelength (Fin f) = Fin (300000000 / f)) /\
  (forall t, pulse_length (Fin t) = Fin (300000000 * t / 2)) /\
  (forall tau, pulse_duration (Fin tau) = Fin (2 * tau / 300000000)) /\
  (forall p q, 0 < p -> 0 < q -> antenna_gain (Fin p) (Fin q) = Fin (10 * (ln (p / q) / ln 10))) /\
  (forall g wl, ant_eff_area (Fin g) (Fin wl) = Fin (Rpower 10 (g / 10) * wl ^ 2 / (4 * PI))) /\
  (forall pt g a r, r <> 0 ->
     power_target (Fin pt) (Fin g) (Fin a) (Fin r) = Fin (pt * Rpower 10 (g / 10) * a / (4 * PI * r ^ 2))) /\
  (forall pt g wl s r, r <> 0 ->
     power_return_target (Fin pt) (Fin g) (Fin wl) (Fin s) (Fin r)
     = Fin (pt * Rpower 10 (g / 10) ^ 2 * wl ^ 2 * s / (64 * PI ^ 3 * r ^ 4))) /\
  (forall d wl k, wl <> 0 ->
     xsec_bscatter_sphere (Fin d) (Fin wl) (Fin k) = Fin (PI ^ 5 * k ^ 2 * d ^ 6 / wl ^ 4)) /\
  (forall d wl k, d <> 0 -> wl <> 0 ->
     norm_xsec_bscatter_sphere (Fin d) (Fin wl) (Fin k)
     = Fin (PI ^ 5 * k ^ 2 * d ^ 6 / wl ^ 4 / (PI * (d / 2) ^ 2))) /\
  (forall d wl, wl <> 0 -> size_param (Fin d) (Fin wl) = Fin (2 * PI * (d / 2) / wl)) /\
  (forall p g t wl bh bv al rl, 0 < wl ->
     radar_const (Fin p) (Fin g) (Fin t) (Fin wl) (Fin bh) (Fin bv) (Fin al) (Fin rl)
     = Fin (PI ^ 3 * 300000000 * p * Rpower 10 (g / 10) ^ 2 * t * (bh * PI / 180) * (bv * PI / 180)
            * Rpower 10 (al / 10) * Rpower 10 (rl / 10) / (1024 * ln 2 * wl ^ 2))).
Proof.
  repeat apply conj; intros.
  - now apply frequency_v.
  - now apply wavelength_v.
  - apply pulse_length_v.
  - apply pulse_duration_v.
  - unfold antenna_gain. rewrite ratio_v by auto. unfold Rdiv at 3. rewrite ln_mult, ln_Rinv by (auto using Rinv_0_lt_compat).
    do 2 f_equal.
  - apply ant_eff_area_v.
  - now apply power_target_v.
  - now apply power_return_target_v.
  - now apply xsec_v.
  - now apply norm_xsec_v.
  - rewrite size_param_v by auto. f_equal. field. auto.
  - rewrite radar_const_v by auto. unfold lin, rad, c0. f_equal.
    replace (bh * (PI / 180)) with (bh * PI / 180) by lra. replace (bv * (PI / 180)) with (bv * PI / 180) by lra. reflexivity.
Qed.

(** the default arguments: dielectric factor 0.93, noise temperature 290 K,
    effective radius 4/3 of the earth's *)
Theorem C88_default_arguments :
  (forall d wl, wl <> 0 -> xsec_bscatter_sphere (Fin d) (Fin wl) dielectric_default
     = Fin (PI ^ 5 * 0.93 ^ 2 * d ^ 6 / wl ^ 4)) /\
  (forall d wl, d <> 0 -> wl <> 0 -> norm_xsec_bscatter_sphere (Fin d) (Fin wl) dielectric_default
     = Fin (PI ^ 5 * 0.93 ^ 2 * d ^ 6 / wl ^ 4 / (PI * (d / 2) ^ 2))) /\
  (forall b, thermal_noise (NS (Fin b)) "W" noise_temp_default = NS (Fin (1381 / 10 ^ 26 * 290 * b))) /\
  (forall r e h, ray_height (Fin r) (Fin e) (Fin h) r43
     = Fin (sqrt (r ^ 2 + (4 / 3 * 6371000) ^ 2 + 2 * r * (4 / 3 * 6371000) * sin (e * PI / 180)) - 4 / 3 * 6371000 + h)).
Proof.
  assert (D : @dielectric_default xr _ = Fin 0.93) by apply lit_fin.
  repeat apply conj; intros; try rewrite D.
  - now apply xsec_v.
  - now apply norm_xsec_v.
  - unfold thermal_noise, noise_temp_default, k_boltz. cbn [upper upper_ascii String.eqb nd1].
    change (NS (fmul (fmul (flit (Qmake 1381 (10 ^ 26))) (flit 290)) (Fin b)) = NS (Fin (1381 / 10 ^ 26 * 290 * b))).
    rewrite (lit_fin (Qmake 1381 (10 ^ 26))), (lit_fin 290), !fmul_fin. cbn [Qnum Qden]. do 2 f_equal. f_equal.
    replace (IZR (Z.pos (10 ^ 26))) with (10 ^ 26) by (rewrite pow_IZR; reflexivity). unfold Rdiv. rewrite Rinv_1, Rmult_1_r. reflexivity.
  - rewrite r43_v, ray_height_v. replace (6371000 * 4 / 3) with (4 / 3 * 6371000) by lra.
    unfold bh, rad. replace (e * (PI / 180)) with (e * PI / 180) by lra. reflexivity.
Qed.

Theorem C88_doppler_formulas :
  (forall p, fmax (Fin p) = Fin (p / 2)) /\
  (forall p wl, vmax (Fin p) (Fin wl) = Fin (p * wl / 4) /\ nyquist (Fin p) (Fin wl) = Fin (p * wl / 4)) /\
  (forall p, p <> 0 -> rmax (Fin p) = Fin (300000000 / (2 * p)) /\ unambiguous_range (Fin p) = Fin (300000000 / (2 * p))) /\
  (forall v wl, v <> 0 -> doppler_dilemma (Fin v) (Fin wl) = Fin (300000000 * wl / (8 * v))) /\
  (forall k wl p q, p <> 0 -> q <> 0 -> p <> q ->
     vmax_dual k (Fin wl) (Fin p) (Fin q) = Ok (Fin (wl / (4 * (1 / p - 1 / q)))) /\
     dual_nyquist k (Fin wl) (Fin p) (Fin q) = Ok (Fin (wl / (4 * (1 / p - 1 / q))))) /\
  (forall f wl, radial_velocity (Fin f) (Fin wl) = Fin (f * wl / 2)).
Proof.
  repeat apply conj; intros; repeat split.
  - apply fmax_v.
  - apply vmax_v.
  - apply vmax_v.
  - now apply rmax_v.
  - now apply rmax_v.
  - rewrite dilemma_v by auto. unfold c0. f_equal. field. auto.
  - now apply vmax_dual_v.
  - now apply vmax_dual_v.
  - apply radvel_v.
Qed.

Theorem C88_geometry_formulas :
  (@r43 xr _ = Fin (4 / 3 * 6371000)) /\
  (forall k d, 1 / 6371 + d <> 0 -> r_effective k (Fin d) = Ok (Fin (1000 / (1 / 6371 + d)))) /\
  (forall r b, half_power_radius (Fin r) (Fin b) = Fin (r * (b * PI / 180) / 2)) /\
  (forall r e h R0, ray_height (Fin r) (Fin e) (Fin h) (Fin R0)
     = Fin (sqrt (r ^ 2 + R0 ^ 2 + 2 * r * R0 * sin (e * PI / 180)) - R0 + h)) /\
  (forall r bh bv l, sample_vol_ideal (Fin r) (Fin bh) (Fin bv) (Fin l)
     = Fin (PI * (r * (bh * PI / 180) / 2) * (r * (bv * PI / 180) / 2) * (l / 2))) /\
  (forall r bh bv l, sample_vol_gauss (Fin r) (Fin bh) (Fin bv) (Fin l)
     = Fin (PI * r ^ 2 * (bh * PI / 180) * (bv * PI / 180) * l / (16 * ln 2))) /\
  (forall k t b a, 0 < a -> Rabs (t - b) <= a ->
     beam_block_frac k (Fin t) (Fin b) (Fin a)
     = Ok (Fin (((t - b) * sqrt (a ^ 2 - (t - b) ^ 2) + a ^ 2 * asin ((t - b) / a) + PI * a ^ 2 / 2) / (PI * a ^ 2)))).
Proof.
  assert (D : forall x, rad x = x * PI / 180) by (intro; unfold rad; lra).
  repeat apply conj; intros.
  - rewrite r43_v. f_equal. lra.
  - rewrite r_eff_v by auto. do 2 f_equal. unfold Rdiv. lra.
  - now rewrite half_power_radius_v, D.
  - rewrite ray_height_v. unfold FundReal.bh. now rewrite D.
  - now rewrite vol_ideal_v, !D.
  - now rewrite vol_gauss_v, !D.
  - now apply block_v.
Qed.

(** co-polar to cross-polar ratios, in dB *)
Theorem C88_ratio_formulas : forall a b, 0 < a -> 0 < b ->
  cdr (Fin a) (Fin b) = Fin (10 * (ln (a / b) / ln 10)) /\
  ldr (Fin a) (Fin b) = Fin (10 * (ln (a / b) / ln 10)) /\
  zdr (Fin a) (Fin b) = Fin (10 * (ln (a / b) / ln 10)) /\
  z2dbz (Fin a) = Fin (10 * (ln a / ln 10)) /\
  dbz2z (Fin a) = Fin (Rpower 10 (a / 10)).
Proof.
  intros a b Ha Hb.
  assert (E : ln (a / b) = ln a - ln b) by (unfold Rdiv; rewrite ln_mult, ln_Rinv by (auto using Rinv_0_lt_compat); lra).
  unfold cdr, ldr, zdr. rewrite E, ratio_v, z2dbz_v, dbz2z_v by auto. repeat split; reflexivity.
Qed.

(** Absorption and scattering by a small sphere with refractive index n + i k,
    from Im and |.|^2 of K = (m^2 - 1) / (m^2 + 2). *)
Theorem C88_attenuation_formulas : forall d wl n k,
  wl <> 0 -> 0 < (n ^ 2 - k ^ 2 + 2) ^ 2 + (2 * n * k) ^ 2 ->
  let den := (n ^ 2 - k ^ 2 + 2) ^ 2 + (2 * n * k) ^ 2 in
  let im := 3 * (2 * n * k) / den in
  let abs2 := ((n ^ 2 - k ^ 2 - 1) ^ 2 + (2 * n * k) ^ 2) / den in
  abs_coeff (Fin d) (Fin wl) (Fin n, Fin k) = Ok (Fin (PI ^ 2 * d ^ 3 / wl * - im)) /\
  scat_coeff (Fin d) (Fin wl) (Fin n, Fin k) = Ok (Fin (2 * PI ^ 5 * d ^ 6 / (3 * wl ^ 4) * abs2)) /\
  ext_coeff (Fin d) (Fin wl) (Fin n, Fin k)
    = Ok (Fin (PI ^ 2 * d ^ 3 / wl * - im + 2 * PI ^ 5 * d ^ 6 / (3 * wl ^ 4) * abs2)) /\
  (** im and abs2 are the imaginary part and squared modulus of K *)
  (exists re, (n ^ 2 - k ^ 2 - 1) = re * (n ^ 2 - k ^ 2 + 2) - im * (2 * n * k) /\
              2 * n * k = re * (2 * n * k) + im * (n ^ 2 - k ^ 2 + 2) /\
              abs2 = re ^ 2 + im ^ 2).
Proof.
  intros d wl n k Hw Hd den im abs2.
  split; [now apply abs_coeff_v|]. split; [now apply scat_coeff_v|]. split.
  - unfold ext_coeff. rewrite abs_coeff_v, scat_coeff_v by auto. reflexivity.
  - exists (((n ^ 2 - k ^ 2 - 1) * (n ^ 2 - k ^ 2 + 2) + (2 * n * k) ^ 2) / den).
    unfold abs2, im. assert (Hn : den <> 0) by (unfold den; lra).
    set (u := n ^ 2 - k ^ 2) in *. set (v := 2 * n * k) in *.
    repeat split; unfold den in *; field; auto.
Qed.
(** water at 10 cm: the hypothesis holds *)
Example C88_water : 0 < (9 ^ 2 - 1.3 ^ 2 + 2) ^ 2 + (2 * 9 * 1.3) ^ 2.
Proof. lra. Qed.
