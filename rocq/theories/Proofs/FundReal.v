(** Real-number values of the formulas of fundamentals.py at the [xr] instance. *)
From Coq Require Import Reals Lra Lia.
From Verif Require Import Base.Num Base.XReal Base.XTac Base.XArith.
From Verif Require Import Model.Common Model.Fundamentals Spec.FundSpec.
Open Scope R_scope.

Lemma pow_fin x (p : positive) : fpow (Fin x) (@flit xr _ (Qmake (Zpos p) 1)) = Fin (x ^ Pos.to_nat p).
Proof.
  rewrite lit_int. change (fpow (Fin x) (Fin (IZR (Zpos p)))) with (xpow (Fin x) (Fin (IZR (Zpos p)))).
  rewrite <- xpow_nat. do 2 f_equal. now rewrite INR_IZR_INZ, positive_nat_Z.
Qed.
Lemma pow2f x : fpow (Fin x) (@flit xr _ 2) = Fin (x ^ 2).
Proof. apply (pow_fin x 2). Qed.
Lemma pow3f x : fpow (Fin x) (@flit xr _ 3) = Fin (x ^ 3).
Proof. apply (pow_fin x 3). Qed.
Lemma pow4f x : fpow (Fin x) (@flit xr _ 4) = Fin (x ^ 4).
Proof. apply (pow_fin x 4). Qed.
Lemma pow5f x : fpow (Fin x) (@flit xr _ 5) = Fin (x ^ 5).
Proof. apply (pow_fin x 5). Qed.
Lemma pow6f x : fpow (Fin x) (@flit xr _ 6) = Fin (x ^ 6).
Proof. apply (pow_fin x 6). Qed.

Lemma fpi_fin : @fpi xr _ = Fin PI. Proof. reflexivity. Qed.
Lemma flog_fin x : 0 < x -> flog (Fin x) = Fin (ln x).
Proof. intro Hx. change (flog (Fin x)) with (xlog (Fin x)). simpl. destruct Rlt_dec; [auto|contradiction]. Qed.
Lemma fsqrt_fin x : 0 <= x -> fsqrt (Fin x) = Fin (sqrt x).
Proof. intro Hx. change (fsqrt (Fin x)) with (xsqrt (Fin x)). simpl. destruct Rlt_dec; [lra|auto]. Qed.
Lemma fsqrt_neg x : x < 0 -> fsqrt (Fin x) = NaN.
Proof. intro Hx. change (fsqrt (Fin x)) with (xsqrt (Fin x)). simpl. destruct Rlt_dec; [auto|lra]. Qed.
Lemma fsin_fin x : fsin (Fin x) = Fin (sin x). Proof. reflexivity. Qed.
Lemma fcos_fin x : fcos (Fin x) = Fin (cos x). Proof. reflexivity. Qed.
Lemma fasin_fin x : Rabs x <= 1 -> fasin (Fin x) = Fin (asin x).
Proof. intro Hx. change (fasin (Fin x)) with (xasin (Fin x)). simpl. destruct Rle_dec; [auto|contradiction]. Qed.
Lemma lit_93 : @flit xr _ 0.93%Q = Fin 0.93. Proof. rewrite lit_fin; simpl; f_equal; lra. Qed.

Lemma c_fin : @speed_of_light xr _ = Fin c0. Proof. unfold speed_of_light, c0. apply lit_int. Qed.
Lemma c0_pos : 0 < c0. Proof. unfold c0; lra. Qed.

Lemma deg2rad_fin x : deg2rad (Fin x) = Fin (rad x).
Proof. unfold deg2rad, rad. rewrite fpi_fin, lit_int, fdiv_fin, fmul_fin by lra. reflexivity. Qed.
Lemma rad_pos x : 0 < x -> 0 < rad x.
Proof. intro Hx; unfold rad. pose proof PI_RGT_0. apply Rmult_lt_0_compat; lra. Qed.
Lemma rad_lt x y : x < y -> rad x < rad y.
Proof. intro Hx; unfold rad. pose proof PI_RGT_0. apply Rmult_lt_compat_r; lra. Qed.
Lemma rad_90 x : -90 <= x <= 90 -> - (PI / 2) <= rad x <= PI / 2.
Proof. intro Hx; unfold rad. pose proof PI_RGT_0. split; nra. Qed.
Lemma rad_0_90 x : 0 <= x <= 90 -> 0 <= rad x <= PI / 2.
Proof. intro Hx; unfold rad. pose proof PI_RGT_0. split; nra. Qed.

Lemma db_lin g : fpow (@flit xr _ 10) (fdiv (Fin g) (@flit xr _ 10)) = Fin (Rpower 10 (g / 10)).
Proof. rewrite !lit_int, fdiv_fin, fpow_pos by lra. reflexivity. Qed.

Lemma ln2_pos : 0 < ln 2. Proof. rewrite <- ln_1. apply ln_increasing; lra. Qed.

(** ** Common *)
Lemma dbz2z_v x : dbz2z (Fin x) = Fin (Rpower 10 (x / 10)).
Proof. apply db_lin. Qed.
Lemma z2dbz_v z : 0 < z -> z2dbz (Fin z) = Fin (10 * (ln z / ln 10)).
Proof. intro Hz. unfold z2dbz. rewrite lit_int, flog10_fin, fmul_fin; auto. Qed.
Lemma ratio_v a b : 0 < a -> 0 < b ->
  fmul (@flit xr _ 10) (flog10 (fdiv (Fin a) (Fin b))) = Fin (10 * ((ln a - ln b) / ln 10)).
Proof.
  intros Ha Hb. rewrite fdiv_fin by lra.
  rewrite flog10_fin by (apply Rdiv_lt_0_compat; auto). rewrite lit_int, fmul_fin.
  f_equal. unfold Rdiv. rewrite ln_mult, ln_Rinv; auto. now apply Rinv_0_lt_compat.
Qed.

(** ** System *)
Lemma frequency_v w : w <> 0 -> frequency (Fin w) = Fin (c0 / w).
Proof. intro. unfold frequency. now rewrite c_fin, fdiv_fin. Qed.
Lemma wavelength_v w : w <> 0 -> wavelength (Fin w) = Fin (c0 / w).
Proof. intro. unfold wavelength. now rewrite c_fin, fdiv_fin. Qed.
Lemma pulse_length_v t : pulse_length (Fin t) = Fin (c0 * t / 2).
Proof. unfold pulse_length. now rewrite c_fin, fmul_fin, lit_int, fdiv_fin by lra. Qed.
Lemma pulse_duration_v t : pulse_duration (Fin t) = Fin (2 * t / c0).
Proof. unfold pulse_duration. pose proof c0_pos. now rewrite c_fin, lit_int, fmul_fin, fdiv_fin by lra. Qed.

Lemma lin_pos g : 0 < lin g. Proof. apply exp_pos. Qed.
Lemma lin_add a b : lin (a + b) = lin a * lin b.
Proof. unfold lin. rewrite <- Rpower_plus. f_equal. lra. Qed.

Lemma radar_const_v p g t w bh bv al rl : 0 < w ->
  radar_const (Fin p) (Fin g) (Fin t) (Fin w) (Fin bh) (Fin bv) (Fin al) (Fin rl) =
  Fin (PI ^ 3 * c0 * p * lin g ^ 2 * t * rad bh * rad bv * lin al * lin rl
       / (1024 * ln 2 * w ^ 2)).
Proof.
  intro Hw. unfold radar_const. cbv zeta. rewrite !db_lin, !deg2rad_fin, !pow2f, fpi_fin, pow3f, c_fin.
  rewrite !lit_int, flog_fin, !fmul_fin by lra. rewrite fdiv_fin; [reflexivity|].
  pose proof ln2_pos. assert (0 < w ^ 2) by (apply pow_lt; auto).
  assert (0 < 1024 * ln 2 * w ^ 2) by (repeat apply Rmult_lt_0_compat; lra). lra.
Qed.

Lemma ant_eff_area_v g w : ant_eff_area (Fin g) (Fin w) = Fin (lin g * w ^ 2 / (4 * PI)).
Proof.
  unfold ant_eff_area. cbv zeta. rewrite db_lin, pow2f, fpi_fin, lit_int, !fmul_fin, fdiv_fin; auto.
  pose proof PI_RGT_0. lra.
Qed.
Lemma power_target_v p g a r : r <> 0 ->
  power_target (Fin p) (Fin g) (Fin a) (Fin r) = Fin (p * lin g * a / (4 * PI * r ^ 2)).
Proof.
  intro Hr. unfold power_target. cbv zeta.
  rewrite db_lin, pow2f, fpi_fin, lit_int, !fmul_fin, fdiv_fin; auto.
  pose proof PI_RGT_0. apply Rmult_integral_contrapositive. split; [lra|now apply pow_nonzero].
Qed.
Lemma power_return_target_v p g w s r : r <> 0 ->
  power_return_target (Fin p) (Fin g) (Fin w) (Fin s) (Fin r) =
  Fin (p * lin g ^ 2 * w ^ 2 * s / (64 * PI ^ 3 * r ^ 4)).
Proof.
  intro Hr. unfold power_return_target. cbv zeta.
  rewrite db_lin, !pow2f, fpi_fin, pow3f, pow4f, lit_int, !fmul_fin, fdiv_fin; auto.
  pose proof PI_RGT_0. apply Rmult_integral_contrapositive. split; [|now apply pow_nonzero].
  apply Rmult_integral_contrapositive. split; [lra|apply pow_nonzero; lra].
Qed.
Lemma xsec_v d w k : w <> 0 ->
  xsec_bscatter_sphere (Fin d) (Fin w) (Fin k) = Fin (PI ^ 5 * k ^ 2 * d ^ 6 / w ^ 4).
Proof.
  intro Hw. unfold xsec_bscatter_sphere.
  rewrite pow2f, fpi_fin, pow5f, pow6f, pow4f, !fmul_fin, fdiv_fin; auto. now apply pow_nonzero.
Qed.
Lemma norm_xsec_v d w k : d <> 0 -> w <> 0 ->
  norm_xsec_bscatter_sphere (Fin d) (Fin w) (Fin k) =
  Fin (PI ^ 5 * k ^ 2 * d ^ 6 / w ^ 4 / (PI * (d / 2) ^ 2)).
Proof.
  intros Hd Hw. unfold norm_xsec_bscatter_sphere. cbv zeta. rewrite xsec_v by auto.
  rewrite (lit_int 2), fdiv_fin, <- (lit_int 2), pow2f, fpi_fin, fmul_fin by lra.
  rewrite fdiv_fin; auto. pose proof PI_RGT_0. apply Rmult_integral_contrapositive.
  split; [lra|apply pow_nonzero; lra].
Qed.
Lemma size_param_v d w : w <> 0 -> size_param (Fin d) (Fin w) = Fin (2 * PI * d / 2 / w).
Proof. intro. unfold size_param. now rewrite lit_int, fpi_fin, !fmul_fin, !fdiv_fin by lra. Qed.

(** ** Doppler *)
Lemma fmax_v p : fmax (Fin p) = Fin (p / 2).
Proof. unfold fmax. now rewrite lit_int, fdiv_fin by lra. Qed.
Lemma vmax_v p w : vmax (Fin p) (Fin w) = Fin (p * w / 4).
Proof. unfold vmax. now rewrite lit_int, fmul_fin, fdiv_fin by lra. Qed.
Lemma rmax_v p : p <> 0 -> rmax (Fin p) = Fin (c0 / (2 * p)).
Proof. intro. unfold rmax. now rewrite lit_int, c_fin, fmul_fin, fdiv_fin by lra. Qed.
Lemma dilemma_v x w : x <> 0 -> doppler_dilemma (Fin x) (Fin w) = Fin (c0 * w / 8 / x).
Proof. intro. unfold doppler_dilemma. now rewrite lit_int, c_fin, fmul_fin, !fdiv_fin by lra. Qed.
Lemma radvel_v f w : radial_velocity (Fin f) (Fin w) = Fin (f * w / 2).
Proof. unfold radial_velocity. now rewrite lit_int, fmul_fin, !fdiv_fin by lra. Qed.
Lemma kdiv_fin k x y : y <> 0 -> kdiv k (Fin x) (Fin y) = Ok (Fin (x / y)).
Proof.
  intro Hy. unfold kdiv. rewrite lit_int, feq_fin, fdiv_fin by auto.
  destruct k; auto. destruct (Reqb_spec y 0); [contradiction|reflexivity].
Qed.
Lemma kdiv_py0 x : kdiv PyFloat x (Fin 0) = Raise ZeroDivisionError.
Proof. unfold kdiv. rewrite lit_int, feq_fin. destruct (Reqb_spec 0 0); [reflexivity|lra]. Qed.
Lemma vmax_dual_v k w p q : p <> 0 -> q <> 0 -> p <> q ->
  vmax_dual k (Fin w) (Fin p) (Fin q) = Ok (Fin (w / (4 * (1 / p - 1 / q)))).
Proof.
  intros Hp Hq N. unfold vmax_dual. rewrite !lit_int, !kdiv_fin by auto. cbn [bind].
  rewrite fsub_fin, fmul_fin, kdiv_fin; [reflexivity|].
  intro E. apply N. assert (E' : 1 / p = 1 / q) by lra.
  apply (f_equal (fun x => p * q * x)) in E'. field_simplify in E'; auto.
Qed.

(** ** Geometry *)
Lemma r_eff_v k d : 1 / 6371 + d <> 0 ->
  r_effective k (Fin d) = Ok (Fin (1 / (1 / 6371 + d) * 1000)).
Proof.
  intro Hd. unfold r_effective, earth_radius. cbv zeta.
  rewrite !lit_int. rewrite (fdiv_fin 6371000 1000) by lra.
  replace (6371000 / 1000) with 6371 by lra. rewrite (fdiv_fin 1 6371) by lra.
  rewrite fadd_fin, kdiv_fin by auto. cbn [bind]. now rewrite fmul_fin.
Qed.
Lemma r43_v : @r43 xr _ = Fin (6371000 * 4 / 3).
Proof. unfold r43, earth_radius. now rewrite !lit_int, fmul_fin, fdiv_fin by lra. Qed.
Lemma half_power_radius_v r b : half_power_radius (Fin r) (Fin b) = Fin (r * rad b / 2).
Proof. unfold half_power_radius. now rewrite deg2rad_fin, lit_int, fmul_fin, fdiv_fin by lra. Qed.

Definition bh (r e R0 : R) : R := r ^ 2 + R0 ^ 2 + 2 * r * R0 * sin (rad e).
Lemma bh_nonneg r e R0 : 0 <= bh r e R0.
Proof.
  unfold bh. pose proof (SIN_bound (rad e)). set (s := sin (rad e)) in *.
  replace (r ^ 2 + R0 ^ 2 + 2 * r * R0 * s) with ((r * s + R0) ^ 2 + r ^ 2 * (1 - s ^ 2)) by ring.
  assert (0 <= r ^ 2) by apply pow2_ge_0. assert (0 <= (r * s + R0) ^ 2) by apply pow2_ge_0.
  assert (s ^ 2 <= 1) by nra. assert (0 <= r ^ 2 * (1 - s ^ 2)) by (apply Rmult_le_pos; lra). lra.
Qed.
Lemma ray_height_v r e h R0 :
  ray_height (Fin r) (Fin e) (Fin h) (Fin R0) = Fin (sqrt (bh r e R0) - R0 + h).
Proof.
  unfold ray_height. cbv zeta. rewrite deg2rad_fin, fsin_fin, !pow2f, lit_int, !fmul_fin, !fadd_fin.
  fold (bh r e R0). rewrite fsqrt_fin by apply bh_nonneg. now rewrite fsub_fin, fadd_fin.
Qed.
Lemma vol_ideal_v r a b l :
  sample_vol_ideal (Fin r) (Fin a) (Fin b) (Fin l) =
  Fin (PI * (r * rad a / 2) * (r * rad b / 2) * (l / 2)).
Proof.
  unfold sample_vol_ideal. rewrite !deg2rad_fin, lit_int, fpi_fin, !fmul_fin, !fdiv_fin by lra.
  now rewrite !fmul_fin.
Qed.
Lemma vol_gauss_v r a b l :
  sample_vol_gauss (Fin r) (Fin a) (Fin b) (Fin l) =
  Fin (PI * r ^ 2 * rad a * rad b * l / (16 * ln 2)).
Proof.
  unfold sample_vol_gauss. cbv zeta. rewrite !deg2rad_fin, pow2f, !lit_int, fpi_fin, flog_fin by lra.
  rewrite !fmul_fin, fdiv_fin; auto. pose proof ln2_pos. lra.
Qed.

(** ** Beam blockage *)
Definition blockf (y a : R) : R :=
  (y * sqrt (a ^ 2 - y ^ 2) + a ^ 2 * asin (y / a) + PI * a ^ 2 / 2) / (PI * a ^ 2).
Lemma block_v k t b a : 0 < a -> Rabs (t - b) <= a ->
  beam_block_frac k (Fin t) (Fin b) (Fin a) = Ok (Fin (blockf (t - b) a)).
Proof.
  intros Ha Hy. unfold beam_block_frac. cbv zeta. rewrite fsub_fin, kdiv_fin by lra. cbn [bind].
  rewrite !pow2f, fpi_fin, !fsub_fin. set (y := t - b) in *.
  assert (Hy2 : 0 <= a ^ 2 - y ^ 2).
  { pose proof (Rle_abs y). pose proof (Rle_abs (- y)). rewrite Rabs_Ropp in *. nra. }
  assert (Hq : Rabs (y / a) <= 1).
  { unfold Rdiv. rewrite Rabs_mult, (Rabs_right (/ a)) by (left; now apply Rinv_0_lt_compat).
    apply (Rmult_le_reg_r a); auto. rewrite Rmult_assoc, Rinv_l, Rmult_1_r, Rmult_1_l by lra. auto. }
  rewrite fsqrt_fin, fasin_fin, lit_int by auto. rewrite !fmul_fin.
  rewrite (fdiv_fin (PI * a ^ 2) 2) by lra. rewrite !fadd_fin.
  assert (0 < a ^ 2) by (apply pow_lt; auto). pose proof PI_RGT_0.
  rewrite fdiv_fin; auto. apply Rmult_integral_contrapositive; split; lra.
Qed.

(** y = a sin t turns the area into t + sin t cos t *)
Lemma blockf_t y a : 0 < a -> -a <= y <= a ->
  let t := asin (y / a) in
  blockf y a = (t + sin t * cos t) / PI + 1 / 2 /\ - (PI / 2) <= t <= PI / 2 /\ y = a * sin t.
Proof.
  intros Ha Hy t.
  assert (Hq : -1 <= y / a <= 1).
  { unfold Rdiv. assert (0 < / a) by (now apply Rinv_0_lt_compat). split.
    - apply (Rmult_le_reg_r a); auto. rewrite Rmult_assoc, Rinv_l; lra.
    - apply (Rmult_le_reg_r a); auto. rewrite Rmult_assoc, Rinv_l; lra. }
  assert (Hs : sin t = y / a) by (apply sin_asin; auto).
  assert (Hc : cos t = sqrt (1 - (y / a) ^ 2)).
  { unfold t. rewrite cos_asin by auto. f_equal. unfold Rsqr. ring. }
  assert (Ey : y = a * sin t) by (rewrite Hs; field; lra).
  split; [|split; auto; apply asin_bound].
  unfold blockf. fold t.
  replace (a ^ 2 - y ^ 2) with (a ^ 2 * (1 - (y / a) ^ 2)) by (field; lra).
  rewrite sqrt_mult_alt by (left; apply pow_lt; auto).
  replace (sqrt (a ^ 2)) with a by (replace (a ^ 2) with (a * a) by ring; rewrite sqrt_square; lra).
  rewrite <- Hc. rewrite Ey at 1. pose proof PI_RGT_0. field. split; lra.
Qed.

(** t + sin t cos t is strictly increasing on [-PI/2, PI/2] *)
Lemma tsc_incr t u : - (PI / 2) <= t -> t < u -> u <= PI / 2 ->
  t + sin t * cos t < u + sin u * cos u.
Proof.
  intros H1 H2 H3.
  assert (E : u + sin u * cos u - (t + sin t * cos t) = (u - t) + cos (u + t) * sin (u - t)).
  { rewrite cos_plus, sin_minus. pose proof (sin2_cos2 u) as Eu. pose proof (sin2_cos2 t) as Et.
    unfold Rsqr in *.
    assert (Su : sin u * sin u = 1 - cos u * cos u) by lra.
    assert (St : sin t * sin t = 1 - cos t * cos t) by lra.
    replace ((cos u * cos t - sin u * sin t) * (sin u * cos t - cos u * sin t))
      with (sin u * cos u * (cos t * cos t) - cos u * cos u * (sin t * cos t)
            - (sin u * sin u) * (sin t * cos t) + sin u * cos u * (sin t * sin t)) by ring.
    rewrite Su, St. ring. }
  assert (Hd : 0 < u - t) by lra.
  assert (Hs : sin (u - t) < u - t) by (now apply sin_lt_x).
  assert (Hs0 : 0 <= sin (u - t)) by (apply sin_ge_0; lra).
  pose proof (COS_bound (u + t)) as Hc. nra.
Qed.

(** ** Attenuation *)
Definition cmod2 (c d : R) : R := c * c + d * d.
Lemma cdiv_v a b c d : cmod2 c d <> 0 ->
  cdiv (Fin a, Fin b) (Fin c, Fin d) =
  Ok (Fin ((a * c + b * d) / cmod2 c d), Fin ((b * c - a * d) / cmod2 c d)).
Proof.
  unfold cmod2. intro Hn. unfold cdiv. rewrite !fabs_fin, lit_int, !fle_fin, feq_fin.
  destruct (Rleb_spec (Rabs d) (Rabs c)) as [L|L].
  - destruct (Reqb_spec (Rabs c) 0) as [E|E].
    + exfalso. assert (c = 0) by (destruct (Req_dec c 0); auto; apply Rabs_no_R0 in H; lra).
      subst. rewrite E in L. pose proof (Rabs_pos d). assert (Rabs d = 0) by lra.
      assert (d = 0) by (destruct (Req_dec d 0); auto; apply Rabs_no_R0 in H1; lra). subst; apply Hn; ring.
    + assert (c <> 0) by (intros ->; apply E, Rabs_R0).
      assert (c + d * (d / c) <> 0).
      { replace (c + d * (d / c)) with ((c * c + d * d) / c) by (field; auto).
        unfold Rdiv. apply Rmult_integral_contrapositive. split; auto. now apply Rinv_neq_0_compat. }
      rewrite (fdiv_fin d c) by auto. cbv zeta.
      rewrite !fmul_fin, !fadd_fin, !fsub_fin. rewrite !fdiv_fin by auto.
      do 3 f_equal; field; repeat split; auto;
        try (replace (c * c + d * d) with (c ^ 2 + d ^ 2) in Hn by ring; auto).
  - destruct (Rleb_spec (Rabs c) (Rabs d)) as [_|X]; [|lra].
    assert (d <> 0). { intros ->. rewrite Rabs_R0 in L. pose proof (Rabs_pos c). lra. }
    assert (c * (c / d) + d <> 0).
    { replace (c * (c / d) + d) with ((c * c + d * d) / d) by (field; auto).
      unfold Rdiv. apply Rmult_integral_contrapositive. split; auto. now apply Rinv_neq_0_compat. }
    rewrite (fdiv_fin c d) by auto. cbv zeta.
    rewrite !fmul_fin, !fadd_fin, !fsub_fin. rewrite !fdiv_fin by auto.
    do 3 f_equal; field; repeat split; auto.
Qed.

Lemma k_complex_v n k : 0 < (n ^ 2 - k ^ 2 + 2) ^ 2 + (2 * n * k) ^ 2 ->
  exists re, k_complex (Fin n, Fin k) = Ok (Fin re, Fin (kim n k)) /\
             re * re + kim n k * kim n k = kabs2 n k.
Proof.
  intro Hn. unfold k_complex. cbn [cmul fst snd]. rewrite !lit_int, !fmul_fin, !fsub_fin, !fadd_fin, !fsub_fin.
  set (u := n * n - k * k). set (v := n * k + k * n).
  assert (Eu : u = n ^ 2 - k ^ 2) by (unfold u; ring). assert (Ev : v = 2 * n * k) by (unfold v; ring).
  rewrite <- Eu, <- Ev in Hn.
  assert (Hm : cmod2 (u + 2) (v + 0) <> 0).
  { unfold cmod2. replace ((u + 2) * (u + 2) + (v + 0) * (v + 0)) with ((u + 2) ^ 2 + v ^ 2) by ring. lra. }
  assert (Hm2 : u ^ 2 + 4 * u + 4 + v ^ 2 <> 0).
  { intro E. apply Hm. unfold cmod2. transitivity (u ^ 2 + 4 * u + 4 + v ^ 2); [ring|exact E]. }
  assert (Hm3 : (u + 2) ^ 2 + v ^ 2 <> 0) by lra.
  assert (Hm4 : (u + 2) * (u + 2) + (v + 0) * (v + 0) <> 0) by exact Hm.
  rewrite cdiv_v by exact Hm. eexists. split.
  - f_equal. f_equal. f_equal. unfold kim. rewrite <- Eu, <- Ev. unfold cmod2.
    replace ((u + 2) * (u + 2) + (v + 0) * (v + 0)) with ((u + 2) ^ 2 + v ^ 2) by ring.
    unfold Rdiv. f_equal. ring.
  - unfold kim, kabs2. rewrite <- Eu, <- Ev. unfold cmod2.
    replace ((u + 2) * (u + 2) + (v + 0) * (v + 0)) with ((u + 2) ^ 2 + v ^ 2) by ring.
    field. auto.
Qed.
Lemma abs_coeff_v d w n k : w <> 0 -> 0 < (n ^ 2 - k ^ 2 + 2) ^ 2 + (2 * n * k) ^ 2 ->
  abs_coeff (Fin d) (Fin w) (Fin n, Fin k) = Ok (Fin (PI ^ 2 * d ^ 3 / w * - kim n k)).
Proof.
  intros Hw Hn. unfold abs_coeff. destruct (k_complex_v _ _ Hn) as (re & -> & _). cbn [bind cmul fst snd].
  rewrite fpi_fin, pow2f, pow3f, !lit_int, !fmul_fin, fadd_fin, fdiv_fin, fmul_fin by auto.
  do 2 f_equal. ring.
Qed.
Lemma scat_coeff_v d w n k : w <> 0 -> 0 < (n ^ 2 - k ^ 2 + 2) ^ 2 + (2 * n * k) ^ 2 ->
  scat_coeff (Fin d) (Fin w) (Fin n, Fin k) =
  Ok (Fin (2 * PI ^ 5 * d ^ 6 / (3 * w ^ 4) * kabs2 n k)).
Proof.
  intros Hw Hn. unfold scat_coeff. destruct (k_complex_v _ _ Hn) as (re & -> & E). cbn [bind fst snd].
  rewrite !fmul_fin, fadd_fin, E. rewrite fsqrt_fin.
  - rewrite fpi_fin, pow2f, pow4f, pow5f, pow6f, !lit_int, !fmul_fin, fdiv_fin, fmul_fin.
    + do 3 f_equal. rewrite <- Rsqr_pow2, Rsqr_sqrt; auto.
      unfold kabs2. apply Rmult_le_pos; [|left; now apply Rinv_0_lt_compat].
      apply Rplus_le_le_0_compat; apply pow2_ge_0.
    + apply Rmult_integral_contrapositive. split; [lra|now apply pow_nonzero].
  - unfold kabs2. apply Rmult_le_pos; [|left; now apply Rinv_0_lt_compat].
      apply Rplus_le_le_0_compat; apply pow2_ge_0.
Qed.
