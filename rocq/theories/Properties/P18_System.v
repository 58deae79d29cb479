(** * Properties C59, C60, C69-C71, C73, C78: system and geometry formulas,
    in exact real arithmetic. *)
From Coq Require Import Reals Lra Lia.
From Verif Require Import Base.Num Base.ListFacts Base.XReal Base.XTac Base.XArith.
From Verif Require Import Model.Common Model.Fundamentals Spec.FundSpec Proofs.FundReal.
Open Scope R_scope.

(** ** C59: beam blockage *)
(** In the domain |terrain - beam| <= a the fraction is a number in [0, 1]: 0
    with the terrain at the bottom of the beam, 1/2 at its centre, 1 at its top,
    and the parts below and above add up to 1.  The Python and numpy number
    types agree. *)
Theorem C59_fraction_in_unit_interval : forall k t b a, 0 < a -> Rabs (t - b) <= a ->
  exists f, beam_block_frac k (Fin t) (Fin b) (Fin a) = Ok (Fin f) /\ 0 <= f <= 1.
Proof.
  intros k t b a Ha Hy. exists (blockf (t - b) a). split; [now apply block_v|].
  assert (Hy' : - a <= t - b <= a).
  { pose proof (Rle_abs (t - b)). pose proof (Rle_abs (- (t - b))). rewrite Rabs_Ropp in *. lra. }
  destruct (blockf_t _ _ Ha Hy') as (E & Ht & _). set (u := asin ((t - b) / a)) in *. rewrite E.
  pose proof PI_RGT_0 as Hp.
  assert (A : - (PI / 2) <= u + sin u * cos u <= PI / 2).
  { assert (S1 : sin (PI / 2) * cos (PI / 2) = 0) by (rewrite cos_PI2; ring).
    assert (S2 : sin (- (PI / 2)) * cos (- (PI / 2)) = 0) by (rewrite cos_neg, cos_PI2; ring).
    split.
    - destruct (Rle_lt_or_eq_dec (- (PI / 2)) u) as [L|Eu]; [lra| |rewrite <- Eu, S2; lra].
      pose proof (tsc_incr (- (PI / 2)) u). lra.
    - destruct (Rle_lt_or_eq_dec u (PI / 2)) as [L|Eu]; [lra| |rewrite Eu, S1; lra].
      pose proof (tsc_incr u (PI / 2)). lra. }
  assert (Hi : 0 < / PI) by (now apply Rinv_0_lt_compat).
  assert (B1 : - (PI / 2) * / PI <= (u + sin u * cos u) * / PI) by (apply Rmult_le_compat_r; lra).
  assert (B2 : (u + sin u * cos u) * / PI <= (PI / 2) * / PI) by (apply Rmult_le_compat_r; lra).
  replace (- (PI / 2) * / PI) with (- (1 / 2)) in B1 by (field; lra).
  replace (PI / 2 * / PI) with (1 / 2) in B2 by (field; lra).
  unfold Rdiv at 1 3. lra.
Qed.

Theorem C59_special_values : forall k b a, 0 < a ->
  beam_block_frac k (Fin (b - a)) (Fin b) (Fin a) = Ok (Fin 0) /\
  beam_block_frac k (Fin b) (Fin b) (Fin a) = Ok (Fin (1 / 2)) /\
  beam_block_frac k (Fin (b + a)) (Fin b) (Fin a) = Ok (Fin 1).
Proof.
  intros k b a Ha. pose proof PI_RGT_0 as Hp.
  rewrite !block_v; auto; try (replace (b - a - b) with (- a) by ring; rewrite Rabs_Ropp, Rabs_right; lra);
    try (replace (b - b) with 0 by ring; rewrite Rabs_R0; lra);
    try (replace (b + a - b) with a by ring; rewrite Rabs_right; lra).
  repeat split; do 2 f_equal; unfold blockf.
  - replace (b - a - b) with (- a) by ring. replace (a ^ 2 - (- a) ^ 2) with 0 by ring.
    rewrite sqrt_0. replace (- a / a) with (Ropp 1) by (field; lra).
    rewrite asin_opp, asin_1. field. split; lra.
  - replace (b - b) with 0 by ring. replace (0 / a) with 0 by (field; lra). rewrite asin_0. field. split; lra.
  - replace (b + a - b) with a by ring. replace (a ^ 2 - a ^ 2) with 0 by ring.
    rewrite sqrt_0. replace (a / a) with 1 by (field; lra). rewrite asin_1. field. split; lra.
Qed.

Theorem C59_strictly_increasing : forall k t1 t2 b a, 0 < a ->
  b - a <= t1 -> t1 < t2 -> t2 <= b + a ->
  exists f1 f2, beam_block_frac k (Fin t1) (Fin b) (Fin a) = Ok (Fin f1) /\
                beam_block_frac k (Fin t2) (Fin b) (Fin a) = Ok (Fin f2) /\ f1 < f2.
Proof.
  intros k t1 t2 b a Ha H1 H2 H3.
  exists (blockf (t1 - b) a), (blockf (t2 - b) a).
  rewrite !block_v by (auto; apply Rabs_le; lra). repeat split.
  destruct (blockf_t (t1 - b) a Ha ltac:(lra)) as (E1 & (L1 & _) & Y1).
  destruct (blockf_t (t2 - b) a Ha ltac:(lra)) as (E2 & (_ & L2) & Y2).
  rewrite E1, E2. set (u := asin ((t1 - b) / a)) in *. set (v := asin ((t2 - b) / a)) in *.
  assert (Huv : u < v).
  { unfold u, v. destruct (Rlt_or_le u v) as [|G]; auto. exfalso.
    pose proof (asin_bound ((t1 - b) / a)) as B1. pose proof (asin_bound ((t2 - b) / a)) as B2.
    fold u in B1. fold v in B2.
    assert (sin v <= sin u) by (apply sin_incr_1; lra).
    assert (a * sin v <= a * sin u) by (apply Rmult_le_compat_l; lra). lra. }
  pose proof (tsc_incr u v L1 Huv L2) as I. pose proof PI_RGT_0.
  apply Rplus_lt_compat_r. apply Rmult_lt_compat_r; auto. now apply Rinv_0_lt_compat.
Qed.

Theorem C59_symmetric : forall k b y a, 0 < a -> Rabs y <= a ->
  exists f g, beam_block_frac k (Fin (b + y)) (Fin b) (Fin a) = Ok (Fin f) /\
              beam_block_frac k (Fin (b - y)) (Fin b) (Fin a) = Ok (Fin g) /\ f + g = 1.
Proof.
  intros k b y a Ha Hy. exists (blockf y a), (blockf (- y) a).
  rewrite !block_v; auto.
  - replace (b + y - b) with y by ring. replace (b - y - b) with (- y) by ring.
    repeat split. unfold blockf. replace ((- y) ^ 2) with (y ^ 2) by ring.
    replace (- y / a) with (- (y / a)) by (field; lra). rewrite asin_opp.
    pose proof PI_RGT_0. field. split; lra.
  - replace (b - y - b) with (- y) by ring. now rewrite Rabs_Ropp.
  - replace (b + y - b) with y by ring. auto.
Qed.

(** Only the ratio (terrain - beam) / a matters: a common change of the units of
    all three, or of the height origin, changes nothing. *)
Theorem C59_scale_invariant : forall k t b a s h, 0 < a -> 0 < s -> Rabs (t - b) <= a ->
  beam_block_frac k (Fin (s * t + h)) (Fin (s * b + h)) (Fin (s * a)) =
  beam_block_frac k (Fin t) (Fin b) (Fin a).
Proof.
  intros k t b a s h Ha Hs Hy.
  rewrite !block_v; auto; [|nra|].
  - do 2 f_equal. replace (s * t + h - (s * b + h)) with (s * (t - b)) by ring. set (y := t - b).
    unfold blockf. replace ((s * a) ^ 2 - (s * y) ^ 2) with (s ^ 2 * (a ^ 2 - y ^ 2)) by ring.
    rewrite sqrt_mult_alt by (left; apply pow_lt; auto).
    replace (sqrt (s ^ 2)) with s by (replace (s ^ 2) with (s * s) by ring; rewrite sqrt_square; lra).
    replace (s * y / (s * a)) with (y / a) by (field; split; lra).
    pose proof PI_RGT_0. field. repeat split; lra.
  - replace (s * t + h - (s * b + h)) with (s * (t - b)) by ring.
    rewrite Rabs_mult, (Rabs_right s) by lra. apply Rmult_le_compat_l; lra.
Qed.

(** Terrain above or below the whole beam gives NaN, not 1 or 0. *)
Theorem C59_outside_beam_nan : forall k t b a, 0 < a -> a < Rabs (t - b) ->
  beam_block_frac k (Fin t) (Fin b) (Fin a) = Ok NaN.
Proof.
  intros k t b a Ha Hy. unfold beam_block_frac. cbv zeta. rewrite fsub_fin, kdiv_fin by lra. cbn [bind].
  rewrite !pow2f, !fsub_fin. set (y := t - b) in *. rewrite fsqrt_neg; [reflexivity|].
  assert (Hs : a ^ 2 < Rabs y ^ 2) by nra. rewrite pow2_abs in Hs. lra.
Qed.
(** a zero beam radius *)
Theorem C59_zero_radius : forall t b,
  beam_block_frac PyFloat (Fin t) (Fin b) (Fin 0) = Raise ZeroDivisionError.
Proof. intros. unfold beam_block_frac. cbv zeta. now rewrite fsub_fin, kdiv_py0. Qed.
Example C59_ex : beam_block_frac PyFloat (Fin 500) (Fin 500) (Fin 100) = Ok (Fin (1 / 2)).
Proof. apply C59_special_values. lra. Qed.

(** ** C60: height of the beam *)
Theorem C60_at_radar : forall e h R0, 0 <= R0 ->
  ray_height (Fin 0) (Fin e) (Fin h) (Fin R0) = Fin h.
Proof.
  intros e h R0 HR. rewrite ray_height_v. f_equal. unfold bh.
  replace (0 ^ 2 + R0 ^ 2 + 2 * 0 * R0 * sin (rad e)) with (R0 * R0) by ring.
  rewrite sqrt_square by auto. ring.
Qed.
(** the antenna height is added exactly *)
Theorem C60_antenna_height_added : forall r e h R0,
  ray_height (Fin r) (Fin e) (Fin h) (Fin R0) =
  fadd (ray_height (Fin r) (Fin e) (Fin 0) (Fin R0)) (Fin h).
Proof. intros. rewrite !ray_height_v, fadd_fin. f_equal. ring. Qed.
(** elevation in [0, 90]: strictly increasing with range *)
Theorem C60_increasing_in_range : forall r1 r2 e h R0, 0 <= r1 -> r1 < r2 -> 0 <= e <= 90 -> 0 <= R0 ->
  exists h1 h2, ray_height (Fin r1) (Fin e) (Fin h) (Fin R0) = Fin h1 /\
                ray_height (Fin r2) (Fin e) (Fin h) (Fin R0) = Fin h2 /\ h1 < h2.
Proof.
  intros r1 r2 e h R0 H0 H1 He HR. rewrite !ray_height_v. do 2 eexists. repeat split.
  assert (sqrt (bh r1 e R0) < sqrt (bh r2 e R0)); [|lra].
  apply sqrt_lt_1; try apply bh_nonneg. unfold bh.
  assert (Hs : 0 <= sin (rad e)).
  { apply rad_0_90 in He. pose proof PI_RGT_0. apply sin_ge_0; lra. }
  set (s := sin (rad e)) in *.
  assert (A : r1 ^ 2 < r2 ^ 2) by nra.
  assert (B : 2 * r1 * R0 * s <= 2 * r2 * R0 * s).
  { apply Rmult_le_compat_r; auto. apply Rmult_le_compat_r; auto. lra. }
  lra.
Qed.
(** elevation in [-90, 90]: strictly increasing with elevation *)
Theorem C60_increasing_in_elevation : forall r e1 e2 h R0, 0 < r -> 0 < R0 ->
  -90 <= e1 -> e1 < e2 -> e2 <= 90 ->
  exists h1 h2, ray_height (Fin r) (Fin e1) (Fin h) (Fin R0) = Fin h1 /\
                ray_height (Fin r) (Fin e2) (Fin h) (Fin R0) = Fin h2 /\ h1 < h2.
Proof.
  intros r e1 e2 h R0 Hr HR H1 H2 H3. rewrite !ray_height_v. do 2 eexists. repeat split.
  assert (sqrt (bh r e1 R0) < sqrt (bh r e2 R0)); [|lra].
  apply sqrt_lt_1; try apply bh_nonneg. unfold bh.
  destruct (rad_90 e1) as [A _]; [lra|]. destruct (rad_90 e2) as [_ B]; [lra|].
  pose proof (rad_90 e1). pose proof (rad_90 e2). pose proof (rad_lt _ _ H2).
  assert (S : sin (rad e1) < sin (rad e2)) by (apply sin_increasing_1; lra).
  apply Rplus_lt_compat_l. apply Rmult_lt_compat_l; auto. repeat apply Rmult_lt_0_compat; lra.
Qed.
(** between the straight line over a flat earth and the slant range *)
Theorem C60_bounds : forall r e h R0, 0 <= r -> 0 <= e <= 90 -> 0 <= R0 ->
  exists z, ray_height (Fin r) (Fin e) (Fin h) (Fin R0) = Fin z /\
            h + r * sin (rad e) <= z <= h + r.
Proof.
  intros r e h R0 Hr He HR. rewrite ray_height_v. eexists. split; [reflexivity|].
  assert (Hs : 0 <= sin (rad e)).
  { apply rad_0_90 in He. pose proof PI_RGT_0. apply sin_ge_0; lra. }
  pose proof (SIN_bound (rad e)) as [_ Hs1]. set (s := sin (rad e)) in *.
  assert (A : R0 + r * s <= sqrt (bh r e R0)).
  { rewrite <- (sqrt_square (R0 + r * s)) by (pose proof (Rmult_le_pos r s Hr Hs); lra).
    apply sqrt_le_1_alt. unfold bh. fold s.
    assert (0 <= r ^ 2) by apply pow2_ge_0. assert (s ^ 2 <= 1) by nra.
    assert (r ^ 2 * s ^ 2 <= r ^ 2 * 1) by (apply Rmult_le_compat_l; auto). lra. }
  assert (B : sqrt (bh r e R0) <= R0 + r).
  { rewrite <- (sqrt_square (R0 + r)) by lra. apply sqrt_le_1_alt. unfold bh. fold s.
    assert (0 <= r * R0) by now apply Rmult_le_pos.
    assert (r * R0 * s <= r * R0 * 1) by (apply Rmult_le_compat_l; auto). lra. }
  lra.
Qed.
(** straight up, the height is the range *)
Theorem C60_vertical : forall r h R0, 0 <= r -> 0 <= R0 ->
  ray_height (Fin r) (Fin 90) (Fin h) (Fin R0) = Fin (r + h).
Proof.
  intros r h R0 Hr HR. rewrite ray_height_v. f_equal. unfold bh, rad.
  replace (90 * (PI / 180)) with (PI / 2) by field. rewrite sin_PI2.
  replace (r ^ 2 + R0 ^ 2 + 2 * r * R0 * 1) with ((r + R0) * (r + R0)) by ring.
  rewrite sqrt_square by lra. ring.
Qed.
Example C60_ex : exists h1 h2, ray_height (Fin 10000) (Fin 1) (Fin 30) r43 = Fin h1 /\
                ray_height (Fin 20000) (Fin 1) (Fin 30) r43 = Fin h2 /\ h1 < h2.
Proof. rewrite r43_v. apply C60_increasing_in_range; lra. Qed.

(** ** C69: the radar equation *)
(** The returned power is the intercepted power, re-radiated isotropically, times
    the effective area of the antenna. *)
Theorem C69_radar_equation : forall pt g wl sig r, r <> 0 ->
  exists pi ae pr, power_target (Fin pt) (Fin g) (Fin sig) (Fin r) = Fin pi /\
    ant_eff_area (Fin g) (Fin wl) = Fin ae /\
    power_return_target (Fin pt) (Fin g) (Fin wl) (Fin sig) (Fin r) = Fin pr /\
    pr = pi * ae / (4 * PI * r ^ 2).
Proof.
  intros. rewrite power_target_v, ant_eff_area_v, power_return_target_v by auto.
  do 3 eexists. repeat split. pose proof PI_RGT_0. field. split; lra.
Qed.
(** inverse square and inverse fourth power with range; +g dB of gain multiplies
    the intercepted power by 10^(g/10) and the returned one by its square *)
Theorem C69_range_and_gain_laws : forall pt g wl sig r s d, r <> 0 -> s <> 0 ->
  exists pi pr, power_target (Fin pt) (Fin g) (Fin sig) (Fin r) = Fin pi /\
    power_return_target (Fin pt) (Fin g) (Fin wl) (Fin sig) (Fin r) = Fin pr /\
    power_target (Fin pt) (Fin g) (Fin sig) (Fin (s * r)) = Fin (pi / s ^ 2) /\
    power_return_target (Fin pt) (Fin g) (Fin wl) (Fin sig) (Fin (s * r)) = Fin (pr / s ^ 4) /\
    power_target (Fin pt) (Fin (g + d)) (Fin sig) (Fin r) = Fin (pi * lin d) /\
    power_return_target (Fin pt) (Fin (g + d)) (Fin wl) (Fin sig) (Fin r) = Fin (pr * lin d ^ 2).
Proof.
  intros pt g wl sig r s d Hr Hs. assert (s * r <> 0) by now apply Rmult_integral_contrapositive.
  rewrite !power_target_v, !power_return_target_v, !lin_add by auto.
  do 2 eexists. pose proof PI_RGT_0. repeat split; f_equal; field; repeat split; lra.
Qed.
Example C69_ex : exists pi, power_target (Fin 1) (Fin 0) (Fin 1) (Fin 1000) = Fin pi /\ 0 < pi.
Proof.
  rewrite power_target_v by lra. eexists; split; [reflexivity|]. pose proof PI_RGT_0.
  apply Rdiv_lt_0_compat; [pose proof (lin_pos 0); lra|]. apply Rmult_lt_0_compat; lra.
Qed.

(** ** C70: the two sample volumes *)
(** The Gaussian-beam volume is the ideal one divided by 2 ln 2, hence smaller. *)
Theorem C70_gauss_over_ideal : forall r bh bv l,
  exists vi vg, sample_vol_ideal (Fin r) (Fin bh) (Fin bv) (Fin l) = Fin vi /\
    sample_vol_gauss (Fin r) (Fin bh) (Fin bv) (Fin l) = Fin vg /\
    vi = PI * (r * rad bh / 2) * (r * rad bv / 2) * (l / 2) /\ vg = vi / (2 * ln 2).
Proof.
  intros. rewrite vol_ideal_v, vol_gauss_v. do 2 eexists. repeat split.
  pose proof ln2_pos. field. lra.
Qed.
Lemma ln2_gt_half : 1 / 2 < ln 2.
Proof.
  apply exp_lt_inv. rewrite exp_ln by lra.
  assert (E : exp (1 / 2) * exp (1 / 2) = exp 1) by (rewrite <- exp_plus; f_equal; lra).
  pose proof exp_le_3. pose proof (exp_pos (1 / 2)). nra.
Qed.
Lemma mul4_pos a b c d : 0 < a -> 0 < b -> 0 < c -> 0 < d -> 0 < a * b * c * d.
Proof. intros; repeat apply Rmult_lt_0_compat; auto. Qed.
Lemma vol_pos r a b l : 0 < r -> 0 < a -> 0 < b -> 0 < l ->
  0 < PI * (r * a / 2) * (r * b / 2) * (l / 2).
Proof.
  intros. apply mul4_pos; [apply PI_RGT_0| | |lra];
    (apply Rdiv_lt_0_compat; [apply Rmult_lt_0_compat; auto|lra]).
Qed.
Theorem C70_gauss_smaller : forall r bh bv l, 0 < r -> 0 < bh -> 0 < bv -> 0 < l ->
  exists vi vg, sample_vol_ideal (Fin r) (Fin bh) (Fin bv) (Fin l) = Fin vi /\
    sample_vol_gauss (Fin r) (Fin bh) (Fin bv) (Fin l) = Fin vg /\ 0 < vg < vi.
Proof.
  intros r bh bv l Hr Hh Hv Hl. destruct (C70_gauss_over_ideal r bh bv l) as (vi & vg & A & B & Ei & Eg).
  exists vi, vg. repeat split; auto.
  - assert (0 < vi). { rewrite Ei. apply vol_pos; auto using rad_pos. }
    rewrite Eg. pose proof ln2_pos. apply Rdiv_lt_0_compat; lra.
  - assert (0 < vi). { rewrite Ei. apply vol_pos; auto using rad_pos. }
    rewrite Eg. pose proof ln2_gt_half. apply (Rmult_lt_reg_r (2 * ln 2)); [lra|].
    unfold Rdiv. rewrite Rmult_assoc, Rinv_l by lra. nra.
Qed.
(** the width of the ideal volume is the half power diameter *)
Theorem C70_ideal_from_half_power_radius : forall r bh bv l,
  exists a b vi, half_power_radius (Fin r) (Fin bh) = Fin a /\ half_power_radius (Fin r) (Fin bv) = Fin b /\
    sample_vol_ideal (Fin r) (Fin bh) (Fin bv) (Fin l) = Fin vi /\ vi = PI * a * b * (l / 2) /\
    a = r * (bh * PI / 180) / 2.
Proof.
  intros. rewrite !half_power_radius_v, vol_ideal_v. do 3 eexists. repeat split. unfold rad. field.
Qed.

(** ** C71: Rayleigh backscatter *)
(** The normalised cross section is 4 K^2 alpha^4 with alpha the size parameter
    pi D / wl; the cross section itself grows with the sixth power of D. *)
Theorem C71_normalised_cross_section : forall d wl k, d <> 0 -> wl <> 0 ->
  exists al s, size_param (Fin d) (Fin wl) = Fin al /\ al = PI * d / wl /\
    norm_xsec_bscatter_sphere (Fin d) (Fin wl) (Fin k) = Fin s /\ s = 4 * k ^ 2 * al ^ 4.
Proof.
  intros d w k Hd Hw. rewrite size_param_v, norm_xsec_v by auto. do 2 eexists. repeat split.
  - field; auto.
  - assert (HP : PI <> 0) by (pose proof PI_RGT_0; lra). field. repeat split; auto.
Qed.
Theorem C71_sixth_power : forall d wl k s, wl <> 0 ->
  exists x, xsec_bscatter_sphere (Fin d) (Fin wl) (Fin k) = Fin x /\
    xsec_bscatter_sphere (Fin (s * d)) (Fin wl) (Fin k) = Fin (s ^ 6 * x) /\ 0 <= x.
Proof.
  intros d w k s Hw. rewrite !xsec_v by auto. eexists. repeat split.
  - f_equal. field; auto.
  - pose proof PI_RGT_0. assert (0 < w ^ 4) by (replace (w ^ 4) with ((w * w) * (w * w)) by ring;
      assert (0 < w * w) by nra; apply Rmult_lt_0_compat; auto).
    apply Rmult_le_pos; [|left; now apply Rinv_0_lt_compat].
    apply Rmult_le_pos; [apply Rmult_le_pos; [apply pow_le; lra|apply pow2_ge_0]|].
    replace (d ^ 6) with ((d ^ 3) ^ 2) by ring. apply pow2_ge_0.
Qed.
(** half the wavelength-to-diameter ratio of 1/16 gives size parameter pi/16 *)
Example C71_ex : exists al s, size_param (Fin (1/16)) (Fin 1) = Fin al /\ al = PI * (1/16) / 1 /\
    norm_xsec_bscatter_sphere (Fin (1/16)) (Fin 1) (Fin 0.93) = Fin s /\ s = 4 * 0.93 ^ 2 * al ^ 4.
Proof. apply C71_normalised_cross_section; lra. Qed.

(** ** C73: effective earth radius *)
Theorem C73_no_refraction : forall k, r_effective k (Fin 0) = Ok (Fin 6371000).
Proof. intro k. rewrite r_eff_v by lra. do 2 f_equal. field. Qed.
(** with the documented default (-39e-6 per km) it is between 8474 and 8478 km,
    so smaller than the 4/3 radius (8494.7 km) that ray_height uses by default *)
Theorem C73_default : forall k, exists r, r_effective k dndh_default = Ok (Fin r) /\
  r = 1 / (1 / 6371 - 39 / 1000000) * 1000 /\ 8474000 < r < 8478000 /\ exists r43', @r43 xr _ = Fin r43' /\ r + 16000 < r43' /\ r43' = 4 / 3 * 6371000.
Proof.
  intro k. unfold dndh_default. rewrite lit_fin. cbn [Qnum Qden].
  rewrite r_eff_v by lra. eexists. split; [reflexivity|]. split; [f_equal; f_equal; lra|].
  replace (1 / 6371 + -39 / 1000000) with (751531 / 6371000000) by lra.
  replace (1 / (751531 / 6371000000) * 1000) with (6371000000 / 751531 * 1000) by (field; lra).
  rewrite r43_v. split; [lra|]. eexists. split; [reflexivity|]. lra.
Qed.
(** decreasing in the refractivity gradient above the critical value -1/6371 per
    km, where a Python float raises ZeroDivisionError; negative below *)
Theorem C73_monotone : forall k a b, - (1 / 6371) < a -> a < b ->
  exists ra rb, r_effective k (Fin a) = Ok (Fin ra) /\ r_effective k (Fin b) = Ok (Fin rb) /\
                0 < rb < ra.
Proof.
  intros k a b Ha Hb. rewrite !r_eff_v by lra. do 2 eexists. repeat split.
  - apply Rmult_lt_0_compat; [|lra]. apply Rdiv_lt_0_compat; lra.
  - apply Rmult_lt_compat_r; [lra|]. unfold Rdiv. rewrite !Rmult_1_l.
    apply Rinv_lt_contravar; [|lra]. apply Rmult_lt_0_compat; lra.
Qed.
Theorem C73_critical : r_effective PyFloat (Fin (- (1 / 6371))) = Raise ZeroDivisionError /\
  forall k d, d < - (1 / 6371) -> exists r, r_effective k (Fin d) = Ok (Fin r) /\ r < 0.
Proof.
  split.
  - unfold r_effective, earth_radius. cbv zeta.
    rewrite !lit_int. rewrite (fdiv_fin 6371000 1000) by lra.
    replace (6371000 / 1000) with 6371 by lra. rewrite (fdiv_fin 1 6371) by lra.
    rewrite fadd_fin. replace (1 / 6371 + - (1 / 6371)) with 0 by ring. now rewrite kdiv_py0.
  - intros k d Hd. rewrite r_eff_v by lra. eexists. split; [reflexivity|].
    assert (/ (1 / 6371 + d) < 0) by (apply Rinv_lt_0_compat; lra). unfold Rdiv. lra.
Qed.

(** ** C78: the radar constant *)
(** Each dB of loss (either kind) multiplies the constant by 10^(1/10): more loss
    gives a larger constant.  Gain counts twice; the constant is inversely
    proportional to the square of the wavelength. *)
Theorem C78_radar_const_laws : forall p g t wl bh bv al rl x s, 0 < wl -> 0 < s ->
  exists c, radar_const (Fin p) (Fin g) (Fin t) (Fin wl) (Fin bh) (Fin bv) (Fin al) (Fin rl) = Fin c /\
    c = PI ^ 3 * c0 * p * lin g ^ 2 * t * rad bh * rad bv * lin al * lin rl / (1024 * ln 2 * wl ^ 2) /\
    radar_const (Fin p) (Fin g) (Fin t) (Fin wl) (Fin bh) (Fin bv) (Fin (al + x)) (Fin rl) = Fin (c * lin x) /\
    radar_const (Fin p) (Fin g) (Fin t) (Fin wl) (Fin bh) (Fin bv) (Fin al) (Fin (rl + x)) = Fin (c * lin x) /\
    radar_const (Fin p) (Fin (g + x)) (Fin t) (Fin wl) (Fin bh) (Fin bv) (Fin al) (Fin rl) = Fin (c * lin x ^ 2) /\
    radar_const (Fin p) (Fin g) (Fin t) (Fin (s * wl)) (Fin bh) (Fin bv) (Fin al) (Fin rl) = Fin (c / s ^ 2).
Proof.
  intros p g t w bh bv al rl x s Hw Hs.
  assert (0 < s * w) by now apply Rmult_lt_0_compat.
  rewrite !radar_const_v, !lin_add by auto. pose proof ln2_pos.
  eexists. repeat split; f_equal; field; repeat split; lra.
Qed.
Lemma cpos a b c d e f g h i j k : 0 < a -> 0 < b -> 0 < c -> 0 < d -> 0 < e -> 0 < f -> 0 < g -> 0 < h -> 0 < i -> 0 < j -> 0 < k ->
  0 < a * b * c * d * e * f * g * h * i / (1024 * j * k).
Proof.
  intros. apply Rdiv_lt_0_compat; [repeat apply Rmult_lt_0_compat; auto|].
  apply Rmult_lt_0_compat; auto. lra.
Qed.
(** A lossy radar (positive total loss) is given a larger constant than a
    lossless one. *)
Theorem C78_loss_increases_constant : forall p g t wl bh bv al rl,
  0 < p -> 0 < t -> 0 < wl -> 0 < bh -> 0 < bv -> 0 < al -> 0 <= rl ->
  exists c c', radar_const (Fin p) (Fin g) (Fin t) (Fin wl) (Fin bh) (Fin bv) (Fin 0) (Fin rl) = Fin c /\
    radar_const (Fin p) (Fin g) (Fin t) (Fin wl) (Fin bh) (Fin bv) (Fin al) (Fin rl) = Fin c' /\ 0 < c < c'.
Proof.
  intros p g t w bh bv al rl Hp Ht Hw Hh Hv Hal Hrl.
  destruct (C78_radar_const_laws p g t w bh bv 0 rl al 1 Hw Rlt_0_1) as (c & E & Ec & E2 & _).
  rewrite Rplus_0_l in E2. exists c, (c * lin al). repeat split; auto.
  - rewrite Ec. pose proof PI_RGT_0. pose proof ln2_pos. pose proof c0_pos.
    pose proof (rad_pos _ Hh). pose proof (rad_pos _ Hv). pose proof (lin_pos 0). pose proof (lin_pos rl).
    pose proof (lin_pos g). assert (0 < PI ^ 3) by (apply pow_lt; auto).
    assert (0 < lin g ^ 2) by (apply pow_lt; auto). assert (0 < w ^ 2) by (apply pow_lt; auto).
    apply cpos; auto using rad_pos, lin_pos.
  - assert (0 < c).
    { rewrite Ec. pose proof PI_RGT_0. pose proof ln2_pos. pose proof c0_pos.
      pose proof (rad_pos _ Hh). pose proof (rad_pos _ Hv). pose proof (lin_pos 0). pose proof (lin_pos rl).
      pose proof (lin_pos g). assert (0 < PI ^ 3) by (apply pow_lt; auto).
      assert (0 < lin g ^ 2) by (apply pow_lt; auto). assert (0 < w ^ 2) by (apply pow_lt; auto).
      apply cpos; auto using rad_pos, lin_pos. }
    assert (1 < lin al).
    { unfold lin. rewrite <- (Rpower_O 10) by lra. apply Rpower10_lt. lra. }
    nra.
Qed.
Example C78_ex : exists c c', radar_const (Fin 1) (Fin 40) (Fin 1) (Fin 0.1) (Fin 1) (Fin 1) (Fin 0) (Fin 0) = Fin c /\
    radar_const (Fin 1) (Fin 40) (Fin 1) (Fin 0.1) (Fin 1) (Fin 1) (Fin 3) (Fin 0) = Fin c' /\ 0 < c < c'.
Proof. apply C78_loss_increases_constant; lra. Qed.
