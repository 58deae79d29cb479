(** * C112: the radar equations in double precision *)
From Coq Require Import Reals Lra Lia ZArith QArith Qreals.
From Flocq Require Import Core Relative IEEE754.BinarySingleNaN.
From Verif Require Import Base.Num Base.XReal Base.Ieee Base.RelErr Base.PosErr Spec.IeeeSpec Spec.LibmSpec.
From Verif Require Import Model.Common Model.Fundamentals Proofs.FundErr.
Open Scope R_scope.
#[local] Existing Instances p53 e1024 p24 e128.

Section Fund.
Variables (np1 : bool) (lm : libm double).
#[local] Instance dop : FloatOps double := double_ops np1 lm.
Hypothesis Acc : libm_accurate lm.

Lemma W_mul n1 n2 s1 s2 (x y : double) a b : ap n1 s1 x a -> ap n2 s2 y b ->
  (n1 + n2 <= 10000)%Z -> (s1 + s2 <= 400)%Z -> ap (n1 + n2 + 1) (s1 + s2) (fmul x y) (a * b).
Proof. apply ap_mul. Qed.
Lemma W_div n1 n2 s1 s2 (x y : double) a b : ap n1 s1 x a -> ap n2 s2 y b ->
  (n1 + n2 <= 10000)%Z -> (s1 + s2 <= 400)%Z -> ap (n1 + n2 + 1) (s1 + s2) (fdiv x y) (a / b).
Proof. apply ap_div. Qed.
Lemma W_pow (k : Z) (m : nat) n s (x : double) a : ap n s x a -> m = Z.to_nat k -> (0 < k <= 100)%Z -> (n <= 1000)%Z -> (k * s <= 400)%Z ->
  ap (3 + k * n + k * n / 9) (k * s) (fpow x (flit (Qmake k 1))) (a ^ m).
Proof. intros A -> K N S. exact (ap_pow lm n s x a k (acc_pow lm Acc) A K N S). Qed.
Lemma W_db (x : double) g : decibels x g -> ap 30 25 (fpow (flit 10) (fdiv x (flit 10))) (Rpower 10 (g / 10)).
Proof. intros (X & G). exact (ap_db lm x g (acc_pow lm Acc) X G). Qed.
Lemma W_int (k s : Z) : (1 <= k <= 2 ^ 53)%Z -> (Z.log2_up k <= s)%Z -> ap 0 s (flit (Qmake k 1)) (IZR k).
Proof. apply ap_int. Qed.
Lemma W_in (x : double) v : quantity x v -> ap 0 25 x v.
Proof. intros (X & R). now apply ap_in. Qed.
Lemma W_pi : ap 1 2 fpi PI.
Proof. exact (ap_pi lm Acc). Qed.
Lemma W_log2 : ap 2 1 (flog (flit 2)) (ln 2).
Proof.
  pose proof ln2_half. pose proof ln2_1. split.
  - apply within_apx; [|lra|lra]. replace (2 * bpow radix2 (-53)) with (bpow radix2 (-52)); [exact (acc_log lm Acc)|].
    change (-53)%Z with (-52 + -1)%Z. rewrite bpow_plus. change (bpow radix2 (-1)) with (/ 2). lra.
  - rewrite exp_Ropp. pose proof (exp_ge 1). split; [|lra].
    apply Rle_trans with (/ 2); [apply Rinv_le_contravar; lra|lra].
Qed.
Lemma W_boltz : ap 1 60 k_boltz (1381 / 10 ^ 26).
Proof.
  assert (E : exp (- IZR 60) <= 1381 / 10 ^ 26 <= exp (IZR 60)).
  { pose proof exp25 as E1. pose proof (exp_ge 60). 
    assert (E3 : 10 ^ 4 <= exp 10).
    { pose proof (exp98 80) as K. replace (INR 80 / 8) with 10 in K by (rewrite INR_IZR_INZ; simpl; lra).
      apply Rle_trans with (2 := K). replace 80%nat with (4 * (5 * 4))%nat by reflexivity. rewrite !pow_mult.
      assert (1.6 <= (9 / 8) ^ 4) by (simpl; lra). assert (P5 : 1.6 ^ 5 <= ((9 / 8) ^ 4) ^ 5) by (apply pow_incr; lra).
      apply pow_incr. simpl in P5. simpl. lra. }
    assert (10 ^ 24 <= exp 60).
    { replace 60 with (25 + 25 + 10) by lra. rewrite !exp_plus. replace (10 ^ 24) with (10 ^ 10 * 10 ^ 10 * 10 ^ 4) by (simpl; lra).
      apply Rmult_le_compat; try (simpl; lra). apply Rmult_le_compat; simpl in *; lra. }
    split; [|simpl; lra]. rewrite exp_Ropp. apply Rle_trans with (/ 10 ^ 24); [apply Rinv_le_contravar; auto; simpl; lra|simpl; lra]. }
  split; auto. replace (IZR 1 * eta) with eta by ring.
  assert (V : IZR (Qnum (Qmake 1381 (10 ^ 26))) / IZR (Zpos (Qden (Qmake 1381 (10 ^ 26)))) = 1381 / 10 ^ 26).
  { cbn [Qnum Qden]. f_equal. change (Z.pos (10 ^ 26)) with (10 ^ 26)%Z. rewrite (pow_IZR 10 26). reflexivity. }
  rewrite <- V. apply (apx_lit (Qmake 1381 (10 ^ 26))). rewrite V. exact (safe_pos 60 _ E ltac:(lia)).
Qed.

(** the error of an expression, by its structure *)
Ltac side := (vm_compute; (discriminate || (split; (discriminate || reflexivity)))).
Ltac err :=
  match goal with
  | |- ap _ _ (fmul _ _) _ => eapply W_mul; [err|err|side|side]
  | |- ap _ _ (fdiv _ _) _ => eapply W_div; [err|err|side|side]
  | |- ap _ _ (fpow (flit _) (fdiv _ (flit _))) _ => eapply W_db; eassumption
  | |- ap _ _ (fpow _ (flit (Qmake ?k 1))) _ =>
      let m := eval vm_compute in (Z.to_nat k) in eapply (W_pow k m); [err|reflexivity|side|side|side]
  | |- ap _ _ (flit (Qmake ?k 1)) _ =>
      let s := eval vm_compute in (Z.log2_up k) in apply (W_int k s); side
  | |- ap _ _ fpi _ => exact W_pi
  | |- ap _ _ (flog _) _ => exact W_log2
  | |- ap _ _ k_boltz _ => exact W_boltz
  | |- ap _ _ _ _ => eapply W_in; eassumption
  end.
Lemma finish n s x v v' u : ap n s x v -> v = v' -> (113 * n <= 100 * 2 ^ (u + 53))%Z -> (113 * n <= 100000)%Z -> (0 <= u + 53)%Z ->
  within (bpow radix2 u) x v'.
Proof.
  intros A -> T E U. apply within_le with (1 := ap_within _ _ n _ _ A (Z.le_refl n) E).
  replace (bpow radix2 u) with (bpow radix2 (u + 53) * bpow radix2 (-53)) by (rewrite <- bpow_plus; f_equal; lia).
  rewrite <- (IZR_Zpower radix2 _ U). change (radix_val radix2) with 2%Z.
  apply IZR_le in T. rewrite !mult_IZR in T. pose proof (bpow_gt_0 radix2 (-53)). rewrite <- Rmult_assoc.
  apply Rmult_le_compat_r; lra.
Qed.
Ltac nz := repeat match goal with H : quantity _ ?v |- _ =>
    lazymatch goal with P : 0 < v |- _ => fail | _ => assert (0 < v) by (apply (ap_pos _ _ _ _ (W_in _ _ H))) end end;
  pose proof PI_RGT_0; pose proof ln2_half.
Ltac eqn := nz; (reflexivity || (field; repeat split; lra)).
Ltac acc := eapply finish; [err|try eqn|side|side|side].

Ltac unf := intros; cbv zeta delta [radar_const deg2rad speed_of_light frequency wavelength pulse_length pulse_duration
  ant_eff_area power_target power_return_target xsec_bscatter_sphere norm_xsec_bscatter_sphere size_param
  fmax vmax nyquist rmax unambiguous_range doppler_dilemma radial_velocity half_power_radius sample_vol_ideal sample_vol_gauss].

(** ** C112: the radar constant *)
Theorem C112_radar_constant (pt g tau wl bh bv al rl : double) vpt vg vtau vwl vbh vbv val vrl :
  quantity pt vpt -> decibels g vg -> quantity tau vtau -> quantity wl vwl ->
  quantity bh vbh -> quantity bv vbv -> decibels al val -> decibels rl vrl ->
  within (bpow radix2 (-45)) (radar_const pt g tau wl bh bv al rl)
    (PI ^ 3 * 300000000 * vpt * Rpower 10 (vg / 10) ^ 2 * vtau * (vbh * PI / 180) * (vbv * PI / 180) *
     Rpower 10 (val / 10) * Rpower 10 (vrl / 10) / (1024 * ln 2 * vwl ^ 2)).
Proof. unf. acc. Qed.

(** the antenna and the targets *)
Theorem C112_targets (pt g wl ar sig r d k : double) vpt vg vwl var vsig vr vd vk :
  quantity pt vpt -> decibels g vg -> quantity wl vwl -> quantity ar var -> quantity sig vsig ->
  quantity r vr -> quantity d vd -> quantity k vk ->
  within (bpow radix2 (-47)) (ant_eff_area g wl) (Rpower 10 (vg / 10) * vwl ^ 2 / (4 * PI)) /\
  within (bpow radix2 (-47)) (power_target pt g ar r) (vpt * Rpower 10 (vg / 10) * var / (4 * PI * vr ^ 2)) /\
  within (bpow radix2 (-46)) (power_return_target pt g wl sig r)
    (vpt * Rpower 10 (vg / 10) ^ 2 * vwl ^ 2 * vsig / (64 * PI ^ 3 * vr ^ 4)) /\
  within (bpow radix2 (-48)) (xsec_bscatter_sphere d wl k) (PI ^ 5 * vk ^ 2 * vd ^ 6 / vwl ^ 4) /\
  within (bpow radix2 (-47)) (norm_xsec_bscatter_sphere d wl k)
    (PI ^ 5 * vk ^ 2 * vd ^ 6 / vwl ^ 4 / (PI * (vd / 2) ^ 2)) /\
  within (bpow radix2 (-49)) (size_param d wl) (PI * vd / vwl).
Proof. repeat split; unf; acc. Qed.

(** wavelengths, pulses and the Doppler relations *)
Theorem C112_doppler (f wl prf x : double) vf vwl vprf vx :
  quantity f vf -> quantity wl vwl -> quantity prf vprf -> quantity x vx ->
  within (bpow radix2 (-52)) (frequency wl) (300000000 / vwl) /\
  within (bpow radix2 (-52)) (wavelength f) (300000000 / vf) /\
  within (bpow radix2 (-51)) (pulse_length x) (300000000 * vx / 2) /\
  within (bpow radix2 (-51)) (pulse_duration x) (2 * vx / 300000000) /\
  within (bpow radix2 (-52)) (fmax prf) (vprf / 2) /\
  within (bpow radix2 (-51)) (vmax prf wl) (vprf * vwl / 4) /\
  within (bpow radix2 (-51)) (nyquist prf wl) (vprf * vwl / 4) /\
  within (bpow radix2 (-51)) (rmax prf) (300000000 / (2 * vprf)) /\
  within (bpow radix2 (-51)) (unambiguous_range prf) (300000000 / (2 * vprf)) /\
  within (bpow radix2 (-51)) (doppler_dilemma x wl) (300000000 * vwl / (8 * vx)) /\
  within (bpow radix2 (-51)) (radial_velocity f wl) (vf * vwl / 2).
Proof. repeat split; unf; acc. Qed.

(** beam geometry *)
Theorem C112_geometry (r bh bv l : double) vr vbh vbv vl :
  quantity r vr -> quantity bh vbh -> quantity bv vbv -> quantity l vl ->
  within (bpow radix2 (-50)) (half_power_radius r bh) (vr * (vbh * PI / 180) / 2) /\
  within (bpow radix2 (-48)) (sample_vol_ideal r bh bv l)
    (PI * (vr * (vbh * PI / 180) / 2) * (vr * (vbv * PI / 180) / 2) * (vl / 2)) /\
  within (bpow radix2 (-48)) (sample_vol_gauss r bh bv l)
    (PI * vr ^ 2 * (vbh * PI / 180) * (vbv * PI / 180) * vl / (16 * ln 2)).
Proof. repeat split; unf; acc. Qed.

(** thermal noise in watts, for a number and elementwise for an array *)
Theorem C112_thermal_noise (b t : double) vb vt u : quantity b vb -> quantity t vt -> upper u = "W"%string ->
  exists y, thermal_noise (NS b) u t = NS y /\ within (bpow radix2 (-51)) y (1381 / 10 ^ 26 * vt * vb).
Proof.
  intros B T U. eexists. split; [unfold thermal_noise; rewrite U; reflexivity|]. cbn beta. acc.
Qed.

(** ** Decibel ratios: absolute error 2^-50 (1 + |value|) *)
Definition db_within (e : R) (x : double) (v : R) : Prop :=
  exists w, denotes x w /\ Rabs (w - v) <= e * (1 + Rabs v).

Lemma db_bound n t (x : double) v : (0 <= n)%Z -> (n <= 5)%Z -> 6 <= t -> 52 / 10 * IZR n <= t ->
  (exists w, denotes x w /\ Rabs (w - v) <= 6 * bpow radix2 (-53) * Rabs v + 52 / 10 * IZR n * bpow radix2 (-53)) ->
  db_within (t * bpow radix2 (-53)) x v.
Proof.
  intros N0 N T6 T (w & W & D). exists w. split; auto. apply Rle_trans with (1 := D).
  pose proof (bpow_gt_0 radix2 (-53)). pose proof (Rabs_pos v).
  rewrite Rmult_plus_distr_l, Rmult_1_r, Rplus_comm. apply Rplus_le_compat.
  - apply Rmult_le_compat_r; lra.
  - apply Rmult_le_compat_r; auto. apply Rmult_le_compat_r; lra.
Qed.

Theorem C112_decibels (p q : double) vp vq : quantity p vp -> quantity q vq ->
  let v := 10 * (ln (vp / vq) / ln 10) in
  db_within (bpow radix2 (-50)) (antenna_gain p q) v /\
  db_within (bpow radix2 (-50)) (cdr p q) v /\
  db_within (bpow radix2 (-50)) (ldr p q) v /\
  db_within (bpow radix2 (-50)) (zdr p q) v /\
  db_within (bpow radix2 (-50)) (z2dbz p) (10 * (ln vp / ln 10)).
Proof.
  intros P Q v.
  assert (B : bpow radix2 (-50) = 8 * bpow radix2 (-53)) by (change (-50)%Z with (3 + -53)%Z; now rewrite bpow_plus).
  assert (A : ap 1 50 (fdiv p q) (vp / vq)) by (eapply ap_le; [err|side|side]).
  assert (K : db_within (bpow radix2 (-50)) (fmul (flit 10) (flog10 (fdiv p q))) v).
  { rewrite B. apply (db_bound 1); try lia; try lra. exact (db_err lm 1 50 _ _ Acc A ltac:(lia) ltac:(lia)). }
  repeat split; try exact K.
  rewrite B. apply (db_bound 0); try lia; try lra.
  exact (db_err lm 0 25 _ _ Acc (W_in _ _ P) ltac:(lia) ltac:(lia)).
Qed.

(** decibels to linear units and the noise level in dBm *)
Theorem C112_dbz2z (x : double) g : decibels x g -> within (bpow radix2 (-47)) (dbz2z x) (Rpower 10 (g / 10)).
Proof. intro D. unfold dbz2z. eapply finish; [exact (W_db _ _ D)|reflexivity|side|side|side]. Qed.

Lemma W_milli : ap 1 10 (flit 0.001) (1 / 1000).
Proof.
  assert (E : exp (- IZR 10) <= 1 / 1000 <= exp (IZR 10)).
  { assert (2 <= exp 1) by (pose proof (exp_ge 1); lra). pose proof (exp_ge 10).
    assert (1024 <= exp 10).
    { replace 10 with (5 + 5) by lra. rewrite exp_plus. assert (32 <= exp 5); [|nra].
      replace 5 with (1+1+1+1+1) by lra. rewrite !exp_plus. 
      assert (4 <= exp 1 * exp 1) by nra. assert (8 <= exp 1 * exp 1 * exp 1) by nra. assert (16 <= exp 1 * exp 1 * exp 1 * exp 1) by nra. nra. }
    split; [|lra]. rewrite exp_Ropp. replace (1 / 1000) with (/ 1000) by lra. apply Rinv_le_contravar; lra. }
  split; auto. replace (IZR 1 * eta) with eta by ring.
  change (1 / 1000) with (IZR (Qnum 0.001) / IZR (Zpos (Qden 0.001))) in *. apply (apx_lit 0.001). exact (safe_pos 10 _ E ltac:(lia)).
Qed.
Theorem C112_noise_dbm (b t : double) vb vt u : quantity b vb -> quantity t vt -> upper u = "DBM"%string ->
  exists y, thermal_noise (NS b) u t = NS y /\
    db_within (bpow radix2 (-48)) y (10 * (ln (1381 / 10 ^ 26 * vt * vb / (1 / 1000)) / ln 10)).
Proof.
  intros Q T U. eexists. split; [unfold thermal_noise; rewrite U; reflexivity|]. cbn beta.
  assert (B : bpow radix2 (-48) = 32 * bpow radix2 (-53)) by (change (-48)%Z with (5 + -53)%Z; now rewrite bpow_plus).
  assert (A : ap 3 110 (fmul (fmul k_boltz t) b) (1381 / 10 ^ 26 * vt * vb)) by (eapply ap_le; [err|side|side]).
  pose proof (W_div _ _ _ _ _ _ _ _ A W_milli ltac:(lia) ltac:(lia)) as A'.
  rewrite B. apply (db_bound 5); try lia; try lra.
  exact (db_err lm 5 120 _ _ Acc A' ltac:(lia) ltac:(lia)).
Qed.

(** ** The ray height: the subtraction of the earth's radius cancels, so the
    error is bounded relative to the distances, not to the height *)
Theorem C112_ray_height (range elev h0 reff : double) r e h R0 :
  quantity range r -> denotes elev e -> e = 0 \/ / 10 ^ 10 <= e <= 90 ->
  denotes h0 h -> Rabs h <= 10 ^ 10 -> quantity reff R0 ->
  exists w, denotes (ray_height range elev h0 reff) w /\
    Rabs (w - (sqrt (r ^ 2 + R0 ^ 2 + 2 * r * R0 * sin (e * (PI / 180))) - R0 + h))
      <= bpow radix2 (-49) * (r + R0 + Rabs h).
Proof.
  intros (Xr & Br) Xe Be Xh Bh Q.
  exact (ray_err lm Acc range elev h0 reff r e h R0 Xr Br Xe Be Xh Bh (ap_le _ 2 _ 25 _ _ (W_in _ _ Q) ltac:(lia) ltac:(lia)) (proj2 Q)).
Qed.
(** with the default 4/3 earth radius, out to 1000 km and up to 20 km of radar
    altitude, the height is right to 0.02 micrometres *)
Theorem C112_ray_height_default (range elev h0 : double) r e h :
  quantity range r -> r <= 1000000 -> denotes elev e -> e = 0 \/ / 10 ^ 10 <= e <= 90 ->
  denotes h0 h -> Rabs h <= 20000 ->
  exists w, denotes (ray_height range elev h0 r43) w /\
    Rabs (w - (sqrt (r ^ 2 + (4 / 3 * 6371000) ^ 2 + 2 * r * (4 / 3 * 6371000) * sin (e * (PI / 180))) - 4 / 3 * 6371000 + h))
      <= 2 / 10 ^ 8.
Proof.
  intros (Xr & Br) R6 Xe Be Xh Bh.
  assert (A : ap 2 27 r43 (6371000 * 4 / 3)).
  { pose proof (W_int 6371000 23 ltac:(lia) ltac:(vm_compute; discriminate)) as A1.
    pose proof (W_int 4 2 ltac:(lia) ltac:(vm_compute; discriminate)) as A2.
    pose proof (W_int 3 2 ltac:(lia) ltac:(vm_compute; discriminate)) as A3.
    exact (W_div _ _ _ _ _ _ _ _ (W_mul _ _ _ _ _ _ _ _ A1 A2 ltac:(lia) ltac:(lia)) A3 ltac:(lia) ltac:(lia)). }
  replace (6371000 * 4 / 3) with (4 / 3 * 6371000) in A by lra.
  set (R0 := 4 / 3 * 6371000) in *.
  assert (B : / 10 ^ 10 <= R0 <= 10 ^ 10) by (unfold R0; simpl; lra).
  assert (A' : ap 2 25 r43 R0).
  { destruct A as (A & _). split; auto. pose proof exp25 as E. split; [|lra].
    rewrite exp_Ropp. apply Rle_trans with (/ 10 ^ 10); [apply Rinv_le_contravar; lra|lra]. }
  destruct (ray_err lm Acc range elev h0 r43 r e h R0 Xr Br Xe Be Xh ltac:(simpl; lra) A' B) as (w & W & D).
  exists w. split; [exact W|]. apply Rle_trans with (1 := D).
  assert (b49 : bpow radix2 (-49) = / 562949953421312) by (cbn; lra). rewrite b49.
  pose proof (Rabs_pos h). unfold R0. lra.
Qed.
End Fund.

(** ** The hypotheses are met *)
(** the correctly rounded C library *)
Definition nearest (r : R) : double := if Req_EM_T r 0 then B754_zero false else near_double r.
Definition lm_fine : libm double :=
  let f1 (f : R -> R) x := match val 53 1024 x with Fin a => nearest (f a) | _ => B754_nan end in
  mklibm (fun x y => match val 53 1024 x, val 53 1024 y with Fin a, Fin b => near_double (Rpower a b) | _, _ => B754_nan end)
    (f1 (fun a => ln a / ln 10)) (f1 ln) (f1 sin) (f1 cos) (f1 asin) (near_double PI).
Lemma nearest_within r : r = 0 \/ exp (-500) <= Rabs r <= exp 500 -> within (bpow radix2 (-53)) (nearest r) r.
Proof.
  intro R. unfold nearest. destruct Req_EM_T as [-> |N].
  - exists 0. split; [reflexivity|]. rewrite Rminus_0_r, !Rabs_R0. lra.
  - destruct R as [|B]; [contradiction|]. 
    pose proof (near_double_val r B) as V.
    assert (Lo : bpow radix2 (-1022) <= Rabs r).
    { apply Rle_trans with (2 := proj1 B). rewrite bpow_exp. apply exp_le_mono. pose proof ln2_half. lra. }
    destruct (rnd_apx r B) as (d & D & E).
    pose proof (relative_error_N_FLT radix2 (3 - 1024 - 53) 53 eq_refl (fun n => negb (Z.even n)) r Lo) as G.
    change (FLT_exp _ 53) with (SpecFloat.fexp 53 1024) in G.
    unfold rnd in V, E. rewrite E in V.
    exists (r * exp d). split; [exact V|].
    destruct (Rlt_bool _ _) in E; [|destruct (Rlt_bool _ _) in E; discriminate E]. injection E as E. rewrite <- E.
    apply Rle_trans with (1 := G). apply Rmult_le_compat_r; [apply Rabs_pos|].
    change (- (53) + 1)%Z with (-52)%Z. 
    assert (B52 : bpow radix2 (-52) = 2 * bpow radix2 (-53)) by (change (-52)%Z with (1 + -53)%Z; now rewrite bpow_plus).
    rewrite B52. lra.
Qed.
Lemma bp_le a b : (a <= b)%Z -> bpow radix2 a <= bpow radix2 b.
Proof. apply bpow_le. Qed.
Lemma lm_fine_accurate : libm_accurate lm_fine.
Proof.
  pose proof ln2_half as H2. pose proof ln2_1 as H1. pose proof PI2_3_2 as P3. pose proof PI_4 as P4.
  pose proof (exp_ge 500) as E5. assert (E1 : exp (-500) <= / 501).
  { change (exp (-500)) with (exp (Ropp 500)). rewrite exp_Ropp. apply Rinv_le_contravar; lra. }
  assert (NP : forall r, 0 < r -> near_double r = nearest r) by (intros r Hr; unfold nearest; destruct Req_EM_T; [lra|reflexivity]).
  split.
  - intros x y a b X Y A B. cbn [lm_fine lm_pow]. rewrite X, Y, NP by apply exp_pos.
    assert (P : 0 < Rpower a b) by apply exp_pos.
    destruct (nearest_within (Rpower a b)) as (w & W & D); [right; rewrite Rabs_pos_eq; lra|].
    exists w. split; [exact W|]. rewrite (Rabs_pos_eq (Rpower a b)) in D by lra. apply Rle_trans with (1 := D).
    apply Rmult_le_compat_r; [lra|]. apply bp_le. lia.
  - cbn [lm_fine lm_pi]. rewrite NP by lra. apply nearest_within. right. rewrite Rabs_pos_eq; lra.
  - cbn [lm_fine lm_log].
    assert (V : val 53 1024 (b_lit 53 1024 p53 e1024 2) = Fin 2).
    { destruct (apx_int 2 ltac:(vm_compute; discriminate)) as (d & D & E).
      assert (d = 0). { destruct (Req_dec d 0); auto. pose proof (Rabs_pos_lt d H). lra. }
      subst. rewrite exp_0, Rmult_1_r in E. exact E. }
    rewrite V. apply within_le with (bpow radix2 (-53)); [|apply bp_le; lia]. apply nearest_within. right. rewrite Rabs_pos_eq; lra.
  - intros x a X R. cbn [lm_fine lm_log10]. unfold denotes in X. rewrite X.
    apply within_le with (bpow radix2 (-53)); [|apply bp_le; lia]. apply nearest_within.
    pose proof (exp_pos (-500)). pose proof ln10_range as L10.
    destruct (Req_dec a 1) as [-> |N1]; [left; rewrite ln_1; lra|right].
    pose proof (ln_away x a X ltac:(lra) N1) as Aw. pose proof (ln_range a 500 ltac:(exact R)) as Lr.
    unfold Rdiv. rewrite Rabs_mult, (Rabs_pos_eq (/ ln 10)) by (left; apply Rinv_0_lt_compat; lra).
    assert (I10 : / 10 <= / ln 10 <= / 2) by (split; apply Rinv_le_contravar; lra).
    assert (Rabs (ln a) <= 500) by (apply Rabs_le; lra).
    split.
    + apply Rle_trans with (bpow radix2 (-54) * / 10).
      * rewrite bpow_exp. change (exp (-500)) with (exp (Ropp 500)).
        replace (Ropp 500) with (Ropp 100 + Ropp 400) by lra. rewrite exp_plus. apply Rmult_le_compat; try (left; apply exp_pos).
        -- apply exp_le_mono. lra.
        -- rewrite exp_Ropp. apply Rinv_le_contravar; [lra|]. pose proof (exp_ge 400). lra.
      * pose proof (bpow_gt_0 radix2 (-54)). apply Rmult_le_compat; lra.
    + pose proof (Rabs_pos (ln a)). nra.
  - intros x a X R. cbn [lm_fine lm_sin]. unfold denotes in X. rewrite X.
    apply within_le with (bpow radix2 (-53)); [|apply bp_le; lia]. apply nearest_within.
    destruct R as [-> |(L & U)]; [left; apply sin_0|right].
    pose proof (exp_pos (-100)). pose proof (SIN_bound a).
    assert (Lo : exp (-100) / 2 <= sin a).
    { destruct (Rle_or_lt a (PI / 2)) as [K|K]; [pose proof (sin_lower a ltac:(lra)); lra|].
      rewrite <- (sin_PI_x a). pose proof (sin_lower (PI - a) ltac:(lra)).
      pose proof (exp_le_mono (-100) (-1) ltac:(lra)). change (exp (-1)) with (exp (Ropp 1)) in *. rewrite (exp_Ropp 1) in *.
      pose proof (exp_ge 1). assert (/ exp 1 <= / 2) by (apply Rinv_le_contravar; lra). lra. }
    rewrite Rabs_pos_eq by lra. split; [|lra]. apply Rle_trans with (2 := Lo).
    change (exp (-500)) with (exp (Ropp 500)). replace (Ropp 500) with (-100 + Ropp 400) by lra. rewrite exp_plus.
    unfold Rdiv. apply Rmult_le_compat_l; [lra|]. rewrite exp_Ropp. apply Rinv_le_contravar; [lra|]. pose proof (exp_ge 400). lra.
Qed.

(** a 250 kW transmitter, 45 dB gain, no losses *)
Lemma int_denotes n : (Z.abs n <= 2 ^ 53)%Z -> denotes (b_lit 53 1024 p53 e1024 (inject_Z n)) (IZR n).
Proof.
  intro L. destruct (apx_int n L) as (d & D & E).
  assert (d = 0). { destruct (Req_dec d 0); auto. pose proof (Rabs_pos_lt d H). lra. }
  subst. rewrite exp_0, Rmult_1_r in E. exact E.
Qed.
Example ex112 : libm_accurate lm_fine /\ quantity (b_lit 53 1024 p53 e1024 250000) 250000 /\
  decibels (b_lit 53 1024 p53 e1024 45) 45 /\ decibels (b_lit 53 1024 p53 e1024 0) 0.
Proof.
  split; [apply lm_fine_accurate|]. repeat split.
  - apply (int_denotes 250000). lia.
  - simpl; lra.
  - simpl; lra.
  - apply (int_denotes 45). lia.
  - right. rewrite Rabs_pos_eq by lra. simpl; lra.
  - now left.
Qed.
