(** * C94: the unit conversions in double precision *)
From Coq Require Import Reals Lra Lia ZArith QArith Qreals.
From Flocq Require Import Core IEEE754.BinarySingleNaN.
From Verif Require Import Base.Num Base.XReal Base.Ieee Base.RelErr Spec.IeeeSpec.
From Verif Require Import Model.Common Model.Fundamentals.
Open Scope R_scope.

Section Units.
Variables (np1 : bool) (lm : libm double).
#[local] Instance dop : FloatOps double := double_ops np1 lm.

(** a double that stands for the real number v *)
Definition stands (x : double) (v : R) : Prop := val 53 1024 x = Fin v.
(** zero, or of a size between e^-300 and e^300 (10^-130 and 10^130) *)
Definition ordinary (v : R) : Prop := v = 0 \/ exp (-300) <= Rabs v <= exp 300.
(** y is v up to a relative error of 2^-49 (under nine units in the last place) *)
Definition close (y : double) (v : R) : Prop :=
  exists w, stands y w /\ Rabs (w - v) <= bpow radix2 (-49) * Rabs v.

Lemma apx_close n y v : apx (INR n * eta) y v -> (n <= 14)%nat -> close y v.
Proof.
  intros A L. apply le_INR in L. simpl (INR 14) in L. pose proof eta_small as Es. pose proof eta_pos as Ep.
  destruct (apx_error _ _ _ A) as (w & W & D); [nra|]. exists w. split; auto.
  apply Rle_trans with (1 := D). apply Rmult_le_compat_r; [apply Rabs_pos|].
  assert (B : bpow radix2 (-49) = 16 * bpow radix2 (-53)).
  { change (-49)%Z with (4 + -53)%Z. rewrite bpow_plus. f_equal. }
  rewrite B. unfold eta. pose proof (bpow_gt_0 radix2 (-53)). nra.
Qed.

(** multiplying or dividing by moderate constants *)
Definition mid (v : R) : Prop := v = 0 \/ exp (-350) <= Rabs v <= exp 350.
Lemma exp50 : 10 ^ 15 <= exp 50.
Proof.
  assert (2 <= exp 1) by (pose proof (exp_ge 1); lra).
  assert (K : forall n, 2 ^ n <= exp (INR n)).
  { induction n; [simpl; rewrite exp_0; lra|]. rewrite S_INR, exp_plus. simpl. pose proof (exp_pos (INR n)).
    assert (0 <= 2 ^ n) by (apply pow_le; lra). nra. }
  specialize (K 50%nat). replace (INR 50) with 50 in K by (simpl; lra).
  apply Rle_trans with (2 := K). simpl. lra.
Qed.
Lemma scale_gen s v c : v = 0 \/ exp (- s) <= Rabs v <= exp s -> / 10 ^ 15 <= Rabs c <= 10 ^ 15 ->
  v * c = 0 \/ exp (- (s + 50)) <= Rabs (v * c) <= exp (s + 50).
Proof.
  intros [->|(L & U)] (Lc & Uc); [left; ring|right]. rewrite Rabs_mult. pose proof exp50 as E.
  assert (Lc' : exp (Ropp 50) <= Rabs c).
  { rewrite exp_Ropp. apply Rle_trans with (2 := Lc). apply Rinv_le_contravar; lra. }
  pose proof (exp_pos (- s)). pose proof (exp_pos (- 50)). split.
  - rewrite Ropp_plus_distr, exp_plus. apply Rmult_le_compat; auto; left; apply exp_pos.
  - rewrite exp_plus. apply Rmult_le_compat; auto using Rabs_pos. lra.
Qed.
Lemma scale_mid v c : ordinary v -> / 10 ^ 15 <= Rabs c <= 10 ^ 15 -> mid (v * c).
Proof.
  intros O C. destruct (scale_gen 300 v c O C) as [|H]; [now left|right].
  replace (-350) with (- (300 + 50)) by lra. replace 350 with (300 + 50) by lra. exact H.
Qed.
Lemma scale_by v c : mid v -> / 10 ^ 15 <= Rabs c <= 10 ^ 15 -> safe0 (v * c).
Proof.
  intros O C. destruct (scale_gen 350 v c O C) as [|H]; [now left|right]. unfold safe.
  replace (-400) with (- (350 + 50)) by lra. replace 400 with (350 + 50) by lra. exact H.
Qed.
Lemma ord_mid v : ordinary v -> mid v.
Proof. intro O. replace v with (v * 1) by ring. apply scale_mid; auto. rewrite Rabs_R1. simpl. lra. Qed.
Lemma mid1 : mid 1.
Proof.
  right. rewrite Rabs_R1. pose proof (exp_ge 350). pose proof (exp_le_mono (-350) 0). rewrite exp_0 in *. lra.
Qed.

Ltac const := match goal with |- _ <= Rabs ?c <= _ => rewrite (Rabs_pos_eq c) by lra; simpl; lra end.

(** the literals *)
Lemma L1000 : apx 0 (flit 1000) 1000. Proof. exact (apx_int 1000 ltac:(vm_compute; discriminate)). Qed.
Lemma L3600 : apx 0 (flit 3600) 3600. Proof. exact (apx_int 3600 ltac:(vm_compute; discriminate)). Qed.
Lemma L2 : apx 0 (flit 2) 2. Proof. exact (apx_int 2 ltac:(vm_compute; discriminate)). Qed.
Lemma Lc : apx 0 speed_of_light 300000000. Proof. exact (apx_int 300000000 ltac:(vm_compute; discriminate)). Qed.
Lemma Lmph : apx eta (flit 0.62137) 0.62137.
Proof.
  change 0.62137%R with (IZR (Qnum 0.62137) / IZR (Zpos (Qden 0.62137))). apply (apx_lit 0.62137).
  cbn [Qnum Qden]. replace (62137 / 100000) with (1 * (62137 / 100000)) by ring. apply scale_by; [apply mid1|const].
Qed.
Lemma Lkts : apx eta (flit 0.51) 0.51.
Proof.
  change 0.51%R with (IZR (Qnum 0.51) / IZR (Zpos (Qden 0.51))). apply (apx_lit 0.51).
  cbn [Qnum Qden]. replace (51 / 100) with (1 * (51 / 100)) by ring. apply scale_by; [apply mid1|const].
Qed.

Lemma fmul_apx e1 e2 (x y : double) a b : apx e1 x a -> apx e2 y b -> e1 + e2 <= 10 -> safe0 (a * b) ->
  apx (e1 + e2 + eta) (fmul x y) (a * b).
Proof. apply apx_mul. Qed.
Lemma fdiv_apx e1 e2 (x y : double) a b : apx e1 x a -> apx e2 y b -> e1 + e2 <= 10 -> b <> 0 -> safe0 (a / b) ->
  apx (e1 + e2 + eta) (fdiv x y) (a / b).
Proof. apply apx_div. Qed.

(** [v] scaled by the constant c, found by field arithmetic *)
Ltac sc v c := match goal with |- safe0 ?t => replace t with (v * c) by field; apply scale_by; [assumption|const] end.
Ltac small := pose proof eta_small; pose proof eta_pos; lra.

Lemma si2kmh_apx x e v : mid v -> apx e x v -> e <= 1 -> apx (e + 2 * eta) (si2kmh x) (v * 3600 / 1000).
Proof.
  intros O X E. unfold si2kmh. replace (e + 2 * eta) with (e + 0 + eta + 0 + eta) by ring.
  apply fdiv_apx; auto using L1000; try small; [apply fmul_apx; auto using L3600; try small; sc v 3600|sc v (36/10)].
Qed.
Lemma kmh2si_apx x e v : mid v -> apx e x v -> e <= 1 -> apx (e + 2 * eta) (kmh2si x) (v * 1000 / 3600).
Proof.
  intros O X E. unfold kmh2si. replace (e + 2 * eta) with (e + 0 + eta + 0 + eta) by ring.
  apply fdiv_apx; auto using L3600; try small; [apply fmul_apx; auto using L1000; try small; sc v 1000|sc v (10/36)].
Qed.
Lemma si2mph_apx x e v : mid v -> apx e x v -> e <= 1 -> apx (e + 4 * eta) (si2mph x) (v * 0.62137 / 1000 * 3600).
Proof.
  intros O X E. unfold si2mph. replace (e + 4 * eta) with (e + eta + eta + 0 + eta + 0 + eta) by ring.
  apply fmul_apx; auto using L3600; try small; [apply fdiv_apx; auto using L1000; try small; [apply fmul_apx; auto using Lmph; try small|]|].
  - sc v 0.62137.
  - replace (v * 0.62137 / 1000) with (v * (0.62137 / 1000)) by (unfold Rdiv; ring). apply scale_by; auto. const.
  - replace (v * 0.62137 / 1000 * 3600) with (v * (0.62137 / 1000 * 3600)) by (unfold Rdiv; ring). apply scale_by; auto. const.
Qed.
Lemma mph2si_apx x e v : mid v -> apx e x v -> e <= 1 -> apx (e + 4 * eta) (mph2si x) (v * 1000 / (0.62137 * 3600)).
Proof.
  intros O X E. unfold mph2si. replace (e + 4 * eta) with (e + 0 + eta + (eta + 0 + eta) + eta) by ring.
  apply fdiv_apx; try small.
  - apply fmul_apx; auto using L1000; try small. sc v 1000.
  - apply fmul_apx; auto using Lmph, L3600; try small. replace (0.62137 * 3600) with (1 * (0.62137 * 3600)) by ring.
    apply scale_by; [apply mid1|const].
  - replace (v * 1000 / (0.62137 * 3600)) with (v * (1000 / (0.62137 * 3600))) by (unfold Rdiv; ring). apply scale_by; auto. const.
Qed.
Lemma si2kts_apx x e v : mid v -> apx e x v -> e <= 1 -> apx (e + 2 * eta) (si2kts x) (v * 0.51).
Proof.
  intros O X E. unfold si2kts. replace (e + 2 * eta) with (e + eta + eta) by ring.
  apply fmul_apx; auto using Lkts; try small. sc v 0.51.
Qed.
Lemma kts2si_apx x e v : mid v -> apx e x v -> e <= 1 -> apx (e + 2 * eta) (kts2si x) (v / 0.51).
Proof.
  intros O X E. unfold kts2si. replace (e + 2 * eta) with (e + eta + eta) by ring.
  apply fdiv_apx; auto using Lkts; try small; try lra.
  replace (v / 0.51) with (v * (/ 0.51)) by (unfold Rdiv; ring). apply scale_by; auto. const.
Qed.
Lemma wl_apx x e v : mid v -> v <> 0 -> apx e x v -> e <= 1 -> apx (e + 1 * eta) (frequency x) (300000000 / v).
Proof.
  intros O N X E. unfold frequency. replace (e + 1 * eta) with (0 + e + eta) by ring.
  apply fdiv_apx; auto using Lc; try small.
  replace (300000000 / v) with (/ v * 300000000) by (field; auto). apply scale_by; [|const].
  destruct O as [|(L & U)]; [contradiction|right]. rewrite Rabs_inv.
  pose proof (exp_pos 300). pose proof (exp_pos (-350)). assert (E0 : exp (-350) = / exp 350) by apply exp_Ropp.
  split; [rewrite E0; apply Rinv_le_contravar; lra|].
  replace (exp 350) with (/ exp (-350)) by (rewrite E0; apply Rinv_inv). apply Rinv_le_contravar; lra.
Qed.
Lemma plen_apx x e v : mid v -> apx e x v -> e <= 1 -> apx (e + 2 * eta) (pulse_length x) (300000000 * v / 2).
Proof.
  intros O X E. unfold pulse_length. replace (e + 2 * eta) with (0 + e + eta + 0 + eta) by ring.
  apply fdiv_apx; auto using L2; try small; [apply fmul_apx; auto using Lc; try small; sc v 300000000|sc v 150000000].
Qed.
Lemma pdur_apx x e v : mid v -> apx e x v -> e <= 1 -> apx (e + 2 * eta) (pulse_duration x) (2 * v / 300000000).
Proof.
  intros O X E. unfold pulse_duration. replace (e + 2 * eta) with (0 + e + eta + 0 + eta) by ring.
  apply fdiv_apx; auto using Lc; try small; [apply fmul_apx; auto using L2; try small; sc v 2|sc v (/150000000)].
Qed.

Lemma mid_inv v : mid v -> v <> 0 -> mid (/ v).
Proof.
  intros [|(L & U)] N; [contradiction|right]. rewrite Rabs_inv.
  pose proof (exp_pos 350). pose proof (exp_pos (-350)). assert (E0 : exp (-350) = / exp 350) by apply exp_Ropp.
  split; [rewrite E0; apply Rinv_le_contravar; lra|].
  replace (exp 350) with (/ exp (-350)) by (rewrite E0; apply Rinv_inv). apply Rinv_le_contravar; lra.
Qed.

Ltac md v c := match goal with |- mid ?t => replace t with (v * c) by lra; apply scale_mid; [assumption|const] end.

(** ** C94: converting there and back gives the number back up to rounding *)
Theorem C94_wind_round_trips (x : double) v : stands x v -> ordinary v ->
  close (kmh2si (si2kmh x)) v /\ close (si2kmh (kmh2si x)) v /\
  close (mph2si (si2mph x)) v /\ close (si2mph (mph2si x)) v /\
  close (kts2si (si2kts x)) v /\ close (si2kts (kts2si x)) v.
Proof.
  intros X O. pose proof (ord_mid v O) as M. apply apx_exact in X. pose proof eta_small. pose proof eta_pos.
  assert (G : forall k y t, apx (INR k * eta) y t -> t = v -> (k <= 14)%nat -> close y v)
    by (intros k y t A -> L; now apply (apx_close k)).
  repeat split.
  - apply (G 4%nat _ (v * 3600 / 1000 * 1000 / 3600)); [|lra|lia].
    replace (INR 4 * eta) with (0 + 2 * eta + 2 * eta) by (simpl; ring).
    apply kmh2si_apx; [md v 3.6|apply si2kmh_apx; auto; lra|lra].
  - apply (G 4%nat _ (v * 1000 / 3600 * 3600 / 1000)); [|lra|lia].
    replace (INR 4 * eta) with (0 + 2 * eta + 2 * eta) by (simpl; ring).
    apply si2kmh_apx; [md v (1000 / 3600)|apply kmh2si_apx; auto; lra|lra].
  - apply (G 8%nat _ (v * 0.62137 / 1000 * 3600 * 1000 / (0.62137 * 3600))); [|lra|lia].
    replace (INR 8 * eta) with (0 + 4 * eta + 4 * eta) by (simpl; ring).
    apply mph2si_apx; [md v (0.62137 / 1000 * 3600)|apply si2mph_apx; auto; lra|lra].
  - apply (G 8%nat _ (v * 1000 / (0.62137 * 3600) * 0.62137 / 1000 * 3600)); [|lra|lia].
    replace (INR 8 * eta) with (0 + 4 * eta + 4 * eta) by (simpl; ring).
    apply si2mph_apx; [md v (1000 / (0.62137 * 3600))|apply mph2si_apx; auto; lra|lra].
  - apply (G 4%nat _ (v * 0.51 / 0.51)); [|lra|lia].
    replace (INR 4 * eta) with (0 + 2 * eta + 2 * eta) by (simpl; ring).
    apply kts2si_apx; [md v 0.51|apply si2kts_apx; auto; lra|lra].
  - apply (G 4%nat _ (v / 0.51 * 0.51)); [|lra|lia].
    replace (INR 4 * eta) with (0 + 2 * eta + 2 * eta) by (simpl; ring).
    apply si2kts_apx; [md v (/ 0.51)|apply kts2si_apx; auto; lra|lra].
Qed.

Theorem C94_radar_round_trips (x : double) v : stands x v -> ordinary v ->
  close (pulse_duration (pulse_length x)) v /\ close (pulse_length (pulse_duration x)) v /\
  (v <> 0 -> close (wavelength (frequency x)) v /\ close (frequency (wavelength x)) v).
Proof.
  intros X O. pose proof (ord_mid v O) as M. apply apx_exact in X. pose proof eta_small. pose proof eta_pos.
  assert (G : forall k y t, apx (INR k * eta) y t -> t = v -> (k <= 14)%nat -> close y v)
    by (intros k y t A -> L; now apply (apx_close k)).
  split; [|split].
  - apply (G 4%nat _ (2 * (300000000 * v / 2) / 300000000)); [|lra|lia].
    replace (INR 4 * eta) with (0 + 2 * eta + 2 * eta) by (simpl; ring).
    apply pdur_apx; [md v 150000000|apply plen_apx; auto; lra|lra].
  - apply (G 4%nat _ (300000000 * (2 * v / 300000000) / 2)); [|lra|lia].
    replace (INR 4 * eta) with (0 + 2 * eta + 2 * eta) by (simpl; ring).
    apply plen_apx; [md v (/ 150000000)|apply pdur_apx; auto; lra|lra].
  - intro N. change (@wavelength double dop) with (@frequency double dop).
    assert (K : close (frequency (frequency x)) v); [|auto].
    apply (G 2%nat _ (300000000 / (300000000 / v))); [|field; auto|lia].
    replace (INR 2 * eta) with (0 + 1 * eta + 1 * eta) by (simpl; ring).
    assert (Nz : 300000000 / v <> 0).
    { unfold Rdiv. apply Rmult_integral_contrapositive. split; [lra|now apply Rinv_neq_0_compat]. }
    apply wl_apx; auto; [|apply wl_apx; auto; lra|lra].
    assert (O' : ordinary (/ v)).
    { destruct O as [|(L & U)]; [contradiction|right]. rewrite Rabs_inv.
      pose proof (exp_pos 300). pose proof (exp_pos (-300)). assert (E0 : exp (-300) = / exp 300) by apply exp_Ropp.
      split; [rewrite E0; apply Rinv_le_contravar; lra|].
      replace (exp 300) with (/ exp (-300)) by (rewrite E0; apply Rinv_inv). apply Rinv_le_contravar; lra. }
    replace (300000000 / v) with (/ v * 300000000) by (field; auto). apply scale_mid; auto. const.
Qed.

(** one conversion is right to the same accuracy *)
Theorem C94_wind_factors (x : double) v : stands x v -> ordinary v ->
  close (si2kmh x) (3.6 * v) /\ close (kmh2si x) (v / 3.6) /\
  close (si2mph x) (2.236932 * v) /\ close (mph2si x) (v / 2.236932).
Proof.
  intros X O. pose proof (ord_mid v O) as M. apply apx_exact in X. pose proof eta_small. pose proof eta_pos.
  assert (G : forall k y t s, apx (INR k * eta) y t -> t = s -> (k <= 14)%nat -> close y s)
    by (intros k y t s A -> L; now apply (apx_close k)).
  repeat split.
  - apply (G 2%nat _ (v * 3600 / 1000)); [|lra|lia].
    replace (INR 2 * eta) with (0 + 2 * eta) by (simpl; ring). apply si2kmh_apx; auto; lra.
  - apply (G 2%nat _ (v * 1000 / 3600)); [|lra|lia].
    replace (INR 2 * eta) with (0 + 2 * eta) by (simpl; ring). apply kmh2si_apx; auto; lra.
  - apply (G 4%nat _ (v * 0.62137 / 1000 * 3600)); [|lra|lia].
    replace (INR 4 * eta) with (0 + 4 * eta) by (simpl; ring). apply si2mph_apx; auto; lra.
  - apply (G 4%nat _ (v * 1000 / (0.62137 * 3600))); [|lra|lia].
    replace (INR 4 * eta) with (0 + 4 * eta) by (simpl; ring). apply mph2si_apx; auto; lra.
Qed.

(** NaN and infinities go through both ways. *)
Theorem C94_special_values : forall (s : bool),
  let i := B754_infinity s : double in let n := B754_nan : double in
  kmh2si (si2kmh i) = i /\ mph2si (si2mph i) = i /\ kts2si (si2kts i) = i /\
  kmh2si (si2kmh n) = n /\ mph2si (si2mph n) = n /\ kts2si (si2kts n) = n.
Proof. intros []; repeat split; apply B2SF_inj; vm_compute; reflexivity. Qed.

(** but the round trips are not the identity on doubles: 15 km/h, 3 m/s via
    mph, 63 m/s via knots and a 27 m wavelength do not come back *)
Theorem C94_exact_round_trip_refuted :
  let n z := b_lit 53 1024 p53 e1024 (inject_Z z) in
  Beqb (si2kmh (kmh2si (n 15%Z))) (n 15%Z) = false /\
  Beqb (mph2si (si2mph (n 3%Z))) (n 3%Z) = false /\
  Beqb (kts2si (si2kts (n 63%Z))) (n 63%Z) = false /\
  Beqb (wavelength (frequency (n 27%Z))) (n 27%Z) = false.
Proof. repeat split; vm_compute; reflexivity. Qed.

(** the hypotheses are met: 15 m/s *)
Example ex94 : stands (b_lit 53 1024 p53 e1024 (inject_Z 15)) 15 /\ ordinary 15.
Proof.
  split.
  - destruct (apx_int 15 ltac:(vm_compute; discriminate)) as (d & D & E).
    assert (d = 0). { destruct (Req_dec d 0); auto. pose proof (Rabs_pos_lt d H). lra. }
    subst. rewrite exp_0, Rmult_1_r in E. exact E.
  - right. rewrite Rabs_pos_eq by lra. pose proof (exp_ge 300). pose proof (exp_le_mono (-300) 0). rewrite exp_0 in *. lra.
Qed.
End Units.
