(** Rounding errors of the decibel ratios and of the ray height. *)
From Coq Require Import Reals Lra Lia ZArith QArith.
From Flocq Require Import Core IEEE754.BinarySingleNaN.
From Verif Require Import Base.Num Base.XReal Base.Ieee Base.RelErr Base.PosErr Spec.IeeeSpec Spec.LibmSpec.
From Verif Require Import Proofs.HidErr.
Open Scope R_scope.
#[local] Existing Instances p53 e1024 p24 e128.

(** a double other than 1 is at least 2^-53 away from it *)
Lemma away_from_one (x : double) a : denotes x a -> / 2 <= a -> a <> 1 -> bpow radix2 (-53) <= Rabs (a - 1).
Proof.
  intros X L N.
  assert (G : generic_format radix2 (SpecFloat.fexp 53 1024) a).
  { assert (E : is_finite x = true) by (unfold denotes in X; destruct x as [s|[]| |s m e H]; cbn in X; try discriminate X; reflexivity).
    unfold denotes in X. rewrite (val_finite 53 1024 x E) in X. injection X as <-. apply generic_format_B2R. }
  unfold generic_format in G. set (m := Ztrunc _) in G. set (c := cexp _ _ _) in G.
  assert (Cm : (-53 <= c)%Z).
  { unfold c, cexp, SpecFloat.fexp, SpecFloat.emin.
    assert (0 <= mag radix2 a)%Z; [|lia].
    apply mag_ge_bpow. change (0 - 1)%Z with (-1)%Z. change (bpow radix2 (-1)) with (/ 2). rewrite Rabs_pos_eq; lra. }
  assert (E : exists M : Z, a = IZR M * bpow radix2 (-53)).
  { exists (m * 2 ^ (c + 53))%Z. rewrite G at 1. unfold F2R. cbn [Fnum Fexp]. rewrite mult_IZR.
    rewrite (IZR_Zpower radix2) by lia. rewrite Rmult_assoc, <- bpow_plus. do 2 f_equal. lia. }
  destruct E as (M & E).
  assert (B1 : 1 = IZR (2 ^ 53) * bpow radix2 (-53)).
  { rewrite (IZR_Zpower radix2) by lia. rewrite <- bpow_plus. reflexivity. }
  rewrite E. rewrite B1 at 1. replace (IZR M * bpow radix2 (-53) - IZR (2 ^ 53) * bpow radix2 (-53))
    with (IZR (M - 2 ^ 53) * bpow radix2 (-53)) by (rewrite minus_IZR; ring).
  rewrite Rabs_mult, (Rabs_pos_eq (bpow radix2 (-53))) by (left; apply bpow_gt_0).
  assert (M <> 2 ^ 53)%Z by (intros ->; apply N; rewrite E; now rewrite <- B1).
  assert (1 <= Rabs (IZR (M - 2 ^ 53))). { rewrite <- abs_IZR. apply IZR_le. lia. }
  pose proof (bpow_gt_0 radix2 (-53)). nra.
Qed.

Lemma ln_le y : 0 < y -> ln y <= y - 1.
Proof.
  intro Hy. destruct (Rle_or_lt (ln y) (y - 1)); auto. exfalso. pose proof (exp_ge (ln y)). rewrite exp_ln in * by auto. lra.
Qed.
Lemma ln_away (x : double) a : denotes x a -> 0 < a -> a <> 1 -> bpow radix2 (-54) <= Rabs (ln a).
Proof.
  intros X P N. pose proof ln2_half. pose proof bp53. pose proof (bpow_gt_0 radix2 (-53)).
  assert (B : bpow radix2 (-54) = / 2 * bpow radix2 (-53)).
  { change (-54)%Z with (-1 + -53)%Z. rewrite bpow_plus. reflexivity. }
  destruct (Rlt_or_le a (/ 2)) as [Q|Q].
  - assert (ln a < ln (/ 2)) by (apply ln_increasing; lra). rewrite ln_Rinv in * by lra. rewrite Rabs_left; lra.
  - pose proof (away_from_one x a X Q N) as A. destruct (Rlt_or_le a 1) as [Q1|Q1].
    + rewrite Rabs_left in A by lra. pose proof (ln_le a P). rewrite Rabs_left; lra.
    + rewrite Rabs_pos_eq in A by lra. assert (1 < a) by lra.
      pose proof (ln_le (/ a) ltac:(apply Rinv_0_lt_compat; lra)) as D. rewrite ln_Rinv in D by lra.
      destruct (Rlt_or_le 2 a) as [Q2|Q2].
      * assert (ln 2 < ln a) by (apply ln_increasing; lra). rewrite Rabs_pos_eq; lra.
      * assert (1 - / a = (a - 1) * / a) by (field; lra). assert (/ 2 <= / a) by (apply Rinv_le_contravar; lra).
        assert ((a - 1) * / 2 <= (a - 1) * / a) by (apply Rmult_le_compat_l; lra). rewrite Rabs_pos_eq; lra.
Qed.
Lemma ln10_range : 2 <= ln 10 <= 25 / 10.
Proof.
  split.
  - rewrite <- (ln_exp 2). left. apply ln_increasing; [apply exp_pos|]. replace 2 with (1 + 1) by lra. rewrite exp_plus.
    pose proof exp_le_3. pose proof (exp_pos 1). nra.
  - pose proof (exp98 20) as K. replace (INR 20 / 8) with (25 / 10) in K by (rewrite INR_IZR_INZ; simpl; lra).
    assert (10 <= exp (25 / 10)).
    { apply Rle_trans with (2 := K). replace 20%nat with (2 * 10)%nat by reflexivity. rewrite pow_mult.
      assert (Q : 1.2656 <= (9 / 8) ^ 2) by (simpl; lra).
      apply Rle_trans with (1.2656 ^ 10); [simpl; lra|apply pow_incr; lra]. }
    rewrite <- (ln_exp (25 / 10)). destruct H as [E| <-]; [left; apply ln_increasing; lra|lra].
Qed.

(** 10 log10 of an approximate number *)
Lemma db_err lm n s (x : double) r : libm_accurate lm -> ap n s x r -> (n <= 5)%Z -> (s <= 400)%Z ->
  exists w, denotes (Bmult mode_NE (b_lit 53 1024 p53 e1024 10) (lm_log10 lm x)) w /\
    Rabs (w - 10 * (ln r / ln 10)) <= 6 * bpow radix2 (-53) * Rabs (10 * (ln r / ln 10)) + 52 / 10 * IZR n * bpow radix2 (-53).
Proof.
  intros Acc Hx N S. pose proof (ap_pos _ _ _ _ Hx) as Pr. pose proof (ap_n _ _ _ _ Hx) as N0. pose proof (ap_s _ _ _ _ Hx) as S0.
  destruct Hx as ((d & D & X) & R). pose proof (ln_range r _ R) as Lr.
  pose proof ln10_range as L10. pose proof eta_small. pose proof eta_pos.
  apply IZR_le in N, S, N0, S0.
  assert (Dn : IZR n * eta <= 5 * eta) by nra.
  assert (D' := D). apply Rabs_le_inv in D'.
  set (a := r * exp d) in *. assert (Pa : 0 < a) by (apply Rmult_lt_0_compat; auto; apply exp_pos).
  assert (La : ln a = ln r + d) by (unfold a; rewrite ln_mult, ln_exp; auto; apply exp_pos).
  assert (Ra : exp (-500) <= a <= exp 500).
  { replace a with (exp (ln a)) by (now apply exp_ln). rewrite La. split; apply exp_le_mono; lra. }
  set (L := ln a / ln 10). set (v := 10 * (ln r / ln 10)).
  assert (Ev : Rabs (10 * L - v) <= 5 * (IZR n * eta)).
  { unfold L, v. rewrite La. replace (10 * ((ln r + d) / ln 10) - 10 * (ln r / ln 10)) with (10 * / ln 10 * d) by (field; lra).
    rewrite Rabs_mult, Rabs_pos_eq.
    - apply Rmult_le_compat; auto using Rabs_pos.
      + assert (0 < / ln 10) by (apply Rinv_0_lt_compat; lra). lra.
      + assert (/ ln 10 <= / 2) by (apply Rinv_le_contravar; lra). lra.
    - assert (0 < / ln 10) by (apply Rinv_0_lt_compat; lra). lra. }
  assert (Al : apx (4 * eta) (lm_log10 lm x) L /\ safe0 (10 * L)).
  { pose proof (acc_log10 lm Acc x a X Ra) as W. fold L in W.
    destruct (Req_dec a 1) as [E1|N1].
    - assert (L0 : L = 0) by (unfold L; rewrite E1, ln_1; lra). split; [|left; rewrite L0; lra].
      destruct W as (w & W & Dw). rewrite L0 in *. rewrite Rabs_R0, Rmult_0_r in Dw.
      assert (w = 0). { destruct (Req_dec (w - 0) 0); [lra|]. pose proof (Rabs_pos_lt _ H1). lra. }
      exists 0. rewrite Rabs_R0. split; [lra|]. unfold denotes in W. rewrite W, H1. f_equal. ring.
    - pose proof (ln_away x a X Pa N1) as Aw.
      assert (A2 : Rabs L = Rabs (ln a) * / ln 10).
      { unfold L, Rdiv. rewrite Rabs_mult, (Rabs_pos_eq (/ ln 10)); auto. left. apply Rinv_0_lt_compat; lra. }
      assert (I10 : / 10 <= / ln 10 <= / 2) by (split; apply Rinv_le_contravar; lra).
      assert (A3 : exp (-60) <= bpow radix2 (-54) * / 10).
      { rewrite bpow_exp. change (exp (-60)) with (exp (Ropp 60)).
        replace (Ropp 60) with (Ropp 55 + Ropp 5) by lra. rewrite exp_plus. pose proof ln2_1. apply Rmult_le_compat; try (left; apply exp_pos).
        - apply exp_le_mono. lra.
        - rewrite exp_Ropp. apply Rinv_le_contravar; [lra|]. 
          assert (32 <= exp 5). { assert (2 <= exp 1) by (pose proof (exp_ge 1); lra). replace 5 with (1+1+1+1+1) by lra. rewrite !exp_plus.
            assert (4 <= exp 1 * exp 1) by nra. assert (8 <= exp 1 * exp 1 * exp 1) by nra. assert (16 <= exp 1 * exp 1 * exp 1 * exp 1) by nra. nra. } lra. }
      assert (A4 : exp (-60) <= Rabs L). { rewrite A2. pose proof (bpow_gt_0 radix2 (-54)). apply Rle_trans with (1 := A3). apply Rmult_le_compat; lra. }
      assert (A5 : Rabs L <= 205).
      { rewrite A2. assert (Rabs (ln a) <= 410) by (apply Rabs_le; lra). pose proof (Rabs_pos (ln a)). nra. }
      assert (NL : L <> 0). { intro E. rewrite E, Rabs_R0 in A4. pose proof (exp_pos (-60)). lra. }
      split.
      + apply within_apx; auto; [|lra]. replace (4 * bpow radix2 (-53)) with (bpow radix2 (-51)); auto.
        change (-51)%Z with (2 + -53)%Z. rewrite bpow_plus. reflexivity.
      + right. unfold safe. rewrite Rabs_mult, (Rabs_pos_eq 10) by lra.
        pose proof (exp_le_mono (-400) (-60) ltac:(lra)). pose proof (exp_pos (-60)). split; [lra|].
        assert (2050 <= exp 400). { replace 400 with (200 + 200) by lra. rewrite exp_plus. pose proof (exp_ge 200). nra. } lra. }
  destruct Al as (Al & Sf).
  pose proof (apx_mul _ _ _ _ _ _ (apx_int 10 ltac:(lia)) Al ltac:(lra) Sf) as Am.
  destruct (apx_error _ _ _ Am ltac:(lra)) as (w & W & Dw). exists w. split; [exact W|].
  pose proof (Rabs_triang (w - 10 * L) (10 * L - v)) as T. replace (w - 10 * L + (10 * L - v)) with (w - v) in T by ring.
  pose proof (Rabs_triang (10 * L - v) v) as T2. replace (10 * L - v + v) with (10 * L) in T2 by ring.
  pose proof (Rabs_pos v). pose proof (Rabs_pos (10 * L)).
  unfold eta in *. pose proof (bpow_gt_0 radix2 (-53)) as B0. pose proof bp53. set (b := bpow radix2 (-53)) in *.
  assert (M1 : 10 / 9 * (0 + 4 * (101 / 100 * b) + 101 / 100 * b) * Rabs (10 * L) <= 562 / 100 * b * (Rabs v + 5 * (IZR n * (101 / 100 * b)))).
  { apply Rmult_le_compat; lra. }
  assert (0 <= IZR n * b) by nra.
  assert (M2 : 562 / 100 * b * (5 * (IZR n * (101 / 100 * b))) <= 1 / 10 * (IZR n * b)) by nra.
  nra.
Qed.

(** ** sin *)
Lemma sin_concave t a : 0 <= t <= 1 -> 0 <= a <= PI -> t * sin a <= sin (t * a).
Proof.
  intros T A. destruct (Req_dec a 0) as [-> |Na]; [rewrite Rmult_0_r, sin_0; lra|].
  destruct (Req_dec t 0) as [-> |Nt]; [rewrite !Rmult_0_l, sin_0; lra|].
  destruct (Req_dec t 1) as [-> |Nt1]; [rewrite !Rmult_1_l; lra|].
  assert (0 < t * a) by (apply Rmult_lt_0_compat; lra). assert (t * a < a) by nra.
  destruct (MVT_cor2 sin cos 0 (t * a) H) as (c1 & E1 & R1); [intros; apply derivable_pt_lim_sin|].
  destruct (MVT_cor2 sin cos (t * a) a H0) as (c2 & E2 & R2); [intros; apply derivable_pt_lim_sin|].
  rewrite sin_0 in E1. assert (C : cos c2 <= cos c1) by (apply cos_decr_1; lra).
  assert (cos c2 * (a - t * a) * t <= cos c1 * (t * a - 0) * (1 - t)).
  { replace (cos c2 * (a - t * a) * t) with (cos c2 * (a * t * (1 - t))) by ring.
    replace (cos c1 * (t * a - 0) * (1 - t)) with (cos c1 * (a * t * (1 - t))) by ring.
    apply Rmult_le_compat_r; auto. repeat apply Rmult_le_pos; lra. }
  rewrite <- E1, <- E2 in *. lra.
Qed.
(** a relative error of the angle is at most doubled *)
Lemma sin_apx a d : 0 <= a <= PI / 2 -> Rabs d <= 1 / 10 ->
  exists d', Rabs d' <= 2 * Rabs d /\ sin (a * exp d) = sin a * exp d'.
Proof.
  intros A D. pose proof PI2_3_2 as P3. pose proof PI_4.
  destruct (Req_dec a 0) as [-> |Na]; [exists 0; rewrite Rabs_R0, Rmult_0_l, sin_0; pose proof (Rabs_pos d); lra|].
  assert (Sa : 0 < sin a) by (apply sin_gt_0; lra).
  assert (G : exp (- (2 * Rabs d)) * sin a <= sin (a * exp d) <= exp (2 * Rabs d) * sin a).
  { destruct (Rle_or_lt 0 d) as [Q|Q].
    - rewrite Rabs_pos_eq in * by auto. set (c := exp d).
      assert (C1 : 1 <= c <= 10 / 9). { pose proof (exp_ge d). pose proof (exp_up d ltac:(lra)). 
        assert (/ (1 - d) <= / (9 / 10)) by (apply Rinv_le_contravar; lra). unfold c. split; lra. }
      assert (Ca : a * c <= PI) by nra.
      assert (Cd : exp (2 * d) = c * c) by (replace (2 * d) with (d + d) by ring; apply exp_plus).
      split.
      + assert (Lo : (2 - c) * sin a <= sin (a * c)).
        { destruct (Rle_or_lt (a * c) (PI / 2)) as [K|K].
          - apply Rle_trans with (sin a); [nra|]. apply sin_incr_1; nra.
          - replace (sin (a * c)) with (sin (PI - a * c)) by (rewrite sin_PI_x; reflexivity).
            apply Rle_trans with (sin ((2 - c) * a)); [apply sin_concave; lra|]. apply sin_incr_1; nra. }
        apply Rle_trans with (2 := Lo). apply Rmult_le_compat_r; [lra|]. rewrite exp_Ropp, Cd.
        apply Rmult_le_reg_l with (c * c); [nra|]. rewrite Rinv_r by nra.
        assert (0 <= (c - 1) * (1 + c - c * c)) by (apply Rmult_le_pos; nra). nra.
      + assert (I : sin (a * c) * / c <= sin a).
        { replace (sin a) with (sin (/ c * (a * c))) by (f_equal; field; lra). rewrite Rmult_comm.
          apply sin_concave; [|nra]. split; [left; apply Rinv_0_lt_compat; lra|]. rewrite <- Rinv_1. apply Rinv_le_contravar; lra. }
        rewrite Cd. apply Rle_trans with (c * sin a); [|apply Rmult_le_compat_r; nra].
        apply Rmult_le_reg_r with (/ c); [apply Rinv_0_lt_compat; lra|]. 
        replace (c * sin a * / c) with (sin a) by (field; lra). lra.
    - assert (Ab : Rabs d = - d) by (apply Rabs_left; lra). rewrite Ab in *. set (c := exp d).
      assert (C0 : 0 < c) by apply exp_pos.
      assert (C1 : c <= 1) by (unfold c; rewrite <- exp_0; apply exp_le_mono; lra).
      assert (Cd : exp (- (2 * - d)) = c * c) by (replace (- (2 * - d)) with (d + d) by ring; apply exp_plus).
      assert (Ci : 1 <= exp (2 * - d)) by (rewrite <- exp_0; apply exp_le_mono; lra).
      split.
      + rewrite Cd. apply Rle_trans with (c * sin a); [apply Rmult_le_compat_r; nra|]. rewrite (Rmult_comm a c). apply sin_concave; lra.
      + apply Rle_trans with (sin a); [|nra]. apply sin_incr_1; nra. }
  exists (ln (sin (a * exp d) / sin a)).
  assert (P : 0 < sin (a * exp d)). { destruct G as (G & _). pose proof (exp_pos (- (2 * Rabs d))). nra. }
  assert (Q : 0 < sin (a * exp d) / sin a) by (apply Rdiv_lt_0_compat; auto).
  split; [|rewrite exp_ln by auto; field; lra].
  apply Rabs_le. apply ln_range. destruct G as (G1 & G2). split.
  - apply Rmult_le_reg_r with (sin a); auto. unfold Rdiv. rewrite Rmult_assoc, Rinv_l by lra. lra.
  - apply Rmult_le_reg_r with (sin a); auto. unfold Rdiv. rewrite Rmult_assoc, Rinv_l by lra. lra.
Qed.
Lemma sin_lower a : 0 <= a <= PI / 2 -> a / 2 <= sin a.
Proof.
  intro A. pose proof PI2_3_2. pose proof PI_4.
  pose proof (sin_concave (a / (PI / 2)) (PI / 2)) as C. rewrite sin_PI2, Rmult_1_r in C.
  replace (a / (PI / 2) * (PI / 2)) with a in C by (field; lra).
  assert (I : / 2 <= / (PI / 2)) by (apply Rinv_le_contravar; lra).
  assert (a / 2 <= a / (PI / 2)) by (unfold Rdiv at 1 2; apply Rmult_le_compat_l; lra).
  assert (0 <= a / (PI / 2) <= 1).
  { split; [lra|]. apply Rmult_le_reg_r with (PI / 2); [lra|]. unfold Rdiv at 1. rewrite Rmult_assoc, Rinv_l by lra. lra. }
  specialize (C H2 ltac:(lra)). lra.
Qed.

Lemma apx_sqrt e (x : double) r : apx e x r -> e <= 10 -> exp (-400) <= r <= exp 400 ->
  apx (/ 2 * e + eta) (Bsqrt mode_NE x) (sqrt r).
Proof.
  intros (d & D & X) E S. pose proof (exp_pos (-400)). assert (Pr : 0 < r) by lra.
  pose proof (exp_pos d). assert (Q : sqrt (r * exp d) = sqrt r * exp (d / 2)).
  { rewrite sqrt_mult by lra. f_equal. replace (exp d) with (exp (d / 2) * exp (d / 2)) by (rewrite <- exp_plus; f_equal; lra).
    apply sqrt_square. left. apply exp_pos. }
  pose proof (Rabs_pos d).
  apply apx_round with (d / 2).
  - right. unfold safe. rewrite Rabs_pos_eq by apply sqrt_pos.
    assert (R : forall k, sqrt (exp (k + k)) = exp k) by (intro; rewrite exp_plus; apply sqrt_square; left; apply exp_pos).
    split; [apply Rle_trans with (exp (-200)); [apply exp_le_mono; lra|rewrite <- R; apply sqrt_le_1_alt; replace (-200 + -200) with (-400) by lra; lra]|].
    apply Rle_trans with (exp 200); [rewrite <- R; apply sqrt_le_1_alt; replace (200 + 200) with 400 by lra; lra|apply exp_le_mono; lra].
  - unfold Rdiv. rewrite Rabs_mult, (Rabs_pos_eq (/ 2)) by lra. lra.
  - lra.
  - rewrite (val_sqrt 53 1024 p53 e1024), X, xsqrt_pos by nra. cbn [rndx]. now rewrite Q.
Qed.

(** ** The ray height *)
Lemma ap_pi lm : libm_accurate lm -> ap 1 2 (lm_pi lm) PI.
Proof.
  intro Acc. pose proof PI2_3_2. pose proof PI_4. split.
  - apply within_apx; [rewrite Rmult_1_l; exact (acc_pi lm Acc)|lra|lra].
  - assert (4 <= exp 2). { replace 2 with (1+1) by lra. rewrite exp_plus. pose proof (exp_ge 1). nra. }
    pose proof (exp_le_mono (Ropp 2) 0). rewrite exp_0 in *. lra.
Qed.
Lemma ap_apx n s x r : ap n s x r -> apx (IZR n * eta) x r.
Proof. now intros []. Qed.
Lemma exp_big : 10 ^ 40 <= exp 100 /\ exp 100 <= exp 400.
Proof.
  pose proof exp25 as E. split; [|apply exp_le_mono; lra].
  replace 100 with (25 + 25 + 25 + 25) by lra. rewrite !exp_plus. replace (10 ^ 40) with (10 ^ 10 * 10 ^ 10 * 10 ^ 10 * 10 ^ 10) by (simpl; lra).
  repeat apply Rmult_le_compat; simpl in *; lra.
Qed.
Lemma safe_between r : / 10 ^ 40 <= r <= 10 ^ 40 -> safe0 r.
Proof.
  intros (L & U). destruct exp_big as (B & C). right. unfold safe. assert (0 < / 10 ^ 40) by (apply Rinv_0_lt_compat; simpl; lra).
  rewrite Rabs_pos_eq by lra. split; [|lra].
  apply Rle_trans with (2 := L). change (exp (-400)) with (exp (Ropp 400)). rewrite exp_Ropp. apply Rinv_le_contravar; [simpl; lra|lra].
Qed.

Section Ray.
Variable lm : libm double.
Hypothesis Acc : libm_accurate lm.
Notation lit q := (b_lit 53 1024 p53 e1024 q).

Lemma sin_elev (elev : double) e : denotes elev e -> e = 0 \/ / 10 ^ 10 <= e <= 90 ->
  apx (8 * eta) (lm_sin lm (Bmult mode_NE elev (Bdiv mode_NE (lm_pi lm) (lit 180)))) (sin (e * (PI / 180))) /\
  (sin (e * (PI / 180)) = 0 \/ / 10 ^ 13 <= sin (e * (PI / 180)) <= 1).
Proof.
  intros X R. pose proof PI2_3_2 as P3. pose proof PI_4 as P4. pose proof eta_small. pose proof eta_pos.
  pose proof (ap_div _ _ _ _ _ _ _ _ (ap_pi lm Acc) (ap_int 180 8 ltac:(lia) ltac:(vm_compute; discriminate)) ltac:(lia) ltac:(lia)) as D.
  apply ap_apx in D. set (a := e * (PI / 180)) in *.
  assert (Ra : 0 <= a <= PI / 2 /\ (a = 0 \/ / 10 ^ 12 <= a)).
  { unfold a. destruct R as [-> |(L & U)]; [rewrite Rmult_0_l; split; [lra|now left]|].
    assert (0 < / 10 ^ 10) by (apply Rinv_0_lt_compat; simpl; lra).
    assert (e * (PI / 180) <= 90 * (PI / 180)) by (apply Rmult_le_compat_r; lra).
    assert (/ 10 ^ 10 * (3 / 180) <= e * (PI / 180)) by (apply Rmult_le_compat; lra).
    split; [lra|right]. simpl in *. lra. }
  destruct Ra as (Ra & Ra0).
  assert (A : apx (3 * eta) (Bmult mode_NE elev (Bdiv mode_NE (lm_pi lm) (lit 180))) a).
  { replace (3 * eta) with (0 + IZR (1 + 0 + 1) * eta + eta) by (cbn; ring).
    apply apx_mul; [now apply apx_exact|exact D|cbn; lra|].
    fold a. destruct Ra0 as [-> |]; [now left|]. apply safe_between. simpl in *. lra. }
  destruct A as (d & Dd & V). destruct (sin_apx a d Ra ltac:(lra)) as (d' & Dd' & Es).
  assert (Ed : exp d <= 101 / 100 /\ 1 / 2 <= exp d).
  { apply Rabs_le_inv in Dd. pose proof (exp_ge d). pose proof (exp_up d ltac:(lra)).
    assert (/ (1 - d) <= / (100 / 101)) by (apply Rinv_le_contravar; lra). lra. }
  assert (In : a * exp d = 0 \/ exp (-100) <= a * exp d <= 21 / 10).
  { destruct Ra0 as [-> |L]; [left; lra|right]. split; [|nra].
    destruct exp_big as (B & _).
    change (exp (-100)) with (exp (Ropp 100)). rewrite exp_Ropp. apply Rle_trans with (/ 10 ^ 40); [apply Rinv_le_contravar; simpl in *; lra|].
    simpl in *. nra. }
  pose proof (acc_sin lm Acc _ _ V In) as W.
  assert (Sb : sin a = 0 \/ / 10 ^ 13 <= sin a <= 1).
  { pose proof (SIN_bound a). destruct Ra0 as [-> |L]; [left; apply sin_0|right]. pose proof (sin_lower a Ra).
    simpl in *. split; lra. }
  split; auto. fold a.
  destruct Sb as [Z|Sb].
  - rewrite Es, Z, Rmult_0_l in W. destruct W as (w & W & Dw). rewrite Rabs_R0, Rmult_0_r in Dw.
    assert (w = 0). { destruct (Req_dec (w - 0) 0) as [|Q]; [lra|]. pose proof (Rabs_pos_lt _ Q). lra. }
    subst w. exists 0. rewrite Rabs_R0, Z. split; [lra|]. unfold denotes in W. rewrite W. f_equal. ring.
  - assert (0 < / 10 ^ 13) by (apply Rinv_0_lt_compat; simpl; lra).
    assert (W2 : apx (2 * eta) (lm_sin lm (Bmult mode_NE elev (Bdiv mode_NE (lm_pi lm) (lit 180)))) (sin (a * exp d))).
    { apply within_apx; [|rewrite Es; pose proof (exp_pos d'); nra|lra].
      replace (2 * bpow radix2 (-53)) with (bpow radix2 (-52)); auto.
      change (-52)%Z with (1 + -53)%Z. rewrite bpow_plus. reflexivity. }
    destruct W2 as (d2 & D2 & V2). exists (d' + d2). split.
    + apply Rle_trans with (6 * eta + 2 * eta); [|lra]. apply Rabs_plus_le; auto. lra.
    + rewrite V2, Es, exp_plus. f_equal. ring.
Qed.

Definition ray (range elev h0 reff : double) : double :=
  Bplus mode_NE (Bminus mode_NE (Bsqrt mode_NE
    (Bplus mode_NE (Bplus mode_NE (lm_pow lm range (lit 2)) (lm_pow lm reff (lit 2)))
       (Bmult mode_NE (Bmult mode_NE (Bmult mode_NE (lit 2) range) reff)
          (lm_sin lm (Bmult mode_NE elev (Bdiv mode_NE (lm_pi lm) (lit 180))))))) reff) h0.

Lemma ray_err (range elev h0 reff : double) r e h R0 :
  denotes range r -> / 10 ^ 10 <= r <= 10 ^ 10 -> denotes elev e -> e = 0 \/ / 10 ^ 10 <= e <= 90 ->
  denotes h0 h -> Rabs h <= 10 ^ 10 -> ap 2 25 reff R0 -> / 10 ^ 10 <= R0 <= 10 ^ 10 ->
  exists w, denotes (ray range elev h0 reff) w /\
    Rabs (w - (sqrt (r ^ 2 + R0 ^ 2 + 2 * r * R0 * sin (e * (PI / 180))) - R0 + h)) <= bpow radix2 (-49) * (r + R0 + Rabs h).
Proof.
  intros Xr Br Xe Be Xh Bh XR BR. destruct (sin_elev elev e Xe Be) as (As & Bs).
  set (S := sin (e * (PI / 180))) in *. pose proof eta_small as Es. pose proof eta_pos as Ep.
  pose proof (ap_in range r Xr Br) as Ar.
  pose proof (ap_pow lm _ _ _ _ 2 (acc_pow lm Acc) Ar ltac:(lia) ltac:(lia) ltac:(lia)) as Ar2.
  pose proof (ap_pow lm _ _ _ _ 2 (acc_pow lm Acc) XR ltac:(lia) ltac:(lia) ltac:(lia)) as AR2.
  pose proof (ap_int 2 1 ltac:(lia) ltac:(vm_compute; discriminate)) as A2.
  pose proof (ap_mul _ _ _ _ _ _ _ _ (ap_mul _ _ _ _ _ _ _ _ A2 Ar ltac:(lia) ltac:(lia)) XR ltac:(lia) ltac:(lia)) as Am.
  apply ap_apx in Ar2, AR2, Am. cbn [Z.mul Z.add Pos.mul Pos.add Z.div Z.div_eucl Z.pos_sub] in Ar2, AR2, Am.
  change (Z.to_nat 2) with 2%nat in *. change (3 + 0 / 9)%Z with 3%Z in *. change (7 + 4 / 9)%Z with 7%Z in *.
  assert (P10 : 0 < / 10 ^ 10) by (apply Rinv_0_lt_compat; simpl; lra).
  assert (Hr : 0 < r) by lra. assert (HR : 0 < R0) by lra.
  assert (S0 : 0 <= S <= 1). { destruct Bs as [-> |[? ?]]; [lra|]. assert (0 < / 10 ^ 13) by (apply Rinv_0_lt_compat; simpl; lra). lra. }
  assert (Q1 : / 10 ^ 20 <= r ^ 2 <= 10 ^ 20).
  { replace (/ 10 ^ 20) with ((/ 10 ^ 10) ^ 2) by (simpl; field). replace (10 ^ 20) with ((10 ^ 10) ^ 2) by (simpl; ring). split; apply pow_incr; lra. }
  assert (Q2 : / 10 ^ 20 <= R0 ^ 2 <= 10 ^ 20).
  { replace (/ 10 ^ 20) with ((/ 10 ^ 10) ^ 2) by (simpl; field). replace (10 ^ 20) with ((10 ^ 10) ^ 2) by (simpl; ring). split; apply pow_incr; lra. }
  assert (Q3 : / 10 ^ 20 <= r * R0 <= 10 ^ 20).
  { replace (/ 10 ^ 20) with (/ 10 ^ 10 * / 10 ^ 10) by (simpl; field). replace (10 ^ 20) with (10 ^ 10 * 10 ^ 10) by (simpl; ring). split; apply Rmult_le_compat; lra. }
  assert (A1 : apx (13 * eta) (Bplus mode_NE (lm_pow lm range (lit 2)) (lm_pow lm reff (lit 2))) (r ^ 2 + R0 ^ 2)).
  { apply apx_le with (7 * eta + eta); [|lra]. apply apx_add; try lra; [apply apx_le with (1 := Ar2); lra|exact AR2|].
    apply safe_between. simpl in *. lra. }
  assert (A3 : apx (13 * eta) (Bmult mode_NE (Bmult mode_NE (Bmult mode_NE (lit 2) range) reff)
          (lm_sin lm (Bmult mode_NE elev (Bdiv mode_NE (lm_pi lm) (lit 180))))) (2 * r * R0 * S)).
  { replace (13 * eta) with (4 * eta + 8 * eta + eta) by ring. apply apx_mul; auto; [lra|].
    destruct Bs as [-> |Bs]; [left; ring|]. apply safe_between.
    assert (/ 10 ^ 20 * / 10 ^ 13 <= r * R0 * S <= 10 ^ 20 * 1).
    { split; apply Rmult_le_compat; try lra; left; apply Rinv_0_lt_compat; simpl; lra. }
    simpl in *. lra. }
  assert (T0 : 0 <= r * R0 * S <= r * R0) by (split; [apply Rmult_le_pos; lra|]; nra).
  set (T2 := r ^ 2 + R0 ^ 2 + 2 * r * R0 * S) in *.
  assert (B2 : / 10 ^ 21 <= T2 <= 10 ^ 21) by (unfold T2; simpl in *; lra).
  assert (A4 : apx (14 * eta) (Bplus mode_NE (Bplus mode_NE (lm_pow lm range (lit 2)) (lm_pow lm reff (lit 2)))
       (Bmult mode_NE (Bmult mode_NE (Bmult mode_NE (lit 2) range) reff)
          (lm_sin lm (Bmult mode_NE elev (Bdiv mode_NE (lm_pi lm) (lit 180)))))) T2).
  { replace (14 * eta) with (13 * eta + eta) by ring. apply apx_add; auto; try lra. apply safe_between. simpl in *. fold T2. lra. }
  destruct exp_big as (EB & EC).
  apply apx_sqrt in A4; [|lra|]. 2:{ split; [|simpl in *; lra]. apply Rle_trans with (/ 10 ^ 21); [|lra].
    change (exp (-400)) with (exp (Ropp 400)). rewrite exp_Ropp. apply Rinv_le_contravar; simpl in *; lra. }
  replace (/ 2 * (14 * eta) + eta) with (8 * eta) in A4 by field.
  set (T := sqrt T2) in *.
  assert (BT : R0 <= T <= r + R0).
  { unfold T. split.
    - rewrite <- (sqrt_pow2 R0) by lra. apply sqrt_le_1_alt. unfold T2. simpl in *. lra.
    - rewrite <- (sqrt_pow2 (r + R0)) by lra. apply sqrt_le_1_alt. unfold T2. simpl in *. nra. }
  destruct (apx_error _ _ _ A4 ltac:(lra)) as (t & Vt & Dt).
  destruct (apx_error _ _ _ (ap_apx _ _ _ _ XR) ltac:(cbn; lra)) as (q & Vq & Dq).
  rewrite (Rabs_pos_eq T) in Dt by lra. rewrite (Rabs_pos_eq R0) in Dq by lra. cbn [IZR IPR IPR_2] in Dq.
  pose proof (bpow_gt_0 radix2 (-53)) as Bp. pose proof bp53 as B53. unfold eta in Dt, Dq.
  set (b := bpow radix2 (-53)) in *.
  assert (Z1 : Rabs (t - q - (T - R0)) <= 1125 / 100 * b * (r + R0)).
  { replace (t - q - (T - R0)) with ((t - T) + - (q - R0)) by ring.
    apply Rle_trans with (10 / 9 * (8 * (101 / 100 * b)) * T + 10 / 9 * (2 * (101 / 100 * b)) * R0).
    - apply Rabs_plus_le; auto. now rewrite Rabs_Ropp.
    - assert (b * T <= b * (r + R0)) by (apply Rmult_le_compat_l; lra). assert (0 <= b * r) by nra. assert (0 <= b * R0) by nra. lra. }
  assert (Z2 : Rabs (t - q) <= 101 / 100 * (r + R0)).
  { replace (t - q) with ((t - q - (T - R0)) + (T - R0)) by ring. apply Rle_trans with (1125 / 100 * b * (r + R0) + (r + R0)); [|nra].
    apply Rabs_plus_le; auto. rewrite Rabs_pos_eq; lra. }
  assert (BIG : forall z, Rabs z <= 10 ^ 12 -> exists y, drnd z = Fin y /\ Rabs (y - z) <= b * Rabs z + bpow radix2 (-1074)).
  { intros z Hz. apply (rnd_abs 53 1024 p53 e1024). apply Rle_trans with (1 := Hz).
    change (1024 - 1)%Z with 1023%Z. rewrite p2'. rewrite pow_IZR. apply IZR_le. vm_compute. discriminate. }
  assert (TN : bpow radix2 (-1074) <= b * (r + R0) / 100).
  { change (-1074)%Z with (-1021 + -53)%Z. rewrite bpow_plus. fold b. unfold Rdiv. rewrite (Rmult_comm _ b), Rmult_assoc.
    apply Rmult_le_compat_l; [lra|]. apply Rle_trans with (/ 10 ^ 13); [|simpl in *; lra].
    rewrite (p2 1021). apply Rinv_le_contravar; [simpl; lra|]. rewrite pow_IZR. apply IZR_le. vm_compute. discriminate. }
  destruct (BIG (t - q)) as (u & Vu & Du); [simpl in *; lra|].
  assert (Vu' : dval (Bminus mode_NE (Bsqrt mode_NE
    (Bplus mode_NE (Bplus mode_NE (lm_pow lm range (lit 2)) (lm_pow lm reff (lit 2)))
       (Bmult mode_NE (Bmult mode_NE (Bmult mode_NE (lit 2) range) reff)
          (lm_sin lm (Bmult mode_NE elev (Bdiv mode_NE (lm_pi lm) (lit 180))))))) reff) = Fin u).
  { rewrite (val_minus 53 1024 p53 e1024), Vt, Vq. unfold xsub. cbn [xneg xadd rndx]. exact Vu. }
  assert (Du2 : Rabs (u - (t - q)) <= 102 / 100 * b * (r + R0)).
  { apply Rle_trans with (1 := Du). assert (b * Rabs (t - q) <= b * (101 / 100 * (r + R0))) by (apply Rmult_le_compat_l; lra). lra. }
  assert (Bu : Rabs u <= 102 / 100 * (r + R0)).
  { replace u with ((u - (t - q)) + (t - q)) by ring. apply Rle_trans with (102 / 100 * b * (r + R0) + 101 / 100 * (r + R0)); [now apply Rabs_plus_le|nra]. }
  assert (Buh : Rabs (u + h) <= 102 / 100 * (r + R0) + Rabs h) by (apply Rabs_plus_le; lra).
  destruct (BIG (u + h)) as (w & Vw & Dw); [simpl in *; lra|].
  exists w. split.
  - unfold denotes, ray. rewrite (val_plus 53 1024 p53 e1024), Vu', Xh. cbn [xadd rndx]. exact Vw.
  - replace (bpow radix2 (-49)) with (16 * b) by (unfold b; change (-49)%Z with (4 + -53)%Z; rewrite bpow_plus; reflexivity).
    replace (w - (T - R0 + h)) with ((w - (u + h)) + ((u - (t - q)) + (t - q - (T - R0)))) by ring.
    pose proof (Rabs_pos h).
    apply Rle_trans with ((b * (102 / 100 * (r + R0) + Rabs h) + b * (r + R0) / 100) + (102 / 100 * b * (r + R0) + 1125 / 100 * b * (r + R0))).
    + apply Rabs_plus_le; [|now apply Rabs_plus_le]. apply Rle_trans with (1 := Dw).
      assert (b * Rabs (u + h) <= b * (102 / 100 * (r + R0) + Rabs h)) by (apply Rmult_le_compat_l; lra). lra.
    + assert (0 <= b * (r + R0)) by nra. assert (0 <= b * Rabs h) by nra. lra.
Qed.
End Ray.
