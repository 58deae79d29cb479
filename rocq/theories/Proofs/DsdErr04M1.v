(** Rounding errors of the first 2004 drop-size method (Kdp at or above 0.3). *)
From Coq Require Import Reals Lra Lia ZArith QArith.
From Flocq Require Import Core IEEE754.BinarySingleNaN.
From Verif Require Import Base.Num Base.XReal Base.Ieee Base.RelErr Base.PosErr Spec.IeeeSpec Spec.LibmSpec.
From Verif Require Import Spec.RainSpec Spec.DsdSpec Model.Dsd.
From Verif Require Import Proofs.BetaErr Proofs.HidErr Proofs.IeeeRain Proofs.EdgeRain Proofs.FundErr Proofs.IceErr Proofs.IeeeSign Proofs.MassErr Proofs.DsdProofs Proofs.DsdErr Proofs.DsdErr04.
From Verif Require Model.LiquidIce.
Open Scope R_scope.
#[local] Existing Instances p53 e1024 p24 e128.

Lemma ln10_fine : 2 * ln 10 <= 5 /\ 2 <= ln 10. Proof. pose proof ln10_range. lra. Qed.
Lemma ten3 : exp (3 * ln 10) = 1000.
Proof. replace (3 * ln 10) with (ln 10 + ln 10 + ln 10) by ring. rewrite !exp_plus, !exp_ln by lra. lra. Qed.
Lemma exp_small t : 0 <= t <= 1 / 2 -> exp t <= / (1 - t).
Proof. intro H. apply exp_up. lra. Qed.
Lemma big219 : exp 219 * 2 <= 10 ^ 300.
Proof.
  replace (10 ^ 300) with (exp (300 * ln 10)).
  - pose proof ln10_range. replace (300 * ln 10) with (219 + (300 * ln 10 - 219)) by ring. rewrite exp_plus.
    apply Rmult_le_compat_l; [left; apply exp_pos|]. pose proof (exp_ge (300 * ln 10 - 219)). lra.
  - transitivity (Rpower 10 (INR 300)); [unfold Rpower; f_equal; f_equal; rewrite INR_IZR_INZ; reflexivity|]. apply Rpower_pow. lra.
Qed.

Section M1.
Variables (np1 : bool) (lm : libm double).
Hypothesis Acc : pow_accurate lm.
#[local] Instance dop : FloatOps double := double_ops np1 lm.
Variables (z w kd : double) (d r k : R).
Hypotheses (Z : dval z = Fin d) (T : nt d) (U : Rabs d <= 100) (W : dval w = Fin r) (Tr : nt r) (Ur : Rabs r <= 10) (R2 : 2 / 10 <= r).
Hypotheses (K : dval kd = Fin k) (Kr : 3 / 10 <= k <= 1000).
Let be := beta_2004 d k r.
Hypothesis HB : 1 / 100 <= be <= 10.
Let zl := LiquidIce.linearize z.
Let wl := LiquidIce.linearize w.
Let B := calc_beta zl kd wl.
Ltac lt := cbn [Qnum Qden]; first [lra | rewrite Rabs_pos_eq by lra; lra | rewrite Rabs_left by lra; lra].
Ltac ax q c := exact (apx_q np1 lm q c ltac:(lt) ltac:(lt)).

Lemma lnb : - (2 * ln 10) <= ln be <= ln 10.
Proof.
  split.
  - replace (- (2 * ln 10)) with (ln (1 / 100)).
    + destruct (proj1 HB) as [H|H]; [left; apply ln_increasing; lra|rewrite <- H; lra].
    + replace (1 / 100) with (/ (10 * 10)) by lra. rewrite ln_Rinv, ln_mult by lra. ring.
  - destruct (proj2 HB) as [H|H]; [left; apply ln_increasing; lra|rewrite H; lra].
Qed.
Lemma pbb : pb 5 be.
Proof.
  pose proof lnb. pose proof ln10_fine. unfold pb. rewrite <- (exp_ln be) by lra. split; apply exp_le_mono; lra.
Qed.
Lemma zl_ab : ab (47 * eta) 25 zl (linZ d). Proof. exact (lin_z np1 lm Acc z d Z T U). Qed.
Lemma wl_ab : ab (47 * eta) (25 / 10) wl (linZ r). Proof. exact (lin_w np1 lm Acc w r W Tr Ur). Qed.
Ltac pw e1 e2 L N A q c := exact (B_powg np1 lm Acc _ _ L N _ _ _ _ A (apx_q np1 lm q c ltac:(lt) ltac:(lt)) ltac:(lra) ltac:(lra) ltac:(lt) ltac:(lra) ltac:(lra)).
Lemma be_ab : ab (2 / 10 ^ 14) 5 B be.
Proof.
  pose proof eta_num. pose proof eta_pos. unfold B, calc_beta.
  assert (P1 := B_powg np1 lm Acc _ _ _ (4 / 10) _ _ _ _ zl_ab (apx_q np1 lm (-0.365)%Q (-365 / 1000) ltac:(lt) ltac:(lt)) ltac:(lra) ltac:(lra) ltac:(lt) ltac:(lra) ltac:(lra)).
  assert (AK : ab 0 10 kd k) by (split; [now apply apx_exact|apply pb_const; lra]).
  assert (P2 := B_powg np1 lm Acc _ _ _ (4 / 10) _ _ _ _ AK (apx_q np1 lm 0.38%Q (38 / 100) ltac:(lt) ltac:(lt)) ltac:(lra) ltac:(lra) ltac:(lt) ltac:(lra) ltac:(lra)).
  assert (P3 := B_powg np1 lm Acc _ _ _ 1 _ _ _ _ wl_ab (apx_q np1 lm 0.965%Q (965 / 1000) ltac:(lt) ltac:(lt)) ltac:(lra) ltac:(lra) ltac:(lt) ltac:(lra) ltac:(lra)).
  assert (Q1 := B_mul np1 lm _ _ _ _ _ _ _ _ (B_lit np1 lm 2.08%Q (208 / 100) 10 ltac:(lt) ltac:(apply pb_const; lra) ltac:(lra)) P1 ltac:(lra) ltac:(lra)).
  assert (Q2 := B_mul np1 lm _ _ _ _ _ _ _ _ Q1 P2 ltac:(lra) ltac:(lra)).
  assert (Q3 := B_mul np1 lm _ _ _ _ _ _ _ _ Q2 P3 ltac:(lra) ltac:(lra)).
  split; [|exact pbb]. apply apx_le with (1 := proj1 Q3). lra.
Qed.
(** a power law of beta *)
Lemma pl_be qa ca qe ce N : IZR (Qnum qa) / IZR (Zpos (Qden qa)) = ca -> 1 / 1000 <= ca <= 1000 ->
  IZR (Qnum qe) / IZR (Zpos (Qden qe)) = ce -> 1 / 1000 <= Rabs ce <= 1000 -> Rabs ce <= N -> N <= 2 ->
  ab (5 / 10 ^ 14) (10 + N * 5) (power_law B (flit qa) (flit qe)) (ca * Rpower be ce).
Proof.
  intros Qa Ra Qe Re HN N2. pose proof eta_num. pose proof eta_pos. unfold power_law. pose proof (Rabs_pos ce).
  assert (P := B_powg np1 lm Acc _ _ _ N _ _ _ _ be_ab (apx_q np1 lm qe ce Qe Re) ltac:(lra) ltac:(lra) HN ltac:(lra) ltac:(lra)).
  assert (Q := B_mul np1 lm _ _ _ _ _ _ _ _ (B_lit np1 lm qa ca 10 Qa ltac:(apply pb_const; lra) ltac:(lra)) P ltac:(nra) ltac:(lra)).
  apply B_le with (1 := Q); [nra|lra].
Qed.
Lemma be_le ce : -15 / 10 <= ce <= 0 -> 0 < Rpower be ce <= 1000.
Proof.
  intro C. split; [apply exp_pos|]. rewrite <- ten3. unfold Rpower. apply exp_le_mono. pose proof lnb. pose proof ln10_range. nra.
Qed.
Lemma zeta_pos : 4 / 100 <= ln (linZ r) <= 25 / 10.
Proof. unfold linZ, Rpower. rewrite ln_exp. pose proof ln10_range. apply Rabs_le_inv in Ur. split; nra. Qed.

Lemma d0_m1_ab : ab (4 / 10 ^ 12) 65 (calc_d0_sband_method1 zl wl B) (D0 (m1 d r k)).
Proof.
  pose proof eta_num. pose proof eta_pos. unfold calc_d0_sband_method1, d0_from_dz_zeta. cbn [m1 D0]. fold be.
  assert (P := pl_be 0.024%Q (24 / 1000) (-1.42)%Q (-142 / 100) (15 / 10) ltac:(lt) ltac:(lra) ltac:(lt) ltac:(lt) ltac:(lt) ltac:(lra)).
  pose proof (be_le (-142 / 100) ltac:(lra)) as BB.
  assert (P1 := B_powg np1 lm Acc _ _ _ (7 / 100) _ _ _ _ zl_ab (apx_q np1 lm 0.064%Q (64 / 1000) ltac:(lt) ltac:(lt)) ltac:(lra) ltac:(lra) ltac:(lt) ltac:(lra) ltac:(lra)).
  assert (P2 := B_powg np1 lm Acc _ _ _ 24 _ _ _ _ wl_ab (proj1 P) ltac:(lra) ltac:(lra) ltac:(rewrite Rabs_pos_eq; nra) ltac:(lra) ltac:(lra)).
  assert (L1 : pb 1 (56 / 100)).
  { unfold pb. change (exp (-1)) with (exp (Ropp 1)). rewrite exp_Ropp. pose proof (exp_ge 1). split; [|lra].
    apply Rle_trans with (/ 2); [apply Rinv_le_contravar; lra|lra]. }
  assert (Q := B_mul np1 lm _ _ _ _ _ _ _ _ (B_lit np1 lm 0.56%Q (56 / 100) 1 ltac:(lt) L1 ltac:(lra)) P1 ltac:(lra) ltac:(lra)).
  assert (V := B_mul np1 lm _ _ _ _ _ _ _ _ Q P2 ltac:(lra) ltac:(lra)).
  apply B_le with (1 := V); lra.
Qed.

Lemma nw_m1 : within (1 / 10 ^ 9) (fpow (flit 10%Q) (calc_logNw_sband_method1 zl wl B)) (NW (m1 d r k)).
Proof.
  pose proof eta_num. pose proof eta_pos. unfold calc_logNw_sband_method1. cbn [m1 NW]. fold be.
  pose proof (be_le (-1389 / 1000) ltac:(lra)) as BB.
  assert (P : apx (5 / 10 ^ 14) (power_law B (flit (-0.023)%Q) (flit (-1.389)%Q)) (-23 / 1000 * Rpower be (-1389 / 1000))).
  { unfold power_law.
    assert (P := B_powg np1 lm Acc _ _ _ (14 / 10) _ _ _ _ be_ab (apx_q np1 lm (-1.389)%Q (-1389 / 1000) ltac:(lt) ltac:(lt)) ltac:(lra) ltac:(lra) ltac:(lt) ltac:(lra) ltac:(lra)).
    apply apx_le with (eta + (2 * eta + 10 / 9 * (eta * (14 / 10 * 5) + 14 / 10 * (2 / 10 ^ 14))) + eta); [|lra].
    apply apx_mul; [exact (apx_q np1 lm (-0.023)%Q (-23 / 1000) ltac:(lt) ltac:(lt))|exact (proj1 P)|lra|].
    apply pb_safe_abs with (10 + 14 / 10 * 5); [|lra]. rewrite Rabs_mult. apply pb_mul.
    - rewrite Rabs_left by lra. apply pb_const. lra.
    - rewrite Rabs_pos_eq by lra. exact (proj2 P). }
  assert (P1 := B_powg np1 lm Acc _ _ _ (6 / 100) _ _ _ _ zl_ab (apx_q np1 lm 0.058%Q (58 / 1000) ltac:(lt) ltac:(lt)) ltac:(lra) ltac:(lra) ltac:(lt) ltac:(lra) ltac:(lra)).
  assert (P2 := B_powg np1 lm Acc _ _ _ 24 _ _ _ _ wl_ab P ltac:(lra) ltac:(lra) ltac:(rewrite Rabs_left; nra) ltac:(lra) ltac:(lra)).
  assert (Q := B_mul np1 lm _ _ _ _ _ _ _ _ (B_lit np1 lm 3.29%Q (329 / 100) 10 ltac:(lt) ltac:(apply pb_const; lra) ltac:(lra)) P1 ltac:(lra) ltac:(lra)).
  assert (V := B_mul np1 lm _ _ _ _ _ _ _ _ Q P2 ltac:(lra) ltac:(lra)).
  assert (C : 0 < 329 / 100 * Rpower (linZ d) (58 / 1000) * Rpower (linZ r) (-23 / 1000 * Rpower be (-1389 / 1000)) <= 32).
  { pose proof ln10_range. pose proof exp2_9. apply Rabs_le_inv in U. pose proof zeta_pos.
    assert (X1 : 0 < Rpower (linZ d) (58 / 1000) <= 9).
    { split; [apply exp_pos|]. apply Rle_trans with (exp 2); [|lra]. unfold Rpower at 1. apply exp_le_mono. unfold linZ, Rpower. rewrite ln_exp. nra. }
    assert (X2 : 0 < Rpower (linZ r) (-23 / 1000 * Rpower be (-1389 / 1000)) <= 1).
    { split; [apply exp_pos|]. rewrite <- exp_0. unfold Rpower at 1. apply exp_le_mono.
      assert (0 <= Rpower be (-1389 / 1000) * ln (linZ r)) by (apply Rmult_le_pos; lra). lra. }
    split; [repeat apply Rmult_lt_0_compat; lra|].
    apply Rle_trans with (329 / 100 * 9 * 1); [|lra]. apply Rmult_le_compat; try lra; apply Rmult_le_pos; lra. }
  assert (T10 : ab 0 (25 / 10) (flit 10%Q : double) 10).
  { split; [apply apx_exact, lit_int; lia|]. pose proof ln10_range. assert (E := exp_ln 10 ltac:(lra)). split; [apply Rle_trans with (exp (ln 10)); [apply exp_le_mono|]; lra|apply Rle_trans with (exp (ln 10)); [|apply exp_le_mono]; lra]. }
  assert (R := B_powg np1 lm Acc _ _ _ 32 _ _ _ _ T10 (proj1 V) ltac:(lra) ltac:(lra) ltac:(rewrite Rabs_pos_eq; lra) ltac:(lra) ltac:(lra)).
  apply apx_within with (1 := proj1 R); lra.
Qed.

(** mu is a difference of two positive terms: the error is relative to their sum *)
Definition mu_plus : R := 203 * Rpower be (189/100) * (Rpower (D0 (m1 d r k)) (223/100 * Rpower be (388/10000)) / (linZ r - 1)).
Definition mu_minus : R := 316/100 * Rpower be (-463/10000) * Rpower (linZ r) (374/1000 * Rpower be (-355/1000)).
Lemma mu_m1 : exists v, dval (calc_mu_sband_method1 (calc_d0_sband_method1 zl wl B) wl B) = Fin v /\
  Rabs (v - MU (m1 d r k)) <= 1 / 10 ^ 10 * (mu_plus + mu_minus) /\ 0 < mu_plus /\ 0 < mu_minus.
Proof.
  pose proof eta_num. pose proof eta_pos. unfold calc_mu_sband_method1. cbv zeta. pose proof ln10_range as LT. pose proof lnb as LB.
  assert (Pa := pl_be 203%Q 203 1.89%Q (189 / 100) (19 / 10) ltac:(lt) ltac:(lra) ltac:(lt) ltac:(lt) ltac:(lt) ltac:(lra)).
  assert (Pb := pl_be 2.23%Q (223 / 100) 0.0388%Q (388 / 10000) (4 / 100) ltac:(lt) ltac:(lra) ltac:(lt) ltac:(lt) ltac:(lt) ltac:(lra)).
  assert (Pc := pl_be 3.16%Q (316 / 100) (-0.0463)%Q (-463 / 10000) (5 / 100) ltac:(lt) ltac:(lra) ltac:(lt) ltac:(lt) ltac:(lt) ltac:(lra)).
  assert (Pd := pl_be 0.374%Q (374 / 1000) (-0.355)%Q (-355 / 1000) (4 / 10) ltac:(lt) ltac:(lra) ltac:(lt) ltac:(lt) ltac:(lt) ltac:(lra)).
  assert (Bb : 0 < 223 / 100 * Rpower be (388 / 10000) <= 25 / 10).
  { assert (0 < Rpower be (388 / 10000)) by apply exp_pos. split; [lra|].
    assert (Rpower be (388 / 10000) <= exp (97 / 1000)) by (apply exp_le_mono; nra).
    pose proof (exp_small (97 / 1000) ltac:(lra)) as E. lra. }
  assert (Bd : 0 < 374 / 1000 * Rpower be (-355 / 1000) <= 4).
  { assert (0 < Rpower be (-355 / 1000)) by apply exp_pos. split; [lra|].
    assert (Rpower be (-355 / 1000) <= exp 2) by (apply exp_le_mono; nra). pose proof exp2_9. lra. }
  assert (P1 := B_powg np1 lm Acc _ _ _ (25 / 10) _ _ _ _ d0_m1_ab (proj1 Pb) ltac:(lra) ltac:(lra) ltac:(rewrite Rabs_pos_eq; lra) ltac:(lra) ltac:(lra)).
  (* zeta - 1 *)
  pose proof zeta_pos as ZP.
  assert (Zr : 1 + 4 / 100 <= linZ r <= 10).
  { split; [pose proof (exp_ln (linZ r) ltac:(apply exp_pos)); pose proof (exp_ge (ln (linZ r))); lra|].
    pose proof (Rpower_1 10 ltac:(lra)) as E1. apply Rle_trans with (Rpower 10 1); [|lra]. apply Rle_Rpower; [lra|]. apply Rabs_le_inv in Ur. lra. }
  destruct (ab_near _ _ _ _ 10 wl_ab ltac:(lra) ltac:(lra)) as (NZ & _).
  assert (ND : near (2 / 10 ^ 13) (fsub wl (flit 1%Q)) (linZ r - 1)).
  { refine (N_sub np1 lm _ _ _ _ _ _ 10 _ NZ (N_exact _ _ (lit_int 1 ltac:(lia))) _ _ _ _ _); try lra; [rewrite Rabs_pos_eq; lra|unfold ud, taud; lra]. }
  assert (AD : ab (6 / 10 ^ 12) 10 (fsub wl (flit 1%Q)) (linZ r - 1)).
  { split; [|apply pb_const; lra]. apply apx_le with (102 / 100 * (5 / 10 ^ 12)); [|lra].
    apply near_apx with (2 / 10 ^ 13); [exact ND|lra|lra|lra]. }
  assert (P2 := B_div np1 lm _ _ _ _ _ _ _ _ P1 AD ltac:(lra) ltac:(lra)).
  assert (P3 := B_mul np1 lm _ _ _ _ _ _ _ _ Pa P2 ltac:(lra) ltac:(lra)).
  assert (Q1 := B_powg np1 lm Acc _ _ _ 4 _ _ _ _ wl_ab (proj1 Pd) ltac:(lra) ltac:(lra) ltac:(rewrite Rabs_pos_eq; lra) ltac:(lra) ltac:(lra)).
  assert (Q2 := B_mul np1 lm _ _ _ _ _ _ _ _ Pc Q1 ltac:(lra) ltac:(lra)).
  fold (power_law wl (power_law B (flit 3.16%Q) (flit (-0.0463)%Q)) (power_law B (flit 0.374%Q) (flit (-0.355)%Q))) in Q2.
  fold mu_plus mu_minus in P3, Q2.
  assert (PP := pb_pos _ _ (proj2 P3)). assert (PM := pb_pos _ _ (proj2 Q2)).
  assert (M1 : 1 <= mu_minus).
  { assert (1 / 2 <= Rpower be (-463 / 10000)).
    { apply Rle_trans with (exp (-(1 / 2))); [pose proof (exp_ge (-(1 / 2))); lra|]. apply exp_le_mono. nra. }
    assert (1 <= Rpower (linZ r) (374 / 1000 * Rpower be (-355 / 1000))).
    { rewrite <- exp_0. apply exp_le_mono. apply Rmult_le_pos; lra. }
    unfold mu_minus. assert (1 / 2 * 1 <= Rpower be (-463 / 10000) * Rpower (linZ r) (374 / 1000 * Rpower be (-355 / 1000))) by (apply Rmult_le_compat; lra). lra. }
  destruct (apx_error _ _ _ (proj1 P3) ltac:(lra)) as (p & Vp & Dp).
  destruct (apx_error _ _ _ (proj1 Q2) ltac:(lra)) as (q & Vq & Dq).
  rewrite (Rabs_pos_eq mu_plus) in Dp by lra. rewrite (Rabs_pos_eq mu_minus) in Dq by lra.
  assert (Dp' : Rabs (p - mu_plus) <= 5 / 10 ^ 11 * mu_plus) by (apply Rle_trans with (1 := Dp); apply Rmult_le_compat_r; lra).
  assert (Dq' : Rabs (q - mu_minus) <= 5 / 10 ^ 11 * mu_minus) by (apply Rle_trans with (1 := Dq); apply Rmult_le_compat_r; lra).
  assert (Up : mu_plus <= exp 219) by (apply Rle_trans with (1 := proj2 (proj2 P3)); apply exp_le_mono; lra).
  assert (Um : mu_minus <= exp 219) by (apply Rle_trans with (1 := proj2 (proj2 Q2)); apply exp_le_mono; lra).
  pose proof big219 as B2. apply Rabs_le_inv in Dp', Dq'.
  destruct (drnd_err (p - q)) as (y & Y & D). { apply Rabs_le. lra. }
  exists y. split; [exact (eq_trans (r_sub np1 lm _ _ p q Vp Vq) Y)|]. split; [|split; lra].
  cbn [m1 MU]. fold be. change (Rabs (y - (mu_plus - mu_minus)) <= 1 / 10 ^ 10 * (mu_plus + mu_minus)).
  assert (Rabs (p - q) <= 2 * (mu_plus + mu_minus)) by (apply Rabs_le; lra).
  assert (ud * Rabs (p - q) + taud <= 1 / 10 ^ 14 * (mu_plus + mu_minus)) by (unfold ud, taud; lra).
  apply Rabs_le_inv in D. apply Rabs_le. lra.
Qed.
End M1.
