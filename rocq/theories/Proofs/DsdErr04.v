(** Rounding errors of the 2004 drop-size retrievals in double precision. *)
From Coq Require Import Reals Lra Lia ZArith QArith.
From Flocq Require Import Core IEEE754.BinarySingleNaN.
From Verif Require Import Base.Num Base.XReal Base.Ieee Base.RelErr Base.PosErr Spec.IeeeSpec Spec.LibmSpec.
From Verif Require Import Spec.RainSpec Spec.DsdSpec Model.Dsd.
From Verif Require Import Proofs.BetaErr Proofs.HidErr Proofs.IeeeRain Proofs.EdgeRain Proofs.FundErr Proofs.IceErr Proofs.IeeeSign Proofs.MassErr Proofs.DsdProofs Proofs.DsdErr.
From Verif Require Model.LiquidIce.
Open Scope R_scope.
#[local] Existing Instances p53 e1024 p24 e128.

Section D04.
Variables (np1 : bool) (lm : libm double).
Hypothesis Acc : pow_accurate lm.
#[local] Instance dop : FloatOps double := double_ops np1 lm.

(** a power with an approximate exponent *)
Lemma B_powg e1 e2 L N (x y : double) a b : ab e1 L x a -> apx e2 y b -> e1 <= 1 / 1000 -> e2 <= 1 / 1000 -> Rabs b <= N ->
  N <= 100 -> N * L <= 400 -> ab (2 * eta + 10 / 9 * (e2 * (N * L) + N * e1)) (N * L) (fpow x y) (Rpower a b).
Proof.
  intros (A & P) B E1 E2 HN N1 M. pose proof (pb_pos _ _ P). pose proof (pb_ln _ _ P) as Ll. pose proof (Rabs_pos (ln a)). pose proof (Rabs_pos b).
  pose proof (apx_pos _ _ _ A).
  split; [|now apply pb_pow]. apply apx_pow; auto; try lra.
  - rewrite Rabs_mult. apply Rmult_le_compat; lra.
  - apply Rle_trans with (100 * (1 / 1000)); [apply Rmult_le_compat; lra|lra].
Qed.
Lemma apx_q q c : IZR (Qnum q) / IZR (Zpos (Qden q)) = c -> 1 / 1000 <= Rabs c <= 1000 -> apx eta (flit q : double) c.
Proof. intros <- H. apply apx_lit. apply pb_safe_abs with 10; [now apply pb_const|lra]. Qed.
Ltac lt := cbn [Qnum Qden]; first [lra | rewrite Rabs_pos_eq by lra; lra | rewrite Rabs_left by lra; lra].

Section Gate.
Variables (z w : double) (d r : R).
Hypotheses (Z : dval z = Fin d) (T : nt d) (U : Rabs d <= 100) (W : dval w = Fin r) (Tr : nt r) (Ur : Rabs r <= 10).
Let zl := LiquidIce.linearize z.
Let wl := LiquidIce.linearize w.
Lemma lin_z : ab (47 * eta) 25 zl (linZ d).
Proof.
  split; [exact (proj1 (lin_apx np1 lm Acc z d Z T U))|]. pose proof ln10_range. apply Rabs_le_inv in U.
  unfold linZ, Rpower, pb. split; apply exp_le_mono; nra.
Qed.
Lemma lin_w : ab (47 * eta) (25 / 10) wl (linZ r).
Proof.
  split; [exact (proj1 (lin_apx np1 lm Acc w r W Tr ltac:(lra)))|]. pose proof ln10_range. apply Rabs_le_inv in Ur.
  unfold linZ, Rpower, pb. split; apply exp_le_mono; nra.
Qed.
(** concentration from a diameter *)
Lemma nw_ab e L (x : double) X : ab e L x X -> e <= 1 / 10 ^ 9 -> L <= 40 ->
  within (10 * e + 1 / 10 ^ 12) (calc_Nw_mult_methods zl x) (nw_A17 d X).
Proof.
  intros A He HL. unfold calc_Nw_mult_methods, power_law, nw_A17. pose proof eta_num. pose proof eta_pos.
  pose proof (apx_pos _ _ _ (proj1 A)).
  assert (A' : ab e 40 x X) by (apply B_le with (1 := A); lra).
  assert (P := B_powg _ _ _ (74 / 10) _ _ _ _ A' (apx_q 7.3529%Q (73529 / 10000) ltac:(lt) ltac:(lt)) ltac:(lra) ltac:(lra) ltac:(lt) ltac:(lra) ltac:(lra)).
  assert (Q := B_mul np1 lm _ _ _ _ _ _ _ _ (B_lit np1 lm 1%Q 1 10 ltac:(lt) ltac:(apply pb_const; lra) ltac:(lra)) P ltac:(lra) ltac:(lra)).
  rewrite Rmult_1_l in Q.
  assert (M := B_mul np1 lm _ _ _ _ _ _ _ _ (B_lit np1 lm 21%Q 21 10 ltac:(lt) ltac:(apply pb_const; lra) ltac:(lra)) lin_z ltac:(lra) ltac:(lra)).
  assert (D := B_div np1 lm _ _ _ _ _ _ _ _ M Q ltac:(lra) ltac:(lra)).
  apply apx_within with (1 := proj1 D); lra.
Qed.

(** method 2 *)
Lemma m2_ab : 1 / 10 <= r -> ab (1 / 10 ^ 14) 15 (power_law w (flit 1.81%Q) (flit 0.486%Q)) (d0_m2 r).
Proof.
  intro L. pose proof eta_num. pose proof eta_pos. assert (Ur' := Ur). apply Rabs_le_inv in Ur'.
  assert (A : ab 0 10 w r) by (split; [now apply apx_exact|apply pb_const; lra]).
  assert (P := B_powg _ _ _ (1 / 2) _ _ _ _ A (apx_q 0.486%Q (486 / 1000) ltac:(lt) ltac:(lt)) ltac:(lra) ltac:(lra) ltac:(lt) ltac:(lra) ltac:(lra)).
  assert (Q := B_mul np1 lm _ _ _ _ _ _ _ _ (B_lit np1 lm 1.81%Q (181 / 100) 10 ltac:(lt) ltac:(apply pb_const; lra) ltac:(lra)) P ltac:(lra) ltac:(lra)).
  apply B_le with (1 := Q); lra.
Qed.
(** method 4 *)
Lemma m4_ab : ab (1 / 10 ^ 13) 22 (d0_from_dz_zeta zl wl (flit 0.6096%Q) (flit 0.0516%Q) (flit 3.111%Q)) (d0_m4 d r).
Proof.
  pose proof eta_num. pose proof eta_pos.
  assert (P1 := B_powg _ _ _ (6 / 100) _ _ _ _ lin_z (apx_q 0.0516%Q (516 / 10000) ltac:(lt) ltac:(lt)) ltac:(lra) ltac:(lra) ltac:(lt) ltac:(lra) ltac:(lra)).
  assert (P2 := B_powg _ _ _ 4 _ _ _ _ lin_w (apx_q 3.111%Q (3111 / 1000) ltac:(lt) ltac:(lt)) ltac:(lra) ltac:(lra) ltac:(lt) ltac:(lra) ltac:(lra)).
  assert (Q := B_mul np1 lm _ _ _ _ _ _ _ _ (B_lit np1 lm 0.6096%Q (6096 / 10000) 10 ltac:(lt) ltac:(apply pb_const; lra) ltac:(lra)) P1 ltac:(lra) ltac:(lra)).
  assert (V := B_mul np1 lm _ _ _ _ _ _ _ _ Q P2 ltac:(lra) ltac:(lra)).
  apply B_le with (1 := V); lra.
Qed.
Lemma ab_near e L (x : double) X M : ab e L x X -> e <= 1 / 10 -> X <= M -> near (10 / 9 * e * M) x X /\ Rabs X <= M.
Proof.
  intros (A & P) He B. pose proof (pb_pos _ _ P). destruct (apx_error _ _ _ A He) as (v & V & D).
  pose proof (apx_pos _ _ _ A). rewrite (Rabs_pos_eq X) in * by lra. split; [|lra].
  exists v. split; auto. apply Rle_trans with (1 := D). replace (10 / 9 * e * M) with (10 / 9 * (e * M)) by ring.
  assert (e * X <= e * M) by (apply Rmult_le_compat_l; lra). nra.
Qed.
Lemma div3_near e (x : double) a M : near e x a -> Rabs a <= M -> M <= 10 -> e <= 1 / 1000 -> 
  near (e + 1 / 10 ^ 14) (fdiv x (flit 3%Q)) (a / 3).
Proof.
  intros (x' & X & D) HM BM He. pose proof (Rabs_pos (x' - a)). pose proof (Rabs_pos a).
  apply N_rnd with (e := e / 3) (s := x' / 3) (M := M / 3); auto; try lra.
  - exact (r_div np1 lm x _ x' 3 X (lit_int 3 ltac:(lia)) ltac:(lra)).
  - replace (x' / 3 - a / 3) with ((x' - a) / 3) by field. unfold Rdiv. rewrite Rabs_mult, (Rabs_pos_eq (/ 3)) by lra. lra.
  - unfold Rdiv. rewrite Rabs_mult, (Rabs_pos_eq (/ 3)) by lra. lra.
  - unfold ud, taud. lra.
Qed.
Lemma exp2_9 : exp 2 <= 9.
Proof. replace 2 with (1 + 1) by lra. rewrite exp_plus. pose proof exp_le_3. pose proof (exp_pos 1). nra. Qed.
Lemma m4_range : 2 / 10 <= r < 5 / 10 -> 6 / 100 <= d0_m4 d r <= 17.
Proof.
  intro R. unfold d0_m4, linZ, Rpower. rewrite !ln_exp. pose proof ln10_range as L. apply Rabs_le_inv in U.
  pose proof exp2_9 as E2. pose proof exp_le_3 as E1.
  assert (A : exp (Ropp 2) <= exp (516 / 10000 * (d / 10 * ln 10)) <= exp 2) by (split; apply exp_le_mono; nra).
  assert (B : exp 0 <= exp (3111 / 1000 * (r / 10 * ln 10)) <= exp 1) by (split; apply exp_le_mono; nra).
  assert (C : / 9 <= exp (Ropp 2)) by (rewrite exp_Ropp; apply Rinv_le_contravar; [apply exp_pos|auto]). rewrite exp_0 in B.
  set (a := exp (516 / 10000 * _)) in *. set (b := exp (3111 / 1000 * _)) in *.
  assert (1 / 9 * 1 <= a * b) by (apply Rmult_le_compat; lra). assert (a * b <= 9 * 3) by (apply Rmult_le_compat; lra).
  rewrite Rmult_assoc. lra.
Qed.
Lemma m2_range : 2 / 10 <= r < 5 / 10 -> 6 / 100 <= d0_m2 r <= 17.
Proof.
  intro R. unfold d0_m2. assert (A : Rpower r 1 <= Rpower r (486 / 1000) <= 1).
  { assert (L : ln r < 0) by (rewrite <- ln_1; apply ln_increasing; lra). unfold Rpower. split.
    - apply exp_le_mono. nra.
    - rewrite <- exp_0. apply exp_le_mono. nra. }
  rewrite Rpower_1 in A by lra. lra.
Qed.
(** method 3 *)
Lemma m3_near : 2 / 10 <= r < 5 / 10 -> near (3 / 10 ^ 12) (calc_d0_sband_method3 zl w wl) (d0_A18 d r / 10) /\ 6 / 1000 <= d0_A18 d r / 10 <= 17.
Proof.
  intro R. pose proof (m2_range R) as R2. pose proof (m4_range R) as R4.
  destruct (ab_near _ _ _ _ 17 (m2_ab ltac:(lra)) ltac:(lra) (proj2 R2)) as (N2 & _).
  destruct (ab_near _ _ _ _ 17 m4_ab ltac:(lra) (proj2 R4)) as (N4 & _).
  assert (L2 : near (1 / 10 ^ 14) (flit 0.2%Q : double) (2 / 10)) by (apply (N_lit np1 lm); [cbn [Qnum Qden]; lra| |]; rewrite Rabs_pos_eq by lra; unfold ud, taud; lra).
  assert (L5 : near (1 / 10 ^ 14) (flit 0.5%Q : double) (5 / 10)) by (apply (N_lit np1 lm); [cbn [Qnum Qden]; lra| |]; rewrite Rabs_pos_eq by lra; unfold ud, taud; lra).
  assert (Nw : near 0 w r) by now apply N_exact.
  assert (D1 : near (2 / 10 ^ 14) (fsub w (flit 0.2%Q)) (r - 2 / 10)).
  { apply (N_sub np1 lm) with (e1 := 0) (e2 := 1 / 10 ^ 14) (M := 1); auto; try lra; [rewrite Rabs_pos_eq; lra|unfold ud, taud; lra]. }
  assert (D2 : near (2 / 10 ^ 14) (fsub (flit 0.5%Q) w) (5 / 10 - r)).
  { apply (N_sub np1 lm) with (e1 := 1 / 10 ^ 14) (e2 := 0) (M := 1); auto; try lra; [rewrite Rabs_pos_eq; lra|unfold ud, taud; lra]. }
  pose proof (div3_near _ _ _ 1 D1 ltac:(rewrite Rabs_pos_eq; lra) ltac:(lra) ltac:(lra)) as Q1.
  pose proof (div3_near _ _ _ 1 D2 ltac:(rewrite Rabs_pos_eq; lra) ltac:(lra) ltac:(lra)) as Q2.
  assert (P1 : near (1 / 10 ^ 12) (fmul (fdiv (fsub w (flit 0.2%Q)) (flit 3%Q)) (power_law w (flit 1.81%Q) (flit 0.486%Q))) ((r - 2 / 10) / 3 * d0_m2 r)).
  { refine (N_mul np1 lm _ _ _ _ _ _ 1 17 _ Q1 N2 _ _ _ _ _ _ _); try lra; try (rewrite Rabs_pos_eq; lra). unfold ud, taud. lra. }
  assert (P2 : near (15 / 10 ^ 13) (fmul (fdiv (fsub (flit 0.5%Q) w) (flit 3%Q)) (d0_from_dz_zeta zl wl (flit 0.6096%Q) (flit 0.0516%Q) (flit 3.111%Q))) ((5 / 10 - r) / 3 * d0_m4 d r)).
  { assert (H4 : near (3 / 10 ^ 12) (d0_from_dz_zeta zl wl (flit 0.6096%Q) (flit 0.0516%Q) (flit 3.111%Q)) (d0_m4 d r)) by (apply near_le with (1 := N4); lra).
    refine (N_mul np1 lm _ _ _ _ _ _ (1 / 10) 17 _ Q2 H4 _ _ _ _ _ _ _); try lra; try (rewrite Rabs_pos_eq; lra). unfold ud, taud. lra. }
  unfold calc_d0_sband_method3.
  replace (d0_A18 d r / 10) with ((r - 2 / 10) / 3 * d0_m2 r + (5 / 10 - r) / 3 * d0_m4 d r) by (unfold d0_A18; field).
  assert (G1 : (r - 2 / 10) / 3 * (6 / 100) <= (r - 2 / 10) / 3 * d0_m2 r <= (r - 2 / 10) / 3 * 17) by (split; apply Rmult_le_compat_l; lra).
  assert (G2 : (5 / 10 - r) / 3 * (6 / 100) <= (5 / 10 - r) / 3 * d0_m4 d r <= (5 / 10 - r) / 3 * 17) by (split; apply Rmult_le_compat_l; lra).
  split; [|lra].
  refine (N_add np1 lm _ _ _ _ _ _ 17 _ P1 P2 _ _ _ _ _); try lra; [rewrite Rabs_pos_eq; lra|unfold ud, taud; lra].
Qed.
Lemma m3_ab : 2 / 10 <= r < 5 / 10 -> ab (6 / 10 ^ 10) 20 (calc_d0_sband_method3 zl w wl) (d0_A18 d r / 10).
Proof.
  intro R. destruct (m3_near R) as (N & B). split.
  - apply apx_le with (102 / 100 * (5 / 10 ^ 10)); [|lra]. apply near_apx with (3 / 10 ^ 12); auto; lra.
  - apply pb_le with 10; [|lra]. apply pb_const. lra.
Qed.
End Gate.
End D04.
