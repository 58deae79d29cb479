(** Rounding errors of the liquid and ice masses in double precision. *)
From Coq Require Import Reals Lra Lia ZArith QArith.
From Flocq Require Import Core IEEE754.BinarySingleNaN.
From Verif Require Import Base.Num Base.XReal Base.Ieee Base.RelErr Base.PosErr Spec.IeeeSpec Spec.LibmSpec.
From Verif Require Import Spec.RainSpec Spec.RainDefaultSpec Spec.LiquidIceSpec.
From Verif Require Import Proofs.BetaErr Proofs.HidErr Proofs.IeeeRain Proofs.EdgeRain Proofs.FundErr Proofs.IceErr Proofs.IeeeSign Proofs.LiquidIceProofs.
Open Scope R_scope.
#[local] Existing Instances p53 e1024 p24 e128.

Lemma e40 : exp 40 * 2 <= 10 ^ 20.
Proof.
  assert (K : forall n, exp (INR n) <= 3 ^ n).
  { induction n; [simpl; rewrite exp_0; lra|]. rewrite S_INR, Rplus_comm, exp_plus.
    pose proof exp_le_3. pose proof (exp_pos 1). cbn [pow]. apply Rmult_le_compat; auto; try lra. left. apply exp_pos. }
  pose proof (K 40%nat) as K40. replace (INR 40) with 40 in K40 by (simpl; lra).
  assert (3 ^ 40 * 2 <= 10 ^ 20); [|lra].
  rewrite !pow_IZR, <- mult_IZR. apply IZR_le. vm_compute. discriminate.
Qed.

Section Mass.
Variables (np1 : bool) (lm : libm double).
Hypothesis Acc : libm_accurate lm.
#[local] Instance dop : FloatOps double := double_ops np1 lm.

Lemma Zh_eq d : Zh d = Zlin d. Proof. reflexivity. Qed.
Lemma Zdp_eq d r : Zdp d r = Zdp_dB d r. Proof. reflexivity. Qed.

Lemma z0 : dval (flit 0%Q : double) = Fin 0. Proof. reflexivity. Qed.
(** comparisons with the literal 0 *)
Lemma lt0 (x : double) v : dval x = Fin v -> flt x (flit 0%Q) = Rltb v 0.
Proof. intro X. change (Bltb x (b_lit 53 1024 p53 e1024 0) = Rltb v 0). rewrite val_lt, X. reflexivity. Qed.
Lemma ge0 (x : double) v : dval x = Fin v -> fle (flit 0%Q) x = Rleb 0 v.
Proof. intro X. change (Bleb (b_lit 53 1024 p53 e1024 0) x = Rleb 0 v). rewrite val_le, X. reflexivity. Qed.

(** an approximate positive number and its magnitude *)
Definition ab (e L : R) (x : double) (v : R) : Prop := apx e x v /\ pb L v.
Lemma B_mul e1 e2 L1 L2 (x y : double) a b : ab e1 L1 x a -> ab e2 L2 y b -> e1 + e2 <= 10 -> L1 + L2 <= 400 ->
  ab (e1 + e2 + eta) (L1 + L2) (fmul x y) (a * b).
Proof.
  intros (A & P) (B & Q) E L. pose proof (pb_mul _ _ _ _ P Q) as PQ. split; auto.
  apply apx_mul; auto. now apply pb_safe with (L1 + L2).
Qed.
Lemma B_div e1 e2 L1 L2 (x y : double) a b : ab e1 L1 x a -> ab e2 L2 y b -> e1 + e2 <= 10 -> L1 + L2 <= 400 ->
  ab (e1 + e2 + eta) (L1 + L2) (fdiv x y) (a / b).
Proof.
  intros (A & P) (B & Q) E L. pose proof (pb_div _ _ _ _ P Q) as PQ. split; auto. pose proof (pb_pos _ _ Q).
  apply apx_div; auto; [lra|]. now apply pb_safe with (L1 + L2).
Qed.
Lemma B_pow e1 e2 L N (x y : double) a b : ab e1 L x a -> apx e2 y b -> e1 <= 1 / 10 -> e2 <= 1 / 10 -> Rabs b <= N ->
  0 <= N <= 5 -> N * L <= 400 ->
  ab (2 * eta + 10 / 9 * (e2 * (N * L) + N * e1)) (N * L) (fpow x y) (Rpower a b).
Proof.
  intros (A & P) B E1 E2 HN N5 M. pose proof (pb_pos _ _ P). pose proof (pb_ln _ _ P) as Ll. pose proof (Rabs_pos (ln a)). pose proof (Rabs_pos b).
  pose proof (apx_pos _ _ _ A).
  split; [|now apply pb_pow]. apply apx_pow; auto; try lra; try nra.
  - exact (acc_pow lm Acc).
  - rewrite Rabs_mult. apply Rmult_le_compat; lra.
Qed.
Lemma B_le e e' L L' (x : double) a : ab e L x a -> e <= e' -> L <= L' -> ab e' L' x a.
Proof. intros (A & P) E HL. split; [now apply apx_le with e|now apply pb_le with L]. Qed.
Lemma B_lit q c L : IZR (Qnum q) / IZR (Zpos (Qden q)) = c -> pb L c -> L <= 400 -> ab eta L (@flit double _ q) c.
Proof. intros <- P HL. split; auto. apply apx_lit. now apply pb_safe with L. Qed.
Lemma B_ten n : (Z.abs n <= 20)%Z -> ab (2 * eta) (25 / 10 * Rabs (IZR n)) (fpow (flit 10%Q) (flit (Qmake n 1))) (Rpower 10 (IZR n)).
Proof.
  intro Hn. assert (Bn : Rabs (IZR n) <= 20) by (rewrite <- abs_IZR; apply IZR_le; lia).
  destruct (ten_near np1 lm Acc 0 (flit (Qmake n 1)) (IZR n)) as (A & _); [|lra|lra|].
  - apply N_exact. apply lit_int. lia.
  - split; [apply apx_le with (1 := A); lra|]. pose proof ln10_range as L.
    assert (Q : Rabs (IZR n * ln 10) <= 25 / 10 * Rabs (IZR n)).
    { rewrite Rabs_mult, (Rabs_pos_eq (ln 10)) by lra. pose proof (Rabs_pos (IZR n)). nra. }
    apply Rabs_le_inv in Q. unfold pb, Rpower. split; apply exp_le_mono; lra.
Qed.
Lemma B_frac a b : (1 <= a <= 1000)%Z -> (1 <= b <= 1000)%Z -> apx eta (fdiv (flit (Qmake a 1)) (flit (Qmake b 1)) : double) (IZR a / IZR b).
Proof.
  intros Ha Hb. assert (1 <= IZR a <= 1000) by (split; apply IZR_le; lia). assert (1 <= IZR b <= 1000) by (split; apply IZR_le; lia).
  replace eta with (0 + 0 + eta) by ring. apply apx_div; try lra.
  - apply apx_exact. apply lit_int. lia.
  - apply apx_exact. apply lit_int. lia.
  - apply pb_safe with (10 + 10); [|lra]. apply pb_div; apply pb_const; lra.
Qed.
Lemma near_apx e t (x : double) X : near e x X -> 0 < X -> e <= t * X -> 0 <= t <= 1 / 100 -> apx (102 / 100 * t) x X.
Proof.
  intros (v & V & D) P E Ht. set (u := (v - X) / X).
  assert (Hu : Rabs u <= t).
  { unfold u, Rdiv. rewrite Rabs_mult, Rabs_inv, (Rabs_pos_eq X) by lra.
    apply Rmult_le_reg_r with X; auto. rewrite Rmult_assoc, Rinv_l, Rmult_1_r by lra. lra. }
  destruct (ln_1p u t Hu ltac:(lra)) as (P1 & Hl). exists (ln (1 + u)). split; auto.
  rewrite exp_ln by lra. rewrite V. f_equal. unfold u. field. lra.
Qed.
Lemma apx_within e k (x : double) v : apx e x v -> e <= 1 / 10 -> 10 / 9 * e <= k -> within k x v.
Proof.
  intros A E K. destruct (apx_error _ _ _ A E) as (w & W & D). exists w. split; [exact W|].
  pose proof (Rabs_pos v). nra.
Qed.

Section Gate.
Variables (fa fb z w : double) (A B d r : R).
Hypotheses (HA : near (1 / 10 ^ 13) fa A) (HB : near (1 / 10 ^ 13) fb B) (BA : Rabs A <= 4) (BB : Rabs B <= 100).
Hypotheses (HZ : dval z = Fin d) (T : nt d) (U : Rabs d <= 100) (HW : dval w = Fin r) (HR : 1 / 100 <= Rabs r <= 20).

Lemma excess_near : near (29 / 10 ^ 11) (g_excess fa fb z w) (excess A B d r) /\ 0 <= excess A B d r <= 1240.
Proof.
  destruct (line_near np1 lm Acc fa fb z w A B d r HA HB BA BB HZ T U HW HR) as (L & BL).
  unfold g_excess, excess. rewrite Zdp_eq. cbv zeta. set (e := d - (A * Zdp_dB d r + B)).
  assert (Be : Rabs e <= 1240). { unfold e. apply Rle_trans with (100 + 1140); [|lra]. unfold Rminus. apply Rabs_plus_le; auto. now rewrite Rabs_Ropp. }
  assert (N : near (29 / 10 ^ 11) (fsub z (fadd (fmul fa (zdp_of z w)) fb)) e).
  { apply (N_sub np1 lm) with (e1 := 0) (e2 := 28 / 10 ^ 11) (M := 1240); auto; try lra; [now apply N_exact|unfold ud, taud; lra]. }
  destruct N as (v & V & D). rewrite (lt0 _ v V). apply Rabs_le_inv in D, Be. split.
  - destruct (Rltb_spec v 0) as [Lv|Lv].
    + exists 0. split; [reflexivity|]. apply Rabs_le. unfold Rmax. destruct (Rle_dec 0 e); lra.
    + exists v. split; auto. apply Rabs_le. unfold Rmax. destruct (Rle_dec 0 e); lra.
  - unfold Rmax. destruct (Rle_dec 0 e); lra.
Qed.

(** 10^(-excess/10), the share of the rain *)
Definition share : R := Rpower 10 (- excess A B d r / 10).
Lemma share_range : 0 < share <= 1.
Proof.
  destruct excess_near as (_ & E). split; [apply exp_pos|]. unfold share. rewrite <- (Rpower_O 10) by lra.
  unfold Rpower. apply exp_le_mono. pose proof ln10_range. nra.
Qed.
Lemma share_near : near (14 / 10 ^ 11) (fsub (flit 1%Q) (g_icefrac (g_excess fa fb z w))) share.
Proof.
  destruct excess_near as (E & BE). pose proof share_range as SR. unfold g_icefrac.
  assert (Y : near (31 / 10 ^ 12) (fmul (flit (-0.1)%Q) (g_excess fa fb z w)) (- (1 / 10) * excess A B d r)).
  { apply (N_mul np1 lm) with (e1 := 1 / 10 ^ 15) (e2 := 29 / 10 ^ 11) (A := 1 / 10) (B := 1240); auto; try lra.
    - apply (N_lit np1 lm); [cbn [Qnum Qden]; lra| |]; rewrite Rabs_left by lra; unfold ud, taud; lra.
    - rewrite Rabs_left; lra.
    - rewrite Rabs_pos_eq; lra.
    - unfold ud, taud; lra. }
  destruct (ten_near np1 lm Acc _ _ _ Y ltac:(lra)) as (Q & _). { rewrite Rabs_left1; lra. }
  replace (- (1 / 10) * excess A B d r) with (- excess A B d r / 10) in Q by field. fold share in Q.
  pose proof eta_num. pose proof eta_pos.
  destruct (apx_error _ _ _ Q ltac:(lra)) as (q & Vq & Dq). rewrite (Rabs_pos_eq share) in Dq by lra.
  assert (Nq : near (9 / 10 ^ 11) (fpow (flit 10%Q) (fmul (flit (-0.1)%Q) (g_excess fa fb z w))) share).
  { exists q. split; auto. apply Rle_trans with (1 := Dq). nra. }
  assert (N1 : near 0 (flit 1%Q : double) 1) by (apply N_exact; exact one).
  assert (Nf : near (10 / 10 ^ 11) (fsub (flit 1%Q) (fpow (flit 10%Q) (fmul (flit (-0.1)%Q) (g_excess fa fb z w)))) (1 - share)).
  { apply (N_sub np1 lm) with (e1 := 0) (e2 := 9 / 10 ^ 11) (M := 1); auto; try lra; [rewrite Rabs_pos_eq; lra|unfold ud, taud; lra]. }
  replace share with (1 - (1 - share)) by ring.
  apply (N_sub np1 lm) with (e1 := 0) (e2 := 10 / 10 ^ 11) (M := 1); auto; try lra; [rewrite Rabs_pos_eq; lra|unfold ud, taud; lra].
Qed.

Lemma zh_fact : exists v, dval (lin z) = Fin v /\ Rabs (v - Zh d) <= 1 / 10 ^ 14 * Zh d /\ pb 40 (Zh d).
Proof.
  destruct (lin_apx np1 lm (acc_pow lm Acc) z d HZ T U) as (L & P). pose proof eta_num. pose proof eta_pos.
  destruct (apx_error _ _ _ L ltac:(lra)) as (v & V & D). exists v. split; auto. split; auto.
  pose proof (Zlin_pos d). rewrite (Rabs_pos_eq (Zlin d)) in D by lra. rewrite Zh_eq. nra.
Qed.
Lemma small_tau x : pb 40 x -> taud <= 1 / 10 ^ 15 * x /\ x <= 10 ^ 20.
Proof.
  intros (L & G). pose proof e40 as E0. pose proof (exp_pos 40). assert (E : exp 40 <= 10 ^ 20) by lra.
  split; [|lra]. apply Rle_trans with (1 / 10 ^ 15 * exp (Ropp 40)); [|apply Rmult_le_compat_l; lra].
  rewrite exp_Ropp. assert (/ 10 ^ 20 <= / exp 40) by (apply Rinv_le_contravar; [apply exp_pos|auto]). unfold taud. lra.
Qed.

Lemma zrain_near : near (15 / 10 ^ 11 * Zh d) (g_zrain fa fb z w) (Z_rain A B d r).
Proof.
  destruct zh_fact as (h & Vh & Dh & Ph). destruct share_near as (s & Vs & Ds). pose proof share_range as SR.
  destruct (small_tau _ Ph) as (St & Sb). pose proof (pb_pos _ _ Ph) as Pp.
  unfold g_zrain. pose proof (r_mul np1 lm _ _ _ _ Vh Vs) as V.
  unfold Z_rain. fold share.
  assert (D : Rabs (h * s - Zh d * share) <= 141 / 10 ^ 12 * Zh d).
  { replace (h * s - Zh d * share) with ((h - Zh d) * s + Zh d * (s - share)) by ring.
    apply Rle_trans with (1 / 10 ^ 14 * Zh d * 2 + Zh d * (14 / 10 ^ 11)); [|lra].
    apply Rabs_plus_le; rewrite Rabs_mult; apply Rmult_le_compat; auto using Rabs_pos.
    - apply Rabs_le_inv in Ds. apply Rabs_le. lra.
    - rewrite Rabs_pos_eq; lra. }
  destruct (drnd_err (h * s)) as (y & Y & Dy).
  { apply Rle_trans with (10 ^ 20 * 10 ^ 20).
    - rewrite Rabs_mult. apply Rmult_le_compat; auto using Rabs_pos.
      + apply Rabs_le_inv in Dh. apply Rabs_le. split; [nra|].
        destruct Ph as (_ & G). pose proof e40. lra.
      + apply Rabs_le_inv in Ds. apply Rabs_le. assert (1 <= 10 ^ 20) by (apply pow_R1_Rle; lra). lra.
    - rewrite <- pow_add. apply Rle_pow; [lra|]. apply Nat.leb_le. reflexivity. }
  exists y. split; [exact (eq_trans V Y)|].
  assert (Bh : Rabs (h * s) <= 2 * Zh d).
  { replace (h * s) with ((h * s - Zh d * share) + Zh d * share) by ring. apply Rle_trans with (141 / 10 ^ 12 * Zh d + Zh d * 1); [|lra].
    apply Rabs_plus_le; auto. rewrite Rabs_mult, (Rabs_pos_eq (Zh d)), (Rabs_pos_eq share) by lra. apply Rmult_le_compat_l; lra. }
  replace (y - Zh d * share) with ((y - h * s) + (h * s - Zh d * share)) by ring.
  apply Rle_trans with ((ud * (2 * Zh d) + 1 / 10 ^ 15 * Zh d) + 141 / 10 ^ 12 * Zh d); [|unfold ud; lra].
  apply Rabs_plus_le; auto. apply Rle_trans with (1 := Dy). unfold ud. nra.
Qed.

(** ** the threshold and the decision *)
Variables (h hf : double) (v f : R).
Hypotheses (Hh : dval h = Fin v) (Hf : dval hf = Fin f) (Bv : Rabs v <= 1000) (Bf : Rabs f <= 1000).

Lemma thresh_near : near (5 / 10 ^ 11) (g_thresh h hf) (delta_threshold f v) /\ 11 / 10 <= delta_threshold f v <= 5400.
Proof.
  assert (Bv' := Bv). assert (Bf' := Bf). apply Rabs_le_inv in Bv', Bf'.
  unfold g_thresh, delta_threshold.
  assert (C : fle h hf = Rleb v f) by (change (Bleb h hf = Rleb v f); rewrite val_le, Hh, Hf; reflexivity).
  rewrite C. destruct (Rleb_spec v f) as [L|L], (Rle_dec v f); try lra; split; try lra.
  - assert (S : near (1 / 10 ^ 14) (fdiv (fsub (flit 0%Q) (flit 8%Q)) (flit 3%Q) : double) (- 8 / 3)).
    { assert (D : dval (fsub (flit 0%Q) (flit 8%Q) : double) = Fin (IZR (-8))).
      { refine (eq_trans (r_sub np1 lm _ _ 0 8 z0 (lit_int 8 ltac:(lia))) _).
        replace (0 - 8) with (IZR (-8)) by lra. apply rnd_int; [exact p53|exact e1024|cbn; lia]. }
      apply (N_rnd 0 _ _ (IZR (-8) / 3) 3); try lra.
      - exact (r_div np1 lm _ _ _ 3 D (lit_int 3 ltac:(lia)) ltac:(lra)).
      - replace (IZR (-8) / 3 - - 8 / 3) with 0 by lra. rewrite Rabs_R0; lra.
      - apply Rabs_le; lra.
      - unfold ud, taud; lra. }
    assert (D : near (21 / 10 ^ 13) (fsub h hf) (v - f)).
    { apply (N_sub np1 lm) with (e1 := 0) (e2 := 0) (M := 2000); try (now apply N_exact); try lra; [apply Rabs_le; lra|unfold ud, taud; lra]. }
    replace (8 / 3 * (f - v) + 2) with (- 8 / 3 * (v - f) + 2) by field.
    apply (N_add np1 lm) with (e1 := 33 / 10 ^ 12) (e2 := 0) (M := 5400); try lra.
    + apply (N_mul np1 lm) with (e1 := 1 / 10 ^ 14) (e2 := 21 / 10 ^ 13) (A := 3) (B := 2000); auto; try lra.
      * apply Rabs_le; lra.
      * apply Rabs_le; lra.
      * unfold ud, taud; lra.
    + apply N_exact. exact (lit_int 2 ltac:(lia)).
    + apply Rabs_le; lra.
    + unfold ud, taud. lra.
  - replace (11 / 10) with (0 + 11 / 10) by ring.
    apply (N_add np1 lm) with (e1 := 0) (e2 := 1 / 10 ^ 14) (M := 2); try lra.
    + apply N_exact. reflexivity.
    + apply (N_lit np1 lm); [cbn [Qnum Qden]; lra| |]; rewrite Rabs_pos_eq by lra; unfold ud, taud; lra.
    + rewrite Rabs_pos_eq; lra.
    + unfold ud, taud; lra.
Qed.

Let c : double := fsub (g_excess fa fb z w) (g_thresh h hf).
Let margin : R := excess A B d r - delta_threshold f v.
Lemma check_near : near (5 / 10 ^ 10) c margin.
Proof.
  destruct excess_near as (E & BE). destruct thresh_near as (Th & BT).
  apply (N_sub np1 lm) with (e1 := 29 / 10 ^ 11) (e2 := 5 / 10 ^ 11) (M := 6640); auto; try lra; [apply Rabs_le; lra|unfold ud, taud; lra].
Qed.
Lemma check_above : 1 / 10 ^ 9 <= margin -> fle (flit 0%Q) c = true.
Proof.
  intro M. destruct check_near as (y & Y & D). rewrite (ge0 _ y Y). apply Rleb_true. apply Rabs_le_inv in D. lra.
Qed.
Lemma check_below : margin <= - (1 / 10 ^ 9) -> fle (flit 0%Q) c = false /\ flt c (flit 0%Q) = true.
Proof.
  intro M. destruct check_near as (y & Y & D). rewrite (ge0 _ y Y), (lt0 _ y Y). apply Rabs_le_inv in D.
  split; [apply Rleb_false|apply Rltb_true]; lra.
Qed.
Lemma zero_mass : dval (fmul z (flit 0%Q) : double) = Fin 0.
Proof. refine (eq_trans (r_mul np1 lm z _ d 0 HZ z0) _). apply rnd_zero. ring. Qed.

(** ** water *)
Lemma water_negative : r < 0 -> dval (g_water fa fb (g_thresh h hf) z w) = Fin 0.
Proof.
  intro N. unfold g_water. cbv zeta. rewrite (lt0 w r HW). replace (Rltb r 0) with true by (symmetry; now apply Rltb_true). reflexivity.
Qed.
Lemma share_K : share * Rpower 10 (excess A B d r / 10) = 1.
Proof. unfold share. rewrite <- Rpower_plus. replace (- excess A B d r / 10 + excess A B d r / 10) with 0 by field. apply Rpower_O. lra. Qed.
Lemma K_ge : 1 <= Rpower 10 (excess A B d r / 10).
Proof.
  destruct excess_near as (_ & E). rewrite <- (Rpower_O 10) at 1 by lra. unfold Rpower. apply exp_le_mono. pose proof ln10_range. nra.
Qed.
Lemma K_le : excess A B d r <= 60 -> Rpower 10 (excess A B d r / 10) <= 10 ^ 6.
Proof.
  intro L. rewrite <- (Rpower_pow 6 10) by lra. unfold Rpower. apply exp_le_mono. pose proof ln10_range.
  replace (INR 6) with 6 by (simpl; lra). nra.
Qed.

Lemma water_above : 0 <= r -> 1 / 10 ^ 9 <= margin -> excess A B d r <= 60 ->
  within (1 / 10 ^ 9 * Rpower 10 (excess A B d r / 10)) (g_water fa fb (g_thresh h hf) z w) (water_of (Z_rain A B d r)).
Proof.
  intros Pr M L. unfold g_water. fold c. cbv zeta. rewrite (lt0 w r HW), (check_above M).
  replace (Rltb r 0) with false by (symmetry; apply Rltb_false; lra).
  pose proof K_ge as K1. pose proof (K_le L) as K2. pose proof share_K as SK. pose proof share_range as SR.
  set (K := Rpower 10 (excess A B d r / 10)) in *.
  destruct zh_fact as (_ & _ & _ & PZ). pose proof (pb_pos _ _ PZ) as PPZ.
  assert (PR : pb 55 (Z_rain A B d r)).
  { unfold Z_rain. fold share. replace 55 with (40 + 15) by lra. apply pb_mul; auto.
    unfold share, Rpower, pb. pose proof ln10_range. destruct excess_near as (_ & E). split; apply exp_le_mono; nra. }
  pose proof (pb_pos _ _ PR) as PPR. pose proof eta_num as En. pose proof eta_pos as Ep.
  assert (AR : ab (153 / 10 ^ 12 * K) 55 (g_zrain fa fb z w) (Z_rain A B d r)).
  { split; auto. replace (153 / 10 ^ 12 * K) with (102 / 100 * (15 / 10 ^ 11 * K)) by field.
    apply near_apx with (15 / 10 ^ 11 * Zh d); auto; [exact zrain_near| |lra].
    unfold Z_rain. fold share. right. transitivity (15 / 10 ^ 11 * Zh d * (share * K)); [rewrite SK|]; ring. }
  assert (P4 := B_pow _ _ _ (4 / 7) _ _ _ _ AR (B_frac 4 7 ltac:(lia) ltac:(lia)) ltac:(lra) ltac:(lra) ltac:(rewrite Rabs_pos_eq; lra) ltac:(lra) ltac:(lra)).
  assert (C := B_mul _ _ _ _ _ _ _ _ (B_lit 3.44%Q (344 / 100) 10 ltac:(cbn [Qnum Qden]; lra) ltac:(apply pb_const; lra) ltac:(lra)) (B_ten (-3) ltac:(lia)) ltac:(lra) ltac:(rewrite Rabs_left; lra)).
  destruct (B_mul _ _ _ _ _ _ _ _ C P4 ltac:(lra) ltac:(rewrite Rabs_left; lra)) as (R & _).
  unfold water_of. apply apx_within with (1 := R); lra.
Qed.

Lemma water_below : 0 <= r -> margin <= - (1 / 10 ^ 9) ->
  within (1 / 10 ^ 12) (g_water fa fb (g_thresh h hf) z w) (water_all_rain (Zh d) (Zv d r)).
Proof.
  intros Pr M. destruct (check_below M) as (C1 & C2). unfold g_water. fold c. cbv zeta. rewrite (lt0 w r HW), C1, C2.
  replace (Rltb r 0) with false by (symmetry; apply Rltb_false; lra).
  pose proof eta_num as En. pose proof eta_pos as Ep.
  assert (AZ : ab (47 * eta) 40 (lin z) (Zh d)) by exact (lin_apx np1 lm (acc_pow lm Acc) z d HZ T U).
  assert (AW : ab (47 * eta) 40 (lin w) (Zlin r)) by exact (lin_apx np1 lm (acc_pow lm Acc) w r HW (nt_of r (proj1 HR)) ltac:(lra)).
  assert (AV := B_div _ _ _ _ _ _ _ _ AZ AW ltac:(lra) ltac:(lra)). change (Zh d / Zlin r) with (Zv d r) in AV.
  assert (AQ : ab (143 * eta) 40 (fdiv (lin z) (fdiv (lin z) (lin w))) (Zh d / Zv d r)).
  { destruct (B_div _ _ _ _ _ _ _ _ AZ AV ltac:(lra) ltac:(lra)) as (Q & _). split; [apply apx_le with (1 := Q); lra|].
    replace (Zh d / Zv d r) with (Zlin r); [exact (proj2 AW)|]. unfold Zh, Zv, Zlin. pose proof (Zlin_pos d). pose proof (Zlin_pos r).
    unfold Zlin in *. field. split; lra. }
  assert (L886 : apx eta (flit 0.886%Q : double) (886 / 1000)) by (apply (apx_lit 0.886%Q); cbn [Qnum Qden]; apply pb_safe with 10; [apply pb_const; lra|lra]).
  assert (L4 : apx eta (flit (-4.159)%Q : double) (- 4159 / 1000)).
  { assert (E : IZR (Qnum (-4.159)%Q) / IZR (Zpos (Qden (-4.159)%Q)) = - 4159 / 1000) by (cbn [Qnum Qden]; lra).
    rewrite <- E. apply apx_lit. rewrite E. apply pb_safe_abs with 10; [|lra]. apply pb_const. rewrite Rabs_left; lra. }
  assert (P1 := B_pow _ _ _ 1 _ _ _ _ AZ L886 ltac:(lra) ltac:(lra) ltac:(rewrite Rabs_pos_eq; lra) ltac:(lra) ltac:(lra)).
  assert (P2 := B_pow _ _ _ (42 / 10) _ _ _ _ AQ L4 ltac:(lra) ltac:(lra) ltac:(rewrite Rabs_left; lra) ltac:(lra) ltac:(lra)).
  assert (C := B_mul _ _ _ _ _ _ _ _ (B_lit 0.70%Q (70 / 100) 10 ltac:(cbn [Qnum Qden]; lra) ltac:(apply pb_const; lra) ltac:(lra)) (B_ten (-3) ltac:(lia)) ltac:(lra) ltac:(rewrite Rabs_left; lra)).
  assert (C' := B_mul _ _ _ _ _ _ _ _ C P1 ltac:(lra) ltac:(rewrite Rabs_left; lra)).
  destruct (B_mul _ _ _ _ _ _ _ _ C' P2 ltac:(lra) ltac:(rewrite Rabs_left; lra)) as (R & _).
  unfold water_all_rain. apply apx_within with (1 := R); lra.
Qed.

(** ** ice *)
Lemma ice_below : margin <= - (1 / 10 ^ 9) -> dval (g_ice fa fb (g_thresh h hf) z w) = Fin 0.
Proof.
  intro M. destruct (check_below M) as (C1 & _). unfold g_ice. fold c. cbv zeta. rewrite C1. exact zero_mass.
Qed.
Lemma Zice_apx : 11 / 10 <= excess A B d r -> ab (1 / 10 ^ 9) 45 (fsub (lin z) (g_zrain fa fb z w)) (Z_ice A B d r).
Proof.
  intro L. destruct zh_fact as (hh & Vh & Dh & PZ). pose proof (pb_pos _ _ PZ) as PPZ.
  destruct zrain_near as (y & Vy & Dy). destruct (small_tau _ PZ) as (St & Sb). pose proof share_range as SR.
  assert (S8 : share <= 82 / 100).
  { unfold share, Rpower. pose proof ln10_range. apply Rle_trans with (exp (Ropp (22 / 100))).
    - apply exp_le_mono. nra.
    - rewrite exp_Ropp. pose proof (exp_ge (22 / 100)). apply Rle_trans with (/ (1 + 22 / 100)); [apply Rinv_le_contravar; lra|lra]. }
  assert (ZI : 18 / 100 * Zh d <= Z_ice A B d r <= Zh d).
  { unfold Z_ice, Z_rain. fold share. nra. }
  pose proof (r_sub np1 lm _ _ _ _ Vh Vy) as V.
  assert (D : Rabs (hh - y - Z_ice A B d r) <= 151 / 10 ^ 12 * Zh d).
  { unfold Z_ice. replace (hh - y - (Zh d - Z_rain A B d r)) with ((hh - Zh d) + - (y - Z_rain A B d r)) by ring.
    apply Rle_trans with (1 / 10 ^ 14 * Zh d + 15 / 10 ^ 11 * Zh d); [|lra]. apply Rabs_plus_le; auto. now rewrite Rabs_Ropp. }
  assert (Bs : Rabs (hh - y) <= 2 * Zh d).
  { replace (hh - y) with ((hh - y - Z_ice A B d r) + Z_ice A B d r) by ring. apply Rle_trans with (151 / 10 ^ 12 * Zh d + Zh d); [|lra].
    apply Rabs_plus_le; auto. rewrite Rabs_pos_eq; lra. }
  destruct (drnd_err (hh - y)) as (x & X & Dx).
  { apply Rle_trans with (1 := Bs). apply Rle_trans with (10 ^ 21); [|apply Rle_pow; [lra|apply Nat.leb_le; reflexivity]].
    replace (10 ^ 21) with (10 * 10 ^ 20) by (simpl; ring). assert (1 <= 10 ^ 20) by (apply pow_R1_Rle; lra). lra. }
  split.
  - apply apx_le with (102 / 100 * (95 / 10 ^ 11)); [|lra].
    apply near_apx with (16 / 10 ^ 11 * Zh d); try lra.
    exists x. split; [exact (eq_trans V X)|].
    replace (x - Z_ice A B d r) with ((x - (hh - y)) + (hh - y - Z_ice A B d r)) by ring.
    apply Rle_trans with ((ud * (2 * Zh d) + 1 / 10 ^ 15 * Zh d) + 151 / 10 ^ 12 * Zh d); [|unfold ud; lra].
    apply Rabs_plus_le; auto. apply Rle_trans with (1 := Dx). unfold ud in *. nra.
  - destruct PZ as (P1 & P2). split.
    + apply Rle_trans with (2 := proj1 ZI). replace (Ropp 45) with (Ropp 5 + Ropp 40) by lra. rewrite exp_plus.
      apply Rmult_le_compat; auto; try (left; apply exp_pos). rewrite exp_Ropp. pose proof (exp_ge 5).
      apply Rle_trans with (/ 6); [apply Rinv_le_contravar; lra|lra].
    + apply Rle_trans with (1 := proj2 ZI). apply Rle_trans with (1 := P2). apply exp_le_mono. lra.
Qed.
Lemma ice_above : 1 / 10 ^ 9 <= margin ->
  within (1 / 10 ^ 9) (g_ice fa fb (g_thresh h hf) z w) (ice_of (Z_ice A B d r)).
Proof.
  intro M. unfold g_ice. fold c. cbv zeta. rewrite (check_above M).
  destruct thresh_near as (_ & BT). assert (L : 11 / 10 <= excess A B d r) by (unfold margin in M; lra).
  pose proof (Zice_apx L) as ZI. pose proof eta_num as En. pose proof eta_pos as Ep.
  assert (C1 := B_mul _ _ _ _ _ _ _ _ (B_lit 5.28%Q (528 / 100) 10 ltac:(cbn [Qnum Qden]; lra) ltac:(apply pb_const; lra) ltac:(lra)) (B_ten (-18) ltac:(lia)) ltac:(lra) ltac:(rewrite Rabs_left; lra)).
  assert (C2 := B_mul _ _ _ _ _ _ _ _ C1 ZI ltac:(lra) ltac:(rewrite Rabs_left; lra)).
  assert (C3 := B_div _ _ _ _ _ _ _ _ C2 (B_lit 720%Q 720 10 ltac:(cbn [Qnum Qden]; lra) ltac:(apply pb_const; lra) ltac:(lra)) ltac:(lra) ltac:(rewrite Rabs_left; lra)).
  assert (C4 := B_pow _ _ _ (4 / 7) _ _ _ _ C3 (B_frac 4 7 ltac:(lia) ltac:(lia)) ltac:(lra) ltac:(lra) ltac:(rewrite Rabs_pos_eq; lra) ltac:(lra) ltac:(rewrite Rabs_left; lra)).
  assert (Ppi : ab eta 10 fpi PI).
  { destruct (ap_pi lm Acc) as (P & _). split; [replace eta with (IZR 1 * eta) by ring; exact P|].
    apply pb_const. pose proof PI_RGT_0. pose proof PI2_3_2. pose proof PI_4. lra. }
  assert (D1 := B_mul _ _ _ _ _ _ _ _ (B_lit 1000%Q 1000 10 ltac:(cbn [Qnum Qden]; lra) ltac:(apply pb_const; lra) ltac:(lra)) Ppi ltac:(lra) ltac:(lra)).
  assert (D2 := B_mul _ _ _ _ _ _ _ _ D1 (B_lit 917%Q 917 10 ltac:(cbn [Qnum Qden]; lra) ltac:(apply pb_const; lra) ltac:(lra)) ltac:(lra) ltac:(lra)).
  assert (D3 := B_mul _ _ _ _ _ _ _ _ (B_lit 4%Q 4 10 ltac:(cbn [Qnum Qden]; lra) ltac:(apply pb_const; lra) ltac:(lra)) (B_ten 6 ltac:(lia)) ltac:(lra) ltac:(rewrite Rabs_pos_eq; lra)).
  assert (D4 := B_pow _ _ _ (3 / 7) _ _ _ _ D3 (B_frac 3 7 ltac:(lia) ltac:(lia)) ltac:(lra) ltac:(lra) ltac:(rewrite Rabs_pos_eq; lra) ltac:(lra) ltac:(rewrite Rabs_pos_eq; lra)).
  assert (D5 := B_mul _ _ _ _ _ _ _ _ D2 D4 ltac:(rewrite Rabs_pos_eq; lra) ltac:(rewrite Rabs_pos_eq; lra)).
  destruct (B_mul _ _ _ _ _ _ _ _ D5 C4 ltac:(rewrite (Rabs_pos_eq 6), (Rabs_left (-18)); lra) ltac:(rewrite (Rabs_pos_eq 6), (Rabs_left (-18)); lra)) as (R & _).
  unfold ice_of. apply apx_within with (1 := R); rewrite (Rabs_pos_eq 6), (Rabs_left (-18)); lra.
Qed.
End Gate.
End Mass.
