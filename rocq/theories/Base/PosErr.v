(** * Relative errors of products, quotients and powers of positive doubles

    [ap n s x r]: the double x is r e^d with |d| <= n eta (eta is 1.01 half
    units in the last place), and r lies between e^-s and e^s.  The counters
    are integers, so side conditions are decided by computation. *)
From Coq Require Import Reals Lra Lia ZArith QArith.
From Flocq Require Import Core IEEE754.BinarySingleNaN.
From Verif Require Import Base.Num Base.XReal Base.Ieee Base.RelErr Spec.IeeeSpec Spec.LibmSpec.
Open Scope R_scope.

#[local] Existing Instances p53 e1024 p24 e128.

Definition ap (n s : Z) (x : double) (r : R) : Prop :=
  apx (IZR n * eta) x r /\ exp (- IZR s) <= r <= exp (IZR s).

Lemma ap_pos n s x r : ap n s x r -> 0 < r.
Proof. intros (_ & L & _). pose proof (exp_pos (- IZR s)). lra. Qed.
Lemma ap_n n s x r : ap n s x r -> (0 <= n)%Z.
Proof. intros (A & _). apply apx_pos in A. pose proof eta_pos. apply le_IZR. nra. Qed.
Lemma ap_s n s x r : ap n s x r -> (0 <= s)%Z.
Proof.
  intros (_ & L & U). apply le_IZR. destruct (Rle_or_lt 0 (IZR s)); auto. exfalso.
  assert (exp (IZR s) < exp (- IZR s)) by (apply exp_increasing; lra). lra.
Qed.
Lemma IZR_eta n k : (n <= k)%Z -> IZR n * eta <= IZR k * eta.
Proof. intro L. apply IZR_le in L. pose proof eta_pos. nra. Qed.
Lemma eta_k n k : (n <= k)%Z -> IZR k <= 900000 -> IZR n * eta <= 1.
Proof. intros L K. pose proof (IZR_eta n k L). pose proof eta_small. pose proof eta_pos. nra. Qed.

Lemma safe_pos s r : exp (- IZR s) <= r <= exp (IZR s) -> (s <= 400)%Z -> safe0 r.
Proof.
  intros (L & U) S. apply IZR_le in S. right. unfold safe. pose proof (exp_pos (- IZR s)). rewrite Rabs_pos_eq by lra.
  split; [apply Rle_trans with (2 := L)|apply Rle_trans with (1 := U)]; apply exp_le_mono; lra.
Qed.

Lemma ap_mul n1 n2 s1 s2 x y a b : ap n1 s1 x a -> ap n2 s2 y b ->
  (n1 + n2 <= 10000)%Z -> (s1 + s2 <= 400)%Z ->
  ap (n1 + n2 + 1) (s1 + s2) (Bmult mode_NE x y) (a * b).
Proof.
  intros (A & La & Ua) (B & Lb & Ub) N S. pose proof (exp_pos (- IZR s1)). pose proof (exp_pos (- IZR s2)).
  assert (G : exp (- IZR (s1 + s2)) <= a * b <= exp (IZR (s1 + s2))).
  { rewrite plus_IZR, Ropp_plus_distr, !exp_plus. split; apply Rmult_le_compat; lra. }
  split; auto. rewrite !plus_IZR. replace ((IZR n1 + IZR n2 + 1) * eta) with (IZR n1 * eta + IZR n2 * eta + eta) by ring.
  apply apx_mul; auto; [|now apply (safe_pos (s1 + s2))].
  rewrite <- Rmult_plus_distr_r, <- plus_IZR. pose proof (eta_k _ _ N ltac:(lra)). lra.
Qed.
Lemma ap_div n1 n2 s1 s2 x y a b : ap n1 s1 x a -> ap n2 s2 y b ->
  (n1 + n2 <= 10000)%Z -> (s1 + s2 <= 400)%Z ->
  ap (n1 + n2 + 1) (s1 + s2) (Bdiv mode_NE x y) (a / b).
Proof.
  intros (A & La & Ua) (B & Lb & Ub) N S. pose proof (exp_pos (- IZR s1)). pose proof (exp_pos (- IZR s2)).
  assert (Ib : exp (- IZR s2) <= / b <= exp (IZR s2)).
  { split; [rewrite exp_Ropp; apply Rinv_le_contravar; lra|].
    rewrite <- (Ropp_involutive (IZR s2)), exp_Ropp. apply Rinv_le_contravar; lra. }
  assert (G : exp (- IZR (s1 + s2)) <= a / b <= exp (IZR (s1 + s2))).
  { rewrite plus_IZR, Ropp_plus_distr, !exp_plus. unfold Rdiv. split; apply Rmult_le_compat; lra. }
  split; auto. rewrite !plus_IZR. replace ((IZR n1 + IZR n2 + 1) * eta) with (IZR n1 * eta + IZR n2 * eta + eta) by ring.
  apply apx_div; auto; [|lra|now apply (safe_pos (s1 + s2))].
  rewrite <- Rmult_plus_distr_r, <- plus_IZR. pose proof (eta_k _ _ N ltac:(lra)). lra.
Qed.

Lemma ln_range a s : exp (- s) <= a <= exp s -> - s <= ln a <= s.
Proof.
  intros (L & U). pose proof (exp_pos (- s)). split.
  - rewrite <- (ln_exp (- s)). destruct L as [L| <-]; [left; apply ln_increasing; lra|lra].
  - rewrite <- (ln_exp s). destruct U as [U| ->]; [left; apply ln_increasing; lra|lra].
Qed.

(** a natural-number power *)
Lemma ap_pow lm n s x a (k : Z) : pow_accurate lm -> ap n s x a -> (0 < k <= 100)%Z -> (n <= 1000)%Z -> (k * s <= 400)%Z ->
  ap (3 + k * n + k * n / 9) (k * s) (lm_pow lm x (b_lit 53 1024 p53 e1024 (inject_Z k))) (a ^ Z.to_nat k).
Proof.
  intros P Hx K N S. pose proof (ap_pos _ _ _ _ Hx) as Pa. pose proof (ap_n _ _ _ _ Hx) as N0. pose proof (ap_s _ _ _ _ Hx) as S0.
  destruct Hx as (A & R). pose proof (ln_range a _ R) as Lr.
  assert (Ek : Rpower a (IZR k) = a ^ Z.to_nat k).
  { rewrite <- Rpower_pow by auto. f_equal. rewrite INR_IZR_INZ, Z2Nat.id by lia. reflexivity. }
  assert (K1 : 1 <= IZR k <= 100) by (split; apply IZR_le; lia).
  pose proof (IZR_le _ _ S) as S1. rewrite mult_IZR in S1. pose proof (IZR_le _ _ N0) as N1. pose proof (IZR_le _ _ N) as N2. pose proof (IZR_le _ _ S0) as S2.
  pose proof eta_small. pose proof eta_pos.
  assert (Lk : Rabs (IZR k * ln a) <= IZR k * IZR s) by (apply Rabs_le; nra).
  rewrite <- Ek. split.
  - apply apx_le with (2 * eta + 10 / 9 * (0 * (IZR k * IZR s) + IZR k * (IZR n * eta))).
    + apply apx_pow; auto; try lra.
      * apply apx_int; lia.
      * nra.
      * rewrite Rabs_pos_eq; lra.
      * assert (IZR n * eta <= 1 / 100) by nra. nra.
    + rewrite !plus_IZR, mult_IZR.
      assert (IZR k * IZR n / 9 <= IZR (k * n / 9) + 1).
      { rewrite <- mult_IZR. pose proof (Z.div_mod (k * n) 9 ltac:(lia)). pose proof (Z.mod_pos_bound (k * n) 9 ltac:(lia)).
        assert (k * n <= 9 * (k * n / 9) + 9)%Z as Q by lia. apply IZR_le in Q. rewrite plus_IZR, (mult_IZR 9) in Q. lra. }
      assert (Hm : 10 / 9 * (IZR k * IZR n) * eta <= (1 + IZR k * IZR n + IZR (k * n / 9)) * eta) by (apply Rmult_le_compat_r; lra).
      lra.
  - unfold Rpower. rewrite mult_IZR. split; apply exp_le_mono; nra.
Qed.

Lemma exp98 n : (9 / 8) ^ n <= exp (INR n / 8).
Proof.
  induction n; [simpl; unfold Rdiv; rewrite Rmult_0_l, exp_0; lra|].
  rewrite S_INR. replace ((INR n + 1) / 8) with (1 / 8 + INR n / 8) by lra. rewrite exp_plus.
  pose proof (exp_ge (1 / 8)). cbn [pow]. apply Rmult_le_compat; try lra. apply pow_le. lra.
Qed.
Lemma exp25 : 10 ^ 10 <= exp 25.
Proof.
  pose proof (exp98 200) as K. replace (INR 200 / 8) with 25 in K by (rewrite INR_IZR_INZ; simpl; lra).
  apply Rle_trans with (2 := K).
  replace 200%nat with (4 * (5 * 10))%nat by reflexivity. rewrite !pow_mult.
  assert (1.6 <= (9 / 8) ^ 4) by (simpl; lra). assert (P5 : 1.6 ^ 5 <= ((9 / 8) ^ 4) ^ 5) by (apply pow_incr; lra).
  assert (10 <= ((9 / 8) ^ 4) ^ 5) by (simpl in *; lra).
  apply pow_incr. lra.
Qed.

(** a decibel number as a factor *)
Lemma ap_db lm (x : double) g : pow_accurate lm -> denotes x g -> g = 0 \/ / 10 ^ 10 <= Rabs g <= 100 ->
  ap 30 25 (lm_pow lm (b_lit 53 1024 p53 e1024 10) (Bdiv mode_NE x (b_lit 53 1024 p53 e1024 10))) (Rpower 10 (g / 10)).
Proof.
  intros P X G.
  assert (L10 : 0 < ln 10 <= 25 / 10).
  { split; [rewrite <- ln_1; apply ln_increasing; lra|]. 
    assert (E : 10 <= exp (25 / 10)).
    { pose proof (exp98 20) as K. replace (INR 20 / 8) with (25 / 10) in K by (rewrite INR_IZR_INZ; simpl; lra).
      apply Rle_trans with (2 := K). replace 20%nat with (2 * 10)%nat by reflexivity. rewrite pow_mult.
      assert (Q : 1.2656 <= (9 / 8) ^ 2) by (simpl; lra).
      apply Rle_trans with (1.2656 ^ 10); [simpl; lra|apply pow_incr; lra]. }
    rewrite <- (ln_exp (25 / 10)). destruct E as [E| <-]; [left; apply ln_increasing; lra|lra]. }
  assert (A : apx (0 + 0 + eta) (Bdiv mode_NE x (b_lit 53 1024 p53 e1024 10)) (g / 10)).
  { apply apx_div; [now apply apx_exact|exact (apx_int 10 ltac:(lia))|lra|lra|].
    destruct G as [-> |(L & U)]; [left; lra|right]. unfold safe, Rdiv. rewrite Rabs_mult, (Rabs_pos_eq (/ 10)) by lra.
    pose proof (exp_ge 400). split; [|lra]. apply Rle_trans with (/ 10 ^ 10 * / 10); [|lra].
    change (exp (-400)) with (exp (Ropp 400)). rewrite exp_Ropp. 
    assert (10 ^ 11 <= exp 400).
    { replace 400 with (25 + (25 + 350)) by lra. rewrite !exp_plus. pose proof exp25. pose proof (exp_ge 350).
      assert (10 ^ 10 * 350 <= exp 25 * exp 350) by (apply Rmult_le_compat; simpl in *; lra).
      assert (1 <= exp 25) by (simpl in *; lra). assert (0 <= exp 25 * exp 350) by (simpl in *; lra). simpl in *. nra. }
    replace (/ 10 ^ 10 * / 10) with (/ 10 ^ 11) by (simpl; lra). apply Rinv_le_contravar; auto. simpl; lra. }
  assert (Gb : Rabs g <= 100) by (destruct G as [->|]; [rewrite Rabs_R0|]; lra).
  apply Rabs_le_inv in Gb. pose proof eta_small. pose proof eta_pos.
  split.
  - apply apx_le with (2 * eta + 10 / 9 * ((0 + 0 + eta) * 25 + 10 * 0)); [|lra].
    apply apx_pow; auto; try lra; [exact (apx_int 10 ltac:(lia))|apply Rabs_le; nra|apply Rabs_le; lra].
  - unfold Rpower. split; apply exp_le_mono; nra.
Qed.

(** inputs between 1e-10 and 1e10 *)
Lemma ap_in (x : double) v : denotes x v -> / 10 ^ 10 <= v <= 10 ^ 10 -> ap 0 25 x v.
Proof.
  intros X (L & U). pose proof exp25 as E. split.
  - replace (IZR 0 * eta) with 0 by ring. now apply apx_exact.
  - split; [|lra]. rewrite exp_Ropp. apply Rle_trans with (2 := L). apply Rinv_le_contravar; auto. simpl; lra.
Qed.
Lemma ap_int (k s : Z) : (1 <= k <= 2 ^ 53)%Z -> (Z.log2_up k <= s)%Z ->
  ap 0 s (b_lit 53 1024 p53 e1024 (inject_Z k)) (IZR k).
Proof.
  intros K S. split; [replace (IZR 0 * eta) with 0 by ring; apply apx_int; lia|].
  assert (K1 : 1 <= IZR k) by (apply IZR_le; lia). pose proof (Z.log2_up_nonneg k) as Z0.
  assert (Hs : 0 <= IZR s) by (apply IZR_le; lia). split.
  - apply Rle_trans with 1; auto. rewrite <- exp_0. apply exp_le_mono. lra.
  - assert (k <= 2 ^ s)%Z as Q. { destruct (Z.eq_dec k 1) as [-> |Nk]; [pose proof (Z.pow_pos_nonneg 2 s); lia|].
      destruct (Z.log2_up_spec k ltac:(lia)) as (_ & U). apply Z.le_trans with (1 := U). apply Z.pow_le_mono_r; lia. }
    apply IZR_le in Q. apply Rle_trans with (1 := Q). rewrite (IZR_Zpower radix2) by lia. rewrite bpow_exp.
    apply exp_le_mono. pose proof ln2_1. pose proof ln2_half. nra.
Qed.
Lemma ap_le n n' s s' x r : ap n s x r -> (n <= n')%Z -> (s <= s')%Z -> ap n' s' x r.
Proof.
  intros (A & L & U) N S. apply IZR_le in S. split; [apply apx_le with (1 := A); now apply IZR_eta|].
  split; [apply Rle_trans with (2 := L)|apply Rle_trans with (1 := U)]; apply exp_le_mono; lra.
Qed.

(** from and to [within] *)
Lemma within_apx k x v : within (k * bpow radix2 (-53)) x v -> v <> 0 -> 0 <= k <= 4 -> apx (k * eta) x v.
Proof.
  intros (w & W & D) V K. pose proof bp53 as B. pose proof (bpow_gt_0 radix2 (-53)) as B0.
  set (t := (w - v) / v).
  assert (T : Rabs t <= k * bpow radix2 (-53)).
  { unfold t, Rdiv. rewrite Rabs_mult, Rabs_inv. pose proof (Rabs_pos_lt v V).
    apply Rmult_le_reg_r with (Rabs v); auto. rewrite Rmult_assoc, Rinv_l by lra. lra. }
  assert (Tb : Rabs t <= 4 / 1000000) by nra. apply Rabs_le_inv in Tb.
  exists (ln (1 + t)). split.
  - assert (L : forall y, 0 < y -> ln y <= y - 1).
    { intros y Hy. destruct (Rle_or_lt (ln y) (y - 1)); auto. exfalso. pose proof (exp_ge (ln y)). rewrite exp_ln in * by auto. lra. }
    pose proof (L (1 + t) ltac:(lra)) as U. pose proof (L (/ (1 + t))) as Lo. rewrite ln_Rinv in Lo by lra.
    specialize (Lo ltac:(apply Rinv_0_lt_compat; lra)).
    assert (/ (1 + t) - 1 <= 101 / 100 * Rabs t).
    { assert (E : / (1 + t) - 1 = - t * / (1 + t)) by (field; lra). rewrite E. pose proof (Rle_abs (- t)) as Q. rewrite Rabs_Ropp in Q.
      assert (I1 : 0 < / (1 + t)) by (apply Rinv_0_lt_compat; lra).
      assert (I2 : / (1 + t) <= 101 / 100) by (replace (101/100) with (/ (100/101)) by lra; apply Rinv_le_contravar; lra).
      pose proof (Rabs_pos t). nra. }
    pose proof (Rle_abs t). pose proof (Rabs_pos t). unfold eta. apply Rabs_le. split; nra.
  - rewrite exp_ln by lra. unfold denotes in W. rewrite W. f_equal. unfold t. now field.
Qed.
Lemma ap_within n s k x v : ap n s x v -> (n <= k)%Z -> (113 * k <= 100000)%Z ->
  within (IZR k * (113 / 100 * bpow radix2 (-53))) x v.
Proof.
  intros (A & _) N K. pose proof eta_small. pose proof eta_pos. pose proof (IZR_eta n k N).
  pose proof (IZR_le _ _ K) as K1. rewrite mult_IZR in K1.
  destruct (apx_error _ _ _ A) as (w & W & D); [nra|]. exists w. split; auto.
  apply Rle_trans with (1 := D). apply Rmult_le_compat_r; [apply Rabs_pos|].
  apply Rle_trans with (10 / 9 * (IZR k * eta)); [nra|]. unfold eta. pose proof (bpow_gt_0 radix2 (-53)).
  pose proof (apx_pos _ _ _ A). assert (0 <= IZR k) by nra. 
  assert (10 / 9 * (IZR k * (101 / 100 * bpow radix2 (-53))) = IZR k * (1010/900 * bpow radix2 (-53))) by field.
  rewrite H5. apply Rmult_le_compat_l; nra.
Qed.
Lemma within_le e e' x v : within e x v -> e <= e' -> within e' x v.
Proof. intros (w & W & D) L. exists w. split; auto. pose proof (Rabs_pos v). nra. Qed.
