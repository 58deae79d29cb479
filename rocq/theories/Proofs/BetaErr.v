(** How the membership function moves when its arguments move (real analysis). *)
From Coq Require Import Reals Lra Lia.
From Flocq Require Import Core.
From Verif Require Import Base.XReal Spec.HidSpec Base.RelErr.
Open Scope R_scope.

(** membership as a function of the normalised distance *)
Definition bet (b u : R) : R := 1 / (1 + pow0 (u ^ 2) b).

Lemma sq_pos u : u <> 0 -> 0 < u ^ 2.
Proof. intro N. replace (u ^ 2) with (Rsqr u) by (unfold Rsqr; ring). now apply Rsqr_pos_lt. Qed.
Lemma pow0_ge y b : 0 <= pow0 y b.
Proof. unfold pow0. destruct (Req_EM_T y 0); [lra|left; apply exp_pos]. Qed.
Lemma pow0_abs u b : u <> 0 -> pow0 (u ^ 2) b = Rpower (Rabs u) (2 * b).
Proof.
  intro N. pose proof (sq_pos u N). unfold pow0. destruct (Req_EM_T (u ^ 2) 0); [lra|].
  rewrite <- (pow2_abs u), <- (Rpower_pow 2) by now apply Rabs_pos_lt.
  rewrite Rpower_mult. f_equal.
Qed.
Lemma bet_0 b : bet b 0 = 1.
Proof. unfold bet, pow0. replace (0 ^ 2) with 0 by ring. destruct (Req_EM_T 0 0); [lra|lra]. Qed.
Lemma bet_abs b u : u <> 0 -> bet b u = 1 / (1 + Rpower (Rabs u) (2 * b)).
Proof. intro. unfold bet. now rewrite pow0_abs. Qed.
Lemma bet_range b u : 0 <= bet b u <= 1.
Proof.
  unfold bet. pose proof (pow0_ge (u ^ 2) b). split.
  - unfold Rdiv. rewrite Rmult_1_l. left. apply Rinv_0_lt_compat. lra.
  - apply Rmult_le_reg_r with (1 + pow0 (u ^ 2) b); [lra|]. unfold Rdiv. rewrite Rmult_assoc, Rinv_l; lra.
Qed.

(** *** scaling: t and t * r *)
Lemma inv_ratio t r : 0 <= t -> 1 <= r -> 0 <= 1 / (1 + t) - 1 / (1 + t * r) <= (r - 1) / 4.
Proof.
  intros T R1. assert (P : 0 < 1 + t) by lra. assert (Q : 0 < 1 + t * r) by nra.
  replace (1 / (1 + t) - 1 / (1 + t * r)) with (t * (r - 1) / ((1 + t) * (1 + t * r))) by (field; lra).
  assert (D : 0 < (1 + t) * (1 + t * r)) by nra.
  assert (M : 0 <= t * (r - 1)) by (apply Rmult_le_pos; lra).
  split.
  - apply Rmult_le_pos; auto. left. now apply Rinv_0_lt_compat.
  - apply Rmult_le_reg_r with ((1 + t) * (1 + t * r)); auto.
    unfold Rdiv at 1. rewrite Rmult_assoc, Rinv_l, Rmult_1_r by lra.
    assert (4 * t <= (1 + t) * (1 + t * r)).
    { assert ((1 + t) * (1 + t) <= (1 + t) * (1 + t * r)) by (apply Rmult_le_compat_l; nra).
      assert (0 <= (1 - t) * (1 - t)) by (replace ((1 - t) * (1 - t)) with (Rsqr (1 - t)) by (unfold Rsqr; ring); apply Rle_0_sqr). lra. }
    assert (0 <= (r - 1) / 4) by lra. nra.
Qed.
Lemma inv_exp t h e : 0 <= t -> Rabs h <= e -> e <= 1 / 10 ->
  Rabs (1 / (1 + t * exp h) - 1 / (1 + t)) <= e / 3.
Proof.
  intros T H L. pose proof (exp_pos h).
  destruct (Rle_or_lt 0 h) as [P|P].
  - assert (1 <= exp h) by (rewrite <- exp_0; now apply exp_le_mono).
    pose proof (inv_ratio t (exp h) T H1). pose proof (exp_near h e H L) as N. apply Rabs_le_inv in N.
    apply Rabs_le. lra.
  - assert (1 <= exp (- h)) by (rewrite <- exp_0; apply exp_le_mono; lra).
    pose proof (inv_ratio (t * exp h) (exp (- h)) ltac:(nra) H1) as I.
    replace (t * exp h * exp (- h)) with t in I by (rewrite exp_Ropp; field; lra).
    assert (H' : Rabs (- h) <= e) by now rewrite Rabs_Ropp.
    pose proof (exp_near (- h) e H' L) as N. apply Rabs_le_inv in N. apply Rabs_le. lra.
Qed.

(** *** a relative change of u *)
Lemma ln_le y : 0 < y -> ln y <= y - 1.
Proof. intro Hy. pose proof (exp_ge (ln y)) as G. rewrite exp_ln in G by auto. lra. Qed.
Lemma ln_1p e A : Rabs e <= A -> A <= 1 / 100 -> 0 < 1 + e /\ Rabs (ln (1 + e)) <= 102 / 100 * A.
Proof.
  intros H L. pose proof (Rabs_pos e). apply Rabs_le_inv in H. split; [lra|].
  pose proof (ln_le (1 + e) ltac:(lra)) as U. 
  assert (0 < / (1 + e)) by (apply Rinv_0_lt_compat; lra). 
  pose proof (ln_le (/ (1 + e)) ltac:(lra)) as D. rewrite ln_Rinv in D by lra.
  assert (/ (1 + e) - 1 = - e * / (1 + e)) by (field; lra).
  assert (/ (1 + e) <= 100 / 99). { replace (100 / 99) with (/ (99 / 100)) by lra. apply Rinv_le_contravar; lra. }
  assert (I1 : forall z, 0 < z -> z <= 100/99 -> -e * z <= 102 / 100 * A).
  { intros z Z1 Z2. destruct (Rle_or_lt 0 e); [nra|]. destruct (Rle_or_lt z 1); nra. }
  apply Rabs_le. split; [|lra]. specialize (I1 (/ (1 + e)) H1 H3). lra.
Qed.
Lemma bet_rel b u v A : 0 <= b -> Rabs (v - u) <= A * Rabs u -> 0 <= A -> A <= 1 / 100 -> b * A <= 1 / 100 ->
  Rabs (bet b v - bet b u) <= b * A.
Proof.
  intros B H A0 A1 BA. destruct (Req_dec u 0) as [->|N].
  - rewrite Rabs_R0 in H. assert (v = 0). { rewrite Rminus_0_r, Rmult_0_r in H. pose proof (Rabs_pos v).
      destruct (Req_dec v 0); auto. pose proof (Rabs_pos_lt v H1). lra. } subst.
    unfold Rminus. rewrite Rplus_opp_r, Rabs_R0. nra.
  - set (e := (v - u) / u). assert (Ev : v = u * (1 + e)) by (unfold e; field; auto).
    assert (He : Rabs e <= A).
    { unfold e, Rdiv. rewrite Rabs_mult, Rabs_inv. pose proof (Rabs_pos_lt u N).
      apply Rmult_le_reg_r with (Rabs u); auto. rewrite Rmult_assoc, Rinv_l, Rmult_1_r by lra. exact H. }
    destruct (ln_1p e A He A1) as (P & Le).
    assert (Nv : v <> 0) by (rewrite Ev; apply Rmult_integral_contrapositive; split; [auto|lra]).
    rewrite !bet_abs by auto. rewrite Ev, Rabs_mult, (Rabs_pos_eq (1 + e)) by lra.
    pose proof (Rabs_pos_lt u N) as Pu.
    replace (Rpower (Rabs u * (1 + e)) (2 * b)) with (Rpower (Rabs u) (2 * b) * exp (2 * b * ln (1 + e))).
    2:{ unfold Rpower. rewrite ln_mult by auto. rewrite <- exp_plus. f_equal. ring. }
    assert (Hh : Rabs (2 * b * ln (1 + e)) <= 2 * b * (102 / 100 * A)).
    { rewrite Rabs_mult, (Rabs_pos_eq (2 * b)) by lra. apply Rmult_le_compat_l; lra. }
    assert (L1 : 2 * b * (102 / 100 * A) <= 1 / 10) by lra.
    assert (P0 : 0 <= Rpower (Rabs u) (2 * b)) by (left; apply exp_pos).
    pose proof (inv_exp _ _ _ P0 Hh L1). nra.
Qed.

(** *** an absolute change of u *)
Lemma Rpower_le_base x y c : 0 < x <= y -> 0 <= c -> Rpower x c <= Rpower y c.
Proof. intros. apply Rle_Rpower_l; lra. Qed.
Lemma Rp1 c : Rpower 1 c = 1.
Proof. unfold Rpower. rewrite ln_1, Rmult_0_r. apply exp_0. Qed.
Lemma lip_pos c v u : 1 <= c -> 0 < v -> v < u ->
  0 <= 1 / (1 + Rpower v c) - 1 / (1 + Rpower u c) <= c * (u - v).
Proof.
  intros C V U. 
  destruct (MVT_cor2 (fun x => Rpower x c) (fun x => c * Rpower x (c - 1)) v u U) as (xi & E & X1 & X2).
  { intros x Hx. apply derivable_pt_lim_power. lra. }
  set (t := Rpower v c) in *. set (w := Rpower u c) in *.
  assert (T : 0 < t) by apply exp_pos. assert (W : 0 < w) by apply exp_pos.
  replace (1 / (1 + t) - 1 / (1 + w)) with ((w - t) / ((1 + t) * (1 + w))) by (field; lra).
  rewrite E. assert (D : 0 < (1 + t) * (1 + w)) by nra.
  assert (X : 0 < Rpower xi (c - 1)) by apply exp_pos.
  assert (Xu : Rpower xi (c - 1) <= 1 + w).
  { apply Rle_trans with (Rpower u (c - 1)). { apply Rpower_le_base; lra. }
    destruct (Rle_or_lt u 1).
    - apply Rle_trans with 1; [|lra]. pose proof (Rpower_le_base u 1 (c - 1) ltac:(lra) ltac:(lra)) as Z. now rewrite Rp1 in Z.
    - apply Rle_trans with w; [|lra]. unfold w. apply Rle_Rpower; lra. }
  split.
  - apply Rmult_le_pos; [|left; now apply Rinv_0_lt_compat]. apply Rmult_le_pos; [nra|lra].
  - apply Rmult_le_reg_r with ((1 + t) * (1 + w)); auto.
    unfold Rdiv at 1. rewrite (Rmult_assoc (c * _ * _)), Rinv_l, Rmult_1_r by lra.
    replace (c * Rpower xi (c - 1) * (u - v)) with (c * (u - v) * Rpower xi (c - 1)) by ring.
    apply Rmult_le_compat_l; [nra|]. nra.
Qed.
Lemma lip_zero c u : 1 <= c -> 0 < u -> 0 <= 1 - 1 / (1 + Rpower u c) <= c * u.
Proof.
  intros C U. set (w := Rpower u c). assert (W : 0 < w) by apply exp_pos.
  replace (1 - 1 / (1 + w)) with (w / (1 + w)) by (field; lra). split.
  - apply Rmult_le_pos; [lra|]. left. apply Rinv_0_lt_compat. lra.
  - apply Rmult_le_reg_r with (1 + w); [lra|]. unfold Rdiv. rewrite Rmult_assoc, Rinv_l, Rmult_1_r by lra.
    destruct (Rle_or_lt u 1).
    + assert (w <= u). { unfold w. rewrite <- (Rpower_1 u) at 2 by auto. unfold Rpower. apply exp_le_mono.
        assert (ln u <= 0). { rewrite <- ln_1. destruct H as [H| ->]; [left; now apply ln_increasing|lra]. } nra. }
      assert (u <= c * u) by nra. assert (0 <= c * u * w) by (apply Rmult_le_pos; nra). lra.
    + assert (1 <= c * u) by nra. nra.
Qed.
Lemma bet_abs_sym b u : bet b u = bet b (Rabs u).
Proof. unfold bet. now rewrite pow2_abs. Qed.
Lemma bet_lip_pos b u v : 1 / 2 <= b -> 0 <= v -> v <= u -> Rabs (bet b u - bet b v) <= 2 * b * (u - v).
Proof.
  intros B V U. destruct (Req_dec v u) as [->|N].
  { unfold Rminus. rewrite Rplus_opp_r, Rabs_R0. lra. }
  destruct (Req_dec v 0) as [->|Nv].
  - rewrite bet_0, bet_abs by lra. rewrite (Rabs_pos_eq u) by lra.
    pose proof (lip_zero (2 * b) u ltac:(lra) ltac:(lra)). apply Rabs_le. lra.
  - rewrite !bet_abs by lra. rewrite !(Rabs_pos_eq) with (x := u) by lra. rewrite (Rabs_pos_eq v) by lra.
    pose proof (lip_pos (2 * b) v u ltac:(lra) ltac:(lra) ltac:(lra)). apply Rabs_le. lra.
Qed.
Lemma bet_lip b u v : 1 / 2 <= b -> Rabs (bet b v - bet b u) <= 2 * b * Rabs (v - u).
Proof.
  intro B. rewrite (bet_abs_sym b u), (bet_abs_sym b v).
  apply Rle_trans with (2 * b * Rabs (Rabs v - Rabs u)).
  2:{ apply Rmult_le_compat_l; [lra|]. apply Rabs_triang_inv2. }
  pose proof (Rabs_pos u). pose proof (Rabs_pos v).
  destruct (Rle_or_lt (Rabs u) (Rabs v)).
  - rewrite (Rabs_pos_eq (Rabs v - Rabs u)) by lra. now apply bet_lip_pos.
  - rewrite Rabs_minus_sym, (Rabs_minus_sym (Rabs v)), (Rabs_pos_eq (Rabs u - Rabs v)) by lra.
    apply bet_lip_pos; lra.
Qed.

(** *** a relative change of the exponent *)
Lemma inv_scale s d : 0 <= d -> Rabs (1 / (1 + exp (s * (1 + d))) - 1 / (1 + exp s)) <= d.
Proof.
  intro D.
  assert (P : forall s, 0 <= s -> 0 <= 1 / (1 + exp s) - 1 / (1 + exp (s * (1 + d))) <= d).
  { clear s. intros s S. set (t := exp s). set (w := exp (s * (1 + d))).
    assert (T : 0 < t) by apply exp_pos. assert (W : t <= w) by (apply exp_le_mono; nra).
    assert (T1 : 1 + s <= t) by apply exp_ge.
    replace (1 / (1 + t) - 1 / (1 + w)) with ((w - t) / ((1 + t) * (1 + w))) by (field; lra).
    assert (Q : 0 < (1 + t) * (1 + w)) by nra.
    split. { apply Rmult_le_pos; [lra|]. left. now apply Rinv_0_lt_compat. }
    apply Rmult_le_reg_r with ((1 + t) * (1 + w)); auto.
    unfold Rdiv. rewrite Rmult_assoc, Rinv_l, Rmult_1_r by lra.
    assert (X : t = w * exp (- (s * d))). { unfold t, w. rewrite <- exp_plus. f_equal. ring. }
    assert (Y : w - t <= w * (s * d)). { rewrite X at 1. pose proof (exp_ge (- (s * d))).
      assert (0 < w) by lra. nra. }
    apply Rle_trans with (1 := Y). assert (s * d <= t * d) by nra. nra. }
  assert (G : forall s, 1 / (1 + exp (- s)) = 1 - 1 / (1 + exp s)).
  { clear. intro s. rewrite exp_Ropp. pose proof (exp_pos s). field. lra. }
  destruct (Rle_or_lt 0 s).
  - specialize (P s H). apply Rabs_le. lra.
  - specialize (P (- s) ltac:(lra)). rewrite G in P.
    replace (- s * (1 + d)) with (- (s * (1 + d))) in P by ring. rewrite G in P. apply Rabs_le. lra.
Qed.
Lemma inv_scale' s e A : Rabs e <= A -> A <= 1 / 100 -> Rabs (1 / (1 + exp (s * (1 + e))) - 1 / (1 + exp s)) <= 2 * A.
Proof.
  intros H L. pose proof (Rabs_pos e). apply Rabs_le_inv in H.
  destruct (Rle_or_lt 0 e).
  - pose proof (inv_scale s e H1). lra.
  - set (d := - e / (1 + e)). assert (D : 0 <= d). { unfold d. apply Rmult_le_pos; [lra|]. left. apply Rinv_0_lt_compat. lra. }
    pose proof (inv_scale (s * (1 + e)) d D) as I.
    replace (s * (1 + e) * (1 + d)) with s in I by (unfold d; field; lra).
    rewrite Rabs_minus_sym. apply Rle_trans with (1 := I).
    unfold d. apply Rmult_le_reg_r with (1 + e); [lra|]. unfold Rdiv. rewrite Rmult_assoc, Rinv_l by lra. nra.
Qed.
