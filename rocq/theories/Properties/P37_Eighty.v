(** * The 80 per cent rule of the KDP routines in floating point (C98)

    The routines decide whether a window has enough valid gates by comparing the
    count with 0.8 times the window size, in floating point; 0.8 is not a
    floating-point number.  The models compare integers (4 k < 5 n); here it is
    proved that this is what the code does, for every window size below 2^49
    (2^20 in the Fortran build). *)
From Coq Require Import Reals Lra Lia ZArith QArith.
From Flocq Require Import Core IEEE754.BinarySingleNaN.
From Verif Require Import Base.Num Base.ListFacts Base.XReal Base.Ieee.
From Verif Require Import Model.Tables Model.Beta Model.Melt Spec.IeeeSpec.
From Verif Require Import Proofs.IeeeSign.
Open Scope R_scope.
#[local] Existing Instances p53 e1024 p24 e128.

Section G.
Variables (prec emax : Z).
Context (Hp : Prec_gt_0 prec) (He : Prec_lt_emax prec emax).
Notation bf := (binary_float prec emax).
Notation v := (val prec emax).
Notation rd := (rnd prec emax).
Notation lit := (b_lit prec emax Hp He).
Variable L : R.
Hypothesis HL : v (lit 0.8) = Fin L.
Hypothesis Lo : 4 / 5 <= L.
Hypothesis Hi : L <= 4 / 5 * (1 + bpow radix2 (- prec - 1)).
Hypothesis P4 : (4 < prec)%Z.
Hypothesis E4 : (8 < emax)%Z.

Lemma sixteenth n : (Z.abs n < 2 ^ prec)%Z -> rd (IZR n / 16) = Fin (IZR n / 16).
Proof.
  intro B. unfold Prec_gt_0, Prec_lt_emax in *. apply rnd_fmt; auto.
  - assert (E : F2R (Float radix2 n (-4)) = IZR n / 16) by (unfold F2R; cbn [Fnum Fexp]; cbn; lra). rewrite <- E at 1.
    apply generic_format_FLT. exists (Float radix2 n (-4)); cbn; auto.
    unfold SpecFloat.emin. lia.
  - apply Rle_lt_trans with (Rabs (IZR n)).
    + unfold Rdiv. rewrite Rabs_mult, (Rabs_pos_eq (/ 16)) by lra. pose proof (Rabs_pos (IZR n)). lra.
    + rewrite <- abs_IZR. apply Rlt_trans with (bpow radix2 prec).
      * rewrite <- IZR_Zpower by lia. now apply IZR_lt.
      * apply bpow_lt. exact He.
Qed.

Lemma int_val n : (Z.abs n < 2 ^ prec)%Z -> v (lit (inject_Z n)) = Fin (IZR n).
Proof.
  intro B. rewrite val_lit. cbn [inject_Z Qnum Qden]. replace (IZR n / 1) with (IZR n) by field.
  now apply rnd_int.
Qed.

Lemma prod_val k : (0 <= k)%Z -> (16 * k < 2 ^ prec)%Z -> v (Bmult mode_NE (lit 0.8) (lit (inject_Z k))) = rd (L * IZR k).
Proof. intros K B. rewrite val_mult, HL, int_val by (auto; lia). reflexivity. Qed.

Lemma small_excess k : (0 <= k)%Z -> (16 * k < 2 ^ prec)%Z -> L * IZR k <= 4 / 5 * IZR k + 1 / 32.
Proof.
  intros K B. apply IZR_le in K. apply IZR_lt in B. rewrite mult_IZR in B. unfold Prec_gt_0 in *.
  assert (E : IZR (2 ^ prec) = bpow radix2 prec) by (rewrite <- IZR_Zpower by lia; reflexivity).
  rewrite E in B.
  assert (B1 : bpow radix2 prec * bpow radix2 (- prec - 1) = / 2).
  { rewrite <- bpow_plus. replace (prec + (- prec - 1))%Z with (-1)%Z by lia. cbn. lra. }
  pose proof (bpow_gt_0 radix2 (- prec - 1)) as Q. set (u := bpow radix2 (- prec - 1)) in *.
  assert (16 * IZR k * u <= / 2) by (rewrite <- B1; apply Rmult_le_compat_r; lra).
  nra.
Qed.

Lemma gt_rule k n : (0 <= k)%Z -> (0 <= n)%Z -> (16 * k < 2 ^ prec)%Z -> (16 * n < 2 ^ prec)%Z ->
  Bltb (Bmult mode_NE (lit 0.8) (lit (inject_Z k))) (lit (inject_Z n)) = (4 * k <? 5 * n)%Z.
Proof.
  intros K N BK BN. rewrite val_lt, prod_val, int_val by (auto; lia).
  pose proof (small_excess k K BK) as SX. pose proof (IZR_le _ _ K) as K'.
  case (Z.ltb_spec (4 * k) (5 * n)); intro C.
  - assert (N1 : (0 < n)%Z) by lia. apply Zlt_le_succ in C. apply IZR_le in C. rewrite succ_IZR, !mult_IZR in C.
    assert (M : L * IZR k <= IZR (16 * n - 1) / 16) by (rewrite minus_IZR, mult_IZR; lra).
    apply (rnd_mono prec emax Hp) in M. rewrite sixteenth in M by lia.
    assert (U : IZR (16 * n - 1) / 16 < IZR n) by (rewrite minus_IZR, mult_IZR; lra).
    destruct (rd (L * IZR k)); try discriminate; cbn [xle xlt] in M |- *; auto.
    apply Rleb_true in M. apply Rltb_true. lra.
  - apply IZR_le in C. rewrite !mult_IZR in C.
    assert (M : IZR n <= L * IZR k) by nra.
    apply (rnd_mono prec emax Hp) in M. rewrite rnd_int in M by (auto; lia).
    destruct (rd (L * IZR k)); try discriminate; cbn [xle xlt] in M |- *; auto.
    apply Rleb_true in M. apply Rltb_false. lra.
Qed.

Lemma tie k n : (0 < n)%Z -> (4 * k = 5 * n)%Z -> (16 * k < 2 ^ prec)%Z -> rd (L * IZR k) = Fin (IZR n).
Proof.
  intros N C BK. pose proof (IZR_lt _ _ N) as N'. 
  assert (C' : IZR k = 5 / 4 * IZR n). { apply (f_equal IZR) in C. rewrite !mult_IZR in C. lra. }
  assert (RN : rd (IZR n) = Fin (IZR n)) by (apply rnd_int; auto; lia).
  assert (RK : rd (IZR k) = Fin (IZR k)) by (apply rnd_int; auto; lia).
  assert (G : generic_format radix2 (SpecFloat.fexp prec emax) (IZR n)).
  { unfold rnd in RN. destruct Rlt_bool; [|destruct Rlt_bool; discriminate]. injection RN as RN. rewrite <- RN.
    apply generic_format_round; [apply (fexp_correct prec emax Hp)|apply valid_rnd_N]. }
  assert (M : IZR n <= L * IZR k) by nra.
  set (w := L * IZR k) in *.
  assert (Up : round radix2 (SpecFloat.fexp prec emax) ZnearestE w <= IZR n).
  { pose proof (fexp_correct prec emax Hp) as VE. apply round_N_le_midp; auto.
    rewrite succ_eq_pos by lra. rewrite ulp_neq_0 by lra. unfold cexp.
    assert (X : bpow radix2 (mag radix2 (IZR n) - prec) <= bpow radix2 (SpecFloat.fexp prec emax (mag radix2 (IZR n)))).
    { apply bpow_le. unfold SpecFloat.fexp. lia. }
    pose proof (bpow_mag_gt radix2 (IZR n)) as Y. rewrite Rabs_pos_eq in Y by lra.
    unfold Zminus in X. rewrite bpow_plus in X.
    assert (Z : bpow radix2 (- prec - 1) = bpow radix2 (- prec) * / 2) by (unfold Zminus; rewrite bpow_plus; reflexivity).
    rewrite Z in Hi. pose proof (bpow_gt_0 radix2 (- prec)) as Q. unfold w. rewrite C'.
    set (b := bpow radix2 (- prec)) in *. set (mm := bpow radix2 (mag radix2 (IZR n))) in *. nra. }
  unfold rnd in RN |- *.
  assert (Dn : IZR n <= round radix2 (SpecFloat.fexp prec emax) ZnearestE w).
  { apply round_ge_generic; auto; [apply (fexp_correct prec emax Hp)|apply valid_rnd_N]. }
  assert (Eq : round radix2 (SpecFloat.fexp prec emax) ZnearestE w = IZR n) by lra.
  rewrite Eq. rewrite round_generic in RN by (auto; apply valid_rnd_N).
  destruct Rlt_bool; auto. destruct Rlt_bool; discriminate.
Qed.

Lemma ge_rule k n : (0 <= k)%Z -> (0 <= n)%Z -> (16 * k < 2 ^ prec)%Z -> (16 * n < 2 ^ prec)%Z ->
  Bleb (Bmult mode_NE (lit 0.8) (lit (inject_Z k))) (lit (inject_Z n)) = (4 * k <=? 5 * n)%Z.
Proof.
  intros K N BK BN. pose proof (gt_rule k n K N BK BN) as Lt. rewrite val_lt in Lt. rewrite val_le.
  rewrite prod_val, int_val in Lt |- * by (auto; lia).
  case (Z.leb_spec (4 * k) (5 * n)); intro C.
  - destruct (Z.eq_dec (4 * k) (5 * n)) as [E|E].
    + destruct (Z.eq_dec n 0) as [->|N0].
      * assert (k = 0)%Z by lia. subst k. rewrite Rmult_0_r, rnd_0 by auto. cbn. apply Rleb_true. lra.
      * rewrite (tie k n) by (auto; lia). cbn. apply Rleb_true. lra.
    + rewrite (proj2 (Z.ltb_lt _ _)) in Lt by lia.
      destruct (rd (L * IZR k)); cbn [xle xlt] in Lt |- *; auto. apply Rltb_true in Lt. apply Rleb_true. lra.
  - assert (K1 : (n < k)%Z) by lia. assert (C2 : (4 * k <? 5 * n)%Z = false) by (apply Z.ltb_ge; lia). rewrite C2 in Lt. clear Lt.
    apply Zlt_le_succ in C. apply IZR_le in C. rewrite succ_IZR, !mult_IZR in C.
    pose proof (IZR_le _ _ K) as K'.
    assert (M : IZR (16 * n + 1) / 16 <= L * IZR k) by (rewrite plus_IZR, mult_IZR; nra).
    apply (rnd_mono prec emax Hp) in M. rewrite sixteenth in M by lia.
    assert (U : IZR n < IZR (16 * n + 1) / 16) by (rewrite plus_IZR, mult_IZR; lra).
    destruct (rd (L * IZR k)); try discriminate; cbn [xle xlt] in M |- *; auto.
    apply Rleb_true in M. apply Rleb_false. lra.
Qed.
End G.

(** the double (single) nearest 0.8 *)
Lemma val08_64 : val 53 1024 (b_lit 53 1024 p53 e1024 0.8) = Fin (7205759403792794 / 9007199254740992).
Proof.
  rewrite (val_finite 53 1024) by (vm_compute; reflexivity). reflexivity.
Qed.
Lemma val08_32 : val 24 128 (b_lit 24 128 p24 e128 0.8) = Fin (13421773 / 16777216).
Proof.
  rewrite (val_finite 24 128) by (vm_compute; reflexivity). reflexivity.
Qed.
Lemma up64 : 7205759403792794 / 9007199254740992 <= 4 / 5 * (1 + bpow radix2 (- 53 - 1)).
Proof. cbn [bpow Z.opp Z.sub Z.add Z.pos_sub Pos.add Pos.succ]. change (Z.pow_pos radix2 54) with 18014398509481984%Z. lra. Qed.
Lemma up32 : 13421773 / 16777216 <= 4 / 5 * (1 + bpow radix2 (- 24 - 1)).
Proof. cbn [bpow Z.opp Z.sub Z.add Z.pos_sub Pos.add Pos.succ]. change (Z.pow_pos radix2 25) with 33554432%Z. lra. Qed.

(** ** Double precision (the Cython build and the Python estimator):
    [float(n) > 0.8 * float(k)] holds iff 5 n > 4 k, and [n >= 0.8 * k] iff 5 n >= 4 k *)
Theorem C98_double_gt (np1 : bool) (lm : libm double) (k n : nat) :
  (Z.of_nat k < 2 ^ 49)%Z -> (Z.of_nat n < 2 ^ 49)%Z ->
  let ops := double_ops np1 lm in
  flt (fmul (flit 0.8) (of_nat k)) (@of_nat double ops n) = (4 * k <? 5 * n)%nat.
Proof.
  intros K N ops.
  change (Bltb (Bmult mode_NE (b_lit 53 1024 p53 e1024 0.8) (b_lit 53 1024 p53 e1024 (inject_Z (Z.of_nat k))))
     (b_lit 53 1024 p53 e1024 (inject_Z (Z.of_nat n))) = (4 * k <? 5 * n)%nat).
  rewrite (gt_rule 53 1024 p53 e1024 _ val08_64); try lra; try lia; [|apply up64].
  case (Z.ltb_spec (4 * Z.of_nat k) (5 * Z.of_nat n)); case (Nat.ltb_spec (4 * k) (5 * n)); intros; auto; lia.
Qed.
Theorem C98_double_ge (np1 : bool) (lm : libm double) (k n : nat) :
  (Z.of_nat k < 2 ^ 49)%Z -> (Z.of_nat n < 2 ^ 49)%Z ->
  let ops := double_ops np1 lm in
  fle (fmul (flit 0.8) (of_nat k)) (@of_nat double ops n) = (4 * k <=? 5 * n)%nat.
Proof.
  intros K N ops.
  change (Bleb (Bmult mode_NE (b_lit 53 1024 p53 e1024 0.8) (b_lit 53 1024 p53 e1024 (inject_Z (Z.of_nat k))))
     (b_lit 53 1024 p53 e1024 (inject_Z (Z.of_nat n))) = (4 * k <=? 5 * n)%nat).
  rewrite (ge_rule 53 1024 p53 e1024 _ val08_64); try lra; try lia; [|apply up64].
  case (Z.leb_spec (4 * Z.of_nat k) (5 * Z.of_nat n)); case (Nat.leb_spec (4 * k) (5 * n)); intros; auto; lia.
Qed.
(** ** Single precision (the Fortran build, default REAL) *)
Theorem C98_single_gt (lm : libm (binary_float 24 128)) (np1 : bool) (k n : nat) :
  (Z.of_nat k < 2 ^ 20)%Z -> (Z.of_nat n < 2 ^ 20)%Z ->
  let ops := ieee_ops 24 128 24 128 p24 e128 p24 e128 np1 lm in
  flt (fmul (flit 0.8) (of_nat k)) (@of_nat _ ops n) = (4 * k <? 5 * n)%nat.
Proof.
  intros K N ops.
  change (Bltb (Bmult mode_NE (b_lit 24 128 p24 e128 0.8) (b_lit 24 128 p24 e128 (inject_Z (Z.of_nat k))))
     (b_lit 24 128 p24 e128 (inject_Z (Z.of_nat n))) = (4 * k <? 5 * n)%nat).
  rewrite (gt_rule 24 128 p24 e128 _ val08_32); try lra; try lia; [|apply up32].
  case (Z.ltb_spec (4 * Z.of_nat k) (5 * Z.of_nat n)); case (Nat.ltb_spec (4 * k) (5 * n)); intros; auto; lia.
Qed.

(** the ties are real: with a window of 20 gates, 16 valid ones are not more than
    80 per cent, 17 are *)
Example ex98_tie (lm : libm double) : let ops := double_ops false lm in
  flt (fmul (flit 0.8) (of_nat 20)) (@of_nat double ops 16) = false /\
  fle (fmul (flit 0.8) (of_nat 20)) (@of_nat double ops 16) = true /\
  flt (fmul (flit 0.8) (of_nat 20)) (@of_nat double ops 17) = true.
Proof.
  cbv zeta. rewrite !C98_double_gt, C98_double_ge by (cbn; lia). repeat split.
Qed.
