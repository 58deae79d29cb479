(** * Relative errors of double-precision computations

    [apx e x r]: the float x is r up to the relative error e, in logarithmic
    form: its value is r * exp d with |d| <= e. *)
From Coq Require Import Reals Lra Lia ZArith QArith Qreals.
From Flocq Require Import Core Relative IEEE754.BinarySingleNaN.
From Verif Require Import Base.Num Base.XReal Base.Ieee Spec.IeeeSpec.
Open Scope R_scope.

#[local] Existing Instance p53. #[local] Existing Instance e1024.
Notation dval := (val 53 1024).
Notation drnd := (rnd 53 1024).

(** the unit: slightly more than 2^-53 *)
Definition eta : R := 101 / 100 * bpow radix2 (-53).

Definition apx (e : R) (x : double) (r : R) : Prop :=
  exists d, Rabs d <= e /\ dval x = Fin (r * exp d).

(** far from overflow and underflow, or zero *)
Definition safe (r : R) : Prop := exp (-400) <= Rabs r <= exp 400.
Definition safe0 (r : R) : Prop := r = 0 \/ safe r.

Lemma bpow_exp k : bpow radix2 k = exp (IZR k * ln 2).
Proof.
  rewrite bpow_powerRZ. change (IZR (radix_val radix2)) with 2.
  rewrite powerRZ_Rpower by lra. reflexivity.
Qed.
Lemma ln2_half : / 2 < ln 2. Proof. exact ln_lt_2. Qed.
Lemma ln2_1 : ln 2 < 1.
Proof.
  apply exp_lt_inv. rewrite exp_ln by lra. pose proof (exp_ineq1 1). 
  assert (1 <> 0) by lra. specialize (H H0). lra.
Qed.
Lemma eta_pos : 0 < eta.
Proof. unfold eta. pose proof (bpow_gt_0 radix2 (-53)). lra. Qed.
Lemma bp53 : bpow radix2 (-53) <= 1 / 1000000.
Proof.
  assert (bpow radix2 (-53) <= bpow radix2 (-20)) by (apply bpow_le; lia).
  assert (bpow radix2 (-20) = / 1048576) by (cbn; lra). lra.
Qed.
Lemma eta_small : eta <= 1 / 900000.
Proof. unfold eta. pose proof bp53. lra. Qed.

Lemma exp_le_mono a b : a <= b -> exp a <= exp b.
Proof. intros [L|E]; [left; now apply exp_increasing|subst; lra]. Qed.
Lemma exp_ge x : 1 + x <= exp x.
Proof. destruct (Req_dec x 0) as [->|N]; [rewrite exp_0; lra|]. left. now apply exp_ineq1. Qed.
(** exp d - 1 for small d *)
Lemma exp_up x : x < 1 -> exp x <= / (1 - x).
Proof.
  intro H. pose proof (exp_ge (- x)) as G. rewrite exp_Ropp in G.
  rewrite <- (Rinv_inv (exp x)). apply Rinv_le_contravar; lra.
Qed.
Lemma exp_near d e : Rabs d <= e -> e <= 1 / 10 -> Rabs (exp d - 1) <= 10 / 9 * e.
Proof.
  intros H L. pose proof (Rabs_pos d). assert (-e <= d <= e) by (split; [pose proof (Rle_abs (- d)) as X; rewrite Rabs_Ropp in X|pose proof (Rle_abs d)]; lra).
  pose proof (exp_ge d). assert (d < 1) by lra. pose proof (exp_up d H3).
  assert (/ (1 - d) - 1 = d * / (1 - d)) by (field; lra).
  apply Rabs_le. split; [lra|]. 
  destruct (Rle_or_lt d 0).
  - assert (0 < / (1 - d)) by (apply Rinv_0_lt_compat; lra). nra.
  - assert (/ (1 - d) <= 10 / 9). { replace (10 / 9) with (/ (9 / 10)) by lra. apply Rinv_le_contravar; lra. }
    nra.
Qed.
Lemma ln_near e : Rabs e <= bpow radix2 (-53) -> 0 < 1 + e /\ Rabs (ln (1 + e)) <= eta.
Proof.
  intro H. pose proof bp53. assert (-bpow radix2 (-53) <= e <= bpow radix2 (-53)).
  { apply Rabs_le_inv in H. lra. }
  split; [lra|].
  assert (L : forall y, 0 < y -> ln y <= y - 1).
  { intros y Hy. destruct (Rle_or_lt (ln y) (y - 1)); auto. exfalso. 
    pose proof (exp_ge (ln y)). rewrite exp_ln in H3 by auto. lra. }
  pose proof (L (1 + e)) as U. pose proof (L (/ (1 + e))) as D. rewrite ln_Rinv in D by lra.
  assert (0 < / (1 + e)) by (apply Rinv_0_lt_compat; lra). specialize (U ltac:(lra)). specialize (D H2).
  assert (/ (1 + e) - 1 = - e * / (1 + e)) by (field; lra).
  assert (/ (1 + e) <= 101 / 100). { replace (101 / 100) with (/ (100 / 101)) by lra. apply Rinv_le_contravar; lra. }
  unfold eta. apply Rabs_le. split; [|lra].
  destruct (Rle_or_lt 0 e); nra.
Qed.

(** ** one rounding *)
Lemma rnd_apx r : exp (-500) <= Rabs r <= exp 500 -> exists d, Rabs d <= eta /\ drnd r = Fin (r * exp d).
Proof.
  intros (L & U). pose proof ln2_half as H2. pose proof ln2_1 as H1.
  assert (Lo : bpow radix2 (-1022) <= Rabs r).
  { apply Rle_trans with (2 := L). rewrite bpow_exp. apply exp_le_mono. lra. }
  assert (Hi : Rabs r <= bpow radix2 1023).
  { apply Rle_trans with (1 := U). rewrite bpow_exp. apply exp_le_mono. lra. }
  pose proof (relative_error_N_FLT radix2 (3 - 1024 - 53) 53 eq_refl (fun n => negb (Z.even n)) r) as E.
  cbn [Z.sub Z.add Z.opp Z.pos_sub Pos.add] in E. specialize (E Lo).
  change (FLT_exp _ 53) with (SpecFloat.fexp 53 1024) in E.
  change (Znearest (fun n => negb (Z.even n))) with ZnearestE in E.
  set (q := round radix2 (SpecFloat.fexp 53 1024) ZnearestE r) in *.
  assert (Rn : r <> 0). { intro Z. rewrite Z, Rabs_R0 in L. pose proof (exp_pos (-500)). lra. }
  assert (B : / 2 * bpow radix2 (-53 + 1) = bpow radix2 (-53)).
  { change (-53 + 1)%Z with (-52)%Z. change (-53)%Z with (-52 + -1)%Z at 1. rewrite bpow_plus.
    change (bpow radix2 (-1)) with (/ 2). lra. }
  change (-53 + 1)%Z with (-52)%Z in *.
  assert (E' : Rabs ((q - r) / r) <= bpow radix2 (-53)).
  { unfold Rdiv. rewrite Rabs_mult, Rabs_inv. apply Rmult_le_reg_r with (Rabs r); [now apply Rabs_pos_lt|].
    rewrite Rmult_assoc, Rinv_l by now apply Rabs_no_R0. rewrite Rmult_1_r. rewrite <- B. exact E. }
  destruct (ln_near _ E') as (P & D). exists (ln (1 + (q - r) / r)). split; auto.
  rewrite exp_ln by auto. unfold rnd. fold q.
  replace (r * (1 + (q - r) / r)) with q by (field; auto).
  rewrite Rlt_bool_true; auto.
  assert (Rabs q <= bpow radix2 1023).
  { pose proof (fexp_correct 53 1024 p53) as VE. apply abs_round_le_generic; auto.
    - apply valid_rnd_N.
    - apply generic_format_bpow. vm_compute. discriminate. }
  apply Rle_lt_trans with (1 := H). apply bpow_lt. lia.
Qed.

Lemma rnd_apx0 r : r = 0 \/ exp (-500) <= Rabs r <= exp 500 -> exists d, Rabs d <= eta /\ drnd r = Fin (r * exp d).
Proof.
  intros [->|H]; [|now apply rnd_apx]. exists 0. rewrite Rabs_R0, Rmult_0_l, rnd_0. split; auto.
  pose proof eta_pos. lra.
Qed.

Lemma safe_margin r d : safe0 r -> Rabs d <= 10 -> r * exp d = 0 \/ exp (-500) <= Rabs (r * exp d) <= exp 500.
Proof.
  intros [->|(L & U)] D; [left; lra|right]. apply Rabs_le_inv in D.
  rewrite Rabs_mult, (Rabs_pos_eq (exp d)) by (left; apply exp_pos).
  pose proof (exp_pos d). split.
  - apply Rle_trans with (exp (-400) * exp d).
    + rewrite <- exp_plus. apply exp_le_mono. lra.
    + apply Rmult_le_compat_r; lra.
  - apply Rle_trans with (exp 400 * exp d).
    + apply Rmult_le_compat_r; lra.
    + rewrite <- exp_plus. apply exp_le_mono. lra.
Qed.

Lemma Rabs_plus_le a b c d : Rabs a <= c -> Rabs b <= d -> Rabs (a + b) <= c + d.
Proof. intros. pose proof (Rabs_triang a b). lra. Qed.

(** rounding an approximation *)
Lemma apx_round (x : double) r d e : safe0 r -> Rabs d <= e -> e <= 10 -> dval x = drnd (r * exp d) ->
  apx (e + eta) x r.
Proof.
  intros S D E X. destruct (rnd_apx0 _ (safe_margin r d S ltac:(lra))) as (d' & D' & Y).
  exists (d + d'). split; [now apply Rabs_plus_le|]. rewrite X, Y, exp_plus. f_equal. ring.
Qed.

Lemma apx_le e e' x r : apx e x r -> e <= e' -> apx e' x r.
Proof. intros (d & D & X) L. exists d. split; auto. lra. Qed.
Lemma apx_exact x r : dval x = Fin r -> apx 0 x r.
Proof. intro E. exists 0. rewrite Rabs_R0, exp_0, Rmult_1_r. split; auto. lra. Qed.
Lemma apx_pos e x r : apx e x r -> 0 <= e.
Proof. intros (d & D & _). pose proof (Rabs_pos d). lra. Qed.

Lemma apx_mul e1 e2 x y a b : apx e1 x a -> apx e2 y b -> e1 + e2 <= 10 -> safe0 (a * b) ->
  apx (e1 + e2 + eta) (Bmult mode_NE x y) (a * b).
Proof.
  intros (d & D & X) (d' & D' & Y) E S. apply apx_round with (d + d'); auto using Rabs_plus_le.
  rewrite (val_mult 53 1024 p53 e1024), X, Y. cbn [xmul rndx]. f_equal. rewrite exp_plus. ring.
Qed.
Lemma apx_div e1 e2 x y a b : apx e1 x a -> apx e2 y b -> e1 + e2 <= 10 -> b <> 0 -> safe0 (a / b) ->
  apx (e1 + e2 + eta) (Bdiv mode_NE x y) (a / b).
Proof.
  intros (d & D & X) (d' & D' & Y) E N S.
  pose proof (exp_pos d'). assert (M : b * exp d' <> 0) by (apply Rmult_integral_contrapositive; split; auto; lra).
  apply apx_round with (d + - d'); auto.
  - apply Rabs_plus_le; auto. now rewrite Rabs_Ropp.
  - rewrite (val_div 53 1024 p53 e1024), X, Y by (rewrite Y; congruence). cbn [xdiv].
    destruct Req_EM_T; [contradiction|]. cbn [rndx]. f_equal. rewrite exp_plus, exp_Ropp. field. split; auto; lra.
Qed.

(** sum of numbers that do not cancel *)
Lemma apx_add e x y a b : apx e x a -> apx e y b -> e <= 10 -> 0 <= a -> 0 <= b -> safe0 (a + b) ->
  apx (e + eta) (Bplus mode_NE x y) (a + b).
Proof.
  intros (d & D & X) (d' & D' & Y) E A B S.
  destruct (Req_dec (a + b) 0) as [Z|Z].
  - assert (a = 0) by lra. assert (b = 0) by lra. subst. exists 0. rewrite Rabs_R0. split.
    + pose proof eta_pos. pose proof (Rabs_pos d). lra.
    + rewrite (val_plus 53 1024 p53 e1024), X, Y. cbn [xadd rndx].
      replace (0 * exp d + 0 * exp d') with 0 by ring. rewrite rnd_0. f_equal. ring.
  - assert (P : 0 < a + b) by lra.
    set (s := (a * exp d + b * exp d') / (a + b)).
    apply Rabs_le_inv in D. apply Rabs_le_inv in D'.
    assert (Sl : exp (- e) <= s).
    { apply Rmult_le_reg_r with (a + b); auto. unfold s. unfold Rdiv. rewrite Rmult_assoc, Rinv_l, Rmult_1_r by lra.
      assert (exp (- e) <= exp d) by (apply exp_le_mono; lra). assert (exp (- e) <= exp d') by (apply exp_le_mono; lra). nra. }
    assert (Su : s <= exp e).
    { apply Rmult_le_reg_r with (a + b); auto. unfold s. unfold Rdiv. rewrite Rmult_assoc, Rinv_l, Rmult_1_r by lra.
      assert (exp d <= exp e) by (apply exp_le_mono; lra). assert (exp d' <= exp e) by (apply exp_le_mono; lra). nra. }
    pose proof (exp_pos (- e)). assert (Sp : 0 < s) by lra.
    apply apx_round with (ln s); auto.
    + apply Rabs_le. split.
      * rewrite <- (ln_exp (- e)). destruct Sl as [Sl|Sl]; [left; now apply ln_increasing|rewrite Sl; lra].
      * rewrite <- (ln_exp e). destruct Su as [Su|Su]; [left; now apply ln_increasing|rewrite Su; lra].
    + rewrite (val_plus 53 1024 p53 e1024), X, Y. cbn [xadd rndx]. f_equal. rewrite exp_ln by auto.
      unfold s. field. lra.
Qed.

Lemma apx_lit q : safe0 (IZR (Qnum q) / IZR (Zpos (Qden q))) -> apx eta (b_lit 53 1024 p53 e1024 q) (IZR (Qnum q) / IZR (Zpos (Qden q))).
Proof.
  intro S. replace eta with (0 + eta) by lra. apply apx_round with 0; auto; try lra.
  - rewrite Rabs_R0. lra.
  - rewrite exp_0, Rmult_1_r. apply val_lit.
Qed.
(** integers below 2^53 are exact *)
Lemma apx_int n : (Z.abs n <= 2 ^ 53)%Z -> apx 0 (b_lit 53 1024 p53 e1024 (inject_Z n)) (IZR n).
Proof.
  intro L. apply apx_exact. rewrite val_lit. cbn [inject_Z Qnum Qden].
  replace (IZR n / 1) with (IZR n) by field. 
  assert (G : generic_format radix2 (SpecFloat.fexp 53 1024) (IZR n)).
  { replace (IZR n) with (F2R (Float radix2 n 0)) by (unfold F2R; cbn; ring).
    apply (generic_format_FLT radix2 (3 - 1024 - 53) 53). 
    destruct (Z.eq_dec (Z.abs n) (2 ^ 53)) as [E|N].
    - apply FLT_format_generic; [reflexivity|].
      assert (F : exists b : bool, IZR n = (if b then -1 else 1) * bpow radix2 53).
      { exists (n <? 0)%Z. change (bpow radix2 53) with (IZR (2 ^ 53)). rewrite <- E.
        case (Z.ltb_spec n 0); intro; [rewrite Z.abs_neq by lia; rewrite opp_IZR; ring|rewrite Z.abs_eq by lia; ring]. }
      destruct F as (b & F). replace (F2R (Float radix2 n 0)) with (IZR n) by (unfold F2R; cbn; ring).
      rewrite F. assert (generic_format radix2 (FLT_exp (3 - 1024 - 53) 53) (bpow radix2 53)).
      { apply generic_format_bpow. vm_compute. discriminate. }
      destruct b; [|now rewrite Rmult_1_l]. replace (-1 * bpow radix2 53) with (- bpow radix2 53) by ring.
      now apply generic_format_opp.
    - exists (Float radix2 n 0); auto; simpl; lia. }
  rewrite rnd_fmt; auto; try exact p53. rewrite <- abs_IZR.
  apply Rle_lt_trans with (IZR (2 ^ 53)); [now apply IZR_le|].
  change (IZR (2 ^ 53)) with (bpow radix2 53). apply bpow_lt. lia.
Qed.

(** what an approximation says *)
Lemma apx_error e x r : apx e x r -> e <= 1 / 10 ->
  exists v, dval x = Fin v /\ Rabs (v - r) <= 10 / 9 * e * Rabs r.
Proof.
  intros (d & D & X) E. exists (r * exp d). split; auto.
  replace (r * exp d - r) with (r * (exp d - 1)) by ring. rewrite Rabs_mult, Rmult_comm.
  apply Rmult_le_compat_r; [apply Rabs_pos|]. now apply exp_near.
Qed.

(** ** pow *)
Lemma pow_ln lm x y a b : pow_accurate lm -> dval x = Fin a -> dval y = Fin b -> 0 < a ->
  Rabs (b * ln a) <= 500 -> exists d, Rabs d <= 2 * eta /\ dval (lm_pow lm x y) = Fin (Rpower a b * exp d).
Proof.
  intros P X Y A S. apply Rabs_le_inv in S.
  destruct (P x y a b X Y A) as (v & V & E).
  { unfold Rpower. split; apply exp_le_mono; lra. }
  assert (Q : 0 < Rpower a b) by apply exp_pos. set (r := Rpower a b) in *. pose proof bp53.
  assert (B52 : bpow radix2 (-52) = 2 * bpow radix2 (-53)).
  { change (-53)%Z with (-52 + -1)%Z. rewrite bpow_plus. change (bpow radix2 (-1)) with (/ 2). lra. }
  set (t := (v - r) / r).
  assert (T : Rabs t <= bpow radix2 (-52)).
  { unfold t, Rdiv. rewrite Rabs_mult, Rabs_inv, (Rabs_pos_eq r) by lra.
    apply Rmult_le_reg_r with r; auto. rewrite Rmult_assoc, Rinv_l, Rmult_1_r by lra. exact E. }
  assert (D : 0 < 1 + t /\ Rabs (ln (1 + t)) <= 2 * eta).
  { apply Rabs_le_inv in T. rewrite B52 in T. split; [lra|].
    assert (L : forall y, 0 < y -> ln y <= y - 1).
    { intros z Hz. destruct (Rle_or_lt (ln z) (z - 1)); auto. exfalso.
      pose proof (exp_ge (ln z)) as G. rewrite exp_ln in G by auto. lra. }
    pose proof (L (1 + t)) as U. pose proof (L (/ (1 + t))) as D. rewrite ln_Rinv in D by lra.
    assert (I : 0 < / (1 + t)) by (apply Rinv_0_lt_compat; lra). specialize (U ltac:(lra)). specialize (D I).
    assert (/ (1 + t) - 1 = - t * / (1 + t)) by (field; lra).
    assert (/ (1 + t) <= 101 / 100). { replace (101 / 100) with (/ (100 / 101)) by lra. apply Rinv_le_contravar; lra. }
    unfold eta. apply Rabs_le. split; [|lra].
    destruct (Rle_or_lt 0 t); nra. }
  exists (ln (1 + t)). split; [tauto|]. rewrite exp_ln by tauto. rewrite V. f_equal. unfold t. field. lra.
Qed.

Lemma apx_pow lm e1 e2 x y a b M N : pow_accurate lm -> apx e1 x a -> apx e2 y b -> 0 < a ->
  e1 <= 1 -> e2 <= 1 / 10 -> Rabs (b * ln a) <= M -> Rabs b <= N -> M <= 400 -> N * e1 <= 10 ->
  apx (2 * eta + 10 / 9 * (e2 * M + N * e1)) (lm_pow lm x y) (Rpower a b).
Proof.
  intros P (d & D & X) (d' & D' & Y) A E1 E2 HM HN M4 N1.
  assert (Pa : 0 < a * exp d) by (apply Rmult_lt_0_compat; auto; apply exp_pos).
  pose proof (Rabs_pos d) as D0. pose proof (Rabs_pos d') as D0'. pose proof (Rabs_pos b) as B0.
  pose proof (Rabs_pos (b * ln a)) as M0.
  assert (L : ln (a * exp d) = ln a + d) by (rewrite ln_mult, ln_exp; auto; apply exp_pos).
  pose proof (exp_near d' e2 D' E2) as Z.
  assert (Z' : Rabs (exp d') <= 10 / 9).
  { rewrite Rabs_pos_eq by (left; apply exp_pos). apply Rabs_le_inv in Z. lra. }
  (* the exponent that is computed *)
  assert (Ex : b * exp d' * ln (a * exp d) = b * ln a + (b * ln a * (exp d' - 1) + b * exp d' * d)).
  { rewrite L. ring. }
  assert (W : Rabs (b * ln a * (exp d' - 1) + b * exp d' * d) <= 10 / 9 * (e2 * M + N * e1)).
  { replace (10 / 9 * (e2 * M + N * e1)) with (M * (10 / 9 * e2) + N * (10 / 9) * e1) by ring.
    apply Rabs_plus_le; rewrite !Rabs_mult.
    - rewrite <- Rabs_mult. apply Rmult_le_compat; auto using Rabs_pos.
    - apply Rmult_le_compat; auto using Rabs_pos.
      + apply Rmult_le_pos; apply Rabs_pos.
      + apply Rmult_le_compat; auto using Rabs_pos. }
  assert (W1 : 10 / 9 * (e2 * M + N * e1) <= 100) by nra.
  destruct (pow_ln lm x y (a * exp d) (b * exp d') P X Y Pa) as (t & T & V).
  { rewrite Ex. pose proof (Rabs_triang (b * ln a) (b * ln a * (exp d' - 1) + b * exp d' * d)). lra. }
  exists ((b * ln a * (exp d' - 1) + b * exp d' * d) + t). split.
  - replace (2 * eta + 10 / 9 * (e2 * M + N * e1)) with (10 / 9 * (e2 * M + N * e1) + 2 * eta) by ring.
    now apply Rabs_plus_le.
  - rewrite V. f_equal. rewrite exp_plus, <- Rmult_assoc. f_equal. unfold Rpower at 1. rewrite Ex, exp_plus. reflexivity.
Qed.

(** ** A C library with a correctly rounded pow exists (for the non-vacuity
    examples; noncomputable) *)
Definition near_double (r : R) : double :=
  binary_normalize 53 1024 p53 e1024 mode_NE (ZnearestE (scaled_mantissa radix2 (SpecFloat.fexp 53 1024) r))
    (cexp radix2 (SpecFloat.fexp 53 1024) r) false.
Lemma near_double_val r : exp (-500) <= Rabs r <= exp 500 -> dval (near_double r) = drnd r.
Proof.
  intro B. destruct (rnd_apx r B) as (d & D & E). unfold near_double.
  set (m := ZnearestE _). set (e := cexp _ _ _).
  assert (F : F2R (Float radix2 m e) = round radix2 (SpecFloat.fexp 53 1024) ZnearestE r) by reflexivity.
  pose proof (binary_normalize_correct 53 1024 p53 e1024 mode_NE m e false) as C. cbv zeta in C. cbn [round_mode] in C.
  rewrite F in C. pose proof (fexp_correct 53 1024 p53) as VE.
  rewrite (round_generic radix2 _ ZnearestE (round radix2 (SpecFloat.fexp 53 1024) ZnearestE r)) in C
    by (apply generic_format_round; auto; apply valid_rnd_N).
  unfold rnd in E |- *. destruct (Rlt_bool (Rabs (round radix2 (SpecFloat.fexp 53 1024) ZnearestE r)) (bpow radix2 1024)).
  - destruct C as (C1 & C2 & _). rewrite (val_finite 53 1024 _ C2). now rewrite C1.
  - destruct (Rlt_bool r 0); discriminate.
Qed.
Definition lm_exact : libm double :=
  mklibm (fun x y => match dval x, dval y with Fin a, Fin b => near_double (Rpower a b) | _, _ => B754_nan end)
    (fun x => x) (fun x => x) (fun x => x) (fun x => x) (fun x => x) (b_lit 53 1024 p53 e1024 (Qmake 355 113)).
Lemma lm_exact_accurate : pow_accurate lm_exact.
Proof.
  intros x y a b X Y A B. cbn [lm_exact lm_pow]. rewrite X, Y.
  assert (P : 0 < Rpower a b) by apply exp_pos. set (r := Rpower a b) in *.
  assert (B' : exp (-500) <= Rabs r <= exp 500) by (rewrite Rabs_pos_eq; lra).
  rewrite (near_double_val r B'). destruct (rnd_apx r B') as (d & D & E). exists (r * exp d). split; auto.
  replace (r * exp d - r) with (r * (exp d - 1)) by ring. rewrite Rabs_mult, (Rabs_pos_eq r), Rmult_comm by lra.
  apply Rmult_le_compat_r; [lra|]. pose proof eta_small. apply Rle_trans with (10 / 9 * eta); [apply exp_near; lra|].
  unfold eta. assert (B52 : bpow radix2 (-52) = 2 * bpow radix2 (-53)).
  { change (-53)%Z with (-52 + -1)%Z. rewrite bpow_plus. change (bpow radix2 (-1)) with (/ 2). lra. }
  rewrite B52. pose proof (bpow_gt_0 radix2 (-53)). lra.
Qed.
