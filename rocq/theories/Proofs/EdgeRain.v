(** * Rain estimators at fill values, in double precision *)
From Coq Require Import Reals Lra Lia ZArith QArith Qreals.
From Flocq Require Import Core IEEE754.BinarySingleNaN.
From Verif Require Import Base.Num Base.ListFacts Base.XReal Base.Ieee Spec.IeeeSpec Spec.PowSpec Spec.EdgeSpec Base.RelErr.
From Verif Require Import Spec.RainSpec Proofs.IeeeSign.
Open Scope R_scope.
#[local] Existing Instances p53 e1024 p24 e128.

(** rounding between integers *)
Lemma rnd_between a b r : (Z.abs a < 2 ^ 53)%Z -> (Z.abs b < 2 ^ 53)%Z -> IZR a <= r <= IZR b ->
  exists v, drnd r = Fin v /\ IZR a <= v <= IZR b.
Proof.
  intros A B (L & U). apply (rnd_mono 53 1024 p53) in L, U.
  rewrite rnd_int in L, U by auto with typeclass_instances.
  destruct (drnd r) as [v| | |]; cbn in L, U; try discriminate. exists v. split; auto.
  apply Rleb_true in L, U. lra.
Qed.
Lemma lit_int n : (Z.abs n < 2 ^ 53)%Z -> dval (b_lit 53 1024 p53 e1024 (Qmake n 1)) = Fin (IZR n).
Proof.
  intro L. rewrite val_lit. cbn [Qnum Qden]. replace (IZR n / 1) with (IZR n) by field.
  apply rnd_int; auto. exact p53. exact e1024.
Qed.
Lemma ten : dval (b_lit 53 1024 p53 e1024 10) = Fin 10. Proof. apply lit_int. lia. Qed.
Lemma one : dval (b_lit 53 1024 p53 e1024 1) = Fin 1. Proof. apply lit_int. lia. Qed.
Lemma rnd_down a r : (Z.abs a < 2 ^ 53)%Z -> r <= IZR a -> (exists v, drnd r = Fin v /\ v <= IZR a) \/ drnd r = NInf.
Proof.
  intros A U. apply (rnd_mono 53 1024 p53) in U. rewrite (rnd_int 53 1024) in U by auto with typeclass_instances.
  destruct (drnd r) as [v| | |]; cbn in U; try discriminate; auto. left. exists v. split; auto. now apply Rleb_true in U.
Qed.
Lemma fin_number (x : double) a : dval x = Fin a -> is_finite x = true /\ B2R x = a.
Proof. destruct x as [s|[]| |s m e H]; cbn; intro E; try discriminate; injection E as <-; auto. Qed.
Lemma nan_val (x : double) : dval x = NaN -> x = B754_nan.
Proof. destruct x as [s|[]| |s m e H]; cbn; congruence. Qed.

Lemma ln10_ge2 : 2 <= ln 10 <= 3.
Proof.
  assert (E2 : exp 2 <= 10).
  { replace 2 with (1 + 1) by ring. rewrite exp_plus. pose proof exp_le_3. pose proof (exp_pos 1). nra. }
  assert (E3 : 10 <= exp 3).
  { replace 3 with (1 + 1 + 1) by ring. rewrite !exp_plus. pose proof (exp_ineq1 1 ltac:(lra)).
    assert (G : 5 / 4 <= exp (1 / 4)) by (pose proof (exp_ineq1 (1 / 4) ltac:(lra)); lra).
    assert (Ee : exp 1 = exp (1 / 4) * exp (1 / 4) * (exp (1 / 4) * exp (1 / 4))) by (rewrite <- !exp_plus; f_equal; lra).
    assert (25 / 16 <= exp (1 / 4) * exp (1 / 4)) by nra. assert (24 / 10 <= exp 1) by (rewrite Ee; nra).
    assert (57 / 10 <= exp 1 * exp 1) by nra. nra. }
  split.
  - rewrite <- (ln_exp 2). destruct E2 as [E2| ->]; [|lra]. left. apply ln_increasing; auto. apply exp_pos.
  - rewrite <- (ln_exp 3). destruct E3 as [E3|E3]; [|rewrite E3 at 1; lra]. left. apply ln_increasing; auto. lra.
Qed.

Section E.
Variables (np1 : bool) (lm : libm double).
Hypothesis (Lm : pow_good lm) (Ed : edges lm).
#[local] Hint Extern 0 (FloatOps double) => exact (double_ops np1 lm) : typeclass_instances.

Lemma r_div (x y : double) a b : dval x = Fin a -> dval y = Fin b -> b <> 0 -> dval (fdiv x y) = drnd (a / b).
Proof.
  intros X Y B. change (dval (Bdiv mode_NE x y) = drnd (a / b)). rewrite val_div by (rewrite Y; congruence).
  rewrite X, Y. cbn. now destruct (Req_EM_T b 0).
Qed.
Lemma r_mul (x y : double) a b : dval x = Fin a -> dval y = Fin b -> dval (fmul x y) = drnd (a * b).
Proof. intros X Y. change (dval (Bmult mode_NE x y) = drnd (a * b)). rewrite val_mult, X, Y. reflexivity. Qed.
Lemma r_add (x y : double) a b : dval x = Fin a -> dval y = Fin b -> dval (fadd x y) = drnd (a + b).
Proof. intros X Y. change (dval (Bplus mode_NE x y) = drnd (a + b)). rewrite val_plus, X, Y. reflexivity. Qed.
Lemma r_sub (x y : double) a b : dval x = Fin a -> dval y = Fin b -> dval (fsub x y) = drnd (a - b).
Proof. intros X Y. change (dval (Bminus mode_NE x y) = drnd (a - b)). rewrite val_minus, X, Y. reflexivity. Qed.
Lemma rnd_zero r : r = 0 -> drnd r = Fin 0. Proof. intros ->. apply rnd_0. Qed.

Definition pz : double := B754_zero false.

(** a tenth of a number *)
Lemma tenth_small (x : double) a n : dval x = Fin a -> (Z.abs n < 2 ^ 50)%Z -> a <= 10 * IZR n ->
  exists v, dval (fdiv x (flit 10)) = Fin v /\ v <= IZR n.
Proof.
  intros X Hn A. pose proof (r_div x (flit 10) a 10 X ten ltac:(lra)) as D.
  destruct (rnd_down n (a / 10) ltac:(lia) ltac:(lra)) as [(v & V & L)|V].
  - exists v. split; auto. congruence.
  - exfalso. (* a/10 does not overflow *)
    destruct (fin_number x a X) as (Fx & Bx). pose proof (val_fmt 53 1024 x Fx) as Vf. rewrite Bx in Vf.
    assert (Rabs a < bpow radix2 1024) by (rewrite <- Bx; apply abs_B2R_lt_emax).
    destruct (Rle_dec a 0) as [S|S].
    + assert (M : xle (drnd a) (drnd (a / 10)) = true) by (apply rnd_mono; [exact p53|lra]). rewrite Vf, V in M. discriminate M.
    + assert (M : xle (drnd 0) (drnd (a / 10)) = true) by (apply rnd_mono; [exact p53|lra]). rewrite rnd_0, V in M by exact p53. discriminate M.
Qed.

Lemma lin_missing (x : double) : missing x -> lin x = pz.
Proof.
  intros (a & A & L). destruct (tenth_small x a (-900) A ltac:(lia) ltac:(lra)) as (v & V & Lv).
  apply (e_tiny lm Ed _ _ 10 v ten V); [lra|]. unfold Rpower. apply exp_increasing. pose proof ln10_ge2. nra.
Qed.

Lemma exp_4_le z : exp (-500) <= exp z -> -500 <= z.
Proof. intros H. destruct (Rle_dec (-500) z) as [G|G]; auto. assert (exp z < exp (-500)) by (apply exp_increasing; lra). lra. Qed.

(** ten to a moderate number is a positive number *)
Lemma pow10_pos (y : double) b : dval y = Fin b -> -150 <= b <= 150 ->
  exists v, dval (fpow (flit 10) y) = Fin v /\ 0 < v.
Proof.
  intros Y B. pose proof ln10_ge2 as L10.
  assert (R : exp (-500) <= Rpower 10 b <= exp 500).
  { unfold Rpower. split; apply exp_le_mono; nra. }
  destruct (pg_accurate lm Lm _ y 10 b ten Y ltac:(lra) R) as (v & V & E). exists v. split; auto.
  assert (P : 0 < Rpower 10 b) by (unfold Rpower; apply exp_pos).
  assert (Q : bpow radix2 (-52) <= 1 / 2) by (change (1 / 2) with (1 * / 2); rewrite Rmult_1_l; change (/ 2) with (bpow radix2 (-1)); apply bpow_le; lia).
  assert (E' : Rabs (v - Rpower 10 b) <= 1 / 2 * Rpower 10 b).
  { apply Rle_trans with (1 := E). apply Rmult_le_compat_r; lra. }
  apply Rabs_le_inv in E'. lra.
Qed.

Lemma lin_moderate (x : double) a : dval x = Fin a -> -100 <= a <= 100 -> exists v, dval (lin x) = Fin v /\ 0 < v.
Proof.
  intros A B. pose proof (r_div x (flit 10) a 10 A ten ltac:(lra)) as D.
  destruct (rnd_between (-10) 10 (a / 10) ltac:(lia) ltac:(lia) ltac:(lra)) as (b & Eb & Bb). rewrite Eb in D.
  apply (pow10_pos _ b D). lra.
Qed.

(** ** R(Z) of a missing reflectivity *)
Definition exponent_ok (zb : double) : Prop := exists b, dval zb = Fin b /\ 1 / 100 <= b <= 100.
Lemma inv_ok zb : exponent_ok zb -> exists v, dval (fdiv (flit 1) zb) = Fin v /\ 0 < v.
Proof.
  intros (b & B & R). pose proof (r_div (flit 1) zb 1 b one B ltac:(lra)) as D.
  assert (I : / 128 <= 1 / b <= 100).
  { split; apply Rmult_le_reg_r with b; try lra; unfold Rdiv; rewrite Rmult_assoc, Rinv_l by lra; lra. }
  assert (U : xle (drnd (1 / b)) (drnd 100) = true) by (apply rnd_mono; [exact p53|lra]).
  assert (L : xle (drnd (bpow radix2 (-7))) (drnd (1 / b)) = true).
  { apply rnd_mono; [exact p53|]. replace (bpow radix2 (-7)) with (/ 128) by (cbn; lra). lra. }
  rewrite (rnd_int 53 1024) in U by (auto with typeclass_instances; lia).
  rewrite (rnd_fmt 53 1024) in L.
  - rewrite D. destruct (drnd (1 / b)) as [v| | |]; try discriminate. exists v. split; auto. cbn [xle] in L. apply Rleb_true in L. pose proof (bpow_gt_0 radix2 (-7)). lra.
  - apply generic_format_bpow. unfold SpecFloat.fexp, SpecFloat.emin. lia.
  - rewrite Rabs_pos_eq by apply bpow_ge_0. apply bpow_lt. lia.
Qed.

Lemma zero_div (y : double) b : dval y = Fin b -> 0 < b -> fdiv pz y = pz.
Proof.
  intros Y B. destruct (fin_number y b Y) as (Fy & By). change (Bdiv mode_NE (pz : double) y = pz).
  assert (Sg : Bsign y = false) by (apply (sign_pos 53 1024); [auto|lra]).
  destruct y as [s|s| |s m e H]; try discriminate; [cbn in By; lra|]. cbn in Sg. subst s. reflexivity.
Qed.

Lemma R_Z_missing za zb (d : double) a : missing d -> dval za = Fin a -> 0 < a -> exponent_ok zb ->
  R_Z za zb d = pz.
Proof.
  intros M A P X. unfold R_Z. rewrite (lin_missing d M), (zero_div za a A P).
  destruct (inv_ok zb X) as (v & V & Pv). exact (e_zero lm Ed _ v V Pv).
Qed.
Lemma capped_missing cap c za zb (d : double) a : dval cap = Fin c -> -9000 <= c -> missing d -> dval za = Fin a -> 0 < a -> exponent_ok zb ->
  R_Z_capped cap za zb d = pz.
Proof.
  intros C Lc M A P X. unfold R_Z_capped. destruct M as (v & V & Lv).
  replace (flt cap d) with false.
  - apply (R_Z_missing za zb d a); auto. now exists v.
  - symmetry. change (Bltb cap d = false). rewrite val_lt, C, V. cbn. apply Rltb_false. lra.
Qed.

(** ** NaN in, NaN out *)
Lemma nan_div_l (y : double) : fdiv (B754_nan : double) y = B754_nan. Proof. destruct y as [|[]| |]; reflexivity. Qed.
Lemma nan_add_l (y : double) : fadd (B754_nan : double) y = B754_nan. Proof. destruct y as [|[]| |]; reflexivity. Qed.
Lemma nan_mul_r (y : double) : fmul y B754_nan = B754_nan. Proof. destruct y as [|[]| |]; reflexivity. Qed.
Lemma nan_sub_r (y : double) : fsub y B754_nan = B754_nan. Proof. destruct y as [|[]| |]; reflexivity. Qed.
Lemma lin_nan : lin (B754_nan : double) = B754_nan.
Proof. unfold lin. rewrite nan_div_l. apply (e_nan_exp lm Ed _ 10 ten). lra. Qed.
Lemma zero_zero : fdiv pz pz = B754_nan. Proof. reflexivity. Qed.

Lemma zdp_all_missing (d r : double) : missing d -> missing r -> zdp_of d r = B754_nan.
Proof.
  intros Md Mr. unfold zdp_of. rewrite (lin_missing d Md), (lin_missing r Mr), zero_zero, nan_sub_r. cbv zeta.
  change (fle (B754_nan : double) (flit 0)) with false. cbv iota.
  replace (flog10 (B754_nan : double)) with (B754_nan : double) by (symmetry; exact (e_log_nan lm Ed)). apply nan_mul_r.
Qed.
Lemma zrain_all_missing fa fb (d r : double) : missing d -> missing r -> zrain_of fa fb d r = B754_nan.
Proof.
  intros Md Mr. unfold zrain_of. rewrite zdp_all_missing, nan_mul_r, nan_add_l, nan_div_l by auto.
  apply (e_nan_exp lm Ed _ 10 ten). lra.
Qed.
Lemma ice_all_missing fa fb (d r : double) : missing d -> missing r -> ice_fraction fa fb d r = B754_nan.
Proof. intros Md Mr. unfold ice_fraction. now rewrite zrain_all_missing, nan_div_l, nan_sub_r by auto. Qed.
Lemma R_Z_nan za zb : exponent_ok zb -> R_Z za zb B754_nan = B754_nan.
Proof.
  intro X. unfold R_Z. rewrite lin_nan, nan_div_l. destruct (inv_ok zb X) as (v & V & P).
  apply (e_nan_base lm Ed _ v V). lra.
Qed.
Lemma capped_nan cap za zb : exponent_ok zb -> R_Z_capped cap za zb B754_nan = B754_nan.
Proof.
  intro X. unfold R_Z_capped. replace (flt cap B754_nan) with false; [now apply R_Z_nan|].
  change (false = Bltb cap B754_nan). destruct cap as [|[]| |]; reflexivity.
Qed.

(** ** Missing reflectivity, measured Zdr: the ice test reads minus infinity *)
Definition line_ok (fa fb : double) : Prop := exists a b, dval fa = Fin a /\ dval fb = Fin b /\ Rabs a <= 5 /\ Rabs b <= 100.

Lemma zdp_dz_missing (d r : double) a : missing d -> dval r = Fin a -> -100 <= a <= 100 ->
  exists v, dval (zdp_of d r) = Fin v /\ -220 <= v <= 0.
Proof.
  intros Md R B. unfold zdp_of. rewrite (lin_missing d Md). destruct (lin_moderate r a R B) as (w & W & Pw).
  rewrite (zero_div (lin r) w W Pw). cbv zeta. change (fle (fsub pz pz) (flit 0)) with true. cbv iota.
  set (q := Qmake 1 1000000000000). change (flit 0.000000000001) with (b_lit 53 1024 p53 e1024 q).
  assert (Q : exists t, dval (b_lit 53 1024 p53 e1024 q) = Fin t /\ bpow radix2 (-40) <= t <= bpow radix2 (-39)).
  { rewrite val_lit. unfold q. cbn [Qnum Qden].
    assert (U : xle (drnd (1 / 1000000000000)) (drnd (bpow radix2 (-39))) = true) by (apply rnd_mono; [exact p53|cbn; lra]).
    assert (L : xle (drnd (bpow radix2 (-40))) (drnd (1 / 1000000000000)) = true) by (apply rnd_mono; [exact p53|cbn; lra]).
    assert (G : forall e, (-50 <= e <= 0)%Z -> drnd (bpow radix2 e) = Fin (bpow radix2 e)).
    { intros e He. apply rnd_fmt; [apply generic_format_bpow; unfold SpecFloat.fexp, SpecFloat.emin; lia|].
      rewrite Rabs_pos_eq by apply bpow_ge_0. apply bpow_lt. lia. }
    rewrite G in L, U by lia. destruct (drnd (1 / 1000000000000)) as [t| | |]; try discriminate. exists t. split; auto.
    cbn [xle] in L, U. apply Rleb_true in L, U. lra. }
  destruct Q as (t & T & Bt). assert (P40 : 0 < bpow radix2 (-40)) by apply bpow_gt_0.
  destruct (e_log lm Ed _ t T ltac:(lra)) as (v & V & E). pose proof ln10_ge2 as L10. apply Rabs_lt_inv in E.
  assert (Ld : -20 <= ln t / ln 10 <= -2).
  { assert (Lt : 0 < t) by lra. unfold Rdiv. split.
    - apply Rmult_le_reg_r with (ln 10); [lra|]. rewrite Rmult_assoc, Rinv_l by lra.
      assert (exp (-40) <= t).
      { apply Rle_trans with (bpow radix2 (-40)); [|lra]. rewrite bpow_exp. apply exp_le_mono. pose proof ln_lt_2.
        assert (ln 2 < 1). { rewrite <- (ln_exp 1). apply ln_increasing; [lra|]. pose proof (exp_ineq1 1 ltac:(lra)). lra. } lra. }
      assert (-40 <= ln t). { rewrite <- (ln_exp (-40)). destruct H as [H| <-]; [|lra]. left. apply ln_increasing; auto. apply exp_pos. }
      lra.
    - apply Rmult_le_reg_r with (ln 10); [lra|]. rewrite Rmult_assoc, Rinv_l by lra.
      assert (t <= exp (-10)).
      { apply Rle_trans with (bpow radix2 (-39)); [lra|]. rewrite bpow_exp. apply exp_le_mono. pose proof ln_lt_2. lra. }
      assert (ln t <= -10). { rewrite <- (ln_exp (-10)). destruct H as [H| ->]; [|lra]. left. apply ln_increasing; auto. }
      lra. }
  pose proof (r_mul (flit 10) _ 10 v ten V) as D.
  destruct (rnd_between (-220) 0 (10 * v) ltac:(lia) ltac:(lia) ltac:(lra)) as (z & Z & Bz). exists z. split; auto.
  rewrite <- Z, <- D. reflexivity.
Qed.

Lemma ice_dz_missing fa fb (d r : double) a : line_ok fa fb -> missing d -> dval r = Fin a -> -100 <= a <= 100 ->
  dval (ice_fraction fa fb d r) = NInf.
Proof.
  intros (x & y & X & Y & Bx & By) Md R B. destruct (zdp_dz_missing d r a Md R B) as (v & V & Bv).
  apply Rabs_le_inv in Bx, By.
  destruct (rnd_between (-1100) 1100  (x * v) ltac:(lia) ltac:(lia) ltac:(nra)) as (m & M & Bm).
  pose proof (r_mul fa _ x v X V) as D1. rewrite M in D1.
  destruct (rnd_between (-1200) 1200 (m + y) ltac:(lia) ltac:(lia) ltac:(lra)) as (s & S & Bs).
  pose proof (r_add _ fb m y D1 Y) as D2. rewrite S in D2.
  destruct (rnd_between (-120) 120 (s / 10) ltac:(lia) ltac:(lia) ltac:(lra)) as (t & T & Bt).
  pose proof (r_div _ (flit 10) s 10 D2 ten ltac:(lra)) as D3. rewrite T in D3.
  destruct (pow10_pos _ t D3 ltac:(lra)) as (w & W & Pw).
  unfold ice_fraction. rewrite (lin_missing d Md). unfold zrain_of.
  set (zr := fpow _ _) in *. clearbody zr.
  destruct (fin_number zr w W) as (Fz & Bz). assert (Sg : Bsign zr = false) by (apply (sign_pos 53 1024); [auto|lra]).
  destruct zr as [q|q| |q m' e' H]; try discriminate; [cbn in Bz; lra|]. cbn in Sg. subst q. reflexivity.
Qed.

(** ** R(Z, Zdr) of a missing reflectivity *)
Lemma R_Z_Zdr_missing za zb zc (d r : double) a b c x : missing d -> dval za = Fin a ->
  dval zb = Fin b -> 0 < b -> dval zc = Fin c -> Rabs c <= 1 -> dval r = Fin x -> -100 <= x <= 100 ->
  dval (R_Z_Zdr za zb zc d r) = Fin 0.
Proof.
  intros Md A B Pb C Bc R Bx. unfold R_Z_Zdr. rewrite (lin_missing d Md).
  replace (fpow pz zb) with pz by (symmetry; exact (e_zero lm Ed zb b B Pb)).
  assert (Z : dval (fmul za pz) = Fin 0).
  { rewrite (r_mul za pz a 0 A eq_refl). apply rnd_zero. lra. }
  apply Rabs_le_inv in Bc.
  destruct (rnd_between (-100) 100 (c * x) ltac:(lia) ltac:(lia) ltac:(nra)) as (m & M & Bm).
  pose proof (r_mul zc r c x C R) as D. rewrite M in D.
  destruct (pow10_pos _ m D ltac:(lra)) as (w & W & _).
  rewrite (r_mul _ _ 0 w Z W). apply rnd_zero. lra.
Qed.
End E.
