(** Rounding errors of the drop-size retrievals of 2013 (S band) and 2009 (C
    band) in double precision. *)
From Coq Require Import Reals Lra Lia ZArith QArith.
From Flocq Require Import Core IEEE754.BinarySingleNaN.
From Verif Require Import Base.Num Base.XReal Base.Ieee Base.RelErr Base.PosErr Spec.IeeeSpec Spec.PowIntSpec Spec.LibmSpec.
From Verif Require Import Spec.RainSpec Spec.DsdSpec Model.Dsd.
From Verif Require Import Proofs.BetaErr Proofs.HidErr Proofs.IeeeRain Proofs.EdgeRain Proofs.FundErr Proofs.IceErr Proofs.IeeeSign Proofs.MassErr Proofs.DsdProofs.
From Verif Require Model.LiquidIce.
Open Scope R_scope.
#[local] Existing Instances p53 e1024 p24 e128.

Lemma d0_2013_ge r : 4 / 10 <= d0_2013 r.
Proof.
  unfold d0_2013. destruct Rlt_dec as [H|H].
  - destruct (Rle_dec r 0).
    + assert (0 <= r^2) by nra. assert (r^3 <= 0) by nra. assert (0 <= r^4) by nra.
      assert (4/10 <= 6125/10000 * r^2 + 457/1000 * r + 8808/10000) by nra. lra.
    + assert (0 <= r^4) by nra. assert (r^3 <= 1) by nra. assert (r^3 <= r) by nra. assert (0 <= r^2) by nra. lra.
  - assert (0 < 536/10000 * (r * r) - 1971/10000 * r + 6261/10000) by nra.
    assert (0 < r * (536/10000 * (r * r) - 1971/10000 * r + 6261/10000))
      by (apply Rmult_lt_0_compat; lra). lra.
Qed.
Lemma d0_2009_ge r : -5/10 <= r -> 4 / 10 <= d0_2009 r.
Proof.
  intro Hr. unfold d0_2009. destruct Rlt_dec; [lra|]. destruct Rle_dec as [H|H].
  - assert (S : 0 <= r * r) by nra.
    assert (Q : 0 <= (r * r) * (r * r)) by (apply Rmult_le_pos; lra).
    replace (r^4) with ((r*r)*(r*r)) by ring. replace (r^2) with (r*r) by ring. replace (r^3) with (r * (r * r)) by ring.
    destruct (Rle_dec r 0).
    + assert (r * (r * r) <= 0) by nra. nra.
    + assert (r * (r * r) <= 125/100 * (125/100 * r)) by nra. nra.
  - pose proof (Rle_0_sqr (r - 4255/1000)) as Q. unfold Rsqr in Q.
    assert (0 < 355/10000 * (r * r) - 3021/10000 * r + 10556/10000) by lra.
    assert (0 < r * (355/10000 * (r * r) - 3021/10000 * r + 10556/10000))
      by (apply Rmult_lt_0_compat; lra). lra.
Qed.
Lemma pow_bound r n : Rabs r <= 10 -> Rabs (r ^ n) <= 10 ^ n.
Proof. intro H. rewrite <- RPow_abs. apply pow_incr. split; auto using Rabs_pos. Qed.

Lemma val_sf x s m e : B2SF x = SpecFloat.S754_finite s m e -> dval x = Fin (F2R (Float radix2 (SpecFloat.cond_Zopp s (Zpos m)) e)).
Proof. intro H. destruct x; try discriminate. injection H as -> -> ->. reflexivity. Qed.
Lemma lit_125 : dval (b_lit 53 1024 p53 e1024 1.25%Q) = Fin (125 / 100).
Proof.
  rewrite (val_sf _ false 5629499534213120 (-52)) by (vm_compute; reflexivity).
  f_equal. unfold F2R. cbn. lra.
Qed.
Lemma lit_mhalf : dval (b_lit 53 1024 p53 e1024 (-0.5)%Q) = Fin (-5 / 10).
Proof.
  rewrite (val_sf _ true 4503599627370496 (-53)) by (vm_compute; reflexivity).
  f_equal. unfold F2R. cbn. lra.
Qed.

Section Dsd.
Variables (np1 : bool) (lm : libm double).
Hypothesis Acc : pow_int lm.
#[local] Instance dop : FloatOps double := double_ops np1 lm.

(** one term of the polynomials *)
Lemma term_near (w : double) r q c C n N E :
  dval w = Fin r -> Rabs r <= 10 -> r = 0 \/ exp (-100) <= Rabs r ->
  IZR (Qnum q) / IZR (Zpos (Qden q)) = c -> Rabs c <= C -> C <= 2 -> (1 <= n <= 4)%nat -> 10 ^ n = N ->
  3 * (C * N) / 10 ^ 15 + 1 / 10 ^ 14 <= E ->
  near E (power_law w (flit q) (flit (inject_Z (Z.of_nat n)))) (c * r ^ n).
Proof.
  intros W R Nt Q HC HC2 Hn HN HE. unfold power_law.
  assert (Pn : 1 <= N <= 10 ^ 4) by (subst N; split; [apply pow_R1_Rle; lra|apply Rle_pow; [lra|lia]]).
  destruct (pi_int lm Acc w r n Hn W) as (v & V & D).
  { destruct Nt as [Z|Z]; [now left|right]. split; auto. pose proof (exp_ge 100). lra. }
  pose proof (pow_bound r n R) as B. rewrite HN in B.
  assert (b52 : bpow radix2 (-52) <= 23 / 10 ^ 17). { cbn. lra. }
  assert (NP : near (3 / 10 ^ 16 * N) (fpow w (flit (inject_Z (Z.of_nat n)))) (r ^ n)).
  { exists v. split; [exact V|]. apply Rle_trans with (1 := D). pose proof (bpow_gt_0 radix2 (-52)). 
    apply Rmult_le_compat; auto using Rabs_pos; lra. }
  pose proof (Rabs_pos c).
  assert (P1 : 0 <= C * N) by (apply Rmult_le_pos; lra).
  assert (U1 : C * N <= 2 * N) by (apply Rmult_le_compat_r; lra).
  apply (N_mul np1 lm) with (e1 := ud * C + taud) (e2 := 3 / 10 ^ 16 * N) (A := C) (B := N); auto; try lra.
  - apply (N_lit np1 lm); auto; [lra|]. unfold ud. lra.
  - unfold ud, taud. lra.
  - unfold ud, taud in *. nra.
Qed.

Ltac nums := cbn [Qnum Qden]; try lra; try (rewrite ?Rabs_pos_eq by lra; lra); try (rewrite Rabs_left by lra; lra); try lia; try (simpl; lra).
Ltac term q c C n := lazymatch goal with |- context [power_law ?w (flit q) _] => idtac end.

Lemma sum_near e1 e2 (x y : double) a b A B E : near e1 x a -> near e2 y b -> Rabs a <= A -> Rabs b <= B -> A + B <= 10 ^ 5 ->
  e1 <= 1 / 10 ^ 7 -> e2 <= 1 / 10 ^ 7 -> e1 + e2 + 2 * ((A + B) / 10 ^ 15) + 1 / 10 ^ 20 <= E ->
  near E (fadd x y) (a + b) /\ Rabs (a + b) <= A + B.
Proof.
  intros X Y HA HB HS E1 E2 HE. assert (S : Rabs (a + b) <= A + B) by now apply Rabs_plus_le. split; auto.
  assert (P1 := X). assert (P2 := Y). destruct P1 as (x' & _ & D1), P2 as (y' & _ & D2).
  pose proof (Rabs_pos (x' - a)). pose proof (Rabs_pos (y' - b)).
  pose proof (Rabs_pos a). pose proof (Rabs_pos b).
  apply (N_add np1 lm) with (e1 := e1) (e2 := e2) (M := A + B); auto; try lra. unfold ud, taud. lra.
Qed.

Section Gate.
Variables (w : double) (r : R).
Hypotheses (W : dval w = Fin r) (R10 : Rabs r <= 10) (Nt : r = 0 \/ exp (-100) <= Rabs r).

Lemma low_near qa qb qc qd qe a b c d e :
  IZR (Qnum qa) / IZR (Zpos (Qden qa)) = a -> IZR (Qnum qb) / IZR (Zpos (Qden qb)) = b ->
  IZR (Qnum qc) / IZR (Zpos (Qden qc)) = c -> IZR (Qnum qd) / IZR (Zpos (Qden qd)) = d ->
  IZR (Qnum qe) / IZR (Zpos (Qden qe)) = e ->
  Rabs a <= 5 / 100 -> Rabs b <= 1 / 2 -> Rabs c <= 1 -> Rabs d <= 1 -> Rabs e <= 1 ->
  near (15 / 10 ^ 12) (d0_low_zdr w (flit qa) (flit qb) (flit qc) (flit qd) (flit qe))
    (a * r ^ 4 + b * r ^ 3 + c * r ^ 2 + d * r + e) /\
  Rabs (a * r ^ 4 + b * r ^ 3 + c * r ^ 2 + d * r + e) <= 1200.
Proof.
  intros Qa Qb Qc Qd Qe Ba Bb Bc Bd Be.
  assert (T4 : near (16 / 10 ^ 13) (power_law w (flit qa) (flit 4%Q)) (a * r ^ 4)) by (apply (term_near w r qa a (5 / 100) 4 (10 ^ 4)); auto; try lia; lra).
  assert (T3 : near (16 / 10 ^ 13) (power_law w (flit qb) (flit 3%Q)) (b * r ^ 3)) by (apply (term_near w r qb b (1 / 2) 3 (10 ^ 3)); auto; try lia; lra).
  assert (T2 : near (4 / 10 ^ 13) (power_law w (flit qc) (flit 2%Q)) (c * r ^ 2)) by (apply (term_near w r qc c 1 2 (10 ^ 2)); auto; try lia; lra).
  assert (T1 : near (1 / 10 ^ 13) (power_law w (flit qd) (flit 1%Q)) (d * r)).
  { replace (d * r) with (d * r ^ 1) by ring. apply (term_near w r qd d 1 1 (10 ^ 1)); auto; try lia; lra. }
  assert (T0 : near (1 / 10 ^ 14) (flit qe : double) e) by (apply (N_lit np1 lm); auto; [lra|unfold ud, taud; lra]).
  assert (B : forall n N x k, 10 ^ n = N -> Rabs x <= k -> Rabs (x * r ^ n) <= k * N).
  { intros n N x k <- Hx. rewrite Rabs_mult. apply Rmult_le_compat; auto using Rabs_pos. now apply pow_bound. }
  assert (B4 := B 4%nat (10 ^ 4) a (5 / 100) eq_refl Ba). assert (B3 := B 3%nat (10 ^ 3) b (1 / 2) eq_refl Bb).
  assert (B2 := B 2%nat (10 ^ 2) c 1 eq_refl Bc). assert (B1 := B 1%nat (10 ^ 1) d 1 eq_refl Bd). rewrite pow_1 in B1.
  unfold d0_low_zdr.
  destruct (sum_near _ _ _ _ _ _ _ _ (53 / 10 ^ 13) T4 T3 B4 B3) as (S1 & M1); try lra.
  destruct (sum_near _ _ _ _ _ _ _ _ (80 / 10 ^ 13) S1 T2 M1 B2) as (S2 & M2); try lra.
  destruct (sum_near _ _ _ _ _ _ _ _ (105 / 10 ^ 13) S2 T1 M2 B1) as (S3 & M3); try lra.
  destruct (sum_near _ _ _ _ _ _ _ _ (15 / 10 ^ 12) S3 T0 M3 Be) as (S4 & M4); try lra.
  split; [exact S4|lra].
Qed.
Lemma high_near qb qc qd qe b c d e :
  IZR (Qnum qb) / IZR (Zpos (Qden qb)) = b ->
  IZR (Qnum qc) / IZR (Zpos (Qden qc)) = c -> IZR (Qnum qd) / IZR (Zpos (Qden qd)) = d ->
  IZR (Qnum qe) / IZR (Zpos (Qden qe)) = e ->
  Rabs b <= 1 / 2 -> Rabs c <= 1 -> Rabs d <= 11 / 10 -> Rabs e <= 11 / 10 ->
  near (15 / 10 ^ 12) (d0_high_zdr w (flit qb) (flit qc) (flit qd) (flit qe)) (b * r ^ 3 + c * r ^ 2 + d * r + e) /\
  Rabs (b * r ^ 3 + c * r ^ 2 + d * r + e) <= 1200.
Proof.
  intros Qb Qc Qd Qe Bb Bc Bd Be.
  assert (T3 : near (16 / 10 ^ 13) (power_law w (flit qb) (flit 3%Q)) (b * r ^ 3)) by (apply (term_near w r qb b (1 / 2) 3 (10 ^ 3)); auto; try lia; lra).
  assert (T2 : near (4 / 10 ^ 13) (power_law w (flit qc) (flit 2%Q)) (c * r ^ 2)) by (apply (term_near w r qc c 1 2 (10 ^ 2)); auto; try lia; lra).
  assert (T1 : near (1 / 10 ^ 13) (power_law w (flit qd) (flit 1%Q)) (d * r)).
  { replace (d * r) with (d * r ^ 1) by ring. apply (term_near w r qd d (11 / 10) 1 (10 ^ 1)); auto; try lia; lra. }
  assert (T0 : near (1 / 10 ^ 14) (flit qe : double) e) by (apply (N_lit np1 lm); auto; [lra|unfold ud, taud; lra]).
  assert (B : forall n N x k, 10 ^ n = N -> Rabs x <= k -> Rabs (x * r ^ n) <= k * N).
  { intros n N x k <- Hx. rewrite Rabs_mult. apply Rmult_le_compat; auto using Rabs_pos. now apply pow_bound. }
  assert (B3 := B 3%nat (10 ^ 3) b (1 / 2) eq_refl Bb).
  assert (B2 := B 2%nat (10 ^ 2) c 1 eq_refl Bc). assert (B1 := B 1%nat (10 ^ 1) d (11 / 10) eq_refl Bd). rewrite pow_1 in B1.
  unfold d0_high_zdr.
  destruct (sum_near _ _ _ _ _ _ _ _ (40 / 10 ^ 13) T3 T2 B3 B2) as (S1 & M1); try lra.
  destruct (sum_near _ _ _ _ _ _ _ _ (60 / 10 ^ 13) S1 T1 M1 B1) as (S2 & M2); try lra.
  destruct (sum_near _ _ _ _ _ _ _ _ (15 / 10 ^ 12) S2 T0 M2 Be) as (S3 & M3); try lra.
  split; [exact S3|lra].
Qed.

Lemma cmp_le q c (y : double) v : dval (flit q : double) = Fin c -> dval y = Fin v -> fle (flit q) y = Rleb c v.
Proof. intros Q Y. change (Bleb (flit q) y = Rleb c v). rewrite val_le, Q, Y. reflexivity. Qed.
Lemma cmp_lt q c (y : double) v : dval (flit q : double) = Fin c -> dval y = Fin v -> flt y (flit q) = Rltb v c.
Proof. intros Q Y. change (Bltb y (flit q) = Rltb v c). rewrite val_lt, Q, Y. reflexivity. Qed.
Lemma cmp_lt' q c (y : double) v : dval (flit q : double) = Fin c -> dval y = Fin v -> flt (flit q) y = Rltb c v.
Proof. intros Q Y. change (Bltb (flit q) y = Rltb c v). rewrite val_lt, Q, Y. reflexivity. Qed.
Lemma cmp_le' q c (y : double) v : dval (flit q : double) = Fin c -> dval y = Fin v -> fle y (flit q) = Rleb v c.
Proof. intros Q Y. change (Bleb y (flit q) = Rleb v c). rewrite val_le, Q, Y. reflexivity. Qed.

Ltac ab := cbn [Qnum Qden]; first [lra | rewrite Rabs_pos_eq by lra; lra | rewrite Rabs_left by lra; lra].
Lemma d0_2013_near z : near (15 / 10 ^ 12) (g13_d0 z w) (d0_2013 r) /\ Rabs (d0_2013 r) <= 1200.
Proof.
  unfold g13_d0, d0_2013. rewrite (cmp_le 1%Q 1 w r (lit_int 1 ltac:(lia)) W), (cmp_lt 1%Q 1 w r (lit_int 1 ltac:(lia)) W).
  destruct (Rleb_spec 1 r), (Rltb_spec r 1), (Rlt_dec r 1); try lra.
  - refine (eq_rect _ (fun t => near _ _ t /\ Rabs t <= 1200) (high_near _ _ _ _ (536/10000) (-1971/10000) (6261/10000) (10815/10000) _ _ _ _ _ _ _ _) _ _); try ab; lra.
  - refine (eq_rect _ (fun t => near _ _ t /\ Rabs t <= 1200) (low_near _ _ _ _ _ (424/10000) (-4571/10000) (6125/10000) (457/1000) (8808/10000) _ _ _ _ _ _ _ _ _ _) _ _); try ab; lra.
Qed.
Lemma d0_2009_near z : -5 / 10 <= r -> near (15 / 10 ^ 12) (g09_d0 z w) (d0_2009 r) /\ Rabs (d0_2009 r) <= 1200.
Proof.
  intro L. unfold g09_d0, d0_2009. rewrite (cmp_lt' 1.25%Q (125/100) w r lit_125 W), (cmp_le' 1.25%Q (125/100) w r lit_125 W), (cmp_le (-0.5)%Q (-5/10) w r lit_mhalf W).
  destruct (Rltb_spec (125/100) r), (Rleb_spec r (125/100)), (Rleb_spec (-5/10) r), (Rlt_dec r (-5/10)), (Rle_dec r (125/100)); try lra; cbn [andb].
  - refine (eq_rect _ (fun t => near _ _ t /\ Rabs t <= 1200) (high_near _ _ _ _ (355/10000) (-3021/10000) (10556/10000) (6844/10000) _ _ _ _ _ _ _ _) _ _); try ab; lra.
  - refine (eq_rect _ (fun t => near _ _ t /\ Rabs t <= 1200) (low_near _ _ _ _ _ (203/10000) (-1488/10000) (2209/10000) (5571/10000) (801/1000) _ _ _ _ _ _ _ _ _ _) _ _); try ab; lra.
Qed.
Lemma d0_2009_low z d : dval z = Fin d -> r < -5 / 10 -> dval (g09_d0 z w) = Fin 0.
Proof.
  intros Z L. unfold g09_d0. rewrite (cmp_lt' 1.25%Q (125/100) w r lit_125 W), (cmp_le (-0.5)%Q (-5/10) w r lit_mhalf W).
  destruct (Rltb_spec (125/100) r), (Rleb_spec (-5/10) r); try lra. cbn [andb].
  refine (eq_trans (r_mul np1 lm _ z 0 d (z0 np1 lm) Z) _). apply rnd_zero. ring.
Qed.
End Gate.

(** the shape parameter *)
Lemma mu_three z d : dval z = Fin d -> dval (fadd (fmul (flit 0%Q) z) (flit 3%Q) : double) = Fin 3.
Proof.
  intro Z. assert (V : dval (fmul (flit 0%Q) z : double) = Fin 0).
  { refine (eq_trans (r_mul np1 lm _ z 0 d (z0 np1 lm) Z) _). apply rnd_zero. ring. }
  refine (eq_trans (r_add np1 lm _ _ 0 3 V (lit_int 3 ltac:(lia))) _). replace (0 + 3) with (IZR 3) by lra.
  apply rnd_int; [exact p53|exact e1024|cbn; lia].
Qed.

(** power law with an accurate diameter *)
Lemma B_pow8 e1 e2 L (x y : double) a b : ab e1 L x a -> apx e2 y b -> e1 <= 1 / 1000 -> e2 <= 1 / 1000 -> Rabs b <= 8 ->
  8 * L <= 400 -> ab (2 * eta + 10 / 9 * (e2 * (8 * L) + 8 * e1)) (8 * L) (fpow x y) (Rpower a b).
Proof.
  intros (A & P) B E1 E2 HN M. pose proof (pb_pos _ _ P). pose proof (pb_ln _ _ P) as Ll. pose proof (Rabs_pos (ln a)). pose proof (Rabs_pos b).
  pose proof (apx_pos _ _ _ A).
  split; [|now apply pb_pow]. apply apx_pow; auto; try lra.
  - exact (pi_pow lm Acc).
  - rewrite Rabs_mult. apply Rmult_le_compat; lra.
Qed.
Lemma d0_apx (x : double) X : near (15 / 10 ^ 12) x X -> Rabs X <= 1200 -> 4 / 10 <= X -> ab (4 / 10 ^ 11) 11 x X.
Proof.
  intros N U L. rewrite Rabs_pos_eq in U by lra. split.
  - apply apx_le with (102 / 100 * (38 / 10 ^ 12)); [|lra]. apply near_apx with (15 / 10 ^ 12); auto; lra.
  - split.
    + apply Rle_trans with (2 := L). change (exp (-11)) with (exp (Ropp 11)). rewrite exp_Ropp. pose proof (exp_ge 11).
      apply Rle_trans with (/ 11); [apply Rinv_le_contravar; lra|lra].
    + apply Rle_trans with (1 := U). pose proof exp10_big. pose proof (exp_ge 1). replace 11 with (10 + 1) by lra. rewrite exp_plus. nra.
Qed.
Section Nw.
Variables (z : double) (d : R).
Hypotheses (Z : dval z = Fin d) (T : nt d) (U : Rabs d <= 100).
Lemma nw_near qc qe c e (x : double) X :
  near (15 / 10 ^ 12) x X -> Rabs X <= 1200 -> 4 / 10 <= X ->
  IZR (Qnum qc) / IZR (Zpos (Qden qc)) = c -> 1 / 1000 <= c <= 1000 -> IZR (Qnum qe) / IZR (Zpos (Qden qe)) = e -> 7 <= e <= 8 ->
  ab (36 / 10 ^ 11) 98 (power_law x (flit qc) (flit qe)) (c * Rpower X e).
Proof.
  intros N B L Qc Rc Qe Re. unfold power_law. pose proof eta_num. pose proof eta_pos.
  assert (E : apx eta (flit qe : double) e) by (rewrite <- Qe; apply apx_lit; rewrite Qe; apply pb_safe with 10; [apply pb_const; lra|lra]).
  assert (P := B_pow8 _ _ _ _ _ _ _ (d0_apx x X N B L) E ltac:(lra) ltac:(lra) ltac:(rewrite Rabs_pos_eq; lra) ltac:(lra)).
  assert (Q := B_mul np1 lm _ _ _ _ _ _ _ _ (B_lit np1 lm qc c 10 Qc ltac:(apply pb_const; lra) ltac:(lra)) P ltac:(lra) ltac:(lra)).
  apply B_le with (1 := Q); lra.
Qed.
Lemma lin_ab : ab (47 * eta) 40 (LiquidIce.linearize z) (linZ d).
Proof. exact (lin_apx np1 lm (pi_pow lm Acc) z d Z T U). Qed.
Lemma Nw_2013 (x : double) X : near (15 / 10 ^ 12) x X -> Rabs X <= 1200 -> 4 / 10 <= X ->
  within (1 / 10 ^ 9) (fdiv (fmul (flit 19.76%Q) (LiquidIce.linearize z)) (power_law x (flit 1%Q) (flit 7.46%Q)))
    (1976/100 * linZ d / Rpower X (746/100)).
Proof.
  intros N B L. pose proof eta_num. pose proof eta_pos.
  assert (P := nw_near 1%Q 7.46%Q 1 (746/100) x X N B L ltac:(cbn [Qnum Qden]; lra) ltac:(lra) ltac:(cbn [Qnum Qden]; lra) ltac:(lra)).
  rewrite Rmult_1_l in P.
  assert (M := B_mul np1 lm _ _ _ _ _ _ _ _ (B_lit np1 lm 19.76%Q (1976/100) 10 ltac:(cbn [Qnum Qden]; lra) ltac:(apply pb_const; lra) ltac:(lra)) lin_ab ltac:(lra) ltac:(lra)).
  assert (D := B_div np1 lm _ _ _ _ _ _ _ _ M P ltac:(lra) ltac:(lra)).
  apply apx_within with (1 := proj1 D); lra.
Qed.
Lemma Nw_2009 (x : double) X : near (15 / 10 ^ 12) x X -> Rabs X <= 1200 -> 4 / 10 <= X ->
  within (1 / 10 ^ 9) (fdiv (LiquidIce.linearize z) (power_law x (flit 0.056%Q) (flit 7.319%Q)))
    (linZ d / (56/1000 * Rpower X (7319/1000))).
Proof.
  intros N B L. pose proof eta_num. pose proof eta_pos.
  assert (P := nw_near 0.056%Q 7.319%Q (56/1000) (7319/1000) x X N B L ltac:(cbn [Qnum Qden]; lra) ltac:(lra) ltac:(cbn [Qnum Qden]; lra) ltac:(lra)).
  assert (D := B_div np1 lm _ _ _ _ _ _ _ _ lin_ab P ltac:(lra) ltac:(lra)).
  apply apx_within with (1 := proj1 D); lra.
Qed.
(** no diameter: an infinite concentration *)
Lemma Nw_2009_inf (x : double) : dval x = Fin 0 ->
  fdiv (LiquidIce.linearize z) (power_law x (flit 0.056%Q) (flit 7.319%Q)) = (B754_infinity false : double).
Proof.
  intro X. unfold power_law.
  assert (E : fpow x (flit 7.319%Q : double) = B754_zero false).
  {
    assert (N : near (1 / 10 ^ 3) (flit 7.319%Q : double) (7319 / 1000)).
    { apply (N_lit np1 lm); [cbn [Qnum Qden]; lra| |]; rewrite Rabs_pos_eq by lra; unfold ud, taud; lra. }
    destruct N as (y & Y & D'). apply Rabs_le_inv in D'.
    apply (pi_zero lm Acc x _ y X Y ltac:(lra)). intros n En.
    assert (IZR 7 < IZR n < IZR 8) by lra. destruct H as (H1 & H2). apply lt_IZR in H1. apply lt_IZR in H2. lia. }
  rewrite E. replace (fmul (flit 0.056%Q) (B754_zero false) : double) with (B754_zero false : double) by (vm_compute; reflexivity).
  destruct lin_ab as ((t & _ & V) & P). pose proof (pb_pos _ _ P) as Pp.
  assert (0 < linZ d * exp t) by (apply Rmult_lt_0_compat; auto; apply exp_pos).
  destruct (LiquidIce.linearize z) as [s|s| |s m e He]; try discriminate; [|destruct s; discriminate|].
  - injection V as V. lra.
  - destruct s; [|reflexivity]. assert (V' : Fin (F2R (Float radix2 (Zneg m) e)) = Fin (linZ d * exp t)) by exact V.
    assert (F2R (Float radix2 (Zneg m) e) < 0) by (apply F2R_lt_0; reflexivity).
    assert (G : F2R (Float radix2 (Zneg m) e) = linZ d * exp t) by congruence. rewrite G in *. lra.
Qed.
End Nw.
End Dsd.
