(** Rounding errors of the difference reflectivity, the rain line and the
    liquid/ice partition in double precision. *)
From Coq Require Import Reals Lra Lia ZArith QArith.
From Flocq Require Import Core IEEE754.BinarySingleNaN.
From Verif Require Import Base.Num Base.XReal Base.Ieee Base.RelErr Base.PosErr Spec.IeeeSpec Spec.LibmSpec.
From Verif Require Import Spec.RainSpec Spec.RainDefaultSpec.
From Verif Require Import Proofs.BetaErr Proofs.HidErr Proofs.IeeeRain Proofs.EdgeRain Proofs.FundErr.
Open Scope R_scope.
#[local] Existing Instances p53 e1024 p24 e128.

Lemma eta_num : eta <= 113 / 10 ^ 18.
Proof. assert (B : bpow radix2 (-53) = / 9007199254740992) by (cbn; lra). unfold eta. rewrite B. lra. Qed.

Section Ice.
Variables (np1 : bool) (lm : libm double).
Hypothesis Acc : libm_accurate lm.
#[local] Instance dop : FloatOps double := double_ops np1 lm.

Lemma N_exact (x : double) r : dval x = Fin r -> near 0 x r.
Proof. intro X. exists r. split; auto. rewrite Rminus_diag_eq, Rabs_R0; lra. Qed.
Lemma N_rnd e (x : double) r s M E : dval x = drnd s -> Rabs (s - r) <= e -> Rabs r <= M -> M <= 10 ^ 20 -> 0 <= e <= 1 ->
  e + ud * (M + e) + taud <= E -> near E x r.
Proof.
  intros X D B HM He HE. apply near_le with (e + ud * (Rabs r + e) + taud).
  - apply near_rnd with s; auto. assert (10 ^ 20 + 1 <= 10 ^ 300); [|lra].
    replace (10 ^ 300) with (10 ^ 21 * 10 ^ 279) by (rewrite <- pow_add; reflexivity).
    assert (1 <= 10 ^ 279) by (apply pow_R1_Rle; lra). assert (1 <= 10 ^ 21) by (apply pow_R1_Rle; lra). 
    assert (10 ^ 21 * 1 <= 10 ^ 21 * 10 ^ 279) by (apply Rmult_le_compat_l; lra). 
    replace (10 ^ 21) with (10 * 10 ^ 20) in * by (simpl; ring). assert (1 <= 10 ^ 20) by (apply pow_R1_Rle; lra). lra.
  - unfold ud in *. lra.
Qed.
Lemma N_lit q c E : IZR (Qnum q) / IZR (Zpos (Qden q)) = c -> Rabs c <= 10 ^ 20 -> ud * Rabs c + taud <= E ->
  near E (@flit double _ q) c.
Proof.
  intros <- B HE. apply (N_rnd 0 _ _ _ (Rabs (IZR (Qnum q) / IZR (Zpos (Qden q)))) E (val_lit 53 1024 p53 e1024 q)); auto; try lra.
  rewrite Rminus_diag_eq, Rabs_R0; lra.
Qed.
Lemma N_mul e1 e2 (x y : double) a b A B E : near e1 x a -> near e2 y b -> Rabs a <= A -> Rabs b <= B ->
  A <= 10 ^ 5 -> B <= 10 ^ 5 -> e1 <= 1 / 10 ^ 6 -> e2 <= 1 / 10 ^ 6 ->
  e1 * B + e2 * A + e1 * e2 + ud * (A * B + (e1 * B + e2 * A + e1 * e2)) + taud <= E ->
  near E (fmul x y) (a * b).
Proof.
  intros (x' & X & Dx) (y' & Y & Dy) HA HB BA BB E1 E2 HE.
  pose proof (Rabs_pos a). pose proof (Rabs_pos b). pose proof (Rabs_pos (x' - a)). pose proof (Rabs_pos (y' - b)).
  assert (P1 : 0 <= e1 * B) by (apply Rmult_le_pos; lra). assert (P2 : 0 <= e2 * A) by (apply Rmult_le_pos; lra).
  assert (P3 : 0 <= e1 * e2) by (apply Rmult_le_pos; lra).
  assert (U1 : e1 * B <= 1 / 10 ^ 6 * 10 ^ 5) by (apply Rmult_le_compat; lra).
  assert (U2 : e2 * A <= 1 / 10 ^ 6 * 10 ^ 5) by (apply Rmult_le_compat; lra).
  assert (U3 : e1 * e2 <= 1 / 10 ^ 6 * (1 / 10 ^ 6)) by (apply Rmult_le_compat; lra).
  assert (U4 : A * B <= 10 ^ 5 * 10 ^ 5) by (apply Rmult_le_compat; lra).
  apply N_rnd with (e := e1 * B + e2 * A + e1 * e2) (s := x' * y') (M := A * B); auto; try lra.
  - exact (r_mul np1 lm x y x' y' X Y).
  - replace (x' * y' - a * b) with ((x' - a) * b + (y' - b) * a + (x' - a) * (y' - b)) by ring.
    apply Rabs_plus_le; [apply Rabs_plus_le|]; rewrite Rabs_mult; apply Rmult_le_compat; auto using Rabs_pos; lra.
  - rewrite Rabs_mult. apply Rmult_le_compat; auto using Rabs_pos.
Qed.
Lemma N_add e1 e2 (x y : double) a b M E : near e1 x a -> near e2 y b -> Rabs (a + b) <= M ->
  M <= 10 ^ 20 -> e1 <= 1 / 10 ^ 6 -> e2 <= 1 / 10 ^ 6 ->
  e1 + e2 + ud * (M + (e1 + e2)) + taud <= E -> near E (fadd x y) (a + b).
Proof.
  intros (x' & X & Dx) (y' & Y & Dy) HM BM E1 E2 HE. pose proof (Rabs_pos (x' - a)). pose proof (Rabs_pos (y' - b)).
  apply N_rnd with (e := e1 + e2) (s := x' + y') (M := M); auto; try lra.
  - exact (r_add np1 lm x y x' y' X Y).
  - replace (x' + y' - (a + b)) with ((x' - a) + (y' - b)) by ring. now apply Rabs_plus_le.
Qed.
Lemma N_sub e1 e2 (x y : double) a b M E : near e1 x a -> near e2 y b -> Rabs (a - b) <= M ->
  M <= 10 ^ 20 -> e1 <= 1 / 10 ^ 6 -> e2 <= 1 / 10 ^ 6 ->
  e1 + e2 + ud * (M + (e1 + e2)) + taud <= E -> near E (fsub x y) (a - b).
Proof.
  intros (x' & X & Dx) (y' & Y & Dy) HM BM E1 E2 HE. pose proof (Rabs_pos (x' - a)). pose proof (Rabs_pos (y' - b)).
  apply N_rnd with (e := e1 + e2) (s := x' - y') (M := M); auto; try lra.
  - exact (r_sub np1 lm x y x' y' X Y).
  - replace (x' - y' - (a - b)) with ((x' - a) + - (y' - b)) by ring. apply Rabs_plus_le; auto. now rewrite Rabs_Ropp.
Qed.

(** ** 10 ** y for an approximate exponent *)
Lemma ten_near e (y : double) b : near e y b -> e <= 1 / 1000 -> Rabs b <= 155 ->
  apx (25 / 10 * e + 2 * eta) (fpow (flit 10%Q) y) (Rpower 10 b) /\ pb 390 (Rpower 10 b).
Proof.
  intros (y' & Y & D) He B. pose proof ln10_range as L. apply Rabs_le_inv in B. assert (D1 := D). apply Rabs_le_inv in D1.
  destruct (pow_ln lm (b_lit 53 1024 p53 e1024 10) y 10 y' (acc_pow lm Acc) ten Y ltac:(lra)) as (t & T & V).
  { rewrite Rabs_mult, (Rabs_pos_eq (ln 10)) by lra. assert (Rabs y' <= 156) by (apply Rabs_le; lra). pose proof (Rabs_pos y').
    assert (Rabs y' * ln 10 <= 156 * (25 / 10)) by (apply Rmult_le_compat; lra). lra. }
  split.
  - exists ((y' - b) * ln 10 + t). split.
    + apply Rabs_plus_le; auto. rewrite Rabs_mult, (Rabs_pos_eq (ln 10)), Rmult_comm by lra.
      apply Rmult_le_compat; auto using Rabs_pos; lra.
    + change (dval (lm_pow lm (b_lit 53 1024 p53 e1024 10) y) = Fin (Rpower 10 b * exp ((y' - b) * ln 10 + t))).
      rewrite V. f_equal. unfold Rpower. rewrite <- !exp_plus. f_equal. ring.
  - unfold Rpower, pb. split; apply exp_le_mono; nra.
Qed.
Lemma div10_near e (x : double) a M E : near e x a -> Rabs a <= M -> M <= 10 ^ 6 -> e <= 1 / 1000 ->
  e / 10 + ud * (M / 10 + e / 10) + taud <= E -> near E (fdiv x (flit 10%Q)) (a / 10).
Proof.
  intros (x' & X & D) HM BM He HE. pose proof (Rabs_pos (x' - a)).
  apply N_rnd with (e := e / 10) (s := x' / 10) (M := M / 10); auto; try lra.
  - exact (r_div np1 lm x _ x' 10 X ten ltac:(lra)).
  - replace (x' / 10 - a / 10) with ((x' - a) / 10) by field. unfold Rdiv. rewrite Rabs_mult, (Rabs_pos_eq (/ 10)) by lra. lra.
  - unfold Rdiv. rewrite Rabs_mult, (Rabs_pos_eq (/ 10)) by lra. lra.
Qed.
Lemma lin_near e (x : double) a : near e x a -> e <= 1 / 10 ^ 6 -> Rabs a <= 1500 ->
  apx (25 / 100 * e + 5 / 10 ^ 13) (lin x) (Zlin a) /\ pb 390 (Zlin a).
Proof.
  intros X He A. destruct X as (x' & X & D). pose proof (Rabs_pos (x' - a)). assert (NX : near e x a) by (exists x'; auto).
  pose proof (div10_near e x a 1500 (e / 10 + 16 / 10 ^ 14) NX A ltac:(lra) ltac:(lra) ltac:(unfold ud, taud; lra)) as Dv.
  destruct (ten_near _ _ _ Dv ltac:(lra)) as (T & P).
  { unfold Rdiv. rewrite Rabs_mult, (Rabs_pos_eq (/ 10)) by lra. lra. }
  split; auto. unfold lin, Zlin. apply apx_le with (1 := T). pose proof eta_num. lra.
Qed.

(** ** log10 of an approximate number *)
Lemma log_near e (x : double) a : apx e x a -> e <= 1 / 10 ^ 6 -> pb 390 a ->
  near (e / 2 + 1 / 10 ^ 13) (flog10 x) (lg a) /\ Rabs (lg a) <= 195.
Proof.
  intros (d & D & X) He P. pose proof (pb_pos _ _ P) as Pa. pose proof (pb_ln _ _ P) as La. pose proof ln10_range as L10.
  assert (D1 := D). apply Rabs_le_inv in D1. assert (L1 := La). apply Rabs_le_inv in L1.
  assert (Pd : 0 < a * exp d) by (apply Rmult_lt_0_compat; auto; apply exp_pos).
  assert (Ld : ln (a * exp d) = ln a + d) by (rewrite ln_mult, ln_exp; auto; apply exp_pos).
  destruct (acc_log10 lm Acc x (a * exp d) X) as (w & W & Dw).
  { rewrite <- (exp_ln (a * exp d)) by auto. rewrite Ld. split; apply exp_le_mono; lra. }
  assert (I10 : 0 < / ln 10 <= / 2) by (split; [apply Rinv_0_lt_compat|apply Rinv_le_contravar]; lra).
  assert (Bl : Rabs (ln (a * exp d) / ln 10) <= 196).
  { rewrite Ld. unfold Rdiv. rewrite Rabs_mult, (Rabs_pos_eq (/ ln 10)) by lra.
    assert (Rabs (ln a + d) <= 391) by (apply Rabs_le; lra). pose proof (Rabs_pos (ln a + d)). nra. }
  split.
  - exists w. split; [exact W|].
    replace (w - lg a) with ((w - ln (a * exp d) / ln 10) + d * / ln 10) by (unfold lg; rewrite Ld; field; lra).
    assert (Rabs (d * / ln 10) <= e / 2).
    { rewrite Rabs_mult, (Rabs_pos_eq (/ ln 10)) by lra. pose proof (Rabs_pos d). nra. }
    assert (B51 : bpow radix2 (-51) = / 2251799813685248) by (cbn; lra). rewrite B51 in Dw.
    assert (Rabs (w - ln (a * exp d) / ln 10) <= 1 / 10 ^ 13) by lra.
    rewrite Rplus_comm. now apply Rabs_plus_le.
  - unfold lg, Rdiv. rewrite Rabs_mult, (Rabs_pos_eq (/ ln 10)) by lra. pose proof (Rabs_pos (ln a)). nra.
Qed.

(** ** the difference reflectivity *)
Lemma Zlin_pos d : 0 < Zlin d. Proof. apply exp_pos. Qed.
Lemma Zlin_big r : 1 / 100 <= r -> 1002 / 1000 <= Zlin r.
Proof.
  intro H. unfold Zlin, Rpower. pose proof ln10_range. apply Rle_trans with (1 + r / 10 * ln 10); [nra|apply exp_ge].
Qed.
Lemma Zlin_opp r : Zlin (- r) = / Zlin r.
Proof. unfold Zlin, Rpower. rewrite <- exp_Ropp. f_equal. field. Qed.
Lemma nt_of r : 1 / 100 <= Rabs r -> nt r.
Proof.
  intro H. right. apply Rle_trans with (2 := H). change (exp (-300)) with (exp (Ropp 300)). rewrite exp_Ropp.
  apply Rle_trans with (/ 100); [apply Rinv_le_contravar; [lra|]|lra]. pose proof (exp_ge 300). lra.
Qed.

Definition diff (z w : double) : double := fsub (lin z) (fdiv (lin z) (lin w)).
Definition rdiff (d r : R) : R := Zlin d - Zlin d / Zlin r.
Lemma diff_parts (z w : double) d r : dval z = Fin d -> nt d -> Rabs d <= 100 -> dval w = Fin r -> 1 / 100 <= Rabs r <= 20 ->
  exists s, dval (diff z w) = drnd s /\
    Rabs (s - rdiff d r) <= 53 * eta * Zlin d + 106 * eta * (Zlin d / Zlin r).
Proof.
  intros Z T U W R. 
  destruct (lin_apx np1 lm (acc_pow lm Acc) z d Z T U) as (A & PA).
  destruct (lin_apx np1 lm (acc_pow lm Acc) w r W (nt_of r (proj1 R)) ltac:(lra)) as (B & PB).
  pose proof (Zlin_pos d). pose proof (Zlin_pos r). pose proof eta_num. pose proof eta_pos.
  assert (C : apx (47 * eta + 47 * eta + eta) (fdiv (lin z) (lin w)) (Zlin d / Zlin r)).
  { apply apx_div; auto; try lra. apply pb_safe with (40 + 40); [now apply pb_div|lra]. }
  destruct (apx_error _ _ _ A ltac:(lra)) as (a & Va & Da). destruct (apx_error _ _ _ C ltac:(lra)) as (c & Vc & Dc).
  exists (a - c). split; [exact (r_sub np1 lm _ _ a c Va Vc)|]. unfold rdiff.
  assert (P : 0 < Zlin d / Zlin r) by (now apply Rdiv_lt_0_compat).
  rewrite (Rabs_pos_eq (Zlin d)) in Da by lra. rewrite (Rabs_pos_eq (Zlin d / Zlin r)) in Dc by lra.
  replace (a - c - (Zlin d - Zlin d / Zlin r)) with ((a - Zlin d) + - (c - Zlin d / Zlin r)) by ring.
  apply Rabs_plus_le; [apply Rle_trans with (1 := Da)|rewrite Rabs_Ropp; apply Rle_trans with (1 := Dc)];
    apply Rmult_le_compat_r; lra.
Qed.
Lemma rdiff_pos d r : 1 / 100 <= r -> Zlin d / 502 <= rdiff d r <= Zlin d /\ Zlin d / Zlin r <= Zlin d.
Proof.
  intro H. pose proof (Zlin_big r H) as B. pose proof (Zlin_pos d) as P. unfold rdiff, Rdiv.
  assert (/ Zlin r <= / (1002 / 1000)) by (apply Rinv_le_contravar; lra).
  assert (0 < / Zlin r) by (apply Rinv_0_lt_compat; lra).
  replace (/ (1002 / 1000)) with (1000 / 1002) in * by lra. nra.
Qed.
Lemma pb_exp2 n x : (n <= 40)%nat -> / 2 ^ n <= x <= 2 ^ n -> pb (INR n) x.
Proof.
  intros N (L & U). pose proof (exp2n n) as E. split; [|lra]. rewrite exp_Ropp. apply Rle_trans with (2 := L).
  apply Rinv_le_contravar; auto. apply pow_lt; lra.
Qed.
Lemma rdiff_pb d r : Rabs d <= 100 -> 1 / 100 <= r -> pb 50 (rdiff d r).
Proof.
  intros U H. destruct (rdiff_pos d r H) as ((L & G) & _).
  assert (P : pb 40 (Zlin d)).
  { pose proof ln10_4. unfold Zlin, Rpower, pb. apply Rabs_le_inv in U. split; apply exp_le_mono; nra. }
  destruct P as (P1 & P2). split.
  - apply Rle_trans with (2 := L). replace (Ropp 50) with (Ropp 40 + Ropp 10) by lra. rewrite exp_plus. unfold Rdiv.
    apply Rmult_le_compat; auto; try (left; apply exp_pos). rewrite exp_Ropp. pose proof exp10_big. apply Rinv_le_contravar; lra.
  - apply Rle_trans with (1 := G). apply Rle_trans with (1 := P2). apply exp_le_mono. lra.
Qed.

Lemma diff_pos_apx (z w : double) d r : dval z = Fin d -> nt d -> Rabs d <= 100 -> dval w = Fin r -> 1 / 100 <= r <= 20 ->
  apx (1 / 10 ^ 11) (diff z w) (rdiff d r).
Proof.
  intros Z T U W R. destruct (diff_parts z w d r Z T U W) as (s & S & D); [rewrite Rabs_pos_eq; lra|].
  destruct (rdiff_pos d r (proj1 R)) as ((L & G) & V). pose proof (Zlin_pos d). pose proof eta_num. pose proof eta_pos.
  set (X := rdiff d r) in *. assert (PX : 0 < X) by lra.
  set (t := (s - X) / X).
  assert (Ht : Rabs t <= 91 / 10 ^ 13).
  { unfold t, Rdiv. rewrite Rabs_mult, Rabs_inv, (Rabs_pos_eq X) by lra.
    apply Rmult_le_reg_r with X; auto. rewrite Rmult_assoc, Rinv_l, Rmult_1_r by lra.
    apply Rle_trans with (1 := D). apply Rle_trans with (159 * eta * (502 * X)); [|nra].
    assert (53 * eta * Zlin d <= 53 * eta * (502 * X)) by (apply Rmult_le_compat_l; lra).
    assert (106 * eta * (Zlin d / Zlin r) <= 106 * eta * (502 * X)) by (apply Rmult_le_compat_l; lra). lra. }
  destruct (ln_1p t _ Ht ltac:(lra)) as (P1 & Hl).
  apply apx_le with (102 / 100 * (91 / 10 ^ 13) + eta); [|lra].
  apply apx_round with (ln (1 + t)); auto; try lra.
  - apply pb_safe with 50; [|lra]. unfold X. apply rdiff_pb; auto; lra.
  - rewrite exp_ln by lra. rewrite S. f_equal. unfold t. field. lra.
Qed.

Lemma zdp_near (z w : double) d r : dval z = Fin d -> nt d -> Rabs d <= 100 -> dval w = Fin r -> 1 / 100 <= Rabs r <= 20 ->
  near (6 / 10 ^ 11) (zdp_of z w) (Zdp_dB d r) /\ Rabs (Zdp_dB d r) <= 260.
Proof.
  intros Z T U W R. unfold zdp_of, Zdp_dB. fold (diff z w). fold (rdiff d r). cbv zeta.
  assert (H : exists y a, (if fle (diff z w) (flit 0%Q) then flit 0.000000000001%Q else diff z w) = y /\
     (if Rle_dec (rdiff d r) 0 then 1 / 1000000000000 else rdiff d r) = a /\ apx (1 / 10 ^ 11) y a /\ pb 50 a).
  { pose proof (Zlin_pos d) as Pd. pose proof eta_num as En. pose proof eta_pos as Ep.
    destruct (Rle_or_lt 0 r) as [Pr|Nr].
    - rewrite Rabs_pos_eq in R by lra. pose proof (diff_pos_apx z w d r Z T U W R) as A. pose proof (rdiff_pb d r U (proj1 R)) as P.
      pose proof (pb_pos _ _ P) as PP. exists (diff z w), (rdiff d r).
      split; [|destruct Rle_dec; [lra|]; repeat split; auto; apply P].
      assert (E : fle (diff z w) (flit 0%Q) = false); [|now rewrite E].
      change (Bleb (diff z w) (b_lit 53 1024 p53 e1024 0) = false). destruct A as (t & _ & V). rewrite val_le, V.
      cbn [b_lit Qnum val B2R xle]. apply Rleb_false. apply Rmult_lt_0_compat; auto. apply exp_pos.
    - rewrite Rabs_left in R by lra. destruct (diff_parts z w d r Z T U W) as (s & S & D); [rewrite Rabs_left; lra|].
      pose proof (Zlin_big (- r) (proj1 R)) as B. rewrite Zlin_opp in B. pose proof (Zlin_pos r) as Pr.
      unfold rdiff, Rdiv in *. set (k := / Zlin r) in *.
      assert (Hk : Zlin d * k >= 1002 / 1000 * Zlin d) by nra.
      assert (Ns : s <= 0). { apply Rabs_le_inv in D. nra. }
      exists (flit 0.000000000001%Q), (1 / 1000000000000). split; [|split; [destruct Rle_dec; [reflexivity|nra]|split]].
      + assert (E : fle (diff z w) (flit 0%Q) = true); [|now rewrite E].
        change (Bleb (diff z w) (b_lit 53 1024 p53 e1024 0) = true). rewrite val_le, S.
        replace (val 53 1024 (b_lit 53 1024 p53 e1024 0)) with (drnd 0) by (rewrite rnd_0; reflexivity).
        apply rnd_mono; [exact p53|exact Ns].
      + apply apx_le with eta; [|lra]. apply (apx_lit (Qmake 1 1000000000000)). cbn [Qnum Qden].
        apply pb_safe with (INR 40); [apply pb_exp2; [lia|]; simpl; lra|simpl; lra].
      + apply pb_le with (INR 40); [apply pb_exp2; [lia|]; simpl; lra|simpl; lra]. }
  destruct H as (y & a & -> & -> & A & P).
  pose proof (pb_le 50 390 _ P ltac:(lra)) as P'. destruct (log_near _ y a A ltac:(lra) P') as (L & _).
  assert (B : Rabs (lg a) <= 26).
  { pose proof (pb_ln _ _ P) as La. pose proof ln10_range as L10. unfold lg, Rdiv.
    assert (I10 : 0 < / ln 10 <= / 2) by (split; [apply Rinv_0_lt_compat|apply Rinv_le_contravar]; lra).
    rewrite Rabs_mult, (Rabs_pos_eq (/ ln 10)) by lra. pose proof (Rabs_pos (ln a)). nra. }
  split.
  - apply N_mul with (e1 := 0) (e2 := 1 / 10 ^ 11 / 2 + 1 / 10 ^ 13) (A := 10) (B := 26); auto; try lra.
    + apply N_exact. exact ten.
    + rewrite Rabs_pos_eq; lra.
    + unfold ud, taud. lra.
  - rewrite Rabs_mult, (Rabs_pos_eq 10) by lra. lra.
Qed.

(** the rain line: [fa], [fb] are (the doubles nearest) A, B *)
Lemma line_near (fa fb z w : double) A B d r : near (1 / 10 ^ 13) fa A -> near (1 / 10 ^ 13) fb B -> Rabs A <= 4 -> Rabs B <= 100 ->
  dval z = Fin d -> nt d -> Rabs d <= 100 -> dval w = Fin r -> 1 / 100 <= Rabs r <= 20 ->
  near (28 / 10 ^ 11) (fadd (fmul fa (zdp_of z w)) fb) (A * Zdp_dB d r + B) /\ Rabs (A * Zdp_dB d r + B) <= 1140.
Proof.
  intros HA HB BA BB Z T U W R. destruct (zdp_near z w d r Z T U W R) as (P & BP).
  assert (Bm : Rabs (A * Zdp_dB d r) <= 4 * 260) by (rewrite Rabs_mult; apply Rmult_le_compat; auto using Rabs_pos).
  assert (Bs : Rabs (A * Zdp_dB d r + B) <= 1140) by (apply Rle_trans with (4 * 260 + 100); [now apply Rabs_plus_le|lra]).
  split; auto.
  apply N_add with (e1 := 27 / 10 ^ 11) (e2 := 1 / 10 ^ 13) (M := 1140); auto; try lra; [|unfold ud, taud; lra].
  apply N_mul with (e1 := 1 / 10 ^ 13) (e2 := 6 / 10 ^ 11) (A := 4) (B := 260); auto; try lra. unfold ud, taud; lra.
Qed.
End Ice.
