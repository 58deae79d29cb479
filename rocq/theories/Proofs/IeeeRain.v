(** * Rounding errors of the rain estimators in double precision *)
From Coq Require Import Reals Lra Lia ZArith QArith Qreals.
From Flocq Require Import Core IEEE754.BinarySingleNaN.
From Verif Require Import Base.Num Base.XReal Base.Ieee Spec.IeeeSpec Base.RelErr.
From Verif Require Import Model.Common Spec.RainSpec Spec.RainDefaultSpec.
Open Scope R_scope.

(** ** magnitudes *)
Definition pb (L x : R) : Prop := exp (- L) <= x <= exp L.

Lemma exp2n n : 2 ^ n <= exp (INR n).
Proof.
  assert (2 <= exp 1) by (pose proof (exp_ge 1); lra).
  induction n; [simpl; rewrite exp_0; lra|]. rewrite S_INR, exp_plus. simpl. pose proof (exp_pos (INR n)).
  assert (0 <= 2 ^ n) by (apply pow_le; lra). nra.
Qed.
Lemma exp10_big : 1000 <= exp 10.
Proof. pose proof (exp2n 10) as H. replace (INR 10) with 10 in H by (simpl; lra). simpl in H. lra. Qed.
Lemma ln10_4 : 0 < ln 10 <= 4.
Proof.
  split; [rewrite <- ln_1; apply ln_increasing; lra|].
  rewrite <- (ln_exp 4). left. apply ln_increasing; [lra|].
  pose proof (exp2n 4) as H. replace (INR 4) with 4 in H by (simpl; lra). simpl in H. lra.
Qed.
Lemma pb_pos L x : pb L x -> 0 < x.
Proof. intros (A & _). pose proof (exp_pos (- L)). lra. Qed.
Lemma pb_le L M x : pb L x -> L <= M -> pb M x.
Proof.
  intros (A & B) H. split.
  - apply Rle_trans with (2 := A). apply exp_le_mono. lra.
  - apply Rle_trans with (1 := B). apply exp_le_mono. lra.
Qed.
Lemma pb_mul L M x y : pb L x -> pb M y -> pb (L + M) (x * y).
Proof.
  intros X Y. pose proof (pb_pos _ _ X). pose proof (pb_pos _ _ Y). destruct X as (A & B), Y as (C & D).
  split; [rewrite Ropp_plus_distr|]; rewrite exp_plus; apply Rmult_le_compat; auto; try lra; left; apply exp_pos.
Qed.
Lemma pb_inv L x : pb L x -> pb L (/ x).
Proof.
  intro X. pose proof (pb_pos _ _ X). destruct X as (A & B). split.
  - rewrite exp_Ropp. apply Rinv_le_contravar; auto.
  - rewrite <- (Ropp_involutive L), exp_Ropp. apply Rinv_le_contravar; auto. apply exp_pos.
Qed.
Lemma pb_div L M x y : pb L x -> pb M y -> pb (L + M) (x / y).
Proof. intros. apply pb_mul; auto. now apply pb_inv. Qed.
Lemma pb_const x : 1 / 1000 <= x <= 1000 -> pb 10 x.
Proof.
  intros (A & B). pose proof exp10_big. split; [|lra].
  rewrite exp_Ropp. apply Rle_trans with (/ 1000); [apply Rinv_le_contravar|]; lra.
Qed.
Lemma pb_ln L x : pb L x -> Rabs (ln x) <= L.
Proof.
  intro X. pose proof (pb_pos _ _ X). destruct X as (A & B). apply Rabs_le. split.
  - rewrite <- (ln_exp (- L)). destruct A as [A|A]; [left; apply ln_increasing; auto; apply exp_pos|rewrite A; lra].
  - rewrite <- (ln_exp L). destruct B as [B|B]; [left; apply ln_increasing; auto|rewrite B; lra].
Qed.
Lemma pb_pow L x b B : pb L x -> Rabs b <= B -> pb (B * L) (Rpower x b).
Proof.
  intros X Hb. pose proof (pb_ln _ _ X) as N. unfold Rpower, pb.
  assert (Rabs (b * ln x) <= B * L).
  { rewrite Rabs_mult. apply Rmult_le_compat; auto using Rabs_pos. }
  apply Rabs_le_inv in H. split; apply exp_le_mono; lra.
Qed.
Lemma pb_safe L x : pb L x -> L <= 400 -> safe0 x.
Proof.
  intros X HL. right. pose proof (pb_pos _ _ X). destruct (pb_le _ _ _ X HL).
  unfold safe. rewrite Rabs_pos_eq by lra. split; assumption.
Qed.
(** a number that is zero or not tiny, times or over a moderate constant *)
Definition nt (x : R) : Prop := x = 0 \/ exp (-300) <= Rabs x.
Lemma nt_safe x c : nt x -> Rabs x <= 100 -> / 1000 <= Rabs c <= 1000 -> safe0 (x * c).
Proof.
  intros [->|L] U (C1 & C2); [left; ring|right]. unfold safe. rewrite Rabs_mult.
  pose proof exp10_big as E. pose proof (exp_pos (-300)). split.
  - replace (-400) with (-300 + Ropp 100) by lra. rewrite exp_plus.
    apply Rmult_le_compat; auto; try (left; apply exp_pos). apply Rle_trans with (2 := C1).
    replace (Ropp 100) with (Ropp 10 + Ropp 90) by lra. rewrite exp_plus, (exp_Ropp 10), (exp_Ropp 90).
    assert (/ exp 10 <= / 1000) by (apply Rinv_le_contravar; lra).
    assert (/ exp 90 <= / 1) by (apply Rinv_le_contravar; [lra|]; pose proof (exp_ge 90); lra).
    assert (0 < / exp 10) by (apply Rinv_0_lt_compat; apply exp_pos).
    assert (0 < / exp 90) by (apply Rinv_0_lt_compat; apply exp_pos). nra.
  - apply Rle_trans with (100 * 1000).
    + apply Rmult_le_compat; auto using Rabs_pos.
    + apply Rle_trans with (exp 10 * exp 10); [nra|]. rewrite <- exp_plus. apply exp_le_mono. lra.
Qed.

Section Est.
Variables (np1 : bool) (lm : libm double).
Hypothesis PA : pow_accurate lm.
#[local] Instance dop : FloatOps double := double_ops np1 lm.

Lemma lit_eq q : @flit double _ q = b_lit 53 1024 p53 e1024 q. Proof. reflexivity. Qed.
Lemma lit10 : apx 0 (@flit double _ 10%Q) 10.
Proof. exact (apx_int 10 ltac:(cbn; lia)). Qed.
Lemma lit1 : apx 0 (@flit double _ 1%Q) 1.
Proof. exact (apx_int 1 ltac:(cbn; lia)). Qed.

(** a stored coefficient: one or two roundings *)
Definition coef (x : double) (c : R) : Prop := apx (2 * eta) x c.
Lemma coef_lit q c : IZR (Qnum q) / IZR (Zpos (Qden q)) = c -> pb 10 (Rabs c) -> coef (@flit double _ q) c.
Proof.
  intros <- B. unfold coef. apply apx_le with eta; [|pose proof eta_pos; lra]. apply apx_lit.
  right. destruct (pb_le _ 400 _ B ltac:(lra)). split; assumption.
Qed.
Lemma pb_safe_abs L c : pb L (Rabs c) -> L <= 400 -> safe0 c.
Proof.
  intros B H. right. destruct (pb_le _ 400 _ B H). split; assumption.
Qed.
Lemma coef_div10 q c : IZR (Qnum q) / IZR (Zpos (Qden q)) / 10 = c -> pb 10 (Rabs c) ->
  coef (@fdiv double _ (flit q) (flit 10%Q)) c.
Proof.
  intros E B. unfold coef. change (@fdiv double _) with (@Bdiv 53 1024 p53 e1024 mode_NE).
  replace (2 * eta) with (eta + 0 + eta) by lra. rewrite <- E. apply apx_div.
  - apply apx_lit. apply pb_safe_abs with 20; [|lra].
    replace (IZR (Qnum q) / IZR (Z.pos (Qden q))) with (c * 10) by (rewrite <- E; field; apply not_0_IZR; discriminate).
    rewrite Rabs_mult, (Rabs_pos_eq 10) by lra. replace 20 with (10 + 10) by lra. apply pb_mul; auto.
    apply pb_const. lra.
  - apply lit10.
  - pose proof eta_small. lra.
  - lra.
  - rewrite E. apply pb_safe_abs with 10; auto. lra.
Qed.

Ltac es := pose proof eta_small; pose proof eta_pos; try nra; try lra.

(** 10 ** (dBZ / 10) *)
Lemma lin_apx (z : double) d : dval z = Fin d -> nt d -> Rabs d <= 100 ->
  apx (47 * eta) (lin z) (Zlin d) /\ pb 40 (Zlin d).
Proof.
  intros Z T U.
  assert (M : Rabs (d / 10) <= 10).
  { unfold Rdiv. rewrite Rabs_mult, (Rabs_pos_eq (/ 10)) by lra. lra. }
  pose proof ln10_4 as L10.
  assert (M' : Rabs (d / 10 * ln 10) <= 40).
  { rewrite Rabs_mult, (Rabs_pos_eq (ln 10)) by lra. pose proof (Rabs_pos (d / 10)). nra. }
  split.
  - unfold lin, Zlin. change (@fpow double _) with (lm_pow lm). change (@fdiv double _) with (@Bdiv 53 1024 p53 e1024 mode_NE).
    apply apx_le with (2 * eta + 10 / 9 * (eta * 40 + 10 * 0)); [|es].
    apply apx_pow; auto; try lra; es.
    + apply lit10.
    + replace eta with (0 + 0 + eta) by lra. apply apx_div; try lra.
      * now apply apx_exact.
      * apply lit10.
      * apply nt_safe; auto. rewrite Rabs_pos_eq; lra.
  - unfold Zlin, Rpower, pb. apply Rabs_le_inv in M'. split; apply exp_le_mono; lra.
Qed.

(** Z-R relations *)
Lemma R_Z_apx (a b z : double) ca cb d : coef a ca -> coef b cb -> pb 10 ca -> 1 <= cb <= 2 ->
  dval z = Fin d -> nt d -> Rabs d <= 100 ->
  apx (300 * eta) (R_Z a b z) (Rpower (Zlin d / ca) (1 / cb)).
Proof.
  intros A B Pa Cb Z T U. destruct (lin_apx z d Z T U) as (L & PL). unfold R_Z.
  change (@fpow double _) with (lm_pow lm). change (@fdiv double _) with (@Bdiv 53 1024 p53 e1024 mode_NE).
  pose proof (pb_div _ _ _ _ PL Pa) as PQ. pose proof (pb_pos _ _ PQ) as Qp. pose proof (pb_pos _ _ Pa) as Ap.
  assert (I : Rabs (1 / cb) <= 1).
  { unfold Rdiv. rewrite Rmult_1_l, Rabs_pos_eq by (left; apply Rinv_0_lt_compat; lra).
    apply Rle_trans with (/ 1); [apply Rinv_le_contravar; lra|lra]. }
  apply apx_le with (2 * eta + 10 / 9 * ((0 + 2 * eta + eta) * 50 + 1 * (47 * eta + 2 * eta + eta))); [|es].
  apply apx_pow; auto; try lra; es.
  - apply apx_div; auto; es. apply pb_safe with 50; [|lra]. replace 50 with (40 + 10) by lra. exact PQ.
  - apply apx_div; auto; es; [apply lit1|]. apply pb_safe with 10; [|lra]. apply pb_const.
    split; [|apply Rabs_le_inv in I; lra]. unfold Rdiv. rewrite !Rmult_1_l. apply Rinv_le_contravar; lra.
  - rewrite Rabs_mult. pose proof (pb_ln _ _ PQ) as Hl.
    replace 50 with (1 * (40 + 10)) by lra. apply Rmult_le_compat; auto using Rabs_pos.
Qed.

(** 10 ** (c * zdr) *)
Lemma ten_apx (c w : double) cc r : coef c cc -> dval w = Fin r -> nt r -> Rabs r <= 20 -> 1/10 <= Rabs cc <= 6/10 ->
  apx (180 * eta) (fpow (flit 10%Q) (fmul c w)) (Rpower 10 (cc * r)) /\ pb 48 (Rpower 10 (cc * r)).
Proof.
  intros C W T U (C1 & C2). pose proof ln10_4 as L10.
  assert (M : Rabs (cc * r) <= 12).
  { rewrite Rabs_mult. pose proof (Rabs_pos r). nra. }
  assert (M' : Rabs (cc * r * ln 10) <= 48).
  { rewrite Rabs_mult, (Rabs_pos_eq (ln 10)) by lra. pose proof (Rabs_pos (cc * r)). nra. }
  split.
  - change (@fpow double _) with (lm_pow lm). change (@fmul double _) with (@Bmult 53 1024 p53 e1024 mode_NE).
    apply apx_le with (2 * eta + 10 / 9 * ((2 * eta + 0 + eta) * 48 + 12 * 0)); [|es].
    apply apx_pow; auto; try lra; es.
    + apply lit10.
    + apply apx_mul; auto; es.
      * now apply apx_exact.
      * rewrite Rmult_comm. apply nt_safe; auto; lra.
  - unfold Rpower, pb. apply Rabs_le_inv in M'. split; apply exp_le_mono; lra.
Qed.

(** a * kdp ** b *)
Lemma kdp_apx (a b x : double) ca cb k : coef a ca -> coef b cb -> pb 10 ca -> 1/10 <= cb <= 1 ->
  apx eta x k -> pb 10 k ->
  apx (40 * eta) (R_Kdp a b x) (ca * Rpower k cb) /\ pb 20 (ca * Rpower k cb).
Proof.
  intros A B Pa Cb X Pk. pose proof (pb_ln _ _ Pk) as Lk. pose proof (pb_pos _ _ Pk) as Kp.
  assert (Pp : pb 20 (ca * Rpower k cb)).
  { replace 20 with (10 + 1 * 10) by lra. apply pb_mul; auto. apply pb_pow; auto. rewrite Rabs_pos_eq; lra. }
  split; auto. unfold R_Kdp.
  change (@fpow double _) with (lm_pow lm). change (@fmul double _) with (@Bmult 53 1024 p53 e1024 mode_NE).
  apply apx_le with (2 * eta + (2 * eta + 10 / 9 * (2 * eta * 10 + 1 * eta)) + eta); [|es].
  apply apx_mul; auto; es.
  - apply apx_pow; auto; try lra; es.
    + rewrite Rabs_mult, (Rabs_pos_eq cb) by lra. pose proof (Rabs_pos (ln k)). nra.
    + rewrite Rabs_pos_eq; lra.
  - apply pb_safe with 20; auto. lra.
Qed.
Lemma kdp_zdr_apx (a b c x w : double) ca cb cc k r : coef a ca -> coef b cb -> coef c cc -> pb 10 ca -> 1/10 <= cb <= 1 ->
  1/10 <= Rabs cc <= 6/10 -> apx eta x k -> pb 10 k -> dval w = Fin r -> nt r -> Rabs r <= 20 ->
  apx (300 * eta) (R_Kdp_Zdr a b c x w) (ca * Rpower k cb * Rpower 10 (cc * r)).
Proof.
  intros A B C Pa Cb Cc X Pk W T U.
  destruct (kdp_apx a b x ca cb k A B Pa Cb X Pk) as (K & PK).
  destruct (ten_apx c w cc r C W T U Cc) as (E & PE).
  unfold R_Kdp_Zdr. unfold R_Kdp in K. apply apx_le with (40 * eta + 180 * eta + eta); [|es].
  apply apx_mul; auto; es. apply pb_safe with (20 + 48); [|lra]. now apply pb_mul.
Qed.
Lemma z_zdr_apx (a b c z w : double) ca cb cc d r : coef a ca -> coef b cb -> coef c cc -> pb 10 ca -> 1/10 <= cb <= 1 ->
  1/10 <= Rabs cc <= 6/10 -> dval z = Fin d -> nt d -> Rabs d <= 100 -> dval w = Fin r -> nt r -> Rabs r <= 20 ->
  apx (360 * eta) (R_Z_Zdr a b c z w) (ca * Rpower (Zlin d) cb * Rpower 10 (cc * r)).
Proof.
  intros A B C Pa Cb Cc Z Tz Uz W T U.
  destruct (lin_apx z d Z Tz Uz) as (L & PL). pose proof (pb_pos _ _ PL) as Lp.
  destruct (ten_apx c w cc r C W T U Cc) as (E & PE).
  assert (PP : pb (1 * 40) (Rpower (Zlin d) cb)) by (apply pb_pow; auto; rewrite Rabs_pos_eq; lra).
  unfold R_Z_Zdr.
  assert (K : apx (2 * eta + (2 * eta + 10 / 9 * (2 * eta * 40 + 1 * (47 * eta))) + eta)
     (fmul a (fpow (lin z) b)) (ca * Rpower (Zlin d) cb)).
  { change (@fpow double _) with (lm_pow lm). change (@fmul double _) with (@Bmult 53 1024 p53 e1024 mode_NE).
    apply apx_mul; auto; es.
    - apply apx_pow; auto; try lra; es.
      + rewrite Rabs_mult, (Rabs_pos_eq cb) by lra. pose proof (pb_ln _ _ PL). pose proof (Rabs_pos (ln (Zlin d))). nra.
      + rewrite Rabs_pos_eq; lra.
    - apply pb_safe with (10 + 1 * 40); [|lra]. now apply pb_mul. }
  eapply apx_le; [apply apx_mul; [exact K|exact E|es|]|es].
  apply pb_safe with (10 + 1 * 40 + 48); [|lra]. apply pb_mul; auto. now apply pb_mul.
Qed.
End Est.
