(** * Rounding errors of the rain estimators for float32 fields *)
From Coq Require Import Reals Lra Lia ZArith QArith Qreals.
From Flocq Require Import Core IEEE754.BinarySingleNaN.
From Verif Require Import Base.Num Base.XReal Base.Ieee Spec.IeeeSpec Base.RelErr Base.Mixed.
From Verif Require Import Model.Common Spec.RainSpec Spec.RainDefaultSpec.
From Verif Require Proofs.IeeeRain.
Import IeeeRain.
Open Scope R_scope.

Lemma pb8_const x : 1 / 1000 <= x <= 1000 -> pb 8 x.
Proof.
  intros (A & B). pose proof exp8_big. split; [|lra].
  rewrite exp_Ropp. apply Rle_trans with (/ 1000); [apply Rinv_le_contravar|]; lra.
Qed.
Lemma pb_safe32_abs L c : pb L (Rabs c) -> L <= 75 -> safe32 c.
Proof. intros B H. right. destruct (pb_le _ 75 _ B H). split; assumption. Qed.
Lemma pb_safe32 L x : pb L x -> L <= 75 -> safe32 x.
Proof. intros B H. apply pb_safe32_abs with L; auto. rewrite Rabs_pos_eq; auto. left. now apply (pb_pos L). Qed.
Definition nts (x : R) : Prop := x = 0 \/ exp (-60) <= Rabs x.
Lemma nts_safe x c : nts x -> Rabs x <= 100 -> / 1000 <= Rabs c <= 1000 -> safe32 (x * c).
Proof.
  intros [->|L] U (C1 & C2); [left; ring|]. assert (P : pb 60 (Rabs x)).
  { split; [exact L|]. pose proof exp8_big. apply Rle_trans with (exp 8); [lra|]. apply exp_le_mono. lra. }
  apply pb_safe32_abs with (60 + 8); [|lra]. rewrite Rabs_mult. apply pb_mul; auto. apply pb8_const. lra.
Qed.
Lemma nts_safe1 x : nts x -> Rabs x <= 100 -> safe32 x.
Proof. intros. rewrite <- (Rmult_1_r x). apply nts_safe; auto. rewrite Rabs_R1. lra. Qed.

Section Est.
Variables (lm : libm double) (lm32 : libm single).
Hypothesis PA : pow_accurate lm.
Hypothesis PF : powf_accurate lm32.
#[local] Instance mopr : FloatOps mixed := mixed_ops lm lm32.

Lemma slit10 : mapx 0 (@flit mixed _ 10%Q) 10.
Proof. exact (mapx_int lm lm32 10 ltac:(cbn; lia)). Qed.
Lemma slit1 : mapx 0 (@flit mixed _ 1%Q) 1.
Proof. exact (mapx_int lm lm32 1 ltac:(cbn; lia)). Qed.
Lemma safe_10 : safe32 10.
Proof. apply pb_safe32 with 8; [apply pb8_const|]; lra. Qed.

(** a coefficient *)
Definition scoef (x : mixed) (c : R) : Prop := mapx (4 * et) x c.
Lemma et_small : 0 < et < 1 / 10000000.
Proof. rewrite et_val. lra. Qed.
Ltac es := pose proof et_small; try nra; try lra.
Lemma scoef_lit q c : IZR (Qnum q) / IZR (Zpos (Qden q)) = c -> pb 8 (Rabs c) -> scoef (@flit mixed _ q) c.
Proof.
  intros <- B. unfold scoef. apply mapx_le with et; [|es]. apply mapx_lit.
  apply pb_safe32_abs with 8; auto. lra.
Qed.
Lemma scoef_div10 q c : IZR (Qnum q) / IZR (Zpos (Qden q)) / 10 = c -> pb 8 (Rabs c) ->
  scoef (@fdiv mixed _ (flit q) (flit 10%Q)) c.
Proof.
  intros E B. unfold scoef. apply mapx_le with (et + 0 + 2 * et); [|es]. rewrite <- E.
  assert (S : safe32 (IZR (Qnum q) / IZR (Z.pos (Qden q)))).
  { apply pb_safe32_abs with 16; [|lra].
    replace (IZR (Qnum q) / IZR (Z.pos (Qden q))) with (c * 10) by (rewrite <- E; field; apply not_0_IZR; discriminate).
    rewrite Rabs_mult, (Rabs_pos_eq 10) by lra. replace 16 with (8 + 8) by lra. apply pb_mul; auto.
    apply pb8_const. lra. }
  apply mapx_div; auto.
  - now apply mapx_lit.
  - apply slit10.
  - es.
  - apply safe_10.
  - rewrite E. apply pb_safe32_abs with 8; auto. lra.
Qed.

(** 10 ** (dBZ / 10) *)
Lemma slin_apx (z : mixed) d : mval z = Fin d -> nts d -> Rabs d <= 100 ->
  mapx (100 * et) (lin z) (Zlin d) /\ pb 24 (Zlin d).
Proof.
  intros Z T U.
  assert (M : Rabs (d / 10) <= 10).
  { unfold Rdiv. rewrite Rabs_mult, (Rabs_pos_eq (/ 10)) by lra. lra. }
  pose proof ln10_up as L10.
  assert (M' : Rabs (d / 10 * ln 10) <= 24).
  { rewrite Rabs_mult, (Rabs_pos_eq (ln 10)) by lra. pose proof (Rabs_pos (d / 10)). nra. }
  split.
  - unfold lin, Zlin.
    apply mapx_le with (8 * et + 10 / 9 * ((0 + 0 + 2 * et + et) * 24 + 10 * (0 + et))); [|es].
    apply mapx_pow; auto; try lra; es.
    + apply slit10.
    + apply mapx_div; auto; try lra.
      * now apply mapx_exact.
      * apply slit10.
      * now apply nts_safe1.
      * apply safe_10.
      * apply nts_safe; auto. rewrite Rabs_pos_eq; lra.
    + apply safe_10.
    + apply nts_safe; auto. rewrite Rabs_pos_eq; lra.
  - unfold Zlin, Rpower, pb. apply Rabs_le_inv in M'. split; apply exp_le_mono; lra.
Qed.

(** Z-R relations *)
Lemma sR_Z_apx (a b z : mixed) ca cb d : scoef a ca -> scoef b cb -> pb 8 ca -> 1 <= cb <= 2 ->
  mval z = Fin d -> nts d -> Rabs d <= 100 ->
  mapx (400 * et) (R_Z a b z) (Rpower (Zlin d / ca) (1 / cb)) /\ pb 32 (Rpower (Zlin d / ca) (1 / cb)).
Proof.
  intros A B Pa Cb Z T U. destruct (slin_apx z d Z T U) as (L & PL). unfold R_Z.
  pose proof (pb_div _ _ _ _ PL Pa) as PQ. pose proof (pb_pos _ _ PQ) as Qp. pose proof (pb_pos _ _ Pa) as Ap.
  assert (I : Rabs (1 / cb) <= 1).
  { unfold Rdiv. rewrite Rmult_1_l, Rabs_pos_eq by (left; apply Rinv_0_lt_compat; lra).
    apply Rle_trans with (/ 1); [apply Rinv_le_contravar; lra|lra]. }
  assert (S1 : safe32 (1 / cb)).
  { apply pb_safe32 with 8; [|lra]. apply pb8_const.
    split; [|apply Rabs_le_inv in I; lra]. unfold Rdiv. rewrite !Rmult_1_l. apply Rinv_le_contravar; lra. }
  assert (S2 : safe32 (Zlin d / ca)) by (apply pb_safe32 with (24 + 8); auto; lra).
  split; [|replace 32 with (1 * (24 + 8)) by lra; apply pb_pow; auto].
  apply mapx_le with (8 * et + 10 / 9 * ((0 + 4 * et + 2 * et + et) * 32 + 1 * (100 * et + 4 * et + 2 * et + et))); [|es].
  apply mapx_pow; auto; try lra; es.
  - apply mapx_div; auto; es.
    + apply pb_safe32 with 24; auto. lra.
    + apply pb_safe32 with 8; auto. lra.
  - apply mapx_div; auto; es; [apply slit1| |].
    + apply pb_safe32 with 8; [apply pb8_const; lra|lra].
    + apply pb_safe32 with 8; [apply pb8_const; lra|lra].
  - rewrite Rabs_mult. pose proof (pb_ln _ _ PQ) as Hl.
    replace 32 with (1 * (24 + 8)) by lra. apply Rmult_le_compat; auto using Rabs_pos.
Qed.

(** 10 ** (c * zdr) *)
Lemma sten_apx (c w : mixed) cc r : scoef c cc -> mval w = Fin r -> nts r -> Rabs r <= 20 -> 1/10 <= Rabs cc <= 6/10 ->
  mapx (300 * et) (fpow (flit 10%Q) (fmul c w)) (Rpower 10 (cc * r)) /\ pb 29 (Rpower 10 (cc * r)).
Proof.
  intros C W T U (C1 & C2). pose proof ln10_up as L10.
  assert (M : Rabs (cc * r) <= 12).
  { rewrite Rabs_mult. pose proof (Rabs_pos r). nra. }
  assert (M' : Rabs (cc * r * ln 10) <= 29).
  { rewrite Rabs_mult, (Rabs_pos_eq (ln 10)) by lra. pose proof (Rabs_pos (cc * r)). nra. }
  assert (S : safe32 (cc * r)) by (rewrite Rmult_comm; apply nts_safe; auto; lra).
  split.
  - apply mapx_le with (8 * et + 10 / 9 * ((4 * et + 0 + 2 * et + et) * 29 + 12 * (0 + et))); [|es].
    apply mapx_pow; auto; try lra; es.
    + apply slit10.
    + apply mapx_mul; auto; es.
      * now apply mapx_exact.
      * apply pb_safe32_abs with 8; [apply pb8_const; lra|lra].
      * apply nts_safe1; auto. lra.
    + apply safe_10.
  - unfold Rpower, pb. apply Rabs_le_inv in M'. split; apply exp_le_mono; lra.
Qed.

(** a * kdp ** b *)
Lemma skdp_apx (a b x : mixed) ca cb k : scoef a ca -> scoef b cb -> pb 8 ca -> 1/10 <= cb <= 1 ->
  mapx (2 * et) x k -> pb 8 k ->
  mapx (100 * et) (R_Kdp a b x) (ca * Rpower k cb) /\ pb 16 (ca * Rpower k cb).
Proof.
  intros A B Pa Cb X Pk. pose proof (pb_ln _ _ Pk) as Lk. pose proof (pb_pos _ _ Pk) as Kp.
  assert (Pq : pb (1 * 8) (Rpower k cb)) by (apply pb_pow; auto; rewrite Rabs_pos_eq; lra).
  assert (Pp : pb 16 (ca * Rpower k cb)).
  { replace 16 with (8 + 1 * 8) by lra. now apply pb_mul. }
  split; auto. unfold R_Kdp.
  apply mapx_le with (4 * et + (8 * et + 10 / 9 * ((4 * et + et) * 8 + 1 * (2 * et + et))) + 2 * et); [|es].
  apply mapx_mul; auto; es.
  - apply mapx_pow; auto; try lra; es.
    + apply pb_safe32 with 8; auto. lra.
    + apply pb_safe32 with 8; [apply pb8_const|]; lra.
    + rewrite Rabs_mult, (Rabs_pos_eq cb) by lra. pose proof (Rabs_pos (ln k)). nra.
    + rewrite Rabs_pos_eq; lra.
  - apply pb_safe32 with 8; auto. lra.
  - apply pb_safe32 with (1 * 8); auto. lra.
  - apply pb_safe32 with 16; auto. lra.
Qed.
Lemma skdp_zdr_apx (a b c x w : mixed) ca cb cc k r : scoef a ca -> scoef b cb -> scoef c cc -> pb 8 ca -> 1/10 <= cb <= 1 ->
  1/10 <= Rabs cc <= 6/10 -> mapx (2 * et) x k -> pb 8 k -> mval w = Fin r -> nts r -> Rabs r <= 20 ->
  mapx (500 * et) (R_Kdp_Zdr a b c x w) (ca * Rpower k cb * Rpower 10 (cc * r)) /\
  pb 70 (ca * Rpower k cb * Rpower 10 (cc * r)).
Proof.
  intros A B C Pa Cb Cc X Pk W T U.
  destruct (skdp_apx a b x ca cb k A B Pa Cb X Pk) as (K & PK).
  destruct (sten_apx c w cc r C W T U Cc) as (E & PE).
  pose proof (pb_mul _ _ _ _ PK PE) as PP. split; [|apply pb_le with (16 + 29); auto; lra].
  unfold R_Kdp_Zdr. unfold R_Kdp in K. apply mapx_le with (100 * et + 300 * et + 2 * et); [|es].
  apply mapx_mul; auto; es.
  - apply pb_safe32 with 16; auto. lra.
  - apply pb_safe32 with 29; auto. lra.
  - apply pb_safe32 with (16 + 29); auto. lra.
Qed.
Lemma sz_zdr_apx (a b c z w : mixed) ca cb cc d r : scoef a ca -> scoef b cb -> scoef c cc -> pb 8 ca -> 1/10 <= cb <= 1 ->
  1/10 <= Rabs cc <= 6/10 -> mval z = Fin d -> nts d -> Rabs d <= 100 -> mval w = Fin r -> nts r -> Rabs r <= 20 ->
  mapx (800 * et) (R_Z_Zdr a b c z w) (ca * Rpower (Zlin d) cb * Rpower 10 (cc * r)) /\
  pb 70 (ca * Rpower (Zlin d) cb * Rpower 10 (cc * r)).
Proof.
  intros A B C Pa Cb Cc Z Tz Uz W T U.
  destruct (slin_apx z d Z Tz Uz) as (L & PL). pose proof (pb_pos _ _ PL) as Lp.
  destruct (sten_apx c w cc r C W T U Cc) as (E & PE).
  assert (PP : pb (1 * 24) (Rpower (Zlin d) cb)) by (apply pb_pow; auto; rewrite Rabs_pos_eq; lra).
  pose proof (pb_mul _ _ _ _ Pa PP) as PK. pose proof (pb_mul _ _ _ _ PK PE) as PT.
  split; [|apply pb_le with (8 + 1 * 24 + 29); auto; lra].
  unfold R_Z_Zdr.
  assert (K : mapx (4 * et + (8 * et + 10 / 9 * ((4 * et + et) * 24 + 1 * (100 * et + et))) + 2 * et)
     (fmul a (fpow (lin z) b)) (ca * Rpower (Zlin d) cb)).
  { apply mapx_mul; auto; es.
    - apply mapx_pow; auto; try lra; es.
      + apply pb_safe32 with 24; auto. lra.
      + apply pb_safe32 with 8; [apply pb8_const|]; lra.
      + rewrite Rabs_mult, (Rabs_pos_eq cb) by lra. pose proof (pb_ln _ _ PL). pose proof (Rabs_pos (ln (Zlin d))). nra.
      + rewrite Rabs_pos_eq; lra.
    - apply pb_safe32 with 8; auto. lra.
    - apply pb_safe32 with (1 * 24); auto. lra.
    - apply pb_safe32 with (8 + 1 * 24); auto. lra. }
  eapply mapx_le; [apply mapx_mul; [exact K|exact E|es|..]|es].
  - apply pb_safe32 with (8 + 1 * 24); auto. lra.
  - apply pb_safe32 with 29; auto. lra.
  - apply pb_safe32 with (8 + 1 * 24 + 29); auto. lra.
Qed.
End Est.
