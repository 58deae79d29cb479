(** Rounding errors of the ice fraction and of the rain-only reflectivity in the
    S-band blended algorithm, double precision. *)
From Coq Require Import Reals Lra Lia ZArith QArith.
From Flocq Require Import Core IEEE754.BinarySingleNaN.
From Verif Require Import Base.Num Base.XReal Base.Ieee Base.RelErr Base.PosErr Spec.IeeeSpec Spec.LibmSpec.
From Verif Require Import Spec.RainSpec Spec.RainDefaultSpec.
From Verif Require Import Proofs.BetaErr Proofs.HidErr Proofs.IeeeRain Proofs.EdgeRain Proofs.FundErr Proofs.IceErr Proofs.IeeeSign Proofs.MassErr.
Open Scope R_scope.
#[local] Existing Instances p53 e1024 p24 e128.

Section Blend.
Variables (np1 : bool) (lm : libm double).
Hypothesis Acc : libm_accurate lm.
#[local] Instance dop : FloatOps double := double_ops np1 lm.

Section Gate.
Variables (fa fb z w : double) (A B d r : R).
Hypotheses (HA : near (1 / 10 ^ 13) fa A) (HB : near (1 / 10 ^ 13) fb B) (BA : Rabs A <= 4) (BB : Rabs B <= 100).
Hypotheses (HZ : dval z = Fin d) (T : nt d) (U : Rabs d <= 100) (HW : dval w = Fin r) (HR : 1 / 100 <= Rabs r <= 20).
Let L : R := A * Zdp_dB d r + B.

Lemma zrain_apx : apx (8 / 10 ^ 11) (zrain_of fa fb z w) (Zlin L) /\ pb 390 (Zlin L) /\ Rabs L <= 1140.
Proof.
  destruct (line_near np1 lm Acc fa fb z w A B d r HA HB BA BB HZ T U HW HR) as (N & BL). fold L in N, BL.
  destruct (lin_near np1 lm Acc _ _ _ N ltac:(lra) ltac:(lra)) as (X & P).
  split; auto. apply apx_le with (1 := X). lra.
Qed.

Definition ratio : R := Zlin L / Zlin d.
Lemma ratio_eq : ratio = Rpower 10 ((L - d) / 10).
Proof.
  unfold ratio, Zlin. replace ((L - d) / 10) with (L / 10 + - (d / 10)) by field. rewrite Rpower_plus, Rpower_Ropp. reflexivity.
Qed.
Lemma ratio_pb : pb 390 ratio.
Proof.
  rewrite ratio_eq. destruct zrain_apx as (_ & _ & BL). pose proof ln10_range as L10. apply Rabs_le_inv in BL.
  assert (U' := U). apply Rabs_le_inv in U'. unfold Rpower, pb. split; apply exp_le_mono; nra.
Qed.
Lemma quot_apx : apx (9 / 10 ^ 11) (fdiv (zrain_of fa fb z w) (lin z)) ratio.
Proof.
  destruct zrain_apx as (X & P & _). destruct (lin_apx np1 lm (acc_pow lm Acc) z d HZ T U) as (Y & Q).
  pose proof eta_num. pose proof eta_pos. pose proof (Zlin_pos d).
  apply apx_le with (8 / 10 ^ 11 + 47 * eta + eta); [|lra]. apply apx_div; auto; [lra|lra|].
  apply pb_safe with 390; [exact ratio_pb|lra].
Qed.
Lemma tenth : near (1 / 10 ^ 14) (flit 0.1%Q : double) 0.1.
Proof. apply (N_lit np1 lm); [cbn [Qnum Qden]; lra| |]; rewrite Rabs_pos_eq by lra; unfold ud, taud; lra. Qed.
(** the test "ice fraction < 0.1" *)
Lemma icefree_decided : 1 / 10 ^ 9 <= Rabs (1 - ratio - 0.1) ->
  flt (ice_fraction fa fb z w) (flit 0.1%Q) = if Rlt_dec (1 - ratio) 0.1 then true else false.
Proof.
  intro G. destruct quot_apx as (e & De & V). pose proof ratio_pb as PB. pose proof (pb_pos _ _ PB) as Pp.
  destruct tenth as (t & Vt & Dt). apply Rabs_le_inv in Dt.
  assert (De' := De). apply Rabs_le_inv in De'.
  pose proof (exp_near e (9 / 10 ^ 11) De ltac:(lra)) as En. apply Rabs_le_inv in En.
  set (q := ratio * exp e) in *.
  assert (Bq : Rabs (1 - q) <= 10 ^ 300).
  { assert (exp 400 <= 10 ^ 200).
    { pose proof ln10_range. replace (10 ^ 200) with (Rpower 10 200) by (replace 200 with (INR 200) by (simpl; lra); apply Rpower_pow; lra).
      unfold Rpower. apply exp_le_mono. lra. }
    assert (0 < q <= 10 ^ 200).
    { unfold q. split; [apply Rmult_lt_0_compat; auto; apply exp_pos|]. apply Rle_trans with (exp 390 * exp 10); [|rewrite <- exp_plus; replace (390 + 10) with 400 by lra; auto].
      assert (exp e <= exp 10) by (apply exp_le_mono; lra). pose proof (exp_pos e). destruct PB. apply Rmult_le_compat; lra. }
    assert (10 ^ 200 + 1 <= 10 ^ 300).
    { replace (10 ^ 300) with (10 ^ 200 * 10 ^ 100) by (rewrite <- pow_add; reflexivity).
      assert (1 <= 10 ^ 200) by (apply pow_R1_Rle; lra). assert (10 ^ 1 <= 10 ^ 100) by (apply Rle_pow; [lra|lia]). simpl (10 ^ 1) in *. nra. }
    apply Rabs_le. lra. }
  destruct (drnd_err (1 - q) Bq) as (y & Y & Dy).
  assert (Vi : dval (ice_fraction fa fb z w) = Fin y).
  { unfold ice_fraction. refine (eq_trans (r_sub np1 lm _ _ 1 q one V) Y). }
  change (Bltb (ice_fraction fa fb z w) (flit 0.1%Q) = if Rlt_dec (1 - ratio) 0.1 then true else false).
  rewrite val_lt, Vi, Vt. cbn [xlt].
  destruct (Rle_dec ratio 2) as [S|S].
  - assert (Qn : Rabs (q - ratio) <= 4 / 10 ^ 10) by (unfold q; replace (ratio * exp e - ratio) with (ratio * (exp e - 1)) by ring; rewrite Rabs_mult, (Rabs_pos_eq ratio) by lra; apply Rle_trans with (2 * (10 / 9 * (9 / 10 ^ 11))); [apply Rmult_le_compat; try lra; [apply Rabs_pos|now apply Rabs_le]|lra]).
    apply Rabs_le_inv in Qn.
    assert (Hy : Rabs (y - (1 - q)) <= 1 / 10 ^ 13).
    { apply Rle_trans with (1 := Dy). assert (Rabs (1 - q) <= 3) by (apply Rabs_le; lra). unfold ud, taud. lra. }
    apply Rabs_le_inv in Hy. 
    destruct (Rlt_dec (1 - ratio) 0.1).
    + rewrite Rabs_left in G by lra. apply Rltb_true. lra.
    + rewrite Rabs_pos_eq in G by lra. apply Rltb_false. lra.
  - destruct (Rlt_dec (1 - ratio) 0.1); [|lra]. apply Rltb_true.
    assert (19 / 10 <= q) by (unfold q; apply Rle_trans with (2 * (19 / 20)); [lra|apply Rmult_le_compat; lra]). rewrite (Rabs_left (1 - q)) in Dy by lra. apply Rabs_le_inv in Dy. unfold ud, taud in Dy. lra.
Qed.

(** the rain-only reflectivity *)
Lemma rain_dbz_near : near (5 / 10 ^ 10) (fmul (flit 10%Q) (flog10 (zrain_of fa fb z w))) L /\ Rabs L <= 1140.
Proof.
  destruct zrain_apx as (X & P & BL). split; auto.
  destruct (log_near np1 lm Acc _ _ _ X ltac:(lra) P) as (N & _).
  assert (E : lg (Zlin L) = L / 10).
  { unfold lg, Zlin, Rpower. rewrite ln_exp. pose proof ln10_range. field. lra. }
  rewrite E in N. replace L with (10 * (L / 10)) at 1 by field.
  apply (N_mul np1 lm) with (e1 := 0) (e2 := 8 / 10 ^ 11 / 2 + 1 / 10 ^ 13) (A := 10) (B := 114); auto; try lra.
  - apply N_exact. exact ten.
  - rewrite Rabs_pos_eq; lra.
  - unfold Rdiv. rewrite Rabs_mult, (Rabs_pos_eq (/ 10)) by lra. lra.
  - unfold ud, taud. lra.
Qed.
End Gate.

(** the capped Z-R relation at an approximate reflectivity *)
Lemma R_Z_near e (z : double) x : near e z x -> e <= 1 / 10 ^ 9 -> Rabs x <= 1200 ->
  within (5 / 10 ^ 10) (R_Z (flit 300%Q) (flit 1.4%Q) z) (Rpower (Zlin x / 300) (1 / 1.4)).
Proof.
  intros N He Bx. destruct (lin_near np1 lm Acc e z x N ltac:(lra) ltac:(lra)) as (X & _).
  pose proof eta_num. pose proof eta_pos.
  assert (P : pb 300 (Zlin x)).
  { pose proof ln10_range. apply Rabs_le_inv in Bx. unfold Zlin, Rpower, pb. split; apply exp_le_mono; nra. }
  assert (Q := B_div np1 lm _ _ _ _ _ _ _ _ (conj X P) (B_lit np1 lm 300%Q 300 10 ltac:(cbn [Qnum Qden]; lra) ltac:(apply pb_const; lra) ltac:(lra)) ltac:(lra) ltac:(lra)).
  assert (I : apx (2 * eta) (fdiv (flit 1%Q) (flit 1.4%Q)) (1 / 1.4)).
  { replace (2 * eta) with (0 + eta + eta) by ring. apply apx_div; try lra.
    - apply apx_exact. exact one.
    - assert (E : IZR (Qnum 1.4%Q) / IZR (Zpos (Qden 1.4%Q)) = 1.4) by (cbn [Qnum Qden]; lra). rewrite <- E. apply apx_lit. rewrite E.
      apply pb_safe with 10; [apply pb_const; lra|lra].
    - apply pb_safe with 10; [apply pb_const; lra|lra]. }
  assert (R := B_pow np1 lm Acc _ _ _ 1 _ _ _ _ Q I ltac:(lra) ltac:(lra) ltac:(rewrite Rabs_pos_eq; lra) ltac:(lra) ltac:(lra)).
  apply apx_within with (1 := proj1 R); lra.
Qed.
Lemma nexrad_at_near e (z : double) x : near e z x -> e <= 1 / 10 ^ 9 -> Rabs x <= 1200 ->
  within (5 / 10 ^ 10) (R_Z_capped (flit 53%Q) (flit 300%Q) (flit 1.4%Q) z) (nexrad x).
Proof.
  intros (v & V & D) He Bx. unfold R_Z_capped, nexrad. pose proof (Rabs_pos (v - x)).
  assert (C : flt (flit 53%Q) z = Rltb 53 v).
  { change (Bltb (b_lit 53 1024 p53 e1024 53%Q) z = Rltb 53 v). rewrite val_lt, V.
    assert (E : val 53 1024 (b_lit 53 1024 p53 e1024 53) = Fin 53) by exact (lit_int 53 ltac:(lia)). rewrite E. reflexivity. }
  rewrite C. assert (D' := D). apply Rabs_le_inv in D'. apply Rabs_le_inv in Bx.
  assert (Bm : Rabs (Rmin x 53) <= 1200) by (apply Rabs_le; unfold Rmin; destruct Rle_dec; lra).
  destruct (Rltb_spec 53 v) as [G|G].
  - apply (R_Z_near e); auto. exists 53. split; [exact (lit_int 53 ltac:(lia))|].
    apply Rabs_le. unfold Rmin. destruct (Rle_dec x 53); lra.
  - apply (R_Z_near e); auto. exists v. split; auto. apply Rabs_le. unfold Rmin. destruct (Rle_dec x 53); lra.
Qed.
End Blend.
