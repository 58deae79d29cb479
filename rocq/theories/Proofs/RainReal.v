(** The rain formulas over the extended reals. *)
From Coq Require Import Reals Lra.
From Verif Require Import Base.Num Base.ListFacts Base.XReal Base.XTac Base.XArith.
From Verif Require Import Model.Common Spec.RainSpec.
Open Scope R_scope.

Lemma lin_fin d : @lin xr _ (Fin d) = Fin (Rpower 10 (d / 10)).
Proof.
  unfold lin. rewrite !lit_fin; cbn [Qnum Qden]. rewrite fdiv_fin by lra.
  rewrite fpow_pos by lra. f_equal. f_equal; field.
Qed.

Lemma R_Z_fin a b d : 0 < a -> 0 < b ->
  @R_Z xr _ (Fin a) (Fin b) (Fin d) = Fin (Rpower (Rpower 10 (d / 10) / a) (1 / b)).
Proof.
  intros Ha Hb. unfold R_Z. rewrite lin_fin, fdiv_fin by lra.
  rewrite lit_fin; cbn [Qnum Qden]. rewrite fdiv_fin by lra.
  rewrite fpow_pos; [f_equal; f_equal; field; lra|].
  apply Rdiv_lt_0_compat; auto using Rpower_pos.
Qed.

Lemma R_Z_mono a b d d' : 0 < a -> 0 < b -> d <= d' ->
  Rpower (Rpower 10 (d / 10) / a) (1 / b) <= Rpower (Rpower 10 (d' / 10) / a) (1 / b).
Proof.
  intros Ha Hb Hd. apply Rpower_le_base.
  - apply Rdiv_lt_0_compat; auto using Rpower_pos.
  - apply Rmult_le_compat_r; [left; apply Rinv_0_lt_compat; auto|]. apply Rpower10_le. lra.
  - left. apply Rdiv_lt_0_compat; lra.
Qed.
Lemma R_Z_mono_strict a b d d' : 0 < a -> 0 < b -> d < d' ->
  Rpower (Rpower 10 (d / 10) / a) (1 / b) < Rpower (Rpower 10 (d' / 10) / a) (1 / b).
Proof.
  intros Ha Hb Hd. apply Rpower_lt_base.
  - apply Rdiv_lt_0_compat; auto using Rpower_pos.
  - apply Rmult_lt_compat_r; [apply Rinv_0_lt_compat; auto|]. apply Rpower10_lt. lra.
  - apply Rdiv_lt_0_compat; lra.
Qed.

Lemma R_Z_capped_fin cap a b d : 0 < a -> 0 < b ->
  @R_Z_capped xr _ (Fin cap) (Fin a) (Fin b) (Fin d)
  = Fin (Rpower (Rpower 10 (Rmin d cap / 10) / a) (1 / b)).
Proof.
  intros Ha Hb. unfold R_Z_capped. rewrite flt_fin.
  destruct (Rltb_spec cap d) as [H|H]; rewrite R_Z_fin by auto; do 4 f_equal.
  - rewrite Rmin_right; lra.
  - rewrite Rmin_left; lra.
Qed.

Lemma R_Kdp_fin a b k : 0 < k -> @R_Kdp xr _ (Fin a) (Fin b) (Fin k) = Fin (a * Rpower k b).
Proof. intro H. unfold R_Kdp. now rewrite fpow_pos. Qed.

Lemma pow10_fin x : fpow (@flit xr _ 10) (Fin x) = Fin (Rpower 10 x).
Proof. rewrite lit_fin; cbn [Qnum Qden]. rewrite fpow_pos by lra. do 2 f_equal. field. Qed.

Lemma R_Kdp_Zdr_fin a b c k r : 0 < k ->
  @R_Kdp_Zdr xr _ (Fin a) (Fin b) (Fin c) (Fin k) (Fin r)
  = Fin (a * Rpower k b * Rpower 10 (c * r)).
Proof. intro H. unfold R_Kdp_Zdr. rewrite fpow_pos by auto. rewrite !fmul_fin, pow10_fin. reflexivity. Qed.

Lemma R_Z_Zdr_fin a b c d r :
  @R_Z_Zdr xr _ (Fin a) (Fin b) (Fin c) (Fin d) (Fin r)
  = Fin (a * Rpower (Rpower 10 (d / 10)) b * Rpower 10 (c * r)).
Proof.
  unfold R_Z_Zdr. rewrite lin_fin, fpow_pos by apply Rpower_pos.
  rewrite !fmul_fin, pow10_fin. reflexivity.
Qed.

(** floor applied to the difference reflectivity *)
Definition zdiff (d r : R) : R :=
  let x := Rpower 10 (d / 10) - Rpower 10 (d / 10) / Rpower 10 (r / 10) in
  if Rle_dec x 0 then 1 / 1000000000000 else x.
Lemma zdiff_pos d r : 0 < zdiff d r.
Proof. unfold zdiff. destruct Rle_dec; lra. Qed.

Lemma zdp_fin d r : @zdp_of xr _ (Fin d) (Fin r) = Fin (10 * (ln (zdiff d r) / ln 10)).
Proof.
  unfold zdp_of. rewrite !lin_fin, fdiv_fin, fsub_fin
    by (pose proof (Rpower_pos 10 (r / 10)); lra).
  rewrite !lit_fin, fle_fin; cbn [Qnum Qden].
  unfold zdiff. set (x := Rpower 10 (d / 10) - _).
  destruct (Rleb_spec x (0 / 1)), (Rle_dec x 0); try lra.
  - rewrite flog10_fin by lra. rewrite fmul_fin. f_equal. field. pose proof ln10_pos; lra.
  - rewrite flog10_fin by lra. rewrite fmul_fin. f_equal. field. pose proof ln10_pos; lra.
Qed.

Lemma zrain_fin fa fb d r : exists z, 0 < z /\
  @zrain_of xr _ (Fin fa) (Fin fb) (Fin d) (Fin r) = Fin z.
Proof.
  unfold zrain_of. rewrite zdp_fin, fmul_fin, fadd_fin.
  assert (E : forall x, fdiv (Fin x) (@flit xr _ 10) = Fin (x / (10 / 1)))
    by (intro; rewrite lit_fin; cbn [Qnum Qden]; apply fdiv_fin; lra).
  rewrite E, pow10_fin.
  eexists; split; [apply Rpower_pos|reflexivity].
Qed.
