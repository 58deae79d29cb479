(** Real-number meaning of the float expressions at the [xr] instance. *)
From Coq Require Import Reals Lra Lia.
From Verif Require Import Base.Num Base.XReal Base.XTac.
Open Scope R_scope.

Lemma lit_fin q : @flit xr _ q = Fin (IZR (Qnum q) / IZR (Zpos (Qden q))).
Proof. reflexivity. Qed.
Lemma lit_int z : @flit xr _ (Qmake z 1) = Fin (IZR z).
Proof. rewrite lit_fin; simpl. f_equal. field. Qed.

Lemma fpow_pos x y : 0 < x -> fpow (Fin x) (Fin y) = Fin (Rpower x y).
Proof. apply xpow_pos. Qed.
Lemma fdiv_fin a b : b <> 0 -> fdiv (Fin a) (Fin b) = Fin (a / b).
Proof. apply xdiv_fin. Qed.
Lemma fadd_fin a b : fadd (Fin a) (Fin b) = Fin (a + b). Proof. reflexivity. Qed.
Lemma fsub_fin a b : fsub (Fin a) (Fin b) = Fin (a - b). Proof. reflexivity. Qed.
Lemma fmul_fin a b : fmul (Fin a) (Fin b) = Fin (a * b). Proof. reflexivity. Qed.
Lemma fabs_fin a : fabs (Fin a) = Fin (Rabs a). Proof. reflexivity. Qed.
Lemma flt_fin a b : flt (Fin a) (Fin b) = Rltb a b. Proof. reflexivity. Qed.
Lemma fle_fin a b : fle (Fin a) (Fin b) = Rleb a b. Proof. reflexivity. Qed.
Lemma feq_fin a b : feq (Fin a) (Fin b) = Reqb a b. Proof. reflexivity. Qed.
Lemma flog10_fin x : 0 < x -> flog10 (Fin x) = Fin (ln x / ln 10).
Proof. apply xlog10_pos. Qed.

Lemma ln10_pos : 0 < ln 10.
Proof. rewrite <- ln_1. apply ln_increasing; lra. Qed.

Lemma log10_Rpower x : ln (Rpower 10 x) / ln 10 = x.
Proof. unfold Rpower. rewrite ln_exp. pose proof ln10_pos. field. lra. Qed.

Lemma Rpower_10_log10 x : 0 < x -> Rpower 10 (ln x / ln 10) = x.
Proof.
  intro H. unfold Rpower. pose proof ln10_pos.
  replace (ln x / ln 10 * ln 10) with (ln x) by (field; lra). now apply exp_ln.
Qed.

Lemma Rpower_lt_base x y z : 0 < x -> x < y -> 0 < z -> Rpower x z < Rpower y z.
Proof.
  intros Hx Hxy Hz. unfold Rpower. apply exp_increasing.
  apply Rmult_lt_compat_l; auto. apply ln_increasing; auto.
Qed.
Lemma Rpower_le_base x y z : 0 < x -> x <= y -> 0 <= z -> Rpower x z <= Rpower y z.
Proof.
  intros Hx [Hxy| ->] [Hz| <-]; try lra.
  - left; now apply Rpower_lt_base.
  - rewrite !Rpower_O by lra. lra.
Qed.
Lemma Rpower10_lt x y : x < y -> Rpower 10 x < Rpower 10 y.
Proof. intro; apply Rpower_lt; lra. Qed.
Lemma Rpower10_le x y : x <= y -> Rpower 10 x <= Rpower 10 y.
Proof. intros [H| ->]; [left; now apply Rpower10_lt|lra]. Qed.

Lemma Rtrunc_nonneg r : 0 <= r -> 0 <= Rtrunc r.
Proof.
  intro H. unfold Rtrunc. destruct Rle_dec; [|lra].
  apply IZR_le. destruct (base_Int_part r) as [H1 H2].
  assert (H3 : IZR (-1) < IZR (Int_part r)) by (simpl; lra). apply lt_IZR in H3. lia.
Qed.
Lemma Rtrunc_small r : 0 <= r < 1 -> Rtrunc r = 0.
Proof.
  intro H. unfold Rtrunc. destruct Rle_dec; [|lra].
  destruct (base_Int_part r) as [H1 H2].
  assert (H3 : IZR (-1) < IZR (Int_part r)) by (simpl; lra).
  assert (H4 : IZR (Int_part r) < IZR 1) by (simpl; lra).
  apply lt_IZR in H3, H4. replace (Int_part r) with 0%Z by lia. reflexivity.
Qed.
Lemma Rtrunc_le r : 0 <= r -> Rtrunc r <= r < Rtrunc r + 1.
Proof.
  intro H. unfold Rtrunc. destruct Rle_dec; [|lra].
  destruct (base_Int_part r) as [H1 H2]. lra.
Qed.

(** "a finite number >= 0" *)
Definition fin_nonneg (x : xr) : Prop := exists r, x = Fin r /\ 0 <= r.

Lemma cast_nonneg dt x : fin_nonneg x -> fin_nonneg (cast dt x).
Proof.
  intros (r & -> & H). destruct dt; simpl; [|exists r; auto].
  exists (Rtrunc r). split; auto. now apply Rtrunc_nonneg.
Qed.

(** rewriting: push [Fin] outwards through + - * comparisons and literals *)
Ltac xfin := repeat (rewrite lit_fin || rewrite fadd_fin || rewrite fsub_fin
  || rewrite fmul_fin || rewrite flt_fin || rewrite fle_fin || rewrite feq_fin);
  cbn [Qnum Qden].

(** exact arithmetic has one precision *)
Lemma f32_xr (x : xr) : f32 x = x. Proof. reflexivity. Qed.
Lemma fnp_xr (x : xr) : fnp x = x. Proof. reflexivity. Qed.
