(** Signs and bounds of IEEE-754 computations: sign bits of results, and the
    monotonicity of rounding. *)
From Coq Require Import Reals Lra Lia ZArith QArith Floats.SpecFloat.
From Flocq Require Import Core IEEE754.BinarySingleNaN.
From Verif Require Import Base.Num Base.XReal Base.Ieee.
Open Scope R_scope.

Section Sign.
Variables (prec emax : Z).
Context (Hp : Prec_gt_0 prec) (He : Prec_lt_emax prec emax).
Notation bf := (binary_float prec emax).
Notation fexp := (SpecFloat.fexp prec emax).

Lemma ovf_sign (z : bf) s : B2SF z = binary_overflow prec emax mode_NE s -> Bsign z = s.
Proof. cbn. destruct z as [|[]| |]; cbn; intro E; congruence. Qed.

Lemma s_mul (x y : bf) : Bsign x = false -> Bsign y = false -> Bsign (Bmult mode_NE x y) = false.
Proof.
  intros Hx Hy. pose proof (Bmult_correct prec emax Hp He mode_NE x y) as C. rewrite Hx, Hy in C.
  destruct Rlt_bool.
  - destruct C as (_ & _ & C). destruct (Bmult mode_NE x y); auto; now apply C.
  - now apply ovf_sign in C.
Qed.

Lemma s_div (x y : bf) : Bsign x = false -> Bsign y = false -> Bsign (Bdiv mode_NE x y) = false.
Proof.
  intros Hx Hy. destruct (Req_dec (B2R y) 0) as [E|N].
  - destruct y as [s'|s'| |s' m' e' H'].
    + cbn in Hy. subst s'. destruct x as [s|s| |s m e H]; cbn in Hx |- *; subst; auto.
    + cbn in Hy. subst s'. destruct x as [s|s| |s m e H]; cbn in Hx |- *; subst; auto.
    + destruct x; auto.
    + exfalso. cbn in E. apply eq_0_F2R in E. destruct s'; discriminate.
  - pose proof (Bdiv_correct prec emax Hp He mode_NE x y N) as C. rewrite Hx, Hy in C.
    destruct Rlt_bool.
    + destruct C as (_ & _ & C). destruct (Bdiv mode_NE x y); auto; now apply C.
    + now apply ovf_sign in C.
Qed.

Lemma s_B2R (x : bf) : Bsign x = false -> 0 <= B2R x.
Proof. destruct x as [s|s| |s m e H]; cbn; intro; subst; try lra. left. now apply F2R_gt_0. Qed.

Lemma s_plus (x y : bf) : Bsign x = false -> Bsign y = false -> Bsign (Bplus mode_NE x y) = false.
Proof.
  intros Hx Hy. destruct (is_finite x) eqn:Fx; [destruct (is_finite y) eqn:Fy|].
  - pose proof (Bplus_correct prec emax Hp He mode_NE x y Fx Fy) as C. rewrite Hx, Hy in C.
    destruct Rlt_bool.
    + destruct C as (_ & _ & ->). pose proof (s_B2R x Hx). pose proof (s_B2R y Hy).
      case Rcompare_spec; auto. lra.
    + destruct C as [C _]. now apply ovf_sign in C.
  - destruct y as [s'|s'| |s' m' e' H']; try discriminate; destruct x as [s|s| |s m e H]; cbn in *; subst; auto; discriminate.
  - destruct x as [s|s| |s m e H]; try discriminate; destruct y as [s'|s'| |s' m' e' H']; cbn in *; subst; auto.
Qed.

Lemma s_sqrt (x : bf) : Bsign x = false -> Bsign (Bsqrt mode_NE x) = false.
Proof.
  intro Hx. pose proof (Bsqrt_correct prec emax Hp He mode_NE x) as (_ & _ & C). rewrite Hx in C.
  destruct (Bsqrt mode_NE x); auto; now apply C.
Qed.

(** the square root of anything is not negative (-0 apart) *)
Lemma sqrt_notneg (x : bf) : xlt (val _ _ (Bsqrt mode_NE x)) (Fin 0) = false.
Proof.
  rewrite val_sqrt by auto. destruct (val _ _ x) as [r| | |]; cbn; auto. destruct Rlt_dec; auto.
  cbn. unfold rnd. pose proof (rne_sign_pos prec emax Hp (sqrt r) (sqrt_pos r)) as P.
  destruct Rlt_bool. - cbn. apply Rltb_false. lra. - rewrite Rlt_bool_false by apply sqrt_pos. reflexivity.
Qed.

Lemma s_abs (x : bf) : Bsign (Babs x) = false.
Proof. now destruct x. Qed.

Lemma s_lit q : (0 <= Qnum q)%Z -> Bsign (b_lit prec emax Hp He q) = false.
Proof.
  destruct q as [[|m|m] d]; cbn; intro; auto; [|lia].
  unfold b_lit. cbn [Qnum Qden]. rewrite Bsign_SF2B.
  pose proof (Bdiv_correct_aux prec emax Hp He mode_NE false m 0 false d 0) as C.
  cbv zeta in C. destruct C as [_ C]. destruct Rlt_bool.
  - destruct C as (_ & _ & C). exact C.
  - apply (f_equal sign_SF) in C. exact C.
Qed.

Lemma s_trunc (x : bf) : Bsign x = false ->
  Bsign (match x with B754_infinity _ | B754_nan => B754_zero false | _ => Bnearbyint mode_ZR x end) = false.
Proof.
  intro Hx. assert (N : Bsign (Bnearbyint mode_ZR x) = false).
  { pose proof (Bnearbyint_correct prec emax He mode_ZR x) as (_ & _ & C). rewrite Hx in C.
    destruct (Bnearbyint mode_ZR x); auto; now apply C. }
  destruct x; auto.
Qed.

(** *)
Lemma s_xr (x : bf) : Bsign x = false ->
  match val _ _ x with Fin r => 0 <= r | NInf => False | _ => True end.
Proof.
  intro Hx. pose proof (s_B2R x Hx). destruct x as [s|[]| |s m e H']; cbn in *; auto. discriminate.
Qed.

Lemma s_notneg (x : bf) : Bsign x = false -> xlt (val _ _ x) (Fin 0) = false.
Proof.
  intro Hx. apply s_xr in Hx. destruct (val _ _ x); cbn; auto. now apply Rltb_false. contradiction.
Qed.

Lemma s_above (x t : bf) : Bltb (b_lit prec emax Hp He 0) t = true -> Bleb t x = true -> Bsign x = false.
Proof.
  rewrite val_lt, val_le, val_lit by auto. cbn [Qnum Qden]. unfold Rdiv. rewrite Rmult_0_l, rnd_0 by auto.
  intros Ht Hx. assert (xlt (Fin 0) (val _ _ x) = true).
  { destruct (val _ _ t), (val _ _ x); cbn in *; try discriminate; auto.
    apply Rltb_true in Ht. apply Rleb_true in Hx. apply Rltb_true. lra. }
  clear -H. destruct x as [s|[]| |s m e H']; cbn in *; auto; try discriminate.
  - apply Rltb_true in H. lra.
  - destruct s; auto. apply Rltb_true in H. cbn in H. assert (F2R (Float radix2 (Zneg m) e) < 0) by now apply F2R_lt_0.
    lra.
Qed.

(** *)
Definition ub (a b : xr) : Prop := a = NaN \/ xle a b = true.

Lemma rndx_mono a b : xle a b = true -> xle (rndx prec emax a) (rndx prec emax b) = true.
Proof.
  destruct a, b; cbn; intro H; auto; try discriminate.
  - apply Rleb_true in H. now apply rnd_mono.
  - unfold rnd. destruct Rlt_bool; auto. destruct Rlt_bool; auto.
  - unfold rnd. destruct Rlt_bool; auto. destruct Rlt_bool; auto.
Qed.

Lemma rnd_int n : (Z.abs n < 2 ^ prec)%Z -> rnd prec emax (IZR n) = Fin (IZR n).
Proof.
  intro B. apply rnd_fmt; auto.
  - assert (E : F2R (Float radix2 n 0) = IZR n) by apply F2R_0_exp || (unfold F2R; cbn [Fnum Fexp]; change (bpow radix2 0) with 1; ring). rewrite <- E at 1.
    apply generic_format_FLT. exists (Float radix2 n 0); cbn; auto.
    unfold SpecFloat.emin, Prec_gt_0, Prec_lt_emax in *. lia.
  - rewrite <- abs_IZR. apply Rlt_trans with (bpow radix2 prec).
    + rewrite <- IZR_Zpower by (unfold Prec_gt_0 in *; lia). now apply IZR_lt.
    + apply bpow_lt. exact He.
Qed.

End Sign.

Lemma s_conv p1 e1 p2 e2 (H2 : Prec_gt_0 p2) (G2 : Prec_lt_emax p2 e2) (x : binary_float p1 e1) :
  Bsign x = false -> Bsign (conv p1 e1 p2 e2 H2 G2 x) = false.
Proof.
  destruct x as [s|s| |s m e H]; cbn [conv]; auto. cbn [Bsign]. intros ->.
  pose proof (binary_normalize_correct p2 e2 H2 G2 mode_NE (cond_Zopp false (Zpos m)) e false) as C.
  cbv zeta in C. assert (P : 0 < F2R (Float radix2 (cond_Zopp false (Zpos m)) e)) by now apply F2R_gt_0.
  destruct Rlt_bool.
  - destruct C as (_ & _ & ->). rewrite Rcompare_Gt; auto.
  - rewrite Rlt_bool_false in C by lra. now apply ovf_sign in C.
Qed.

Lemma ub_trans a b c : ub a b -> xle b c = true -> ub a c.
Proof.
  intros [-> |H] H'; [now left|right]. destruct a, b, c; cbn in *; auto; try discriminate.
  apply Rleb_true in H. apply Rleb_true in H'. apply Rleb_true. lra.
Qed.
