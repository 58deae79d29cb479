(** * IEEE-754 instance of the model

    Binary floating point with round to nearest even, overflow, subnormals,
    infinities, signed zeros and NaN, from Flocq's formalisation, for any
    precision and exponent range (53, 1024: binary64; 24, 128: binary32).  The
    functions IEEE-754 does not fix (pow, log, ...) are parameters. *)
From Coq Require Import Reals Lra Lia ZArith QArith Floats.SpecFloat.
From Flocq Require Import Core IEEE754.BinarySingleNaN.
From Verif Require Import Base.Num Base.XReal.
Open Scope R_scope.

(** the C library *)
Record libm (F : Type) := mklibm {
  lm_pow : F -> F -> F; lm_log10 : F -> F; lm_log : F -> F;
  lm_sin : F -> F; lm_cos : F -> F; lm_asin : F -> F; lm_pi : F }.
Arguments mklibm {F}. Arguments lm_pow {F}. Arguments lm_log10 {F}. Arguments lm_log {F}.
Arguments lm_sin {F}. Arguments lm_cos {F}. Arguments lm_asin {F}. Arguments lm_pi {F}.

Section Conv.
Variables (p1 e1 p2 e2 : Z).
Context (Hp2 : Prec_gt_0 p2) (He2 : Prec_lt_emax p2 e2).
(** conversion between formats, rounding to nearest *)
Definition conv (x : binary_float p1 e1) : binary_float p2 e2 :=
  match x with
  | B754_nan => B754_nan
  | B754_zero s => B754_zero s
  | B754_infinity s => B754_infinity s
  | B754_finite s m e _ => binary_normalize p2 e2 Hp2 He2 mode_NE (cond_Zopp s (Zpos m)) e s
  end.
End Conv.

Section Ieee.
Variables (prec emax p32 e32 : Z).
Context (Hp : Prec_gt_0 prec) (He : Prec_lt_emax prec emax).
Context (Hp3 : Prec_gt_0 p32) (He3 : Prec_lt_emax p32 e32).
Notation bf := (binary_float prec emax).

(** the float nearest to the rational number q *)
Definition b_lit (q : Q) : bf :=
  match Qnum q with
  | Z0 => B754_zero false
  | Zpos m => SF2B _ (proj1 (Bdiv_correct_aux prec emax Hp He mode_NE false m 0 false (Qden q) 0))
  | Zneg m => SF2B _ (proj1 (Bdiv_correct_aux prec emax Hp He mode_NE true m 0 false (Qden q) 0))
  end.

(** storing into single precision *)
Definition b_f32 (x : bf) : bf := conv p32 e32 prec emax Hp He (conv prec emax p32 e32 Hp3 He3 x).

(** [np1]: NumPy before 2.0 *)
Definition ieee_ops (np1 : bool) (lm : libm bf) : FloatOps bf := {|
  fadd := Bplus mode_NE; fsub := Bminus mode_NE; fmul := Bmult mode_NE; fdiv := Bdiv mode_NE;
  fpow := lm_pow lm; fabs := Babs; fsqrt := Bsqrt mode_NE; flog10 := lm_log10 lm; flog := lm_log lm;
  fsin := lm_sin lm; fcos := lm_cos lm; fasin := lm_asin lm; fpi := lm_pi lm; fnan := B754_nan;
  flt := Bltb; fle := Bleb; feq := Beqb; flit := b_lit;
  ftrunc := fun x => match x with B754_infinity _ | B754_nan => B754_zero false | _ => Bnearbyint mode_ZR x end;
  f32 := b_f32; fnp := if np1 then b_f32 else (fun x => x) |}.

End Ieee.

(** ** Values *)
Section Val.
Variables (prec emax : Z).
Context (Hp : Prec_gt_0 prec) (He : Prec_lt_emax prec emax).
Notation bf := (binary_float prec emax).
Notation fexp := (SpecFloat.fexp prec emax).
Notation rne := (round radix2 fexp ZnearestE).

(** the number a float stands for *)
Definition val (x : bf) : xr :=
  match x with
  | B754_nan => NaN
  | B754_infinity s => if s then NInf else PInf
  | _ => Fin (B2R x)
  end.

(** rounding a real number to the format, with overflow *)
Definition rnd (r : R) : xr :=
  if Rlt_bool (Rabs (rne r)) (bpow radix2 emax) then Fin (rne r)
  else if Rlt_bool r 0 then NInf else PInf.
Definition rndx (a : xr) : xr := match a with Fin r => rnd r | _ => a end.

#[local] Instance fexp_valid : Valid_exp fexp.
Proof. apply (fexp_correct prec emax Hp). Qed.

Lemma rnd_0 : rnd 0 = Fin 0.
Proof.
  unfold rnd. rewrite round_0 by apply valid_rnd_N. rewrite Rabs_R0, Rlt_bool_true; auto. apply bpow_gt_0.
Qed.

Lemma val_finite (x : bf) : is_finite x = true -> val x = Fin (B2R x).
Proof. now destruct x. Qed.

Lemma val_fmt (x : bf) : is_finite x = true -> rnd (B2R x) = Fin (B2R x).
Proof.
  intro Hx. unfold rnd. rewrite round_generic; try apply valid_rnd_N. 2: apply generic_format_B2R.
  rewrite Rlt_bool_true; auto. apply abs_B2R_lt_emax.
Qed.

Lemma rnd_mono a b : a <= b -> xle (rnd a) (rnd b) = true.
Proof.
  intro H. assert (M : rne a <= rne b) by (apply round_le; auto; try apply valid_rnd_N; apply fexp_valid).
  assert (P : forall x, 0 <= x -> 0 <= rne x).
  { intros x Hx. rewrite <- (round_0 radix2 fexp ZnearestE). apply round_le; auto; try apply valid_rnd_N; apply fexp_valid. }
  assert (N : forall x, x <= 0 -> rne x <= 0).
  { intros x Hx. rewrite <- (round_0 radix2 fexp ZnearestE). apply round_le; auto; try apply valid_rnd_N; apply fexp_valid. }
  unfold rnd. pose proof (P a) as Pa. pose proof (N a) as Na. pose proof (P b) as Pb. pose proof (N b) as Nb.
  case (Rlt_bool_spec (Rabs (rne a)) (bpow radix2 emax)); intro B2;
  case (Rlt_bool_spec (Rabs (rne b)) (bpow radix2 emax)); intro B1;
  (case (Rlt_bool_spec a 0); intro Sa; [specialize (Na ltac:(lra)); clear Pa|specialize (Pa ltac:(lra)); clear Na]);
  (case (Rlt_bool_spec b 0); intro Sb; [specialize (Nb ltac:(lra)); clear Pb|specialize (Pb ltac:(lra)); clear Nb]);
  cbn [xle]; try reflexivity; try lra; try (now apply Rleb_true).
  all: exfalso; unfold Rabs in *; destruct (Rcase_abs (rne a)); destruct (Rcase_abs (rne b)); lra.
Qed.


(** what a computed float is: the rounded value, or the overflow infinity *)
Lemma val_round (z : bf) (r : R) (s : bool) :
  (if Rlt_bool (Rabs (rne r)) (bpow radix2 emax) then B2R z = rne r /\ is_finite z = true
   else B2SF z = S754_infinity s) ->
  (bpow radix2 emax <= Rabs (rne r) -> s = Rlt_bool r 0) ->
  val z = rnd r.
Proof.
  unfold rnd. case Rlt_bool_spec; intros B H S.
  - destruct H as [E Fz]. rewrite val_finite, E; auto.
  - rewrite (S B) in H. destruct z as [|[]| |]; try discriminate; cbn in H |- *; injection H as H; now rewrite <- H.
Qed.

Lemma rne_sign_pos r : 0 <= r -> 0 <= rne r.
Proof. intro Hx. rewrite <- (round_0 radix2 fexp ZnearestE). apply round_le; auto; try apply valid_rnd_N; apply fexp_valid. Qed.
Lemma rne_sign_neg r : r <= 0 -> rne r <= 0.
Proof. intro Hx. rewrite <- (round_0 radix2 fexp ZnearestE). apply round_le; auto; try apply valid_rnd_N; apply fexp_valid. Qed.

Lemma over_nz r : bpow radix2 emax <= Rabs (rne r) -> r <> 0.
Proof.
  intros B ->. rewrite round_0, Rabs_R0 in B by apply valid_rnd_N. pose proof (bpow_gt_0 radix2 emax). lra.
Qed.

Lemma sign_B2R (x : bf) : is_finite x = true -> B2R x <> 0 -> Bsign x = Rlt_bool (B2R x) 0.
Proof.
  destruct x as [s|s| |s m e H]; cbn; try discriminate; intros _ Hn; try lra.
  destruct s; cbn.
  - symmetry. apply Rlt_bool_true. now apply F2R_lt_0.
  - symmetry. apply Rlt_bool_false. left. now apply F2R_gt_0.
Qed.

Lemma sign_pos (x : bf) : is_finite x = true -> 0 < B2R x -> Bsign x = false.
Proof. intros Fx Px. rewrite sign_B2R by (auto; lra). apply Rlt_bool_false. lra. Qed.
Lemma sign_neg (x : bf) : is_finite x = true -> B2R x < 0 -> Bsign x = true.
Proof. intros Fx Px. rewrite sign_B2R by (auto; lra). now apply Rlt_bool_true. Qed.

Lemma plus_fin (x y : bf) : is_finite x = true -> is_finite y = true ->
  val (Bplus mode_NE x y) = rnd (B2R x + B2R y).
Proof.
  intros Fx Fy. apply (val_round _ _ (Bsign x)).
  - pose proof (Bplus_correct prec emax Hp He mode_NE x y Fx Fy) as C. cbn [round_mode] in C.
    destruct Rlt_bool; [tauto|]. cbn in C. tauto.
  - intro B. pose proof (Bplus_correct prec emax Hp He mode_NE x y Fx Fy) as C. cbn [round_mode] in C.
    rewrite (Rlt_bool_false _ _ B) in C. destruct C as [_ C].
    pose proof (over_nz _ B) as Hn.
    destruct (Rtotal_order (B2R x) 0) as [Hx|[Hx|Hx]]; destruct (Rtotal_order (B2R y) 0) as [Hy|[Hy|Hy]];
      try (rewrite (sign_neg x) in * by auto); try (rewrite (sign_pos x) in * by auto);
      try (rewrite (sign_neg y) in * by auto); try (rewrite (sign_pos y) in * by auto); try discriminate C.
    all: try (symmetry; apply Rlt_bool_true; lra).
    all: try (symmetry; apply Rlt_bool_false; lra).
    + rewrite C. symmetry; apply Rlt_bool_true; lra.
    + lra.
    + rewrite C. symmetry; apply Rlt_bool_false; lra.
Qed.

Lemma val_plus (x y : bf) : val (Bplus mode_NE x y) = rndx (xadd (val x) (val y)).
Proof.
  destruct (is_finite x) eqn:Fx.
  - destruct (is_finite y) eqn:Fy.
    + rewrite (val_finite x), (val_finite y) by auto. now apply plus_fin.
    + destruct x, y as [|[]| |]; try discriminate; reflexivity.
  - destruct x as [|[]| |]; try discriminate; destruct y as [|[]| |]; reflexivity.
Qed.

Lemma val_opp (x : bf) : val (Bopp x) = xneg (val x).
Proof. destruct x as [s|[]| |s m e H]; cbn; auto. - f_equal. lra. - f_equal. now rewrite <- F2R_opp, <- F2R_Zopp || (rewrite <- F2R_Zopp; destruct s; reflexivity). Qed.

Lemma val_minus (x y : bf) : val (Bminus mode_NE x y) = rndx (xsub (val x) (val y)).
Proof.
  unfold xsub. rewrite <- val_opp, <- val_plus.
  destruct x as [s|s| |s m e H], y as [s'|s'| |s' m' e' H']; try reflexivity; destruct s, s'; reflexivity.
Qed.

Lemma val_mult (x y : bf) : val (Bmult mode_NE x y) = rndx (xmul (val x) (val y)).
Proof.
  assert (P0 : forall s m e (H : SpecFloat.bounded prec emax m e = true) , B2R (B754_finite s m e H) <> 0 /\ Rlt_bool (B2R (B754_finite s m e H)) 0 = s).
  { intros s m e H. cbn. destruct s; cbn.
    - assert (F2R (Float radix2 (Zneg m) e) < 0) by now apply F2R_lt_0. split; [lra|]. apply Rlt_bool_true; lra.
    - assert (0 < F2R (Float radix2 (Zpos m) e)) by now apply F2R_gt_0. split; [lra|]. apply Rlt_bool_false; lra. }
  assert (I : forall s s' m e (H : SpecFloat.bounded prec emax m e = true),
     (if xorb s s' then NInf else PInf) = xinf (if s' then - B2R (B754_finite s m e H) else B2R (B754_finite s m e H))).
  { intros s s' m e H. destruct (P0 s m e H) as [N S]. unfold xinf.
    destruct s; [apply Rlt_bool_true in S || idtac|].
    - assert (B2R (B754_finite true m e H) < 0) by (revert S; case Rlt_bool_spec; [lra|discriminate]).
      destruct s'; cbn [xorb]; repeat destruct Rlt_dec; auto; lra.
    - assert (0 < B2R (B754_finite false m e H)) by (revert S; case Rlt_bool_spec; [discriminate|intros]; lra).
      destruct s'; cbn [xorb]; repeat destruct Rlt_dec; auto; lra. }
  assert (Z : forall r, r = 0 -> xinf r = NaN).
  { intros r ->. unfold xinf. repeat destruct Rlt_dec; auto; lra. }
  destruct (is_finite x) eqn:Fx; [destruct (is_finite y) eqn:Fy|].
  - rewrite (val_finite x), (val_finite y) by auto. cbn [xmul rndx].
    pose proof (Bmult_correct prec emax Hp He mode_NE x y) as C. cbn [round_mode] in C.
    apply (val_round _ _ (xorb (Bsign x) (Bsign y))).
    + destruct Rlt_bool; [|exact C]. rewrite Fx, Fy in C. tauto.
    + intro B. pose proof (over_nz _ B) as Hn.
      assert (B2R x <> 0) by (intro E; rewrite E, Rmult_0_l in Hn; lra).
      assert (B2R y <> 0) by (intro E; rewrite E, Rmult_0_r in Hn; lra).
      rewrite (sign_B2R x), (sign_B2R y) by auto. symmetry.
      case (Rlt_bool_spec (B2R x) 0); case (Rlt_bool_spec (B2R y) 0); intros; cbn [xorb];
        (apply Rlt_bool_true || apply Rlt_bool_false); nra.
  - destruct x as [s|s| |s m e H], y as [s'|s'| |s' m' e' H']; try discriminate; cbn [Bmult val]; auto.
    + destruct s'; cbn [xmul]; rewrite Z; auto; cbn; lra.
    + rewrite (I s s' m e H). destruct s'; cbn [xmul]; unfold xinf; repeat destruct Rlt_dec; reflexivity.
  - destruct x as [s|s| |s m e H]; try discriminate; destruct y as [s'|s'| |s' m' e' H']; cbn [Bmult val]; auto.
    + destruct s; cbn [xmul]; rewrite Z; auto; cbn; lra.
    + destruct s, s'; reflexivity.
    + destruct s; reflexivity.
    + rewrite xorb_comm, (I s' s m' e' H'). destruct s; cbn [xmul]; unfold xinf; repeat destruct Rlt_dec; reflexivity.
Qed.

Lemma val_div (x y : bf) : val y <> Fin 0 -> val (Bdiv mode_NE x y) = rndx (xdiv (val x) (val y)).
Proof.
  intro Hy. destruct (is_finite y) eqn:Fy.
  - rewrite (val_finite y) in * by auto. assert (Ny : B2R y <> 0) by congruence.
    destruct (is_finite x) eqn:Fx.
    + rewrite (val_finite x) by auto. cbn [xdiv]. destruct Req_EM_T; [contradiction|]. cbn [rndx].
      pose proof (Bdiv_correct prec emax Hp He mode_NE x y Ny) as C. cbn [round_mode] in C.
      apply (val_round _ _ (xorb (Bsign x) (Bsign y))).
      * destruct Rlt_bool; [|exact C]. rewrite Fx in C. tauto.
      * intro B. pose proof (over_nz _ B) as Hn.
        assert (Nx : B2R x <> 0) by (intro E; unfold Rdiv in Hn; rewrite E, Rmult_0_l in Hn; lra).
        rewrite (sign_B2R x), (sign_B2R y) by auto. symmetry.
        assert (Iy : 0 < B2R y -> 0 < / B2R y) by apply Rinv_0_lt_compat.
        assert (Jy : B2R y < 0 -> / B2R y < 0) by apply Rinv_lt_0_compat.
        unfold Rdiv in *.
        case (Rlt_bool_spec (B2R x) 0); case (Rlt_bool_spec (B2R y) 0); intros Q1 Q2; cbn [xorb];
          (apply Rlt_bool_true || apply Rlt_bool_false);
          try specialize (Jy ltac:(lra)); try specialize (Iy ltac:(lra)); nra.
    + destruct y as [s'|s'| |s' m' e' H']; try discriminate; [cbn in Ny; lra|].
      assert (S : B2R (B754_finite s' m' e' H') < 0 <-> s' = true).
      { destruct s'; split; intro A; try discriminate; auto; cbn in *.
        - now apply F2R_lt_0.
        - exfalso. assert (0 < F2R (Float radix2 (Zpos m') e')) by now apply F2R_gt_0. lra. }
      destruct x as [s|s| |s m e H]; try discriminate; cbn [Bdiv val]; auto.
      destruct s; cbn [xdiv]; (destruct Rlt_dec as [L|L]; [apply S in L; subst; reflexivity|]);
        destruct s'; try reflexivity; exfalso; apply L, S; reflexivity.
  - destruct y as [s'|[]| |s' m' e' H']; try discriminate; destruct x as [s|[]| |s m e H];
      cbn [Bdiv val xdiv rndx]; rewrite ?rnd_0; auto.
Qed.

Lemma val_sqrt (x : bf) : val (Bsqrt mode_NE x) = rndx (xsqrt (val x)).
Proof.
  destruct x as [s|[]| |s m e H]; try reflexivity.
  - cbn [Bsqrt val B2R xsqrt]. destruct Rlt_dec; [lra|]. rewrite sqrt_0. cbn [rndx]. now rewrite rnd_0.
  - pose proof (Bsqrt_correct prec emax Hp He mode_NE (B754_finite s m e H)) as (C & D & _). cbn [round_mode] in C.
    destruct s.
    + cbn [Bsqrt val xsqrt]. destruct Rlt_dec as [L|L]; [reflexivity|]. exfalso. apply L. cbn. now apply F2R_lt_0.
    + rewrite (val_finite (Bsqrt _ _)) by exact D. cbn [val xsqrt].
      assert (P : 0 < B2R (B754_finite false m e H)) by now apply F2R_gt_0.
      destruct Rlt_dec; [lra|]. cbn [rndx]. unfold rnd. rewrite <- C.
      rewrite Rlt_bool_true; auto. apply abs_B2R_lt_emax.
Qed.

Lemma val_abs (x : bf) : val (Babs x) = xabs (val x).
Proof. destruct x as [s|[]| |s m e H]; cbn; auto. - now rewrite Rabs_R0. - rewrite <- F2R_Zabs. destruct s; reflexivity. Qed.

Lemma val_lt (x y : bf) : Bltb x y = xlt (val x) (val y).
Proof.
  destruct (is_finite x) eqn:Fx; [destruct (is_finite y) eqn:Fy|].
  - rewrite Bltb_correct, (val_finite x), (val_finite y) by auto. cbn. unfold Rltb.
    destruct Rlt_dec; [now apply Rlt_bool_true|apply Rlt_bool_false; lra].
  - destruct y as [|[]| |]; try discriminate; destruct x; try discriminate; reflexivity.
  - destruct x as [|[]| |]; try discriminate; destruct y as [|[]| |]; reflexivity.
Qed.
Lemma val_le (x y : bf) : Bleb x y = xle (val x) (val y).
Proof.
  destruct (is_finite x) eqn:Fx; [destruct (is_finite y) eqn:Fy|].
  - rewrite Bleb_correct, (val_finite x), (val_finite y) by auto. cbn. unfold Rleb.
    destruct Rle_dec; [now apply Rle_bool_true|apply Rle_bool_false; lra].
  - destruct y as [|[]| |]; try discriminate; destruct x; try discriminate; reflexivity.
  - destruct x as [|[]| |]; try discriminate; destruct y as [|[]| |]; reflexivity.
Qed.
Lemma val_eq (x y : bf) : Beqb x y = xeq (val x) (val y).
Proof.
  destruct (is_finite x) eqn:Fx; [destruct (is_finite y) eqn:Fy|].
  - rewrite Beqb_correct, (val_finite x), (val_finite y) by auto. cbn. unfold Reqb.
    destruct Req_EM_T; [now apply Req_bool_true|now apply Req_bool_false].
  - destruct y as [|[]| |]; try discriminate; destruct x; try discriminate; reflexivity.
  - destruct x as [|[]| |]; try discriminate; destruct y as [|[]| |]; reflexivity.
Qed.

Lemma val_lit q : val (b_lit prec emax Hp He q) = rnd (IZR (Qnum q) / IZR (Zpos (Qden q))).
Proof.
  destruct q as [n d]. unfold b_lit. cbn [Qnum Qden].
  assert (D : forall s m, val (SF2B _ (proj1 (Bdiv_correct_aux prec emax Hp He mode_NE s m 0 false d 0)))
              = rnd (IZR (cond_Zopp s (Zpos m)) / IZR (Zpos d))).
  { intros s m. pose proof (Bdiv_correct_aux prec emax Hp He mode_NE s m 0 false d 0) as C.
    match goal with |- val (SF2B ?z ?v) = _ => set (zz := z) in *; set (vv := v) end.
    cbv zeta in C. destruct C as [V C]. cbn [cond_Zopp] in C.
    assert (E : forall k, F2R (Float radix2 k 0) = IZR k) by (intro k; unfold F2R; cbn; lra).
    rewrite !E in C. cbn [round_mode] in C. fold zz in C.
    apply (val_round _ _ (xorb s false)).
    - destruct Rlt_bool.
      + destruct C as (C1 & C2 & _). split; [rewrite B2R_SF2B; exact C1|rewrite is_finite_SF2B; exact C2].
      + rewrite B2SF_SF2B. exact C.
    - intros _. rewrite xorb_false_r. symmetry.
      assert (0 < IZR (Zpos d)) by now apply IZR_lt. assert (0 < / IZR (Zpos d)) by now apply Rinv_0_lt_compat.
      assert (0 < IZR (Zpos m)) by now apply IZR_lt.
      destruct s; cbn [cond_Zopp]; unfold Rdiv.
      + apply Rlt_bool_true. change (Z.neg m) with (- Z.pos m)%Z. rewrite opp_IZR. nra.
      + apply Rlt_bool_false. nra. }
  destruct n as [|m|m].
  - unfold Rdiv. rewrite Rmult_0_l, rnd_0. reflexivity.
  - apply (D false m).
  - apply (D true m).
Qed.

Lemma rnd_fmt r : generic_format radix2 fexp r -> Rabs r < bpow radix2 emax -> rnd r = Fin r.
Proof.
  intros G B. unfold rnd. rewrite round_generic; auto; try apply valid_rnd_N. now rewrite Rlt_bool_true.
Qed.

(** powers of two from 1 up are floats *)
Lemma rnd_1 : rnd 1 = Fin 1.
Proof. pose proof (Bone_correct prec emax Hp He) as E. rewrite <- E. apply val_fmt. apply is_finite_Bone. Qed.

Lemma rnd_not_nan r : rnd r <> NaN.
Proof. unfold rnd. destruct Rlt_bool; [discriminate|]. destruct Rlt_bool; discriminate. Qed.

End Val.

Lemma val_conv p1 e1 p2 e2 (H2 : Prec_gt_0 p2) (G2 : Prec_lt_emax p2 e2) (x : binary_float p1 e1) :
  val p2 e2 (conv p1 e1 p2 e2 H2 G2 x) = rndx p2 e2 (val p1 e1 x).
Proof.
  destruct x as [s|[]| |s m e H]; try reflexivity.
  - cbn. now rewrite rnd_0.
  - cbn [conv val rndx]. 
    pose proof (binary_normalize_correct p2 e2 H2 G2 mode_NE (cond_Zopp s (Zpos m)) e s) as C.
    cbv zeta in C. cbn [round_mode] in C.
    apply (val_round _ _ _ _ (Rlt_bool (F2R (Float radix2 (cond_Zopp s (Zpos m)) e)) 0)).
    + cbn [B2R]. destruct Rlt_bool; [tauto|exact C].
    + reflexivity.
Qed.
