(** * Float32 fields: NumPy's mixture of Python floats and float32 arrays

    When a function is given float32 arrays, its literals and keyword arguments
    stay Python floats (IEEE doubles).  NumPy computes an expression that
    contains an array element in single precision, after rounding the Python
    floats in it to single ("weak" scalars); what involves Python floats only is
    computed in double.  [Wd x] is such a double, [Sg x] an array element. *)
From Coq Require Import Reals Lra Lia ZArith QArith Qreals.
From Flocq Require Import Core Relative IEEE754.BinarySingleNaN.
From Verif Require Import Base.Num Base.XReal Base.Ieee Spec.IeeeSpec Base.RelErr.
Open Scope R_scope.

#[local] Existing Instances p53 e1024 p24 e128.
Notation single := (binary_float 24 128).
Notation sval := (val 24 128).
Notation srnd := (rnd 24 128).
Inductive mixed := Wd (x : double) | Sg (x : single).

(** rounded to single precision: as an operand beside an array element, or when
    stored into a float32 array *)
Definition stored (x : mixed) : single :=
  match x with Wd a => conv 53 1024 24 128 p24 e128 a | Sg a => a end.

(** a function of one and of two numbers *)
Definition un (f : double -> double) (g : single -> single) (x : mixed) : mixed :=
  match x with Wd a => Wd (f a) | Sg a => Sg (g a) end.
Definition bin (f : double -> double -> double) (g : single -> single -> single) (x y : mixed) : mixed :=
  match x, y with Wd a, Wd b => Wd (f a b) | _, _ => Sg (g (stored x) (stored y)) end.
Definition cmp (f : double -> double -> bool) (g : single -> single -> bool) (x y : mixed) : bool :=
  match x, y with Wd a, Wd b => f a b | _, _ => g (stored x) (stored y) end.

(** [lm], [lm32]: the double and single precision functions of the C library *)
Definition mixed_ops (lm : libm double) (lm32 : libm single) : FloatOps mixed := {|
  fadd := bin (Bplus mode_NE) (Bplus mode_NE); fsub := bin (Bminus mode_NE) (Bminus mode_NE);
  fmul := bin (Bmult mode_NE) (Bmult mode_NE); fdiv := bin (Bdiv mode_NE) (Bdiv mode_NE);
  fpow := bin (lm_pow lm) (lm_pow lm32); fabs := un Babs Babs; fsqrt := un (Bsqrt mode_NE) (Bsqrt mode_NE);
  flog10 := un (lm_log10 lm) (lm_log10 lm32); flog := un (lm_log lm) (lm_log lm32);
  fsin := un (lm_sin lm) (lm_sin lm32); fcos := un (lm_cos lm) (lm_cos lm32); fasin := un (lm_asin lm) (lm_asin lm32);
  fpi := Wd (lm_pi lm); fnan := Wd B754_nan;
  flt := cmp Bltb Bltb; fle := cmp Bleb Bleb; feq := cmp Beqb Beqb;
  flit := fun q => Wd (b_lit 53 1024 p53 e1024 q);
  ftrunc := un (fun x => match x with B754_infinity _ | B754_nan => B754_zero false | _ => Bnearbyint mode_ZR x end)
               (fun x => match x with B754_infinity _ | B754_nan => B754_zero false | _ => Bnearbyint mode_ZR x end);
  f32 := fun x => Sg (stored x); fnp := fun x => x |}.

(** single-precision pow to within four units in the last place (vectorised
    libraries document this bound), for results far from overflow and underflow *)
Definition powf_accurate (lm : libm single) : Prop :=
  forall x y a b, sval x = Fin a -> sval y = Fin b -> 0 < a -> exp (-80) <= Rpower a b <= exp 80 ->
  exists v, sval (lm_pow lm x y) = Fin v /\ Rabs (v - Rpower a b) <= 4 * bpow radix2 (-23) * Rpower a b.

(** ** Values *)
Definition mval (x : mixed) : xr := match x with Wd a => dval a | Sg a => sval a end.

Lemma stored_val x : sval (stored x) = match x with Wd a => rndx 24 128 (dval a) | Sg a => sval a end.
Proof. destruct x; [apply val_conv|reflexivity]. Qed.

(** ** Relative errors *)
Definition et : R := 101 / 100 * bpow radix2 (-24).
Definition sapx (e : R) (x : single) (r : R) : Prop := exists d, Rabs d <= e /\ sval x = Fin (r * exp d).
Definition mapx (e : R) (x : mixed) (r : R) : Prop := exists d, Rabs d <= e /\ mval x = Fin (r * exp d).
Definition safe32 (r : R) : Prop := r = 0 \/ exp (-75) <= Rabs r <= exp 75.

Lemma bp24 : bpow radix2 (-24) = / 16777216. Proof. cbn. lra. Qed.
Lemma et_val : et = 101 / 1677721600. Proof. unfold et. rewrite bp24. lra. Qed.
Lemma eta_et : eta <= et.
Proof. unfold eta, et. assert (bpow radix2 (-53) <= bpow radix2 (-24)) by (apply bpow_le; lia). lra. Qed.

(** bounds of exp and ln *)
Lemma exp_pow x n : exp (INR n * x) = exp x ^ n.
Proof. induction n; [simpl; rewrite Rmult_0_l, exp_0; reflexivity|]. rewrite S_INR, Rmult_plus_distr_r, Rmult_1_l, exp_plus, IHn. simpl. ring. Qed.
Lemma ln2_low : 65 / 100 <= ln 2.
Proof.
  destruct (Rle_or_lt (65 / 100) (ln 2)) as [H|H]; auto. exfalso.
  apply exp_increasing in H. rewrite exp_ln in H by lra.
  replace (65 / 100) with (INR 20 * (65 / 2000)) in H by (simpl; lra). rewrite exp_pow in H.
  pose proof (exp_up (65 / 2000) ltac:(lra)) as U.
  assert (P : exp (65 / 2000) ^ 20 <= (2000 / 1935) ^ 20).
  { apply pow_incr. split; [left; apply exp_pos|]. lra. }
  simpl in P. simpl in H. lra.
Qed.
Lemma ln10_up : 0 < ln 10 <= 24 / 10.
Proof.
  split; [rewrite <- ln_1; apply ln_increasing; lra|].
  destruct (Rle_or_lt (ln 10) (24 / 10)) as [H|H]; auto. exfalso.
  apply exp_increasing in H. rewrite exp_ln in H by lra.
  replace (24 / 10) with (INR 30 * (8 / 100)) in H by (simpl; lra). rewrite exp_pow in H.
  pose proof (exp_ge (8 / 100)) as U.
  assert (P : (108 / 100) ^ 30 <= exp (8 / 100) ^ 30) by (apply pow_incr; lra).
  simpl in P. simpl in H. lra.
Qed.
Lemma exp8_big : 1000 <= exp 8.
Proof.
  replace 8 with (INR 64 * (1 / 8)) by (simpl; lra). rewrite exp_pow.
  pose proof (exp_ge (1 / 8)) as U.
  assert (P : (9 / 8) ^ 64 <= exp (1 / 8) ^ 64) by (apply pow_incr; lra).
  apply Rle_trans with (2 := P). simpl. lra.
Qed.

Lemma ln_near' t e : Rabs t <= e -> e <= 1 / 1000 -> 0 < 1 + t /\ Rabs (ln (1 + t)) <= 101 / 100 * e.
Proof.
  intros H He. apply Rabs_le_inv in H. split; [lra|].
  assert (L : forall y, 0 < y -> ln y <= y - 1).
  { intros y Hy. destruct (Rle_or_lt (ln y) (y - 1)) as [|X]; auto. exfalso.
    pose proof (exp_ge (ln y)) as G. rewrite exp_ln in G by auto. lra. }
  pose proof (L (1 + t)) as U. pose proof (L (/ (1 + t))) as D. rewrite ln_Rinv in D by lra.
  assert (I : 0 < / (1 + t)) by (apply Rinv_0_lt_compat; lra). specialize (U ltac:(lra)). specialize (D I).
  assert (/ (1 + t) - 1 = - t * / (1 + t)) by (field; lra).
  assert (/ (1 + t) <= 101 / 100). { replace (101 / 100) with (/ (100 / 101)) by lra. apply Rinv_le_contravar; lra. }
  apply Rabs_le. split; [|lra]. destruct (Rle_or_lt 0 t); nra.
Qed.

(** ** one rounding to single *)
Lemma srnd_apx r : exp (-80) <= Rabs r <= exp 80 -> exists d, Rabs d <= et /\ srnd r = Fin (r * exp d).
Proof.
  intros (L & U). pose proof ln2_low as H2.
  assert (Lo : bpow radix2 (-126) <= Rabs r).
  { apply Rle_trans with (2 := L). rewrite bpow_exp. apply exp_le_mono. lra. }
  assert (Hi : Rabs r <= bpow radix2 127).
  { apply Rle_trans with (1 := U). rewrite bpow_exp. apply exp_le_mono. lra. }
  pose proof (relative_error_N_FLT radix2 (3 - 128 - 24) 24 eq_refl (fun n => negb (Z.even n)) r) as E.
  cbn [Z.sub Z.add Z.opp Z.pos_sub Pos.add] in E. specialize (E Lo).
  change (FLT_exp _ 24) with (SpecFloat.fexp 24 128) in E.
  change (Znearest (fun n => negb (Z.even n))) with ZnearestE in E.
  set (q := round radix2 (SpecFloat.fexp 24 128) ZnearestE r) in *.
  assert (Rn : r <> 0). { intro Z. rewrite Z, Rabs_R0 in L. pose proof (exp_pos (-80)). lra. }
  assert (B : / 2 * bpow radix2 (-24 + 1) = bpow radix2 (-24)) by (cbn; lra).
  change (-24 + 1)%Z with (-23)%Z in *.
  assert (E' : Rabs ((q - r) / r) <= bpow radix2 (-24)).
  { unfold Rdiv. rewrite Rabs_mult, Rabs_inv. apply Rmult_le_reg_r with (Rabs r); [now apply Rabs_pos_lt|].
    rewrite Rmult_assoc, Rinv_l by now apply Rabs_no_R0. rewrite Rmult_1_r. rewrite <- B. exact E. }
  destruct (ln_near' _ _ E' ltac:(rewrite bp24; lra)) as (P & D). exists (ln (1 + (q - r) / r)). split; auto.
  rewrite exp_ln by auto. unfold rnd. fold q.
  replace (r * (1 + (q - r) / r)) with q by (field; auto).
  rewrite Rlt_bool_true; auto.
  assert (Q : Rabs q <= bpow radix2 127).
  { pose proof (fexp_correct 24 128 p24) as VE. apply abs_round_le_generic; auto.
    - apply valid_rnd_N.
    - apply generic_format_bpow. vm_compute. discriminate. }
  apply Rle_lt_trans with (1 := Q). apply bpow_lt. lia.
Qed.
Lemma srnd_apx0 r : r = 0 \/ exp (-80) <= Rabs r <= exp 80 -> exists d, Rabs d <= et /\ srnd r = Fin (r * exp d).
Proof.
  intros [->|H]; [|now apply srnd_apx]. exists 0. rewrite Rabs_R0, Rmult_0_l, rnd_0. split; auto.
  rewrite et_val. lra.
Qed.
Lemma safe32_margin r d : safe32 r -> Rabs d <= 5 -> r * exp d = 0 \/ exp (-80) <= Rabs (r * exp d) <= exp 80.
Proof.
  intros [->|(L & U)] D; [left; lra|right]. apply Rabs_le_inv in D.
  rewrite Rabs_mult, (Rabs_pos_eq (exp d)) by (left; apply exp_pos).
  pose proof (exp_pos d). split.
  - apply Rle_trans with (exp (-75) * exp d).
    + rewrite <- exp_plus. apply exp_le_mono. lra.
    + apply Rmult_le_compat_r; lra.
  - apply Rle_trans with (exp 75 * exp d).
    + apply Rmult_le_compat_r; lra.
    + rewrite <- exp_plus. apply exp_le_mono. lra.
Qed.
Lemma safe32_safe r : safe32 r -> safe0 r.
Proof.
  intros [->|(L & U)]; [now left|right]. split.
  - apply Rle_trans with (2 := L). apply exp_le_mono. lra.
  - apply Rle_trans with (1 := U). apply exp_le_mono. lra.
Qed.
Lemma sapx_round (x : single) r d e : safe32 r -> Rabs d <= e -> e <= 5 -> sval x = srnd (r * exp d) ->
  sapx (e + et) x r.
Proof.
  intros S D E X. destruct (srnd_apx0 _ (safe32_margin r d S ltac:(lra))) as (d' & D' & Y).
  exists (d + d'). split; [now apply Rabs_plus_le|]. rewrite X, Y, exp_plus. f_equal. ring.
Qed.
Lemma sapx_le e e' x r : sapx e x r -> e <= e' -> sapx e' x r.
Proof. intros (d & D & X) L. exists d. split; auto. lra. Qed.
Lemma mapx_le e e' x r : mapx e x r -> e <= e' -> mapx e' x r.
Proof. intros (d & D & X) L. exists d. split; auto. lra. Qed.
Lemma mapx_exact x r : mval x = Fin r -> mapx 0 x r.
Proof. intro E. exists 0. rewrite Rabs_R0, exp_0, Rmult_1_r. split; auto. lra. Qed.
Lemma mapx_pos e x r : mapx e x r -> 0 <= e.
Proof. intros (d & D & _). pose proof (Rabs_pos d). lra. Qed.

(** rounding to single costs one unit, a single none *)
Definition cost (x : mixed) : R := match x with Wd _ => et | Sg _ => 0 end.
Lemma cost_le x : 0 <= cost x <= et.
Proof. destruct x; cbn [cost]; rewrite et_val; lra. Qed.
Lemma stored_apx e x r : mapx e x r -> safe32 r -> e <= 5 -> sapx (e + cost x) (stored x) r.
Proof.
  intros (d & D & X) S E. destruct x as [x|x]; cbn [cost mval stored] in *.
  - apply sapx_round with d; auto. rewrite val_conv, X. reflexivity.
  - rewrite Rplus_0_r. exists d. split; auto.
Qed.
Lemma bin_cost x y : (exists a b, x = Wd a /\ y = Wd b) \/ cost x + cost y <= et.
Proof.
  destruct x, y; [left; eauto|right..]; cbn [cost]; rewrite et_val; lra.
Qed.

Section Lib.
Variables (lm : libm double) (lm32 : libm single).
Hypothesis PA : pow_accurate lm.
Hypothesis PF : powf_accurate lm32.
#[local] Instance mop : FloatOps mixed := mixed_ops lm lm32.

Lemma mapx_mul e1 e2 x y a b : mapx e1 x a -> mapx e2 y b -> e1 + e2 <= 4 -> safe32 a -> safe32 b -> safe32 (a * b) ->
  mapx (e1 + e2 + 2 * et) (fmul x y) (a * b).
Proof.
  intros A B E Sa Sb S. pose proof (mapx_pos _ _ _ A). pose proof (mapx_pos _ _ _ B).
  change (fmul x y) with (bin (Bmult mode_NE) (Bmult mode_NE) x y).
  pose proof eta_et. pose proof eta_pos. assert (Et : 0 < et < 1 / 1000) by (rewrite et_val; lra).
  destruct (bin_cost x y) as [(a' & b' & -> & ->)|C].
  - apply mapx_le with (e1 + e2 + eta); [|lra].
    change (apx (e1 + e2 + eta) (Bmult mode_NE a' b') (a * b)). apply apx_mul; auto; try lra. now apply safe32_safe.
  - assert (G : sapx (e1 + e2 + 2 * et) (Bmult mode_NE (stored x) (stored y)) (a * b)).
    { destruct (stored_apx _ _ _ A Sa ltac:(lra)) as (d & D & X). destruct (stored_apx _ _ _ B Sb ltac:(lra)) as (d' & D' & Y).
      apply sapx_le with (e1 + cost x + (e2 + cost y) + et); [|lra].
      apply sapx_round with (d + d'); auto using Rabs_plus_le; try lra.
      rewrite (val_mult 24 128 p24 e128), X, Y. cbn [xmul rndx]. f_equal. rewrite exp_plus. ring. }
    destruct x, y; try exact G. exfalso. cbn [cost] in C. lra.
Qed.
Lemma mapx_div e1 e2 x y a b : mapx e1 x a -> mapx e2 y b -> e1 + e2 <= 4 -> safe32 a -> safe32 b -> b <> 0 -> safe32 (a / b) ->
  mapx (e1 + e2 + 2 * et) (fdiv x y) (a / b).
Proof.
  intros A B E Sa Sb N S. pose proof (mapx_pos _ _ _ A). pose proof (mapx_pos _ _ _ B).
  change (fdiv x y) with (bin (Bdiv mode_NE) (Bdiv mode_NE) x y).
  pose proof eta_et. pose proof eta_pos. assert (Et : 0 < et < 1 / 1000) by (rewrite et_val; lra).
  destruct (bin_cost x y) as [(a' & b' & -> & ->)|C].
  - apply mapx_le with (e1 + e2 + eta); [|lra].
    change (apx (e1 + e2 + eta) (Bdiv mode_NE a' b') (a / b)). apply apx_div; auto; try lra. now apply safe32_safe.
  - assert (G : sapx (e1 + e2 + 2 * et) (Bdiv mode_NE (stored x) (stored y)) (a / b)).
    { destruct (stored_apx _ _ _ A Sa ltac:(lra)) as (d & D & X). destruct (stored_apx _ _ _ B Sb ltac:(lra)) as (d' & D' & Y).
      apply sapx_le with (e1 + cost x + (e2 + cost y) + et); [|lra].
      pose proof (exp_pos d'). assert (M : b * exp d' <> 0) by (apply Rmult_integral_contrapositive; split; auto; lra).
      apply sapx_round with (d + - d'); auto; try lra.
      - apply Rabs_plus_le; auto. now rewrite Rabs_Ropp.
      - rewrite (val_div 24 128 p24 e128), X, Y by (rewrite Y; congruence). cbn [xdiv].
        destruct Req_EM_T; [contradiction|]. cbn [rndx]. f_equal. rewrite exp_plus, exp_Ropp. field. split; auto; lra. }
    destruct x, y; try exact G. exfalso. cbn [cost] in C. lra.
Qed.

Lemma mapx_lit q : safe32 (IZR (Qnum q) / IZR (Zpos (Qden q))) -> mapx et (@flit mixed _ q) (IZR (Qnum q) / IZR (Zpos (Qden q))).
Proof.
  intro S. apply mapx_le with eta; [|apply eta_et].
  change (apx eta (b_lit 53 1024 p53 e1024 q) (IZR (Qnum q) / IZR (Zpos (Qden q)))). apply apx_lit. now apply safe32_safe.
Qed.
Lemma mapx_int n : (Z.abs n <= 2 ^ 53)%Z -> mapx 0 (@flit mixed _ (inject_Z n)) (IZR n).
Proof. intro L. exact (apx_int n L). Qed.

(** ** pow *)
Lemma powf_ln x y a b : sval x = Fin a -> sval y = Fin b -> 0 < a ->
  Rabs (b * ln a) <= 80 -> exists d, Rabs d <= 8 * et /\ sval (lm_pow lm32 x y) = Fin (Rpower a b * exp d).
Proof.
  intros X Y A S. apply Rabs_le_inv in S.
  destruct (PF x y a b X Y A) as (v & V & E).
  { unfold Rpower. split; apply exp_le_mono; lra. }
  assert (Q : 0 < Rpower a b) by apply exp_pos. set (r := Rpower a b) in *.
  set (t := (v - r) / r).
  assert (T : Rabs t <= 8 * bpow radix2 (-24)).
  { unfold t, Rdiv. rewrite Rabs_mult, Rabs_inv, (Rabs_pos_eq r) by lra.
    apply Rmult_le_reg_r with r; auto. rewrite Rmult_assoc, Rinv_l, Rmult_1_r by lra.
    apply Rle_trans with (1 := E). apply Rmult_le_compat_r; [lra|]. cbn. lra. }
  destruct (ln_near' _ _ T ltac:(rewrite bp24; lra)) as (P & D).
  exists (ln (1 + t)). split; [unfold et; lra|]. rewrite exp_ln by auto. rewrite V. f_equal. unfold t. field. lra.
Qed.
Lemma sapx_pow e1 e2 x y a b M N : sapx e1 x a -> sapx e2 y b -> 0 < a ->
  e1 <= 1 -> e2 <= 1 / 10 -> Rabs (b * ln a) <= M -> Rabs b <= N -> 10 / 9 * (e2 * M + N * e1) <= 5 -> M <= 75 ->
  sapx (8 * et + 10 / 9 * (e2 * M + N * e1)) (lm_pow lm32 x y) (Rpower a b).
Proof.
  intros (d & D & X) (d' & D' & Y) A E1 E2 HM HN W1 M4.
  assert (Pa : 0 < a * exp d) by (apply Rmult_lt_0_compat; auto; apply exp_pos).
  pose proof (Rabs_pos d) as D0. pose proof (Rabs_pos d') as D0'. pose proof (Rabs_pos b) as B0.
  pose proof (Rabs_pos (b * ln a)) as M0.
  assert (L : ln (a * exp d) = ln a + d) by (rewrite ln_mult, ln_exp; auto; apply exp_pos).
  pose proof (exp_near d' e2 D' E2) as Z.
  assert (Z' : Rabs (exp d') <= 10 / 9).
  { rewrite Rabs_pos_eq by (left; apply exp_pos). apply Rabs_le_inv in Z. lra. }
  assert (Ex : b * exp d' * ln (a * exp d) = b * ln a + (b * ln a * (exp d' - 1) + b * exp d' * d)).
  { rewrite L. ring. }
  assert (W : Rabs (b * ln a * (exp d' - 1) + b * exp d' * d) <= 10 / 9 * (e2 * M + N * e1)).
  { replace (10 / 9 * (e2 * M + N * e1)) with (M * (10 / 9 * e2) + N * (10 / 9) * e1) by ring.
    apply Rabs_plus_le; rewrite !Rabs_mult.
    - rewrite <- Rabs_mult. apply Rmult_le_compat; auto using Rabs_pos.
    - apply Rmult_le_compat; auto using Rabs_pos.
      + apply Rmult_le_pos; apply Rabs_pos.
      + apply Rmult_le_compat; auto using Rabs_pos. }
  destruct (powf_ln x y (a * exp d) (b * exp d') X Y Pa) as (t & T & V).
  { rewrite Ex. pose proof (Rabs_triang (b * ln a) (b * ln a * (exp d' - 1) + b * exp d' * d)). lra. }
  exists ((b * ln a * (exp d' - 1) + b * exp d' * d) + t). split.
  - replace (8 * et + 10 / 9 * (e2 * M + N * e1)) with (10 / 9 * (e2 * M + N * e1) + 8 * et) by ring.
    now apply Rabs_plus_le.
  - rewrite V. f_equal. rewrite exp_plus, <- Rmult_assoc. f_equal. unfold Rpower at 1. rewrite Ex, exp_plus. reflexivity.
Qed.
Lemma mapx_pow e1 e2 x y a b M N : mapx e1 x a -> mapx e2 y b -> 0 < a -> safe32 a -> safe32 b ->
  e1 <= 1 / 2 -> e2 <= 1 / 20 -> Rabs (b * ln a) <= M -> Rabs b <= N -> 10 / 9 * ((e2 + et) * M + N * (e1 + et)) <= 5 -> M <= 75 ->
  mapx (8 * et + 10 / 9 * ((e2 + et) * M + N * (e1 + et))) (fpow x y) (Rpower a b).
Proof.
  intros A B P Sa Sb E1 E2 HM HN W M4. change (fpow x y) with (bin (lm_pow lm) (lm_pow lm32) x y).
  pose proof (mapx_pos _ _ _ A). pose proof (mapx_pos _ _ _ B). pose proof eta_et. pose proof eta_pos.
  pose proof (Rabs_pos b). pose proof (Rabs_pos (b * ln a)).
  assert (Et : 0 < et < 1 / 1000) by (rewrite et_val; lra).
  assert (D : (exists a b, x = Wd a /\ y = Wd b) \/ ((exists s, x = Sg s) \/ (exists s, y = Sg s)))
    by (destruct x, y; eauto 8).
  destruct D as [(a' & b' & -> & ->)|D].
  - assert (MM : 0 <= et * M) by nra. assert (NN : 0 <= et * N) by nra. assert (NE : N * e1 <= 9 / 2) by nra.
    apply mapx_le with (2 * eta + 10 / 9 * (e2 * M + N * e1)); [|lra].
    change (apx (2 * eta + 10 / 9 * (e2 * M + N * e1)) (lm_pow lm a' b') (Rpower a b)).
    apply apx_pow; auto; try lra.
  - assert (G : sapx (8 * et + 10 / 9 * ((e2 + et) * M + N * (e1 + et))) (lm_pow lm32 (stored x) (stored y)) (Rpower a b)).
    { apply sapx_pow; auto; try lra.
      - apply sapx_le with (e1 + cost x); [apply stored_apx; auto; lra|pose proof (cost_le x); lra].
      - apply sapx_le with (e2 + cost y); [apply stored_apx; auto; lra|pose proof (cost_le y); lra]. }
    destruct x, y; try exact G. destruct D as [(? & ?)|(? & ?)]; discriminate.
Qed.
End Lib.

(** what an approximation says of the stored number *)
Lemma mapx_error e x r : mapx e x r -> safe32 r -> e <= 1 / 20 ->
  exists v, sval (stored x) = Fin v /\ Rabs (v - r) <= 10 / 9 * (e + et) * Rabs r.
Proof.
  intros A S E. assert (Et : 0 < et < 1 / 1000) by (rewrite et_val; lra).
  destruct (stored_apx _ _ _ A S ltac:(lra)) as (d & D & X).
  pose proof (cost_le x). exists (r * exp d). split; auto.
  replace (r * exp d - r) with (r * (exp d - 1)) by ring. rewrite Rabs_mult, Rmult_comm.
  apply Rmult_le_compat_r; [apply Rabs_pos|]. apply exp_near; lra.
Qed.
