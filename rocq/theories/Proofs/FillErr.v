(** Memberships of measurements far outside a table: where they round to zero
    in single precision and where they do not. *)
From Coq Require Import Reals Lra Lia ZArith QArith Qreals Qround Psatz.
From Flocq Require Import Core Relative IEEE754.BinarySingleNaN.
From Verif Require Import Base.Num Base.ListFacts Base.XReal Base.Ieee Base.RelErr.
From Verif Require Import Model.Tables Model.Beta Model.TTraps Model.Hid.
From Verif Require Import Spec.HidSpec Spec.IeeeSpec Spec.PowSpec.
From Verif Require Import Proofs.BetaErr Proofs.IeeeSign Proofs.HidProofs Proofs.BetaProofs Proofs.SummerProofs Proofs.SummerReal Proofs.CoreProofs Proofs.HidErr.
Open Scope R_scope.

#[local] Existing Instances p53 e1024 p24 e128.

(** ** Rounding tiny numbers to single precision *)
Lemma srnd_tiny r : Rabs r < bpow radix2 (-150) -> rnd 24 128 r = Fin 0.
Proof.
  intro B. destruct (Req_dec r 0) as [-> |Nz]; [apply rnd_0|].
  unfold rnd. rewrite (round_N_small radix2 (SpecFloat.fexp 24 128) (fun n => negb (Z.even n)) r (mag radix2 r)).
  - rewrite Rabs_R0, Rlt_bool_true; auto. apply bpow_gt_0.
  - destruct (mag radix2 r) as (e & He). cbn. auto.
  - pose proof (mag_le_bpow radix2 r (-150) Nz B). unfold SpecFloat.fexp, SpecFloat.emin. lia.
Qed.
Lemma srnd_least r : bpow radix2 (-149) <= r <= 1 -> exists y, rnd 24 128 r = Fin y /\ bpow radix2 (-149) <= y.
Proof.
  intro B.
  assert (G : rnd 24 128 (bpow radix2 (-149)) = Fin (bpow radix2 (-149))).
  { apply rnd_fmt. - apply generic_format_bpow. vm_compute. discriminate.
    - rewrite Rabs_pos_eq by apply bpow_ge_0. apply bpow_lt. lia. }
  pose proof (rnd_mono 24 128 p24 _ _ (proj1 B)) as M1. pose proof (rnd_mono 24 128 p24 _ _ (proj2 B)) as M2.
  rewrite G in M1. rewrite (rnd_1 24 128 p24 e128) in M2.
  destruct (rnd 24 128 r) as [y| | |]; try discriminate. exists y. split; auto. now apply Rleb_true in M1.
Qed.

Section D.
Variables (np1 : bool) (lm : libm double).
Hypothesis Lm : pow_good lm.
#[local] Hint Extern 0 (FloatOps double) => exact (HidErr.fo np1 lm) : typeclass_instances.

Lemma f32_tiny x r : dval x = Fin r -> Rabs r < bpow radix2 (-150) -> dval (f32 x) = Fin 0.
Proof.
  intros X B. change (dval (conv 24 128 53 1024 p53 e1024 (conv 53 1024 24 128 p24 e128 x)) = Fin 0).
  rewrite !val_conv, X. cbn [rndx]. rewrite srnd_tiny by auto. cbn [rndx]. now apply rnd_0.
Qed.
Lemma f32_least x r : dval x = Fin r -> bpow radix2 (-149) <= r <= 1 ->
  exists y, dval (f32 x) = Fin y /\ bpow radix2 (-149) <= y.
Proof.
  intros X B. destruct (srnd_least r B) as (y & Y & By). 
  assert (Y1 : y <= 1).
  { pose proof (rnd_mono 24 128 p24 _ _ (proj2 B)) as M. rewrite Y, (rnd_1 24 128 p24 e128) in M. now apply Rleb_true in M. }
  assert (G : drnd (bpow radix2 (-149)) = Fin (bpow radix2 (-149))).
  { apply rnd_fmt. - apply generic_format_bpow. vm_compute. discriminate.
    - rewrite Rabs_pos_eq by apply bpow_ge_0. apply bpow_lt. lia. }
  pose proof (rnd_mono 53 1024 p53 _ _ By) as M1. pose proof (rnd_mono 53 1024 p53 _ _ Y1) as M2.
  rewrite G in M1. rewrite (rnd_1 53 1024 p53 e1024) in M2.
  destruct (drnd y) as [z| | |] eqn:Z; try discriminate. exists z. split; [|now apply Rleb_true in M1].
  change (dval (conv 24 128 53 1024 p53 e1024 (conv 53 1024 24 128 p24 e128 x)) = Fin z).
  rewrite !val_conv, X. cbn [rndx]. rewrite Y. cbn [rndx]. exact Z.
Qed.

(** ** 1 / (1 + p) for large p *)
Lemma val1 : dval (flit 1) = Fin 1.
Proof.
  change (dval (b_lit 53 1024 p53 e1024 1) = Fin 1). rewrite val_lit. cbn [Qnum Qden].
  replace (1 / 1) with 1 by field. apply rnd_1; reflexivity.
Qed.
Lemma val2 : dval (flit 2) = Fin 2.
Proof.
  change (dval (b_lit 53 1024 p53 e1024 2) = Fin 2). change 2 with (IZR 2).
  destruct (apx_int 2) as (d & D & E); [lia|]. change (inject_Z 2) with 2%Q in E.
  assert (Z : d = 0). { pose proof (Rabs_pos d). destruct (Req_dec d 0); auto. pose proof (Rabs_pos_lt d H0). lra. }
  rewrite Z, exp_0, Rmult_1_r in E. exact E.
Qed.
Lemma bpow_fmt e : (-1074 <= e < 1024)%Z -> drnd (bpow radix2 e) = Fin (bpow radix2 e).
Proof.
  intro H. apply rnd_fmt.
  - apply generic_format_bpow. unfold SpecFloat.fexp, SpecFloat.emin. lia.
  - rewrite Rabs_pos_eq by apply bpow_ge_0. apply bpow_lt. lia.
Qed.
Lemma vden p t : dval p = Fin t -> dval (fadd (flit 1) p) = drnd (1 + t).
Proof.
  intro P. change (fadd (flit 1) p) with (Bplus mode_NE (flit 1) p). rewrite (val_plus 53 1024 p53 e1024), val1, P. reflexivity.
Qed.
Lemma den_huge p : dval p = PInf \/ (exists t, dval p = Fin t /\ bpow radix2 152 <= t) ->
  dval (f32 (fdiv (flit 1) (fadd (flit 1) p))) = Fin 0.
Proof.
  intro P. set (d := fadd (flit 1) p).
  assert (K : dval d = PInf \/ exists z, dval d = Fin z /\ bpow radix2 152 <= z).
  { destruct P as [P|(t & P & T)].
    - left. unfold d. change (fadd (flit 1) p) with (Bplus mode_NE (flit 1) p). now rewrite (val_plus 53 1024 p53 e1024), val1, P.
    - pose proof (vden p t P) as V. fold d in V.
      pose proof (rnd_mono 53 1024 p53 (bpow radix2 152) (1 + t) ltac:(lra)) as M.
      rewrite bpow_fmt, <- V in M by lia. destruct (dval d) as [z| | |]; try discriminate; auto.
      right. exists z. split; auto. now apply Rleb_true in M. }
  assert (B0 := bpow_gt_0 radix2 152).
  assert (Dn : dval d <> Fin 0). { destruct K as [-> |(z & -> & Z)]; [discriminate|]. intro E. injection E. lra. }
  assert (Vq : dval (fdiv (flit 1) d) = rndx 53 1024 (xdiv (Fin 1) (dval d))).
  { change (fdiv (flit 1) d) with (Bdiv mode_NE (flit 1) d). rewrite (val_div 53 1024 p53 e1024), val1 by auto. reflexivity. }
  destruct K as [K|(z & K & Z)]; rewrite K in Vq; cbn [xdiv rndx] in Vq.
  - rewrite rnd_0 in Vq. apply (f32_tiny _ 0 Vq). rewrite Rabs_R0. apply bpow_gt_0.
  - destruct Req_EM_T; [lra|]. cbn [rndx] in Vq.
    assert (I : 0 <= 1 / z <= bpow radix2 (-152)).
    { split; [apply Rmult_le_pos; [lra|]; left; apply Rinv_0_lt_compat; lra|].
      unfold Rdiv. rewrite Rmult_1_l. change (bpow radix2 (-152)) with (/ bpow radix2 152). now apply Rinv_le_contravar. }
    pose proof (rnd_mono 53 1024 p53 _ _ (proj2 I)) as M1. pose proof (rnd_mono 53 1024 p53 _ _ (proj1 I)) as M2.
    rewrite bpow_fmt in M1 by lia. rewrite rnd_0 in M2.
    destruct (drnd (1 / z)) as [y| | |] eqn:Y; try discriminate. apply (f32_tiny _ y Vq).
    apply Rleb_true in M1. apply Rleb_true in M2. rewrite Rabs_pos_eq by lra. apply Rle_lt_trans with (1 := M1). apply bpow_lt. lia.
Qed.
Lemma den_some p t : dval p = Fin t -> 0 <= t <= bpow radix2 148 ->
  exists y, dval (f32 (fdiv (flit 1) (fadd (flit 1) p))) = Fin y /\ bpow radix2 (-149) <= y.
Proof.
  intros P T. pose proof (vden p t P) as V. set (d := fadd (flit 1) p) in *.
  assert (L148 : 1 <= bpow radix2 148). { change 1 with (bpow radix2 0). apply bpow_le. lia. }
  assert (D149 : bpow radix2 149 = 2 * bpow radix2 148). { change 149%Z with (1 + 148)%Z. rewrite bpow_plus. reflexivity. }
  pose proof (rnd_mono 53 1024 p53 1 (1 + t) ltac:(lra)) as M1.
  pose proof (rnd_mono 53 1024 p53 (1 + t) (bpow radix2 149) ltac:(lra)) as M2.
  rewrite (rnd_1 53 1024 p53 e1024), <- V in M1. rewrite bpow_fmt, <- V in M2 by lia.
  destruct (dval d) as [z| | |] eqn:Z; try discriminate. apply Rleb_true in M1. apply Rleb_true in M2.
  assert (Vq : dval (fdiv (flit 1) d) = drnd (1 / z)).
  { change (fdiv (flit 1) d) with (Bdiv mode_NE (flit 1) d). rewrite (val_div 53 1024 p53 e1024), val1, Z.
    - cbn [xdiv]. destruct Req_EM_T; [lra|]. reflexivity.
    - rewrite Z. intro E. injection E. lra. }
  assert (I : bpow radix2 (-149) <= 1 / z <= 1).
  { unfold Rdiv. rewrite Rmult_1_l. split.
    - change (bpow radix2 (-149)) with (/ bpow radix2 149). apply Rinv_le_contravar; lra.
    - apply Rle_trans with (/ 1); [|rewrite Rinv_1; lra]. apply Rinv_le_contravar; lra. }
  pose proof (rnd_mono 53 1024 p53 _ _ (proj1 I)) as N1. pose proof (rnd_mono 53 1024 p53 _ _ (proj2 I)) as N2.
  rewrite bpow_fmt in N1 by lia. rewrite (rnd_1 53 1024 p53 e1024) in N2.
  destruct (drnd (1 / z)) as [y| | |] eqn:Y; try discriminate. apply Rleb_true in N1. apply Rleb_true in N2.
  apply (f32_least _ y); auto.
Qed.

(** ** The power *)
Lemma Rpower_mono a b c d : 1 <= a -> a <= b -> 0 <= c -> c <= d -> Rpower a c <= Rpower b d.
Proof.
  intros A AB C CD. unfold Rpower. apply exp_le_mono.
  assert (0 <= ln a). { rewrite <- ln_1. destruct A as [A| <-]; [left; apply ln_increasing; lra|lra]. }
  assert (ln a <= ln b). { destruct AB as [AB| <-]; [left; apply ln_increasing; lra|lra]. }
  apply Rmult_le_compat; lra.
Qed.
(** the two powers of the membership: [v] the normalised distance, [n] the
    integer exponent, [L], [H] bounds of the squared distance *)
Lemma pow_bounds (u bb : double) v bv (n : nat) L H : dval u = Fin v -> dval bb = Fin bv ->
  (1 <= n <= 60)%nat -> Rabs (bv - INR n) <= 2 * u0 * INR n ->
  2 <= L -> L <= 99 / 100 * v ^ 2 -> 101 / 100 * v ^ 2 <= H -> H <= 10 ^ 70 ->
  let p := fpow (fpow u (flit 2)) bb in
  (dval p = PInf \/ exists t, dval p = Fin t /\ (10 ^ 100 <= t \/ 9 / 10 * L ^ n <= t)) /\
  (H ^ n <= 10 ^ 60 -> exists t, dval p = Fin t /\ 0 <= t <= 4 * H ^ n).
Proof.
  intros U B Hn Eb L2 HL HH H70. cbv zeta.
  assert (N1 : 1 <= INR n). { change 1 with (INR 1). apply le_INR. lia. }
  assert (N60 : INR n <= 60). { replace 60 with (INR 60) by (rewrite INR_IZR_INZ; reflexivity). apply le_INR. lia. }
  assert (Nv : v <> 0). { intros ->. rewrite pow_ne_zero in HL by lia. lra. }
  pose proof (sq_pos v Nv) as P2.
  set (y := fpow u (flit 2)). set (p := fpow y bb).
  destruct exp_500 as (X1 & X2).
  assert (X3 : exp 499 < exp 500) by (apply exp_increasing; lra).
  assert (X5 : exp (-500) < 1). { rewrite <- exp_0. apply exp_increasing. lra. }
  destruct (pg_square _ Lm u v U Nv) as (yv & Y & EY).
  { split; [|apply Rle_trans with (10 ^ 100); [|lra]].
    - lra.
    - apply Rle_trans with (10 ^ 70); [lra|]. apply Rle_pow; [lra|lia]. }
  change (dval y = Fin yv) in Y.
  assert (B52 : bpow radix2 (-52) <= 1 / 10 ^ 15).
  { rewrite (p2 52). replace (1 / 10 ^ 15) with (/ 10 ^ 15) by lra. apply Rinv_le_contravar; [lra|]. rewrite pow_IZR. apply IZR_le. vm_compute. discriminate. }
  assert (Yb : L <= yv <= H). { apply Rabs_le_inv in EY. nra. }
  assert (Bv : INR n * (1 - 2 * u0) <= bv <= INR n * (1 + 2 * u0)) by (apply Rabs_le_inv in Eb; lra).
  assert (U0 : 0 < 2 * u0 < 1 / 1000000) by (unfold u0; lra).
  assert (Bp : 0 < bv). { apply Rlt_le_trans with (2 := proj1 Bv). apply Rmult_lt_0_compat; lra. }
  set (T := Rpower yv bv).
  (* the slack of the exponent costs less than two percent *)
  assert (Sl : forall Z, 1 <= Z -> Z <= 10 ^ 70 -> Rpower Z (INR n * (2 * u0)) <= 102 / 100).
  { intros Z Z1 Z70. unfold Rpower.
    assert (T10 : ln 10 <= 4). { rewrite <- (ln_exp 4). left. apply ln_increasing; [lra|].
        replace 4 with ((1 + 1) + (1 + 1)) by lra. rewrite (exp_plus (1 + 1)), exp_plus. pose proof (exp_ge 1) as G.
        assert (G2 : 4 <= exp 1 * exp 1) by nra. nra. }
    assert (LZ : ln Z <= 280).
    { apply Rle_trans with (ln (10 ^ 70)).
      - destruct Z70 as [Z70|Z70]; [left; apply ln_increasing; lra|rewrite Z70; lra].
      - rewrite <- (Rpower_pow 70 10) by lra. unfold Rpower. rewrite ln_exp. rewrite INR_IZR_INZ. change (Z.of_nat 70) with 70%Z. lra. }
    assert (LZ0 : 0 <= ln Z). { rewrite <- ln_1. destruct Z1 as [Z1| <-]; [left; apply ln_increasing; lra|lra]. }
    apply Rle_trans with (exp (1 / 100)).
    - apply exp_le_mono. unfold u0. assert (INR n * (2 * (1 / 16700000)) <= 60 * (2 * (1 / 16700000))) by lra.
      apply Rle_trans with (60 * (2 * (1 / 16700000)) * 280); [|lra]. apply Rmult_le_compat; try lra.
    - pose proof (exp_ge (- (1 / 100))) as G. rewrite exp_Ropp in G. pose proof (exp_pos (1 / 100)).
      assert (exp (1/100) * / exp (1/100) = 1) by (field; lra). nra. }
  assert (TL : 98 / 100 * L ^ n <= T).
  { apply Rle_trans with (Rpower L (INR n * (1 - 2 * u0))).
    - replace (INR n * (1 - 2 * u0)) with (INR n + - (INR n * (2 * u0))) by ring.
      rewrite Rpower_plus, Rpower_Ropp, Rpower_pow by lra. rewrite Rmult_comm. apply Rmult_le_compat_l; [apply pow_le; lra|].
      apply Rle_trans with (/ (102 / 100)); [lra|]. apply Rinv_le_contravar; [apply exp_pos|]. apply Sl; lra.
    - apply Rpower_mono; try lra. apply Rmult_le_pos; lra. }
  assert (TH : T <= 102 / 100 * H ^ n).
  { apply Rle_trans with (Rpower H (INR n * (1 + 2 * u0))).
    - apply Rpower_mono; lra.
    - replace (INR n * (1 + 2 * u0)) with (INR n + INR n * (2 * u0)) by ring.
      rewrite Rpower_plus, Rpower_pow by lra. rewrite Rmult_comm. apply Rmult_le_compat_r; [apply pow_le; lra|]. apply Sl; lra. }
  assert (T1 : 1 <= T).
  { apply Rle_trans with (2 := TL). assert (2 <= L ^ n); [|lra].
    apply Rle_trans with (L ^ 1); [lra|]. apply Rle_pow; [lra|lia]. }
  split.
  - destruct (Rlt_or_le (exp 500) T) as [Hl|Hl].
    + destruct (pg_large _ Lm y bb yv bv Y B ltac:(lra) Hl) as [Pv|(t & Pv & Ht)]; [now left|].
      right. exists t. split; auto. left. lra.
    + destruct (pg_accurate _ Lm y bb yv bv Y B ltac:(lra)) as (t & Pv & Ht). { fold T. lra. }
      right. exists t. split; auto. right. fold T in Ht. apply Rabs_le_inv in Ht.
      assert (bpow radix2 (-52) * T <= 1 / 100 * T) by (apply Rmult_le_compat_r; lra). lra.
  - intro H60. destruct (pg_accurate _ Lm y bb yv bv Y B ltac:(lra)) as (t & Pv & Ht).
    { fold T. split; [lra|]. apply Rle_trans with (2 * 10 ^ 60); [lra|]. apply Rle_trans with (10 ^ 100); lra. }
    exists t. split; auto. fold T in Ht. apply Rabs_le_inv in Ht.
    assert (bpow radix2 (-52) * T <= 1 / 100 * T) by (apply Rmult_le_compat_r; lra). lra.
Qed.

(** ** One membership far from the centre *)
Lemma gate_far x a b m r ra rm (n : nat) : dval x = Fin r -> Rabs r <= 10 ^ 30 ->
  cellnear m rm -> cellnear a ra -> cellnear b (INR n) ->
  Rabs rm <= 1000 -> 1 / 100 <= ra <= 1000 -> (1 <= n <= 60)%nat -> INR n * Rabs rm <= 500 * ra ->
  exists y, hid_beta_gate (f32 x) (f32 a) (f32 b) (f32 m) = Ok y /\
  (forall U, 10 <= U -> U * ra <= Rabs r - Rabs rm -> bpow radix2 154 <= (98 / 100 * U ^ 2) ^ n -> dval y = Fin 0) /\
  (forall U, 10 * ra <= Rabs r - Rabs rm -> Rabs r + Rabs rm <= U * ra -> 4 * (102 / 100 * U ^ 2) ^ n <= bpow radix2 148 ->
     exists t, dval y = Fin t /\ bpow radix2 (-149) <= t).
Proof.
  intros X R M A B Bm Ba Bn Bc.
  assert (N1 : 1 <= INR n). { change 1 with (INR 1). apply le_INR. lia. }
  assert (N60 : INR n <= 60). { replace 60 with (INR 60) by (rewrite INR_IZR_INZ; reflexivity). apply le_INR. lia. }
  unfold cellnear in A. rewrite (Rabs_pos_eq ra) in A by lra.
  destruct (uhat np1 lm x m a r rm ra X R M A Bm Ba) as (av & Av & Ap & (v & V & EV) & UB).
  unfold cellnear in B. destruct (near_f32 np1 lm _ _ _ B) as (bv & Bv & EB). { rewrite Rabs_pos_eq; lra. }
  rewrite (Rabs_pos_eq (INR n)) in EB by lra.
  set (u := (r - rm) / ra) in *. set (uh := f32 (fdiv (f32 (fsub (f32 x) (f32 m))) (f32 a))) in *.
  pose proof (Rabs_pos u) as Pu. pose proof (Rabs_pos rm) as Pm.
  assert (Ia : 0 < / ra) by (apply Rinv_0_lt_compat; lra).
  assert (V0 : 0 <= Rabs rm / ra <= 500).
  { split. - apply Rmult_le_pos; lra.
    - apply Rmult_le_reg_r with ra; [lra|]. unfold Rdiv. replace (Rabs rm * / ra * ra) with (Rabs rm) by (field; lra).
      assert (1 * Rabs rm <= INR n * Rabs rm) by (apply Rmult_le_compat_r; lra). lra. }
  destruct (beta_tail np1 lm Lm uh (f32 b) v bv (INR n)) as (F & _); auto.
  { eapply (f32_min np1 lm); eauto. }
  { replace v with (u + (v - u)) by ring. pose proof (Rabs_triang u (v - u)). unfold u0 in *. lra. }
  { unfold u0, tau in *. lra. }
  unfold hid_beta_gate.
  replace (feq (f32 a) (flit 0)) with false.
  2:{ symmetry. change (Beqb (f32 a) (b_lit 53 1024 p53 e1024 0) = false). rewrite (val_eq 53 1024), Av.
      change (dval (b_lit 53 1024 p53 e1024 0)) with (Fin 0). cbn. apply Reqb_false. lra. }
  cbv zeta. change (f32 (fdiv (f32 (fsub (f32 x) (f32 m))) (f32 a))) with uh. rewrite F.
  eexists. split; [reflexivity|].
  set (p := fpow (fpow uh (flit 2)) (f32 b)).
  assert (Du : Rabs u * ra = Rabs (r - rm)).
  { unfold u, Rdiv. rewrite Rabs_mult, (Rabs_pos_eq (/ ra)) by lra. field. lra. }
  assert (D1 : Rabs r - Rabs rm <= Rabs (r - rm)) by apply Rabs_triang_inv.
  assert (D2 : Rabs (r - rm) <= Rabs r + Rabs rm).
  { unfold Rminus. rewrite <- (Rabs_Ropp rm). apply Rabs_triang. }
  assert (VU : 10 <= Rabs u -> 999 / 1000 * u ^ 2 <= v ^ 2 <= 1001 / 1000 * u ^ 2).
  { intro H10. rewrite <- (pow2_abs u), <- (pow2_abs v).
    assert (E : Rabs (v - u) <= 1 / 10000 * Rabs u) by (unfold u0 in EV; lra).
    assert (E1 : Rabs v <= Rabs u + 1 / 10000 * Rabs u).
    { replace v with (u + (v - u)) by ring. pose proof (Rabs_triang u (v - u)). lra. }
    assert (E2 : Rabs u - 1 / 10000 * Rabs u <= Rabs v).
    { pose proof (Rabs_triang_inv u (u - v)) as E2. replace (u - (u - v)) with v in E2 by ring. rewrite (Rabs_minus_sym u v) in E2. lra. }
    pose proof (Rabs_pos v). nra. }
  assert (Big : u ^ 2 <= 10 ^ 68). { rewrite <- (pow2_abs u). apply Rle_trans with ((10 ^ 33) ^ 2); [apply pow_incr; lra|lra]. }
  assert (Eb : Rabs (bv - INR n) <= 2 * u0 * INR n) by (unfold u0, tau in *; lra).
  split.
  - intros U U10 HU Hp.
    assert (Uu : U <= Rabs u). { apply Rmult_le_reg_r with ra; lra. }
    assert (U2 : U ^ 2 <= u ^ 2). { rewrite <- (pow2_abs u). apply pow_incr. lra. }
    destruct (VU ltac:(lra)) as (W1 & W2).
    destruct (pow_bounds uh (f32 b) v bv n (98 / 100 * U ^ 2) (102 / 100 * u ^ 2) V Bv Bn Eb) as (K & _); try nra.
    apply den_huge. fold p in K. destruct K as [K|(t & Kt & K)]; [now left|].
    right. exists t. split; auto. destruct K as [K|K].
    + apply Rle_trans with (2 := K). rewrite (p2' 152), pow_IZR. apply IZR_le. vm_compute. discriminate.
    + assert (E : bpow radix2 154 = 4 * bpow radix2 152). { change 154%Z with (2 + 152)%Z. rewrite bpow_plus. reflexivity. }
      pose proof (bpow_gt_0 radix2 152). lra.
  - intros U H10 HU Hp.
    assert (Uu : Rabs u <= U). { apply Rmult_le_reg_r with ra; lra. }
    assert (U10 : 10 <= Rabs u). { apply Rmult_le_reg_r with ra; lra. }
    assert (U2 : u ^ 2 <= U ^ 2). { rewrite <- (pow2_abs u). apply pow_incr. lra. }
    destruct (VU ltac:(lra)) as (W1 & W2).
    assert (U2' : 100 <= u ^ 2). { rewrite <- (pow2_abs u). replace 100 with (10 ^ 2) by ring. apply pow_incr. lra. }
    destruct (pow_bounds uh (f32 b) v bv n 2 (102 / 100 * u ^ 2) V Bv Bn Eb) as (_ & K); try lra.
    assert (P1 : (102 / 100 * u ^ 2) ^ n <= (102 / 100 * U ^ 2) ^ n) by (apply pow_incr; lra).
    assert (P0 : 0 <= (102 / 100 * u ^ 2) ^ n) by (apply pow_le; lra).
    assert (B148 : bpow radix2 148 <= 10 ^ 60). { rewrite (p2' 148), pow_IZR. apply IZR_le. vm_compute. discriminate. }
    destruct K as (t & Kt & K). { lra. } fold p in Kt.
    apply (den_some p t); auto. lra.
Qed.

(** ** The tables *)
Fixpoint qpow (q : Q) (n : nat) : Q := match n with O => 1 | S k => q * qpow q k end.
Lemma qpow_R q n : Q2R (qpow q n) = Q2R q ^ n.
Proof. induction n; cbn [qpow pow]; [unfold Q2R; cbn; lra|]. now rewrite Q2R_mult, IHn. Qed.
Definition qexp (b : Q) : nat := Z.to_nat (Qfloor b).
Definition qabs (q : Q) : Q := if Qle_bool 0 q then q else (- q)%Q.
Definition whole (b : Q) : bool := Qeq_bool b (inject_Z (Z.of_nat (qexp b))).
(** the membership of any |x| >= D rounds to zero *)
Definition gone_row (D : Q) (r : row) : bool :=
  match r with
  | (Some m, Some a, Some b) =>
      let U := ((D - qabs m) / a)%Q in
      (acc_row r && whole b && Qle_bool 10 U && Qle_bool (inject_Z (2 ^ 154)) (qpow ((Qmake 98 100) * (U * U)) (qexp b)))%bool
  | _ => false
  end.
(** the membership of any x with D <= |x| <= E does not *)
Definition left_row (D E : Q) (r : row) : bool :=
  match r with
  | (Some m, Some a, Some b) =>
      let U := ((E + qabs m) / a)%Q in
      (acc_row r && whole b && Qle_bool (10 * a) (D - qabs m) && Qle_bool (4 * qpow ((Qmake 102 100) * (U * U)) (qexp b)) (inject_Z (2 ^ 148)))%bool
  | _ => false
  end.
Lemma qabs_R q : Q2R (qabs q) = Rabs (Q2R q).
Proof.
  unfold qabs. destruct (Qle_bool 0 q) eqn:E.
  - apply Qle_bool_iff, Qle_Rle in E. rewrite RMicromega.Q2R_0 in E. now rewrite Rabs_pos_eq.
  - rewrite Q2R_opp. assert (H : Q2R q <= 0).
    { rewrite <- RMicromega.Q2R_0. apply Qle_Rle. destruct (Qlt_le_dec 0 q) as [L|L]; auto.
      apply Qlt_le_weak, Qle_bool_iff in L. congruence. }
    rewrite Rabs_left1; auto.
Qed.
Lemma whole_R b : whole b = true -> Q2R b = INR (qexp b).
Proof.
  unfold whole. intro E. apply Qeq_bool_iff, Qeq_eqR in E. rewrite E, INR_IZR_INZ. unfold Q2R. cbn. lra.
Qed.

(** a row of the table of reflectivity *)
Lemma dz_row s bd one ut c x r m a b : nth_error (csv s bd KDZ) c = Some (Some m, Some a, Some b) ->
  acc_row (Some m, Some a, Some b) = true -> whole b = true -> dval x = Fin r -> Rabs r <= 10 ^ 30 ->
  exists y, gate_beta (get_sets s ut one bd KDZ) c (f32 x) = Ok y /\ 0 < Q2R a /\
  (forall U, 10 <= U -> U * Q2R a <= Rabs r - Rabs (Q2R m) -> bpow radix2 154 <= (98 / 100 * U ^ 2) ^ qexp b -> dval y = Fin 0) /\
  (forall U, 10 * Q2R a <= Rabs r - Rabs (Q2R m) -> Rabs r + Rabs (Q2R m) <= U * Q2R a -> 4 * (102 / 100 * U ^ 2) ^ qexp b <= bpow radix2 148 ->
     exists t, dval y = Fin t /\ bpow radix2 (-149) <= t).
Proof.
  intros Hr W Wb X R. cbn [acc_row] in W. repeat (apply andb_prop in W as (W & ?)).
  repeat match goal with H : Qle_bool _ _ = true |- _ => apply Qle_bool_iff, Qle_Rle in H end.
  rewrite ?Q2R_mult, ?Q2R_opp in *.
  assert (K1 : Q2R (Qmake 1 100) = 1 / 100) by (unfold Q2R; cbn; lra).
  assert (K2 : Q2R 1000 = 1000) by (unfold Q2R; cbn; lra).
  assert (K3 : Q2R 1 = 1) by (unfold Q2R; cbn; lra).
  assert (K4 : Q2R 60 = 60) by (unfold Q2R; cbn; lra).
  assert (K5 : Q2R (-1000) = -1000) by (unfold Q2R; cbn; lra).
  assert (K6 : Q2R 500 = 500) by (unfold Q2R; cbn; lra).
  rewrite K1 in *. rewrite K2 in *. rewrite K3 in *. rewrite K4 in *. rewrite K5 in *. rewrite K6 in *.
  assert (Am : Rabs (Q2R m) <= 1000) by (apply Rabs_le; lra).
  assert (CN : forall q, Rabs (Q2R q) <= 1000 -> cellnear (fdiv (cell (Some q)) (flit 1.0)) (Q2R q)).
  { intros q Hq. destruct (v_lit np1 lm q ltac:(lra)) as (z & Z & E). exists z. split; auto. rewrite (div_one np1 lm); auto. apply (v_one np1 lm). }
  unfold gate_beta, get_beta_set. cbn [get_sets get_beta_set sa sb sm].
  rewrite (idx_ok _ c (fdiv (cell (Some a)) (flit 1.0))) by (rewrite map_nth_error', Hr; reflexivity).
  rewrite (idx_ok _ c (fdiv (cell (Some b)) (flit 1.0))) by (rewrite map_nth_error', Hr; reflexivity).
  rewrite (idx_ok _ c (fdiv (cell (Some m)) (flit 1.0))) by (rewrite map_nth_error', Hr; reflexivity).
  cbn [bind].
  pose proof (whole_R b Wb) as Wr.
  destruct (gate_far x (fdiv (cell (Some a)) (flit 1.0)) (fdiv (cell (Some b)) (flit 1.0)) (fdiv (cell (Some m)) (flit 1.0)) r (Q2R a) (Q2R m) (qexp b))
    as (y & Y & Y1 & Y2); auto; try lra.
  - apply CN. apply Rabs_le. lra.
  - rewrite <- Wr. apply CN. apply Rabs_le. lra.
  - rewrite Wr in *. split; [apply INR_le; cbn [INR]; lra|apply INR_le].
    replace (INR 60) with 60 by (rewrite INR_IZR_INZ; reflexivity). lra.
  - rewrite <- Wr. unfold Rabs. destruct (Rcase_abs (Q2R m)); lra.
  - exists y. split; auto. split; [lra|]. split; auto.
Qed.
Lemma bq n : Q2R (inject_Z (2 ^ Z.pos n)) = bpow radix2 (Z.pos n).
Proof. rewrite p2'. unfold Q2R. cbn [Qnum Qden inject_Z]. field. Qed.
Lemma dz_gone s bd one ut c x r (D : Q) row : nth_error (csv s bd KDZ) c = Some row -> gone_row D row = true ->
  dval x = Fin r -> Q2R D <= Rabs r <= 10 ^ 30 ->
  exists y, gate_beta (get_sets s ut one bd KDZ) c (f32 x) = Ok y /\ dval y = Fin 0.
Proof.
  intros Hr G X R. destruct row as ((om, oa), ob). destruct om as [m|], oa as [a|], ob as [b|]; try discriminate.
  unfold gone_row in G. cbv zeta in G. apply andb_prop in G as (G & G3). apply andb_prop in G as (G & G2). apply andb_prop in G as (G & G1).
  destruct (dz_row s bd one ut c x r m a b Hr G G1 X ltac:(lra)) as (y & Y & Pa & V & _). exists y. split; auto.
  apply Qle_bool_iff, Qle_Rle in G2, G3. rewrite qpow_R, Q2R_mult, Q2R_mult in G3.
  assert (Na : ~ Qeq a 0). { intro E. apply Qeq_eqR in E. rewrite RMicromega.Q2R_0 in E. lra. }
  rewrite Q2R_div, Q2R_minus, qabs_R in G2, G3 by auto.
  set (U := (Q2R D - Rabs (Q2R m)) / Q2R a) in *.
  apply (V U).
  - replace (Q2R 10) with 10 in G2 by (unfold Q2R; cbn; lra). exact G2.
  - unfold U, Rdiv. rewrite Rmult_assoc, Rinv_l by lra. lra.
  - rewrite bq in G3. replace (98 / 100 * U ^ 2) with (Q2R (Qmake 98 100) * (U * U)); [exact G3|]. unfold Q2R. cbn. field.
Qed.
Lemma dz_left s bd one ut c x r (D E : Q) row : nth_error (csv s bd KDZ) c = Some row -> left_row D E row = true ->
  dval x = Fin r -> Q2R D <= Rabs r <= Q2R E -> Rabs r <= 10 ^ 30 ->
  exists y t, gate_beta (get_sets s ut one bd KDZ) c (f32 x) = Ok y /\ dval y = Fin t /\ bpow radix2 (-149) <= t.
Proof.
  intros Hr G X R R30. destruct row as ((om, oa), ob). destruct om as [m|], oa as [a|], ob as [b|]; try discriminate.
  unfold left_row in G. cbv zeta in G. apply andb_prop in G as (G & G3). apply andb_prop in G as (G & G2). apply andb_prop in G as (G & G1).
  destruct (dz_row s bd one ut c x r m a b Hr G G1 X R30) as (y & Y & Pa & _ & V).
  apply Qle_bool_iff, Qle_Rle in G2, G3. rewrite Q2R_mult, qpow_R, Q2R_mult, Q2R_mult in G3. rewrite Q2R_mult, Q2R_minus, qabs_R in G2.
  assert (Na : ~ Qeq a 0). { intro E0. apply Qeq_eqR in E0. rewrite RMicromega.Q2R_0 in E0. lra. }
  rewrite Q2R_div, Q2R_plus, qabs_R in G3 by auto.
  set (U := (Q2R E + Rabs (Q2R m)) / Q2R a) in *.
  destruct (V U) as (t & T & B).
  - replace (Q2R 10) with 10 in G2 by (unfold Q2R; cbn; lra). lra.
  - unfold U, Rdiv. rewrite Rmult_assoc, Rinv_l by lra. lra.
  - rewrite bq in G3. replace (102 / 100 * U ^ 2) with (Q2R (Qmake 102 100) * (U * U)) by (unfold Q2R; cbn; field).
    replace 4 with (Q2R 4) by (unfold Q2R; cbn; lra). exact G3.
  - exists y, t. auto.
Qed.
End D.
