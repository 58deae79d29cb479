(** Upper and lower bounds of memberships far outside a table, as powers of two,
    and of the scores made of them. *)
From Coq Require Import Reals Lra Lia ZArith QArith Qreals Qround Psatz.
From Flocq Require Import Core Relative IEEE754.BinarySingleNaN.
From Verif Require Import Base.Num Base.ListFacts Base.XReal Base.Ieee Base.RelErr.
From Verif Require Import Model.Tables Model.Beta Model.TTraps Model.Hid.
From Verif Require Import Spec.HidSpec Spec.IeeeSpec Spec.PowSpec.
From Verif Require Import Proofs.BetaErr Proofs.IeeeSign Proofs.HidProofs Proofs.BetaProofs Proofs.SummerProofs Proofs.SummerReal Proofs.CoreProofs Proofs.HidErr Proofs.FillErr.
Open Scope R_scope.

#[local] Existing Instances p53 e1024 p24 e128.
Notation b2 := (bpow radix2).

(** ** Numbers between zero and a power of two *)
Definition ub (e : Z) (x : double) : Prop := exists t, dval x = Fin t /\ 0 <= t <= b2 e.
Definition lb (e : Z) (x : double) : Prop := exists t, dval x = Fin t /\ b2 e <= t.

Lemma sfmt e : (-149 <= e < 128)%Z -> rnd 24 128 (b2 e) = Fin (b2 e).
Proof.
  intro H. apply rnd_fmt.
  - apply generic_format_bpow. unfold SpecFloat.fexp, SpecFloat.emin. lia.
  - rewrite Rabs_pos_eq by apply bpow_ge_0. apply bpow_lt. lia.
Qed.
Lemma drnd_ub e r : (-1074 <= e < 1024)%Z -> 0 <= r <= b2 e -> exists t, drnd r = Fin t /\ 0 <= t <= b2 e.
Proof.
  intros H (A & B). pose proof (rnd_mono 53 1024 p53 _ _ A) as M1. pose proof (rnd_mono 53 1024 p53 _ _ B) as M2.
  rewrite (rnd_0 53 1024) in M1. rewrite bpow_fmt in M2 by lia.
  destruct (drnd r) as [t| | |]; try discriminate. exists t. split; auto. split; now apply Rleb_true.
Qed.
Lemma srnd_ub e r : (-149 <= e < 128)%Z -> 0 <= r <= b2 e -> exists t, rnd 24 128 r = Fin t /\ 0 <= t <= b2 e.
Proof.
  intros H (A & B). pose proof (rnd_mono 24 128 p24 _ _ A) as M1. pose proof (rnd_mono 24 128 p24 _ _ B) as M2.
  rewrite (rnd_0 24 128) in M1. rewrite sfmt in M2 by lia.
  destruct (rnd 24 128 r) as [t| | |]; try discriminate. exists t. split; auto. split; now apply Rleb_true.
Qed.
Lemma drnd_lb e f r : (-1074 <= e)%Z -> (e <= f < 1024)%Z -> b2 e <= r <= b2 f -> exists t, drnd r = Fin t /\ b2 e <= t <= b2 f.
Proof.
  intros H H' (A & B). pose proof (rnd_mono 53 1024 p53 _ _ A) as M1. pose proof (rnd_mono 53 1024 p53 _ _ B) as M2.
  rewrite bpow_fmt in M1, M2 by lia.
  destruct (drnd r) as [t| | |]; try discriminate. exists t. split; auto. split; now apply Rleb_true.
Qed.
Lemma srnd_lb e f r : (-149 <= e)%Z -> (e <= f < 128)%Z -> b2 e <= r <= b2 f -> exists t, rnd 24 128 r = Fin t /\ b2 e <= t <= b2 f.
Proof.
  intros H H' (A & B). pose proof (rnd_mono 24 128 p24 _ _ A) as M1. pose proof (rnd_mono 24 128 p24 _ _ B) as M2.
  rewrite sfmt in M1, M2 by lia.
  destruct (rnd 24 128 r) as [t| | |]; try discriminate. exists t. split; auto. split; now apply Rleb_true.
Qed.

Section D.
Variables (np1 : bool) (lm : libm double).
Hypothesis Lm : pow_good lm.
#[local] Hint Extern 0 (FloatOps double) => exact (HidErr.fo np1 lm) : typeclass_instances.

(** both bounds at once: [rg e f x] *)
Definition rg (e f : Z) (x : double) : Prop := exists t, dval x = Fin t /\ b2 e <= t <= b2 f.

Lemma vf32 x r : dval x = Fin r -> dval (f32 x) = rndx 53 1024 (rnd 24 128 r).
Proof.
  intro X. change (dval (conv 24 128 53 1024 p53 e1024 (conv 53 1024 24 128 p24 e128 x)) = rndx 53 1024 (rnd 24 128 r)).
  rewrite !val_conv, X. reflexivity.
Qed.
Lemma f32_ub e x : (-149 <= e < 128)%Z -> ub e x -> ub e (f32 x).
Proof.
  intros H (t & T & B).
  destruct (srnd_ub e t H B) as (s & S & Bs). destruct (drnd_ub e s ltac:(lia) Bs) as (z & Z & Bz).
  exists z. split; auto. rewrite (vf32 x t T), S. exact Z.
Qed.
Lemma f32_rg e f x : (-149 <= e)%Z -> (e <= f < 128)%Z -> rg e f x -> rg e f (f32 x).
Proof.
  intros H H' (t & T & B).
  destruct (srnd_lb e f t H H' B) as (s & S & Bs). destruct (drnd_lb e f s ltac:(lia) ltac:(lia) Bs) as (z & Z & Bz).
  exists z. split; auto. rewrite (vf32 x t T), S. exact Z.
Qed.
Lemma mul_ub e f x y : (-1074 <= e + f < 1024)%Z -> ub e x -> ub f y -> ub (e + f) (fmul x y).
Proof.
  intros H (s & S & Bs) (t & T & Bt).
  destruct (drnd_ub (e + f) (s * t) H) as (z & Z & Bz).
  { rewrite bpow_plus. split; [apply Rmult_le_pos; lra|apply Rmult_le_compat; lra]. }
  exists z. split; auto. change (fmul x y) with (Bmult mode_NE x y). rewrite (val_mult 53 1024 p53 e1024), S, T. exact Z.
Qed.
Lemma mul_rg e f e' f' x y : (-1074 <= e + e')%Z -> (e + e' <= f + f' < 1024)%Z -> rg e f x -> rg e' f' y -> rg (e + e') (f + f') (fmul x y).
Proof.
  intros H H' (s & S & Bs) (t & T & Bt). pose proof (bpow_gt_0 radix2 e). pose proof (bpow_gt_0 radix2 e').
  destruct (drnd_lb (e + e') (f + f') (s * t) H H') as (z & Z & Bz).
  { rewrite !bpow_plus. split; apply Rmult_le_compat; lra. }
  exists z. split; auto. change (fmul x y) with (Bmult mode_NE x y). rewrite (val_mult 53 1024 p53 e1024), S, T. exact Z.
Qed.
Lemma add_ub e x y : (-1074 <= e)%Z -> (e + 1 < 1024)%Z -> ub e x -> ub e y -> ub (1 + e) (fadd x y).
Proof.
  intros H H' (s & S & Bs) (t & T & Bt).
  destruct (drnd_ub (1 + e) (s + t)) as (z & Z & Bz); [lia| |].
  { rewrite bpow_plus. change (b2 1) with 2. lra. }
  exists z. split; auto. change (fadd x y) with (Bplus mode_NE x y). rewrite (val_plus 53 1024 p53 e1024), S, T. exact Z.
Qed.
Lemma ub_le e f x : (e <= f)%Z -> ub e x -> ub f x.
Proof. intros H (t & T & B). exists t. split; auto. pose proof (bpow_le radix2 e f H). lra. Qed.
Lemma rg_ub e f x : rg e f x -> ub f x.
Proof. intros (t & T & B). pose proof (bpow_gt_0 radix2 e). exists t. split; auto. lra. Qed.
Lemma rg_le e f e' f' x : (e' <= e)%Z -> (f <= f')%Z -> rg e f x -> rg e' f' x.
Proof. intros H H' (t & T & B). exists t. split; auto. pose proof (bpow_le radix2 e' e H). pose proof (bpow_le radix2 f f' H'). lra. Qed.
Lemma ub_lb e f x t : ub f x -> dval x = Fin t -> b2 e <= t -> rg e f x.
Proof. intros (s & S & B) T L. exists t. split; auto. rewrite T in S. injection S as ->. lra. Qed.

(** ** The power without distance *)
Lemma pow_upper (u bb : double) v bv (n : nat) H : dval u = Fin v -> dval bb = Fin bv -> (v = 0 \/ exp (-150) <= Rabs v) ->
  (1 <= n <= 60)%nat -> Rabs (bv - INR n) <= 2 * u0 * INR n ->
  1 <= H -> 101 / 100 * v ^ 2 <= H -> H ^ n <= 10 ^ 60 ->
  exists t, dval (fpow (fpow u (flit 2)) bb) = Fin t /\ 0 <= t <= 11 / 10 * H ^ n.
Proof.
  intros U B Vm Hn Eb H1 HH H60.
  assert (N1 : 1 <= INR n). { change 1 with (INR 1). apply le_INR. lia. }
  assert (N60 : INR n <= 60). { replace 60 with (INR 60) by (rewrite INR_IZR_INZ; reflexivity). apply le_INR. lia. }
  assert (Bv : INR n * (1 - 2 * u0) <= bv <= INR n * (1 + 2 * u0)) by (apply Rabs_le_inv in Eb; lra).
  assert (U0 : 0 < 2 * u0 < 1 / 1000000) by (unfold u0; lra).
  assert (Bp : 0 < bv). { apply Rlt_le_trans with (2 := proj1 Bv). apply Rmult_lt_0_compat; lra. }
  set (y := fpow u (flit 2)). set (p := fpow y bb).
  assert (Hp1 : 1 <= H ^ n) by (apply pow_R1_Rle; lra).
  assert (HH60 : H <= 10 ^ 60). { apply Rle_trans with (2 := H60). rewrite <- (pow_1 H) at 1. apply Rle_pow; [lra|lia]. }
  destruct (Req_dec v 0) as [V0|Nv].
  { assert (Y0 : dval y = Fin 0). { apply (pg_zero _ Lm u (flit 2) 2); [rewrite U, V0; reflexivity|apply val2|lra]. }
    exists 0. split; [apply (pg_zero _ Lm y bb bv Y0 B Bp)|lra]. }
  destruct Vm as [V0|Vm]; [contradiction|].
  destruct exp_500 as (X1 & X2).
  assert (X3 : exp 499 < exp 500) by (apply exp_increasing; lra).
  assert (X5 : exp (-499) < 1). { rewrite <- exp_0. apply exp_increasing. lra. }
  assert (V2 : exp (-500) <= v ^ 2).
  { rewrite <- (pow2_abs v). apply Rle_trans with (exp (-150) ^ 2).
    - cbn [pow]. rewrite Rmult_1_r, <- exp_plus. apply exp_le_mono. lra.
    - apply pow_incr. split; [left; apply exp_pos|auto]. }
  destruct (pg_square _ Lm u v U Nv) as (yv & Y & EY).
  { split; auto. apply Rle_trans with (10 ^ 60); [lra|]. apply Rle_trans with (10 ^ 100); [apply Rle_pow; [lra|lia]|lra]. }
  change (dval y = Fin yv) in Y.
  pose proof (sq_pos v Nv) as P2.
  assert (B52 : b2 (-52) <= 1 / 10 ^ 15).
  { rewrite (p2 52). replace (1 / 10 ^ 15) with (/ 10 ^ 15) by lra. apply Rinv_le_contravar; [lra|]. rewrite pow_IZR. apply IZR_le. vm_compute. discriminate. }
  assert (B52p : 0 < b2 (-52)) by apply bpow_gt_0.
  assert (E1 : b2 (-52) * v ^ 2 <= 1 / 1000 * v ^ 2) by (apply Rmult_le_compat_r; lra).
  assert (Yb : 0 < yv <= H). { apply Rabs_le_inv in EY. lra. }
  set (T := Rpower yv bv).
  assert (TH : T <= 102 / 100 * H ^ n).
  { apply Rle_trans with (Rpower H (INR n * (1 + 2 * u0))).
    - apply Rle_trans with (Rpower H bv).
      + unfold T, Rpower. apply exp_le_mono. apply Rmult_le_compat_l; [lra|].
        destruct (proj2 Yb) as [L|E]; [left; apply ln_increasing; lra|rewrite E; lra].
      + apply Rpower_mono; lra.
    - replace (INR n * (1 + 2 * u0)) with (INR n + INR n * (2 * u0)) by ring.
      rewrite Rpower_plus, Rpower_pow by lra. rewrite Rmult_comm. apply Rmult_le_compat_r; [apply pow_le; lra|].
      (* slack *)
      assert (T10 : ln 10 <= 4). { rewrite <- (ln_exp 4). left. apply ln_increasing; [lra|].
        replace 4 with ((1 + 1) + (1 + 1)) by lra. rewrite (exp_plus (1 + 1)), exp_plus. pose proof (exp_ge 1) as G.
        assert (G2 : 4 <= exp 1 * exp 1) by nra. nra. }
      assert (LZ : ln H <= 280).
      { apply Rle_trans with (ln (10 ^ 60)).
        - destruct HH60 as [Z70|Z70]; [left; apply ln_increasing; lra|rewrite Z70; lra].
        - rewrite <- (Rpower_pow 60 10) by lra. unfold Rpower. rewrite ln_exp. rewrite INR_IZR_INZ. change (Z.of_nat 60) with 60%Z. lra. }
      assert (LZ0 : 0 <= ln H). { rewrite <- ln_1. destruct H1 as [Z1| <-]; [left; apply ln_increasing; lra|lra]. }
      unfold Rpower. apply Rle_trans with (exp (1 / 100)).
      + apply exp_le_mono. unfold u0. assert (INR n * (2 * (1 / 16700000)) <= 60 * (2 * (1 / 16700000))) by lra.
        apply Rle_trans with (60 * (2 * (1 / 16700000)) * 280); [|lra]. apply Rmult_le_compat; try lra.
      + pose proof (exp_ge (- (1 / 100))) as G. rewrite exp_Ropp in G. pose proof (exp_pos (1 / 100)).
        assert (exp (1/100) * / exp (1/100) = 1) by (field; lra). nra. }
  destruct (Rlt_or_le T (exp (-500))) as [Sm|Lg].
  - destruct (pg_small _ Lm y bb yv bv Y B ltac:(lra) Sm) as (t & Pv & Ht). exists t. split; auto. lra.
  - destruct (pg_accurate _ Lm y bb yv bv Y B ltac:(lra)) as (t & Pv & Ht).
    { fold T. split; [lra|]. apply Rle_trans with (2 * 10 ^ 60); [lra|]. apply Rle_trans with (10 ^ 100); lra. }
    exists t. split; auto. fold T in Ht. apply Rabs_le_inv in Ht. assert (0 < T) by apply exp_pos.
    assert (b2 (-52) * T <= 1 / 100 * T) by (apply Rmult_le_compat_r; lra). lra.
Qed.

(** ** 1 / (1 + p) *)
Lemma den_ub p e : (0 <= e <= 149)%Z -> dval p = PInf \/ (exists t, dval p = Fin t /\ b2 e <= t) ->
  ub (- e) (f32 (fdiv (flit 1) (fadd (flit 1) p))).
Proof.
  intros He P. apply f32_ub; [lia|]. set (d := fadd (flit 1) p).
  assert (K : dval d = PInf \/ exists z, dval d = Fin z /\ b2 e <= z).
  { destruct P as [P|(t & P & T)].
    - left. unfold d. change (fadd (flit 1) p) with (Bplus mode_NE (flit 1) p). now rewrite (val_plus 53 1024 p53 e1024), val1, P.
    - pose proof (vden np1 lm p t P) as V. fold d in V.
      pose proof (rnd_mono 53 1024 p53 (b2 e) (1 + t) ltac:(lra)) as M.
      rewrite bpow_fmt, <- V in M by lia. destruct (dval d) as [z| | |]; try discriminate; auto.
      right. exists z. split; auto. now apply Rleb_true in M. }
  assert (B0 := bpow_gt_0 radix2 e).
  assert (Dn : dval d <> Fin 0). { destruct K as [-> |(z & -> & Z)]; [discriminate|]. intro E. injection E. lra. }
  assert (Vq : dval (fdiv (flit 1) d) = rndx 53 1024 (xdiv (Fin 1) (dval d))).
  { change (fdiv (flit 1) d) with (Bdiv mode_NE (flit 1) d). rewrite (val_div 53 1024 p53 e1024), val1 by auto. reflexivity. }
  destruct K as [K|(z & K & Z)]; rewrite K in Vq; cbn [xdiv rndx] in Vq.
  - rewrite rnd_0 in Vq. exists 0. split; auto. pose proof (bpow_gt_0 radix2 (- e)). lra.
  - destruct Req_EM_T; [lra|]. cbn [rndx] in Vq.
    destruct (drnd_ub (- e) (1 / z)) as (t & T & B); [lia| |exists t; rewrite Vq; auto].
    split; [apply Rmult_le_pos; [lra|]; left; apply Rinv_0_lt_compat; lra|].
    unfold Rdiv. rewrite Rmult_1_l, bpow_opp. now apply Rinv_le_contravar.
Qed.
Lemma den_rg p t e : (0 <= e <= 148)%Z -> dval p = Fin t -> 0 <= t <= b2 e ->
  rg (- (1 + e)) 0 (f32 (fdiv (flit 1) (fadd (flit 1) p))).
Proof.
  intros He P T. apply f32_rg; [lia|lia|]. pose proof (vden np1 lm p t P) as V. set (d := fadd (flit 1) p) in *.
  assert (L1 : 1 <= b2 e). { change 1 with (b2 0). apply bpow_le. lia. }
  destruct (drnd_lb 0 (1 + e) (1 + t)) as (z & Z & Bz); [lia|lia| |].
  { rewrite bpow_plus. change (b2 0) with 1. change (b2 1) with 2. lra. }
  rewrite <- V in Z. change (b2 0) with 1 in Bz.
  destruct (drnd_lb (- (1 + e)) 0 (1 / z)) as (q & Q & Bq); [lia|lia| |].
  { unfold Rdiv. rewrite Rmult_1_l. split.
    - rewrite bpow_opp. apply Rinv_le_contravar; lra.
    - change (b2 0) with 1. apply Rle_trans with (/ 1); [|rewrite Rinv_1; lra]. apply Rinv_le_contravar; lra. }
  exists q. split; auto.
  change (fdiv (flit 1) d) with (Bdiv mode_NE (flit 1) d). rewrite (val_div 53 1024 p53 e1024), val1, Z.
  - cbn [xdiv]. destruct Req_EM_T; [lra|]. exact Q.
  - rewrite Z. intro E. injection E. lra.
Qed.

(** ** One membership *)
Lemma gate_bounds x a b m r ra rm (n : nat) : dval x = Fin r -> Rabs r <= 10 ^ 30 ->
  cellnear m rm -> cellnear a ra -> cellnear b (INR n) ->
  Rabs rm <= 1000 -> 1 / 100 <= ra <= 1000 -> (1 <= n <= 60)%nat -> INR n * Rabs rm <= 500 * ra ->
  exists y, hid_beta_gate (f32 x) (f32 a) (f32 b) (f32 m) = Ok y /\
  (forall U e, 10 <= U -> U * ra <= Rabs r - Rabs rm -> (0 <= e <= 149)%Z -> b2 e <= 9 / 10 * (98 / 100 * U ^ 2) ^ n -> ub (- e) y) /\
  (forall U e, 1 <= U -> Rabs r + Rabs rm <= U * ra -> (0 <= e <= 148)%Z -> 11 / 10 * (103 / 100 * U ^ 2) ^ n <= b2 e ->
     rg (- (1 + e)) 0 y).
Proof.
  intros X R M A B Bm Ba Bn Bc.
  assert (N1 : 1 <= INR n). { change 1 with (INR 1). apply le_INR. lia. }
  assert (N60 : INR n <= 60). { replace 60 with (INR 60) by (rewrite INR_IZR_INZ; reflexivity). apply le_INR. lia. }
  unfold cellnear in A. rewrite (Rabs_pos_eq ra) in A by lra.
  destruct (uhat np1 lm x m a r rm ra X R M A Bm Ba) as (av & Av & Ap & (v & V & EV) & UB).
  unfold cellnear in B. destruct (near_f32 np1 lm _ _ _ B) as (bv & Bv & EB). { rewrite Rabs_pos_eq; lra. }
  rewrite (Rabs_pos_eq (INR n)) in EB by lra.
  set (u := (r - rm) / ra) in *. set (uh := f32 (fdiv (f32 (fsub (f32 x) (f32 m))) (f32 a))) in *.
  pose proof (Rabs_pos u) as Pu. pose proof (Rabs_pos rm) as Pm.
  assert (Ia : 0 < / ra) by (apply Rinv_0_lt_compat; lra).
  assert (V0 : 0 <= Rabs rm / ra <= 500).
  { split. - apply Rmult_le_pos; lra.
    - apply Rmult_le_reg_r with ra; [lra|]. unfold Rdiv. replace (Rabs rm * / ra * ra) with (Rabs rm) by (field; lra).
      assert (1 * Rabs rm <= INR n * Rabs rm) by (apply Rmult_le_compat_r; lra). lra. }
  assert (Fm : v = 0 \/ exp (-150) <= Rabs v) by (eapply (f32_min np1 lm); eauto).
  destruct (beta_tail np1 lm Lm uh (f32 b) v bv (INR n)) as (F & _); auto.
  { replace v with (u + (v - u)) by ring. pose proof (Rabs_triang u (v - u)). unfold u0 in *. lra. }
  { unfold u0, tau in *. lra. }
  unfold hid_beta_gate.
  replace (feq (f32 a) (flit 0)) with false.
  2:{ symmetry. change (Beqb (f32 a) (b_lit 53 1024 p53 e1024 0) = false). rewrite (val_eq 53 1024), Av.
      change (dval (b_lit 53 1024 p53 e1024 0)) with (Fin 0). cbn. apply Reqb_false. lra. }
  cbv zeta. change (f32 (fdiv (f32 (fsub (f32 x) (f32 m))) (f32 a))) with uh. rewrite F.
  eexists. split; [reflexivity|].
  set (p := fpow (fpow uh (flit 2)) (f32 b)).
  assert (Du : Rabs u * ra = Rabs (r - rm)).
  { unfold u, Rdiv. rewrite Rabs_mult, (Rabs_pos_eq (/ ra)) by lra. field. lra. }
  assert (D1 : Rabs r - Rabs rm <= Rabs (r - rm)) by apply Rabs_triang_inv.
  assert (D2 : Rabs (r - rm) <= Rabs r + Rabs rm).
  { unfold Rminus. rewrite <- (Rabs_Ropp rm). apply Rabs_triang. }
  assert (Big : u ^ 2 <= 10 ^ 68). { rewrite <- (pow2_abs u). apply Rle_trans with ((10 ^ 33) ^ 2); [apply pow_incr; lra|lra]. }
  assert (Eb : Rabs (bv - INR n) <= 2 * u0 * INR n) by (unfold u0, tau in *; lra).
  assert (E1 : Rabs v <= Rabs u + Rabs (v - u)).
  { replace v with (u + (v - u)) at 1 by ring. apply Rabs_triang. }
  assert (E2 : Rabs u - Rabs (v - u) <= Rabs v).
  { pose proof (Rabs_triang_inv u (u - v)) as E2. replace (u - (u - v)) with v in E2 by ring. rewrite (Rabs_minus_sym u v) in E2. lra. }
  split.
  - intros U e U10 HU He Hp.
    assert (Uu : U <= Rabs u). { apply Rmult_le_reg_r with ra; lra. }
    assert (U2 : U ^ 2 <= u ^ 2). { rewrite <- (pow2_abs u). apply pow_incr. lra. }
    assert (E : Rabs (v - u) <= 1 / 10000 * Rabs u) by (unfold u0 in EV; lra).
    assert (W : 999 / 1000 * u ^ 2 <= v ^ 2 <= 1001 / 1000 * u ^ 2).
    { rewrite <- (pow2_abs u), <- (pow2_abs v). pose proof (Rabs_pos v). nra. }
    assert (U100 : 100 <= U ^ 2). { replace 100 with (10 ^ 2) by ring. apply pow_incr. lra. }
    destruct (pow_bounds np1 lm Lm uh (f32 b) v bv n (98 / 100 * U ^ 2) (102 / 100 * u ^ 2) V Bv Bn Eb) as (K & _); try lra.
    apply den_ub; auto. fold p in K. destruct K as [K|(t & Kt & K)]; [now left|].
    right. exists t. split; auto. destruct K as [K|K]; [|lra].
    apply Rle_trans with (2 := K). apply Rle_trans with (b2 149); [apply bpow_le; lia|].
    rewrite (p2' 149), pow_IZR. apply IZR_le. vm_compute. discriminate.
  - intros U e U1 HU He Hp.
    assert (Uu : Rabs u <= U). { apply Rmult_le_reg_r with ra; lra. }
    assert (E : Rabs (v - u) <= 1 / 1000 * U) by (unfold u0 in EV; lra).
    assert (W : v ^ 2 <= 101 / 100 * U ^ 2).
    { rewrite <- (pow2_abs v). apply Rle_trans with ((1001 / 1000 * U) ^ 2); [apply pow_incr; pose proof (Rabs_pos v); lra|]. nra. }
    assert (U2 : 1 <= U ^ 2). { replace 1 with (1 ^ 2) by ring. apply pow_incr. lra. }
    assert (Lim : b2 e <= 10 ^ 60).
    { apply Rle_trans with (b2 148); [apply bpow_le; lia|]. rewrite (p2' 148), pow_IZR. apply IZR_le. vm_compute. discriminate. }
    assert (P1 : 1 <= (103 / 100 * U ^ 2) ^ n) by (apply pow_R1_Rle; lra).
    destruct (pow_upper uh (f32 b) v bv n (103 / 100 * U ^ 2) V Bv Fm Bn Eb) as (t & Kt & K); try lra.
    fold p in Kt. apply (den_rg p t); auto. lra.
Qed.

(** ** The tables *)
(** memberships of any |x| >= D are at most 2^-e *)
Definition far_row (D : Q) (e : Z) (r : row) : bool :=
  match r with
  | (Some m, Some a, Some b) =>
      let U := ((D - qabs m) / a)%Q in
      (acc_row r && whole b && Qle_bool 10 U && Qle_bool (inject_Z (2 ^ e)) ((Qmake 9 10) * qpow ((Qmake 98 100) * (U * U)) (qexp b)))%bool
  | _ => false
  end.
(** those of any |x| <= E are at least 2^-(1+e) *)
Definition some_row (E : Q) (e : Z) (r : row) : bool :=
  match r with
  | (Some m, Some a, Some b) =>
      let U := ((E + qabs m) / a)%Q in
      (acc_row r && whole b && Qle_bool 1 U && Qle_bool ((Qmake 11 10) * qpow ((Qmake 103 100) * (U * U)) (qexp b)) (inject_Z (2 ^ e)))%bool
  | _ => false
  end.

Lemma row_bounds s bd k one ut c x r m a b : nth_error (csv s bd k) c = Some (Some m, Some a, Some b) ->
  acc_row (Some m, Some a, Some b) = true -> whole b = true -> dval one = Fin 1 -> (k = KT -> ut = true) ->
  dval x = Fin r -> Rabs r <= 10 ^ 30 ->
  exists y, gate_beta (get_sets s ut one bd k) c (f32 x) = Ok y /\ 0 < Q2R a /\
  (forall U e, 10 <= U -> U * Q2R a <= Rabs r - Rabs (Q2R m) -> (0 <= e <= 149)%Z -> b2 e <= 9 / 10 * (98 / 100 * U ^ 2) ^ qexp b -> ub (- e) y) /\
  (forall U e, 1 <= U -> Rabs r + Rabs (Q2R m) <= U * Q2R a -> (0 <= e <= 148)%Z -> 11 / 10 * (103 / 100 * U ^ 2) ^ qexp b <= b2 e ->
     rg (- (1 + e)) 0 y).
Proof.
  intros Hr W Wb O Hk X R. cbn [acc_row] in W. repeat (apply andb_prop in W as (W & ?)).
  repeat match goal with H : Qle_bool _ _ = true |- _ => apply Qle_bool_iff, Qle_Rle in H end.
  rewrite ?Q2R_mult, ?Q2R_opp in *.
  assert (K1 : Q2R (Qmake 1 100) = 1 / 100) by (unfold Q2R; cbn; lra).
  assert (K2 : Q2R 1000 = 1000) by (unfold Q2R; cbn; lra).
  assert (K3 : Q2R 1 = 1) by (unfold Q2R; cbn; lra).
  assert (K4 : Q2R 60 = 60) by (unfold Q2R; cbn; lra).
  assert (K5 : Q2R (-1000) = -1000) by (unfold Q2R; cbn; lra).
  assert (K6 : Q2R 500 = 500) by (unfold Q2R; cbn; lra).
  rewrite K1 in *. rewrite K2 in *. rewrite K3 in *. rewrite K4 in *. rewrite K5 in *. rewrite K6 in *.
  assert (Am : Rabs (Q2R m) <= 1000) by (apply Rabs_le; lra).
  set (fac := match k with KT => one | _ => flit 1.0 end).
  assert (Fac : dval fac = Fin 1) by (destruct k; try exact O; apply (v_one np1 lm)).
  assert (CN : forall q, Rabs (Q2R q) <= 1000 -> cellnear (fdiv (cell (Some q)) fac) (Q2R q)).
  { intros q Hq. destruct (v_lit np1 lm q ltac:(lra)) as (z & Z & E). exists z. split; auto. rewrite (div_one np1 lm); auto. }
  assert (St : exists st, get_sets s ut one bd k = Some st /\ sa st = map (fun r0 : row => fdiv (cell (snd (fst r0))) fac) (csv s bd k) /\
      sb st = map (fun r0 : row => fdiv (cell (snd r0)) fac) (csv s bd k) /\ sm st = map (fun r0 : row => fdiv (cell (fst (fst r0))) fac) (csv s bd k)).
  { destruct k; try (eexists; split; [reflexivity|]; repeat split; reflexivity).
    rewrite Hk by auto. eexists; split; [reflexivity|]; repeat split; reflexivity. }
  destruct St as (st & -> & Sa & Sb & Sm). unfold gate_beta. rewrite Sa, Sb, Sm.
  assert (Za : nth_error (map (fun r0 : row => fdiv (cell (snd (fst r0))) fac) (csv s bd k)) c = Some (fdiv (cell (Some a)) fac)) by (rewrite map_nth_error', Hr; reflexivity).
  assert (Zb : nth_error (map (fun r0 : row => fdiv (cell (snd r0)) fac) (csv s bd k)) c = Some (fdiv (cell (Some b)) fac)) by (rewrite map_nth_error', Hr; reflexivity).
  assert (Zm : nth_error (map (fun r0 : row => fdiv (cell (fst (fst r0))) fac) (csv s bd k)) c = Some (fdiv (cell (Some m)) fac)) by (rewrite map_nth_error', Hr; reflexivity).
  rewrite (idx_ok _ _ _ Za), (idx_ok _ _ _ Zb), (idx_ok _ _ _ Zm).
  cbn [bind].
  pose proof (whole_R b Wb) as Wr.
  destruct (gate_bounds x (fdiv (cell (Some a)) fac) (fdiv (cell (Some b)) fac) (fdiv (cell (Some m)) fac) r (Q2R a) (Q2R m) (qexp b))
    as (y & Y & Y1 & Y2); auto; try lra.
  - apply CN. apply Rabs_le. lra.
  - rewrite <- Wr. apply CN. apply Rabs_le. lra.
  - rewrite Wr in *. split; [apply INR_le; cbn [INR]; lra|apply INR_le].
    replace (INR 60) with 60 by (rewrite INR_IZR_INZ; reflexivity). lra.
  - rewrite <- Wr. unfold Rabs. destruct (Rcase_abs (Q2R m)); lra.
  - exists y. split; auto. split; [lra|]. split; auto.
Qed.
Lemma bqz e : (0 <= e)%Z -> Q2R (inject_Z (2 ^ e)) = b2 e.
Proof.
  intro H. unfold Q2R. cbn [Qnum Qden inject_Z]. rewrite Rinv_1, Rmult_1_r.
  change 2%Z with (radix_val radix2). now apply IZR_Zpower.
Qed.
Lemma row_far s bd k one ut c x r (D : Q) e row : nth_error (csv s bd k) c = Some row -> (0 <= e <= 149)%Z -> far_row D e row = true ->
  dval one = Fin 1 -> (k = KT -> ut = true) -> dval x = Fin r -> Q2R D <= Rabs r <= 10 ^ 30 ->
  exists y, gate_beta (get_sets s ut one bd k) c (f32 x) = Ok y /\ ub (- e) y.
Proof.
  intros Hr He G O Hk X R. destruct row as ((om, oa), ob). destruct om as [m|], oa as [a|], ob as [b|]; try discriminate.
  unfold far_row in G. cbv zeta in G. apply andb_prop in G as (G & G3). apply andb_prop in G as (G & G2). apply andb_prop in G as (G & G1).
  destruct (row_bounds s bd k one ut c x r m a b Hr G G1 O Hk X ltac:(lra)) as (y & Y & Pa & V & _). exists y. split; auto.
  apply Qle_bool_iff, Qle_Rle in G2, G3. rewrite Q2R_mult, qpow_R, Q2R_mult, Q2R_mult in G3.
  assert (Na : ~ Qeq a 0). { intro E. apply Qeq_eqR in E. rewrite RMicromega.Q2R_0 in E. lra. }
  rewrite Q2R_div, Q2R_minus, qabs_R in G2, G3 by auto.
  set (U := (Q2R D - Rabs (Q2R m)) / Q2R a) in *.
  apply (V U); auto.
  - replace (Q2R 10) with 10 in G2 by (unfold Q2R; cbn; lra). exact G2.
  - unfold U, Rdiv. rewrite Rmult_assoc, Rinv_l by lra. lra.
  - rewrite bqz in G3 by lia. replace (98 / 100 * U ^ 2) with (Q2R (Qmake 98 100) * (U * U)) by (unfold Q2R; cbn; field).
    replace (9 / 10) with (Q2R (Qmake 9 10)) by (unfold Q2R; cbn; lra). exact G3.
Qed.
Lemma row_some s bd k one ut c x r (E : Q) e row : nth_error (csv s bd k) c = Some row -> (0 <= e <= 148)%Z -> some_row E e row = true ->
  dval one = Fin 1 -> (k = KT -> ut = true) -> dval x = Fin r -> Rabs r <= Q2R E -> Rabs r <= 10 ^ 30 ->
  exists y, gate_beta (get_sets s ut one bd k) c (f32 x) = Ok y /\ rg (- (1 + e)) 0 y.
Proof.
  intros Hr He G O Hk X R R30. destruct row as ((om, oa), ob). destruct om as [m|], oa as [a|], ob as [b|]; try discriminate.
  unfold some_row in G. cbv zeta in G. apply andb_prop in G as (G & G3). apply andb_prop in G as (G & G2). apply andb_prop in G as (G & G1).
  destruct (row_bounds s bd k one ut c x r m a b Hr G G1 O Hk X ltac:(lra)) as (y & Y & Pa & _ & V). exists y. split; auto.
  apply Qle_bool_iff, Qle_Rle in G2, G3. rewrite Q2R_mult, qpow_R, Q2R_mult, Q2R_mult in G3.
  assert (Na : ~ Qeq a 0). { intro E0. apply Qeq_eqR in E0. rewrite RMicromega.Q2R_0 in E0. lra. }
  rewrite Q2R_div, Q2R_plus, qabs_R in G2, G3 by auto.
  set (U := (Q2R E + Rabs (Q2R m)) / Q2R a) in *.
  apply (V U); auto.
  - replace (Q2R 1) with 1 in G2 by (unfold Q2R; cbn; lra). exact G2.
  - unfold U, Rdiv. rewrite Rmult_assoc, Rinv_l by lra. lra.
  - rewrite bqz in G3 by lia. replace (103 / 100 * U ^ 2) with (Q2R (Qmake 103 100) * (U * U)) by (unfold Q2R; cbn; field).
    replace (11 / 10) with (Q2R (Qmake 11 10)) by (unfold Q2R; cbn; lra). exact G3.
Qed.

(** a membership is at most 1, whatever the measurement *)
Lemma pow_nonneg (u bb : double) v bv b : dval u = Fin v -> dval bb = Fin bv -> (v = 0 \/ exp (-150) <= Rabs v) ->
  Rabs v <= 10 ^ 34 -> 1 <= b <= 60 -> Rabs (bv - b) <= 2 * u0 * b ->
  let p := fpow (fpow u (flit 2)) bb in dval p = PInf \/ exists t, dval p = Fin t /\ 0 <= t.
Proof.
  intros U B Vm VM Bb Eb. cbv zeta.
  assert (Bp : 0 < bv). { apply Rabs_le_inv in Eb. unfold u0 in Eb. lra. }
  set (y := fpow u (flit 2)). set (p := fpow y bb).
  destruct (Req_dec v 0) as [V0|Nv].
  { assert (Y0 : dval y = Fin 0). { apply (pg_zero _ Lm u (flit 2) 2); [rewrite U, V0; reflexivity|apply val2|lra]. }
    right. exists 0. split; [apply (pg_zero _ Lm y bb bv Y0 B Bp)|lra]. }
  destruct Vm as [V0|Vm]; [contradiction|].
  destruct exp_500 as (X1 & X2).
  destruct (pg_square _ Lm u v U Nv) as (yv & Y & EY).
  { rewrite <- (pow2_abs v). split.
    - apply Rle_trans with (exp (-150) ^ 2).
      + cbn [pow]. rewrite Rmult_1_r, <- exp_plus. apply exp_le_mono. lra.
      + apply pow_incr. split; [left; apply exp_pos|auto].
    - apply Rle_trans with ((10 ^ 34) ^ 2); [apply pow_incr; split; [apply Rabs_pos|auto]|].
      apply Rle_trans with (10 ^ 100); [|pose proof (exp_increasing 499 500 ltac:(lra)); lra].
      rewrite <- pow_mult. apply Rle_pow; [lra|cbn; lia]. }
  change (dval y = Fin yv) in Y. pose proof (sq_pos v Nv) as P2.
  assert (B52 : b2 (-52) <= 1 / 10 ^ 15).
  { rewrite (p2 52). replace (1 / 10 ^ 15) with (/ 10 ^ 15) by lra. apply Rinv_le_contravar; [lra|]. rewrite pow_IZR. apply IZR_le. vm_compute. discriminate. }
  assert (E1 : b2 (-52) * v ^ 2 <= 1 / 1000 * v ^ 2) by (apply Rmult_le_compat_r; lra).
  assert (Yp : 0 < yv) by (apply Rabs_le_inv in EY; lra).
  set (T := Rpower yv bv). assert (Tp : 0 < T) by apply exp_pos.
  destruct (Rlt_or_le T (exp (-500))) as [Sm|Lg].
  { destruct (pg_small _ Lm y bb yv bv Y B Yp Sm) as (t & Pv & Ht). right. exists t. split; auto. lra. }
  destruct (Rlt_or_le (exp 500) T) as [Hg|Hl].
  { destruct (pg_large _ Lm y bb yv bv Y B Yp Hg) as [Pv|(t & Pv & Ht)]; [now left|]. right. exists t. split; auto.
    pose proof (exp_pos 499). lra. }
  destruct (pg_accurate _ Lm y bb yv bv Y B Yp ltac:(fold T; lra)) as (t & Pv & Ht). right. exists t. split; auto.
  fold T in Ht. apply Rabs_le_inv in Ht. assert (b2 (-52) * T <= 1 / 100 * T) by (apply Rmult_le_compat_r; lra). lra.
Qed.
Lemma den_one p : dval p = PInf \/ (exists t, dval p = Fin t /\ 0 <= t) ->
  ub 0 (f32 (fdiv (flit 1) (fadd (flit 1) p))).
Proof.
  intro P. apply f32_ub; [lia|]. set (d := fadd (flit 1) p).
  assert (K : dval d = PInf \/ exists z, dval d = Fin z /\ 1 <= z).
  { destruct P as [P|(t & P & T)].
    - left. unfold d. change (fadd (flit 1) p) with (Bplus mode_NE (flit 1) p). now rewrite (val_plus 53 1024 p53 e1024), val1, P.
    - pose proof (vden np1 lm p t P) as V. fold d in V.
      pose proof (rnd_mono 53 1024 p53 1 (1 + t) ltac:(lra)) as M.
      rewrite (rnd_1 53 1024 p53 e1024), <- V in M. destruct (dval d) as [z| | |]; try discriminate; auto.
      right. exists z. split; auto. now apply Rleb_true in M. }
  assert (Dn : dval d <> Fin 0). { destruct K as [-> |(z & -> & Z)]; [discriminate|]. intro E. injection E. lra. }
  assert (Vq : dval (fdiv (flit 1) d) = rndx 53 1024 (xdiv (Fin 1) (dval d))).
  { change (fdiv (flit 1) d) with (Bdiv mode_NE (flit 1) d). rewrite (val_div 53 1024 p53 e1024), val1 by auto. reflexivity. }
  destruct K as [K|(z & K & Z)]; rewrite K in Vq; cbn [xdiv rndx] in Vq.
  - rewrite rnd_0 in Vq. exists 0. split; auto. change (b2 0) with 1. lra.
  - destruct Req_EM_T; [lra|]. cbn [rndx] in Vq.
    destruct (drnd_ub 0 (1 / z)) as (t & T & B); [lia| |exists t; rewrite Vq; auto].
    split; [apply Rmult_le_pos; [lra|]; left; apply Rinv_0_lt_compat; lra|].
    unfold Rdiv. rewrite Rmult_1_l. change (b2 0) with 1. apply Rle_trans with (/ 1); [apply Rinv_le_contravar; lra|lra].
Qed.
Lemma gate_one x a b m r ra rm rb : dval x = Fin r -> Rabs r <= 10 ^ 30 ->
  cellnear m rm -> cellnear a ra -> cellnear b rb ->
  Rabs rm <= 1000 -> 1 / 100 <= ra <= 1000 -> 1 <= rb <= 60 -> rb * Rabs rm <= 500 * ra ->
  exists y, hid_beta_gate (f32 x) (f32 a) (f32 b) (f32 m) = Ok y /\ ub 0 y.
Proof.
  intros X R M A B Bm Ba Bn Bc.
  unfold cellnear in A. rewrite (Rabs_pos_eq ra) in A by lra.
  destruct (uhat np1 lm x m a r rm ra X R M A Bm Ba) as (av & Av & Ap & (v & V & EV) & UB).
  unfold cellnear in B. destruct (near_f32 np1 lm _ _ _ B) as (bv & Bv & EB). { rewrite Rabs_pos_eq; lra. }
  rewrite (Rabs_pos_eq rb) in EB by lra.
  set (u := (r - rm) / ra) in *. set (uh := f32 (fdiv (f32 (fsub (f32 x) (f32 m))) (f32 a))) in *.
  pose proof (Rabs_pos u) as Pu. pose proof (Rabs_pos rm) as Pm.
  assert (Ia : 0 < / ra) by (apply Rinv_0_lt_compat; lra).
  assert (V0 : 0 <= Rabs rm / ra <= 500).
  { split. - apply Rmult_le_pos; lra.
    - apply Rmult_le_reg_r with ra; [lra|]. unfold Rdiv. replace (Rabs rm * / ra * ra) with (Rabs rm) by (field; lra).
      assert (1 * Rabs rm <= rb * Rabs rm) by (apply Rmult_le_compat_r; lra). lra. }
  assert (Fm : v = 0 \/ exp (-150) <= Rabs v) by (eapply (f32_min np1 lm); eauto).
  assert (Vb : Rabs v <= 10 ^ 34).
  { replace v with (u + (v - u)) by ring. pose proof (Rabs_triang u (v - u)). unfold u0 in *. lra. }
  assert (Eb : Rabs (bv - rb) <= 2 * u0 * rb) by (unfold u0, tau in *; lra).
  destruct (beta_tail np1 lm Lm uh (f32 b) v bv rb) as (F & _); auto.
  unfold hid_beta_gate.
  replace (feq (f32 a) (flit 0)) with false.
  2:{ symmetry. change (Beqb (f32 a) (b_lit 53 1024 p53 e1024 0) = false). rewrite (val_eq 53 1024), Av.
      change (dval (b_lit 53 1024 p53 e1024 0)) with (Fin 0). cbn. apply Reqb_false. lra. }
  cbv zeta. change (f32 (fdiv (f32 (fsub (f32 x) (f32 m))) (f32 a))) with uh. rewrite F.
  eexists. split; [reflexivity|]. apply den_one. eapply pow_nonneg; eauto.
Qed.
Lemma row_one s bd k n one ut c x r : acc_table n (csv s bd k) = true -> (c < n)%nat ->
  dval one = Fin 1 -> (k = KT -> ut = true) -> dval x = Fin r -> Rabs r <= 10 ^ 30 ->
  exists y, gate_beta (get_sets s ut one bd k) c (f32 x) = Ok y /\ ub 0 y.
Proof.
  intros W Hc O Hk X R. unfold acc_table in W. apply andb_prop in W as (L & W). apply Nat.eqb_eq in L.
  destruct (nth_error_map_some (csv s bd k) (i:=c)) as (rw & Hr); [lia|].
  rewrite forallb_forall in W. specialize (W rw (nth_error_In _ _ Hr)).
  destruct rw as ((om, oa), ob). destruct om as [m|], oa as [a|], ob as [b|]; try discriminate.
  cbn [acc_row] in W. repeat (apply andb_prop in W as (W & ?)).
  repeat match goal with H : Qle_bool _ _ = true |- _ => apply Qle_bool_iff, Qle_Rle in H end.
  rewrite ?Q2R_mult, ?Q2R_opp in *.
  assert (K1 : Q2R (Qmake 1 100) = 1 / 100) by (unfold Q2R; cbn; lra).
  assert (K2 : Q2R 1000 = 1000) by (unfold Q2R; cbn; lra).
  assert (K3 : Q2R 1 = 1) by (unfold Q2R; cbn; lra).
  assert (K4 : Q2R 60 = 60) by (unfold Q2R; cbn; lra).
  assert (K5 : Q2R (-1000) = -1000) by (unfold Q2R; cbn; lra).
  assert (K6 : Q2R 500 = 500) by (unfold Q2R; cbn; lra).
  rewrite K1 in *. rewrite K2 in *. rewrite K3 in *. rewrite K4 in *. rewrite K5 in *. rewrite K6 in *.
  set (fac := match k with KT => one | _ => flit 1.0 end).
  assert (Fac : dval fac = Fin 1) by (destruct k; try exact O; apply (v_one np1 lm)).
  assert (CN : forall q, Rabs (Q2R q) <= 1000 -> cellnear (fdiv (cell (Some q)) fac) (Q2R q)).
  { intros q Hq. destruct (v_lit np1 lm q ltac:(lra)) as (z & Z & E). exists z. split; auto. rewrite (div_one np1 lm); auto. }
  assert (St : exists st, get_sets s ut one bd k = Some st /\ sa st = map (fun r0 : row => fdiv (cell (snd (fst r0))) fac) (csv s bd k) /\
      sb st = map (fun r0 : row => fdiv (cell (snd r0)) fac) (csv s bd k) /\ sm st = map (fun r0 : row => fdiv (cell (fst (fst r0))) fac) (csv s bd k)).
  { destruct k; try (eexists; split; [reflexivity|]; repeat split; reflexivity).
    rewrite Hk by auto. eexists; split; [reflexivity|]; repeat split; reflexivity. }
  destruct St as (st & -> & Sa & Sb & Sm). unfold gate_beta. rewrite Sa, Sb, Sm.
  assert (Za : nth_error (map (fun r0 : row => fdiv (cell (snd (fst r0))) fac) (csv s bd k)) c = Some (fdiv (cell (Some a)) fac)) by (rewrite map_nth_error', Hr; reflexivity).
  assert (Zb : nth_error (map (fun r0 : row => fdiv (cell (snd r0)) fac) (csv s bd k)) c = Some (fdiv (cell (Some b)) fac)) by (rewrite map_nth_error', Hr; reflexivity).
  assert (Zm : nth_error (map (fun r0 : row => fdiv (cell (fst (fst r0))) fac) (csv s bd k)) c = Some (fdiv (cell (Some m)) fac)) by (rewrite map_nth_error', Hr; reflexivity).
  rewrite (idx_ok _ _ _ Za), (idx_ok _ _ _ Zb), (idx_ok _ _ _ Zm). cbn [bind].
  apply (gate_one x _ _ _ r (Q2R a) (Q2R m) (Q2R b)); auto; try lra.
  - apply CN. apply Rabs_le. lra.
  - apply CN. apply Rabs_le. lra.
  - apply CN. apply Rabs_le. lra.
  - apply Rabs_le. lra.
  - unfold Rabs. destruct (Rcase_abs (Q2R m)); lra.
Qed.

(** ** Values between two representable numbers *)
Definition sw (lo hi : R) (x : double) : Prop := exists t, dval x = Fin t /\ lo <= t <= hi.
Definition dbl (r : R) : Prop := drnd r = Fin r.
Definition sgl (r : R) : Prop := rnd 24 128 r = Fin r /\ dbl r.
Lemma dbl_0 : dbl 0. Proof. apply (rnd_0 53 1024). Qed.
Lemma sgl_0 : sgl 0. Proof. split; [apply (rnd_0 24 128)|apply dbl_0]. Qed.
Lemma dbl_b2 e : (-1074 <= e < 1024)%Z -> dbl (b2 e). Proof. apply bpow_fmt. Qed.
Lemma sgl_b2 e : (-149 <= e < 128)%Z -> sgl (b2 e). Proof. intro H. split; [now apply sfmt|apply dbl_b2; lia]. Qed.
Lemma sgl_mult (k : Z) e : (0 <= k < 64)%Z -> (-149 <= e < 100)%Z -> sgl (IZR k * b2 e).
Proof.
  intros Hk He. assert (Q : IZR k * b2 e = F2R (Float radix2 k e)) by reflexivity.
  assert (B : 0 <= IZR k * b2 e < b2 (6 + e)).
  { pose proof (bpow_gt_0 radix2 e). split; [apply Rmult_le_pos; [apply IZR_le; lia|lra]|].
    rewrite bpow_plus. apply Rmult_lt_compat_r; auto. change (b2 6) with 64. apply IZR_lt. lia. }
  split; apply rnd_fmt.
  - rewrite Q. apply generic_format_FLT. exists (Float radix2 k e); auto; cbn [Fnum Fexp]; [rewrite Z.abs_eq by lia; apply Z.lt_trans with 64%Z; [lia|reflexivity]|unfold SpecFloat.emin; lia].
  - rewrite Rabs_pos_eq by lra. apply Rlt_le_trans with (1 := proj2 B). apply bpow_le. lia.
  - rewrite Q. apply generic_format_FLT. exists (Float radix2 k e); auto; cbn [Fnum Fexp]; [rewrite Z.abs_eq by lia; apply Z.lt_trans with 64%Z; [lia|reflexivity]|unfold SpecFloat.emin; lia].
  - rewrite Rabs_pos_eq by lra. apply Rlt_le_trans with (1 := proj2 B). apply bpow_le. lia.
Qed.
Lemma drnd_sw lo hi r x : dval x = drnd r -> dbl lo -> dbl hi -> lo <= r <= hi -> sw lo hi x.
Proof.
  intros X L H B. pose proof (rnd_mono 53 1024 p53 _ _ (proj1 B)) as M1. pose proof (rnd_mono 53 1024 p53 _ _ (proj2 B)) as M2.
  unfold dbl in L, H. rewrite L in M1. rewrite H in M2. unfold sw. rewrite X.
  destruct (drnd r) as [t| | |]; try discriminate. exists t. split; auto. split; now apply Rleb_true.
Qed.
Lemma f32_sw lo hi x : sgl lo -> sgl hi -> sw lo hi x -> sw lo hi (f32 x).
Proof.
  intros (L & L') (H & H') (r & X & B).
  pose proof (rnd_mono 24 128 p24 _ _ (proj1 B)) as M1. pose proof (rnd_mono 24 128 p24 _ _ (proj2 B)) as M2.
  rewrite L in M1. rewrite H in M2. pose proof (vf32 x r X) as V.
  destruct (rnd 24 128 r) as [t| | |]; try discriminate. cbn [rndx] in V.
  apply (drnd_sw lo hi t); auto. split; now apply Rleb_true.
Qed.
Lemma fnp_sw lo hi x : sgl lo -> sgl hi -> sw lo hi x -> sw lo hi (fnp x).
Proof.
  intros L H S. assert (Q : fnp x = if np1 then f32 x else x).
  { change ((if np1 then b_f32 53 1024 24 128 p53 e1024 p24 e128 else fun x => x) x = if np1 then b_f32 53 1024 24 128 p53 e1024 p24 e128 x else x). now destruct np1. }
  rewrite Q. pose proof (f32_sw lo hi x L H S). destruct np1; auto.
Qed.
Lemma add_sw lo hi lo' hi' L H x y : dbl L -> dbl H -> L <= lo + lo' -> hi + hi' <= H -> sw lo hi x -> sw lo' hi' y -> sw L H (fadd x y).
Proof.
  intros HL HH BL BH (s & S & Bs) (t & T & Bt). apply (drnd_sw L H (s + t)); auto; [|lra].
  change (fadd x y) with (Bplus mode_NE x y). now rewrite (val_plus 53 1024 p53 e1024), S, T.
Qed.
Lemma mul_sw lo hi lo' hi' L H x y : 0 <= lo -> 0 <= lo' -> dbl L -> dbl H -> L <= lo * lo' -> hi * hi' <= H ->
  sw lo hi x -> sw lo' hi' y -> sw L H (fmul x y).
Proof.
  intros P P' HL HH BL BH (s & S & Bs) (t & T & Bt). apply (drnd_sw L H (s * t)); auto.
  - change (fmul x y) with (Bmult mode_NE x y). now rewrite (val_mult 53 1024 p53 e1024), S, T.
  - split; [apply Rle_trans with (1 := BL)|apply Rle_trans with (2 := BH)]; apply Rmult_le_compat; lra.
Qed.
Lemma div_sw lo hi lo' hi' L H x y : 0 <= lo -> 0 < lo' -> dbl L -> dbl H -> L * hi' <= lo -> hi <= H * lo' -> 0 <= L -> 0 <= H ->
  sw lo hi x -> sw lo' hi' y -> sw L H (fdiv x y).
Proof.
  intros P P' HL HH BL BH L0 H0 (s & S & Bs) (t & T & Bt). apply (drnd_sw L H (s / t)); auto.
  - change (fdiv x y) with (Bdiv mode_NE x y). rewrite (val_div 53 1024 p53 e1024), S, T.
    + cbn [xdiv]. destruct Req_EM_T; [lra|]. reflexivity.
    + rewrite T. intro E. injection E. lra.
  - split; apply Rmult_le_reg_r with t; try lra; unfold Rdiv; rewrite Rmult_assoc, Rinv_l by lra.
    + assert (L * t <= L * hi') by (apply Rmult_le_compat_l; lra). lra.
    + assert (H * lo' <= H * t) by (apply Rmult_le_compat_l; lra). lra.
Qed.
Lemma sw_le lo hi lo' hi' x : lo' <= lo -> hi <= hi' -> sw lo hi x -> sw lo' hi' x.
Proof. intros A B (t & T & K). exists t. split; auto. lra. Qed.

(** sums of nonnegative terms *)
Section Fold.
Variable op : double -> double -> double.
Hypothesis Hop : (forall x y, op x y = f32 (fadd x y)) \/ (forall x y, op x y = fadd x y).
Lemma op_sw lo hi lo' hi' L H x y : sgl L -> sgl H -> L <= lo + lo' -> hi + hi' <= H -> sw lo hi x -> sw lo' hi' y -> sw L H (op x y).
Proof.
  intros HL HH A B X Y. destruct Hop as [E|E]; rewrite E; [apply f32_sw; auto|]; (eapply add_sw; [apply HL|apply HH|exact A|exact B|exact X|exact Y]).
Qed.
Lemma fold_sw e lo : (-149 <= e < 100)%Z -> sgl lo -> forall l acc (k : Z), (0 <= k)%Z -> (k + Z.of_nat (length l) < 64)%Z ->
  sw lo (IZR k * b2 e) acc -> Forall (sw 0 (b2 e)) l ->
  sw lo (IZR (k + Z.of_nat (length l)) * b2 e) (fold_left op l acc).
Proof.
  intros He Hlo. induction l as [|x l IH]; intros acc k Hk Hl A F; cbn [fold_left length].
  - rewrite Z.add_0_r. auto.
  - inversion F; subst. replace (k + Z.of_nat (S (length l)))%Z with ((k + 1) + Z.of_nat (length l))%Z by lia.
    cbn [length] in Hl. apply IH; auto; try lia. eapply op_sw; [exact Hlo|apply sgl_mult; lia| | |exact A|eassumption].
    + lra.
    + rewrite plus_IZR. lra.
Qed.
Lemma fold_pick e lo : (-149 <= e < 100)%Z -> sgl lo -> 0 <= lo -> forall l acc (k : Z), (0 <= k)%Z -> (k + Z.of_nat (length l) < 64)%Z ->
  sw 0 (IZR k * b2 e) acc -> Forall (sw 0 (b2 e)) l -> Exists (sw lo (b2 e)) l ->
  sw lo (IZR (k + Z.of_nat (length l)) * b2 e) (fold_left op l acc).
Proof.
  intros He Hlo Plo. induction l as [|x l IH]; intros acc k Hk Hl A F X; [inversion X|]. cbn [fold_left length].
  inversion F; subst. replace (k + Z.of_nat (S (length l)))%Z with ((k + 1) + Z.of_nat (length l))%Z by lia. cbn [length] in Hl.
  inversion X; subst.
  - apply fold_sw; auto; try lia. eapply op_sw; [exact Hlo|apply sgl_mult; lia| | |exact A|eassumption].
    + lra.
    + rewrite plus_IZR. lra.
  - apply IH; auto; try lia. eapply op_sw; [exact sgl_0|apply sgl_mult; lia| | |exact A|eassumption].
    + lra.
    + rewrite plus_IZR. lra.
Qed.
Lemma sum_pick e lo l x : (-149 <= e < 100)%Z -> sgl lo -> 0 <= lo -> (length l < 60)%nat ->
  Forall (sw 0 (b2 e)) (x :: l) -> Exists (sw lo (b2 e)) (x :: l) ->
  sw lo (IZR (Z.of_nat (S (length l))) * b2 e) (fold_left op l x).
Proof.
  intros He Hlo Plo Hl F X. inversion F; subst. replace (Z.of_nat (S (length l))) with (1 + Z.of_nat (length l))%Z by lia.
  inversion X; subst.
  - apply fold_sw; auto; try lia. now rewrite Rmult_1_l.
  - apply fold_pick; auto; try lia. now rewrite Rmult_1_l.
Qed.
End Fold.
End D.
