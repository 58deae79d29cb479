(** Rounding errors of the classifier memberships and scores. *)
From Coq Require Import Reals Lra Lia ZArith QArith Qreals Psatz.
From Flocq Require Import Core Relative IEEE754.BinarySingleNaN.
From Verif Require Import Base.Num Base.ListFacts Base.XReal Base.Ieee Base.RelErr.
From Verif Require Import Model.Tables Model.Beta Model.TTraps Model.Hid.
From Verif Require Import Spec.HidSpec Spec.IeeeSpec Spec.PowSpec.
From Verif Require Import Proofs.BetaErr Proofs.IeeeSign Proofs.HidProofs Proofs.BetaProofs Proofs.SummerProofs Proofs.SummerReal Proofs.CoreProofs.
Open Scope R_scope.

#[local] Existing Instances p53 e1024 p24 e128.

(** units: single precision, double precision, underflow *)
Definition u0 : R := 1 / 16700000.
Definition ud : R := 1 / 1000000000000000.
Definition tau : R := / 10 ^ 40.
Definition taud : R := / 10 ^ 50.

Lemma rnd_abs prec emax (Hp : Prec_gt_0 prec) (He : Prec_lt_emax prec emax) r :
  Rabs r <= bpow radix2 (emax - 1) -> exists y, rnd prec emax r = Fin y /\
    Rabs (y - r) <= bpow radix2 (- prec) * Rabs r + bpow radix2 (3 - emax - prec).
Proof.
  intro U. unfold rnd.
  destruct (error_N_FLT radix2 (3 - emax - prec) prec Hp (fun n => negb (Z.even n)) r) as (eps & et & E1 & E2 & _ & E).
  change (FLT_exp (3 - emax - prec) prec) with (SpecFloat.fexp prec emax) in E.
  change (Znearest (fun n => negb (Z.even n))) with ZnearestE in E.
  set (q := round radix2 (SpecFloat.fexp prec emax) ZnearestE r) in *.
  assert (Q : Rabs q <= bpow radix2 (emax - 1)).
  { pose proof (fexp_correct prec emax Hp) as VE. apply abs_round_le_generic; auto.
    - apply valid_rnd_N.
    - apply generic_format_bpow. unfold SpecFloat.fexp, SpecFloat.emin. unfold Prec_gt_0, Prec_lt_emax in *. lia. }
  rewrite Rlt_bool_true by (apply Rle_lt_trans with (1 := Q); apply bpow_lt; lia).
  exists q. split; auto.
  assert (B : / 2 * bpow radix2 (- prec + 1) = bpow radix2 (- prec)).
  { rewrite bpow_plus. change (bpow radix2 1) with 2. lra. }
  rewrite B in E1. rewrite E. replace (r * (1 + eps) + et - r) with (r * eps + et) by ring.
  pose proof (bpow_gt_0 radix2 (3 - emax - prec)).
  apply Rabs_plus_le; [|lra]. rewrite Rabs_mult, Rmult_comm. apply Rmult_le_compat_r; auto using Rabs_pos.
Qed.

Lemma p2 n : bpow radix2 (Zneg n) = / IZR (2 ^ Zpos n).
Proof. reflexivity. Qed.
Lemma p2' n : bpow radix2 (Zpos n) = IZR (2 ^ Zpos n).
Proof. reflexivity. Qed.

Lemma drnd_err r : Rabs r <= 10 ^ 300 -> exists y, drnd r = Fin y /\ Rabs (y - r) <= ud * Rabs r + taud.
Proof.
  intro U. destruct (rnd_abs 53 1024 p53 e1024 r) as (y & E & B).
  - apply Rle_trans with (1 := U). change (1024 - 1)%Z with 1023%Z. rewrite p2'.
    rewrite pow_IZR. apply IZR_le. vm_compute. discriminate.
  - exists y. split; auto. apply Rle_trans with (1 := B).
    change (3 - 1024 - 53)%Z with (-1074)%Z. change (- (53))%Z with (-53)%Z. rewrite (p2 1074), (p2 53).
    apply Rplus_le_compat.
    + apply Rmult_le_compat_r; [apply Rabs_pos|]. unfold ud. lra.
    + unfold taud. apply Rinv_le_contravar; [lra|]. rewrite pow_IZR. apply IZR_le. vm_compute. discriminate.
Qed.
Lemma srnd_err r : Rabs r <= 10 ^ 38 -> exists y, rnd 24 128 r = Fin y /\ Rabs (y - r) <= 1 / 16777000 * Rabs r + / 10 ^ 44.
Proof.
  intro U. destruct (rnd_abs 24 128 p24 e128 r) as (y & E & B).
  - apply Rle_trans with (1 := U). change (128 - 1)%Z with 127%Z. rewrite p2'.
    rewrite pow_IZR. apply IZR_le. vm_compute. discriminate.
  - exists y. split; auto. apply Rle_trans with (1 := B).
    change (3 - 128 - 24)%Z with (-149)%Z. change (- (24))%Z with (-24)%Z. rewrite (p2 149), (p2 24).
    apply Rplus_le_compat.
    + apply Rmult_le_compat_r; [apply Rabs_pos|]. lra.
    + apply Rinv_le_contravar; [lra|]. rewrite pow_IZR. apply IZR_le. vm_compute. discriminate.
Qed.

Section D.
Variables (np1 : bool) (lm : libm double).
Hypothesis Lm : pow_good lm.
#[local] Instance fo : FloatOps double := double_ops np1 lm.

(** x is within e of r *)
Definition near (e : R) (x : double) (r : R) : Prop := exists y, dval x = Fin y /\ Rabs (y - r) <= e.


Lemma f32_err x r : dval x = Fin r -> Rabs r <= 10 ^ 37 -> near (u0 * Rabs r + tau) (f32 x) r.
Proof.
  intros X U. destruct (srnd_err r) as (y & Y & B). { lra. }
  assert (Yb : Rabs y <= 2 * Rabs r + / 10 ^ 44).
  { replace y with (r + (y - r)) by ring. pose proof (Rabs_triang r (y - r)). pose proof (Rabs_pos r). lra. }
  destruct (drnd_err y) as (z & Z & C). { lra. }
  exists z. split.
  - change (dval (conv 24 128 53 1024 p53 e1024 (conv 53 1024 24 128 p24 e128 x)) = Fin z).
    rewrite !val_conv, X. cbn [rndx]. rewrite Y. cbn [rndx]. exact Z.
  - replace (z - r) with ((z - y) + (y - r)) by ring. 
    pose proof (Rabs_triang (z - y) (y - r)). unfold u0, tau. unfold ud, taud in C. pose proof (Rabs_pos r). lra.
Qed.

Lemma near_le e e' x r : near e x r -> e <= e' -> near e' x r.
Proof. intros (y & Y & B) L. exists y. split; auto. lra. Qed.
Lemma near_f32 e x r : near e x r -> Rabs r + e <= 10 ^ 37 -> near (e + u0 * (Rabs r + e) + tau) (f32 x) r.
Proof.
  intros (y & Y & B) U.
  assert (Yb : Rabs y <= Rabs r + e).
  { replace y with (r + (y - r)) by ring. pose proof (Rabs_triang r (y - r)). lra. }
  destruct (f32_err x y Y) as (z & Z & C); [lra|]. exists z. split; auto.
  replace (z - r) with ((z - y) + (y - r)) by ring. pose proof (Rabs_triang (z - y) (y - r)).
  unfold u0 in *. lra.
Qed.
Lemma near_rnd e x r s : dval x = drnd s -> Rabs (s - r) <= e -> Rabs r + e <= 10 ^ 300 ->
  near (e + ud * (Rabs r + e) + taud) x r.
Proof.
  intros X B U.
  assert (Yb : Rabs s <= Rabs r + e).
  { replace s with (r + (s - r)) by ring. pose proof (Rabs_triang r (s - r)). lra. }
  destruct (drnd_err s) as (z & Z & C); [lra|]. exists z. split; [congruence|].
  replace (z - r) with ((z - s) + (s - r)) by ring. pose proof (Rabs_triang (z - s) (s - r)).
  unfold ud in *. lra.
Qed.


(** the distance from the centre *)
Lemma uhat x m a r rm ra : dval x = Fin r -> Rabs r <= 10 ^ 30 ->
  near (1 / 10 ^ 14 * Rabs rm + / 10 ^ 45) m rm -> near (1 / 10 ^ 14 * ra + / 10 ^ 45) a ra ->
  Rabs rm <= 1000 -> 1 / 100 <= ra <= 1000 ->
  exists av, dval (f32 a) = Fin av /\ 0 < av /\
  near (42 / 10 * u0 * Rabs ((r - rm) / ra) + 22 / 10 * u0 * (Rabs rm / ra) + / 10 ^ 36)
       (f32 (fdiv (f32 (fsub (f32 x) (f32 m))) (f32 a))) ((r - rm) / ra) /\ Rabs ((r - rm) / ra) <= 10 ^ 33.
Proof.
  intros X R M A Bm Ba.
  destruct (f32_err x r X ltac:(lra)) as (x1 & X1 & EX).
  destruct (near_f32 _ _ _ M ltac:(lra)) as (m1 & M1 & EM).
  assert (Pa : Rabs ra = ra) by (apply Rabs_pos_eq; lra).
  destruct (near_f32 _ _ _ A ltac:(rewrite Pa; lra)) as (a1 & A1 & EA). rewrite Pa in EA.
  assert (Ea : Rabs (a1 - ra) <= 101 / 100 * u0 * ra) by (unfold u0, tau in *; lra).
  set (D := r - rm). pose proof (Rabs_pos rm) as Pm. pose proof (Rabs_pos D) as PD.
  assert (Rr : Rabs r <= Rabs D + Rabs rm). { replace r with (D + rm) by (unfold D; ring). apply Rabs_triang. }
  assert (RD : Rabs D <= 10 ^ 30 + 1000). { unfold D. pose proof (Rabs_triang r (- rm)). rewrite Rabs_Ropp in H. unfold Rminus. lra. }
  assert (ES : Rabs ((x1 - m1) - D) <= u0 * Rabs D + 201 / 100 * u0 * Rabs rm + 3 * tau).
  { replace (x1 - m1 - D) with ((x1 - r) + - (m1 - rm)) by (unfold D; ring).
    pose proof (Rabs_triang (x1 - r) (- (m1 - rm))). rewrite Rabs_Ropp in H. unfold u0, tau in *. lra. }
  assert (NS : near (u0 * Rabs D + 201 / 100 * u0 * Rabs rm + 3 * tau + ud * (Rabs D + (u0 * Rabs D + 201 / 100 * u0 * Rabs rm + 3 * tau)) + taud)
                 (fsub (f32 x) (f32 m)) D).
  { apply (near_rnd _ _ _ (x1 - m1)); auto.
    - change (fsub (f32 x) (f32 m)) with (Bminus mode_NE (f32 x) (f32 m)). rewrite (val_minus 53 1024 p53 e1024), X1, M1. reflexivity.
    - unfold u0, tau. lra. }
  destruct (near_f32 _ _ _ NS) as (d & Dv & ED). { unfold u0, ud, tau, taud. lra. }
  assert (ED' : Rabs (d - D) <= 202 / 100 * u0 * Rabs D + 202 / 100 * u0 * Rabs rm + 5 * tau).
  { unfold u0, ud, tau, taud in *. lra. }
  clear ED NS ES. exists a1. split; auto.
  assert (Pa1 : 0 < a1). { apply Rabs_le_inv in Ea. unfold u0 in Ea. lra. }
  split; auto.
  assert (DU : Rabs (D / ra) = Rabs D / ra). { unfold Rdiv. rewrite Rabs_mult, Rabs_inv, Pa. reflexivity. }
  assert (Ia : 0 < / ra) by (apply Rinv_0_lt_compat; lra).
  assert (Ia' : / ra <= 100). { replace 100 with (/ (1 / 100)) by lra. apply Rinv_le_contravar; lra. }
  assert (UB : Rabs D / ra <= 10 ^ 33). { unfold Rdiv. apply Rle_trans with ((10 ^ 30 + 1000) * 100); [|lra]. apply Rmult_le_compat; lra. }
  assert (VB : Rabs rm / ra <= 10 ^ 5). { unfold Rdiv. apply Rle_trans with (1000 * 100); [|lra]. apply Rmult_le_compat; lra. }
  assert (U0 : 0 <= Rabs D / ra) by (apply Rmult_le_pos; lra).
  assert (V0 : 0 <= Rabs rm / ra) by (apply Rmult_le_pos; lra).
  split; [|rewrite DU; exact UB].
  rewrite DU. set (U := Rabs D / ra) in *. set (V := Rabs rm / ra) in *.
  assert (EW : Rabs (d / ra - D / ra) <= 202 / 100 * u0 * U + 202 / 100 * u0 * V + 500 * tau).
  { replace (d / ra - D / ra) with ((d - D) * / ra) by (field; lra). rewrite Rabs_mult, (Rabs_pos_eq (/ ra)) by lra.
    apply Rle_trans with ((202 / 100 * u0 * Rabs D + 202 / 100 * u0 * Rabs rm + 5 * tau) * / ra).
    - apply Rmult_le_compat_r; lra.
    - unfold U, V. unfold Rdiv. assert (5 * tau * / ra <= 500 * tau) by (unfold tau; nra). lra. }
  assert (EWb : Rabs (d / ra) <= (1 + 202 / 100 * u0) * U + 202 / 100 * u0 * V + 500 * tau).
  { replace (d / ra) with (D / ra + (d / ra - D / ra)) by ring. pose proof (Rabs_triang (D / ra) (d / ra - D / ra)). rewrite DU in H. fold U in H. lra. }
  assert (EQ : Rabs (d / a1 - d / ra) <= 102 / 100 * u0 * Rabs (d / ra)).
  { replace (d / a1 - d / ra) with (d / ra * ((ra - a1) / a1)) by (field; lra). rewrite Rabs_mult, Rmult_comm.
    apply Rmult_le_compat_r; [apply Rabs_pos|]. unfold Rdiv. rewrite Rabs_mult, Rabs_inv, Rabs_minus_sym, (Rabs_pos_eq a1) by lra.
    apply Rmult_le_reg_r with a1; auto. rewrite Rmult_assoc, Rinv_l, Rmult_1_r by lra.
    apply Rle_trans with (1 := Ea). apply Rabs_le_inv in Ea. unfold u0 in *. lra. }
  assert (EQ' : Rabs (d / a1 - D / ra) <= 306 / 100 * u0 * U + 204 / 100 * u0 * V + 600 * tau).
  { replace (d / a1 - D / ra) with ((d / a1 - d / ra) + (d / ra - D / ra)) by ring.
    pose proof (Rabs_triang (d / a1 - d / ra) (d / ra - D / ra)). unfold u0, tau in *. lra. }
  assert (NQ : near (306 / 100 * u0 * U + 204 / 100 * u0 * V + 600 * tau + ud * (Rabs (D / ra) + (306 / 100 * u0 * U + 204 / 100 * u0 * V + 600 * tau)) + taud)
                 (fdiv (f32 (fsub (f32 x) (f32 m))) (f32 a)) (D / ra)).
  { apply (near_rnd _ _ _ (d / a1)); auto.
    - match goal with |- dval (fdiv ?p ?q) = _ => change (fdiv p q) with (Bdiv mode_NE p q) end.
      rewrite (val_div 53 1024 p53 e1024), Dv, A1 by (rewrite A1; intro Z; injection Z; lra).
      cbn [xdiv]. destruct Req_EM_T; [lra|]. reflexivity.
    - rewrite DU. fold U. unfold u0, tau. lra. }
  eapply near_le; [apply (near_f32 _ _ _ NQ)|]; rewrite DU; fold U; unfold u0, ud, tau, taud; lra.
Qed.

Lemma f32_min x v : dval (f32 x) = Fin v -> v = 0 \/ exp (-150) <= Rabs v.
Proof.
  change (dval (f32 x)) with (dval (conv 24 128 53 1024 p53 e1024 (conv 53 1024 24 128 p24 e128 x))).
  rewrite !val_conv. destruct (dval x) as [r| | |]; try discriminate. cbn [rndx].
  set (q := round radix2 (SpecFloat.fexp 24 128) ZnearestE r).
  change (rnd 24 128 r) with (if Rlt_bool (Rabs q) (bpow radix2 128) then Fin q else if Rlt_bool r 0 then NInf else PInf).
  destruct (Rlt_bool_spec (Rabs q) (bpow radix2 128)) as [Eq'|]; [|destruct (Rlt_bool r 0); discriminate].
  cbn [rndx].
  intro E. destruct (Req_dec q 0) as [Z|Z].
  - left. rewrite Z, rnd_0 in E; try exact p53. congruence.
  - right. pose proof (fexp_correct 24 128 p24) as VE.
    assert (G : generic_format radix2 (SpecFloat.fexp 24 128) (Rabs q)).
    { apply generic_format_abs, generic_format_round; auto. apply valid_rnd_N. }
    assert (Lo : bpow radix2 (-149) <= Rabs q).
    { apply (generic_format_ge_bpow radix2 (SpecFloat.fexp 24 128) (-149)); auto.
      - intro e. unfold SpecFloat.fexp, SpecFloat.emin. lia.
      - now apply Rabs_pos_lt. }
    pose proof ln2_half. pose proof ln2_1. rewrite bpow_exp in Lo, Eq'.
    destruct (rnd_apx q) as (d & D & Y).
    { split.
      - apply Rle_trans with (2 := Lo). apply exp_le_mono. lra.
      - apply Rlt_le, Rlt_le_trans with (1 := Eq'). apply exp_le_mono. lra. }
    rewrite Y in E. assert (v = q * exp d) as -> by congruence.
    rewrite Rabs_mult, (Rabs_pos_eq (exp d)) by (left; apply exp_pos).
    apply Rle_trans with (exp (IZR (-149) * ln 2) * exp d).
    + rewrite <- exp_plus. apply exp_le_mono. pose proof eta_small. apply Rabs_le_inv in D. lra.
    + apply Rmult_le_compat_r; auto. left. apply exp_pos.
Qed.

(** 1 / (1 + p) *)
Lemma inv_den p : dval p = PInf \/ (exists t, dval p = Fin t /\ 0 <= t) ->
  feq (fadd (flit 1) p) (flit 0) = false /\
  near (1 / 10 ^ 13) (fdiv (flit 1) (fadd (flit 1) p))
    (match dval p with Fin t => 1 / (1 + t) | _ => 0 end).
Proof.
  intro P. 
  assert (V1 : dval (flit 1) = Fin 1).
  { change (dval (b_lit 53 1024 p53 e1024 1) = Fin 1). rewrite val_lit. cbn [Qnum Qden].
    replace (1 / 1) with 1 by field. apply rnd_1; reflexivity. }
  set (d := fadd (flit 1) p). 
  assert (Vd : dval d = rndx 53 1024 (xadd (Fin 1) (dval p))).
  { unfold d. change (fadd (flit 1) p) with (Bplus mode_NE (flit 1) p). now rewrite (val_plus 53 1024 p53 e1024), V1. }
  assert (K : dval d = PInf \/ exists z, dval d = Fin z /\ 1 <= z).
  { destruct P as [P|(t & P & T)]; rewrite P in Vd; [now left|]. cbn [xadd rndx] in Vd.
    pose proof (rnd_mono 53 1024 p53 1 (1 + t) ltac:(lra)) as M. rewrite (rnd_1 53 1024 p53 e1024), <- Vd in M.
    destruct (dval d) as [z| | |]; try discriminate; auto. right. exists z. split; auto. now apply Rleb_true in M. }
  assert (Dn : dval d <> Fin 0). { destruct K as [-> |(z & -> & Z)]; [discriminate|]. intro E. injection E. lra. }
  split.
  - change (Beqb d (b_lit 53 1024 p53 e1024 0) = false). rewrite (val_eq 53 1024).
    change (dval (b_lit 53 1024 p53 e1024 0)) with (Fin 0).
    destruct K as [-> |(z & -> & Z)]; auto. cbn. apply Reqb_false. lra.
  - assert (Vq : dval (fdiv (flit 1) d) = rndx 53 1024 (xdiv (Fin 1) (dval d))).
    { change (fdiv (flit 1) d) with (Bdiv mode_NE (flit 1) d). rewrite (val_div 53 1024 p53 e1024), V1 by auto. reflexivity. }
    destruct P as [P|(t & P & T)]; rewrite P in *.
    + rewrite Vd in Vq. cbn [xadd rndx xdiv] in Vq. rewrite rnd_0 in Vq; try exact p53.
      exists 0. split; auto. rewrite Rminus_0_r, Rabs_R0. lra.
    + cbn [xadd rndx] in Vd.
      destruct (Rle_or_lt t (10 ^ 290)) as [L|L].
      * destruct (drnd_err (1 + t)) as (z & Z & B). { rewrite Rabs_pos_eq; lra. }
        rewrite (Rabs_pos_eq (1 + t)) in B by lra. rewrite Z in Vd. rewrite Vd in Vq.
        assert (Zp : 0 < z). { apply Rabs_le_inv in B. unfold ud, taud in B. lra. }
        cbn [xdiv] in Vq. destruct Req_EM_T; [lra|]. cbn [rndx] in Vq.
        assert (Q : Rabs (1 / z - 1 / (1 + t)) <= 1 / 10 ^ 14).
        { replace (1 / z - 1 / (1 + t)) with ((1 + t - z) * / (z * (1 + t))) by (field; lra).
          rewrite Rabs_mult, Rabs_minus_sym, (Rabs_pos_eq (/ (z * (1 + t)))) by (left; apply Rinv_0_lt_compat; nra).
          assert (Z2 : 1 / 2 <= z) by (apply Rabs_le_inv in B; unfold ud, taud in B; lra).
          apply Rmult_le_reg_r with (z * (1 + t)); [nra|]. rewrite Rmult_assoc, Rinv_l, Rmult_1_r by nra.
          apply Rle_trans with (1 := B). unfold ud, taud. nra. }
        assert (Bt : Rabs (1 / (1 + t)) <= 1).
        { rewrite Rabs_pos_eq.
          - apply Rmult_le_reg_r with (1 + t); [lra|]. unfold Rdiv. rewrite Rmult_assoc, Rinv_l; lra.
          - apply Rmult_le_pos; [lra|]. left. apply Rinv_0_lt_compat. lra. }
        eapply near_le; [apply (near_rnd _ _ _ (1 / z) Vq Q)|]; unfold ud, taud; lra.
      * (* a denominator beyond 10^289 *)
        assert (Zr : dval (fdiv (flit 1) d) = Fin 0 \/ exists z, dval (fdiv (flit 1) d) = drnd (1 / z) /\ 10 ^ 289 <= z).
        { pose proof (rnd_mono 53 1024 p53 (10 ^ 290) (1 + t) ltac:(lra)) as M.
          destruct (drnd_err (10 ^ 290)) as (w & W & B). { rewrite Rabs_pos_eq; lra. }
          rewrite (Rabs_pos_eq (10 ^ 290)) in B by lra. rewrite W, <- Vd in M.
          destruct (dval d) as [z| | |]; try discriminate.
          - right. exists z. apply Rleb_true in M. assert (10 ^ 289 <= z). { apply Rabs_le_inv in B. unfold ud, taud in B. lra. }
            split; auto. rewrite Vq. cbn [xdiv]. destruct Req_EM_T; [lra|]. reflexivity.
          - left. rewrite Vq. cbn [xdiv rndx]. now apply rnd_0. }
        assert (Ib : 0 <= 1 / (1 + t) <= 1 / 10 ^ 20).
        { split; [apply Rmult_le_pos; [lra|]; left; apply Rinv_0_lt_compat; lra|].
          unfold Rdiv. rewrite !Rmult_1_l. apply Rinv_le_contravar; lra. }
        destruct Zr as [Zr|(z & Zr & Zb)].
        -- exists 0. split; auto. rewrite Rminus_0_l, Rabs_Ropp, Rabs_pos_eq; lra.
        -- assert (Iz : 0 <= 1 / z <= 1 / 10 ^ 20).
           { split; [apply Rmult_le_pos; [lra|]; left; apply Rinv_0_lt_compat; lra|].
             unfold Rdiv. rewrite !Rmult_1_l. apply Rinv_le_contravar; lra. }
           eapply near_le; [apply (near_rnd (1 / 10 ^ 20) _ (1 / (1 + t)) (1 / z) Zr)|].
           ++ apply Rabs_le. lra.
           ++ rewrite Rabs_pos_eq; lra.
           ++ rewrite Rabs_pos_eq by lra. unfold ud, taud. lra.
Qed.

Lemma rel_exp v r : 0 < r -> Rabs (v - r) <= bpow radix2 (-52) * r -> exists d, Rabs d <= 1 / 10 ^ 14 /\ v = r * exp d.
Proof.
  intros P H. set (e := (v - r) / r).
  assert (He : Rabs e <= bpow radix2 (-52)).
  { unfold e, Rdiv. rewrite Rabs_mult, Rabs_inv, (Rabs_pos_eq r) by lra.
    apply Rmult_le_reg_r with r; auto. rewrite Rmult_assoc, Rinv_l, Rmult_1_r by lra. exact H. }
  assert (B : bpow radix2 (-52) <= 1 / 10 ^ 15).
  { rewrite (p2 52). replace (1 / 10 ^ 15) with (/ 10 ^ 15) by lra. apply Rinv_le_contravar; [lra|]. rewrite pow_IZR. apply IZR_le. vm_compute. discriminate. }
  destruct (ln_1p e (1 / 10 ^ 15) ltac:(lra) ltac:(lra)) as (Q & L).
  exists (ln (1 + e)). split; [lra|]. rewrite exp_ln by auto. unfold e. field. lra.
Qed.
Lemma exp_500 : exp 499 > 10 ^ 100 /\ exp (-499) < / 10 ^ 100.
Proof.
  assert (E : exp 499 > 10 ^ 100).
  { apply Rlt_le_trans with (3 ^ 250).
    - rewrite !pow_IZR. apply IZR_lt. vm_compute. reflexivity.
    - replace 499 with (INR 250 * (499 / 250)) by (rewrite INR_IZR_INZ; change (Z.of_nat 250) with 250%Z; lra).
      rewrite <- (Rpower_pow 250 3) by lra. unfold Rpower. apply exp_le_mono. apply Rmult_le_compat_l; [apply pos_INR|].
      apply Rle_trans with (ln (exp (499/250))); [|rewrite ln_exp; lra].
      destruct (exp_ge (499/250)) as [G|G].
      + assert (Hx : 3 <= exp (499 / 250)).
        { replace (499 / 250) with (499/500 + 499/500) by lra. rewrite exp_plus. pose proof (exp_ge (499/500)).
          nra. }
        destruct Hx as [Hx|Hx]; [left; apply ln_increasing; lra|rewrite <- Hx; lra].
      + exfalso. pose proof (exp_ge (499/500)). replace (499 / 250) with (499/500 + 499/500) in G at 2 by lra. rewrite exp_plus in G. nra. }
  split; auto. replace (-499) with (Ropp 499) by reflexivity. change (-499) with (IZR (-499)). 
  replace (IZR (-499)) with (Ropp 499) by lra. rewrite exp_Ropp. apply Rinv_lt_contravar; [|lra].
  apply Rmult_lt_0_compat; lra.
Qed.
Lemma inv_big t : 10 ^ 100 <= t -> 0 <= 1 / (1 + t) <= 1 / 10 ^ 20.
Proof.
  intro L. split; [apply Rmult_le_pos; [lra|]; left; apply Rinv_0_lt_compat; lra|].
  unfold Rdiv. rewrite !Rmult_1_l. apply Rinv_le_contravar; lra.
Qed.
Lemma inv_small t : 0 <= t <= / 10 ^ 100 -> 1 - 1 / 10 ^ 20 <= 1 / (1 + t) <= 1.
Proof.
  intro L. assert (1 - 1 / (1 + t) = t / (1 + t)) by (field; lra).
  assert (0 <= t / (1 + t)) by (apply Rmult_le_pos; [lra|]; left; apply Rinv_0_lt_compat; lra).
  assert (t / (1 + t) <= t). { apply Rmult_le_reg_r with (1 + t); [lra|]. unfold Rdiv. rewrite Rmult_assoc, Rinv_l; nra. }
  lra.
Qed.

(** the membership once the normalised distance and the exponent are known *)
Lemma beta_tail (u bb : double) v bv b : dval u = Fin v -> dval bb = Fin bv -> (v = 0 \/ exp (-150) <= Rabs v) ->
  Rabs v <= 10 ^ 34 -> 1 <= b <= 60 -> Rabs (bv - b) <= 2 * u0 * b ->
  let p := fpow (fpow u (flit 2)) bb in
  feq (fadd (flit 1) p) (flit 0) = false /\
  near (5 * u0) (fdiv (flit 1) (fadd (flit 1) p)) (bet b v).
Proof.
  intros U B Vm VM Bb Eb. cbv zeta.
  assert (Bv : 99 / 100 <= bv <= 61). { apply Rabs_le_inv in Eb. unfold u0 in Eb. lra. }
  set (y := fpow u (flit 2)). set (p := fpow y bb).
  assert (V2 : dval (flit 2) = Fin 2).
  { change (dval (b_lit 53 1024 p53 e1024 2) = Fin 2). change 2 with (IZR 2). 
    destruct (apx_int 2) as (d & D & E); [lia|]. change (inject_Z 2) with 2%Q in E. 
    assert (Z : d = 0). { pose proof (Rabs_pos d). destruct (Req_dec d 0); auto. pose proof (Rabs_pos_lt d H0). lra. }
    rewrite Z, exp_0, Rmult_1_r in E. exact E. }
  destruct (Req_dec v 0) as [Zv|Nv].
  - (* the centre itself *)
    subst v. assert (Y : dval y = Fin 0) by (apply (pg_zero _ Lm u _ 2); auto; lra).
    assert (Pv : dval p = Fin 0) by (apply (pg_zero _ Lm y bb bv); auto; lra).
    destruct (inv_den p) as (F & N). { right. exists 0. split; auto. lra. }
    split; auto. rewrite Pv in N. rewrite bet_0. replace (1 / (1 + 0)) with 1 in N by field.
    eapply near_le; [exact N|]. unfold u0. lra.
  - destruct Vm as [?|Vm]; [contradiction|]. pose proof (sq_pos v Nv) as P2.
    pose proof (Rabs_pos_lt v Nv) as Pv.
    assert (Sq : v ^ 2 = exp (2 * ln (Rabs v))).
    { rewrite <- (pow2_abs v). replace (2 * ln (Rabs v)) with (ln (Rabs v) + ln (Rabs v)) by ring.
      rewrite exp_plus, exp_ln by auto. ring. }
    assert (L1 : -150 <= ln (Rabs v)).
    { rewrite <- (ln_exp (-150)). destruct Vm as [Vm|Vm]; [left; apply ln_increasing; auto; apply exp_pos|rewrite <- Vm; lra]. }
    assert (L2 : ln (Rabs v) <= 136).
    { assert (T10 : ln 10 <= 4). { rewrite <- (ln_exp 4). left. apply ln_increasing; [lra|].
        replace 4 with ((1 + 1) + (1 + 1)) by lra. rewrite (exp_plus (1 + 1)), exp_plus. pose proof (exp_ge 1) as G.
        assert (G2 : 4 <= exp 1 * exp 1) by nra. nra. }
      apply Rle_trans with (ln (10 ^ 34)).
      - destruct VM as [VM|VM]; [left; apply ln_increasing; auto|rewrite VM; lra].
      - rewrite <- (Rpower_pow 34 10) by lra. unfold Rpower. rewrite ln_exp.
        rewrite INR_IZR_INZ. change (Z.of_nat 34) with 34%Z. lra. }
    destruct (pg_square _ Lm u v U Nv) as (yv & Y & EY).
    { rewrite Sq. split; apply exp_le_mono; lra. }
    destruct (rel_exp yv (v ^ 2) P2 EY) as (d & D & Ey). change (dval y = Fin yv) in Y.
    assert (Py : 0 < yv) by (rewrite Ey; apply Rmult_lt_0_compat; auto; apply exp_pos).
    assert (Ly : ln yv = 2 * ln (Rabs v) + d).
    { rewrite Ey, ln_mult, ln_exp, Sq, ln_exp; auto. apply exp_pos. }
    set (s := b * (2 * ln (Rabs v))).
    assert (Es : bet b v = 1 / (1 + exp s)).
    { rewrite bet_abs by auto. unfold Rpower, s. do 3 f_equal. ring. }
    set (T := Rpower yv bv).
    assert (ET : T = exp (s * (1 + (bv - b) / b)) * exp (bv * d)).
    { unfold T, Rpower. rewrite Ly, <- exp_plus. f_equal. unfold s. field. lra. }
    (* from T back to the documented membership *)
    assert (C1 : Rabs (1 / (1 + T) - bet b v) <= 45 / 10 * u0).
    { rewrite Es, ET.
      assert (H1 : Rabs (bv * d) <= 61 / 10 ^ 14).
      { rewrite Rabs_mult, (Rabs_pos_eq bv) by lra. replace (61 / 10 ^ 14) with (61 * (1 / 10 ^ 14)) by lra. apply Rmult_le_compat; try lra. apply Rabs_pos. }
      assert (P0 : 0 <= exp (s * (1 + (bv - b) / b))) by (left; apply exp_pos).
      pose proof (inv_exp _ _ _ P0 H1 ltac:(lra)) as I1.
      assert (H2 : Rabs ((bv - b) / b) <= 2 * u0).
      { unfold Rdiv. rewrite Rabs_mult, Rabs_inv, (Rabs_pos_eq b) by lra.
        apply Rmult_le_reg_r with b; [lra|]. rewrite Rmult_assoc, Rinv_l, Rmult_1_r by lra. exact Eb. }
      pose proof (inv_scale' s _ _ H2 ltac:(unfold u0; lra)) as I2.
      set (A1 := 1 / (1 + exp (s * (1 + (bv - b) / b)) * exp (bv * d))) in *.
      set (A2 := 1 / (1 + exp (s * (1 + (bv - b) / b)))) in *.
      replace (A1 - 1 / (1 + exp s)) with ((A1 - A2) + (A2 - 1 / (1 + exp s))) by ring.
      pose proof (Rabs_triang (A1 - A2) (A2 - 1 / (1 + exp s))). unfold u0 in *. lra. }
    assert (N : feq (fadd (flit 1) p) (flit 0) = false /\ near (1 / 10 ^ 12) (fdiv (flit 1) (fadd (flit 1) p)) (1 / (1 + T))).
    { assert (TP : 0 < T) by apply exp_pos. destruct exp_500 as (X1 & X2).
      assert (X3 : exp 499 < exp 500) by (apply exp_increasing; lra).
      assert (X4 : exp (-500) < exp (-499)) by (apply exp_increasing; lra).
      destruct (Rlt_or_le (exp 500) T) as [Hl|Hl].
      - assert (I0 : 0 <= 1 / (1 + T) <= 1 / 10 ^ 20) by (apply inv_big; lra).
        destruct (pg_large _ Lm y bb yv bv Y B Py Hl) as [Pv'|(t & Pv' & Ht)]; change (fpow y bb) with p in Pv'; fold p in Pv'.
        + change (dval p = PInf) in Pv'. destruct (inv_den p) as (F & (z & Z & N)); [now left|]. split; auto.
          rewrite Pv' in N. exists z. split; auto. rewrite Rminus_0_r in N. 
          replace (z - 1 / (1 + T)) with (z + - (1 / (1 + T))) by ring. 
          pose proof (Rabs_triang z (- (1 / (1 + T)))). rewrite Rabs_Ropp, (Rabs_pos_eq (1 / (1 + T))) in H by lra. lra.
        + change (dval p = Fin t) in Pv'. destruct (inv_den p) as (F & (z & Z & N)). { right. exists t. split; auto. lra. } split; auto.
          rewrite Pv' in N. exists z. split; auto. pose proof (inv_big t ltac:(lra)).
          apply Rabs_le_inv in N. apply Rabs_le. lra.
      - destruct (Rlt_or_le T (exp (-500))) as [Hs|Hs].
        + destruct (pg_small _ Lm y bb yv bv Y B Py Hs) as (t & Pv' & Ht). change (dval p = Fin t) in Pv'.
          destruct (inv_den p) as (F & (z & Z & N)). { right. exists t. split; auto. lra. } split; auto.
          rewrite Pv' in N. exists z. split; auto. pose proof (inv_small t ltac:(lra)). pose proof (inv_small T ltac:(lra)).
          apply Rabs_le_inv in N. apply Rabs_le. lra.
        + destruct (pg_accurate _ Lm y bb yv bv Y B Py) as (t & Pv' & Ht). { split; auto. } change (dval p = Fin t) in Pv'.
          fold T in Ht. destruct (rel_exp t T TP Ht) as (d2 & D2 & Et).
          assert (Tp : 0 < t) by (rewrite Et; apply Rmult_lt_0_compat; auto; apply exp_pos).
          destruct (inv_den p) as (F & (z & Z & N)). { right. exists t. split; auto. lra. } split; auto.
          rewrite Pv' in N. exists z. split; auto.
          pose proof (inv_exp T d2 (1 / 10 ^ 14) ltac:(lra) D2 ltac:(lra)) as I. rewrite <- Et in I.
          apply Rabs_le_inv in N. apply Rabs_le_inv in I. apply Rabs_le. lra. }
    destruct N as (F & (z & Z & N)). split; auto. exists z. split; auto.
    apply Rabs_le_inv in N. apply Rabs_le_inv in C1. apply Rabs_le. unfold u0 in *. lra.
Qed.

Definition EM : R := 15 / 100000.
Lemma clip u v A B : 0 <= A -> 0 <= B -> Rabs (v - u) <= A + B ->
  exists w, Rabs (w - u) <= A /\ Rabs (v - w) <= B.
Proof.
  intros HA HB H. apply Rabs_le_inv in H.
  destruct (Rle_or_lt (v - u) (- A)); [|destruct (Rle_or_lt A (v - u))].
  - exists (u - A). split; apply Rabs_le; lra.
  - exists (u + A). split; apply Rabs_le; lra.
  - exists v. split; apply Rabs_le; lra.
Qed.

(** close to a number of a table *)
Definition cellnear (x : double) (r : R) : Prop := near (1 / 10 ^ 14 * Rabs r + / 10 ^ 45) x r.

Lemma gate_err x a b m r ra rb rm : dval x = Fin r -> Rabs r <= 10 ^ 30 ->
  cellnear m rm -> cellnear a ra -> cellnear b rb ->
  Rabs rm <= 1000 -> 1 / 100 <= ra <= 1000 -> 1 <= rb <= 60 -> rb * Rabs rm <= 500 * ra ->
  exists y, hid_beta_gate (f32 x) (f32 a) (f32 b) (f32 m) = Ok y /\ near EM y (beta_spec rm ra rb r).
Proof.
  intros X R M A B Bm Ba Bb Bc. unfold cellnear in A. rewrite (Rabs_pos_eq ra) in A by lra.
  destruct (uhat x m a r rm ra X R M A Bm Ba) as (av & Av & Ap & (v & V & EV) & UB).
  unfold cellnear in B. destruct (near_f32 _ _ _ B) as (bv & Bv & EB). { rewrite Rabs_pos_eq; lra. }
  rewrite (Rabs_pos_eq rb) in EB by lra.
  set (u := (r - rm) / ra) in *. set (uh := f32 (fdiv (f32 (fsub (f32 x) (f32 m))) (f32 a))) in *.
  pose proof (Rabs_pos u) as Pu. pose proof (Rabs_pos rm) as Pm.
  assert (Ia : 0 < / ra) by (apply Rinv_0_lt_compat; lra).
  assert (Vb : 0 <= rb * (Rabs rm / ra) <= 500).
  { split. - apply Rmult_le_pos; [lra|]. apply Rmult_le_pos; lra.
    - apply Rmult_le_reg_r with ra; [lra|]. unfold Rdiv. replace (rb * (Rabs rm * / ra) * ra) with (rb * Rabs rm) by (field; lra). exact Bc. }
  assert (V0 : 0 <= Rabs rm / ra <= 500).
  { split. - apply Rmult_le_pos; lra.
    - assert (H0 : 0 <= Rabs rm / ra) by (apply Rmult_le_pos; lra).
      assert (1 * (Rabs rm / ra) <= rb * (Rabs rm / ra)) by (apply Rmult_le_compat_r; lra). lra. }
  destruct (beta_tail uh (f32 b) v bv rb) as (F & (z & Z & N)); auto.
  { now apply f32_min in V. }
  { replace v with (u + (v - u)) by ring. pose proof (Rabs_triang u (v - u)). unfold u0 in *. lra. }
  { unfold u0, tau in *. lra. }
  unfold hid_beta_gate.
  replace (feq (f32 a) (flit 0)) with false.
  2:{ symmetry. change (Beqb (f32 a) (b_lit 53 1024 p53 e1024 0) = false). rewrite (val_eq 53 1024), Av.
      change (dval (b_lit 53 1024 p53 e1024 0)) with (Fin 0). cbn. apply Reqb_false. lra. }
  cbv zeta. change (f32 (fdiv (f32 (fsub (f32 x) (f32 m))) (f32 a))) with uh. rewrite F.
  eexists. split; [reflexivity|].
  assert (E : Rabs (z - beta_spec rm ra rb r) <= 148 / 1000000).
  { change (beta_spec rm ra rb r) with (bet rb u).
    destruct (clip u v (42 / 10 * u0 * Rabs u) (22 / 10 * u0 * (Rabs rm / ra) + / 10 ^ 36)) as (w & W1 & W2).
    { unfold u0. lra. } { unfold u0. lra. } { lra. }
    assert (I1 : Rabs (bet rb w - bet rb u) <= rb * (42 / 10 * u0)) by (apply bet_rel; unfold u0 in *; lra).
    assert (I2 : Rabs (bet rb v - bet rb w) <= 2 * rb * (22 / 10 * u0 * (Rabs rm / ra) + / 10 ^ 36)).
    { apply Rle_trans with (2 * rb * Rabs (v - w)); [apply bet_lip; lra|]. apply Rmult_le_compat_l; lra. }
    replace (z - bet rb u) with ((z - bet rb v) + ((bet rb v - bet rb w) + (bet rb w - bet rb u))) by ring.
    pose proof (Rabs_triang (z - bet rb v) ((bet rb v - bet rb w) + (bet rb w - bet rb u))).
    pose proof (Rabs_triang (bet rb v - bet rb w) (bet rb w - bet rb u)).
    unfold u0 in *. lra. }
  eapply near_le; [apply (near_f32 (148 / 1000000)); [exists z; split; [exact Z|exact E]|]|].
  - pose proof (bet_range rb u). change (beta_spec rm ra rb r) with (bet rb u). rewrite Rabs_pos_eq; lra.
  - pose proof (bet_range rb u). change (beta_spec rm ra rb r) with (bet rb u). rewrite Rabs_pos_eq by lra.
    unfold EM, u0, tau. lra.
Qed.

(** ** The tables *)
Lemma v_lit q : Rabs (Q2R q) <= 10 ^ 6 -> cellnear (flit q) (Q2R q).
Proof.
  intro B. unfold cellnear. eapply near_le; [apply (near_rnd 0 _ _ (Q2R q))|].
  - exact (val_lit 53 1024 p53 e1024 q).
  - unfold Rminus. rewrite Rplus_opp_r, Rabs_R0. lra.
  - lra.
  - unfold ud, taud. pose proof (Rabs_pos (Q2R q)). lra.
Qed.
Lemma div_one x one : dval one = Fin 1 -> dval (fdiv x one) = dval x.
Proof.
  intro O. change (fdiv x one) with (Bdiv mode_NE x one).
  rewrite (val_div 53 1024 p53 e1024), O by (rewrite O; intro Z; injection Z; lra).
  destruct (is_finite x) eqn:Fx.
  - rewrite (val_finite 53 1024 x Fx). cbn [xdiv]. destruct Req_EM_T; [lra|]. cbn [rndx].
    replace (B2R x / 1) with (B2R x) by field. apply val_fmt; auto; exact p53.
  - destruct x as [|[]| |]; try discriminate; cbn [val xdiv rndx]; try reflexivity;
      destruct (Rlt_dec 0 1); try lra; try reflexivity;
      repeat match goal with |- context [if ?b then _ else _] => destruct b end; try lra; reflexivity.
Qed.
Lemma v_one : dval (flit 1.0) = Fin 1.
Proof.
  change (dval (b_lit 53 1024 p53 e1024 1.0) = Fin 1). rewrite val_lit. cbn [Qnum Qden].
  replace (10 / 10) with 1 by lra. apply rnd_1; reflexivity.
Qed.

Definition acc_row (r : row) : bool :=
  match r with
  | (Some m, Some a, Some b) =>
      (Qle_bool (Qmake 1 100) a && Qle_bool a 1000 && Qle_bool 1 b && Qle_bool b 60 &&
       Qle_bool (-1000) m && Qle_bool m 1000 &&
       Qle_bool (b * m) (500 * a) && Qle_bool (b * (- m)) (500 * a))%bool
  | _ => false
  end.
Definition acc_table (n : nat) (l : list row) : bool := ((length l =? n)%nat && forallb acc_row l)%bool.

Lemma gate_beta_err s bd k n ut one c x r : acc_table n (csv s bd k) = true -> (c < n)%nat ->
  dval one = Fin 1 -> (k = KT -> ut = true) -> dval x = Fin r -> Rabs r <= 10 ^ 30 ->
  exists y, gate_beta (get_sets s ut one bd k) c (f32 x) = Ok y /\ near EM y (membership s bd 1 c k (Fin r)).
Proof.
  intros W Hc O Hk X R. unfold acc_table in W. apply andb_prop in W as (L & W). apply Nat.eqb_eq in L.
  destruct (nth_error_map_some (csv s bd k) (i:=c)) as (rw & Hr); [lia|].
  rewrite forallb_forall in W. specialize (W rw (nth_error_In _ _ Hr)).
  destruct rw as ((om, oa), ob). destruct om as [m|], oa as [a|], ob as [b|]; try discriminate.
  cbn [acc_row] in W. repeat (apply andb_prop in W as (W & ?)).
  repeat match goal with H : Qle_bool _ _ = true |- _ => apply Qle_bool_iff, Qle_Rle in H end.
  rewrite ?Q2R_mult, ?Q2R_opp in *.
  assert (K1 : Q2R (Qmake 1 100) = 1 / 100) by (unfold Q2R; cbn; lra).
  assert (K2 : Q2R 1000 = 1000) by (unfold Q2R; cbn; lra).
  assert (K3 : Q2R 1 = 1) by (unfold Q2R; cbn; lra).
  assert (K4 : Q2R 60 = 60) by (unfold Q2R; cbn; lra).
  assert (K5 : Q2R (-1000) = -1000) by (unfold Q2R; cbn; lra).
  assert (K6 : Q2R 500 = 500) by (unfold Q2R; cbn; lra).
  rewrite K1 in *. rewrite K2 in *. rewrite K3 in *. rewrite K4 in *. rewrite K5 in *. rewrite K6 in *.
  assert (Am : Rabs (Q2R m) <= 1000) by (apply Rabs_le; lra).
  assert (G : exists t, dval t = Fin 1 /\ get_sets s ut one bd k = Some (get_beta_set (csv s bd k) t)).
  { destruct k; try (exists (flit 1.0); split; [exact v_one|reflexivity]).
    exists one. split; auto. cbn [get_sets]. now rewrite Hk. }
  destruct G as (t & T & ->).
  assert (Pm : params s bd 1 k c = (Q2R m, Q2R a, Q2R b)).
  { unfold params. rewrite Hr. destruct k; auto. unfold Rdiv. now rewrite Rinv_1, !Rmult_1_r. }
  unfold membership. rewrite Pm. cbn [beta_val].
  assert (CN : forall q, Rabs (Q2R q) <= 1000 -> cellnear (fdiv (cell (Some q)) t) (Q2R q)).
  { intros q Hq. destruct (v_lit q ltac:(lra)) as (z & Z & E). exists z. split; auto. rewrite div_one; auto. }
  unfold gate_beta, get_beta_set. cbn [sa sb sm].
  rewrite (idx_ok _ c (fdiv (cell (Some a)) t)) by (rewrite map_nth_error', Hr; reflexivity).
  rewrite (idx_ok _ c (fdiv (cell (Some b)) t)) by (rewrite map_nth_error', Hr; reflexivity).
  rewrite (idx_ok _ c (fdiv (cell (Some m)) t)) by (rewrite map_nth_error', Hr; reflexivity).
  cbn [bind]. apply gate_err; auto; try lra.
  - apply CN. apply Rabs_le. lra.
  - apply CN. apply Rabs_le. lra.
  - assert (C : Q2R m <= Rabs (Q2R m)) by apply Rle_abs.
    unfold Rabs. destruct (Rcase_abs (Q2R m)); lra.
Qed.

Lemma summer_acc bd k : acc_table 10 (csv Summer bd k) = true.
Proof. destruct bd, k; vm_compute; reflexivity. Qed.
Lemma melt_acc bd k : acc_table 2 (csv Melt bd k) = true.
Proof. destruct bd, k; vm_compute; reflexivity. Qed.
Lemma winter_acc bd k : In k [KDZ; KDR; KKD; KT] -> acc_table 6 (csv Winter bd k) = true.
Proof.
  intro H. destruct bd, k; try (vm_compute; reflexivity); exfalso; simpl in H; decompose [or] H;
    try discriminate; contradiction.
Qed.

(** ** Sums *)
Definition okh (h : double -> double) : Prop :=
  (forall e x r, near e x r -> Rabs r + e <= 10 ^ 37 -> near (e + u0 * (Rabs r + e) + tau) (h x) r) /\
  (forall x, dval x = Fin 0 -> dval (h x) = Fin 0).
Lemma near_pos e x r : near e x r -> 0 <= e.
Proof. intros (y & _ & B). pose proof (Rabs_pos (y - r)). lra. Qed.
Lemma okh_f32 : okh f32.
Proof.
  split; [intros; now apply near_f32|]. intros x X.
  change (dval (conv 24 128 53 1024 p53 e1024 (conv 53 1024 24 128 p24 e128 x)) = Fin 0).
  rewrite !val_conv, X. cbn [rndx]. rewrite (rnd_0 24 128). cbn [rndx]. now rewrite (rnd_0 53 1024).
Qed.
Lemma okh_id : okh (fun x => x).
Proof.
  split; auto. intros e x r N U. eapply near_le; [exact N|]. pose proof (near_pos _ _ _ N). pose proof (Rabs_pos r).
  unfold u0, tau. assert (0 < / 10 ^ 40) by lra. lra.
Qed.
Lemma okh_fnp : okh fnp.
Proof.
  destruct (Bool.bool_dec np1 true) as [E|E].
  - assert (Q : forall x, fnp x = f32 x). { intro x. change ((if np1 then b_f32 53 1024 24 128 p53 e1024 p24 e128 else fun x => x) x = b_f32 53 1024 24 128 p53 e1024 p24 e128 x). now rewrite E. }
    destruct okh_f32 as (A & B). split; intros; rewrite Q; auto.
  - assert (Q : forall x, fnp x = x). { intro x. change ((if np1 then b_f32 53 1024 24 128 p53 e1024 p24 e128 else fun x => x) x = x). destruct np1; congruence. }
    destruct okh_id as (A & B). split; intros; rewrite Q; auto.
Qed.

Definition wok (W : R) : Prop := W = 0 \/ / 10 ^ 20 <= W.
Lemma wok_add a b : wok a -> wok b -> wok (a + b).
Proof. unfold wok. assert (0 < / 10 ^ 20) by lra. intros [->|?] [->|?]; [left; lra|right; lra..]. Qed.
Lemma wok_pos a : wok a -> 0 <= a.
Proof. unfold wok. assert (0 < / 10 ^ 20) by lra. intros [->|?]; lra. Qed.

Lemma near_zero e x : near e x 0 -> e <= 0 -> dval x = Fin 0.
Proof.
  intros (y & Y & B) E. rewrite Rminus_0_r in B. pose proof (Rabs_pos y). destruct (Req_dec y 0); [congruence|].
  pose proof (Rabs_pos_lt y H0). lra.
Qed.

(** rounding something near a number not above W *)
Lemma near_round (h : double -> double) x s e W S : okh h -> dval x = drnd s -> Rabs (s - S) <= e * W ->
  0 <= S <= W -> / 10 ^ 20 <= W <= 10 ^ 30 -> 0 <= e <= 1 / 10 -> near ((e + 12 / 10 * u0) * W) (h x) S.
Proof.
  intros Hh X B HS HW He. 
  assert (eW : e * W <= 1 / 10 * W) by (apply Rmult_le_compat_r; lra).
  pose proof (near_rnd (e * W) x S s X B) as N. rewrite (Rabs_pos_eq S) in N by lra. specialize (N ltac:(lra)).
  destruct Hh as (Hh & _). apply Hh in N; rewrite (Rabs_pos_eq S) in * by lra; [|unfold ud, taud; lra].
  eapply near_le; [exact N|]. unfold u0, ud, taud, tau. lra.
Qed.

Lemma add_near h x y e W1 S1 W2 S2 : okh h -> near (e * W1) x S1 -> near (e * W2) y S2 ->
  0 <= S1 <= W1 -> 0 <= S2 <= W2 -> wok W1 -> wok W2 -> W1 + W2 <= 10 ^ 30 -> 0 <= e <= 1 / 10 ->
  near ((e + 12 / 10 * u0) * (W1 + W2)) (h (fadd x y)) (S1 + S2).
Proof.
  intros Hh X Y B1 B2 K1 K2 U He. pose proof (wok_pos _ K1). pose proof (wok_pos _ K2).
  change (fadd x y) with (Bplus mode_NE x y).
  destruct (wok_add _ _ K1 K2) as [Z|L].
  - assert (W1 = 0) by lra. assert (W2 = 0) by lra. assert (S1 = 0) by lra. assert (S2 = 0) by lra. subst.
    apply near_zero in X; [|lra]. apply near_zero in Y; [|lra].
    exists 0. split; [|rewrite Rplus_0_r, Rminus_0_r, Rabs_R0; lra]. destruct Hh as (_ & Hz). apply Hz.
    rewrite (val_plus 53 1024 p53 e1024), X, Y. cbn [xadd rndx]. rewrite Rplus_0_r. apply rnd_0.
  - destruct X as (a & A & EA). destruct Y as (b & B & EB).
    apply (near_round h _ (a + b)); auto.
    + rewrite (val_plus 53 1024 p53 e1024), A, B. reflexivity.
    + replace (a + b - (S1 + S2)) with ((a - S1) + (b - S2)) by ring. pose proof (Rabs_triang (a - S1) (b - S2)). lra.
    + lra.
Qed.

Definition item := (double * (R * R))%type.
Definition good_item (e : R) (i : item) : Prop :=
  near (e * fst (snd i)) (fst i) (snd (snd i)) /\ 0 <= snd (snd i) <= fst (snd i) /\ wok (fst (snd i)).
Definition sumR (f : item -> R) (l : list item) : R := fold_right (fun i s => f i + s) 0 l.
Definition iW (i : item) := fst (snd i).
Definition iS (i : item) := snd (snd i).

Lemma good_le e e' i : good_item e i -> e <= e' -> good_item e' i.
Proof. intros (N & B & K) L. pose proof (wok_pos _ K). split; [|split]; auto. eapply near_le; [exact N|]. apply Rmult_le_compat_r; auto. Qed.
Lemma sum_pos e l : Forall (good_item e) l -> 0 <= sumR iS l <= sumR iW l.
Proof. induction 1 as [|i l (N & B & K) F IH]; cbn [sumR fold_right]; [lra|].
  fold (sumR iS l) (sumR iW l). change (iS i) with (snd (snd i)). change (iW i) with (fst (snd i)). lra. Qed.

Lemma fold_near h : okh h -> forall l acc e W0 S0,
  good_item e (acc, (W0, S0)) -> Forall (good_item e) l -> W0 + sumR iW l <= 10 ^ 30 -> 0 <= e ->
  e + 12 / 10 * u0 * INR (length l) <= 1 / 10 ->
  near ((e + 12 / 10 * u0 * INR (length l)) * (W0 + sumR iW l))
    (fold_left (fun a b => h (fadd a b)) (map fst l) acc) (S0 + sumR iS l).
Proof.
  intro Hh. intro l; induction l as [|i l IH]; intros acc e W0 S0 (N & B & K) F U He Hl; cbn [fold_left map sumR fold_right length] in *.
  - cbn [INR]. rewrite Rmult_0_r, !Rplus_0_r. exact N.
  - inversion F as [|? ? (Ni & Bi & Ki) F']; subst. cbn [fst snd] in *. fold (sumR iW l) in *. fold (sumR iS l) in *.
    pose proof (sum_pos _ _ F'). pose proof (wok_pos _ Ki). change (iS i) with (snd (snd i)) in *. change (iW i) with (fst (snd i)) in *. rewrite S_INR in *. pose proof (pos_INR (length l)).
    assert (Ue : 0 < u0) by (unfold u0; lra).
    rewrite <- !Rplus_assoc.
    replace (e + 12 / 10 * u0 * (INR (length l) + 1)) with (e + 12 / 10 * u0 + 12 / 10 * u0 * INR (length l)) by ring.
    assert (Lp : 0 <= 12 / 10 * u0 * INR (length l)) by nra.
    apply IH.
    + split; [|split]; cbn [fst snd].
      * apply add_near; auto; lra.
      * lra.
      * now apply wok_add.
    + eapply Forall_impl; [|exact F']. intros j Hj. eapply good_le; [exact Hj|]. lra.
    + lra.
    + lra.
    + lra.
Qed.

Lemma flag_w (b : bool) w W : dval w = Fin W -> dval (fmul (flag b) w) = Fin (if b then W else 0).
Proof.
  intro H. assert (Fw : is_finite w = true). { destruct w as [|[]| |]; try discriminate; reflexivity. }
  assert (V1 : dval (flit 1) = Fin 1).
  { change (dval (b_lit 53 1024 p53 e1024 1) = Fin 1). rewrite val_lit. cbn [Qnum Qden].
    replace (1 / 1) with 1 by field. apply rnd_1; reflexivity. }
  change (fmul (flag b) w) with (Bmult mode_NE (flag b) w). rewrite (val_mult 53 1024 p53 e1024).
  destruct b; cbn [flag].
  - rewrite V1. rewrite val_finite in H |- * by auto. cbn [xmul rndx]. rewrite Rmult_1_l, val_fmt by auto. exact H.
  - change (dval (flit 0)) with (Fin 0). rewrite H. cbn [xmul rndx]. rewrite Rmult_0_l. apply rnd_0.
Qed.

(** a weight: the float is W up to a rounding in double precision *)
Definition wnear (w : double) (W : R) : Prop := near (1 / 10 ^ 14 * W) w W.
Lemma row_near w W bt B : wnear w W -> wok W -> W <= 10 ^ 20 -> near EM bt B -> 0 <= B <= 1 ->
  good_item (EM + 3 * u0) (f32 (fmul (f32 (fmul (flag true) w)) bt), (W, W * B)).
Proof.
  intros (W' & Hw & EW) K U (y & Y & EY) HB. pose proof (wok_pos _ K) as PW.
  assert (HS : 0 <= W * B <= W) by nra.
  split; [|split]; cbn [fst snd]; auto.
  pose proof (flag_w true w W' Hw) as V. cbv iota in V.
  set (x := fmul (flag true) w) in *.
  match goal with |- near _ (f32 (fmul (f32 x) bt)) _ => change (fmul (f32 x) bt) with (Bmult mode_NE (f32 x) bt) end.
  destruct K as [->|L].
  - assert (Z : W' = 0). { rewrite Rminus_0_r, Rmult_0_r in EW. pose proof (Rabs_pos W'). destruct (Req_dec W' 0); auto.
      pose proof (Rabs_pos_lt W' H0). lra. }
    subst W'. assert (V0 : dval (f32 x) = Fin 0) by now apply (proj2 okh_f32).
    exists 0. split; [|rewrite Rmult_0_l, Rminus_0_r, Rabs_R0, Rmult_0_r; lra].
    apply (proj2 okh_f32). rewrite (val_mult 53 1024 p53 e1024), V0, Y. cbn [xmul rndx]. rewrite Rmult_0_l. apply rnd_0.
  - apply Rabs_le_inv in EW. destruct (f32_err x W' V) as (w1 & W1 & E1). { rewrite Rabs_pos_eq; lra. } rewrite (Rabs_pos_eq W') in E1 by lra.
    apply near_le with ((EM + 15 / 10 * u0 + 12 / 10 * u0) * W).
    2:{ apply Rmult_le_compat_r; auto. unfold u0. lra. }
    apply (near_round f32 _ (w1 * y)); auto using okh_f32.
    + rewrite (val_mult 53 1024 p53 e1024), W1, Y. reflexivity.
    + replace (w1 * y - W * B) with ((w1 - W) * y + W * (y - B)) by ring.
      assert (E1' : Rabs (w1 - W) <= 101 / 100 * u0 * W).
      { apply Rabs_le_inv in E1. apply Rabs_le. unfold u0, tau in *. lra. }
      assert (Yb : Rabs y <= 101 / 100). { apply Rabs_le_inv in EY. apply Rabs_le. unfold EM in EY. lra. }
      pose proof (Rabs_triang ((w1 - W) * y) (W * (y - B))) as Tr. rewrite !Rabs_mult, (Rabs_pos_eq W) in Tr by lra.
      assert (T1 : Rabs (w1 - W) * Rabs y <= 101 / 100 * u0 * W * (101 / 100)) by (apply Rmult_le_compat; auto using Rabs_pos).
      assert (T2 : W * Rabs (y - B) <= W * EM) by (apply Rmult_le_compat_l; lra).
      unfold u0 in *. lra.
    + lra.
    + unfold EM, u0. lra.
Qed.

(** the terms of a class *)
Section Terms.
Variables (u : key -> bool) (w : key -> double) (W B : key -> R) (sets : key -> option (bset double))
  (c : nat) (g : key -> option double).
Hypothesis HW : forall k, wnear (w k) (W k) /\ wok (W k) /\ W k <= 10 ^ 20.
Hypothesis HB : forall k, 0 <= B k <= 1.

Lemma ksum_cons k vl f : ksum (k :: vl) u f = (if u k then f k else 0) + ksum vl u f.
Proof. reflexivity. Qed.

Lemma terms vl : (forall k, In k vl ->
    if u k then exists x y, g k = Some x /\ gate_beta (sets k) c x = Ok y /\ near EM y (B k) else g k = None) ->
  exists l : list item, mapM (fun kx : key * double => let '(k, x) := kx in
                  bt <- gate_beta (sets k) c x ;; Ok (f32 (fmul (f32 (fmul (flag (u k)) (w k))) bt)))
       (flat_map (fun k => match g k with Some x => [(k, x)] | None => [] end) vl) = Ok (map fst l) /\
    Forall (good_item (EM + 3 * u0)) l /\ sumR iW l = ksum vl u W /\
    sumR iS l = ksum vl u (fun k => W k * B k) /\ (length l <= length vl)%nat.
Proof.
  induction vl as [|k vl IH]; intro H.
  - exists []. cbn. repeat split; auto.
  - destruct IH as (l & E & F & S1 & S2 & Ln). { intros; apply H; now right. }
    specialize (H k (or_introl eq_refl)). rewrite !ksum_cons. cbn [flat_map].
    destruct (u k) eqn:Uk.
    + destruct H as (x & y & G & Gb & N). rewrite G. cbn [app mapM].
      exists ((f32 (fmul (f32 (fmul (flag true) (w k))) y), (W k, W k * B k)) :: l).
      rewrite Gb. cbn [bind]. rewrite E. cbn [bind map fst]. rewrite Uk. split; auto.
      destruct (HW k) as (H1 & H2 & H3). split; [|split; [|split]].
      * constructor; auto. now apply row_near.
      * cbn [sumR fold_right]. fold (sumR iW l). rewrite S1. reflexivity.
      * cbn [sumR fold_right]. fold (sumR iS l). rewrite S2. reflexivity.
      * cbn [length]. lia.
    + rewrite H. cbn [app]. exists l. rewrite !Rplus_0_l. split; [|split; [|split; [|split]]]; auto. cbn [length]. lia.
Qed.

Lemma wsum_near vl : vl <> [] -> (length vl <= 6)%nat ->
  near (72 / 10 * u0 * ksum vl u W) (weight_sum u w vl) (ksum vl u W).
Proof.
  intros Nn Ln. unfold weight_sum. 
  set (it := fun k => (fmul (flag (u k)) (w k), (if u k then W k else 0, if u k then W k else 0)) : item).
  assert (G : forall k, good_item (1 / 10 ^ 14) (it k)).
  { intro k. destruct (HW k) as ((W' & H1 & E1) & H2 & H3). split; [|split]; cbn [it fst snd].
    - exists (if u k then W' else 0). split; [now apply flag_w|]. destruct (u k); [exact E1|]. unfold Rminus. rewrite Rplus_opp_r, Rabs_R0. lra.
    - destruct (u k); [|lra]. pose proof (wok_pos _ H2). lra.
    - destruct (u k); auto. now left. }
  assert (SW : forall l, sumR iW (map it l) = ksum l u W) by (induction l as [|k l IHl]; cbn; auto; unfold sumR, ksum in IHl; now rewrite IHl).
  assert (SS : forall l, sumR iS (map it l) = ksum l u W) by (induction l as [|k l IHl]; cbn; auto; unfold sumR, ksum in IHl; now rewrite IHl).
  destruct vl as [|k vl]; [contradiction|]. cbn [map fsum length] in *.
  assert (Ub : forall l, 0 <= ksum l u W <= INR (length l) * 10 ^ 20).
  { intro l. induction l as [|j l IHl]; [cbn; lra|]. rewrite ksum_cons. cbn [length]. rewrite S_INR.
    destruct (HW j) as (H1 & H2 & H3). pose proof (wok_pos _ H2). destruct (u j); lra. }
  assert (Fg : Forall (good_item (1 / 10 ^ 14)) (map it vl)).
  { apply Forall_forall. intros i Hi. apply in_map_iff in Hi as (j & <- & _). apply G. }
  assert (L5 : INR (length (map it vl)) <= 5). { rewrite map_length. change 5 with (INR 5) || replace 5 with (INR 5) by (simpl; lra). apply le_INR. lia. }
  pose proof (pos_INR (length (map it vl))) as L0.
  pose proof (Ub vl) as Uv. destruct (HW k) as (H1 & H2 & H3). pose proof (wok_pos _ H2) as Pk.
  pose proof (fold_near (fun x => x) okh_id (map it vl) (fmul (flag (u k)) (w k)) (1 / 10 ^ 14) (if u k then W k else 0) (if u k then W k else 0)
    (G k) Fg) as N.
  rewrite SW, SS, map_map in N. rewrite map_length in *. rewrite ksum_cons.
  specialize (N ltac:(destruct (u k); lra) ltac:(lra) ltac:(unfold u0; lra)).
  eapply near_le; [exact N|]. apply Rmult_le_compat_r; [destruct (u k); lra|]. unfold u0. lra.
Qed.

Definition EC : R := EM + 40 * u0.
Lemma calc_near vl : (length vl <= 6)%nat -> (forall k, In k vl ->
    if u k then exists x y, g k = Some x /\ gate_beta (sets k) c x = Ok y /\ near EM y (B k) else g k = None) ->
  0 < ksum vl u W ->
  exists z, gate_calc u w sets vl (weight_sum u w vl) c g = Ok z /\ near EC z (wmean vl u W B).
Proof.
  intros Ln H P. destruct (terms vl H) as (l & E & F & S1 & S2 & Ll).
  assert (Nn : vl <> []) by (intro Z; rewrite Z in P; cbn in P; lra).
  assert (Lp : / 10 ^ 20 <= ksum vl u W).
  { assert (K : wok (ksum vl u W)). { clear -HW. induction vl as [|k vl IH]; [now left|]. rewrite ksum_cons. apply wok_add; auto.
      destruct (HW k) as (_ & K & _). destruct (u k); auto. now left. }
    destruct K; lra. }
  assert (Lu : ksum vl u W <= 6 * 10 ^ 20).
  { assert (U : ksum vl u W <= INR (length vl) * 10 ^ 20).
    { clear -HW. induction vl as [|j l IHl]; [cbn; lra|]. rewrite ksum_cons. cbn [length]. rewrite S_INR.
      destruct (HW j) as (H1 & H2 & H3). pose proof (wok_pos _ H2). destruct (u j); lra. }
    assert (INR (length vl) <= 6). { replace 6 with (INR 6) by (simpl; lra). apply le_INR. lia. } nra. }
  unfold gate_calc. rewrite E. cbn [bind].
  destruct l as [|i l]. { cbn in S1. lra. }
  cbn [map gsum]. eexists. split; [reflexivity|].
  inversion F as [|? ? G F']; subst.
  assert (L5 : INR (length l) <= 5). { replace 5 with (INR 5) by (simpl; lra). apply le_INR. cbn in Ll. lia. }
  pose proof (pos_INR (length l)).
  assert (T1 : iW i + sumR iW l = ksum vl u W) by exact S1.
  assert (T2 : iS i + sumR iS l = ksum vl u (fun k => W k * B k)) by exact S2.
  pose proof (fold_near f32 okh_f32 l (fst i) (EM + 3 * u0) (iW i) (iS i)) as N.
  specialize (N ltac:(exact G) F'). rewrite T1, T2 in N.
  specialize (N ltac:(lra) ltac:(unfold EM, u0; lra) ltac:(unfold EM, u0; lra)).
  assert (SB : 0 <= ksum vl u (fun k => W k * B k) <= ksum vl u W).
  { rewrite <- T1, <- T2. exact (sum_pos _ (i :: l) F). }
  set (SW := ksum vl u W) in *. set (SS := ksum vl u (fun k => W k * B k)) in *.
  set (S := fold_left _ _ _) in *.
  assert (NS : near ((EM + 9 * u0) * SW) S SS).
  { eapply near_le; [exact N|]. apply Rmult_le_compat_r; [lra|]. unfold u0. lra. }
  (* the weight sum, rounded *)
  pose proof (wsum_near vl Nn Ln) as NW. fold SW in NW.
  pose proof (proj1 okh_fnp _ _ _ NW) as NW'. rewrite (Rabs_pos_eq SW) in NW' by lra. specialize (NW' ltac:(unfold u0; lra)).
  set (ws := fnp (weight_sum u w vl)) in *.
  destruct NW' as (b & Bv & EB). assert (EB' : Rabs (b - SW) <= 9 * u0 * SW) by (unfold u0, tau in *; lra). clear EB NW.
  destruct NS as (a & Av & EA).
  assert (Pb : 0 < b). { apply Rabs_le_inv in EB'. unfold u0 in EB'. lra. }
  change (fdiv S ws) with (Bdiv mode_NE S ws).
  assert (MB : 0 <= SS / SW <= 1).
  { split; [apply Rmult_le_pos; [lra|left; now apply Rinv_0_lt_compat]|].
    apply Rmult_le_reg_r with SW; auto. unfold Rdiv. rewrite Rmult_assoc, Rinv_l; lra. }
  apply near_le with ((EM + 20 * u0 + 12 / 10 * u0) * 1); [|unfold EC, u0; lra].
  apply (near_round fnp _ (a / b)); auto using okh_fnp.
  - rewrite (val_div 53 1024 p53 e1024), Av, Bv by (rewrite Bv; intro Z; injection Z; lra).
    cbn [xdiv]. destruct Req_EM_T; [lra|]. reflexivity.
  - unfold wmean. fold SW SS. replace (a / b - SS / SW) with (((a - SS) + SS / SW * (SW - b)) / b) by (field; lra).
    unfold Rdiv at 1. rewrite Rabs_mult, Rabs_inv, (Rabs_pos_eq b) by lra.
    apply Rmult_le_reg_r with b; auto. rewrite Rmult_assoc, Rinv_l, Rmult_1_r by lra.
    pose proof (Rabs_triang (a - SS) (SS / SW * (SW - b))) as Tr. rewrite (Rabs_mult (SS / SW)), (Rabs_pos_eq (SS / SW)) in Tr by lra.
    rewrite (Rabs_minus_sym SW b) in Tr.
    assert (T3 : SS / SW * Rabs (b - SW) <= 1 * (9 * u0 * SW)) by (apply Rmult_le_compat; auto using Rabs_pos; lra).
    apply Rle_trans with ((EM + 18 * u0) * SW); [lra|].
    apply Rabs_le_inv in EB'. unfold EM, u0 in *. lra.
  - lra.
  - unfold EM, u0. lra.
Qed.
End Terms.

(** ** A whole score *)
Definition ES : R := 1 / 2000.

Lemma mul_near h x y e1 e2 a b : okh h -> near e1 x a -> near e2 y b -> 0 <= a <= 1 -> 0 <= b <= 1 ->
  e1 <= 1 / 100 -> e2 <= 1 / 100 -> near (e1 + 101 / 100 * e2 + 12 / 10 * u0) (h (fmul x y)) (a * b).
Proof.
  intros Hh (p & P & EP) (q & Q & EQ) Ha Hb L1 L2. pose proof (Rabs_pos (p - a)). pose proof (Rabs_pos (q - b)).
  replace (e1 + 101 / 100 * e2 + 12 / 10 * u0) with ((e1 + 101 / 100 * e2 + 12 / 10 * u0) * 1) by ring.
  change (fmul x y) with (Bmult mode_NE x y).
  apply (near_round h _ (p * q)); auto; try lra.
  - rewrite (val_mult 53 1024 p53 e1024), P, Q. reflexivity.
  - replace (p * q - a * b) with (b * (p - a) + p * (q - b)) by ring.
    pose proof (Rabs_triang (b * (p - a)) (p * (q - b))) as Tr. rewrite !Rabs_mult, (Rabs_pos_eq b) in Tr by lra.
    assert (Pb : Rabs p <= 101 / 100). { apply Rabs_le_inv in EP. apply Rabs_le. lra. }
    assert (T1 : b * Rabs (p - a) <= 1 * e1) by (apply Rmult_le_compat; lra).
    assert (T2 : Rabs p * Rabs (q - b) <= 101 / 100 * e2) by (apply Rmult_le_compat; auto using Rabs_pos).
    lra.
  - nra.
Qed.

Lemma calc_ext' (v v' : key -> bool) (w : key -> double) sets vl ws c g : (forall k, v k = v' k) ->
  gate_calc v w sets vl ws c g = gate_calc v' w sets vl ws c g.
Proof.
  intro E. unfold gate_calc. match goal with |- bind ?m _ = bind ?m' _ => assert (M : m = m') end.
  { apply mapM_ext. intros (k, x) _. now rewrite E. } now rewrite M.
Qed.
Lemma ws_ext' (v v' : key -> bool) (w : key -> double) vl : (forall k, v k = v' k) -> weight_sum v w vl = weight_sum v' w vl.
Proof. intro E. unfold weight_sum. apply f_equal, map_ext. intro; now rewrite E. Qed.
Lemma at_none' {F} (p : pyarg F) i : supplied p = false -> at_gate p i = None.
Proof. destruct p; simpl; auto; discriminate. Qed.

Lemma core_gate_err s ut w (W : key -> R) method (a : fields double) one bd c i n (x : key -> R) :
  scores_ok a ut method false -> dval one = Fin 1 ->
  (forall k, wnear (w k c) (W k) /\ wok (W k) /\ W k <= 10 ^ 20) ->
  (if contains "hybrid" method then any_pol (used a ut) = true -> 0 < ksum pol_keys (used a ut) W
   else 0 < ksum all_keys (used a ut) W) ->
  (forall k, used a ut k = true -> acc_table n (csv s bd k) = true) -> (c < n)%nat ->
  (forall k, used a ut k = true -> exists d, at_gate (a k) i = Some d /\ dval d = Fin (x k) /\ Rabs (x k) <= 10 ^ 30) ->
  exists z, core_gate s (fun k => supplied (a k)) ut w method one bd (fun k => option_map f32 (at_gate (a k) i)) c = Ok z /\
    near ES z (if contains "hybrid" method
               then hybrid_score (used a ut) W (fun k => membership s bd 1 c k (Fin (x k)))
               else linear_score (used a ut) W (fun k => membership s bd 1 c k (Fin (x k)))).
Proof.
  intros (Hdz & Hok & Hsz & Hm) O HW Hw Ht Hc Hx. unfold core_gate.
  destruct (varlist method) as [vl|] eqn:Evl.
  2:{ exfalso. unfold varlist in Evl. destruct Hm as [Hm|(Hm & _)]; rewrite Hm in Evl;
      destruct (contains "hybrid" method); discriminate. }
  cbv zeta. rewrite any_pol_flag.
  set (v := fun k : key => match k with KT => _ | _ => supplied (a k) end).
  set (ut' := if supplied (a KT) then ut else false) in *.
  assert (V : forall k, v k = used a ut k). { intros []; auto. unfold v, ut'. cbn. now destruct (supplied (a KT)). }
  set (g := fun k => option_map f32 (at_gate (a k) i)).
  change (option_map f32 (at_gate (a KDZ) i)) with (g KDZ).
  change (option_map f32 (at_gate (a KT) i)) with (g KT).
  assert (Ut : ut' = used a ut KT) by (unfold ut'; simpl; destruct (supplied (a KT)); auto).
  set (B := fun k => membership s bd 1 c k (Fin (x k))).
  assert (HB : forall k, 0 <= B k <= 1) by (intro; apply membership_range).
  assert (G : forall k, used a ut k = true -> exists d y, g k = Some (f32 d) /\
     gate_beta (get_sets s ut' one bd k) c (f32 d) = Ok y /\ near EM y (B k)).
  { intros k Hk. destruct (Hx k Hk) as (d & E & D & R). exists d. unfold g. rewrite E.
    destruct (gate_beta_err s bd k n ut' one c d (x k)) as (y & Y & N); auto.
    - intros ->. now rewrite Ut.
    - exists y. auto. }
  assert (P : any_pol (fun k => supplied (a k)) = any_pol (used a ut)) by reflexivity.
  assert (Z : used a ut KDZ = true) by exact Hdz.
  unfold gate_row. cbv beta. rewrite (ws_ext' v (used a ut)) by auto. rewrite P. pose proof (varlist_cases _ _ Evl) as Cs.
  assert (WB : forall vl, 0 < ksum vl (used a ut) W -> 0 <= wmean vl (used a ut) W B <= 1).
  { intros l Hl. apply wmean_range; auto. intros k. destruct (HW k) as (_ & K & _). intros. now apply wok_pos. }
  destruct Cs as [(Eh & ->)|(Eh & El & ->)]; rewrite Eh in *.
  - (* hybrid *)
    unfold hybrid_score.
    assert (C : any_pol (used a ut) = true -> exists z,
      gate_calc v (fun k => w k c) (get_sets s ut' one bd) pol_keys
        (weight_sum (used a ut) (fun k => w k c) pol_keys) c g = Ok z /\ near EC z (wmean pol_keys (used a ut) W B)).
    { intro Ep. rewrite (calc_ext' v (used a ut)) by auto. apply calc_near; auto.
      intros k Hin. destruct (used a ut k) eqn:E.
      - destruct (G k E) as (d & y & Gk & Gb & N). exists (f32 d), y. auto.
      - unfold g. rewrite at_none'; auto. simpl in Hin. decompose [or] Hin; subst; try contradiction; exact E. }
    destruct (G KDZ Z) as (dz & yz & Gz & Bz & Nz). rewrite Gz, Bz.
    destruct (any_pol (used a ut)) eqn:Ep.
    + destruct (C eq_refl) as (t & Et & Nt). rewrite Et. cbn [bind]. specialize (WB pol_keys (Hw eq_refl)).
      destruct (used a ut KT) eqn:ET.
      * destruct (G KT ET) as (d & y & Gk & Gb & N). rewrite Gk, Gb, Ut. cbn [bind]. eexists. split; [reflexivity|].
        eapply near_le; [apply mul_near; [apply okh_fnp|apply mul_near; [apply okh_fnp|exact Nt|exact N|..]|exact Nz|..]|]; auto;
          try (unfold EC, EM, u0; lra).
        -- specialize (HB KT). nra.
        -- unfold ES, EC, EM, u0; lra.
      * rewrite Ut. cbn [bind]. eexists. split; [reflexivity|]. rewrite Rmult_1_r.
        eapply near_le; [apply mul_near; [apply okh_fnp|exact Nt|exact Nz|..]|]; auto; unfold ES, EC, EM, u0; lra.
    + rewrite Rmult_1_l. destruct (used a ut KT) eqn:ET.
      * destruct (G KT ET) as (d & y & Gk & Gb & N). rewrite Gk, Gb, Ut. cbn [bind]. eexists. split; [reflexivity|].
        eapply near_le; [apply mul_near; [apply okh_f32|exact N|exact Nz|..]|]; auto; unfold ES, EM, u0; lra.
      * rewrite Ut, Rmult_1_l. exists yz. split; auto. eapply near_le; [exact Nz|]. unfold ES, EM. lra.
  - (* linear *)
    destruct Hm as [|(_ & Hp & HT)]; [congruence|].
    rewrite (calc_ext' v (used a ut)) by auto. unfold linear_score.
    destruct (calc_near (used a ut) (fun k => w k c) W B (get_sets s ut' one bd) c g HW HB all_keys) as (z & Ez & Nz); auto.
    + intros k Hin. destruct (used a ut k) eqn:E.
      * destruct (G k E) as (d & y & Gk & Gb & N). exists (f32 d), y. auto.
      * unfold g. rewrite at_none'; auto. destruct k; try exact E.
        simpl in E. destruct (supplied (a KT)); auto. destruct (HT eq_refl) as [-> |]; discriminate.
    + exists z. split; auto. eapply near_le; [exact Nz|]. unfold ES, EC, EM, u0. lra.
Qed.
End D.
