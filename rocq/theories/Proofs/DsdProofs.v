From Coq Require Import Reals Lra Psatz.
From Verif Require Import Base.Num Base.ListFacts Base.XReal Base.XTac Base.XArith Base.Pointwise.
From Verif Require Import Spec.RainSpec Spec.DsdSpec Proofs.RainReal Model.Common Model.Dsd.
From Verif Require Proofs.LiquidIceProofs Model.LiquidIce.
Open Scope R_scope.

Lemma lit_dec p q : @flit xr _ (Qmake p q) = Fin (IZR p / IZR (Zpos q)).
Proof. reflexivity. Qed.
Lemma linearize_fin d : LiquidIce.linearize (Fin d) = Fin (linZ d).
Proof. apply lin_fin. Qed.

Lemma pl_nat x a n : power_law (Fin x) (Fin a) (Fin (INR n)) = Fin (a * x ^ n).
Proof. unfold power_law. change (fpow (Fin x) (Fin (INR n))) with (xpow (Fin x) (Fin (INR n))). now rewrite xpow_nat. Qed.
Lemma pl_pos x a b : 0 < x -> power_law (Fin x) (Fin a) (Fin b) = Fin (a * Rpower x b).
Proof. intro H. unfold power_law. now rewrite fpow_pos. Qed.

Lemma d0_low_fin z a b c d e :
  d0_low_zdr (Fin z) (Fin a) (Fin b) (Fin c) (Fin d) (Fin e)
  = Fin (a * z^4 + b * z^3 + c * z^2 + d * z + e).
Proof.
  unfold d0_low_zdr. rewrite !lit_int.
  replace 4 with (INR 4) by (simpl; ring). replace 3 with (INR 3) by (simpl; ring).
  replace 2 with (INR 2) by (simpl; ring). replace 1 with (INR 1) by (simpl; ring).
  rewrite !pl_nat, !fadd_fin. f_equal. ring.
Qed.
Lemma d0_high_fin z a b c d :
  d0_high_zdr (Fin z) (Fin a) (Fin b) (Fin c) (Fin d)
  = Fin (a * z^3 + b * z^2 + c * z + d).
Proof.
  unfold d0_high_zdr. rewrite !lit_int.
  replace 3 with (INR 3) by (simpl; ring).
  replace 2 with (INR 2) by (simpl; ring). replace 1 with (INR 1) by (simpl; ring).
  rewrite !pl_nat, !fadd_fin. f_equal. ring.
Qed.

(** ** 2009 *)
Section Gate.
Context {F : Type} `{FloatOps F}.
Local Open Scope fl_scope.
Definition g09_d0 (d r : F) : F :=
  if r >? #1.25 then d0_high_zdr r (#0.0355) (#(-0.3021)) (#1.0556) (#0.6844)
  else if ((r >=? #(-0.5)) && (r <=? #1.25))%bool
  then d0_low_zdr r (#0.0203) (#(-0.1488)) (#0.2209) (#0.5571) (#0.801)
  else #0 * d.
Lemma gate_2009 dz zdr i d r : nth_error dz i = Some d -> nth_error zdr i = Some r ->
  nth_error (fst (fst (calc_dsd_cband_bringi_2009 dz zdr))) i = Some (g09_d0 d r) /\
  nth_error (snd (fst (calc_dsd_cband_bringi_2009 dz zdr))) i
    = Some (LiquidIce.linearize d / power_law (g09_d0 d r) (#0.056) (#7.319)) /\
  nth_error (snd (calc_dsd_cband_bringi_2009 dz zdr)) i = Some (#0 * d + #3).
Proof.
  intros E1 E2. unfold calc_dsd_cband_bringi_2009; cbn [fst snd].
  split; [pwr; reflexivity|]. split; [pwr; reflexivity|pwr; reflexivity].
Qed.
Definition g13_d0 (d r : F) : F :=
  if r >=? #1 then d0_high_zdr r (#0.0536) (#(-0.1971)) (#0.6261) (#1.0815)
  else if r <? #1 then d0_low_zdr r (#0.0424) (#(-0.4571)) (#0.6125) (#0.457) (#0.8808)
  else #0 * d.
Lemma gate_2013 dz zdr i d r : nth_error dz i = Some d -> nth_error zdr i = Some r ->
  nth_error (fst (fst (calc_dsd_sband_bringi_2013 dz zdr))) i = Some (g13_d0 d r) /\
  nth_error (snd (fst (calc_dsd_sband_bringi_2013 dz zdr))) i
    = Some (#19.76 * LiquidIce.linearize d / power_law (g13_d0 d r) (#1) (#7.46)) /\
  nth_error (snd (calc_dsd_sband_bringi_2013 dz zdr)) i = Some (#0 * d + #3).
Proof.
  intros E1 E2. unfold calc_dsd_sband_bringi_2013; cbn [fst snd].
  split; [pwr; reflexivity|]. split; [pwr; reflexivity|pwr; reflexivity].
Qed.

(** 2004: the last mask that holds wins *)
Definition g04 (d r k : F) : F * F * F :=
  let zeta := LiquidIce.linearize r in let z := LiquidIce.linearize d in
  if ((r >=? #(-0.5)) && (r <? #0.2) && (k <? #0.3))%bool then dsd_sband_method4 z zeta
  else if ((r >=? #0.2) && (r <? #0.5) && (k <? #0.3))%bool then dsd_sband_method3 z r zeta
  else if ((k <? #0.3) && (r >=? #0.5))%bool then dsd_sband_method2 z r
  else if ((d >=? #35) && (r >=? #0.2) && (k >=? #0.3))%bool
  then dsd_sband_method1 z zeta (calc_beta z k zeta)
  else (#0 * d, #0 * d, #0 * d).
Lemma gate_2004 dz zdr kdp i d r k : nth_error dz i = Some d -> nth_error zdr i = Some r ->
  nth_error kdp i = Some k ->
  nth_error (fst (fst (calc_dsd_sband_bringi_2004 dz zdr kdp))) i = Some (fst (fst (g04 d r k))) /\
  nth_error (snd (fst (calc_dsd_sband_bringi_2004 dz zdr kdp))) i = Some (snd (fst (g04 d r k))) /\
  nth_error (snd (calc_dsd_sband_bringi_2004 dz zdr kdp)) i = Some (snd (g04 d r k)).
Proof.
  intros E1 E2 E3. unfold calc_dsd_sband_bringi_2004; cbn [fst snd].
  split; [|split]; pwr; unfold g04;
  destruct ((r >=? #(-0.5)) && (r <? #0.2) && (k <? #0.3))%bool; try reflexivity;
  destruct ((r >=? #0.2) && (r <? #0.5) && (k <? #0.3))%bool; try reflexivity;
  destruct ((k <? #0.3) && (r >=? #0.5))%bool; try reflexivity;
  destruct ((d >=? #35) && (r >=? #0.2) && (k >=? #0.3))%bool; reflexivity.
Qed.

Lemma len_2009 dz zdr : length dz = length zdr ->
  length (fst (fst (calc_dsd_cband_bringi_2009 dz zdr))) = length dz /\
  length (snd (fst (calc_dsd_cband_bringi_2009 dz zdr))) = length dz /\
  length (snd (calc_dsd_cband_bringi_2009 dz zdr)) = length dz.
Proof. intro L. unfold calc_dsd_cband_bringi_2009; cbn [fst snd]. repeat split; pwlen. Qed.
Lemma len_2013 dz zdr : length dz = length zdr ->
  length (fst (fst (calc_dsd_sband_bringi_2013 dz zdr))) = length dz /\
  length (snd (fst (calc_dsd_sband_bringi_2013 dz zdr))) = length dz /\
  length (snd (calc_dsd_sband_bringi_2013 dz zdr)) = length dz.
Proof. intro L. unfold calc_dsd_sband_bringi_2013; cbn [fst snd]. repeat split; pwlen. Qed.
Lemma len_2004 dz zdr kdp : length dz = length zdr -> length dz = length kdp ->
  length (fst (fst (calc_dsd_sband_bringi_2004 dz zdr kdp))) = length dz /\
  length (snd (fst (calc_dsd_sband_bringi_2004 dz zdr kdp))) = length dz /\
  length (snd (calc_dsd_sband_bringi_2004 dz zdr kdp)) = length dz.
Proof. intros L L'. unfold calc_dsd_sband_bringi_2004; cbn [fst snd]. repeat split; pwlen. Qed.
End Gate.

Lemma g09_fin d r : g09_d0 (Fin d) (Fin r) = Fin (d0_2009 r).
Proof.
  unfold g09_d0, d0_2009. rewrite !lit_dec, flt_fin, !fle_fin.
  destruct (Rltb_spec (125/100) r), (Rlt_dec r (-5/10)), (Rle_dec r (125/100)); try lra.
  - rewrite d0_high_fin. f_equal. field.
  - destruct (Rleb_spec (-5/10) r); try lra. cbn [andb]. rewrite fmul_fin. f_equal. lra.
  - destruct (Rleb_spec (-5/10) r), (Rleb_spec r (125/100)); try lra. cbn [andb].
    rewrite d0_low_fin. f_equal. field.
Qed.
Lemma g13_fin d r : g13_d0 (Fin d) (Fin r) = Fin (d0_2013 r).
Proof.
  unfold g13_d0, d0_2013. rewrite !lit_dec, flt_fin, !fle_fin.
  destruct (Rleb_spec (1/1) r), (Rlt_dec r 1); try lra.
  - rewrite d0_high_fin. f_equal. field.
  - destruct (Rltb_spec r (1/1)); try lra. rewrite d0_low_fin. f_equal. field.
Qed.

Lemma d0_2013_pos r : 0 < d0_2013 r.
Proof.
  unfold d0_2013. destruct Rlt_dec as [H|H].
  - destruct (Rle_dec r 0).
    + assert (0 <= r^2) by nra. assert (r^3 <= 0) by nra. assert (0 <= r^4) by nra.
      assert (0 < 6125/10000 * r^2 + 457/1000 * r + 8808/10000) by nra. nra.
    + assert (0 <= r^4) by nra. assert (r^3 <= 1) by nra. assert (0 <= r^2) by nra. nra.
  - assert (0 < 536/10000 * (r * r) - 1971/10000 * r + 6261/10000) by nra.
    assert (0 < r * (536/10000 * (r * r) - 1971/10000 * r + 6261/10000))
      by (apply Rmult_lt_0_compat; lra). lra.
Qed.
Lemma d0_2009_pos r : -5/10 <= r -> 0 < d0_2009 r.
Proof.
  intro Hr. unfold d0_2009. destruct Rlt_dec; [lra|]. destruct Rle_dec as [H|H].
  - assert (S : 0 <= r * r) by nra.
    assert (C : 0 <= r * r * (125/100 - r)) by (apply Rmult_le_pos; lra).
    assert (Q : 0 <= (r * r) * (r * r)) by (apply Rmult_le_pos; lra).
    replace (r^4) with ((r*r)*(r*r)) by ring. replace (r^3) with (125/100*(r*r) - r*r*(125/100-r)) by ring.
    replace (r^2) with (r*r) by ring. lra.
  - pose proof (Rle_0_sqr (r - 4255/1000)) as Q. unfold Rsqr in Q.
    assert (0 < 355/10000 * (r * r) - 3021/10000 * r + 10556/10000) by lra.
    assert (0 < r * (355/10000 * (r * r) - 3021/10000 * r + 10556/10000))
      by (apply Rmult_lt_0_compat; lra). lra.
Qed.
Lemma linZ_pos x : 0 < linZ x. Proof. apply Rpower_pos. Qed.
Lemma linZ_gt1 x : 0 < x -> 1 < linZ x.
Proof. intro H. unfold linZ. rewrite <- (Rpower_O 10) by lra. apply Rpower10_lt. lra. Qed.

Lemma nw09_fin d r : -5/10 <= r ->
  fdiv (LiquidIce.linearize (Fin d)) (power_law (Fin (d0_2009 r)) (flit 0.056) (flit 7.319))
  = Fin (linZ d / (56/1000 * Rpower (d0_2009 r) (7319/1000))).
Proof.
  intro H. rewrite linearize_fin, !lit_dec, pl_pos by (now apply d0_2009_pos).
  apply fdiv_fin. pose proof (Rpower_pos (d0_2009 r) (7319/1000)). lra.
Qed.
Lemma nw13_fin d r :
  fdiv (fmul (flit 19.76) (LiquidIce.linearize (Fin d))) (power_law (Fin (d0_2013 r)) (flit 1) (flit 7.46))
  = Fin (1976/100 * linZ d / Rpower (d0_2013 r) (746/100)).
Proof.
  rewrite linearize_fin, !lit_dec, pl_pos by apply d0_2013_pos.
  pose proof (Rpower_pos (d0_2013 r) (746/100)).
  rewrite fmul_fin, fdiv_fin by lra. f_equal. field. lra.
Qed.
(** below -0.5 dB at C band: d0 = 0 and Nw is infinite *)
Lemma nw09_low d r : r < -5/10 ->
  fdiv (LiquidIce.linearize (Fin d)) (power_law (Fin (d0_2009 r)) (flit 0.056) (flit 7.319)) = PInf.
Proof.
  intro H. rewrite linearize_fin, !lit_dec. unfold d0_2009. destruct Rlt_dec; [|lra].
  unfold power_law. assert (E : fpow (Fin 0) (Fin (7319/1000)) = Fin 0).
  { cbn. unfold xpow_fin. destruct Req_EM_T; [lra|]. destruct Rlt_dec; [lra|].
    destruct Req_EM_T; [|lra]. destruct Rlt_dec; [auto|lra]. }
  rewrite E, fmul_fin. cbn. destruct Req_EM_T; [|lra]. unfold xinf.
  pose proof (linZ_pos d). destruct Rlt_dec; [auto|lra].
Qed.

(** ** 2004 *)
Lemma nwm_fin d d0 : 0 < d0 -> calc_Nw_mult_methods (Fin (linZ d)) (Fin d0) = Fin (nw_A17 d d0).
Proof.
  intro H. unfold calc_Nw_mult_methods. rewrite !lit_dec, pl_pos by auto.
  pose proof (Rpower_pos d0 (73529/10000)). rewrite fmul_fin, fdiv_fin by lra.
  unfold nw_A17. f_equal. field. lra.
Qed.
Lemma mu3_fin z : fadd (fmul (flit 0) (Fin z)) DEFAULT_MU = Fin 3.
Proof. unfold DEFAULT_MU. rewrite !lit_int, fmul_fin, fadd_fin. f_equal. ring. Qed.

Lemma d0_m4_pos d r : 0 < d0_m4 d r.
Proof. unfold d0_m4. pose proof (Rpower_pos (linZ d) (516/10000)). pose proof (Rpower_pos (linZ r) (3111/1000)).
  repeat apply Rmult_lt_0_compat; auto; lra. Qed.
Lemma d0_m2_pos r : 0 < d0_m2 r.
Proof. unfold d0_m2. pose proof (Rpower_pos r (486/1000)). lra. Qed.
Lemma d0_A18_pos d r : 2/10 <= r <= 5/10 -> 0 < d0_A18 d r.
Proof.
  intro H. unfold d0_A18. pose proof (d0_m2_pos r). pose proof (d0_m4_pos d r).
  replace ((r - 2/10) / (3/10)) with ((r - 2/10) * (10/3)) by field.
  replace ((5/10 - r) / (3/10)) with ((5/10 - r) * (10/3)) by field.
  set (w := (r - 2/10) * (10/3)). set (v := (5/10 - r) * (10/3)).
  assert (v = 1 - w) by (unfold v, w; field). assert (0 <= w <= 1) by (unfold w; lra).
  rewrite H2. destruct (Rle_dec w (1/2)); nra.
Qed.

Lemma m4_fin d r : dsd_sband_method4 (Fin (linZ d)) (Fin (linZ r))
  = (Fin (d0_m4 d r), Fin (nw_A17 d (d0_m4 d r)), Fin 3).
Proof.
  unfold dsd_sband_method4, d0_from_dz_zeta. rewrite !lit_dec, !fpow_pos by apply linZ_pos.
  rewrite !fmul_fin. fold (d0_m4 d r). rewrite nwm_fin by apply d0_m4_pos.
  rewrite <- fmul_fin. change (Fin (0/1)) with (@flit xr _ 0). rewrite mu3_fin. reflexivity.
Qed.
Lemma m2_fin d r : 0 < r -> dsd_sband_method2 (Fin (linZ d)) (Fin r)
  = (Fin (d0_m2 r), Fin (nw_A17 d (d0_m2 r)), Fin 3).
Proof.
  intro H. unfold dsd_sband_method2. rewrite mu3_fin, !lit_dec, pl_pos by auto. fold (d0_m2 r).
  now rewrite nwm_fin by apply d0_m2_pos.
Qed.
Lemma d0m3_fin d r : 0 < r -> calc_d0_sband_method3 (Fin (linZ d)) (Fin r) (Fin (linZ r))
  = Fin (d0_A18 d r / 10).
Proof.
  intro H. unfold calc_d0_sband_method3, d0_from_dz_zeta. rewrite !lit_dec, pl_pos by auto.
  rewrite !fpow_pos by apply linZ_pos. rewrite !fsub_fin, !fdiv_fin by lra.
  rewrite !fmul_fin, fadd_fin. f_equal. unfold d0_A18, d0_m2, d0_m4. field.
Qed.
Lemma m3_fin d r : 2/10 <= r <= 5/10 -> dsd_sband_method3 (Fin (linZ d)) (Fin r) (Fin (linZ r))
  = (Fin (d0_A18 d r / 10), Fin (nw_A17 d (d0_A18 d r / 10)), Fin 3).
Proof.
  intro H. unfold dsd_sband_method3. rewrite mu3_fin, d0m3_fin by lra.
  rewrite nwm_fin; auto. pose proof (d0_A18_pos d r H). lra.
Qed.

Lemma beta_fin d k r : 0 < k ->
  calc_beta (Fin (linZ d)) (Fin k) (Fin (linZ r)) = Fin (beta_2004 d k r).
Proof.
  intro H. unfold calc_beta. rewrite !lit_dec. rewrite !fpow_pos by (auto using linZ_pos).
  rewrite !fmul_fin. reflexivity.
Qed.
Lemma beta_pos d k r : 0 < beta_2004 d k r.
Proof.
  unfold beta_2004. repeat apply Rmult_lt_0_compat; try apply Rpower_pos; lra.
Qed.
Lemma m1_fin d r k : 0 < k -> 0 < r ->
  dsd_sband_method1 (Fin (linZ d)) (Fin (linZ r)) (calc_beta (Fin (linZ d)) (Fin k) (Fin (linZ r)))
  = (Fin (D0 (m1 d r k)), Fin (NW (m1 d r k)), Fin (MU (m1 d r k))).
Proof.
  intros Hk Hr. rewrite beta_fin by auto. pose proof (beta_pos d k r) as Hb.
  set (be := beta_2004 d k r) in *.
  assert (E0 : calc_d0_sband_method1 (Fin (linZ d)) (Fin (linZ r)) (Fin be) = Fin (D0 (m1 d r k))).
  { unfold calc_d0_sband_method1, d0_from_dz_zeta. rewrite !lit_dec, pl_pos by auto.
    rewrite !fpow_pos by apply linZ_pos. rewrite !fmul_fin. reflexivity. }
  assert (P0 : 0 < D0 (m1 d r k)).
  { cbn. repeat apply Rmult_lt_0_compat; try apply Rpower_pos; lra. }
  unfold dsd_sband_method1. rewrite E0. f_equal; [f_equal|].
  - unfold calc_logNw_sband_method1. rewrite !lit_dec, pl_pos by auto.
    rewrite !fpow_pos by apply linZ_pos. rewrite !fmul_fin.
    rewrite fpow_pos by lra. unfold m1. cbn [NW]. fold be. f_equal. f_equal. field.
  - unfold calc_mu_sband_method1. rewrite !lit_dec, !pl_pos by auto using linZ_pos.
    rewrite fpow_pos by auto. rewrite fsub_fin. pose proof (linZ_gt1 r Hr).
    rewrite fdiv_fin by lra. rewrite fmul_fin, fsub_fin. unfold m1. cbn [MU D0]. fold be.
    f_equal. f_equal. f_equal; [f_equal; field|]. f_equal. f_equal. field.
Qed.

(** the value at a gate, for finite inputs *)
Definition spec_2004 (d r k : R) : dsd_point :=
  match select_2004 d r k with
  | Some M1 => m1 d r k
  | Some M2 => {| D0 := d0_m2 r; NW := nw_A17 d (d0_m2 r); MU := 3 |}
  | Some M3 => {| D0 := d0_A18 d r / 10; NW := nw_A17 d (d0_A18 d r / 10); MU := 3 |}
  | Some M4 => {| D0 := d0_m4 d r; NW := nw_A17 d (d0_m4 d r); MU := 3 |}
  | None => {| D0 := 0; NW := 0; MU := 0 |}
  end.
Lemma g04_fin d r k : g04 (Fin d) (Fin r) (Fin k) =
  (Fin (D0 (spec_2004 d r k)), Fin (NW (spec_2004 d r k)), Fin (MU (spec_2004 d r k))).
Proof.
  unfold g04, spec_2004, select_2004. rewrite !linearize_fin, !lit_dec, !flt_fin, !fle_fin.
  destruct (Rle_dec (3/10) k) as [Hk|Hk].
  - destruct (Rltb_spec k (3/10)); [lra|]. rewrite !andb_false_r. cbn [andb].
    destruct (Rleb_spec (3/10) k); [|lra]. rewrite andb_true_r.
    destruct (Rleb_spec (35/1) d), (Rle_dec 35 d); try lra; cbn [andb].
    + destruct (Rleb_spec (2/10) r), (Rle_dec (2/10) r); try lra.
      * rewrite m1_fin by lra. reflexivity.
      * rewrite fmul_fin. cbn. do 2 f_equal; f_equal; f_equal; lra.
    + rewrite fmul_fin. cbn. do 2 f_equal; f_equal; f_equal; lra.
  - destruct (Rltb_spec k (3/10)); [|lra]. rewrite !andb_true_r. cbn [andb].
    destruct (Rleb_spec (3/10) k); [lra|]. rewrite andb_false_r.
    destruct (Rleb_spec (-5/10) r), (Rltb_spec r (2/10)), (Rleb_spec (2/10) r),
      (Rltb_spec r (5/10)), (Rleb_spec (5/10) r), (Rle_dec (5/10) r), (Rle_dec (2/10) r), (Rle_dec (-5/10) r);
      try lra; cbn [andb].
    + rewrite m4_fin; reflexivity.
    + rewrite m3_fin by lra; reflexivity.
    + rewrite m2_fin by lra; reflexivity.
    + rewrite fmul_fin. cbn. do 2 f_equal; f_equal; f_equal; lra.
Qed.
