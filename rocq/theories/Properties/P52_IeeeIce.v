(** * C113: the liquid/ice partition and the S-band ice test in double precision *)
From Coq Require Import Reals Lra Lia ZArith QArith Qreals String.
From Flocq Require Import Core IEEE754.BinarySingleNaN.
From Verif Require Import Base.Num Base.ListFacts Base.XReal Base.Ieee Base.RelErr Spec.IeeeSpec.
From Verif Require Import Model.Common Model.LiquidIce Model.BlendedRain.
From Verif Require Import Spec.RainSpec Spec.RainDefaultSpec Spec.LiquidIceSpec.
From Verif Require Import Proofs.RainProofs Proofs.LiquidIceProofs Proofs.IeeeSign Proofs.IeeeRain Proofs.BetaErr Proofs.FundErr Proofs.IceErr Proofs.MassErr Proofs.BlendErr.
From Verif Require Import Properties.P02_Rain Properties.P28_Ieee Properties.P34_IeeeRain Properties.P51_IeeeFund Spec.LibmSpec.
Open Scope R_scope.
#[local] Existing Instances p53 e1024 p24 e128.

(** the rain line Zdp -> dBZ in use: the default, or the caller's two doubles *)
Definition fits (a b : option double) (A B : R) : Prop :=
  a = None /\ A = 0.8178 /\ B = 12.5088 \/
  exists fa fb, a = Some fa /\ b = Some fb /\ denotes fa A /\ denotes fb B /\ Rabs A <= 4 /\ Rabs B <= 100.

(** gate i: reflectivity, differential reflectivity (not within 0.01 dB of 0), height *)
Record gate (dz zdr z : arr double) (i : nat) (d r h : R) : Prop := {
  g_dz : exists x, nth_error (adata dz) i = Some x /\ denotes x d;
  g_zdr : exists x, nth_error (adata zdr) i = Some x /\ denotes x r;
  g_z : exists x, nth_error (adata z) i = Some x /\ denotes x h;
  g_dz_range : (d = 0 \/ exp (-300) <= Rabs d) /\ Rabs d <= 100;
  g_zdr_range : 0.01 <= Rabs r <= 20;
  g_z_range : Rabs h <= 1000 }.

Section Acc.
Variables (np1 : bool) (lm : libm double).
Hypothesis Acc : libm_accurate lm.
#[local] Instance dop : FloatOps double := double_ops np1 lm.

Lemma within_wk e e' x v : e <= e' -> within e x v -> within e' x v.
Proof. intros L (w & W & D). exists w. split; auto. pose proof (Rabs_pos v). nra. Qed.
Lemma fits_ok a b A B : fits a b A B -> exists fa fb, li_fits a b = Ok (fa, fb) /\
  HidErr.near (1 / 10 ^ 13) fa A /\ HidErr.near (1 / 10 ^ 13) fb B /\ Rabs A <= 4 /\ Rabs B <= 100.
Proof.
  intros [(-> & -> & ->)|(fa & fb & -> & -> & HA & HB & BA & BB)].
  - exists (flit 0.8178%Q), (flit 12.5088%Q). split; [destruct b; reflexivity|].
    rewrite !Rabs_pos_eq by lra. split; [|split; [|lra]]; apply (N_lit np1 lm);
      try (cbn [Qnum Qden]; lra); rewrite Rabs_pos_eq by lra; unfold HidErr.ud, HidErr.taud; lra.
  - exists fa, fb. split; [reflexivity|]. split; [|split; [|auto]]; eexists; (split; [eassumption|]);
      rewrite Rminus_diag_eq, Rabs_R0 by reflexivity; lra.
Qed.

Theorem C113_masses :
  forall pf (dz zdr z : arr double) T (hf : double) f meth a b A B,
  length (adata zdr) = length (adata dz) -> length (adata z) = length (adata dz) ->
  (T = ANone \/ exists t, T = AArr t) ->
  fits a b A B -> denotes hf f -> Rabs f <= 1000 ->
  exists w ic, calc_liquid_ice_mass pf (AArr dz) (AArr zdr) (AArr z) T (Some hf) meth a b
      = Ok (RArr (ashape dz) w, RArr (ashape dz) ic) /\
    forall i d r h, gate dz zdr z i d r h ->
      let above := excess A B d r - delta_threshold f h in
      exists x y, nth_error w i = Some x /\ nth_error ic i = Some y /\
        (above <= - (1 / 10 ^ 9) -> denotes y 0) /\
        (1 / 10 ^ 9 <= above -> within (1 / 10 ^ 9) y (ice_of (Z_ice A B d r))) /\
        (r < 0 -> denotes x 0) /\
        (0 < r -> above <= - (1 / 10 ^ 9) -> within (1 / 10 ^ 12) x (water_all_rain (Zh d) (Zv d r))) /\
        (0 < r -> 1 / 10 ^ 9 <= above -> excess A B d r <= 60 ->
           within (1 / 10 ^ 9 * Rpower 10 (excess A B d r / 10)) x (water_of (Z_rain A B d r))).
Proof.
  intros pf dz zdr z T hf f meth a b A B Lr Lz HT HF Hf Bf.
  destruct (fits_ok a b A B HF) as (fa & fb & Fi & NA & NB & BA & BB).
  destruct (liquid_ice_gate (adata dz) (adata zdr) (get_delta_thresh (adata z) hf) a b fa fb Fi Lr) as (w & ic & E & _ & _ & G).
  { now rewrite thresh_len. }
  exists w, ic. split.
  { unfold calc_liquid_ice_mass. destruct HT as [-> |(t & ->)]; cbn [bind get_hfrz]; rewrite Lr, Lz, !Nat.eqb_refl; cbn [negb]; rewrite E; reflexivity. }
  intros i d r h [(xd & Ed & Vd) (xr' & Er & Vr) (xh & Eh & Vh) (Td & Ud) Rr Rh] above.
  destruct (G i xd xr' (g_thresh xh hf) Ed Er (thresh_nth _ _ _ _ Eh)) as (G1 & G2).
  assert (Rr' : 1 / 100 <= Rabs r <= 20) by lra.
  exists (g_water fa fb (g_thresh xh hf) xd xr'), (g_ice fa fb (g_thresh xh hf) xd xr').
  split; [exact G1|]. split; [exact G2|]. clear G1 G2 G E.
  split; [|split; [|split; [|split]]].
  - intro M. exact (ice_below np1 lm Acc fa fb xd xr' A B d r NA NB BA BB Vd Td Ud Vr Rr' xh hf h f Vh Hf Rh Bf M).
  - intro M. exact (ice_above np1 lm Acc fa fb xd xr' A B d r NA NB BA BB Vd Td Ud Vr Rr' xh hf h f Vh Hf Rh Bf M).
  - intro N. exact (water_negative np1 lm fa fb xd xr' r Vr xh hf N).
  - intros P M. apply (water_below np1 lm Acc fa fb xd xr' A B d r NA NB BA BB Vd Td Ud Vr Rr' xh hf h f Vh Hf Rh Bf); [lra|exact M].
  - intros P M L. apply (water_above np1 lm Acc fa fb xd xr' A B d r NA NB BA BB Vd Td Ud Vr Rr' xh hf h f Vh Hf Rh Bf); [lra|exact M|exact L].
Qed.

(** calc_blended_rain, S band, default keywords: away from the ice test's
    boundary (and from Zdr = 0) method and rate are those of exact arithmetic *)
Theorem C113_blended_S (dz zdr kdp : arr double) ice_flag : double_fields dz zdr kdp ->
  exists out, calc_blended_rain (AArr dz) (AArr zdr) (AArr kdp) ice_flag "S" rain_defaults
      = Ok (RainArr (ashape dz) out) /\
    forall i d r k, measured dz zdr kdp i d r k ->
      0.01 <= Rabs r -> 1 / 10 ^ 9 <= Rabs (ice_frac d r - 0.1) ->
      let (m, v) := blended_S d r k in
      nth_error (out_meth out) i = Some m /\
      exists y, nth_error (out_rain out) i = Some y /\
        within (if (m =? 5)%Z then 1 / 10 ^ 9 else 1 / 10 ^ 13) y v.
Proof.
  intros (T & S1 & S2 & O1 & O2 & O3).
  destruct (C08_blended_S_decision_tree dz zdr kdp ice_flag (rain_defaults (F:=double)) (flit 0.9091%Q) (flit 8.5091%Q) S1 S2 O1 O2 O3)
    as (out & E & _ & _ & _ & D); [now apply line_cr1995|].
  exists out. split; [exact E|]. intros i d r k [(x & Ex & X) (w & Ew & W) (z & Ez & Z) Rd Rr Rk] Lr Gap.
  destruct (D i _ _ _ Ex Ew Ez) as (D1 & D2 & _). clear D E.
  rewrite T in D2. unfold cast in D2. cbn [thresh_frac_ice thresh_dz thresh_kdp thresh_zdr rain_defaults] in D1, D2.
  assert (NA : HidErr.near (1 / 10 ^ 13) (flit 0.9091%Q : double) 0.9091).
  { apply (N_lit np1 lm); [cbn [Qnum Qden]; lra| |]; rewrite Rabs_pos_eq by lra; unfold HidErr.ud, HidErr.taud; lra. }
  assert (NB : HidErr.near (1 / 10 ^ 13) (flit 8.5091%Q : double) 8.5091).
  { apply (N_lit np1 lm); [cbn [Qnum Qden]; lra| |]; rewrite Rabs_pos_eq by lra; unfold HidErr.ud, HidErr.taud; lra. }
  destruct Rd as (Td & Ud), Rr as (Tr & Ur).
  assert (Rr' : 1 / 100 <= Rabs r <= 20) by lra.
  assert (BA : Rabs 0.9091 <= 4) by (rewrite Rabs_pos_eq; lra). assert (BB : Rabs 8.5091 <= 100) by (rewrite Rabs_pos_eq; lra).
  pose proof (icefree_decided np1 lm Acc _ _ x w _ _ d r NA NB BA BB X Td Ud W Rr' Gap) as IC.
  destruct (rain_dbz_near np1 lm Acc _ _ x w _ _ d r NA NB BA BB X Td Ud W Rr') as (RD & BD).
  pose proof (nexrad_at_near np1 lm Acc _ _ _ RD ltac:(lra) ltac:(lra)) as R5.
  change (1 - ratio 0.9091 8.5091 d r) with (ice_frac d r) in IC.
  change (0.9091 * Zdp_dB d r + 8.5091) with (rain_dBZ d r) in R5.
  set (icf := flt _ (flit 0.1%Q)) in D1, D2.
  assert (IC' : icf = if Rlt_dec (ice_frac d r) 0.1 then true else false) by exact IC.
  rewrite IC' in D1, D2. clear IC IC' icf.
  assert (C38 : fle (flit 38%Q) x = Rleb 38 d) by exact (le38 np1 lm x d X).
  assert (C03 : fle (flit 0.3%Q) z = Rleb 0.3 k) by exact (le03 np1 lm z k Z).
  assert (C05 : fle (flit 0.5%Q) w = Rleb 0.5 r) by exact (le05 np1 lm w r W).
  rewrite C38, C03, C05 in D1, D2.
  pose proof (acc_pow lm Acc) as PA.
  unfold blended_S.
  destruct (Rleb_spec 38 d), (Rleb_spec 0.3 k), (Rleb_spec 0.5 r), (Rle_dec 38 d), (Rle_dec 0.3 k), (Rle_dec 0.5 r); try lra;
    destruct (Rlt_dec (ice_frac d r) 0.1); cbn [blended_S_method andb rate_of_method r_z_a r_z_b r_kdp_a r_kdp_b r_z_zdr_a
        r_z_zdr_b r_z_zdr_c r_kdp_zdr_a r_kdp_zdr_b r_kdp_zdr_c thresh_nexrad rain_defaults] in D1, D2;
    (split; [exact D1|]); eexists; (split; [exact D2|]); cbn [Z.eqb Pos.eqb].
  all: lazymatch goal with
  | |- within _ (R_Z_capped _ _ _ (fmul _ _)) _ => apply (within_wk (5 / 10 ^ 10)); [lra|exact R5]
  | |- within _ (R_Z_capped _ _ _ _) _ => apply (nexrad_near np1 lm PA)
  | |- within _ (R_Kdp _ _ _) _ => apply (by_kdp_near np1 lm PA)
  | |- within _ (R_Kdp_Zdr _ _ _ _ _) _ => apply (by_kdp_zdr_near np1 lm PA)
  | |- within _ (R_Z_Zdr _ _ _ _ _) _ => apply (by_z_zdr_near np1 lm PA)
  end; try (split; assumption); auto; lra.
Qed.
End Acc.

(** ** The hypotheses are met *)
Example ex113_libm : libm_accurate lm_fine. Proof. exact lm_fine_accurate. Qed.
Definition ex113_dz := mkarr DFloat [2%nat] [dl 50; dl 0].
Definition ex113_zdr := mkarr DFloat [2%nat] [dl 1; dl 20].
Definition ex113_z := mkarr DFloat [2%nat] [dl 6; dl 6].
Lemma small_h : 0.01 <= 1. Proof. lra. Qed.
Example ex113_gates : gate ex113_dz ex113_zdr ex113_z 0 50 1 6 /\ gate ex113_dz ex113_zdr ex113_z 1 0 20 6.
Proof.
  pose proof one_big as B. split; split;
    try (eexists; (split; [reflexivity|]); apply val_int; cbn; lia);
    try (rewrite ?Rabs_R0, ?Rabs_pos_eq by lra; split; [(right; lra) || (left; reflexivity)|lra]);
    rewrite Rabs_pos_eq by lra; lra.
Qed.
(** the caller's line dBZ = 0: the first gate is mostly ice above the freezing level 4 *)
Example ex113_ice : fits (Some (dl 0)) (Some (dl 0)) 0 0 /\ 1 / 10 ^ 9 <= excess 0 0 50 1 - delta_threshold 4 6 /\ excess 0 0 50 1 <= 60.
Proof.
  assert (E : excess 0 0 50 1 = 50). { unfold excess. rewrite Rmult_0_l. unfold Rmax. destruct Rle_dec; lra. }
  rewrite E. unfold delta_threshold. destruct Rle_dec; [lra|]. split; [|lra].
  right. exists (dl 0), (dl 0). split; auto. split; auto. rewrite Rabs_R0. repeat split; try lra; apply (val_int 0); cbn; lia.
Qed.
Lemma Zdp_ex : -0.1 <= Zdp_dB 0 20 <= 0.
Proof.
  unfold Zdp_dB, Zlin. replace (0 / 10) with 0 by field. rewrite Rpower_O by lra.
  replace (20 / 10) with (INR 2) by (simpl; lra). rewrite Rpower_pow by lra. simpl pow.
  destruct Rle_dec; [lra|]. replace (1 - 1 / (10 * (10 * 1))) with 0.99 by lra. unfold lg.
  assert (L : - (1 / 99) <= ln 0.99 <= 0).
  { split.
    - replace 0.99 with (/ (100 / 99)) by lra. rewrite ln_Rinv by lra. apply Ropp_le_contravar.
      apply Rle_trans with (ln (exp (1 / 99))); [|rewrite ln_exp; lra]. destruct (exp_ge (1 / 99)) as [G|G].
      + left. apply ln_increasing; lra.
      + rewrite <- G. right. f_equal. lra.
    - rewrite <- ln_1. left. apply ln_increasing; lra. }
  pose proof ln10_range as L10. assert (I10 : 0 < / ln 10 <= / 2) by (split; [apply Rinv_0_lt_compat|apply Rinv_le_contravar]; lra).
  unfold Rdiv. nra.
Qed.
(** with the default line the second gate is all rain *)
Example ex113_rain : fits None None 0.8178 12.5088 /\ excess 0.8178 12.5088 0 20 - delta_threshold 4 6 <= - (1 / 10 ^ 9).
Proof.
  split; [left; auto|]. pose proof Zdp_ex as Z. unfold excess, delta_threshold. change (Zdp 0 20) with (Zdp_dB 0 20).
  unfold Rmax. destruct (Rle_dec 6 4), (Rle_dec 0 _); lra.
Qed.
Definition ex113_kdp := mkarr DFloat [2%nat] [dl 1; dl 1].
(** and is free of ice for the blended algorithm: method 3 *)
Example ex113_blended : double_fields ex113_dz ex113_zdr ex113_kdp /\ measured ex113_dz ex113_zdr ex113_kdp 1 0 20 1 /\
  0.01 <= Rabs 20 /\ 1 / 10 ^ 9 <= Rabs (ice_frac 0 20 - 0.1) /\ fst (blended_S 0 20 1) = 3%Z.
Proof.
  pose proof Zdp_ex as Z. assert (I : ice_frac 0 20 <= 0).
  { unfold ice_frac. assert (E : Zlin 0 = 1) by (unfold Zlin; replace (0 / 10) with 0 by field; apply Rpower_O; lra).
    rewrite E. assert (1 <= Zlin (rain_dBZ 0 20)); [|lra]. rewrite <- (Rpower_O 10) by lra. unfold Zlin, Rpower. apply exp_le_mono.
    pose proof ln10_range. unfold rain_dBZ. nra. }
  split; [repeat split|]. split.
  - split; try (eexists; (split; [reflexivity|]); apply val_int; cbn; lia).
    + eexists. split; [reflexivity|]. right. unfold ex113_kdp, dl. rewrite (val_int 1 ltac:(cbn; lia)). split; [reflexivity|].
      intro E. destruct (reads_apx (dl 0.3) 0.3) as ((e & De & X) & _); [left; split; auto|lra|].
      * unfold dl. rewrite val_lit. cbn [Qnum Qden]. f_equal; lra.
      * unfold dl in X. rewrite val_lit in X. cbn [Qnum Qden] in X. replace (3 / 10) with 0.3 in X by lra.
        rewrite <- E in X. injection X as X. pose proof eta_small. pose proof (exp_near e eta De ltac:(lra)) as Y.
        apply Rabs_le_inv in Y. lra.
    + split; [now left|]. rewrite Rabs_R0; lra.
    + split; [right|]; rewrite Rabs_pos_eq by lra; [|lra]. pose proof one_big. lra.
    + lra.
  - split; [rewrite Rabs_pos_eq; lra|]. split; [rewrite Rabs_left; lra|].
    unfold blended_S. destruct (Rle_dec 38 0); [lra|]. destruct (Rlt_dec (ice_frac 0 20) 0.1); [|lra]. destruct (Rle_dec 0.5 20); [reflexivity|lra].
Qed.
