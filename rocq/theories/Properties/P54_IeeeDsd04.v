(** * C114, continued: the 2004 drop-size retrievals in double precision *)
From Coq Require Import Reals Lra Lia ZArith QArith Qreals String.
From Flocq Require Import Core IEEE754.BinarySingleNaN.
From Verif Require Import Base.Num Base.ListFacts Base.XReal Base.Ieee Base.RelErr Spec.IeeeSpec Spec.LibmSpec.
From Verif Require Import Model.Common Model.Dsd Spec.DsdSpec.
From Verif Require Import Proofs.IeeeSign Proofs.IeeeRain Proofs.EdgeRain Proofs.BetaErr Proofs.HidErr Proofs.IceErr Proofs.MassErr Proofs.DsdProofs Proofs.DsdErr Proofs.DsdErr04 Proofs.DsdErr04M1.
From Verif Require Import Properties.P28_Ieee Properties.P51_IeeeFund Properties.P53_IeeeDsd.
Open Scope R_scope.
#[local] Existing Instances p53 e1024 p24 e128.

(** farther than 10^-9 from a branch point that no double represents *)
Definition off (c v : R) : Prop := 1 / 10 ^ 9 <= Rabs (v - c).

(** gate i, with a finite Kdp as well, off the two inexact branch points *)
Record gate3 (dz zdr kdp : arr double) (i : nat) (d r k : R) : Prop := {
  g3_gate : gate2 dz zdr i d r;
  g3_kdp : exists x, nth_error (adata kdp) i = Some x /\ denotes x k;
  g3_r : off 0.2 r;
  g3_k : off 0.3 k }.

Section Acc.
Variables (np1 : bool) (lm : libm double).
Hypothesis Acc : pow_accurate lm.
#[local] Instance dop : FloatOps double := double_ops np1 lm.

Lemma cmpl q c (y : double) v : dval (flit q : double) = Fin c -> dval y = Fin v -> fle (flit q) y = Rleb c v.
Proof. exact (cmp_le np1 lm q c y v). Qed.
Lemma cmpt q c (y : double) v : dval (flit q : double) = Fin c -> dval y = Fin v -> flt y (flit q) = Rltb v c.
Proof. exact (cmp_lt np1 lm q c y v). Qed.
Lemma lit_off q c : IZR (Qnum q) / IZR (Zpos (Qden q)) = c -> 0 <= c <= 1 ->
  exists c', dval (flit q : double) = Fin c' /\ Rabs (c' - c) < 1 / 10 ^ 9.
Proof.
  intros E B. assert (N : near (1 / 10 ^ 14) (flit q : double) c).
  { apply (N_lit np1 lm q c); auto; rewrite Rabs_pos_eq by lra; unfold ud, taud; lra. }
  destruct N as (v & V & D). exists v. split; [exact V|lra].
Qed.
Lemma off_cases c v : off c v -> v <= c - 1 / 10 ^ 9 \/ c + 1 / 10 ^ 9 <= v.
Proof. unfold off, Rabs. destruct Rcase_abs; intro; lra. Qed.
Lemma ab_pos e L (x : double) X : ab e L x X -> 0 < X. Proof. intros (_ & P). now apply pb_pos with L. Qed.
Lemma ab_within e k L (x : double) X : ab e L x X -> e <= 1 / 10 -> 10 / 9 * e <= k -> within k x X.
Proof. intros (A & _) E K. now apply apx_within with e. Qed.
Lemma zero_mul (x : double) d : dval x = Fin d -> denotes (fmul (flit 0%Q) x : double) 0.
Proof. intro X. refine (eq_trans (r_mul np1 lm _ x 0 d (z0 np1 lm) X) _). apply rnd_zero. ring. Qed.

(** S band, Bringi et al. (2004): any method but "2013" *)
Theorem C114_2004 (dz zdr kdp : arr double) meth : meth <> "2013"%string -> ashape dz = ashape zdr -> ashape dz = ashape kdp ->
  exists d0 nw mu, calc_dsd (AArr dz) (AArr zdr) (AArr kdp) "S" meth = Ok (DsdArr (ashape dz) d0 nw mu) /\
    forall i d r k, gate3 dz zdr kdp i d r k ->
      exists a b c, nth_error d0 i = Some a /\ nth_error nw i = Some b /\ nth_error mu i = Some c /\
        (k < 0.3 -> 0.5 <= r ->
           within (1 / 10 ^ 12) a (d0_m2 r) /\ within (1 / 10 ^ 11) b (nw_A17 d (d0_m2 r)) /\ denotes c 3) /\
        (k < 0.3 -> 0.2 < r < 0.5 ->
           within (1 / 10 ^ 9) a (d0_A18 d r / 10) /\ within (1 / 10 ^ 8) b (nw_A17 d (d0_A18 d r / 10)) /\ denotes c 3) /\
        (k < 0.3 -> -0.5 <= r < 0.2 ->
           within (1 / 10 ^ 12) a (d0_m4 d r) /\ within (1 / 10 ^ 11) b (nw_A17 d (d0_m4 d r)) /\ denotes c 3) /\
        (k < 0.3 /\ r < -0.5 \/ 0.3 < k /\ (d < 35 \/ r < 0.2) -> denotes a 0 /\ denotes b 0 /\ denotes c 0).
Proof.
  intros Hm S S'. unfold calc_dsd. cbn [check_for_array as_array bind].
  rewrite <- S, <- S', !shape_eqb_refl. cbn [andb negb String.eqb Ascii.eqb Bool.eqb].
  destruct (String.eqb_spec meth "2013") as [E|_]; [contradiction|].
  destruct (calc_dsd_sband_bringi_2004 (adata dz) (adata zdr) (adata kdp)) as [[d0 nw] mu] eqn:E. cbn [bind].
  exists d0, nw, mu. split; [reflexivity|].
  intros i d r k [[(x & Ex & X) (w & Ew & W) (T & U) (Tr & Ur)] (v & Ev & V) Or Ok].
  destruct (gate_2004 _ _ _ _ _ _ _ Ex Ew Ev) as (G1 & G2 & G3). rewrite E in G1, G2, G3. cbn [fst snd] in G1, G2, G3.
  eexists; eexists; eexists. split; [exact G1|]. split; [exact G2|]. split; [exact G3|].
  assert (L5 : dval (flit 0.5%Q : double) = Fin (5 / 10)).
  { change (dval (b_lit 53 1024 p53 e1024 0.5%Q) = Fin (5 / 10)). rewrite (val_sf _ false 4503599627370496 (-53)) by (vm_compute; reflexivity). f_equal. unfold F2R. cbn. lra. }
  destruct (lit_off 0.2%Q 0.2 ltac:(cbn [Qnum Qden]; lra) ltac:(lra)) as (c2 & L2 & D2).
  destruct (lit_off 0.3%Q 0.3 ltac:(cbn [Qnum Qden]; lra) ltac:(lra)) as (c3 & L3 & D3).
  apply Rabs_def2 in D2, D3. apply off_cases in Or, Ok.
  unfold g04. cbv zeta.
  rewrite (cmpl _ _ w r lit_mhalf W), (cmpt _ _ w r L2 W), (cmpl _ _ w r L2 W),
    (cmpt _ _ w r L5 W), (cmpl _ _ w r L5 W), (cmpt _ _ v k L3 V), (cmpl _ _ v k L3 V),
    (cmpl 35%Q 35 x d (lit_int 35 ltac:(lia)) X).
  destruct (lin_z np1 lm Acc x d X T U) as ((dl' & _ & Xl) & _). assert (M := mu_three np1 lm _ _ Xl). assert (Z0 := zero_mul x d X). pose proof eta_num. pose proof eta_pos.
  assert (Tn : nt r).
  { destruct Tr as [-> |Tr]; [now left|right]. apply Rle_trans with (2 := Tr). apply exp_le_mono. lra. }
  split; [|split; [|split]].
  - intros K R. destruct (Rleb_spec (-5 / 10) r), (Rltb_spec r c2), (Rltb_spec k c3), (Rleb_spec c2 r), (Rltb_spec r (5 / 10)), (Rleb_spec (5 / 10) r); try lra.
    cbn [andb fst snd dsd_sband_method2].
    assert (A := m2_ab np1 lm Acc w r W Ur ltac:(lra)).
    split; [apply (ab_within _ _ _ _ _ A); lra|]. split; [|exact M].
    destruct (nw_ab np1 lm Acc x d X T U _ _ _ _ A ltac:(lra) ltac:(lra)) as (y & Y & D). exists y. split; [exact Y|].
    apply Rle_trans with (1 := D). apply Rmult_le_compat_r; [apply Rabs_pos|lra].
  - intros K R. destruct (Rleb_spec (-5 / 10) r), (Rltb_spec r c2), (Rltb_spec k c3), (Rleb_spec c2 r), (Rltb_spec r (5 / 10)), (Rleb_spec (5 / 10) r); try lra.
    cbn [andb fst snd dsd_sband_method3].
    assert (A := m3_ab np1 lm Acc x w d r X T U W Tn Ur ltac:(lra)).
    split; [apply (ab_within _ _ _ _ _ A); lra|]. split; [|exact M].
    destruct (nw_ab np1 lm Acc x d X T U _ _ _ _ A ltac:(lra) ltac:(lra)) as (y & Y & D). exists y. split; [exact Y|].
    apply Rle_trans with (1 := D). apply Rmult_le_compat_r; [apply Rabs_pos|lra].
  - intros K R. destruct (Rleb_spec (-5 / 10) r), (Rltb_spec r c2), (Rltb_spec k c3); try lra.
    cbn [andb fst snd dsd_sband_method4].
    assert (A := m4_ab np1 lm Acc x w d r X T U W Tn Ur).
    split; [apply (ab_within _ _ _ _ _ A); lra|]. split; [|exact M].
    destruct (nw_ab np1 lm Acc x d X T U _ _ _ _ A ltac:(lra) ltac:(lra)) as (y & Y & D). exists y. split; [exact Y|].
    apply Rle_trans with (1 := D). apply Rmult_le_compat_r; [apply Rabs_pos|lra].
  - intro K. destruct (Rleb_spec (-5 / 10) r), (Rltb_spec r c2), (Rltb_spec k c3), (Rleb_spec c2 r), (Rltb_spec r (5 / 10)), (Rleb_spec (5 / 10) r),
      (Rleb_spec 35 d), (Rleb_spec c3 k); try lra; cbn [andb fst snd]; auto.
Qed.

(** the gates of method 1 (A.11 to A.13): [m1] is the specification of C27; mu is
    a difference of two positive terms, so its error is relative to their sum *)
Definition mu_terms (d r k : R) : R * R :=
  let be := beta_2004 d k r in
  (203 * Rpower be 1.89 * (Rpower (D0 (m1 d r k)) (2.23 * Rpower be 0.0388) / (linZ r - 1)),
   3.16 * Rpower be (-0.0463) * Rpower (linZ r) (0.374 * Rpower be (-0.355))).
Theorem C114_2004_m1 (dz zdr kdp : arr double) meth : meth <> "2013"%string -> ashape dz = ashape zdr -> ashape dz = ashape kdp ->
  exists d0 nw mu, calc_dsd (AArr dz) (AArr zdr) (AArr kdp) "S" meth = Ok (DsdArr (ashape dz) d0 nw mu) /\
    forall i d r k, gate3 dz zdr kdp i d r k -> 35 <= d -> 0.2 < r -> 0.3 < k <= 1000 -> 0.01 <= beta_2004 d k r <= 10 ->
      exists a b c v, nth_error d0 i = Some a /\ nth_error nw i = Some b /\ nth_error mu i = Some c /\
        within (1 / 10 ^ 11) a (D0 (m1 d r k)) /\ within (1 / 10 ^ 9) b (NW (m1 d r k)) /\
        denotes c v /\ Rabs (v - MU (m1 d r k)) <= 1 / 10 ^ 10 * (fst (mu_terms d r k) + snd (mu_terms d r k)) /\
        MU (m1 d r k) = fst (mu_terms d r k) - snd (mu_terms d r k) /\ 0 < fst (mu_terms d r k) /\ 0 < snd (mu_terms d r k).
Proof.
  intros Hm S S'. unfold calc_dsd. cbn [check_for_array as_array bind].
  rewrite <- S, <- S', !shape_eqb_refl. cbn [andb negb String.eqb Ascii.eqb Bool.eqb].
  destruct (String.eqb_spec meth "2013") as [E|_]; [contradiction|].
  destruct (calc_dsd_sband_bringi_2004 (adata dz) (adata zdr) (adata kdp)) as [[d0 nw] mu] eqn:E. cbn [bind].
  exists d0, nw, mu. split; [reflexivity|].
  intros i d r k [[(x & Ex & X) (w & Ew & W) (T & U) (Tr & Ur)] (v & Ev & V) Or Ok] D35 R2 K3 HB.
  destruct (gate_2004 _ _ _ _ _ _ _ Ex Ew Ev) as (G1 & G2 & G3). rewrite E in G1, G2, G3. cbn [fst snd] in G1, G2, G3.
  assert (Tn : nt r).
  { destruct Tr as [-> |Tr]; [now left|right]. apply Rle_trans with (2 := Tr). apply exp_le_mono. lra. }
  assert (HB' : 1 / 100 <= beta_2004 d k r <= 10) by lra.
  destruct (mu_m1 np1 lm Acc x w v d r k X T U W Tn Ur ltac:(lra) V ltac:(lra) HB') as (m & M & DM & PM & QM).
  assert (A := d0_m1_ab np1 lm Acc x w v d r k X T U W Tn Ur V ltac:(lra) HB').
  assert (N := nw_m1 np1 lm Acc x w v d r k X T U W Tn Ur ltac:(lra) V ltac:(lra) HB').
  assert (T1 : fst (mu_terms d r k) = mu_plus d r k).
  { unfold mu_terms, mu_plus. cbv zeta. cbn [fst]. replace 1.89 with (189 / 100) by lra. replace 2.23 with (223 / 100) by lra. replace 0.0388 with (388 / 10000) by lra. reflexivity. }
  assert (T2 : snd (mu_terms d r k) = mu_minus d r k).
  { unfold mu_terms, mu_minus. cbv zeta. cbn [snd]. replace 3.16 with (316 / 100) by lra. replace (-0.0463) with (-463 / 10000) by lra.
    replace 0.374 with (374 / 1000) by lra. replace (-0.355) with (-355 / 1000) by lra. reflexivity. }
  rewrite T1, T2.
  assert (L5 : dval (flit 0.5%Q : double) = Fin (5 / 10)).
  { change (dval (b_lit 53 1024 p53 e1024 0.5%Q) = Fin (5 / 10)). rewrite (val_sf _ false 4503599627370496 (-53)) by (vm_compute; reflexivity). f_equal. unfold F2R. cbn. lra. }
  destruct (lit_off 0.2%Q 0.2 ltac:(cbn [Qnum Qden]; lra) ltac:(lra)) as (c2 & L2 & D2).
  destruct (lit_off 0.3%Q 0.3 ltac:(cbn [Qnum Qden]; lra) ltac:(lra)) as (c3 & L3 & D3).
  apply Rabs_def2 in D2, D3. apply off_cases in Or, Ok.
  assert (G : g04 x w v = dsd_sband_method1 (LiquidIce.linearize x) (LiquidIce.linearize w) (calc_beta (LiquidIce.linearize x) v (LiquidIce.linearize w))).
  { unfold g04. cbv zeta.
    rewrite (cmpl _ _ w r lit_mhalf W), (cmpt _ _ w r L2 W), (cmpl _ _ w r L2 W),
      (cmpt _ _ w r L5 W), (cmpl _ _ w r L5 W), (cmpt _ _ v k L3 V), (cmpl _ _ v k L3 V),
      (cmpl 35%Q 35 x d (lit_int 35 ltac:(lia)) X).
    destruct (Rleb_spec (-5 / 10) r), (Rltb_spec r c2), (Rltb_spec k c3), (Rleb_spec c2 r), (Rltb_spec r (5 / 10)), (Rleb_spec (5 / 10) r),
      (Rleb_spec 35 d), (Rleb_spec c3 k); cbn [andb]; try reflexivity; exfalso; lra. }
  rewrite G in G1, G2, G3. cbn [fst snd dsd_sband_method1] in G1, G2, G3.
  eexists; eexists; eexists; exists m. split; [exact G1|]. split; [exact G2|]. split; [exact G3|].
  split; [apply (ab_within _ _ _ _ _ A); lra|]. split; [exact N|]. split; [exact M|]. split; [exact DM|]. split; [reflexivity|]. split; assumption.
Qed.
End Acc.

(** ** The hypotheses are met: gates served by methods 2, 3, 4 and by none *)
Definition ex04_dz := mkarr DFloat [4%nat] [dl 40; dl 30; dl 20; dl 30].
Definition ex04_zdr := mkarr DFloat [4%nat] [dl 2; dl 0.25; dl 0; dl 1].
Definition ex04_kdp := mkarr DFloat [4%nat] [dl 0; dl 0; dl (-1); dl 2].
Lemma val_quarter : dval (dl 0.25) = Fin 0.25.
Proof.
  change (dval (b_lit 53 1024 p53 e1024 0.25%Q) = Fin 0.25). rewrite (val_sf _ false 4503599627370496 (-54)) by (vm_compute; reflexivity).
  f_equal. unfold F2R. cbn. lra.
Qed.
Example ex04_gates : ashape ex04_dz = ashape ex04_zdr /\ ashape ex04_dz = ashape ex04_kdp /\
  gate3 ex04_dz ex04_zdr ex04_kdp 0 40 2 0 /\ gate3 ex04_dz ex04_zdr ex04_kdp 1 30 0.25 0 /\
  gate3 ex04_dz ex04_zdr ex04_kdp 2 20 0 (-1) /\ gate3 ex04_dz ex04_zdr ex04_kdp 3 30 1 2.
Proof.
  assert (Em : forall c, 0 <= c -> exp (- c) <= / (1 + c)).
  { intros c Hc. rewrite exp_Ropp. apply Rinv_le_contravar; [lra|]. pose proof (exp_ge c). lra. }
  pose proof (Em 100 ltac:(lra)) as E1. pose proof (Em 300 ltac:(lra)) as E3.
  change (- (100)) with (-100) in E1. change (- (300)) with (-300) in E3.
  assert (O : forall c v, v <= c - 1 / 10 ^ 9 \/ c + 1 / 10 ^ 9 <= v -> off c v).
  { intros c v H. unfold off, Rabs. destruct Rcase_abs; lra. }
  assert (A : forall x, 0 <= x -> Rabs x = x) by (intros; apply Rabs_pos_eq; lra).
  split; [reflexivity|]. split; [reflexivity|].
  split; [|split; [|split]]; (split; [split| |apply O; lra|apply O; lra]);
    try (eexists; (split; [reflexivity|]); first [apply val_quarter|apply val_z; cbn; lia]);
    rewrite ?(A 40), ?(A 2), ?(A 30), ?(A 0.25), ?(A 20), ?(A 0), ?(A 1) by lra; lra.
Qed.

(** a gate of method 1: 40 dBZ, 1 dB, 1 deg/km *)
Definition ex04_m1_dz := mkarr DFloat [1%nat] [dl 40].
Definition ex04_m1_zdr := mkarr DFloat [1%nat] [dl 1].
Definition ex04_m1_kdp := mkarr DFloat [1%nat] [dl 1].
Example ex04_m1_gate : gate3 ex04_m1_dz ex04_m1_zdr ex04_m1_kdp 0 40 1 1 /\ 35 <= 40 /\ 0.2 < 1 /\ 0.3 < 1 <= 1000 /\ 0.01 <= beta_2004 40 1 1 <= 10.
Proof.
  assert (Em : forall c, 0 <= c -> exp (- c) <= / (1 + c)).
  { intros c Hc. rewrite exp_Ropp. apply Rinv_le_contravar; [lra|]. pose proof (exp_ge c). lra. }
  pose proof (Em 100 ltac:(lra)) as E1. pose proof (Em 300 ltac:(lra)) as E3.
  change (- (100)) with (-100) in E1. change (- (300)) with (-300) in E3.
  assert (O : forall c v, v <= c - 1 / 10 ^ 9 \/ c + 1 / 10 ^ 9 <= v -> off c v).
  { intros c v H. unfold off, Rabs. destruct Rcase_abs; lra. }
  assert (A : forall x, 0 <= x -> Rabs x = x) by (intros; apply Rabs_pos_eq; lra).
  split; [|repeat split; try lra].
  - (split; [split| |apply O; lra|apply O; lra]);
      try (eexists; (split; [reflexivity|]); apply val_z; cbn; lia);
      rewrite ?(A 40), ?(A 1) by lra; lra.
  - replace (beta_2004 40 1 1) with (2.08 * exp (- (1.3635 * ln 10))).
    2:{ unfold beta_2004, linZ, Rpower. rewrite !ln_exp, ln_1, Rmult_0_r, exp_0, Rmult_1_r.
        replace (208 / 100) with 2.08 by lra. rewrite Rmult_assoc, <- exp_plus. f_equal. f_equal. lra. }
    pose proof FundErr.ln10_range as L.
    assert (exp (- (2 * ln 10)) <= exp (- (1.3635 * ln 10))) by (apply exp_le_mono; nra).
    assert (E : exp (- (2 * ln 10)) = / 100).
    { rewrite exp_Ropp. replace (2 * ln 10) with (ln 10 + ln 10) by ring. rewrite exp_plus, exp_ln by lra. f_equal. lra. }
    lra.
  - replace (beta_2004 40 1 1) with (2.08 * exp (- (1.3635 * ln 10))).
    2:{ unfold beta_2004, linZ, Rpower. rewrite !ln_exp, ln_1, Rmult_0_r, exp_0, Rmult_1_r.
        replace (208 / 100) with 2.08 by lra. rewrite Rmult_assoc, <- exp_plus. f_equal. f_equal. lra. }
    pose proof FundErr.ln10_range as L.
    assert (exp (- (1.3635 * ln 10)) <= 1) by (rewrite <- exp_0; apply exp_le_mono; nra).
    lra.
Qed.
