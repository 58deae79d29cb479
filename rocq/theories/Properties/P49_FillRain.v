(** * C110: rain rates and masses at gates marked missing by a fill value

    Radar files mark missing measurements with a large negative number (-9999,
    -32768).  The functions compute with it like with any other number; in double
    precision the linear reflectivity underflows to zero.  With Zdr missing too the
    S-band ice test computes 0/0 and the gate becomes method 5 with rate NaN;
    everywhere else the rate is exactly 0.  The liquid and ice masses are 0 when
    both fields are missing, and the liquid mass is NaN when reflectivity alone is
    missing. *)
From Coq Require Import Reals Lra Lia ZArith QArith Qreals.
From Flocq Require Import Core IEEE754.BinarySingleNaN.
From Verif Require Import Base.Num Base.ListFacts Base.XReal Base.Ieee Spec.IeeeSpec Spec.PowSpec Spec.EdgeSpec Base.RelErr.
From Verif Require Import Model.Common Model.BlendedRain Spec.RainSpec.
From Verif Require Import Proofs.RainProofs Proofs.LiquidIceProofs Proofs.IeeeSign Proofs.EdgeRain Properties.P02_Rain Properties.P28_Ieee Properties.P38_IeeeClass.
From Verif Require Import Spec.RainDefaultSpec Properties.P21_RainDefaults Properties.P44_IceTest.
From Verif Require Model.LiquidIce.
Import Model.LiquidIce.
Open Scope R_scope.
#[local] Existing Instances p53 e1024 p24 e128.

(** keyword values for which the statements hold; the defaults are such *)
Record usual (o : rain_opts double) : Prop := {
  u_dz : exists t, dval (thresh_dz o) = Fin t /\ -9000 < t;
  u_cap : exists t, dval (thresh_nexrad o) = Fin t /\ -9000 <= t;
  u_frac : exists t, dval (thresh_frac_ice o) = Fin t;
  u_za : exists a, dval (r_z_a o) = Fin a /\ 0 < a;
  u_zb : exists b, dval (r_z_b o) = Fin b /\ 1 / 100 <= b <= 100;
  u_zza : exists a, dval (r_z_zdr_a o) = Fin a;
  u_zzb : exists b, dval (r_z_zdr_b o) = Fin b /\ 0 < b;
  u_zzc : exists c, dval (r_z_zdr_c o) = Fin c /\ Rabs c <= 1 }.

Lemma lit_between q lo hi : (Z.abs lo < 2 ^ 53)%Z -> (Z.abs hi < 2 ^ 53)%Z ->
  IZR lo <= IZR (Qnum q) / IZR (Zpos (Qden q)) <= IZR hi ->
  exists v, dval (b_lit 53 1024 p53 e1024 q) = Fin v /\ IZR lo <= v <= IZR hi.
Proof. intros A B C. rewrite val_lit. now apply rnd_between. Qed.
Lemma lit_pos q : / 1024 <= IZR (Qnum q) / IZR (Zpos (Qden q)) <= 1000 ->
  exists v, dval (b_lit 53 1024 p53 e1024 q) = Fin v /\ / 1024 <= v <= 1000.
Proof.
  intros (L & U). rewrite val_lit. set (x := _ / _) in *.
  assert (E : drnd (/ 1024) = Fin (/ 1024)).
  { replace (/ 1024) with (bpow radix2 (-10)) by (cbn; lra). apply rnd_fmt.
    - apply generic_format_bpow. unfold SpecFloat.fexp, SpecFloat.emin. lia.
    - rewrite Rabs_pos_eq by apply bpow_ge_0. apply bpow_lt. lia. }
  apply (rnd_mono 53 1024 p53) in L, U. rewrite E in L. rewrite (rnd_int 53 1024) in U by (auto with typeclass_instances; lia).
  destruct (drnd x) as [v| | |]; try discriminate. exists v. split; auto. cbn [xle] in L, U. apply Rleb_true in L, U. lra.
Qed.

Section C110.
Variables (np1 : bool) (lm : libm double).
Hypothesis (Lm : pow_good lm) (Ed : edges lm).
#[local] Hint Extern 0 (FloatOps double) => exact (double_ops np1 lm) : typeclass_instances.

Theorem C110_defaults_are_usual : usual rain_defaults.
Proof.
  assert (P : forall q (Q : double -> Prop), / 1024 <= IZR (Qnum q) / IZR (Zpos (Qden q)) <= 1000 ->
    exists v, dval (b_lit 53 1024 p53 e1024 q) = Fin v /\ / 1024 <= v <= 1000) by (intros; now apply lit_pos).
  split; cbn [rain_defaults thresh_dz thresh_nexrad thresh_frac_ice r_z_a r_z_b r_z_zdr_a r_z_zdr_b r_z_zdr_c].
  - destruct (lit_pos 38 ltac:(cbn [Qnum Qden]; lra)) as (v & V & B). exists v. split; [exact V|lra].
  - destruct (lit_pos 53 ltac:(cbn [Qnum Qden]; lra)) as (v & V & B). exists v. split; [exact V|lra].
  - destruct (lit_pos 0.1 ltac:(cbn [Qnum Qden]; lra)) as (v & V & B). exists v. exact V.
  - destruct (lit_pos 300 ltac:(cbn [Qnum Qden]; lra)) as (v & V & B). exists v. split; [exact V|lra].
  - destruct (lit_between 1.4 1 2 ltac:(lia) ltac:(lia) ltac:(cbn [Qnum Qden]; lra)) as (v & V & B). exists v. split; [exact V|lra].
  - destruct (lit_pos 0.0067 ltac:(cbn [Qnum Qden]; lra)) as (v & V & B). exists v. exact V.
  - destruct (lit_pos 0.927 ltac:(cbn [Qnum Qden]; lra)) as (v & V & B). exists v. split; [exact V|lra].
  - destruct (lit_between (-0.343) (-1) 0 ltac:(lia) ltac:(lia) ltac:(cbn [Qnum Qden]; lra)) as (v & V & B). exists v.
    split; [exact V|]. apply Rabs_le. lra.
Qed.

(** the built-in rain lines *)
Lemma built_in_line o fa fb : fit_a o = None -> rain_line o fa fb -> line_ok fa fb.
Proof.
  assert (G : forall p q, 0 <= IZR (Qnum p) / IZR (Zpos (Qden p)) <= 5 -> 0 <= IZR (Qnum q) / IZR (Zpos (Qden q)) <= 100 ->
     line_ok (b_lit 53 1024 p53 e1024 p) (b_lit 53 1024 p53 e1024 q)).
  { intros p q P Q. destruct (lit_between p 0 5 ltac:(lia) ltac:(lia) P) as (x & X & Bx).
    destruct (lit_between q 0 100 ltac:(lia) ltac:(lia) Q) as (y & Y & By).
    exists x, y. repeat split; auto; apply Rabs_le; lra. }
  intros N L. inversion L; subst; try congruence; apply G; cbn [Qnum Qden]; lra.
Qed.

Lemma below o (d : double) : usual o -> missing d -> fle (thresh_dz o) d = false.
Proof.
  intros U (a & A & La). destruct (u_dz o U) as (t & T & Lt). change (Bleb (thresh_dz o) d = false).
  rewrite val_le, T, A. cbn. apply Rleb_false. lra.
Qed.
Lemma rz o (d : double) : usual o -> missing d -> R_Z_capped (thresh_nexrad o) (r_z_a o) (r_z_b o) d = pz.
Proof.
  intros U M. destruct (u_cap o U) as (t & T & Lt), (u_za o U) as (a & A & Pa).
  exact (capped_missing np1 lm Ed _ t _ _ d a T Lt M A Pa (u_zb o U)).
Qed.

(** ** The NEXRAD relation *)
Theorem C110_nexrad_missing_is_zero :
  forall (dz : arr double) (thresh za zb : double) t a b, dval thresh = Fin t -> -9000 <= t ->
  dval za = Fin a -> 0 < a -> dval zb = Fin b -> 1 / 100 <= b <= 100 ->
  exists out, calc_rain_nexrad (AArr dz) thresh za zb = Ok (ashape dz, out) /\
    forall i d, nth_error (adata dz) i = Some d -> missing d ->
      exists r, nth_error out i = Some r /\ dval r = Fin 0.
Proof.
  intros dz th za zb t a b T Lt A Pa B Rb. destruct (C07_nexrad_gate_by_gate dz th za zb) as (out & E & _ & G).
  exists out. split; auto. intros i d Hd M. exists pz. split; [|reflexivity]. rewrite (G i d Hd). f_equal.
  apply (capped_missing np1 lm Ed th t za zb d a T Lt M A Pa). now exists b.
Qed.

(** ** calc_blended_rain *)
(** S band, reflectivity and Zdr missing: method 5, rate NaN (and with [ice_flag]
    Zdp and the ice fraction NaN), whatever Kdp is *)
Theorem C110_blended_S_all_missing_is_nan :
  forall (dz zdr kdp : arr double) ice_flag (o : rain_opts double) fa fb,
  adt dz = DFloat -> ashape dz = ashape zdr -> ashape dz = ashape kdp -> arr_ok dz -> arr_ok zdr -> arr_ok kdp ->
  usual o -> rain_line o fa fb ->
  exists out, calc_blended_rain (AArr dz) (AArr zdr) (AArr kdp) ice_flag "S" o = Ok (RainArr (ashape dz) out) /\
    forall i d r, nth_error (adata dz) i = Some d -> nth_error (adata zdr) i = Some r -> missing d -> missing r ->
      nth_error (out_meth out) i = Some 5%Z /\
      nth_error (out_rain out) i = Some B754_nan /\
      (ice_flag = true -> exists zdp fi, out_ice out = Some (zdp, fi) /\
         nth_error zdp i = Some B754_nan /\ nth_error fi i = Some B754_nan).
Proof.
  intros dz zdr kdp ice o fa fb DT S1 S2 O1 O2 O3 U L.
  destruct (C08_blended_S_decision_tree dz zdr kdp ice o fa fb S1 S2 O1 O2 O3 L) as (out & E & _ & _ & _ & G).
  exists out. split; auto. intros i d r Hd Hr Md Mr.
  destruct (nth_error_length_eq (adata dz) (adata kdp) i) with (x := d) as (k & Hk); auto.
  { unfold arr_ok in *. congruence. }
  destruct (G i d r k Hd Hr Hk) as (G1 & G2 & G3). revert G1 G2 G3.
  rewrite (ice_all_missing np1 lm Ed fa fb d r Md Mr), (below o d U Md), DT. cbn [andb].
  assert (N : flt (B754_nan : double) (thresh_frac_ice o) = false) by reflexivity. rewrite N.
  cbn [blended_S_method]. intros G1 G2 G3. split; [exact G1|]. split.
  - rewrite G2. cbn [cast rate_of_method]. f_equal.
    rewrite (zrain_all_missing np1 lm Ed fa fb d r Md Mr).
    assert (LN : flog10 (B754_nan : double) = B754_nan) by exact (e_log_nan lm Ed). rewrite LN.
    pose proof (nan_mul_r np1 lm (b_lit 53 1024 p53 e1024 10)) as NM. 
    transitivity (R_Z_capped (thresh_nexrad o) (r_z_a o) (r_z_b o) B754_nan); [f_equal; exact NM|].
    apply (capped_nan np1 lm Ed). exact (u_zb o U).
  - intro I. destruct (G3 I) as (zdp & fi & Eo & _ & _ & Z1 & Z2). exists zdp, fi. split; auto. split; auto.
    rewrite Z1. f_equal. now apply (zdp_all_missing np1 lm Ed).
Qed.

(** S band, reflectivity missing and Zdr a number of at most 100 dB: rate 0,
    method 3 or 4 by Zdr *)
Theorem C110_blended_S_dz_missing_is_zero :
  forall (dz zdr kdp : arr double) ice_flag (o : rain_opts double) fa fb,
  adt dz = DFloat -> ashape dz = ashape zdr -> ashape dz = ashape kdp -> arr_ok dz -> arr_ok zdr -> arr_ok kdp ->
  usual o -> rain_line o fa fb ->
  (exists a b, dval fa = Fin a /\ dval fb = Fin b /\ Rabs a <= 5 /\ Rabs b <= 100) ->
  exists out, calc_blended_rain (AArr dz) (AArr zdr) (AArr kdp) ice_flag "S" o = Ok (RainArr (ashape dz) out) /\
    forall i d r a, nth_error (adata dz) i = Some d -> nth_error (adata zdr) i = Some r -> missing d ->
      dval r = Fin a -> -100 <= a <= 100 ->
      nth_error (out_meth out) i = Some (if fle (thresh_zdr o) r then 3 else 4)%Z /\
      exists x, nth_error (out_rain out) i = Some x /\ dval x = Fin 0.
Proof.
  intros dz zdr kdp ice o fa fb DT S1 S2 O1 O2 O3 U L LO.
  destruct (C08_blended_S_decision_tree dz zdr kdp ice o fa fb S1 S2 O1 O2 O3 L) as (out & E & _ & _ & _ & G).
  exists out. split; auto. intros i d r a Hd Hr Md Ra Ba.
  destruct (nth_error_length_eq (adata dz) (adata kdp) i) with (x := d) as (k & Hk); auto.
  { unfold arr_ok in *. congruence. }
  destruct (G i d r k Hd Hr Hk) as (G1 & G2 & _). revert G1 G2.
  pose proof (ice_dz_missing np1 lm Lm Ed fa fb d r a LO Md Ra Ba) as I.
  assert (IF : flt (ice_fraction fa fb d r) (thresh_frac_ice o) = true).
  { change (Bltb (ice_fraction fa fb d r) (thresh_frac_ice o) = true). rewrite val_lt. rewrite I.
    destruct (u_frac o U) as (t & ->). reflexivity. }
  rewrite IF, (below o d U Md), DT. cbn [andb]. unfold blended_S_method.
  destruct (fle (thresh_zdr o) r); cbn [cast rate_of_method]; intros G1 G2; (split; [exact G1|]).
  - eexists. split; [exact G2|]. destruct (u_zza o U) as (x & X), (u_zzb o U) as (y & Y & Py), (u_zzc o U) as (z & Z & Bz).
    exact (R_Z_Zdr_missing np1 lm Lm Ed _ _ _ d r x y z a Md X Y Py Z Bz Ra Ba).
  - eexists. split; [exact G2|]. rewrite (rz o d U Md). reflexivity.
Qed.

(** other bands: method 4 and rate 0, whatever Zdr and Kdp are *)
Theorem C110_blended_other_missing_is_zero :
  forall (dz zdr kdp : arr double) ice_flag band (o : rain_opts double),
  band <> "S"%string -> adt dz = DFloat -> ashape dz = ashape zdr -> ashape dz = ashape kdp -> arr_ok dz -> arr_ok kdp ->
  usual o ->
  exists out, calc_blended_rain (AArr dz) (AArr zdr) (AArr kdp) ice_flag band o = Ok (RainArr (ashape dz) out) /\
    forall i d, nth_error (adata dz) i = Some d -> missing d ->
      nth_error (out_meth out) i = Some 4%Z /\
      exists x, nth_error (out_rain out) i = Some x /\ dval x = Fin 0.
Proof.
  intros dz zdr kdp ice band o Hb DT S1 S2 O1 O3 U.
  destruct (C09_blended_other_bands dz zdr kdp ice band o Hb S1 S2 O1 O3) as (out & E & _ & _ & _ & G).
  exists out. split; auto. intros i d Hd Md.
  destruct (nth_error_length_eq (adata dz) (adata kdp) i) with (x := d) as (k & Hk); auto.
  { unfold arr_ok in *. congruence. }
  destruct (G i d k Hd Hk) as (_ & G2). destruct G2 as (G2 & G3).
  { rewrite (below o d U Md). intros (Q & _). discriminate Q. }
  split; auto. eexists. split; [exact G3|]. rewrite DT, (rz o d U Md). reflexivity.
Qed.

(** ** csu_hidro_rain *)
(** a missing reflectivity never gives a rain rate in a gate classified as rain *)
Theorem C110_hidro_S_missing_is_zero :
  forall (dz zdr kdp fhc : arr double) (o : rain_opts double),
  adt dz = DFloat -> ashape dz = ashape zdr -> ashape dz = ashape kdp -> ashape dz = ashape fhc ->
  arr_ok dz -> arr_ok zdr -> arr_ok kdp -> arr_ok fhc -> usual o ->
  exists out, csu_hidro_rain (AArr dz) (AArr zdr) (AArr kdp) (AArr fhc) "S" o = Ok (RainArr (ashape dz) out) /\
    forall i d c, nth_error (adata dz) i = Some d -> nth_error (adata fhc) i = Some c -> missing d ->
      (dval c = Fin 1 \/ dval c = Fin 2 \/ dval c = Fin 10) ->
      nth_error (out_meth out) i = Some 4%Z /\
      exists x, nth_error (out_rain out) i = Some x /\ dval x = Fin 0.
Proof.
  intros dz zdr kdp fhc o DT S1 S2 S3 O1 O2 O3 O4 U.
  destruct (C13_hidro_S_decision_tree dz zdr kdp fhc o S1 S2 S3 O1 O2 O3 O4) as (out & E & _ & _ & _ & G).
  exists out. split; auto. intros i d c Hd Hc Md Cc.
  destruct (nth_error_length_eq (adata dz) (adata zdr) i) with (x := d) as (r & Hr); auto.
  { unfold arr_ok in *. congruence. }
  destruct (nth_error_length_eq (adata dz) (adata kdp) i) with (x := d) as (k & Hk); auto.
  { unfold arr_ok in *. congruence. }
  destruct (G i d r k c Hd Hr Hk Hc) as (G1 & G2).
  { apply (class_sane_ieee 53 1024 24 128 p53 e1024 p24 e128). lia. }
  revert G1 G2. rewrite (below o d U Md), DT.
  assert (P : phase_of c = Rain).
  { unfold phase_of. assert (Q : forall n, (Z.abs n < 2 ^ 53)%Z -> dval c = Fin (IZR n) -> feq c (flit (Qmake n 1)) = true).
    { intros n Hn V. change (Beqb c (b_lit 53 1024 p53 e1024 (Qmake n 1)) = true). rewrite val_eq, V, (lit_int n Hn). cbn. now apply Reqb_true. }
    destruct Cc as [V|[V|V]].
    - rewrite (Q 1%Z) by (auto; lia). reflexivity.
    - rewrite (Q 2%Z) by (auto; lia). now rewrite Bool.orb_true_r.
    - rewrite (Q 10%Z) by (auto; lia). now rewrite Bool.orb_true_r. }
  rewrite P. cbn [hidro_S_method Z.eqb Pos.eqb rate_of_method cast]. intros G1 G2. split; auto.
  eexists. split; [exact G2|]. destruct (u_za o U) as (a & A & Pa).
  assert (C53 : dval (b_lit 53 1024 p53 e1024 53) = Fin 53) by (apply lit_int; lia).
  assert (R0 : R_Z_capped (flit 53) (r_z_a o) (r_z_b o) d = pz).
  { exact (capped_missing np1 lm Ed _ 53 _ _ d a C53 ltac:(lra) Md A Pa (u_zb o U)). }
  rewrite R0. reflexivity.
Qed.

Theorem C110_hidro_other_missing_is_zero :
  forall (dz zdr kdp fhc : arr double) band (o : rain_opts double),
  band <> "S"%string -> adt dz = DFloat -> ashape dz = ashape zdr -> ashape dz = ashape kdp -> ashape dz = ashape fhc ->
  arr_ok dz -> arr_ok kdp -> arr_ok fhc -> usual o ->
  exists out, csu_hidro_rain (AArr dz) (AArr zdr) (AArr kdp) (AArr fhc) band o = Ok (RainArr (ashape dz) out) /\
    forall i d, nth_error (adata dz) i = Some d -> missing d ->
      exists x, nth_error (out_rain out) i = Some x /\ dval x = Fin 0.
Proof.
  intros dz zdr kdp fhc band o Hb DT S1 S2 S3 O1 O3 O4 U.
  destruct (C14_hidro_other_bands dz zdr kdp fhc band o Hb S1 S2 S3 O1 O3 O4) as (out & E & _ & _ & _ & G).
  exists out. split; auto. intros i d Hd Md.
  destruct (nth_error_length_eq (adata dz) (adata kdp) i) with (x := d) as (k & Hk); auto.
  { unfold arr_ok in *. congruence. }
  destruct (nth_error_length_eq (adata dz) (adata fhc) i) with (x := d) as (c & Hc); auto.
  { unfold arr_ok in *. congruence. }
  destruct (G i d k c Hd Hk Hc) as (_ & G1 & G2). rewrite (below o d U Md), DT in *. cbn [andb] in *.
  destruct (u_za o U) as (a & A & Pa).
  assert (C53 : dval (b_lit 53 1024 p53 e1024 53) = Fin 53) by (apply lit_int; lia).
  assert (R0 : R_Z_capped (flit 53) (r_z_a o) (r_z_b o) d = pz).
  { exact (capped_missing np1 lm Ed _ 53 _ _ d a C53 ltac:(lra) Md A Pa (u_zb o U)). }
  destruct (phase_of c).
  - destruct (G1 eq_refl eq_refl) as (_ & X). eexists. split; [exact X|]. cbn [cast]. rewrite R0. reflexivity.
  - destruct (G2 eq_refl ltac:(discriminate)) as (_ & X). eexists. split; [exact X|]. reflexivity.
  - destruct (G2 eq_refl ltac:(discriminate)) as (_ & X). eexists. split; [exact X|]. reflexivity.
Qed.

(** ** calc_liquid_ice_mass *)
Lemma zero_lit : dval (b_lit 53 1024 p53 e1024 0) = Fin 0. Proof. reflexivity. Qed.
Lemma zero_times (d : double) a : dval d = Fin a -> dval (fmul d (flit 0)) = Fin 0.
Proof. intro A. transitivity (drnd (a * 0)); [exact (r_mul np1 lm d _ a 0 A zero_lit)|]. apply rnd_zero. lra. Qed.

(** both fields missing: no water, no ice, at any height *)
Theorem C110_masses_all_missing_are_zero :
  forall pf (dz zdr z : arr double) (Hfrz : option double) meth a b fa fb,
  length (adata zdr) = length (adata dz) -> length (adata z) = length (adata dz) ->
  (a = None /\ fa = flit 0.8178 /\ fb = flit 12.5088 \/ a = Some fa /\ b = Some fb) ->
  exists w ic, calc_liquid_ice_mass pf (AArr dz) (AArr zdr) (AArr z) ANone Hfrz meth a b
      = Ok (RArr (ashape dz) w, RArr (ashape dz) ic) /\
    forall i d r h, nth_error (adata dz) i = Some d -> nth_error (adata zdr) i = Some r -> nth_error (adata z) i = Some h ->
      missing d -> missing r ->
      exists x y, nth_error w i = Some x /\ nth_error ic i = Some y /\ dval x = Fin 0 /\ dval y = Fin 0.
Proof.
  intros pf dz zdr z Hf meth a b fa fb Lr Lz L.
  assert (Fi : li_fits a b = Ok (fa, fb)) by (destruct L as [(-> & -> & ->)|(-> & ->)]; reflexivity).
  set (hf := match Hf with Some h => h | None => DEFAULT_HFRZ end).
  destruct (liquid_ice_gate (adata dz) (adata zdr) (get_delta_thresh (adata z) hf) a b fa fb Fi Lr) as (w & ic & E & _ & _ & G).
  { now rewrite thresh_len. }
  exists w, ic. split.
  { unfold calc_liquid_ice_mass. cbn [bind]. replace (get_hfrz pf None (adata z) Hf) with (Ok hf) by (unfold hf; now destruct Hf).
    cbn [bind]. rewrite Lr, Lz, !Nat.eqb_refl. cbn [negb]. rewrite E. reflexivity. }
  intros i d r h Hd Hr Hz Md Mr.
  destruct (G i d r (g_thresh h hf) Hd Hr (thresh_nth _ _ _ _ Hz)) as (G1 & G2).
  eexists; eexists. split; [exact G1|]. split; [exact G2|].
  assert (X : g_excess fa fb d r = B754_nan).
  { unfold g_excess. cbv zeta. rewrite (zdp_all_missing np1 lm Ed d r Md Mr).
    rewrite (nan_mul_r np1 lm), (nan_add_l np1 lm), (nan_sub_r np1 lm). reflexivity. }
  assert (C : fsub (g_excess fa fb d r) (g_thresh h hf) = B754_nan).
  { rewrite X. change (Bminus mode_NE (B754_nan : double) (g_thresh h hf) = B754_nan). destruct (g_thresh h hf) as [|[]| |]; reflexivity. }
  destruct Md as (u & Hu & _), Mr as (v & Hv & Lv). split.
  - unfold g_water. cbv zeta. replace (flt r (flit 0)) with true; [reflexivity|]. symmetry.
    change (Bltb r (b_lit 53 1024 p53 e1024 0) = true). rewrite val_lt, Hv. cbn. apply Rltb_true. lra.
  - unfold g_ice. rewrite C. cbv zeta. change (fle (flit 0) (B754_nan : double)) with false. cbv iota.
    now apply (zero_times d u).
Qed.

(** the threshold on the excess is at least 1 *)
Lemma thresh_pos (h hf : double) x y : dval h = Fin x -> dval hf = Fin y -> Rabs x <= 1000 -> Rabs y <= 1000 ->
  exists t, dval (g_thresh h hf) = Fin t /\ 1 <= t.
Proof.
  intros X Y Bx By. apply Rabs_le_inv in Bx, By. unfold g_thresh. destruct (fle h hf) eqn:C.
  - change (Bleb h hf = true) in C. rewrite val_le, X, Y in C. cbn in C. apply Rleb_true in C.
    assert (E0 : dval (b_lit 53 1024 p53 e1024 0) = Fin 0) by reflexivity.
    assert (E8 : dval (b_lit 53 1024 p53 e1024 8) = Fin 8) by (apply lit_int; lia).
    assert (E3 : dval (b_lit 53 1024 p53 e1024 3) = Fin 3) by (apply lit_int; lia).
    assert (E2 : dval (b_lit 53 1024 p53 e1024 2) = Fin 2) by (apply lit_int; lia).
    pose proof (r_sub np1 lm _ _ 0 8 E0 E8) as S1. replace (0 - 8) with (IZR (-8)) in S1 by lra.
    rewrite (rnd_int 53 1024) in S1 by (auto with typeclass_instances; lia).
    pose proof (r_div np1 lm _ _ (-8) 3 S1 E3 ltac:(lra)) as S2.
    destruct (rnd_between (-3) (-2) (-8 / 3) ltac:(lia) ltac:(lia) ltac:(lra)) as (k & K & Bk). rewrite K in S2.
    pose proof (r_sub np1 lm h hf x y X Y) as S3.
    destruct (rnd_between (-2000) 0 (x - y) ltac:(lia) ltac:(lia) ltac:(lra)) as (e & Ee & Be). rewrite Ee in S3.
    pose proof (r_mul np1 lm _ _ k e S2 S3) as S4.
    destruct (rnd_between 0 6000 (k * e) ltac:(lia) ltac:(lia) ltac:(nra)) as (m & M & Bm). rewrite M in S4.
    pose proof (r_add np1 lm _ _ m 2 S4 E2) as S5.
    destruct (rnd_between 2 6002 (m + 2) ltac:(lia) ltac:(lia) ltac:(lra)) as (t & T & Bt). rewrite T in S5.
    exists t. split; [exact S5|lra].
  - destruct (lit_between 1.1 1 2 ltac:(lia) ltac:(lia) ltac:(cbn [Qnum Qden]; lra)) as (v & V & B).
    pose proof (r_add np1 lm _ _ 0 v zero_lit V) as S.
    destruct (rnd_between 1 2 (0 + v) ltac:(lia) ltac:(lia) ltac:(lra)) as (t & T & Bt). rewrite T in S. exists t. split; [exact S|lra].
Qed.

(** reflectivity missing alone: the liquid mass is NaN where Zdr is not negative
    (0 where it is), and there is no ice *)
Theorem C110_masses_dz_missing :
  forall pf (dz zdr z : arr double) (hf : double) f meth a b fa fb,
  length (adata zdr) = length (adata dz) -> length (adata z) = length (adata dz) ->
  (a = None /\ fa = flit 0.8178 /\ fb = flit 12.5088 \/ a = Some fa /\ b = Some fb) ->
  (exists a b, dval fa = Fin a /\ dval fb = Fin b /\ Rabs a <= 5 /\ Rabs b <= 100) ->
  dval hf = Fin f -> Rabs f <= 1000 ->
  exists w ic, calc_liquid_ice_mass pf (AArr dz) (AArr zdr) (AArr z) ANone (Some hf) meth a b
      = Ok (RArr (ashape dz) w, RArr (ashape dz) ic) /\
    forall i d r h u v, nth_error (adata dz) i = Some d -> nth_error (adata zdr) i = Some r -> nth_error (adata z) i = Some h ->
      missing d -> dval r = Fin u -> -100 <= u <= 100 -> dval h = Fin v -> Rabs v <= 1000 ->
      exists x y, nth_error w i = Some x /\ nth_error ic i = Some y /\ dval y = Fin 0 /\
        (u < 0 -> dval x = Fin 0) /\ (0 <= u -> x = B754_nan).
Proof.
  intros pf dz zdr z hf f meth a b fa fb Lr Lz L LO Hf Bf.
  assert (Fi : li_fits a b = Ok (fa, fb)) by (destruct L as [(-> & -> & ->)|(-> & ->)]; reflexivity).
  destruct (liquid_ice_gate (adata dz) (adata zdr) (get_delta_thresh (adata z) hf) a b fa fb Fi Lr) as (w & ic & E & _ & _ & G).
  { now rewrite thresh_len. }
  exists w, ic. split.
  { unfold calc_liquid_ice_mass. cbn [bind get_hfrz]. rewrite Lr, Lz, !Nat.eqb_refl. cbn [negb]. rewrite E. reflexivity. }
  intros i d r h u v Hd Hr Hz Md Hu Bu Hv Bv.
  destruct (G i d r (g_thresh h hf) Hd Hr (thresh_nth _ _ _ _ Hz)) as (G1 & G2).
  eexists; eexists. split; [exact G1|]. split; [exact G2|].
  assert (X : g_excess fa fb d r = (b_lit 53 1024 p53 e1024 0)).
  { unfold g_excess. cbv zeta. destruct (zdp_dz_missing np1 lm Lm Ed d r u Md Hu Bu) as (p & P & Bp).
    destruct LO as (x & y & Hx & Hy & Bx & By). apply Rabs_le_inv in Bx, By.
    pose proof (r_mul np1 lm fa _ x p Hx P) as D1.
    destruct (rnd_between (-1100) 1100 (x * p) ltac:(lia) ltac:(lia) ltac:(nra)) as (m & M & Bm). rewrite M in D1.
    pose proof (r_add np1 lm _ fb m y D1 Hy) as D2.
    destruct (rnd_between (-1200) 1200 (m + y) ltac:(lia) ltac:(lia) ltac:(lra)) as (s & S & Bs). rewrite S in D2.
    destruct Md as (q & Hq & Lq). pose proof (r_sub np1 lm d _ q s Hq D2) as D3.
    set (e := fsub d _) in *. replace (flt e (flit 0)) with true; [reflexivity|]. symmetry.
    change (Bltb e (b_lit 53 1024 p53 e1024 0) = true). rewrite val_lt, D3.
    destruct (rnd_down (-7800) (q - s) ltac:(lia) ltac:(lra)) as [(t & -> & Lt)| ->]; cbn; auto. apply Rltb_true. lra. }
  destruct (thresh_pos h hf v f Hv Hf Bv Bf) as (t & T & Lt).
  assert (C : exists c, dval (fsub (g_excess fa fb d r) (g_thresh h hf)) = c /\ xlt c (Fin 0) = true).
  { rewrite X. pose proof (r_sub np1 lm _ _ 0 t zero_lit T) as D. eexists. split; [exact D|].
    destruct (rnd_down (-1) (0 - t) ltac:(lia) ltac:(lra)) as [(q & -> & Lq)| ->]; cbn; auto. apply Rltb_true. lra. }
  destruct C as (c & Hc & Nc). set (e := fsub (g_excess fa fb d r) (g_thresh h hf)) in *.
  assert (Ge : fle (flit 0) e = false).
  { change (Bleb (b_lit 53 1024 p53 e1024 0) e = false). rewrite val_le, Hc. cbn [b_lit Qnum val B2R].
    destruct c as [q| | |]; cbn in Nc |- *; try discriminate; auto. apply Rltb_true in Nc. apply Rleb_false. lra. }
  assert (Lte : flt e (flit 0) = true).
  { change (Bltb e (b_lit 53 1024 p53 e1024 0) = true). rewrite val_lt, Hc. exact Nc. }
  split; [|split].
  - unfold g_ice. fold e. cbv zeta. rewrite Ge. destruct Md as (q & Hq & _). now apply (zero_times d q).
  - intro N. unfold g_water. cbv zeta. replace (flt r (flit 0)) with true; [reflexivity|]. symmetry.
    change (Bltb r (b_lit 53 1024 p53 e1024 0) = true). rewrite val_lt, Hu. cbn. apply Rltb_true. lra.
  - intro N. unfold g_water. fold e. cbv zeta.
    replace (flt r (flit 0)) with false.
    2:{ symmetry. change (Bltb r (b_lit 53 1024 p53 e1024 0) = false). rewrite val_lt, Hu. cbn. apply Rltb_false. lra. }
    rewrite Ge, Lte. rewrite (lin_missing np1 lm Ed d Md).
    destruct (lin_moderate np1 lm Lm r u Hu Bu) as (q & Q & Pq).
    rewrite (zero_div np1 lm (lin r) q Q Pq), (zero_zero np1 lm).
    assert (PN : fpow (B754_nan : double) (flit (-4.159)) = B754_nan).
    { destruct (lit_between (-4.159) (-5) (-4) ltac:(lia) ltac:(lia) ltac:(cbn [Qnum Qden]; lra)) as (s & S & Bs).
      apply (e_nan_base lm Ed _ s S). lra. }
    rewrite PN. apply (nan_mul_r np1 lm).
Qed.
End C110.

(** ** In exact arithmetic a gate with both fields missing is method 4 *)
Theorem C110_exact_arithmetic_says_method_4 (dz zdr kdp : arr xr) ice_flag : three_fields dz zdr kdp ->
  exists out, calc_blended_rain (AArr dz) (AArr zdr) (AArr kdp) ice_flag "S" rain_defaults
      = Ok (RainArr (ashape dz) out) /\
    forall i d r k, gate3 dz zdr kdp i d r k -> d <= -9000 -> r <= -9000 ->
      nth_error (out_meth out) i = Some 4%Z.
Proof.
  intros T. destruct (C83_blended_S_defaults dz zdr kdp ice_flag T) as (out & E & G). exists out. split; auto.
  intros i d r k Hg Ld Lr. destruct (G i d r k Hg) as (G1 & _). rewrite G1. f_equal.
  unfold blended_S. assert (I : ice_frac d r < 0.1).
  { apply icefree_line. rewrite rain_dBZ_neg by lra. pose proof n09_bounds. lra. }
  repeat destruct Rle_dec; repeat destruct Rlt_dec; cbn [fst]; auto; lra.
Qed.

(** ** Non-vacuity: a C library meeting the assumptions, and a call *)
Definition lm_edge : libm double :=
  mklibm (lm_pow lm_full)
    (fun x => match dval x with Fin a => b_lit 53 1024 p53 e1024 (inject_Z (Int_part (ln a / ln 10))) | _ => B754_nan end)
    (fun x => x) (fun x => x) (fun x => x) (fun x => x) (b_lit 53 1024 p53 e1024 (Qmake 355 113)).

Lemma edge_good : pow_good lm_edge.
Proof. destruct full_good as [A B C D E]. split; assumption. Qed.
Lemma log_size (x : double) a : dval x = Fin a -> 0 < a -> -2000 <= ln a / ln 10 <= 2000.
Proof.
  intros X P. destruct (fin_number x a X) as (Fx & Bx). pose proof ln10_ge2 as L10.
  assert (U : a < bpow radix2 1024) by (rewrite <- Bx; apply Rle_lt_trans with (1 := Rle_abs _); apply abs_B2R_lt_emax).
  assert (L : bpow radix2 (-1074) <= a).
  { rewrite <- Bx. assert (Ab : Rabs (B2R x) = B2R x) by (apply Rabs_pos_eq; lra). rewrite <- Ab.
    apply (abs_B2R_ge_emin 53 1024). destruct x as [s|s| |s m e H]; try discriminate; [cbn in Bx; lra|reflexivity]. }
  rewrite bpow_exp in L, U. apply ln_increasing in U; auto. rewrite ln_exp in U.
  assert (L' : -1074 * ln 2 <= ln a).
  { rewrite <- (ln_exp (-1074 * ln 2)). destruct L as [L|L]; [left; apply ln_increasing; auto; apply exp_pos|rewrite L; lra]. }
  assert (L2 : 0 < ln 2 < 1). { pose proof ln_lt_2. split; [lra|]. rewrite <- (ln_exp 1). apply ln_increasing; [lra|]. pose proof (exp_ineq1 1 ltac:(lra)). lra. }
  split; apply Rmult_le_reg_r with (ln 10); try lra; unfold Rdiv; rewrite Rmult_assoc, Rinv_l by lra; nra.
Qed.
Example C110_libm_exists : pow_good lm_edge /\ edges lm_edge.
Proof.
  split; [exact edge_good|]. split.
  - intros x y a b X Y P S. cbn [lm_edge lm_pow lm_full]. rewrite X, Y. destruct (Req_EM_T a 0); [lra|].
    rewrite Rabs_pos_eq by lra. cbv zeta.
    assert (exp (-1000) < exp (-500)) by (apply exp_increasing; lra). assert (exp (-500) < exp 500) by (apply exp_increasing; lra).
    destruct (Rlt_dec (exp 500) _); [lra|]. destruct (Rlt_dec _ _); [reflexivity|lra].
  - intros y b Y P. cbn [lm_edge lm_pow lm_full]. rewrite Y. cbn [val B2R]. destruct (Req_EM_T 0 0); [reflexivity|lra].
  - intros y b Y N. cbn [lm_edge lm_pow lm_full val]. reflexivity.
  - intros x a X N. cbn [lm_edge lm_pow lm_full]. rewrite X. reflexivity.
  - reflexivity.
  - intros x a X P. cbn [lm_edge lm_log10]. rewrite X. pose proof (log_size x a X P) as B. set (l := ln a / ln 10) in *.
    destruct (base_Int_part l) as (I1 & I2). exists (IZR (Int_part l)). split.
    + apply lit_int. assert (-2001 < IZR (Int_part l) < 2001) as (J1 & J2) by lra. apply lt_IZR in J1, J2. lia.
    + apply Rabs_lt. lra.
Qed.

Definition fill_gate : arr double := mkarr DFloat [1%nat] [b_lit 53 1024 p53 e1024 (-9999)].
Lemma fill_missing : missing (b_lit 53 1024 p53 e1024 (-9999)).
Proof. exists (-9999). split; [apply (lit_int (-9999)); lia|lra]. Qed.
Example C110_a_missing_gate np1 : let _ := double_ops np1 lm_edge in
  exists out, calc_blended_rain (AArr fill_gate) (AArr fill_gate) (AArr fill_gate) false "S" rain_defaults = Ok (RainArr [1%nat] out) /\
    nth_error (out_meth out) 0 = Some 5%Z /\ nth_error (out_rain out) 0 = Some B754_nan.
Proof.
  cbv zeta. destruct (C110_blended_S_all_missing_is_nan np1 lm_edge (proj2 C110_libm_exists) fill_gate fill_gate fill_gate false
    (@rain_defaults _ (double_ops np1 lm_edge)) _ _ eq_refl eq_refl eq_refl eq_refl eq_refl eq_refl
    (C110_defaults_are_usual np1 lm_edge) (@line_cr1995 _ (double_ops np1 lm_edge) (@rain_defaults _ (double_ops np1 lm_edge)) eq_refl eq_refl)) as (out & E & G).
  exists out. split; [exact E|]. destruct (G 0%nat _ _ eq_refl eq_refl fill_missing fill_missing) as (G1 & G2 & _). auto.
Qed.
