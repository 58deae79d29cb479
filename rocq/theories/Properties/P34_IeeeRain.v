(** * C95: accuracy of the default rain rates in double precision *)
From Coq Require Import Reals Lra Lia ZArith QArith Qreals.
From Flocq Require Import Core IEEE754.BinarySingleNaN.
From Verif Require Import Base.Num Base.ListFacts Base.XReal Base.Ieee Spec.IeeeSpec Base.RelErr.
From Verif Require Import Model.Common Model.BlendedRain Model.Tropical Spec.RainSpec Spec.RainDefaultSpec.
From Verif Require Import Proofs.RainProofs Proofs.IeeeSign Proofs.IeeeRain Properties.P02_Rain Properties.P28_Ieee.
Open Scope R_scope.

(** [x] is the real [v] up to one part in 10^13 *)
Definition near (x : double) (v : R) : Prop :=
  exists w, dval x = Fin w /\ Rabs (w - v) <= 1 / 10 ^ 13 * Rabs v.
(** zero, or not smaller than e^-300 (about 10^-130), and at most [m] *)
Definition within (m v : R) : Prop := (v = 0 \/ exp (-300) <= Rabs v) /\ Rabs v <= m.
(** how a stored Kdp is read: the double nearest 0.3 is the number 0.3 (the
    threshold), any other double is what it stands for *)
Definition reads (z : double) (k : R) : Prop :=
  k = 0.3 /\ dval z = drnd 0.3 \/ dval z = Fin k /\ dval z <> drnd 0.3.

(** gate i of the three fields, for numbers of the sizes a radar measures *)
Record measured (dz zdr kdp : arr double) (i : nat) (d r k : R) : Prop := {
  at_dz : exists x, nth_error (adata dz) i = Some x /\ dval x = Fin d;
  at_zdr : exists x, nth_error (adata zdr) i = Some x /\ dval x = Fin r;
  at_kdp : exists x, nth_error (adata kdp) i = Some x /\ reads x k;
  dz_range : within 100 d; zdr_range : within 20 r; kdp_range : k <= 100 }.
Definition double_fields (dz zdr kdp : arr double) : Prop :=
  adt dz = DFloat /\ ashape dz = ashape zdr /\ ashape dz = ashape kdp /\
  arr_ok dz /\ arr_ok zdr /\ arr_ok kdp.

Lemma apx_near n x v : apx (n * eta) x v -> n <= 600 -> near x v.
Proof.
  intros A L. pose proof eta_small as Es. pose proof eta_pos as Ep.
  destruct (apx_error _ _ _ A) as (w & W & D); [nra|]. exists w. split; auto.
  apply Rle_trans with (1 := D). apply Rmult_le_compat_r; [apply Rabs_pos|].
  assert (B : bpow radix2 (-53) = / 9007199254740992) by (cbn; lra).
  assert (eta <= 113 / 10 ^ 18) by (unfold eta; rewrite B; lra). nra.
Qed.

(** exact literals *)
Lemma val_int n : (Z.abs n < 2 ^ 53)%Z -> dval (b_lit 53 1024 p53 e1024 (Qmake n 1)) = Fin (IZR n).
Proof.
  intro L. rewrite val_lit. cbn [Qnum Qden]. replace (IZR n / 1) with (IZR n) by field.
  apply rnd_int; auto. exact p53. exact e1024.
Qed.
Lemma fmt_bpow e : (-1000 <= e <= 1000)%Z -> drnd (bpow radix2 e) = Fin (bpow radix2 e).
Proof.
  intro He. apply rnd_fmt.
  - apply generic_format_bpow. unfold SpecFloat.fexp, SpecFloat.emin. lia.
  - rewrite Rabs_pos_eq by apply bpow_ge_0. apply bpow_lt. lia.
Qed.
Lemma val_half : dval (b_lit 53 1024 p53 e1024 0.5%Q) = Fin 0.5.
Proof.
  rewrite val_lit. cbn [Qnum Qden]. replace (5 / 10) with (bpow radix2 (-1)) by (cbn; lra).
  rewrite fmt_bpow by lia. f_equal. cbn. lra.
Qed.
Lemma val_quarter : dval (b_lit 53 1024 p53 e1024 0.25%Q) = Fin 0.25.
Proof.
  rewrite val_lit. cbn [Qnum Qden]. replace (25 / 100) with (bpow radix2 (-2)) by (cbn; lra).
  rewrite fmt_bpow by lia. f_equal. cbn. lra.
Qed.

(** the comparison with the stored 0.3 decides as with the number 0.3 *)
Lemma reads_le z k : reads z k -> Bleb (b_lit 53 1024 p53 e1024 0.3%Q) z = Rleb 0.3 k.
Proof.
  intro H. rewrite val_le, val_lit. cbn [Qnum Qden]. replace (3 / 10) with 0.3 by lra.
  destruct H as [(-> & ->)|(Z & N)].
  - rewrite (proj2 (Rleb_true 0.3 0.3)) by lra. apply rnd_mono; [exact p53|lra].
  - assert (K : drnd k = Fin k).
    { assert (Fz : is_finite z = true) by (destruct z; [reflexivity|destruct s; discriminate|discriminate|reflexivity]).
      rewrite (val_finite _ _ z Fz) in Z. injection Z as <-. now apply val_fmt. }
    rewrite Z. destruct (Rleb_spec 0.3 k) as [L|L].
    + rewrite <- K. now apply rnd_mono.
    + assert (M : xle (drnd k) (drnd 0.3) = true) by (apply rnd_mono; [exact p53|lra]).
      rewrite K in M. rewrite Z in N. destruct (drnd 0.3) as [t| | |] eqn:T; try reflexivity; try discriminate.
      cbn in M |- *. apply Rleb_true in M. apply Rleb_false. assert (t <> k) by congruence. lra.
Qed.
Lemma reads_apx z k : reads z k -> 0.3 <= k <= 100 -> apx eta z k /\ pb 10 k.
Proof.
  intros H K. split; [|apply pb_const; lra]. destruct H as [(-> & Z)|(Z & _)].
  - destruct (rnd_apx 0.3) as (d & D & E).
    { destruct (pb_le 10 500 0.3 ltac:(apply pb_const; lra) ltac:(lra)). rewrite Rabs_pos_eq by lra. split; assumption. }
    exists d. split; auto. congruence.
  - apply apx_le with 0; [now apply apx_exact|pose proof eta_pos; lra].
Qed.

(** ** Tropical coefficients *)
Definition band_letter (b : tband) : string := match b with TS => "S" | TC => "C" | TX => "X" end.
(** the arguments select the relations of band [b] *)
Definition selects {F} `{FloatOps F} (predef band : string) (o : trop_opts F) (b : tband) : Prop :=
  t_thresh_dz o = flit 38%Q /\ t_thresh_zdr o = flit 0.25%Q /\ t_thresh_kdp o = flit 0.3%Q /\
  (predef = "True"%string /\ band = band_letter b \/
   predef <> "True"%string /\ o = trop_defaults /\ b = TS).
Lemma selects_thompson {F} `{FloatOps F} predef band (o : trop_opts F) b : selects predef band o b -> thompson (band_letter b) (trop_coefs predef band o).
Proof.
  intros (T1 & T2 & T3 & [[-> ->]|(Hp & -> & ->)]).
  - unfold trop_coefs. destruct b; cbn; repeat split; discriminate.
  - unfold trop_coefs. apply String.eqb_neq in Hp. rewrite Hp. cbn. repeat split; discriminate.
Qed.

Section Acc.
Variables (np1 : bool) (lm : libm double).
Hypothesis PA : pow_accurate lm.
#[local] Instance dopr : FloatOps double := double_ops np1 lm.

Ltac cf := lazymatch goal with
  | |- coef (fdiv _ _) _ => apply coef_div10
  | |- coef (flit _) _ => apply coef_lit end; cbn [Qnum Qden];
  [lra | apply pb_const; first [rewrite Rabs_pos_eq by lra; lra | rewrite Rabs_left by lra; lra]].
Ltac ab := first [rewrite Rabs_pos_eq by lra; lra | rewrite Rabs_left by lra; lra].

Lemma z_near (qa qb : Q) ca cb z d :
  IZR (Qnum qa) / IZR (Zpos (Qden qa)) = ca -> IZR (Qnum qb) / IZR (Zpos (Qden qb)) = cb ->
  1 <= ca <= 1000 -> 1 <= cb <= 2 -> dval z = Fin d -> within 100 d ->
  near (R_Z (flit qa) (flit qb) z) (Rpower (Zlin d / ca) (1 / cb)).
Proof.
  intros Ea Eb Ha Hb Z (T & U). apply apx_near with 300; [|lra].
  apply R_Z_apx; auto.
  - apply coef_lit; auto. rewrite Rabs_pos_eq by lra. apply pb_const; lra.
  - apply coef_lit; auto. rewrite Rabs_pos_eq by lra. apply pb_const; lra.
  - apply pb_const; lra.
Qed.
Lemma nexrad_near z d : dval z = Fin d -> within 100 d ->
  near (R_Z_capped (flit 53%Q) (flit 300%Q) (flit 1.4%Q) z) (nexrad d).
Proof.
  intros Z W. unfold R_Z_capped, nexrad.
  assert (C : flt (flit 53%Q) z = Rltb 53 d).
  { change (Bltb (b_lit 53 1024 p53 e1024 53%Q) z = Rltb 53 d). rewrite val_lt, (val_int 53), Z by (cbn; lia). reflexivity. }
  rewrite C. destruct (Rltb_spec 53 d).
  - rewrite Rmin_right by lra. apply z_near; cbn [Qnum Qden]; try lra.
    + exact (val_int 53 ltac:(cbn; lia)).
    + split; [right|]; ab || (rewrite Rabs_pos_eq by lra).
      apply Rle_trans with (exp 0); [apply exp_le_mono; lra|rewrite exp_0; lra].
  - rewrite Rmin_left by lra. apply z_near; cbn [Qnum Qden]; try lra; auto.
Qed.
Lemma by_kdp_near z k : reads z k -> 0.3 <= k <= 100 ->
  near (R_Kdp (flit 40.5%Q) (flit 0.85%Q) z) (by_kdp k).
Proof.
  intros R K. destruct (reads_apx z k R K) as (A & B). unfold by_kdp.
  destruct (kdp_apx np1 lm PA (flit 40.5%Q) (flit 0.85%Q) z 40.5 0.85 k) as (E & _); auto; try cf; try lra.
  - apply pb_const; lra.
  - apply apx_near with 40; auto. lra.
Qed.
Lemma by_kdp_zdr_near z w k r : reads z k -> 0.3 <= k <= 100 -> dval w = Fin r -> within 20 r ->
  near (R_Kdp_Zdr (flit 90.8%Q) (flit 0.93%Q) (flit (-0.169)%Q) z w) (by_kdp_zdr k r).
Proof.
  intros R K W (T & U). destruct (reads_apx z k R K) as (A & B). unfold by_kdp_zdr.
  apply apx_near with 300; [|lra]. apply kdp_zdr_apx; auto; try cf; try lra.
  - apply pb_const; lra.
  - ab.
Qed.
Lemma by_z_zdr_near z w d r : dval z = Fin d -> within 100 d -> dval w = Fin r -> within 20 r ->
  near (R_Z_Zdr (flit 0.0067%Q) (flit 0.927%Q) (flit (-0.343)%Q) z w) (by_z_zdr d r).
Proof.
  intros Z (Td & Ud) W (T & U). unfold by_z_zdr.
  apply apx_near with 360; [|lra]. apply z_zdr_apx; auto; try cf; try lra.
  - apply pb_const; lra.
  - ab.
Qed.

Lemma le38 z d : dval z = Fin d -> fle (flit 38%Q) z = Rleb 38 d.
Proof. intro Z. change (Bleb (b_lit 53 1024 p53 e1024 38%Q) z = Rleb 38 d). rewrite val_le, (val_int 38), Z by (cbn; lia). reflexivity. Qed.
Lemma le05 z d : dval z = Fin d -> fle (flit 0.5%Q) z = Rleb 0.5 d.
Proof. intro Z. change (Bleb (b_lit 53 1024 p53 e1024 0.5%Q) z = Rleb 0.5 d). rewrite val_le, val_half, Z. reflexivity. Qed.
Lemma le025 z d : dval z = Fin d -> fle (flit 0.25%Q) z = Rleb 0.25 d.
Proof. intro Z. change (Bleb (b_lit 53 1024 p53 e1024 0.25%Q) z = Rleb 0.25 d). rewrite val_le, val_quarter, Z. reflexivity. Qed.
Lemma le03 z k : reads z k -> fle (flit 0.3%Q) z = Rleb 0.3 k.
Proof. exact (reads_le z k). Qed.
Lemma near0 : near (flit 0%Q) 0.
Proof. exists 0. split; [exact (val_int 0 ltac:(cbn; lia))|]. rewrite Rminus_diag_eq, Rabs_R0; lra. Qed.

Ltac est := lazymatch goal with
  | |- near (R_Z_capped _ _ _ _) _ => apply nexrad_near
  | |- near (R_Kdp _ _ _) _ => apply by_kdp_near
  | |- near (R_Kdp_Zdr _ _ _ _ _) _ => apply by_kdp_zdr_near
  | |- near (R_Z_Zdr _ _ _ _ _) _ => apply by_z_zdr_near
  end.

(** calc_rain_nexrad, default keywords *)
Theorem C95_nexrad (dz : arr double) : exists out,
  calc_rain_nexrad (AArr dz) (flit 53%Q) (flit 300%Q) (flit 1.4%Q) = Ok (ashape dz, out) /\
  forall i x d, nth_error (adata dz) i = Some x -> dval x = Fin d -> within 100 d ->
    exists y, nth_error out i = Some y /\ near y (nexrad d).
Proof.
  destruct (C07_nexrad_gate_by_gate dz (flit 53%Q) (flit 300%Q) (flit 1.4%Q)) as (out & E & _ & D).
  exists out. split; auto. intros i x d Ex Z W. eexists. split; [apply (D i x Ex)|].
  exact (nexrad_near x d Z W).
Qed.

(** calc_blended_rain at S band.  Whether a gate counts as icy is the outcome
    [ice] of a rounded comparison; everything else is as in exact arithmetic, and
    methods 1 to 4 give the rate to 13 digits. *)
Definition blended_S_given (icefree : bool) (d r k : R) : option (Z * R) :=
  if Rle_dec 38 d then
    if Rle_dec 0.3 k then
      if Rle_dec 0.5 r then Some (if icefree then (1%Z, by_kdp_zdr k r) else (2%Z, by_kdp k)) else Some (2%Z, by_kdp k)
    else if icefree then Some (if Rle_dec 0.5 r then (3%Z, by_z_zdr d r) else (4%Z, nexrad d)) else None
  else if icefree then Some (if Rle_dec 0.5 r then (3%Z, by_z_zdr d r) else (4%Z, nexrad d)) else None.

Theorem C95_blended_S (dz zdr kdp : arr double) ice_flag : double_fields dz zdr kdp ->
  exists out, calc_blended_rain (AArr dz) (AArr zdr) (AArr kdp) ice_flag "S" rain_defaults
      = Ok (RainArr (ashape dz) out) /\
    forall i d r k, measured dz zdr kdp i d r k ->
      exists icefree, 
        match blended_S_given icefree d r k with
        | Some (m, v) => nth_error (out_meth out) i = Some m /\
            exists y, nth_error (out_rain out) i = Some y /\ near y v
        | None => nth_error (out_meth out) i = Some 5%Z
        end.
Proof.
  intros (T & S1 & S2 & O1 & O2 & O3).
  destruct (C08_blended_S_decision_tree dz zdr kdp ice_flag (rain_defaults (F:=double)) (flit 0.9091%Q) (flit 8.5091%Q) S1 S2 O1 O2 O3)
    as (out & E & _ & _ & _ & D); [now apply line_cr1995|].
  exists out. split; [exact E|]. intros i d r k [(x & Ex & X) (w & Ew & W) (z & Ez & Z) Rd Rr Rk].
  destruct (D i _ _ _ Ex Ew Ez) as (D1 & D2 & _). clear D E.
  rewrite T in D2. unfold cast in D2. cbn [thresh_frac_ice thresh_dz thresh_kdp thresh_zdr rain_defaults] in D1, D2.
  set (icf := flt _ (flit 0.1%Q)) in D1, D2. exists icf. clearbody icf.
  rewrite (le38 x d X), (le03 z k Z), (le05 w r W) in D1, D2.
  unfold blended_S_given.
  destruct (Rleb_spec 38 d), (Rleb_spec 0.3 k), (Rleb_spec 0.5 r), (Rle_dec 38 d), (Rle_dec 0.3 k), (Rle_dec 0.5 r); try lra;
    destruct icf; cbn [blended_S_method andb rate_of_method r_z_a r_z_b r_kdp_a r_kdp_b r_z_zdr_a
        r_z_zdr_b r_z_zdr_c r_kdp_zdr_a r_kdp_zdr_b r_kdp_zdr_c thresh_nexrad rain_defaults] in D1, D2;
    try exact D1; (split; [exact D1|]); eexists; (split; [exact D2|]);
    est; auto; lra.
Qed.

(** the other bands: method codes exact, rates to 13 digits *)
Theorem C95_blended_other (dz zdr kdp : arr double) ice_flag band : band <> "S"%string -> double_fields dz zdr kdp ->
  exists out, calc_blended_rain (AArr dz) (AArr zdr) (AArr kdp) ice_flag band rain_defaults
      = Ok (RainArr (ashape dz) out) /\
    forall i d r k, measured dz zdr kdp i d r k ->
      nth_error (out_meth out) i = Some (fst (blended_other d k)) /\
      exists y, nth_error (out_rain out) i = Some y /\ near y (snd (blended_other d k)).
Proof.
  intros Hb (T & S1 & S2 & O1 & O2 & O3).
  destruct (C09_blended_other_bands dz zdr kdp ice_flag band (rain_defaults (F:=double)) Hb S1 S2 O1 O3)
    as (out & E & _ & _ & _ & D).
  exists out. split; [exact E|]. intros i d r k [(x & Ex & X) (w & Ew & W) (z & Ez & Z) Rd Rr Rk].
  destruct (D i _ _ Ex Ez) as (Dh & Dl). clear D E.
  cbn [thresh_dz thresh_kdp rain_defaults] in Dh, Dl.
  rewrite (le38 x d X), (le03 z k Z) in Dh, Dl. rewrite T in Dh, Dl; unfold cast in Dh, Dl.
  unfold blended_other. destruct (Rle_dec 38 d); [destruct (Rle_dec 0.3 k)|]; cbn [fst snd].
  - destruct Dh as [-> Dh]; [rewrite !Rleb_true; lra|]. split; auto. eexists. split; [exact Dh|].
    apply by_kdp_near; auto.
  - destruct Dl as [-> Dl]; [rewrite !Rleb_true; lra|]. split; auto. eexists. split; [exact Dl|]. now apply nexrad_near.
  - destruct Dl as [-> Dl]; [rewrite !Rleb_true; lra|]. split; auto. eexists. split; [exact Dl|]. now apply nexrad_near.
Qed.

(** ** csu_hidro_rain *)
Lemma val_class c f n : (0 <= n <= 10)%Z -> dval f = Fin c -> feq f (flit (Qmake n 1)) = Reqb c (IZR n).
Proof.
  intros Hn E. change (Beqb f (b_lit 53 1024 p53 e1024 (Qmake n 1)) = Reqb c (IZR n)).
  rewrite val_eq, val_int, E; auto. lia.
Qed.
Lemma phase_val c f : dval f = Fin c ->
  (phase_of f = Rain <-> is_rain_class c) /\ (phase_of f = Ice <-> is_ice_class c).
Proof.
  intro E. unfold phase_of, is_rain_class, is_ice_class.
  rewrite (val_class c f 1), (val_class c f 2), (val_class c f 10), (val_class c f 5), (val_class c f 7),
    (val_class c f 8), (val_class c f 9) by (lia || auto).
  destruct (Reqb_spec c 1), (Reqb_spec c 2), (Reqb_spec c 10), (Reqb_spec c 5), (Reqb_spec c 7), (Reqb_spec c 8), (Reqb_spec c 9);
    cbn [orb]; split; split; intro; try discriminate; try lra; auto.
Qed.

Theorem C95_hidro_S (dz zdr kdp fhc : arr double) : double_fields dz zdr kdp -> ashape dz = ashape fhc -> arr_ok fhc ->
  exists out, csu_hidro_rain (AArr dz) (AArr zdr) (AArr kdp) (AArr fhc) "S" rain_defaults
      = Ok (RainArr (ashape dz) out) /\
    forall i d r k f c, measured dz zdr kdp i d r k -> nth_error (adata fhc) i = Some f -> dval f = Fin c ->
      let got m v := nth_error (out_meth out) i = Some m /\ exists y, nth_error (out_rain out) i = Some y /\ near y v in
      (is_rain_class c -> got (fst (hidro_S_rain d r k)) (snd (hidro_S_rain d r k))) /\
      (is_ice_class c -> got (fst (hidro_S_ice k)) (snd (hidro_S_ice k))) /\
      (~ is_rain_class c -> ~ is_ice_class c -> got 0%Z 0).
Proof.
  intros (T & S1 & S2 & O1 & O2 & O3) S3 O4.
  destruct (C13_hidro_S_decision_tree dz zdr kdp fhc (rain_defaults (F:=double)) S1 S2 S3 O1 O2 O3 O4)
    as (out & E & _ & _ & _ & D).
  exists out. split; [exact E|]. intros i d r k f c [(x & Ex & X) (w & Ew & W) (z & Ez & Z) Rd Rr Rk] Ef Hf got.
  destruct (D i _ _ _ _ Ex Ew Ez Ef (class_sane_ieee 53 1024 24 128 p53 e1024 p24 e128 np1 lm ltac:(lia) f)) as (D1 & D2). clear D E.
  rewrite T in D2. unfold cast in D2.
  cbn [thresh_dz thresh_kdp thresh_zdr rain_defaults] in D1, D2.
  rewrite (le38 x d X), (le03 z k Z), (le05 w r W) in D1, D2.
  destruct (phase_val c f Hf) as (PR & PI). unfold got. split; [|split].
  - intro Hc. apply PR in Hc. rewrite Hc in D1, D2. unfold hidro_S_rain.
    destruct (Rleb_spec 38 d), (Rleb_spec 0.3 k), (Rleb_spec 0.5 r), (Rle_dec 38 d), (Rle_dec 0.3 k), (Rle_dec 0.5 r); try lra;
    cbn [hidro_S_method Z.eqb Pos.eqb rate_of_method fst snd r_z_a r_z_b r_kdp_a r_kdp_b r_z_zdr_a
        r_z_zdr_b r_z_zdr_c r_kdp_zdr_a r_kdp_zdr_b r_kdp_zdr_c rain_defaults] in D1, D2 |- *;
    (split; [exact D1|]); eexists; (split; [exact D2|]);
    est; auto; lra.
  - intro Hc. apply PI in Hc. rewrite Hc in D1, D2. unfold hidro_S_ice.
    destruct (Rleb_spec 0.3 k), (Rle_dec 0.3 k); try lra;
    cbn [hidro_S_method Z.eqb Pos.eqb rate_of_method fst snd r_kdp_a r_kdp_b rain_defaults] in D1, D2 |- *;
    (split; [exact D1|]); eexists; (split; [exact D2|]).
    + apply by_kdp_near; auto; lra.
    + apply near0.
  - intros H1 H2. rewrite <- PR in H1. rewrite <- PI in H2.
    destruct (phase_of f); try (exfalso; auto; fail). cbn [hidro_S_method Z.eqb] in D1, D2.
    split; auto. eexists. split; [exact D2|apply near0].
Qed.

Theorem C95_hidro_other (dz zdr kdp fhc : arr double) band : band <> "S"%string ->
  double_fields dz zdr kdp -> ashape dz = ashape fhc -> arr_ok fhc ->
  exists out, csu_hidro_rain (AArr dz) (AArr zdr) (AArr kdp) (AArr fhc) band rain_defaults
      = Ok (RainArr (ashape dz) out) /\
    forall i d r k f c, measured dz zdr kdp i d r k -> nth_error (adata fhc) i = Some f -> dval f = Fin c ->
      let got m v := nth_error (out_meth out) i = Some m /\ exists y, nth_error (out_rain out) i = Some y /\ near y v in
      (38 <= d -> 0.3 <= k -> got 2%Z (by_kdp k)) /\
      (d < 38 \/ k < 0.3 -> is_rain_class c -> got 4%Z (nexrad d)) /\
      (d < 38 \/ k < 0.3 -> ~ is_rain_class c -> got 2%Z 0).
Proof.
  intros Hb (T & S1 & S2 & O1 & O2 & O3) S3 O4.
  destruct (C14_hidro_other_bands dz zdr kdp fhc band (rain_defaults (F:=double)) Hb S1 S2 S3 O1 O3 O4)
    as (out & E & _ & _ & _ & D).
  exists out. split; [exact E|]. intros i d r k f c [(x & Ex & X) (w & Ew & W) (z & Ez & Z) Rd Rr Rk] Ef Hf got.
  destruct (D i _ _ _ Ex Ez Ef) as (D1 & D2 & D3). clear D E.
  rewrite T in *. unfold cast in *. cbn [thresh_dz thresh_kdp rain_defaults] in *.
  rewrite (le38 x d X), (le03 z k Z) in *. destruct (phase_val c f Hf) as (PR & _). unfold got.
  split; [|split].
  - intros H1 H2. destruct D1 as [-> D1]; [apply andb_true_iff; rewrite !Rleb_true; lra|].
    split; auto. eexists. split; [exact D1|]. apply by_kdp_near; auto.
  - intros H1 H2. apply PR in H2.
    destruct D2 as [-> D2]; auto; [apply andb_false_iff; rewrite !Rleb_false; lra|].
    split; auto. eexists. split; [exact D2|]. now apply nexrad_near.
  - intros H1 H2. rewrite <- PR in H2.
    destruct D3 as [-> D3]; auto; [apply andb_false_iff; rewrite !Rleb_false; lra|].
    split; auto. eexists. split; [exact D3|apply near0].
Qed.

(** ** Tropical *)
Lemma trop_near b co x w z d r k : thompson (band_letter b) co ->
  dval x = Fin d -> dval w = Fin r -> reads z k -> within 100 d -> within 20 r -> k <= 100 ->
  (0.3 <= k -> near (trop_rate_of_method co 1 x w z) (t_kdp_zdr b k r)) /\
  (0.3 <= k -> near (trop_rate_of_method co 2 x w z) (t_kdp b k)) /\
  near (trop_rate_of_method co 3 x w z) (t_z_zdr b d r) /\
  near (trop_rate_of_method co 4 x w z) (t_z_all d) /\
  near (trop_rate_of_method co 5 x w z) (t_z_conv d) /\
  near (trop_rate_of_method co 6 x w z) (t_z_strat d).
Proof.
  intros (A1 & A2 & A3 & A4 & A5 & A6 & HS & HC & HX) X W Z Rd (Tr & Ur) Rk. cbn [trop_rate_of_method].
  rewrite A1, A2, A3, A4, A5, A6.
  split; [|split; [|split]].
  4:{ unfold t_z_all, t_z_conv, t_z_strat. split; [|split]; apply z_near; cbn [Qnum Qden]; auto; lra. }
  - intro K. destruct (reads_apx z k Z ltac:(lra)) as (A & B). apply apx_near with 300; [|lra].
    destruct b; cbn [band_letter] in *;
    [specialize (HS eq_refl); destruct HS as (E1 & E2 & E3 & E4 & E5 & E6 & E7 & E8)
    |specialize (HC eq_refl); destruct HC as (E1 & E2 & E3 & E4 & E5 & E6 & E7 & E8)
    |specialize (HX eq_refl); destruct HX as (E1 & E2 & E3 & E4 & E5 & E6 & E7 & E8)];
    rewrite ?E1, ?E2, ?E3, ?E4, ?E5, ?E6, ?E7, ?E8;
    unfold t_kdp_zdr; apply kdp_zdr_apx; auto; try cf; try lra; try ab; apply pb_const; lra.
  - intro K. destruct (reads_apx z k Z ltac:(lra)) as (A & B). apply apx_near with 40; [|lra].
    destruct b; cbn [band_letter] in *;
    [specialize (HS eq_refl); destruct HS as (E1 & E2 & E3 & E4 & E5 & E6 & E7 & E8)
    |specialize (HC eq_refl); destruct HC as (E1 & E2 & E3 & E4 & E5 & E6 & E7 & E8)
    |specialize (HX eq_refl); destruct HX as (E1 & E2 & E3 & E4 & E5 & E6 & E7 & E8)];
    rewrite ?E1, ?E2, ?E3, ?E4, ?E5, ?E6, ?E7, ?E8;
    unfold t_kdp; apply kdp_apx; auto; try cf; try lra; try ab; apply pb_const; lra.
  - destruct Rd as (Td & Ud). apply apx_near with 360; [|lra].
    destruct b; cbn [band_letter] in *;
    [specialize (HS eq_refl); destruct HS as (E1 & E2 & E3 & E4 & E5 & E6 & E7 & E8)
    |specialize (HC eq_refl); destruct HC as (E1 & E2 & E3 & E4 & E5 & E6 & E7 & E8)
    |specialize (HX eq_refl); destruct HX as (E1 & E2 & E3 & E4 & E5 & E6 & E7 & E8)];
    rewrite ?E1, ?E2, ?E3, ?E4, ?E5, ?E6, ?E7, ?E8;
    unfold t_z_zdr; apply z_zdr_apx; auto; try cf; try lra; try ab; apply pb_const; lra.
Qed.

(** what the convective/stratiform argument says at a gate *)
Inductive echo_is (cs : pyarg double) (i : nat) : echo -> Prop :=
  | is_none : cs = ANone -> echo_is cs i NoMap
  | is_strat x : field_at cs i (Some x) -> dval x = Fin 1 -> echo_is cs i Strat
  | is_conv x : field_at cs i (Some x) -> dval x = Fin 2 -> echo_is cs i Conv
  | is_mixed x : field_at cs i (Some x) -> dval x = Fin 3 -> echo_is cs i Mixed.

Theorem C95_tropical (dz zdr kdp : arr double) (cs : pyarg double) predef band (o : trop_opts double) (b : tband) :
  double_fields dz zdr kdp -> field_ok (ashape dz) cs -> selects predef band o b ->
  exists rain meth,
    calc_blended_rain_tropical (AArr dz) (AArr zdr) (AArr kdp) cs ANone predef band o
      = Ok (true, ashape dz, rain, meth) /\
    forall i d r k e, measured dz zdr kdp i d r k -> echo_is cs i e ->
      nth_error meth i = Some (fst (tropical b e d r k)) /\
      exists y, nth_error rain i = Some y /\ near y (snd (tropical b e d r k)).
Proof.
  intros (T & S1 & S2 & O1 & O2 & O3) Hcs Hco.
  destruct (C16_tropical_without_fhc dz zdr kdp cs predef band o S1 S2 O1 O2 O3 Hcs)
    as (rain & meth & E & _ & _ & D).
  exists rain, meth. split; [exact E|]. intros i d r k e [(x & Ex & X) (w & Ew & W) (z & Ez & Z) Rd Rr Rk] He. clear E.
  destruct (trop_near b _ x w z d r k (selects_thompson _ _ _ _ Hco) X W Z Rd Rr Rk) as (R1 & R2 & R3 & R4 & R5 & R6).
  set (co := trop_coefs predef band o) in *. clearbody co. destruct Hco as (T1 & T2 & T3 & _).
  assert (Hc : exists c, field_at cs i c /\
     trop_method c false false = fst (t_z e d) /\
     (forall zk zh, (zk || zh)%bool = true -> trop_method c zk zh = trop_method None zk zh)).
  { inversion He as [N|c Fc Vc|c Fc Vc|c Fc Vc]; subst.
    - exists None. repeat split; auto.
    - exists (Some c). split; auto. split; [|intros [] []; try discriminate; reflexivity].
      cbn [trop_method]. rewrite (val_class 1 c 3), (val_class 1 c 1) by (lia || auto).
      rewrite (proj2 (Reqb_false 1 3)), (proj2 (Reqb_true 1 1)) by lra. reflexivity.
    - exists (Some c). split; auto. split; [|intros [] []; try discriminate; reflexivity].
      cbn [trop_method]. rewrite (val_class 2 c 3), (val_class 2 c 1), (val_class 2 c 2) by (lia || auto).
      rewrite (proj2 (Reqb_false 2 3)), (proj2 (Reqb_false 2 1)), (proj2 (Reqb_true 2 2)) by lra. reflexivity.
    - exists (Some c). split; auto. split; [|intros [] []; try discriminate; reflexivity].
      cbn [trop_method]. rewrite (val_class 3 c 3) by (lia || auto).
      rewrite (proj2 (Reqb_true 3 3)) by lra. reflexivity. }
  destruct Hc as (c & Hc & M0 & M1).
  destruct (D i _ _ _ c Ex Ew Ez Hc) as (Dlow & Dhi). clear D.
  rewrite T, T1, T2, T3 in *. unfold cast in *.
  rewrite (le38 x d X), (le03 z k Z), (le025 w r W) in *.
  assert (L10 : flt x (flit (-10)%Q) = Rltb d (-10)).
  { change (Bltb x (b_lit 53 1024 p53 e1024 (-10)%Q) = Rltb d (-10)). rewrite val_lt, (val_int (-10)), X by (cbn; lia). reflexivity. }
  rewrite L10 in *.
  unfold tropical. destruct (Rltb_spec d (-10)), (Rlt_dec d (-10)); try lra.
  { destruct Dlow as [-> ->]; auto. split; auto. eexists. split; [reflexivity|apply near0]. }
  destruct Dhi as (-> & _ & Dhi); auto.
  assert (Hz : t_z e d = (4%Z, t_z_all d) \/ t_z e d = (5%Z, t_z_conv d) \/ t_z e d = (6%Z, t_z_strat d))
    by (destruct e; auto).
  destruct (Rleb_spec 0.3 k) as [K|K], (Rleb_spec 38 d) as [L|L], (Rleb_spec 0.25 r) as [M|M]; cbn [andb] in Dhi |- *;
    destruct (Rle_dec 38 d); try lra; try (destruct (Rle_dec 0.3 k); try lra); destruct (Rle_dec 0.25 r); try lra.
  all: try (rewrite M1 in Dhi |- * by reflexivity; cbn [trop_method] in Dhi |- *; specialize (Dhi ltac:(discriminate));
            split; [reflexivity|]; eexists; split; [exact Dhi|]; cbn [snd]; auto; fail).
  all: rewrite M0 in Dhi |- *; destruct Hz as [Hz|[Hz|Hz]]; rewrite Hz in Dhi |- *; cbn [fst snd] in Dhi |- *.
  all: (split; [reflexivity|]); eexists; (split; [apply Dhi; discriminate|]); auto.
Qed.
End Acc.

(** ** The hypotheses are met *)
Example ex95_pow : pow_accurate lm_exact. Proof. exact lm_exact_accurate. Qed.
Definition dl (q : Q) : double := b_lit 53 1024 p53 e1024 q.
Definition ex95_dz := mkarr DFloat [2%nat] [dl 45; dl 20].
Definition ex95_zdr := mkarr DFloat [2%nat] [dl 2; dl 0].
Definition ex95_kdp := mkarr DFloat [2%nat] [dl 1; dl 0.3].
Example ex95_fields : double_fields ex95_dz ex95_zdr ex95_kdp. Proof. repeat split. Qed.
Lemma one_big : exp (-300) <= 1.
Proof. rewrite <- exp_0. apply exp_le_mono. lra. Qed.
(** a gate with Z = 45 dBZ, Zdr = 2 dB, Kdp = 1 deg/km, and one whose Kdp is typed as 0.3 *)
Example ex95_gates : measured ex95_dz ex95_zdr ex95_kdp 0 45 2 1 /\ measured ex95_dz ex95_zdr ex95_kdp 1 20 0 0.3.
Proof.
  pose proof one_big as B. split; split.
  - eexists. split; [reflexivity|]. exact (val_int 45 ltac:(cbn; lia)).
  - eexists. split; [reflexivity|]. exact (val_int 2 ltac:(cbn; lia)).
  - eexists. split; [reflexivity|]. right. unfold dl. rewrite (val_int 1 ltac:(cbn; lia)). split; [reflexivity|].
    intro E. destruct (reads_apx (dl 0.3) 0.3) as ((d & D & X) & _); [left; split; auto|lra|].
    + unfold dl. rewrite val_lit. cbn [Qnum Qden]. f_equal; lra.
    + unfold dl in X. rewrite val_lit in X. cbn [Qnum Qden] in X. replace (3 / 10) with 0.3 in X by lra.
      rewrite <- E in X. injection X as X. pose proof eta_small. pose proof (exp_near d eta D ltac:(lra)) as Y.
      apply Rabs_le_inv in Y. lra.
  - split; [right|]; rewrite Rabs_pos_eq; lra.
  - split; [right|]; rewrite Rabs_pos_eq; lra.
  - lra.
  - eexists. split; [reflexivity|]. exact (val_int 20 ltac:(cbn; lia)).
  - eexists. split; [reflexivity|]. exact (val_int 0 ltac:(cbn; lia)).
  - eexists. split; [reflexivity|]. left. split; auto. unfold dl. rewrite val_lit. cbn [Qnum Qden]. f_equal; lra.
  - split; [right|]; rewrite Rabs_pos_eq; lra.
  - split; [now left|]. rewrite Rabs_R0. lra.
  - lra.
Qed.
Example ex95_selects : selects (F:=double) (H:=double_ops false lm_exact) "True" "X"
  (@trop_defaults double (double_ops false lm_exact)) TX.
Proof. repeat split. left. split; reflexivity. Qed.
