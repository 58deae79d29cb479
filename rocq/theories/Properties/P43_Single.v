(** * C104: accuracy of the default rain rates for float32 fields *)
From Coq Require Import Reals Lra Lia ZArith QArith Qreals.
From Flocq Require Import Core IEEE754.BinarySingleNaN.
From Verif Require Import Base.Num Base.ListFacts Base.XReal Base.Ieee Spec.IeeeSpec Base.RelErr Base.Mixed.
From Verif Require Import Model.Common Model.BlendedRain Model.Tropical Spec.RainSpec Spec.RainDefaultSpec.
From Verif Require Import Proofs.RainProofs Proofs.IeeeSign Properties.P02_Rain Properties.P28_Ieee Properties.P34_IeeeRain.
From Verif Require Proofs.IeeeRain.
From Verif Require Import Proofs.SingleRain.
Import IeeeRain.
Open Scope R_scope.
#[local] Existing Instances p53 e1024 p24 e128.

(** the number stored in the float32 result is the real [v] up to one part in 10^4 *)
Definition near32 (x : mixed) (v : R) : Prop :=
  exists w, sval (stored x) = Fin w /\ Rabs (w - v) <= 1 / 10 ^ 4 * Rabs v.
(** zero, or not smaller than e^-60 (about 10^-26), and at most [m] *)
Definition within32 (m v : R) : Prop := (v = 0 \/ exp (-60) <= Rabs v) /\ Rabs v <= m.
(** the float32 threshold: the Python float 0.3, rounded once more *)
Definition thr32 : xr := rndx 24 128 (drnd 0.3).
(** how a stored Kdp is read: the float32 nearest 0.3 is the number 0.3 (the
    threshold), any other is what it stands for *)
Definition reads32 (z : single) (k : R) : Prop :=
  k = 0.3 /\ sval z = thr32 \/ sval z = Fin k /\ sval z <> thr32.

(** a float32 field with these elements *)
Definition field32 (sh : list nat) (l : list single) : arr mixed := mkarr DFloat sh (map Sg l).

(** gate i of three float32 fields, for numbers of the sizes a radar measures *)
Record measured32 (dz zdr kdp : list single) (i : nat) (d r k : R) : Prop := {
  s_dz : exists x, nth_error dz i = Some x /\ sval x = Fin d;
  s_zdr : exists x, nth_error zdr i = Some x /\ sval x = Fin r;
  s_kdp : exists x, nth_error kdp i = Some x /\ reads32 x k;
  s_dz_range : within32 100 d; s_zdr_range : within32 20 r; s_kdp_range : k <= 100 }.
Definition sized (sh : list nat) (dz zdr kdp : list single) : Prop :=
  length dz = prod sh /\ length zdr = prod sh /\ length kdp = prod sh.

Lemma mapx_near n x v : mapx (n * et) x v /\ pb 70 v -> n <= 800 -> near32 x v.
Proof.
  intros (A & P) L. assert (Et : 0 < et < 1 / 10000000) by (rewrite et_val; lra).
  destruct (mapx_error _ _ _ A) as (w & W & D); [apply pb_safe32 with 70; auto; lra|nra|]. exists w. split; auto.
  apply Rle_trans with (1 := D). apply Rmult_le_compat_r; [apply Rabs_pos|]. rewrite et_val. lra.
Qed.

(** numbers exact in both formats *)
Lemma srnd_int n : (Z.abs n < 2 ^ 24)%Z -> srnd (IZR n) = Fin (IZR n).
Proof. intro L. apply rnd_int; auto. exact p24. exact e128. Qed.
Lemma sstored_int n : (Z.abs n < 2 ^ 24)%Z -> sval (stored (Wd (b_lit 53 1024 p53 e1024 (Qmake n 1)))) = Fin (IZR n).
Proof. intro L. rewrite stored_val, (val_int n) by lia. cbn [rndx]. now apply srnd_int. Qed.
Lemma srnd_bpow e : (-100 <= e <= 100)%Z -> srnd (bpow radix2 e) = Fin (bpow radix2 e).
Proof.
  intro He. apply rnd_fmt.
  - apply generic_format_bpow. unfold SpecFloat.fexp, SpecFloat.emin. lia.
  - rewrite Rabs_pos_eq by apply bpow_ge_0. apply bpow_lt. lia.
Qed.
Lemma sstored_half : sval (stored (Wd (b_lit 53 1024 p53 e1024 0.5%Q))) = Fin 0.5.
Proof.
  rewrite stored_val, val_half. cbn [rndx]. replace 0.5 with (bpow radix2 (-1)) by (cbn; lra).
  apply srnd_bpow. lia.
Qed.
Lemma sstored_quarter : sval (stored (Wd (b_lit 53 1024 p53 e1024 0.25%Q))) = Fin 0.25.
Proof.
  rewrite stored_val, val_quarter. cbn [rndx]. replace 0.25 with (bpow radix2 (-2)) by (cbn; lra).
  apply srnd_bpow. lia.
Qed.
Lemma sstored_03 : sval (stored (Wd (b_lit 53 1024 p53 e1024 0.3%Q))) = thr32.
Proof. rewrite stored_val, val_lit. cbn [Qnum Qden]. unfold thr32. replace (3 / 10) with 0.3 by lra. reflexivity. Qed.

Lemma thr_apx : exists d, Rabs d <= 2 * et /\ thr32 = Fin (0.3 * exp d).
Proof.
  assert (Et : 0 < et < 1 / 10000000) by (rewrite et_val; lra).
  destruct (stored_apx et (Wd (b_lit 53 1024 p53 e1024 0.3%Q)) 0.3) as (d & D & X).
  - replace 0.3 with (IZR (Qnum 0.3%Q) / IZR (Zpos (Qden 0.3%Q))) at 3 by (cbn [Qnum Qden]; lra).
    apply (mapx_lit lm_stub (mklibm (fun x _ => x) (fun x => x) (fun x => x) (fun x => x) (fun x => x) (fun x => x) B754_nan)).
    cbn [Qnum Qden]. apply pb_safe32 with 8; [apply pb8_const|]; lra.
  - apply pb_safe32 with 8; [apply pb8_const|]; lra.
  - lra.
  - rewrite sstored_03 in X. exists d. split; auto. cbn [cost] in D. lra.
Qed.

(** comparing with the stored 0.3 decides as comparing with the number 0.3 *)
Lemma reads32_le z k : reads32 z k -> xle thr32 (sval z) = Rleb 0.3 k.
Proof.
  intro H. destruct thr_apx as (dt & Dt & Et). 
  assert (Mono : forall a b, a <= b -> xle (rndx 24 128 (drnd a)) (rndx 24 128 (drnd b)) = true).
  { intros a b L. pose proof (rnd_mono 53 1024 p53 a b L) as M.
    destruct (drnd a) as [ra| | |] eqn:Ea; destruct (drnd b) as [rb| | |] eqn:Eb; try discriminate M; cbn [rndx].
    all: try (apply rnd_mono; [exact p24|]; cbn in M; now apply Rleb_true in M).
    all: unfold rnd; repeat destruct (Rlt_bool _ _); reflexivity. }
  destruct H as [(-> & ->)|(Z & N)].
  - rewrite (proj2 (Rleb_true 0.3 0.3)) by lra. rewrite Et. cbn. apply Rleb_true. lra.
  - assert (Fz : is_finite z = true) by (destruct z; [reflexivity|destruct s; discriminate|discriminate|reflexivity]).
    assert (K : rndx 24 128 (drnd k) = Fin k).
    { rewrite (val_finite _ _ z Fz) in Z. injection Z as <-.
      assert (G : drnd (B2R z) = Fin (B2R z)).
      { apply rnd_fmt.
        - pose proof (generic_format_B2R 24 128 z) as G. revert G.
          apply generic_inclusion_mag. intros _. unfold SpecFloat.fexp, SpecFloat.emin. lia.
        - apply Rlt_trans with (bpow radix2 128); [apply abs_B2R_lt_emax|apply bpow_lt; lia]. }
      rewrite G. cbn [rndx]. now apply val_fmt. }
    rewrite Z. destruct (Rleb_spec 0.3 k) as [L|L].
    + rewrite <- K. now apply Mono.
    + assert (M : xle (rndx 24 128 (drnd k)) thr32 = true) by (apply Mono; lra).
      rewrite K in M. rewrite Z in N. rewrite Et in *.
      cbn in M |- *. apply Rleb_true in M. apply Rleb_false. assert (0.3 * exp dt <> k) by congruence. lra.
Qed.
Lemma reads32_apx z k : reads32 z k -> 0.3 <= k <= 100 -> mapx (2 * et) (Sg z) k /\ pb 8 k.
Proof.
  intros H K. split; [|apply pb8_const; lra]. destruct H as [(-> & Z)|(Z & _)].
  - destruct thr_apx as (d & D & E). exists d. split; auto. cbn [mval]. congruence.
  - apply mapx_le with 0; [now apply mapx_exact|rewrite et_val; lra].
Qed.

Section Acc.
Variables (lm : libm double) (lm32 : libm single).
Hypothesis PA : pow_accurate lm.
Hypothesis PF : powf_accurate lm32.
#[local] Instance moprr : FloatOps mixed := mixed_ops lm lm32.

Ltac cf := lazymatch goal with
  | |- scoef (fdiv _ _) _ => apply scoef_div10
  | |- scoef (flit _) _ => apply scoef_lit end; cbn [Qnum Qden];
  [lra | apply pb8_const; first [rewrite Rabs_pos_eq by lra; lra | rewrite Rabs_left by lra; lra]].
Ltac ab := first [rewrite Rabs_pos_eq by lra; lra | rewrite Rabs_left by lra; lra].

Lemma sz_near (qa qb : Q) ca cb z d :
  IZR (Qnum qa) / IZR (Zpos (Qden qa)) = ca -> IZR (Qnum qb) / IZR (Zpos (Qden qb)) = cb ->
  1 <= ca <= 1000 -> 1 <= cb <= 2 -> mval z = Fin d -> within32 100 d ->
  near32 (R_Z (flit qa) (flit qb) z) (Rpower (Zlin d / ca) (1 / cb)).
Proof.
  intros Ea Eb Ha Hb Z (T & U). apply mapx_near with 400; [|lra].
  destruct (sR_Z_apx lm lm32 PA PF (flit qa) (flit qb) z ca cb d) as (A & B); auto.
  - apply scoef_lit; auto. rewrite Rabs_pos_eq by lra. apply pb8_const; lra.
  - apply scoef_lit; auto. rewrite Rabs_pos_eq by lra. apply pb8_const; lra.
  - apply pb8_const; lra.
  - split; auto. apply pb_le with 32; auto. lra.
Qed.
Lemma snexrad_near z d : sval z = Fin d -> within32 100 d ->
  near32 (R_Z_capped (flit 53%Q) (flit 300%Q) (flit 1.4%Q) (Sg z)) (nexrad d).
Proof.
  intros Z W. unfold R_Z_capped, nexrad.
  assert (C : flt (flit 53%Q) (Sg z) = Rltb 53 d).
  { change (Bltb (stored (Wd (b_lit 53 1024 p53 e1024 53%Q))) z = Rltb 53 d).
    rewrite val_lt, (sstored_int 53), Z by (cbn; lia). reflexivity. }
  rewrite C. destruct (Rltb_spec 53 d).
  - rewrite Rmin_right by lra. apply sz_near; cbn [Qnum Qden]; try lra.
    + exact (val_int 53 ltac:(cbn; lia)).
    + split; [right|]; ab || (rewrite Rabs_pos_eq by lra).
      apply Rle_trans with (exp 0); [apply exp_le_mono; lra|rewrite exp_0; lra].
  - rewrite Rmin_left by lra. apply sz_near; cbn [Qnum Qden]; try lra; auto.
Qed.
Lemma sby_kdp_near z k : reads32 z k -> 0.3 <= k <= 100 ->
  near32 (R_Kdp (flit 40.5%Q) (flit 0.85%Q) (Sg z)) (by_kdp k).
Proof.
  intros R K. destruct (reads32_apx z k R K) as (A & B). unfold by_kdp.
  destruct (skdp_apx lm lm32 PA PF (flit 40.5%Q) (flit 0.85%Q) (Sg z) 40.5 0.85 k) as (E & E'); auto; try cf; try lra.
  - apply pb8_const; lra.
  - apply mapx_near with 100; [split; auto; apply pb_le with 16; auto|]; lra.
Qed.
Lemma sby_kdp_zdr_near z w k r : reads32 z k -> 0.3 <= k <= 100 -> sval w = Fin r -> within32 20 r ->
  near32 (R_Kdp_Zdr (flit 90.8%Q) (flit 0.93%Q) (flit (-0.169)%Q) (Sg z) (Sg w)) (by_kdp_zdr k r).
Proof.
  intros R K W (T & U). destruct (reads32_apx z k R K) as (A & B). unfold by_kdp_zdr.
  apply mapx_near with 500; [|lra]. apply skdp_zdr_apx; auto; try cf; try lra.
  - apply pb8_const; lra.
  - ab.
Qed.
Lemma sby_z_zdr_near z w d r : sval z = Fin d -> within32 100 d -> sval w = Fin r -> within32 20 r ->
  near32 (R_Z_Zdr (flit 0.0067%Q) (flit 0.927%Q) (flit (-0.343)%Q) (Sg z) (Sg w)) (by_z_zdr d r).
Proof.
  intros Z (Td & Ud) W (T & U). unfold by_z_zdr.
  apply mapx_near with 800; [|lra]. apply sz_zdr_apx; auto; try cf; try lra.
  - apply pb8_const; lra.
  - ab.
Qed.

Lemma sle38 z d : sval z = Fin d -> fle (flit 38%Q) (Sg z) = Rleb 38 d.
Proof. intro Z. change (Bleb (stored (Wd (b_lit 53 1024 p53 e1024 38%Q))) z = Rleb 38 d). rewrite val_le, (sstored_int 38), Z by (cbn; lia). reflexivity. Qed.
Lemma sle05 z d : sval z = Fin d -> fle (flit 0.5%Q) (Sg z) = Rleb 0.5 d.
Proof. intro Z. change (Bleb (stored (Wd (b_lit 53 1024 p53 e1024 0.5%Q))) z = Rleb 0.5 d). rewrite val_le, sstored_half, Z. reflexivity. Qed.
Lemma sle025 z d : sval z = Fin d -> fle (flit 0.25%Q) (Sg z) = Rleb 0.25 d.
Proof. intro Z. change (Bleb (stored (Wd (b_lit 53 1024 p53 e1024 0.25%Q))) z = Rleb 0.25 d). rewrite val_le, sstored_quarter, Z. reflexivity. Qed.
Lemma sle03 z k : reads32 z k -> fle (flit 0.3%Q) (Sg z) = Rleb 0.3 k.
Proof. intro R. change (Bleb (stored (Wd (b_lit 53 1024 p53 e1024 0.3%Q))) z = Rleb 0.3 k). rewrite val_le, sstored_03. now apply reads32_le. Qed.
Lemma snear0 : near32 (flit 0%Q) 0.
Proof. exists 0. split; [exact (sstored_int 0 ltac:(cbn; lia))|]. rewrite Rminus_diag_eq, Rabs_R0; lra. Qed.

Ltac est := lazymatch goal with
  | |- near32 (R_Z_capped _ _ _ _) _ => apply snexrad_near
  | |- near32 (R_Kdp _ _ _) _ => apply sby_kdp_near
  | |- near32 (R_Kdp_Zdr _ _ _ _ _) _ => apply sby_kdp_zdr_near
  | |- near32 (R_Z_Zdr _ _ _ _ _) _ => apply sby_z_zdr_near
  end.

Lemma at_Sg l i x : nth_error l i = Some x -> nth_error (map Sg l) i = Some (Sg x).
Proof. intro E. rewrite nth_error_map, E. reflexivity. Qed.
Lemma ok32 sh l : length l = prod sh -> arr_ok (field32 sh l).
Proof. intro E. unfold arr_ok, field32. cbn [adata ashape]. now rewrite map_length. Qed.

(** calc_rain_nexrad, default keywords *)
Theorem C104_nexrad sh (dz : list single) : exists out,
  calc_rain_nexrad (AArr (field32 sh dz)) (flit 53%Q) (flit 300%Q) (flit 1.4%Q) = Ok (sh, out) /\
  forall i x d, nth_error dz i = Some x -> sval x = Fin d -> within32 100 d ->
    exists y, nth_error out i = Some y /\ near32 y (nexrad d).
Proof.
  destruct (C07_nexrad_gate_by_gate (field32 sh dz) (flit 53%Q) (flit 300%Q) (flit 1.4%Q)) as (out & E & _ & D).
  exists out. split; [exact E|]. intros i x d Ex Z W. eexists. split; [apply (D i (Sg x) (at_Sg _ _ _ Ex))|].
  exact (snexrad_near x d Z W).
Qed.

(** calc_blended_rain at S band.  Whether a gate counts as icy is the outcome
    [icefree] of a rounded comparison; everything else is as in exact arithmetic, and
    methods 1 to 4 give the rate to four digits. *)
Theorem C104_blended_S sh (dz zdr kdp : list single) ice_flag : sized sh dz zdr kdp ->
  exists out, calc_blended_rain (AArr (field32 sh dz)) (AArr (field32 sh zdr)) (AArr (field32 sh kdp)) ice_flag "S" rain_defaults
      = Ok (RainArr sh out) /\
    forall i d r k, measured32 dz zdr kdp i d r k ->
      exists icefree, 
        match blended_S_given icefree d r k with
        | Some (m, v) => nth_error (out_meth out) i = Some m /\
            exists y, nth_error (out_rain out) i = Some y /\ near32 y v
        | None => nth_error (out_meth out) i = Some 5%Z
        end.
Proof.
  intros (O1 & O2 & O3).
  destruct (C08_blended_S_decision_tree (field32 sh dz) (field32 sh zdr) (field32 sh kdp) ice_flag (rain_defaults (F:=mixed)) (flit 0.9091%Q) (flit 8.5091%Q)
    eq_refl eq_refl (ok32 _ _ O1) (ok32 _ _ O2) (ok32 _ _ O3))
    as (out & E & _ & _ & _ & D); [now apply line_cr1995|].
  exists out. split; [exact E|]. intros i d r k [(x & Ex & X) (w & Ew & W) (z & Ez & Z) Rd Rr Rk].
  destruct (D i _ _ _ (at_Sg _ _ _ Ex) (at_Sg _ _ _ Ew) (at_Sg _ _ _ Ez)) as (D1 & D2 & _). clear D E.
  unfold cast, field32, adt in D2. cbn [thresh_frac_ice thresh_dz thresh_kdp thresh_zdr rain_defaults] in D1, D2.
  set (icf := flt _ (flit 0.1%Q)) in D1, D2. exists icf. clearbody icf.
  rewrite (sle38 x d X), (sle03 z k Z), (sle05 w r W) in D1, D2.
  unfold blended_S_given.
  destruct (Rleb_spec 38 d), (Rleb_spec 0.3 k), (Rleb_spec 0.5 r), (Rle_dec 38 d), (Rle_dec 0.3 k), (Rle_dec 0.5 r); try lra;
    destruct icf; cbn [blended_S_method andb rate_of_method r_z_a r_z_b r_kdp_a r_kdp_b r_z_zdr_a
        r_z_zdr_b r_z_zdr_c r_kdp_zdr_a r_kdp_zdr_b r_kdp_zdr_c thresh_nexrad rain_defaults] in D1, D2;
    try exact D1; (split; [exact D1|]); eexists; (split; [exact D2|]);
    est; auto; lra.
Qed.

(** the other bands: method codes exact, rates to four digits *)
Theorem C104_blended_other sh (dz zdr kdp : list single) ice_flag band : band <> "S"%string -> sized sh dz zdr kdp ->
  exists out, calc_blended_rain (AArr (field32 sh dz)) (AArr (field32 sh zdr)) (AArr (field32 sh kdp)) ice_flag band rain_defaults
      = Ok (RainArr sh out) /\
    forall i d r k, measured32 dz zdr kdp i d r k ->
      nth_error (out_meth out) i = Some (fst (blended_other d k)) /\
      exists y, nth_error (out_rain out) i = Some y /\ near32 y (snd (blended_other d k)).
Proof.
  intros Hb (O1 & O2 & O3).
  destruct (C09_blended_other_bands (field32 sh dz) (field32 sh zdr) (field32 sh kdp) ice_flag band (rain_defaults (F:=mixed)) Hb
     eq_refl eq_refl (ok32 _ _ O1) (ok32 _ _ O3))
    as (out & E & _ & _ & _ & D).
  exists out. split; [exact E|]. intros i d r k [(x & Ex & X) (w & Ew & W) (z & Ez & Z) Rd Rr Rk].
  destruct (D i _ _ (at_Sg _ _ _ Ex) (at_Sg _ _ _ Ez)) as (Dh & Dl). clear D E.
  cbn [thresh_dz thresh_kdp rain_defaults] in Dh, Dl.
  rewrite (sle38 x d X), (sle03 z k Z) in Dh, Dl. unfold cast, field32, adt in Dh, Dl.
  unfold blended_other. destruct (Rle_dec 38 d); [destruct (Rle_dec 0.3 k)|]; cbn [fst snd].
  - destruct Dh as [-> Dh]; [rewrite !Rleb_true; lra|]. split; auto. eexists. split; [exact Dh|].
    apply sby_kdp_near; auto.
  - destruct Dl as [-> Dl]; [rewrite !Rleb_true; lra|]. split; auto. eexists. split; [exact Dl|]. now apply snexrad_near.
  - destruct Dl as [-> Dl]; [rewrite !Rleb_true; lra|]. split; auto. eexists. split; [exact Dl|]. now apply snexrad_near.
Qed.

(** ** csu_hidro_rain *)
Lemma sval_class c f n : (0 <= n <= 10)%Z -> mval f = Fin c -> feq f (flit (Qmake n 1)) = Reqb c (IZR n).
Proof.
  intros Hn E. destruct f as [f|f]; cbn [mval] in E.
  - change (Beqb f (b_lit 53 1024 p53 e1024 (Qmake n 1)) = Reqb c (IZR n)).
    rewrite val_eq, val_int, E; auto. lia.
  - change (Beqb f (stored (Wd (b_lit 53 1024 p53 e1024 (Qmake n 1)))) = Reqb c (IZR n)).
    rewrite val_eq, sstored_int, E; auto. lia.
Qed.
Lemma sphase_val c f : mval f = Fin c ->
  (phase_of f = Rain <-> is_rain_class c) /\ (phase_of f = Ice <-> is_ice_class c).
Proof.
  intro E. unfold phase_of, is_rain_class, is_ice_class.
  rewrite (sval_class c f 1), (sval_class c f 2), (sval_class c f 10), (sval_class c f 5), (sval_class c f 7),
    (sval_class c f 8), (sval_class c f 9) by (lia || auto).
  destruct (Reqb_spec c 1), (Reqb_spec c 2), (Reqb_spec c 10), (Reqb_spec c 5), (Reqb_spec c 7), (Reqb_spec c 8), (Reqb_spec c 9);
    cbn [orb]; split; split; intro; try discriminate; try lra; auto.
Qed.
Lemma sclass_sane c f : mval f = Fin c -> class_sane f.
Proof.
  intros E H. apply (sphase_val c f E) in H. unfold is_rain_class in H.
  rewrite (sval_class c f 5), (sval_class c f 7), (sval_class c f 8), (sval_class c f 9) by (lia || auto).
  rewrite !Reqb_false. lra.
Qed.

(** the class codes may be of any floating type *)
Theorem C104_hidro_S sh (dz zdr kdp : list single) (fhc : arr mixed) : sized sh dz zdr kdp -> ashape fhc = sh -> arr_ok fhc ->
  exists out, csu_hidro_rain (AArr (field32 sh dz)) (AArr (field32 sh zdr)) (AArr (field32 sh kdp)) (AArr fhc) "S" rain_defaults
      = Ok (RainArr sh out) /\
    forall i d r k f c, measured32 dz zdr kdp i d r k -> nth_error (adata fhc) i = Some f -> mval f = Fin c ->
      let got m v := nth_error (out_meth out) i = Some m /\ exists y, nth_error (out_rain out) i = Some y /\ near32 y v in
      (is_rain_class c -> got (fst (hidro_S_rain d r k)) (snd (hidro_S_rain d r k))) /\
      (is_ice_class c -> got (fst (hidro_S_ice k)) (snd (hidro_S_ice k))) /\
      (~ is_rain_class c -> ~ is_ice_class c -> got 0%Z 0).
Proof.
  intros (O1 & O2 & O3) S3 O4.
  destruct (C13_hidro_S_decision_tree (field32 sh dz) (field32 sh zdr) (field32 sh kdp) fhc (rain_defaults (F:=mixed))
     eq_refl eq_refl (eq_sym S3) (ok32 _ _ O1) (ok32 _ _ O2) (ok32 _ _ O3) O4)
    as (out & E & _ & _ & _ & D).
  exists out. split; [exact E|]. intros i d r k f c [(x & Ex & X) (w & Ew & W) (z & Ez & Z) Rd Rr Rk] Ef Hf got.
  destruct (D i _ _ _ _ (at_Sg _ _ _ Ex) (at_Sg _ _ _ Ew) (at_Sg _ _ _ Ez) Ef (sclass_sane c f Hf)) as (D1 & D2). clear D E.
  unfold cast, field32, adt in D2.
  cbn [thresh_dz thresh_kdp thresh_zdr rain_defaults] in D1, D2.
  rewrite (sle38 x d X), (sle03 z k Z), (sle05 w r W) in D1, D2.
  destruct (sphase_val c f Hf) as (PR & PI). unfold got. split; [|split].
  - intro Hc. apply PR in Hc. rewrite Hc in D1, D2. unfold hidro_S_rain.
    destruct (Rleb_spec 38 d), (Rleb_spec 0.3 k), (Rleb_spec 0.5 r), (Rle_dec 38 d), (Rle_dec 0.3 k), (Rle_dec 0.5 r); try lra;
    cbn [hidro_S_method Z.eqb Pos.eqb rate_of_method fst snd r_z_a r_z_b r_kdp_a r_kdp_b r_z_zdr_a
        r_z_zdr_b r_z_zdr_c r_kdp_zdr_a r_kdp_zdr_b r_kdp_zdr_c rain_defaults] in D1, D2 |- *;
    (split; [exact D1|]); eexists; (split; [exact D2|]);
    est; auto; lra.
  - intro Hc. apply PI in Hc. rewrite Hc in D1, D2. unfold hidro_S_ice.
    destruct (Rleb_spec 0.3 k), (Rle_dec 0.3 k); try lra;
    cbn [hidro_S_method Z.eqb Pos.eqb rate_of_method fst snd r_kdp_a r_kdp_b rain_defaults] in D1, D2 |- *;
    (split; [exact D1|]); eexists; (split; [exact D2|]).
    + apply sby_kdp_near; auto; lra.
    + apply snear0.
  - intros H1 H2. rewrite <- PR in H1. rewrite <- PI in H2.
    destruct (phase_of f); try (exfalso; auto; fail). cbn [hidro_S_method Z.eqb] in D1, D2.
    split; auto. eexists. split; [exact D2|apply snear0].
Qed.

Theorem C104_hidro_other sh (dz zdr kdp : list single) (fhc : arr mixed) band : band <> "S"%string ->
  sized sh dz zdr kdp -> ashape fhc = sh -> arr_ok fhc ->
  exists out, csu_hidro_rain (AArr (field32 sh dz)) (AArr (field32 sh zdr)) (AArr (field32 sh kdp)) (AArr fhc) band rain_defaults
      = Ok (RainArr sh out) /\
    forall i d r k f c, measured32 dz zdr kdp i d r k -> nth_error (adata fhc) i = Some f -> mval f = Fin c ->
      let got m v := nth_error (out_meth out) i = Some m /\ exists y, nth_error (out_rain out) i = Some y /\ near32 y v in
      (38 <= d -> 0.3 <= k -> got 2%Z (by_kdp k)) /\
      (d < 38 \/ k < 0.3 -> is_rain_class c -> got 4%Z (nexrad d)) /\
      (d < 38 \/ k < 0.3 -> ~ is_rain_class c -> got 2%Z 0).
Proof.
  intros Hb (O1 & O2 & O3) S3 O4.
  destruct (C14_hidro_other_bands (field32 sh dz) (field32 sh zdr) (field32 sh kdp) fhc band (rain_defaults (F:=mixed)) Hb
     eq_refl eq_refl (eq_sym S3) (ok32 _ _ O1) (ok32 _ _ O3) O4)
    as (out & E & _ & _ & _ & D).
  exists out. split; [exact E|]. intros i d r k f c [(x & Ex & X) (w & Ew & W) (z & Ez & Z) Rd Rr Rk] Ef Hf got.
  destruct (D i _ _ _ (at_Sg _ _ _ Ex) (at_Sg _ _ _ Ez) Ef) as (D1 & D2 & D3). clear D E.
  unfold cast, field32, adt in *. cbn [thresh_dz thresh_kdp rain_defaults] in *.
  rewrite (sle38 x d X), (sle03 z k Z) in *. destruct (sphase_val c f Hf) as (PR & _). unfold got.
  split; [|split].
  - intros H1 H2. destruct D1 as [-> D1]; [apply andb_true_iff; rewrite !Rleb_true; lra|].
    split; auto. eexists. split; [exact D1|]. apply sby_kdp_near; auto.
  - intros H1 H2. apply PR in H2.
    destruct D2 as [-> D2]; auto; [apply andb_false_iff; rewrite !Rleb_false; lra|].
    split; auto. eexists. split; [exact D2|]. now apply snexrad_near.
  - intros H1 H2. rewrite <- PR in H2.
    destruct D3 as [-> D3]; auto; [apply andb_false_iff; rewrite !Rleb_false; lra|].
    split; auto. eexists. split; [exact D3|apply snear0].
Qed.

(** ** Tropical: the C- and X-band relations, or the default keywords (the
    predefined S-band coefficients of R(Kdp, Zdr) are tuples in the source, so
    that relation is computed in double) *)
Lemma strop_near b co x w z d r k : thompson (band_letter b) co ->
  sval x = Fin d -> sval w = Fin r -> reads32 z k -> within32 100 d -> within32 20 r -> k <= 100 ->
  (0.3 <= k -> near32 (trop_rate_of_method co 1 (Sg x) (Sg w) (Sg z)) (t_kdp_zdr b k r)) /\
  (0.3 <= k -> near32 (trop_rate_of_method co 2 (Sg x) (Sg w) (Sg z)) (t_kdp b k)) /\
  near32 (trop_rate_of_method co 3 (Sg x) (Sg w) (Sg z)) (t_z_zdr b d r) /\
  near32 (trop_rate_of_method co 4 (Sg x) (Sg w) (Sg z)) (t_z_all d) /\
  near32 (trop_rate_of_method co 5 (Sg x) (Sg w) (Sg z)) (t_z_conv d) /\
  near32 (trop_rate_of_method co 6 (Sg x) (Sg w) (Sg z)) (t_z_strat d).
Proof.
  intros (A1 & A2 & A3 & A4 & A5 & A6 & HS & HC & HX) X W Z Rd (Tr & Ur) Rk. cbn [trop_rate_of_method].
  rewrite A1, A2, A3, A4, A5, A6.
  split; [|split; [|split]].
  4:{ unfold t_z_all, t_z_conv, t_z_strat. split; [|split]; apply sz_near; cbn [Qnum Qden]; auto; lra. }
  - intro K. destruct (reads32_apx z k Z ltac:(lra)) as (A & B). apply mapx_near with 500; [|lra].
    destruct b; cbn [band_letter] in *;
    [specialize (HS eq_refl); destruct HS as (E1 & E2 & E3 & E4 & E5 & E6 & E7 & E8)
    |specialize (HC eq_refl); destruct HC as (E1 & E2 & E3 & E4 & E5 & E6 & E7 & E8)
    |specialize (HX eq_refl); destruct HX as (E1 & E2 & E3 & E4 & E5 & E6 & E7 & E8)];
    rewrite ?E1, ?E2, ?E3, ?E4, ?E5, ?E6, ?E7, ?E8;
    unfold t_kdp_zdr; apply skdp_zdr_apx; auto; try cf; try lra; try ab; apply pb8_const; lra.
  - intro K. destruct (reads32_apx z k Z ltac:(lra)) as (A & B). apply mapx_near with 100; [|lra].
    match goal with |- ?P /\ pb 70 ?v => cut (P /\ pb 16 v); [intros (? & Bb); split; auto; apply pb_le with 16; auto; lra|] end.
    destruct b; cbn [band_letter] in *;
    [specialize (HS eq_refl); destruct HS as (E1 & E2 & E3 & E4 & E5 & E6 & E7 & E8)
    |specialize (HC eq_refl); destruct HC as (E1 & E2 & E3 & E4 & E5 & E6 & E7 & E8)
    |specialize (HX eq_refl); destruct HX as (E1 & E2 & E3 & E4 & E5 & E6 & E7 & E8)];
    rewrite ?E1, ?E2, ?E3, ?E4, ?E5, ?E6, ?E7, ?E8;
    unfold t_kdp; apply skdp_apx; auto; try cf; try lra; try ab; apply pb8_const; lra.
  - destruct Rd as (Td & Ud). apply mapx_near with 800; [|lra].
    destruct b; cbn [band_letter] in *;
    [specialize (HS eq_refl); destruct HS as (E1 & E2 & E3 & E4 & E5 & E6 & E7 & E8)
    |specialize (HC eq_refl); destruct HC as (E1 & E2 & E3 & E4 & E5 & E6 & E7 & E8)
    |specialize (HX eq_refl); destruct HX as (E1 & E2 & E3 & E4 & E5 & E6 & E7 & E8)];
    rewrite ?E1, ?E2, ?E3, ?E4, ?E5, ?E6, ?E7, ?E8;
    unfold t_z_zdr; apply sz_zdr_apx; auto; try cf; try lra; try ab; apply pb8_const; lra.
Qed.

(** what the convective/stratiform argument says at a gate *)
Inductive echo_is32 (cs : pyarg mixed) (i : nat) : echo -> Prop :=
  | is_none32 : cs = ANone -> echo_is32 cs i NoMap
  | is_strat32 x : field_at cs i (Some x) -> mval x = Fin 1 -> echo_is32 cs i Strat
  | is_conv32 x : field_at cs i (Some x) -> mval x = Fin 2 -> echo_is32 cs i Conv
  | is_mixed32 x : field_at cs i (Some x) -> mval x = Fin 3 -> echo_is32 cs i Mixed.

Theorem C104_tropical sh (dz zdr kdp : list single) (cs : pyarg mixed) predef band (o : trop_opts mixed) (b : tband) :
  sized sh dz zdr kdp -> field_ok sh cs -> selects predef band o b -> (predef = "True"%string -> b <> TS) ->
  exists rain meth,
    calc_blended_rain_tropical (AArr (field32 sh dz)) (AArr (field32 sh zdr)) (AArr (field32 sh kdp)) cs ANone predef band o
      = Ok (true, sh, rain, meth) /\
    forall i d r k e, measured32 dz zdr kdp i d r k -> echo_is32 cs i e ->
      nth_error meth i = Some (fst (tropical b e d r k)) /\
      exists y, nth_error rain i = Some y /\ near32 y (snd (tropical b e d r k)).
Proof.
  intros (O1 & O2 & O3) Hcs Hco _.
  destruct (C16_tropical_without_fhc (field32 sh dz) (field32 sh zdr) (field32 sh kdp) cs predef band o
     eq_refl eq_refl (ok32 _ _ O1) (ok32 _ _ O2) (ok32 _ _ O3) Hcs)
    as (rain & meth & E & _ & _ & D).
  exists rain, meth. split; [exact E|]. intros i d r k e [(x & Ex & X) (w & Ew & W) (z & Ez & Z) Rd Rr Rk] He. clear E.
  destruct (strop_near b _ x w z d r k (selects_thompson _ _ _ _ Hco) X W Z Rd Rr Rk) as (R1 & R2 & R3 & R4 & R5 & R6).
  set (co := trop_coefs predef band o) in *. clearbody co. destruct Hco as (T1 & T2 & T3 & _).
  assert (Hc : exists c, field_at cs i c /\
     trop_method c false false = fst (t_z e d) /\
     (forall zk zh, (zk || zh)%bool = true -> trop_method c zk zh = trop_method None zk zh)).
  { inversion He as [N|c Fc Vc|c Fc Vc|c Fc Vc]; subst.
    - exists None. repeat split; auto.
    - exists (Some c). split; auto. split; [|intros [] []; try discriminate; reflexivity].
      cbn [trop_method]. rewrite (sval_class 1 c 3), (sval_class 1 c 1) by (lia || auto).
      rewrite (proj2 (Reqb_false 1 3)), (proj2 (Reqb_true 1 1)) by lra. reflexivity.
    - exists (Some c). split; auto. split; [|intros [] []; try discriminate; reflexivity].
      cbn [trop_method]. rewrite (sval_class 2 c 3), (sval_class 2 c 1), (sval_class 2 c 2) by (lia || auto).
      rewrite (proj2 (Reqb_false 2 3)), (proj2 (Reqb_false 2 1)), (proj2 (Reqb_true 2 2)) by lra. reflexivity.
    - exists (Some c). split; auto. split; [|intros [] []; try discriminate; reflexivity].
      cbn [trop_method]. rewrite (sval_class 3 c 3) by (lia || auto).
      rewrite (proj2 (Reqb_true 3 3)) by lra. reflexivity. }
  destruct Hc as (c & Hc & M0 & M1).
  destruct (D i _ _ _ c (at_Sg _ _ _ Ex) (at_Sg _ _ _ Ew) (at_Sg _ _ _ Ez) Hc) as (Dlow & Dhi). clear D.
  rewrite T1, T2, T3 in *. unfold cast, field32, adt in *.
  rewrite (sle38 x d X), (sle03 z k Z), (sle025 w r W) in *.
  assert (L10 : flt (Sg x) (flit (-10)%Q) = Rltb d (-10)).
  { change (Bltb x (stored (Wd (b_lit 53 1024 p53 e1024 (-10)%Q))) = Rltb d (-10)).
    rewrite val_lt, (sstored_int (-10)), X by (cbn; lia). reflexivity. }
  rewrite L10 in *.
  unfold tropical. destruct (Rltb_spec d (-10)), (Rlt_dec d (-10)); try lra.
  { destruct Dlow as [-> ->]; auto. split; auto. eexists. split; [reflexivity|apply snear0]. }
  destruct Dhi as (-> & _ & Dhi); auto.
  assert (Hz : t_z e d = (4%Z, t_z_all d) \/ t_z e d = (5%Z, t_z_conv d) \/ t_z e d = (6%Z, t_z_strat d))
    by (destruct e; auto).
  destruct (Rleb_spec 0.3 k) as [K|K], (Rleb_spec 38 d) as [L|L], (Rleb_spec 0.25 r) as [M|M]; cbn [andb] in Dhi |- *;
    destruct (Rle_dec 38 d); try lra; try (destruct (Rle_dec 0.3 k); try lra); destruct (Rle_dec 0.25 r); try lra.
  all: try (rewrite M1 in Dhi |- * by reflexivity; cbn [trop_method] in Dhi |- *; specialize (Dhi ltac:(discriminate));
            split; [reflexivity|]; eexists; split; [exact Dhi|]; cbn [snd]; auto; fail).
  all: rewrite M0 in Dhi |- *; destruct Hz as [Hz|[Hz|Hz]]; rewrite Hz in Dhi |- *; cbn [fst snd] in Dhi |- *.
  all: (split; [reflexivity|]); eexists; (split; [apply Dhi; discriminate|]); auto.
Qed.
End Acc.

(** ** The hypotheses are met *)
(** a correctly rounded powf (noncomputable) *)
Definition near_single (r : R) : single :=
  binary_normalize 24 128 p24 e128 mode_NE (ZnearestE (scaled_mantissa radix2 (SpecFloat.fexp 24 128) r))
    (cexp radix2 (SpecFloat.fexp 24 128) r) false.
Lemma near_single_val r : exp (-80) <= Rabs r <= exp 80 -> sval (near_single r) = srnd r.
Proof.
  intro B. destruct (srnd_apx r B) as (d & D & E). unfold near_single.
  set (m := ZnearestE _). set (e := cexp _ _ _).
  assert (F : F2R (Float radix2 m e) = round radix2 (SpecFloat.fexp 24 128) ZnearestE r) by reflexivity.
  pose proof (binary_normalize_correct 24 128 p24 e128 mode_NE m e false) as C. cbv zeta in C. cbn [round_mode] in C.
  rewrite F in C. pose proof (fexp_correct 24 128 p24) as VE.
  rewrite (round_generic radix2 _ ZnearestE (round radix2 (SpecFloat.fexp 24 128) ZnearestE r)) in C
    by (apply generic_format_round; auto; apply valid_rnd_N).
  unfold rnd in E |- *. destruct (Rlt_bool (Rabs (round radix2 (SpecFloat.fexp 24 128) ZnearestE r)) (bpow radix2 128)).
  - destruct C as (C1 & C2 & _). rewrite (val_finite 24 128 _ C2). now rewrite C1.
  - destruct (Rlt_bool r 0); discriminate.
Qed.
Definition lms_exact : libm single :=
  mklibm (fun x y => match sval x, sval y with Fin a, Fin b => near_single (Rpower a b) | _, _ => B754_nan end)
    (fun x => x) (fun x => x) (fun x => x) (fun x => x) (fun x => x) B754_nan.
Example ex104_powf : powf_accurate lms_exact.
Proof.
  intros x y a b X Y A B. cbn [lms_exact lm_pow]. rewrite X, Y.
  assert (P : 0 < Rpower a b) by apply exp_pos. set (r := Rpower a b) in *.
  assert (B' : exp (-80) <= Rabs r <= exp 80) by (rewrite Rabs_pos_eq; lra).
  rewrite (near_single_val r B'). destruct (srnd_apx r B') as (d & D & E). exists (r * exp d). split; auto.
  replace (r * exp d - r) with (r * (exp d - 1)) by ring. rewrite Rabs_mult, (Rabs_pos_eq r), Rmult_comm by lra.
  apply Rmult_le_compat_r; [lra|]. apply Rle_trans with (10 / 9 * et); [apply exp_near; auto; rewrite et_val; lra|].
  rewrite et_val. cbn. lra.
Qed.

Definition fl (q : Q) : single := stored (Wd (b_lit 53 1024 p53 e1024 q)).
Definition ex104_dz : list single := [fl 45; fl 20].
Definition ex104_zdr : list single := [fl 2; fl 0].
Definition ex104_kdp : list single := [fl 1; fl 0.3].
Example ex104_sized : sized [2%nat] ex104_dz ex104_zdr ex104_kdp. Proof. repeat split. Qed.
(** a gate with Z = 45 dBZ, Zdr = 2 dB, Kdp = 1 deg/km, and one whose Kdp is typed as 0.3 *)
Example ex104_gates : measured32 ex104_dz ex104_zdr ex104_kdp 0 45 2 1 /\ measured32 ex104_dz ex104_zdr ex104_kdp 1 20 0 0.3.
Proof.
  assert (B : exp (-60) <= 1) by (rewrite <- exp_0; apply exp_le_mono; lra). split; split.
  - eexists. split; [reflexivity|]. exact (sstored_int 45 ltac:(cbn; lia)).
  - eexists. split; [reflexivity|]. exact (sstored_int 2 ltac:(cbn; lia)).
  - eexists. split; [reflexivity|]. right. unfold fl. rewrite (sstored_int 1 ltac:(cbn; lia)). split; [reflexivity|].
    intro E. destruct thr_apx as (d & D & X). rewrite <- E in X. injection X as X.
    pose proof (exp_near d (2 * et) D ltac:(rewrite et_val; lra)) as Y. rewrite et_val in Y. apply Rabs_le_inv in Y. lra.
  - split; [right|]; rewrite Rabs_pos_eq; lra.
  - split; [right|]; rewrite Rabs_pos_eq; lra.
  - lra.
  - eexists. split; [reflexivity|]. exact (sstored_int 20 ltac:(cbn; lia)).
  - eexists. split; [reflexivity|]. exact (sstored_int 0 ltac:(cbn; lia)).
  - eexists. split; [reflexivity|]. left. split; auto. exact sstored_03.
  - split; [right|]; rewrite Rabs_pos_eq; lra.
  - split; [now left|]. rewrite Rabs_R0. lra.
  - lra.
Qed.
Example ex104_selects : selects (F:=mixed) (H:=mixed_ops lm_exact lms_exact) "True" "X"
  (@trop_defaults mixed (mixed_ops lm_exact lms_exact)) TX /\ ("True"%string = "True"%string -> TX <> TS).
Proof. split; [|discriminate]. repeat split. left. split; reflexivity. Qed.
