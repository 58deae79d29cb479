(** * Property C83: the rain functions called with their default keywords *)
From Coq Require Import Reals Lra.
From Verif Require Import Base.Num Base.ListFacts Base.XReal Base.XTac Base.XArith.
From Verif Require Import Model.Common Model.BlendedRain Model.Tropical Spec.RainSpec Spec.RainDefaultSpec.
From Verif Require Import Proofs.RainProofs Proofs.RainReal Properties.P02_Rain Properties.P03_RainReal.
Open Scope R_scope.

(** float arrays of one common shape *)
Definition three_fields (dz zdr kdp : arr xr) : Prop :=
  adt dz = DFloat /\ ashape dz = ashape zdr /\ ashape dz = ashape kdp /\
  arr_ok dz /\ arr_ok zdr /\ arr_ok kdp.
(** gate [i] holds the finite numbers [d], [r], [k] *)
Definition gate3 (dz zdr kdp : arr xr) (i : nat) (d r k : R) : Prop :=
  nth_error (adata dz) i = Some (Fin d) /\ nth_error (adata zdr) i = Some (Fin r) /\
  nth_error (adata kdp) i = Some (Fin k).

Ltac rq := repeat first [reflexivity | lra | f_equal].

Lemma Zlin_pos d : 0 < Zlin d. Proof. apply Rpower_pos. Qed.

Lemma zdp_spec d r : @zdp_of xr _ (Fin d) (Fin r) = Fin (Zdp_dB d r).
Proof. rewrite zdp_fin. reflexivity. Qed.
Lemma zrain_spec d r :
  @zrain_of xr _ (flit 0.9091) (flit 8.5091) (Fin d) (Fin r) = Fin (Zlin (rain_dBZ d r)).
Proof.
  unfold zrain_of. rewrite zdp_spec, !lit_fin; cbn [Qnum Qden].
  rewrite fmul_fin, fadd_fin, fdiv_fin by lra. rewrite fpow_pos by lra.
  unfold Zlin, rain_dBZ. rq.
Qed.
Lemma ice_spec d r :
  @ice_fraction xr _ (flit 0.9091) (flit 8.5091) (Fin d) (Fin r) = Fin (ice_frac d r).
Proof.
  unfold ice_fraction. rewrite zrain_spec, lin_fin. fold (Zlin d).
  rewrite fdiv_fin by (pose proof (Zlin_pos d); lra). rewrite lit_fin, fsub_fin; cbn [Qnum Qden].
  unfold ice_frac. f_equal. lra.
Qed.
Lemma nexrad_spec d : @R_Z_capped xr _ (flit 53) (flit 300) (flit 1.4) (Fin d) = Fin (nexrad d).
Proof.
  rewrite !lit_fin; cbn [Qnum Qden]. rewrite R_Z_capped_fin by lra.
  unfold nexrad, Zlin. replace (53 / 1) with 53 by lra. replace (300 / 1) with 300 by lra.
  rq.
Qed.
Lemma kdp_spec k : 0 < k -> @R_Kdp xr _ (flit 40.5) (flit 0.85) (Fin k) = Fin (by_kdp k).
Proof.
  intro. rewrite !lit_fin; cbn [Qnum Qden]. rewrite R_Kdp_fin by auto. unfold by_kdp.
  rq.
Qed.
Lemma kdp_zdr_spec k r : 0 < k ->
  @R_Kdp_Zdr xr _ (flit 90.8) (flit 0.93) (flit (-0.169)) (Fin k) (Fin r) = Fin (by_kdp_zdr k r).
Proof.
  intro. rewrite !lit_fin; cbn [Qnum Qden]. rewrite R_Kdp_Zdr_fin by auto. unfold by_kdp_zdr.
  rq.
Qed.
Lemma z_zdr_spec d r :
  @R_Z_Zdr xr _ (flit 0.0067) (flit 0.927) (flit (-0.343)) (Fin d) (Fin r) = Fin (by_z_zdr d r).
Proof.
  rewrite !lit_fin; cbn [Qnum Qden]. rewrite R_Z_Zdr_fin. unfold by_z_zdr, Zlin.
  rq.
Qed.
Lemma dzrain_spec d r : fmul (flit 10) (flog10 (Fin (Zlin (rain_dBZ d r)))) = Fin (rain_dBZ d r).
Proof.
  rewrite flog10_fin by apply Zlin_pos. unfold Zlin. rewrite log10_Rpower, lit_fin, fmul_fin; cbn [Qnum Qden].
  f_equal. lra.
Qed.

(** calc_blended_rain(dz, zdr, kdp): default keywords, S band. *)
Theorem C83_blended_S_defaults :
  forall (dz zdr kdp : arr xr) ice_flag, three_fields dz zdr kdp ->
  exists out,
    calc_blended_rain (AArr dz) (AArr zdr) (AArr kdp) ice_flag "S" rain_defaults
      = Ok (RainArr (ashape dz) out) /\
    forall i d r k, gate3 dz zdr kdp i d r k ->
      nth_error (out_meth out) i = Some (fst (blended_S d r k)) /\
      nth_error (out_rain out) i = Some (Fin (snd (blended_S d r k))) /\
      (ice_flag = true -> exists zdp fi, out_ice out = Some (zdp, fi) /\
         nth_error zdp i = Some (Fin (Zdp_dB d r)) /\ nth_error fi i = Some (Fin (ice_frac d r))).
Proof.
  intros dz zdr kdp ice (T & S1 & S2 & O1 & O2 & O3).
  destruct (C08_blended_S_decision_tree dz zdr kdp ice (rain_defaults (F:=xr)) (flit 0.9091) (flit 8.5091) S1 S2 O1 O2 O3)
    as (out & E & _ & _ & _ & D); [now apply line_cr1995|].
  exists out. split; [exact E|]. intros i d r k (Ed & Er & Ek).
  destruct (D i _ _ _ Ed Er Ek) as (D1 & D2 & D3). clear D E.
  rewrite T in D2. unfold cast in D2. rewrite ice_spec in D1, D2.
  cbn [thresh_frac_ice thresh_dz thresh_kdp thresh_zdr rain_defaults] in D1, D2.
  rewrite (lit_fin 38), (lit_fin 0.3), (lit_fin 0.5), (lit_fin 0.1), flt_fin in D1, D2.
  repeat rewrite fle_fin in D1. repeat rewrite fle_fin in D2. cbn [Qnum Qden] in D1, D2.
  split; [|split].
  - rewrite D1. f_equal. unfold blended_S.
    destruct (Rltb_spec (ice_frac d r) (1 / 10)), (Rleb_spec (38 / 1) d), (Rleb_spec (3 / 10) k),
      (Rleb_spec (5 / 10) r), (Rle_dec 38 d), (Rle_dec 0.3 k), (Rlt_dec (ice_frac d r) 0.1), (Rle_dec 0.5 r);
      try lra; reflexivity.
  - rewrite D2. f_equal. unfold blended_S. clear D1 D2 D3.
    destruct (Rltb_spec (ice_frac d r) (1 / 10)), (Rleb_spec (38 / 1) d), (Rleb_spec (3 / 10) k),
      (Rleb_spec (5 / 10) r), (Rle_dec 38 d), (Rle_dec 0.3 k), (Rlt_dec (ice_frac d r) 0.1), (Rle_dec 0.5 r);
      try lra; cbn [blended_S_method andb rate_of_method snd r_z_a r_z_b r_kdp_a r_kdp_b r_z_zdr_a
        r_z_zdr_b r_z_zdr_c r_kdp_zdr_a r_kdp_zdr_b r_kdp_zdr_c thresh_nexrad rain_defaults];
      rewrite ?zrain_spec, ?dzrain_spec;
      (apply nexrad_spec || apply z_zdr_spec || (apply kdp_spec; lra) || (apply kdp_zdr_spec; lra)).
  - intro Hi. destruct (D3 Hi) as (p & f & E1 & _ & _ & E2 & E3).
    exists p, f. rewrite zdp_spec in E2. rewrite ice_spec in E3. auto.
Qed.

(** Any other band: only Z and Kdp, same coefficients. *)
Theorem C83_blended_other_defaults :
  forall (dz zdr kdp : arr xr) ice_flag band, band <> "S"%string -> three_fields dz zdr kdp ->
  exists out,
    calc_blended_rain (AArr dz) (AArr zdr) (AArr kdp) ice_flag band rain_defaults
      = Ok (RainArr (ashape dz) out) /\
    forall i d r k, gate3 dz zdr kdp i d r k ->
      nth_error (out_meth out) i = Some (fst (blended_other d k)) /\
      nth_error (out_rain out) i = Some (Fin (snd (blended_other d k))).
Proof.
  intros dz zdr kdp ice band Hb (T & S1 & S2 & O1 & O2 & O3).
  destruct (C09_blended_other_bands dz zdr kdp ice band (rain_defaults (F:=xr)) Hb S1 S2 O1 O3)
    as (out & E & _ & _ & _ & D).
  exists out. split; [exact E|]. intros i d r k (Ed & Er & Ek).
  destruct (D i _ _ Ed Ek) as (Dh & Dl). clear D E.
  cbn [thresh_dz thresh_kdp rain_defaults] in Dh, Dl.
  rewrite (lit_fin 38), (lit_fin 0.3) in Dh, Dl. repeat rewrite fle_fin in Dh.
  repeat rewrite fle_fin in Dl. cbn [Qnum Qden] in Dh, Dl.
  rewrite T in Dh, Dl; unfold cast in Dh, Dl.
  unfold blended_other. destruct (Rle_dec 38 d); [destruct (Rle_dec 0.3 k)|]; cbn [fst snd].
  - destruct Dh as [-> ->]; [rewrite !Rleb_true; lra|]. split; auto.
    f_equal. apply kdp_spec. lra.
  - destruct Dl as [-> ->]; [rewrite !Rleb_true; lra|]. split; auto. f_equal. apply nexrad_spec.
  - destruct Dl as [-> ->]; [rewrite !Rleb_true; lra|]. split; auto. f_equal. apply nexrad_spec.
Qed.

Lemma phase_rain c : phase_of (F:=xr) (Fin c) = Rain <-> is_rain_class c.
Proof.
  unfold phase_of, is_rain_class; xs.
  destruct (Reqb_spec c (1 / 1)), (Reqb_spec c (2 / 1)), (Reqb_spec c (10 / 1)); cbn [orb];
    try (split; [lra|auto]; fail).
  destruct (_ || _)%bool; split; try discriminate; lra.
Qed.
Lemma phase_ice c : phase_of (F:=xr) (Fin c) = Ice <-> is_ice_class c.
Proof.
  unfold phase_of, is_ice_class; xs.
  destruct (Reqb_spec c (1 / 1)), (Reqb_spec c (2 / 1)), (Reqb_spec c (10 / 1)); cbn [orb];
    try (split; [discriminate|lra]; fail).
  destruct (Reqb_spec c (5 / 1)), (Reqb_spec c (7 / 1)), (Reqb_spec c (8 / 1)), (Reqb_spec c (9 / 1)); cbn [orb];
    split; try discriminate; try lra; auto.
Qed.

(** csu_hidro_rain, default keywords, S band and other bands. *)
Theorem C83_hidro_S_defaults :
  forall (dz zdr kdp fhc : arr xr), three_fields dz zdr kdp -> ashape dz = ashape fhc -> arr_ok fhc ->
  exists out,
    csu_hidro_rain (AArr dz) (AArr zdr) (AArr kdp) (AArr fhc) "S" rain_defaults
      = Ok (RainArr (ashape dz) out) /\
    forall i d r k c, gate3 dz zdr kdp i d r k -> nth_error (adata fhc) i = Some (Fin c) ->
      let got m v := nth_error (out_meth out) i = Some m /\ nth_error (out_rain out) i = Some (Fin v) in
      (is_rain_class c -> got (fst (hidro_S_rain d r k)) (snd (hidro_S_rain d r k))) /\
      (is_ice_class c -> got (fst (hidro_S_ice k)) (snd (hidro_S_ice k))) /\
      (~ is_rain_class c -> ~ is_ice_class c -> got 0%Z 0).
Proof.
  intros dz zdr kdp fhc (T & S1 & S2 & O1 & O2 & O3) S3 O4.
  destruct (C13_hidro_S_decision_tree dz zdr kdp fhc (rain_defaults (F:=xr)) S1 S2 S3 O1 O2 O3 O4)
    as (out & E & _ & _ & _ & D).
  exists out. split; [exact E|]. intros i d r k c (Ed & Er & Ek) Ec got.
  destruct (D i _ _ _ _ Ed Er Ek Ec (class_sane_xr _)) as (D1 & D2). clear D E.
  rewrite T in D2. unfold cast in D2.
  cbn [thresh_dz thresh_kdp thresh_zdr rain_defaults] in D1, D2.
  assert (G : got (hidro_S_method (phase_of (Fin c)) (Rleb 38 d) (Rleb 0.3 k) (Rleb 0.5 r))
              (match phase_of (F:=xr) (Fin c) with
               | Rain => snd (hidro_S_rain d r k) | Ice => snd (hidro_S_ice k) | Neither => 0 end)).
  { unfold got. rewrite D1, D2. rewrite (lit_fin 38), (lit_fin 0.3), (lit_fin 0.5), !fle_fin; cbn [Qnum Qden].
    replace (38 / 1) with 38 by lra. replace (3 / 10) with 0.3 by lra. replace (5 / 10) with 0.5 by lra.
    split; [reflexivity|]. f_equal. unfold hidro_S_rain, hidro_S_ice.
    destruct (phase_of (Fin c)), (Rleb_spec 38 d), (Rleb_spec 0.3 k), (Rleb_spec 0.5 r),
      (Rle_dec 38 d), (Rle_dec 0.3 k), (Rle_dec 0.5 r); try lra;
      cbn [hidro_S_method Z.eqb rate_of_method snd r_z_a r_z_b r_kdp_a r_kdp_b r_z_zdr_a
        r_z_zdr_b r_z_zdr_c r_kdp_zdr_a r_kdp_zdr_b r_kdp_zdr_c rain_defaults];
      (apply nexrad_spec || apply z_zdr_spec || (apply kdp_spec; lra) || (apply kdp_zdr_spec; lra)
       || (rewrite lit_fin; cbn [Qnum Qden]; f_equal; lra)). }
  clear D1 D2. unfold got in *.
  split; [|split].
  - intro Hc. apply phase_rain in Hc. rewrite Hc in G. destruct G as [G1 G2]. split; [|exact G2].
    rewrite G1. unfold hidro_S_rain, hidro_S_method.
    destruct (Rleb_spec 38 d), (Rleb_spec 0.3 k), (Rleb_spec 0.5 r),
      (Rle_dec 38 d), (Rle_dec 0.3 k), (Rle_dec 0.5 r); try lra; reflexivity.
  - intro Hc. apply phase_ice in Hc. rewrite Hc in G. destruct G as [G1 G2]. split; [|exact G2].
    rewrite G1. unfold hidro_S_ice, hidro_S_method.
    destruct (Rleb_spec 0.3 k), (Rle_dec 0.3 k); try lra; reflexivity.
  - intros H1 H2. rewrite <- phase_rain in H1. rewrite <- phase_ice in H2.
    destruct (phase_of (Fin c)); try (exfalso; auto; fail). exact G.
Qed.

Theorem C83_hidro_other_defaults :
  forall (dz zdr kdp fhc : arr xr) band, band <> "S"%string ->
  three_fields dz zdr kdp -> ashape dz = ashape fhc -> arr_ok fhc ->
  exists out,
    csu_hidro_rain (AArr dz) (AArr zdr) (AArr kdp) (AArr fhc) band rain_defaults
      = Ok (RainArr (ashape dz) out) /\
    forall i d r k c, gate3 dz zdr kdp i d r k -> nth_error (adata fhc) i = Some (Fin c) ->
      let got m v := nth_error (out_meth out) i = Some m /\ nth_error (out_rain out) i = Some (Fin v) in
      (38 <= d -> 0.3 <= k -> got 2%Z (by_kdp k)) /\
      (d < 38 \/ k < 0.3 -> is_rain_class c -> got 4%Z (nexrad d)) /\
      (d < 38 \/ k < 0.3 -> ~ is_rain_class c -> got 2%Z 0).
Proof.
  intros dz zdr kdp fhc band Hb (T & S1 & S2 & O1 & O2 & O3) S3 O4.
  destruct (C14_hidro_other_bands dz zdr kdp fhc band (rain_defaults (F:=xr)) Hb S1 S2 S3 O1 O3 O4)
    as (out & E & _ & _ & _ & D).
  exists out. split; [exact E|]. intros i d r k c (Ed & Er & Ek) Ec got.
  destruct (D i _ _ _ Ed Ek Ec) as (D1 & D2 & D3). clear D E.
  rewrite T in *. unfold cast in *. cbn [thresh_dz thresh_kdp rain_defaults] in *.
  rewrite (lit_fin 38), (lit_fin 0.3), !fle_fin in *; cbn [Qnum Qden] in *. unfold got.
  split; [|split].
  - intros H1 H2. destruct D1 as [-> ->]; [apply andb_true_iff; rewrite !Rleb_true; lra|].
    split; auto. f_equal. apply kdp_spec. lra.
  - intros H1 H2. apply phase_rain in H2.
    destruct D2 as [-> ->]; auto; [apply andb_false_iff; rewrite !Rleb_false; lra|].
    split; auto. f_equal. apply nexrad_spec.
  - intros H1 H2. rewrite <- phase_rain in H2.
    destruct D3 as [-> ->]; auto; [apply andb_false_iff; rewrite !Rleb_false; lra|].
    split; auto. f_equal. rewrite lit_fin; cbn [Qnum Qden]. f_equal. lra.
Qed.

(** ** Tropical *)
Definition band_name (b : tband) : string :=
  match b with TS => "S" | TC => "C" | TX => "X" end.
(** the coefficients of band [b] with the default thresholds *)
Definition trop_std (b : tband) (co : trop_opts xr) : Prop :=
  thompson (band_name b) co /\ t_thresh_dz co = flit 38 /\ t_thresh_zdr co = flit 0.25 /\
  t_thresh_kdp co = flit 0.3.

Lemma trop_z_spec a b d (qa qb : Q) : @flit xr _ qa = Fin a -> @flit xr _ qb = Fin b -> 0 < a -> 0 < b ->
  @R_Z xr _ (flit qa) (flit qb) (Fin d) = Fin (Rpower (Zlin d / a) (1 / b)).
Proof. intros -> -> Ha Hb. now apply R_Z_fin. Qed.

Lemma lit_Fin q x : IZR (Qnum q) / IZR (Zpos (Qden q)) = x -> @flit xr _ q = Fin x.
Proof. intros <-. reflexivity. Qed.
Lemma lit_div10 q x : IZR (Qnum q) / IZR (Zpos (Qden q)) / 10 = x -> fdiv (@flit xr _ q) (flit 10) = Fin x.
Proof.
  intros <-. rewrite !lit_fin; cbn [Qnum Qden]. rewrite fdiv_fin by lra. f_equal. field. apply not_0_IZR. discriminate.
Qed.

(** rate of each tropical method in a standard option record *)
Lemma trop_rates b co d r k : trop_std b co ->
  (0 < k -> trop_rate_of_method co 1 (Fin d) (Fin r) (Fin k) = Fin (t_kdp_zdr b k r)) /\
  (0 < k -> trop_rate_of_method co 2 (Fin d) (Fin r) (Fin k) = Fin (t_kdp b k)) /\
  trop_rate_of_method co 3 (Fin d) (Fin r) (Fin k) = Fin (t_z_zdr b d r) /\
  trop_rate_of_method co 4 (Fin d) (Fin r) (Fin k) = Fin (t_z_all d) /\
  trop_rate_of_method co 5 (Fin d) (Fin r) (Fin k) = Fin (t_z_conv d) /\
  trop_rate_of_method co 6 (Fin d) (Fin r) (Fin k) = Fin (t_z_strat d).
Proof.
  intros ((A1 & A2 & A3 & A4 & A5 & A6 & HS & HC & HX) & _). cbn [trop_rate_of_method].
  rewrite A1, A2, A3, A4, A5, A6.
  assert (Z3 : @R_Z xr _ (flit 216) (flit 1.39) (Fin d) = Fin (t_z_all d) /\
               @R_Z xr _ (flit 126) (flit 1.39) (Fin d) = Fin (t_z_conv d) /\
               @R_Z xr _ (flit 291) (flit 1.55) (Fin d) = Fin (t_z_strat d)).
  { split; [|split]; apply trop_z_spec; try apply lit_Fin; cbn [Qnum Qden]; lra. }
  destruct Z3 as (-> & -> & ->). 
  destruct b; cbn [band_name] in *;
    [specialize (HS eq_refl); destruct HS as (-> & -> & -> & -> & -> & -> & -> & ->)
    |specialize (HC eq_refl); destruct HC as (-> & -> & -> & -> & -> & -> & -> & ->)
    |specialize (HX eq_refl); destruct HX as (-> & -> & -> & -> & -> & -> & -> & ->)];
    (split; [|split; [|split; [|auto]]]); intros;
    repeat (erewrite lit_div10 by reflexivity);
    repeat (rewrite lit_fin; cbn [Qnum Qden]);
    rewrite ?R_Kdp_Zdr_fin, ?R_Kdp_fin, ?R_Z_Zdr_fin by auto;
    unfold t_kdp_zdr, t_kdp, t_z_zdr, Zlin; rq.
Qed.

(** what the convective/stratiform argument says at a gate *)
Inductive echo_at (cs : pyarg xr) (i : nat) : echo -> Prop :=
  | at_none : cs = ANone -> echo_at cs i NoMap
  | at_strat : field_at cs i (Some (Fin 1)) -> echo_at cs i Strat
  | at_conv : field_at cs i (Some (Fin 2)) -> echo_at cs i Conv
  | at_mixed : field_at cs i (Some (Fin 3)) -> echo_at cs i Mixed.

(** [coefs_from predef band o b]: the arguments select the relations of band [b] *)
Definition coefs_from (predef band : string) (o : trop_opts xr) (b : tband) : Prop :=
  t_thresh_dz o = flit 38 /\ t_thresh_zdr o = flit 0.25 /\ t_thresh_kdp o = flit 0.3 /\
  (predef = "True"%string /\ band = band_name b \/
   predef <> "True"%string /\ o = trop_defaults /\ b = TS).

Lemma coefs_std predef band o b : coefs_from predef band o b -> trop_std b (trop_coefs predef band o).
Proof.
  intros (T1 & T2 & T3 & [[-> ->]|(Hp & -> & ->)]).
  - unfold trop_std, trop_coefs. destruct b; cbn; rewrite T1, T2, T3; repeat split; discriminate.
  - unfold trop_std, trop_coefs. apply String.eqb_neq in Hp. rewrite Hp. cbn. repeat split; discriminate.
Qed.

Theorem C83_tropical_defaults :
  forall (dz zdr kdp : arr xr) (cs : pyarg xr) predef band (o : trop_opts xr) (b : tband),
  three_fields dz zdr kdp -> field_ok (ashape dz) cs -> coefs_from predef band o b ->
  exists rain meth,
    calc_blended_rain_tropical (AArr dz) (AArr zdr) (AArr kdp) cs ANone predef band o
      = Ok (true, ashape dz, rain, meth) /\
    forall i d r k e, gate3 dz zdr kdp i d r k -> echo_at cs i e ->
      nth_error meth i = Some (fst (tropical b e d r k)) /\
      nth_error rain i = Some (Fin (snd (tropical b e d r k))).
Proof.
  intros dz zdr kdp cs predef band o b (T & S1 & S2 & O1 & O2 & O3) Hcs Hco.
  destruct (C16_tropical_without_fhc dz zdr kdp cs predef band o S1 S2 O1 O2 O3 Hcs)
    as (rain & meth & E & _ & _ & D).
  exists rain, meth. split; [exact E|]. intros i d r k e (Ed & Er & Ek) He. clear E.
  pose proof (coefs_std _ _ _ _ Hco) as Hstd.
  destruct (trop_rates b _ d r k Hstd) as (R1 & R2 & R3 & R4 & R5 & R6).
  set (co := trop_coefs predef band o) in *. clearbody co. clear Hstd.
  destruct Hco as (T1 & T2 & T3 & _).
  assert (Hc : exists c, field_at cs i c /\
     trop_method c false false = fst (t_z e d) /\
     (forall zk zh, (zk || zh)%bool = true -> trop_method c zk zh = trop_method None zk zh)).
  { inversion He; subst.
    - exists None. repeat split; auto.
    - exists (Some (Fin 1)). split; auto. split; [|intros [] []; try discriminate; reflexivity].
      cbn [trop_method]. rewrite (lit_fin 3), (lit_fin 1), !feq_fin; cbn [Qnum Qden].
      rewrite (proj2 (Reqb_false 1 (3 / 1))), (proj2 (Reqb_true 1 (1 / 1))) by lra. reflexivity.
    - exists (Some (Fin 2)). split; auto. split; [|intros [] []; try discriminate; reflexivity].
      cbn [trop_method]. rewrite (lit_fin 3), (lit_fin 1), (lit_fin 2), !feq_fin; cbn [Qnum Qden].
      rewrite (proj2 (Reqb_false 2 (3 / 1))), (proj2 (Reqb_false 2 (1 / 1))), (proj2 (Reqb_true 2 (2 / 1))) by lra.
      reflexivity.
    - exists (Some (Fin 3)). split; auto. split; [|intros [] []; try discriminate; reflexivity].
      cbn [trop_method]. rewrite (lit_fin 3), !feq_fin; cbn [Qnum Qden].
      rewrite (proj2 (Reqb_true 3 (3 / 1))) by lra. reflexivity. }
  destruct Hc as (c & Hc & M0 & M1).
  destruct (D i _ _ _ c Ed Er Ek Hc) as (Dlow & Dhi). clear D.
  rewrite T, T1, T2, T3 in *. unfold cast in *.
  rewrite (lit_fin 38), (lit_fin 0.3), (lit_fin 0.25), (lit_fin (-10)) in *.
  rewrite flt_fin in *. repeat rewrite fle_fin in *. cbn [Qnum Qden] in *.
  unfold tropical. destruct (Rltb_spec d (-10 / 1)), (Rlt_dec d (-10)); try lra.
  { destruct Dlow as [-> ->]; auto. split; auto. rewrite lit_fin; cbn [Qnum Qden fst snd]. rq. }
  destruct Dhi as (-> & _ & Dhi); auto.
  assert (Hz : t_z e d = (4%Z, t_z_all d) \/ t_z e d = (5%Z, t_z_conv d) \/ t_z e d = (6%Z, t_z_strat d))
    by (destruct e; auto).
  destruct (Rleb_spec (3 / 10) k), (Rleb_spec (38 / 1) d), (Rleb_spec (25 / 100) r),
    (Rle_dec 38 d), (Rle_dec 0.3 k), (Rle_dec 0.25 r); try lra; cbn [andb] in *;
    rewrite ?(M1 true true), ?(M1 true false), ?(M1 false true), ?M0 in * by reflexivity;
    cbn [trop_method] in *;
    try (rewrite Dhi by discriminate; cbn [fst snd]; rewrite ?R1, ?R2, ?R3 by lra; auto; fail);
    (split; [reflexivity|]; destruct Hz as [Hz|[Hz|Hz]]; rewrite Hz in *; cbn [fst snd] in *;
     rewrite Dhi by discriminate; rewrite ?R4, ?R5, ?R6; reflexivity).
Qed.

(** With a hydrometeor map: classes 3..9 (and everything strictly between 2 and
    10) get code 2 and no rain, except hail (9) at high Z and Kdp: R(Kdp). *)
Theorem C83_tropical_ice_defaults :
  forall (dz zdr kdp : arr xr) (cs fhc : pyarg xr) predef band (o : trop_opts xr) (b : tband),
  three_fields dz zdr kdp -> field_ok (ashape dz) cs -> field_ok (ashape dz) fhc -> fhc <> ANone ->
  coefs_from predef band o b ->
  exists rain meth,
    calc_blended_rain_tropical (AArr dz) (AArr zdr) (AArr kdp) cs fhc predef band o
      = Ok (false, ashape dz, rain, meth) /\
    forall i d r k c f, gate3 dz zdr kdp i d r k -> field_at cs i c -> field_at fhc i (Some (Fin f)) ->
      -10 <= d -> 2 < f < 10 ->
      nth_error meth i = Some 2%Z /\
      (f = 9 -> 38 <= d -> 0.3 <= k -> nth_error rain i = Some (Fin (t_kdp b k))) /\
      (f <> 9 \/ d < 38 \/ k < 0.3 -> nth_error rain i = Some (Fin 0)).
Proof.
  intros dz zdr kdp cs fhc predef band o b (T & S1 & S2 & O1 & O2 & O3) Hcs Hf Hn Hco.
  destruct (C17_tropical_ice_gates dz zdr kdp cs fhc predef band o S1 S2 O1 O2 O3 Hcs Hf Hn)
    as (rain & meth & E & D).
  exists rain, meth. split; [exact E|]. intros i d r k c f (Ed & Er & Ek) Hc Hfi Hd H2. clear E.
  destruct (D i _ _ _ c _ Ed Er Ek Hc Hfi) as (D1 & D2).
  { rewrite lit_fin, flt_fin; cbn [Qnum Qden]. apply Rltb_false. lra. }
  { rewrite lit_fin, flt_fin; cbn [Qnum Qden]. apply Rltb_true. lra. }
  { rewrite lit_fin, flt_fin; cbn [Qnum Qden]. apply Rltb_true. lra. }
  destruct (trop_rates b _ d r k (coefs_std _ _ _ _ Hco)) as (_ & R2 & _).
  cbn [trop_rate_of_method] in R2. destruct Hco as (T1 & T2 & T3 & _).
  rewrite T, T1, T3 in D2. unfold cast in D2.
  rewrite (lit_fin 9), (lit_fin 38), (lit_fin 0.3), (lit_fin 0), feq_fin in D2.
  repeat rewrite fle_fin in D2. cbn [Qnum Qden] in D2.
  split; [auto|]. rewrite D2. split.
  - intros -> H38 H03. rewrite (proj2 (Reqb_true 9 (9 / 1))), (proj2 (Rleb_true (3 / 10) k)), (proj2 (Rleb_true (38 / 1) d)) by lra.
    cbn [andb]. rewrite R2 by lra. reflexivity.
  - intro H. destruct (Reqb_spec f (9 / 1)), (Rleb_spec (3 / 10) k), (Rleb_spec (38 / 1) d); try lra; cbn [andb]; rq.
Qed.

(** The default keywords are the predefined S-band coefficients. *)
Theorem C18_default_coefficients_are_predef_S {F} `{FloatOps F} :
  forall dz zdr kdp cs fhc predef band,
  calc_blended_rain_tropical dz zdr kdp cs fhc predef "S" trop_defaults
  = calc_blended_rain_tropical dz zdr kdp cs fhc "no" band (trop_defaults (F:=F)).
Proof.
  intros. unfold calc_blended_rain_tropical.
  assert (E : trop_coefs predef "S" trop_defaults = trop_defaults (F:=F))
    by (unfold trop_coefs; destruct (String.eqb predef "True"); reflexivity).
  rewrite E. reflexivity.
Qed.

(** ** The hypotheses are met *)
Definition ex_dz := mkarr (F:=xr) DFloat [3%nat] [Fin 45; Fin 20; Fin (-15)].
Definition ex_zdr := mkarr (F:=xr) DFloat [3%nat] [Fin 2; Fin 0; Fin 1].
Definition ex_kdp := mkarr (F:=xr) DFloat [3%nat] [Fin 1; Fin 0; Fin 0].
Example ex_three : three_fields ex_dz ex_zdr ex_kdp. Proof. repeat split. Qed.
Example ex_gate : gate3 ex_dz ex_zdr ex_kdp 0 45 2 1. Proof. repeat split. Qed.
Example ex_coefs : coefs_from "True" "X" trop_defaults TX /\ coefs_from "False" "X" trop_defaults TS.
Proof. split; repeat split; [left; auto|right; repeat split; discriminate]. Qed.
Example ex_echo : echo_at (AArr (mkarr DFloat [3%nat] [Fin 1; Fin 2; Fin 3])) 1 Conv.
Proof. constructor. reflexivity. Qed.
Example ex_tropical : fst (tropical TX Conv 20 0 0) = 5%Z /\ fst (tropical TX Conv 45 2 1) = 1%Z.
Proof. unfold tropical. repeat (destruct Rlt_dec; try lra); repeat (destruct Rle_dec; try lra); auto. Qed.
