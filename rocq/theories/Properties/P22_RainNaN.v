(** * Property C84: missing values (NaN) in the rain functions *)
From Coq Require Import Reals Lra.
From Verif Require Import Base.Num Base.ListFacts Base.XReal Base.XTac Base.XArith.
From Verif Require Import Model.Common Model.BlendedRain Model.Tropical Spec.RainSpec Spec.RainDefaultSpec.
From Verif Require Import Proofs.RainProofs Proofs.RainReal Properties.P02_Rain Properties.P03_RainReal
  Properties.P21_RainDefaults.
Open Scope R_scope.

(** gate [i] holds [d], [r], [k], possibly NaN *)
Definition gate3x (dz zdr kdp : arr xr) (i : nat) (d r k : xr) : Prop :=
  nth_error (adata dz) i = Some d /\ nth_error (adata zdr) i = Some r /\
  nth_error (adata kdp) i = Some k.

Lemma pow_nan_exp x : x <> 1 -> fpow (Fin x) NaN = NaN.
Proof. intro H. cbn. destruct (Req_EM_T x 1); [contradiction|reflexivity]. Qed.
Lemma pow_nan_base y : y <> 0 -> fpow NaN (Fin y) = NaN.
Proof. intro H. cbn. destruct (Req_EM_T y 0); [contradiction|reflexivity]. Qed.
Lemma lin_nan : @lin xr _ NaN = NaN.
Proof. unfold lin. rewrite lit_fin; cbn [Qnum Qden]. change (fdiv NaN (Fin (10 / 1))) with NaN. apply pow_nan_exp. lra. Qed.
Lemma zdp_nan_r d : @zdp_of xr _ (Fin d) NaN = NaN.
Proof. unfold zdp_of. rewrite lin_nan, lin_fin. reflexivity. Qed.
Lemma zdp_nan_d r : @zdp_of xr _ NaN r = NaN.
Proof. unfold zdp_of. rewrite lin_nan. destruct (lin r); reflexivity. Qed.
Lemma zrain_nan fa fb d r : zdp_of d r = NaN -> @zrain_of xr _ (Fin fa) (Fin fb) d r = NaN.
Proof.
  intro E. unfold zrain_of. rewrite E, lit_fin; cbn [Qnum Qden].
  change (fdiv (fadd (fmul (Fin fa) NaN) (Fin fb)) (Fin (10 / 1))) with NaN. apply pow_nan_exp. lra.
Qed.
Lemma ice_nan fa fb d r : zdp_of d r = NaN -> @ice_fraction xr _ (Fin fa) (Fin fb) d r = NaN.
Proof. intro E. unfold ice_fraction. rewrite zrain_nan by auto. reflexivity. Qed.
Lemma R_Z_nan a b : b <> 0 -> @R_Z xr _ (Fin a) (Fin b) NaN = NaN.
Proof.
  intro Hb. unfold R_Z. rewrite lin_nan. rewrite lit_fin; cbn [Qnum Qden]. rewrite fdiv_fin by auto.
  change (fdiv NaN (Fin a)) with NaN. apply pow_nan_base. intro H.
  assert (H0 : 1 / 1 / b * b = 1) by (field; auto). rewrite H in H0. lra.
Qed.
Lemma R_Z_capped_nan c a b : b <> 0 -> @R_Z_capped xr _ (Fin c) (Fin a) (Fin b) NaN = NaN.
Proof. intro Hb. unfold R_Z_capped. change (flt (Fin c) NaN) with false. now apply R_Z_nan. Qed.
Lemma R_Z_Zdr_nan a b c r : b <> 0 -> @R_Z_Zdr xr _ (Fin a) (Fin b) (Fin c) NaN r = NaN.
Proof. intro Hb. unfold R_Z_Zdr. rewrite lin_nan, pow_nan_base by auto. reflexivity. Qed.

(** reduce the decision of a default-keyword call to real comparisons *)
Ltac tests T D1 D2 :=
  rewrite T in D2; unfold cast in D2;
  cbn [thresh_frac_ice thresh_dz thresh_kdp thresh_zdr thresh_nexrad rain_defaults] in D1, D2.

(** ** calc_blended_rain, S band *)
(** Kdp missing: exactly as if it were below its threshold. *)
Theorem C84_blended_S_missing_kdp :
  forall (dz zdr kdp : arr xr) ice_flag, three_fields dz zdr kdp ->
  exists out,
    calc_blended_rain (AArr dz) (AArr zdr) (AArr kdp) ice_flag "S" rain_defaults
      = Ok (RainArr (ashape dz) out) /\
    forall i d r, gate3x dz zdr kdp i (Fin d) (Fin r) NaN ->
      nth_error (out_meth out) i = Some (fst (blended_S d r 0)) /\
      nth_error (out_rain out) i = Some (Fin (snd (blended_S d r 0))).
Proof.
  intros dz zdr kdp ice (T & S1 & S2 & O1 & O2 & O3).
  destruct (C08_blended_S_decision_tree dz zdr kdp ice (rain_defaults (F:=xr)) (flit 0.9091) (flit 8.5091) S1 S2 O1 O2 O3)
    as (out & E & _ & _ & _ & D); [now apply line_cr1995|].
  exists out. split; [exact E|]. intros i d r (Ed & Er & Ek).
  destruct (D i _ _ _ Ed Er Ek) as (D1 & D2 & _). clear D E. tests T D1 D2.
  rewrite ice_spec in D1, D2.
  rewrite (lit_fin 38), (lit_fin 0.3), (lit_fin 0.5), (lit_fin 0.1), flt_fin in D1, D2.
  repeat rewrite fle_fin in D1. repeat rewrite fle_fin in D2. cbn [Qnum Qden] in D1, D2.
  change (fle (Fin (3 / 10)) NaN) with false in D1, D2. rewrite andb_false_r in D1, D2.
  rewrite D1, D2. unfold blended_S. clear D1 D2.
  destruct (Rltb_spec (ice_frac d r) (1 / 10)), (Rleb_spec (5 / 10) r), (Rle_dec 38 d), (Rle_dec 0.3 0),
    (Rlt_dec (ice_frac d r) 0.1), (Rle_dec 0.5 r); try lra;
    (split; [reflexivity|]); f_equal;
    cbn [blended_S_method andb rate_of_method snd r_z_a r_z_b r_kdp_a r_kdp_b r_z_zdr_a
        r_z_zdr_b r_z_zdr_c r_kdp_zdr_a r_kdp_zdr_b r_kdp_zdr_c thresh_nexrad rain_defaults];
    rewrite ?zrain_spec, ?dzrain_spec; (apply nexrad_spec || apply z_zdr_spec).
Qed.

(** Zdr missing: R(Kdp) at high Z and Kdp; every other gate is labelled 5 and
    its rate is missing, although R(Z) would be available. *)
Theorem C84_blended_S_missing_zdr :
  forall (dz zdr kdp : arr xr) ice_flag, three_fields dz zdr kdp ->
  exists out,
    calc_blended_rain (AArr dz) (AArr zdr) (AArr kdp) ice_flag "S" rain_defaults
      = Ok (RainArr (ashape dz) out) /\
    forall i d k, gate3x dz zdr kdp i (Fin d) NaN (Fin k) ->
      (38 <= d /\ 0.3 <= k -> nth_error (out_meth out) i = Some 2%Z /\
         nth_error (out_rain out) i = Some (Fin (by_kdp k))) /\
      (d < 38 \/ k < 0.3 -> nth_error (out_meth out) i = Some 5%Z /\
         nth_error (out_rain out) i = Some NaN).
Proof.
  intros dz zdr kdp ice (T & S1 & S2 & O1 & O2 & O3).
  destruct (C08_blended_S_decision_tree dz zdr kdp ice (rain_defaults (F:=xr)) (flit 0.9091) (flit 8.5091) S1 S2 O1 O2 O3)
    as (out & E & _ & _ & _ & D); [now apply line_cr1995|].
  exists out. split; [exact E|]. intros i d k (Ed & Er & Ek).
  destruct (D i _ _ _ Ed Er Ek) as (D1 & D2 & _). clear D E. tests T D1 D2.
  rewrite (lit_fin 0.9091), (lit_fin 8.5091), ice_nan in D1, D2 by apply zdp_nan_r.
  rewrite (lit_fin 38), (lit_fin 0.3) in D1, D2.
  repeat rewrite fle_fin in D1. repeat rewrite fle_fin in D2. cbn [Qnum Qden] in D1, D2.
  change (flt NaN (@flit xr _ 0.1)) with false in D1, D2.
  rewrite D1, D2. clear D1 D2. split; intro H.
  - rewrite (proj2 (Rleb_true (38 / 1) d)), (proj2 (Rleb_true (3 / 10) k)) by lra.
    split; [reflexivity|]. f_equal. cbn [blended_S_method andb rate_of_method]. apply kdp_spec. lra.
  - assert (G : (Rleb (38 / 1) d && Rleb (3 / 10) k)%bool = false)
      by (apply andb_false_iff; rewrite !Rleb_false; lra).
    rewrite G. split; [reflexivity|]. f_equal. cbn [blended_S_method andb rate_of_method].
    rewrite zrain_nan by apply zdp_nan_r.
    change (fmul (flit 10) (flog10 NaN)) with NaN. cbn [r_z_a r_z_b rain_defaults].
    rewrite !lit_fin; cbn [Qnum Qden]. apply R_Z_capped_nan. lra.
Qed.

(** Z missing: label 5, missing rate, whatever Zdr and Kdp say. *)
Theorem C84_blended_S_missing_z :
  forall (dz zdr kdp : arr xr) ice_flag, three_fields dz zdr kdp ->
  exists out,
    calc_blended_rain (AArr dz) (AArr zdr) (AArr kdp) ice_flag "S" rain_defaults
      = Ok (RainArr (ashape dz) out) /\
    forall i r k, gate3x dz zdr kdp i NaN r k ->
      nth_error (out_meth out) i = Some 5%Z /\ nth_error (out_rain out) i = Some NaN.
Proof.
  intros dz zdr kdp ice (T & S1 & S2 & O1 & O2 & O3).
  destruct (C08_blended_S_decision_tree dz zdr kdp ice (rain_defaults (F:=xr)) (flit 0.9091) (flit 8.5091) S1 S2 O1 O2 O3)
    as (out & E & _ & _ & _ & D); [now apply line_cr1995|].
  exists out. split; [exact E|]. intros i r k (Ed & Er & Ek).
  destruct (D i _ _ _ Ed Er Ek) as (D1 & D2 & _). clear D E. tests T D1 D2.
  rewrite (lit_fin 0.9091), (lit_fin 8.5091), ice_nan in D1, D2 by apply zdp_nan_d.
  change (flt NaN (@flit xr _ 0.1)) with false in D1, D2.
  change (fle (@flit xr _ 38) NaN) with false in D1, D2.
  rewrite D1, D2. split; [reflexivity|]. f_equal. cbn [blended_S_method andb rate_of_method].
  rewrite zrain_nan by apply zdp_nan_d.
  change (fmul (flit 10) (flog10 NaN)) with NaN. cbn [r_z_a r_z_b rain_defaults].
  rewrite !lit_fin; cbn [Qnum Qden]. apply R_Z_capped_nan. lra.
Qed.

(** ** Other bands *)
Theorem C84_blended_other_missing :
  forall (dz zdr kdp : arr xr) ice_flag band, band <> "S"%string -> three_fields dz zdr kdp ->
  exists out,
    calc_blended_rain (AArr dz) (AArr zdr) (AArr kdp) ice_flag band rain_defaults
      = Ok (RainArr (ashape dz) out) /\
    (forall i d r, gate3x dz zdr kdp i (Fin d) r NaN ->
       nth_error (out_meth out) i = Some 4%Z /\ nth_error (out_rain out) i = Some (Fin (nexrad d))) /\
    (forall i r k, gate3x dz zdr kdp i NaN r k ->
       nth_error (out_meth out) i = Some 4%Z /\ nth_error (out_rain out) i = Some NaN) /\
    (forall i d k, gate3x dz zdr kdp i (Fin d) NaN (Fin k) ->
       nth_error (out_meth out) i = Some (fst (blended_other d k)) /\
       nth_error (out_rain out) i = Some (Fin (snd (blended_other d k)))).
Proof.
  intros dz zdr kdp ice band Hb (T & S1 & S2 & O1 & O2 & O3).
  destruct (C09_blended_other_bands dz zdr kdp ice band (rain_defaults (F:=xr)) Hb S1 S2 O1 O3)
    as (out & E & _ & _ & _ & D).
  exists out. split; [exact E|]. rewrite T in D; unfold cast in D.
  split; [|split].
  - intros i d r (Ed & _ & Ek). destruct (D i _ _ Ed Ek) as (_ & Dl).
    destruct Dl as [-> ->]; [intros [_ H]; discriminate|]. split; auto. f_equal. apply nexrad_spec.
  - intros i r k (Ed & _ & Ek). destruct (D i _ _ Ed Ek) as (_ & Dl).
    destruct Dl as [-> ->]; [intros [H _]; discriminate|]. split; auto. f_equal.
    cbn [thresh_nexrad r_z_a r_z_b rain_defaults].
    rewrite !lit_fin; cbn [Qnum Qden]. apply R_Z_capped_nan. lra.
  - intros i d k (Ed & _ & Ek). destruct (D i _ _ Ed Ek) as (Dh & Dl).
    cbn [thresh_dz thresh_kdp rain_defaults] in Dh, Dl.
    rewrite (lit_fin 38), (lit_fin 0.3) in Dh, Dl. repeat rewrite fle_fin in Dh.
    repeat rewrite fle_fin in Dl. cbn [Qnum Qden] in Dh, Dl.
    unfold blended_other. destruct (Rle_dec 38 d); [destruct (Rle_dec 0.3 k)|]; cbn [fst snd].
    + destruct Dh as [-> ->]; [rewrite !Rleb_true; lra|]. split; auto.
      f_equal. apply kdp_spec. lra.
    + destruct Dl as [-> ->]; [rewrite !Rleb_true; lra|]. split; auto. f_equal. apply nexrad_spec.
    + destruct Dl as [-> ->]; [rewrite !Rleb_true; lra|]. split; auto. f_equal. apply nexrad_spec.
Qed.

(** ** csu_hidro_rain, S band *)
Theorem C84_hidro_S_missing :
  forall (dz zdr kdp fhc : arr xr), three_fields dz zdr kdp -> ashape dz = ashape fhc -> arr_ok fhc ->
  exists out,
    csu_hidro_rain (AArr dz) (AArr zdr) (AArr kdp) (AArr fhc) "S" rain_defaults
      = Ok (RainArr (ashape dz) out) /\
    (** class missing: no rain, method 0, whatever the measurements *)
    (forall i d r k, gate3x dz zdr kdp i d r k -> nth_error (adata fhc) i = Some NaN ->
       nth_error (out_meth out) i = Some 0%Z /\ nth_error (out_rain out) i = Some (Fin 0)) /\
    (** rain class, Zdr missing: as if Zdr were below its threshold *)
    (forall i d k c, gate3x dz zdr kdp i (Fin d) NaN (Fin k) ->
       nth_error (adata fhc) i = Some (Fin c) -> is_rain_class c ->
       nth_error (out_meth out) i = Some (fst (hidro_S_rain d 0 k)) /\
       nth_error (out_rain out) i = Some (Fin (snd (hidro_S_rain d 0 k)))) /\
    (** rain class, Kdp missing: as if Kdp were below its threshold *)
    (forall i d r c, gate3x dz zdr kdp i (Fin d) (Fin r) NaN ->
       nth_error (adata fhc) i = Some (Fin c) -> is_rain_class c ->
       nth_error (out_meth out) i = Some (fst (hidro_S_rain d r 0)) /\
       nth_error (out_rain out) i = Some (Fin (snd (hidro_S_rain d r 0)))) /\
    (** rain class, Z missing: method 4, missing rate *)
    (forall i r k c, gate3x dz zdr kdp i NaN r k ->
       nth_error (adata fhc) i = Some (Fin c) -> is_rain_class c ->
       nth_error (out_meth out) i = Some 4%Z /\ nth_error (out_rain out) i = Some NaN) /\
    (** ice class: Z and Zdr may be missing without effect *)
    (forall i d r k c, gate3x dz zdr kdp i d r (Fin k) ->
       nth_error (adata fhc) i = Some (Fin c) -> is_ice_class c ->
       nth_error (out_meth out) i = Some (fst (hidro_S_ice k)) /\
       nth_error (out_rain out) i = Some (Fin (snd (hidro_S_ice k)))).
Proof.
  intros dz zdr kdp fhc (T & S1 & S2 & O1 & O2 & O3) S3 O4.
  destruct (C13_hidro_S_decision_tree dz zdr kdp fhc (rain_defaults (F:=xr)) S1 S2 S3 O1 O2 O3 O4)
    as (out & E & _ & _ & _ & D).
  exists out. split; [exact E|]. clear E.
  rewrite T in D; unfold cast in D. cbn [thresh_dz thresh_kdp thresh_zdr rain_defaults] in D.
  split; [|split; [|split; [|split]]].
  - intros i d r k (Ed & Er & Ek) Ec. destruct (D i _ _ _ _ Ed Er Ek Ec (class_sane_xr _)) as [-> ->].
    change (phase_of NaN) with (@phase_of xr _ NaN).
    assert (P : @phase_of xr _ NaN = Neither) by reflexivity. rewrite P. cbn [hidro_S_method Z.eqb].
    split; auto. rewrite lit_fin; cbn [Qnum Qden]. rq.
  - intros i d k c (Ed & Er & Ek) Ec Hc. destruct (D i _ _ _ _ Ed Er Ek Ec (class_sane_xr _)) as [-> ->].
    apply phase_rain in Hc. rewrite Hc. rewrite (lit_fin 38), (lit_fin 0.3).
    repeat rewrite fle_fin. cbn [Qnum Qden]. change (fle (@flit xr _ 0.5) NaN) with false.
    unfold hidro_S_rain.
    destruct (Rleb_spec (38 / 1) d), (Rleb_spec (3 / 10) k), (Rle_dec 38 d), (Rle_dec 0.3 k), (Rle_dec 0.5 0); try lra;
      cbn [hidro_S_method Z.eqb rate_of_method fst snd r_z_a r_z_b r_kdp_a r_kdp_b rain_defaults];
      split; auto; f_equal; (apply nexrad_spec || (apply kdp_spec; lra)).
  - intros i d r c (Ed & Er & Ek) Ec Hc. destruct (D i _ _ _ _ Ed Er Ek Ec (class_sane_xr _)) as [-> ->].
    apply phase_rain in Hc. rewrite Hc. rewrite (lit_fin 38), (lit_fin 0.5).
    repeat rewrite fle_fin. cbn [Qnum Qden]. change (fle (@flit xr _ 0.3) NaN) with false.
    unfold hidro_S_rain.
    destruct (Rleb_spec (38 / 1) d), (Rleb_spec (5 / 10) r), (Rle_dec 38 d), (Rle_dec 0.5 r), (Rle_dec 0.3 0); try lra;
      cbn [hidro_S_method Z.eqb rate_of_method fst snd r_z_a r_z_b r_z_zdr_a r_z_zdr_b r_z_zdr_c rain_defaults];
      split; auto; f_equal; (apply nexrad_spec || apply z_zdr_spec).
  - intros i r k c (Ed & Er & Ek) Ec Hc. destruct (D i _ _ _ _ Ed Er Ek Ec (class_sane_xr _)) as [-> ->].
    apply phase_rain in Hc. rewrite Hc. change (fle (@flit xr _ 38) NaN) with false.
    cbn [hidro_S_method Z.eqb rate_of_method r_z_a r_z_b rain_defaults]. split; auto. f_equal.
    rewrite !lit_fin; cbn [Qnum Qden]. apply R_Z_capped_nan. lra.
  - intros i d r k c (Ed & Er & Ek) Ec Hc. destruct (D i _ _ _ _ Ed Er Ek Ec (class_sane_xr _)) as [-> ->].
    apply phase_ice in Hc. rewrite Hc. rewrite (lit_fin 0.3). rewrite (fle_fin _ k). cbn [Qnum Qden].
    unfold hidro_S_ice. destruct (Rleb_spec (3 / 10) k), (Rle_dec 0.3 k); try lra;
      cbn [hidro_S_method Z.eqb rate_of_method fst snd r_kdp_a r_kdp_b rain_defaults]; split; auto; f_equal.
    + apply kdp_spec. lra.
    + rewrite lit_fin; cbn [Qnum Qden]. rq.
Qed.

(** ** Tropical, predefined or default coefficients *)
Theorem C84_tropical_missing :
  forall (dz zdr kdp : arr xr) (cs : pyarg xr) predef band (o : trop_opts xr) (b : tband),
  three_fields dz zdr kdp -> field_ok (ashape dz) cs -> coefs_from predef band o b ->
  exists rain meth,
    calc_blended_rain_tropical (AArr dz) (AArr zdr) (AArr kdp) cs ANone predef band o
      = Ok (true, ashape dz, rain, meth) /\
    (** Kdp missing, Zdr high: R(Z, Zdr) *)
    (forall i d r e, gate3x dz zdr kdp i (Fin d) (Fin r) NaN -> field_at cs i e -> -10 <= d -> 0.25 <= r ->
       nth_error meth i = Some 3%Z /\ nth_error rain i = Some (Fin (t_z_zdr b d r))) /\
    (** Zdr missing, Z and Kdp high: R(Kdp) *)
    (forall i d k e, gate3x dz zdr kdp i (Fin d) NaN (Fin k) -> field_at cs i e -> 38 <= d -> 0.3 <= k ->
       nth_error meth i = Some 2%Z /\ nth_error rain i = Some (Fin (t_kdp b k))) /\
    (** Z missing, Zdr high: labelled R(Z, Zdr), rate missing *)
    (forall i r k e, gate3x dz zdr kdp i NaN (Fin r) k -> field_at cs i e -> 0.25 <= r ->
       nth_error meth i = Some 3%Z /\ nth_error rain i = Some NaN).
Proof.
  intros dz zdr kdp cs predef band o b (T & S1 & S2 & O1 & O2 & O3) Hcs Hco.
  destruct (C16_tropical_without_fhc dz zdr kdp cs predef band o S1 S2 O1 O2 O3 Hcs)
    as (rain & meth & E & _ & _ & D).
  exists rain, meth. split; [exact E|]. clear E.
  pose proof (coefs_std _ _ _ _ Hco) as Hstd.
  set (co := trop_coefs predef band o) in *. clearbody co.
  destruct Hco as (T1 & T2 & T3 & _). rewrite T, T1, T2, T3 in D. unfold cast in D.
  split; [|split].
  - intros i d r e (Ed & Er & Ek) He Hd Hr. destruct (D i _ _ _ e Ed Er Ek He) as (_ & Dh). clear D.
    rewrite (lit_fin (-10)), flt_fin in Dh; cbn [Qnum Qden] in Dh.
    destruct Dh as (-> & _ & Dh); [apply Rltb_false; lra|].
    change (fle (@flit xr _ 0.3) NaN) with false in *. cbn [andb] in *.
    rewrite (lit_fin 0.25), fle_fin in *; cbn [Qnum Qden] in *.
    rewrite (proj2 (Rleb_true (25 / 100) r)) in * by lra. cbn [trop_method] in *.
    split; auto. rewrite Dh by discriminate. f_equal. now apply (trop_rates b co d r 1 Hstd).
  - intros i d k e (Ed & Er & Ek) He Hd Hk. destruct (D i _ _ _ e Ed Er Ek He) as (_ & Dh). clear D.
    rewrite (lit_fin (-10)), flt_fin in Dh; cbn [Qnum Qden] in Dh.
    destruct Dh as (-> & _ & Dh); [apply Rltb_false; lra|].
    change (fle (@flit xr _ 0.25) NaN) with false in *.
    rewrite (lit_fin 0.3), (lit_fin 38) in *. repeat rewrite fle_fin in *; cbn [Qnum Qden] in *.
    rewrite (proj2 (Rleb_true (3 / 10) k)), (proj2 (Rleb_true (38 / 1) d)) in * by lra. cbn [trop_method andb] in *.
    split; auto. rewrite Dh by discriminate. f_equal.
    destruct (trop_rates b co d 0 k Hstd) as (_ & R2 & _). apply R2. lra.
  - intros i r k e (Ed & Er & Ek) He Hr. destruct (D i _ _ _ e Ed Er Ek He) as (_ & Dh). clear D.
    destruct Dh as (-> & _ & Dh); [reflexivity|].
    change (fle (@flit xr _ 38) NaN) with false in *. rewrite andb_false_r in *.
    rewrite (lit_fin 0.25), fle_fin in *; cbn [Qnum Qden] in *.
    rewrite (proj2 (Rleb_true (25 / 100) r)) in * by lra. cbn [trop_method] in *.
    split; auto. rewrite Dh by discriminate. f_equal. cbn [trop_rate_of_method].
    destruct Hstd as ((_ & _ & _ & _ & _ & _ & HS & HC & HX) & _).
    assert (B : exists qa qb c, t_r_z_zdr_a co = flit qa /\ t_r_z_zdr_b co = flit qb /\ t_r_z_zdr_c co = Fin c
      /\ IZR (Qnum qb) / IZR (Zpos (Qden qb)) <> 0).
    { destruct b; cbn [band_name] in *;
      [specialize (HS eq_refl); destruct HS as (_ & _ & _ & -> & -> & -> & _)
      |specialize (HC eq_refl); destruct HC as (_ & _ & _ & -> & -> & -> & _)
      |specialize (HX eq_refl); destruct HX as (_ & _ & _ & -> & -> & -> & _)];
      (do 3 eexists; split; [reflexivity|split; [reflexivity|split; [apply lit_div10; reflexivity|cbn [Qnum Qden]; lra]]]). }
    destruct B as (qa & qb & c & -> & -> & -> & Hq). rewrite !lit_fin. now apply R_Z_Zdr_nan.
Qed.

(** ** The hypotheses are met *)
Definition nan_zdr := mkarr (F:=xr) DFloat [3%nat] [NaN; NaN; Fin 1].
Example ex_nan3 : three_fields ex_dz nan_zdr ex_kdp. Proof. repeat split. Qed.
Example ex_nan_gate : gate3x ex_dz nan_zdr ex_kdp 1 (Fin 20) NaN (Fin 0). Proof. repeat split. Qed.
(** 20 dBZ with Zdr missing: rain is missing although Z is known. *)
Example ex_nan_rate : exists out,
  calc_blended_rain (AArr ex_dz) (AArr nan_zdr) (AArr ex_kdp) false "S" rain_defaults = Ok (RainArr [3%nat] out) /\
  nth_error (out_meth out) 1 = Some 5%Z /\ nth_error (out_rain out) 1 = Some NaN.
Proof.
  destruct (C84_blended_S_missing_zdr ex_dz nan_zdr ex_kdp false ex_nan3) as (out & E & D).
  exists out. split; [exact E|]. apply (D 1%nat 20 0 ex_nan_gate). lra.
Qed.
