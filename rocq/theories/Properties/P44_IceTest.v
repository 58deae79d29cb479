(** * C105: what the ice test of calc_blended_rain lets through at S band *)
From Coq Require Import Reals Lra Lia ZArith.
From Verif Require Import Base.Num Base.ListFacts Base.XReal Base.XTac Base.XArith.
From Verif Require Import Model.Common Model.BlendedRain Spec.RainSpec Spec.RainDefaultSpec.
From Verif Require Import Properties.P21_RainDefaults.
Open Scope R_scope.

(** ** Powers of ten *)
Lemma ln10_pos : 0 < ln 10. Proof. rewrite <- ln_1. apply ln_increasing; lra. Qed.
Lemma lg_pow x : lg (Rpower 10 x) = x.
Proof. unfold lg, Rpower. rewrite ln_exp. field. pose proof ln10_pos. lra. Qed.
Lemma pow_lg x : 0 < x -> Rpower 10 (lg x) = x.
Proof. intro P. unfold lg, Rpower. replace (ln x / ln 10 * ln 10) with (ln x) by (field; pose proof ln10_pos; lra). now apply exp_ln. Qed.
Lemma pow10_lt a b : a < b -> Rpower 10 a < Rpower 10 b.
Proof. intro. apply Rpower_lt; lra. Qed.
Lemma pow10_le a b : a <= b -> Rpower 10 a <= Rpower 10 b.
Proof. intros [H| ->]; [left; now apply pow10_lt|lra]. Qed.
Lemma lg_lt x y : 0 < x -> (lg x < lg y <-> x < y \/ False) \/ y <= 0.
Proof.
  intro P. destruct (Rle_or_lt y 0) as [|Py]; [now right|left]. split; intro H.
  - left. rewrite <- (pow_lg x), <- (pow_lg y) by auto. now apply pow10_lt.
  - destruct H as [H|[]]. unfold lg. apply Rmult_lt_compat_r; [apply Rinv_0_lt_compat, ln10_pos|]. now apply ln_increasing.
Qed.
Lemma lg_pow_lt x a : 0 < x -> (a < lg x <-> Rpower 10 a < x).
Proof.
  intro P. split; intro H.
  - rewrite <- (pow_lg x) by auto. now apply pow10_lt.
  - rewrite <- (lg_pow a). destruct (lg_lt (Rpower 10 a) x (exp_pos _)) as [L|L]; [apply L; now left|].
    pose proof (exp_pos (a * ln 10)). lra.
Qed.
Lemma lg_le x y : 0 < x -> x <= y -> lg x <= lg y.
Proof.
  intros P [H| ->]; [|lra]. left. destruct (lg_lt x y P) as [L|L]; [apply L; now left|lra].
Qed.
Lemma lg_mult x y : 0 < x -> 0 < y -> lg (x * y) = lg x + lg y.
Proof. intros. unfold lg. rewrite ln_mult by auto. field. pose proof ln10_pos. lra. Qed.
Lemma lg_npow x n : 0 < x -> lg (x ^ n) = INR n * lg x.
Proof.
  intro P. induction n; [simpl; unfold lg; rewrite ln_1; field; pose proof ln10_pos; lra|].
  rewrite S_INR. simpl. rewrite lg_mult, IHn by (auto; now apply pow_lt). ring.
Qed.
Lemma lg_10 : lg 10 = 1.
Proof. unfold lg. field. pose proof ln10_pos. lra. Qed.

Definition n09 : R := 10 * lg 0.9.
Lemma n09_bounds : -0.4762 <= n09 <= -0.4545.
Proof.
  unfold n09.
  assert (A : lg ((1 / 10) ^ 1) <= lg (0.9 ^ 21)) by (apply lg_le; simpl; lra).
  assert (B : lg (0.9 ^ 22) <= lg ((1 / 10) ^ 1)) by (apply lg_le; simpl; lra).
  rewrite !lg_npow in A, B by lra. replace (1 / 10) with (/ 10) in * by lra.
  assert (C : lg (/ 10) = -1). { unfold lg. rewrite ln_Rinv by lra. field. pose proof ln10_pos. lra. }
  rewrite C in *. simpl in A, B. lra.
Qed.

(** ** The ice test *)
Lemma icefree_line d r : ice_frac d r < 0.1 <-> d + n09 < rain_dBZ d r.
Proof.
  pose proof (Zlin_pos d) as P. unfold ice_frac.
  assert (E : Zlin (d + n09) = 0.9 * Zlin d).
  { unfold Zlin, n09. replace ((d + 10 * lg 0.9) / 10) with (lg 0.9 + d / 10) by lra.
    rewrite Rpower_plus, pow_lg by lra. reflexivity. }
  split; intro H.
  - assert (G : 0.9 * Zlin d < Zlin (rain_dBZ d r)).
    { apply Rmult_lt_reg_r with (/ Zlin d); [now apply Rinv_0_lt_compat|].
      rewrite Rmult_assoc, Rinv_r by lra. fold (Zlin (rain_dBZ d r) / Zlin d). lra. }
    rewrite <- E in G. destruct (Rlt_or_le (d + n09) (rain_dBZ d r)) as [|L]; auto.
    exfalso. assert (Zlin (rain_dBZ d r) <= Zlin (d + n09)) by (apply pow10_le; lra). lra.
  - assert (G : 0.9 * Zlin d < Zlin (rain_dBZ d r)) by (rewrite <- E; apply pow10_lt; lra).
    assert (0.9 < Zlin (rain_dBZ d r) / Zlin d); [|lra].
    apply Rmult_lt_reg_r with (Zlin d); auto. unfold Rdiv. rewrite Rmult_assoc, Rinv_l by lra. lra.
Qed.

(** the part of Zh that is Zh - Zv *)
Definition dp_part (r : R) : R := 1 - Rpower 10 (- r / 10).
Lemma dp_part_sign r : (0 < r -> 0 < dp_part r) /\ (r <= 0 -> dp_part r <= 0).
Proof.
  unfold dp_part. pose proof (Rpower_O 10 ltac:(lra)) as O. split; intro H.
  - assert (Rpower 10 (- r / 10) < Rpower 10 0) by (apply pow10_lt; lra). lra.
  - assert (Rpower 10 0 <= Rpower 10 (- r / 10)) by (apply pow10_le; lra). lra.
Qed.
Lemma dp_eq d r : Zlin d - Zlin d / Zlin r = Zlin d * dp_part r.
Proof.
  unfold dp_part, Zlin. replace (- r / 10) with (- (r / 10)) by lra. rewrite Rpower_Ropp. unfold Rdiv. ring.
Qed.
Lemma rain_dBZ_pos d r : 0 < r -> rain_dBZ d r = 0.9091 * d + 9.091 * lg (dp_part r) + 8.5091.
Proof.
  intro H. pose proof (proj1 (dp_part_sign r) H) as Y. pose proof (Zlin_pos d) as P.
  unfold rain_dBZ, Zdp_dB. rewrite dp_eq. destruct Rle_dec as [L|L]; [nra|].
  rewrite lg_mult by auto. unfold Zlin. rewrite lg_pow. lra.
Qed.
Lemma lg_tiny : lg (1 / 1000000000000) = -12.
Proof.
  replace (1 / 1000000000000) with ((1 / 10) ^ 12) by (simpl; lra). rewrite lg_npow by lra.
  replace (1 / 10) with (/ 10) by lra. unfold lg. rewrite ln_Rinv by lra. simpl. field. pose proof ln10_pos. lra.
Qed.
Lemma rain_dBZ_neg d r : r <= 0 -> rain_dBZ d r = -100.5829.
Proof.
  intro H. pose proof (proj2 (dp_part_sign r) H) as Y. pose proof (Zlin_pos d) as P.
  unfold rain_dBZ, Zdp_dB. rewrite dp_eq. destruct Rle_dec as [L|L]; [|nra]. rewrite lg_tiny. lra.
Qed.

(** Specification: a gate counts as free of ice when the part of Zh that is
    Zh - Zv exceeds a threshold that grows with Z *)
Definition icefree (d r : R) : Prop :=
  Rpower 10 ((0.0909 * d + 10 * lg 0.9 - 8.5091) / 9.091) < 1 - Rpower 10 (- r / 10).

Lemma icefree_spec d r : -100 < d -> (ice_frac d r < 0.1 <-> icefree d r).
Proof.
  intro Hd. rewrite icefree_line. pose proof n09_bounds as N. unfold icefree. fold n09. fold (dp_part r).
  destruct (Rlt_or_le 0 r) as [P|P].
  - pose proof (proj1 (dp_part_sign r) P) as Y. rewrite (rain_dBZ_pos d r P).
    rewrite <- (lg_pow_lt (dp_part r)) by auto. split; intro; lra.
  - rewrite (rain_dBZ_neg d r P). pose proof (proj2 (dp_part_sign r) P).
    pose proof (exp_pos ((0.0909 * d + n09 - 8.5091) / 9.091 * ln 10)) as X.
    change (exp ((0.0909 * d + n09 - 8.5091) / 9.091 * ln 10)) with (Rpower 10 ((0.0909 * d + n09 - 8.5091) / 9.091)) in X.
    split; intro; lra.
Qed.

(** larger Zdr and smaller Z are on the safe side *)
Theorem C105_ice_test_monotone d r d' r' : icefree d r -> d' <= d -> r <= r' -> icefree d' r'.
Proof.
  unfold icefree. intros H D R.
  assert (Rpower 10 ((0.0909 * d' + 10 * lg 0.9 - 8.5091) / 9.091) <= Rpower 10 ((0.0909 * d + 10 * lg 0.9 - 8.5091) / 9.091))
    by (apply pow10_le; lra).
  assert (Rpower 10 (- r' / 10) <= Rpower 10 (- r / 10)) by (apply pow10_le; lra). lra.
Qed.

Lemma low_zdr_icy d r : 3 <= d -> r < 0.5 -> ~ icefree d r.
Proof.
  intros D R I. apply (icefree_spec d r ltac:(lra)) in I. rewrite icefree_line in I. pose proof n09_bounds as N.
  destruct (Rlt_or_le 0 r) as [P|P]; [|rewrite (rain_dBZ_neg d r P) in I; lra].
  rewrite (rain_dBZ_pos d r P) in I. pose proof (proj1 (dp_part_sign r) P) as Y.
  assert (Q : 0.891 <= Rpower 10 (- r / 10)).
  { apply Rle_trans with (Rpower 10 (-1 / 20)); [|apply pow10_le; lra].
    rewrite <- (pow_lg 0.891) by lra. apply pow10_le.
    assert (A : lg (0.891 ^ 20) <= lg ((/ 10) ^ 1)) by (apply lg_le; simpl; lra).
    rewrite !lg_npow in A by lra. assert (C : lg (/ 10) = -1). { unfold lg. rewrite ln_Rinv by lra. field. pose proof ln10_pos. lra. }
    rewrite C in A. simpl in A. lra. }
  assert (W : lg (dp_part r) <= lg 0.109) by (apply lg_le; auto; unfold dp_part; lra).
  assert (V : lg 0.109 <= -0.96).
  { assert (A : lg (0.109 ^ 25) <= lg ((/ 10) ^ 24)) by (apply lg_le; simpl; lra).
    rewrite !lg_npow in A by lra. assert (C : lg (/ 10) = -1). { unfold lg. rewrite ln_Rinv by lra. field. pose proof ln10_pos. lra. }
    rewrite C in A. simpl in A. lra. }
  lra.
Qed.

(** ** calc_blended_rain(dz, zdr, kdp), S band, default keywords *)
(** methods 1, 3 and 4 are used exactly at gates free of ice, method 5 never *)
Theorem C105_methods_of_the_ice_test (dz zdr kdp : arr xr) ice_flag : three_fields dz zdr kdp ->
  exists out, calc_blended_rain (AArr dz) (AArr zdr) (AArr kdp) ice_flag "S" rain_defaults
      = Ok (RainArr (ashape dz) out) /\
    forall i d r k, gate3 dz zdr kdp i d r k -> -100 < d ->
      exists m, nth_error (out_meth out) i = Some m /\
        (icefree d r -> m = 1%Z \/ m = 2%Z \/ m = 3%Z \/ m = 4%Z) /\
        (~ icefree d r -> m = 2%Z \/ m = 5%Z) /\
        (m = 2%Z -> 38 <= d /\ 0.3 <= k) /\
        (m = 4%Z -> d < 3).
Proof.
  intro T. destruct (C83_blended_S_defaults dz zdr kdp ice_flag T) as (out & E & G). exists out. split; auto.
  intros i d r k Hg Hd. destruct (G i d r k Hg) as (M & _). exists (fst (blended_S d r k)). split; auto.
  pose proof (icefree_spec d r Hd) as S. pose proof (low_zdr_icy d r) as L4. unfold blended_S.
  destruct (Rle_dec 38 d), (Rle_dec 0.3 k), (Rlt_dec (ice_frac d r) 0.1) as [I|I], (Rle_dec 0.5 r); cbn [fst];
    (apply S in I || rewrite S in I); repeat split; intros; try tauto; try discriminate; try lra.
  all: destruct (Rlt_or_le d 3) as [|D3]; auto; exfalso; apply (L4 D3); auto; lra.
Qed.

(** for Z from 3 dBZ up the plain Z-R relation is never used *)
Theorem C105_no_method_4 (dz zdr kdp : arr xr) ice_flag out sh : three_fields dz zdr kdp ->
  calc_blended_rain (AArr dz) (AArr zdr) (AArr kdp) ice_flag "S" rain_defaults = Ok (RainArr sh out) ->
  forall i d r k, gate3 dz zdr kdp i d r k -> 3 <= d -> nth_error (out_meth out) i <> Some 4%Z.
Proof.
  intros T E i d r k Hg D. destruct (C105_methods_of_the_ice_test dz zdr kdp ice_flag T) as (out' & E' & G).
  rewrite E in E'. injection E' as _ ->. destruct (G i d r k Hg ltac:(lra)) as (m & M & _ & _ & _ & F4).
  rewrite M. intro Q. injection Q as ->. specialize (F4 eq_refl). lra.
Qed.

Lemma tiny_rain : 0 < nexrad (-100.5829) <= 1 / 10 ^ 8.
Proof.
  unfold nexrad. rewrite Rmin_left by lra. split; [apply exp_pos|].
  assert (A : Zlin (-100.5829) / 300 <= Rpower 10 (-12.4)).
  { unfold Zlin. apply Rmult_le_reg_r with 300; [lra|]. unfold Rdiv at 1. rewrite Rmult_assoc, Rinv_l, Rmult_1_r by lra.
    apply Rle_trans with (Rpower 10 (-12.4) * Rpower 10 2.4).
    - rewrite <- Rpower_plus. apply pow10_le. lra.
    - apply Rmult_le_compat_l; [left; apply exp_pos|]. rewrite <- (pow_lg 300) by lra. apply pow10_le.
      assert (B : lg (10 ^ 12) <= lg (300 ^ 5)) by (apply lg_le; simpl; lra).
      rewrite !lg_npow, lg_10 in B by lra. simpl in B. lra. }
  assert (Q : 0 < Zlin (-100.5829) / 300) by (pose proof (Zlin_pos (-100.5829)); lra).
  apply Rle_trans with (Rpower (Rpower 10 (-12.4)) (1 / 1.4)).
  - apply Rle_Rpower_l; lra.
  - rewrite Rpower_mult. apply Rle_trans with (Rpower 10 (-8)); [apply pow10_le; lra|].
    replace (-8) with (- (8)) by lra. rewrite Rpower_Ropp. replace 8 with (INR 8) by (simpl; lra). rewrite Rpower_pow by lra. simpl. lra.
Qed.

(** a gate with Zdr not above zero (a fill value such as -32768 included) gets
    R(Kdp) or practically no rain, whatever its Z; the other bands give it the
    Z-R rain *)
Theorem C105_negative_zdr (dz zdr kdp : arr xr) ice_flag : three_fields dz zdr kdp ->
  exists out, calc_blended_rain (AArr dz) (AArr zdr) (AArr kdp) ice_flag "S" rain_defaults
      = Ok (RainArr (ashape dz) out) /\
    forall i d r k, gate3 dz zdr kdp i d r k -> -100 < d -> r <= 0 ->
      (38 <= d -> 0.3 <= k -> nth_error (out_meth out) i = Some 2%Z /\ nth_error (out_rain out) i = Some (Fin (by_kdp k))) /\
      (d < 38 \/ k < 0.3 -> nth_error (out_meth out) i = Some 5%Z /\
         exists v, nth_error (out_rain out) i = Some (Fin v) /\ 0 < v <= 1 / 10 ^ 8).
Proof.
  intro T. destruct (C83_blended_S_defaults dz zdr kdp ice_flag T) as (out & E & G). exists out. split; auto.
  intros i d r k Hg Hd Hr. destruct (G i d r k Hg) as (M & V & _). 
  assert (I : ~ ice_frac d r < 0.1).
  { rewrite icefree_line, (rain_dBZ_neg d r Hr). pose proof n09_bounds. lra. }
  rewrite M, V. unfold blended_S. rewrite (rain_dBZ_neg d r Hr). pose proof tiny_rain.
  destruct (Rle_dec 38 d), (Rle_dec 0.3 k), (Rlt_dec (ice_frac d r) 0.1); try tauto; cbn [fst snd];
    split; intros; try lra; split; eauto.
Qed.

Lemma nexrad_rainy d : 30 <= d -> 1 <= nexrad d.
Proof.
  intro H. unfold nexrad.
  assert (A : 1 <= Zlin (Rmin d 53) / 300).
  { assert (1000 <= Zlin (Rmin d 53)).
    { replace 1000 with (Zlin 30). - apply pow10_le. assert (30 <= Rmin d 53) by (apply Rmin_glb; lra). lra.
      - unfold Zlin. replace (30 / 10) with (INR 3) by (simpl; lra). rewrite Rpower_pow by lra. simpl. lra. }
    lra. }
  rewrite <- (pow_lg (Zlin (Rmin d 53) / 300)) by lra. rewrite Rpower_mult.
  eapply Rle_trans; [apply Req_le; symmetry; apply (Rpower_O 10); lra|]. apply pow10_le.
  assert (0 <= lg (Zlin (Rmin d 53) / 300)).
  { replace 0 with (lg 1) by (unfold lg; rewrite ln_1; field; pose proof ln10_pos; lra). apply lg_le; lra. }
  apply Rmult_le_pos; lra.
Qed.
Theorem C105_bands_disagree (dz zdr kdp : arr xr) f1 f2 band : band <> "S"%string -> three_fields dz zdr kdp ->
  exists s o, calc_blended_rain (AArr dz) (AArr zdr) (AArr kdp) f1 "S" rain_defaults = Ok (RainArr (ashape dz) s) /\
    calc_blended_rain (AArr dz) (AArr zdr) (AArr kdp) f2 band rain_defaults = Ok (RainArr (ashape dz) o) /\
    forall i d r k, gate3 dz zdr kdp i d r k -> 30 <= d -> r <= 0 -> d < 38 \/ k < 0.3 ->
      exists v w, nth_error (out_rain s) i = Some (Fin v) /\ nth_error (out_rain o) i = Some (Fin w) /\
        v <= 1 / 10 ^ 8 /\ 1 <= w.
Proof.
  intros Hb T. destruct (C105_negative_zdr dz zdr kdp f1 T) as (s & Es & Gs).
  destruct (C83_blended_other_defaults dz zdr kdp f2 band Hb T) as (o & Eo & Go). exists s, o. split; auto. split; auto.
  intros i d r k Hg D R K. destruct (Gs i d r k Hg ltac:(lra) R) as (_ & G5). destruct (G5 K) as (_ & v & V & B).
  destruct (Go i d r k Hg) as (_ & W). exists v, (snd (blended_other d k)). repeat split; auto; try lra.
  pose proof (nexrad_rainy d D). unfold blended_other. destruct (Rle_dec 38 d); [destruct (Rle_dec 0.3 k)|]; cbn [snd]; lra.
Qed.

(** ** The hypotheses are met: 40 dBZ with Zdr = -0.2 dB and with a fill value,
    and 20 dBZ with 2 dB, which is free of ice *)
Definition ex105_dz : arr xr := mkarr DFloat [3%nat] [Fin 40; Fin 40; Fin 20].
Definition ex105_zdr : arr xr := mkarr DFloat [3%nat] [Fin (-0.2); Fin (-32768); Fin 2].
Definition ex105_kdp : arr xr := mkarr DFloat [3%nat] [Fin 0.1; Fin (-32768); Fin 0.1].
Example ex105_fields : three_fields ex105_dz ex105_zdr ex105_kdp /\
  gate3 ex105_dz ex105_zdr ex105_kdp 0 40 (-0.2) 0.1 /\ gate3 ex105_dz ex105_zdr ex105_kdp 1 40 (-32768) (-32768).
Proof. repeat split. Qed.
Example ex105_free : icefree 20 2.
Proof.
  apply icefree_spec; [lra|]. rewrite icefree_line, rain_dBZ_pos by lra. pose proof n09_bounds.
  assert (Q : Rpower 10 (- (2) / 10) <= 0.64).
  { rewrite <- (pow_lg 0.64) by lra. apply pow10_le.
    assert (A : lg ((/ 10) ^ 1) <= lg (0.64 ^ 5)) by (apply lg_le; simpl; lra).
    rewrite !lg_npow in A by lra. assert (C : lg (/ 10) = -1). { unfold lg. rewrite ln_Rinv by lra. field. pose proof ln10_pos. lra. }
    rewrite C in A. simpl in A. lra. }
  assert (V : -0.5 <= lg (dp_part 2)).
  { assert (A : lg ((/ 10) ^ 1) <= lg (dp_part 2 ^ 2)) by (unfold dp_part; apply lg_le; simpl; nra).
    rewrite !lg_npow in A by (unfold dp_part; lra). assert (C : lg (/ 10) = -1). { unfold lg. rewrite ln_Rinv by lra. field. pose proof ln10_pos. lra. }
    rewrite C in A. simpl in A. lra. }
  lra.
Qed.
