(** * Properties C55-C57, C72-C75, C77: unit conversions, system and Doppler
    formulas.  Exact real arithmetic unless a theorem is stated for every [F]. *)
From Coq Require Import Reals Lra Lia.
From Verif Require Import Base.Num Base.ListFacts Base.XReal Base.XTac Base.XArith.
From Verif Require Import Model.Common Model.Fundamentals Spec.FundSpec Proofs.FundReal.
Open Scope R_scope.

(** ** C55 *)
Theorem C55_dbz_z_inverse :
  (forall x, z2dbz (dbz2z (Fin x)) = Fin x) /\
  (forall z, 0 < z -> dbz2z (z2dbz (Fin z)) = Fin z).
Proof.
  split.
  - intro x. rewrite dbz2z_v, z2dbz_v by apply exp_pos. rewrite log10_Rpower. f_equal. field.
  - intros z Hz. rewrite z2dbz_v by auto. rewrite dbz2z_v. f_equal.
    replace (10 * (ln z / ln 10) / 10) with (ln z / ln 10) by (field; pose proof ln10_pos; lra).
    now apply Rpower_10_log10.
Qed.

(** dBZ to linear: strictly increasing, positive, +10 dBZ = 10 times, sums of dB
    are products, 0 dBZ is 1 mm^6 m^-3; linear 0 is -inf dBZ and a negative
    linear value is NaN. *)
Theorem C55_dbz2z_laws : forall x y,
  exists zx zy zs, dbz2z (Fin x) = Fin zx /\ dbz2z (Fin y) = Fin zy /\ dbz2z (Fin (x + y)) = Fin zs /\
    0 < zx /\ zs = zx * zy /\ (x < y <-> zx < zy) /\
    dbz2z (Fin (x + 10)) = Fin (10 * zx) /\ dbz2z (Fin 0) = Fin 1.
Proof.
  intros x y. exists (lin x), (lin y), (lin (x + y)). rewrite !dbz2z_v. unfold lin.
  repeat split.
  - apply exp_pos.
  - apply lin_add.
  - intro L. apply Rpower10_lt. lra.
  - intro L. destruct (Rlt_or_le x y) as [|G]; auto. exfalso.
    assert (Rpower 10 (y / 10) <= Rpower 10 (x / 10)) by (apply Rpower10_le; lra). lra.
  - f_equal. replace ((x + 10) / 10) with (1 + x / 10) by lra.
    rewrite Rpower_plus, Rpower_1 by lra. reflexivity.
  - f_equal. replace (0 / 10) with 0 by lra. apply Rpower_O. lra.
Qed.

Theorem C55_z2dbz_outside_domain :
  z2dbz (Fin 0) = NInf /\ forall z, z < 0 -> z2dbz (Fin z) = NaN.
Proof.
  unfold z2dbz. rewrite lit_int. split.
  - change (flog10 (Fin 0)) with (xlog10 (Fin 0)). simpl.
    destruct Rlt_dec; [lra|]. destruct Req_EM_T; [|lra]. unfold xinf.
    destruct Rlt_dec; [lra|]. destruct Rlt_dec; [auto|lra].
  - intros z Hz. change (flog10 (Fin z)) with (xlog10 (Fin z)). simpl.
    destruct Rlt_dec; [lra|]. destruct Req_EM_T; [lra|]. reflexivity.
Qed.

Lemma lit_mph : @flit xr _ 0.62137%Q = Fin 0.62137.
Proof. rewrite lit_fin. reflexivity. Qed.
Lemma lit_kts : @flit xr _ 0.51%Q = Fin 0.51.
Proof. rewrite lit_fin. reflexivity. Qed.

Theorem C55_wind_conversions_inverse : forall x,
  kmh2si (si2kmh (Fin x)) = Fin x /\ si2kmh (kmh2si (Fin x)) = Fin x /\
  mph2si (si2mph (Fin x)) = Fin x /\ si2mph (mph2si (Fin x)) = Fin x /\
  kts2si (si2kts (Fin x)) = Fin x /\ si2kts (kts2si (Fin x)) = Fin x.
Proof.
  intro x. unfold kmh2si, si2kmh, mph2si, si2mph, kts2si, si2kts.
  rewrite !lit_mph, !lit_kts, !lit_int.
  repeat (rewrite ?fmul_fin; rewrite ?fdiv_fin by lra).
  repeat split; f_equal; field; lra.
Qed.

(** What the conversions compute: 1 m/s is 3.6 km/h and 2.236932 mph. *)
Theorem C55_wind_factors : forall x,
  si2kmh (Fin x) = Fin (3.6 * x) /\ si2mph (Fin x) = Fin (2.236932 * x).
Proof.
  intro x. unfold si2kmh, si2mph. rewrite !lit_mph, !lit_int.
  repeat (rewrite ?fmul_fin; rewrite ?fdiv_fin by lra). split; f_equal; lra.
Qed.

Theorem C55_wave_pulse_inverse :
  (forall w, w <> 0 -> wavelength (frequency (Fin w)) = Fin w /\ frequency (wavelength (Fin w)) = Fin w) /\
  (forall t, pulse_duration (pulse_length (Fin t)) = Fin t /\ pulse_length (pulse_duration (Fin t)) = Fin t).
Proof.
  pose proof c0_pos as Hc. split.
  - intros w Hw. assert (c0 / w <> 0).
    { unfold Rdiv. apply Rmult_integral_contrapositive. split; [lra|now apply Rinv_neq_0_compat]. }
    rewrite frequency_v, wavelength_v, wavelength_v, frequency_v by auto. split; f_equal; field; lra.
  - intro t. rewrite pulse_length_v, pulse_duration_v, pulse_duration_v, pulse_length_v.
    split; f_equal; field; lra.
Qed.

(** ** C56: one knot is 0.5144 m/s, so x m/s is more than 1.9 x knots; si2kts
    returns about half of x instead, and it is kts2si that returns more than
    1.9 times its argument. *)
Theorem C56_knot_conversions_swapped : forall x, 0 < x ->
  exists r s, si2kts (Fin x) = Fin r /\ kts2si (Fin x) = Fin s /\
    r = 0.51 * x /\ r < 0.6 * x /\ 1.9 * x < s /\
    (* the swapped pairing is right to within one percent *)
    Rabs (r - 0.514444 * x) < 0.01 * (0.514444 * x) /\
    Rabs (s - x / 0.514444) < 0.01 * (x / 0.514444).
Proof.
  intros x Hx. unfold si2kts, kts2si. rewrite lit_kts, fmul_fin, fdiv_fin by lra.
  eexists; eexists. split; [reflexivity|]. split; [reflexivity|].
  repeat split; try lra.
  - rewrite Rabs_left by lra. lra.
  - rewrite Rabs_right by lra. lra.
Qed.
Example C56_ex : exists r, si2kts (Fin 10) = Fin r /\ r < 6.
Proof. destruct (C56_knot_conversions_swapped 10) as (r & s & E & _ & _ & L & _); [lra|]. exists r; split; auto. lra. Qed.

(** ** C57 *)
Theorem C57_velocity_range_product : forall prf wl, prf <> 0 ->
  exists v r, vmax (Fin prf) (Fin wl) = Fin v /\ rmax (Fin prf) = Fin r /\
    v * r = c0 * wl / 8 /\ nyquist (Fin prf) (Fin wl) = Fin v /\ unambiguous_range (Fin prf) = Fin r.
Proof.
  intros p w Hp. exists (p * w / 4), (c0 / (2 * p)). unfold nyquist, unambiguous_range.
  rewrite vmax_v, rmax_v by auto. repeat split; auto. field; auto.
Qed.

Theorem C57_doppler_dilemma : forall prf wl, prf <> 0 -> wl <> 0 ->
  doppler_dilemma (vmax (Fin prf) (Fin wl)) (Fin wl) = rmax (Fin prf) /\
  doppler_dilemma (rmax (Fin prf)) (Fin wl) = vmax (Fin prf) (Fin wl).
Proof.
  intros p w Hp Hw. pose proof c0_pos. rewrite vmax_v, rmax_v by auto.
  rewrite !dilemma_v.
  - split; f_equal; field; repeat split; lra.
  - unfold Rdiv. apply Rmult_integral_contrapositive. split; [lra|apply Rinv_neq_0_compat; lra].
  - unfold Rdiv. apply Rmult_integral_contrapositive. split; [|lra].
    now apply Rmult_integral_contrapositive.
Qed.

Theorem C57_doppler_dilemma_involution : forall x wl, x <> 0 -> wl <> 0 ->
  doppler_dilemma (doppler_dilemma (Fin x) (Fin wl)) (Fin wl) = Fin x.
Proof.
  intros x w Hx Hw. pose proof c0_pos. rewrite dilemma_v by auto. rewrite dilemma_v.
  - f_equal; field; repeat split; lra.
  - unfold Rdiv. apply Rmult_integral_contrapositive. split; [|now apply Rinv_neq_0_compat].
    apply Rmult_integral_contrapositive. split; [|lra]. apply Rmult_integral_contrapositive. split; lra.
Qed.

(** Dual PRF with prf1 < prf2: positive, above the Nyquist velocity of prf1,
    above that of prf2 exactly when prf2 < 2 prf1; swapping the PRFs only
    changes the sign. *)
Theorem C57_dual_prf : forall k wl p q, 0 < wl -> 0 < p -> p < q ->
  exists v v1 v2, vmax_dual k (Fin wl) (Fin p) (Fin q) = Ok (Fin v) /\
    vmax (Fin p) (Fin wl) = Fin v1 /\ vmax (Fin q) (Fin wl) = Fin v2 /\
    v = v1 * v2 / (v2 - v1) /\ 0 < v /\ v1 < v /\ (v2 < v <-> q < 2 * p) /\
    vmax_dual k (Fin wl) (Fin q) (Fin p) = Ok (Fin (- v)).
Proof.
  intros k w p q Hw Hp Hq. rewrite !vmax_v, !vmax_dual_v by lra.
  exists (w * p * q / (4 * (q - p))), (p * w / 4), (q * w / 4).
  split. { do 2 f_equal. field. repeat split; lra. }
  assert (Hd : 0 < / (4 * (q - p))) by (apply Rinv_0_lt_compat; lra).
  repeat split; auto.
  - assert (Hn : w * (q - p) <> 0) by (apply Rmult_integral_contrapositive; lra).
    field. repeat split; lra.
  - unfold Rdiv. repeat apply Rmult_lt_0_compat; lra.
  - apply (Rmult_lt_reg_r (4 * (q - p))); [lra|].
    unfold Rdiv. rewrite (Rmult_assoc (w * p * q)), Rinv_l by lra.
    replace (p * w * / 4 * (4 * (q - p))) with (w * p * q - w * p * p) by field.
    assert (0 < w * p * p) by (repeat apply Rmult_lt_0_compat; lra). lra.
  - intro L. apply (Rmult_lt_compat_r (4 * (q - p))) in L; [|lra].
    unfold Rdiv in L. rewrite (Rmult_assoc (w * p * q)), Rinv_l in L by lra.
    replace (q * w * / 4 * (4 * (q - p))) with (w * q * (q - p)) in L by field.
    apply (Rmult_lt_reg_l (w * q)); [apply Rmult_lt_0_compat; lra|]. lra.
  - intro L. apply (Rmult_lt_reg_r (4 * (q - p))); [lra|].
    unfold Rdiv. rewrite (Rmult_assoc (w * p * q)), Rinv_l by lra.
    replace (q * w * / 4 * (4 * (q - p))) with (w * q * (q - p)) by field.
    rewrite Rmult_1_r. replace (w * p * q) with (w * q * p) by ring.
    apply Rmult_lt_compat_l; [apply Rmult_lt_0_compat; lra|lra].
  - do 2 f_equal. field. repeat split; lra.
Qed.

(** Equal PRFs: Python floats raise, numpy floats give +inf. *)
Theorem C57_dual_prf_equal : forall wl p, 0 < wl -> p <> 0 ->
  vmax_dual PyFloat (Fin wl) (Fin p) (Fin p) = Raise ZeroDivisionError /\
  vmax_dual NpFloat (Fin wl) (Fin p) (Fin p) = Ok PInf /\
  dual_nyquist PyFloat (Fin wl) (Fin p) (Fin p) = Raise ZeroDivisionError.
Proof.
  intros w p Hw Hp. unfold dual_nyquist, vmax_dual. rewrite !lit_int, !kdiv_fin by auto. cbn [bind].
  rewrite fsub_fin, fmul_fin. replace (4 * (1 / p - 1 / p)) with 0 by ring.
  rewrite kdiv_py0. repeat split. unfold kdiv. f_equal.
  change (fdiv (Fin w) (Fin 0)) with (xdiv (Fin w) (Fin 0)). cbn [xdiv].
  destruct Req_EM_T; [|lra]. unfold xinf. destruct Rlt_dec; [auto|lra].
Qed.
Example C57_ex : exists v, vmax_dual PyFloat (Fin 0.1) (Fin 1000) (Fin 1250) = Ok (Fin v) /\ v = 125.
Proof. rewrite vmax_dual_v by lra. eexists; split; [reflexivity|]. lra. Qed.

(** ** C74: the Doppler shift at the Nyquist frequency is the Nyquist velocity *)
Theorem C74_radial_velocity_of_fmax : forall prf wl,
  radial_velocity (fmax (Fin prf)) (Fin wl) = vmax (Fin prf) (Fin wl).
Proof. intros. rewrite fmax_v, radvel_v, vmax_v. f_equal. field. Qed.

(** ** C72: thermal noise *)
Section C72.
Context {F : Type} `{FloatOps F}.
(** "W" in any case gives k T B, elementwise *)
Theorem C72_noise_watts : forall u (x : nd F) t, u = "W"%string \/ u = "w"%string ->
  thermal_noise x u t = nd1 (fun b => fmul (fmul (flit (Qmake 1381 (10 ^ 26))) t) b) x.
Proof. intros u x t [-> | ->]; reflexivity. Qed.
(** "dBm" in any of its 8 spellings gives the dB value of k T B over 1 mW *)
Theorem C72_noise_dbm : forall u (x : nd F) t, upper u = "DBM"%string ->
  thermal_noise x u t =
  nd1 (fun b => fmul (flit 10) (flog10 (fdiv (fmul (fmul (flit (Qmake 1381 (10 ^ 26))) t) b) (flit 0.001)))) x.
Proof. intros u x t E. unfold thermal_noise. rewrite E. destruct x; simpl; auto. now rewrite map_map. Qed.
(** any other unit gives the number NaN, whatever the bandwidth (even an array) *)
Theorem C72_noise_unknown_units : forall u (x : nd F) t,
  upper u <> "W"%string -> upper u <> "DBM"%string -> thermal_noise x u t = NS fnan.
Proof.
  intros u x t N1 N2. unfold thermal_noise.
  destruct (String.eqb_spec (upper u) "W"); [contradiction|].
  destruct (String.eqb_spec (upper u) "DBM"); [contradiction|]. reflexivity.
Qed.
End C72.
Example C72_ex : upper "dBm" = "DBM"%string /\ upper "dbm" = "DBM"%string /\ upper "mW" <> "W"%string.
Proof. repeat split; discriminate. Qed.

(** the two units agree: 10^(dBm/10) mW is the value in W *)
Theorem C72_noise_units_agree : forall b t, 0 < b -> 0 < t ->
  exists w d, thermal_noise (NS (Fin b)) "W" (Fin t) = NS (Fin w) /\
              thermal_noise (NS (Fin b)) "dBm" (Fin t) = NS (Fin d) /\
              0 < w /\ w = 1381 / 10 ^ 26 * t * b /\ w = 0.001 * lin d.
Proof.
  intros b t Hb Ht.
  assert (Hk : exists k, 0 < k /\ @k_boltz xr _ = Fin k /\ k = 1381 / 10 ^ 26).
  { unfold k_boltz. rewrite lit_fin. eexists. split; [|split; [reflexivity|]]; cbn [Qnum Qden].
    - apply Rdiv_lt_0_compat; apply IZR_lt; reflexivity.
    - f_equal. rewrite pow_IZR. reflexivity. }
  destruct Hk as (k & Hk & Ek & Vk).
  assert (Hp : 0 < k * t * b) by (repeat apply Rmult_lt_0_compat; auto).
  exists (k * t * b), (10 * ((ln (k * t * b) - ln 0.001) / ln 10)).
  unfold thermal_noise. cbn [upper upper_ascii String.eqb nd1]. rewrite Ek, !fmul_fin.
  split; [reflexivity|]. split.
  - change (NS (fmul (@flit xr _ 10) (flog10 (fdiv (Fin (k * t * b)) (@flit xr _ 0.001)))) =
            NS (Fin (10 * ((ln (k * t * b) - ln 0.001) / ln 10)))).
    replace (@flit xr _ 0.001%Q) with (Fin 0.001) by (rewrite lit_fin; reflexivity).
    now rewrite ratio_v by lra.
  - split; auto. split; [now rewrite <- Vk|]. unfold lin. pose proof ln10_pos.
    replace (10 * ((ln (k * t * b) - ln 0.001) / ln 10) / 10)
      with (ln (k * t * b) / ln 10 + - (ln 0.001 / ln 10)) by (field; lra).
    rewrite Rpower_plus, Rpower_Ropp, !Rpower_10_log10 by lra. field. lra.
Qed.
Example C72_ex2 : exists w d, thermal_noise (NS (Fin 1000000)) "W" (Fin 290) = NS (Fin w) /\
              thermal_noise (NS (Fin 1000000)) "dBm" (Fin 290) = NS (Fin d) /\ 0 < w.
Proof. destruct (C72_noise_units_agree 1000000 290) as (w & d & A & B & C & _); [lra|lra|]. exists w, d; auto. Qed.

(** ** C77: power and reflectivity ratios in dB *)
(** antenna_gain, cdr, ldr and zdr are the same ratio in dB *)
Theorem C77_ratio_functions_coincide : forall {F} `{FloatOps F} (a b : F),
  ldr a b = zdr a b /\ cdr a b = zdr a b /\ antenna_gain a b = zdr a b.
Proof. intros; repeat split; reflexivity. Qed.
(** zdr of two linear reflectivities is the difference of their dBZ *)
Theorem C77_zdr_is_dbz_difference : forall h v, 0 < h -> 0 < v ->
  zdr (Fin h) (Fin v) = fsub (z2dbz (Fin h)) (z2dbz (Fin v)).
Proof.
  intros h v Hh Hv. unfold zdr. rewrite ratio_v, !z2dbz_v, fsub_fin by auto. f_equal.
  pose proof ln10_pos. field. lra.
Qed.
Theorem C77_zdr_of_dbz : forall x y, zdr (dbz2z (Fin x)) (dbz2z (Fin y)) = Fin (x - y).
Proof.
  intros. (rewrite !dbz2z_v; rewrite C77_zdr_is_dbz_difference by apply exp_pos).
  rewrite <- !dbz2z_v. destruct C55_dbz_z_inverse as [E _]. now rewrite !E, fsub_fin.
Qed.
(** swapping the two powers negates the value *)
Theorem C77_ratio_antisymmetric : forall h v, 0 < h -> 0 < v ->
  exists d, zdr (Fin h) (Fin v) = Fin d /\ zdr (Fin v) (Fin h) = Fin (- d) /\
            (0 < d <-> v < h).
Proof.
  intros h v Hh Hv. unfold zdr. rewrite !ratio_v by auto. pose proof ln10_pos as Hl.
  eexists. split; [reflexivity|]. split; [f_equal; field; lra|].
  assert (Hi : 0 < / ln 10) by now apply Rinv_0_lt_compat.
  split; intro L.
  - apply ln_lt_inv; auto. destruct (Rlt_or_le (ln v) (ln h)) as [|G]; auto. exfalso.
    assert (10 * ((ln h - ln v) * / ln 10) <= 0); [|unfold Rdiv in L; lra].
    assert ((ln h - ln v) * / ln 10 <= 0 * / ln 10) by (apply Rmult_le_compat_r; lra). lra.
  - apply ln_increasing in L; auto. apply Rmult_lt_0_compat; [lra|]. apply Rdiv_lt_0_compat; lra.
Qed.

(** ** C75: array arguments *)
Section C75.
Context {F : Type} `{FloatOps F}.
(** the (element i of a) number or array *)
Definition item (x : nd F) (i : nat) : option F :=
  match x with NS v => Some v | NA _ d => nth_error d i end.
(** the five two-argument functions, with their element formula *)
Inductive two_arg : (nd F -> nd F -> res (nd F)) -> (F -> F -> F) -> Prop :=
  | T_gain : two_arg antenna_gain_nd antenna_gain
  | T_vmax : two_arg vmax_nd vmax
  | T_radvel : two_arg radial_velocity_nd radial_velocity
  | T_cdr : two_arg cdr_nd cdr
  | T_ldr : two_arg ldr_nd ldr
  | T_zdr : two_arg zdr_nd zdr.

Lemma two_shape f g : two_arg f g -> exists op post, (forall x y, f x y = (r <- nd2 op x y ;; Ok (nd1 post r))) /\
  (forall a b, g a b = post (op a b)).
Proof.
  intros []; unfold antenna_gain_nd, vmax_nd, radial_velocity_nd, cdr_nd, ldr_nd, zdr_nd,
    antenna_gain, vmax, radial_velocity, cdr, ldr, zdr.
  all: match goal with |- exists op post, (forall x y, (r <- nd2 ?o x y ;; Ok (nd1 ?p r)) = _) /\ _ =>
    exists o, p; split; reflexivity end.
Qed.

Lemma map2_item {A B C} (f : A -> B -> C) a b i :
  length a = length b ->
  nth_error (map2 f a b) i = match nth_error a i, nth_error b i with
                             | Some x, Some y => Some (f x y) | _, _ => None end.
Proof.
  revert b i; induction a as [|x a IH]; intros [|y b] [|i] E; simpl in *; try discriminate; auto.
Qed.

(** a number with a number, a number with an array, an array with a number, two
    arrays of the same shape: the result has that shape and is elementwise *)
Theorem C75_elementwise : forall f g, two_arg f g ->
  (forall a b, f (NS a) (NS b) = Ok (NS (g a b))) /\
  (forall a s d, exists r, f (NS a) (NA s d) = Ok (NA s r) /\ length r = length d /\
     forall i v, nth_error d i = Some v -> nth_error r i = Some (g a v)) /\
  (forall b s d, exists r, f (NA s d) (NS b) = Ok (NA s r) /\ length r = length d /\
     forall i v, nth_error d i = Some v -> nth_error r i = Some (g v b)) /\
  (forall s d e, length d = length e -> exists r, f (NA s d) (NA s e) = Ok (NA s r) /\ length r = length d /\
     forall i v w, nth_error d i = Some v -> nth_error e i = Some w -> nth_error r i = Some (g v w)).
Proof.
  intros f g T. destruct (two_shape _ _ T) as (op & post & Ef & Eg).
  split; [|split; [|split]]; intros; rewrite ?Ef; cbn [nd2 bind nd1].
  - now rewrite Eg.
  - eexists; split; [reflexivity|]. rewrite !map_length. split; auto. intros i v Hv.
    erewrite map_nth_error; [rewrite Eg; reflexivity|]. erewrite map_nth_error; eauto.
  - eexists; split; [reflexivity|]. rewrite !map_length. split; auto. intros i v Hv.
    erewrite map_nth_error; [rewrite Eg; reflexivity|].
    now rewrite (map_nth_error (fun v => op v b) i d Hv).
  - unfold shape_eqb. destruct list_eq_dec; [|contradiction]. cbn [bind nd1].
    eexists; split; [reflexivity|].
    assert (L : length (map2 op d e) = length d).
    { clear -H0. revert e H0; induction d; intros [|] E; simpl in *; try discriminate; auto. }
    rewrite map_length, L. split; auto. intros i v w Hv Hw.
    erewrite map_nth_error; [rewrite Eg; reflexivity|].
    rewrite map2_item by auto. now rewrite Hv, Hw.
Qed.

(** two 1-D arrays of different lengths, neither of length 1, raise ValueError *)
Theorem C75_length_mismatch : forall f g, two_arg f g -> forall d e : list F,
  length d <> length e -> length d <> 1%nat -> length e <> 1%nat ->
  f (NA [length d] d) (NA [length e] e) = Raise ValueError.
Proof.
  intros f g T d e N N1 N2. destruct (two_shape _ _ T) as (op & post & Ef & _). rewrite Ef. unfold nd2, shape_eqb.
  destruct list_eq_dec as [E|_]; [congruence|].
  destruct d as [|a [|b d]]; destruct e as [|x [|y e]]; simpl in *; try reflexivity; try lia.
Qed.

End C75.
Example C75_ex : exists r, zdr_nd (NA [2%nat] [Fin 4; Fin 8]) (NA [2%nat] [Fin 2; Fin 2]) = Ok (NA [2%nat] r) /\ length r = 2%nat.
Proof.
  destruct (C75_elementwise _ _ T_zdr) as (_ & _ & _ & E).
  destruct (E [2%nat] [Fin 4; Fin 8] [Fin 2; Fin 2] eq_refl) as (r & A & B & _). exists r; auto.
Qed.
