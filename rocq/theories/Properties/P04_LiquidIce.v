(** * Properties C20-C25: liquid/ice mass partition and freezing altitude *)
From Coq Require Import Reals Lra Psatz Permutation Sorted.
From Verif Require Import Base.Num Base.ListFacts Base.XReal Base.XTac Base.XArith Base.QOps.
From Verif Require Import Spec.LiquidIceSpec Proofs.LiquidIceProofs Proofs.FreezingProofs.
From Verif Require Model.LiquidIce.
Import Model.LiquidIce.
Open Scope R_scope.

(** The freezing level used: the argument, else 4.5 km without a temperature
    field, else the sounding's. *)
Inductive freezing_level (pf : list xr -> list xr -> xr) (z : list R)
  : pyarg xr -> option xr -> R -> Prop :=
  | FL_given T h : freezing_level pf z T (Some (Fin h)) h
  | FL_default : freezing_level pf z ANone None (45 / 10)
  | FL_sounding dt sh t h :
      get_freezing_altitude pf t (map Fin z) = Ok (Fin h) ->
      freezing_level pf z (AArr (mkarr dt sh t)) None h
  | FL_sounding_scalar dt t h :
      get_freezing_altitude pf [t] (map Fin z) = Ok (Fin h) ->
      freezing_level pf z (AScalar dt t) None h.

(** The rain line used: Cifelli et al. (2002) unless fit_a (and fit_b) given. *)
Inductive li_line : option xr -> option xr -> R -> R -> Prop :=
  | LL_default b : li_line None b (8178 / 10000) (125088 / 10000)
  | LL_given a b : li_line (Some (Fin a)) (Some (Fin b)) a b.

Lemma li_line_fits a b fa fb : li_line a b fa fb -> li_fits a b = Ok (Fin fa, Fin fb).
Proof. inversion 1; reflexivity. Qed.

Definition field (dt : dtype) (sh : list nat) (l : list R) : pyarg xr := AArr (mkarr dt sh (map Fin l)).
(** T is absent or an array *)
Definition T_array (T : pyarg xr) : Prop :=
  match T with AScalar _ _ => False | _ => True end.
Definition T_scalar (T : pyarg xr) : Prop :=
  match T with AArr _ => False | _ => True end.

Lemma nth_map_Fin l i (x : xr) : nth_error (map Fin l) i = Some x ->
  exists r, nth_error l i = Some r /\ x = Fin r.
Proof. rewrite map_nth_error'. destruct (nth_error l i); [|discriminate]. injection 1 as <-; eauto. Qed.

(** three lists zipped *)
Fixpoint zip3 (f : R -> R -> R -> R) (a b c : list R) : list R :=
  match a, b, c with x :: a', y :: b', z :: c' => f x y z :: zip3 f a' b' c' | _, _, _ => [] end.
Lemma zip3_nth f a b c i : nth_error (zip3 f a b c) i =
  match nth_error a i, nth_error b i, nth_error c i with
  | Some x, Some y, Some z => Some (f x y z) | _, _, _ => None end.
Proof.
  revert b c i; induction a as [|x a IH]; intros [|y b] [|z c] [|i]; cbn; auto;
    repeat match goal with |- context [nth_error ?l i] => destruct (nth_error l i) end; auto.
Qed.

Lemma core_values d r z hf a b fa fb :
  length r = length d -> length z = length d -> li_line a b fa fb ->
  liquid_ice_calcs (map Fin d) (map Fin r) (get_delta_thresh (map Fin z) (Fin hf)) a b
  = Ok (map Fin (zip3 (spec_water fa fb hf) d r z), map Fin (zip3 (spec_ice fa fb hf) d r z)).
Proof.
  intros Lr Lz L.
  destruct (liquid_ice_gate (map Fin d) (map Fin r) (get_delta_thresh (map Fin z) (Fin hf)) a b
    (Fin fa) (Fin fb)) as (w & ic & E & Lw & Li & G).
  { now apply li_line_fits. } { now rewrite !map_length. } { now rewrite thresh_len, !map_length. }
  rewrite E. rewrite map_length in Lw, Li. do 2 f_equal.
  - apply nth_error_ext. intro i. rewrite map_nth_error', zip3_nth.
    destruct (nth_error d i) as [x|] eqn:Ed.
    + destruct (nth_error_length_eq d r i (eq_sym Lr) Ed) as [y Er].
      destruct (nth_error_length_eq d z i (eq_sym Lz) Ed) as [h Ez].
      rewrite Er, Ez. destruct (G i (Fin x) (Fin y) (Fin (delta_threshold hf h))) as [G1 _].
      * now rewrite map_nth_error', Ed. * now rewrite map_nth_error', Er.
      * rewrite <- g_thresh_fin. apply thresh_nth. now rewrite map_nth_error', Ez.
      * rewrite G1, g_water_fin. reflexivity.
    + apply nth_error_None in Ed. apply nth_error_None. lia.
  - apply nth_error_ext. intro i. rewrite map_nth_error', zip3_nth.
    destruct (nth_error d i) as [x|] eqn:Ed.
    + destruct (nth_error_length_eq d r i (eq_sym Lr) Ed) as [y Er].
      destruct (nth_error_length_eq d z i (eq_sym Lz) Ed) as [h Ez].
      rewrite Er, Ez. destruct (G i (Fin x) (Fin y) (Fin (delta_threshold hf h))) as [_ G1].
      * now rewrite map_nth_error', Ed. * now rewrite map_nth_error', Er.
      * rewrite <- g_thresh_fin. apply thresh_nth. now rewrite map_nth_error', Ez.
      * rewrite G1, g_ice_fin. reflexivity.
    + apply nth_error_None in Ed. apply nth_error_None. lia.
Qed.

(** ** C20 *)
(** Every gate of an array call: the masses of the specification. *)
Theorem C20_masses_gate_by_gate :
  forall pf dt1 dt2 dt3 sh sh2 sh3 d r z T Hfrz meth a b fa fb hf,
  length r = length d -> length z = length d -> T_array T ->
  freezing_level pf z T Hfrz hf -> li_line a b fa fb ->
  exists w ic,
    calc_liquid_ice_mass pf (field dt1 sh d) (field dt2 sh2 r) (field dt3 sh3 z) T Hfrz meth a b
      = Ok (RArr sh (map Fin w), RArr sh (map Fin ic)) /\
    length w = length d /\ length ic = length d /\
    forall i x y h, nth_error d i = Some x -> nth_error r i = Some y -> nth_error z i = Some h ->
      nth_error w i = Some (spec_water fa fb hf x y h) /\
      nth_error ic i = Some (spec_ice fa fb hf x y h).
Proof.
  intros pf dt1 dt2 dt3 sh sh2 sh3 d r z T Hfrz meth a b fa fb hf Lr Lz HT FL L.
  exists (zip3 (spec_water fa fb hf) d r z), (zip3 (spec_ice fa fb hf) d r z).
  split; [|split; [|split]].
  - unfold calc_liquid_ice_mass, field. cbn [ashape adata].
    rewrite !map_length, Lr, Lz, !Nat.eqb_refl. cbn [negb].
    assert (C : forall t, get_hfrz pf t (map Fin z) Hfrz = Ok (Fin hf) ->
      (hf0 <- get_hfrz pf t (map Fin z) Hfrz ;;
       liquid_ice_calcs (map Fin d) (map Fin r) (get_delta_thresh (map Fin z) hf0) a b)
      = Ok (map Fin (zip3 (spec_water fa fb hf) d r z), map Fin (zip3 (spec_ice fa fb hf) d r z))).
    { intros t E. rewrite E. cbn [bind]. now apply core_values. }
    destruct T as [|dt v|[dt sh' t]]; cbn [T_array] in HT; [|destruct HT|].
    + cbn [bind]. rewrite C; [reflexivity|]. inversion FL; subst; reflexivity.
    + cbn [ashape adata] in *. cbn [bind].
      rewrite C; [reflexivity|]. inversion FL; subst; auto.
  - clear -Lr Lz. revert r z Lr Lz; induction d as [|x d IH]; intros [|y r] [|h z]; cbn; auto; try lia.
  - clear -Lr Lz. revert r z Lr Lz; induction d as [|x d IH]; intros [|y r] [|h z]; cbn; auto; try lia.
  - intros i x y h E1 E2 E3. rewrite !zip3_nth, E1, E2, E3. auto.
Qed.

Lemma spec_masses_signs :
  forall fa fb hf dbz zdr z,
  let w := spec_water fa fb hf dbz zdr z in
  let i := spec_ice fa fb hf dbz zdr z in
  let e := excess fa fb dbz zdr in
  let thr := delta_threshold hf z in
  0 <= w /\ 0 <= i /\
  (zdr < 0 -> w = 0) /\ (0 <= zdr -> 0 < w) /\
  (e < thr -> i = 0) /\ (thr <= e -> 0 < i) /\
  (0 <= zdr -> e < thr -> w = water_all_rain (Zh dbz) (Zv dbz zdr)) /\
  (0 <= zdr -> thr <= e -> w = water_of (Z_rain fa fb dbz zdr)) /\
  (thr <= e -> i = ice_of (Z_ice fa fb dbz zdr)).
Proof.
  intros. subst w i e thr. unfold spec_water, spec_ice.
  pose proof (water_all_rain_pos (Zh dbz) (Zv dbz zdr)).
  pose proof (water_of_pos (Z_rain fa fb dbz zdr)). pose proof (ice_of_pos (Z_ice fa fb dbz zdr)).
  destruct (Rlt_dec zdr 0), (Rlt_dec (excess fa fb dbz zdr) (delta_threshold hf z)); repeat split; intros; lra.
Qed.

(** Signs and zeros of the returned masses, with [e] the gate's excess over the
    rain line and [thr] its height-dependent threshold. *)
Theorem C20_masses_nonnegative_and_zeroed :
  forall pf dt1 dt2 dt3 sh sh2 sh3 d r z T Hfrz meth a b fa fb hf,
  length r = length d -> length z = length d -> T_array T ->
  freezing_level pf z T Hfrz hf -> li_line a b fa fb ->
  exists water ice,
    calc_liquid_ice_mass pf (field dt1 sh d) (field dt2 sh2 r) (field dt3 sh3 z) T Hfrz meth a b
      = Ok (RArr sh (map Fin water), RArr sh (map Fin ice)) /\
    length water = length d /\ length ice = length d /\
    forall j dbz zdr h, nth_error d j = Some dbz -> nth_error r j = Some zdr -> nth_error z j = Some h ->
    exists w i, nth_error water j = Some w /\ nth_error ice j = Some i /\
      let e := Rmax 0 (dbz - (fa * Zdp dbz zdr + fb)) in
      let thr := if Rle_dec h hf then 8 / 3 * (hf - h) + 2 else 11 / 10 in
      0 <= w /\ 0 <= i /\
      (zdr < 0 -> w = 0) /\ (0 <= zdr -> 0 < w) /\
      (e < thr -> i = 0) /\ (thr <= e -> 0 < i) /\
      (0 <= zdr -> e < thr -> w = water_all_rain (Zh dbz) (Zv dbz zdr)) /\
      (0 <= zdr -> thr <= e -> w = water_of (Z_rain fa fb dbz zdr)) /\
      (thr <= e -> i = ice_of (Z_ice fa fb dbz zdr)).
Proof.
  intros pf dt1 dt2 dt3 sh sh2 sh3 d r z T Hfrz meth a b fa fb hf Lr Lz HT FL L.
  destruct (C20_masses_gate_by_gate pf dt1 dt2 dt3 sh sh2 sh3 d r z T Hfrz meth a b fa fb hf Lr Lz HT FL L)
    as (w & ic & E & L1 & L2 & G).
  exists w, ic. split; [exact E|]. split; [auto|]. split; [auto|].
  intros j x y h E1 E2 E3. destruct (G j x y h E1 E2 E3) as [G1 G2].
  do 2 eexists. split; [exact G1|]. split; [exact G2|]. apply spec_masses_signs.
Qed.

(** Scalar calls return the same masses as plain numbers. *)
Theorem C20_scalar_masses :
  forall pf dt1 dt2 dt3 d r z T Hfrz meth a b fa fb hf,
  T_scalar T -> freezing_level pf [z] T Hfrz hf -> li_line a b fa fb ->
  calc_liquid_ice_mass pf (AScalar dt1 (Fin d)) (AScalar dt2 (Fin r)) (AScalar dt3 (Fin z)) T Hfrz meth a b
    = Ok (RScalar (Fin (spec_water fa fb hf d r z)), RScalar (Fin (spec_ice fa fb hf d r z))).
Proof.
  intros pf dt1 dt2 dt3 d r z T Hfrz meth a b fa fb hf HT FL L.
  unfold calc_liquid_ice_mass.
  assert (C : forall t, get_hfrz pf t [Fin z] Hfrz = Ok (Fin hf) ->
    (hf0 <- get_hfrz pf t [Fin z] Hfrz ;;
     liquid_ice_calcs [Fin d] [Fin r] (get_delta_thresh [Fin z] hf0) a b)
    = Ok ([Fin (spec_water fa fb hf d r z)], [Fin (spec_ice fa fb hf d r z)])).
  { intros t E. rewrite E. cbn [bind]. apply (core_values [d] [r] [z] hf a b fa fb); auto. }
  destruct T as [|dt v|?]; cbn [T_scalar] in HT; [| |destruct HT]; cbn [bind].
  - rewrite C; [reflexivity|]. inversion FL; subst; reflexivity.
  - rewrite C; [reflexivity|]. inversion FL; subst; auto.
Qed.

(** C11 for calc_liquid_ice_mass: a scalar call is element 0 of the call on
    length-1 arrays, for every float semantics. *)
Theorem C11_liquid_ice_scalar_is_element_0 {F} `{FloatOps F} :
  forall pf dt1 dt2 dt3 (d r z : F) (T : option (dtype * F)) Hfrz meth a b,
  let Ts := match T with Some (dt, t) => AScalar dt t | None => ANone end in
  let Ta := match T with Some (dt, t) => AArr (arr1 dt t) | None => ANone end in
  calc_liquid_ice_mass pf (AScalar dt1 d) (AScalar dt2 r) (AScalar dt3 z) Ts Hfrz meth a b =
  match calc_liquid_ice_mass pf (AArr (arr1 dt1 d)) (AArr (arr1 dt2 r)) (AArr (arr1 dt3 z))
          Ta Hfrz meth a b with
  | Ok (RArr _ (w :: _), RArr _ (i :: _)) => Ok (RScalar w, RScalar i)
  | x => x
  end.
Proof.
  intros. subst Ts Ta. destruct T as [[dt t]|]; unfold calc_liquid_ice_mass; cbn [arr1 ashape adata bind];
    cbn [length Nat.eqb negb bind].
  - destruct (get_hfrz pf (Some [t]) [z] Hfrz) as [h| | | |]; cbn [bind]; auto.
    unfold liquid_ice_calcs. destruct a, b; reflexivity.
  - destruct (get_hfrz pf None [z] Hfrz) as [h| | | |]; cbn [bind]; auto.
    unfold liquid_ice_calcs. destruct a, b; reflexivity.
Qed.

(** An unusable sounding (NaN in T) makes the call return None. *)
Theorem C20_no_freezing_level_returns_none {F} `{FloatOps F} :
  forall pf (d r z t : arr F) meth a b,
  get_freezing_altitude pf (adata t) (adata z) = PyNone ->
  calc_liquid_ice_mass pf (AArr d) (AArr r) (AArr z) (AArr t) None meth a b = PyNone.
Proof.
  intros pf d r z t meth a b E. unfold calc_liquid_ice_mass.
  cbn [bind get_hfrz]. now rewrite E.
Qed.

(** Non-vacuity: two gates, default freezing level and rain line. *)
Example C20_hypotheses_met :
  freezing_level (fun _ _ => NaN) [1; 6] ANone None (45 / 10) /\
  li_line None None (8178 / 10000) (125088 / 10000) /\ T_array ANone.
Proof. repeat split; constructor. Qed.

(** ** C21 *)
(** The ice fraction lies in [0,1); rain and ice reflectivities are
    non-negative and add up. *)
Lemma partition_conserves :
  forall fa fb dbz zdr,
  0 < Z_rain fa fb dbz zdr <= Zh dbz /\ 0 <= Z_ice fa fb dbz zdr < Zh dbz /\
  Z_rain fa fb dbz zdr + Z_ice fa fb dbz zdr = Zh dbz /\
  exists frac, 0 <= frac < 1 /\ Z_ice fa fb dbz zdr = frac * Zh dbz.
Proof.
  intros. pose proof (Z_rain_pos fa fb dbz zdr). pose proof (Z_ice_nonneg fa fb dbz zdr).
  assert (E : Z_rain fa fb dbz zdr + Z_ice fa fb dbz zdr = Zh dbz) by (unfold Z_ice; ring).
  assert (Hz : 0 < Zh dbz) by apply Rpower_pos.
  repeat split; try lra.
  exists (Z_ice fa fb dbz zdr / Zh dbz). repeat split; [| |field; lra].
  - apply Rmult_le_pos; auto. left; apply Rinv_0_lt_compat; auto.
  - apply Rmult_lt_reg_r with (Zh dbz); auto. unfold Rdiv. rewrite Rmult_assoc, Rinv_l by lra. lra.
Qed.

(** The returned masses come from a partition of the gate's linear
    reflectivity: at every gate whose excess reaches the threshold there is an
    ice fraction in (0,1), fixed by the excess, of which the ice mass (and,
    unless zdr < 0, the water mass of the remainder) are the power laws; at every
    other gate the ice mass is 0. *)
Theorem C21_partition_conserves_reflectivity :
  forall pf dt1 dt2 dt3 sh sh2 sh3 d r z T Hfrz meth a b fa fb hf,
  length r = length d -> length z = length d -> T_array T ->
  freezing_level pf z T Hfrz hf -> li_line a b fa fb ->
  exists w ic,
    calc_liquid_ice_mass pf (field dt1 sh d) (field dt2 sh2 r) (field dt3 sh3 z) T Hfrz meth a b
      = Ok (RArr sh (map Fin w), RArr sh (map Fin ic)) /\
    forall i x y h, nth_error d i = Some x -> nth_error r i = Some y -> nth_error z i = Some h ->
    exists frac, 0 <= frac < 1 /\ 1 - frac = Rpower 10 (- excess fa fb x y / 10) /\
      let total := Rpower 10 (x / 10) in
      let zi := frac * total in let zr := (1 - frac) * total in
      0 < zr <= total /\ 0 <= zi < total /\ zr + zi = total /\
      (delta_threshold hf h <= excess fa fb x y ->
        0 < zi /\ nth_error ic i = Some (ice_of zi) /\
        nth_error w i = Some (if Rlt_dec y 0 then 0 else water_of zr)) /\
      (excess fa fb x y < delta_threshold hf h -> nth_error ic i = Some 0).
Proof.
  intros pf dt1 dt2 dt3 sh sh2 sh3 d r z T Hfrz meth a b fa fb hf Lr Lz HT FL L.
  destruct (C20_masses_gate_by_gate pf dt1 dt2 dt3 sh sh2 sh3 d r z T Hfrz meth a b fa fb hf Lr Lz HT FL L)
    as (w & ic & E & _ & _ & G).
  exists w, ic. split; [exact E|]. intros i x y h E1 E2 E3. destruct (G i x y h E1 E2 E3) as [G1 G2].
  destruct (partition_conserves fa fb x y) as (H1 & H2 & H3 & fr & Hf & Ef).
  exists fr. split; [exact Hf|]. assert (Hz : 0 < Zh x) by apply Rpower_pos.
  assert (Er : Z_rain fa fb x y = (1 - fr) * Zh x) by lra.
  assert (E4 : 1 - fr = Rpower 10 (- excess fa fb x y / 10)).
  { apply Rmult_eq_reg_r with (Zh x); [|lra]. rewrite <- Er. unfold Z_rain. ring. }
  split; [exact E4|].
  change (Rpower 10 (x / 10)) with (Zh x). cbv zeta. rewrite <- Ef, <- Er.
  split; [lra|]. split; [lra|]. split; [lra|].
  rewrite G1, G2. unfold spec_water, spec_ice. split; intro Hex.
  - assert (0 < Z_ice fa fb x y) by (apply Z_ice_pos; pose proof (delta_threshold_ge hf h); lra).
    destruct (Rlt_dec (excess fa fb x y) (delta_threshold hf h)); [lra|]. auto.
  - destruct (Rlt_dec (excess fa fb x y) (delta_threshold hf h)); [auto|lra].
Qed.

(** ** C22 *)
Theorem C22_method_argument_ignored {F} `{FloatOps F} :
  forall pf (d r z T : pyarg F) Hfrz a b m1 m2,
  calc_liquid_ice_mass pf d r z T Hfrz m1 a b = calc_liquid_ice_mass pf d r z T Hfrz m2 a b.
Proof. reflexivity. Qed.

Lemma ln10_gt : 2 <= ln 10.
Proof.
  assert (H : exp 2 <= 10).
  { replace 2 with (1 + 1) by ring. rewrite exp_plus. pose proof exp_le_3.
    pose proof (exp_pos 1). nra. }
  rewrite <- (ln_exp 2). destruct H as [H| ->]; [|lra]. left. apply ln_increasing; auto. apply exp_pos.
Qed.

Lemma Zdp_zero d : Zdp d 0 = -120.
Proof.
  unfold Zdp, Zh, Zv. replace (0 / 10) with 0 by field. rewrite Rpower_O by lra.
  destruct Rle_dec as [_|n]; [|exfalso; apply n; lra].
  replace (1 / 1000000000000) with (Rpower 10 (-12)).
  - rewrite log10_Rpower. ring.
  - change (-12) with (- (12)). rewrite Rpower_Ropp. replace 12 with (INR 12) by (simpl; ring).
    rewrite Rpower_pow by lra. unfold Rdiv. rewrite Rmult_1_l. f_equal. simpl; ring.
Qed.

(** The documented meaning fails: method='cr1995' does not give the result of
    the Carey and Rutledge (1995) coefficients (here at 0 dBZ, zdr 0, any
    height above the default freezing level). *)
Theorem C22_documented_method_refuted :
  forall pf z, 45 / 10 < z ->
  calc_liquid_ice_mass pf (AScalar DFloat (Fin 0)) (AScalar DFloat (Fin 0)) (AScalar DFloat (Fin z))
    ANone None "cr1995" None None
  <> calc_liquid_ice_mass pf (AScalar DFloat (Fin 0)) (AScalar DFloat (Fin 0)) (AScalar DFloat (Fin z))
    ANone None "cr1995" (Some (Fin (9091 / 10000))) (Some (Fin (85091 / 10000))).
Proof.
  intros pf z Hz.
  rewrite (C20_scalar_masses pf DFloat DFloat DFloat 0 0 z ANone None "cr1995" None None
    (8178/10000) (125088/10000) (45/10)) by (try constructor).
  rewrite (C20_scalar_masses pf DFloat DFloat DFloat 0 0 z ANone None "cr1995" _ _
    (9091/10000) (85091/10000) (45/10)) by (try constructor).
  intro E. injection E as E _. revert E. apply Rgt_not_eq.
  assert (X1 : excess (8178/10000) (125088/10000) 0 0 = 856272/10000).
  { unfold excess. rewrite Zdp_zero, Rmax_right; lra. }
  assert (X2 : excess (9091/10000) (85091/10000) 0 0 = 1005829/10000).
  { unfold excess. rewrite Zdp_zero, Rmax_right; lra. }
  unfold spec_water. destruct (Rlt_dec 0 0); [lra|].
  rewrite X1, X2. unfold delta_threshold. destruct (Rle_dec z (45 / 10)); [lra|].
  destruct (Rlt_dec (856272/10000) (11/10)), (Rlt_dec (1005829/10000) (11/10)); try lra.
  unfold water_of, Z_rain. rewrite X1, X2.
  pose proof (Rpower_pos 10 (-3)). apply Rmult_lt_compat_l; [lra|].
  apply Rpower_lt_base; [|..|lra].
  - apply Rmult_lt_0_compat; apply Rpower_pos.
  - apply Rmult_lt_compat_l; [apply Rpower_pos|]. apply Rpower10_lt. lra.
Qed.

(** ** C23 *)
(** Soundings are lists of (height, temperature) points. *)
Theorem C23_exact_zero_points_highest :
  forall pf (s : list (R * R)), (exists p, In p s /\ snd p = 0) ->
  exists h, get_freezing_altitude pf (temps s) (heights s) = Ok (Fin h) /\
    In (h, 0) s /\ forall p, In p s -> snd p = 0 -> fst p <= h.
Proof. exact gfa_zero. Qed.

(** Temperature strictly decreasing with height, crossing 0: linear
    interpolation between the two levels bracketing the crossing. *)
Theorem C23_monotone_sounding_interpolates :
  forall pf (s : list (R * R)),
  NoDup (map fst s) ->
  (forall p q, In p s -> In q s -> fst p < fst q -> snd q < snd p) ->
  (forall p, In p s -> snd p <> 0) ->
  (exists p, In p s /\ 0 < snd p) -> (exists p, In p s /\ snd p < 0) ->
  exists a b h, In a s /\ In b s /\ 0 < snd a /\ snd b < 0 /\ fst a < fst b /\
    (forall p, In p s -> fst p <= fst a \/ fst b <= fst p) /\
    get_freezing_altitude pf (temps s) (heights s) = Ok (Fin h) /\
    fst a < h < fst b /\
    (** the point (h, 0) is on the segment from a to b *)
    (h - fst a) * (snd b - snd a) = (0 - snd a) * (fst b - fst a).
Proof.
  intros pf s N M NZ P1 P2. destruct (gfa_monotone pf s N M NZ P1 P2) as (a & b & Ia & Ib & Pa & Pb & Hab & Br & E).
  exists a, b. eexists. repeat split; eauto.
  - assert (Hf : exists w, 0 < w < 1 /\ (fst a - fst b) / (snd a - snd b) * (0 - snd b) + fst b = fst b + w * (fst a - fst b)).
    { exists ((0 - snd b) / (snd a - snd b)). split; [split|field; lra].
      - apply Rdiv_lt_0_compat; lra.
      - apply Rmult_lt_reg_r with (snd a - snd b); [lra|]. unfold Rdiv.
        rewrite Rmult_assoc, Rinv_l by lra. lra. }
    destruct Hf as (w & Hw & ->). nra.
  - assert (Hf : exists w, 0 < w < 1 /\ (fst a - fst b) / (snd a - snd b) * (0 - snd b) + fst b = fst b + w * (fst a - fst b)).
    { exists ((0 - snd b) / (snd a - snd b)). split; [split|field; lra].
      - apply Rdiv_lt_0_compat; lra.
      - apply Rmult_lt_reg_r with (snd a - snd b); [lra|]. unfold Rdiv.
        rewrite Rmult_assoc, Rinv_l by lra. lra. }
    destruct Hf as (w & Hw & ->). nra.
  - field. lra.
Qed.

(** Least-squares lines height = a * T + b. *)
Definition sse (s : list (R * R)) (a b : R) : R :=
  fold_right (fun p acc => (fst p - (a * snd p + b)) * (fst p - (a * snd p + b)) + acc) 0 s.
Definition lsq_intercept (s : list (R * R)) (b : R) : Prop :=
  exists a, forall a' b', sse s a b <= sse s a' b'.
(** numpy.polyfit(T, z, 1)[1] is such an intercept (assumed of numpy, for
    soundings with at least two different temperatures). *)
Definition polyfit_ok (pf : list xr -> list xr -> xr) : Prop :=
  forall s, (exists p q, In p s /\ In q s /\ snd p <> snd q) ->
  exists b, pf (temps s) (heights s) = Fin b /\ lsq_intercept s b.

Lemma sse_perm s s' a b : Permutation s s' -> sse s a b = sse s' a b.
Proof. induction 1; cbn [sse fold_right] in *; unfold sse in *; lra. Qed.

(** A sounding that does not cross 0: the regression line's height at 0. *)
Theorem C23_no_crossing_least_squares :
  forall pf (s : list (R * R)), polyfit_ok pf ->
  ((forall p, In p s -> 0 < snd p) \/ (forall p, In p s -> snd p < 0)) ->
  (exists p q, In p s /\ In q s /\ snd p <> snd q) ->
  exists b, get_freezing_altitude pf (temps s) (heights s) = Ok (Fin b) /\ lsq_intercept s b.
Proof.
  intros pf s PF H (p & q & Ip & Iq & D).
  destruct (gfa_no_crossing pf s) as (st & P & _ & E); auto; [destruct s; [destruct Ip|congruence]|].
  destruct (PF st) as (b & Eb & a & L).
  { exists p, q. repeat split; auto; eapply Permutation_in; eauto. }
  exists b. rewrite E, Eb. split; auto. exists a. intros a' b'.
  rewrite !(sse_perm _ _ _ _ P). apply L.
Qed.

(** On any crossing sounding without exact zeros the call succeeds and its
    answer lies between two of the sounding's heights. *)
Theorem C23_crossing_never_fails :
  forall pf (s : list (R * R)), (forall p, In p s -> snd p <> 0) ->
  (exists p, In p s /\ 0 < snd p) -> (exists p, In p s /\ snd p < 0) ->
  exists h a b, get_freezing_altitude pf (temps s) (heights s) = Ok (Fin h) /\
    In a s /\ In b s /\ fst a <= h <= fst b.
Proof. exact gfa_crossing_total. Qed.

Example C23_monotone_hypotheses_met :
  let s := [(2, 3); (0, 15); (4, -9)] in
  NoDup (map fst s) /\
  (forall p q, In p s -> In q s -> fst p < fst q -> snd q < snd p) /\
  (forall p, In p s -> snd p <> 0) /\
  (exists p, In p s /\ 0 < snd p) /\ (exists p, In p s /\ snd p < 0).
Proof.
  cbn. repeat split.
  - repeat constructor; cbn; intuition lra.
  - intros p q [<-|[<-|[<-|[]]]] [<-|[<-|[<-|[]]]]; cbn; lra.
  - intros p [<-|[<-|[<-|[]]]]; cbn; lra.
  - exists (2, 3); cbn; intuition lra.
  - exists (4, -9); cbn; intuition lra.
Qed.

(** ** C24 *)
(** Surface inversion (-1 C at the ground, 5 C above): for every distance D the
    answer can be more than D away from both zero crossings, at a level whose
    temperature is +3 C. *)
Theorem C24_inversion_answer_far_from_crossings :
  forall pf D, 0 < D ->
  let s := [(0, -1); (1, 5); (2 + D, 3); (2 + 11 * D, -2)] in
  get_freezing_altitude pf (temps s) (heights s) = Ok (Fin (2 + D)) /\
  (** the sounding's two crossings *)
  (let low := 1 / 6 in (low - 0) * (5 - -1) = (0 - -1) * (1 - 0) /\ D < (2 + D) - low) /\
  (let high := 2 + 7 * D in
   (high - (2 + D)) * (-2 - 3) = (0 - 3) * ((2 + 11 * D) - (2 + D)) /\ D < high - (2 + D)).
Proof.
  intros pf D HD s. split; [|cbn; split; lra].
  rewrite gfa_nozero by (intros p [<-|[<-|[<-|[<-|[]]]]]; cbn; lra).
  assert (St : rsort s = s).
  { unfold s, rsort. cbn [fold_right rinsert fst].
    rewrite (proj2 (Rltb_false (2 + 11 * D) (2 + D))) by lra. cbn [rinsert fst].
    rewrite (proj2 (Rltb_false (2 + D) 1)) by lra. cbn [rinsert fst].
    rewrite (proj2 (Rltb_false 1 0)) by lra. reflexivity. }
  unfold gfa_rest. rewrite St.
  destruct (extremes s) as (mx & mn & E1 & E2 & _ & _ & B); [unfold s; congruence|].
  rewrite E1, E2. cbn [bind]. rewrite (lit_int 0), !flt_fin.
  rewrite (proj2 (Rltb_true 0 mx)).
  2:{ pose proof (B (1, 5)) as H. cbn in H. assert (mn <= 5 <= mx) by (apply H; auto). lra. }
  rewrite (proj2 (Rltb_true mn 0)).
  2:{ pose proof (B (0, -1)) as H. cbn in H. assert (mn <= -1 <= mx) by (apply H; auto). lra. }
  cbn [andb]. unfold s. cbn [filter snd].
  rewrite (proj2 (Rltb_false 0 (-1))), (proj2 (Rltb_true 0 5)), (proj2 (Rltb_true 0 3)),
    (proj2 (Rltb_false 0 (-2))) by lra.
  cbn [map fst argmax argmax_from]. rewrite flt_fin, (proj2 (Rltb_true 1 (2 + D))) by lra.
  cbn [bind skipn fst snd argmax_from].
  rewrite (proj2 (Rltb_true 3 5)) by lra. rewrite <- (lit_int 0). now rewrite interp2_left by lra.
Qed.

(** An exact zero hides every higher crossing: "returns highest possible
    freezing altitude" is false of every such sounding. *)
Theorem C24_exact_zero_hides_higher_crossing :
  forall pf (s : list (R * R)) z0 a b,
  In (z0, 0) s -> (forall p, In p s -> snd p = 0 -> fst p <= z0) ->
  In a s -> In b s -> z0 < fst a -> fst a < fst b -> 0 < snd a -> snd b < 0 ->
  get_freezing_altitude pf (temps s) (heights s) = Ok (Fin z0) /\
  exists h, z0 < fst a < h /\ h < fst b /\ (h - fst a) * (snd b - snd a) = (0 - snd a) * (fst b - fst a).
Proof.
  intros pf s z0 a b I0 M Ia Ib H1 H2 Pa Pb. split.
  - destruct (gfa_zero pf s) as (h & E & Ih & B); [exists (z0, 0); auto|].
    rewrite E. do 2 f_equal. specialize (B _ I0 eq_refl). specialize (M _ Ih eq_refl). cbn in *. lra.
  - set (w := snd a / (snd a - snd b)).
    assert (Hw : 0 < w < 1).
    { split; [apply Rdiv_lt_0_compat; lra|]. apply Rmult_lt_reg_r with (snd a - snd b); [lra|].
      unfold w, Rdiv. rewrite Rmult_assoc, Rinv_l by lra. lra. }
    exists (fst a + w * (fst b - fst a)). repeat split; auto; try nra. unfold w. field. lra.
Qed.
Example C24_exact_zero_instance :
  let s := [(0, 0); (1, 3); (2, -3)] in
  In (0, 0) s /\ (forall p, In p s -> snd p = 0 -> fst p <= 0) /\ In (1, 3) s /\ In (2, -3) s.
Proof. cbn. repeat split; auto. intros p [<-|[<-|[<-|[]]]]; cbn; lra. Qed.

(** ** C25 *)
Theorem C25_delta_threshold_profile :
  forall z hfrz out, get_delta_thresh (map Fin z) (Fin hfrz) = out ->
  length out = length z /\
  (forall i h, nth_error z i = Some h ->
     (hfrz < h -> nth_error out i = Some (Fin (11 / 10))) /\
     (h <= hfrz -> nth_error out i = Some (Fin (8 / 3 * (hfrz - h) + 2)) /\
                   2 <= 8 / 3 * (hfrz - h) + 2)) /\
  (forall i j h h', nth_error z i = Some h -> nth_error z j = Some h' -> h <= h' ->
     exists x y, nth_error out i = Some (Fin x) /\ nth_error out j = Some (Fin y) /\ y <= x).
Proof.
  intros z hf out <-. split; [now rewrite thresh_len, map_length|].
  assert (G : forall i h, nth_error z i = Some h ->
    nth_error (get_delta_thresh (map Fin z) (Fin hf)) i = Some (Fin (delta_threshold hf h))).
  { intros i h E. rewrite <- g_thresh_fin. apply thresh_nth. now rewrite map_nth_error', E. }
  split.
  - intros i h E. rewrite (G _ _ E). unfold delta_threshold. destruct Rle_dec; split; intros; try lra; auto.
    split; auto. lra.
  - intros i j h h' E E' Hh. do 2 eexists. rewrite (G _ _ E), (G _ _ E'). repeat split.
    unfold delta_threshold. destruct (Rle_dec h hf), (Rle_dec h' hf); lra.
Qed.
(** the jump at the freezing level: from 2 to 1.1 *)
Example C25_at_freezing_level : delta_threshold 4 4 = 2 /\ delta_threshold 4 5 = 11 / 10.
Proof. unfold delta_threshold. destruct (Rle_dec 4 4), (Rle_dec 5 4); split; lra. Qed.
