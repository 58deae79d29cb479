(** * C50, C51: the FIR filter *)
From Coq Require Import Reals Lra Lia Arith.
From Verif Require Import Base.Num Base.ListFacts Base.XReal Base.XTac Base.Pointwise Base.XArith Base.QOps.
From Verif Require Import Model.Tables Model.Beta Model.Melt Model.Kdp Spec.KdpSpec.
From Verif Require Import Proofs.HidProofs Proofs.SummerProofs Proofs.MeltProofs Proofs.KdpReal Proofs.KdpProofs Proofs.KdpFilter.
From Verif Require Import Properties.P14_Kdp.
Open Scope R_scope.

Section LawFree.
Context {F : Type} {fo : FloatOps F}.

(** the Cython build never uses the first coefficient *)
Theorem C50_first_coefficient_unused order gain (c c' : F) t mem bad nadp0 dp dz rng thsd nf sg :
  calc_kdp_ray_fir (mkpar Cython order gain (c :: t) mem bad) nadp0 dp dz rng thsd nf sg
  = calc_kdp_ray_fir (mkpar Cython order gain (c' :: t) mem bad) nadp0 dp dz rng thsd nf sg.
Proof. apply ray_coeff_ext. intros; apply coeff_first. Qed.

(** the Fortran build uses the order + 1 coefficients and nothing else *)
Theorem C50_fortran_in_bounds order gain (c : list F) mem mem' bad nadp0 dp dz rng thsd nf sg :
  (order < length c)%nat ->
  calc_kdp_ray_fir (mkpar Fortran order gain c mem bad) nadp0 dp dz rng thsd nf sg
  = calc_kdp_ray_fir (mkpar Fortran order gain c mem' bad) nadp0 dp dz rng thsd nf sg.
Proof.
  intro L. apply ray_coeff_ext. intros k Hk. unfold coeff.
  destruct (nth_error c k) eqn:E; auto. apply nth_error_None in E.
  pose proof (Nat.mul_div_le order 2). lia.
Qed.
(** the Cython build reads one element past them, and only that one *)
Theorem C50_cython_one_past order gain (c : list F) mem mem' bad nadp0 dp dz rng thsd nf sg :
  length c = (order + 1)%nat -> mem (order + 1)%nat = mem' (order + 1)%nat ->
  calc_kdp_ray_fir (mkpar Cython order gain c mem bad) nadp0 dp dz rng thsd nf sg
  = calc_kdp_ray_fir (mkpar Cython order gain c mem' bad) nadp0 dp dz rng thsd nf sg.
Proof.
  intros L E. apply ray_coeff_ext. intros k Hk. unfold coeff.
  destruct (nth_error c (S k)) eqn:En; auto. apply nth_error_None in En.
  pose proof (Nat.mul_div_le order 2). assert (S k = (order + 1)%nat) as -> by lia. auto.
Qed.
End LawFree.

(** gates that one pass filters: the window lies in the ray, the gate itself
    passes the noise threshold and so do more than 80% of the window *)
Definition passes (sd th : list R) (j : nat) : bool := Rleb (nth j sd 0) (nth j th 0).
Definition is_filtered (h n : nat) (sd th : list R) (i : nat) : bool :=
  ((h <=? i) && (i + h <? n) && passes sd th i &&
   (4 * (2 * h) <? 5 * length (filter (passes sd th) (seq (i - h) (2 * h + 1)))))%nat%bool.

Lemma filtered_fin h n (sd th : list R) i : (n <= length sd)%nat -> (n <= length th)%nat ->
  filtered (2 * h) n (map Fin sd) (map Fin th) i = is_filtered h n sd th i.
Proof.
  intros Ls Lt. unfold filtered, is_filtered. rewrite half_order. cbv zeta.
  assert (Q : forall j, (j < n)%nat -> quiet (map Fin sd) (map Fin th) j = passes sd th j).
  { intros j Hj. unfold quiet, at_, passes. rewrite (map_at Fin sd 0), (map_at Fin th 0) by lia. reflexivity. }
  destruct (Nat.leb_spec h i); [|reflexivity]. destruct (Nat.ltb_spec (i + h) n); [|reflexivity]. cbn [andb].
  rewrite Q by lia. unfold nquiet.
  rewrite (filter_ext_in' _ (passes sd th)) by (intros j Hj; apply in_seq in Hj; apply Q; lia). reflexivity.
Qed.

(** One pass over a ray without missing gates, both builds: the weights are the
    coefficients in the Fortran build, and in the Cython build all of them but
    the first followed by whatever memory holds behind the last *)
Theorem C50_filter_value bd h (g b : R) (cs : list R) (m : nat -> R) nadp0 (dp : list R) dz rng (th : list R) sg kd dl (sd : list R) :
  length cs = (2 * h + 1)%nat -> length th = length dp -> ~ In b dp ->
  calc_kdp_ray_fir (mkpar bd (2 * h) (Fin g) (map Fin cs) (fun k => Fin (m k)) (Fin b)) nadp0
    (map Fin dp) dz rng (map Fin th) 1 sg = Ok (kd, dl, map Fin sd) ->
  dl = map (fun i => Fin (if is_filtered h (length dp) sd th i
     then dot (match bd with Cython => tl cs ++ [m (2 * h + 1)%nat] | Fortran => cs end) (slice dp (i - h) (2 * h + 1)) * g
     else b)) (seq 0 (length dp)).
Proof.
  intros Lc Lt Nb E. pose proof (ray_ok _ _ _ _ _ _ _ _ _ _ _ E) as R. cbv zeta in R.
  destruct R as (_ & _ & _ & _ & Ld & Ls & _). rewrite !map_length in *.
  apply nth_error_ext. intro i. rewrite map_nth_error'.
  destruct (lt_dec i (length dp)) as [Hi|Hi].
  2:{ rewrite !(proj2 (nth_error_None _ i)); auto; rewrite ?seq_length; lia. }
  rewrite seq_nth_error by auto. simpl option_map. rewrite (nth_error_nth' _ fnan) by lia. f_equal.
  pose proof (ray_nomiss _ _ _ _ _ _ _ _ _ _ E) as N. cbn [p_bad p_order p_build p_coeff p_mem p_gain] in N.
  rewrite map_length in N. fold (at_ dl i). rewrite N; auto.
  - rewrite half_order, filtered_fin by lia. destruct (is_filtered h (length dp) sd th i) eqn:Ef; [|reflexivity].
    unfold is_filtered in Ef. apply andb_prop in Ef as (Ef & _). apply andb_prop in Ef as (Ef & _). apply andb_prop in Ef as (E1 & E2).
    apply Nat.leb_le in E1. apply Nat.ltb_lt in E2.
    change (@f32 xr _) with (fun x : xr => x). rewrite map_id. rewrite (fir_sum_fin bd cs m dp) by lia. reflexivity.
  - intros j Hj. unfold at_. rewrite (map_at Fin dp 0) by auto. change (f32 (Fin (nth j dp 0))) with (Fin (nth j dp 0)).
    rewrite feq_fin. apply Reqb_false. intro Eq. apply Nb. rewrite <- Eq. now apply nth_In.
Qed.

(** so at every gate the Cython build filters, the result changes with the
    memory behind the coefficients *)
Theorem C50_depends_on_memory h (g b : R) (cs : list R) (m m' : nat -> R) nadp0 nadp0' (dp : list R) dz rng (th : list R) sg
  kd dl sd kd' dl' sd' i :
  length cs = (2 * h + 1)%nat -> length th = length dp -> ~ In b dp ->
  calc_kdp_ray_fir (mkpar Cython (2 * h) (Fin g) (map Fin cs) (fun k => Fin (m k)) (Fin b)) nadp0
    (map Fin dp) dz rng (map Fin th) 1 sg = Ok (kd, dl, map Fin sd) ->
  calc_kdp_ray_fir (mkpar Cython (2 * h) (Fin g) (map Fin cs) (fun k => Fin (m' k)) (Fin b)) nadp0'
    (map Fin dp) dz rng (map Fin th) 1 sg = Ok (kd', dl', map Fin sd') ->
  (i < length dp)%nat -> is_filtered h (length dp) sd th i = true ->
  g <> 0 -> nth (i + h) dp 0 <> 0 -> m (2 * h + 1)%nat <> m' (2 * h + 1)%nat ->
  nth_error dl i <> nth_error dl' i.
Proof.
  intros Lc Lt Nb E E' Hi Ef Hg Hz Hm.
  assert (Es : sd' = sd).
  { pose proof (ray_ok _ _ _ _ _ _ _ _ _ _ _ E) as R. pose proof (ray_ok _ _ _ _ _ _ _ _ _ _ _ E') as R'. cbv zeta in R, R'.
    destruct R as (_ & _ & _ & _ & _ & Ls & G & _). destruct R' as (_ & _ & _ & _ & _ & Ls' & G' & _). rewrite !map_length in *.
    apply nth_error_ext. intro j. destruct (lt_dec j (length dp)) as [Hj|Hj].
    - specialize (G j Hj). specialize (G' j Hj). cbn [p_build p_bad] in *. rewrite G in G'.
      unfold at_ in G'. rewrite !(map_at Fin _ 0) in G' by lia. rewrite !(nth_error_nth' _ 0) by lia. congruence.
    - rewrite !(proj2 (nth_error_None _ j)); auto; lia. }
  subst sd'.
  rewrite (C50_filter_value _ _ _ _ _ _ _ _ _ _ _ _ _ _ _ Lc Lt Nb E), (C50_filter_value _ _ _ _ _ _ _ _ _ _ _ _ _ _ _ Lc Lt Nb E').
  rewrite !map_nth_error', !seq_nth_error by auto. simpl option_map. rewrite Ef.
  unfold is_filtered in Ef. apply andb_prop in Ef as (Ef & _). apply andb_prop in Ef as (Ef & _). apply andb_prop in Ef as (E1 & E2).
  apply Nat.leb_le in E1. apply Nat.ltb_lt in E2.
  set (z := slice dp (i - h) (2 * h + 1)).
  assert (Ez : exists z0, z = z0 ++ [nth (i + h) dp 0] /\ length z0 = (2 * h)%nat).
  { exists (slice dp (i - h) (2 * h)). unfold z. rewrite !(slice_nth dp 0) by lia.
    replace (2 * h + 1)%nat with (S (2 * h)) by lia. rewrite seq_S, map_app. cbn [map].
    replace (i - h + 2 * h)%nat with (i + h)%nat by lia. split; auto. now rewrite map_length, seq_length. }
  destruct Ez as (z0 & -> & Lz0).
  assert (D : forall a w v, length w = length z0 -> dot (w ++ [a]) (z0 ++ [v]) = dot w z0 + a * v).
  { intros a w v. unfold dot. clear. revert z0. induction w as [|x w IH]; intros [|y z0] L; simpl in *; try discriminate; [ring|].
    rewrite IH by lia. ring. }
  rewrite !D by (destruct cs; simpl in *; lia). intro X. apply Hm.
  assert (X' : (dot (tl cs) z0 + m (2 * h + 1)%nat * nth (i + h) dp 0) * g = (dot (tl cs) z0 + m' (2 * h + 1)%nat * nth (i + h) dp 0) * g) by congruence.
  apply Rmult_eq_reg_r in X'; auto. assert (X2 : m (2 * h + 1)%nat * nth (i + h) dp 0 = m' (2 * h + 1)%nat * nth (i + h) dp 0) by lra.
  now apply Rmult_eq_reg_r in X2.
Qed.

(** ** C51 *)
(** Phase 2 K r + c on equally spaced gates.  Whatever the weights, filtered
    phase is on a line again and KDP, where there is one, is K times the gain
    and the sum of the weights. *)
Theorem C51_linear_phase bd h (g b K c r0 d : R) (cs : list R) (m : nat -> R) nadp0 n (dz : list R) (th : list R) sg kd dl (sd : list R) :
  let r := map (gate_range r0 d) (seq 0 n) in
  let dp := map (fun j => 2 * K * gate_range r0 d j + c) (seq 0 n) in
  let w := match bd with Cython => tl cs ++ [m (2 * h + 1)%nat] | Fortran => cs end in
  let slope := 2 * K * rsum w * g in
  let icept := (2 * K * d * moment h w + c * rsum w) * g in
  length cs = (2 * h + 1)%nat -> length th = n -> d <> 0 -> ~ In b dp -> ~ In b r ->
  (bd = Fortran -> (2 <= h)%nat /\ forall j, (j < n)%nat -> gate_range r0 d j <= huge /\ slope * gate_range r0 d j + icept <= huge) ->
  calc_kdp_ray_fir (mkpar bd (2 * h) (Fin g) (map Fin cs) (fun k => Fin (m k)) (Fin b)) nadp0
    (map Fin dp) (map Fin dz) (map Fin r) (map Fin th) 1 sg = Ok (kd, dl, map Fin sd) ->
  (forall i, (i < n)%nat ->
     nth_error dl i = Some (Fin (if is_filtered h n sd th i then slope * gate_range r0 d i + icept else b))) /\
  (forall i, (i < n)%nat ->
     let wd := adaptive h (nth i dz 0) in
     let N := length (kd_valid bd (Fin b) dl (Z.of_nat wd) i) in
     nth_error kd i = Some (Fin (if (differs b (nth i dz 0%R) && (4 * wd <? 5 * N)%nat)%bool then K * rsum w * g else b))).
Proof.
  change huge with (IZR BIG).
  intros r dp w slope icept Lc Lt Hd Nb Nr HF E.
  assert (Ldp : length dp = n) by (unfold dp; now rewrite map_length, seq_length).
  assert (Lrr : length r = n) by (unfold r; now rewrite map_length, seq_length).
  assert (Lth : length th = length dp) by lia.
  pose proof (C50_filter_value _ _ _ _ _ _ _ _ _ _ _ _ _ _ _ Lc Lth Nb E) as Edl. fold w in Edl. rewrite Ldp in Edl.
  assert (Lw : length w = (2 * h + 1)%nat).
  { unfold w. destruct bd; auto. rewrite app_length. destruct cs; simpl in *; lia. }
  assert (Gdp : forall j, (j < n)%nat -> nth j dp 0 = 2 * K * gate_range r0 d j + c).
  { intros j Hj. unfold dp. rewrite (map_at (fun j => 2 * K * gate_range r0 d j + c) (seq 0 n) 0%nat) by now rewrite seq_length. now rewrite seq_nth by auto. }
  assert (Gr : forall j, (j < n)%nat -> nth j r 0 = gate_range r0 d j).
  { intros j Hj. unfold r. rewrite (map_at (gate_range r0 d) (seq 0 n) 0%nat) by now rewrite seq_length. now rewrite seq_nth by auto. }
  assert (A1 : forall i, (i < n)%nat ->
     nth_error dl i = Some (Fin (if is_filtered h n sd th i then slope * gate_range r0 d i + icept else b))).
  { intros i Hi. rewrite Edl, map_nth_error', seq_nth_error by auto. simpl option_map. f_equal. f_equal.
    destruct (is_filtered h n sd th i) eqn:Ef; auto.
    unfold is_filtered in Ef. apply andb_prop in Ef as (Ef & _). apply andb_prop in Ef as (Ef & _). apply andb_prop in Ef as (E1 & E2).
    apply Nat.leb_le in E1. apply Nat.ltb_lt in E2.
    rewrite (dot_line w h dp (2 * K) c r0 d i n) by auto. unfold slope, icept. ring. }
  split; auto. intros i Hi wd N.
  assert (Adl : forall j, (j < n)%nat -> at_ dl j = Fin b \/ at_ dl j = Fin (slope * nth j r 0 + icept)).
  { intros j Hj. unfold at_. rewrite (nth_error_nth _ _ _ (A1 j Hj)). rewrite Gr by auto. destruct (is_filtered h n sd th j); auto. }
  pose proof (ray_ok _ _ _ _ _ _ _ _ _ _ _ E) as R. cbv zeta in R.
  destruct R as (Lz & _ & _ & Lk & Ld & _ & _ & _ & G). rewrite !map_length, Ldp in *.
  specialize (G i Hi). unfold kd_val in G. cbn [p_build p_order p_bad] in G.
  assert (Az : at_ (map Fin dz) i = Fin (nth i dz 0)) by (unfold at_; now rewrite (map_at Fin dz 0) by lia).
  rewrite Az, feq_fin, half_order in G. rewrite (nth_error_nth' kd fnan) by lia. fold (at_ kd i). f_equal.
  assert (Dd : differs b (nth i dz 0) = negb (Reqb (nth i dz 0) b)) by (unfold differs, Reqb; now destruct Req_EM_T).
  rewrite Dd. destruct (Reqb_spec (nth i dz 0) b); cbn [negb andb]; [congruence|].
  assert (Ew : forall m, new_nadp h (Fin (nth i dz 0)) m = Z.of_nat wd).
  { intro m0. unfold new_nadp, wd, adaptive. rewrite !lit_int, !fle_fin, !flt_fin.
    destruct (Rleb_spec 45 (nth i dz 0)), (Rleb_spec 35 (nth i dz 0)), (Rltb_spec (nth i dz 0) 45), (Rltb_spec (nth i dz 0) 35),
      (Rlt_dec (nth i dz 0) 35), (Rlt_dec (nth i dz 0) 45); cbn [andb]; lra || lia. }
  rewrite Ew in G.
  rewrite (kd_gate_line bd b r dl n slope icept (Z.of_nat wd) i) in G; auto; try lia.
  - cbv zeta in G. fold N in G. destruct (500 <? N)%nat; [discriminate|].
    destruct (Z.ltb_spec (4 * Z.of_nat wd) (5 * Z.of_nat N)), (Nat.ltb_spec (4 * wd) (5 * N)); try lia.
    + assert (Es : slope / 2 = K * rsum w * g) by (unfold slope; field). rewrite Es in G. congruence.
    + congruence.
  - intros j k Hj Hk Ejk. rewrite !Gr in Ejk by auto. unfold gate_range in Ejk.
    apply INR_eq. apply (Rmult_eq_reg_r d); auto. lra.
  - intros j Hj. destruct (Req_dec (slope * nth j r 0 + icept) b) as [Eq|Ne].
    + destruct (Adl j Hj) as [?|Eb]; auto. right. rewrite Eb. now rewrite Eq.
    + left. unfold kept. cbn [fst snd]. destruct bd.
      * unfold differs. destruct (Req_EM_T (nth j r 0) b) as [e|].
        { exfalso. apply Nr. rewrite <- e. apply nth_In. lia. }
        destruct (Req_EM_T (slope * nth j r 0 + icept) b); [contradiction|reflexivity].
      * destruct (HF eq_refl) as (_ & HB). rewrite Gr by auto. destruct (HB j Hj) as (B1 & B2).
        rewrite (proj2 (Rleb_true _ _) B1), (proj2 (Rleb_true _ _) B2). reflexivity.
  - destruct bd; [right; split; auto; lia|]. left. destruct (HF eq_refl) as (H2 & _). unfold wd, adaptive.
    destruct (Rlt_dec (nth i dz 0) 35); [lia|]. destruct (Rlt_dec (nth i dz 0) 45); lia.
Qed.

(** Fortran build, symmetric coefficients of sum 1: filtered phase is the phase
    and KDP is K *)
Theorem C51_fortran_exact h (b K c r0 d : R) (cs : list R) (m : nat -> R) nadp0 n (dz : list R) (th : list R) sg kd dl (sd : list R) :
  let r := map (gate_range r0 d) (seq 0 n) in
  let dp := map (fun j => 2 * K * gate_range r0 d j + c) (seq 0 n) in
  length cs = (2 * h + 1)%nat -> smoothing cs -> (2 <= h)%nat -> length th = n -> d <> 0 -> ~ In b dp -> ~ In b r ->
  (forall x, In x r \/ In x dp -> x <= huge) ->
  calc_kdp_ray_fir (mkpar Fortran (2 * h) (Fin 1) (map Fin cs) (fun k => Fin (m k)) (Fin b)) nadp0
    (map Fin dp) (map Fin dz) (map Fin r) (map Fin th) 1 sg = Ok (kd, dl, map Fin sd) ->
  (forall i, (i < n)%nat ->
     nth_error dl i = Some (Fin (if is_filtered h n sd th i then nth i dp 0 else b))) /\
  (forall i, (i < n)%nat -> nth_error kd i = Some (Fin K) \/ nth_error kd i = Some (Fin b)) /\
  (forall i, (i < n)%nat -> nth i dz 0 <> b ->
     let k := (adaptive h (nth i dz 0%R) / 2)%nat in
     (k <= i)%nat -> (forall j, (i - k <= j <= i + k)%nat -> (j < n)%nat /\ is_filtered h n sd th j = true) ->
     nth_error kd i = Some (Fin K)).
Proof.
  change huge with (IZR BIG).
  intros r dp Lc (Sy & S1) Hh Lt Hd Nb Nr HB E.
  assert (M0 : moment h cs = 0) by now apply moment_sym.
  assert (Gdp : forall j, (j < n)%nat -> nth j dp 0 = 2 * K * gate_range r0 d j + c).
  { intros j Hj. unfold dp. rewrite (map_at (fun j => 2 * K * gate_range r0 d j + c) (seq 0 n) 0%nat) by now rewrite seq_length. now rewrite seq_nth by auto. }
  assert (SL : forall x, 2 * K * rsum cs * 1 * x + (2 * K * d * moment h cs + c * rsum cs) * 1 = 2 * K * x + c).
  { intro x. rewrite M0, S1. ring. }
  destruct (C51_linear_phase Fortran h 1 b K c r0 d cs m nadp0 n dz th sg kd dl sd) as (A & B); auto.
  { intros _. split; auto. intros j Hj. rewrite SL. split; apply HB; [left|right].
    - unfold r. apply in_map. apply in_seq. lia.
    - unfold dp. apply (in_map (fun j => 2 * K * gate_range r0 d j + c)). apply in_seq. lia. }
  cbv beta iota zeta in A, B. assert (KK : K * rsum cs * 1 = K) by (rewrite S1; ring). rewrite KK in B.
  split; [|split].
  - intros i Hi. rewrite A by auto. rewrite SL, Gdp by auto. reflexivity.
  - intros i Hi. rewrite B by auto. destruct (_ && _)%bool; auto.
  - intros i Hi Nz k Hk Hf. rewrite B by auto.
    assert (Dd : differs b (nth i dz 0) = true) by (unfold differs; destruct Req_EM_T; [contradiction|reflexivity]). rewrite Dd. cbn [andb].
    set (wd := adaptive h (nth i dz 0)) in *.
    assert (Ld : length dl = n).
    { pose proof (ray_ok _ _ _ _ _ _ _ _ _ _ _ E) as R. cbv zeta in R. destruct R as (_ & _ & _ & _ & Ld & _).
      rewrite map_length in Ld. rewrite Ld. unfold dp. now rewrite map_length, seq_length. }
    assert (EN : length (kd_valid Fortran (Fin b) dl (Z.of_nat wd) i) = (2 * k + 1)%nat).
    { unfold kd_valid, kd_js. cbv zeta. rewrite half_nat. fold k. rewrite Ld.
      destruct (Hf (i + k)%nat) as (Hik & _); [lia|].
      destruct (Z.leb_spec 0 (Z.of_nat i - Z.of_nat k)); [|lia].
      destruct (Z.leb_spec (Z.of_nat i + Z.of_nat k) (Z.of_nat n - 1)); [|lia]. cbn [andb].
      rewrite filter_all; [rewrite zrange_length; lia|].
      intros j Hj. apply zrange_In in Hj. destruct (Hf (Z.to_nat j)) as (Hjn & Fj); [lia|].
      unfold at_. rewrite (nth_error_nth _ _ _ (A _ Hjn)), Fj, SL, <- Gdp by auto. rewrite feq_fin.
      apply negb_true_iff, Reqb_false. intro Eq. apply Nb. rewrite <- Eq. apply nth_In. unfold dp. now rewrite map_length, seq_length. }
    rewrite EN. destruct (Nat.ltb_spec (4 * wd) (5 * (2 * k + 1))) as [|Hle]; auto. exfalso.
    assert (wd <= 2 * k + 1)%nat; [|lia]. unfold k. pose proof (Nat.div_mod wd 2). pose proof (Nat.mod_upper_bound wd 2). lia.
Qed.

(** the Cython build on the same ray: KDP is off by the factor the shifted
    weights sum to *)
Theorem C51_cython_biased h (b K c r0 d : R) (cs : list R) (m : nat -> R) nadp0 n (dz : list R) (th : list R) sg kd dl (sd : list R) :
  let r := map (gate_range r0 d) (seq 0 n) in
  let dp := map (fun j => 2 * K * gate_range r0 d j + c) (seq 0 n) in
  length cs = (2 * h + 1)%nat -> smoothing cs -> length th = n -> d <> 0 -> ~ In b dp -> ~ In b r ->
  calc_kdp_ray_fir (mkpar Cython (2 * h) (Fin 1) (map Fin cs) (fun k => Fin (m k)) (Fin b)) nadp0
    (map Fin dp) (map Fin dz) (map Fin r) (map Fin th) 1 sg = Ok (kd, dl, map Fin sd) ->
  forall i, (i < n)%nat ->
    nth_error kd i = Some (Fin (K * (1 - nth 0 cs 0 + m (2 * h + 1)%nat))) \/ nth_error kd i = Some (Fin b).
Proof.
  intros r dp Lc (Sy & S1) Lt Hd Nb Nr E i Hi.
  destruct (C51_linear_phase Cython h 1 b K c r0 d cs m nadp0 n dz th sg kd dl sd) as (_ & B); auto.
  { discriminate. }
  cbv beta iota zeta in B. rewrite B by auto.
  assert (SW : rsum (tl cs ++ [m (2 * h + 1)%nat]) = 1 - nth 0 cs 0 + m (2 * h + 1)%nat).
  { rewrite rsum_app. destruct cs; simpl in *; [lia|]. rewrite <- S1. ring. }
  rewrite SW, Rmult_1_r. destruct (_ && _)%bool; auto.
Qed.

(** ** A ray that meets the hypotheses: 60 gates of 0.1 km, K = 1.5 deg/km,
    filter order 4 with weights 1 2 3 2 1, threshold 20 deg *)
Lemma avg_between M (l : list R) : l <> [] -> (forall x, In x l -> 0 <= x <= M) -> 0 <= avg l <= M.
Proof.
  intros N G. assert (Hn : 0 < INR (length l)) by (apply lt_0_INR; destruct l; [contradiction|simpl; lia]).
  assert (S : 0 <= rsum l <= INR (length l) * M).
  { clear N Hn. induction l as [|x l IH]; [simpl; lra|]. cbn [rsum length]. rewrite S_INR.
    assert (0 <= x <= M) by (apply G; left; auto). assert (0 <= rsum l <= INR (length l) * M) by (apply IH; intros; apply G; right; auto). lra. }
  unfold avg. split.
  - apply Rmult_le_pos; [lra|]. apply Rlt_le, Rinv_0_lt_compat, Hn.
  - apply (Rmult_le_reg_r (INR (length l))); auto. unfold Rdiv. rewrite Rmult_assoc, Rinv_l by lra. lra.
Qed.
Lemma popstd_bound M (l : list R) : l <> [] -> (forall x, In x l -> 0 <= x <= M) -> popstd l <= M.
Proof.
  intros N G. pose proof (avg_between M l N G) as A. assert (0 <= M).
  { destruct l as [|x l]; [contradiction|]. specialize (G x (or_introl eq_refl)). lra. }
  unfold popstd. rewrite <- (sqrt_pow2 M) by auto. apply sqrt_le_1_alt.
  apply (avg_between (M ^ 2)).
  - destruct l; [contradiction|discriminate].
  - intros y Hy. apply in_map_iff in Hy as (x & <- & Hx). specialize (G x Hx). split; [apply pow2_ge_0|]. nra.
Qed.

Definition ray_n : nat := 60.
Definition ray_r := map (gate_range 0 (1 / 10)) (seq 0 ray_n).
Definition ray_dp := map (fun j => 2 * (3 / 2) * gate_range 0 (1 / 10) j + 2) (seq 0 ray_n).
Definition ray_cs : list R := [1 / 9; 2 / 9; 3 / 9; 2 / 9; 1 / 9].
Definition ray_dz : list R := repeat 50 ray_n.
Definition ray_th : list R := repeat 100 ray_n.

Lemma ray_range j : (j < ray_n)%nat -> 0 <= gate_range 0 (1 / 10) j <= 6.
Proof.
  intro Hj. unfold gate_range. pose proof (pos_INR j). assert (INR j <= 60).
  { replace 60 with (INR 60) by (simpl; lra). apply le_INR. unfold ray_n in Hj. lia. }
  lra.
Qed.
Lemma ray_dp_range x : In x ray_dp -> 0 <= x <= 100.
Proof.
  intro I. apply in_map_iff in I as (j & <- & Hj). apply in_seq in Hj. pose proof (ray_range j ltac:(lia)). lra.
Qed.
Lemma ray_sd_le i : sd_spec 5 (-9) ray_dp i <= 100.
Proof.
  unfold sd_spec. destruct (_ && _)%bool; [|lra]. destruct (Nat.ltb_spec 5 (length (filter (differs (-9)) (slice ray_dp (i - 5) (2 * 5 + 1))))); [|lra].
  apply popstd_bound.
  - intro E. rewrite E in *. simpl in *. lia.
  - intros x Hx. apply filter_In in Hx as (Hx & _). apply ray_dp_range. unfold slice in Hx.
    rewrite <- (firstn_skipn (i - 5) ray_dp). apply in_or_app. right.
    rewrite <- (firstn_skipn (2 * 5 + 1) (skipn (i - 5) ray_dp)). apply in_or_app. left. auto.
Qed.
Lemma big_bound : 100 <= huge.
Proof. apply IZR_le. discriminate. Qed.

Example C51_example : exists kd dl sd,
  calc_kdp_ray_fir (mkpar Fortran (2 * 2) (Fin 1) (map Fin ray_cs) (fun _ => Fin 0) (Fin (-9))) 0
    (map Fin ray_dp) (map Fin ray_dz) (map Fin ray_r) (map Fin ray_th) 1 (2 * Z.of_nat 5 + 1) = Ok (kd, dl, sd) /\
  nth_error dl 30 = Some (Fin (nth 30 ray_dp 0)) /\ nth_error kd 30 = Some (Fin (3 / 2)).
Proof.
  assert (L1 : length ray_dp = 60%nat) by (unfold ray_dp; now rewrite map_length, seq_length).
  assert (L2 : length ray_r = 60%nat) by (unfold ray_r; now rewrite map_length, seq_length).
  destruct (C52_fortran_returns (mkpar Fortran (2 * 2) (Fin 1) (map Fin ray_cs) (fun _ => Fin 0) (Fin (-9))) 0
    (map Fin ray_dp) (map Fin ray_dz) (map Fin ray_r) (map Fin ray_th) 1 (2 * Z.of_nat 5 + 1)) as (kd & dl & sd & E);
    rewrite ?map_length, ?L1, ?L2; unfold ray_dz, ray_th; rewrite ?repeat_length; auto.
  { cbn [p_order]. change (2 * 2 / 2)%nat with 2%nat. lia. }
  { intros i Hi. right; left. unfold at_. rewrite (map_at Fin _ 50) by (rewrite repeat_length; auto). rewrite nth_repeat.
    rewrite lit_int, fle_fin. apply Rleb_true. lra. }
  exists kd, dl, sd. split; [exact E|].
  pose proof (fun H => C47_std_is_population_std _ _ _ _ _ _ _ _ (-9) _ _ _ H E) as Es. specialize (Es eq_refl).
  rewrite <- (map_map (sd_spec 5 (-9) ray_dp) Fin) in Es. rewrite L1 in Es. set (sdr := map (sd_spec 5 (-9) ray_dp) (seq 0 60)) in *.
  rewrite Es in E.
  assert (P : forall j, (j < 60)%nat -> passes sdr (repeat 100 60) j = true).
  { intros j Hj. unfold passes, sdr. rewrite (map_at _ _ 0%nat) by now rewrite seq_length. rewrite seq_nth by auto.
    rewrite (nth_indep _ 0 100) by now rewrite repeat_length. rewrite nth_repeat. apply Rleb_true, ray_sd_le. }
  assert (FI : forall j, (2 <= j < 58)%nat -> is_filtered 2 60 sdr (repeat 100 60) j = true).
  { intros j Hj. unfold is_filtered. rewrite P by lia.
    rewrite (filter_all (passes sdr (repeat 100 60))) by (intros k Hk; apply in_seq in Hk; apply P; lia). rewrite seq_length.
    destruct (Nat.leb_spec 2 j); [|lia]. destruct (Nat.ltb_spec (j + 2) 60); [|lia]. reflexivity. }
  destruct (C51_fortran_exact 2 (-9) (3 / 2) 2 0 (1 / 10) ray_cs (fun _ => 0) 0 60 ray_dz ray_th (2 * Z.of_nat 5 + 1) kd dl sdr) as (A & _ & C); auto.
  - split; [reflexivity|]. unfold ray_cs. simpl. lra.
  - lra.
  - intro I. apply (ray_dp_range (-9)) in I. lra.
  - intro I. apply in_map_iff in I as (j & Ej & Hj). apply in_seq in Hj. pose proof (ray_range j ltac:(unfold ray_n; lia)). lra.
  - intros x [I|I]; pose proof big_bound.
    + apply in_map_iff in I as (j & <- & Hj). apply in_seq in Hj. pose proof (ray_range j ltac:(unfold ray_n; lia)). lra.
    + apply ray_dp_range in I. lra.
  - split.
    + rewrite A by lia. unfold ray_th. change ray_n with 60%nat. rewrite FI by lia. reflexivity.
    + assert (Ed : nth 30 ray_dz 0 = 50) by reflexivity.
      assert (Ea : adaptive 2 50 = 2%nat) by (unfold adaptive; repeat (destruct Rlt_dec; try lra); auto).
      apply C; try lia.
      * rewrite Ed. lra.
      * rewrite Ed, Ea. change (2 / 2)%nat with 1%nat. lia.
      * rewrite Ed, Ea. change (2 / 2)%nat with 1%nat. intros j Hj. split; [lia|]. unfold ray_th. change ray_n with 60%nat. apply FI. lia.
Qed.

(** the same ray in the Cython build: gate 30 with 0 and with 1 behind the coefficients *)
Definition ray_sd : list R := map (sd_spec 5 (-9) ray_dp) (seq 0 60).
Lemma ray_filtered j : (2 <= j < 58)%nat -> is_filtered 2 60 ray_sd ray_th j = true.
Proof.
  assert (P : forall j, (j < 60)%nat -> passes ray_sd ray_th j = true).
  { intros k Hk. unfold passes, ray_sd. rewrite (map_at _ _ 0%nat) by now rewrite seq_length. rewrite seq_nth by auto.
    unfold ray_th. rewrite (nth_indep _ 0 100) by now rewrite repeat_length. rewrite nth_repeat. apply Rleb_true, ray_sd_le. }
  intros Hj. unfold is_filtered. rewrite P by lia.
  rewrite (filter_all (passes ray_sd ray_th)) by (intros k Hk; apply in_seq in Hk; apply P; lia). rewrite seq_length.
  destruct (Nat.leb_spec 2 j); [|lia]. destruct (Nat.ltb_spec (j + 2) 60); [|lia]. reflexivity.
Qed.
Lemma ray_cython (v : R) : exists kd dl,
  calc_kdp_ray_fir (mkpar Cython (2 * 2) (Fin 1) (map Fin ray_cs) (fun _ => Fin v) (Fin (-9))) 0
    (map Fin ray_dp) (map Fin ray_dz) (map Fin ray_r) (map Fin ray_th) 1 (2 * Z.of_nat 5 + 1) = Ok (kd, dl, map Fin ray_sd).
Proof.
  assert (L1 : length ray_dp = 60%nat) by (unfold ray_dp; now rewrite map_length, seq_length).
  destruct (C52_total_on_finite_rays (mkpar Cython (2 * 2) (Fin 1) (map Fin ray_cs) (fun _ => Fin v) (Fin (-9))) 0
    ray_dp ray_dz ray_r ray_cs (map Fin ray_th) 1 5 2 (-9) 1) as (kd & dl & sd & E); auto.
  - lia.
  - intros; eexists; reflexivity.
  - unfold ray_r. apply FinFun.Injective_map_NoDup; [|apply seq_NoDup]. intros x y E. unfold gate_range in E. apply INR_eq, (Rmult_eq_reg_r (1 / 10)); lra.
  - intro I. apply in_map_iff in I as (j & Ej & Hj). apply in_seq in Hj. pose proof (ray_range j ltac:(unfold ray_n in *; lia)). lra.
  - exists (map Fin kd), (map Fin dl). rewrite E.
    pose proof (fun H => C47_std_is_population_std _ _ _ _ _ _ _ _ (-9) _ _ _ H E) as Es. specialize (Es eq_refl). rewrite L1 in Es.
    rewrite <- (map_map (sd_spec 5 (-9) ray_dp) Fin) in Es. fold ray_sd in Es. now rewrite Es.
Qed.
Example C50_example : exists kd dl kd' dl',
  calc_kdp_ray_fir (mkpar Cython (2 * 2) (Fin 1) (map Fin ray_cs) (fun _ => Fin 0) (Fin (-9))) 0
    (map Fin ray_dp) (map Fin ray_dz) (map Fin ray_r) (map Fin ray_th) 1 (2 * Z.of_nat 5 + 1) = Ok (kd, dl, map Fin ray_sd) /\
  calc_kdp_ray_fir (mkpar Cython (2 * 2) (Fin 1) (map Fin ray_cs) (fun _ => Fin 1) (Fin (-9))) 0
    (map Fin ray_dp) (map Fin ray_dz) (map Fin ray_r) (map Fin ray_th) 1 (2 * Z.of_nat 5 + 1) = Ok (kd', dl', map Fin ray_sd) /\
  nth_error dl 30 <> nth_error dl' 30.
Proof.
  destruct (ray_cython 0) as (kd & dl & E). destruct (ray_cython 1) as (kd' & dl' & E'). exists kd, dl, kd', dl'. split; [auto|split; [auto|]].
  assert (L1 : length ray_dp = 60%nat) by (unfold ray_dp; now rewrite map_length, seq_length).
  apply (C50_depends_on_memory 2 1 (-9) ray_cs (fun _ => 0) (fun _ => 1) 0 0 ray_dp (map Fin ray_dz) (map Fin ray_r) ray_th
    (2 * Z.of_nat 5 + 1) kd dl ray_sd kd' dl' ray_sd 30); auto; try lra.
  - intro I. apply (ray_dp_range (-9)) in I. lra.
  - rewrite L1. lia.
  - rewrite L1. apply ray_filtered. lia.
  - assert (Gd : nth (30 + 2) ray_dp 0 = 2 * (3 / 2) * gate_range 0 (1 / 10) 32 + 2).
    { unfold ray_dp. rewrite (map_at (fun j => 2 * (3 / 2) * gate_range 0 (1 / 10) j + 2) (seq 0 ray_n) 0%nat) by (rewrite seq_length; unfold ray_n; lia).
      rewrite seq_nth by (unfold ray_n; lia). reflexivity. }
    rewrite Gd. pose proof (ray_range 32 ltac:(unfold ray_n; lia)). lra.
Qed.
