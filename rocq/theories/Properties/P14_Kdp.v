(** * C47, C48, C49, C52: calc_kdp_ray_fir *)
From Coq Require Import Reals Lra Lia Arith.
From Verif Require Import Base.Num Base.ListFacts Base.XReal Base.XTac Base.Pointwise Base.XArith Base.QOps.
From Verif Require Import Model.Tables Model.Beta Model.Melt Model.Kdp Spec.KdpSpec.
From Verif Require Import Proofs.HidProofs Proofs.SummerProofs Proofs.MeltProofs Proofs.KdpReal Proofs.KdpProofs Proofs.KdpFilter.
Open Scope R_scope.

(** ** C47 *)
Theorem C47_std_is_population_std (p : par xr) nadp0 (dp : list R) dz rng thsd nf (h : nat) (b : R) kd dl sd :
  p_bad p = Fin b ->
  calc_kdp_ray_fir p nadp0 (map Fin dp) dz rng thsd nf (2 * Z.of_nat h + 1) = Ok (kd, dl, sd) ->
  sd = map (fun i => Fin (sd_spec h b dp i)) (seq 0 (length dp)).
Proof.
  intros Eb E. apply ray_ok in E. cbv zeta in E. destruct E as (_ & _ & _ & _ & _ & Ls & Gs & _).
  rewrite map_length in *. apply nth_error_ext. intro i. rewrite map_nth_error'.
  destruct (lt_dec i (length dp)) as [Hi|Hi].
  - rewrite seq_nth_error by auto. specialize (Gs i Hi). rewrite half_odd, Eb, sd_gate_spec in Gs.
    rewrite (nth_error_nth' _ fnan) by lia. simpl option_map. f_equal. unfold at_ in Gs. congruence.
  - rewrite !(proj2 (nth_error_None _ i)); auto; rewrite ?seq_length; lia.
Qed.

Lemma sd_nonnegative h b dp i : 0 <= sd_spec h b dp i.
Proof.
  unfold sd_spec. destruct (_ && _)%bool; [|lra]. destruct (_ <? _)%nat; [apply popstd_nonneg|lra].
Qed.

(** 0 exactly when all valid phases of the window are the same *)
Lemma popstd_zero (l : list R) : l <> [] ->
  (popstd l = 0 <-> forall x y, In x l -> In y l -> x = y).
Proof.
  intro N. assert (Hn : 0 < INR (length l)) by (apply lt_0_INR; destruct l; [contradiction|simpl; lia]).
  assert (S0 : popstd l = 0 <-> rsum (map (fun x => (x - avg l) ^ 2) l) = 0).
  { unfold popstd. pose proof (avg_dev_nonneg l (avg l)) as P.
    assert (A : avg (map (fun x => (x - avg l) ^ 2) l) = rsum (map (fun x => (x - avg l) ^ 2) l) / INR (length l))
      by (unfold avg at 1; now rewrite map_length).
    rewrite A. split.
    - intro E. apply sqrt_eq_0 in E.
      + apply (Rmult_eq_reg_r (/ INR (length l))); [rewrite Rmult_0_l; exact E|]. apply Rinv_neq_0_compat. lra.
      + apply Rmult_le_pos; auto. apply Rlt_le, Rinv_0_lt_compat. auto.
    - intros ->. unfold Rdiv. rewrite Rmult_0_l. apply sqrt_0. }
  rewrite S0. split.
  - intros E x y Hx Hy.
    assert (G : forall x, In x l -> x = avg l).
    { intros z Hz. assert (Q : (z - avg l) ^ 2 = 0).
      { apply (rsum_zero (map (fun x => (x - avg l) ^ 2) l)); auto.
        - intros w Hw. apply in_map_iff in Hw as (v & <- & _). apply pow2_ge_0.
        - apply (in_map (fun x => (x - avg l) ^ 2) l z Hz). }
      assert ((z - avg l) * (z - avg l) = 0) by (rewrite <- Q; ring). destruct (Rmult_integral _ _ H); lra. }
    rewrite (G x), (G y); auto.
  - intro G. destruct l as [|x0 l'] eqn:El; [contradiction|]. rewrite <- El in *.
    assert (A : avg l = x0).
    { unfold avg. assert (E : rsum l = INR (length l) * x0).
      { assert (G' : forall x, In x l -> x = x0) by (intros x Hx; apply G; auto; rewrite El; left; auto).
        clear - G'. induction l as [|x l IH]; [simpl; ring|]. cbn [rsum length].
        rewrite S_INR, (G' x), IH by (try left; auto; intros; apply G'; right; auto). ring. }
      rewrite E. field. lra. }
    rewrite A. assert (G' : forall x, In x l -> x = x0) by (intros x Hx; apply G; auto; rewrite El; left; auto).
    clear - G'. induction l as [|x l IH]; [reflexivity|]. cbn [map rsum].
    rewrite (G' x), IH by (try left; auto; intros; apply G'; right; auto). ring.
Qed.

(** The reported standard deviation is a number >= 0 at every gate; at a gate with
    more than h valid phases in its window it is 0 exactly if these are all the
    same. *)
Theorem C47_std_nonnegative (p : par xr) nadp0 (dp : list R) dz rng thsd nf (h : nat) (b : R) kd dl sd i :
  p_bad p = Fin b ->
  calc_kdp_ray_fir p nadp0 (map Fin dp) dz rng thsd nf (2 * Z.of_nat h + 1) = Ok (kd, dl, sd) ->
  (i < length dp)%nat -> exists s, nth_error sd i = Some (Fin s) /\ 0 <= s.
Proof.
  intros Eb E Hi. apply (C47_std_is_population_std _ _ _ _ _ _ _ _ _ _ _ _ Eb) in E. rewrite E, map_nth_error', seq_nth_error by auto.
  eexists. split; [reflexivity|]. apply sd_nonnegative.
Qed.
Theorem C47_std_zero (p : par xr) nadp0 (dp : list R) dz rng thsd nf (h : nat) (b : R) kd dl sd i :
  p_bad p = Fin b ->
  calc_kdp_ray_fir p nadp0 (map Fin dp) dz rng thsd nf (2 * Z.of_nat h + 1) = Ok (kd, dl, sd) ->
  (h <= i)%nat -> (i + h < length dp)%nat ->
  let valid := filter (differs b) (slice dp (i - h) (2 * h + 1)) in
  (h < length valid)%nat ->
  (nth_error sd i = Some (Fin 0) <-> forall x y, In x valid -> In y valid -> x = y).
Proof.
  intros Eb E H1 H2 valid Hv. apply (C47_std_is_population_std _ _ _ _ _ _ _ _ _ _ _ _ Eb) in E. rewrite E, map_nth_error', seq_nth_error by lia.
  rewrite <- popstd_zero by (intro N; rewrite N in Hv; simpl in Hv; lia).
  cbn [option_map]. unfold sd_spec. destruct (Nat.leb_spec h i); [|lia]. destruct (Nat.ltb_spec (i + h) (length dp)); [|lia].
  cbn [andb]. cbv zeta. fold valid. destruct (Nat.ltb_spec h (length valid)); [|lia].
  split; [intro K; congruence|intros ->; auto].
Qed.
(** at any other gate it is 100 *)
Theorem C47_std_default (p : par xr) nadp0 (dp : list R) dz rng thsd nf (h : nat) (b : R) kd dl sd i :
  p_bad p = Fin b ->
  calc_kdp_ray_fir p nadp0 (map Fin dp) dz rng thsd nf (2 * Z.of_nat h + 1) = Ok (kd, dl, sd) ->
  (i < length dp)%nat ->
  (i < h)%nat \/ (length dp <= i + h)%nat \/ (length (filter (differs b) (slice dp (i - h) (2 * h + 1))) <= h)%nat ->
  nth_error sd i = Some (Fin 100).
Proof.
  intros Eb E Hi C. apply (C47_std_is_population_std _ _ _ _ _ _ _ _ _ _ _ _ Eb) in E. rewrite E, map_nth_error', seq_nth_error by lia.
  cbn [option_map]. unfold sd_spec. cbv zeta. destruct (Nat.leb_spec h i), (Nat.ltb_spec (i + h) (length dp)); cbn [andb]; auto.
  destruct (Nat.ltb_spec h (length (filter (differs b) (slice dp (i - h) (2 * h + 1))))); auto. lia.
Qed.

(** ** C48 *)
(** the points LSE uses: neither coordinate is the missing value *)
Definition usable (b : R) (p : R * R) : bool := (differs b (fst p) && differs b (snd p))%bool.

Theorem C48_lse_best_line (b : R) (pts : list (R * R)) :
  ~ same_x (filter (usable b) pts) ->
  exists a c, LSE Cython (Fin b) (map pt pts) = Ok (Fin a, Fin c) /\ best_line (filter (usable b) pts) a c.
Proof.
  intro N. assert (D : ldet (filter (kept Cython b) pts) <> 0) by (intro D; apply N, ldet_same_x, D).
  do 2 eexists. split; [apply (LSE_fin Cython b pts D)|]. apply best_lslope, D.
Qed.
Theorem C48_lse_raises_iff (b : R) (pts : list (R * R)) :
  LSE Cython (Fin b) (map pt pts) = Raise ZeroDivisionError <-> same_x (filter (usable b) pts).
Proof.
  split.
  - intro E. apply ldet_same_x. destruct (Req_dec (ldet (filter (usable b) pts)) 0) as [|D]; auto.
    rewrite (LSE_fin Cython b pts D) in E. discriminate.
  - intro S. apply LSE_zero. now apply ldet_same_x in S.
Qed.
Theorem C48_lse_exact_line (b : R) (pts : list (R * R)) (a c : R) :
  ~ same_x (filter (usable b) pts) ->
  (forall q, In q (filter (usable b) pts) -> snd q = a * fst q + c) ->
  LSE Cython (Fin b) (map pt pts) = Ok (Fin a, Fin c).
Proof.
  intros N L. assert (D : ldet (filter (kept Cython b) pts) <> 0) by (intro D; apply N, ldet_same_x, D).
  rewrite (LSE_fin Cython b pts D). destruct (line_exact _ a c D L) as (-> & ->). reflexivity.
Qed.
(** the Fortran build: points beyond 10^35 are dropped, whatever the missing value *)
Theorem C48_lse_fortran (b : R) (pts : list (R * R)) :
  let K := filter (fun p => Rleb (fst p) huge && Rleb (snd p) huge)%bool pts in
  ~ same_x K -> exists a c, LSE Fortran (Fin b) (map pt pts) = Ok (Fin a, Fin c) /\ best_line K a c.
Proof.
  change huge with (IZR BIG).
  intros K N. assert (D : ldet (filter (kept Fortran b) pts) <> 0) by (intro D; apply N, ldet_same_x, D).
  do 2 eexists. split; [apply (LSE_fin Fortran b pts D)|]. apply best_lslope, D.
Qed.
(** three points, one of them missing: the line through the other two *)
Example C48_example : LSE Cython (Fin (-9)) (map pt [(1, 2); (2, -9); (3, 6)]) = Ok (Fin 2, Fin 0).
Proof.
  apply C48_lse_exact_line.
  - intro S. assert (In (1, 2) (filter (usable (-9)) [(1, 2); (2, -9); (3, 6)])
      /\ In (3, 6) (filter (usable (-9)) [(1, 2); (2, -9); (3, 6)])) as (I1 & I2).
    { split; apply filter_In; (split; [simpl; auto|]); unfold usable, differs; simpl;
      repeat (destruct Req_EM_T; try lra); reflexivity. }
    specialize (S _ _ I1 I2). simpl in S. lra.
  - intros q Hq. apply filter_In in Hq as (Hq & U). unfold usable, differs in U.
    destruct Hq as [<-|[<-|[<-|[]]]]; simpl in *; try lra.
    exfalso. destruct (Req_EM_T 2 (-9)); try discriminate. destruct (Req_EM_T (-9) (-9)); try discriminate. auto.
Qed.

(** ** C49 *)
Section LawFree.
Context {F : Type} {fo : FloatOps F}.

Theorem C49_lengths (p : par F) nadp0 dp dz rng thsd nf sg kd dl sd :
  calc_kdp_ray_fir p nadp0 dp dz rng thsd nf sg = Ok (kd, dl, sd) ->
  length kd = length dp /\ length dl = length dp /\ length sd = length dp.
Proof. intro E. apply ray_ok in E. cbv zeta in E. intuition. Qed.

Theorem C49_no_filter (p : par F) nadp0 dp dz rng thsd sg kd dl sd :
  calc_kdp_ray_fir p nadp0 dp dz rng thsd 0 sg = Ok (kd, dl, sd) -> dl = map f32 dp.
Proof.
  intro E. apply ray_ok in E. cbv zeta in E. destruct E as (_ & _ & _ & _ & _ & _ & _ & (y & E) & _).
  simpl in E. now injection E.
Qed.

(** with at least one pass: missing within half a filter window of either end
    of the ray and wherever the phase is too noisy *)
Theorem C49_edges_and_noisy_gates (p : par F) nadp0 dp dz rng thsd nf sg kd dl sd i :
  calc_kdp_ray_fir p nadp0 dp dz rng thsd nf sg = Ok (kd, dl, sd) -> (1 <= nf)%nat -> (i < length dp)%nat ->
  (i < p_order p / 2)%nat \/ (length dp <= i + p_order p / 2)%nat \/ fle (at_ sd i) (at_ thsd i) = false ->
  nth_error dl i = Some (p_bad p).
Proof.
  intros E Hn Hi U. apply ray_ok in E. cbv zeta in E. destruct E as (_ & _ & _ & _ & Ld & _ & _ & (y & E) & _).
  assert (Emap : map (fun _ : F => p_bad p) dp = map (fun _ => p_bad p) (map f32 dp)) by now rewrite map_map.
  rewrite Emap in E. destruct (fir_filter_inv _ _ _ _ _ _ _ (length dp) (map_length _ _) E) as (_ & _ & G).
  cbn [fst] in G. rewrite (nth_error_nth' _ fnan) by lia. f_equal. apply G; auto.
  unfold untouched. destruct U as [U|[U|U]].
  - apply Nat.ltb_lt in U. now rewrite U.
  - apply Nat.leb_le in U. now rewrite U, orb_true_r.
  - rewrite U. now rewrite !orb_true_r.
Qed.

Theorem C49_missing_reflectivity (p : par F) nadp0 dp dz rng thsd nf sg kd dl sd i :
  calc_kdp_ray_fir p nadp0 dp dz rng thsd nf sg = Ok (kd, dl, sd) -> (i < length dp)%nat ->
  feq (at_ dz i) (p_bad p) = true -> nth_error kd i = Some (p_bad p).
Proof.
  intros E Hi B. apply ray_ok in E. cbv zeta in E. destruct E as (_ & _ & _ & Lk & _ & _ & _ & _ & G).
  specialize (G i Hi). unfold kd_val in G. rewrite B in G. rewrite (nth_error_nth' _ fnan) by lia. unfold at_ in G. congruence.
Qed.
End LawFree.

Lemma filter_map {A B} (f : B -> bool) (g : A -> B) l : filter f (map g l) = map g (filter (fun x => f (g x)) l).
Proof. induction l; simpl; auto. destruct (f (g a)); simpl; now rewrite IHl. Qed.

Definition incl (bd : build) : bool := match bd with Cython => false | Fortran => true end.
Lemma half_nat bd k : half_of bd (Z.of_nat k) = Z.of_nat (k / 2).
Proof. rewrite Nat2Z.inj_div. destruct bd; cbn [half_of]; [reflexivity|]. now rewrite Z.quot_div_nonneg by lia. Qed.

Lemma kd_points bd b (rng dl : list R) k i : length rng = length dl ->
  map (fun j => (at_ (map Fin rng) (Z.to_nat j), at_ (map Fin dl) (Z.to_nat j))) (kd_valid bd (Fin b) (map Fin dl) (Z.of_nat k) i)
  = map pt (window_points (incl bd) b (combine rng dl) (k / 2) i).
Proof.
  intro L. unfold kd_valid, kd_js, window_points. cbv zeta. rewrite half_nat, map_length, combine_length, L, Nat.min_id.
  assert (G : ((0 <=? Z.of_nat i - Z.of_nat (k / 2)) && (Z.of_nat i + Z.of_nat (k / 2) <=? Z.of_nat (length dl) - 1))%Z%bool
    = ((k / 2 <=? i) && (i + k / 2 <? length dl))%nat%bool).
  { destruct (Z.leb_spec 0 (Z.of_nat i - Z.of_nat (k / 2))), (Z.leb_spec (Z.of_nat i + Z.of_nat (k / 2)) (Z.of_nat (length dl) - 1)),
      (Nat.leb_spec (k / 2) i), (Nat.ltb_spec (i + k / 2) (length dl)); auto; lia. }
  rewrite G. destruct (Nat.leb_spec (k / 2) i); [|reflexivity]. destruct (Nat.ltb_spec (i + k / 2) (length dl)); [|reflexivity].
  cbn [andb]. set (m := (2 * (k / 2) + (if incl bd then 1 else 0))%nat).
  rewrite (zrange_seq _ _ m) by (unfold m; destruct bd; cbn [incl]; lia).
  replace (Z.to_nat (Z.of_nat i - Z.of_nat (k / 2))) with (i - k / 2)%nat by lia.
  assert (Hm : (i - k / 2 + m <= length (combine rng dl))%nat).
  { rewrite combine_length, L, Nat.min_id. unfold m. destruct bd; cbn [incl]; lia. }
  rewrite (slice_nth _ (0, 0) m _ Hm). rewrite combine_length, L, Nat.min_id in Hm. rewrite !filter_map, !map_map.
  assert (NE : forall j, (j < length dl)%nat -> nth j (combine rng dl) (0, 0) = (nth j rng 0, nth j dl 0)) by (intros; now apply combine_nth).
  rewrite (filter_ext_in' _ (fun x => differs b (snd (nth x (combine rng dl) (0, 0))))).
  - apply map_ext_in. intros j Hj. apply filter_In in Hj as (Hj & _). apply in_seq in Hj.
    rewrite Nat2Z.id, NE by lia. unfold pt, at_. cbn [fst snd]. rewrite (map_at Fin rng 0), (map_at Fin dl 0) by lia. reflexivity.
  - intros j Hj. apply in_seq in Hj. rewrite Nat2Z.id, NE by lia. cbn [snd]. unfold at_. rewrite (map_at Fin dl 0) by lia.
    rewrite feq_fin. unfold differs, Reqb. now destruct Req_EM_T.
Qed.

(** KDP is half the slope of the least-squares line through the valid phases of
    the adaptive window if more than 80% of its gates are valid, else missing *)
Theorem C49_kdp_value (p : par xr) nadp0 dp (dz rng : list R) thsd nf sg kd (dl : list R) sd (b : R) i :
  p_bad p = Fin b -> length rng = length dp ->
  calc_kdp_ray_fir p nadp0 dp (map Fin dz) (map Fin rng) thsd nf sg = Ok (kd, map Fin dl, sd) ->
  (i < length dp)%nat -> nth i dz 0 <> b ->
  let w := adaptive (p_order p / 2) (nth i dz 0) in
  let pts := window_points (incl (p_build p)) b (combine rng dl) (w / 2) i in
  (5 * length pts <= 4 * w -> nth_error kd i = Some (Fin b))%nat /\
  ((4 * w < 5 * length pts)%nat ->
   (forall q, In q pts -> kept (p_build p) b q = true) -> ~ same_x pts ->
   exists a c, best_line pts a c /\ nth_error kd i = Some (Fin (a / 2))).
Proof.
  intros Eb Lr E Hi Nb. apply ray_ok in E. cbv zeta in E.
  destruct E as (Lz & _ & _ & Lk & Ld & _ & _ & _ & G). rewrite !map_length in *.
  specialize (G i Hi). unfold kd_val in G.
  assert (Az : at_ (map Fin dz) i = Fin (nth i dz 0)) by (unfold at_; now rewrite (map_at Fin dz 0) by lia).
  rewrite Az, Eb, feq_fin in G. destruct (Reqb_spec (nth i dz 0) b); [contradiction|].
  cbv zeta. set (w := adaptive (p_order p / 2) (nth i dz 0)).
  assert (Ew : forall m, new_nadp (p_order p / 2) (Fin (nth i dz 0)) m = Z.of_nat w).
  { intro m. unfold new_nadp, w, adaptive. rewrite !lit_int, !fle_fin, !flt_fin.
    destruct (Rleb_spec 45 (nth i dz 0)), (Rleb_spec 35 (nth i dz 0)), (Rltb_spec (nth i dz 0) 45), (Rltb_spec (nth i dz 0) 35),
      (Rlt_dec (nth i dz 0) 35), (Rlt_dec (nth i dz 0) 45); cbn [andb]; lra || lia. }
  rewrite Ew, kd_gate_eq in G. cbv zeta in G. rewrite kd_points in G by lia.
  set (pts := window_points (incl (p_build p)) b (combine rng dl) (w / 2) i) in *.
  assert (El : length (kd_valid (p_build p) (Fin b) (map Fin dl) (Z.of_nat w) i) = length pts).
  { pose proof (f_equal (@length _) (kd_points (p_build p) b rng dl w i ltac:(lia))) as X. rewrite !map_length in X. exact X. }
  rewrite El in G. destruct (500 <? length pts)%nat; [discriminate|].
  rewrite (nth_error_nth' kd fnan) by lia. fold (at_ kd i). split.
  - intro H. destruct (Z.ltb_spec (4 * Z.of_nat w) (5 * Z.of_nat (length pts))); [lia|]. congruence.
  - intros H Kp N. destruct (Z.ltb_spec (4 * Z.of_nat w) (5 * Z.of_nat (length pts))); [|lia].
    assert (EK : filter (kept (p_build p) b) pts = pts) by now apply filter_all.
    assert (D : ldet (filter (kept (p_build p) b) pts) <> 0) by (rewrite EK; intro D; apply N, ldet_same_x, D).
    rewrite (LSE_fin (p_build p) b pts D), EK in G. rewrite EK in D. exists (lslope pts), (licept pts). split; [now apply best_lslope|].
    f_equal. cbn [bind fst] in G. change (@f32 xr _) with (fun x : xr => x) in G. cbv beta in G. rewrite lit_fin, fmul_fin in G.
    assert (Eh : IZR (Qnum 0.5) / IZR (Zpos (Qden 0.5)) * lslope pts = lslope pts / 2) by (cbn [Qnum Qden]; field).
    rewrite Eh in G. congruence.
Qed.

(** ** C52 *)
Section LawFree52.
Context {F : Type} {fo : FloatOps F}.

(** reflectivity is the missing value or falls in one of the three classes,
    i.e. is not NaN *)
Definition dz_known (bad : F) (dz : F) : Prop :=
  feq dz bad = true \/ fle (flit 45) dz = true \/ (fle (flit 35) dz && flt dz (flit 45))%bool = true \/ flt dz (flit 35) = true.

(** the two work arrays suffice up to order 335 (Cython) and 333 (Fortran);
    get_fir lets only even orders through: 334 and 332 *)
Theorem C52_work_arrays_suffice (p : par F) nadp0 dp dz rng thsd nf sg :
  (p_order p / 2 <= match p_build p with Cython => 167 | Fortran => 166 end)%nat ->
  (length dp <= length dz)%nat -> (length dp <= length rng)%nat -> (length dp <= length thsd)%nat ->
  (forall i, (i < length dp)%nat -> dz_known (p_bad p) (at_ dz i)) ->
  calc_kdp_ray_fir p nadp0 dp dz rng thsd nf sg <> Fault.
Proof.
  intros Hh H1 H2 H3 C.
  assert (N : nofault (p_build p) (calc_kdp_ray_fir p nadp0 dp dz rng thsd nf sg)).
  { apply ray_nofault; auto. intros i Hi. destruct (C i Hi) as [?|[K|[K|K]]]; auto; right; unfold classified; rewrite K; rewrite ?orb_true_r; auto. }
  destruct N as [(a & ->)|(_ & ->)]; discriminate.
Qed.

(** the Fortran build then always returns *)
Theorem C52_fortran_returns (p : par F) nadp0 dp dz rng thsd nf sg :
  p_build p = Fortran -> (p_order p / 2 <= 166)%nat ->
  (length dp <= length dz)%nat -> (length dp <= length rng)%nat -> (length dp <= length thsd)%nat ->
  (forall i, (i < length dp)%nat -> dz_known (p_bad p) (at_ dz i)) ->
  exists kd dl sd, calc_kdp_ray_fir p nadp0 dp dz rng thsd nf sg = Ok (kd, dl, sd).
Proof.
  intros Eb Hh H1 H2 H3 C.
  assert (N : nofault (p_build p) (calc_kdp_ray_fir p nadp0 dp dz rng thsd nf sg)).
  { apply ray_nofault; auto; [rewrite Eb; auto|]. intros i Hi. destruct (C i Hi) as [?|[K|[K|K]]]; auto; right; unfold classified; rewrite K; rewrite ?orb_true_r; auto. }
  destruct N as [(((kd & dl) & sd) & E)|(E & _)]; [eauto|congruence].
Qed.

Lemma new_nadp_low half (dz : F) m : flt dz (flit 35) = true -> new_nadp half dz m = (3 * Z.of_nat half)%Z.
Proof. intro L. unfold new_nadp. now rewrite L. Qed.

Lemma kd_valid_all bd bad (dl : list F) nadp i :
  (forall j, (j < length dl)%nat -> feq (at_ dl j) bad = false) -> (0 <= half_of bd nadp)%Z ->
  kd_valid bd bad dl nadp i = kd_js bd (length dl) nadp i.
Proof.
  intros G Hh. apply filter_all. intros j Hj. unfold kd_js in Hj. cbv zeta in Hj.
  destruct ((0 <=? _) && _)%Z%bool eqn:Eb; [|destruct Hj].
  apply andb_prop in Eb as (E1 & E2). apply Z.leb_le in E1. apply Z.leb_le in E2. apply zrange_In in Hj.
  rewrite G; auto. destruct bd; lia.
Qed.

(** from there on they do not: a long ray of valid phases and weak echo, no
    filtering, writes past their end *)
Theorem C52_work_arrays_overflow (p : par F) nadp0 dp dz rng thsd (h : nat) :
  (p_order p / 2 > match p_build p with Cython => 167 | Fortran => 166 end)%nat ->
  (3 * p_order p < length dp)%nat ->
  (length dp <= length dz)%nat -> (length dp <= length rng)%nat -> (length dp <= length thsd)%nat ->
  (forall i, (i < length dp)%nat -> feq (f32 (at_ dp i)) (p_bad p) = false) ->
  (forall i, (i < length dp)%nat -> feq (at_ dz i) (p_bad p) = false /\ flt (at_ dz i) (flit 35) = true) ->
  calc_kdp_ray_fir p nadp0 dp dz rng thsd 0 (2 * Z.of_nat h + 1) = Fault.
Proof.
  intros Hh Hn H1 H2 H3 Gp Gz. unfold calc_kdp_ray_fir. cbv zeta.
  destruct (Nat.ltb_spec (length dz) (length dp)); [lia|].
  destruct (Nat.ltb_spec (length rng) (length dp)); [lia|].
  destruct (Nat.ltb_spec (length thsd) (length dp)); [lia|]. cbn [orb].
  rewrite half_odd.
  destruct (mapM_total (sd_gate (p_build p) (Z.of_nat h) (p_bad p) dp) (seq 0 (length dp))) as (sd & ->).
  { intros i _. unfold sd_gate. cbv zeta. destruct (_ && _)%bool; [|eauto].
    destruct (Z.ltb_spec (Z.of_nat h) (Z.of_nat (d_n (sd_loop (p_build p) (p_bad p) (window dp (Z.of_nat i) (Z.of_nat h)))))); [|eauto].
    destruct (d_n (sd_loop (p_build p) (p_bad p) (window dp (Z.of_nat i) (Z.of_nat h)))); [lia|]. destruct (p_build p); eauto. }
  cbn [bind fir_filter seq forM fst]. rewrite kd_loop.
  set (half := (p_order p / 2)%nat) in *.
  assert (Ho : (2 * half <= p_order p)%nat) by (unfold half; pose proof (Nat.mul_div_le (p_order p) 2); lia).
  set (dl := map f32 dp). assert (Ldl : length dl = length dp) by apply map_length.
  assert (Gd : forall j, (j < length dl)%nat -> feq (at_ dl j) (p_bad p) = false).
  { intros j Hj. unfold dl, at_. rewrite (map_at f32 dp fnan) by lia. apply Gp. lia. }
  set (k := (3 * half / 2)%nat).
  assert (Ek : half_of (p_build p) (3 * Z.of_nat half) = Z.of_nat k).
  { replace (3 * Z.of_nat half)%Z with (Z.of_nat (3 * half)) by lia. apply half_nat. }
  assert (Hk : (2 * k <= 3 * half /\ 3 * half <= 2 * k + 1)%nat).
  { unfold k. pose proof (Nat.div_mod (3 * half) 2). pose proof (Nat.mod_upper_bound (3 * half) 2). lia. }
  assert (V : forall i, (i < length dp)%nat -> kd_val (p_build p) half (p_bad p) rng dl dz nadp0 i =
    if ((k <=? i) && (i + k <? length dp))%nat%bool then Fault else Ok (p_bad p)).
  { intros i Hi. destruct (Gz i Hi) as (Z1 & Z2). unfold kd_val. rewrite Z1, (new_nadp_low _ _ _ Z2), kd_gate_eq. cbv zeta.
    rewrite kd_valid_all by (auto; rewrite Ek; lia). unfold kd_js. cbv zeta. rewrite Ek, Ldl.
    destruct (Nat.leb_spec k i), (Nat.ltb_spec (i + k) (length dp)); cbn [andb].
    2-4: (destruct (Z.leb_spec 0 (Z.of_nat i - Z.of_nat k)), (Z.leb_spec (Z.of_nat i + Z.of_nat k) (Z.of_nat (length dp) - 1)); try lia; cbn [andb length]);
         (destruct (Nat.ltb_spec 500 0); [lia|]); (destruct (Z.ltb_spec (4 * (3 * Z.of_nat half)) (5 * Z.of_nat 0)); [lia|reflexivity]).
    destruct (Z.leb_spec 0 (Z.of_nat i - Z.of_nat k)); [|lia].
    destruct (Z.leb_spec (Z.of_nat i + Z.of_nat k) (Z.of_nat (length dp) - 1)); [|lia]. cbn [andb].
    rewrite zrange_length.
    match goal with |- (if (500 <? ?n)%nat then _ else _) = _ => destruct (Nat.ltb_spec 500 n) as [|Hle]; [reflexivity|] end.
    exfalso. destruct (p_build p); lia. }
  assert (M : forall l, (forall i, In i l -> (i < length dp)%nat) -> In k l -> mapM (kd_val (p_build p) half (p_bad p) rng dl dz nadp0) l = Fault).
  { induction l as [|i l IH]; intros Hl I; [destruct I|]. cbn [mapM]. rewrite V by (apply Hl; left; auto).
    destruct ((k <=? i) && (i + k <? length dp))%nat%bool eqn:Ei; [reflexivity|]. cbn [bind].
    destruct I as [<-|I].
    - rewrite Nat.leb_refl in Ei. cbn [andb] in Ei. apply Nat.ltb_ge in Ei. lia.
    - rewrite IH; auto. intros; apply Hl; right; auto. }
  rewrite M; auto.
  - intros i Hi. apply in_seq in Hi. lia.
  - apply in_seq. lia.
Qed.
End LawFree52.

(** In exact arithmetic the Cython build accepts every ray of finite numbers
    with distinct ranges, and all its outputs are finite: no NaN, no exception *)
Theorem C52_total_on_finite_rays (p : par xr) nadp0 (dp dz rng cs : list R) (thsd : list xr) nf h half b g :
  p_build p = Cython -> p_order p = (2 * half)%nat -> (half <= 167)%nat ->
  p_bad p = Fin b -> p_gain p = Fin g -> p_coeff p = map Fin cs -> (forall k, exists m, p_mem p k = Fin m) ->
  length dz = length dp -> length rng = length dp -> length thsd = length dp ->
  NoDup rng -> ~ In b rng ->
  exists kd dl sd, calc_kdp_ray_fir p nadp0 (map Fin dp) (map Fin dz) (map Fin rng) thsd nf (2 * Z.of_nat h + 1)
    = Ok (map Fin kd, map Fin dl, map Fin sd).
Proof.
  intros Eb Eo Hh Ebad Eg Ec Em Lz Lr Lt ND Nb.
  apply (ray_total b rng (length dp)) with (half := half); auto; try lia.
  - intros j k Hj Hk E. apply (proj1 (NoDup_nth rng 0) ND); auto; lia.
  - intros j Hj E. apply Nb. rewrite <- E. apply nth_In. lia.
  - unfold p_fin. repeat split; eauto.
Qed.

(** hypotheses met: a ray of 20 gates, 4 of them around a missing gate *)
Definition ex_par : par xr := mkpar Cython 4 (Fin 1) (map Fin [1; 2; 3; 2; 1]) (fun _ => Fin 0) (Fin (-9)).
Definition ex_dp : list R := map (fun j => if (j =? 9)%nat then -9 else INR j) (seq 0 20).
Definition ex_rng : list R := map INR (seq 0 20).
Definition ex_dz : list R := map (fun j => if (j <? 10)%nat then 40 else 20) (seq 0 20).
Definition ex_th : list xr := map (fun _ => Fin 12) (seq 0 20).
Lemma ex_total : exists kd dl sd, calc_kdp_ray_fir ex_par 0 (map Fin ex_dp) (map Fin ex_dz) (map Fin ex_rng) ex_th 1 (2 * Z.of_nat 5 + 1)
    = Ok (map Fin kd, map Fin dl, map Fin sd).
Proof.
  apply (C52_total_on_finite_rays ex_par 0 ex_dp ex_dz ex_rng [1; 2; 3; 2; 1] ex_th 1 5 2 (-9) 1); auto.
  - lia.
  - intros; eexists; reflexivity.
  - unfold ex_rng. apply FinFun.Injective_map_NoDup; [|apply seq_NoDup]. intros x y. apply INR_eq.
  - unfold ex_rng. intro I. apply in_map_iff in I as (j & E & _). pose proof (pos_INR j). lra.
Qed.
(** so C47 and C49 speak about this ray *)
Example C47_example : exists kd dl sd,
  calc_kdp_ray_fir ex_par 0 (map Fin ex_dp) (map Fin ex_dz) (map Fin ex_rng) ex_th 1 (2 * Z.of_nat 5 + 1) = Ok (kd, dl, sd) /\
  sd = map (fun i => Fin (sd_spec 5 (-9) ex_dp i)) (seq 0 20).
Proof.
  destruct ex_total as (kd & dl & sd & E). do 3 eexists. split; [exact E|].
  exact (C47_std_is_population_std ex_par _ _ _ _ _ _ _ (-9) _ _ _ eq_refl E).
Qed.
Example C49_example : exists kd dl sd,
  calc_kdp_ray_fir ex_par 0 (map Fin ex_dp) (map Fin ex_dz) (map Fin ex_rng) ex_th 1 (2 * Z.of_nat 5 + 1) = Ok (kd, dl, sd) /\
  nth_error dl 1 = Some (Fin (-9)) /\ nth_error dl 18 = Some (Fin (-9)).
Proof.
  destruct ex_total as (kd & dl & sd & E). do 3 eexists. split; [exact E|]. split.
  - apply (C49_edges_and_noisy_gates ex_par _ _ _ _ _ _ _ _ _ _ 1 E); [lia|simpl; lia|left; simpl; lia].
  - apply (C49_edges_and_noisy_gates ex_par _ _ _ _ _ _ _ _ _ _ 18 E); [lia|simpl; lia|right; left; simpl; lia].
Qed.

(** C52: order 336, a ray of 1009 equal phases and reflectivity 0, both builds *)
Example C52_example bd : calc_kdp_ray_fir (F := option Q) (mkpar bd 336 (Some 1%Q) [] (fun _ => None) (Some (-9)%Q)) 0%Z
  (repeat (Some 1%Q) 1009) (repeat (Some 0%Q) 1009) (repeat (Some 1%Q) 1009) (repeat (Some 12%Q) 1009) 0 11 = Fault.
Proof.
  assert (R : forall (x : option Q) i, (i < 1009)%nat -> at_ (repeat x 1009) i = x).
  { intros x i Hi. unfold at_. rewrite (nth_indep _ _ x) by now rewrite repeat_length. apply nth_repeat. }
  apply (C52_work_arrays_overflow _ _ _ _ _ _ 5); rewrite ?repeat_length; cbn [p_order p_build p_bad]; auto; try lia.
  - change (336 / 2)%nat with 168%nat. destruct bd; lia.
  - intros i Hi. rewrite R by auto. reflexivity.
  - intros i Hi. rewrite R by auto. split; reflexivity.
Qed.
