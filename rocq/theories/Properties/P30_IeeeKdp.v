(** * The compiled KDP routine in IEEE-754 arithmetic (C91)

    What of the exact-arithmetic theorems (C47, C48, C49) survives rounding, and
    what does not. *)
From Coq Require Import Reals Lra Lia ZArith QArith Floats.SpecFloat.
From Flocq Require Import Core IEEE754.BinarySingleNaN.
From Verif Require Import Base.Num Base.ListFacts Base.XReal Base.XTac Base.XArith Base.Ieee.
From Verif Require Import Model.Tables Model.Beta Model.Melt Model.Kdp.
From Verif Require Import Spec.IeeeSpec.
From Verif Require Import Spec.KdpSpec Proofs.KdpReal.
From Verif Require Import Proofs.IeeeSign Proofs.HidProofs Proofs.SummerProofs Proofs.KdpProofs.
From Verif Require Import Properties.P14_Kdp.
Open Scope R_scope.

Section Sd.
Variables (prec emax p32 e32 : Z).
Context (Hp : Prec_gt_0 prec) (He : Prec_lt_emax prec emax).
Context (Hp3 : Prec_gt_0 p32) (He3 : Prec_lt_emax p32 e32).
Notation bf := (binary_float prec emax).
Variables (np1 : bool) (lm : libm bf).
#[local] Instance fk : FloatOps bf := ieee_ops prec emax p32 e32 Hp He Hp3 He3 np1 lm.
Notation v := (val prec emax).

Lemma rndx_notneg p e (Hpp : Prec_gt_0 p) (Hee : Prec_lt_emax p e) a : xlt a (Fin 0) = false -> xlt (rndx p e a) (Fin 0) = false.
Proof.
  intro H. destruct a as [r| | |]; auto. cbn [rndx]. cbn in H. apply Rltb_false in H.
  pose proof (rnd_mono p e Hpp 0 r H) as M. rewrite rnd_0 in M by auto.
  destruct (rnd p e r); auto; try discriminate. cbn in *. apply Rleb_true in M. now apply Rltb_false.
Qed.

(** The phase standard deviation is never negative: whatever the phases (NaN,
    infinities, the missing value), either build, any C library. *)
Theorem C91_std_never_negative (p : par bf) nadp0 dp dz rng thsd nf sg kd dl sd :
  calc_kdp_ray_fir p nadp0 dp dz rng thsd nf sg = Ok (kd, dl, sd) ->
  forall i s, nth_error sd i = Some s -> flt s (flit 0) = false.
Proof.
  intros E i s Hs. apply ray_ok in E. cbv zeta in E. destruct E as (_ & _ & _ & _ & _ & Ls & G & _).
  pose proof (nth_error_lt _ _ Hs) as Hi. rewrite Ls in Hi. specialize (G i Hi).
  unfold at_ in G. rewrite (nth_error_nth _ _ _ Hs) in G.
  assert (H100 : flt (@flit bf _ 100) (flit 0) = false).
  { change (Bltb (b_lit prec emax Hp He 100) (b_lit prec emax Hp He 0) = false). rewrite val_lt.
    apply s_notneg. apply s_lit. discriminate. }
  assert (Q : forall x, flt (f32 (@fsqrt bf _ x)) (flit 0) = false).
  { intro x. change (Bltb (b_f32 prec emax p32 e32 Hp He Hp3 He3 (Bsqrt mode_NE x)) (b_lit prec emax Hp He 0) = false).
    rewrite val_lt. unfold b_f32. rewrite !val_conv by auto. change (v (b_lit prec emax Hp He 0)) with (Fin 0).
    apply rndx_notneg; auto. apply rndx_notneg; auto. now apply sqrt_notneg. }
  unfold sd_gate in G. cbv zeta in G.
  destruct (_ && _)%bool; [|now replace s with (@flit bf _ 100) by congruence].
  destruct (_ <? _)%Z; [|now replace s with (@flit bf _ 100) by congruence].
  destruct (p_build p); [destruct (d_n _); [discriminate|]|];
    match type of G with Ok ?z = Ok s => replace s with z by congruence end; apply Q.
Qed.
End Sd.

(** ** The line fit loses the phase slope far from the radar

    A ray of 11 gates of 62.5 m (1/16 km), the first one at r0/16 km, whose phase
    is exactly 20 deg + 1 deg/km along the ray, reflectivity 50 dBZ, no filtering
    pass.  Every number is a single-precision number. *)
Section Far.
Context {F : Type} {ops : FloatOps F}.
Definition far_rng (r0 : Z) : list F := map (fun j => flit (Qmake (r0 + j) 16)) (zrange 0 11).
Definition far_dp : list F := map (fun j => flit (Qmake (320 + j) 16)) (zrange 0 11).
Definition far_dz : list F := map (fun _ => flit 50) (zrange 0 11).
Definition far_call (co : list F) (mem : nat -> F) (gain : F) (nadp0 : Z) (thsd : list F) (r0 : Z) :=
  calc_kdp_ray_fir (mkpar Cython 20 gain co mem (flit (-32768))) nadp0 far_dp far_dz (far_rng r0) thsd 0 11.

(** what the call does, once the comparisons it makes are known *)
Definition sane_far : Prop :=
  feq (@flit F _ 50) (flit (-32768)) = false /\ fle (@flit F _ 45) (flit 50) = true /\
  flt (@flit F _ 50) (flit 45) = false /\ flt (@flit F _ 50) (flit 35) = false /\
  (forall j, (j < 11)%nat -> feq (at_ (map f32 far_dp) j) (@flit F _ (-32768)) = false).
Definition far_pts (r0 : Z) : list (F * F) :=
  map (fun j => (at_ (far_rng r0) (Z.to_nat j), at_ (map f32 far_dp) (Z.to_nat j))) (zrange 0 10).

Lemma far_dz_at i : (i < 11)%nat -> at_ far_dz i = flit 50.
Proof. intro. do 11 (destruct i as [|i]; [reflexivity|]). lia. Qed.
Lemma far_gate r0 nadp0 i : sane_far -> (i < 11)%nat ->
  kd_val Cython 10 (flit (-32768)) (far_rng r0) (map f32 far_dp) far_dz nadp0 i
  = if (i =? 5)%nat then (ab <- LSE Cython (flit (-32768)) (far_pts r0) ;; Ok (f32 (fmul (flit 0.5) (fst ab))))
    else Ok (flit (-32768)).
Proof.
  intros S Hi. unfold kd_val. pose proof S as (H1 & H2 & H3 & H4 & H5).
  rewrite far_dz_at, H1 by auto. unfold new_nadp. rewrite H2, H3, H4, andb_false_r.
  rewrite kd_gate_eq. cbv zeta.
  assert (L : length (map f32 far_dp) = 11%nat) by reflexivity.
  unfold kd_valid. rewrite L. destruct (Nat.eqb_spec i 5) as [->|N].
  - change (kd_js Cython 11 (Z.of_nat 10) 5) with (zrange 0 10).
    assert (E : filter (fun j => negb (feq (at_ (map f32 far_dp) (Z.to_nat j)) (flit (-32768)))) (zrange 0 10) = zrange 0 10).
    { assert (G : forall (f : Z -> bool) l, (forall x, In x l -> f x = true) -> filter f l = l).
      { intros f l. induction l as [|a l IH]; cbn; auto. intro G. rewrite G by auto. f_equal. apply IH. auto. }
      apply G. intros x Hx. apply negb_true_iff, H5. cbn in Hx. repeat (destruct Hx as [<-|Hx]; [cbn; lia|]). contradiction. }
    rewrite E. reflexivity.
  - assert (E : kd_js Cython 11 (Z.of_nat 10) i = []).
    { unfold kd_js. change (half_of Cython (Z.of_nat 10)) with 5%Z.
      destruct (Z.leb_spec 0 (Z.of_nat i - 5)), (Z.leb_spec (Z.of_nat i + 5) (Z.of_nat 11 - 1)); cbn [andb]; auto. lia. }
    rewrite E. reflexivity.
Qed.

Lemma far_ray co mem gain nadp0 thsd r0 : sane_far -> (11 <= length thsd)%nat ->
  match LSE Cython (flit (-32768)) (far_pts r0) with
  | Ok ab => exists kd sd, far_call co mem gain nadp0 thsd r0 = Ok (kd, map f32 far_dp, sd) /\
                           nth_error kd 5 = Some (f32 (fmul (flit 0.5) (fst ab)))
  | Raise e => far_call co mem gain nadp0 thsd r0 = Raise e
  | _ => True
  end.
Proof.
  intros S Lt. unfold far_call, calc_kdp_ray_fir. cbn [p_bad p_build p_order].
  change (length far_dp) with 11%nat. change (length far_dz) with 11%nat. change (length (far_rng r0)) with 11%nat.
  cbv zeta. destruct (Nat.ltb_spec 11 11); [lia|]. destruct (Nat.ltb_spec (length thsd) 11); [lia|]. cbn [orb].
  destruct (mapM_total (sd_gate Cython (half_of Cython (11 - 1)) (flit (-32768)) far_dp) (seq 0 11)) as (sd & Esd).
  { intros i Hi. unfold sd_gate. cbv zeta. change (half_of Cython (11 - 1)) with 5%Z.
    destruct (_ && _)%bool; [|eauto]. destruct (Z.ltb_spec 5 (Z.of_nat (d_n (sd_loop Cython (flit (-32768)) (window far_dp (Z.of_nat i) 5))))); [|eauto].
    destruct (d_n _); [lia|]. eauto. }
  rewrite Esd. cbn [bind]. change (fir_filter _ 0 (far_rng r0) thsd sd) with (fun st : list F * list F => @Ok (list F * list F) st).
  cbn [bind fst]. change (20 / 2)%nat with 10%nat. rewrite kd_loop.
  pose proof (far_gate r0 nadp0) as G.
  assert (M : forall l, (forall x, In x l -> (x < 11)%nat) ->
    mapM (kd_val Cython 10 (flit (-32768)) (far_rng r0) (map f32 far_dp) far_dz nadp0) l
    = mapM (fun i => if (i =? 5)%nat then (ab <- LSE Cython (flit (-32768)) (far_pts r0) ;; Ok (f32 (fmul (flit 0.5) (fst ab))))
                     else Ok (flit (-32768))) l).
  { intros l Hl. apply mapM_ext. intros x Hx. apply G; auto. }
  rewrite M by (intros x Hx; apply in_seq in Hx; lia).
  destruct (LSE Cython (flit (-32768)) (far_pts r0)) as [ab| |e| |]; auto.
  - cbn. do 2 eexists. split; reflexivity.
Qed.
End Far.

(** pow x 2 is the product for the numbers of single precision (whose squares
    are numbers of double precision) *)
Definition pow_square (lm : libm double) : Prop :=
  forall x, b_f32 53 1024 24 128 p53 e1024 p24 e128 x = x ->
    lm_pow lm x (b_lit 53 1024 p53 e1024 2) = @Bmult 53 1024 p53 e1024 mode_NE x x.

Section FarDouble.
Variables (np1 : bool) (lm : libm double).
Hypothesis HS : pow_square lm.
#[local] Instance dk : FloatOps double := double_ops np1 lm.

Definition det_of (pts : list (double * double)) : double :=
  let s := lse_sums Cython (flit (-32768)) pts in
  f32 (fsub (f32 (fmul (s_n s) (s_xx s))) (f32 (fmul (s_x s) (s_x s)))).
Definition slope_of (pts : list (double * double)) : double :=
  let s := lse_sums Cython (flit (-32768)) pts in
  f32 (fdiv (f32 (fsub (f32 (fmul (s_n s) (s_xy s))) (f32 (fmul (s_x s) (s_y s))))) (det_of pts)).

Lemma lse_form pts :
  f32 (s_x (lse_sums Cython (flit (-32768)) pts)) = s_x (lse_sums Cython (flit (-32768)) pts) ->
  exists b, LSE Cython (flit (-32768)) pts
    = if feq (det_of pts) (flit 0) then Raise ZeroDivisionError else Ok (slope_of pts, b).
Proof.
  intros Hx. unfold LSE, slope_of, det_of. cbv zeta.
  set (s := lse_sums Cython (flit (-32768)) pts) in *. clearbody s.
  assert (E : fpow (s_x s) (flit 2) = fmul (s_x s) (s_x s)) by exact (HS (s_x s) Hx).
  rewrite E. eexists. reflexivity.
Qed.

Lemma dk_sane : sane_far.
Proof.
  do 4 (split; [vm_compute; reflexivity|]).
  intros j Hj. do 11 (destruct j as [|j]; [vm_compute; reflexivity|]). lia.
Qed.
Lemma sx_single r0 : B2SF (f32 (s_x (lse_sums Cython (flit (-32768)) (far_pts r0)))) = B2SF (s_x (lse_sums Cython (flit (-32768)) (far_pts r0))) ->
  exists b, LSE Cython (flit (-32768)) (far_pts r0)
    = if feq (det_of (far_pts r0)) (flit 0) then Raise ZeroDivisionError else Ok (slope_of (far_pts r0), b).
Proof. intro Hx. apply lse_form, B2SF_inj, Hx. Qed.

(** at 205.8 km the KDP of 0.5 deg/km comes out as 0.65 deg/km, at 341.2 km
    as 1.59 deg/km, and at 418.7 km the call raises ZeroDivisionError *)
Lemma far_slope_case r0 lo : 
  B2SF (f32 (s_x (lse_sums Cython (flit (-32768)) (far_pts r0)))) = B2SF (s_x (lse_sums Cython (flit (-32768)) (far_pts r0))) ->
  feq (det_of (far_pts r0)) (flit 0) = false ->
  flt (flit lo) (f32 (fmul (flit 0.5) (slope_of (far_pts r0)))) = true ->
  forall co mem gain nadp0 thsd, (11 <= length thsd)%nat ->
  exists kd sd k, far_call co mem gain nadp0 thsd r0 = Ok (kd, map f32 far_dp, sd) /\ nth_error kd 5 = Some k /\ flt (flit lo) k = true.
Proof.
  intros E D L co mem gain nadp0 thsd Lt. apply sx_single in E as (b & E). rewrite D in E.
  pose proof (far_ray co mem gain nadp0 thsd r0 dk_sane Lt) as R. rewrite E in R. cbn [fst] in R.
  destruct R as (kd & sd & R1 & R2). exists kd, sd. eexists. split; [exact R1|]. split; [exact R2|exact L].
Qed.
Theorem C91_line_fit_accuracy_refuted co mem gain nadp0 thsd : (11 <= length thsd)%nat ->
  (exists kd sd k, far_call co mem gain nadp0 thsd 3293 = Ok (kd, map f32 far_dp, sd) /\ nth_error kd 5 = Some k /\ flt (flit 0.649) k = true) /\
  (exists kd sd k, far_call co mem gain nadp0 thsd 5459 = Ok (kd, map f32 far_dp, sd) /\ nth_error kd 5 = Some k /\ flt (flit 1.59) k = true).
Proof.
  intro Lt. split; (apply far_slope_case; [vm_compute; reflexivity..|exact Lt]).
Qed.
Theorem C91_distinct_ranges_can_raise co mem gain nadp0 thsd : (11 <= length thsd)%nat ->
  far_call co mem gain nadp0 thsd 6699 = Raise ZeroDivisionError.
Proof.
  intro Lt. destruct (sx_single 6699) as (b & E); [vm_compute; reflexivity|].
  assert (D : feq (det_of (far_pts 6699)) (flit 0) = true) by (vm_compute; reflexivity).
  rewrite D in E. pose proof (far_ray co mem gain nadp0 thsd 6699 dk_sane Lt) as R. rewrite E in R. exact R.
Qed.
End FarDouble.
(** such a C library exists *)
Example C91_libm_exists : pow_square
  (mklibm (fun x _ => @Bmult 53 1024 p53 e1024 mode_NE x x) (fun x => x) (fun x => x) (fun x => x) (fun x => x) (fun x => x) (B754_zero false)).
Proof. intros x _. reflexivity. Qed.

(** the same calls in exact arithmetic: 0.5 deg/km, wherever the ray starts *)
Theorem C91_exact_line_fit co mem gain nadp0 (thsd : list xr) r0 : (0 <= r0)%Z -> (11 <= length thsd)%nat ->
  exists kd dl sd, far_call co mem gain nadp0 thsd r0 = Ok (kd, dl, sd) /\ nth_error kd 5 = Some (Fin (1/2)).
Proof.
  intros H0 Lt. assert (S : @sane_far xr _).
  { unfold sane_far. repeat apply conj; rewrite ?lit_fin.
    1: cbn; apply Reqb_false; cbn; lra.
    1: cbn; apply Rleb_true; cbn; lra.
    1: cbn; apply Rltb_false; cbn; lra.
    1: cbn; apply Rltb_false; cbn; lra.
    intros j Hj. do 11 (destruct j as [|j]; [cbn; apply Reqb_false; cbn; lra|]). lia. }
  pose (X := map (fun j => IZR (r0 + j) / 16) (zrange 0 10)).
  pose (Y := map (fun j => IZR (320 + j) / 16) (zrange 0 10)).
  assert (P : @far_pts xr _ r0 = map pt (combine X Y)).
  { cbn. reflexivity. }
  assert (HX : forall j, In j (zrange 0 10) -> (0 <= j < 10)%Z).
  { intros j Hj. cbn in Hj. repeat (destruct Hj as [<-|Hj]; [lia|]). contradiction. }
  assert (K : combine X Y = map (fun j => (IZR (r0 + j) / 16, IZR (320 + j) / 16)) (zrange 0 10)) by reflexivity.
  assert (U : filter (usable (IZR (Qnum (-32768)) / IZR (Zpos (Qden (-32768))))) (combine X Y) = combine X Y).
  { assert (G : forall (f : R * R -> bool) l, (forall x, In x l -> f x = true) -> filter f l = l).
    { intros f l. induction l as [|a l IH]; cbn; auto. intro G. rewrite G by auto. f_equal. apply IH. auto. }
    apply G. rewrite K. intros x Hx. apply in_map_iff in Hx as (j & <- & Hj). apply HX in Hj.
    unfold usable. cbn [fst snd Qnum Qden]. rewrite !plus_IZR.
    assert (0 <= IZR r0) by (apply IZR_le; lia). assert (0 <= IZR j) by (apply IZR_le; lia).
    unfold differs. repeat (destruct (Req_EM_T _ _); [lra|]). reflexivity. }
  pose proof (far_ray co mem gain nadp0 thsd r0 S Lt) as R. rewrite P in R.
  rewrite lit_fin in R.
  rewrite (C48_lse_exact_line _ _ 1 (20 - IZR r0 / 16)) in R.
  - cbn [fst] in R. destruct R as (kd & sd & R1 & R2). do 3 eexists. split; [exact R1|]. rewrite R2, lit_fin. cbn. f_equal. f_equal. lra.
  - rewrite U, K. intro Q.
    assert (M : forall j, In j (zrange 0 10) -> In (IZR (r0 + j) / 16, IZR (320 + j) / 16)
      (map (fun j => (IZR (r0 + j) / 16, IZR (320 + j) / 16)) (zrange 0 10))).
    { intros j Hj. apply in_map_iff. eauto. }
    specialize (Q _ _ (M 0%Z (or_introl eq_refl)) (M 1%Z (or_intror (or_introl eq_refl)))).
    cbn [fst] in Q. rewrite !plus_IZR in Q. lra.
  - rewrite U, K. intros q Hq. apply in_map_iff in Hq as (j & <- & Hj). cbn [fst snd]. rewrite !plus_IZR. lra.
Qed.
