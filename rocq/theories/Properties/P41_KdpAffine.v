(** * C102: KDP under a change of the phase or range scale *)
From Coq Require Import Reals Lra Lia Qreals Arith ZArith.
From Verif Require Import Base.Num Base.ListFacts Base.XReal Base.XTac Base.XArith Base.QOps.
From Verif Require Import Model.Tables Model.Beta Model.Melt Model.Kdp Spec.KdpSpec.
From Verif Require Import Proofs.HidProofs Proofs.SummerProofs Proofs.KdpReal Proofs.KdpProofs Proofs.KdpFilter Proofs.KdpAffine.
From Verif Require Import Properties.P14_Kdp Properties.P15_KdpFilter Properties.P16_KdpDispatch Properties.P31_KdpApi.
Open Scope R_scope.

(** reflectivity before and after: missing at the same gates, the same elsewhere *)
Definition same_dz (b b' : R) (z z' : R) : Prop := (z = b /\ z' = b') \/ (z = z' /\ z <> b /\ z' <> b').
(** KDP before and after: missing in both, or multiplied by q *)
Definition kdp_times (q b b' : R) (k k' : option xr) : Prop :=
  (k = Some (Fin b) /\ k' = Some (Fin b')) \/ exists v, k = Some (Fin v) /\ k' = Some (Fin (q * v)).

Lemma dz_eq b b' (dz dz' : list R) n j : (forall i, (i < n)%nat -> same_dz b b' (nth i dz 0) (nth i dz' 0)) ->
  (n <= length dz)%nat -> (n <= length dz')%nat -> (j < n)%nat ->
  @feq xr _ (at_ (map Fin dz') j) (Fin b') = feq (at_ (map Fin dz) j) (Fin b) /\
  (feq (at_ (map Fin dz) j) (Fin b) = false -> at_ (map Fin dz') j = at_ (map Fin dz) j).
Proof.
  intros S L L' Hj. rewrite !at_fin, !feq_fin by lia. specialize (S j Hj). unfold Reqb.
  destruct S as [(-> & ->)|(E & N & N')].
  - destruct (Req_EM_T b' b'), (Req_EM_T b b); try contradiction. split; [auto|discriminate].
  - rewrite <- E in *. destruct (Req_EM_T (nth j dz 0) b'), (Req_EM_T (nth j dz 0) b); try contradiction; auto.
Qed.
Lemma nadp_same half b b' (dz dz' : list R) n nadp0 : (forall i, (i < n)%nat -> same_dz b b' (nth i dz 0) (nth i dz' 0)) ->
  (n <= length dz)%nat -> (n <= length dz')%nat -> forall i, (i <= n)%nat ->
  nadp_at half (Fin b') (map Fin dz') nadp0 i = nadp_at half (Fin b) (map Fin dz) nadp0 i.
Proof.
  intros S L L'. induction i as [|i IH]; intro Hi; auto. cbn [nadp_at]. cbv zeta. rewrite IH by lia.
  destruct (dz_eq b b' dz dz' n i S L L' ltac:(lia)) as (E & E'). rewrite E. revert E'. destruct (feq (at_ (map Fin dz) i) (Fin b)); auto. intro E'. now rewrite E'.
Qed.

(** the compiled routine (Cython build) on one ray *)
Lemma ray_affine (s c lam rho b : R) half cs gain m nadp0 (dp dz dz' rng th : list R) nf h kd dl sd :
  s <> 0 -> lam <> 0 -> length cs = (2 * half + 1)%nat -> c = 0 \/ gain * dc half cs m = 1 ->
  (length dp <= length dz')%nat ->
  (forall j, (j < length dp)%nat -> nth j rng 0 <> b /\ lam * nth j rng 0 + rho <> s * b + c) ->
  Rabs s = 1 \/ (forall j, (j < length dp)%nat -> nth j th 0 < 100 /\ Rabs s * nth j th 0 < 100) ->
  (forall j, (j < length dp)%nat -> same_dz b (s * b + c) (nth j dz 0) (nth j dz' 0)) ->
  calc_kdp_ray_fir (P half cs gain m b) nadp0 (map Fin dp) (map Fin dz) (map Fin rng) (map Fin th) nf (2 * Z.of_nat h + 1) = Ok (kd, dl, sd) ->
  exists kd' dlr sd',
    calc_kdp_ray_fir (P half cs gain m (s * b + c)) nadp0 (map Fin (map (fun v => s * v + c) dp)) (map Fin dz')
      (map Fin (map (fun r => lam * r + rho) rng)) (map Fin (map (fun t => Rabs s * t) th)) nf (2 * Z.of_nat h + 1)
      = Ok (kd', map (fun v => Fin (s * v + c)) dlr, sd') /\
    dl = map Fin dlr /\
    (forall i, (i < length dp)%nat -> exists u u', nth_error sd i = Some (Fin u) /\ nth_error sd' i = Some (Fin u') /\
       (u' = Rabs s * u \/ u = 100 /\ u' = 100)) /\
    (forall i, (i < length dp)%nat -> kdp_times (s / lam) b (s * b + c) (nth_error kd i) (nth_error kd' i)).
Proof.
  intros Hs Hl Lc HG Ldz' HR HT HZ E.
  pose proof (C47_std_is_population_std (P half cs gain m b) _ _ _ _ _ _ _ b _ _ _ eq_refl E) as Esd.
  pose proof (ray_ok _ _ _ _ _ _ _ _ _ _ _ E) as (Lz & Lr & Lt & Lk & Ld & Lsd & _ & (y & Ef) & Gk).
  cbn [P p_order p_build p_bad] in *. rewrite half_order in *. rewrite !map_length in *.
  set (n := length dp) in *. fold (f s c b).
  change (fun v => s * v + c) with (f s c). change (fun r => lam * r + rho) with (g lam rho).
  set (sd' := map (fun i => @Fin (sd_spec h (f s c b) (map (f s c) dp) i)) (seq 0 n)).
  set (th' := map Fin (map (fun t => Rabs s * t) th)).
  assert (Sd : forall j, (j < n)%nat -> @fle xr _ (at_ sd j) (at_ (map Fin th) j) = fle (at_ sd' j) (at_ th' j)).
  { intros j Hj. subst sd. unfold sd', th'. rewrite (at_fin th) by lia. rewrite at_fin by (rewrite map_length; lia).
    rewrite (map_at (fun t => Rabs s * t) th 0) by lia. unfold at_. rewrite !(map_at _ _ 0%nat) by (rewrite seq_length; auto). rewrite !seq_nth by auto. cbn [Nat.add].
    rewrite !fle_fin. pose proof (Rabs_pos_lt s Hs).
    destruct (sd_spec_f s c b Hs h dp j) as [(E1 & E2)|E2].
    - rewrite E1, E2. destruct HT as [-> | HT]; [now rewrite Rmult_1_l|]. destruct (HT j Hj).
      destruct (Rleb_spec 100 (nth j th 0)), (Rleb_spec 100 (Rabs s * nth j th 0)); auto; lra.
    - rewrite E2. destruct (Rleb_spec (sd_spec h b dp j) (nth j th 0)), (Rleb_spec (Rabs s * sd_spec h b dp j) (Rabs s * nth j th 0)); auto; exfalso; nra. }
  assert (Rl : rel s c n (map f32 (map Fin dp), map (fun _ => Fin b) (map Fin dp)) (map f32 (map Fin (map (f s c) dp)), map (fun _ => Fin (f s c b)) (map Fin (map (f s c) dp)))).
  { exists dp, (map (fun _ => b) dp). rewrite !map_length. split; auto. split; auto. unfold mf. rewrite !map_f32, !map_map. auto. }
  destruct (filter_sim s c lam rho b Hs Hl n half cs gain m Lc HG rng Lr HR sd sd' (map Fin th) th' Sd nf _ _ _ Rl Ef)
    as (out' & Ef' & (dlr & yr & Ldl & Lyr & Eo & Eo')).
  injection Eo as Edl Ey. subst out'.
  assert (Ks : forall i, (i < n)%nat -> exists k', kd_val Cython half (Fin (f s c b)) (map Fin (map (g lam rho) rng)) (mf s c dlr) (map Fin dz') nadp0 i = Ok k' /\
     krel s c lam b (at_ kd i) k').
  { intros i Hi. specialize (Gk i Hi). unfold kd_val in *. destruct (dz_eq b (f s c b) dz dz' n i HZ Lz Ldz' Hi) as (E1 & E2).
    rewrite E1. destruct (feq (at_ (map Fin dz) i) (Fin b)).
    - injection Gk as <-. eexists. split; [reflexivity|now left].
    - rewrite E2 by auto. rewrite (nadp_same half b (f s c b) dz dz' n nadp0 HZ Lz Ldz' i) by lia.
      rewrite Edl in Gk. apply (kd_sim s c lam rho b Hs Hl n half cs Lc rng Lr HR) in Gk; auto. }
  assert (Mk : exists ks, mapM (kd_val Cython half (Fin (f s c b)) (map Fin (map (g lam rho) rng)) (mf s c dlr) (map Fin dz') nadp0) (seq 0 n) = Ok ks /\
     length ks = n /\ forall i, (i < n)%nat -> krel s c lam b (at_ kd i) (at_ ks i)).
  { destruct (mapM_total (kd_val Cython half (Fin (f s c b)) (map Fin (map (g lam rho) rng)) (mf s c dlr) (map Fin dz') nadp0) (seq 0 n)) as (ks & Ek).
    { intros i Hi. apply in_seq in Hi. destruct (Ks i ltac:(lia)) as (k' & Ek & _). eauto. }
    exists ks. split; auto. apply mapM_ok in Ek as (Lks & Gks). rewrite seq_length in Lks. split; auto. intros i Hi.
    destruct (Gks i i) as (v & Hv & Ev); [now apply seq_nth_error|]. destruct (Ks i Hi) as (k' & Ek' & Kr). rewrite Ek' in Ev. injection Ev as ->.
    unfold at_ at 2. now rewrite (nth_error_nth _ _ _ Hv). }
  destruct Mk as (ks & Ek & Lks & Gks).
  exists ks, dlr, sd'. split; [|split; [exact Edl|split]].
  - unfold calc_kdp_ray_fir. cbv zeta. unfold th'. rewrite !map_length. fold n.
    destruct (Nat.ltb_spec (length dz') n); [lia|]. destruct (Nat.ltb_spec (length rng) n); [lia|]. destruct (Nat.ltb_spec (length th) n); [lia|]. cbn [orb].
    cbn [P p_order p_build p_bad]. rewrite half_odd, half_order.
    assert (Es : mapM (sd_gate Cython (Z.of_nat h) (Fin (f s c b)) (map Fin (map (f s c) dp))) (seq 0 n) = Ok sd').
    { unfold sd'. clear. generalize (seq 0 n). induction l as [|i l IH]; auto. cbn [mapM map]. rewrite sd_gate_spec. cbn [bind]. now rewrite IH. }
    rewrite Es. cbn [bind]. change (mkpar Cython (2 * half) (Fin gain) (map Fin cs) (fun k => Fin (m k)) (Fin (f s c b))) with (P half cs gain m (f s c b)).
    fold th'. rewrite Ef'. cbn [bind fst snd]. rewrite kd_loop, Ek. cbn [bind snd]. reflexivity.
  - intros i Hi. subst sd. unfold sd'. rewrite !map_nth_error', seq_nth_error by auto. cbn [option_map].
    do 2 eexists. split; [reflexivity|]. split; [reflexivity|]. destruct (sd_spec_f s c b Hs h dp i) as [|]; auto.
  - intros i Hi. specialize (Gks i Hi). unfold kdp_times.
    rewrite (nth_error_nth' kd fnan), (nth_error_nth' ks fnan) by lia. fold (at_ kd i) (at_ ks i).
    destruct Gks as [(-> & ->)|(v & -> & ->)]; [left; auto|right; eauto].
Qed.

(** calc_kdp_bringi, one ray.  Phases mapped by v -> s v + c (missing value and
    threshold with them), ranges by r -> lam r + rho: filtered phases follow,
    standard deviations are multiplied by |s|, KDP by s / lam.
    An offset c is allowed only if the weights that the Cython build applies sum
    to 1, i.e. if the memory behind the coefficients happens to repeat the first
    one; a change of scale is always allowed. *)
Theorem C102_calc_kdp_bringi toint firwin env (s c lam rho b : R) half cs m (dp dz dz' rng : list R) (x gs window : R) nf sg kd dl sd :
  s <> 0 -> lam <> 0 ->
  get_fir (F:=xr) toint firwin (Fin gs) (Fin window) = Ok ((2 * Z.of_nat half)%Z, Fin 1, map Fin cs) ->
  length cs = (2 * half + 1)%nat -> fst (env 0%nat) = (fun k => Fin (m k)) ->
  c = 0 \/ rsum (tl cs ++ [m (2 * half + 1)%nat]) = 1 ->
  (0 < sg)%Z \/ Z.even sg = true ->
  length dz' = length dz ->
  (forall j, (j < length dp)%nat -> nth j rng 0 <> b /\ lam * nth j rng 0 + rho <> s * b + c) ->
  Rabs s = 1 \/ (x < 100 /\ Rabs s * x < 100) ->
  (forall j, (j < length dp)%nat -> same_dz b (s * b + c) (nth j dz 0) (nth j dz' 0)) ->
  calc_kdp_bringi Cython toint firwin env (Some (N1 (map Fin dp))) (Some (N1 (map Fin dz))) (Some (N1 (map Fin rng)))
    (TNum (Fin x)) nf (Fin b) (Fin gs) (Fin window) sg = Ok (Ray kd dl sd) ->
  exists kd' dl' sd',
    calc_kdp_bringi Cython toint firwin env (Some (N1 (map (fun v => Fin (s * v + c)) dp))) (Some (N1 (map Fin dz')))
      (Some (N1 (map (fun r => Fin (lam * r + rho)) rng)))
      (TNum (Fin (Rabs s * x))) nf (Fin (s * b + c)) (Fin gs) (Fin window) sg = Ok (Ray kd' dl' sd') /\
    length kd' = length dp /\ length dl' = length dp /\
    forall i, (i < length dp)%nat ->
      (exists v, nth_error dl i = Some (Fin v) /\ nth_error dl' i = Some (Fin (s * v + c))) /\
      (exists u u', nth_error sd i = Some (Fin u) /\ nth_error sd' i = Some (Fin u') /\ (u' = Rabs s * u \/ u = 100 /\ u' = 100)) /\
      kdp_times (s / lam) b (s * b + c) (nth_error kd i) (nth_error kd' i).
Proof.
  intros Hs Hl EF Lc Em HG Hsg Ldz HR HT HZ E. revert E. unfold calc_kdp_bringi. cbn [ndim Nat.eqb andb negb]. cbv zeta. rewrite EF.
  destruct (Z.ltb_spec (2 * Z.of_nat half) 0); [lia|]. cbn [bind]. rewrite odd_gate_eq, !map_f32, (odd_half sg Hsg). intro E.
  apply bind_ok in E as (((kd0 & dl0) & sd0) & Er & E). injection E as <- <- <-. cbn [fst snd].
  replace (Z.to_nat (2 * Z.of_nat half)) with (2 * half)%nat in * by lia. rewrite Em, f32_xr in *.
  change (mkpar Cython (2 * half) (Fin 1) (map Fin cs) (fun k => Fin (m k)) (Fin b)) with (P half cs 1 m b) in Er.
  assert (Et : map (fun _ : xr => f32 (Fin x)) (map Fin dp) = map Fin (map (fun _ => x) dp)) by (rewrite !map_map; reflexivity).
  rewrite Et in Er.
  pose proof (ray_ok _ _ _ _ _ _ _ _ _ _ _ Er) as (Lz & _ & _ & Lk & Ld & _ & _ & _). rewrite !map_length in *.
  apply (ray_affine s c lam rho b half cs 1 m (snd (env 0%nat)) dp dz dz' rng) in Er; auto; try lia.
  - destruct Er as (kd' & dlr & sd' & Er & Edl & Gs & Gk).
    assert (Et' : map (fun _ : xr => f32 (Fin (Rabs s * x))) (map (fun v => Fin (s * v + c)) dp) = map Fin (map (fun t => Rabs s * t) (map (fun _ => x) dp)))
      by (rewrite !map_map; reflexivity).
    rewrite f32_xr in *. cbn beta in *. rewrite Et'.
    rewrite !(map_map _ Fin) in Er. rewrite !(map_map _ Fin).
    change (mkpar Cython (2 * half) (Fin 1) (map Fin cs) (fun k => Fin (m k)) (Fin (s * b + c))) with (P half cs 1 m (s * b + c)).
    rewrite Er. cbn [bind fst snd].
    assert (Ldl : length dlr = length dp) by (subst dl0; rewrite map_length in Ld; lia).
    exists kd', (map (fun v => Fin (s * v + c)) dlr), sd'. split; auto.
    split. { apply ray_ok in Er as (_ & _ & _ & L & _). now rewrite map_length in L. }
    split; [now rewrite map_length|]. intros i Hi. split; [|split; auto].
    exists (nth i dlr 0). subst dl0. rewrite !map_nth_error'. rewrite (nth_error_nth' dlr 0) by lia. auto.
  - destruct HG as [|HG]; auto. right. unfold dc, weights. rewrite HG. ring.
  - destruct HT as [|(T1 & T2)]; auto. right. intros j Hj. rewrite (map_at (fun _ => x) dp 0) by auto. auto.
Qed.

(** ** Non-vacuity: 20 gates, one of them missing; phase halved and shifted by
    7 degrees, ranges in m instead of km and counted from another origin *)
Definition w5 : list R := [1/9; 2/9; 3/9; 2/9; 1/9].
Example C102_hypotheses nf : exists kd dl sd kd' dl' sd',
  let call dp dz rng x b := calc_kdp_bringi Cython (fun _ => 4%Z) (fun _ _ _ => Ok (map Fin w5)) (fun _ => ((fun _ => Fin (1/9)), 0%Z))
    (Some (N1 dp)) (Some (N1 dz)) (Some (N1 rng)) (TNum (Fin x)) nf (Fin b) (Fin 750) (Fin 3) 11 in
  call (map Fin ex_dp) (map Fin ex_dz) (map Fin ex_rng) 12 (-9) = Ok (Ray kd dl sd) /\
  call (map (fun v => Fin (1 / 2 * v + 7)) ex_dp) (map Fin ex_dz) (map (fun r => Fin (1000 * r + 5)) ex_rng) (Rabs (1 / 2) * 12) (1 / 2 * -9 + 7)
    = Ok (Ray kd' dl' sd') /\
  forall i, (i < 20)%nat -> kdp_times (1 / 2 / 1000) (-9) (1 / 2 * -9 + 7) (nth_error kd i) (nth_error kd' i).
Proof.
  cbv zeta.
  assert (EF : get_fir (F:=xr) (fun _ => 4%Z) (fun _ _ _ => Ok (map Fin w5)) (Fin 750) (Fin 3) = Ok ((2 * Z.of_nat 2)%Z, Fin 1, map Fin w5)).
  { unfold get_fir. cbv zeta. change (4 mod 2 =? 0)%Z with true. cbn [negb bind]. rewrite (lit_fin 1.0). cbn [Qnum Qden].
    replace (10 / 10) with 1 by lra. reflexivity. }
  destruct (C52_total_on_finite_rays (P 2 w5 1 (fun _ => 1/9) (-9)) 0 ex_dp ex_dz ex_rng w5 ex_th nf 5 2 (-9) 1) as (kd & dl & sd & E); auto.
  - lia.
  - intros; eexists; reflexivity.
  - unfold ex_rng. apply FinFun.Injective_map_NoDup; [|apply seq_NoDup]. intros x y. apply INR_eq.
  - unfold ex_rng. intro I. apply in_map_iff in I as (j & Ej & _). pose proof (pos_INR j). lra.
  - assert (Ec : calc_kdp_bringi Cython (fun _ => 4%Z) (fun _ _ _ => Ok (map Fin w5)) (fun _ => ((fun _ => Fin (1/9)), 0%Z))
      (Some (N1 (map Fin ex_dp))) (Some (N1 (map Fin ex_dz))) (Some (N1 (map Fin ex_rng))) (TNum (Fin 12)) nf (Fin (-9)) (Fin 750) (Fin 3) 11
      = Ok (Ray (map Fin kd) (map Fin dl) (map Fin sd))).
    { rewrite (C54_one_ray (fo := xr_ops) _ _ _ _ _ _ _ _ _ _ _ _ _ _ _ _ EF) by (auto; lia).
      rewrite !map_f32. cbn [fst snd]. change (Z.to_nat (2 * Z.of_nat 2)) with 4%nat. change 11%Z with (2 * Z.of_nat 5 + 1)%Z. 
      assert (Et : map (fun _ : xr => @f32 xr _ (Fin 12)) (map Fin ex_dp) = ex_th).
      { unfold ex_th, ex_dp. rewrite !map_map. reflexivity. }
      rewrite Et. unfold P in E. change (2 * 2)%nat with 4%nat in E. rewrite f32_xr, E. reflexivity. }
    assert (Ld : length ex_dp = 20%nat) by reflexivity.
    pose proof (C102_calc_kdp_bringi (fun _ => 4%Z) (fun _ _ _ => Ok (map Fin w5)) (fun _ => ((fun _ => Fin (1/9)), 0%Z))
      (1/2) 7 1000 5 (-9) 2 w5 (fun _ => 1/9) ex_dp ex_dz ex_dz ex_rng 12 750 3 nf 11%Z (map Fin kd) (map Fin dl) (map Fin sd) ltac:(lra) ltac:(lra) EF) as H.
    assert (H3 : 7 = 0 \/ rsum (tl w5 ++ [1 / 9]) = 1) by (right; cbn; lra).
    assert (H5 : forall j, (j < length ex_dp)%nat -> nth j ex_rng 0 <> -9 /\ 1000 * nth j ex_rng 0 + 5 <> 1 / 2 * -9 + 7).
    { rewrite Ld. intros j Hj. unfold ex_rng. rewrite (map_at INR (seq 0 20) 0%nat) by (rewrite seq_length; auto).
      rewrite seq_nth by auto. pose proof (pos_INR (0 + j)). lra. }
    assert (H6 : Rabs (1 / 2) = 1 \/ 12 < 100 /\ Rabs (1 / 2) * 12 < 100) by (right; rewrite Rabs_right by lra; lra).
    assert (H7 : forall j, (j < length ex_dp)%nat -> same_dz (-9) (1 / 2 * -9 + 7) (nth j ex_dz 0) (nth j ex_dz 0)).
    { rewrite Ld. intros j Hj. right. split; auto. unfold ex_dz.
      rewrite (map_at (fun j => if (j <? 10)%nat then 40 else 20) (seq 0 20) 0%nat) by (rewrite seq_length; auto).
      destruct (_ <? 10)%nat; lra. }
    specialize (H eq_refl eq_refl H3 (or_introl eq_refl) eq_refl H5 H6 H7 Ec).
    destruct H as (kd' & dl' & sd' & E' & _ & _ & G).
    do 6 eexists. split; [exact Ec|]. split; [exact E'|]. intros i Hi. apply G. now rewrite Ld.
Qed.

(** The offset condition cannot be dropped.  Nine gates of phase 0, filter
    coefficients of unit sum, zero in memory behind them, two passes: KDP is 0
    everywhere it exists; 27 degrees more on every gate make it -4/3
    at gate 3 in the Cython build, and leave it 0 in the Fortran build.
    ([q_ops] with the square root of 0, the only one needed.) *)
Definition q0_ops : FloatOps (option Q) := {|
  fadd := fadd; fsub := fsub; fmul := fmul; fdiv := fdiv; fpow := fpow; fabs := fabs;
  fsqrt := fun x => match x with Some q => if Qeq_bool q 0 then Some 0%Q else None | None => None end;
  flog10 := flog10; flog := flog; fsin := fsin; fcos := fcos; fasin := fasin; fpi := fpi; fnan := fnan;
  flt := flt; fle := fle; feq := feq; flit := flit; ftrunc := ftrunc; f32 := f32; fnp := fnp |}.
Definition off_ray bd (v : Q) :=
  @calc_kdp_ray_fir _ q0_ops (mkpar bd 4 (Some 1%Q) [Some (Qmake 1 9); Some (Qmake 2 9); Some (Qmake 3 9); Some (Qmake 2 9); Some (Qmake 1 9)]
     (fun _ => Some 0%Q) (Some (-9)%Q)) 0 (repeat (Some v) 9) (repeat (Some 50%Q) 9) (map q_of (seq 0 9)) (repeat (Some 12%Q) 9) 2 1.

Definition kdp_of (r : res (list (option Q) * list (option Q) * list (option Q))) : list (option Q) :=
  match r with Ok (kd, _, _) => kd | _ => [] end.
Theorem C102_offset_matters :
  nth_error (kdp_of (off_ray Cython 0)) 3 = Some (Some 0%Q) /\ nth_error (kdp_of (off_ray Cython 27)) 3 = Some (Some (Qmake (-4) 3)) /\
  nth_error (kdp_of (off_ray Fortran 0)) 3 = Some (Some 0%Q) /\ nth_error (kdp_of (off_ray Fortran 27)) 3 = Some (Some 0%Q).
Proof. vm_compute. auto. Qed.
