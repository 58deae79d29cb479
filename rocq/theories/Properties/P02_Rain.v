(** * Properties C07-C19: rain rate (common, csu_blended_rain, tropical) *)
From Coq Require Import Reals Lra.
From Verif Require Import Base.Num Base.ListFacts Base.XReal Base.XTac Base.XArith Base.QOps.
From Verif Require Import Model.Common Model.BlendedRain Model.Tropical Spec.RainSpec.
From Verif Require Model.LiquidIce.
From Verif Require Import Proofs.RainProofs Proofs.RainReal.
Open Scope nat_scope.

(** ** C07 *)
(** Every gate: the plain Z-R rate at or below the cap, the cap's rate above. *)
Theorem C07_nexrad_gate_by_gate {F} `{FloatOps F} :
  forall (a : arr F) (thresh za zb : F),
  exists out, calc_rain_nexrad (AArr a) thresh za zb = Ok (ashape a, out) /\
    length out = length (adata a) /\
    forall i d, nth_error (adata a) i = Some d ->
      nth_error out i = Some
        (if flt thresh d then fpow (fdiv (fpow (flit 10) (fdiv thresh (flit 10))) za) (fdiv (flit 1) zb)
         else fpow (fdiv (fpow (flit 10) (fdiv d (flit 10))) za) (fdiv (flit 1) zb)).
Proof.
  intros. eexists; split; [reflexivity|]. split; [apply nexrad_length|].
  intros i d E. rewrite (nexrad_nth _ _ _ _ _ _ E). reflexivity.
Qed.

(** Over the reals: value at min(dz, thresh); hence positive, capped, monotone. *)
Theorem C07_nexrad_real_value :
  forall (a : arr xr) (thresh za zb : R) out,
  (0 < za)%R -> (0 < zb)%R ->
  calc_rain_nexrad (AArr a) (Fin thresh) (Fin za) (Fin zb) = Ok (ashape a, out) ->
  forall i d, nth_error (adata a) i = Some (Fin d) ->
    nth_error out i = Some (Fin (Rpower (Rpower 10 (Rmin d thresh / 10) / za) (1 / zb))).
Proof.
  intros a t za zb out Ha Hb E i d Hd. injection E as <-.
  rewrite (nexrad_nth _ _ _ _ _ _ Hd). f_equal. now apply R_Z_capped_fin.
Qed.

Theorem C07_nexrad_positive_capped_monotone :
  forall (a : arr xr) (thresh za zb : R) out,
  (0 < za)%R -> (0 < zb)%R ->
  calc_rain_nexrad (AArr a) (Fin thresh) (Fin za) (Fin zb) = Ok (ashape a, out) ->
  forall i j d e, nth_error (adata a) i = Some (Fin d) -> nth_error (adata a) j = Some (Fin e) ->
  exists x y, nth_error out i = Some (Fin x) /\ nth_error out j = Some (Fin y) /\
    (0 < x)%R /\ (x <= Rpower (Rpower 10 (thresh / 10) / za) (1 / zb))%R /\
    ((d <= e)%R -> (x <= y)%R) /\ ((d < e <= thresh)%R -> (x < y)%R).
Proof.
  intros a t za zb out Ha Hb E i j d e Hd He.
  pose proof (C07_nexrad_real_value _ _ _ _ _ Ha Hb E _ _ Hd) as Hx.
  pose proof (C07_nexrad_real_value _ _ _ _ _ Ha Hb E _ _ He) as Hy.
  eexists; eexists; split; [exact Hx|split; [exact Hy|]].
  split; [apply Rpower_pos|]. split; [apply R_Z_mono; auto using Rmin_r|]. split.
  - intro H. apply R_Z_mono; auto. now apply Rle_min_compat_r.
  - intro H. apply R_Z_mono_strict; auto. rewrite !Rmin_left by lra. lra.
Qed.

(** A plain number makes calc_rain_nexrad raise TypeError. *)
Theorem C07_nexrad_scalar_raises {F} `{FloatOps F} :
  forall dt (x thresh za zb : F), calc_rain_nexrad (AScalar dt x) thresh za zb = Raise TypeError.
Proof. reflexivity. Qed.

(** ** Rates by method, as documented *)
Section Rates.
Context {F : Type} `{FloatOps F}.
(** method 1: R(Kdp, Zdr), 2: R(Kdp), 3: R(Z, Zdr), 4: R(Z) capped,
    5: R(Zrain) capped, with Zrain from the rain line (fa, fb). *)
Definition rate_of_method (o : rain_opts F) (cap fa fb : F) (m : Z) (d r k : F) : F :=
  match m with
  | 1%Z => R_Kdp_Zdr (r_kdp_zdr_a o) (r_kdp_zdr_b o) (r_kdp_zdr_c o) k r
  | 2%Z => R_Kdp (r_kdp_a o) (r_kdp_b o) k
  | 3%Z => R_Z_Zdr (r_z_zdr_a o) (r_z_zdr_b o) (r_z_zdr_c o) d r
  | 4%Z => R_Z_capped cap (r_z_a o) (r_z_b o) d
  | _ => R_Z_capped cap (r_z_a o) (r_z_b o) (fmul (flit 10) (flog10 (zrain_of fa fb d r)))
  end.

(** The rain line in use: the user's fit, or that of [method]. *)
Inductive rain_line (o : rain_opts F) : F -> F -> Prop :=
  | line_user a b : fit_a o = Some a -> fit_b o = Some b -> rain_line o a b
  | line_cifelli : fit_a o = None -> method o = "cifelli"%string ->
      rain_line o (flit 0.8178) (flit 12.5088)
  | line_cr1995 : fit_a o = None -> method o = "cr1995"%string ->
      rain_line o (flit 0.9091) (flit 8.5091)
  | line_other : fit_a o = None -> method o <> "cifelli"%string ->
      method o <> "cr1995"%string -> rain_line o (flit 0.77) (flit 14).

Lemma rain_line_resolve o fa fb : rain_line o fa fb -> resolve_fits o = Ok (fa, fb).
Proof.
  intro L. unfold resolve_fits, LiquidIce.get_linear_fits. inversion L; subst.
  - now rewrite H0, H1.
  - now rewrite H0, H1.
  - now rewrite H0, H1.
  - rewrite H0. apply String.eqb_neq in H1, H2. now rewrite H1, H2.
Qed.

(** ** C08 *)
Theorem C08_blended_S_decision_tree :
  forall (dz zdr kdp : arr F) (ice_flag : bool) (o : rain_opts F) (fa fb : F),
  ashape dz = ashape zdr -> ashape dz = ashape kdp ->
  arr_ok dz -> arr_ok zdr -> arr_ok kdp -> rain_line o fa fb ->
  exists out,
    calc_blended_rain (AArr dz) (AArr zdr) (AArr kdp) ice_flag "S" o
      = Ok (RainArr (ashape dz) out) /\
    length (out_rain out) = length (adata dz) /\
    length (out_meth out) = length (adata dz) /\
    ((ice_flag = false <-> out_ice out = None) /\
     (forall zdp fi, out_ice out = Some (zdp, fi) ->
        length zdp = length (adata dz) /\ length fi = length (adata dz))) /\
    forall i d r k, nth_error (adata dz) i = Some d -> nth_error (adata zdr) i = Some r ->
      nth_error (adata kdp) i = Some k ->
      let m := blended_S_method (flt (ice_fraction fa fb d r) (thresh_frac_ice o))
                 (fle (thresh_dz o) d && fle (thresh_kdp o) k) (fle (thresh_zdr o) r) in
      nth_error (out_meth out) i = Some m /\
      nth_error (out_rain out) i =
        Some (cast (adt dz) (rate_of_method o (thresh_nexrad o) fa fb m d r k)) /\
      (ice_flag = true -> exists zdp fi, out_ice out = Some (zdp, fi) /\
         length zdp = length (adata dz) /\ length fi = length (adata dz) /\
         nth_error zdp i = Some (zdp_of d r) /\ nth_error fi i = Some (ice_fraction fa fb d r)).
Proof.
  intros dz zdr kdp ice o fa fb Hs1 Hs2 O1 O2 O3 L.
  assert (L1 : length (adata dz) = length (adata zdr)) by (unfold arr_ok in *; congruence).
  assert (L2 : length (adata dz) = length (adata kdp)) by (unfold arr_ok in *; congruence).
  destruct (blended_core_S o ice (adt dz) (adata dz) (adata zdr) (adata kdp) fa fb
              (rain_line_resolve _ _ _ L) L1 L2) as (out & E & A & B & C & D1 & D2).
  exists out. split; [|split; [auto|split; [auto|split]]].
  - unfold calc_blended_rain; simpl. rewrite <- Hs1, <- Hs2, shape_eqb_refl; simpl.
    rewrite E. reflexivity.
  - destruct ice.
    + destruct (D2 eq_refl) as (p & f & Hpf & Lp & Lf). rewrite Hpf. split; [split; discriminate|].
      intros zdp fi X. injection X as <- <-. auto.
    + split; [split; auto|]. rewrite (D1 eq_refl). discriminate.
  - intros i d r k Ed Er Ek. destruct (C i d r k Ed Er Ek) as (C1 & C2 & C3).
    split; [exact C1|]. split.
    + rewrite C2. do 2 f_equal. unfold blended_S_meth, blended_S_rate, rate_of_method, blended_S_method.
      destruct (flt _ _), (_ && _)%bool, (fle (thresh_zdr o) r); reflexivity.
    + intros ->. destruct (D2 eq_refl) as (p & f & Hpf & Lp & Lf). rewrite Hpf in C3.
      destruct C3 as (_ & C3 & C4). exists p, f; auto.
Qed.

(** The decision tree as the five documented cases. *)
Theorem C08_blended_S_method_cases :
  forall (dz zdr kdp : arr F) (ice_flag : bool) (o : rain_opts F) (fa fb : F) out i d r k,
  ashape dz = ashape zdr -> ashape dz = ashape kdp ->
  arr_ok dz -> arr_ok zdr -> arr_ok kdp -> rain_line o fa fb ->
  calc_blended_rain (AArr dz) (AArr zdr) (AArr kdp) ice_flag "S" o = Ok (RainArr (ashape dz) out) ->
  nth_error (adata dz) i = Some d -> nth_error (adata zdr) i = Some r -> nth_error (adata kdp) i = Some k ->
  let ice_free := flt (ice_fraction fa fb d r) (thresh_frac_ice o) = true in
  let zk_high := fle (thresh_dz o) d = true /\ fle (thresh_kdp o) k = true in
  let zdr_high := fle (thresh_zdr o) r = true in
  let meth := nth_error (out_meth out) i in
  (meth = Some 1%Z <-> zk_high /\ ice_free /\ zdr_high) /\
  (meth = Some 2%Z <-> zk_high /\ ~ (ice_free /\ zdr_high)) /\
  (meth = Some 3%Z <-> ~ zk_high /\ ice_free /\ zdr_high) /\
  (meth = Some 4%Z <-> ~ zk_high /\ ice_free /\ ~ zdr_high) /\
  (meth = Some 5%Z <-> ~ zk_high /\ ~ ice_free).
Proof.
  intros dz zdr kdp ice o fa fb out i d r k S1 S2 O1 O2 O3 L E Ed Er Ek ice_free zk_high zdr_high meth.
  destruct (C08_blended_S_decision_tree dz zdr kdp ice o fa fb S1 S2 O1 O2 O3 L) as (out' & E' & _ & _ & _ & G).
  rewrite E' in E. assert (out' = out) as -> by congruence. destruct (G i d r k Ed Er Ek) as (G1 & _). clear G.
  unfold meth. rewrite G1. unfold ice_free, zk_high, zdr_high, blended_S_method.
  destruct (flt _ _), (fle (thresh_dz o) d), (fle (thresh_kdp o) k), (fle (thresh_zdr o) r); cbn [andb];
    intuition congruence.
Qed.

(** A user fit_a without fit_b raises TypeError at S band. *)
Theorem C08_blended_S_fit_a_without_fit_b_raises :
  forall (dz zdr kdp : arr F) ice_flag (o : rain_opts F) a,
  ashape dz = ashape zdr -> ashape dz = ashape kdp ->
  fit_a o = Some a -> fit_b o = None ->
  calc_blended_rain (AArr dz) (AArr zdr) (AArr kdp) ice_flag "S" o = Raise TypeError.
Proof.
  intros dz zdr kdp ice o a Hs1 Hs2 Ha Hb.
  unfold calc_blended_rain; simpl. rewrite <- Hs1, <- Hs2, shape_eqb_refl; simpl.
  unfold blended_core, blended_core_with. change (String.eqb "S" "S") with true. cbv iota zeta.
  destruct (LiquidIce.calc_zh_zv _ _). rewrite Ha, Hb. reflexivity.
Qed.

(** ** C09 *)
Theorem C09_blended_other_bands :
  forall (dz zdr kdp : arr F) (ice_flag : bool) (band : string) (o : rain_opts F),
  band <> "S"%string -> ashape dz = ashape zdr -> ashape dz = ashape kdp ->
  arr_ok dz -> arr_ok kdp ->
  exists out,
    calc_blended_rain (AArr dz) (AArr zdr) (AArr kdp) ice_flag band o
      = Ok (RainArr (ashape dz) out) /\
    length (out_rain out) = length (adata dz) /\
    length (out_meth out) = length (adata dz) /\ out_ice out = None /\
    forall i d k, nth_error (adata dz) i = Some d -> nth_error (adata kdp) i = Some k ->
      (fle (thresh_dz o) d = true /\ fle (thresh_kdp o) k = true ->
         nth_error (out_meth out) i = Some 2%Z /\
         nth_error (out_rain out) i =
           Some (cast (adt dz) (fmul (r_kdp_a o) (fpow k (r_kdp_b o))))) /\
      (~ (fle (thresh_dz o) d = true /\ fle (thresh_kdp o) k = true) ->
         nth_error (out_meth out) i = Some 4%Z /\
         nth_error (out_rain out) i =
           Some (cast (adt dz) (R_Z_capped (thresh_nexrad o) (r_z_a o) (r_z_b o) d))).
Proof.
  intros dz zdr kdp ice band o Hb Hs1 Hs2 O1 O3.
  assert (L2 : length (adata dz) = length (adata kdp)) by (unfold arr_ok in *; congruence).
  destruct (blended_core_other o band ice (adt dz) (adata dz) (adata zdr) (adata kdp) Hb L2)
    as (out & E & A & B & C & D).
  exists out. split; [|split; [auto|split; [auto|split; [auto|]]]].
  - unfold calc_blended_rain; simpl. rewrite <- Hs1, <- Hs2, shape_eqb_refl; simpl.
    rewrite E. reflexivity.
  - intros i d k Ed Ek. destruct (D i d k Ed Ek) as [D1 D2]. split.
    + intros [Ha Hk]. rewrite Ha, Hk in D1, D2. split; [exact D1|exact D2].
    + intro Hn. assert (Hf : (fle (thresh_dz o) d && fle (thresh_kdp o) k)%bool = false).
      { destruct (fle (thresh_dz o) d), (fle (thresh_kdp o) k); auto. exfalso; auto. }
      rewrite Hf in D1, D2. split; [exact D1|exact D2].
Qed.

(** zdr has no influence at other bands. *)
Theorem C09_blended_other_bands_ignore_zdr :
  forall (dz zdr zdr' kdp : arr F) ice_flag ice_flag' band (o : rain_opts F),
  band <> "S"%string ->
  calc_blended_rain (AArr dz) (AArr zdr) (AArr kdp) ice_flag band o
  = calc_blended_rain (AArr dz) (AArr zdr') (AArr kdp) ice_flag' band o.
Proof.
  intros dz zdr zdr' kdp i i' band o Hb. unfold calc_blended_rain; simpl.
  unfold blended_core, blended_core_with. apply String.eqb_neq in Hb. rewrite Hb. cbn [orb].
  destruct (shape_eqb (ashape dz) (ashape kdp)), (shape_eqb (ashape dz) (ashape zdr)), (shape_eqb (ashape dz) (ashape zdr'));
    reflexivity.
Qed.

(** ** C11 *)
Definition rain_elem0 (r : res (rain_ret F)) : res (rain_ret F) :=
  match r with
  | Ok (RainArr _ out) =>
      match out_rain out, out_meth out, out_ice out with
      | x :: _, m :: _, None => Ok (RainScalar x m None)
      | x :: _, m :: _, Some (p :: _, f :: _) => Ok (RainScalar x m (Some (p, f)))
      | _, _, _ => Raise IndexError
      end
  | r => r
  end.

Theorem C11_blended_scalar_is_element_0 :
  forall d1 d2 d3 (x y z : F) ice_flag band o,
  calc_blended_rain (AScalar d1 x) (AScalar d2 y) (AScalar d3 z) ice_flag band o
  = rain_elem0 (calc_blended_rain (AArr (mkarr d1 [1] [x])) (AArr (mkarr d2 [1] [y]))
                  (AArr (mkarr d3 [1] [z])) ice_flag band o).
Proof.
  intros. unfold calc_blended_rain. cbn [check_for_array as_array np_array_of bind arr1 adt
    ashape adata]. rewrite shape_eqb_refl; cbn [negb andb].
  destruct (blended_core _ _ _ _ _ _ _) as [out| | | |]; reflexivity.
Qed.

(** 0-d arrays beside a plain reflectivity number count as numbers *)
Theorem C11_zero_dim_arrays_are_scalars :
  forall d1 d2 d3 (x y z : F) ice_flag band o,
  calc_blended_rain (AScalar d1 x) (AArr (mkarr d2 [] [y])) (AArr (mkarr d3 [] [z])) ice_flag band o
  = calc_blended_rain (AScalar d1 x) (AScalar d2 y) (AScalar d3 z) ice_flag band o.
Proof. reflexivity. Qed.

(** and the scalar call never raises: it returns a rate and a method 1..5 *)
Theorem C11_blended_scalar_returns_scalars :
  forall d1 d2 d3 (x y z : F) ice_flag o fa fb, rain_line o fa fb ->
  exists rain m ice,
    calc_blended_rain (AScalar d1 x) (AScalar d2 y) (AScalar d3 z) ice_flag "S" o
      = Ok (RainScalar rain m ice) /\ (1 <= m <= 5)%Z /\ (ice = None <-> ice_flag = false).
Proof.
  intros. rewrite C11_blended_scalar_is_element_0.
  destruct (C08_blended_S_decision_tree (mkarr d1 [1] [x]) (mkarr d2 [1] [y]) (mkarr d3 [1] [z])
    ice_flag o fa fb) as (out & E & A & B & C & D); auto; try reflexivity.
  rewrite E. cbn [rain_elem0]. destruct (D 0 x y z eq_refl eq_refl eq_refl) as (D1 & D2 & D3).
  cbn [adata] in *. destruct (out_rain out) as [|r rs]; [discriminate|].
  destruct (out_meth out) as [|m ms]; [discriminate|]. injection D1 as D1.
  assert (Hm : (1 <= m <= 5)%Z).
  { subst m. unfold blended_S_method. destruct (flt _ _), (_ && _)%bool, (fle (thresh_zdr o) y); simpl; lia. }
  destruct (out_ice out) as [[p f]|] eqn:Eo.
  - destruct ice_flag; [|destruct C as [[C _] _]; discriminate (C eq_refl)].
    destruct (D3 eq_refl) as (p' & f' & E1 & E2 & E3 & _). injection E1 as <- <-.
    destruct p as [|p ps]; [discriminate|]. destruct f as [|f fs]; [discriminate|].
    exists r, m, (Some (p, f)). split; auto. split; auto. split; discriminate.
  - exists r, m, None. split; auto. split; auto. tauto.
Qed.

Theorem C11_hidro_scalar_is_element_0 :
  forall d1 d2 d3 d4 (x y z c : F) band o,
  csu_hidro_rain (AScalar d1 x) (AScalar d2 y) (AScalar d3 z) (AScalar d4 c) band o
  = rain_elem0 (csu_hidro_rain (AArr (mkarr d1 [1] [x])) (AArr (mkarr d2 [1] [y]))
                  (AArr (mkarr d3 [1] [z])) (AArr (mkarr d4 [1] [c])) band o).
Proof.
  intros. unfold csu_hidro_rain. cbn [check_for_array as_array np_array_of bind arr1 adt
    ashape adata broadcast]. rewrite shape_eqb_refl; cbn [negb andb length repeat bind].
  destruct (hidro_core _ _ _ _ _ _ _) as [r m ic].
  cbn [rain_return rain_elem0 out_rain out_meth out_ice].
  destruct r, m, ic as [[[|] [|]]|]; reflexivity.
Qed.

(** The tropical function returns 1-element arrays for numbers. *)
Theorem C11_tropical_scalar_returns_arrays :
  forall d1 d2 d3 (x y z : F) predef band o,
  exists rain meth,
  calc_blended_rain_tropical (AScalar d1 x) (AScalar d2 y) (AScalar d3 z) ANone ANone predef band o
  = Ok (true, [1], [rain], [meth]) /\
  calc_blended_rain_tropical (AArr (mkarr d1 [1] [x])) (AArr (mkarr d2 [1] [y]))
     (AArr (mkarr d3 [1] [z])) ANone ANone predef band o = Ok (true, [1], [rain], [meth]).
Proof. intros. eexists; eexists; split; reflexivity. Qed.

(** ** C13 *)
Theorem C13_hidro_S_decision_tree :
  forall (dz zdr kdp fhc : arr F) (o : rain_opts F),
  ashape dz = ashape zdr -> ashape dz = ashape kdp -> ashape dz = ashape fhc ->
  arr_ok dz -> arr_ok zdr -> arr_ok kdp -> arr_ok fhc ->
  exists out,
    csu_hidro_rain (AArr dz) (AArr zdr) (AArr kdp) (AArr fhc) "S" o
      = Ok (RainArr (ashape dz) out) /\
    length (out_rain out) = length (adata dz) /\
    length (out_meth out) = length (adata dz) /\ out_ice out = None /\
    forall i d r k c, nth_error (adata dz) i = Some d -> nth_error (adata zdr) i = Some r ->
      nth_error (adata kdp) i = Some k -> nth_error (adata fhc) i = Some c -> class_sane c ->
      let m := hidro_S_method (phase_of c) (fle (thresh_dz o) d) (fle (thresh_kdp o) k)
                              (fle (thresh_zdr o) r) in
      nth_error (out_meth out) i = Some m /\
      nth_error (out_rain out) i =
        Some (if Z.eqb m 0 then flit 0
              else cast (adt dz) (rate_of_method o (flit 53) (flit 0) (flit 0) m d r k)).
Proof.
  intros dz zdr kdp fhc o S1 S2 S3 O1 O2 O3 O4.
  assert (L1 : length (adata dz) = length (adata zdr)) by (unfold arr_ok in *; congruence).
  assert (L2 : length (adata dz) = length (adata kdp)) by (unfold arr_ok in *; congruence).
  assert (L3 : length (adata dz) = length (adata fhc)) by (unfold arr_ok in *; congruence).
  destruct (hidro_core_S o (adt dz) _ _ _ _ L1 L2 L3) as (A & B & C & D).
  eexists. split; [|split; [exact A|split; [exact B|split; [exact C|]]]].
  - unfold csu_hidro_rain; simpl. rewrite <- S1, <- S2, <- S3, shape_eqb_refl; simpl. reflexivity.
  - intros i d r k c Ed Er Ek Ec Hc. destruct (D i d r k c Ed Er Ek Ec Hc) as [D1 D2].
    split; [exact D1|]. rewrite D2.
    unfold hidro_S_method, hidro_S_rate, rate_of_method.
    destruct (phase_of c), (fle (thresh_dz o) d), (fle (thresh_kdp o) k), (fle (thresh_zdr o) r); reflexivity.
Qed.

(** ** C14 *)
Theorem C14_hidro_other_bands :
  forall (dz zdr kdp fhc : arr F) (band : string) (o : rain_opts F),
  band <> "S"%string ->
  ashape dz = ashape zdr -> ashape dz = ashape kdp -> ashape dz = ashape fhc ->
  arr_ok dz -> arr_ok kdp -> arr_ok fhc ->
  exists out,
    csu_hidro_rain (AArr dz) (AArr zdr) (AArr kdp) (AArr fhc) band o
      = Ok (RainArr (ashape dz) out) /\
    length (out_rain out) = length (adata dz) /\
    length (out_meth out) = length (adata dz) /\ out_ice out = None /\
    forall i d k c, nth_error (adata dz) i = Some d ->
      nth_error (adata kdp) i = Some k -> nth_error (adata fhc) i = Some c ->
      let high := (fle (thresh_dz o) d && fle (thresh_kdp o) k)%bool in
      (high = true -> nth_error (out_meth out) i = Some 2%Z /\
         nth_error (out_rain out) i = Some (cast (adt dz) (R_Kdp (r_kdp_a o) (r_kdp_b o) k))) /\
      (high = false -> phase_of c = Rain -> nth_error (out_meth out) i = Some 4%Z /\
         nth_error (out_rain out) i =
           Some (cast (adt dz) (R_Z_capped (flit 53) (r_z_a o) (r_z_b o) d))) /\
      (high = false -> phase_of c <> Rain -> nth_error (out_meth out) i = Some 2%Z /\
         nth_error (out_rain out) i = Some (cast (adt dz) (flit 0))).
Proof.
  intros dz zdr kdp fhc band o Hb S1 S2 S3 O1 O3 O4.
  assert (L2 : length (adata dz) = length (adata kdp)) by (unfold arr_ok in *; congruence).
  assert (L3 : length (adata dz) = length (adata fhc)) by (unfold arr_ok in *; congruence).
  destruct (hidro_core_other o band (adt dz) (adata dz) (adata zdr) _ _ Hb L2 L3) as (A & B & C & D).
  eexists. split; [|split; [exact A|split; [exact B|split; [exact C|]]]].
  - unfold csu_hidro_rain; simpl. rewrite <- S1, <- S2, <- S3, shape_eqb_refl; simpl. reflexivity.
  - intros i d k c Ed Ek Ec. destruct (D i d k c Ed Ek Ec) as [D1 D2]. cbv zeta.
    destruct (fle _ d && fle _ k)%bool; (split; [|split]); try discriminate; intros; auto.
    + destruct (phase_of c); try discriminate. auto.
    + destruct (phase_of c); try congruence; auto.
Qed.

(** zdr has no influence at the other bands *)
Theorem C14_zdr_has_no_influence :
  forall (dz zdr zdr' kdp fhc : arr F) (band : string) (o : rain_opts F),
  band <> "S"%string ->
  ashape dz = ashape zdr -> ashape dz = ashape zdr' -> ashape dz = ashape kdp -> ashape dz = ashape fhc ->
  arr_ok dz -> arr_ok kdp -> arr_ok fhc ->
  csu_hidro_rain (AArr dz) (AArr zdr) (AArr kdp) (AArr fhc) band o =
  csu_hidro_rain (AArr dz) (AArr zdr') (AArr kdp) (AArr fhc) band o.
Proof.
  intros dz zdr zdr' kdp fhc band o Hb S1 S1' S2 S3 O1 O2 O3.
  assert (L2 : length (adata dz) = length (adata kdp)) by (unfold arr_ok in *; congruence).
  assert (L3 : length (adata dz) = length (adata fhc)) by (unfold arr_ok in *; congruence).
  destruct (C14_hidro_other_bands dz zdr kdp fhc band o Hb S1 S2 S3 O1 O2 O3) as ([r1 m1 i1] & -> & A1 & B1 & N1 & D1).
  destruct (C14_hidro_other_bands dz zdr' kdp fhc band o Hb S1' S2 S3 O1 O2 O3) as ([r2 m2 i2] & -> & A2 & B2 & N2 & D2).
  cbn [out_rain out_meth out_ice] in *. subst i1 i2.
  assert (Q : forall i, nth_error m1 i = nth_error m2 i /\ nth_error r1 i = nth_error r2 i).
  { intro i. destruct (nth_error (adata dz) i) as [x|] eqn:Ex.
    - destruct (nth_error_length_eq _ _ _ L2 Ex) as [k Ek]. destruct (nth_error_length_eq _ _ _ L3 Ex) as [c Ec].
      destruct (D1 i x k c Ex Ek Ec) as (X1 & X2 & X3), (D2 i x k c Ex Ek Ec) as (Y1 & Y2 & Y3).
      destruct (_ && _)%bool.
      + destruct (X1 eq_refl) as [-> ->], (Y1 eq_refl) as [-> ->]. auto.
      + assert (P : phase_of c = Rain \/ phase_of c <> Rain) by (destruct (phase_of c); [left; reflexivity|right; discriminate..]).
        destruct P as [P|P].
        * destruct (X2 eq_refl P) as [-> ->], (Y2 eq_refl P) as [-> ->]. auto.
        * destruct (X3 eq_refl P) as [-> ->], (Y3 eq_refl P) as [-> ->]. auto.
    - apply nth_error_None in Ex. rewrite !(proj2 (nth_error_None _ _)) by lia. auto. }
  assert (m1 = m2) as -> by (apply nth_error_ext; intro i; apply Q).
  assert (r1 = r2) as -> by (apply nth_error_ext; intro i; apply Q). reflexivity.
Qed.

(** ** C15 *)
Definition with_nexrad (t : F) (o : rain_opts F) : rain_opts F := {|
  thresh_dz := thresh_dz o; thresh_zdr := thresh_zdr o; thresh_kdp := thresh_kdp o;
  thresh_frac_ice := thresh_frac_ice o; thresh_nexrad := t;
  r_z_a := r_z_a o; r_z_b := r_z_b o; r_kdp_a := r_kdp_a o; r_kdp_b := r_kdp_b o;
  r_z_zdr_a := r_z_zdr_a o; r_z_zdr_b := r_z_zdr_b o; r_z_zdr_c := r_z_zdr_c o;
  fit_a := fit_a o; fit_b := fit_b o; method := method o;
  r_kdp_zdr_a := r_kdp_zdr_a o; r_kdp_zdr_b := r_kdp_zdr_b o; r_kdp_zdr_c := r_kdp_zdr_c o |}.

Theorem C15_hidro_ignores_thresh_nexrad :
  forall dz zdr kdp fhc band (o : rain_opts F) (t : F),
  csu_hidro_rain dz zdr kdp fhc band (with_nexrad t o) = csu_hidro_rain dz zdr kdp fhc band o.
Proof. reflexivity. Qed.

(** ** C16 *)
Definition fhc_none : option F := None.

(** rate of the tropical methods; 4, 5, 6 are the all / convective /
    stratiform Z-R relations *)
Definition trop_rate_of_method (o : trop_opts F) (m : Z) (d r k : F) : F :=
  match m with
  | 1%Z => R_Kdp_Zdr (t_r_kdp_zdr_a o) (t_r_kdp_zdr_b o) (t_r_kdp_zdr_c o) k r
  | 2%Z => R_Kdp (t_r_kdp_a o) (t_r_kdp_b o) k
  | 3%Z => R_Z_Zdr (t_r_z_zdr_a o) (t_r_z_zdr_b o) (t_r_z_zdr_c o) d r
  | 4%Z => R_Z (t_r_z_a o) (t_r_z_b o) d
  | 5%Z => R_Z (t_r_z_a_c o) (t_r_z_b_c o) d
  | _ => R_Z (t_r_z_a_s o) (t_r_z_b_s o) d
  end.

(** [cs] or [fhc] at gate i: absent, a number for all gates, or an array *)
Definition field_at (x : pyarg F) (i : nat) (v : option F) : Prop :=
  match x, v with
  | ANone, None => True
  | AScalar _ s, Some v => v = s
  | AArr a, Some v => nth_error (adata a) i = Some v
  | _, _ => False
  end.
Definition field_ok (shape : list nat) (x : pyarg F) : Prop :=
  match x with AArr a => ashape a = shape /\ arr_ok a | _ => True end.

Lemma broadcast_opt_ok shape n x : field_ok shape x -> n = prod shape ->
  exists l, broadcast_opt shape n x = Ok l /\ opt_len l n /\
    (forall i v, i < n -> field_at x i v -> opt_nth l i v) /\ (l = None <-> x = ANone).
Proof.
  intros Hx Hn. destruct x as [|d s|a]; simpl.
  - exists None. repeat split; auto.
  - exists (Some (repeat s n)). repeat split; try discriminate; simpl.
    + apply repeat_length.
    + intros i [v|] Hi Hv; simpl in *; [rewrite Hv|contradiction].
      rewrite repeat_nth_error. apply Nat.ltb_lt in Hi. now rewrite Hi.
  - destruct Hx as [Es Hx]. unfold arr_ok in Hx. rewrite Es in *. rewrite shape_eqb_refl. exists (Some (adata a)).
    repeat split; try discriminate; simpl.
    + congruence.
    + intros i [v|] Hi Hv; simpl in *; auto.
Qed.

Lemma index_opt_ok shape n x : field_ok shape x -> n = prod shape ->
  exists l, index_opt shape n x = Ok l /\ opt_len l n /\
    (forall i v, i < n -> field_at x i v -> opt_nth l i v) /\ (l = None <-> x = ANone).
Proof.
  intros Hx Hn. destruct (broadcast_opt_ok shape n x Hx Hn) as (l & E & R). exists l. split; auto.
  rewrite <- E. destruct x as [|d s|a]; auto. simpl in *. destruct Hx as [-> _]. now rewrite shape_eqb_refl.
Qed.

Lemma trop_full (dz zdr kdp : arr F) (cs fhc : pyarg F) predef band (o : trop_opts F) :
  ashape dz = ashape zdr -> ashape dz = ashape kdp ->
  arr_ok dz -> arr_ok zdr -> arr_ok kdp ->
  field_ok (ashape dz) cs -> field_ok (ashape dz) fhc ->
  exists warned rain meth,
    calc_blended_rain_tropical (AArr dz) (AArr zdr) (AArr kdp) cs fhc predef band o
      = Ok (warned, ashape dz, rain, meth) /\
    (warned = true <-> fhc = ANone) /\
    length rain = length (adata dz) /\ length meth = length (adata dz) /\
    forall i d r k c f, nth_error (adata dz) i = Some d -> nth_error (adata zdr) i = Some r ->
      nth_error (adata kdp) i = Some k -> field_at cs i c -> field_at fhc i f ->
      nth_error rain i = Some (fst (trop_gate (trop_coefs predef band o) (adt dz) c f d r k)) /\
      nth_error meth i = Some (snd (trop_gate (trop_coefs predef band o) (adt dz) c f d r k)).
Proof.
  intros S1 S2 O1 O2 O3 Hc Hf.
  assert (L1 : length (adata dz) = length (adata zdr)) by (unfold arr_ok in *; congruence).
  assert (L2 : length (adata dz) = length (adata kdp)) by (unfold arr_ok in *; congruence).
  destruct (broadcast_opt_ok _ (length (adata dz)) cs Hc O1) as (lc & Ec & Lc & Nc & _).
  destruct (index_opt_ok _ (length (adata dz)) fhc Hf O1) as (lf & Ef & Lf & Nf & Wf).
  unfold calc_blended_rain_tropical. cbn [check_for_array as_array bind].
  rewrite <- S1, <- S2, shape_eqb_refl. cbn [negb andb].
  rewrite Ec. cbn [bind]. rewrite Ef. cbn [bind].
  destruct (trop_core _ _ _ _ _ _ _) as [rain meth] eqn:E.
  destruct (trop_core_gate _ _ _ _ _ _ _ _ _ L1 L2 Lc Lf E) as (A & B & C).
  eexists; exists rain, meth. split; [reflexivity|]. split; [|split; [auto|split; [auto|]]].
  - destruct lf; destruct Wf as [W1 W2]; split; intro H'; auto; try discriminate.
    discriminate (W2 H').
  - intros i d r k c f Ed Er Ek Hci Hfi. apply C; auto.
    + apply Nc; auto. eapply nth_error_lt; eauto.
    + apply Nf; auto. eapply nth_error_lt; eauto.
Qed.

Theorem C16_tropical_without_fhc :
  forall (dz zdr kdp : arr F) (cs : pyarg F) predef band (o : trop_opts F),
  ashape dz = ashape zdr -> ashape dz = ashape kdp ->
  arr_ok dz -> arr_ok zdr -> arr_ok kdp -> field_ok (ashape dz) cs ->
  let co := trop_coefs predef band o in
  exists rain meth,
    calc_blended_rain_tropical (AArr dz) (AArr zdr) (AArr kdp) cs ANone predef band o
      = Ok (true, ashape dz, rain, meth) /\
    length rain = length (adata dz) /\ length meth = length (adata dz) /\
    forall i d r k c, nth_error (adata dz) i = Some d -> nth_error (adata zdr) i = Some r ->
      nth_error (adata kdp) i = Some k -> field_at cs i c ->
      let m := trop_method c (fle (t_thresh_kdp o) k && fle (t_thresh_dz o) d)
                           (fle (t_thresh_zdr o) r) in
      (flt d (flit (-10)) = true ->
         nth_error rain i = Some (cast (adt dz) (flit 0)) /\ nth_error meth i = Some (-1)%Z) /\
      (flt d (flit (-10)) = false -> nth_error meth i = Some m /\
         (m = (-1)%Z -> nth_error rain i = Some (flit 0)) /\
         (m <> (-1)%Z ->
            nth_error rain i = Some (cast (adt dz) (trop_rate_of_method co m d r k)))).
Proof.
  intros dz zdr kdp cs predef band o S1 S2 O1 O2 O3 Hc co.
  destruct (trop_full dz zdr kdp cs ANone predef band o S1 S2 O1 O2 O3 Hc I)
    as (w & rain & meth & E & W & A & B & C).
  assert (w = true) by (apply W; auto); subst w.
  exists rain, meth. split; [auto|split; [auto|split; [auto|]]].
  intros i d r k c Ed Er Ek Hci. cbv zeta.
  destruct (C i d r k c None Ed Er Ek Hci I) as [C1 C2]. fold co in C1, C2.
  assert (T : t_thresh_kdp co = t_thresh_kdp o /\ t_thresh_dz co = t_thresh_dz o /\
              t_thresh_zdr co = t_thresh_zdr o).
  { unfold co, trop_coefs. destruct (negb _); auto.
    destruct (String.eqb band "S"); auto. destruct (String.eqb band "C"); auto.
    destruct (String.eqb band "X"); auto. }
  destruct T as (T1 & T2 & T3). unfold trop_gate in C1, C2. cbv zeta in C1, C2.
  rewrite T1, T2, T3 in C1, C2.
  split; intro Hd; rewrite Hd in C1, C2; cbn [fst snd] in C1, C2; [auto|].
  split; [auto|]. rewrite C1. split; intro Hm.
  - rewrite Hm. reflexivity.
  - apply Z.eqb_neq in Hm. rewrite Hm. do 2 f_equal.
    unfold trop_method, trop_rate, trop_rate_of_method.
    destruct (_ && _)%bool, (fle (t_thresh_zdr o) r); try reflexivity.
    destruct c as [c|]; [|reflexivity].
    destruct (feq c (flit 3)), (feq c (flit 1)), (feq c (flit 2)); reflexivity.
Qed.

(** ** C17 *)
(** With fhc: a gate with 2 < fhc < 10 and not dz < -10 has method code 2; its
    rain is 0 unless fhc = 9 with Kdp and Z at threshold. *)
Theorem C17_tropical_ice_gates :
  forall (dz zdr kdp : arr F) (cs fhc : pyarg F) predef band (o : trop_opts F),
  ashape dz = ashape zdr -> ashape dz = ashape kdp ->
  arr_ok dz -> arr_ok zdr -> arr_ok kdp ->
  field_ok (ashape dz) cs -> field_ok (ashape dz) fhc -> fhc <> ANone ->
  let co := trop_coefs predef band o in
  exists rain meth,
    calc_blended_rain_tropical (AArr dz) (AArr zdr) (AArr kdp) cs fhc predef band o
      = Ok (false, ashape dz, rain, meth) /\
    forall i d r k c f, nth_error (adata dz) i = Some d -> nth_error (adata zdr) i = Some r ->
      nth_error (adata kdp) i = Some k -> field_at cs i c -> field_at fhc i (Some f) ->
      flt d (flit (-10)) = false -> flt (flit 2) f = true -> flt f (flit 10) = true ->
      nth_error meth i = Some 2%Z /\
      nth_error rain i = Some (cast (adt dz)
        (if (feq f (flit 9) && (fle (t_thresh_kdp o) k && fle (t_thresh_dz o) d))%bool
         then R_Kdp (t_r_kdp_a co) (t_r_kdp_b co) k else flit 0)).
Proof.
  intros dz zdr kdp cs fhc predef band o S1 S2 O1 O2 O3 Hc Hf Hn co.
  destruct (trop_full dz zdr kdp cs fhc predef band o S1 S2 O1 O2 O3 Hc Hf)
    as (w & rain & meth & E & W & A & B & C).
  assert (w = false) by (destruct w; auto; exfalso; apply Hn; tauto); subst w.
  exists rain, meth. split; [auto|].
  intros i d r k c f Ed Er Ek Hci Hfi Hd H2 H10.
  destruct (C i d r k c (Some f) Ed Er Ek Hci Hfi) as [C1 C2]. fold co in C1, C2.
  assert (T : t_thresh_kdp co = t_thresh_kdp o /\ t_thresh_dz co = t_thresh_dz o).
  { unfold co, trop_coefs. destruct (negb _); auto.
    destruct (String.eqb band "S"); auto. destruct (String.eqb band "C"); auto.
    destruct (String.eqb band "X"); auto. }
  destruct T as (T1 & T2). unfold trop_gate in C1, C2. cbv zeta in C1, C2.
  rewrite T1, T2, Hd, H2, H10 in C1, C2. cbn [fst snd andb] in C1, C2. split; [auto|].
  rewrite C1. destruct (feq f (flit 9) && _)%bool; reflexivity.
Qed.

(** gates outside the ice classes are as without fhc *)
Theorem C17_tropical_other_classes_unchanged :
  forall (dz zdr kdp : arr F) (cs fhc : pyarg F) predef band (o : trop_opts F) w w' sh sh' rain meth rain' meth',
  ashape dz = ashape zdr -> ashape dz = ashape kdp ->
  arr_ok dz -> arr_ok zdr -> arr_ok kdp ->
  field_ok (ashape dz) cs -> field_ok (ashape dz) fhc ->
  calc_blended_rain_tropical (AArr dz) (AArr zdr) (AArr kdp) cs fhc predef band o
    = Ok (w, sh, rain, meth) ->
  calc_blended_rain_tropical (AArr dz) (AArr zdr) (AArr kdp) cs ANone predef band o
    = Ok (w', sh', rain', meth') ->
  forall i f c, i < length (adata dz) -> field_at fhc i (Some f) -> field_at cs i c ->
    (flt (flit 2) f && flt f (flit 10))%bool = false -> feq f (flit 9) = false ->
    nth_error rain i = nth_error rain' i /\ nth_error meth i = nth_error meth' i.
Proof.
  intros dz zdr kdp cs fhc predef band o w w' sh sh' rain meth rain' meth'
    S1 S2 O1 O2 O3 Hc Hf E E' i f c Hi Hfi Hci Hice H9.
  destruct (trop_full dz zdr kdp cs fhc predef band o S1 S2 O1 O2 O3 Hc Hf)
    as (? & ? & ? & E1 & _ & _ & _ & C).
  destruct (trop_full dz zdr kdp cs ANone predef band o S1 S2 O1 O2 O3 Hc I)
    as (? & ? & ? & E1' & _ & _ & _ & C').
  rewrite E in E1; injection E1; intros; subst. rewrite E' in E1'; injection E1'; intros; subst.
  destruct (@nth_error_map_some _ (adata dz) i) as [d Ed]; auto.
  destruct (@nth_error_map_some _ (adata zdr) i) as [r Er]; [unfold arr_ok in *; rewrite S1 in O1; lia|].
  destruct (@nth_error_map_some _ (adata kdp) i) as [k Ek]; [unfold arr_ok in *; rewrite S2 in O1; lia|].
  destruct (C i d r k c (Some f) Ed Er Ek Hci Hfi) as [-> ->].
  destruct (C' i d r k c None Ed Er Ek Hci I) as [-> ->].
  unfold trop_gate. cbv zeta. destruct (flt d (flit (-10))); auto.
  rewrite Hice, H9. auto.
Qed.

(** ** C18 *)
(** predef = 'True': the user's coefficients have no influence. *)
Theorem C18_predef_ignores_user_coefficients :
  forall dz zdr kdp cs fhc band (o o' : trop_opts F),
  band = "S"%string \/ band = "C"%string \/ band = "X"%string ->
  t_thresh_dz o = t_thresh_dz o' -> t_thresh_zdr o = t_thresh_zdr o' ->
  t_thresh_kdp o = t_thresh_kdp o' ->
  calc_blended_rain_tropical dz zdr kdp cs fhc "True" band o
  = calc_blended_rain_tropical dz zdr kdp cs fhc "True" band o'.
Proof.
  intros dz zdr kdp cs fhc band o o' Hb H1 H2 H3. unfold calc_blended_rain_tropical.
  assert (E : trop_coefs "True" band o = trop_coefs "True" band o').
  { unfold trop_coefs. destruct Hb as [->|[->| ->]]; cbn; rewrite H1, H2, H3; reflexivity. }
  now rewrite E.
Qed.

(** The Thompson et al. coefficients in use at each band. *)
Definition thompson (band : string) (co : trop_opts F) : Prop :=
  t_r_z_a co = flit 216 /\ t_r_z_b co = flit 1.39 /\
  t_r_z_a_c co = flit 126 /\ t_r_z_b_c co = flit 1.39 /\
  t_r_z_a_s co = flit 291 /\ t_r_z_b_s co = flit 1.55 /\
  (band = "S"%string ->
     t_r_kdp_zdr_a co = flit 96.5726 /\ t_r_kdp_zdr_b co = flit 0.9315 /\
     t_r_kdp_zdr_c co = fdiv (flit (-2.1140)) (flit 10) /\
     t_r_z_zdr_a co = flit 0.0085 /\ t_r_z_zdr_b co = flit 0.9237 /\
     t_r_z_zdr_c co = fdiv (flit (-5.2389)) (flit 10) /\
     t_r_kdp_a co = flit 59.5202 /\ t_r_kdp_b co = flit 0.7451) /\
  (band = "C"%string ->
     t_r_kdp_zdr_a co = flit 45.6976 /\ t_r_kdp_zdr_b co = flit 0.8763 /\
     t_r_kdp_zdr_c co = fdiv (flit (-1.6718)) (flit 10) /\
     t_r_z_zdr_a co = flit 0.0086 /\ t_r_z_zdr_b co = flit 0.9088 /\
     t_r_z_zdr_c co = fdiv (flit (-4.2059)) (flit 10) /\
     t_r_kdp_a co = flit 34.5703 /\ t_r_kdp_b co = flit 0.7331) /\
  (band = "X"%string ->
     t_r_kdp_zdr_a co = flit 28.1289 /\ t_r_kdp_zdr_b co = flit 0.9194 /\
     t_r_kdp_zdr_c co = fdiv (flit (-1.6876)) (flit 10) /\
     t_r_z_zdr_a co = flit 0.0085 /\ t_r_z_zdr_b co = flit 0.9294 /\
     t_r_z_zdr_c co = fdiv (flit (-4.4580)) (flit 10) /\
     t_r_kdp_a co = flit 21.9729 /\ t_r_kdp_b co = flit 0.7221).

(** With predef 'True' a call equals the call with predef off and exactly the
    Thompson coefficients passed by hand; any other predef uses the arguments. *)
Theorem C18_predef_selects_thompson_coefficients :
  forall dz zdr kdp cs fhc band (o : trop_opts F),
  exists co, thompson band co /\
    t_thresh_dz co = t_thresh_dz o /\ t_thresh_zdr co = t_thresh_zdr o /\
    t_thresh_kdp co = t_thresh_kdp o /\
    calc_blended_rain_tropical dz zdr kdp cs fhc "True" band o
    = calc_blended_rain_tropical dz zdr kdp cs fhc "no" band co.
Proof.
  intros dz zdr kdp cs fhc band o. exists (trop_coefs "True" band o).
  unfold calc_blended_rain_tropical.
  split; [|split; [|split; [|split; [|reflexivity]]]];
    unfold thompson, trop_coefs; cbn [negb String.eqb Ascii.eqb Bool.eqb];
    try (destruct (String.eqb band "S"), (String.eqb band "C"), (String.eqb band "X"); reflexivity).
  destruct (String.eqb_spec band "S") as [->|]; [cbn; repeat split; discriminate|].
  destruct (String.eqb_spec band "C") as [->|]; [cbn; repeat split; discriminate|].
  destruct (String.eqb_spec band "X") as [->|]; [cbn; repeat split; discriminate|].
  repeat split; congruence.
Qed.

(** Any other value of predef (the boolean True is not the string 'True'):
    band has no influence and the arguments are used as given. *)
Theorem C18_other_predef_ignores_band :
  forall dz zdr kdp cs fhc predef predef' band band' (o : trop_opts F),
  predef <> "True"%string -> predef' <> "True"%string ->
  calc_blended_rain_tropical dz zdr kdp cs fhc predef band o
  = calc_blended_rain_tropical dz zdr kdp cs fhc predef' band' o.
Proof.
  intros dz zdr kdp cs fhc p p' b b' o H1 H2. unfold calc_blended_rain_tropical, trop_coefs.
  apply String.eqb_neq in H1, H2. rewrite H1, H2. reflexivity.
Qed.

(** ** C19 (the part about rain functions) *)
Theorem C19_rain_missing_inputs_return_none :
  forall dz zdr kdp fhc cs ice_flag band predef (o : rain_opts F) (t : trop_opts F),
  dz = ANone \/ zdr = ANone \/ kdp = ANone ->
  calc_blended_rain dz zdr kdp ice_flag band o = PyNone /\
  csu_hidro_rain dz zdr kdp fhc band o = PyNone /\
  calc_blended_rain_tropical dz zdr kdp cs fhc predef band t = PyNone.
Proof.
  intros dz zdr kdp fhc cs i b p o t [->|[->| ->]]; [|destruct dz, kdp|destruct dz]; auto.
Qed.
Theorem C19_hidro_missing_fhc_returns_none :
  forall dz zdr kdp band (o : rain_opts F), csu_hidro_rain dz zdr kdp ANone band o = PyNone.
Proof. intros dz zdr kdp b o. destruct dz, kdp, zdr; reflexivity. Qed.
End Rates.
