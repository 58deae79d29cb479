(** * C97: arrays of dz and kdp with one number for zdr *)
From Coq Require Import Reals Lra Lia Qreals Arith String.
From Verif Require Import Base.Num Base.ListFacts Base.XReal Base.XTac Base.Pointwise Base.XArith Base.QOps.
From Verif Require Import Model.Common Model.BlendedRain Model.Tropical.
From Verif Require Model.LiquidIce.
From Verif Require Import Spec.RainSpec Proofs.RainProofs Properties.P02_Rain.

Section LawFree.
Context {F : Type} {fo : FloatOps F}.

(** the zdr array holding [z] at every gate *)
Definition constant (dz : arr F) (z : F) : arr F := mkarr DFloat (ashape dz) (map (fun _ => z) (adata dz)).

(** the options with another zdr threshold *)
Definition with_zdr_thresh (t : F) (o : rain_opts F) : rain_opts F :=
  {| thresh_dz := thresh_dz o; thresh_zdr := t; thresh_kdp := thresh_kdp o;
     thresh_frac_ice := thresh_frac_ice o; thresh_nexrad := thresh_nexrad o;
     r_z_a := r_z_a o; r_z_b := r_z_b o; r_kdp_a := r_kdp_a o; r_kdp_b := r_kdp_b o;
     r_z_zdr_a := r_z_zdr_a o; r_z_zdr_b := r_z_zdr_b o; r_z_zdr_c := r_z_zdr_c o;
     fit_a := fit_a o; fit_b := fit_b o; method := method o;
     r_kdp_zdr_a := r_kdp_zdr_a o; r_kdp_zdr_b := r_kdp_zdr_b o; r_kdp_zdr_c := r_kdp_zdr_c o |}.

(** A numpy number does what the constant array does. *)
Theorem C97_numpy_number (dz kdp : arr F) z ice band o : ashape dz = ashape kdp ->
  calc_blended_rain_znum false dz z kdp ice band o
  = calc_blended_rain (AArr dz) (AArr (constant dz z)) (AArr kdp) ice band o.
Proof.
  intro S. unfold calc_blended_rain_znum, calc_blended_rain. cbn [check_for_array as_array bind constant ashape adata].
  rewrite <- S, shape_eqb_refl. reflexivity.
Qed.
Theorem C97_numpy_number_hidro (dz kdp : arr F) z fhc band o : ashape dz = ashape kdp ->
  csu_hidro_rain_znum false dz z kdp fhc band o
  = csu_hidro_rain (AArr dz) (AArr (constant dz z)) (AArr kdp) fhc band o.
Proof.
  intro S. unfold csu_hidro_rain_znum, csu_hidro_rain. destruct fhc; auto;
    cbn [check_for_array as_array bind constant ashape adata]; rewrite <- S, shape_eqb_refl; reflexivity.
Qed.
Theorem C97_numpy_number_tropical (dz kdp : arr F) z cs fhc predef band o : ashape dz = ashape kdp ->
  (predef = "True" -> band <> "S")%string ->
  calc_blended_rain_tropical_znum false dz z kdp cs fhc predef band o
  = calc_blended_rain_tropical (AArr dz) (AArr (constant dz z)) (AArr kdp) cs fhc predef band o.
Proof.
  intros S N. unfold calc_blended_rain_tropical_znum, calc_blended_rain_tropical.
  cbn [check_for_array as_array bind constant ashape adata]. rewrite <- S, shape_eqb_refl. cbn [negb andb].
  assert ((String.eqb predef "True" && String.eqb band "S")%bool = false) as ->; [|reflexivity].
  destruct (String.eqb_spec predef "True"); auto. cbn [andb]. apply String.eqb_neq. auto.
Qed.

(** ** A Python number: as if it did not reach the threshold *)
Lemma some_nth {A} (l : list A) i n : length l = n -> (i < n)%nat -> exists x, nth_error l i = Some x.
Proof. intros <- H. now apply nth_error_map_some. Qed.

Lemma ext_at {A} (a b : list A) n : length a = n -> length b = n ->
  (forall i, (i < n)%nat -> nth_error a i = nth_error b i) -> a = b.
Proof.
  intros La Lb H. apply nth_error_ext. intro i. destruct (Nat.lt_ge_cases i n) as [Hi|Hi]; auto.
  rewrite (proj2 (nth_error_None a i)), (proj2 (nth_error_None b i)); auto; lia.
Qed.

Lemma blended_core_py o t ice dt (dz kdp : list F) z : length dz = length kdp -> fle t z = false ->
  blended_core_with py_inv o "S" ice dt dz (map (fun _ => z) dz) kdp
  = blended_core (with_zdr_thresh t o) "S" ice dt dz (map (fun _ => z) dz) kdp.
Proof.
  intros L Ht. unfold blended_core, blended_core_with, with_zdr_thresh.
  cbn [thresh_dz thresh_zdr thresh_kdp thresh_frac_ice thresh_nexrad r_z_a r_z_b r_kdp_a r_kdp_b
    r_z_zdr_a r_z_zdr_b r_z_zdr_c fit_a fit_b method r_kdp_zdr_a r_kdp_zdr_b r_kdp_zdr_c].
  change (String.eqb "S" "S") with true. cbv iota zeta.
  destruct (LiquidIce.calc_zh_zv dz (map (fun _ => z) dz)) as [zhor zvert] eqn:Ezz.
  destruct (match fit_a o with Some a => _ | None => _ end) as [(fa, fb)| | | |]; auto. cbn [bind].
  assert (Lh : length zhor = length dz).
  { unfold LiquidIce.calc_zh_zv in Ezz. injection Ezz as <- <-. now rewrite map_length. }
  assert (Lv : length zvert = length dz).
  { unfold LiquidIce.calc_zh_zv in Ezz. injection Ezz as <- <-.
    rewrite map2_length, !map_length; rewrite ?map_length; lia. }
  assert (Lp : length (LiquidIce.calc_zdp zhor zvert) = length dz) by (rewrite zdp_length; lia).
  f_equal.
  set (DR := map (fun z : F => fmul (flit 10) (flog10 z)) _).
  assert (Ldr : length DR = length dz) by (unfold DR; now rewrite !map_length).
  set (NR := calc_rain_nexrad_arr DR _ _ _). assert (Lnr : length NR = length dz) by (unfold NR; rewrite nexrad_length; auto).
  set (NX := calc_rain_nexrad_arr dz _ _ _). assert (Lnx : length NX = length dz) by (unfold NX; rewrite nexrad_length; auto).
  assert (Hz : forall i, (i < length dz)%nat -> nth_error (map (fun _ : F => z) dz) i = Some z).
  { intros i Hi. rewrite map_nth_error'. destruct (nth_error_map_some dz Hi) as (x & ->). reflexivity. }
  f_equal; apply (ext_at _ _ (length dz)); try solve [unfold py_inv; pwlen];
    intros i Hi;
    destruct (some_nth dz i _ eq_refl Hi) as (d & Ed); destruct (some_nth kdp i _ (eq_sym L) Hi) as (k & Ek);
    destruct (some_nth _ i _ Lh Hi) as (zh & Ezh); destruct (some_nth _ i _ Lp Hi) as (zp & Ezp);
    destruct (some_nth _ i _ Lnr Hi) as (nr & Enr); destruct (some_nth _ i _ Lnx Hi) as (nx & Enx);
    (etransitivity; [unfold py_inv; pwr; reflexivity|]); symmetry; pwr; rewrite Ht;
    destruct (flt _ (thresh_frac_ice o)), (fle (thresh_dz o) d), (fle (thresh_kdp o) k), (fle (thresh_zdr o) z); reflexivity.
Qed.

Theorem C97_python_number (dz kdp : arr F) z t ice o : ashape dz = ashape kdp -> arr_ok dz -> arr_ok kdp ->
  fle t z = false ->
  calc_blended_rain_znum true dz z kdp ice "S" o
  = calc_blended_rain (AArr dz) (AArr (constant dz z)) (AArr kdp) ice "S" (with_zdr_thresh t o).
Proof.
  intros S O1 O2 Ht. unfold calc_blended_rain_znum, calc_blended_rain.
  cbn [check_for_array as_array bind constant ashape adata]. rewrite <- S, shape_eqb_refl. cbn [negb andb].
  rewrite (blended_core_py o t) by (auto; unfold arr_ok in *; congruence). reflexivity.
Qed.

Lemma hidro_core_py o t dt (dz kdp fhc : list F) z : length dz = length kdp -> length fhc = length dz -> fle t z = false ->
  hidro_core_with py_inv o "S" dt dz (map (fun _ => z) dz) kdp fhc
  = hidro_core (with_zdr_thresh t o) "S" dt dz (map (fun _ => z) dz) kdp fhc.
Proof.
  intros L Lf Ht. unfold hidro_core, hidro_core_with, with_zdr_thresh.
  cbn [thresh_dz thresh_zdr thresh_kdp thresh_frac_ice thresh_nexrad r_z_a r_z_b r_kdp_a r_kdp_b
    r_z_zdr_a r_z_zdr_b r_z_zdr_c fit_a fit_b method r_kdp_zdr_a r_kdp_zdr_b r_kdp_zdr_c].
  change (String.eqb "S" "S") with true. cbv iota zeta.
  set (NX := calc_rain_nexrad_arr dz _ _ _). assert (Lnx : length NX = length dz) by (unfold NX; rewrite nexrad_length; auto).
  assert (Hz : forall i, (i < length dz)%nat -> nth_error (map (fun _ : F => z) dz) i = Some z).
  { intros i Hi. rewrite map_nth_error'. destruct (nth_error_map_some dz Hi) as (x & ->). reflexivity. }
  f_equal; apply (ext_at _ _ (length dz)); try solve [unfold py_inv; pwlen];
    intros i Hi;
    destruct (some_nth dz i _ eq_refl Hi) as (d & Ed); destruct (some_nth kdp i _ (eq_sym L) Hi) as (k & Ek);
    destruct (some_nth _ i _ Lf Hi) as (c & Ec); destruct (some_nth _ i _ Lnx Hi) as (nx & Enx);
    (etransitivity; [unfold py_inv; pwr; reflexivity|]); symmetry; pwr; rewrite Ht;
    destruct (feq c (flit 1)), (feq c (flit 2)), (feq c (flit 10)), (fle (thresh_dz o) d), (fle (thresh_kdp o) k), (fle (thresh_zdr o) z); reflexivity.
Qed.

Theorem C97_python_number_hidro (dz kdp : arr F) z t fhc o : ashape dz = ashape kdp -> arr_ok dz -> arr_ok kdp ->
  (forall a, fhc = AArr a -> arr_ok a) -> fle t z = false ->
  csu_hidro_rain_znum true dz z kdp fhc "S" o
  = csu_hidro_rain (AArr dz) (AArr (constant dz z)) (AArr kdp) fhc "S" (with_zdr_thresh t o).
Proof.
  intros S O1 O2 Of Ht. unfold csu_hidro_rain_znum, csu_hidro_rain. destruct fhc as [|dd x|a]; auto.
  - cbn [check_for_array as_array bind constant ashape adata broadcast]. rewrite <- S, shape_eqb_refl. cbn [negb andb bind].
    rewrite (hidro_core_py o t); auto; [unfold arr_ok in *; congruence|apply repeat_length].
  - cbn [check_for_array as_array bind constant ashape adata broadcast]. rewrite <- S, shape_eqb_refl. cbn [negb andb].
    destruct (shape_eqb (ashape a) (ashape dz)) eqn:E; [|unfold misfit; destruct existsb; reflexivity]. cbn [bind].
    apply shape_eqb_eq in E. specialize (Of a eq_refl).
    rewrite (hidro_core_py o t); auto; unfold arr_ok in *; congruence.
Qed.

(** Bands other than S do not look at zdr. *)
Theorem C97_other_bands (dz kdp : arr F) z ice band o : ashape dz = ashape kdp -> band <> "S"%string ->
  calc_blended_rain_znum true dz z kdp ice band o
  = calc_blended_rain (AArr dz) (AArr (constant dz z)) (AArr kdp) ice band o.
Proof.
  intros S Hb. rewrite <- C97_numpy_number by auto. unfold calc_blended_rain_znum, blended_core_with.
  apply String.eqb_neq in Hb. rewrite Hb. reflexivity.
Qed.
Theorem C97_other_bands_hidro (dz kdp : arr F) z fhc band o : ashape dz = ashape kdp -> band <> "S"%string ->
  csu_hidro_rain_znum true dz z kdp fhc band o
  = csu_hidro_rain (AArr dz) (AArr (constant dz z)) (AArr kdp) fhc band o.
Proof.
  intros S Hb. rewrite <- C97_numpy_number_hidro by auto. unfold csu_hidro_rain_znum, hidro_core_with.
  apply String.eqb_neq in Hb. rewrite Hb. reflexivity.
Qed.

(** ** Consequences at a gate.  S band: never method 1 or 3. *)
Theorem C97_no_zdr_methods (dz kdp : arr F) z ice o fa fb : ashape dz = ashape kdp -> arr_ok dz -> arr_ok kdp ->
  rain_line o fa fb -> (exists t, fle t z = false) ->
  exists out, calc_blended_rain_znum true dz z kdp ice "S" o = Ok (RainArr (ashape dz) out) /\
    length (out_meth out) = length (adata dz) /\
    forall i d k, nth_error (adata dz) i = Some d -> nth_error (adata kdp) i = Some k ->
      let high := (fle (thresh_dz o) d && fle (thresh_kdp o) k)%bool in
      let m := (if high then 2 else if flt (ice_fraction fa fb d z) (thresh_frac_ice o) then 4 else 5)%Z in
      nth_error (out_meth out) i = Some m /\
      nth_error (out_rain out) i = Some (cast (adt dz) (rate_of_method o (thresh_nexrad o) fa fb m d z k)).
Proof.
  intros S O1 O2 L (t & Ht). rewrite (C97_python_number dz kdp z t) by auto.
  destruct (C08_blended_S_decision_tree dz (constant dz z) kdp ice (with_zdr_thresh t o) fa fb) as (out & E & L1 & L2 & _ & G); auto.
  { unfold arr_ok, constant in *. cbn [ashape adata]. now rewrite map_length. }
  { inversion L; subst; [apply line_user|apply line_cifelli|apply line_cr1995|apply line_other]; auto. }
  exists out. split; auto. split; auto. intros i d k Ed Ek.
  destruct (G i d z k Ed) as (G1 & G2 & _); auto.
  { unfold constant. cbn [adata]. rewrite map_nth_error', Ed. reflexivity. }
  cbn [with_zdr_thresh thresh_dz thresh_kdp thresh_frac_ice thresh_zdr thresh_nexrad] in G1, G2. cbv zeta.
  rewrite Ht in G1, G2. unfold blended_S_method in *.
  destruct (fle (thresh_dz o) d && fle (thresh_kdp o) k)%bool, (flt _ _); auto.
Qed.

(** ** Tropical: a number that reaches the threshold makes R(Kdp) of R(Kdp, Zdr),
    and nothing else changes. *)
Lemma trop_core_py o dt (dz kdp : list F) z cs fhc rain meth : length dz = length kdp ->
  opt_len cs (length dz) -> opt_len fhc (length dz) ->
  trop_core_with py_inv o dt dz (map (fun _ => z) dz) kdp cs fhc = (rain, meth) ->
  length rain = length dz /\ length meth = length dz /\
  forall i d k c f, nth_error dz i = Some d -> nth_error kdp i = Some k -> opt_nth cs i c -> opt_nth fhc i f ->
    let high := (fle (t_thresh_kdp o) k && fle (t_thresh_dz o) d)%bool in
    let reached := fle (t_thresh_zdr o) z in
    let g := trop_gate o dt c f d z k in
    let rescued := (negb (flt d (flit (-10))) && high && reached &&
                    negb (match f with Some c => (flt (flit 2) c && flt c (flit 10)) | None => false end))%bool in
    nth_error rain i = Some (if rescued then cast dt (R_Kdp (t_r_kdp_a o) (t_r_kdp_b o) k) else fst g) /\
    nth_error meth i = Some (if rescued then 2%Z else snd g).
Proof.
  intros Hk Hcs Hf E. unfold trop_core_with in E. cbv zeta in E.
  destruct cs as [cs|], fhc as [fhc|]; injection E as <- <-; simpl in Hcs, Hf;
    (split; [unfold py_inv; pwlen|split; [unfold py_inv; pwlen|]]);
    intros i d k [c|] [f|] Ed Ek Ec Ef; simpl in Ec, Ef; try contradiction;
    assert (Er : nth_error (map (fun _ => z) dz) i = Some z) by (rewrite map_nth_error', Ed; reflexivity);
    unfold trop_gate, trop_method, trop_rate; cbv zeta; unfold py_inv;
    (split; pwr);
    destruct (flt d (flit (-10))), (fle (t_thresh_kdp o) k), (fle (t_thresh_dz o) d),
      (fle (t_thresh_zdr o) z); cbn [andb negb]; try reflexivity;
    try (destruct (feq c (flit 3)), (feq c (flit 1)), (feq c (flit 2)); cbn [andb negb];
         try reflexivity);
    try (destruct (feq f (flit 9)), (flt (flit 2) f), (flt f (flit 10)); reflexivity).
Qed.

Theorem C97_python_number_tropical (dz kdp : arr F) z cs fhc predef band (o : trop_opts F) :
  ashape dz = ashape kdp -> arr_ok dz -> arr_ok kdp -> field_ok (ashape dz) cs -> field_ok (ashape dz) fhc ->
  (predef = "True" -> band <> "S")%string ->
  let co := trop_coefs predef band o in
  exists warned rain meth rain' meth',
    calc_blended_rain_tropical (AArr dz) (AArr (constant dz z)) (AArr kdp) cs fhc predef band o
      = Ok (warned, ashape dz, rain, meth) /\
    calc_blended_rain_tropical_znum true dz z kdp cs fhc predef band o
      = Ok (warned, ashape dz, rain', meth') /\
    length rain' = length rain /\ length meth' = length meth /\
    forall i m x k, nth_error meth i = Some m -> nth_error rain i = Some x -> nth_error (adata kdp) i = Some k ->
      nth_error meth' i = Some (if (m =? 1)%Z then 2%Z else m) /\
      nth_error rain' i = Some (if (m =? 1)%Z then cast (adt dz) (R_Kdp (t_r_kdp_a co) (t_r_kdp_b co) k) else x).
Proof.
  intros S O1 O3 Hc Hf N co.
  assert (Oz : arr_ok (constant dz z)) by (unfold arr_ok, constant in *; cbn [ashape adata]; now rewrite map_length).
  destruct (trop_full dz (constant dz z) kdp cs fhc predef band o eq_refl S O1 Oz O3 Hc Hf)
    as (w & rain & meth & E & W & A & B & C).
  assert (L2 : length (adata dz) = length (adata kdp)) by (unfold arr_ok in *; congruence).
  destruct (broadcast_opt_ok _ (length (adata dz)) cs Hc O1) as (lc & Ec & Lc & Nc & _).
  destruct (index_opt_ok _ (length (adata dz)) fhc Hf O1) as (lf & Ef & Lf & Nf & Wf).
  destruct (trop_core_with py_inv co (adt dz) (adata dz) (map (fun _ => z) (adata dz)) (adata kdp) lc lf) as [rain' meth'] eqn:E'.
  destruct (trop_core_py _ _ _ _ _ _ _ _ _ L2 Lc Lf E') as (A' & B' & C').
  exists w, rain, meth, rain', meth'. split; auto. split; [|split; [congruence|split; [congruence|]]].
  - unfold calc_blended_rain_tropical_znum.
    assert ((String.eqb predef "True" && String.eqb band "S")%bool = false) as ->.
    { destruct (String.eqb_spec predef "True"); auto. cbn [andb]. apply String.eqb_neq. auto. }
    rewrite <- S, shape_eqb_refl. cbn [negb]. rewrite Ec. cbn [bind]. rewrite Ef. cbn [bind].
    fold co. rewrite E'. do 3 f_equal. destruct lf, Wf as (W1 & W2); destruct w; auto; exfalso.
    + destruct W as (W & _). specialize (W2 (W eq_refl)). discriminate.
    + destruct W as (_ & W). specialize (W (W1 eq_refl)). discriminate.
  - intros i m x k Em Ex Ek. pose proof (nth_error_lt _ _ Ek) as Hi. rewrite <- L2 in Hi.
    destruct (nth_error_map_some (adata dz) Hi) as (d & Ed).
    assert (exists c, field_at cs i c) as (c & Hci).
    { destruct cs as [|dd s|a]; [exists None; exact I|exists (Some s); reflexivity|].
      destruct (some_nth (adata a) i (length (adata dz))) as (v & Hv); auto.
      - destruct Hc as (Hs & Ha). unfold arr_ok in *. congruence.
      - now exists (Some v). }
    assert (exists f, field_at fhc i f) as (f & Hfi).
    { destruct fhc as [|dd s|a]; [exists None; exact I|exists (Some s); reflexivity|].
      destruct (some_nth (adata a) i (length (adata dz))) as (v & Hv); auto.
      - destruct Hf as (Hs & Ha). unfold arr_ok in *. congruence.
      - now exists (Some v). }
    destruct (C i d z k c f) as (C1 & C2); auto.
    { unfold constant. cbn [adata]. rewrite map_nth_error', Ed. reflexivity. }
    rewrite Ex in C1. rewrite Em in C2. injection C1 as ->. injection C2 as ->.
    destruct (C' i d k c f) as (D1 & D2); auto. cbv zeta in D1, D2. fold co. rewrite D1, D2.
    set (rescued := (_ && _)%bool) in *.
    assert (R : (snd (trop_gate co (adt dz) c f d z k) =? 1)%Z = rescued).
    { unfold trop_gate, trop_method, rescued. cbv zeta.
      destruct (flt d (flit (-10))), (fle (t_thresh_kdp co) k), (fle (t_thresh_dz co) d), (fle (t_thresh_zdr co) z);
        cbn [andb negb]; try reflexivity; destruct f as [f|]; cbn [snd]; try reflexivity;
        try (destruct (flt (flit 2) f && flt f (flit 10))%bool; cbn [negb]; try reflexivity);
        destruct c as [c|]; try reflexivity; destruct (feq c (flit 3)), (feq c (flit 1)), (feq c (flit 2)); reflexivity. }
    rewrite R. auto.
Qed.

(** predef='True' at S band: the 1-tuple coefficients make it a TypeError. *)
Theorem C97_tropical_predef_S py (dz kdp : arr F) z cs fhc (o : trop_opts F) :
  calc_blended_rain_tropical_znum py dz z kdp cs fhc "True" "S" o = Raise TypeError.
Proof. reflexivity. Qed.
End LawFree.

(** ** Non-vacuity: one gate of heavy rain (45 dBZ, 2 deg/km), zdr = 2 dB.  The
    array call uses R(Kdp, Zdr), the call with the number R(Kdp). *)
Definition heavy (x : Q) : arr (option Q) := mkarr DFloat [1]%nat [Some x].
Definition meths (r : res (rain_ret (option Q))) : list Z :=
  match r with Ok (RainArr _ o) => out_meth o | _ => [] end.
Example C97_hidro :
  meths (csu_hidro_rain (AArr (heavy 45)) (AArr (heavy 2)) (AArr (heavy 2)) (AScalar DInt (Some 2%Q)) "S" rain_defaults) = [1]%Z /\
  meths (csu_hidro_rain_znum true (heavy 45) (Some 2%Q) (heavy 2) (AScalar DInt (Some 2%Q)) "S" rain_defaults) = [2]%Z /\
  meths (csu_hidro_rain_znum false (heavy 45) (Some 2%Q) (heavy 2) (AScalar DInt (Some 2%Q)) "S" rain_defaults) = [1]%Z.
Proof. repeat split; vm_compute; reflexivity. Qed.
Example C97_tropical :
  match calc_blended_rain_tropical_znum true (heavy 45) (Some 2%Q) (heavy 2) ANone ANone "False" "S" trop_defaults,
        calc_blended_rain_tropical (AArr (heavy 45)) (AArr (heavy 2)) (AArr (heavy 2)) ANone ANone "False" "S" trop_defaults with
  | Ok (_, _, _, m), Ok (_, _, _, m') => m = [2]%Z /\ m' = [1]%Z
  | _, _ => False
  end.
Proof. vm_compute. auto. Qed.
