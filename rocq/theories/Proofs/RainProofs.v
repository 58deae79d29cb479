From Coq Require Import Reals Lra.
From Verif Require Import Base.Num Base.ListFacts Base.XReal Base.XTac Base.Pointwise.
From Verif Require Import Model.Common Model.BlendedRain Model.Tropical Spec.RainSpec.
From Verif Require Model.LiquidIce.

Section Gate.
Context {F : Type} `{FloatOps F}.

Lemma nexrad_nth dz cap a b i d : nth_error dz i = Some d ->
  nth_error (calc_rain_nexrad_arr dz cap a b) i = Some (R_Z_capped cap a b d).
Proof. intro E. unfold calc_rain_nexrad_arr. pwr. reflexivity. Qed.
Lemma nexrad_length dz cap a b : length (calc_rain_nexrad_arr dz cap a b) = length dz.
Proof. unfold calc_rain_nexrad_arr. pwlen. Qed.

Lemma zhzv_nth dz zdr i d r : nth_error dz i = Some d -> nth_error zdr i = Some r ->
  nth_error (fst (LiquidIce.calc_zh_zv dz zdr)) i = Some (lin d) /\
  nth_error (snd (LiquidIce.calc_zh_zv dz zdr)) i = Some (fdiv (lin d) (lin r)).
Proof. intros E1 E2. unfold LiquidIce.calc_zh_zv; simpl. split; pwr; reflexivity. Qed.

Lemma zdp_nth zh zv i h v : nth_error zh i = Some h -> nth_error zv i = Some v ->
  nth_error (LiquidIce.calc_zdp zh zv) i =
  Some (fmul (flit 10) (flog10
    (if fle (fsub h v) (flit 0) then flit 0.000000000001 else fsub h v))).
Proof. intros E1 E2. unfold LiquidIce.calc_zdp. pwr. reflexivity. Qed.
Lemma zdp_length zh zv : length zh = length zv -> length (LiquidIce.calc_zdp zh zv) = length zh.
Proof. intro E. unfold LiquidIce.calc_zdp. pwlen. Qed.

(** resolution of fit_a, fit_b *)
Definition resolve_fits (o : rain_opts F) : res (F * F) :=
  match fit_a o, fit_b o with
  | None, _ => Ok (LiquidIce.get_linear_fits (method o))
  | Some a, Some b => Ok (a, b)
  | Some _, None => Raise TypeError
  end.

Definition blended_S_rate (o : rain_opts F) (fa fb : F) (m : Z) (d r k : F) : F :=
  if Z.eqb m 1 then R_Kdp_Zdr (r_kdp_zdr_a o) (r_kdp_zdr_b o) (r_kdp_zdr_c o) k r
  else if Z.eqb m 2 then R_Kdp (r_kdp_a o) (r_kdp_b o) k
  else if Z.eqb m 3 then R_Z_Zdr (r_z_zdr_a o) (r_z_zdr_b o) (r_z_zdr_c o) d r
  else if Z.eqb m 4 then R_Z_capped (thresh_nexrad o) (r_z_a o) (r_z_b o) d
  else R_Z_capped (thresh_nexrad o) (r_z_a o) (r_z_b o)
         (fmul (flit 10) (flog10 (zrain_of fa fb d r))).

Definition blended_S_meth (o : rain_opts F) (fa fb d r k : F) : Z :=
  blended_S_method (flt (ice_fraction fa fb d r) (thresh_frac_ice o))
    (fle (thresh_dz o) d && fle (thresh_kdp o) k) (fle (thresh_zdr o) r).

Lemma blended_core_S o ice dt dz zdr kdp fa fb :
  resolve_fits o = Ok (fa, fb) ->
  length dz = length zdr -> length dz = length kdp ->
  exists out, blended_core o "S" ice dt dz zdr kdp = Ok out /\
    length (out_rain out) = length dz /\ length (out_meth out) = length dz /\
    (forall i d r k, nth_error dz i = Some d -> nth_error zdr i = Some r ->
       nth_error kdp i = Some k ->
       nth_error (out_meth out) i = Some (blended_S_meth o fa fb d r k) /\
       nth_error (out_rain out) i =
         Some (cast dt (blended_S_rate o fa fb (blended_S_meth o fa fb d r k) d r k)) /\
       match out_ice out with
       | None => ice = false
       | Some (zdp, fi) => ice = true /\ nth_error zdp i = Some (zdp_of d r) /\
                           nth_error fi i = Some (ice_fraction fa fb d r)
       end) /\
    (ice = false -> out_ice out = None) /\
    (ice = true -> exists zdp fi, out_ice out = Some (zdp, fi) /\
         length zdp = length dz /\ length fi = length dz).
Proof.
  intros Hf Hz Hk.
  unfold blended_core, blended_core_with.
  change (String.eqb "S" "S") with true. cbv iota zeta.
  destruct (LiquidIce.calc_zh_zv dz zdr) as [zhor zvert] eqn:Ezz.
  fold (resolve_fits o). rewrite Hf. cbn [bind].
  assert (Lh : length zhor = length dz).
  { unfold LiquidIce.calc_zh_zv in Ezz. injection Ezz as <- <-. now rewrite map_length. }
  assert (Lv : length zvert = length dz).
  { unfold LiquidIce.calc_zh_zv in Ezz. injection Ezz as <- <-.
    rewrite map2_length, map_length; lia. }
  assert (Lp : length (LiquidIce.calc_zdp zhor zvert) = length dz) by (rewrite zdp_length; lia).
  eexists; split; [reflexivity|]. cbn [out_rain out_meth out_ice].
  split; [|split; [|split; [|split]]].
  - pwlen; rewrite nexrad_length; pwlen.
  - pwlen; rewrite nexrad_length; pwlen.
  - intros i d r k Ed Er Ek.
    destruct (zhzv_nth dz zdr i d r Ed Er) as [Eh Ev]. rewrite Ezz in Eh, Ev; simpl in Eh, Ev.
    pose proof (zdp_nth _ _ _ _ _ Eh Ev) as Ep.
    pose proof (nexrad_nth dz (thresh_nexrad o) (r_z_a o) (r_z_b o) i d Ed) as En.
    set (DR := map (fun z : F => fmul (flit 10) (flog10 z)) _).
    assert (Edr : nth_error DR i = Some (fmul (flit 10) (flog10 (zrain_of fa fb d r)))).
    { unfold DR. pwr. reflexivity. }
    pose proof (nexrad_nth DR (thresh_nexrad o) (r_z_a o) (r_z_b o) i _ Edr) as En2.
    split; [|split].
    + pwr. unfold blended_S_meth, blended_S_method.
          unfold ice_fraction, zrain_of, zdp_of.
      destruct (flt _ (thresh_frac_ice o)), (fle (thresh_dz o) d), (fle (thresh_kdp o) k),
        (fle (thresh_zdr o) r); reflexivity.
    + pwr. unfold blended_S_meth, blended_S_method, blended_S_rate.
      unfold ice_fraction, zrain_of, zdp_of.
      destruct (flt _ (thresh_frac_ice o)), (fle (thresh_dz o) d), (fle (thresh_kdp o) k),
        (fle (thresh_zdr o) r); reflexivity.
    + destruct ice; auto. split; auto. split; [exact Ep|]. pwr. reflexivity.
  - intros ->; auto.
  - intros ->. eexists; eexists; split; [reflexivity|]. split; auto.
    rewrite map2_length, map_length; lia.
Qed.

Definition blended_other_rate (o : rain_opts F) (m : Z) (d k : F) : F :=
  if Z.eqb m 2 then R_Kdp (r_kdp_a o) (r_kdp_b o) k
  else R_Z_capped (thresh_nexrad o) (r_z_a o) (r_z_b o) d.

Lemma blended_core_other o band ice dt dz zdr kdp :
  band <> "S"%string -> length dz = length kdp ->
  exists out, blended_core o band ice dt dz zdr kdp = Ok out /\
    length (out_rain out) = length dz /\ length (out_meth out) = length dz /\
    out_ice out = None /\
    (forall i d k, nth_error dz i = Some d -> nth_error kdp i = Some k ->
       let m := blended_other_method (fle (thresh_dz o) d && fle (thresh_kdp o) k) in
       nth_error (out_meth out) i = Some m /\
       nth_error (out_rain out) i = Some (cast dt (blended_other_rate o m d k))).
Proof.
  intros Hb Hk. unfold blended_core, blended_core_with.
  apply String.eqb_neq in Hb. rewrite Hb. cbv iota zeta.
  eexists; split; [reflexivity|]. cbn [out_rain out_meth out_ice].
  split; [|split; [|split; [auto|]]].
  - pwlen; rewrite nexrad_length; auto.
  - pwlen.
  - intros i d k Ed Ek.
    pose proof (nexrad_nth dz (thresh_nexrad o) (r_z_a o) (r_z_b o) i d Ed) as En.
    split; pwr; unfold blended_other_method, blended_other_rate;
    destruct (fle (thresh_dz o) d), (fle (thresh_kdp o) k); reflexivity.
Qed.

Definition hidro_S_rate (o : rain_opts F) (m : Z) (d r k : F) : F :=
  if Z.eqb m 1 then R_Kdp_Zdr (r_kdp_zdr_a o) (r_kdp_zdr_b o) (r_kdp_zdr_c o) k r
  else if Z.eqb m 2 then R_Kdp (r_kdp_a o) (r_kdp_b o) k
  else if Z.eqb m 3 then R_Z_Zdr (r_z_zdr_a o) (r_z_zdr_b o) (r_z_zdr_c o) d r
  else R_Z_capped (flit 53) (r_z_a o) (r_z_b o) d.

(** In the law-free setting a "float" may compare equal to two class numbers;
    this says it does not (true for IEEE and xr). *)
Definition class_sane (c : F) : Prop := phase_of c = Rain ->
  feq c (flit 5) = false /\ feq c (flit 7) = false /\ feq c (flit 8) = false /\ feq c (flit 9) = false.

Lemma hidro_core_S o dt dz zdr kdp fhc :
  length dz = length zdr -> length dz = length kdp -> length dz = length fhc ->
  let out := hidro_core o "S" dt dz zdr kdp fhc in
  length (out_rain out) = length dz /\ length (out_meth out) = length dz /\ out_ice out = None /\
  (forall i d r k c, nth_error dz i = Some d -> nth_error zdr i = Some r ->
     nth_error kdp i = Some k -> nth_error fhc i = Some c -> class_sane c ->
     let m := hidro_S_method (phase_of c) (fle (thresh_dz o) d) (fle (thresh_kdp o) k)
                             (fle (thresh_zdr o) r) in
     nth_error (out_meth out) i = Some m /\
     nth_error (out_rain out) i =
       Some (if Z.eqb m 0 then flit 0 else cast dt (hidro_S_rate o m d r k))).
Proof.
  intros Hz Hk Hf. unfold hidro_core, hidro_core_with. change (String.eqb "S" "S") with true. cbv iota zeta.
  cbn [out_rain out_meth out_ice]. split; [|split; [|split; [auto|]]].
  - pwlen; rewrite nexrad_length; auto.
  - pwlen.
  - intros i d r k c Ed Er Ek Ec Hsane.
    pose proof (nexrad_nth dz (flit 53) (r_z_a o) (r_z_b o) i d Ed) as En.
    unfold class_sane in Hsane.
    split; pwr; unfold hidro_S_method, phase_of, hidro_S_rate in *;
    destruct (feq c (flit 1)), (feq c (flit 2)), (feq c (flit 10));
      cbn [orb andb negb] in *; try (destruct Hsane as (-> & -> & -> & ->); [reflexivity|]);
      try (destruct (feq c (flit 5)), (feq c (flit 7)), (feq c (flit 8)), (feq c (flit 9)));
      destruct (fle (thresh_dz o) d), (fle (thresh_kdp o) k), (fle (thresh_zdr o) r);
      reflexivity.
Qed.

Lemma hidro_core_other o band dt dz zdr kdp fhc :
  band <> "S"%string -> length dz = length kdp -> length dz = length fhc ->
  let out := hidro_core o band dt dz zdr kdp fhc in
  length (out_rain out) = length dz /\ length (out_meth out) = length dz /\ out_ice out = None /\
  (forall i d k c, nth_error dz i = Some d ->
     nth_error kdp i = Some k -> nth_error fhc i = Some c ->
     let high := (fle (thresh_dz o) d && fle (thresh_kdp o) k)%bool in
     let rainy := match phase_of c with Rain => true | _ => false end in
     nth_error (out_meth out) i = Some (if high then 2 else if rainy then 4 else 2)%Z /\
     nth_error (out_rain out) i =
       Some (cast dt (if high then R_Kdp (r_kdp_a o) (r_kdp_b o) k
             else if rainy then R_Z_capped (flit 53) (r_z_a o) (r_z_b o) d else flit 0))).
Proof.
  intros Hb Hk Hf. unfold hidro_core, hidro_core_with. apply String.eqb_neq in Hb. rewrite Hb. cbv iota zeta.
  cbn [out_rain out_meth out_ice]. split; [|split; [|split; [auto|]]].
  - pwlen; rewrite nexrad_length; auto.
  - pwlen.
  - intros i d k c Ed Ek Ec.
    pose proof (nexrad_nth dz (flit 53) (r_z_a o) (r_z_b o) i d Ed) as En.
    split; pwr; unfold phase_of;
    destruct (feq c (flit 1)), (feq c (flit 2)), (feq c (flit 10)); cbn [orb andb negb];
      try (destruct (feq c (flit 5)), (feq c (flit 7)), (feq c (flit 8)), (feq c (flit 9)));
      destruct (fle (thresh_dz o) d), (fle (thresh_kdp o) k); reflexivity.
Qed.

Definition trop_rate (o : trop_opts F) (m : Z) (d r k : F) : F :=
  if Z.eqb m 1 then R_Kdp_Zdr (t_r_kdp_zdr_a o) (t_r_kdp_zdr_b o) (t_r_kdp_zdr_c o) k r
  else if Z.eqb m 2 then R_Kdp (t_r_kdp_a o) (t_r_kdp_b o) k
  else if Z.eqb m 3 then R_Z_Zdr (t_r_z_zdr_a o) (t_r_z_zdr_b o) (t_r_z_zdr_c o) d r
  else if Z.eqb m 4 then R_Z (t_r_z_a o) (t_r_z_b o) d
  else if Z.eqb m 5 then R_Z (t_r_z_a_c o) (t_r_z_b_c o) d
  else R_Z (t_r_z_a_s o) (t_r_z_b_s o) d.

Definition opt_nth (l : option (list F)) (i : nat) (x : option F) : Prop :=
  match l, x with
  | None, None => True
  | Some l, Some v => nth_error l i = Some v
  | _, _ => False
  end.
Definition opt_len (l : option (list F)) (n : nat) : Prop :=
  match l with None => True | Some l => length l = n end.

(** The exact result at one gate: (rain, method). *)
Definition trop_gate (o : trop_opts F) (dt : dtype) (cs fhc : option F) (d r k : F) : F * Z :=
  let high := (fle (t_thresh_kdp o) k && fle (t_thresh_dz o) d)%bool in
  let m := trop_method cs high (fle (t_thresh_zdr o) r) in
  let base := if Z.eqb m (-1) then flit 0 else cast dt (trop_rate o m d r k) in
  if flt d (flit (-10)) then (cast dt (flit 0), (-1)%Z)
  else match fhc with
       | None => (base, m)
       | Some c =>
           let ice := (flt (flit 2) c && flt c (flit 10))%bool in
           (if (feq c (flit 9) && high)%bool then cast dt (R_Kdp (t_r_kdp_a o) (t_r_kdp_b o) k)
            else if ice then cast dt (flit 0) else base,
            if ice then 2%Z else m)
       end.

Lemma trop_core_gate o dt dz zdr kdp cs fhc rain meth :
  length dz = length zdr -> length dz = length kdp ->
  opt_len cs (length dz) -> opt_len fhc (length dz) ->
  trop_core o dt dz zdr kdp cs fhc = (rain, meth) ->
  length rain = length dz /\ length meth = length dz /\
  forall i d r k c f, nth_error dz i = Some d -> nth_error zdr i = Some r ->
    nth_error kdp i = Some k -> opt_nth cs i c -> opt_nth fhc i f ->
    nth_error rain i = Some (fst (trop_gate o dt c f d r k)) /\
    nth_error meth i = Some (snd (trop_gate o dt c f d r k)).
Proof.
  intros Hz Hk Hcs Hf E. unfold trop_core, trop_core_with in E. cbv zeta in E.
  destruct cs as [cs|], fhc as [fhc|]; injection E as <- <-; simpl in Hcs, Hf;
    (split; [pwlen|split; [pwlen|]]);
    intros i d r k [c|] [f|] Ed Er Ek Ec Ef; simpl in Ec, Ef; try contradiction;
    unfold trop_gate, trop_method, trop_rate;
    (split; pwr);
    destruct (flt d (flit (-10))), (fle (t_thresh_kdp o) k), (fle (t_thresh_dz o) d),
      (fle (t_thresh_zdr o) r); cbn [andb negb]; try reflexivity;
    try (destruct (feq c (flit 3)), (feq c (flit 1)), (feq c (flit 2)); cbn [andb negb];
         try reflexivity);
    try (destruct (feq f (flit 9)), (flt (flit 2) f), (flt f (flit 10)); reflexivity).
Qed.
End Gate.
