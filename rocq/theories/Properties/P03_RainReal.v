(** * Properties C10, C12, C15: rain rates over the extended reals *)
From Coq Require Import Reals Lra.
From Verif Require Import Base.Num Base.ListFacts Base.XReal Base.XTac Base.XArith.
From Verif Require Import Model.Common Model.BlendedRain Model.Tropical Spec.RainSpec.
From Verif Require Import Proofs.RainProofs Proofs.RainReal Properties.P02_Rain.
Open Scope R_scope.

(** Class numbers are never confused over the reals. *)
Lemma class_sane_xr (c : xr) : class_sane c.
Proof.
  unfold class_sane, phase_of. destruct c as [c| | |]; xs; try discriminate.
  destruct (Reqb_spec c (1 / 1)), (Reqb_spec c (2 / 1)), (Reqb_spec c (10 / 1)); cbn [orb];
    try (intros _; repeat split; apply Reqb_false; lra).
  destruct (_ || _)%bool; discriminate.
Qed.

(** Numeric options under which C10 speaks: finite, leading coefficients
    non-negative, Z-R parameters and the Kdp threshold positive. *)
Record usable (o : rain_opts xr) : Prop := {
  u_dz : exists x, thresh_dz o = Fin x;
  u_nex : exists x, thresh_nexrad o = Fin x;
  u_kdp : exists x, thresh_kdp o = Fin x /\ 0 < x;
  u_za : exists x, r_z_a o = Fin x /\ 0 < x;
  u_zb : exists x, r_z_b o = Fin x /\ 0 < x;
  u_ka : exists x, r_kdp_a o = Fin x /\ 0 <= x;
  u_kb : exists x, r_kdp_b o = Fin x;
  u_zza : exists x, r_z_zdr_a o = Fin x /\ 0 <= x;
  u_zzb : exists x, r_z_zdr_b o = Fin x;
  u_zzc : exists x, r_z_zdr_c o = Fin x;
  u_kza : exists x, r_kdp_zdr_a o = Fin x /\ 0 <= x;
  u_kzb : exists x, r_kdp_zdr_b o = Fin x;
  u_kzc : exists x, r_kdp_zdr_c o = Fin x;
  u_fa : forall a, fit_a o = Some a -> exists x, a = Fin x;
  u_fb : forall a, fit_b o = Some a -> exists x, a = Fin x }.

(** The defaults are usable. *)
Example defaults_usable : usable rain_defaults.
Proof.
  constructor; simpl; try (eexists; split; [reflexivity|simpl; lra]);
    try (eexists; reflexivity); discriminate.
Qed.

Definition finite_data (a : arr xr) : Prop :=
  forall i x, nth_error (adata a) i = Some x -> exists r, x = Fin r.

(** rate cap: the Z-R rate at the reflectivity cap *)
Definition capped_at (cap za zb : R) (v : R) : Prop :=
  v <= Rpower (Rpower 10 (cap / 10) / za) (1 / zb).

Lemma mul_nonneg3 a b c : 0 <= a -> 0 < b -> 0 < c -> 0 <= a * b * c.
Proof. intros. apply Rmult_le_pos; [apply Rmult_le_pos|]; lra. Qed.

Lemma rate_nonneg (o : rain_opts xr) cap fa fb m d r k : usable o ->
  (1 <= m <= 5)%Z -> ((m = 1 \/ m = 2)%Z -> 0 < k) ->
  fin_nonneg (rate_of_method o (Fin cap) (Fin fa) (Fin fb) m (Fin d) (Fin r) (Fin k)).
Proof.
  intros U Hm Hk. destruct U.
  destruct u_za0 as (za & Eza & Pza), u_zb0 as (zb & Ezb & Pzb), u_ka0 as (ka & Eka & Pka),
    u_kb0 as (kb & Ekb), u_zza0 as (zza & Ezza & Pzza), u_zzb0 as (zzb & Ezzb),
    u_zzc0 as (zzc & Ezzc), u_kza0 as (kza & Ekza & Pkza), u_kzb0 as (kzb & Ekzb),
    u_kzc0 as (kzc & Ekzc).
  assert (Cm : (m = 1 \/ m = 2 \/ m = 3 \/ m = 4 \/ m = 5)%Z) by lia.
  destruct Cm as [->|[->|[->|[->| ->]]]]; cbn [rate_of_method]; rewrite ?Eza, ?Ezb, ?Eka, ?Ekb, ?Ezza, ?Ezzb,
    ?Ezzc, ?Ekza, ?Ekzb, ?Ekzc.
  - rewrite R_Kdp_Zdr_fin by auto. eexists; split; [reflexivity|].
    apply mul_nonneg3; auto using Rpower_pos.
  - rewrite R_Kdp_fin by auto. eexists; split; [reflexivity|].
    apply Rmult_le_pos; auto. left; apply Rpower_pos.
  - rewrite R_Z_Zdr_fin. eexists; split; [reflexivity|].
    apply mul_nonneg3; auto using Rpower_pos.
  - rewrite R_Z_capped_fin by auto. eexists; split; [reflexivity|]. left; apply Rpower_pos.
  - destruct (zrain_fin fa fb d r) as (z & Hz & ->). rewrite flog10_fin by auto.
    rewrite (lit_fin 10), fmul_fin, R_Z_capped_fin by auto.
    eexists; split; [reflexivity|]. left; apply Rpower_pos.
Qed.

Lemma rain_line_fin (o : rain_opts xr) fa fb : usable o -> rain_line o fa fb ->
  exists x y, fa = Fin x /\ fb = Fin y.
Proof.
  intros U L. inversion L; subst; try (eexists; eexists; split; reflexivity).
  destruct (u_fa _ U _ H) as [x ->], (u_fb _ U _ H0) as [y ->]. eauto.
Qed.

Lemma Some_inj {A} (a b : A) : Some a = Some b -> a = b.
Proof. congruence. Qed.
Lemma blended_S_method_range a b c : (1 <= blended_S_method a b c <= 5)%Z.
Proof. destruct a, b, c; simpl; lia. Qed.
Lemma blended_S_method_12 a b c :
  (blended_S_method a b c = 1 \/ blended_S_method a b c = 2)%Z -> b = true.
Proof. destruct a, b, c; simpl; intuition discriminate. Qed.
Lemma hidro_S_method_range p a b c :
  hidro_S_method p a b c <> 0%Z -> (1 <= hidro_S_method p a b c <= 5)%Z.
Proof. destruct p, a, b, c; simpl; lia. Qed.
Lemma hidro_S_method_12 p a b c :
  (hidro_S_method p a b c = 1 \/ hidro_S_method p a b c = 2)%Z -> b = true.
Proof. destruct p, a, b, c; simpl; intuition discriminate. Qed.

(** ** C10 *)
(** Every rain rate is a finite number >= 0, any band, any dtype. *)
Theorem C10_blended_rain_finite_nonnegative :
  forall (dz zdr kdp : arr xr) ice_flag band (o : rain_opts xr) fa fb sh out,
  usable o -> rain_line o fa fb -> arr_ok dz -> arr_ok zdr -> arr_ok kdp ->
  ashape dz = ashape zdr -> ashape dz = ashape kdp ->
  finite_data dz -> finite_data zdr -> finite_data kdp ->
  calc_blended_rain (AArr dz) (AArr zdr) (AArr kdp) ice_flag band o = Ok (RainArr sh out) ->
  forall i v, nth_error (out_rain out) i = Some v -> fin_nonneg v.
Proof.
  intros dz zdr kdp ice band o fa fb sh out U L O1 O2 O3 S1 S2 F1 F2 F3 E i v Hv.
  assert (L1 : length (adata dz) = length (adata zdr)) by (unfold arr_ok in *; congruence).
  assert (L2 : length (adata dz) = length (adata kdp)) by (unfold arr_ok in *; congruence).
  destruct (rain_line_fin _ _ _ U L) as (x & y & -> & ->).
  assert (U' := U). destruct U' as [_ (cap & Ecap) (tk & Etk & Ptk) (za & Eza & Pza) (zb & Ezb & Pzb)
     (ka & Eka & Pka) (kb & Ekb) _ _ _ _ _ _ _ _].
  destruct (string_dec band "S") as [->|Hb].
  - destruct (C08_blended_S_decision_tree dz zdr kdp ice o (Fin x) (Fin y) S1 S2 O1 O2 O3 L)
      as (out' & E' & A & B & _ & D).
    rewrite E in E'. injection E'; intros; subst out' sh.
    assert (Hi : (i < length (adata dz))%nat) by (rewrite <- A; eapply nth_error_lt; eauto).
    destruct (nth_error_map_some _ Hi) as [d Ed].
    destruct (nth_error_length_eq _ _ _ L1 Ed) as [r Er].
    destruct (nth_error_length_eq _ _ _ L2 Ed) as [k Ek].
    destruct (D i d r k Ed Er Ek) as (_ & D2 & _). rewrite Hv in D2. apply Some_inj in D2. rewrite D2. clear D2 Hv.
    destruct (F1 _ _ Ed) as [d' ->], (F2 _ _ Er) as [r' ->], (F3 _ _ Ek) as [k' ->].
    apply cast_nonneg. rewrite Ecap. apply rate_nonneg; auto.
    + apply blended_S_method_range.
    + intro H12. apply blended_S_method_12 in H12. apply andb_true_iff in H12.
      destruct H12 as [_ H12]. rewrite Etk, fle_fin in H12. apply Rleb_true in H12. lra.
  - destruct (C09_blended_other_bands dz zdr kdp ice band o Hb S1 S2 O1 O3)
      as (out' & E' & A & B & _ & D).
    rewrite E in E'. injection E'; intros; subst out' sh.
    assert (Hi : (i < length (adata dz))%nat) by (rewrite <- A; eapply nth_error_lt; eauto).
    destruct (nth_error_map_some _ Hi) as [d Ed].
    destruct (nth_error_length_eq _ _ _ L2 Ed) as [k Ek].
    destruct (D i d k Ed Ek) as [Dh Dl].
    destruct (F1 _ _ Ed) as [d' ->], (F3 _ _ Ek) as [k' ->].
    destruct (fle (thresh_dz o) (Fin d')) eqn:G1; [destruct (fle (thresh_kdp o) (Fin k')) eqn:G2|].
    + destruct Dh as [_ Dh]; auto. rewrite Hv in Dh. apply Some_inj in Dh. rewrite Dh. apply cast_nonneg.
      rewrite Etk, fle_fin in G2. apply Rleb_true in G2.
      change (fmul (r_kdp_a o) (fpow (Fin k') (r_kdp_b o))) with (R_Kdp (r_kdp_a o) (r_kdp_b o) (Fin k')).
      rewrite Eka, Ekb, R_Kdp_fin by lra. eexists; split; [reflexivity|].
      apply Rmult_le_pos; auto. left; apply Rpower_pos.
    + destruct Dl as [_ Dl]; [intros [? ?]; discriminate|]. rewrite Hv in Dl. apply Some_inj in Dl. rewrite Dl.
      apply cast_nonneg. rewrite Ecap, Eza, Ezb, R_Z_capped_fin by auto.
      eexists; split; [reflexivity|]. left; apply Rpower_pos.
    + destruct Dl as [_ Dl]; [intros [? ?]; discriminate|]. rewrite Hv in Dl. apply Some_inj in Dl. rewrite Dl.
      apply cast_nonneg. rewrite Ecap, Eza, Ezb, R_Z_capped_fin by auto.
      eexists; split; [reflexivity|]. left; apply Rpower_pos.
Qed.

(** Methods 4 and 5 never exceed the Z-R rate at thresh_nexrad. *)
Theorem C10_blended_rain_methods_4_5_capped :
  forall (dz zdr kdp : arr xr) ice_flag (o : rain_opts xr) fa fb sh out cap za zb,
  usable o -> rain_line o fa fb -> arr_ok dz -> arr_ok zdr -> arr_ok kdp ->
  ashape dz = ashape zdr -> ashape dz = ashape kdp ->
  finite_data dz -> finite_data zdr -> finite_data kdp -> adt dz = DFloat ->
  thresh_nexrad o = Fin cap -> r_z_a o = Fin za -> r_z_b o = Fin zb ->
  calc_blended_rain (AArr dz) (AArr zdr) (AArr kdp) ice_flag "S" o = Ok (RainArr sh out) ->
  forall i v m, nth_error (out_rain out) i = Some (Fin v) -> nth_error (out_meth out) i = Some m ->
    (m = 4 \/ m = 5)%Z -> capped_at cap za zb v.
Proof.
  intros dz zdr kdp ice o fa fb sh out cap za zb U L O1 O2 O3 S1 S2 F1 F2 F3 Hdt Ec Ea Eb E i v m Hv Hm H45.
  assert (L1 : length (adata dz) = length (adata zdr)) by (unfold arr_ok in *; congruence).
  assert (L2 : length (adata dz) = length (adata kdp)) by (unfold arr_ok in *; congruence).
  destruct (rain_line_fin _ _ _ U L) as (x & y & -> & ->).
  destruct (u_za _ U) as (za' & Eza & Pza), (u_zb _ U) as (zb' & Ezb & Pzb).
  rewrite Ea in Eza; injection Eza as <-. rewrite Eb in Ezb; injection Ezb as <-.
  destruct (C08_blended_S_decision_tree dz zdr kdp ice o (Fin x) (Fin y) S1 S2 O1 O2 O3 L)
    as (out' & E' & A & B & _ & D).
  rewrite E in E'. injection E'; intros; subst out' sh.
  assert (Hi : (i < length (adata dz))%nat) by (rewrite <- A; eapply nth_error_lt; eauto).
  destruct (nth_error_map_some _ Hi) as [d Ed].
  destruct (nth_error_length_eq _ _ _ L1 Ed) as [r Er].
  destruct (nth_error_length_eq _ _ _ L2 Ed) as [k Ek].
  destruct (D i d r k Ed Er Ek) as (D1 & D2 & _).
  rewrite Hm in D1. apply Some_inj in D1. rewrite <- D1 in D2.
  destruct (F1 _ _ Ed) as [d' ->], (F2 _ _ Er) as [r' ->], (F3 _ _ Ek) as [k' ->].
  rewrite Hv, Hdt, Ec in D2. unfold cast in D2. clear D1 Hm. unfold capped_at.
  destruct H45 as [-> | ->]; cbn [rate_of_method] in D2; rewrite Ea, Eb in D2.
  - rewrite R_Z_capped_fin in D2 by auto. injection D2 as ->.
    apply R_Z_mono; auto using Rmin_r.
  - destruct (zrain_fin x y d' r') as (z & Hz & Ez). rewrite Ez in D2.
    rewrite flog10_fin in D2 by auto. rewrite (lit_fin 10), fmul_fin, R_Z_capped_fin in D2 by auto. injection D2 as ->.
    apply R_Z_mono; auto using Rmin_r.
Qed.

Theorem C10_other_bands_capped :
  forall (dz zdr kdp : arr xr) ice_flag band (o : rain_opts xr) sh out cap za zb, band <> "S"%string ->
  usable o -> arr_ok dz -> arr_ok kdp ->
  ashape dz = ashape zdr -> ashape dz = ashape kdp ->
  finite_data dz -> adt dz = DFloat ->
  thresh_nexrad o = Fin cap -> r_z_a o = Fin za -> r_z_b o = Fin zb ->
  calc_blended_rain (AArr dz) (AArr zdr) (AArr kdp) ice_flag band o = Ok (RainArr sh out) ->
  forall i v, nth_error (out_rain out) i = Some (Fin v) -> nth_error (out_meth out) i = Some 4%Z ->
    capped_at cap za zb v.
Proof.
  intros dz zdr kdp ice band o sh out cap za zb Hb U O1 O3 S1 S2 F1 Hdt Ec Ea Eb E i v Hv Hm.
  assert (L2 : length (adata dz) = length (adata kdp)) by (unfold arr_ok in *; congruence).
  destruct (u_za _ U) as (za' & Eza & Pza), (u_zb _ U) as (zb' & Ezb & Pzb).
  rewrite Ea in Eza; injection Eza as <-. rewrite Eb in Ezb; injection Ezb as <-.
  destruct (C09_blended_other_bands dz zdr kdp ice band o Hb S1 S2 O1 O3) as (out' & E' & A & B & _ & D).
  rewrite E in E'. injection E'; intros; subst out' sh.
  assert (Hi : (i < length (adata dz))%nat) by (rewrite <- A; eapply nth_error_lt; eauto).
  destruct (nth_error_map_some _ Hi) as [d Ed]. destruct (nth_error_length_eq _ _ _ L2 Ed) as [k Ek].
  destruct (D i d k Ed Ek) as (D1 & D2). destruct (F1 _ _ Ed) as [d' ->].
  assert (N : ~ (fle (thresh_dz o) (Fin d') = true /\ fle (thresh_kdp o) k = true)).
  { intro Y. destruct (D1 Y) as [Q _]. congruence. }
  destruct (D2 N) as (_ & Q). rewrite Hv, Hdt, Ec, Ea, Eb in Q. unfold cast in Q. rewrite R_Z_capped_fin in Q by auto.
  injection Q as ->. apply R_Z_mono; auto using Rmin_r.
Qed.

(** csu_hidro_rain at the other bands: finite and >= 0. *)
Theorem C10_hidro_other_bands_finite_nonnegative :
  forall (dz zdr kdp fhc : arr xr) band (o : rain_opts xr) sh out, band <> "S"%string ->
  usable o -> arr_ok dz -> arr_ok kdp -> arr_ok fhc ->
  ashape dz = ashape zdr -> ashape dz = ashape kdp -> ashape dz = ashape fhc ->
  finite_data dz -> finite_data kdp ->
  csu_hidro_rain (AArr dz) (AArr zdr) (AArr kdp) (AArr fhc) band o = Ok (RainArr sh out) ->
  forall i v, nth_error (out_rain out) i = Some v -> fin_nonneg v.
Proof.
  intros dz zdr kdp fhc band o sh out Hb U O1 O3 O4 S1 S2 S3 F1 F3 E i v Hv.
  assert (L2 : length (adata dz) = length (adata kdp)) by (unfold arr_ok in *; congruence).
  assert (L3 : length (adata dz) = length (adata fhc)) by (unfold arr_ok in *; congruence).
  assert (U' := U). destruct U' as [_ (cap & Ecap) (tk & Etk & Ptk) (za & Eza & Pza) (zb & Ezb & Pzb)
     (ka & Eka & Pka) (kb & Ekb) _ _ _ _ _ _ _ _].
  destruct (C14_hidro_other_bands dz zdr kdp fhc band o Hb S1 S2 S3 O1 O3 O4) as (out' & E' & A & B & _ & D).
  rewrite E in E'. injection E'; intros; subst out' sh.
  assert (Hi : (i < length (adata dz))%nat) by (rewrite <- A; eapply nth_error_lt; eauto).
  destruct (nth_error_map_some _ Hi) as [d Ed].
  destruct (nth_error_length_eq _ _ _ L2 Ed) as [k Ek]. destruct (nth_error_length_eq _ _ _ L3 Ed) as [c Ec].
  destruct (D i d k c Ed Ek Ec) as (D1 & D2 & D3). destruct (F1 _ _ Ed) as [d' ->], (F3 _ _ Ek) as [k' ->].
  destruct (fle (thresh_dz o) (Fin d') && fle (thresh_kdp o) (Fin k'))%bool eqn:G.
  - destruct (D1 eq_refl) as (_ & Q). rewrite Hv in Q. apply Some_inj in Q. rewrite Q. apply cast_nonneg.
    apply andb_true_iff in G as (_ & G). rewrite Etk, fle_fin in G. apply Rleb_true in G.
    rewrite Eka, Ekb, R_Kdp_fin by lra. eexists; split; [reflexivity|]. apply Rmult_le_pos; auto. left; apply Rpower_pos.
  - destruct (phase_of c) eqn:P.
    + destruct (D2 eq_refl eq_refl) as (_ & Q). rewrite Hv in Q. apply Some_inj in Q. rewrite Q. apply cast_nonneg.
      rewrite Eza, Ezb. change (@flit xr _ 53) with (Fin (53 / 1)). rewrite R_Z_capped_fin by auto.
      eexists; split; [reflexivity|]. left; apply Rpower_pos.
    + destruct (D3 eq_refl ltac:(discriminate)) as (_ & Q). rewrite Hv in Q. apply Some_inj in Q. rewrite Q. apply cast_nonneg.
      exists (0 / 1). split; [reflexivity|lra].
    + destruct (D3 eq_refl ltac:(discriminate)) as (_ & Q). rewrite Hv in Q. apply Some_inj in Q. rewrite Q. apply cast_nonneg.
      exists (0 / 1). split; [reflexivity|lra].
Qed.

(** csu_hidro_rain at S band: finite and >= 0 likewise. *)
Theorem C10_hidro_rain_finite_nonnegative :
  forall (dz zdr kdp fhc : arr xr) (o : rain_opts xr) sh out,
  usable o -> arr_ok dz -> arr_ok zdr -> arr_ok kdp -> arr_ok fhc ->
  ashape dz = ashape zdr -> ashape dz = ashape kdp -> ashape dz = ashape fhc ->
  finite_data dz -> finite_data zdr -> finite_data kdp ->
  csu_hidro_rain (AArr dz) (AArr zdr) (AArr kdp) (AArr fhc) "S" o = Ok (RainArr sh out) ->
  forall i v, nth_error (out_rain out) i = Some v -> fin_nonneg v.
Proof.
  intros dz zdr kdp fhc o sh out U O1 O2 O3 O4 S1 S2 S3 F1 F2 F3 E i v Hv.
  assert (L1 : length (adata dz) = length (adata zdr)) by (unfold arr_ok in *; congruence).
  assert (L2 : length (adata dz) = length (adata kdp)) by (unfold arr_ok in *; congruence).
  assert (L3 : length (adata dz) = length (adata fhc)) by (unfold arr_ok in *; congruence).
  destruct (u_kdp _ U) as (tk & Etk & Ptk).
  destruct (C13_hidro_S_decision_tree dz zdr kdp fhc o S1 S2 S3 O1 O2 O3 O4)
    as (out' & E' & A & B & _ & D).
  rewrite E in E'. injection E'; intros; subst out' sh.
  assert (Hi : (i < length (adata dz))%nat) by (rewrite <- A; eapply nth_error_lt; eauto).
  destruct (nth_error_map_some _ Hi) as [d Ed].
  destruct (nth_error_length_eq _ _ _ L1 Ed) as [r Er].
  destruct (nth_error_length_eq _ _ _ L2 Ed) as [k Ek].
  destruct (nth_error_length_eq _ _ _ L3 Ed) as [c Ec].
  destruct (D i d r k c Ed Er Ek Ec (class_sane_xr c)) as (_ & D2).
  rewrite Hv in D2. apply Some_inj in D2. rewrite D2. clear D2 Hv.
  destruct (F1 _ _ Ed) as [d' ->], (F2 _ _ Er) as [r' ->], (F3 _ _ Ek) as [k' ->].
  set (m := hidro_S_method _ _ _ _).
  destruct (Z.eqb_spec m 0) as [|Hm0].
  - exists (0 / 1). split; [reflexivity|lra].
  - apply cast_nonneg.
    change (@flit xr _ 53) with (Fin (53 / 1)). change (@flit xr _ 0) with (Fin (0 / 1)).
    apply rate_nonneg; auto.
    + apply hidro_S_method_range. auto.
    + intro H12. apply hidro_S_method_12 in H12. rewrite Etk, fle_fin in H12.
      apply Rleb_true in H12. lra.
Qed.

(** ** C12 *)
(** Integer dz: the returned rate is the estimator truncated toward zero. *)
Theorem C12_integer_dz_truncates_rates :
  forall (dz zdr kdp : arr xr) ice_flag (o : rain_opts xr) fa fb sh out,
  adt dz = DInt ->
  rain_line o fa fb -> arr_ok dz -> arr_ok zdr -> arr_ok kdp ->
  ashape dz = ashape zdr -> ashape dz = ashape kdp ->
  calc_blended_rain (AArr dz) (AArr zdr) (AArr kdp) ice_flag "S" o = Ok (RainArr sh out) ->
  forall i d r k m x, nth_error (adata dz) i = Some d -> nth_error (adata zdr) i = Some r ->
    nth_error (adata kdp) i = Some k -> nth_error (out_meth out) i = Some m ->
    rate_of_method o (thresh_nexrad o) fa fb m d r k = Fin x -> 0 <= x ->
    exists n : Z, nth_error (out_rain out) i = Some (Fin (IZR n)) /\
      IZR n <= x < IZR n + 1 /\ (x < 1 -> n = 0%Z).
Proof.
  intros dz zdr kdp ice o fa fb sh out Hdt L O1 O2 O3 S1 S2 E i d r k m x Ed Er Ek Hm Hr Hx.
  destruct (C08_blended_S_decision_tree dz zdr kdp ice o fa fb S1 S2 O1 O2 O3 L)
    as (out' & E' & A & B & _ & D).
  rewrite E in E'. injection E'; intros; subst out' sh.
  destruct (D i d r k Ed Er Ek) as (D1 & D2 & _). rewrite Hm in D1. apply Some_inj in D1.
  rewrite <- D1, Hdt, Hr in D2. simpl in D2. rewrite D2.
  exists (Int_part x). unfold Rtrunc. destruct Rle_dec; [|lra].
  destruct (base_Int_part x) as [B1 B2]. split; auto. split; [lra|].
  intro H1. assert (H3 : IZR (-1) < IZR (Int_part x)) by (simpl; lra).
  assert (H4 : IZR (Int_part x) < IZR 1) by (simpl; lra). apply lt_IZR in H3, H4. lia.
Qed.

(** The call on an integer array is the call on the same numbers as floats, with
    every rate truncated; methods, Zdp and ice fraction are the same (any band,
    any float semantics). *)
Theorem C12_integer_is_float_truncated {F} `{FloatOps F} :
  forall (sh : list nat) (d : list F) (zdr kdp : arr F) ice_flag band (o : rain_opts F) fa fb,
  rain_line o fa fb -> length d = prod sh -> arr_ok zdr -> arr_ok kdp -> sh = ashape zdr -> sh = ashape kdp ->
  exists rain meth ice,
    calc_blended_rain (AArr (mkarr DFloat sh d)) (AArr zdr) (AArr kdp) ice_flag band o
      = Ok (RainArr sh {| out_rain := rain; out_meth := meth; out_ice := ice |}) /\
    calc_blended_rain (AArr (mkarr DInt sh d)) (AArr zdr) (AArr kdp) ice_flag band o
      = Ok (RainArr sh {| out_rain := map ftrunc rain; out_meth := meth; out_ice := ice |}).
Proof.
  intros sh d zdr kdp ice band o fa fb L Ld O2 O3 S1 S2.
  assert (L1 : length d = length (adata zdr)) by (unfold arr_ok in *; congruence).
  assert (L2 : length d = length (adata kdp)) by (unfold arr_ok in *; congruence).
  destruct (string_dec band "S") as [->|Hb].
  - destruct (C08_blended_S_decision_tree (mkarr DFloat sh d) zdr kdp ice o fa fb S1 S2 Ld O2 O3 L)
      as ([r1 m1 i1] & E1 & A1 & B1 & N1 & D1).
    destruct (C08_blended_S_decision_tree (mkarr DInt sh d) zdr kdp ice o fa fb S1 S2 Ld O2 O3 L)
      as ([r2 m2 i2] & E2 & A2 & B2 & N2 & D2).
    cbn [out_rain out_meth out_ice adata adt ashape] in *.
    assert (G : forall i x, nth_error d i = Some x -> exists r k, nth_error (adata zdr) i = Some r /\ nth_error (adata kdp) i = Some k).
    { intros i x Ex. destruct (nth_error_length_eq _ _ _ L1 Ex) as [r Er]. destruct (nth_error_length_eq _ _ _ L2 Ex) as [k Ek]. eauto. }
    assert (Q : m2 = m1 /\ r2 = map ftrunc r1 /\ i2 = i1).
    { split; [|split].
      - apply nth_error_ext. intro i. destruct (nth_error d i) as [x|] eqn:Ex.
        + destruct (G i x Ex) as (r & k & Er & Ek). destruct (D1 i x r k Ex Er Ek) as (-> & _), (D2 i x r k Ex Er Ek) as (-> & _). reflexivity.
        + apply nth_error_None in Ex. rewrite !(proj2 (nth_error_None _ _)) by lia. reflexivity.
      - apply nth_error_ext. intro i. rewrite map_nth_error'. destruct (nth_error d i) as [x|] eqn:Ex.
        + destruct (G i x Ex) as (r & k & Er & Ek). destruct (D1 i x r k Ex Er Ek) as (_ & -> & _), (D2 i x r k Ex Er Ek) as (_ & -> & _). reflexivity.
        + apply nth_error_None in Ex. rewrite !(proj2 (nth_error_None _ _)) by lia. reflexivity.
      - destruct N1 as [N1 M1], N2 as [N2 M2]. destruct ice.
        + destruct i1 as [[p1 f1]|]; [|pose proof (proj2 N1 eq_refl); discriminate].
          destruct i2 as [[p2 f2]|]; [|pose proof (proj2 N2 eq_refl); discriminate].
          destruct (M1 _ _ eq_refl) as [Lp1 Lf1], (M2 _ _ eq_refl) as [Lp2 Lf2].
          f_equal. f_equal; apply nth_error_ext; intro i; (destruct (nth_error d i) as [x|] eqn:Ex;
            [|apply nth_error_None in Ex; rewrite !(proj2 (nth_error_None _ _)) by lia; reflexivity]);
          destruct (G i x Ex) as (r & k & Er & Ek);
          destruct (D1 i x r k Ex Er Ek) as (_ & _ & H1), (D2 i x r k Ex Er Ek) as (_ & _ & H2);
          destruct (H1 eq_refl) as (zp1 & zf1 & X1 & _ & _ & Y1 & W1), (H2 eq_refl) as (zp2 & zf2 & X2 & _ & _ & Y2 & W2);
          injection X1 as <- <-; injection X2 as <- <-; congruence.
        + rewrite (proj1 N1 eq_refl), (proj1 N2 eq_refl). reflexivity. }
    destruct Q as (-> & -> & ->). exists r1, m1, i1. split; [exact E1|exact E2].
  - destruct (C09_blended_other_bands (mkarr DFloat sh d) zdr kdp ice band o Hb S1 S2 Ld O3)
      as ([r1 m1 i1] & E1 & A1 & B1 & N1 & D1).
    destruct (C09_blended_other_bands (mkarr DInt sh d) zdr kdp ice band o Hb S1 S2 Ld O3)
      as ([r2 m2 i2] & E2 & A2 & B2 & N2 & D2).
    cbn [out_rain out_meth out_ice adata adt ashape] in *. subst i1 i2.
    assert (Q : forall i, nth_error m2 i = nth_error m1 i /\ nth_error r2 i = nth_error (map ftrunc r1) i).
    { intro i. rewrite map_nth_error'. destruct (nth_error d i) as [x|] eqn:Ex.
      - destruct (nth_error_length_eq _ _ _ L2 Ex) as [k Ek].
        destruct (D1 i x k Ex Ek) as (H1 & N1), (D2 i x k Ex Ek) as (H2 & N2).
        destruct (fle (thresh_dz o) x) eqn:X; [destruct (fle (thresh_kdp o) k) eqn:Y|].
        + destruct (H1 (conj eq_refl eq_refl)) as [-> ->], (H2 (conj eq_refl eq_refl)) as [-> ->]; auto.
        + assert (W : ~ (true = true /\ false = true)) by (intros [? ?]; discriminate). destruct (N1 W) as [-> ->], (N2 W) as [-> ->]. auto.
        + assert (W : ~ (false = true /\ fle (thresh_kdp o) k = true)) by (intros [? ?]; discriminate). destruct (N1 W) as [-> ->], (N2 W) as [-> ->]. auto.
      - apply nth_error_None in Ex. rewrite !(proj2 (nth_error_None _ _)) by lia. auto. }
    assert (m2 = m1) as -> by (apply nth_error_ext; intro i; apply Q).
    assert (r2 = map ftrunc r1) as -> by (apply nth_error_ext; intro i; apply Q).
    exists r1, m1, None. split; [exact E1|exact E2].
Qed.

(** ftrunc over the reals *)
Lemma trunc_spec x : exists n : Z, ftrunc (Fin x) = Fin (IZR n) /\
  (0 <= x -> IZR n <= x < IZR n + 1) /\ (x <= 0 -> IZR n - 1 < x <= IZR n) /\ (-1 < x < 1 -> n = 0%Z).
Proof.
  cbn [ftrunc xr_ops xtrunc]. unfold Rtrunc. destruct Rle_dec as [P|P].
  - destruct (base_Int_part x) as [B1 B2]. exists (Int_part x). split; [reflexivity|]. split; [intros; lra|]. split.
    + intro. assert (x = 0) by lra. subst x. assert (H3 : IZR (-1) < IZR (Int_part 0)) by (simpl; lra).
      apply lt_IZR in H3. apply le_IZR in B1. assert (Int_part 0 = 0%Z) as -> by lia. lra.
    + intro. assert (H3 : IZR (-1) < IZR (Int_part x)) by (simpl; lra).
      assert (H4 : IZR (Int_part x) < IZR 1) by (simpl; lra). apply lt_IZR in H3, H4. lia.
  - destruct (base_Int_part (- x)) as [B1 B2]. exists (- Int_part (- x))%Z. rewrite opp_IZR. split; [reflexivity|].
    split; [intros; lra|]. split; [intros; lra|]. intro.
    assert (H3 : IZR (-1) < IZR (Int_part (- x))) by (simpl; lra).
    assert (H4 : IZR (Int_part (- x)) < IZR 1) by (simpl; lra). apply lt_IZR in H3, H4. lia.
Qed.
(** an integer number as dz likewise: its rate is truncated *)
Theorem C12_integer_scalar_truncated {F} `{FloatOps F} :
  forall d2 d3 (x y z : F) ice_flag band (o : rain_opts F) fa fb, rain_line o fa fb ->
  exists rate m ice,
    calc_blended_rain (AScalar DFloat x) (AScalar d2 y) (AScalar d3 z) ice_flag band o = Ok (RainScalar rate m ice) /\
    calc_blended_rain (AScalar DInt x) (AScalar d2 y) (AScalar d3 z) ice_flag band o = Ok (RainScalar (ftrunc rate) m ice).
Proof.
  intros d2 d3 x y z ice band o fa fb L. rewrite !C11_blended_scalar_is_element_0.
  destruct (C12_integer_is_float_truncated [1%nat] [x] (mkarr d2 [1%nat] [y]) (mkarr d3 [1%nat] [z]) ice band o fa fb L)
    as (rain & meth & ic & E1 & E2); try reflexivity.
  rewrite E1, E2. unfold rain_elem0. cbn [out_rain out_meth out_ice].
  assert (Ln : length rain = 1%nat /\ length meth = 1%nat /\ match ic with Some (a, b) => length a = 1%nat /\ length b = 1%nat | None => True end).
  { destruct (string_dec band "S") as [->|Hb].
    - destruct (C08_blended_S_decision_tree (mkarr DFloat [1%nat] [x]) (mkarr d2 [1%nat] [y]) (mkarr d3 [1%nat] [z]) ice o fa fb)
        as (out & E & A & B & N & D); try reflexivity; [exact L|].
      rewrite E1 in E. injection E as <-. cbn [out_rain out_meth out_ice adata length] in *. split; auto. split; auto.
      destruct (D 0%nat x y z eq_refl eq_refl eq_refl) as (_ & _ & G). destruct ice.
      + destruct (G eq_refl) as (a & b & -> & La & Lb & _). auto.
      + rewrite (proj1 (proj1 N) eq_refl). exact I.
    - destruct (C09_blended_other_bands (mkarr DFloat [1%nat] [x]) (mkarr d2 [1%nat] [y]) (mkarr d3 [1%nat] [z]) ice band o Hb)
        as (out & E & A & B & N & D); try reflexivity.
      rewrite E1 in E. injection E as <-. cbn [out_rain out_meth out_ice adata length] in *. rewrite N. auto. }
  destruct Ln as (L1 & L2 & L3). destruct rain as [|r [|]]; try discriminate. destruct meth as [|m [|]]; try discriminate.
  destruct ic as [[[|a [|]] [|b [|]]]|]; cbn in L3; try (destruct L3; discriminate); cbn [map]; eexists; eexists; eexists; split; reflexivity.
Qed.

(** Concrete: at 20 dBZ the Z-R rate is positive and below 1 mm/h; an integer
    array gets 0. *)
Theorem C12_integer_20_dbz_gives_zero :
  exists out, calc_blended_rain (AArr (mkarr DInt [1%nat] [Fin 20]))
     (AArr (mkarr DFloat [1%nat] [Fin 0])) (AArr (mkarr DFloat [1%nat] [Fin 0])) false "C" rain_defaults
     = Ok (RainArr [1%nat] out) /\ out_rain out = [Fin 0] /\ out_meth out = [4%Z] /\
  exists out', calc_blended_rain (AArr (mkarr DFloat [1%nat] [Fin 20]))
     (AArr (mkarr DFloat [1%nat] [Fin 0])) (AArr (mkarr DFloat [1%nat] [Fin 0])) false "C" rain_defaults
     = Ok (RainArr [1%nat] out') /\ exists x, out_rain out' = [Fin x] /\ 0 < x.
Proof.
  assert (V : @R_Z_capped xr _ (flit 53) (flit 300) (flit 1.4) (Fin 20)
     = Fin (Rpower (Rpower 10 (Rmin 20 (53 / 1) / 10) / (300 / 1)) (1 / (14 / 10)))).
  { rewrite !lit_fin; cbn [Qnum Qden]. rewrite R_Z_capped_fin by lra. reflexivity. }
  assert (B : 0 < Rpower (Rpower 10 (Rmin 20 (53 / 1) / 10) / (300 / 1)) (1 / (14 / 10)) < 1).
  { split; [apply Rpower_pos|]. rewrite Rmin_left by lra.
    replace (20 / 10) with (INR 2) by (simpl; lra). rewrite Rpower_pow by lra.
    replace (10 ^ 2 / (300 / 1)) with (1 / 3) by (simpl; field).
    apply Rlt_le_trans with (exp 0); [|rewrite exp_0; lra].
    unfold Rpower. apply exp_increasing.
    assert (ln (1 / 3) < 0) by (rewrite <- ln_1; apply ln_increasing; lra).
    assert (0 < 1 / (14 / 10)) by lra. nra. }
  assert (Hg : forall dt, exists out, calc_blended_rain (AArr (mkarr dt [1%nat] [Fin 20]))
     (AArr (mkarr DFloat [1%nat] [Fin 0])) (AArr (mkarr DFloat [1%nat] [Fin 0])) false "C" rain_defaults
     = Ok (RainArr [1%nat] out) /\ out_meth out = [4%Z] /\
     out_rain out = [cast dt (@R_Z_capped xr _ (flit 53) (flit 300) (flit 1.4) (Fin 20))]).
  { intro dt. destruct (C09_blended_other_bands (mkarr dt [1%nat] [Fin 20])
      (mkarr DFloat [1%nat] [Fin 0]) (mkarr DFloat [1%nat] [Fin 0]) false "C" rain_defaults)
      as (out & E & A & B' & _ & D); try reflexivity; [discriminate|].
    destruct (D 0%nat (Fin 20) (Fin 0) eq_refl eq_refl) as [_ D2].
    destruct D2 as [D2 D3].
    { intros [G1 _]. simpl in G1. apply Rleb_true in G1. lra. }
    exists out. split; [exact E|].
    destruct (out_rain out) as [|a [|]]; try discriminate.
    destruct (out_meth out) as [|b [|]]; try discriminate.
    injection D2 as ->. injection D3 as ->. auto. }
  destruct (Hg DInt) as (out & E & M & Rn). destruct (Hg DFloat) as (out' & E' & _ & Rn').
  rewrite V in Rn, Rn'. simpl cast in Rn, Rn'.
  exists out. split; [auto|]. split; [rewrite Rn; simpl; rewrite Rtrunc_small by lra; reflexivity|].
  split; auto. exists out'. split; auto. eexists; split; [exact Rn'|]. lra.
Qed.

(** ** C15 *)
(** The documented meaning ("Threshold for dz to cap Z-R") fails for every cap
    below 53: at 53 dBZ a rain gate gets more than the Z-R rate at the cap. *)
Theorem C15_thresh_nexrad_documented_cap_refuted :
  forall cap, cap < 53 ->
  exists out v,
    csu_hidro_rain (AArr (mkarr DFloat [1%nat] [Fin 53])) (AArr (mkarr DFloat [1%nat] [Fin 0]))
      (AArr (mkarr DFloat [1%nat] [Fin 0])) (AArr (mkarr DFloat [1%nat] [Fin 2])) "S"
      (with_nexrad (Fin cap) rain_defaults) = Ok (RainArr [1%nat] out) /\
    out_meth out = [4%Z] /\ out_rain out = [Fin v] /\ ~ capped_at cap 300 (14 / 10) v.
Proof.
  intros cap Hcap.
  destruct (C13_hidro_S_decision_tree (mkarr DFloat [1%nat] [Fin 53]) (mkarr DFloat [1%nat] [Fin 0])
    (mkarr DFloat [1%nat] [Fin 0]) (mkarr DFloat [1%nat] [Fin 2]) (with_nexrad (Fin cap) rain_defaults))
    as (out & E & A & B & _ & D); try reflexivity.
  destruct (D 0%nat _ _ _ _ eq_refl eq_refl eq_refl eq_refl (class_sane_xr _)) as [D1 D2].
  assert (M : hidro_S_method (phase_of (Fin 2)) (fle (thresh_dz (with_nexrad (Fin cap) rain_defaults)) (Fin 53))
    (fle (thresh_kdp (with_nexrad (Fin cap) rain_defaults)) (Fin 0))
    (fle (thresh_zdr (with_nexrad (Fin cap) rain_defaults)) (Fin 0)) = 4%Z).
  { unfold phase_of; xs. cbn [thresh_dz thresh_kdp thresh_zdr with_nexrad rain_defaults].
    xs. rewrite (proj2 (Reqb_true 2 (2 / 1))) by lra. rewrite orb_true_r. cbn [orb hidro_S_method].
    rewrite (proj2 (Rleb_true (38 / 1) 53)), (proj2 (Rleb_false (3 / 10) 0)),
      (proj2 (Rleb_false (5 / 10) 0)) by lra. reflexivity. }
  rewrite M in D1, D2. exists out. cbn [rate_of_method] in D2.
  change (r_z_a (with_nexrad (Fin cap) rain_defaults)) with (@flit xr _ 300) in D2.
  change (r_z_b (with_nexrad (Fin cap) rain_defaults)) with (@flit xr _ 1.4) in D2.
  rewrite !lit_fin in D2; cbn [Qnum Qden] in D2. rewrite R_Z_capped_fin in D2 by lra.
  destruct (out_rain out) as [|a [|]]; try discriminate.
  destruct (out_meth out) as [|b [|]]; try discriminate.
  injection D1 as ->. injection D2 as ->. eexists. split; [exact E|]. split; [auto|].
  split; [reflexivity|]. unfold capped_at. apply Rlt_not_le.
  replace (300 / 1) with 300 by lra. apply R_Z_mono_strict; try lra.
  rewrite Rmin_left by lra. auto.
Qed.
