(** * Signs and ranges in IEEE-754 arithmetic (C89, C90)

    The exact-arithmetic theorems say nothing about rounding, overflow,
    underflow, infinities or NaN.  Here the model runs on binary floating point
    of any precision, and the guarantees below hold for every input whatever,
    NaN and infinities included: a comparison with NaN is false, so "never
    negative" is [x < 0] is false. *)
From Coq Require Import Reals Lra Lia ZArith QArith Floats.SpecFloat.
From Flocq Require Import Core IEEE754.BinarySingleNaN.
From Verif Require Import Base.Num Base.ListFacts Base.XReal Base.XTac Base.Pointwise Base.XArith Base.Ieee.
From Verif Require Import Model.Common Model.BlendedRain Model.Tropical Model.LiquidIce.
From Verif Require Import Spec.RainSpec Spec.IeeeSpec.
From Verif Require Import Proofs.HidProofs Proofs.RainProofs Proofs.LiquidIceProofs Proofs.IeeeSign Proofs.IeeeScores.
From Verif Require Import Properties.P02_Rain.
From Verif Require Properties.P04_LiquidIce.
Import P04_LiquidIce(C11_liquid_ice_scalar_is_element_0).
Open Scope R_scope.

Lemma Some_inj {A} (a b : A) : Some a = Some b -> a = b.
Proof. congruence. Qed.

Section Rain.
Variables (prec emax p32 e32 : Z).
Context (Hp : Prec_gt_0 prec) (He : Prec_lt_emax prec emax).
Context (Hp3 : Prec_gt_0 p32) (He3 : Prec_lt_emax p32 e32).
Notation bf := (binary_float prec emax).
Variables (np1 : bool) (lm : libm bf).
Hypothesis Lm : pow_signs prec emax Hp He lm.
#[local] Instance fo : FloatOps bf := ieee_ops prec emax p32 e32 Hp He Hp3 He3 np1 lm.

(** coefficients a user may pass: the factors and the Kdp threshold are
    positive; exponents and the other thresholds are arbitrary *)
Definition positive_factors (o : rain_opts bf) : Prop :=
  flt (flit 0) (r_z_a o) = true /\ flt (flit 0) (r_kdp_a o) = true /\
  flt (flit 0) (r_z_zdr_a o) = true /\ flt (flit 0) (r_kdp_zdr_a o) = true /\
  flt (flit 0) (thresh_kdp o) = true.
Definition trop_positive_factors (o : trop_opts bf) : Prop :=
  flt (flit 0) (t_r_z_a o) = true /\ flt (flit 0) (t_r_z_a_c o) = true /\
  flt (flit 0) (t_r_z_a_s o) = true /\ flt (flit 0) (t_r_kdp_a o) = true /\
  flt (flit 0) (t_r_z_zdr_a o) = true /\ flt (flit 0) (t_r_kdp_zdr_a o) = true.

Lemma pos_s (x : bf) : flt (flit 0) x = true -> Bsign x = false.
Proof.
  intro H. apply (s_above prec emax Hp He x x); auto. 
  change (Bltb (b_lit prec emax Hp He 0) x = true) in H.
  rewrite val_lt in H by auto. rewrite val_le. destruct (val _ _ x); auto; try discriminate.
  cbn. apply Rleb_true. lra.
Qed.

Lemma notneg (x : bf) : Bsign x = false -> flt x (flit 0) = false.
Proof.
  intro H. change (Bltb x (b_lit prec emax Hp He 0) = false). rewrite val_lt, val_lit by auto.
  cbn [Qnum Qden]. unfold Rdiv. rewrite Rmult_0_l, rnd_0 by auto. now apply s_notneg.
Qed.

Lemma cast_s dt (x : bf) : Bsign x = false -> Bsign (cast dt x) = false.
Proof. destruct dt; cbn [cast]; auto. exact (s_trunc prec emax He x). Qed.
Lemma lit_s q : (0 <= Qnum q)%Z -> Bsign (@flit bf _ q) = false.
Proof. apply s_lit. Qed.
Lemma pow_s (x y : bf) : Bsign x = false -> Bsign (fpow x y) = false.
Proof. apply (pow_pos _ _ _ _ _ Lm). Qed.
Lemma mul_s (x y : bf) : Bsign x = false -> Bsign y = false -> Bsign (fmul x y) = false.
Proof. now apply s_mul. Qed.
Lemma div_s (x y : bf) : Bsign x = false -> Bsign y = false -> Bsign (fdiv x y) = false.
Proof. now apply s_div. Qed.
Lemma lin_s (x : bf) : Bsign (lin x) = false.
Proof. apply pow_s, lit_s. discriminate. Qed.
Hint Resolve cast_s lit_s pow_s mul_s div_s lin_s pos_s : sgn.
#[local] Hint Extern 1 (0 <= _)%Z => discriminate : sgn.

Lemma R_Z_s a b d : Bsign a = false -> Bsign (R_Z a b d) = false.
Proof. intro. unfold R_Z. auto 8 with sgn. Qed.
Lemma R_Zc_s c a b d : Bsign a = false -> Bsign (R_Z_capped c a b d) = false.
Proof. intro. unfold R_Z_capped. destruct (flt c d); now apply R_Z_s. Qed.
Lemma R_Kdp_s a b k : Bsign a = false -> Bsign k = false -> Bsign (R_Kdp a b k) = false.
Proof. intros. unfold R_Kdp. auto 8 with sgn. Qed.
Lemma R_KdpZdr_s a b c k r : Bsign a = false -> Bsign k = false -> Bsign (R_Kdp_Zdr a b c k r) = false.
Proof. intros. unfold R_Kdp_Zdr. auto 8 with sgn. Qed.
Lemma R_ZZdr_s a b c d r : Bsign a = false -> Bsign (R_Z_Zdr a b c d r) = false.
Proof. intros. unfold R_Z_Zdr. auto 8 with sgn. Qed.
Hint Resolve R_Z_s R_Zc_s R_Kdp_s R_KdpZdr_s R_ZZdr_s : sgn.

Lemma above_s (t k : bf) : flt (flit 0) t = true -> fle t k = true -> Bsign k = false.
Proof. apply s_above. Qed.

(** ** C89: rain rates are never negative *)
Theorem C89_nexrad_never_negative (a : arr bf) thresh za zb sh out :
  flt (flit 0) za = true ->
  calc_rain_nexrad (AArr a) thresh za zb = Ok (sh, out) ->
  forall i x, nth_error out i = Some x -> flt x (flit 0) = false.
Proof.
  intros Ha E i x Hx. destruct (C07_nexrad_gate_by_gate a thresh za zb) as (o & E' & L & G).
  rewrite E in E'. injection E' as _ <-.
  destruct (nth_error_map_some (adata a) (i:=i)) as (d & Hd). { rewrite <- L. eapply nth_error_lt; eauto. }
  specialize (G i d Hd). rewrite Hx in G. apply Some_inj in G as ->.
  apply notneg. destruct (flt thresh d); auto 8 with sgn.
Qed.

Theorem C89_blended_S_never_negative (dz zdr kdp : arr bf) ice_flag o fa fb sh out :
  ashape dz = ashape zdr -> ashape dz = ashape kdp -> arr_ok dz -> arr_ok zdr -> arr_ok kdp ->
  rain_line o fa fb -> positive_factors o ->
  calc_blended_rain (AArr dz) (AArr zdr) (AArr kdp) ice_flag "S" o = Ok (RainArr sh out) ->
  forall i x, nth_error (out_rain out) i = Some x -> flt x (flit 0) = false.
Proof.
  intros S1 S2 O1 O2 O3 HL (P1 & P2 & P3 & P4 & P5) E i x Hx.
  destruct (C08_blended_S_decision_tree dz zdr kdp ice_flag o fa fb S1 S2 O1 O2 O3 HL)
    as (out' & E' & L & _ & _ & G).
  rewrite E in E'. injection E' as _ <-.
  pose proof (nth_error_lt _ _ Hx) as Hi. rewrite L in Hi.
  destruct (nth_error_map_some (adata dz) (i:=i)) as (d & Hd); auto.
  destruct (nth_error_map_some (adata zdr) (i:=i)) as (r & Hr); [unfold arr_ok in *; congruence|].
  destruct (nth_error_map_some (adata kdp) (i:=i)) as (k & Hk); [unfold arr_ok in *; congruence|].
  destruct (G i d r k Hd Hr Hk) as (_ & Er & _). rewrite Hx in Er. apply Some_inj in Er as ->.
  apply notneg, cast_s. unfold blended_S_method.
  destruct (fle (thresh_kdp o) k) eqn:Kk.
  - assert (Sk : Bsign k = false) by (eapply above_s; eauto).
    destruct (flt (ice_fraction fa fb d r) (thresh_frac_ice o)), (fle (thresh_dz o) d), (fle (thresh_zdr o) r); cbn [andb rate_of_method]; auto 8 with sgn.
  - rewrite andb_false_r.
    destruct (flt (ice_fraction fa fb d r) (thresh_frac_ice o)), (fle (thresh_zdr o) r); cbn [andb rate_of_method]; auto 8 with sgn.
Qed.

Theorem C89_blended_other_bands_never_negative (dz zdr kdp : arr bf) ice_flag band o sh out :
  band <> "S"%string ->
  ashape dz = ashape zdr -> ashape dz = ashape kdp -> arr_ok dz -> arr_ok kdp ->
  positive_factors o ->
  calc_blended_rain (AArr dz) (AArr zdr) (AArr kdp) ice_flag band o = Ok (RainArr sh out) ->
  forall i x, nth_error (out_rain out) i = Some x -> flt x (flit 0) = false.
Proof.
  intros Hb S1 S2 O1 O3 (P1 & P2 & P3 & P4 & P5) E i x Hx.
  destruct (C09_blended_other_bands dz zdr kdp ice_flag band o Hb S1 S2 O1 O3)
    as (out' & E' & L & _ & _ & G).
  rewrite E in E'. injection E' as _ <-.
  pose proof (nth_error_lt _ _ Hx) as Hi. rewrite L in Hi.
  destruct (nth_error_map_some (adata dz) (i:=i)) as (d & Hd); auto.
  destruct (nth_error_map_some (adata kdp) (i:=i)) as (k & Hk); [unfold arr_ok in *; congruence|].
  destruct (G i d k Hd Hk) as (G1 & G2). apply notneg.
  destruct (fle (thresh_dz o) d) eqn:Kd; [destruct (fle (thresh_kdp o) k) eqn:Kk|].
  - destruct G1 as (_ & Er); auto. rewrite Hx in Er. apply Some_inj in Er as ->.
    assert (Sk : Bsign k = false) by (eapply above_s; eauto). auto 8 with sgn.
  - destruct G2 as (_ & Er); [intros []; discriminate|]. rewrite Hx in Er. apply Some_inj in Er as ->. auto 8 with sgn.
  - destruct G2 as (_ & Er); [intros []; discriminate|]. rewrite Hx in Er. apply Some_inj in Er as ->. auto 8 with sgn.
Qed.

(** the class numbers are distinct floats *)
Hypothesis Hprec : (4 <= prec)%Z.
Lemma lit_val n : (0 <= n <= 10)%Z -> val prec emax (@flit bf _ (Qmake n 1)) = Fin (IZR n).
Proof.
  intro Hn. change (val prec emax (b_lit prec emax Hp He (Qmake n 1)) = Fin (IZR n)).
  rewrite val_lit by auto. cbn [Qnum Qden]. unfold Rdiv. rewrite Rinv_1, Rmult_1_r.
  apply rnd_int; auto. assert (2 ^ 4 <= 2 ^ prec)%Z by (apply Z.pow_le_mono_r; lia). lia.
Qed.
Lemma eq_val (c : bf) n : (0 <= n <= 10)%Z -> feq c (flit (Qmake n 1)) = true -> val prec emax c = Fin (IZR n).
Proof.
  intros Hn H. change (Beqb c (flit (Qmake n 1)) = true) in H. rewrite val_eq, (lit_val n) in H by auto.
  destruct (val prec emax c); try discriminate. cbn in H. apply Reqb_true in H. now subst.
Qed.
Lemma neq_val (c : bf) m n : (0 <= n <= 10)%Z -> (m <> n)%Z -> val prec emax c = Fin (IZR m) -> feq c (flit (Qmake n 1)) = false.
Proof.
  intros Hn Hmn H. change (Beqb c (flit (Qmake n 1)) = false). rewrite val_eq, (lit_val n), H by auto.
  cbn. apply Reqb_false. intro E. now apply eq_IZR in E.
Qed.
Lemma class_sane_ieee (c : bf) : class_sane c.
Proof.
  unfold class_sane, phase_of. intro H.
  assert (X : val prec emax c = Fin 1 \/ val prec emax c = Fin 2 \/ val prec emax c = Fin 10).
  { destruct (feq c (flit 1)) eqn:E1; [left; now apply (eq_val c 1)|].
    destruct (feq c (flit 2)) eqn:E2; [right; left; now apply (eq_val c 2)|].
    destruct (feq c (flit 10)) eqn:E3; [right; right; now apply (eq_val c 10)|].
    cbn [orb] in H. destruct (feq c (flit 5) || feq c (flit 7) || feq c (flit 8) || feq c (flit 9))%bool; discriminate. }
  destruct X as [X|[X|X]]; repeat split.
  all: first [apply (neq_val c 1); auto; lia|apply (neq_val c 2); auto; lia|apply (neq_val c 10); auto; lia].
Qed.

Theorem C89_hidro_S_never_negative (dz zdr kdp fhc : arr bf) o sh out :
  ashape dz = ashape zdr -> ashape dz = ashape kdp -> ashape dz = ashape fhc ->
  arr_ok dz -> arr_ok zdr -> arr_ok kdp -> arr_ok fhc -> positive_factors o ->
  csu_hidro_rain (AArr dz) (AArr zdr) (AArr kdp) (AArr fhc) "S" o = Ok (RainArr sh out) ->
  forall i x, nth_error (out_rain out) i = Some x -> flt x (flit 0) = false.
Proof.
  intros S1 S2 S3 O1 O2 O3 O4 (P1 & P2 & P3 & P4 & P5) E i x Hx.
  destruct (C13_hidro_S_decision_tree dz zdr kdp fhc o S1 S2 S3 O1 O2 O3 O4)
    as (out' & E' & L & _ & _ & G).
  rewrite E in E'. injection E' as _ <-.
  pose proof (nth_error_lt _ _ Hx) as Hi. rewrite L in Hi.
  destruct (nth_error_map_some (adata dz) (i:=i)) as (d & Hd); auto.
  destruct (nth_error_map_some (adata zdr) (i:=i)) as (r & Hr); [unfold arr_ok in *; congruence|].
  destruct (nth_error_map_some (adata kdp) (i:=i)) as (k & Hk); [unfold arr_ok in *; congruence|].
  destruct (nth_error_map_some (adata fhc) (i:=i)) as (c & Hc); [unfold arr_ok in *; congruence|].
  destruct (G i d r k c Hd Hr Hk Hc (class_sane_ieee c)) as (_ & Er). rewrite Hx in Er. apply Some_inj in Er as ->.
  apply notneg. unfold hidro_S_method.
  destruct (fle (thresh_kdp o) k) eqn:Kk.
  - assert (Sk : Bsign k = false) by (eapply above_s; eauto).
    destruct (phase_of c), (fle (thresh_dz o) d), (fle (thresh_zdr o) r); cbn [Z.eqb Pos.eqb rate_of_method]; auto 8 with sgn.
  - destruct (phase_of c), (fle (thresh_dz o) d), (fle (thresh_zdr o) r); cbn [Z.eqb Pos.eqb rate_of_method]; auto 8 with sgn.
Qed.

Theorem C89_hidro_other_bands_never_negative (dz zdr kdp fhc : arr bf) band o sh out :
  band <> "S"%string ->
  ashape dz = ashape zdr -> ashape dz = ashape kdp -> ashape dz = ashape fhc ->
  arr_ok dz -> arr_ok kdp -> arr_ok fhc -> positive_factors o ->
  csu_hidro_rain (AArr dz) (AArr zdr) (AArr kdp) (AArr fhc) band o = Ok (RainArr sh out) ->
  forall i x, nth_error (out_rain out) i = Some x -> flt x (flit 0) = false.
Proof.
  intros Hb S1 S2 S3 O1 O3 O4 (P1 & P2 & P3 & P4 & P5) E i x Hx.
  destruct (C14_hidro_other_bands dz zdr kdp fhc band o Hb S1 S2 S3 O1 O3 O4)
    as (out' & E' & L & _ & _ & G).
  rewrite E in E'. injection E' as _ <-.
  pose proof (nth_error_lt _ _ Hx) as Hi. rewrite L in Hi.
  destruct (nth_error_map_some (adata dz) (i:=i)) as (d & Hd); auto.
  destruct (nth_error_map_some (adata kdp) (i:=i)) as (k & Hk); [unfold arr_ok in *; congruence|].
  destruct (nth_error_map_some (adata fhc) (i:=i)) as (c & Hc); [unfold arr_ok in *; congruence|].
  destruct (G i d k c Hd Hk Hc) as (G1 & G2 & G3). apply notneg.
  destruct (fle (thresh_dz o) d && fle (thresh_kdp o) k)%bool eqn:Hh.
  - destruct G1 as (_ & Er); auto. rewrite Hx in Er. apply Some_inj in Er as ->.
    apply andb_prop in Hh as (_ & Kk).
    assert (Sk : Bsign k = false) by (eapply above_s; eauto). auto 8 with sgn.
  - destruct (phase_of c) eqn:Ph.
    + destruct G2 as (_ & Er); auto. rewrite Hx in Er. apply Some_inj in Er as ->. auto 8 with sgn.
    + destruct G3 as (_ & Er); auto; [discriminate|]. rewrite Hx in Er. apply Some_inj in Er as ->. auto 8 with sgn.
    + destruct G3 as (_ & Er); auto; [discriminate|]. rewrite Hx in Er. apply Some_inj in Er as ->. auto 8 with sgn.
Qed.

(** The tropical algorithm, with or without fhc and cs.  [co] are the
    coefficients in use. *)
Theorem C89_tropical_never_negative (dz zdr kdp : arr bf) cs fhc predef band o w sh rain meth :
  ashape dz = ashape zdr -> ashape dz = ashape kdp -> arr_ok dz -> arr_ok zdr -> arr_ok kdp ->
  field_ok (ashape dz) cs -> field_ok (ashape dz) fhc ->
  trop_positive_factors (trop_coefs predef band o) -> flt (flit 0) (t_thresh_kdp (trop_coefs predef band o)) = true ->
  calc_blended_rain_tropical (AArr dz) (AArr zdr) (AArr kdp) cs fhc predef band o = Ok (w, sh, rain, meth) ->
  forall i x, nth_error rain i = Some x -> flt x (flit 0) = false.
Proof.
  intros S1 S2 O1 O2 O3 Hc Hf (P1 & P2 & P3 & P4 & P5 & P6) P7 E i x Hx.
  destruct (trop_full dz zdr kdp cs fhc predef band o S1 S2 O1 O2 O3 Hc Hf)
    as (w' & rain' & meth' & E' & _ & L & _ & G).
  rewrite E in E'. injection E' as _ _ <- _.
  pose proof (nth_error_lt _ _ Hx) as Hi. rewrite L in Hi.
  destruct (nth_error_map_some (adata dz) (i:=i)) as (d & Hd); auto.
  destruct (nth_error_map_some (adata zdr) (i:=i)) as (r & Hr); [unfold arr_ok in *; congruence|].
  destruct (nth_error_map_some (adata kdp) (i:=i)) as (k & Hk); [unfold arr_ok in *; congruence|].
  assert (FA : forall f : pyarg bf, field_ok (ashape dz) f -> exists v, field_at f i v).
  { intros [|dt s|a] Ha.
    - exists None. exact I.
    - exists (Some s). reflexivity.
    - destruct Ha as (Es & Ha). destruct (nth_error_map_some (adata a) (i:=i)) as (v & Hv).
      + unfold arr_ok in *. congruence.
      + exists (Some v). exact Hv. }
  destruct (FA cs Hc) as (c & Ic). destruct (FA fhc Hf) as (f & If).
  destruct (G i d r k c f Hd Hr Hk Ic If) as (Er & _). rewrite Hx in Er.
  assert (x = fst (trop_gate (trop_coefs predef band o) (adt dz) c f d r k)) as -> by congruence.
  apply notneg. unfold trop_gate. set (co := trop_coefs predef band o) in *. cbv zeta.
  assert (Base : Bsign (if Z.eqb (trop_method c (fle (t_thresh_kdp co) k && fle (t_thresh_dz co) d)
                     (fle (t_thresh_zdr co) r)) (-1) then flit 0
      else cast (adt dz) (trop_rate co (trop_method c (fle (t_thresh_kdp co) k && fle (t_thresh_dz co) d)
                     (fle (t_thresh_zdr co) r)) d r k)) = false).
  { destruct (Z.eqb _ _); auto 8 with sgn. apply cast_s. unfold trop_rate, trop_method.
    destruct (fle (t_thresh_kdp co) k) eqn:Kk.
    - assert (Sk : Bsign k = false) by (eapply above_s; eauto). repeat destruct (Z.eqb _ _); auto 8 with sgn.
    - cbn [andb]. destruct (fle (t_thresh_zdr co) r); cbn [Z.eqb Pos.eqb]; auto 8 with sgn.
      destruct c as [c|]; cbn [Z.eqb Pos.eqb]; auto 8 with sgn.
      repeat destruct (feq c _); cbn [Z.eqb Pos.eqb]; auto 8 with sgn. }
  destruct (flt d (flit (-10))); cbn [fst]; auto 8 with sgn.
  destruct f as [f|]; cbn [fst]; auto.
  destruct (fle (t_thresh_kdp co) k) eqn:Kk.
  - assert (Sk : Bsign k = false) by (eapply above_s; eauto).
    repeat match goal with |- context [if ?b then _ else _] => destruct b end; auto 8 with sgn.
  - cbn [andb] in *. rewrite andb_false_r.
    match goal with |- context [if ?b then cast _ _ else _] => destruct b end; auto 8 with sgn.
Qed.
End Rain.

(** ** Liquid and ice masses are never negative *)
Section Masses.
Variables (np1 : bool) (lm : libm double).
Hypothesis Lm : pow_signs 53 1024 p53 e1024 lm.
Hypothesis Lt : pow_ten 53 1024 p53 e1024 lm.
#[local] Instance fd : FloatOps double := double_ops np1 lm.
Notation v := (val 53 1024).

Lemma m_lit q : (0 <= Qnum q)%Z -> Bsign (@flit double _ q) = false.
Proof. apply s_lit. Qed.
Lemma m_pow (x y : double) : Bsign x = false -> Bsign (fpow x y) = false.
Proof. apply (pow_pos _ _ _ _ _ Lm). Qed.
Lemma m_mul (x y : double) : Bsign x = false -> Bsign y = false -> Bsign (fmul x y) = false.
Proof. now apply s_mul. Qed.
Lemma m_div (x y : double) : Bsign x = false -> Bsign y = false -> Bsign (fdiv x y) = false.
Proof. now apply s_div. Qed.
Lemma m_lin (x : double) : Bsign (lin x) = false.
Proof. apply m_pow, m_lit. discriminate. Qed.
Lemma m_pi : Bsign (@fpi double _) = false.
Proof. apply (pi_pos _ _ _ _ _ Lt). Qed.
Hint Resolve m_lit m_pow m_mul m_div m_lin m_pi : msg.
#[local] Hint Extern 1 (0 <= _)%Z => discriminate : msg.
Lemma m_notneg (x : double) : Bsign x = false -> flt x (flit 0) = false.
Proof. intro H. change (Bltb x (b_lit 53 1024 p53 e1024 0) = false). rewrite val_lt. now apply s_notneg. Qed.

(** x - y with 0 <= y <= x has its sign bit clear *)
Lemma m_sub (x y : double) : xle (v y) (v x) = true -> Bsign x = false -> Bsign y = false -> Bsign (fsub x y) = false.
Proof.
  intros L Sx Sy. change (Bsign (@Bminus 53 1024 p53 e1024 mode_NE x y) = false).
  destruct (is_finite x) eqn:Fx; [destruct (is_finite y) eqn:Fy|].
  - pose proof (Bminus_correct 53 1024 p53 e1024 mode_NE x y Fx Fy) as C.
    rewrite !val_finite in L by auto. apply Rleb_true in L. rewrite Sx, Sy in C.
    destruct Rlt_bool.
    + destruct C as (_ & _ & ->). destruct (Rcompare_spec (B2R x - B2R y) 0); auto. lra.
    + destruct C as (C & _). now apply ovf_sign in C.
  - destruct y as [s|s| |s m e H]; try discriminate; cbn in Sy; subst;
      destruct x as [s'|s'| |s' m' e' H']; try discriminate; cbn in Sx; subst; try discriminate; reflexivity.
  - destruct x as [s|s| |s m e H]; try discriminate; cbn in Sx; subst;
      destruct y as [s'|s'| |s' m' e' H']; try discriminate; cbn in Sy; subst; try discriminate; reflexivity.
Qed.

Lemma minus_tenth (e : double) : v e <> NaN -> flt e (flit 0) = false -> xle (v (fmul (flit (-0.1)) e)) (Fin 0) = true.
Proof.
  intros N H. change (Bltb e (b_lit 53 1024 p53 e1024 0) = false) in H. rewrite val_lt in H.
  change (v (b_lit 53 1024 p53 e1024 0)) with (Fin 0) in H.
  change (v (fmul (flit (-0.1)) e)) with (v (@Bmult 53 1024 p53 e1024 mode_NE (flit (-0.1)) e)). rewrite val_mult.
  assert (T : exists r, v (flit (-0.1)) = Fin r /\ r < 0).
  { exists (B2R (@flit double _ (-0.1))). split. reflexivity. 
    change (B2R (flit (-0.1))) with (F2R (Float radix2 (-7205759403792794) (-56))). now apply F2R_lt_0. }
  destruct T as (r & -> & Hr). destruct (v e) as [z| | |]; try contradiction; cbn in H; try discriminate.
  - apply Rltb_false in H. cbn [xmul rndx]. rewrite <- (rnd_0 53 1024). apply rnd_mono; [reflexivity..|nra].
  - cbn [xmul]. unfold xinf. destruct (Rlt_dec 0 r); [lra|]. destruct (Rlt_dec r 0); [reflexivity|lra].
Qed.

(** the rain share of the reflectivity: between 0 and Zh *)
Lemma zrain_range fa fb (d r : double) : v (g_excess fa fb d r) <> NaN ->
  Bsign (g_zrain fa fb d r) = false /\ ub (v (g_zrain fa fb d r)) (v (lin d)).
Proof.
  intro N. unfold g_zrain, g_icefrac. set (e := g_excess fa fb d r) in *.
  assert (He : flt e (flit 0) = false).
  { unfold e, g_excess. match goal with |- context [if ?b then _ else _] => destruct b eqn:E end; auto. }
  pose proof (minus_tenth e N He) as M. set (y := fmul (flit (-0.1)) e) in *.
  pose proof (pow_10 _ _ _ _ _ Lt y) as P1. rewrite !val_le in P1. specialize (P1 M).
  change (lm_pow lm (b_lit 53 1024 p53 e1024 10) y) with (fpow (flit 10) y) in P1.
  assert (P0 : Bsign (fpow (flit 10) y) = false) by auto with msg.
  set (p := fpow (flit 10) y) in *.
  assert (One : Bsign (@flit double _ 1) = false) by auto with msg.
  assert (V1 : v (flit 1) = Fin 1) by (apply (v_1 53 1024 24 128 p53 e1024 p24 e128 np1 lm)).
  assert (I0 : Bsign (fsub (flit 1) p) = false) by (apply m_sub; auto).
  assert (I1 : xle (v (fsub (flit 1) p)) (Fin 1) = true).
  { change (v (fsub (flit 1) p)) with (v (@Bminus 53 1024 p53 e1024 mode_NE (flit 1) p)). rewrite val_minus, V1.
    change (v (b_lit 53 1024 p53 e1024 1)) with (v (flit 1)) in P1. rewrite V1 in P1.
    pose proof (s_xr _ _ p P0) as Sp. destruct (v p); try contradiction; try discriminate. cbn [xsub xadd xneg rndx].
    rewrite <- (rnd_1 53 1024) by reflexivity. apply rnd_mono; [reflexivity..|lra]. }
  set (q := fsub (flit 1) p) in *.
  assert (Q0 : Bsign (fsub (flit 1) q) = false) by (apply m_sub; auto; now rewrite V1).
  split; [auto with msg|].
  assert (Q1 : ub (v (fsub (flit 1) q)) (v (flit 1))).
  { right. change (v (fsub (flit 1) q)) with (v (@Bminus 53 1024 p53 e1024 mode_NE (flit 1) q)). rewrite val_minus, V1.
    pose proof (s_xr _ _ q I0) as Sp. destruct (v q); try contradiction; try discriminate. cbn [xsub xadd xneg rndx].
    rewrite <- (rnd_1 53 1024) by reflexivity. apply rnd_mono; [reflexivity..|lra]. }
  set (u := fsub (flit 1) q) in *.
  pose proof (m_lin d) as Sl. destruct (v (lin d)) as [z| | |] eqn:Ez.
  - rewrite <- Ez.
    apply (bnd_mul 53 1024 24 128 p53 e1024 p24 e128 np1 lm (lin d)); auto.
    + eauto.
    + split; auto. right. rewrite Ez. apply Rleb_true. lra.
    + split; auto.
  - change (v (fmul (lin d) u)) with (v (@Bmult 53 1024 p53 e1024 mode_NE (lin d) u)). rewrite val_mult, Ez.
    pose proof (s_xr _ _ u Q0) as Su. destruct (v u) as [w| | |]; try contradiction; cbn [xmul].
    + unfold xinf. destruct (Rlt_dec 0 w); [right; reflexivity|]. destruct (Rlt_dec w 0); [lra|left; reflexivity].
    + right; reflexivity.
    + left; reflexivity.
  - pose proof (s_xr _ _ _ Sl) as X. rewrite Ez in X. contradiction.
  - left. change (v (fmul (lin d) u)) with (v (@Bmult 53 1024 p53 e1024 mode_NE (lin d) u)). rewrite val_mult, Ez. reflexivity.
Qed.

Lemma times0 (d : double) : flt (fmul d (flit 0)) (flit 0) = false.
Proof.
  change (Bltb (@Bmult 53 1024 p53 e1024 mode_NE d (b_lit 53 1024 p53 e1024 0)) (b_lit 53 1024 p53 e1024 0) = false).
  rewrite val_lt, val_mult. change (v (b_lit 53 1024 p53 e1024 0)) with (Fin 0).
  destruct (v d); cbn [xmul]; auto.
  - rewrite Rmult_0_r. cbn [rndx]. rewrite rnd_0. apply Rltb_false. lra.
  - unfold xinf. destruct (Rlt_dec 0 0); [lra|]. destruct (Rlt_dec 0 0); [lra|]. reflexivity.
  - unfold xinf. destruct (Rlt_dec 0 (- 0)); [lra|]. destruct (Rlt_dec (- 0) 0); [lra|]. reflexivity.
Qed.

Lemma not_nan_sub (e t : double) : fle (flit 0) (fsub e t) = true -> v e <> NaN.
Proof.
  intros H N. change (Bleb (b_lit 53 1024 p53 e1024 0) (@Bminus 53 1024 p53 e1024 mode_NE e t) = true) in H.
  rewrite val_le, val_minus, N in H. discriminate.
Qed.

Lemma water_notneg fa fb t (d r : double) : flt (g_water fa fb t d r) (flit 0) = false.
Proof.
  unfold g_water. cbv zeta. destruct (flt r (flit 0)); [reflexivity|].
  destruct (fle (flit 0) (fsub (g_excess fa fb d r) t)) eqn:A.
  - apply not_nan_sub in A. destruct (zrain_range fa fb d r A) as (S & _). apply m_notneg. auto 8 with msg.
  - destruct (flt (fsub (g_excess fa fb d r) t) (flit 0)).
    + apply m_notneg. auto 10 with msg.
    + apply times0.
Qed.

Lemma ice_notneg fa fb t (d r : double) : flt (g_ice fa fb t d r) (flit 0) = false.
Proof.
  unfold g_ice. cbv zeta.
  destruct (fle (flit 0) (fsub (g_excess fa fb d r) t)) eqn:A; [|apply times0].
  apply not_nan_sub in A. destruct (zrain_range fa fb d r A) as (S & U). apply m_notneg.
  assert (D : Bsign (fsub (lin d) (g_zrain fa fb d r)) = false).
  { destruct U as [N|U]; [|apply m_sub; auto with msg].
    assert (X : v (@Bminus 53 1024 p53 e1024 mode_NE (lin d) (g_zrain fa fb d r)) = NaN)
      by (rewrite val_minus, N; now destruct (v (lin d))).
    change (Bsign (@Bminus 53 1024 p53 e1024 mode_NE (lin d) (g_zrain fa fb d r)) = false).
    destruct (Bminus _ _ _) as [|[]| |]; try discriminate; reflexivity. }
  auto 12 with msg.
Qed.

(** arrays *)
Theorem C89_masses_never_negative pf (d r z : arr double) T Hfrz meth a b sh w sh' ic :
  calc_liquid_ice_mass pf (AArr d) (AArr r) (AArr z) T Hfrz meth a b = Ok (RArr sh w, RArr sh' ic) ->
  (forall i x, nth_error w i = Some x -> flt x (flit 0) = false) /\
  (forall i x, nth_error ic i = Some x -> flt x (flit 0) = false).
Proof.
  intros E. unfold calc_liquid_ice_mass in E. apply bind_ok in E as (t & _ & E).
  apply bind_ok in E as ((mw, mi) & Ec & E). assert (mw = w) as -> by congruence. assert (mi = ic) as -> by congruence.
  clear E. apply bind_ok in Ec as (hf & _ & Ec).
  destruct (Nat.eqb_spec (length (adata d)) (length (adata r))) as [S1|]; cbn [negb] in Ec;
    [|unfold misfit in Ec; destruct existsb; discriminate].
  destruct (Nat.eqb_spec (length (adata d)) (length (adata z))) as [S2|]; cbn [negb] in Ec;
    [|destruct a, b; try discriminate; unfold misfit in Ec; destruct existsb; discriminate].
  assert (F : exists fa fb, li_fits a b = Ok (fa, fb)).
  { unfold liquid_ice_calcs in Ec. destruct (calc_zh_zv (adata d) (adata r)). apply bind_ok in Ec as ((fa, fb) & Ef & _).
    exists fa, fb. exact Ef. }
  destruct F as (fa & fb & F).
  destruct (liquid_ice_gate (adata d) (adata r) (get_delta_thresh (adata z) hf) a b fa fb F) as (w' & ic' & E' & Lw & Li & G).
  { congruence. } { rewrite thresh_len. congruence. }
  rewrite Ec in E'. assert (w' = w) as -> by congruence. assert (ic' = ic) as -> by congruence.
  assert (X : forall i, (i < length (adata d))%nat -> exists t x y, nth_error w i = Some (g_water fa fb t x y) /\ nth_error ic i = Some (g_ice fa fb t x y)).
  { intros i Hi. destruct (nth_error_map_some (adata d) (i:=i)) as (x & Hx); auto.
    destruct (nth_error_map_some (adata r) (i:=i)) as (y & Hy); [congruence|].
    destruct (nth_error_map_some (adata z) (i:=i)) as (h & Hh); [congruence|].
    exists (g_thresh h hf), x, y. apply G; auto. now apply thresh_nth. }
  split; intros i x Hx.
  - destruct (X i) as (t' & x' & y' & H1 & H2). { rewrite <- Lw. eapply nth_error_lt; eauto. }
    rewrite Hx in H1. apply Some_inj in H1 as ->. apply water_notneg.
  - destruct (X i) as (t' & x' & y' & H1 & H2). { rewrite <- Li. eapply nth_error_lt; eauto. }
    rewrite Hx in H2. apply Some_inj in H2 as ->. apply ice_notneg.
Qed.

Definition T_scalar_arg (T : pyarg double) : Prop := match T with AArr _ => False | _ => True end.
(** numbers *)
Theorem C89_scalar_masses_never_negative pf dt1 dt2 dt3 (d r z : double) T Hfrz meth a b w ic :
  T_scalar_arg T ->
  calc_liquid_ice_mass pf (AScalar dt1 d) (AScalar dt2 r) (AScalar dt3 z) T Hfrz meth a b = Ok (RScalar w, RScalar ic) ->
  flt w (flit 0) = false /\ flt ic (flit 0) = false.
Proof.
  intros HT E.
  assert (HT' : exists T0 : option (dtype * double), T = match T0 with Some (dt, t) => AScalar dt t | None => ANone end).
  { destruct T as [|dt t|t]; [exists None|exists (Some (dt, t))|contradiction]; reflexivity. }
  destruct HT' as (T0 & ->).
  rewrite (C11_liquid_ice_scalar_is_element_0 pf dt1 dt2 dt3 d r z T0 Hfrz meth a b) in E.
  destruct (calc_liquid_ice_mass _ _ _ _ _ _ _ _ _) as [(p, q)| | | |] eqn:Ec; try discriminate.
  assert (X : exists sh w0 sh' i0, p = RArr sh w0 /\ q = RArr sh' i0).
  { unfold calc_liquid_ice_mass in Ec. apply bind_ok in Ec as (t & _ & Ec).
    apply bind_ok in Ec as ((mw, mi) & _ & Ec).
    exists (ashape (arr1 dt1 d)), mw, (ashape (arr1 dt1 d)), mi. split; congruence. }
  destruct X as (sh & ws & sh' & is & -> & ->). destruct ws as [|w' ws]; [discriminate|]. destruct is as [|i' is]; [discriminate|].
  apply C89_masses_never_negative in Ec as (G1 & G2).
  assert (w' = w) as <- by congruence. assert (i' = ic) as <- by congruence.
  split; [apply (G1 0%nat)|apply (G2 0%nat)]; reflexivity.
Qed.
End Masses.

(** ** Non-vacuity *)
Section Examples.
Definition xo : FloatOps double := double_ops true lm_stub.
#[local] Existing Instance xo.
(** the default coefficients are positive in double precision *)
Example C89_default_factors :
  positive_factors 53 1024 24 128 p53 e1024 p24 e128 true lm_stub rain_defaults /\
  trop_positive_factors 53 1024 24 128 p53 e1024 p24 e128 true lm_stub (trop_coefs "True" "X" trop_defaults) /\
  flt (flit 0) (t_thresh_kdp (trop_coefs "True" "X" trop_defaults)) = true.
Proof. repeat split; vm_compute; reflexivity. Qed.

Definition one_gate (q : Q) : arr double := mkarr DFloat [2%nat] [flit q; fnan].
(** a call with a NaN gate returns *)
Example C89_calls_return :
  (exists sh out, calc_rain_nexrad (AArr (one_gate 40)) (flit 53) (flit 300) (flit 1.4) = Ok (sh, out) /\ length out = 2%nat) /\
  (exists sh out, calc_blended_rain (AArr (one_gate 40)) (AArr (one_gate 1)) (AArr (one_gate 0.5)) false "S" rain_defaults
     = Ok (RainArr sh out) /\ length (out_rain out) = 2%nat) /\
  (exists w sh rain meth, calc_blended_rain_tropical (AArr (one_gate 40)) (AArr (one_gate 1)) (AArr (one_gate 0.5)) ANone ANone "True" "X"
     trop_defaults = Ok (w, sh, rain, meth) /\ length rain = 2%nat) /\
  (exists sh w ic, calc_liquid_ice_mass (fun _ _ => fnan) (AArr (one_gate 40)) (AArr (one_gate 1)) (AArr (one_gate 2)) ANone None "cifelli" None None
     = Ok (RArr sh w, RArr sh ic) /\ length w = 2%nat).
Proof.
  split; [|split; [|split]].
  - match goal with |- exists sh out, ?c = _ /\ _ =>
      assert (H : match c with Ok (_, out) => (length out =? 2)%nat | _ => false end = true) by (vm_cast_no_check (eq_refl true));
      destruct c as [[sh out]| | | |]; try discriminate H end.
    exists sh, out. split; [reflexivity|]. now apply Nat.eqb_eq.
  - match goal with |- exists sh out, ?c = _ /\ _ =>
      assert (H : match c with Ok (RainArr _ out) => (length (out_rain out) =? 2)%nat | _ => false end = true) by (vm_cast_no_check (eq_refl true));
      destruct c as [[sh out|? ? ?]| | | |]; try discriminate H end.
    exists sh, out. split; [reflexivity|]. now apply Nat.eqb_eq.
  - match goal with |- exists w sh rain meth, ?c = _ /\ _ =>
      assert (H : match c with Ok (_, _, rain, _) => (length rain =? 2)%nat | _ => false end = true) by (vm_cast_no_check (eq_refl true));
      destruct c as [[[[w sh] rain] meth]| | | |]; try discriminate H end.
    exists w, sh, rain, meth. split; [reflexivity|]. now apply Nat.eqb_eq.
  - match goal with |- exists sh w ic, ?c = _ /\ _ =>
      assert (H : match c with Ok (RArr sh w, RArr sh' _) => ((length w =? 2)%nat && match sh, sh' with [a]%list, [b]%list => (a =? b)%nat | _, _ => false end)%bool | _ => false end = true) by (vm_cast_no_check (eq_refl true));
      destruct c as [[[? | sh w] [? | sh' ic]]| | | |]; try discriminate H end.
    apply andb_prop in H as (H & H'). destruct sh as [|a [|? ?]]; try discriminate. destruct sh' as [|b [|? ?]]; try discriminate.
    apply Nat.eqb_eq in H'. subst b. exists [a]%list, w, ic. split; [reflexivity|]. now apply Nat.eqb_eq.
Qed.
End Examples.
