From Coq Require Import Reals Lra Psatz.
From Verif Require Import Base.Num Base.ListFacts Base.XReal Base.XTac Base.XArith Base.Pointwise.
From Verif Require Import Spec.RainSpec Spec.LiquidIceSpec Proofs.RainProofs Proofs.RainReal.
From Verif Require Model.LiquidIce.
Import Model.LiquidIce.

Section Gate.
Context {F : Type} `{FloatOps F}.
Local Open Scope fl_scope.

Definition g_excess (fa fb d r : F) : F :=
  let e := d - (fa * zdp_of d r + fb) in if e <? #0 then #0 else e.
Definition g_thresh (h hf : F) : F :=
  if h <=? hf then ((#0 - #8) / #3) * (h - hf) + #2 else #0 + #1.1.
Definition g_icefrac (e : F) : F := #1 - #10 ** (#(-0.1) * e).
Definition g_zrain fa fb (d r : F) : F := lin d * (#1 - g_icefrac (g_excess fa fb d r)).
Definition g_water (fa fb thr d r : F) : F :=
  let c := g_excess fa fb d r - thr in
  if r <? #0 then #0
  else if c >=? #0 then #3.44 * #10 ** #(-3) * g_zrain fa fb d r ** (#4 / #7)
  else if c <? #0 then #0.70 * #10 ** #(-3) * lin d ** #0.886 * (lin d / (lin d / lin r)) ** #(-4.159)
  else d * #0.
Definition g_ice (fa fb thr d r : F) : F :=
  let c := g_excess fa fb d r - thr in
  if c >=? #0 then #1000 * fpi * #917 * (#4 * #10 ** #6) ** (#3 / #7)
                    * ((#5.28 * #10 ** #(-18) * (lin d - g_zrain fa fb d r)) / #720) ** (#4 / #7)
  else d * #0.

Definition li_fits (a b : option F) : res (F * F) :=
  match a, b with
  | None, _ => Ok (#0.8178, #12.5088)
  | Some a, Some b => Ok (a, b)
  | Some _, None => Raise TypeError
  end.

Lemma thresh_nth z hf i h : nth_error z i = Some h ->
  nth_error (get_delta_thresh z hf) i = Some (g_thresh h hf).
Proof. intro E. unfold get_delta_thresh. pwr. reflexivity. Qed.
Lemma thresh_len z hf : length (get_delta_thresh z hf) = length z.
Proof. unfold get_delta_thresh. pwlen. Qed.

Lemma liquid_ice_gate d r thr a b fa fb :
  li_fits a b = Ok (fa, fb) -> length r = length d -> length thr = length d ->
  exists w ic, liquid_ice_calcs d r thr a b = Ok (w, ic) /\
    length w = length d /\ length ic = length d /\
    forall i x y t, nth_error d i = Some x -> nth_error r i = Some y -> nth_error thr i = Some t ->
      nth_error w i = Some (g_water fa fb t x y) /\ nth_error ic i = Some (g_ice fa fb t x y).
Proof.
  intros Hf Lr Lt.
  assert (Hm : match a, b with
    | None, _ => Ok (get_linear_fits "cifelli") | Some a, Some b => Ok (a, b)
    | Some _, None => Raise TypeError end = Ok (fa, fb)) by exact Hf.
  unfold liquid_ice_calcs. rewrite Hm. unfold calc_zh_zv, calc_zdp; cbn [bind].
  eexists; eexists; split; [reflexivity|].
  split; [pwlen|]. split; [pwlen|].
  intros i x y t E1 E2 E3. split; pwr.
  - unfold g_water, g_excess, g_zrain, g_excess, zdp_of, lin, linearize.
    destruct (y <? #0); auto.
  - reflexivity.
Qed.
End Gate.

Open Scope R_scope.

Lemma lit_opp p q : @flit xr _ (Qmake (Zneg p) q) = Fin (- (IZR (Zpos p) / IZR (Zpos q))).
Proof.
  rewrite lit_fin; cbn [Qnum Qden]. f_equal. change (Zneg p) with (- Zpos p)%Z.
  rewrite opp_IZR. unfold Rdiv. ring.
Qed.

Lemma zdp_spec d r : @zdp_of xr _ (Fin d) (Fin r) = Fin (Zdp d r).
Proof. rewrite zdp_fin. reflexivity. Qed.

Lemma g_excess_fin fa fb d r :
  g_excess (Fin fa) (Fin fb) (Fin d) (Fin r) = Fin (excess fa fb d r).
Proof.
  unfold g_excess. rewrite zdp_spec, fmul_fin, fadd_fin, fsub_fin, (lit_int 0), flt_fin.
  unfold excess. set (e := d - _). unfold Rmax. destruct (Rltb_spec e 0), (Rle_dec 0 e); auto; lra.
Qed.
Lemma excess_nonneg fa fb d r : 0 <= excess fa fb d r.
Proof. apply Rmax_l. Qed.

Lemma g_thresh_fin h hf : g_thresh (Fin h) (Fin hf) = Fin (delta_threshold hf h).
Proof.
  unfold g_thresh, delta_threshold. rewrite fle_fin.
  destruct (Rleb_spec h hf), (Rle_dec h hf); try lra.
  - rewrite !lit_int, !fsub_fin, fdiv_fin, fmul_fin, fadd_fin by lra. f_equal. field.
  - rewrite lit_int, lit_fin, fadd_fin; cbn [Qnum Qden]. f_equal. lra.
Qed.
Lemma delta_threshold_ge hf h : 11 / 10 <= delta_threshold hf h.
Proof. unfold delta_threshold. destruct Rle_dec; lra. Qed.

Lemma g_icefrac_fin e : g_icefrac (Fin e) = Fin (1 - Rpower 10 (- e / 10)).
Proof.
  unfold g_icefrac. rewrite lit_opp, fmul_fin, pow10_fin, lit_int, fsub_fin. do 3 f_equal. field.
Qed.

Lemma g_zrain_fin fa fb d r :
  g_zrain (Fin fa) (Fin fb) (Fin d) (Fin r) = Fin (Z_rain fa fb d r).
Proof.
  unfold g_zrain. rewrite g_excess_fin, g_icefrac_fin, lin_fin, lit_int, fsub_fin, fmul_fin.
  unfold Z_rain, Zh. f_equal. ring.
Qed.

Lemma Rpower10_neg x : 0 < x -> Rpower 10 (- x / 10) < 1.
Proof. intro H. rewrite <- (Rpower_O 10) by lra. apply Rpower10_lt. lra. Qed.

Lemma Z_rain_pos fa fb d r : 0 < Z_rain fa fb d r.
Proof. apply Rmult_lt_0_compat; apply Rpower_pos. Qed.
Lemma Z_ice_nonneg fa fb d r : 0 <= Z_ice fa fb d r.
Proof.
  unfold Z_ice, Z_rain. pose proof (excess_nonneg fa fb d r).
  assert (Rpower 10 (- excess fa fb d r / 10) <= 1).
  { apply Rle_trans with (Rpower 10 0); [apply Rpower10_le; lra|rewrite Rpower_O; lra]. }
  assert (0 < Zh d) by apply Rpower_pos. nra.
Qed.
Lemma Z_ice_pos fa fb d r : 0 < excess fa fb d r -> 0 < Z_ice fa fb d r.
Proof.
  intro H. unfold Z_ice, Z_rain. apply Rpower10_neg in H.
  assert (0 < Zh d) by apply Rpower_pos. nra.
Qed.

Lemma Rpower10_int_pos z : 0 < Rpower 10 z.
Proof. apply Rpower_pos. Qed.

Lemma g_water_fin fa fb hf d r h :
  g_water (Fin fa) (Fin fb) (Fin (delta_threshold hf h)) (Fin d) (Fin r)
  = Fin (spec_water fa fb hf d r h).
Proof.
  unfold g_water, spec_water. rewrite g_excess_fin, fsub_fin, (lit_int 0), flt_fin, fle_fin, flt_fin.
  destruct (Rltb_spec r 0), (Rlt_dec r 0); try lra; auto.
  set (e := excess fa fb d r). set (t := delta_threshold hf h).
  destruct (Rlt_dec e t), (Rleb_spec 0 (e - t)); try lra.
  - destruct (Rltb_spec (e - t) 0); try lra.
    rewrite !lin_fin, !lit_opp.
    pose proof (Rpower_pos 10 (d / 10)). pose proof (Rpower_pos 10 (r / 10)).
    assert (0 < Rpower 10 (d / 10) / Rpower 10 (r / 10)) by (apply Rdiv_lt_0_compat; auto).
    assert (0 < Rpower 10 (d / 10) / (Rpower 10 (d / 10) / Rpower 10 (r / 10)))
      by (apply Rdiv_lt_0_compat; auto).
    rewrite !fdiv_fin by lra. rewrite pow10_fin. rewrite !lit_fin; cbn [Qnum Qden].
    rewrite !fpow_pos by auto. rewrite !fmul_fin.
    unfold water_all_rain, Zh, Zv. do 2 f_equal.
    + do 3 f_equal. field.
    + f_equal. field.
  - rewrite g_zrain_fin, lit_opp, pow10_fin. rewrite !lit_fin; cbn [Qnum Qden].
    rewrite fdiv_fin by lra. rewrite fpow_pos by apply Z_rain_pos. rewrite !fmul_fin.
    unfold water_of. do 2 f_equal; [do 2 f_equal; field|]. f_equal. field.
Qed.

Lemma g_ice_fin fa fb hf d r h :
  g_ice (Fin fa) (Fin fb) (Fin (delta_threshold hf h)) (Fin d) (Fin r)
  = Fin (spec_ice fa fb hf d r h).
Proof.
  unfold g_ice, spec_ice. rewrite g_excess_fin, fsub_fin, (lit_int 0), fle_fin.
  pose proof (delta_threshold_ge hf h).
  set (e := excess fa fb d r) in *. set (t := delta_threshold hf h) in *.
  destruct (Rlt_dec e t), (Rleb_spec 0 (e - t)); try lra.
  - rewrite fmul_fin. f_equal. ring.
  - assert (Hi : 0 < Z_ice fa fb d r) by (apply Z_ice_pos; unfold e in *; lra).
    rewrite g_zrain_fin, lin_fin, fsub_fin. change (Rpower 10 (d / 10) - Z_rain fa fb d r) with (Z_ice fa fb d r).
    rewrite lit_opp, (lit_int 6), !pow10_fin. rewrite !lit_fin; cbn [Qnum Qden].
    change (@fpi xr _) with (Fin PI). rewrite !fmul_fin. rewrite !fdiv_fin by lra.
    pose proof (Rpower_pos 10 6). pose proof (Rpower_pos 10 (- (18 / 1))).
    rewrite fpow_pos by nra.
    assert (0 < 528 / 100 * Rpower 10 (- (18 / 1)) * Z_ice fa fb d r / (720 / 1)).
    { apply Rdiv_lt_0_compat; [|lra]. apply Rmult_lt_0_compat; auto. lra. }
    rewrite fpow_pos by auto. rewrite !fmul_fin. unfold ice_of. do 2 f_equal.
    + f_equal; [f_equal; field; auto|]. f_equal; [f_equal; lra|lra].
    + f_equal; [|lra]. f_equal; [|lra]. do 3 f_equal. lra.
Qed.

Lemma water_all_rain_pos zh zv : 0 < water_all_rain zh zv.
Proof.
  unfold water_all_rain. pose proof (Rpower_pos 10 (-3)). pose proof (Rpower_pos zh (886/1000)).
  pose proof (Rpower_pos (zh / zv) (-4159/1000)).
  repeat apply Rmult_lt_0_compat; auto; lra.
Qed.
Lemma water_of_pos zr : 0 < water_of zr.
Proof.
  unfold water_of. pose proof (Rpower_pos 10 (-3)). pose proof (Rpower_pos zr (4/7)).
  repeat apply Rmult_lt_0_compat; auto; lra.
Qed.
Lemma ice_of_pos zi : 0 < ice_of zi.
Proof.
  unfold ice_of. pose proof PI_RGT_0.
  apply Rmult_lt_0_compat; [|apply Rpower_pos].
  apply Rmult_lt_0_compat; [|apply Rpower_pos]. nra.
Qed.
