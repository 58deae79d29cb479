(** * C106: how the retrieved diameter and concentration move with Zdr and Z *)
From Coq Require Import Reals Lra Psatz.
From Verif Require Import Base.Num Base.ListFacts Base.XReal Base.XTac Base.XArith.
From Verif Require Import Model.Common Model.Dsd Spec.DsdSpec Proofs.DsdProofs.
From Verif Require Import Properties.P05_Dsd.
Open Scope R_scope.

Definition quartic a b c d e y : R := a * y^4 + b * y^3 + c * y^2 + d * y + e.
Definition quartic' a b c d y : R := 4 * a * y^3 + 3 * b * y^2 + 2 * c * y + d.

Lemma quartic_deriv a b c d e y : derivable_pt_lim (quartic a b c d e) y (quartic' a b c d y).
Proof.
  replace (quartic' a b c d y) with (a * (INR 4 * y ^ 3) + b * (INR 3 * y ^ 2) + c * (INR 2 * y ^ 1) + d * 1 + 0)
    by (unfold quartic'; simpl; ring).
  unfold quartic.
  repeat apply derivable_pt_lim_plus; try apply derivable_pt_lim_const;
    apply derivable_pt_lim_scal; try apply derivable_pt_lim_id; apply (derivable_pt_lim_pow y).
Qed.

Lemma quartic_incr a b c d e lo hi : (forall y, lo < y < hi -> 0 < quartic' a b c d y) ->
  forall x y, lo <= x -> x < y -> y <= hi -> quartic a b c d e x < quartic a b c d e y.
Proof.
  intros P x y Lx L Ly.
  destruct (MVT_cor2 (quartic a b c d e) (quartic' a b c d) x y L) as (z & E & Hz);
    [intros; apply quartic_deriv|].
  specialize (P z ltac:(lra)). nra.
Qed.

Lemma quartic_opp a b c d e y : quartic (-a) (-b) (-c) (-d) (-e) y = - quartic a b c d e y.
Proof. unfold quartic. ring. Qed.

Definition low13 := quartic (424/10000) (-4571/10000) (6125/10000) (457/1000) (8808/10000).
Definition high13 := quartic 0 (536/10000) (-1971/10000) (6261/10000) (10815/10000).
Definition low09 := quartic (203/10000) (-1488/10000) (2209/10000) (5571/10000) (801/1000).
Definition high09 := quartic 0 (355/10000) (-3021/10000) (10556/10000) (6844/10000).

Lemma d13_low y : y < 1 -> d0_2013 y = low13 y.
Proof. intro. unfold d0_2013, low13, quartic. destruct Rlt_dec; lra. Qed.
Lemma d13_high y : 1 <= y -> d0_2013 y = high13 y.
Proof. intro. unfold d0_2013, high13, quartic. destruct Rlt_dec; lra. Qed.
Lemma d09_low y : -5/10 <= y <= 125/100 -> d0_2009 y = low09 y.
Proof. intro. unfold d0_2009, low09, quartic. destruct Rlt_dec; [lra|]. destruct Rle_dec; lra. Qed.
Lemma d09_high y : 125/100 < y -> d0_2009 y = high09 y.
Proof. intro. unfold d0_2009, high09, quartic. destruct Rlt_dec; [lra|]. destruct Rle_dec; lra. Qed.

Lemma low13_incr x y : -26/100 <= x -> x < y -> y <= 1 -> low13 x < low13 y.
Proof.
  apply (quartic_incr _ _ _ _ _ (-26/100) 1). intros z Hz. unfold quartic'.
  assert (A : 0 < (z + 26/100) * (1 - z)) by (apply Rmult_lt_0_compat; lra).
  assert (B : 0 < (z + 26/100) * (1 - z) * (1 - z)) by (apply Rmult_lt_0_compat; lra). nra.
Qed.
Lemma low13_decr x y : x < y -> y <= -29/100 -> low13 y < low13 x.
Proof.
  intros L Ly. unfold low13.
  enough (quartic (- (424/10000)) (- (-4571/10000)) (- (6125/10000)) (- (457/1000)) (- (8808/10000)) x
    < quartic (- (424/10000)) (- (-4571/10000)) (- (6125/10000)) (- (457/1000)) (- (8808/10000)) y)
    by (rewrite !quartic_opp in H; lra).
  apply (quartic_incr _ _ _ _ _ x (-29/100)); try lra. intros z Hz. unfold quartic'.
  assert (A : 0 < (- z - 29/100) * - z) by (apply Rmult_lt_0_compat; lra).
  assert (B : 0 < (- z - 29/100) * - z * - z) by (apply Rmult_lt_0_compat; lra). nra.
Qed.
Lemma high13_incr x y : x < y -> high13 x < high13 y.
Proof. intro L. apply (quartic_incr _ _ _ _ _ x y); try lra. intros z _. unfold quartic'. nra. Qed.
Lemma low09_incr x y : -5/10 <= x -> x < y -> y <= 125/100 -> low09 x < low09 y.
Proof. apply (quartic_incr _ _ _ _ _ (-5/10) (125/100)). intros z Hz. unfold quartic'.
  assert (A : 0 < (z + 5/10) * (125/100 - z)) by (apply Rmult_lt_0_compat; lra).
  assert (B : 0 < (z + 5/10) * (125/100 - z) * (125/100 - z)) by (apply Rmult_lt_0_compat; lra). nra. Qed.
Lemma high09_incr x y : x < y -> high09 x < high09 y.
Proof. intro L. apply (quartic_incr _ _ _ _ _ x y); try lra. intros z _. unfold quartic'. pose proof (pow2_ge_0 (z - 2837/1000)). nra. Qed.

Lemma d13_incr x y : -26/100 <= x -> x < y -> d0_2013 x < d0_2013 y.
Proof.
  intros Lx L. destruct (Rlt_or_le y 1) as [Hy|Hy].
  - rewrite !d13_low by lra. apply low13_incr; lra.
  - rewrite (d13_high y Hy). destruct (Rlt_or_le x 1) as [Hx|Hx].
    + rewrite (d13_low x Hx). pose proof (low13_incr x 1 Lx Hx ltac:(lra)).
      assert (low13 1 < high13 1) by (unfold low13, high13, quartic; lra).
      destruct Hy as [Hy| <-]; [pose proof (high13_incr 1 y Hy)|]; lra.
    + rewrite (d13_high x Hx). now apply high13_incr.
Qed.
Lemma d13_decr x y : x < y -> y <= -29/100 -> d0_2013 y < d0_2013 x.
Proof. intros L Ly. rewrite !d13_low by lra. now apply low13_decr. Qed.
Lemma d13_min y : 81/100 < d0_2013 y.
Proof.
  destruct (Rlt_or_le y (-29/100)) as [H|H].
  - pose proof (d13_decr y (-29/100) H ltac:(lra)) as D. rewrite (d13_low (-29/100)) in D by lra.
    unfold low13, quartic in D. lra.
  - destruct (Rlt_or_le y (-26/100)) as [G|G].
    + rewrite d13_low by lra. unfold low13, quartic. nra.
    + assert (B : 81/100 < d0_2013 (-26/100)) by (rewrite d13_low by lra; unfold low13, quartic; lra).
      destruct G as [G| <-]; [pose proof (d13_incr (-26/100) y ltac:(lra) G); lra|auto].
Qed.
Lemma d13_runaway y : y <= -3 -> 20 < d0_2013 y.
Proof.
  intro H. assert (B : 20 < d0_2013 (-3)) by (rewrite d13_low by lra; unfold low13, quartic; lra).
  destruct H as [H| ->]; [pose proof (d13_decr y (-3) H ltac:(lra)); lra|auto].
Qed.
Lemma d09_min y : -5/10 <= y -> 59/100 < d0_2009 y.
Proof.
  intro H. destruct (Rle_or_lt y (125/100)) as [G|G].
  - rewrite d09_low by lra. assert (59/100 < low09 (-5/10)) by (unfold low09, quartic; lra).
    destruct H as [H| <-]; [pose proof (low09_incr (-5/10) y ltac:(lra) H G); lra|auto].
  - rewrite d09_high by lra. assert (59/100 < high09 (125/100)) by (unfold high09, quartic; lra).
    pose proof (high09_incr (125/100) y G). lra.
Qed.

(** Nw as a function of the diameter *)
Lemma nw_antitone c z e x y : 0 < c -> 0 < z -> 0 < e -> 0 < x < y ->
  c * z / Rpower y e < c * z / Rpower x e.
Proof.
  intros Hc Hz He [Hx L]. assert (Rpower x e < Rpower y e).
  { apply Rlt_Rpower_l; auto; lra. }
  unfold Rdiv. apply Rmult_lt_compat_l; [nra|]. apply Rinv_lt_contravar; auto.
  apply Rmult_lt_0_compat; apply exp_pos.
Qed.
Lemma linZ_shift x t : linZ (x + 10 * t) = Rpower 10 t * linZ x.
Proof. unfold linZ. rewrite <- Rpower_plus. f_equal. lra. Qed.

(** ** S band, method '2013' *)
(** From -0.26 dB up a larger Zdr gives a larger diameter, and fewer drops at
    the same Z; the concentration is proportional to the linear reflectivity;
    the diameter is never below 0.81 mm. *)
Theorem C106_2013_moves dt1 dt2 dt3 sh d r k : length r = length d -> length k = length d ->
  exists d0 nw mu,
    calc_dsd (rfield dt1 sh d) (rfield dt2 sh r) (rfield dt3 sh k) "S" "2013" = Ok (DsdArr sh d0 nw mu) /\
    forall i j x y x' y', nth_error d i = Some x -> nth_error r i = Some y ->
      nth_error d j = Some x' -> nth_error r j = Some y' ->
    exists D N D' N', nth_error d0 i = Some (Fin D) /\ nth_error nw i = Some (Fin N) /\
      nth_error d0 j = Some (Fin D') /\ nth_error nw j = Some (Fin N') /\
      81/100 < D /\ 0 < N /\
      (-26/100 <= y < y' -> D < D' /\ (x' <= x -> N' < N)) /\
      (y' < y <= -29/100 -> D < D' /\ (x' <= x -> N' < N)) /\
      (y' = y -> forall t, x' = x + 10 * t -> N' = Rpower 10 t * N) /\
      (y' <= -3 -> 20 < D').
Proof.
  intros Lr Lk. destruct (C27_default_S_band_is_2013 dt1 dt2 dt3 sh d r k Lr Lk) as (d0 & nw & mu & E & _ & _ & _ & G).
  exists d0, nw, mu. split; auto. intros i j x y x' y' Ex Ey Ex' Ey'.
  destruct (G i x y Ex Ey) as (D & P & N & _). destruct (G j x' y' Ex' Ey') as (D' & P' & N' & _).
  do 4 eexists. split; [exact D|]. split; [exact N|]. split; [exact D'|]. split; [exact N'|].
  assert (Z : forall a b, a <= b -> linZ a <= linZ b).
  { intros a b H. unfold linZ. apply Rle_Rpower; lra. }
  assert (W : d0_2013 y < d0_2013 y' -> x' <= x ->
     1976/100 * linZ x' / Rpower (d0_2013 y') (746/100) < 1976/100 * linZ x / Rpower (d0_2013 y) (746/100)).
  { intros H Hx. eapply Rlt_le_trans; [apply (nw_antitone (1976/100) (linZ x') (746/100) (d0_2013 y)); auto; try lra; apply exp_pos|].
    apply Rmult_le_compat_r; [left; apply Rinv_0_lt_compat, exp_pos|]. specialize (Z _ _ Hx). lra. }
  split; [apply d13_min|]. split.
  { apply Rdiv_lt_0_compat; [|apply exp_pos]. assert (0 < linZ x) by apply exp_pos. lra. }
  split. { intros H. assert (Q : d0_2013 y < d0_2013 y') by (apply d13_incr; lra). auto. }
  split. { intros H. assert (Q : d0_2013 y < d0_2013 y') by (apply d13_decr; lra). auto. }
  split. { intros -> t ->. rewrite linZ_shift. unfold Rdiv. ring. }
  apply d13_runaway.
Qed.

(** ** C band *)
(** From -0.5 dB up the diameter grows with Zdr on each side of 1.25 dB and is
    above 0.59 mm; it drops by a little where the two polynomials meet. *)
Theorem C106_2009_moves dt1 dt2 dt3 sh d r k meth : length r = length d -> length k = length d ->
  exists d0 nw mu,
    calc_dsd (rfield dt1 sh d) (rfield dt2 sh r) (rfield dt3 sh k) "C" meth = Ok (DsdArr sh d0 nw mu) /\
    forall i j x y x' y', nth_error d i = Some x -> nth_error r i = Some y ->
      nth_error d j = Some x' -> nth_error r j = Some y' -> -5/10 <= y -> -5/10 <= y' ->
    exists D N D' N', nth_error d0 i = Some (Fin D) /\ nth_error nw i = Some (Fin N) /\
      nth_error d0 j = Some (Fin D') /\ nth_error nw j = Some (Fin N') /\
      59/100 < D /\ 0 < N /\
      (y < y' -> (y' <= 125/100 \/ 125/100 < y) -> D < D' /\ (x' <= x -> N' < N)) /\
      (y < y' -> D < D' + 4/10000) /\
      (y' = y -> forall t, x' = x + 10 * t -> N' = Rpower 10 t * N).
Proof.
  intros Lr Lk. destruct (C27_C_band_is_2009 dt1 dt2 dt3 sh d r k meth Lr Lk) as (d0 & nw & mu & E & _ & _ & _ & G).
  exists d0, nw, mu. split; auto. intros i j x y x' y' Ex Ey Ex' Ey' Hy Hy'.
  destruct (G i x y Ex Ey) as (D & _ & V & _). destruct (V Hy) as (P & N).
  destruct (G j x' y' Ex' Ey') as (D' & _ & V' & _). destruct (V' Hy') as (P' & N').
  do 4 eexists. split; [exact D|]. split; [exact N|]. split; [exact D'|]. split; [exact N'|].
  assert (Z : forall a b, a <= b -> linZ a <= linZ b).
  { intros a b H. unfold linZ. apply Rle_Rpower; lra. }
  assert (Q : y < y' -> (y' <= 125/100 \/ 125/100 < y) -> d0_2009 y < d0_2009 y').
  { intros L [H|H]; [rewrite !d09_low by lra; apply low09_incr|rewrite !d09_high by lra; apply high09_incr]; lra. }
  assert (X : 0 < linZ x) by apply exp_pos. assert (X' : 0 < linZ x') by apply exp_pos.
  assert (R1 : forall a, 0 < Rpower a (7319/1000)) by (intro; apply exp_pos).
  split; [now apply d09_min|]. split.
  { apply Rdiv_lt_0_compat; auto. specialize (R1 (d0_2009 y)). lra. }
  split.
  { intros L H. specialize (Q L H). split; auto. intro Hx.
    pose proof (nw_antitone 1 (linZ x') (7319/1000) (d0_2009 y) (d0_2009 y') ltac:(lra) X' ltac:(lra) ltac:(lra)) as A.
    pose proof (Z _ _ Hx) as B. pose proof (R1 (d0_2009 y)) as C. pose proof (R1 (d0_2009 y')) as C'.
    replace (linZ x' / (56/1000 * Rpower (d0_2009 y') (7319/1000))) with (1000/56 * (1 * linZ x' / Rpower (d0_2009 y') (7319/1000))) by (field; lra).
    replace (linZ x / (56/1000 * Rpower (d0_2009 y) (7319/1000))) with (1000/56 * (1 * linZ x / Rpower (d0_2009 y) (7319/1000))) by (field; lra).
    apply Rmult_lt_compat_l; [lra|]. eapply Rlt_le_trans; [exact A|].
    apply Rmult_le_compat_r; [left; now apply Rinv_0_lt_compat|]. lra. }
  split.
  { intro L. destruct (Rle_or_lt y' (125/100)) as [H|H]; [specialize (Q L (or_introl H)); lra|].
    destruct (Rle_or_lt y (125/100)) as [H'|H']; [|specialize (Q L (or_intror H')); lra].
    rewrite (d09_low y), (d09_high y') by lra.
    assert (low09 y <= low09 (125/100)) by (destruct H' as [H'| ->]; [left; apply low09_incr|]; lra).
    pose proof (high09_incr (125/100) y' H).
    assert (low09 (125/100) < high09 (125/100) + 4/10000) by (unfold low09, high09, quartic; lra). lra. }
  intros -> t ->. rewrite linZ_shift. unfold Rdiv. ring.
Qed.

(** the drop at 1.25 dB is real: 1.2501 dB gets a smaller diameter than 1.25 dB *)
Theorem C106_2009_step dt1 dt2 dt3 sh z k1 k2 meth :
  exists a b nw mu,
    calc_dsd (rfield dt1 sh [z; z]) (rfield dt2 sh [125/100; 12501/10000]) (rfield dt3 sh [k1; k2]) "C" meth
      = Ok (DsdArr sh [Fin a; Fin b] nw mu) /\ b < a.
Proof.
  destruct (C27_C_band_is_2009 dt1 dt2 dt3 sh [z; z] [125/100; 12501/10000] [k1; k2] meth eq_refl eq_refl)
    as (d0 & nw & mu & E & L & _ & _ & G).
  destruct (G 0%nat _ _ eq_refl eq_refl) as (A & _). destruct (G 1%nat _ _ eq_refl eq_refl) as (B & _).
  destruct d0 as [|u [|v [|]]]; try discriminate L. injection A as ->. injection B as ->.
  do 2 eexists. exists nw, mu. split; [exact E|]. rewrite (d09_low (125/100)), (d09_high (12501/10000)) by lra. unfold low09, high09, quartic. lra.
Qed.

(** ** The hypotheses are met *)
Example ex106 : exists d0 nw mu,
  calc_dsd (rfield DFloat [4%nat] [30; 30; 40; 30]) (rfield DFloat [4%nat] [0.5; 1.5; 0.5; -4]) (rfield DFloat [4%nat] [0;0;0;0]) "S" "2013"
    = Ok (DsdArr [4%nat] d0 nw mu) /\
  exists a b c A B C,
    d0 = [Fin a; Fin b; Fin a; Fin c] /\ nw = [Fin A; Fin B; Fin (10 * A); Fin C] /\ a < b /\ B < A /\ 20 < c.
Proof.
  destruct (C106_2013_moves DFloat DFloat DFloat [4%nat] [30; 30; 40; 30] [0.5; 1.5; 0.5; -4] [0;0;0;0] eq_refl eq_refl)
    as (d0 & nw & mu & E & G). exists d0, nw, mu. split; auto.
  destruct (G 0%nat 1%nat _ _ _ _ eq_refl eq_refl eq_refl eq_refl) as (a & A & b & B & a0 & A0 & b1 & B1 & _ & _ & M & _).
  destruct (M ltac:(lra)) as (M1 & M2).
  destruct (G 0%nat 2%nat _ _ _ _ eq_refl eq_refl eq_refl eq_refl) as (a' & A' & c & C & a0' & A0' & c2 & C2 & _ & _ & _ & _ & S & _).
  rewrite a0 in a0'. injection a0' as <-. rewrite A0 in A0'. injection A0' as <-.
  destruct (G 2%nat 3%nat _ _ _ _ eq_refl eq_refl eq_refl eq_refl) as (e & ee & f & ff & _ & _ & f3 & ff3 & _ & _ & _ & _ & _ & R).
  destruct (C27_default_S_band_is_2013 DFloat DFloat DFloat [4%nat] [30; 30; 40; 30] [0.5; 1.5; 0.5; -4] [0;0;0;0] eq_refl eq_refl)
    as (p & q & s & E' & L1 & L2 & L3 & G').
  rewrite E in E'. injection E' as <- <- <-.
  destruct (G' 0%nat _ _ eq_refl eq_refl) as (g0 & _). destruct (G' 2%nat _ _ eq_refl eq_refl) as (g2 & _).
  destruct d0 as [|? [|? [|? [|? [|]]]]]; try discriminate L1. destruct nw as [|? [|? [|? [|? [|]]]]]; try discriminate L2.
  cbn in *. injection a0 as ->. injection A0 as ->. injection b1 as ->. injection B1 as ->. injection C2 as ->. injection f3 as ->. injection ff3 as ->.
  rewrite (S eq_refl 1) by lra. rewrite Rpower_1 by lra.
  injection g0 as ->. injection g2 as ->. exists (d0_2013 0.5), b, f, A, B, ff. repeat split; auto. apply M2; lra. apply R; lra.
Qed.
