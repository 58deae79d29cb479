(** * C114: the drop-size retrievals in double precision *)
From Coq Require Import Reals Lra Lia ZArith QArith Qreals String.
From Flocq Require Import Core IEEE754.BinarySingleNaN.
From Verif Require Import Base.Num Base.ListFacts Base.XReal Base.Ieee Base.RelErr Spec.IeeeSpec Spec.PowIntSpec.
From Verif Require Import Model.Common Model.Dsd Spec.DsdSpec.
From Verif Require Import Proofs.IeeeSign Proofs.IeeeRain Proofs.EdgeRain Proofs.DsdProofs Proofs.DsdErr.
From Verif Require Import Properties.P28_Ieee Properties.P51_IeeeFund Spec.LibmSpec.
Open Scope R_scope.
#[local] Existing Instances p53 e1024 p24 e128.

(** gate i: reflectivity (0, or not below e^-300 in size) within 100 dBZ,
    differential reflectivity (0, or not below e^-100 in size) within 10 dB *)
Record gate2 (dz zdr : arr double) (i : nat) (d r : R) : Prop := {
  g_dz : exists x, nth_error (adata dz) i = Some x /\ denotes x d;
  g_zdr : exists x, nth_error (adata zdr) i = Some x /\ denotes x r;
  g_dz_range : (d = 0 \/ exp (-300) <= Rabs d) /\ Rabs d <= 100;
  g_zdr_range : (r = 0 \/ exp (-100) <= Rabs r) /\ Rabs r <= 10 }.

Section Acc.
Variables (np1 : bool) (lm : libm double).
Hypothesis Acc : pow_int lm.
#[local] Instance dop : FloatOps double := double_ops np1 lm.

Lemma near_within e (x : double) X : HidErr.near (15 / 10 ^ 12) x X -> 4 / 10 <= X -> 4 / 10 ^ 11 <= e -> within e x X.
Proof. intros (w & W & D) L E. exists w. split; [exact W|]. rewrite (Rabs_pos_eq X) by lra. apply Rle_trans with (1 := D). nra. Qed.

(** S band, Bringi et al. (2013), the default: every Zdr within 10 dB *)
Theorem C114_2013 (dz zdr kdp : arr double) : ashape dz = ashape zdr ->
  exists d0 nw mu, calc_dsd (AArr dz) (AArr zdr) (AArr kdp) "S" "2013" = Ok (DsdArr (ashape dz) d0 nw mu) /\
    forall i d r, gate2 dz zdr i d r ->
      exists a b c, nth_error d0 i = Some a /\ nth_error nw i = Some b /\ nth_error mu i = Some c /\
        within (1 / 10 ^ 10) a (d0_2013 r) /\
        within (1 / 10 ^ 9) b (19.76 * linZ d / Rpower (d0_2013 r) 7.46) /\
        denotes c 3.
Proof.
  intros S. unfold calc_dsd. cbn [check_for_array as_array bind].
  rewrite <- S, !shape_eqb_refl. cbn [andb negb String.eqb Ascii.eqb Bool.eqb].
  destruct (calc_dsd_sband_bringi_2013 (adata dz) (adata zdr)) as [[d0 nw] mu] eqn:E. cbn [bind].
  exists d0, nw, mu. split; [reflexivity|]. intros i d r [(x & Ex & X) (w & Ew & W) (T & U) (Tr & Ur)].
  destruct (gate_2013 _ _ _ _ _ Ex Ew) as (G1 & G2 & G3). rewrite E in G1, G2, G3. cbn [fst snd] in G1, G2, G3.
  eexists; eexists; eexists. split; [exact G1|]. split; [exact G2|]. split; [exact G3|].
  destruct (d0_2013_near np1 lm Acc w r W Ur Tr x) as (N & B). pose proof (d0_2013_ge r) as L.
  split; [apply near_within; [exact N|lra|lra]|]. split.
  - replace (19.76 * linZ d / Rpower (d0_2013 r) 7.46) with (1976/100 * linZ d / Rpower (d0_2013 r) (746/100)) by (do 2 f_equal; f_equal; lra).
    exact (Nw_2013 np1 lm Acc x d X T U _ _ N B L).
  - exact (mu_three np1 lm x d X).
Qed.

(** C band, Bringi et al. (2009), whatever [method] *)
Theorem C114_2009 (dz zdr kdp : arr double) meth : ashape dz = ashape zdr ->
  exists d0 nw mu, calc_dsd (AArr dz) (AArr zdr) (AArr kdp) "C" meth = Ok (DsdArr (ashape dz) d0 nw mu) /\
    forall i d r, gate2 dz zdr i d r ->
      exists a b c, nth_error d0 i = Some a /\ nth_error nw i = Some b /\ nth_error mu i = Some c /\
        (-0.5 <= r -> within (1 / 10 ^ 10) a (d0_2009 r) /\
           within (1 / 10 ^ 9) b (linZ d / (0.056 * Rpower (d0_2009 r) 7.319))) /\
        (r < -0.5 -> denotes a 0 /\ b = B754_infinity false) /\
        denotes c 3.
Proof.
  intros S. unfold calc_dsd. cbn [check_for_array as_array bind].
  rewrite <- S, !shape_eqb_refl. cbn [andb negb String.eqb Ascii.eqb Bool.eqb].
  destruct (calc_dsd_cband_bringi_2009 (adata dz) (adata zdr)) as [[d0 nw] mu] eqn:E. cbn [bind].
  exists d0, nw, mu. split; [reflexivity|]. intros i d r [(x & Ex & X) (w & Ew & W) (T & U) (Tr & Ur)].
  destruct (gate_2009 _ _ _ _ _ Ex Ew) as (G1 & G2 & G3). rewrite E in G1, G2, G3. cbn [fst snd] in G1, G2, G3.
  eexists; eexists; eexists. split; [exact G1|]. split; [exact G2|]. split; [exact G3|].
  split; [|split].
  - intro Hr. assert (Hr' : -5 / 10 <= r) by lra.
    destruct (d0_2009_near np1 lm Acc w r W Ur Tr x Hr') as (N & B). pose proof (d0_2009_ge r Hr') as L.
    split; [apply near_within; [exact N|lra|lra]|].
    replace 0.056 with (56/1000) by lra. replace 7.319 with (7319/1000) by lra.
    exact (Nw_2009 np1 lm Acc x d X T U _ _ N B L).
  - intro Hr. assert (Hr' : r < -5 / 10) by lra. pose proof (d0_2009_low np1 lm w r W x d X Hr') as Z0.
    split; [exact Z0|]. exact (Nw_2009_inf np1 lm Acc x d X T U _ Z0).
  - exact (mu_three np1 lm x d X).
Qed.
End Acc.

(** ** The hypotheses are met *)
Definition dl (q : Q) : double := b_lit 53 1024 p53 e1024 q.
(** the correctly rounded pow *)
Definition lm_powi : libm double :=
  let p a b := if Rlt_dec 0 a then nearest (Rpower a b) else if Req_EM_T a 0 then B754_zero false
    else nearest (if Req_EM_T b 1 then a else if Req_EM_T b 2 then a ^ 2 else if Req_EM_T b 3 then a ^ 3 else a ^ 4) in
  mklibm (fun x y => match val 53 1024 x, val 53 1024 y with Fin a, Fin b => p a b | _, _ => B754_nan end)
    (lm_log10 lm_fine) (lm_log lm_fine) (lm_sin lm_fine) (lm_cos lm_fine) (lm_asin lm_fine) (lm_pi lm_fine).
Lemma bp_52 : bpow radix2 (-53) <= bpow radix2 (-52). Proof. apply bpow_le. lia. Qed.
Lemma val_z n : (Z.abs n < 2 ^ 53)%Z -> dval (dl (Qmake n 1)) = Fin (IZR n).
Proof.
  intro L. unfold dl. rewrite val_lit. cbn [Qnum Qden]. replace (IZR n / 1) with (IZR n) by field. apply rnd_int; [exact p53|exact e1024|exact L].
Qed.
Lemma val_n n : (1 <= n <= 4)%nat -> dval (b_lit 53 1024 p53 e1024 (inject_Z (Z.of_nat n))) = Fin (INR n).
Proof. intro Hn. rewrite INR_IZR_INZ. apply (val_z (Z.of_nat n)). lia. Qed.
Lemma lm_powi_good : pow_int lm_powi.
Proof.
  pose proof bp_52 as B52. split.
  - intros x y a b X Y A B. cbn [lm_powi lm_pow]. rewrite X, Y. destruct (Rlt_dec 0 a); [|contradiction].
    assert (P : 0 < Rpower a b) by apply exp_pos.
    destruct (nearest_within (Rpower a b)) as (w & W & D); [right; rewrite Rabs_pos_eq; lra|].
    exists w. split; [exact W|]. rewrite (Rabs_pos_eq (Rpower a b)) in D by lra. apply Rle_trans with (1 := D).
    apply Rmult_le_compat_r; lra.
  - intros x a n Hn X R. cbn [lm_powi lm_pow]. rewrite X, val_n by auto.
    assert (Hin : a ^ n = 0 \/ exp (-500) <= Rabs (a ^ n) <= exp 500).
    { destruct R as [-> |R]; [left; apply pow_ne_zero; lia|right].
      rewrite <- RPow_abs. pose proof (exp_pos (-100)).
      assert (P : Rabs a ^ n = exp (INR n * ln (Rabs a))).
      { rewrite <- Rpower_pow by lra. reflexivity. }
      assert (L1 : -100 <= ln (Rabs a)).
      { apply Rle_trans with (ln (exp (-100))); [rewrite ln_exp; lra|]. destruct (proj1 R) as [G|G]; [left; now apply ln_increasing|rewrite <- G; lra]. }
      assert (L2 : ln (Rabs a) <= 100).
      { apply Rle_trans with (ln (exp 100)); [|rewrite ln_exp; lra]. destruct (proj2 R) as [G|G]; [left; apply ln_increasing; lra|rewrite <- G; lra]. }
      rewrite P. assert (I : 1 <= INR n <= 4) by (change 1 with (INR 1); replace 4 with (INR 4) by (simpl; lra); split; apply le_INR; lia).
      split; apply exp_le_mono; nra. }
    assert (G : nearest (a ^ n) = (if Rlt_dec 0 a then nearest (Rpower a (INR n)) else if Req_EM_T a 0 then B754_zero false
      else nearest (if Req_EM_T (INR n) 1 then a else if Req_EM_T (INR n) 2 then a ^ 2 else if Req_EM_T (INR n) 3 then a ^ 3 else a ^ 4))).
    { destruct (Rlt_dec 0 a); [now rewrite Rpower_pow|]. destruct (Req_EM_T a 0) as [-> |].
      - rewrite pow_ne_zero by lia. unfold nearest. destruct (Req_EM_T 0 0); [reflexivity|lra].
      - f_equal. destruct n as [|[|[|[|[|n]]]]]; try lia; cbn [INR];
          repeat (destruct Req_EM_T; try lra); simpl; ring. }
    rewrite <- G. destruct (nearest_within _ Hin) as (w & W & D). exists w. split; [exact W|].
    apply Rle_trans with (1 := D). apply Rmult_le_compat_r; [apply Rabs_pos|lra].
  - intros x y b X Y Pb N. cbn [lm_powi lm_pow]. rewrite X, Y. destruct (Rlt_dec 0 0); [lra|]. destruct (Req_EM_T 0 0); [reflexivity|lra].
Qed.
Definition ex114_dz := mkarr DFloat [3%nat] [dl 45; dl 0; dl 20].
Definition ex114_zdr := mkarr DFloat [3%nat] [dl 2; dl (-1); dl 0].
Example ex114_gates : ashape ex114_dz = ashape ex114_zdr /\ gate2 ex114_dz ex114_zdr 0 45 2 /\ gate2 ex114_dz ex114_zdr 1 0 (-1) /\ gate2 ex114_dz ex114_zdr 2 20 0.
Proof.
  assert (E1 : exp (-100) <= 1) by (rewrite <- exp_0; apply exp_le_mono; lra).
  assert (E3 : exp (-300) <= 1) by (rewrite <- exp_0; apply exp_le_mono; lra).
  split; [reflexivity|]. split; [|split]; split;
    try (eexists; (split; [reflexivity|]); apply val_z; cbn; lia).
  - rewrite Rabs_pos_eq by lra. lra.
  - rewrite Rabs_pos_eq by lra. lra.
  - rewrite Rabs_R0. lra.
  - rewrite Rabs_left by lra. lra.
  - rewrite Rabs_pos_eq by lra. lra.
  - rewrite Rabs_R0. lra.
Qed.
