(** * C109: a gate whose fields are all fill values

    Radar volumes mark missing measurements with a number such as -9999 or -32768
    in every field at once, and csu_fhc_summer classifies them.  Under NumPy 1
    the scores are kept in single precision and all of them vanish there, so the
    gate is class 1 (drizzle); under NumPy 2 the product is kept in double
    precision, the score of high-density graupel does not vanish, and the same
    call returns class 8 (X band: 8 or 9).  With reflectivity alone it is class 8
    under both (C108). *)
From Coq Require Import Reals Lra Lia ZArith QArith Qreals Arith.
From Flocq Require Import Core IEEE754.BinarySingleNaN.
From Verif Require Import Base.Num Base.ListFacts Base.XReal Base.Ieee.
From Verif Require Import Model.Tables Model.Beta Model.TTraps Model.Hid.
From Verif Require Import Spec.HidSpec Spec.IeeeSpec Spec.PowSpec Base.RelErr.
From Verif Require Import Proofs.HidProofs Proofs.SummerProofs Proofs.SummerReal Proofs.CoreProofs Proofs.BetaErr Proofs.HidErr Proofs.FillErr Proofs.AllFill.
From Verif Require Import Proofs.BetaProofs Proofs.IeeeSign Properties.P29_IeeeScores.
From Verif Require Import Properties.P09_SummerScores Properties.P24_DefaultScores Properties.P38_IeeeClass Properties.P47_Fill.
Open Scope R_scope.
#[local] Existing Instances p53 e1024 p24 e128.

Section C109.
Variables (np1 : bool) (lm : libm double).
Hypothesis Lm : pow_good lm.
#[local] Hint Extern 0 (FloatOps double) => exact (HidErr.fo np1 lm) : typeclass_instances.

(** ** The weights *)
Lemma b2_half : bpow radix2 (-1) = 1 / 2. Proof. cbn. lra. Qed.
Lemma pol_weight k : In k pol_keys -> sw (1 / 2) 1 (summer_weights k).
Proof.
  assert (G : forall q, 1 / 2 <= Q2R q <= 1 -> sw (1 / 2) 1 (flit q)).
  { intros q B. apply (drnd_sw (1 / 2) 1 (Q2R q)); auto.
    - change (dval (b_lit 53 1024 p53 e1024 q) = drnd (Q2R q)). rewrite val_lit. reflexivity.
    - rewrite <- b2_half. apply dbl_b2. lia.
    - change 1 with (bpow radix2 0). apply dbl_b2. lia. }
  cbn [pol_keys In]. intros [<-|[<-|[<-|[<-|[]]]]]; cbn [summer_weights]; apply G; unfold Q2R; cbn; lra.
Qed.
Lemma weight_term (b : bool) k : In k pol_keys -> sw (if b then 1 / 2 else 0) 1 (fmul (flag b) (summer_weights k)).
Proof.
  intro Hk. destruct (pol_weight k Hk) as (W & HW & B). exists (if b then W else 0). split; [now apply (flag_w np1 lm)|].
  destruct b; lra.
Qed.
Lemma weight_range (v : key -> bool) k0 : In k0 pol_keys -> v k0 = true -> sw (1 / 2) 4 (weight_sum v summer_weights pol_keys).
Proof.
  intros Hk Hv. unfold weight_sum. set (f := fun k => fmul (flag (v k)) (summer_weights k)).
  change (sw (1 / 2) 4 (fold_left fadd (map f [KKD; KRH; KLD]) (f KDR))).
  assert (F : Forall (sw 0 (bpow radix2 0)) (map f pol_keys)).
  { apply Forall_forall. intros y Hy. apply in_map_iff in Hy as (k & <- & Ik). unfold f.
    eapply sw_le; [| |apply (weight_term (v k) k Ik)]; [destruct (v k); lra|change (bpow radix2 0) with 1; lra]. }
  assert (X : Exists (sw (1 / 2) (bpow radix2 0)) (map f pol_keys)).
  { apply Exists_exists. exists (f k0). split; [now apply in_map|]. pose proof (weight_term (v k0) k0 Hk) as Q. rewrite Hv in Q. 
    unfold f. rewrite Hv. exact Q. }
  pose proof (sum_pick np1 lm fadd (or_intror (fun _ _ => eq_refl)) 0 (1 / 2) (map f [KKD; KRH; KLD]) (f KDR)) as S.
  eapply sw_le; [| |apply S; auto].
  - lra.
  - cbn [map length]. change (bpow radix2 0) with 1. change (Z.of_nat 4) with 4%Z. lra.
  - lia.
  - rewrite <- b2_half. apply sgl_b2. lia.
  - lra.
  - cbn; lia.
Qed.

(** ** The weighted mean of the polarimetric memberships *)
Lemma calc_range (v : key -> bool) sets c (g : key -> option double) e lo lo' k0 x0 t :
  (forall k, In k pol_keys -> v k = match g k with Some _ => true | None => false end) ->
  (-149 <= e <= 0)%Z -> sgl lo -> sgl lo' -> 0 <= lo' -> 4 * lo' <= lo ->
  (forall k x y, In k pol_keys -> g k = Some x -> gate_beta (sets k) c x = Ok y -> sw 0 (bpow radix2 e) y) ->
  In k0 pol_keys -> g k0 = Some x0 -> (forall y, gate_beta (sets k0) c x0 = Ok y -> sw (2 * lo) (bpow radix2 e) y) ->
  gate_calc v summer_weights sets pol_keys (weight_sum v summer_weights pol_keys) c g = Ok t ->
  sw lo' (bpow radix2 (e + 3)) t.
Proof.
  intros Hv He Slo Slo' P' Lo Hu Ik0 G0 H0 E. unfold gate_calc in E. apply bind_ok in E as (rows & Er & E).
  set (l := flat_map (fun k => match g k with Some x => [(k, x)] | None => [] end) pol_keys) in *.
  assert (Ll : (length l <= 4)%nat).
  { unfold l. cbn [pol_keys flat_map]. destruct (g KDR), (g KKD), (g KRH), (g KLD); cbn; lia. }
  assert (Il : forall k x, In (k, x) l -> In k pol_keys /\ g k = Some x).
  { intros k x H. unfold l in H. apply in_flat_map in H as (k' & Ik & H). destruct (g k') as [x'|] eqn:Gk; [|destruct H].
    destruct H as [H|[]]. injection H as <- <-. auto. }
  assert (I0 : In (k0, x0) l). { unfold l. apply in_flat_map. exists k0. rewrite G0. split; auto. now left. }
  assert (Se : sgl (bpow radix2 e)) by (apply sgl_b2; lia).
  assert (P0 : 0 < bpow radix2 e) by apply bpow_gt_0.
  assert (Row : forall k x y m, In (k, x) l -> 0 <= m -> sgl m -> sw (2 * m) (bpow radix2 e) y ->
     sw m (bpow radix2 e) (f32 (fmul (f32 (fmul (flag (v k)) (summer_weights k))) y))).
  { intros k x y m H Pm Sm Y. destruct (Il k x H) as (Ik & Gk). pose proof (weight_term (v k) k Ik) as W. rewrite (Hv k Ik), Gk in W. 
    rewrite (Hv k Ik), Gk. apply f32_sw; auto.
    apply (mul_sw np1 lm (1 / 2) 1 (2 * m) (bpow radix2 e)); auto; try lra; try apply Sm; try apply Se.
    apply f32_sw; auto. - rewrite <- b2_half. apply sgl_b2. lia. - change 1 with (bpow radix2 0). apply sgl_b2. lia. }
  apply mapM_ok in Er as (Lr & Gr).
  assert (F : Forall (sw 0 (bpow radix2 e)) rows).
  { apply Forall_forall. intros z Hz. apply In_nth_error in Hz as (n & Hn).
    destruct (nth_error l n) as [(k, x)|] eqn:En.
    - destruct (Gr n _ En) as (z' & Hz' & Ez). assert (z' = z) as -> by congruence. apply bind_ok in Ez as (y & Y & Ez).
      assert (Ez' : f32 (fmul (f32 (fmul (flag (v k)) (summer_weights k))) y) = z) by congruence. rewrite <- Ez'.
      pose proof (nth_error_In _ _ En) as Ikx. destruct (Il k x Ikx) as (Ik & Gk).
      apply (Row k x y 0 Ikx); [lra|apply sgl_0|]. rewrite Rmult_0_r. eapply Hu; eauto.
    - exfalso. apply nth_error_None in En. assert (n < length rows)%nat by (apply nth_error_Some; congruence). lia. }
  assert (X : Exists (sw lo (bpow radix2 e)) rows).
  { apply In_nth_error in I0 as (n & Hn). destruct (Gr n _ Hn) as (z & Hz & Ez). apply bind_ok in Ez as (y & Y & Ez).
    apply Exists_exists. exists z. split; [eapply nth_error_In; eauto|].
    assert (Ez' : f32 (fmul (f32 (fmul (flag (v k0)) (summer_weights k0))) y) = z) by congruence. rewrite <- Ez'.
    apply (Row k0 x0 y lo); auto; try lra. eapply nth_error_In; eauto. }
  unfold gsum in E. destruct rows as [|r rs]; [discriminate|].
  assert (E' : fnp (fdiv (fold_left (fun x y => f32 (fadd x y)) rs r) (fnp (weight_sum v summer_weights pol_keys))) = t) by congruence.
  rewrite <- E'. assert (H4 : (length rs <= 3)%nat) by (cbn [length] in Lr; lia).
  pose proof (sum_pick np1 lm (fun x y => f32 (fadd x y)) (or_introl (fun _ _ => eq_refl)) e lo rs r ltac:(lia) Slo ltac:(lra) ltac:(lia) F X) as S.
  assert (E2 : bpow radix2 (e + 2) = 4 * bpow radix2 e) by (rewrite bpow_plus; change (bpow radix2 2) with 4; ring).
  assert (E3 : bpow radix2 (e + 3) = 8 * bpow radix2 e) by (rewrite bpow_plus; change (bpow radix2 3) with 8; ring).
  assert (S4 : sw lo (bpow radix2 (e + 2)) (fold_left (fun x y => f32 (fadd x y)) rs r)).
  { eapply sw_le; [| |exact S]; [lra|]. rewrite E2. apply Rmult_le_compat_r; [lra|]. apply IZR_le. lia. }
  assert (Se3 : sgl (bpow radix2 (e + 3))) by (apply sgl_b2; lia).
  apply fnp_sw; auto.
  apply (div_sw np1 lm lo (bpow radix2 (e + 2)) (1 / 2) 4); auto; try lra; try apply Slo'; try apply Se3.
  apply fnp_sw. - rewrite <- b2_half. apply sgl_b2. lia.
  - change 4 with (bpow radix2 2). apply sgl_b2. lia.
  - apply (weight_range v k0); auto. now rewrite (Hv k0 Ik0), G0.
Qed.

Lemma fnp1 (x : double) : np1 = true -> fnp x = f32 x.
Proof.
  intro H. change ((if np1 then b_f32 53 1024 24 128 p53 e1024 p24 e128 else fun x => x) x = b_f32 53 1024 24 128 p53 e1024 p24 e128 x). now rewrite H.
Qed.
Lemma fnp2 (x : double) : np1 = false -> fnp x = x.
Proof.
  intro H. change ((if np1 then b_f32 53 1024 24 128 p53 e1024 p24 e128 else fun x => x) x = x). now rewrite H.
Qed.

(** ** One score of a gate of fill values *)
(** from where on a value counts as fill: the score of graupel vanishes in single precision *)
Definition fill_bound (bd : band) : Q := match bd with BX => 30000 | _ => 9000 end.
Definition deep (bd : band) : bool :=
  forallb (fun c => negb (in_list bd c) ||
     (forallb (fun k => match nth_error (csv Summer bd k) c with Some r => far_row (fill_bound bd) 39 r | None => false end) pol_keys &&
      match nth_error (csv Summer bd KDZ) c with Some r => far_row (fill_bound bd) 116 r | None => false end))%bool (seq 0 10).
Lemma deep_ok bd : deep bd = true. Proof. destruct bd; vm_compute; reflexivity. Qed.
Lemma deep_rows bd c : (c < 10)%nat -> in_list bd c = true ->
  (forall k, In k pol_keys -> exists r, nth_error (csv Summer bd k) c = Some r /\ far_row (fill_bound bd) 39 r = true) /\
  exists r, nth_error (csv Summer bd KDZ) c = Some r /\ far_row (fill_bound bd) 116 r = true.
Proof.
  intros Hc I. pose proof (deep_ok bd) as D. unfold deep in D. rewrite forallb_forall in D. specialize (D c).
  rewrite in_seq in D. specialize (D ltac:(lia)). rewrite I in D. cbn [negb orb] in D. apply andb_prop in D as (D1 & D2).
  rewrite forallb_forall in D1. split.
  - intros k Ik. specialize (D1 k Ik). destruct (nth_error _ _) as [r|]; [|discriminate]. eauto.
  - destruct (nth_error _ _) as [r|]; [|discriminate]. eauto.
Qed.

Definition all_filled (a : fields double) (bd : band) (x : key -> R) : Prop :=
  forall k, k <> KT -> supplied (a k) = true -> Q2R (fill_bound bd) <= Rabs (x k).

Lemma pol_used (a : fields double) ut k : In k pol_keys -> used a ut k = supplied (a k).
Proof. cbn [pol_keys In]. now intros [<-|[<-|[<-|[<-|[]]]]]. Qed.
Lemma pol_not_t k : In k pol_keys -> k <> KT. Proof. cbn. intuition congruence. Qed.
Lemma gate_at (a : fields double) ut i x k : measures a ut i x -> used a ut k = true ->
  exists d, option_map f32 (at_gate (a k) i) = Some (f32 d) /\ val 53 1024 d = Fin (x k) /\ Rabs (x k) <= 10 ^ 30.
Proof. intros M U. destruct (M k U) as (d & -> & V). exists d. auto. Qed.
Lemma supp_gate (a : fields double) ut i x k : measures a ut i x -> In k pol_keys ->
  supplied (a k) = match option_map f32 (at_gate (a k) i) with Some _ => true | None => false end.
Proof.
  intros M I. destruct (supplied (a k)) eqn:S.
  - destruct (gate_at a ut i x k M) as (d & -> & _); auto. now rewrite (pol_used a ut k I).
  - unfold supplied in S. destruct (a k); try discriminate. reflexivity.
Qed.
Lemma any_pol_key (a : fields double) : any_pol (fun k => supplied (a k)) = true -> exists k, In k pol_keys /\ supplied (a k) = true.
Proof. unfold any_pol. intro H. apply existsb_exists in H as (k & I & S). eauto. Qed.
Lemma pol_flag_any (p : key -> bool) : get_pol_flag p = any_pol p.
Proof. unfold get_pol_flag, any_pol. cbn. destruct (p KDR), (p KKD), (p KRH), (p KLD); reflexivity. Qed.

Lemma filled_zero ut method (a : fields double) one bd c i x z r : np1 = true -> contains "hybrid" method = true ->
  supplied (a KDZ) = true -> any_pol (fun k => supplied (a k)) = true -> val 53 1024 one = Fin 1 ->
  measures a ut i x -> all_filled a bd x -> (c < 10)%nat -> in_list bd c = true ->
  core_gate Summer (fun k => supplied (a k)) ut (fun k _ => summer_weights k) method one bd (fun k => option_map f32 (at_gate (a k) i)) c = Ok z ->
  val 53 1024 z = Fin r -> r = 0.
Proof.
  intros N1 Hm Sz Sp O M Fl Hc Il E Z. unfold core_gate in E. unfold varlist in E. rewrite Hm in E. cbv zeta in E.
  set (ut' := if supplied (a KT) then ut else false) in *.
  unfold gate_row in E. rewrite pol_flag_any, Sp in E.
  apply bind_ok in E as (t & Ec & E).
  destruct (deep_rows bd c Hc Il) as (Rp & (rz & Hrz & Gz)).
  destruct (any_pol_key a Sp) as (k0 & Ik0 & Sk0).
  destruct (gate_at a ut i x k0 M) as (d0 & D0 & _). { now rewrite (pol_used a ut k0 Ik0). }
  assert (Ub : forall k x' y, In k pol_keys -> option_map f32 (at_gate (a k) i) = Some x' ->
     gate_beta (get_sets Summer ut' one bd k) c x' = Ok y -> sw 0 (bpow radix2 (-39)) y).
  { intros k x' y Ik Gk Y. destruct (Rp k Ik) as (rk & Hrk & Gk').
    assert (Sk : supplied (a k) = true). { rewrite (supp_gate a ut i x k M Ik), Gk. reflexivity. }
    destruct (gate_at a ut i x k M) as (d & D & V & B). { now rewrite (pol_used a ut k Ik). }
    rewrite D in Gk. assert (x' = f32 d) as -> by congruence.
    destruct (row_far np1 lm Lm Summer bd k one ut' c d (x k) (fill_bound bd) 39 rk Hrk ltac:(lia) Gk' O) as (y' & Y' & U); auto.
    - intro K. now apply pol_not_t in Ik.
    - split; auto. apply Fl; auto. now apply pol_not_t.
    - assert (y' = y) as -> by congruence. exact U. }
  assert (T : sw 0 (bpow radix2 (-36)) t).
  { apply (calc_range _ _ c _ (-39) 0 0 k0 (f32 d0) t) in Ec; auto; try lra; try lia; try apply sgl_0.
    - intros k Ik. rewrite <- (supp_gate a ut i x k M Ik). cbn in Ik. destruct Ik as [<-|[<-|[<-|[<-|[]]]]]; reflexivity.
    - intros y Y. rewrite Rmult_0_r. eapply Ub; eauto. }
  destruct (gate_at a ut i x KDZ M Sz) as (dz & Dz & Vz & Bz).
  destruct (row_far np1 lm Lm Summer bd KDZ one ut' c dz (x KDZ) (fill_bound bd) 116 rz Hrz ltac:(lia) Gz O) as (yz & Yz & Uz); auto.
  { discriminate. } { split; auto. apply Fl; auto. discriminate. }
  rewrite Dz in E.
  assert (Fin1 : forall s, sw 0 (bpow radix2 (-36)) s -> z = fnp (fmul s yz) -> r = 0).
  { intros s Hs ->. rewrite fnp1 in Z by auto.
    assert (P : sw 0 (bpow radix2 (-152)) (fmul s yz)).
    { apply (mul_sw np1 lm 0 (bpow radix2 (-36)) 0 (bpow radix2 (-116))); auto; try lra; try apply dbl_0.
      - apply dbl_b2. lia.
      - rewrite <- bpow_plus. apply bpow_le. lia. }
    destruct P as (q & Q & B).
    assert (Zq : dval (f32 (fmul s yz)) = Fin 0).
    { apply (f32_tiny np1 lm _ q Q). rewrite Rabs_pos_eq by lra. apply Rle_lt_trans with (1 := proj2 B). apply bpow_lt. lia. }
    rewrite Zq in Z. congruence. }
  destruct ut' eqn:Ut.
  - assert (UT : used a ut KT = true). { unfold used. unfold ut' in Ut. destruct (supplied (a KT)); [now rewrite Ut|discriminate]. }
    destruct (gate_at a ut i x KT M UT) as (dt & Dt & Vt & Bt). rewrite Dt in E.
    destruct (row_one np1 lm Lm Summer bd KT 10 one true c dt (x KT) (summer_acc bd KT) Hc O (fun _ => eq_refl) Vt Bt) as (yt & Yt & Ut1).
    rewrite Yt in E. cbn [bind] in E. rewrite Yz in E. cbn [bind] in E.
    apply (Fin1 (fnp (fmul t yt))); [|congruence].
    apply fnp_sw; [apply sgl_0|apply sgl_b2; lia|].
    apply (mul_sw np1 lm 0 (bpow radix2 (-36)) 0 (bpow radix2 0)); auto; try lra; try apply dbl_0.
    + apply dbl_b2; lia.
    + change (bpow radix2 0) with 1. lra.
  - rewrite Yz in E. cbn [bind] in E. apply (Fin1 t); [auto|congruence].
Qed.

(** ** C109 *)
(** NumPy 1, default weights, hybrid: reflectivity and every polarimetric field supplied beyond 9000
    (X band: 30000) either way, the temperature whatever it is: class 1 *)
Theorem C109_all_fill_numpy1_class_1 ut method (a : fields double) one bd sh hid : np1 = true ->
  csu_fhc_summer ut summer_weights method a false 10 one bd false = Ok (Classes sh hid) ->
  scores_ok a ut method false -> contains "hybrid" method = true -> val 53 1024 one = Fin 1 ->
  any_pol (fun k => supplied (a k)) = true ->
  forall i x, (i < size (a KDZ))%nat -> measures a ut i x ->
  (forall k, k <> KT -> supplied (a k) = true -> match bd with BX => 30000 | _ => 9000 end <= Rabs (x k)) ->
  nth_error hid i = Some 1%nat.
Proof.
  rewrite summer_classes. intros N1 E Hs Hm O Sp i x Hi Hx HF.
  assert (Fl : all_filled a bd x).
  { intros k Nk Sk. specialize (HF k Nk Sk). destruct bd; cbn [fill_bound]; unfold Q2R; cbn; lra. }
  destruct (csu_fhc_summer ut summer_weights method a false 10 one bd true) as [[sh' mu|]| | | |] eqn:Es; try discriminate.
  apply bind_ok in E as (h & Eh & E). injection E as <- <-.
  destruct (argmax0_ok 10 (size (a KDZ)) mu ltac:(lia)) as (h' & Eh' & _ & G).
  assert (h' = h) as -> by congruence. destruct (G i Hi) as (k & Hk & _ & Ek).
  assert (Sw : forall k, stands_for (summer_weights k) (sW k)) by exact (summer_stands np1 lm).
  assert (Hw : weights_ok (used a ut) method sW) by (apply sW_ok; apply Hs).
  destruct (fill_scores np1 lm Lm ut summer_weights sW method a one bd sh' mu 9000 in_list Es Hs Hm O Sw Hw (gone_9000 bd) i x Hi Hx) as (V & HV & Z).
  { replace (Q2R 9000) with 9000 by (unfold Q2R; cbn; lra). specialize (HF KDZ ltac:(discriminate) (proj1 Hs)). destruct bd; lra. }
  rewrite map_nth_error', Hk.
  destruct (@argmax_first (fo108 np1 lm) (fun _ => eq_refl) (fun _ _ => eq_refl) (column 10 (size (a KDZ)) mu i) V k) as (T & Mx); auto.
  rewrite column_len in *.
  assert (Zero : forall j, (j < 10)%nat -> V j = 0).
  { intros j Hj. destruct (in_list bd j) eqn:Ij; [|now apply Z].
    destruct (HV j Hj) as (z & Hz & Vz).
    rewrite summer_core in Es. apply bind_ok in Es as (rows & Er & Es).
    destruct (negb _); [discriminate|]. assert (mu = concat rows) as -> by congruence.
    assert (N10 : seq 0 10 <> []) by discriminate. destruct (core_scores _ _ _ _ _ _ _ _ _ N10 Er) as (_ & _ & Gc).
    destruct (Gc j j i) as (z' & Hz' & Ez); auto. { now apply seq_nth_error. }
    rewrite column_nth in Hz by lia. rewrite (nth_error_nth _ _ _ Hz') in Hz. assert (z' = z) as -> by congruence.
    eapply (filled_zero ut method a one bd j i x z); eauto. apply Hs. }
  destruct k; auto. exfalso. destruct (Mx 0%nat ltac:(lia)) as (_ & M0). specialize (M0 ltac:(lia)).
  rewrite (Zero 0%nat), (Zero (S k)) in M0 by lia. lra.
Qed.

(** *** NumPy 2 *)
Definition graupel_some (bd : band) : bool :=
  (match nth_error (csv Summer bd KKD) 7 with Some r => some_row 40000 92 r | None => false end &&
   match nth_error (csv Summer bd KT) 7 with Some r => some_row 40000 100 r | None => false end)%bool.
Lemma graupel_some_ok bd : graupel_some bd = true. Proof. destruct bd; vm_compute; reflexivity. Qed.
Lemma graupel_rows bd : (exists r, nth_error (csv Summer bd KKD) 7 = Some r /\ some_row 40000 92 r = true) /\
  exists r, nth_error (csv Summer bd KT) 7 = Some r /\ some_row 40000 100 r = true.
Proof.
  pose proof (graupel_some_ok bd) as G. unfold graupel_some in G. apply andb_prop in G as (G1 & G2).
  split.
  - destruct (nth_error (csv Summer bd KKD) 7) as [r|]; [eauto|discriminate].
  - destruct (nth_error (csv Summer bd KT) 7) as [r|]; [eauto|discriminate].
Qed.

Lemma filled_left ut method (a : fields double) one bd i x z : np1 = false -> contains "hybrid" method = true ->
  supplied (a KDZ) = true -> supplied (a KKD) = true -> val 53 1024 one = Fin 1 ->
  measures a ut i x -> 9000 <= Rabs (x KDZ) <= 40000 -> Rabs (x KKD) <= 40000 -> (used a ut KT = true -> Rabs (x KT) <= 40000) ->
  core_gate Summer (fun k => supplied (a k)) ut (fun k _ => summer_weights k) method one bd (fun k => option_map f32 (at_gate (a k) i)) 7 = Ok z ->
  exists r, val 53 1024 z = Fin r /\ 0 < r.
Proof.
  intros N2 Hm Sz Sk O M Fz Fk Ft E. unfold core_gate in E. unfold varlist in E. rewrite Hm in E. cbv zeta in E.
  set (ut' := if supplied (a KT) then ut else false) in *.
  unfold gate_row in E. rewrite pol_flag_any in E.
  assert (Sp : any_pol (fun k => supplied (a k)) = true) by (unfold any_pol; cbn; rewrite Sk; now rewrite orb_true_r).
  rewrite Sp in E. apply bind_ok in E as (t & Ec & E).
  destruct (graupel_rows bd) as ((rk & Hrk & Gk) & (rt & Hrt & Gt)).
  destruct (gate_at a ut i x KKD M Sk) as (dk & Dk & Vk & Bk).
  assert (Q4 : Q2R 40000 = 40000) by (unfold Q2R; cbn; lra).
  assert (T : sw (bpow radix2 (-96)) (bpow radix2 3) t).
  { apply (calc_range _ _ 7 _ 0 (bpow radix2 (-94)) (bpow radix2 (-96)) KKD (f32 dk) t) in Ec; auto; try lia.
    - intros k Ik. rewrite <- (supp_gate a ut i x k M Ik). cbn in Ik. destruct Ik as [<-|[<-|[<-|[<-|[]]]]]; reflexivity.
    - apply sgl_b2; lia.
    - apply sgl_b2; lia.
    - apply bpow_ge_0.
    - change (-94)%Z with (2 + -96)%Z. rewrite (bpow_plus radix2 2). change (bpow radix2 2) with 4. lra.
    - intros k x' y Ik Gk' Y.
      assert (Sk' : supplied (a k) = true). { rewrite (supp_gate a ut i x k M Ik), Gk'. reflexivity. }
      destruct (gate_at a ut i x k M) as (d & D & V & B). { now rewrite (pol_used a ut k Ik). }
      rewrite D in Gk'. assert (x' = f32 d) as -> by congruence.
      destruct (row_one np1 lm Lm Summer bd k 10 one ut' 7 d (x k) (summer_acc bd k) ltac:(lia) O) as (y' & Y' & U); auto.
      { intro K. now apply pol_not_t in Ik. }
      assert (y' = y) as -> by congruence. exact U.
    - cbn; auto.
    - intros y Y. 
      destruct (row_some np1 lm Lm Summer bd KKD one ut' 7 dk (x KKD) 40000 92 rk Hrk ltac:(lia) Gk O) as (y' & Y' & U); auto; try discriminate; [lra|].
      assert (y' = y) as -> by congruence. replace (2 * bpow radix2 (-94)) with (bpow radix2 (- (1 + 92))); [exact U|].
      change (- (1 + 92))%Z with (1 + -94)%Z. rewrite bpow_plus. reflexivity. }
  destruct (gate_at a ut i x KDZ M Sz) as (dz & Dz & Vz & Bz).
  destruct (left_8 bd) as (rz & Hrz & Gz).
  destruct (dz_left np1 lm Lm Summer bd one ut' 7 dz (x KDZ) 9000 40000 rz Hrz Gz Vz) as (yz & tz & Yz & Vyz & Tz); auto.
  { replace (Q2R 9000) with 9000 by (unfold Q2R; cbn; lra). lra. }
  destruct (row_one np1 lm Lm Summer bd KDZ 10 one ut' 7 dz (x KDZ) (summer_acc bd KDZ) ltac:(lia) O) as (y' & Y' & U1); auto; try discriminate.
  assert (y' = yz) as -> by congruence.
  assert (Zr : sw (bpow radix2 (-149)) 1 yz).
  { destruct U1 as (q & Q & Bq). exists tz. split; auto. rewrite Vyz in Q. assert (q = tz) as -> by congruence.
    change (bpow radix2 0) with 1 in Bq. lra. }
  rewrite Dz in E.
  assert (Fin2 : forall s, sw (bpow radix2 (-197)) (bpow radix2 3) s -> z = fnp (fmul s yz) -> exists r, val 53 1024 z = Fin r /\ 0 < r).
  { intros s Hs ->. rewrite fnp2 by auto.
    assert (P : sw (bpow radix2 (-346)) (bpow radix2 3) (fmul s yz)).
    { apply (mul_sw np1 lm (bpow radix2 (-197)) (bpow radix2 3) (bpow radix2 (-149)) 1); auto; try apply bpow_ge_0; try (apply dbl_b2; lia).
      - rewrite <- bpow_plus. apply bpow_le. lia.
      - lra. }
    destruct P as (q & Q & B). exists q. split; auto. pose proof (bpow_gt_0 radix2 (-346)). lra. }
  destruct ut' eqn:Ut.
  - assert (UT : used a ut KT = true). { unfold used. unfold ut' in Ut. destruct (supplied (a KT)); [now rewrite Ut|discriminate]. }
    destruct (gate_at a ut i x KT M UT) as (dt & Dt & Vt & Bt). rewrite Dt in E.
    destruct (row_some np1 lm Lm Summer bd KT one true 7 dt (x KT) 40000 100 rt Hrt ltac:(lia) Gt O (fun _ => eq_refl) Vt) as (yt & Yt & Ut1); auto.
    { rewrite Q4. auto. }
    rewrite Yt in E. cbn [bind] in E. rewrite Yz in E. cbn [bind] in E.
    apply (Fin2 (fnp (fmul t yt))); [|congruence]. rewrite fnp2 by auto.
    apply (mul_sw np1 lm (bpow radix2 (-96)) (bpow radix2 3) (bpow radix2 (- (1 + 100))) (bpow radix2 0)); auto; try apply bpow_ge_0; try (apply dbl_b2; lia).
    + rewrite <- bpow_plus. apply bpow_le. lia.
    + change (bpow radix2 0) with 1. lra.
  - rewrite Yz in E. cbn [bind] in E. apply (Fin2 t); [|congruence].
    eapply sw_le; [| |exact T]; [apply bpow_le; lia|lra].
Qed.

(** NumPy 2, same call: reflectivity between 9000 and 40000 either way, KDP supplied and not beyond 40000,
    temperature unused or not beyond 40000, the other fields whatever they are: graupel *)
Theorem C109_all_fill_numpy2_graupel ut method (a : fields double) one bd sh hid : np1 = false ->
  csu_fhc_summer ut summer_weights method a false 10 one bd false = Ok (Classes sh hid) ->
  scores_ok a ut method false -> contains "hybrid" method = true -> val 53 1024 one = Fin 1 ->
  supplied (a KKD) = true ->
  forall i x, (i < size (a KDZ))%nat -> measures a ut i x ->
  9000 <= Rabs (x KDZ) <= 40000 -> Rabs (x KKD) <= 40000 -> (used a ut KT = true -> Rabs (x KT) <= 40000) ->
  exists c, nth_error hid i = Some c /\ In c (graupel_like bd).
Proof.
  rewrite summer_classes. intros N2 E Hs Hm O Sk i x Hi Hx Fz Fk Ft.
  destruct (csu_fhc_summer ut summer_weights method a false 10 one bd true) as [[sh' mu|]| | | |] eqn:Es; try discriminate.
  apply bind_ok in E as (h & Eh & E). injection E as <- <-.
  destruct (argmax0_ok 10 (size (a KDZ)) mu ltac:(lia)) as (h' & Eh' & _ & G).
  assert (h' = h) as -> by congruence. destruct (G i Hi) as (k & Hk & _ & Ek).
  assert (Sw : forall k, stands_for (summer_weights k) (sW k)) by exact (summer_stands np1 lm).
  assert (Hw : weights_ok (used a ut) method sW) by (apply sW_ok; apply Hs).
  destruct (fill_scores np1 lm Lm ut summer_weights sW method a one bd sh' mu 9000 in_list Es Hs Hm O Sw Hw (gone_9000 bd) i x Hi Hx) as (V & HV & Z).
  { replace (Q2R 9000) with 9000 by (unfold Q2R; cbn; lra). lra. }
  exists (S k). rewrite map_nth_error', Hk. split; auto.
  destruct (@argmax_first (fo108 np1 lm) (fun _ => eq_refl) (fun _ _ => eq_refl) (column 10 (size (a KDZ)) mu i) V k) as (T & Mx); auto.
  rewrite column_len in *.
  assert (P7 : 0 < V 7%nat).
  { destruct (HV 7%nat ltac:(lia)) as (z & Hz & Vz).
    rewrite summer_core in Es. apply bind_ok in Es as (rows & Er & Es).
    destruct (negb _); [discriminate|]. assert (mu = concat rows) as -> by congruence.
    assert (N10 : seq 0 10 <> []) by discriminate. destruct (core_scores _ _ _ _ _ _ _ _ _ N10 Er) as (_ & _ & Gc).
    destruct (Gc 7%nat 7%nat i) as (z' & Hz' & Ez); auto.
    rewrite column_nth in Hz by lia. rewrite (nth_error_nth _ _ _ Hz') in Hz. assert (z' = z) as -> by congruence.
    destruct (filled_left ut method a one bd i x z N2 Hm (proj1 Hs) Sk O Hx Fz Fk Ft Ez) as (r & R & P).
    rewrite Vz in R. assert (V 7%nat = r) as -> by congruence. exact P. }
  destruct (in_list bd k) eqn:Kk.
  - unfold in_list in Kk. apply existsb_exists in Kk as (n & Hn & En). apply Nat.eqb_eq in En. now rewrite En.
  - exfalso. destruct (Mx 7%nat ltac:(lia)) as (M7 & _). rewrite (Z k) in M7 by (auto; lia). lra.
Qed.
End C109.

(** ** Non-vacuity: one gate, all six fields -32768, S band: the same call gives
    class 1 under NumPy 1 and class 8 under NumPy 2 *)
Definition all_missing : fields double := fun _ => AArr (mkarr DFloat [1%nat] [b_lit 53 1024 p53 e1024 (-32768)]).
Lemma all_missing_ok : scores_ok all_missing true "hybrid" false.
Proof. split; [reflexivity|]. split; [reflexivity|]. split; [|left; reflexivity]. intros [] H; reflexivity. Qed.
Lemma all_missing_at : measures all_missing true 0 (fun _ => -32768).
Proof. intros k H. eexists. split; [reflexivity|]. split; [apply (val_int (-32768)); lia|]. apply Rabs_le. lra. Qed.
Example C109_same_call_two_classes (np1 : bool) : let _ := double_ops np1 lm_full in
  csu_fhc_summer true summer_weights "hybrid" all_missing false 10 (flit 1) BS false
    = Ok (Classes [1%nat] [if np1 then 1%nat else 8%nat]).
Proof.
  cbv zeta. set (fo := double_ops np1 lm_full).
  destruct (P29_IeeeScores.C90_summer_returns lm_full (proj2 C99_libm_exists) np1 true summer_weights "hybrid" all_missing BS all_missing_ok)
    as (mu & E & _).
  assert (C : exists hid, csu_fhc_summer true summer_weights "hybrid" all_missing false 10 (flit 1) BS false = Ok (Classes [1%nat] hid) /\ length hid = 1%nat).
  { rewrite summer_classes. change (flit 1) with (b_lit 53 1024 p53 e1024 1). fold fo in E. rewrite E.
    destruct (argmax0_ok 10 (size (all_missing KDZ)) mu ltac:(lia)) as (h & -> & Lh & _). cbn [bind]. eexists. split; [reflexivity|].
    rewrite map_length. exact Lh. }
  destruct C as (hid & C & L). rewrite C. do 2 f_equal.
  enough (H : nth_error hid 0 = Some (if np1 then 1%nat else 8%nat)).
  { clear - L H. destruct hid as [|h [|? ?]]; try discriminate L. cbn in H. congruence. }
  assert (O : val 53 1024 (@flit double fo 1) = Fin 1) by exact (v_one np1 lm_full).
  unfold fo in *. destruct np1.
  - eapply (C109_all_fill_numpy1_class_1 true lm_full full_good true "hybrid" all_missing); eauto using all_missing_ok, all_missing_at.
    cbv beta. intros. rewrite Rabs_left; lra.
  - destruct (C109_all_fill_numpy2_graupel false lm_full full_good true "hybrid" all_missing (b_lit 53 1024 p53 e1024 1) BS [1%nat] hid eq_refl C all_missing_ok eq_refl O eq_refl 0%nat (fun _ => -32768))
      as (c & Hc & I); auto using all_missing_at.
    + cbv beta. rewrite Rabs_left; lra.
    + cbv beta. rewrite Rabs_left; lra.
    + cbv beta. rewrite Rabs_left; lra.
    + cbn in I. destruct I as [<-|[]]. exact Hc.
Qed.
