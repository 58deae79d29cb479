(** * C108: what the classifier makes of a fill value in the reflectivity

    csu_fhc_summer has no notion of a missing measurement.  In hybrid mode a gate
    whose reflectivity is a fill value such as -9999 or -32768 is classified like
    any other: as class 1 (drizzle) or class 8 (high-density graupel; at X band
    also class 9, hail), because these classes alone have a membership function
    that does not round to zero there in single precision. *)
From Coq Require Import Reals Lra Lia ZArith QArith Qreals Arith.
From Flocq Require Import Core IEEE754.BinarySingleNaN.
From Verif Require Import Base.Num Base.ListFacts Base.XReal Base.Ieee.
From Verif Require Import Model.Tables Model.Beta Model.TTraps Model.Hid.
From Verif Require Import Spec.HidSpec Spec.IeeeSpec Spec.PowSpec Base.RelErr.
From Verif Require Import Proofs.HidProofs Proofs.SummerProofs Proofs.SummerReal Proofs.CoreProofs Proofs.BetaErr Proofs.HidErr Proofs.FillErr.
From Verif Require Import Proofs.BetaProofs Proofs.IeeeSign Properties.P29_IeeeScores.
From Verif Require Import Properties.P09_SummerScores Properties.P24_DefaultScores Properties.P38_IeeeClass.
Open Scope R_scope.
#[local] Existing Instances p53 e1024 p24 e128.

(** the classes other than 1 that a fill value can get *)
Definition graupel_like (bd : band) : list nat := match bd with BX => [8; 9]%nat | _ => [8]%nat end.

(** ** The first maximum of finite scores *)
Section Argmax.
Context {fd : FloatOps double}.
Hypothesis Hn : forall x, fisnan x = negb (Beqb x x).
Hypothesis Hle : forall x y : double, fle x y = Bleb x y.
Lemma argmax_from_first (l : list double) (V : nat -> R) : forall best bi i,
  (forall j, (j < length l)%nat -> exists z, nth_error l j = Some z /\ val 53 1024 z = Fin (V (i + j)%nat)) ->
  val 53 1024 best = Fin (V bi) -> (bi < i)%nat ->
  let t := np_argmax_from best bi i l in
  (t = bi \/ i <= t < i + length l)%nat /\
  (forall j, (j = bi \/ i <= j < i + length l)%nat -> V j <= V t /\ ((j < t)%nat -> V j < V t)).
Proof.
  induction l as [|z l IH]; intros best bi i Hl Hb Hbi; cbn [np_argmax_from]; cbv zeta.
  - cbn. split; [now left|]. intros j [-> |H]; [|lia]. split; [lra|lia].
  - assert (Nb : fisnan best = false).
    { rewrite Hn, (val_eq 53 1024), Hb. cbn [xeq]. now rewrite (proj2 (Reqb_true _ _) eq_refl). }
    rewrite Nb. destruct (Hl 0%nat) as (z' & Hz & Vz); [cbn; lia|]. cbn in Hz. assert (z' = z) as -> by congruence.
    rewrite Nat.add_0_r in Vz.
    assert (C : fle z best = Rleb (V i) (V bi)). { now rewrite Hle, val_le, Vz, Hb. }
    rewrite C. cbn [length].
    assert (Hl' : forall j, (j < length l)%nat -> exists z, nth_error l j = Some z /\ val 53 1024 z = Fin (V (S i + j)%nat)).
    { intros j Hj. destruct (Hl (S j)) as (y & Hy & Vy); [cbn; lia|]. exists y. split; auto. rewrite Vy. do 2 f_equal. lia. }
    destruct (Rleb_spec (V i) (V bi)) as [Le|Gt].
    + destruct (IH best bi (S i) Hl' Hb ltac:(lia)) as (T & M). set (t := np_argmax_from best bi (S i) l) in *.
      split; [lia|]. intros j Hj. destruct (Nat.eq_dec j i) as [-> |]; [|apply M; lia].
      destruct (M bi ltac:(lia)) as (M1 & M2). split; [lra|]. intro Lt. assert (V bi < V t) by (apply M2; lia). lra.
    + destruct (IH z i (S i) Hl' Vz ltac:(lia)) as (T & M). set (t := np_argmax_from z i (S i) l) in *.
      split; [lia|]. intros j Hj. destruct (Nat.eq_dec j bi) as [-> |]; [|apply M; lia].
      destruct (M i ltac:(lia)) as (M1 & _). split; [lra|]. lra.
Qed.
Lemma argmax_first (l : list double) (V : nat -> R) t :
  (forall j, (j < length l)%nat -> exists z, nth_error l j = Some z /\ val 53 1024 z = Fin (V j)) ->
  np_argmax l = Ok t ->
  (t < length l)%nat /\ forall j, (j < length l)%nat -> V j <= V t /\ ((j < t)%nat -> V j < V t).
Proof.
  destruct l as [|z l]; [discriminate|]. unfold np_argmax. intros Hl E. cbn [length] in *.
  assert (E' : np_argmax_from z 0 1 l = t) by congruence. clear E. rewrite <- E'.
  destruct (argmax_from_first l V z 0 1) as (T & M).
  - intros j Hj. destruct (Hl (S j)) as (y & Hy & Vy); [lia|]. exists y. auto.
  - destruct (Hl 0%nat) as (y & Hy & Vy); [lia|]. cbn in Hy. congruence.
  - lia.
  - split; [lia|]. intros j Hj. apply M. lia.
Qed.
End Argmax.

Section C108.
Variables (np1 : bool) (lm : libm double).
Hypothesis Lm : pow_good lm.
#[local] Instance fo108 : FloatOps double := double_ops np1 lm.

(** a product with zero that is a number is zero *)
Lemma mul_zero x y r : val 53 1024 y = Fin 0 -> val 53 1024 (fmul x y) = Fin r -> r = 0.
Proof.
  intro Y. change (fmul x y) with (Bmult mode_NE x y). rewrite (val_mult 53 1024 p53 e1024), Y.
  destruct (val 53 1024 x) as [a| | |]; cbn [xmul rndx]; try discriminate.
  1: rewrite Rmult_0_r, rnd_0; congruence.
  all: unfold xinf; repeat destruct Rlt_dec; discriminate.
Qed.
Lemma f32_zero x r : val 53 1024 (f32 x) = Fin r -> (forall r', val 53 1024 x = Fin r' -> r' = 0) -> r = 0.
Proof.
  change (f32 x) with (conv 24 128 53 1024 p53 e1024 (conv 53 1024 24 128 p24 e128 x)). rewrite !val_conv.
  intros E H. destruct (val 53 1024 x) as [r'| | |]; try discriminate. rewrite (H r' eq_refl) in E. cbn [rndx] in E.
  rewrite (rnd_0 24 128) in E. cbn [rndx] in E. rewrite (rnd_0 53 1024) in E. congruence.
Qed.
Lemma fnp_zero x r : val 53 1024 (fnp x) = Fin r -> (forall r', val 53 1024 x = Fin r' -> r' = 0) -> r = 0.
Proof.
  assert (Q : fnp x = if np1 then f32 x else x).
  { change ((if np1 then b_f32 53 1024 24 128 p53 e1024 p24 e128 else fun x => x) x = if np1 then b_f32 53 1024 24 128 p53 e1024 p24 e128 x else x). now destruct np1. }
  rewrite Q. pose proof (f32_zero x r) as K. destruct np1; [exact K|]. intros E H. auto.
Qed.

(** a hybrid score whose reflectivity membership is zero *)
Lemma hybrid_zero s ut w method (a : fields double) one bd c i z r y : contains "hybrid" method = true ->
  core_gate s (fun k => supplied (a k)) ut w method one bd (fun k => option_map f32 (at_gate (a k) i)) c = Ok z ->
  val 53 1024 z = Fin r ->
  (match option_map f32 (at_gate (a KDZ) i) with
   | Some x => gate_beta (get_sets s (if supplied (a KT) then ut else false) one bd KDZ) c x | None => Raise ValueError end) = Ok y ->
  val 53 1024 y = Fin 0 -> r = 0.
Proof.
  intros Hm E Z Y V. unfold core_gate in E. destruct (varlist method) as [vl|]; [|discriminate].
  cbv zeta in E. rewrite Hm in E. unfold gate_row in E. cbv beta in E. rewrite Y in E.
  destruct (get_pol_flag _).
  - apply bind_ok in E as (t & _ & E). destruct (if supplied (a KT) then ut else false).
    + apply bind_ok in E as (b & _ & E). cbn [bind] in E. assert (z = fnp (fmul (fnp (fmul t b)) y)) as -> by congruence.
      apply (fnp_zero _ _ Z). intros r' R'. now apply mul_zero in R'.
    + cbn [bind] in E. assert (z = fnp (fmul t y)) as -> by congruence.
      apply (fnp_zero _ _ Z). intros r' R'. now apply mul_zero in R'.
  - destruct (if supplied (a KT) then ut else false).
    + apply bind_ok in E as (b & _ & E). cbn [bind] in E. assert (z = f32 (fmul b y)) as -> by congruence.
      apply (f32_zero _ _ Z). intros r' R'. now apply mul_zero in R'.
    + assert (z = y) as -> by congruence. rewrite V in Z. congruence.
Qed.

(** which rows of the summer reflectivity tables vanish *)
Definition vanish_all (D : Q) (keep : band -> nat -> bool) (bd : band) : bool :=
  forallb (fun c => keep bd c || match nth_error (csv Summer bd KDZ) c with Some r => gone_row D r | None => false end)%bool (seq 0 10).
Lemma rows_gone D keep bd c : vanish_all D keep bd = true -> (c < 10)%nat -> keep bd c = false ->
  exists r, nth_error (csv Summer bd KDZ) c = Some r /\ gone_row D r = true.
Proof.
  intros V Hc K. unfold vanish_all in V. rewrite forallb_forall in V. specialize (V c). rewrite in_seq in V.
  specialize (V ltac:(lia)). rewrite K in V. cbn [orb] in V. destruct (nth_error _ _) as [r|]; [|discriminate]. exists r. auto.
Qed.
Definition in_list (bd : band) (c : nat) : bool := existsb (Nat.eqb (S c)) (graupel_like bd).
Lemma gone_9000 bd : vanish_all 9000 in_list bd = true.
Proof. destruct bd; vm_compute; reflexivity. Qed.
Lemma gone_million bd : vanish_all (inject_Z (10 ^ 6)) (fun _ _ => false) bd = true.
Proof. destruct bd; vm_compute; reflexivity. Qed.

(** the scores at a gate, as numbers *)
Lemma fill_scores ut w W method (a : fields double) one bd sh mu D keep :
  csu_fhc_summer ut w method a false 10 one bd true = Ok (Scores sh mu) ->
  scores_ok a ut method false -> contains "hybrid" method = true -> val 53 1024 one = Fin 1 ->
  (forall k, stands_for (w k) (W k)) -> weights_ok (used a ut) method W ->
  vanish_all D keep bd = true ->
  forall i x, (i < size (a KDZ))%nat -> measures a ut i x -> Q2R D <= Rabs (x KDZ) ->
  exists V : nat -> R, (forall j, (j < 10)%nat ->
     exists z, nth_error (column 10 (size (a KDZ)) mu i) j = Some z /\ val 53 1024 z = Fin (V j)) /\
  forall j, (j < 10)%nat -> keep bd j = false -> V j = 0.
Proof.
  intros E Hs Hm O Sw Hw Va i x Hi Hx HD.
  pose proof (C99_summer_scores np1 lm Lm ut w W method a one 10 bd sh mu E Hs O Sw Hw) as Sc.
  assert (T : forall j, (j < 10)%nat -> exists z r, nth_error mu (j * size (a KDZ) + i) = Some z /\
     nth_error (column 10 (size (a KDZ)) mu i) j = Some z /\ val 53 1024 z = Fin r).
  { intros j Hj. destruct (Sc j i x Hj Hi Hx) as (z & Hz & r & Vr & Br). exists z, r. repeat split; auto.
    rewrite column_nth by auto. now rewrite (nth_error_nth _ _ _ Hz). }
  exists (fun j => match nth_error (column 10 (size (a KDZ)) mu i) j with
                   | Some z => match val 53 1024 z with Fin r => r | _ => 0 end | None => 0 end).
  split.
  - intros j Hj. destruct (T j Hj) as (z & r & _ & Hz & Vz). exists z. rewrite Hz, Vz. auto.
  - intros j Hj K. destruct (T j Hj) as (z & r & Hm' & Hz & Vz). rewrite Hz, Vz.
    rewrite summer_core in E. apply bind_ok in E as (rows & Er & E).
    destruct (negb _); [discriminate|]. assert (mu = concat rows) as -> by congruence.
    assert (N10 : seq 0 10 <> []) by discriminate. destruct (core_scores _ _ _ _ _ _ _ _ _ N10 Er) as (_ & _ & G).
    destruct (G j j i) as (z' & Hz' & Ez); auto. { now apply seq_nth_error. }
    assert (z' = z) as -> by congruence.
    destruct (rows_gone D keep bd j Va Hj K) as (rw & Hr & Gr).
    destruct (Hx KDZ) as (d & Ed & Vd & Rd). { apply Hs. }
    destruct (dz_gone np1 lm Lm Summer bd one (if supplied (a KT) then ut else false) j d (x KDZ) D rw Hr Gr Vd ltac:(lra)) as (y & Y & V).
    eapply (hybrid_zero Summer ut (fun k _ => w k) method a one bd j i z r y); eauto.
    rewrite Ed. cbn [option_map]. exact Y.
Qed.

Lemma fill_argmax ut w W method (a : fields double) one bd sh hid D keep :
  csu_fhc_summer ut w method a false 10 one bd false = Ok (Classes sh hid) ->
  scores_ok a ut method false -> contains "hybrid" method = true -> val 53 1024 one = Fin 1 ->
  (forall k, stands_for (w k) (W k)) -> weights_ok (used a ut) method W ->
  vanish_all D keep bd = true -> keep bd 0%nat = false ->
  forall i x, (i < size (a KDZ))%nat -> measures a ut i x -> Q2R D <= Rabs (x KDZ) ->
  exists k, nth_error hid i = Some (S k) /\ (k < 10)%nat /\ (k = 0%nat \/ keep bd k = true).
Proof.
  rewrite summer_classes. intros E Hs Hm O Sw Hw Va K0 i x Hi Hx HD.
  destruct (csu_fhc_summer ut w method a false 10 one bd true) as [[sh' mu|]| | | |] eqn:Es; try discriminate.
  apply bind_ok in E as (h & Eh & E). injection E as <- <-.
  destruct (argmax0_ok 10 (size (a KDZ)) mu ltac:(lia)) as (h' & Eh' & _ & G).
  assert (h' = h) as -> by congruence. destruct (G i Hi) as (k & Hk & _ & Ek).
  destruct (fill_scores ut w W method a one bd sh' mu D keep Es Hs Hm O Sw Hw Va i x Hi Hx HD) as (V & HV & Z).
  exists k. rewrite map_nth_error', Hk. split; auto.
  destruct (@argmax_first fo108 (fun _ => eq_refl) (fun _ _ => eq_refl) (column 10 (size (a KDZ)) mu i) V k) as (T & M); auto.
  rewrite column_len in *. split; auto.
  destruct (keep bd k) eqn:Kk; auto. left. destruct k; auto. exfalso.
  destruct (M 0%nat ltac:(lia)) as (_ & M0). specialize (M0 ltac:(lia)). rewrite (Z 0%nat), (Z (S k)) in M0 by (auto; lia). lra.
Qed.

(** ** C108 *)
(** a reflectivity beyond 9000 dBZ either way: drizzle or graupel (or hail at X band), whatever the
    other measurements *)
Theorem C108_fill_value_classes ut w W method (a : fields double) one bd sh hid :
  csu_fhc_summer ut w method a false 10 one bd false = Ok (Classes sh hid) ->
  scores_ok a ut method false -> contains "hybrid" method = true -> val 53 1024 one = Fin 1 ->
  (forall k, stands_for (w k) (W k)) -> weights_ok (used a ut) method W ->
  forall i x, (i < size (a KDZ))%nat -> measures a ut i x -> 9000 <= Rabs (x KDZ) ->
  exists c, nth_error hid i = Some c /\ In c (1%nat :: graupel_like bd).
Proof.
  intros E Hs Hm O Sw Hw i x Hi Hx HD.
  destruct (fill_argmax ut w W method a one bd sh hid 9000 in_list) with (i := i) (x := x) as (k & Hk & _ & Ck); auto.
  - apply gone_9000.
  - destruct bd; reflexivity.
  - replace (Q2R 9000) with 9000 by (unfold Q2R; cbn; lra). exact HD.
  - exists (S k). split; auto. destruct Ck as [-> |Ck]; [now left|right].
    unfold in_list in Ck. apply existsb_exists in Ck as (n & Hn & En). apply Nat.eqb_eq in En. now rewrite En.
Qed.
(** a million dBZ: class 1 *)
Theorem C108_far_fill_value_is_class_1 ut w W method (a : fields double) one bd sh hid :
  csu_fhc_summer ut w method a false 10 one bd false = Ok (Classes sh hid) ->
  scores_ok a ut method false -> contains "hybrid" method = true -> val 53 1024 one = Fin 1 ->
  (forall k, stands_for (w k) (W k)) -> weights_ok (used a ut) method W ->
  forall i x, (i < size (a KDZ))%nat -> measures a ut i x -> 10 ^ 6 <= Rabs (x KDZ) ->
  nth_error hid i = Some 1%nat.
Proof.
  intros E Hs Hm O Sw Hw i x Hi Hx HD.
  destruct (fill_argmax ut w W method a one bd sh hid (inject_Z (10 ^ 6)) (fun _ _ => false)) with (i := i) (x := x) as (k & Hk & _ & Ck); auto.
  - apply gone_million.
  - replace (Q2R (inject_Z (10 ^ 6))) with (10 ^ 6) by (unfold Q2R; cbn; lra). exact HD.
  - destruct Ck as [-> |Ck]; [auto|discriminate].
Qed.

(** reflectivity alone: -9999 and -32768 are graupel (or hail), never drizzle *)
Lemma left_8 bd : exists r, nth_error (csv Summer bd KDZ) 7 = Some r /\ left_row 9000 40000 r = true.
Proof. destruct bd; eexists; (split; [reflexivity|vm_compute; reflexivity]). Qed.
Theorem C108_fill_value_alone_is_graupel ut w W method (a : fields double) one bd sh hid :
  csu_fhc_summer ut w method a false 10 one bd false = Ok (Classes sh hid) ->
  scores_ok a ut method false -> contains "hybrid" method = true -> val 53 1024 one = Fin 1 ->
  (forall k, stands_for (w k) (W k)) -> weights_ok (used a ut) method W ->
  (forall k, k <> KDZ -> supplied (a k) = false) ->
  forall i x, (i < size (a KDZ))%nat -> measures a ut i x -> 9000 <= Rabs (x KDZ) <= 40000 ->
  exists c, nth_error hid i = Some c /\ In c (graupel_like bd).
Proof.
  rewrite summer_classes. intros E Hs Hm O Sw Hw Alone i x Hi Hx HD.
  destruct (csu_fhc_summer ut w method a false 10 one bd true) as [[sh' mu|]| | | |] eqn:Es; try discriminate.
  apply bind_ok in E as (h & Eh & E). injection E as <- <-.
  destruct (argmax0_ok 10 (size (a KDZ)) mu ltac:(lia)) as (h' & Eh' & _ & G).
  assert (h' = h) as -> by congruence. destruct (G i Hi) as (k & Hk & _ & Ek).
  destruct (fill_scores ut w W method a one bd sh' mu 9000 in_list Es Hs Hm O Sw Hw (gone_9000 bd) i x Hi Hx) as (V & HV & Z).
  { replace (Q2R 9000) with 9000 by (unfold Q2R; cbn; lra). lra. }
  exists (S k). rewrite map_nth_error', Hk. split; auto.
  destruct (@argmax_first fo108 (fun _ => eq_refl) (fun _ _ => eq_refl) (column 10 (size (a KDZ)) mu i) V k) as (T & M); auto.
  rewrite column_len in *.
  assert (P7 : 0 < V 7%nat).
  { destruct (HV 7%nat ltac:(lia)) as (z & Hz & Vz).
    rewrite summer_core in Es. apply bind_ok in Es as (rows & Er & Es).
    destruct (negb _); [discriminate|]. assert (mu = concat rows) as -> by congruence.
    assert (N10 : seq 0 10 <> []) by discriminate. destruct (core_scores _ _ _ _ _ _ _ _ _ N10 Er) as (_ & _ & Gc).
    destruct (Gc 7%nat 7%nat i) as (z' & Hz' & Ez); auto.
    rewrite column_nth in Hz by lia. rewrite (nth_error_nth _ _ _ Hz') in Hz. assert (z' = z) as -> by congruence.
    destruct (left_8 bd) as (rw & Hr & Gr). destruct (Hx KDZ) as (d & Ed & Vd & Rd). { apply Hs. }
    destruct (dz_left np1 lm Lm Summer bd one false 7 d (x KDZ) 9000 40000 rw Hr Gr Vd) as (y & t & Y & Vy & Ty); auto.
    { replace (Q2R 9000) with 9000 by (unfold Q2R; cbn; lra). replace (Q2R 40000) with 40000 by (unfold Q2R; cbn; lra). lra. }
    enough (z = y) as ->. { rewrite Vy in Vz. assert (V 7%nat = t) as -> by congruence. pose proof (bpow_gt_0 radix2 (-149)). lra. }
    unfold core_gate in Ez. destruct (varlist method); [|discriminate]. cbv zeta in Ez. rewrite Hm in Ez.
    unfold get_pol_flag in Ez. rewrite !Alone in Ez by discriminate. cbn [orb] in Ez. unfold gate_row in Ez.
    rewrite Ed in Ez. cbn [option_map] in Ez. enough (Ok z = Ok y) by congruence. rewrite <- Ez, <- Y. reflexivity. }
  destruct (in_list bd k) eqn:Kk.
  - unfold in_list in Kk. apply existsb_exists in Kk as (n & Hn & En). apply Nat.eqb_eq in En. now rewrite En.
  - exfalso. destruct (M 7%nat ltac:(lia)) as (M7 & _). rewrite (Z k) in M7 by (auto; lia). lra.
Qed.

(** with the default weights *)
Theorem C108_fill_value_classes_defaults ut method (a : fields double) one bd sh hid :
  csu_fhc_summer ut summer_weights method a false 10 one bd false = Ok (Classes sh hid) ->
  scores_ok a ut method false -> contains "hybrid" method = true -> val 53 1024 one = Fin 1 ->
  forall i x, (i < size (a KDZ))%nat -> measures a ut i x ->
  (9000 <= Rabs (x KDZ) -> exists c, nth_error hid i = Some c /\ In c (1%nat :: graupel_like bd)) /\
  (9000 <= Rabs (x KDZ) <= 40000 -> (forall k, k <> KDZ -> supplied (a k) = false) ->
     exists c, nth_error hid i = Some c /\ In c (graupel_like bd)) /\
  (10 ^ 6 <= Rabs (x KDZ) -> nth_error hid i = Some 1%nat).
Proof.
  intros E Hs Hm O i x Hi Hx.
  assert (Sw : forall k, stands_for (summer_weights k) (sW k)) by exact (summer_stands np1 lm).
  assert (Hw : weights_ok (used a ut) method sW) by (apply sW_ok; apply Hs).
  split; [|split].
  - eapply C108_fill_value_classes; eauto.
  - intros H Al. eapply C108_fill_value_alone_is_graupel; eauto.
  - eapply C108_far_fill_value_is_class_1; eauto.
Qed.
End C108.

(** ** Non-vacuity: two gates, -32768 and -9999, reflectivity alone, S band: both
    come out as high-density graupel *)
Definition fills : fields double := fun k =>
  match k with KDZ => AArr (mkarr DFloat [2%nat] [b_lit 53 1024 p53 e1024 (-32768); b_lit 53 1024 p53 e1024 (-9999)]) | _ => ANone end.
Lemma fills_ok : scores_ok fills true "hybrid" false.
Proof.
  split; [reflexivity|]. split; [reflexivity|]. split; [|left; reflexivity]. intros [] H; try discriminate; reflexivity.
Qed.
Lemma val_int n : (Z.abs n < 2 ^ 53)%Z -> dval (b_lit 53 1024 p53 e1024 (inject_Z n)) = Fin (IZR n).
Proof.
  intro H. rewrite val_lit. cbn [Qnum Qden inject_Z]. replace (IZR n / 1) with (IZR n) by field. apply rnd_int; try exact p53; try exact e1024; lia.
Qed.
Lemma fills_0 : measures fills true 0 (fun _ => -32768).
Proof.
  intros [] H; try discriminate. eexists. split; [reflexivity|]. split; [apply (val_int (-32768)); lia|].
  apply Rabs_le. lra.
Qed.
Lemma fills_1 : measures fills true 1 (fun _ => -9999).
Proof.
  intros [] H; try discriminate. eexists. split; [reflexivity|]. split; [apply (val_int (-9999)); lia|].
  apply Rabs_le. lra.
Qed.
Example C108_graupel np1 : let _ := double_ops np1 lm_full in
  exists hid, csu_fhc_summer true summer_weights "hybrid" fills false 10 (flit 1) BS false = Ok (Classes [2%nat] hid) /\
    nth_error hid 0 = Some 8%nat /\ nth_error hid 1 = Some 8%nat.
Proof.
  cbv zeta. set (fo := double_ops np1 lm_full).
  destruct (P29_IeeeScores.C90_summer_returns lm_full (proj2 C99_libm_exists) np1 true summer_weights "hybrid" fills BS fills_ok)
    as (mu & E & _).
  assert (C : exists hid, csu_fhc_summer true summer_weights "hybrid" fills false 10 (flit 1) BS false = Ok (Classes [2%nat] hid)).
  { rewrite summer_classes. change (flit 1) with (b_lit 53 1024 p53 e1024 1). fold fo in E. rewrite E.
    destruct (argmax0_ok 10 (size (fills KDZ)) mu ltac:(lia)) as (h & -> & _). cbn [bind]. eexists. reflexivity. }
  destruct C as (hid & C). exists hid. split; auto.
  assert (Al : forall k, k <> KDZ -> supplied (fills k) = false) by (intros [] H; congruence || reflexivity).
  assert (G : forall i x, (i < 2)%nat -> measures fills true i x -> 9000 <= Rabs (x KDZ) <= 40000 -> nth_error hid i = Some 8%nat).
  { intros i x Hi Hx HD.
    destruct (C108_fill_value_classes_defaults np1 lm_full full_good true "hybrid" fills _ BS _ hid C fills_ok eq_refl (v_one np1 lm_full) i x Hi Hx) as (_ & K & _).
    destruct (K HD Al) as (c & Hc & In). cbn in In. destruct In as [<-|[]]. exact Hc. }
  split.
  - apply (G 0%nat (fun _ => -32768)); auto using fills_0. rewrite Rabs_left; lra.
  - apply (G 1%nat (fun _ => -9999)); auto using fills_1. rewrite Rabs_left; lra.
Qed.
