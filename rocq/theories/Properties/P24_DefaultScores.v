(** * C86: the classifiers with their default weights, in explicit numbers *)
From Coq Require Import Reals Lra Lia Qreals Arith FunctionalExtensionality.
From Verif Require Import Base.Num Base.ListFacts Base.XReal Base.XTac Base.Pointwise Base.XArith Base.QOps.
From Verif Require Import Model.Tables Model.Beta Model.TTraps Model.Hid.
From Verif Require Import Spec.HidSpec Spec.TrapSpec.
From Verif Require Import Proofs.TrapProofs Proofs.HidProofs Proofs.BetaProofs Proofs.SummerProofs Proofs.SummerReal Proofs.CoreProofs.
From Verif Require Import Properties.P08_Summer Properties.P09_SummerScores Properties.P11_Winter.
Open Scope R_scope.

Definition sW (k : key) : R :=
  match k with KDZ => 1.5 | KDR => 0.8 | KKD => 1 | KRH => 0.8 | KLD => 0.5 | KT => 0.4 end.
Lemma sW_eq : @summer_weights xr _ = (fun k => Fin (sW k)).
Proof.
  apply functional_extensionality. intros []; unfold summer_weights, sW; rewrite lit_fin; f_equal;
    unfold Q2R; cbn [Qnum Qden]; lra.
Qed.
Definition mlW (k : key) (c : nat) : R := match k with KDZ => 4 | KDR => 7 | KRH => 14 | _ => 0 end.
Lemma mlW_eq : @ml1_weights xr _ = (fun k c => Fin (mlW k c)).
Proof.
  apply functional_extensionality. intro k. apply functional_extensionality. intro c.
  destruct k; unfold ml1_weights, mlW; rewrite lit_fin; f_equal; unfold Q2R; cbn [Qnum Qden]; lra.
Qed.
Lemma wW_eq : @winter_weights xr _ = (fun k c => Fin (winter_W k c)).
Proof.
  apply functional_extensionality. intro k. apply functional_extensionality. intro c. apply winter_weights_W.
Qed.

Lemma sW_ok u method : u KDZ = true -> weights_ok u method sW.
Proof.
  intro Hz. unfold weights_ok. split; [intros []; unfold sW; lra|].
  destruct (contains "hybrid" method).
  - intro P. unfold any_pol, pol_keys, ksum in *. cbn [existsb fold_right] in *. unfold sW.
    destruct (u KDR), (u KKD), (u KRH), (u KLD); try discriminate; lra.
  - unfold ksum, all_keys. cbn [fold_right]. unfold sW. rewrite Hz.
    destruct (u KDR), (u KKD), (u KRH), (u KLD), (u KT); lra.
Qed.

(** the caller supplies exactly the fields [l] *)
Definition has {F} (a : fields F) (l : list key) : Prop :=
  forall k, supplied (a k) = existsb (fun k' => match k, k' with
    | KDZ, KDZ | KDR, KDR | KKD, KKD | KRH, KRH | KLD, KLD | KT, KT => true | _, _ => false end) l.

(** Summer scores, default weights, any set of fields. *)
Theorem C86_summer_default_weights ut method (a : fields xr) tf bd :
  scores_ok a ut method false -> 0 < tf ->
  exists mu, csu_fhc_summer ut summer_weights method a false 10 (Fin tf) bd true
     = Ok (Scores (10%nat :: shape (a KDZ)) mu) /\ length mu = (10 * size (a KDZ))%nat /\
  forall c i x, (c < 10)%nat -> (i < size (a KDZ))%nat ->
    (forall k, used a ut k = true -> at_gate (a k) i = Some (x k) /\ x k <> NaN) ->
    nth_error mu (c * size (a KDZ) + i)
    = Some (Fin (method_score method (used a ut) sW (fun k => membership Summer bd tf c k (x k)))).
Proof.
  intros Hs Htf. rewrite sW_eq. apply C32_exact; auto. apply sW_ok. apply Hs.
Qed.

Ltac has_used H :=
  repeat match goal with |- context [supplied (?a ?k)] => rewrite (H k) end; cbn [existsb orb andb].

Ltac fsame :=
  match goal with |- context [?x / ?d] => match goal with |- context [?y / ?e] => replace d with e by lra end end; lra.

(** dz, zdr, kdp, rho and T, method 'hybrid' (the usual call):
    (0.8 DR + KD + 0.8 RH) / 2.6 x T x DZ *)
Theorem C86_summer_hybrid_defaults (a : fields xr) tf bd :
  has a [KDZ; KDR; KKD; KRH; KT] -> field_ok (a KDZ) -> sizes_match a -> 0 < tf ->
  exists mu, csu_fhc_summer true summer_weights "hybrid" a false 10 (Fin tf) bd true
     = Ok (Scores (10%nat :: shape (a KDZ)) mu) /\
  forall c i x, (c < 10)%nat -> (i < size (a KDZ))%nat ->
    (forall k, k <> KLD -> at_gate (a k) i = Some (x k) /\ x k <> NaN) ->
    let B k := membership Summer bd tf c k (x k) in
    nth_error mu (c * size (a KDZ) + i)
    = Some (Fin ((0.8 * B KDR + B KKD + 0.8 * B KRH) / 2.6 * B KT * B KDZ)).
Proof.
  intros H Hf Hsz Htf.
  destruct (C86_summer_default_weights true "hybrid" a tf bd) as (mu & E & L & G); auto.
  { split; [now rewrite H|]. split; auto. }
  exists mu. split; auto. intros c i x Hc Hi Hx B. rewrite (G c i x); auto.
  - unfold method_score. change (contains "hybrid" "hybrid") with true. cbv iota.
    unfold hybrid_score, any_pol, wmean, ksum, pol_keys, used. cbn [existsb fold_right]. has_used H.
    unfold sW. do 2 f_equal. subst B; cbv beta. fsame.
  - intros k Hk. apply Hx. intros ->. unfold used in Hk. rewrite H in Hk. discriminate.
Qed.

(** the same fields, method 'linear':
    (0.8 DR + KD + 0.8 RH + 0.4 T + 1.5 DZ) / 4.5 *)
Theorem C86_summer_linear_defaults (a : fields xr) tf bd :
  has a [KDZ; KDR; KKD; KRH; KT] -> field_ok (a KDZ) -> sizes_match a -> 0 < tf ->
  exists mu, csu_fhc_summer true summer_weights "linear" a false 10 (Fin tf) bd true
     = Ok (Scores (10%nat :: shape (a KDZ)) mu) /\
  forall c i x, (c < 10)%nat -> (i < size (a KDZ))%nat ->
    (forall k, k <> KLD -> at_gate (a k) i = Some (x k) /\ x k <> NaN) ->
    let B k := membership Summer bd tf c k (x k) in
    nth_error mu (c * size (a KDZ) + i)
    = Some (Fin ((0.8 * B KDR + B KKD + 0.8 * B KRH + 0.4 * B KT + 1.5 * B KDZ) / 4.5)).
Proof.
  intros H Hf Hsz Htf.
  destruct (C86_summer_default_weights true "linear" a tf bd) as (mu & E & L & G); auto.
  { split; [now rewrite H|]. split; auto. split; auto. right. split; auto. split; auto.
    unfold any_pol, pol_keys. cbn [existsb]. has_used H. reflexivity. }
  exists mu. split; auto. intros c i x Hc Hi Hx B. rewrite (G c i x); auto.
  - unfold method_score. change (contains "hybrid" "linear") with false. cbv iota.
    unfold linear_score, wmean, ksum, all_keys, used. cbn [fold_right]. has_used H.
    unfold sW. do 2 f_equal. subst B; cbv beta. fsame.
  - intros k Hk. apply Hx. intros ->. unfold used in Hk. rewrite H in Hk. discriminate.
Qed.

(** Winter, 'linear', dz + zdr + kdp + T. Warm: rows are the warm classes,
    score (DZ + 2 T) / 3; cold: DZ, DR and KD weighted 5 : 9 : 11 (first three
    classes) or 5 : 10 : 10 (the fourth); T plays no part. *)
Theorem C86_winter_defaults ut (a : fields xr) tf warm bd :
  has a [KDZ; KDR; KKD; KT] -> ut = true -> field_ok (a KDZ) -> sizes_match a -> 0 < tf ->
  exists mu, csu_fhc_winter ut winter_weights "linear" a (Fin tf) warm bd
     = Ok (Scores ((if warm then 2 else 4)%nat :: shape (a KDZ)) mu) /\
  forall j i x, (j < if warm then 2 else 4)%nat -> (i < size (a KDZ))%nat ->
    (forall k, k <> KLD -> k <> KRH -> at_gate (a k) i = Some (x k) /\ x k <> NaN) ->
    let B k := membership Winter bd tf (if warm then 4 + j else j)%nat k (x k) in
    nth_error mu (j * size (a KDZ) + i)
    = Some (Fin (if warm then (B KDZ + 2 * B KT) / 3
        else if (j =? 3)%nat then (B KDZ + 2 * B KDR + 2 * B KKD) / 5
        else (5 * B KDZ + 9 * B KDR + 11 * B KKD) / 25)).
Proof.
  intros H -> Hf Hsz Htf.
  assert (Hs : scores_ok a true "linear" false).
  { split; [now rewrite H|]. split; auto. split; auto. right. split; auto. split; auto.
    unfold any_pol, pol_keys. cbn [existsb]. has_used H. reflexivity. }
  destruct (C40_total true winter_weights "linear" a tf warm bd Hs Htf) as (mu & E & _).
  exists mu. split; auto. intros j i x Hj Hi Hx B. rewrite wW_eq in E.
  assert (Hc : nth_error (winter_types warm) j = Some (if warm then 4 + j else j)%nat)
    by (destruct warm; do 4 (destruct j as [|j]; [try reflexivity; exfalso; lia|]); exfalso; lia).
  assert (Z : used a true KDZ = true) by apply Hs.
  rewrite (C40_exact true winter_W a tf warm bd _ mu Hs (H KRH) (H KLD) Htf E j _ i x Hc); auto.
  - unfold linear_score, wmean, ksum, all_keys, used. cbn [fold_right]. has_used H.
    subst B; cbv beta. unfold winter_W. do 2 f_equal.
    destruct warm; do 4 (destruct j as [|j]; [cbn [Nat.add Nat.ltb Nat.leb Nat.eqb]; try (exfalso; lia); fsame|]); exfalso; lia.
  - pose proof (winter_sum_pos (used a true) (if warm then 4 + j else j)%nat Z). lra.
  - intros k Hk. apply Hx; intros ->; unfold used in Hk; rewrite H in Hk; discriminate.
Qed.

(** Melting layer scores as melting_layer asks for them (dz, zdr, kdp, rho, no
    temperature, 'linear'): (7 DR + 14 RH + 4 DZ) / 25, kdp has weight 0 ... *)
Theorem C86_melt_defaults ut (a : fields xr) tf bd :
  has a [KDZ; KDR; KKD; KRH] -> field_ok (a KDZ) -> sizes_match a -> 0 < tf ->
  exists mu, csu_fhc_cold_newml1 ut ml1_weights "linear" a 2 (Fin tf) bd
     = Ok (Scores (2%nat :: shape (a KDZ)) mu) /\
  forall c i x, (c < 2)%nat -> (i < size (a KDZ))%nat ->
    (forall k, In k [KDZ; KDR; KKD; KRH] -> at_gate (a k) i = Some (x k)) ->
    (forall k, In k [KDZ; KDR; KRH] -> x k <> NaN) ->
    let B k := membership Melt bd tf c k (x k) in
    nth_error mu (c * size (a KDZ) + i)
    = Some (if feq (x KKD) (x KKD) then Fin ((7 * B KDR + 14 * B KRH + 4 * B KDZ) / 25)
            else NaN).
Proof.
  intros H Hf Hsz Htf.
  assert (Hs : scores_ok a ut "linear" false).
  { split; [now rewrite H|]. split; auto. split; auto. right. split; auto. split.
    - unfold any_pol, pol_keys. cbn [existsb]. has_used H. reflexivity.
    - rewrite H. discriminate. }
  destruct (C64_total ut ml1_weights "linear" a tf bd Hs Htf) as (mu & E & _).
  exists mu. split; auto. intros c i x Hc Hi Hx Hn B.
  assert (D : x KKD = NaN \/ x KKD <> NaN) by (destruct (x KKD); auto; right; discriminate).
  destruct D as [D|D].
  - (* 0 x NaN *)
    rewrite D. change (feq (NaN : xr) NaN) with false. cbv iota.
    apply ml1_scores in E as (_ & L & G). destruct (G c i Hc Hi) as (y & -> & Ey). apply f_equal.
    unfold core_gate in Ey. change (varlist "linear") with (Some all_keys) in Ey. cbv zeta in Ey.
    unfold gate_row in Ey. change (contains "hybrid" "linear") with false in Ey. cbv iota in Ey.
    apply bind_ok in Ey as (rows & Er & Et). apply mapM_inv in Er.
    destruct (Forall2_in _ _ _ (KKD, x KKD) Er) as (z & Iz & Ez).
    { apply (in_flat_g (fun k => option_map f32 (at_gate (a k) i))); [simpl; auto 10|].
      rewrite Hx by (simpl; auto). reflexivity. }
    cbv beta iota in Ez. rewrite D, (gate_beta_table Melt bd KKD 2) in Ez; auto using melt_tables; [|discriminate].
    destruct (params Melt bd tf KKD c) as ((m, aa), b). cbn [beta_ext bind] in Ez.
    rewrite fmul_nan_r in Ez. injection Ez as <-. eapply gsum_nan; eauto.
  - assert (feq (x KKD) (x KKD) = true) as ->.
    { destruct (x KKD); try reflexivity; try contradiction. cbn. now destruct (Reqb_spec r r). }
    rewrite mlW_eq in E.
    assert (Hw : ksum all_keys (used a ut) (fun k => mlW k c) = 25).
    { unfold ksum, all_keys, used, mlW. cbn [fold_right]. has_used H. lra. }
    destruct (C64_exact ut mlW a 2 tf bd _ mu Hs Htf E c i x Hc Hi) as (-> & _).
    + rewrite Hw. lra.
    + intros k Hk. unfold used in Hk.
      destruct k; try (rewrite H in Hk; discriminate); (split; [apply Hx; simpl; auto|]); auto; apply Hn; simpl; auto.
    + unfold linear_score, wmean. rewrite Hw. unfold ksum, all_keys, used. cbn [fold_right]. has_used H.
      unfold mlW. do 2 f_equal. subst B; cbv beta. lra.
Qed.

(** Non-vacuity *)
Example C86_has_melt (l : key -> list xr) : (forall k, length (l k) = 2%nat) ->
  let a k := match k with KLD | KT => ANone | _ => AArr (mkarr DFloat [2%nat] (l k)) end in
  has a [KDZ; KDR; KKD; KRH] /\ field_ok (a KDZ) /\ sizes_match a.
Proof.
  intros L a. split. { intros []; reflexivity. }
  split. { unfold field_ok, a, arr_ok. simpl. now rewrite L. }
  intros k Hk. destruct k; unfold size, a; simpl; rewrite ?L; auto; discriminate.
Qed.
Example C86_has (l : key -> list xr) : (forall k, length (l k) = 2%nat) ->
  let a k := match k with KLD => ANone | _ => AArr (mkarr DFloat [2%nat] (l k)) end in
  has a [KDZ; KDR; KKD; KRH; KT] /\ field_ok (a KDZ) /\ sizes_match a.
Proof.
  intros L a. split. { intros []; reflexivity. }
  split. { unfold field_ok, a, arr_ok. simpl. now rewrite L. }
  intros k Hk. destruct k; unfold size, a; simpl; rewrite ?L; auto; discriminate.
Qed.
Example C86_has_winter (l : key -> list xr) : (forall k, length (l k) = 2%nat) ->
  let a := ex_wfields l in has a [KDZ; KDR; KKD; KT] /\ field_ok (a KDZ) /\ sizes_match a.
Proof.
  intros L a. split. { intros []; reflexivity. }
  split. { unfold field_ok, a, arr_ok. simpl. now rewrite L. }
  intros k Hk. destruct k; unfold size, a; simpl; rewrite ?L; auto; discriminate.
Qed.
