(** * C62: a gate at the centre of a class is given that class *)
From Coq Require Import Reals Lra Lia Qreals Arith.
From Verif Require Import Base.Num Base.ListFacts Base.XReal Base.XTac Base.Pointwise Base.XArith Base.QOps.
From Verif Require Import Model.Tables Model.Beta Model.TTraps Model.Hid.
From Verif Require Import Spec.HidSpec Spec.TrapSpec.
From Verif Require Import Proofs.TrapProofs Proofs.HidProofs Proofs.BetaProofs Proofs.SummerProofs Proofs.SummerReal.
From Verif Require Import Properties.P06_Traps Properties.P07_Beta Properties.P08_Summer Properties.P09_SummerScores.
Open Scope R_scope.

(** centre of class c for variable k, T scaled by temp_factor *)
Definition tcentre (bd : band) (tf : R) (k : key) (c : nat) : R := fst (fst (params Summer bd tf k c)).

Lemma membership_one bd tf k c x : (c < 10)%nat -> 0 < tf ->
  (membership Summer bd tf c k (Fin x) = 1 <-> x = tcentre bd tf k c).
Proof.
  intros Hc Htf. unfold membership, tcentre.
  destruct (wf_table_nth _ _ c (summer_tables bd k) Hc) as (m & a & b & E & Ha & Hb).
  unfold params. rewrite E.
  assert (0 < Q2R a / tf) by now apply Rdiv_lt_0_compat.
  assert (0 < Q2R b / tf) by now apply Rdiv_lt_0_compat.
  destruct k; cbn [fst beta_val]; apply beta_centre; lra.
Qed.

Lemma ksum_zero vl u f : (forall k, In k vl -> u k = true -> 0 <= f k) -> ksum vl u f = 0 ->
  forall k, In k vl -> u k = true -> f k = 0.
Proof.
  induction vl as [|j vl IH]; intros Hf E k I Hu; [contradiction|]. simpl in E.
  assert (P : 0 <= ksum vl u f) by (apply ksum_nonneg; intros; apply Hf; simpl; auto).
  assert (J : u j = true -> 0 <= f j) by (intro; apply Hf; simpl; auto).
  destruct I as [->|I].
  - rewrite Hu in E. specialize (J Hu). lra.
  - apply IH; auto.
    + intros; apply Hf; simpl; auto.
    + destruct (u j); [specialize (J eq_refl)|]; lra.
Qed.

Lemma ksum_minus vl u f g : ksum vl u (fun k => f k - g k) = ksum vl u f - ksum vl u g.
Proof. induction vl as [|k vl IH]; simpl; [lra|]. rewrite IH. destruct (u k); lra. Qed.

Lemma wmean_one vl u w B : (forall k, 0 <= w k) -> (forall k, 0 <= B k <= 1) -> 0 < ksum vl u w ->
  wmean vl u w B = 1 -> forall k, In k vl -> u k = true -> 0 < w k -> B k = 1.
Proof.
  intros Hw HB Hs E k I Hu Hk. unfold wmean in E.
  assert (E' : ksum vl u (fun k => w k * B k) = ksum vl u w).
  { apply (Rmult_eq_compat_r (ksum vl u w)) in E. unfold Rdiv in E.
    rewrite Rmult_assoc, Rinv_l in E by lra. lra. }
  assert (Z : ksum vl u (fun k => w k - w k * B k) = 0) by (rewrite ksum_minus; lra).
  assert (Z' := ksum_zero vl u (fun k => w k - w k * B k) ltac:(intros j _ _; specialize (Hw j); specialize (HB j); nra) Z k I Hu).
  cbv beta in Z'. assert (M : w k * (1 - B k) = 0) by lra.
  apply Rmult_integral in M as [M|M]; lra.
Qed.

Lemma wmean_all_one vl u w B : 0 < ksum vl u w -> (forall k, In k vl -> u k = true -> B k = 1) ->
  wmean vl u w B = 1.
Proof.
  intros Hs HB. unfold wmean. rewrite (ksum_ext vl u u (fun k => w k * B k) w).
  - field. lra.
  - intros k I. split; auto. intro Hu. rewrite HB by auto. lra.
Qed.

Lemma score_one method u W B : weights_ok u method W -> (forall k, 0 <= B k <= 1) ->
  u KDZ = true -> u KDR = true -> 0 < W KDZ -> 0 < W KDR ->
  method_score method u W B = 1 -> B KDZ = 1 /\ B KDR = 1.
Proof.
  intros (HW & Hw) HB Hz Hd Wz Wd. unfold method_score.
  assert (Ip : In KDR pol_keys) by (simpl; auto).
  assert (Ia : In KDR all_keys) by (simpl; auto).
  assert (Iz : In KDZ all_keys) by (unfold all_keys; simpl; auto 10).
  destruct (contains "hybrid" method).
  - assert (P : any_pol u = true) by (apply existsb_exists; eauto). unfold hybrid_score. rewrite P.
    specialize (Hw P). intro E.
    assert (R := wmean_range pol_keys u W B ltac:(auto) HB Hw).
    assert (T : 0 <= (if u KT then B KT else 1) <= 1) by (destruct (u KT); auto; lra).
    assert (Z := HB KDZ).
    set (p := wmean _ _ _ _) in *. set (t := if u KT then _ else _) in *.
    assert (B KDZ = 1 /\ p = 1) as (-> & Ep).
    { set (z := B KDZ) in *. clearbody p t z. assert (0 <= p * t <= 1) by nra. assert (0 <= t * z <= 1) by nra.
      assert (p * t * z <= 1 * z) by (apply Rmult_le_compat_r; lra).
      assert (p * (t * z) <= p * 1) by (apply Rmult_le_compat_l; lra). split; lra. }
    split; auto. apply (wmean_one pol_keys u W B); auto.
  - intro E. split; apply (wmean_one all_keys u W B); auto.
Qed.

Lemma score_all_one method u W B : weights_ok u method W -> u KDZ = true ->
  (forall k, u k = true -> B k = 1) -> method_score method u W B = 1.
Proof.
  intros (HW & Hw) Hz HB. unfold method_score. destruct (contains "hybrid" method).
  - unfold hybrid_score. rewrite (HB KDZ) by auto. destruct (any_pol u) eqn:P.
    + rewrite wmean_all_one by auto. destruct (u KT) eqn:T; [rewrite HB by auto|]; lra.
    + destruct (u KT) eqn:T; [rewrite HB by auto|]; lra.
  - now apply wmean_all_one; auto.
Qed.

(** no two classes share both their reflectivity and their ZDR centre *)
Definition qcentre bd k c : Q := match nth_error (csv Summer bd k) c with Some (Some m, _, _) => m | _ => 0%Q end.
Lemma centres_distinct : forall bd, forallb (fun p : nat * nat =>
  ((fst p =? snd p)%nat || negb (Qeq_bool (qcentre bd KDZ (fst p)) (qcentre bd KDZ (snd p))
     && Qeq_bool (qcentre bd KDR (fst p)) (qcentre bd KDR (snd p))))%bool)
  (list_prod (seq 0 10) (seq 0 10)) = true.
Proof. intros []; vm_compute; reflexivity. Qed.

Lemma centres_inj bd tf c c' : (c < 10)%nat -> (c' < 10)%nat ->
  tcentre bd tf KDZ c = tcentre bd tf KDZ c' -> tcentre bd tf KDR c = tcentre bd tf KDR c' -> c = c'.
Proof.
  intros Hc Hc' E1 E2. pose proof (centres_distinct bd) as D. rewrite forallb_forall in D.
  specialize (D (c, c')). cbn [fst snd] in D.
  assert (I : In (c, c') (list_prod (seq 0 10) (seq 0 10))) by (apply in_prod; apply in_seq; lia).
  specialize (D I). apply orb_true_iff in D as [D|D]; [now apply Nat.eqb_eq|exfalso].
  assert (Q : forall k, k <> KT -> tcentre bd tf k c = tcentre bd tf k c' ->
     Qeq_bool (qcentre bd k c) (qcentre bd k c') = true).
  { intros k Hk E. unfold tcentre, params, qcentre in *.
    destruct (wf_table_nth _ _ c (summer_tables bd k) Hc) as (m & a & b & Ec & _).
    destruct (wf_table_nth _ _ c' (summer_tables bd k) Hc') as (m' & a' & b' & Ec' & _).
    rewrite Ec, Ec' in *. apply Qeq_bool_iff. destruct k; try contradiction; simpl in E; now apply eqR_Qeq. }
  rewrite (Q KDZ), (Q KDR) in D by (auto; discriminate). discriminate.
Qed.

(** Reflectivity and ZDR supplied with positive weight, any other fields and
    options: wherever every variable taking part sits at the centre of class c,
    the class returned is c (numbered from 1), with score exactly 1. *)
Theorem C62_self_class ut W method (a : fields xr) tf bd c i :
  scores_ok a ut method false -> 0 < tf -> weights_ok (used a ut) method W ->
  supplied (a KDR) = true -> 0 < W KDZ -> 0 < W KDR ->
  (c < 10)%nat -> (i < size (a KDZ))%nat ->
  (forall k, used a ut k = true -> at_gate (a k) i = Some (Fin (tcentre bd tf k c))) ->
  exists hid, csu_fhc_summer ut (fun k => Fin (W k)) method a false 10 (Fin tf) bd false
      = Ok (Classes (shape (a KDZ)) hid) /\ nth_error hid i = Some (S c).
Proof.
  intros Hs Htf HW Hd Wz Wd Hc Hi Hx.
  destruct (C32_exact ut W method a tf bd Hs Htf HW) as (mu & E & L & G).
  pose proof (C33_first_maximum _ _ _ _ _ _ _ _ _ E) as (hid & Eh & Lh & M).
  exists hid. split; auto.
  pose (x := fun k => Fin (tcentre bd tf k c)).
  pose (B := fun c' k => membership Summer bd tf c' k (x k)).
  assert (V : forall c', (c' < 10)%nat -> nth_error mu (c' * size (a KDZ) + i)
     = Some (Fin (method_score method (used a ut) W (B c')))).
  { intros c' Hc'. apply (G c' i x Hc' Hi). intros k Hk. split; [now apply Hx|discriminate]. }
  assert (Z : used a ut KDZ = true) by apply Hs.
  assert (R : forall c' k, 0 <= B c' k <= 1) by (intros; apply membership_range).
  assert (V1 : method_score method (used a ut) W (B c) = 1).
  { apply score_all_one; auto. intros k Hk. unfold B, x. now apply membership_one. }
  destruct (M i Hi) as (h & m & Hh & Hlt & Hm & Mx & _).
  { intros c' Hc'. rewrite V by auto. discriminate. }
  rewrite Hh. do 2 f_equal.
  rewrite V in Hm by auto. injection Hm as <-.
  specialize (Mx c (Fin 1) Hc). rewrite V, V1 in Mx by auto. specialize (Mx eq_refl).
  simpl in Mx. apply Rleb_true in Mx.
  pose proof (method_score_range method (used a ut) W (B h) HW (R h) Z) as Rh.
  destruct (score_one method (used a ut) W (B h) HW (R h) Z Hd Wz Wd ltac:(lra)) as (B1 & B2).
  unfold B, x in B1, B2. apply membership_one in B1, B2; auto.
  symmetry. now apply (centres_inj bd tf c h).
Qed.

(** and its score is exactly 1 (the largest possible) *)
Theorem C62_score_is_one ut W method (a : fields xr) tf bd c i :
  scores_ok a ut method false -> 0 < tf -> weights_ok (used a ut) method W ->
  (c < 10)%nat -> (i < size (a KDZ))%nat ->
  (forall k, used a ut k = true -> at_gate (a k) i = Some (Fin (tcentre bd tf k c))) ->
  exists mu, csu_fhc_summer ut (fun k => Fin (W k)) method a false 10 (Fin tf) bd true
      = Ok (Scores (10%nat :: shape (a KDZ)) mu) /\ nth_error mu (c * size (a KDZ) + i) = Some (Fin 1).
Proof.
  intros Hs Htf HW Hc Hi Hx.
  destruct (C32_exact ut W method a tf bd Hs Htf HW) as (mu & E & L & G).
  exists mu. split; [exact E|].
  pose (x := fun k => Fin (tcentre bd tf k c)).
  assert (Z : used a ut KDZ = true) by apply Hs.
  rewrite (G c i x Hc Hi); [|intros k Hk; split; [now apply Hx|discriminate]].
  do 2 f_equal. apply score_all_one; auto. intros k Hk. now apply membership_one.
Qed.

(** Without ZDR the two ice-crystal classes (3 and 6) share their reflectivity
    centre: a gate at the centre of vertical ice is reported as ice crystals. *)
Theorem C62_dz_only bd W (a : fields xr) tf i :
  (forall k, supplied (a k) = true -> k = KDZ) -> supplied (a KDZ) = true -> field_ok (a KDZ) ->
  0 < tf -> (forall k, 0 <= W k) -> (i < size (a KDZ))%nat ->
  at_gate (a KDZ) i = Some (Fin (tcentre bd tf KDZ 5)) ->
  exists hid, csu_fhc_summer true (fun k => Fin (W k)) "hybrid" a false 10 (Fin tf) bd false
      = Ok (Classes (shape (a KDZ)) hid) /\ exists h, nth_error hid i = Some h /\ (h <= 3)%nat.
Proof.
  intros Ho Hz Hok Htf HW Hi Hx.
  assert (U : forall k, used a true k = true -> k = KDZ).
  { intros k Hk. apply Ho. destruct k; auto. simpl in Hk. apply andb_true_iff in Hk. tauto. }
  assert (P : any_pol (used a true) = false).
  { destruct (any_pol (used a true)) eqn:E; auto. apply existsb_exists in E as (k & I & Hk).
    apply U in Hk as ->. simpl in I. decompose [or] I; discriminate || contradiction. }
  assert (Hs : scores_ok a true "hybrid" false).
  { split; auto. split; auto. split; [|now left]. intros k Hk. now rewrite (Ho k Hk). }
  assert (Hw : weights_ok (used a true) "hybrid" W) by (split; [auto|simpl; rewrite P; discriminate]).
  destruct (C32_exact true W "hybrid" a tf bd Hs Htf Hw) as (mu & E & L & G).
  pose proof (C33_first_maximum _ _ _ _ _ _ _ _ _ E) as (hid & Eh & Lh & M).
  exists hid. split; auto.
  pose (x := fun k => Fin (tcentre bd tf k 5)).
  pose (B := fun c' k => membership Summer bd tf c' k (x k)).
  assert (V : forall c', (c' < 10)%nat -> nth_error mu (c' * size (a KDZ) + i)
     = Some (Fin (method_score "hybrid" (used a true) W (B c')))).
  { intros c' Hc'. apply (G c' i x Hc' Hi). intros k Hk. apply U in Hk as ->. split; [auto|discriminate]. }
  destruct (M i Hi) as (h & m & Hh & Hlt & Hm & _ & Mn).
  { intros c' Hc'. rewrite V by auto. discriminate. }
  exists (S h). split; auto.
  destruct (Nat.le_gt_cases h 2) as [|G2]; [lia|exfalso].
  specialize (Mn 2%nat (Fin (method_score "hybrid" (used a true) W (B 2%nat))) G2 (V 2%nat ltac:(lia))).
  rewrite V in Hm by auto. injection Hm as <-. simpl in Mn. apply Rltb_true in Mn.
  assert (T : used a true KT = false)
    by (destruct (used a true KT) eqn:T; auto; apply U in T; discriminate).
  assert (S2 : method_score "hybrid" (used a true) W (B 2%nat) = 1).
  { apply score_all_one; auto. intros k Hk. apply U in Hk as ->. unfold B, x. apply membership_one; auto; try lia.
    unfold tcentre, params. destruct bd; reflexivity. }
  pose proof (method_score_range "hybrid" (used a true) W (B h) Hw ltac:(intro; apply membership_range) Hz).
  lra.
Qed.
