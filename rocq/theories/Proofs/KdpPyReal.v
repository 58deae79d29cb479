(** The pure Python KDP estimator in exact arithmetic *)
From Coq Require Import Reals Lra Lia Arith.
From Verif Require Import Base.Num Base.ListFacts Base.XReal Base.XTac Base.Pointwise Base.XArith.
From Verif Require Import Model.Tables Model.Beta Model.Melt Model.Kdp Model.KdpPy Spec.KdpSpec.
From Verif Require Import Proofs.HidProofs Proofs.SummerProofs Proofs.MeltProofs Proofs.KdpReal Proofs.KdpProofs Proofs.KdpFilter Proofs.KdpPyProofs.
Open Scope R_scope.

Lemma np_sum_fin l : @np_sum xr _ (map Fin l) = Fin (rsum l).
Proof.
  unfold np_sum. rewrite lit_int.
  assert (G : forall l a, fold_left fadd (map Fin l) (Fin a) = Fin (a + rsum l)).
  { induction l0 as [|x l0 IH]; intro a; cbn [map fold_left rsum]; [f_equal; ring|].
    rewrite fadd_fin, IH. f_equal. ring. }
  rewrite G. f_equal. ring.
Qed.
Lemma np_dot_fin c : forall d, @np_dot xr _ (map Fin c) (map Fin d) = Fin (dot c d).
Proof.
  intro d. unfold np_dot.
  assert (E : map2 fmul (map Fin c) (map Fin d) = map Fin (map (fun p => fst p * snd p) (combine c d))).
  { revert d. induction c as [|x c IH]; intros [|y d]; cbn [map map2 combine]; auto. rewrite fmul_fin, IH. reflexivity. }
  rewrite E. apply np_sum_fin.
Qed.
Lemma sqrt_half x : 0 <= x -> @fpow xr _ (Fin x) (flit 0.5) = Fin (sqrt x).
Proof.
  intro H. rewrite lit_fin. cbn [Qnum Qden]. destruct H as [H|<-].
  - rewrite fpow_pos by auto. f_equal. replace (5 / 10) with (/ 2) by lra. now rewrite <- Rpower_sqrt.
  - rewrite sqrt_0. change (fpow (Fin 0) (Fin (5 / 10))) with (xpow_fin 0 (5 / 10)). unfold xpow_fin.
    repeat (destruct Req_EM_T; try lra). repeat destruct Rlt_dec; try lra. reflexivity.
Qed.
Lemma dot_self l : dot l l = rsum (map (fun x => x ^ 2) l).
Proof. unfold dot. induction l as [|x l IH]; auto. cbn [combine map rsum fst snd]. rewrite IH. ring. Qed.
Lemma quick_std_fin a : a <> [] -> @quick_std xr _ (map Fin a) = Fin (popstd a).
Proof.
  intro N. unfold quick_std. cbv zeta. rewrite map_length, np_sum_fin, of_nat_xr.
  assert (Hn : 0 < INR (length a)) by (apply lt_0_INR; destruct a; [contradiction|simpl; lia]).
  rewrite fdiv_fin by lra. fold (avg a).
  assert (E : map (fun x : xr => fsub x (Fin (avg a))) (map Fin a) = map Fin (map (fun x => x - avg a) a)).
  { rewrite !map_map. apply map_ext. intro x. apply fsub_fin. }
  rewrite E, np_dot_fin, dot_self, map_map. rewrite fdiv_fin by lra.
  assert (E2 : rsum (map (fun x => (x - avg a) ^ 2) a) / INR (length a) = avg (map (fun x => (x - avg a) ^ 2) a)).
  { unfold avg at 2. now rewrite map_length. }
  rewrite E2, sqrt_half; auto. rewrite <- E2. apply Rmult_le_pos; [apply avg_dev_nonneg|]. left. now apply Rinv_0_lt_compat.
Qed.

(** lines *)
Lemma best_is_line pts a c a' c' : (forall p, In p pts -> snd p = a * fst p + c) -> best_line pts a' c' -> a' = a /\ c' = c.
Proof.
  intros L (B1 & B2).
  assert (Z : ss a c pts = 0).
  { unfold ss. rewrite (rsum_ext _ (fun _ => 0 * 0)); [rewrite rsum_mul; ring|]. intros p Hp. rewrite (L p Hp). ring. }
  assert (0 <= ss a' c' pts).
  { apply rsum_nonneg. intros x Hx. apply in_map_iff in Hx as (p & <- & _). apply pow2_ge_0. }
  pose proof (B1 a c). destruct (B2 a c) as (-> & ->); [lra|]. auto.
Qed.

(** what the model is given for numpy.linalg.lstsq *)
Definition lstsq_of (fit : list (R * R) -> option (R * R)) (pts : list (xr * xr)) : res (xr * xr) :=
  match fit (map (fun p => (rv (fst p), rv (snd p))) pts) with
  | Some (a, b) => Ok (Fin a, Fin b) | None => Raise ValueError end.
Lemma lstsq_of_pt fit pts : lstsq_of fit (map pt pts) = match fit pts with Some (a, b) => Ok (Fin a, Fin b) | None => Raise ValueError end.
Proof.
  unfold lstsq_of. rewrite map_map. cbn [pt fst snd rv]. rewrite (map_ext _ (fun p => p)); [now rewrite map_id|].
  intros []; reflexivity.
Qed.

Section Line.
Variables (fit : list (R * R) -> option (R * R)) (b : R) (n : nat) (r0 d a c : R).
Hypothesis Fit : fits_lines fit.
Hypothesis Hd : d <> 0.
Definition rngl : list R := map (gate_range r0 d) (seq 0 n).
Definition line (j : nat) : R := a * gate_range r0 d j + c.
(** every gate is missing or on the line *)
Definition on_line (z : list xr) : Prop := length z = n /\ forall j, (j < n)%nat -> at_ z j = Fin b \/ at_ z j = Fin (line j).

Lemma rngl_at j : (j < n)%nat -> at_ (map Fin rngl) j = Fin (gate_range r0 d j).
Proof.
  intro Hj. unfold at_, rngl. rewrite map_map. rewrite (map_at _ (seq 0 n) 0%nat) by now rewrite seq_length. now rewrite seq_nth.
Qed.
Lemma range_inj j k : gate_range r0 d j = gate_range r0 d k -> j = k.
Proof. unfold gate_range. intro E. apply INR_eq, (Rmult_eq_reg_r d); auto. lra. Qed.
Lemma not_bad z j : on_line z -> (j < n)%nat -> feq (at_ z j) (Fin b) = false -> at_ z j = Fin (line j).
Proof.
  intros (_ & G) Hj E. destruct (G j Hj) as [E1|E1]; auto. rewrite E1, feq_fin in E. rewrite (proj2 (Reqb_true b b)) in E; [discriminate|auto].
Qed.

Lemma fit_line z (js : list nat) : on_line z -> NoDup js -> (2 <= length js)%nat ->
  (forall j, In j js -> (j < n)%nat /\ feq (at_ z j) (Fin b) = false) ->
  lstsq_of fit (map (fun j => (at_ (map Fin rngl) j, at_ z j)) js) = Ok (Fin a, Fin c).
Proof.
  intros OL ND L2 G.
  assert (E : map (fun j => (at_ (map Fin rngl) j, at_ z j)) js = map pt (map (fun j => (gate_range r0 d j, line j)) js)).
  { rewrite map_map. apply map_ext_in. intros j Hj. destruct (G j Hj). unfold pt. cbn [fst snd].
    rewrite rngl_at, (not_bad z) by auto. reflexivity. }
  rewrite E, lstsq_of_pt.
  destruct (Fit (map (fun j => (gate_range r0 d j, line j)) js)) as (a' & c' & -> & B).
  - intro S. destruct js as [|j1 [|j2 js]]; try (simpl in L2; lia).
    assert (E12 : gate_range r0 d j1 = gate_range r0 d j2).
    { apply (S (gate_range r0 d j1, line j1) (gate_range r0 d j2, line j2)); simpl; auto. }
    apply range_inj in E12. inversion ND as [|? ? NI _]. apply NI. left. auto.
  - apply (best_is_line _ a c) in B as (-> & ->); auto.
    intros p Hp. apply in_map_iff in Hp as (j & <- & _). reflexivity.
Qed.

Variables (h : nat) (cs : list R).
Hypothesis Lc : length cs = (2 * h + 1)%nat.
Hypothesis Sm : smoothing cs.
Definition the_fir : fir xr := mkfir (2 * h) (Fin 1) (map Fin cs).

Lemma window_line i : (h <= i)%nat -> (i + h < n)%nat ->
  @np_dot xr _ (map Fin cs) (map (fun j => Fin (line j)) (seq (i - h) (2 * h + 1))) = Fin (line i).
Proof.
  intros H1 H2. rewrite <- (map_map line Fin), np_dot_fin. f_equal.
  assert (Es : map line (seq (i - h) (2 * h + 1)) = slice (map line (seq 0 n)) (i - h) (2 * h + 1)).
  { rewrite (slice_nth _ 0) by (rewrite map_length, seq_length; lia). apply map_ext_in. intros j Hj. apply in_seq in Hj.
    rewrite (map_at line (seq 0 n) 0%nat) by (rewrite seq_length; lia). now rewrite seq_nth by lia. }
  rewrite Es. destruct Sm as (Sy & S1).
  rewrite (dot_line cs h _ a c r0 d i n); auto.
  - rewrite moment_sym, S1 by auto. unfold line. ring.
  - now rewrite map_length, seq_length.
  - intros j Hj. rewrite (map_at line (seq 0 n) 0%nat) by now rewrite seq_length. now rewrite seq_nth.
Qed.

(** one gate of one pass *)
Lemma gate_line sd thsd z i : on_line z -> (i < n)%nat ->
  let mask := py_mask (Fin b) sd thsd z in
  gate_value (lstsq_of fit) the_fir (map Fin rngl) mask z i =
  Ok (if ((h <=? i)%nat && (i + h + 1 <? n)%nat && (4 * (2 * h) <? 5 * length (filter (on mask) (seq (i - h) (2 * h + 1))))%nat)%bool
      then Some (Fin (line i)) else None).
Proof.
  intros OL Hi mask. pose proof OL as (Lz & _). unfold gate_value. cbv zeta. cbn [the_fir f_order f_coef f_gain].
  rewrite half_order, Lz.
  destruct (Nat.leb_spec h i) as [H1|]; [|reflexivity].
  destruct (Nat.ltb_spec (i + h) (n - 1)) as [H2|], (Nat.ltb_spec (i + h + 1) n) as [H3|]; try lia; [|reflexivity]. cbn [andb].
  set (sel := filter (on mask) (seq (i - h) (2 * h + 1))).
  destruct (Nat.ltb_spec (4 * (2 * h)) (5 * length sel)) as [H4|]; [|reflexivity].
  assert (Gs : forall j, on mask j = true -> (j < n)%nat /\ feq (at_ z j) (Fin b) = false).
  { intros j Hj. assert (j < length z)%nat by (eapply on_mask_out; exact Hj). unfold mask in Hj. rewrite on_mask in Hj by auto.
    apply andb_prop in Hj as (_ & Hj). apply negb_true_iff in Hj. split; auto. lia. }
  rewrite map_length, Lc, Nat.eqb_refl.
  assert (W : forall ab, (forall j, In j (seq (i - h) (2 * h + 1)) -> on mask j = true \/ ab = (Fin a, Fin c)) ->
    window_with_fit (map Fin rngl) mask z ab (i - h) (2 * h + 1) = map (fun j => Fin (line j)) (seq (i - h) (2 * h + 1))).
  { intros ab G. unfold window_with_fit. apply map_ext_in. intros j Hj. pose proof (G j Hj) as G'. apply in_seq in Hj.
    destruct (on mask j) eqn:Ej.
    - destruct (Gs j Ej). now apply not_bad.
    - destruct G' as [?| ->]; [discriminate|]. cbn [fst snd]. rewrite rngl_at by lia. rewrite fmul_fin, fadd_fin. reflexivity. }
  destruct (Nat.ltb_spec (length sel) (2 * h + 1)) as [H5|H5].
  - rewrite fit_line; auto.
    + cbn [bind]. rewrite W by (intros; auto). rewrite window_line by lia. rewrite fmul_fin. do 3 f_equal. ring.
    + apply NoDup_filter, seq_NoDup.
    + lia.
    + intros j Hj. apply filter_In in Hj as (_ & Hj). auto.
  - cbn [bind]. rewrite W.
    + rewrite window_line by lia. rewrite fmul_fin. do 3 f_equal. ring.
    + intros j Hj. left. revert j Hj. apply filter_full. fold sel.
      pose proof (filter_len (on mask) (seq (i - h) (2 * h + 1))). fold sel in H. rewrite seq_length in *. lia.
Qed.

Lemma pass_line sd thsd z y : on_line z -> on_line y ->
  exists y', py_pass (lstsq_of fit) the_fir (Fin b) (map Fin rngl) thsd sd (z, y) = Ok (y', y') /\ on_line y' /\
  forall i, (i < n)%nat -> at_ y' i =
    let mask := py_mask (Fin b) sd thsd z in
    if (on mask i && ((h <=? i)%nat && (i + h + 1 <? n)%nat && (4 * (2 * h) <? 5 * length (filter (on mask) (seq (i - h) (2 * h + 1))))%nat))%bool
    then Fin (line i) else at_ y i.
Proof.
  intros Oz Oy. pose proof Oz as (Lz & Gz). pose proof Oy as (Ly & Gy).
  destruct (py_pass_total (lstsq_of fit) the_fir (Fin b) (map Fin rngl) thsd sd z y) as (y' & E).
  { intros i Hi _. rewrite gate_line by (auto; lia). eauto. }
  exists y'. split; auto.
  destruct (py_pass_ok (lstsq_of fit) the_fir (Fin b) (map Fin rngl) thsd sd z y (y', y')) as (_ & L1 & G); auto; [lia|].
  cbn [fst snd] in *.
  assert (V : forall i, (i < n)%nat -> at_ y' i =
    let mask := py_mask (Fin b) sd thsd z in
    if (on mask i && ((h <=? i)%nat && (i + h + 1 <? n)%nat && (4 * (2 * h) <? 5 * length (filter (on mask) (seq (i - h) (2 * h + 1))))%nat))%bool
    then Fin (line i) else at_ y i).
  { intros i Hi. cbv zeta. specialize (G i ltac:(lia)). destruct (on _ i); cbn [andb]; auto.
    destruct G as (o & Eo & G). rewrite gate_line in Eo by auto. destruct (_ && _)%bool; injection Eo as <-; exact G. }
  split; auto. split; [lia|]. intros j Hj. rewrite V by auto. cbv zeta. destruct (_ && _)%bool; auto.
Qed.
Lemma passes_line sd thsd nf z y : on_line z -> on_line y ->
  exists z' y', forM (seq 0 nf) (fun _ => py_pass (lstsq_of fit) the_fir (Fin b) (map Fin rngl) thsd sd) (z, y) = Ok (z', y') /\ on_line z'.
Proof.
  generalize (seq 0 nf). intro l. revert z y. induction l as [|x l IH]; intros z y Oz Oy; cbn [forM].
  - eauto.
  - destruct (pass_line sd thsd z y Oz Oy) as (y' & -> & O' & _). cbn [bind]. apply IH; auto.
Qed.

(** KDP *)
Lemma kd_line dl nadp i : (2 <= nadp)%Z -> on_line dl -> (i < n)%nat ->
  exists v, py_kd (lstsq_of fit) (Fin b) (map Fin rngl) dl nadp i = Ok v /\ (v = Fin (a / 2) \/ v = Fin b) /\
    (let '(i1, i2) := py_indices nadp i in (0 <= i1)%Z -> (i2 <= Z.of_nat n)%Z ->
     (forall j, (i1 <= j < i2)%Z -> at_ dl (Z.to_nat j) <> Fin b) -> v = Fin (a / 2)).
Proof.
  intros H2 OL Hi. pose proof OL as (Ld & G). unfold py_kd. rewrite Ld.
  destruct (py_indices nadp i) as (i1, i2) eqn:Ei.
  assert (E1 : i1 = Z.quot (2 * Z.of_nat i - nadp) 2) by (apply (f_equal fst) in Ei; symmetry; exact Ei).
  assert (E2 : i2 = Z.quot (2 * Z.of_nat i + nadp + 2) 2) by (apply (f_equal snd) in Ei; symmetry; exact Ei).
  assert (Q : forall j, (0 <= j < Z.of_nat n)%Z -> at_ dl (Z.to_nat j) <> Fin b -> feq (at_ dl (Z.to_nat j)) (Fin b) = false).
  { intros j Hj Ne. destruct (G (Z.to_nat j)) as [E|E]; [lia|contradiction|]. rewrite E in *. rewrite feq_fin. apply Reqb_false. congruence. }
  assert (R1 : (i1 <= Z.of_nat i)%Z). { subst i1. apply Z.quot_le_upper_bound; lia. }
  assert (R2 : (Z.of_nat i < i2)%Z). { subst i2. assert (Z.of_nat i + 1 <= Z.quot (2 * Z.of_nat i + nadp + 2) 2)%Z; [|lia]. apply Z.quot_le_lower_bound; lia. }
  destruct (feq (at_ dl i) (Fin b)) eqn:Eb; cbn [negb].
  { exists (Fin b). split; auto. split; auto. intros H1 H3 N. exfalso.
    assert (Ai : at_ dl i <> Fin b). { rewrite <- (Nat2Z.id i) at 1. apply N. lia. }
    destruct (G i Hi) as [E|E]; [contradiction|]. rewrite E, feq_fin in Eb. apply Reqb_true in Eb. rewrite E in Ai. congruence. }
  destruct ((0 <=? i1)%Z && (i2 <=? Z.of_nat n)%Z)%bool eqn:Ew.
  2:{ exists (Fin b). split; auto. split; auto. intros H1 H3. apply Z.leb_le in H1, H3. rewrite H1, H3 in Ew. discriminate. }
  apply andb_prop in Ew as (W1 & W2). apply Z.leb_le in W1, W2.
  set (sel := filter (fun j => negb (feq (at_ dl (Z.to_nat j)) (Fin b))) (zrange i1 i2)).
  assert (Hs : forall j, In j sel -> (0 <= j < Z.of_nat n)%Z /\ feq (at_ dl (Z.to_nat j)) (Fin b) = false).
  { intros j Hj. apply filter_In in Hj as (Hj & V). apply negb_true_iff in V. apply zrange_In in Hj. split; auto. lia. }
  destruct (Z.leb_spec (4 * nadp) (5 * Z.of_nat (length sel))) as [Hc|Hc].
  - pose proof (fit_line dl (map Z.to_nat sel) OL) as FL. rewrite map_map in FL. rewrite FL.
    + cbn [bind fst]. rewrite lit_fin, fmul_fin. eexists. split; [reflexivity|]. cbn [Qnum Qden].
      replace (5 / 10 * a) with (a / 2) by field. split; auto.
    + assert (GG : forall l, (forall j, In j l -> (0 <= j)%Z) -> NoDup l -> NoDup (map Z.to_nat l)).
      { induction l as [|x l IH]; intros Hl N; simpl; constructor; inversion N; subst.
        - intro I. apply in_map_iff in I as (y & E & Iy). assert (0 <= x)%Z by (apply Hl; left; auto).
          assert (0 <= y)%Z by (apply Hl; right; auto). assert (x = y) by lia. subst. contradiction.
        - apply IH; auto. intros; apply Hl; right; auto. }
      apply GG. { intros j HJ. apply Hs in HJ. lia. } apply NoDup_filter. unfold zrange. apply zrange_in_nodup.
    + rewrite map_length. lia.
    + intros j HJ. apply in_map_iff in HJ as (k & <- & HJ). destruct (Hs k HJ). split; auto. lia.
  - exists (Fin b). split; auto. split; auto. intros _ _ N. exfalso.
    assert (Es : sel = zrange i1 i2). { apply filter_all. intros j Hj. apply zrange_In in Hj. rewrite Q; [reflexivity|lia|]. apply N. lia. }
    rewrite Es, zrange_length in Hc.
    assert (Hl : (nadp <= i2 - i1)%Z); [|lia].
    subst i1 i2.
    pose proof (Z.quot_rem' (2 * Z.of_nat i - nadp) 2). pose proof (Z.quot_rem' (2 * Z.of_nat i + nadp + 2) 2).
    assert (-2 < Z.rem (2 * Z.of_nat i - nadp) 2 < 2)%Z.
    { pose proof (Z.rem_bound_abs (2 * Z.of_nat i - nadp) 2). lia. }
    assert (-2 < Z.rem (2 * Z.of_nat i + nadp + 2) 2 < 2)%Z.
    { pose proof (Z.rem_bound_abs (2 * Z.of_nat i + nadp + 2) 2). lia. }
    lia.
Qed.
End Line.
