(** calc_kdp_ray_fir in exact arithmetic: the standard deviation and the line
    fit. *)
From Coq Require Import Reals Lra Lia Arith.
From Verif Require Import Base.Num Base.ListFacts Base.XReal Base.XTac Base.Pointwise Base.XArith.
From Verif Require Import Model.Tables Model.Beta Model.Melt Model.Kdp Spec.KdpSpec.
From Verif Require Import Proofs.MeltProofs.
Open Scope R_scope.

Lemma of_nat_xr n : @of_nat xr _ n = Fin (INR n).
Proof.
  unfold of_nat. change (inject_Z (Z.of_nat n)) with (Qmake (Z.of_nat n) 1).
  now rewrite lit_int, INR_IZR_INZ.
Qed.
Lemma pow2_fin x : fpow (Fin x) (@flit xr _ 2) = Fin (x ^ 2).
Proof.
  rewrite lit_int. change (fpow (Fin x) (Fin 2)) with (xpow (Fin x) (Fin 2)).
  replace 2 with (INR 2) by (simpl; lra). apply xpow_nat.
Qed.

Lemma rsum_app a b : rsum (a ++ b) = rsum a + rsum b.
Proof. induction a; simpl; lra. Qed.
Lemma rsum_scal c l : rsum (map (fun x => c * x) l) = c * rsum l.
Proof. induction l; simpl; lra. Qed.
Lemma rsum_nonneg l : (forall x, In x l -> 0 <= x) -> 0 <= rsum l.
Proof. induction l; simpl; intro H; [lra|]. assert (0 <= a) by auto. assert (0 <= rsum l) by auto. lra. Qed.
Lemma rsum_zero l : (forall x, In x l -> 0 <= x) -> rsum l = 0 -> forall x, In x l -> x = 0.
Proof.
  induction l as [|a l IH]; simpl; intros H E x Hx; [contradiction|].
  assert (0 <= a) by auto. assert (0 <= rsum l) by (apply rsum_nonneg; auto).
  destruct Hx as [<-|Hx]; [lra|]. apply IH; auto. lra.
Qed.

(** ** One-pass variance *)
Definition ssq (l : list R) : R := rsum (map (fun x => x ^ 2) l).

Lemma dev_expand c l : rsum (map (fun x => (x - c) ^ 2) l) = ssq l - 2 * c * rsum l + INR (length l) * c ^ 2.
Proof.
  unfold ssq. induction l as [|x l IH]; [simpl; lra|].
  cbn [map rsum length]. rewrite IH, S_INR. ring.
Qed.
Lemma dev_avg l : l <> [] -> rsum (map (fun x => (x - avg l) ^ 2) l) = ssq l - rsum l ^ 2 / INR (length l).
Proof.
  intro N. rewrite dev_expand. unfold avg.
  assert (INR (length l) <> 0) by (apply not_0_INR; destruct l; [contradiction|discriminate]). field. auto.
Qed.

(** no rounding in exact arithmetic *)
Lemma loc_xr bd (x : xr) : loc bd x = x.
Proof. now destruct bd. Qed.

Lemma sd_loop_inv bd (b : R) (w : list R) :
  let v := filter (differs b) w in
  let s := sd_loop bd (Fin b) (map Fin w) in
  d_n s = length v /\
  (v = [] -> d_a s = Fin 0 /\ d_v s = Fin 0) /\
  (forall x r, v = x :: r -> d_w s = Fin x /\ d_a s = Fin (rsum v / INR (length v) - x) /\
     d_v s = Fin (ssq v - rsum v ^ 2 / INR (length v))).
Proof.
  cbv zeta. induction w as [|x w IH] using rev_ind.
  - split; [reflexivity|]. split; [|discriminate]. intros _. simpl. rewrite !lit_int. auto.
  - unfold sd_loop in *. rewrite map_app, fold_left_app. cbn [map fold_left].
    set (s := fold_left (sd_step bd (Fin b)) (map Fin w) _) in *.
    rewrite filter_app. cbn [filter]. unfold sd_step. cbv zeta. rewrite !loc_xr, feq_fin.
    assert (Dx : differs b x = negb (Reqb x b)) by (unfold differs, Reqb; now destruct Req_EM_T).
    rewrite Dx. clear Dx. destruct (Reqb_spec x b) as [->|Nb]; cbn [negb].
    + rewrite app_nil_r. exact IH.
    + destruct IH as (In_ & I0 & I1). cbn [d_n d_w d_a d_v].
      set (v := filter (differs b) w) in *. rewrite app_length. cbn [length]. rewrite In_.
      split; [lia|]. split; [intro E; symmetry in E; now apply app_cons_not_nil in E|].
      intros x0 r E. destruct v as [|x1 v'] eqn:Ev.
      * cbn [length Nat.eqb]. simpl in E. injection E as <- _.
        destruct I0 as (-> & ->); auto. split; auto.
        replace (1 - 1)%nat with 0%nat by lia.
        rewrite !of_nat_xr, !fsub_fin, pow2_fin, fmul_fin, !fdiv_fin, !fadd_fin by (simpl; lra).
        split; f_equal; unfold ssq; simpl; field.
      * cbn [length Nat.eqb]. injection E as <- <-. destruct (I1 _ _ eq_refl) as (-> & -> & ->).
        split; auto. rewrite <- Ev in *. assert (Lv : (length v = S (length v'))%nat) by now rewrite Ev.
        replace (S (S (length v')) - 1)%nat with (length v) by lia.
        replace (S (S (length v'))) with (S (length v)) by lia.
        assert (Hn : INR (length v) <> 0) by (apply not_0_INR; lia).
        assert (Hn1 : INR (length v) + 1 <> 0) by (pose proof (pos_INR (length v)); lra).
        rewrite !of_nat_xr, !fsub_fin, pow2_fin, fmul_fin, !fdiv_fin, !fadd_fin by (rewrite S_INR; auto).
        replace (S (length v') + 1)%nat with (S (length v)) by lia.
        rewrite rsum_app. unfold ssq. rewrite map_app, rsum_app. cbn [map rsum]. rewrite !S_INR, ?Rplus_0_r.
        split; f_equal; field; auto.
Qed.

Lemma avg_dev_nonneg (l : list R) c : 0 <= rsum (map (fun x => (x - c) ^ 2) l).
Proof. apply rsum_nonneg. intros y Hy. apply in_map_iff in Hy as (x & <- & _). apply pow2_ge_0. Qed.

(** sqrt(V / N) *)
Lemma sd_value bd (b : R) (w : list R) : filter (differs b) w <> [] ->
  let s := sd_loop bd (Fin b) (map Fin w) in
  fsqrt (fdiv (d_v s) (of_nat (d_n s))) = Fin (popstd (filter (differs b) w)).
Proof.
  intros N s. destruct (sd_loop_inv bd b w) as (En & _ & E1). fold s in En, E1.
  destruct (filter (differs b) w) as [|x r] eqn:Ev; [contradiction|]. rewrite <- Ev in *.
  destruct (E1 x r Ev) as (_ & _ & ->). rewrite En, of_nat_xr.
  assert (Hn : INR (length (filter (differs b) w)) <> 0) by (apply not_0_INR; rewrite Ev; discriminate).
  rewrite fdiv_fin by auto. unfold popstd. unfold avg at 1. rewrite map_length, dev_avg by auto.
  apply xsqrt_pos. rewrite <- dev_avg by auto. apply Rmult_le_pos; [apply avg_dev_nonneg|].
  pose proof (pos_INR (length (filter (differs b) w))). apply Rlt_le, Rinv_0_lt_compat. lra.
Qed.

(** the window *)
Lemma skipn_S {A} (l : list A) d i : (i < length l)%nat -> skipn i l = nth i l d :: skipn (S i) l.
Proof. revert i; induction l; intros [|i] H; simpl in *; try lia; auto. apply IHl. lia. Qed.
Lemma slice_nth {A} (l : list A) d n : forall i, (i + n <= length l)%nat ->
  slice l i n = map (fun j => nth j l d) (seq i n).
Proof.
  unfold slice. induction n; intros i H; [reflexivity|].
  rewrite (skipn_S l d) by lia. cbn [seq map firstn]. f_equal. apply IHn. lia.
Qed.
Lemma zrange_seq a b n : (0 <= a)%Z -> (b = a + Z.of_nat n)%Z -> zrange a b = map Z.of_nat (seq (Z.to_nat a) n).
Proof.
  intros Ha ->. unfold zrange. replace (Z.to_nat (a + Z.of_nat n - a)) with n by lia.
  revert a Ha. induction n; intros a Ha; [reflexivity|]. cbn [zrange_aux seq map]. f_equal; [lia|].
  rewrite IHn by lia. do 2 f_equal. lia.
Qed.
Lemma window_slice (dp : list R) i h : (h <= i)%nat -> (i + h < length dp)%nat ->
  window (map Fin dp) (Z.of_nat i) (Z.of_nat h) = map Fin (slice dp (i - h) (2 * h + 1)).
Proof.
  intros H1 H2. unfold window. rewrite (zrange_seq _ _ (2 * h + 1)) by lia.
  rewrite (slice_nth dp 0) by lia. rewrite !map_map.
  replace (Z.to_nat (Z.of_nat i - Z.of_nat h)) with (i - h)%nat by lia.
  apply map_ext_in. intros j Hj. apply in_seq in Hj. rewrite Nat2Z.id. unfold at_.
  rewrite (nth_indep _ fnan (Fin 0)) by (rewrite map_length; lia). apply map_nth.
Qed.

Lemma half_odd bd h : half_of bd (2 * Z.of_nat h + 1 - 1) = Z.of_nat h.
Proof.
  replace (2 * Z.of_nat h + 1 - 1)%Z with (Z.of_nat h * 2)%Z by lia.
  destruct bd; simpl; [apply Z.div_mul|apply Z.quot_mul]; lia.
Qed.

Lemma sd_gate_spec bd (h : nat) (b : R) (dp : list R) i :
  sd_gate bd (Z.of_nat h) (Fin b) (map Fin dp) i = Ok (Fin (sd_spec h b dp i)).
Proof.
  unfold sd_gate, sd_spec. rewrite map_length.
  assert (L100 : @flit xr _ 100 = Fin 100) by apply lit_int. rewrite L100.
  assert (G : ((0 <=? Z.of_nat i - Z.of_nat h) && (Z.of_nat i + Z.of_nat h <=? Z.of_nat (length dp) - 1))%Z%bool
    = ((h <=? i) && (i + h <? length dp))%nat%bool).
  { destruct (Z.leb_spec 0 (Z.of_nat i - Z.of_nat h)), (Z.leb_spec (Z.of_nat i + Z.of_nat h) (Z.of_nat (length dp) - 1)),
      (Nat.leb_spec h i), (Nat.ltb_spec (i + h) (length dp)); auto; lia. }
  rewrite G. destruct (Nat.leb_spec h i); [|reflexivity]. destruct (Nat.ltb_spec (i + h) (length dp)); [|reflexivity].
  cbn [andb]. rewrite window_slice by auto.
  set (w := slice dp (i - h) (2 * h + 1)). destruct (sd_loop_inv bd b w) as (En & _). cbv zeta. rewrite En.
  destruct (Nat.ltb_spec h (length (filter (differs b) w))) as [L|L].
  - assert ((Z.of_nat h <? Z.of_nat (length (filter (differs b) w)))%Z = true) as -> by (apply Z.ltb_lt; lia).
    assert (N : filter (differs b) w <> []) by (intro E; rewrite E in L; simpl in L; lia).
    pose proof (sd_value bd b w N) as S. cbv zeta in S. rewrite En in S. change (@f32 xr _) with (fun x : xr => x).
    cbv beta. destruct (length (filter (differs b) w)) as [|k] eqn:Ek; [lia|]. rewrite loc_xr, S. destruct bd; reflexivity.
  - assert ((Z.of_nat h <? Z.of_nat (length (filter (differs b) w)))%Z = false) as -> by (apply Z.ltb_ge; lia). reflexivity.
Qed.

Lemma popstd_nonneg l : 0 <= popstd l. Proof. apply sqrt_pos. Qed.

(** ** Line fit *)
Definition pt (p : R * R) : xr * xr := (Fin (fst p), Fin (snd p)).
Definition kept (bd : build) (b : R) (p : R * R) : bool :=
  match bd with
  | Cython => (differs b (fst p) && differs b (snd p))%bool
  | Fortran => (Rleb (fst p) (IZR BIG) && Rleb (snd p) (IZR BIG))%bool
  end.
Definition sx (pts : list (R * R)) := rsum (map fst pts).
Definition sy (pts : list (R * R)) := rsum (map snd pts).
Definition sxx (pts : list (R * R)) := rsum (map (fun p => fst p * fst p) pts).
Definition sxy (pts : list (R * R)) := rsum (map (fun p => fst p * snd p) pts).
Definition ldet (pts : list (R * R)) := INR (length pts) * sxx pts - sx pts ^ 2.

Lemma skip_kept bd b p : lse_skip bd (Fin b) (fst (pt p)) (snd (pt p)) = negb (kept bd b p).
Proof.
  destruct p as (x, y). unfold pt, lse_skip, kept. cbn [fst snd]. destruct bd.
  - rewrite !feq_fin. unfold differs, Reqb. destruct (Req_EM_T x b), (Req_EM_T y b); reflexivity.
  - change (inject_Z BIG) with (Qmake BIG 1). rewrite lit_int, !flt_fin. generalize (IZR BIG). intro r.
    destruct (Rltb_spec r x), (Rleb_spec x r); try lra;
    destruct (Rltb_spec r y), (Rleb_spec y r); try lra; reflexivity.
Qed.

Lemma lse_fold bd b pts : forall n x y xx xy,
  let K := filter (kept bd b) pts in
  fold_left (lse_step bd (Fin b)) (map pt pts) (mksums (Fin n) (Fin x) (Fin y) (Fin xx) (Fin xy))
  = mksums (Fin (n - INR (length pts) + INR (length K))) (Fin (x + sx K)) (Fin (y + sy K)) (Fin (xx + sxx K)) (Fin (xy + sxy K)).
Proof.
  cbv zeta. induction pts as [|p pts IH]; intros n x y xx xy.
  - cbn [map fold_left filter length]. unfold sx, sy, sxx, sxy. cbn [map rsum INR]. f_equal; f_equal; ring.
  - cbn [map fold_left]. unfold lse_step at 2. pose proof (skip_kept bd b p) as E.
    destruct (pt p) as (u, v) eqn:Ep. cbn [fst snd] in E. rewrite E.
    unfold pt in Ep. injection Ep as <- <-. cbn [filter]. change (@f32 xr _) with (fun x : xr => x). cbv beta. rewrite !loc_xr.
    destruct (kept bd b p); cbn [negb s_n s_x s_y s_xx s_xy].
    + rewrite !fmul_fin, !fadd_fin. rewrite IH. unfold sx, sy, sxx, sxy. cbn [map rsum].
      cbn [length]. rewrite !S_INR. f_equal; f_equal; ring.
    + rewrite lit_int, fsub_fin, IH. cbn [length]. rewrite S_INR. f_equal; f_equal; ring.
Qed.

Lemma lse_sums_fin bd b pts : let K := filter (kept bd b) pts in
  lse_sums bd (Fin b) (map pt pts)
  = mksums (Fin (INR (length K))) (Fin (sx K)) (Fin (sy K)) (Fin (sxx K)) (Fin (sxy K)).
Proof.
  cbv zeta. unfold lse_sums. rewrite map_length, of_nat_xr, lit_int.
  change (@f32 xr _) with (fun x : xr => x). cbv beta. rewrite lse_fold. f_equal; f_equal; ring.
Qed.

Definition lslope (K : list (R * R)) := (INR (length K) * sxy K - sx K * sy K) / ldet K.
Definition licept (K : list (R * R)) := (sy K * sxx K - sx K * sxy K) / ldet K.

Lemma LSE_fin bd b pts : let K := filter (kept bd b) pts in ldet K <> 0 ->
  LSE bd (Fin b) (map pt pts) = Ok (Fin (lslope K), Fin (licept K)).
Proof.
  cbv zeta. intro D. unfold LSE. rewrite lse_sums_fin. cbv zeta. cbn [s_n s_x s_y s_xx s_xy].
  change (@f32 xr _) with (fun x : xr => x). cbv beta. rewrite pow2_fin, !fmul_fin, !fsub_fin.
  rewrite lit_int, feq_fin. fold (ldet (filter (kept bd b) pts)).
  destruct (Reqb_spec (ldet (filter (kept bd b) pts)) 0) as [E|_]; [contradiction|].
  rewrite !fdiv_fin by exact D. destruct bd; reflexivity.
Qed.
Lemma LSE_zero b pts : ldet (filter (kept Cython b) pts) = 0 ->
  LSE Cython (Fin b) (map pt pts) = Raise ZeroDivisionError.
Proof.
  intro D. unfold LSE. rewrite lse_sums_fin. cbv zeta. cbn [s_n s_x s_y s_xx s_xy].
  change (@f32 xr _) with (fun x : xr => x). cbv beta. rewrite pow2_fin, !fmul_fin, !fsub_fin.
  rewrite lit_int, feq_fin. fold (ldet (filter (kept Cython b) pts)). rewrite D.
  destruct (Reqb_spec 0 0); [reflexivity|lra].
Qed.

Definition syy (pts : list (R * R)) := rsum (map (fun p => snd p * snd p) pts).
Lemma ss_moments a b K : ss a b K
  = syy K - 2 * a * sxy K - 2 * b * sy K + a ^ 2 * sxx K + 2 * a * b * sx K + INR (length K) * b ^ 2.
Proof.
  unfold ss, syy, sxy, sy, sxx, sx. induction K as [|p K IH]; [simpl; ring|].
  cbn [map rsum length]. rewrite IH, S_INR. ring.
Qed.
Definition lin2 u v (K : list (R * R)) := rsum (map (fun p => (u * fst p + v) ^ 2) K).
Lemma lin2_moments u v K : lin2 u v K = u ^ 2 * sxx K + 2 * u * v * sx K + INR (length K) * v ^ 2.
Proof.
  unfold lin2, sxx, sx. induction K as [|p K IH]; [simpl; ring|].
  cbn [map rsum length]. rewrite IH, S_INR. ring.
Qed.
Lemma lin2_nonneg u v K : 0 <= lin2 u v K.
Proof. apply rsum_nonneg. intros z Hz. apply in_map_iff in Hz as (p & <- & _). apply pow2_ge_0. Qed.
Lemma lin2_zero u v K : lin2 u v K = 0 -> forall p, In p K -> u * fst p + v = 0.
Proof.
  intros E p Hp.
  assert (Z : (u * fst p + v) ^ 2 = 0).
  { apply (rsum_zero (map (fun p => (u * fst p + v) ^ 2) K)); auto.
    - intros z Hz. apply in_map_iff in Hz as (q & <- & _). apply pow2_ge_0.
    - apply (in_map (fun p => (u * fst p + v) ^ 2) K p Hp). }
  assert ((u * fst p + v) * (u * fst p + v) = 0) by (rewrite <- Z; ring).
  destruct (Rmult_integral _ _ H); auto.
Qed.

Lemma ldet_lin2 K : K <> [] -> ldet K = INR (length K) * lin2 1 (- (sx K / INR (length K))) K.
Proof.
  intro N. assert (INR (length K) <> 0) by (apply not_0_INR; destruct K; [contradiction|discriminate]).
  rewrite lin2_moments. unfold ldet. field. auto.
Qed.
Lemma ldet_same_x K : ldet K = 0 <-> same_x K.
Proof.
  destruct K as [|p0 K'] eqn:EK.
  { split; [intros _ p q []|]. intros _. unfold ldet, sx, sxx. simpl. ring. }
  rewrite <- EK in *. assert (N : K <> []) by (rewrite EK; discriminate).
  assert (Hn : INR (length K) <> 0) by (apply not_0_INR; rewrite EK; discriminate).
  split.
  - intros D p q Hp Hq. rewrite ldet_lin2 in D by auto.
    destruct (Rmult_integral _ _ D) as [?|L]; [contradiction|].
    pose proof (lin2_zero _ _ _ L p Hp). pose proof (lin2_zero _ _ _ L q Hq). lra.
  - intro S. assert (S' : forall p, In p K -> fst p = fst p0) by (intros p Hp; apply S; auto; rewrite EK; left; auto).
    clear - S'. unfold ldet, sx, sxx.
    assert (E : rsum (map fst K) = INR (length K) * fst p0 /\
                rsum (map (fun p => fst p * fst p) K) = INR (length K) * (fst p0 * fst p0)).
    { induction K as [|q K IH]; [simpl; split; ring|].
      destruct IH as (I1 & I2); [intros; apply S'; simpl; auto|].
      cbn [map rsum length]. rewrite I1, I2, S_INR, (S' q) by (simpl; auto). split; ring. }
    destruct E as (E1 & E2).
    rewrite E1, E2. ring.
Qed.

Lemma ss_diff a' b' K : ldet K <> 0 ->
  ss a' b' K = ss (lslope K) (licept K) K + lin2 (a' - lslope K) (b' - licept K) K.
Proof.
  intro D. rewrite !ss_moments, lin2_moments. unfold lslope, licept.
  unfold ldet in *. field. auto.
Qed.
Lemma best_lslope K : ldet K <> 0 -> best_line K (lslope K) (licept K).
Proof.
  intro D. split.
  - intros a' b'. rewrite (ss_diff a' b') by auto. pose proof (lin2_nonneg (a' - lslope K) (b' - licept K) K). lra.
  - intros a' b' E. rewrite (ss_diff a' b') in E by auto.
    assert (L : lin2 (a' - lslope K) (b' - licept K) K = 0) by lra.
    pose proof (lin2_zero _ _ _ L) as Z.
    assert (A : a' - lslope K = 0).
    { destruct (Req_dec (a' - lslope K) 0) as [|NA]; auto. exfalso. apply D, ldet_same_x.
      intros p q Hp Hq. pose proof (Z p Hp). pose proof (Z q Hq).
      apply (Rmult_eq_reg_l (a' - lslope K)); auto. lra. }
    split; [lra|]. rewrite A in Z. destruct K as [|p K'] eqn:EK; [exfalso; apply D, ldet_same_x; intros ? ? []|].
    pose proof (Z p (or_introl eq_refl)). lra.
Qed.
Lemma line_exact K a b : ldet K <> 0 -> (forall p, In p K -> snd p = a * fst p + b) ->
  lslope K = a /\ licept K = b.
Proof.
  intros D L. destruct (best_lslope K D) as (B1 & B2).
  assert (Z : ss a b K = 0).
  { unfold ss. clear - L. induction K as [|p K IH]; [reflexivity|]. cbn [map rsum].
    rewrite (L p) by (simpl; auto). rewrite IH by (intros; apply L; simpl; auto). ring. }
  assert (P : forall u v, 0 <= ss u v K).
  { intros u v. apply rsum_nonneg. intros z Hz. apply in_map_iff in Hz as (q & <- & _). apply pow2_ge_0. }
  assert (E : ss a b K = ss (lslope K) (licept K) K).
  { pose proof (B1 a b). pose proof (P (lslope K) (licept K)). lra. }
  destruct (B2 a b E). auto.
Qed.
