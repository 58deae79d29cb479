(** * The compiled KDP routine under affine changes of phase and range
    (Cython build, real numbers) *)
From Coq Require Import Reals Lra Lia Qreals Arith ZArith.
From Verif Require Import Base.Num Base.ListFacts Base.XReal Base.XTac Base.XArith.
From Verif Require Import Model.Tables Model.Beta Model.Melt Model.Kdp Spec.KdpSpec.
From Verif Require Import Proofs.HidProofs Proofs.KdpReal Proofs.KdpProofs Proofs.KdpFilter.
Open Scope R_scope.

Section Affine.
Variables (s c lam rho b : R).
Hypotheses (Hs : s <> 0) (Hl : lam <> 0).
Definition f (y : R) : R := s * y + c.
Definition g (x : R) : R := lam * x + rho.

Lemma f_inj x y : f x = f y -> x = y.
Proof. unfold f. intro E. apply (Rmult_eq_reg_l s); lra. Qed.
Lemma differs_f x y : differs (f x) (f y) = differs x y.
Proof. unfold differs. destruct (Req_EM_T (f y) (f x)) as [E|N], (Req_EM_T y x); subst; auto; try contradiction. apply f_inj in E. contradiction. Qed.

(** *** standard deviation *)
Lemma rsum_f l : rsum (map f l) = s * rsum l + c * INR (length l).
Proof. induction l; cbn [map rsum length]; [cbn; ring|]. rewrite IHl, S_INR. unfold f. ring. Qed.
Lemma avg_f l : l <> [] -> avg (map f l) = f (avg l).
Proof.
  intro N. unfold avg. rewrite rsum_f, map_length. unfold f. field. apply not_0_INR. destruct l; [congruence|discriminate].
Qed.
Lemma popstd_f l : l <> [] -> popstd (map f l) = Rabs s * popstd l.
Proof.
  intro N. unfold popstd. rewrite <- sqrt_Rsqr_abs, <- sqrt_mult_alt by apply Rle_0_sqr. f_equal.
  rewrite map_map, avg_f by auto. unfold avg at 1 3. rewrite !map_length. unfold Rdiv. rewrite <- Rmult_assoc. f_equal.
  rewrite <- rsum_mul. apply rsum_ext. intros x _. unfold f, Rsqr. ring.
Qed.
Lemma filter_map_f l : filter (differs (f b)) (map f l) = map f (filter (differs b) l).
Proof. induction l as [|x l IH]; auto. cbn [map filter]. rewrite differs_f, IH. now destruct (differs b x). Qed.
Lemma slice_map {A B} (h : A -> B) l i n : slice (map h l) i n = map h (slice l i n).
Proof. unfold slice. rewrite <- firstn_map, <- skipn_map. reflexivity. Qed.
Lemma sd_spec_f h dp i : (sd_spec h b dp i = 100 /\ sd_spec h (f b) (map f dp) i = 100) \/
  sd_spec h (f b) (map f dp) i = Rabs s * sd_spec h b dp i.
Proof.
  unfold sd_spec. rewrite map_length, slice_map, filter_map_f, map_length. cbv zeta.
  destruct (_ && _)%bool; auto. destruct (Nat.ltb_spec h (length (filter (differs b) (slice dp (i - h) (2 * h + 1))))); auto.
  right. apply popstd_f. intro E. rewrite E in *. cbn in *. lia.
Qed.

(** *** line fit *)
Definition T (p : R * R) : R * R := (g (fst p), f (snd p)).
Lemma sx_T K : sx (map T K) = lam * sx K + rho * INR (length K).
Proof. unfold sx. induction K as [|p K IH]; cbn [map rsum length]; [cbn; ring|]. rewrite IH, S_INR. unfold T, g. cbn [fst]. ring. Qed.
Lemma sy_T K : sy (map T K) = s * sy K + c * INR (length K).
Proof. unfold sy. induction K as [|p K IH]; cbn [map rsum length]; [cbn; ring|]. rewrite IH, S_INR. unfold T, f. cbn [snd]. ring. Qed.
Lemma sxx_T K : sxx (map T K) = lam ^ 2 * sxx K + 2 * lam * rho * sx K + rho ^ 2 * INR (length K).
Proof. unfold sxx, sx. induction K as [|p K IH]; cbn [map rsum length]; [cbn; ring|]. rewrite IH, S_INR. unfold T, g. cbn [fst]. ring. Qed.
Lemma sxy_T K : sxy (map T K) = lam * s * sxy K + lam * c * sx K + rho * s * sy K + rho * c * INR (length K).
Proof. unfold sxy, sx, sy. induction K as [|p K IH]; cbn [map rsum length]; [cbn; ring|]. rewrite IH, S_INR. unfold T, f, g. cbn [fst snd]. ring. Qed.
Lemma ldet_T K : ldet (map T K) = lam ^ 2 * ldet K.
Proof. unfold ldet. rewrite sx_T, sxx_T, map_length. ring. Qed.
Lemma slope_T K : ldet K <> 0 -> lslope (map T K) = s / lam * lslope K.
Proof.
  intro D. unfold lslope. rewrite ldet_T, sxy_T, sx_T, sy_T, map_length. unfold ldet in *. field. auto.
Qed.
Lemma line_T K x : ldet K <> 0 -> lslope (map T K) * g x + licept (map T K) = f (lslope K * x + licept K).
Proof.
  intro D. rewrite slope_T by auto. unfold licept, lslope. rewrite ldet_T, sxx_T, sxy_T, sx_T, sy_T. unfold f, g, ldet in *. field. auto.
Qed.
Lemma kept_T pts : (forall p, In p pts -> fst p <> b /\ g (fst p) <> f b) ->
  filter (kept Cython (f b)) (map T pts) = map T (filter (kept Cython b) pts).
Proof.
  induction pts as [|p pts IH]; intro H; auto. cbn [map filter]. rewrite IH by (intros; apply H; now right).
  destruct (H p) as (N & N'); [now left|].
  assert (E : kept Cython (f b) (T p) = kept Cython b p).
  { unfold kept, T. cbn [fst snd]. rewrite differs_f. unfold differs at 1 3. destruct (Req_EM_T (g (fst p)) (f b)), (Req_EM_T (fst p) b); auto; contradiction. }
  rewrite E. now destruct (kept Cython b p).
Qed.
Lemma LSE_T pts ab : (forall p, In p pts -> fst p <> b /\ g (fst p) <> f b) ->
  LSE Cython (Fin b) (map pt pts) = Ok ab -> exists A B A' B', ab = (Fin A, Fin B) /\
    LSE Cython (Fin (f b)) (map pt (map T pts)) = Ok (Fin A', Fin B') /\
    A' = s / lam * A /\ forall x, A' * g x + B' = f (A * x + B).
Proof.
  intros H E. set (K := filter (kept Cython b) pts).
  destruct (Req_EM_T (ldet K) 0) as [D|D]; [unfold K in D; rewrite LSE_zero in E by auto; discriminate|].
  rewrite LSE_fin in E by exact D. injection E as <-. fold K.
  exists (lslope K), (licept K), (lslope (map T K)), (licept (map T K)). split; auto.
  assert (EK : filter (kept Cython (f b)) (map T pts) = map T K) by now apply kept_T.
  split.
  - rewrite LSE_fin; rewrite EK; auto. rewrite ldet_T. intro Z. apply Rmult_integral in Z as [Z|Z]; [|contradiction].
    revert Z. apply pow_nonzero; auto.
  - split; [now apply slope_T|]. intro x. now apply line_T.
Qed.

(** *** one ray *)
Variables (n half : nat) (cs : list R) (gain : R) (m : nat -> R).
Hypothesis Lc : length cs = (2 * half + 1)%nat.
(** the weights the Cython build applies: the coefficients but the first, and
    what follows them in memory *)
Definition dc : R := rsum (weights Cython cs (m (2 * half + 1)%nat)).
Hypothesis Gain : c = 0 \/ gain * dc = 1.
Definition P (bad : R) : par xr := mkpar Cython (2 * half) (Fin gain) (map Fin cs) (fun k => Fin (m k)) (Fin bad).
Variables (rng : list R).
Hypothesis Lr : (n <= length rng)%nat.
Hypothesis Rb : forall j, (j < n)%nat -> nth j rng 0 <> b /\ g (nth j rng 0) <> f b.
Variables (sd sd' th th' : list xr).
Hypothesis Sd : forall j, (j < n)%nat -> fle (at_ sd j) (at_ th j) = fle (at_ sd' j) (at_ th' j).

Definition mf (l : list R) : list xr := map (fun v => Fin (f v)) l.
Lemma mf_map l : mf l = map Fin (map f l).
Proof. unfold mf. now rewrite map_map. Qed.
Lemma mf_length l : length (mf l) = length l.
Proof. apply map_length. Qed.
Lemma mf_of_map {A} (h : A -> R) l : mf (map h l) = map (fun x => Fin (f (h x))) l.
Proof. unfold mf. now rewrite map_map. Qed.
Lemma at_mf l j : (j < length l)%nat -> at_ (mf l) j = Fin (f (nth j l 0)).
Proof. intro Hj. unfold at_, mf. now rewrite (map_at (fun v => Fin (f v)) l 0). Qed.
Lemma at_fin l j : (j < length l)%nat -> at_ (map Fin l) j = Fin (nth j l 0).
Proof. intro Hj. unfold at_. now rewrite (map_at Fin l 0). Qed.
Lemma feq_f x : @feq xr _ (Fin (f x)) (Fin (f b)) = feq (Fin x) (Fin b).
Proof.
  rewrite !feq_fin. unfold Reqb. destruct (Req_EM_T (f x) (f b)) as [E|N], (Req_EM_T x b); subst; auto; try contradiction.
  apply f_inj in E. contradiction.
Qed.
Lemma good_f z j : length z = n -> (j < n)%nat -> good (Fin (f b)) sd' th' (mf z) j = good (Fin b) sd th (map Fin z) j.
Proof. intros L Hj. unfold good. rewrite at_mf, at_fin by lia. now rewrite feq_f, Sd. Qed.

Lemma rsum_dot_f (w l : list R) : length w = length l -> dot w (map f l) = s * dot w l + c * rsum w.
Proof.
  revert l. induction w as [|u w IH]; intros [|v l] L; try discriminate; [unfold dot; cbn; ring|].
  injection L as L. unfold dot in *. cbn [map combine rsum fst snd]. rewrite IH by auto. unfold f. ring.
Qed.

Lemma upd_map {A} (h : A -> xr) i v l : upd i (h v) (map h l) = map h (firstn i l ++ match skipn i l with [] => [] | _ :: r => v :: r end).
Proof. revert i. induction l as [|x l IH]; intros [|i]; cbn [upd map firstn skipn app]; auto. now rewrite IH. Qed.
Definition updR (i : nat) (v : R) (l : list R) : list R := firstn i l ++ match skipn i l with [] => [] | _ :: r => v :: r end.
Lemma updR_length i v l : length (updR i v l) = length l.
Proof. unfold updR. revert i. induction l as [|x l IH]; intros [|i]; cbn [firstn skipn app length]; auto. Qed.

Lemma fill_sim z A B A' B' i : length z = n -> (half <= i)%nat -> (i + half < n)%nat -> (forall x, A' * g x + B' = f (A * x + B)) ->
  exists z', fill Cython (Fin b) (Fin A) (Fin B) (map Fin rng) (i - half) (2 * half + 1) (map Fin z) = map Fin z' /\
    fill Cython (Fin (f b)) (Fin A') (Fin B') (map Fin (map g rng)) (i - half) (2 * half + 1) (mf z) = mf z' /\ length z' = n.
Proof.
  intros L H1 H2 E. exists (map (fun j => if ((i - half <=? j)%nat && (j <? i - half + (2 * half + 1))%nat && @feq xr _ (Fin (nth j z 0)) (Fin b))%bool
     then A * nth j rng 0 + B else nth j z 0) (seq 0 n)).
  split; [|split; [|now rewrite map_length, seq_length]].
  - unfold fill. rewrite map_length, L, map_map. apply map_ext_in. intros j Hj. apply in_seq in Hj.
    rewrite !at_fin by lia. destruct (_ && _)%bool; reflexivity.
  - rewrite mf_of_map. unfold fill. rewrite mf_length, L. apply map_ext_in. intros j Hj. apply in_seq in Hj.
    rewrite at_mf, feq_f by lia. destruct (_ && _)%bool; auto.
    rewrite at_fin by (rewrite map_length; lia). rewrite (map_at g rng 0) by lia.
    rewrite loc_xr, f32_xr, fmul_fin, fadd_fin. f_equal. apply E.
Qed.

Lemma gate_sim z y i st : length z = n -> length y = n -> (half <= i)%nat -> (i + half < n)%nat ->
  fir_gate (P b) (map Fin rng) th sd i (map Fin z, map Fin y) = Ok st ->
  exists z' y', st = (map Fin z', map Fin y') /\ length z' = n /\ length y' = n /\
    fir_gate (P (f b)) (map Fin (map g rng)) th' sd' i (mf z, mf y) = Ok (mf z', mf y').
Proof.
  intros Lz Ly H1 H2 E. unfold fir_gate in *. cbv zeta in *. cbn [P p_order p_build p_gain p_coeff p_mem p_bad] in *.
  rewrite half_order in *. rewrite good_f by lia.
  destruct (good (Fin b) sd th (map Fin z) i); [|injection E as <-; exists z, y; auto].
  assert (EF : filter (good (Fin (f b)) sd' th' (mf z)) (seq (i - half) (2 * half + 1)) = filter (good (Fin b) sd th (map Fin z)) (seq (i - half) (2 * half + 1))).
  { apply filter_ext_in'. intros j Hj. apply in_seq in Hj. apply good_f; lia. }
  rewrite EF. set (js := filter _ (seq _ _)) in *. rewrite !map_length in *.
  destruct (500 <? length js)%nat; [discriminate|].
  destruct (4 * (2 * half) <? 5 * length js)%nat; [|injection E as <-; exists z, y; auto].
  assert (Js : forall j, In j js -> (j < n)%nat).
  { intros j Hj. unfold js in Hj. apply filter_In in Hj as (Hj & _). apply in_seq in Hj. lia. }
  apply bind_ok in E as (zx & Ez & E). injection E as <-.
  assert (Zok : exists z', zx = map Fin z' /\ length z' = n /\ (if (length js <? 2 * half + 1)%nat
     then ab <- LSE Cython (Fin (f b)) (map (fun j => (at_ (map Fin (map g rng)) j, at_ (mf z) j)) js) ;;
       Ok (fill Cython (Fin (f b)) (fst ab) (snd ab) (map Fin (map g rng)) (i - half) (2 * half + 1) (mf z)) else Ok (mf z)) = Ok (mf z')).
  { destruct (length js <? 2 * half + 1)%nat; [|injection Ez as <-; exists z; auto].
    apply bind_ok in Ez as (ab & El & Ez). injection Ez as <-.
    set (pts := map (fun j => (nth j rng 0, nth j z 0)) js).
    assert (E1 : map (fun j => (at_ (map Fin rng) j, at_ (map Fin z) j)) js = map pt pts).
    { unfold pts. rewrite map_map. apply map_ext_in. intros j Hj. apply Js in Hj. rewrite !at_fin by lia. reflexivity. }
    assert (E2 : map (fun j => (at_ (map Fin (map g rng)) j, at_ (mf z) j)) js = map pt (map T pts)).
    { unfold pts. rewrite (map_map T pt), (map_map _ (fun x => pt (T x))). apply map_ext_in. intros j Hj. apply Js in Hj.
      rewrite at_fin, at_mf by (rewrite ?map_length; lia). rewrite (map_at g rng 0) by lia. reflexivity. }
    rewrite E1 in El. rewrite E2.
    apply LSE_T in El as (A & B & A' & B' & -> & El & _ & Line).
    - rewrite El. cbn [bind fst snd]. destruct (fill_sim z A B A' B' i Lz H1 H2 Line) as (z' & F1 & F2 & L').
      exists z'. split; [exact F1|]. rewrite F2. auto.
    - intros p Hp. unfold pts in Hp. apply in_map_iff in Hp as (j & <- & Hj). cbn [fst]. apply Rb. auto. }
  destruct Zok as (z' & -> & Lz' & ->). cbn [bind].
  rewrite mf_map, !fir_sum_fin by (rewrite ?map_length; lia). rewrite slice_map, rsum_dot_f.
  - fold dc. rewrite !f32_xr, !fmul_fin.
    set (d := dot _ _).
    assert (Ed : (s * d + c * dc) * gain = f (d * gain)).
    { unfold f. destruct Gain as [-> | G1]; [ring|]. replace c with (c * (gain * dc)) at 2 by (rewrite G1; ring). ring. }
    rewrite Ed. exists z', (updR i (d * gain) y).
    rewrite (upd_map Fin). split; [reflexivity|]. split; auto. split; [now rewrite updR_length|].
    unfold mf at 1. rewrite (upd_map (fun v => Fin (f v))). fold (updR i (d * gain) y). rewrite !mf_map, map_map. reflexivity.
  - rewrite weights_length with (n := (2 * half + 1)%nat) by (auto; lia). unfold slice. rewrite firstn_length, skipn_length. lia.
Qed.

Lemma forM_sim {St St' : Type} (Q : St -> St' -> Prop) (l : list nat) (h : nat -> St -> res St) (h' : nat -> St' -> res St') :
  (forall i x x' y, In i l -> Q x x' -> h i x = Ok y -> exists y', h' i x' = Ok y' /\ Q y y') ->
  forall x x' y, Q x x' -> forM l h x = Ok y -> exists y', forM l h' x' = Ok y' /\ Q y y'.
Proof.
  intro S. induction l as [|i l IH]; intros x x' y HQ E; cbn [forM] in *; [injection E as <-; eauto|].
  apply bind_ok in E as (u & Eu & E). destruct (S i x x' u) as (u' & -> & Q'); auto; [now left|]. cbn [bind].
  eapply IH; eauto. intros j ? ? ? Hj. apply S. now right.
Qed.
Definition rel (st st' : list xr * list xr) : Prop := exists z y, length z = n /\ length y = n /\
  st = (map Fin z, map Fin y) /\ st' = (mf z, mf y).
Lemma filter_sim nf st st' out : rel st st' ->
  fir_filter (P b) nf (map Fin rng) th sd st = Ok out ->
  exists out', fir_filter (P (f b)) nf (map Fin (map g rng)) th' sd' st' = Ok out' /\ rel out out'.
Proof.
  unfold fir_filter. apply forM_sim. intros _ x x' y _ (z & w & Lz & Lw & -> & ->) E.
  unfold fir_pass in *. cbv zeta in *. cbn [fst P p_order] in *. rewrite half_order in *. rewrite mf_length, map_length in *.
  apply bind_ok in E as (st1 & E1 & E). injection E as <-.
  apply (forM_sim rel _ _ (fir_gate (P (f b)) (map Fin (map g rng)) th' sd')) with (x' := (mf z, mf w)) in E1.
  - destruct E1 as (st2 & -> & (z' & w' & Lz' & Lw' & -> & ->)). cbn [bind snd]. eexists. split; [reflexivity|].
    exists w', w'. auto.
  - intros i u u' v Hi (z' & w' & Lz' & Lw' & -> & ->) Ev. apply in_seq in Hi.
    apply gate_sim in Ev as (z2 & w2 & -> & L2 & L3 & Ev); auto; try lia. rewrite Ev. eexists. split; [reflexivity|]. exists z2, w2. auto.
  - exists z, w. auto.
Qed.

(** *** KDP *)
(** missing in both, or proportional *)
Definition krel (k k' : xr) : Prop := (k = Fin b /\ k' = Fin (f b)) \/ exists v, k = Fin v /\ k' = Fin (s / lam * v).
Lemma kd_sim dl nadp i k : length dl = n ->
  kd_gate Cython (Fin b) (map Fin rng) (map Fin dl) nadp i = Ok k ->
  exists k', kd_gate Cython (Fin (f b)) (map Fin (map g rng)) (mf dl) nadp i = Ok k' /\ krel k k'.
Proof.
  intros Ld E. rewrite kd_gate_eq in *. cbv zeta in *. unfold kd_valid in *.
  assert (EJ : kd_js Cython (length (mf dl)) nadp i = kd_js Cython (length (map Fin dl)) nadp i) by (unfold mf; now rewrite !map_length).
  rewrite EJ. rewrite map_length in *. rewrite Ld in *.
  assert (Js : forall j, In j (kd_js Cython n nadp i) -> (Z.to_nat j < n)%nat).
  { intros j Hj. unfold kd_js in Hj. cbv zeta in Hj. destruct ((0 <=? _) && _)%Z%bool eqn:Eb; [|destruct Hj].
    apply andb_prop in Eb as (E1 & E2). apply Z.leb_le in E1. apply Z.leb_le in E2. apply zrange_In in Hj. lia. }
  assert (EF : filter (fun j => negb (feq (at_ (mf dl) (Z.to_nat j)) (Fin (f b)))) (kd_js Cython n nadp i)
    = filter (fun j => negb (feq (at_ (map Fin dl) (Z.to_nat j)) (Fin b))) (kd_js Cython n nadp i)).
  { apply filter_ext_in'. intros j Hj. apply Js in Hj. now rewrite at_mf, at_fin, feq_f by lia. }
  rewrite EF. set (js := filter _ _) in *.
  assert (Jn : forall j, In j js -> (Z.to_nat j < n)%nat).
  { intros j Hj. unfold js in Hj. apply filter_In in Hj as (Hj & _). auto. }
  destruct (500 <? length js)%nat; [discriminate|].
  destruct (4 * nadp <? 5 * Z.of_nat (length js))%Z; [|injection E as <-; eexists; split; [reflexivity|now left]].
  apply bind_ok in E as (ab & El & E). injection E as <-.
  set (pts := map (fun j => (nth (Z.to_nat j) rng 0, nth (Z.to_nat j) dl 0)) js).
  assert (E1 : map (fun j => (at_ (map Fin rng) (Z.to_nat j), at_ (map Fin dl) (Z.to_nat j))) js = map pt pts).
  { unfold pts. rewrite map_map. apply map_ext_in. intros j Hj. apply Jn in Hj. rewrite !at_fin by lia. reflexivity. }
  assert (E2 : map (fun j => (at_ (map Fin (map g rng)) (Z.to_nat j), at_ (mf dl) (Z.to_nat j))) js = map pt (map T pts)).
  { unfold pts. rewrite (map_map T pt), (map_map _ (fun x => pt (T x))). apply map_ext_in. intros j Hj. apply Jn in Hj.
    rewrite at_fin, at_mf by (rewrite ?map_length; lia). rewrite (map_at g rng 0) by lia. reflexivity. }
  rewrite E1 in El. rewrite E2.
  apply LSE_T in El as (A & B & A' & B' & -> & El & EA & _).
  - rewrite El. cbn [bind fst snd]. eexists. split; [reflexivity|]. right.
    exists (/ 2 * A). rewrite !f32_xr, lit_fin, !fmul_fin. cbn [Qnum Qden]. split; f_equal; [field|]. rewrite EA. field. auto.
  - intros p Hp. unfold pts in Hp. apply in_map_iff in Hp as (j & <- & Hj). cbn [fst]. apply Rb. auto.
Qed.
End Affine.
