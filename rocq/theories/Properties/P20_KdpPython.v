(** * C79 - C82: the pure Python KDP estimator, and how it differs from the
    compiled one *)
From Coq Require Import Reals Lra Lia Arith.
From Verif Require Import Base.Num Base.ListFacts Base.XReal Base.XTac Base.Pointwise Base.XArith Base.QOps.
From Verif Require Import Model.Tables Model.Beta Model.Melt Model.Kdp Model.KdpPy Spec.KdpSpec.
From Verif Require Import Proofs.HidProofs Proofs.SummerProofs Proofs.MeltProofs Proofs.KdpReal Proofs.KdpProofs Proofs.KdpFilter
  Proofs.KdpPyProofs Proofs.KdpPyReal.
From Verif Require Import Properties.P14_Kdp Properties.P15_KdpFilter.
Open Scope R_scope.

Section LawFree.
Context {F : Type} {fo : FloatOps F}.
Variable lstsq : list (F * F) -> res (F * F).
Variable toi16 : F -> Z.

(** ** C79 *)
(** three rays of the length of the range ray; without filter passes the phase
    comes back as it is *)
Theorem C79_python_shape dp dz rng th nf bad f kd dl sd :
  calc_kdp_ray lstsq toi16 dp dz rng th nf bad f = Ok (kd, dl, sd) ->
  length kd = length rng /\ length dl = length rng /\ length sd = length rng /\ (nf = 0%nat -> dl = dp).
Proof.
  intro E. apply py_ok in E as (f' & -> & E). cbv zeta in E. destruct E as (L1 & L2 & L3 & -> & (y & Ef) & Lk & _).
  assert (Ld : length dl = length rng).
  { destruct (passes_inv lstsq (fun _ _ => True) f' bad rng (thr_ray th (length rng)) (map (py_sd bad dp) (seq 0 (length rng))) nf
      dp (repeat bad (length rng)) (dl, y)) as (_ & K & _); auto. now rewrite repeat_length. }
  rewrite map_length, seq_length. repeat split; auto. intros ->. cbn in Ef. congruence.
Qed.

(** after a pass, phase and KDP are missing wherever the measured phase is
    missing and near both ends of the ray; KDP is missing wherever the filtered
    phase is *)
Theorem C79_python_missing dp dz rng th nf bad f kd dl sd i :
  calc_kdp_ray lstsq toi16 dp dz rng th nf bad (Some f) = Ok (kd, dl, sd) ->
  feq bad bad = true -> (1 <= nf)%nat -> (i < length rng)%nat ->
  feq (at_ dp i) bad = true \/ (i < f_order f / 2)%nat \/ (length rng <= i + f_order f / 2 + 1)%nat ->
  nth_error dl i = Some bad /\ nth_error kd i = Some bad.
Proof.
  intros E Hb Hn Hi Hc. pose proof (C79_python_shape _ _ _ _ _ _ _ _ _ _ E) as (Lk & Ld & _ & _).
  apply py_ok in E as (f' & Ef' & E). assert (f' = f) as -> by congruence. cbv zeta in E.
  destruct E as (L1 & L2 & L3 & _ & (y & Ef) & _ & Gk).
  assert (Rb : at_ (repeat bad (length rng)) i = bad).
  { unfold at_. rewrite (nth_indep _ _ bad) by now rewrite repeat_length. apply nth_repeat. }
  assert (A : at_ dl i = bad).
  { destruct Hc as [Hm|He].
    - apply passes_first in Ef as ((z1, y1) & E1 & Ef); auto.
      apply py_pass_ok in E1; [|rewrite repeat_length; auto]. cbv zeta in E1. cbn [fst snd] in E1.
      destruct E1 as (-> & L & G). specialize (G i ltac:(lia)). rewrite on_mask, Hm, andb_false_r in G by lia.
      apply (stays_bad lstsq f bad rng (thr_ray th (length rng)) sd (nf - 1) y1 (dl, y) i); auto; try lia. congruence.
    - apply (edge_bad lstsq f bad rng (thr_ray th (length rng)) sd nf dp (repeat bad (length rng)) (dl, y) i); auto.
      now rewrite repeat_length. }
  split.
  - rewrite (nth_error_nth' _ fnan) by lia. f_equal. exact A.
  - rewrite (nth_error_nth' _ fnan) by lia. f_equal. fold (at_ kd i). specialize (Gk i Hi). unfold py_kd in Gk. rewrite A, Hb in Gk. cbn [negb] in Gk. congruence.
Qed.
Theorem C79_python_kdp_needs_phase dp dz rng th nf bad f kd dl sd i :
  calc_kdp_ray lstsq toi16 dp dz rng th nf bad f = Ok (kd, dl, sd) -> (i < length rng)%nat ->
  feq (at_ dl i) bad = true -> nth_error kd i = Some bad.
Proof.
  intros E Hi Hm. pose proof (C79_python_shape _ _ _ _ _ _ _ _ _ _ E) as (Lk & _).
  apply py_ok in E as (f' & -> & E). cbv zeta in E. destruct E as (_ & _ & _ & _ & _ & _ & Gk). specialize (Gk i Hi).
  unfold py_kd in Gk. rewrite Hm in Gk. cbn [negb] in Gk. rewrite (nth_error_nth' _ fnan) by lia. unfold at_ in Gk. congruence.
Qed.

(** One pass.  A gate counts if its phase is there and no noisier than the
    threshold.  A counting gate whose window lies in the ray (and does not touch
    the last gate) with more than 80% of the order counting gets gain times the
    weighted sum of its window, in which the gates that do not count are taken
    from the line fitted to those that do; every other gate is missing.  The
    window always holds the measured phases: what was filled in for other gates
    has no effect. *)
Theorem C79_python_one_pass dp dz rng th bad f kd dl sd i :
  calc_kdp_ray lstsq toi16 dp dz rng th 1 bad (Some f) = Ok (kd, dl, sd) -> (i < length rng)%nat ->
  let half := (f_order f / 2)%nat in
  let thsd := match th with PNum x => repeat x (length rng) | PRay l => l end in
  let counts j := (fle (at_ sd j) (at_ thsd j) && negb (feq (at_ dp j) bad))%bool in
  let W := seq (i - half) (2 * half + 1) in
  let V := filter counts W in
  let filtered := counts i = true /\ (half <= i)%nat /\ (i + half + 1 < length rng)%nat /\ (4 * f_order f < 5 * length V)%nat in
  (filtered -> length (f_coef f) = (2 * half + 1)%nat /\
     exists a b, ((length V < f_order f + 1)%nat -> lstsq (map (fun j => (at_ rng j, at_ dp j)) V) = Ok (a, b)) /\
     nth_error dl i = Some (fmul (f_gain f) (np_dot (f_coef f)
       (map (fun j => if counts j then at_ dp j else fadd (fmul a (at_ rng j)) b) W)))) /\
  (~ filtered -> nth_error dl i = Some bad).
Proof.
  intros E Hi half thsd counts W V filtered. pose proof (C79_python_shape _ _ _ _ _ _ _ _ _ _ E) as (_ & Ld & _ & _).
  apply py_ok in E as (f' & Ef' & E). assert (f' = f) as -> by congruence. cbv zeta in E.
  destruct E as (L1 & L2 & L3 & _ & (y & Ef) & _ & _). fold thsd in Ef. 
  assert (Et : thr_ray th (length rng) = thsd) by reflexivity. rewrite Et in *.
  cbn [seq forM] in Ef. apply bind_ok in Ef as (st & Ef & E2). assert (st = (dl, y)) as -> by congruence.
  apply py_pass_ok in Ef; [|rewrite repeat_length; auto]. cbv zeta in Ef. cbn [fst snd] in Ef. destruct Ef as (_ & _ & G).
  specialize (G i ltac:(lia)).
  assert (Rb : at_ (repeat bad (length rng)) i = bad).
  { unfold at_. rewrite (nth_indep _ _ bad) by now rewrite repeat_length. apply nth_repeat. }
  rewrite Rb in G. rewrite (nth_error_nth' dl fnan) by lia. fold (at_ dl i).
  assert (C : forall j, (j < length rng)%nat -> on (py_mask bad sd thsd dp) j = counts j) by (intros j Hj; apply on_mask; lia).
  rewrite C in G by auto. unfold filtered.
  destruct (counts i) eqn:Ci.
  2:{ split; [intros (? & _); discriminate|]. intros _. congruence. }
  destruct G as (o & Eo & G). unfold gate_value in Eo. cbv zeta in Eo. fold half in Eo.
  destruct (Nat.leb_spec half i) as [H1|H1]; cbn [andb] in Eo.
  2:{ split; [intros (_ & ? & _); lia|]. intros _. assert (o = None) as -> by congruence. congruence. }
  destruct (Nat.ltb_spec (i + half) (length dp - 1)) as [H2|H2].
  2:{ split; [intros (_ & _ & ? & _); lia|]. intros _. assert (o = None) as -> by congruence. congruence. }
  assert (EV : filter (on (py_mask bad sd thsd dp)) (seq (i - half) (2 * half + 1)) = V).
  { apply filter_ext_in'. intros j Hj. apply in_seq in Hj. apply C. lia. }
  rewrite EV in Eo. destruct (Nat.ltb_spec (4 * f_order f) (5 * length V)) as [H3|H3].
  2:{ split; [intros (_ & _ & _ & ?); lia|]. intros _. assert (o = None) as -> by congruence. congruence. }
  split; [|intro N; exfalso; apply N; repeat split; auto; lia]. intros _.
  apply bind_ok in Eo as ((a, b) & Eab & Eo). destruct (Nat.eqb_spec (length (f_coef f)) (2 * half + 1)) as [Lc|]; [|discriminate].
  split; auto. exists a, b. split.
  - intro Hl. destruct (Nat.ltb_spec (length V) (f_order f + 1)); [auto|lia].
  - f_equal. rewrite G. assert (o = Some (fmul (f_gain f) (np_dot (f_coef f) (window_with_fit rng (py_mask bad sd thsd dp) dp (a, b) (i - half) (2 * half + 1))))) as -> by congruence.
    f_equal. f_equal. unfold window_with_fit. apply map_ext_in. intros j Hj. apply in_seq in Hj. rewrite C by lia. reflexivity.
Qed.

(** ** C82 *)
(** filtered phase and KDP of a gate depend on nothing farther away than the
    windows reach: half a filter window per pass and five gates for the standard
    deviation, and the adaptive window for KDP *)
Theorem C82_python_phase_local dp dz rng th dp' dz' rng' th' nf bad f kd dl sd kd' dl' sd' i :
  calc_kdp_ray lstsq toi16 dp dz rng th nf bad (Some f) = Ok (kd, dl, sd) ->
  calc_kdp_ray lstsq toi16 dp' dz' rng' th' nf bad (Some f) = Ok (kd', dl', sd') ->
  length rng' = length rng -> (i < length rng)%nat ->
  let n := length rng in
  let reach := (nf * (f_order f / 2))%nat in
  (forall j, (i <= j + reach + 5)%nat -> (j <= i + reach + 5)%nat -> at_ dp j = at_ dp' j) ->
  (forall j, (i <= j + reach)%nat -> (j <= i + reach)%nat ->
     at_ rng j = at_ rng' j /\ at_ (thr_ray th n) j = at_ (thr_ray th' n) j) ->
  nth_error dl i = nth_error dl' i.
Proof.
  intros E E' Ln Hi n reach Sd St. pose proof (C79_python_shape _ _ _ _ _ _ _ _ _ _ E) as (_ & Ld & _ & _).
  pose proof (C79_python_shape _ _ _ _ _ _ _ _ _ _ E') as (_ & Ld' & _ & _).
  apply py_ok in E as (f1 & Ef1 & E). assert (f1 = f) as -> by congruence. cbv zeta in E.
  apply py_ok in E' as (f2 & Ef2 & E'). assert (f2 = f) as -> by congruence. cbv zeta in E'.
  destruct E as (L1 & L2 & L3 & Es & (y & Ef) & _ & _). destruct E' as (L1' & L2' & L3' & Es' & (y' & Ef') & _ & _). rewrite Ln in L1', Ef', Es', Ld'. fold n in L1, L1', Ef, Ef', Es, Es', Ld, Ld', Hi.
  rewrite !(nth_error_nth' _ fnan) by lia. f_equal. fold (at_ dl i) (at_ dl' i).
  apply (passes_local lstsq f bad rng rng' (thr_ray th n) (thr_ray th' n) sd sd' n i i nf dp dp' (repeat bad n) (repeat bad n) (dl, y) (dl', y') 0);
    rewrite ?repeat_length; auto; try lia; fold reach; intros j J1 J2; cbn [Nat.add] in *.
  - apply Sd; lia.
  - reflexivity.
  - apply St; lia.
  - destruct (lt_dec j n) as [Hj|Hj].
    + rewrite Es, Es', !at_map_seq by auto. apply (py_sd_local bad dp dp' (i - reach) (i + reach)); try lia.
      intros q Q1 Q2. destruct (le_lt_dec i (q + reach + 5)); apply Sd; lia.
    + unfold at_. rewrite Es, Es'. rewrite !nth_overflow; auto; rewrite map_length, seq_length; lia.
  - apply St; lia.
Qed.

Theorem C82_python_kdp_local dp dz rng th dp' dz' rng' th' nf bad f kd dl sd kd' dl' sd' i :
  calc_kdp_ray lstsq toi16 dp dz rng th nf bad (Some f) = Ok (kd, dl, sd) ->
  calc_kdp_ray lstsq toi16 dp' dz' rng' th' nf bad (Some f) = Ok (kd', dl', sd') ->
  length rng' = length rng -> (i < length rng)%nat ->
  let n := length rng in
  let half := (f_order f / 2)%nat in
  let reach := (2 * half + nf * half)%nat in
  at_ dz i = at_ dz' i ->
  (* the int16 conversion of half a filter window, should the reflectivity select it *)
  (toi16 (fadd (fmul (flit 0) (at_ dz i)) (of_nat half)) <= 3 * Z.of_nat half)%Z ->
  (forall j, (i <= j + reach + 5)%nat -> (j <= i + reach + 5)%nat -> at_ dp j = at_ dp' j) ->
  (forall j, (i <= j + reach)%nat -> (j <= i + reach)%nat ->
     at_ rng j = at_ rng' j /\ at_ (thr_ray th n) j = at_ (thr_ray th' n) j) ->
  nth_error kd i = nth_error kd' i.
Proof.
  intros E E' Ln Hi n half reach Ez Hw Sd St.
  pose proof (C79_python_shape _ _ _ _ _ _ _ _ _ _ E) as (Lk & Ld & _ & _).
  pose proof (C79_python_shape _ _ _ _ _ _ _ _ _ _ E') as (Lk' & Ld' & _ & _).
  assert (P : same dl dl' i i (2 * half)).
  { intros j J1 J2. destruct (lt_dec j n) as [Hj|Hj].
    - assert (X : nth_error dl j = nth_error dl' j).
      { apply (C82_python_phase_local _ _ _ _ _ _ _ _ _ _ _ _ _ _ _ _ _ _ E E'); auto; fold half; fold n; intros q Q1 Q2.
        - apply Sd; unfold reach; lia.
        - apply St; unfold reach; lia. }
      rewrite !(nth_error_nth' _ fnan) in X by lia. unfold at_. congruence.
    - unfold at_. rewrite !nth_overflow; auto; lia. }
  apply py_ok in E as (f1 & Ef1 & E). assert (f1 = f) as -> by congruence. cbv zeta in E.
  apply py_ok in E' as (f2 & Ef2 & E'). assert (f2 = f) as -> by congruence. cbv zeta in E'.
  destruct E as (_ & _ & _ & _ & _ & _ & G). destruct E' as (_ & _ & _ & _ & _ & _ & G').
  specialize (G i Hi). specialize (G' i ltac:(lia)). fold half in G, G'. rewrite <- Ez in G'.
  rewrite (py_kd_local lstsq bad rng rng' dl dl' (py_nadp toi16 half (at_ dz i)) i i i (2 * half)) in G; auto; try lia.
  - rewrite !(nth_error_nth' _ fnan) by lia. f_equal. unfold at_ in G, G'. congruence.
  - intros j J1 J2. apply St; unfold reach; lia.
  - unfold py_nadp. cbv zeta. destruct (_ && _)%bool, (flt (at_ dz i) (flit 35)); lia.
Qed.
End LawFree.

(** ** The standard deviation *)
(** population standard deviation of the phases present among the ten gates
    i-5 .. i+4, if there are more than five; 100 where the phase is missing, in
    the first five and the last six gates *)
Definition py_sd_spec (b : R) (dp : list R) (i : nat) : R :=
  if (differs b (nth i dp 0%R) && (5 <=? i) && (i + 6 <? length dp))%nat%bool then
    let v := filter (differs b) (slice dp (i - 5) 10) in
    if (5 <? length v)%nat then popstd v else 100
  else 100.
Lemma feq_differs x b : negb (feq (Fin x) (Fin b)) = differs b x.
Proof. rewrite feq_fin. unfold differs, Reqb. now destruct Req_EM_T. Qed.
Lemma py_sd_fin b dp i : (i < length dp)%nat -> py_sd (Fin b) (map Fin dp) i = Fin (py_sd_spec b dp i).
Proof.
  intro Hi. unfold py_sd, py_sd_spec. rewrite map_length.
  assert (A : forall j, (j < length dp)%nat -> at_ (map Fin dp) j = Fin (nth j dp 0)) by (intros; unfold at_; now rewrite (map_at Fin dp 0)).
  rewrite A, feq_differs by auto.
  assert (L100 : @flit xr _ 100 = Fin 100) by apply lit_int. rewrite L100.
  destruct (differs b (nth i dp 0)); [|reflexivity]. destruct (Nat.leb_spec 5 i); [|reflexivity]. cbn [andb].
  destruct (Nat.ltb_spec (i + 5) (length dp - 1)), (Nat.ltb_spec (i + 6) (length dp)); try lia; [|reflexivity].
  assert (E : filter (fun x => negb (feq x (Fin b))) (gates (map Fin dp) (i - 5) 10) = map Fin (filter (differs b) (slice dp (i - 5) 10))).
  { unfold gates. rewrite (slice_nth dp 0) by lia.
    rewrite (map_ext_in _ (fun j => Fin (nth j dp 0))) by (intros j Hj; apply in_seq in Hj; apply A; lia).
    induction (seq (i - 5) 10) as [|j l IH]; [reflexivity|]. cbn [map filter]. rewrite feq_differs, IH. destruct (differs b (nth j dp 0)); reflexivity. }
  rewrite E, map_length. destruct (Nat.ltb_spec 5 (length (filter (differs b) (slice dp (i - 5) 10)))); [|reflexivity].
  apply quick_std_fin. intro N. rewrite N in *. simpl in *. lia.
Qed.
Theorem C79_python_std lstsq toi16 (dp : list R) dz rng th nf (b : R) f kd dl sd :
  calc_kdp_ray lstsq toi16 (map Fin dp) dz rng th nf (Fin b) f = Ok (kd, dl, sd) ->
  sd = map (fun i => Fin (py_sd_spec b dp i)) (seq 0 (length dp)).
Proof.
  intro E. apply py_ok in E as (f' & -> & E). cbv zeta in E. destruct E as (L1 & _ & _ & -> & _). rewrite map_length in L1.
  rewrite <- L1. apply map_ext_in. intros i Hi. apply in_seq in Hi. apply py_sd_fin. lia.
Qed.

(** ** C80 *)
(** Phase 2 K r + c at equally spaced gates, any of them missing: whatever the
    number of passes and the thresholds, every filtered phase is missing or on
    the line, and every KDP is missing or K *)
Theorem C80_python_line_with_gaps fit toi16 h (cs : list R) (b K c r0 d : R) n (dp dz : list R) th nf :
  fits_lines fit -> length cs = (2 * h + 1)%nat -> smoothing cs -> (2 <= h)%nat -> d <> 0 ->
  toi16 (Fin (INR h)) = Z.of_nat h ->
  length dp = n -> length dz = n -> length (thr_ray th n) = n ->
  let phase j := 2 * K * gate_range r0 d j + c in
  (forall j, (j < n)%nat -> nth j dp 0 = b \/ nth j dp 0 = phase j) ->
  exists kd dl sd,
    calc_kdp_ray (lstsq_of fit) toi16 (map Fin dp) (map Fin dz) (map Fin (map (gate_range r0 d) (seq 0 n))) th nf (Fin b)
      (Some (mkfir (2 * h) (Fin 1) (map Fin cs))) = Ok (kd, dl, sd) /\
    (forall i, (i < n)%nat -> nth_error dl i = Some (Fin b) \/ nth_error dl i = Some (Fin (phase i))) /\
    (forall i, (i < n)%nat -> nth_error kd i = Some (Fin b) \/ nth_error kd i = Some (Fin K)) /\
    (* KDP is there where the adaptive window lies in the ray and is complete *)
    (forall i, (i < n)%nat -> let w := adaptive h (nth i dz 0) in
       (w + 1 <= 2 * i)%nat -> (i + w / 2 + 1 <= n)%nat ->
       (forall j, (2 * i <= 2 * j + w + 1)%nat -> (2 * j <= 2 * i + w)%nat -> nth_error dl j <> Some (Fin b)) ->
       nth_error kd i = Some (Fin K)).
Proof.
  intros Hf Lc Sm Hh Hd Ht Ln Lz Lt phase Hp.
  set (rr := map (gate_range r0 d) (seq 0 n)).
  assert (Lr : length rr = n) by (unfold rr; now rewrite map_length, seq_length).
  assert (O0 : on_line b n r0 d (2 * K) c (map Fin dp)).
  { split; [now rewrite map_length|]. intros j Hj. unfold at_. rewrite (map_at Fin dp 0) by lia.
    destruct (Hp j Hj) as [->| ->]; auto. }
  assert (Ob : on_line b n r0 d (2 * K) c (repeat (Fin b) n)).
  { split; [apply repeat_length|]. intros j Hj. left. unfold at_. rewrite (nth_indep _ _ (Fin b)) by now rewrite repeat_length. apply nth_repeat. }
  set (sd := map (py_sd (Fin b) (map Fin dp)) (seq 0 n)).
  destruct (passes_line fit b n r0 d (2 * K) c Hf Hd h cs Lc Sm sd (thr_ray th n) nf _ _ O0 Ob) as (dl & y & Ef & Od).
  assert (W : forall i, (i < n)%nat -> py_nadp toi16 h (at_ (map Fin dz) i) = Z.of_nat (adaptive h (nth i dz 0))).
  { intros i Hi. unfold at_. rewrite (map_at Fin dz 0) by lia. unfold py_nadp, adaptive. cbv zeta.
    rewrite of_nat_xr, !lit_int, fmul_fin, fadd_fin, !fle_fin, !flt_fin.
    replace (0 * nth i dz 0 + INR h) with (INR h) by ring. rewrite Ht.
    destruct (Rleb_spec 35 (nth i dz 0)), (Rltb_spec (nth i dz 0) 45), (Rltb_spec (nth i dz 0) 35),
      (Rlt_dec (nth i dz 0) 35), (Rlt_dec (nth i dz 0) 45); cbn [andb]; lra || lia. }
  assert (W2 : forall x, (2 <= adaptive h x)%nat) by (intro x; unfold adaptive; repeat destruct Rlt_dec; lia).
  destruct (mapM_total (fun i => py_kd (lstsq_of fit) (Fin b) (map Fin rr) dl (py_nadp toi16 h (at_ (map Fin dz) i)) i) (seq 0 n)) as (kd & Ek).
  { intros i Hi. apply in_seq in Hi. rewrite W by lia.
    destruct (kd_line fit b n r0 d (2 * K) c Hf Hd h cs Lc dl (Z.of_nat (adaptive h (nth i dz 0))) i) as (v & Ev & _); auto; [|lia|eauto].
    specialize (W2 (nth i dz 0)). lia. }
  exists kd, dl, sd. pose proof Od as (Ld & Gd).
  assert (E : calc_kdp_ray (lstsq_of fit) toi16 (map Fin dp) (map Fin dz) (map Fin rr) th nf (Fin b) (Some (mkfir (2 * h) (Fin 1) (map Fin cs))) = Ok (kd, dl, sd)).
  { unfold calc_kdp_ray. cbv zeta. cbn [f_order].
    assert (Et : match th with PNum x => map (fun _ => x) (map Fin rr) | PRay l => l end = thr_ray th n).
    { destruct th; auto. rewrite map_const, map_length, Lr. reflexivity. }
    rewrite Et, !map_length, Lr, Ln, Lz, Lt, !Nat.eqb_refl. cbn [negb andb]. rewrite map_const, map_length, Lr.
    fold sd. unfold the_fir, rngl in Ef. fold rr in Ef. rewrite Ef. cbn [bind fst]. rewrite half_order, Ek. reflexivity. }
  split; [exact E|]. apply mapM_ok in Ek as (Lk & Gk). rewrite seq_length in Lk.
  assert (V : forall i, (i < n)%nat -> exists v, nth_error kd i = Some v /\ (v = Fin K \/ v = Fin b) /\
    (let '(i1, i2) := py_indices (Z.of_nat (adaptive h (nth i dz 0))) i in (0 <= i1)%Z -> (i2 <= Z.of_nat n)%Z ->
     (forall j, (i1 <= j < i2)%Z -> at_ dl (Z.to_nat j) <> Fin b) -> v = Fin K)).
  { intros i Hi. destruct (Gk i i) as (v & Hv & Ev); [now apply seq_nth_error|]. rewrite W in Ev by auto.
    destruct (kd_line fit b n r0 d (2 * K) c Hf Hd h cs Lc dl (Z.of_nat (adaptive h (nth i dz 0))) i) as (v' & Ev' & A & B); auto.
    { specialize (W2 (nth i dz 0)). lia. }
    assert (v' = v) as -> by (unfold rngl in Ev'; fold rr in Ev'; congruence). exists v. split; auto.
    replace (2 * K / 2) with K in A, B by field. auto. }
  split; [|split].
  - intros i Hi. rewrite (nth_error_nth' dl fnan) by lia. fold (at_ dl i). destruct (Gd i Hi) as [->| ->]; auto.
  - intros i Hi. destruct (V i Hi) as (v & -> & [->| ->] & _); auto.
  - intros i Hi w H1 H2 H3. destruct (V i Hi) as (v & -> & _ & B). f_equal. fold w in B.
    unfold py_indices in B. cbv zeta in B.
    assert (Q1 : Z.quot (2 * Z.of_nat i - Z.of_nat w) 2 = (Z.of_nat i - Z.of_nat ((w + 1) / 2))%Z).
    { rewrite Z.quot_div_nonneg by lia. rewrite Nat2Z.inj_div, Nat2Z.inj_add. cbn [Z.of_nat Pos.of_succ_nat Pos.succ].
      Z.div_mod_to_equations. lia. }
    assert (Q2 : Z.quot (2 * Z.of_nat i + Z.of_nat w + 2) 2 = (Z.of_nat i + Z.of_nat (w / 2) + 1)%Z).
    { rewrite Z.quot_div_nonneg by lia. rewrite Nat2Z.inj_div. cbn [Z.of_nat Pos.of_succ_nat Pos.succ]. Z.div_mod_to_equations. lia. }
    rewrite Q1, Q2 in B. pose proof (Nat.mul_div_le (w + 1) 2). pose proof (Nat.mul_div_le w 2).
    apply B; try lia. intros j Hj E1.
    apply (H3 (Z.to_nat j)); try lia. rewrite (nth_error_nth' dl fnan) by lia. f_equal. exact E1.
Qed.

(** one pass: exactly the counting gates with a full enough window are kept *)
Theorem C80_python_one_pass_gates fit toi16 h (cs : list R) (b K c r0 d : R) n (dp dz th : list R) kd dl sd :
  fits_lines fit -> length cs = (2 * h + 1)%nat -> smoothing cs -> d <> 0 -> length th = n ->
  let phase j := 2 * K * gate_range r0 d j + c in
  (forall j, (j < n)%nat -> nth j dp 0 = b \/ nth j dp 0 = phase j) ->
  calc_kdp_ray (lstsq_of fit) toi16 (map Fin dp) (map Fin dz) (map Fin (map (gate_range r0 d) (seq 0 n))) (PRay (map Fin th)) 1 (Fin b)
      (Some (mkfir (2 * h) (Fin 1) (map Fin cs))) = Ok (kd, dl, sd) ->
  let counts j := (Rleb (py_sd_spec b dp j) (nth j th 0) && differs b (nth j dp 0))%bool in
  forall i, (i < n)%nat -> nth_error dl i = Some (Fin (
    if (counts i && (h <=? i) && (i + h + 1 <? n) && (8 * h <? 5 * length (filter counts (seq (i - h) (2 * h + 1)))))%nat%bool
    then phase i else b)).
Proof.
  intros Hf Lc Sm Hd Lt phase Hp E counts i Hi.
  pose proof (C79_python_shape _ _ _ _ _ _ _ _ _ _ _ _ E) as (_ & Ld & _ & _).
  pose proof (C79_python_std _ _ _ _ _ _ _ _ _ _ _ _ E) as Es.
  apply py_ok in E as (f' & Ef' & E). assert (f' = mkfir (2 * h) (Fin 1) (map Fin cs)) as -> by congruence. cbv zeta in E.
  assert (Lr : length (map Fin (map (gate_range r0 d) (seq 0 n))) = n) by now rewrite !map_length, seq_length.
  rewrite Lr in *. destruct E as (L1 & L2 & L3 & _ & (y & Ef) & _ & _). rewrite map_length in L1. cbn [thr_ray] in *.
  cbn [seq forM] in Ef. apply bind_ok in Ef as (st & Ef & E2). assert (st = (dl, y)) as -> by congruence.
  assert (O0 : on_line b n r0 d (2 * K) c (map Fin dp)).
  { split; [now rewrite map_length|]. intros j Hj. unfold at_. rewrite (map_at Fin dp 0) by lia.
    destruct (Hp j Hj) as [->| ->]; auto. }
  assert (Rb : forall j, (j < n)%nat -> at_ (repeat (Fin b) n) j = Fin b).
  { intros j Hj. unfold at_. rewrite (nth_indep _ _ (Fin b)) by now rewrite repeat_length. apply nth_repeat. }
  assert (Ob : on_line b n r0 d (2 * K) c (repeat (Fin b) n)).
  { split; [apply repeat_length|]. intros j Hj. left. auto. }
  destruct (pass_line fit b n r0 d (2 * K) c Hf Hd h cs Lc Sm sd (map Fin th) _ _ O0 Ob) as (y' & Ey & _ & G).
  unfold the_fir, rngl in Ey. rewrite Ey in Ef. assert (dl = y') as -> by congruence.
  rewrite (nth_error_nth' y' fnan) by lia. fold (at_ y' i). rewrite G by auto. cbv zeta. rewrite Rb by auto. f_equal.
  assert (C : forall j, (j < n)%nat -> on (py_mask (Fin b) sd (map Fin th) (map Fin dp)) j = counts j).
  { intros j Hj. rewrite on_mask by (rewrite map_length; lia). unfold counts. unfold at_. rewrite Es.
    rewrite (map_at _ (seq 0 (length dp)) 0%nat) by (rewrite seq_length; lia). rewrite seq_nth by lia. cbn [Nat.add].
    rewrite (map_at Fin th 0), (map_at Fin dp 0) by lia. rewrite feq_differs, fle_fin. reflexivity. }
  rewrite C by auto. destruct (counts i); [|reflexivity]. cbn [andb].
  destruct (Nat.leb_spec h i); [|reflexivity]. cbn [andb].
  destruct (Nat.ltb_spec (i + h + 1) n); [|reflexivity]. cbn [andb].
  rewrite (filter_ext_in' _ counts) by (intros j Hj; apply in_seq in Hj; apply C; lia).
  replace (4 * (2 * h))%nat with (8 * h)%nat by lia. destruct (_ <? _)%nat; reflexivity.
Qed.

(** ** C81 *)
(** the same complete straight-line ray through both routines, Cython build: the
    two KDPs differ by the factor 1 - first coefficient + the number in memory
    behind the last *)
Theorem C81_kdp_ratio fit toi16 h (cs : list R) (m : nat -> R) nadp0 (b K c r0 d : R) n (dz : list R) (th : list R) sg kd dl sd kd' dl' (sd' : list R) i v v' :
  let r := map (gate_range r0 d) (seq 0 n) in
  let dp := map (fun j => 2 * K * gate_range r0 d j + c) (seq 0 n) in
  fits_lines fit -> length cs = (2 * h + 1)%nat -> smoothing cs -> (2 <= h)%nat -> d <> 0 ->
  toi16 (Fin (INR h)) = Z.of_nat h -> length dz = n -> length th = n -> ~ In b dp -> ~ In b r ->
  calc_kdp_ray (lstsq_of fit) toi16 (map Fin dp) (map Fin dz) (map Fin r) (PRay (map Fin th)) 1 (Fin b)
    (Some (mkfir (2 * h) (Fin 1) (map Fin cs))) = Ok (kd, dl, sd) ->
  calc_kdp_ray_fir (mkpar Cython (2 * h) (Fin 1) (map Fin cs) (fun k => Fin (m k)) (Fin b)) nadp0
    (map Fin dp) (map Fin dz) (map Fin r) (map Fin th) 1 sg = Ok (kd', dl', map Fin sd') ->
  (i < n)%nat -> nth_error kd i = Some (Fin v) -> nth_error kd' i = Some (Fin v') -> v <> b -> v' <> b ->
  v' = v * (1 - nth 0 cs 0 + m (2 * h + 1)%nat).
Proof.
  intros r dp Hf Lc Sm Hh Hd Ht Lz Lt Nb Nr E E' Hi Ev Ev' Hv Hv'.
  destruct (C80_python_line_with_gaps fit toi16 h cs b K c r0 d n dp dz (PRay (map Fin th)) 1) as (kd1 & dl1 & sd1 & E1 & _ & A & _); auto.
  - unfold dp. now rewrite map_length, seq_length.
  - cbn [thr_ray]. now rewrite map_length.
  - intros j Hj. right. unfold dp. rewrite (map_at (fun j => 2 * K * gate_range r0 d j + c) (seq 0 n) 0%nat) by now rewrite seq_length. now rewrite seq_nth.
  - fold r in E1. rewrite E1 in E. assert (kd1 = kd) as -> by congruence.
    destruct (C51_cython_biased h b K c r0 d cs m nadp0 n dz th sg kd' dl' sd') with (i := i) as [X|X]; auto; [|congruence].
    destruct (A i Hi) as [Y|Y]; [congruence|].
    rewrite Ev in Y. rewrite Ev' in X. congruence.
Qed.

Lemma popstd_const v k : popstd (repeat v (S k)) = 0.
Proof.
  assert (A : avg (repeat v (S k)) = v).
  { unfold avg. rewrite repeat_length. assert (E : rsum (repeat v (S k)) = INR (S k) * v).
    { induction (S k) as [|q IH]; [simpl; ring|]. cbn [repeat rsum]. rewrite IH, S_INR. ring. }
    rewrite E. field. apply not_0_INR. discriminate. }
  unfold popstd. rewrite A.
  rewrite (map_ext_in _ (fun _ => 0)); [|intros x Hx; apply repeat_spec in Hx; subst; ring].
  rewrite map_const. unfold avg. assert (E : forall q, rsum (repeat 0 q) = 0) by (induction q; simpl; lra).
  rewrite E. unfold Rdiv. rewrite Rmult_0_l. apply sqrt_0.
Qed.
Lemma popstd_pos l x y : In x l -> In y l -> x <> y -> 0 < popstd l.
Proof.
  intros Hx Hy N. assert (Ln : 0 < INR (length l)) by (apply lt_0_INR; destruct l; [destruct Hx|simpl; lia]).
  assert (S : exists z, In z l /\ z <> avg l).
  { destruct (Req_dec x (avg l)); [exists y|exists x]; split; auto. congruence. }
  destruct S as (z & Hz & Nz). unfold popstd. apply sqrt_lt_R0. unfold avg at 1. rewrite map_length.
  apply Rmult_lt_0_compat; [|now apply Rinv_0_lt_compat].
  assert (P : 0 <= rsum (map (fun x => (x - avg l) ^ 2) l)) by apply avg_dev_nonneg.
  destruct P as [P|P]; auto. exfalso. apply Nz.
  assert (Z : (z - avg l) ^ 2 = 0).
  { apply (rsum_zero (map (fun x => (x - avg l) ^ 2) l)); auto.
    - intros q Hq. apply in_map_iff in Hq as (p & <- & _). apply pow2_ge_0.
    - apply (in_map (fun x => (x - avg l) ^ 2)); auto. }
  assert (z - avg l = 0) by nra. lra.
Qed.

(** the standard deviation windows differ by one gate: a jump of the phase at
    gate i + 5 counts at gate i in the compiled routine and not in Python *)
Theorem C81_std_window lstsq toi16 dz rng th nf f kd dl sd (b : R) p nadp0 dz' rng' thsd' nf' kd' dl' sd' (dp : list R) i v v' :
  calc_kdp_ray lstsq toi16 (map Fin dp) dz rng th nf (Fin b) f = Ok (kd, dl, sd) ->
  p_bad p = Fin b -> calc_kdp_ray_fir p nadp0 (map Fin dp) dz' rng' thsd' nf' 11 = Ok (kd', dl', sd') ->
  (5 <= i)%nat -> (i + 6 < length dp)%nat -> v <> b -> v' <> b -> v' <> v ->
  (forall j, (i - 5 <= j < i + 5)%nat -> nth j dp 0 = v) -> nth (i + 5) dp 0 = v' ->
  nth_error sd i = Some (Fin 0) /\ exists s, nth_error sd' i = Some (Fin s) /\ 0 < s.
Proof.
  intros E Hb E' H1 H2 Nv Nv' Ne G G'.
  assert (Hs : slice dp (i - 5) 10 = repeat v 10).
  { rewrite (slice_nth dp 0) by lia. rewrite (map_ext_in _ (fun _ => v)) by (intros j Hj; apply in_seq in Hj; apply G; lia).
    now rewrite map_const, seq_length. }
  assert (Dv : differs b v = true) by (unfold differs; destruct Req_EM_T; [contradiction|reflexivity]).
  assert (Dv' : differs b v' = true) by (unfold differs; destruct Req_EM_T; [contradiction|reflexivity]).
  split.
  - apply C79_python_std in E. rewrite E, map_nth_error', seq_nth_error by lia. simpl option_map. f_equal. f_equal.
    unfold py_sd_spec. rewrite G by lia. rewrite Dv.
    destruct (Nat.leb_spec 5 i); [|lia]. destruct (Nat.ltb_spec (i + 6) (length dp)); [|lia]. cbn [andb].
    rewrite Hs. rewrite filter_all by (intros x Hx; apply repeat_spec in Hx; now subst). rewrite repeat_length.
    change (5 <? 10)%nat with true. cbv iota. apply popstd_const.
  - change 11%Z with (2 * Z.of_nat 5 + 1)%Z in E'. apply (C47_std_is_population_std _ _ _ _ _ _ _ _ b) in E'; auto.
    rewrite E', map_nth_error', seq_nth_error by lia. simpl option_map. eexists. split; [reflexivity|].
    unfold sd_spec. destruct (Nat.leb_spec 5 i); [|lia]. destruct (Nat.ltb_spec (i + 5) (length dp)); [|lia]. cbn [andb].
    assert (Hs' : slice dp (i - 5) (2 * 5 + 1) = repeat v 10 ++ [v']).
    { rewrite <- Hs, !(slice_nth dp 0) by lia. change (2 * 5 + 1)%nat with (S 10). rewrite seq_S, map_app. cbn [map].
      replace (i - 5 + 10)%nat with (i + 5)%nat by lia. now rewrite G'. }
    rewrite Hs'. rewrite filter_all.
    + cbn [app length repeat]. change (5 <? 11)%nat with true. cbv iota. apply (popstd_pos _ v v'); simpl; auto. tauto.
    + intros x Hx. apply in_app_or in Hx as [Hx|[<-|[]]]; auto. apply repeat_spec in Hx. now subst.
Qed.

(** ** The compiled routine is not local *)
(** order 4, standard deviation window of 101 gates (so that it is 100 at every
    gate whatever the phases are), threshold 100; 30 gates, phase measured at
    the first eight only.  One measured phase, at gate 7, changes the filtered
    phase at gate 25, and the missing gates are given phases. *)
Definition far_rng : list (option Q) := map (fun j => Some (inject_Z (Z.of_nat j))) (seq 0 30).
Definition far_dz : list (option Q) := repeat (Some 50%Q) 30.
Definition far_th : list (option Q) := repeat (Some 100%Q) 30.
Definition far_dp (x : Q) : list (option Q) := qs [0; 1; 2; 3; 4; 5; 6; x]%Q ++ repeat (Some (-9)%Q) 22.
Definition far_par (bd : build) : par (option Q) :=
  mkpar bd 4 (Some 1%Q) (qs [Qmake 1 9; Qmake 2 9; Qmake 3 9; Qmake 2 9; Qmake 1 9]) (fun _ => Some 0%Q) (Some (-9)%Q).
Definition far_run (bd : build) (x : Q) := calc_kdp_ray_fir (far_par bd) 0 (far_dp x) far_dz far_rng far_th 1 101.

Definition far_out (r : res (list (option Q) * list (option Q) * list (option Q))) :=
  match r with Ok x => x | _ => ([], [], []) end.
Theorem C82_compiled_not_local bd : exists kd dl sd kd' dl' sd',
  far_run bd 7 = Ok (kd, dl, sd) /\ far_run bd 8 = Ok (kd', dl', sd') /\ sd = sd' /\
  nth_error dl 25 <> nth_error dl' 25 /\
  (nth_error (far_dp 7) 25 = Some (Some (-9)%Q) /\ nth_error dl 25 <> Some (Some (-9)%Q)).
Proof.
  assert (K : forall r : res (list (option Q) * list (option Q) * list (option Q)), (match r with Ok _ => true | _ => false end) = true ->
    r = Ok (fst (fst (far_out r)), snd (fst (far_out r)), snd (far_out r))).
  { intros [((a, b), c)| | | |] H; try discriminate. reflexivity. }
  do 6 eexists. split; [apply K; destruct bd; vm_compute; reflexivity|]. split; [apply K; destruct bd; vm_compute; reflexivity|].
  destruct bd; (split; [vm_compute; reflexivity|]); (split; [|split; [reflexivity|]]); vm_compute; discriminate.
Qed.

(** ** Rays that meet the hypotheses *)
(** a fitting routine *)
Definition fit_ex (pts : list (R * R)) : option (R * R) :=
  if Req_EM_T (ldet pts) 0 then None else Some (lslope pts, licept pts).
Lemma fit_ex_ok : fits_lines fit_ex.
Proof.
  intros pts N. unfold fit_ex. destruct Req_EM_T as [e|ne].
  - exfalso. apply N. now apply ldet_same_x.
  - exists (lslope pts), (licept pts). split; auto. now apply best_lslope.
Qed.
Definition i16_ex (x : xr) : Z := match x with Fin r => up (r - 1) | _ => 0%Z end.
Lemma i16_ex_ok h : i16_ex (Fin (INR h)) = Z.of_nat h.
Proof.
  cbn [i16_ex]. symmetry. apply tech_up; rewrite <- INR_IZR_INZ; lra.
Qed.
(** the ray of P15 with the gates 25 and 40 missing *)
Definition gap_dp : list R := map (fun j => if ((j =? 25) || (j =? 40))%nat%bool then -9 else 2 * (3 / 2) * gate_range 0 (1 / 10) j + 2) (seq 0 60).
Lemma gap_dp_nth j : (j < 60)%nat -> nth j gap_dp 0 = if ((j =? 25) || (j =? 40))%nat%bool then -9 else 2 * (3 / 2) * gate_range 0 (1 / 10) j + 2.
Proof.
  intro Hj. unfold gap_dp. rewrite (map_at (fun j => if ((j =? 25) || (j =? 40))%nat%bool then -9 else 2 * (3 / 2) * gate_range 0 (1 / 10) j + 2) (seq 0 60) 0%nat) by now rewrite seq_length.
  now rewrite seq_nth.
Qed.
Lemma gap_range x : In x gap_dp -> x <> -9 -> 0 <= x <= 100.
Proof.
  intros I N. apply in_map_iff in I as (j & <- & Hj). apply in_seq in Hj. destruct (_ || _)%bool; [contradiction|].
  pose proof (ray_range j ltac:(unfold ray_n; lia)). lra.
Qed.
Lemma gap_sd_le i : py_sd_spec (-9) gap_dp i <= 100.
Proof.
  unfold py_sd_spec. destruct (_ && _)%bool; [|lra].
  destruct (Nat.ltb_spec 5 (length (filter (differs (-9)) (slice gap_dp (i - 5) 10)))); [|lra].
  apply popstd_bound.
  - intro E. rewrite E in *. simpl in *. lia.
  - intros x Hx. apply filter_In in Hx as (Hx & Dx). apply gap_range.
    + unfold slice in Hx. rewrite <- (firstn_skipn (i - 5) gap_dp). apply in_or_app. right.
      rewrite <- (firstn_skipn 10 (skipn (i - 5) gap_dp)). apply in_or_app. left. auto.
    + unfold differs in Dx. destruct Req_EM_T; [discriminate|auto].
Qed.
Local Notation gap_run := (calc_kdp_ray (lstsq_of fit_ex) i16_ex (map Fin gap_dp) (map Fin (repeat 50 60)) (map Fin (map (gate_range 0 (1 / 10)) (seq 0 60)))
   (PRay (map Fin (repeat 100 60))) 1 (Fin (-9)) (Some (mkfir (2 * 2) (Fin 1) (map Fin ray_cs)))).
Example C79_example : exists kd dl sd, gap_run = Ok (kd, dl, sd) /\
  nth_error dl 25 = Some (Fin (-9)) /\ nth_error kd 25 = Some (Fin (-9)) /\
  nth_error dl 26 = Some (Fin (2 * (3 / 2) * gate_range 0 (1 / 10) 26 + 2)) /\
  nth_error dl 58 = Some (Fin (-9)) /\ nth_error kd 30 = Some (Fin (3 / 2)).
Proof.
  assert (Lg : length gap_dp = 60%nat) by (unfold gap_dp; now rewrite map_length, seq_length).
  assert (Sm : smoothing ray_cs) by (split; [reflexivity|]; unfold ray_cs; simpl; lra).
  assert (Hp : forall j, (j < 60)%nat -> nth j gap_dp 0 = -9 \/ nth j gap_dp 0 = 2 * (3 / 2) * gate_range 0 (1 / 10) j + 2).
  { intros j Hj. rewrite gap_dp_nth by auto. destruct (_ || _)%bool; auto. }
  destruct (C80_python_line_with_gaps fit_ex i16_ex 2 ray_cs (-9) (3 / 2) 2 0 (1 / 10) 60 gap_dp (repeat 50 60) (PRay (map Fin (repeat 100 60))) 1)
    as (kd & dl & sd & E & _ & _ & C); auto using fit_ex_ok, i16_ex_ok, repeat_length; try lra.
  exists kd, dl, sd. split; [exact E|].
  pose proof (C80_python_one_pass_gates fit_ex i16_ex 2 ray_cs (-9) (3 / 2) 2 0 (1 / 10) 60 gap_dp (repeat 50 60) (repeat 100 60) kd dl sd
    fit_ex_ok eq_refl Sm ltac:(lra) (repeat_length _ _) Hp E) as G. cbv zeta in G.
  set (counts := fun j => (Rleb (py_sd_spec (-9) gap_dp j) (nth j (repeat 100 60) 0) && differs (-9) (nth j gap_dp 0))%bool) in *.
  assert (Q : forall j, (j < 60)%nat -> counts j = negb ((j =? 25) || (j =? 40))%nat%bool).
  { intros j Hj. unfold counts. rewrite (nth_indep (repeat 100 60) 0 100) by now rewrite repeat_length. rewrite nth_repeat.
    rewrite (proj2 (Rleb_true _ _)) by apply gap_sd_le. cbn [andb]. rewrite gap_dp_nth by auto. unfold differs.
    destruct (_ || _)%bool; destruct Req_EM_T as [e|]; auto; try lra. pose proof (ray_range j ltac:(unfold ray_n; lia)). lra. }
  assert (N : forall i, (2 <= i)%nat -> (i + 3 < 60)%nat ->
    filter counts (seq (i - 2) (2 * 2 + 1)) = filter (fun j => negb ((j =? 25) || (j =? 40))%nat%bool) (seq (i - 2) 5)).
  { intros i H1 H2. apply filter_ext_in'. intros j Hj. apply in_seq in Hj. apply Q. lia. }
  assert (D25 : nth_error dl 25 = Some (Fin (-9))) by (rewrite G by lia; rewrite Q by lia; reflexivity).
  assert (D26 : forall i, (27 <= i <= 37)%nat \/ i = 26%nat -> nth_error dl i = Some (Fin (2 * (3 / 2) * gate_range 0 (1 / 10) i + 2))).
  { intros i Hi. rewrite G by lia. rewrite Q by lia. rewrite N by lia.
    assert (X : i = 26%nat \/ i = 27%nat \/ i = 28%nat \/ i = 29%nat \/ i = 30%nat \/ i = 31%nat \/ i = 32%nat \/ i = 33%nat \/ i = 34%nat \/ i = 35%nat \/ i = 36%nat \/ i = 37%nat) by lia.
    destruct X as [->|[->|[->|[->|[->|[->|[->|[->|[->|[->|[->| ->]]]]]]]]]]]; reflexivity. }
  split; [exact D25|]. split.
  { apply (C79_python_missing _ _ _ _ _ _ _ _ _ _ _ _ 25 E); try lia.
    - rewrite feq_fin. now apply Reqb_true.
    - rewrite !map_length, seq_length. lia.
    - left. unfold at_. rewrite (map_at Fin gap_dp 0) by lia. rewrite gap_dp_nth by lia. rewrite feq_fin. now apply Reqb_true. }
  split; [now apply D26; right|]. split.
  { rewrite G by lia. rewrite Q by lia. reflexivity. }
  assert (Ez : nth 30 (repeat 50 60) 0 = 50) by reflexivity.
  assert (Ea : adaptive 2 50 = 2%nat) by (unfold adaptive; repeat (destruct Rlt_dec; try lra); auto).
  apply C; try lia; rewrite Ez, Ea; [lia| |].
  - change (2 / 2)%nat with 1%nat. lia.
  - intros j J1 J2. rewrite D26 by lia. intro X. injection X. pose proof (ray_range j ltac:(unfold ray_n; lia)). lra.
Qed.

(** the same ray with no gate missing, at gate 53 *)
Lemma ex82_aux dp dp' dz rng th (f : @fir xr) kd dl sd kd' dl' sd' :
  calc_kdp_ray (lstsq_of fit_ex) i16_ex dp dz rng th 1 (Fin (-9)) (Some f) = Ok (kd, dl, sd) ->
  calc_kdp_ray (lstsq_of fit_ex) i16_ex dp' dz rng th 1 (Fin (-9)) (Some f) = Ok (kd', dl', sd') ->
  f_order f = 4%nat -> length rng = 60%nat -> (exists z, at_ dz 53 = Fin z) ->
  (forall j, (41 <= j)%nat -> at_ dp j = at_ dp' j) ->
  nth_error dl 53 = nth_error dl' 53 /\ nth_error kd 53 = nth_error kd' 53.
Proof.
  intros E E' Fo Ln (z & Ez) X. split.
  - apply (C82_python_phase_local _ _ _ _ _ _ _ _ _ _ _ _ _ _ _ _ _ _ _ _ E E'); auto; try lia.
    rewrite Fo. change (4 / 2)%nat with 2%nat. intros j J1 J2. apply X. lia.
  - apply (C82_python_kdp_local _ _ _ _ _ _ _ _ _ _ _ _ _ _ _ _ _ _ _ _ E E'); auto; try lia;
      rewrite Fo; change (4 / 2)%nat with 2%nat.
    + rewrite Ez, of_nat_xr, lit_int, fmul_fin, fadd_fin. replace (0 * z + INR 2) with (INR 2) by ring.
      rewrite i16_ex_ok. lia.
    + intros j J1 J2. apply X. lia.
Qed.
Lemma ray_dp_at j : (j < 60)%nat -> nth j ray_dp 0 = 2 * (3 / 2) * gate_range 0 (1 / 10) j + 2.
Proof.
  intros Hj. unfold ray_dp. rewrite (map_at (fun j => 2 * (3 / 2) * gate_range 0 (1 / 10) j + 2) (seq 0 ray_n) 0%nat) by (rewrite seq_length; exact Hj).
  now rewrite seq_nth.
Qed.
Lemma gap_ray_tail j : (41 <= j)%nat -> at_ (map Fin gap_dp) j = at_ (map Fin ray_dp) j.
Proof.
  assert (L1 : length ray_dp = 60%nat) by (unfold ray_dp; now rewrite map_length, seq_length).
  assert (L2 : length gap_dp = 60%nat) by (unfold gap_dp; now rewrite map_length, seq_length).
  intros Hj. destruct (lt_dec j 60).
  - unfold at_. rewrite (map_at Fin gap_dp 0), (map_at Fin ray_dp 0) by lia. rewrite gap_dp_nth, ray_dp_at by auto.
    destruct (Nat.eqb_spec j 25); [lia|]. destruct (Nat.eqb_spec j 40); [lia|]. reflexivity.
  - unfold at_. rewrite !nth_overflow; auto; rewrite map_length; lia.
Qed.
Lemma gap_ray_differ : map Fin gap_dp <> map Fin ray_dp.
Proof.
  assert (L1 : length ray_dp = 60%nat) by (unfold ray_dp; now rewrite map_length, seq_length).
  assert (L2 : length gap_dp = 60%nat) by (unfold gap_dp; now rewrite map_length, seq_length).
  intro Eq. assert (Y : at_ (map Fin gap_dp) 40 = at_ (map Fin ray_dp) 40) by now rewrite Eq.
  unfold at_ in Y. rewrite (map_at Fin gap_dp 0), (map_at Fin ray_dp 0) in Y by lia. rewrite gap_dp_nth, ray_dp_at in Y by lia.
  injection Y. cbn [Nat.eqb orb]. pose proof (ray_range 40 ltac:(unfold ray_n; lia)). lra.
Qed.
Lemma full_run : exists kd dl sd, calc_kdp_ray (lstsq_of fit_ex) i16_ex (map Fin ray_dp) (map Fin (repeat 50 60)) (map Fin (map (gate_range 0 (1 / 10)) (seq 0 60)))
    (PRay (map Fin (repeat 100 60))) 1 (Fin (-9)) (Some (mkfir (2 * 2) (Fin 1) (map Fin ray_cs))) = Ok (kd, dl, sd).
Proof.
  assert (Sm : smoothing ray_cs) by (split; [reflexivity|]; unfold ray_cs; simpl; lra).
  assert (L1 : length ray_dp = 60%nat) by (unfold ray_dp; now rewrite map_length, seq_length).
  destruct (C80_python_line_with_gaps fit_ex i16_ex 2 ray_cs (-9) (3 / 2) 2 0 (1 / 10) 60 ray_dp (repeat 50 60) (PRay (map Fin (repeat 100 60))) 1)
    as (kd' & dl' & sd' & E' & _); auto using fit_ex_ok, i16_ex_ok, repeat_length, ray_dp_at; try lra. eauto.
Qed.
Example C82_example : exists kd dl sd kd' dl' sd',
  gap_run = Ok (kd, dl, sd) /\
  calc_kdp_ray (lstsq_of fit_ex) i16_ex (map Fin ray_dp) (map Fin (repeat 50 60)) (map Fin (map (gate_range 0 (1 / 10)) (seq 0 60)))
    (PRay (map Fin (repeat 100 60))) 1 (Fin (-9)) (Some (mkfir (2 * 2) (Fin 1) (map Fin ray_cs))) = Ok (kd', dl', sd') /\
  nth_error dl 53 = nth_error dl' 53 /\ nth_error kd 53 = nth_error kd' 53 /\ map Fin gap_dp <> map Fin ray_dp.
Proof.
  destruct C79_example as (kd & dl & sd & E & _). destruct full_run as (kd' & dl' & sd' & E').
  exists kd, dl, sd, kd', dl', sd'. split; [exact E|]. split; [exact E'|].
  destruct (ex82_aux _ _ _ _ _ _ _ _ _ _ _ _ E E') as (A & B).
  - reflexivity.
  - now rewrite !map_length, seq_length.
  - exists (nth 53 (repeat 50 60) 0). unfold at_. now rewrite (map_at Fin (repeat 50 60) 0) by (rewrite repeat_length; lia).
  - exact gap_ray_tail.
  - split; [exact A|]. split; [exact B|]. exact gap_ray_differ.
Qed.

(** gate 30 of the complete ray through both routines, memory content 1 *)
Example C81_example : exists kd dl sd kd' dl',
  calc_kdp_ray (lstsq_of fit_ex) i16_ex (map Fin ray_dp) (map Fin ray_dz) (map Fin ray_r)
    (PRay (map Fin ray_th)) 1 (Fin (-9)) (Some (mkfir (2 * 2) (Fin 1) (map Fin ray_cs))) = Ok (kd, dl, sd) /\
  calc_kdp_ray_fir (mkpar Cython (2 * 2) (Fin 1) (map Fin ray_cs) (fun _ => Fin 1) (Fin (-9))) 0
    (map Fin ray_dp) (map Fin ray_dz) (map Fin ray_r) (map Fin ray_th) 1 (2 * Z.of_nat 5 + 1) = Ok (kd', dl', map Fin ray_sd) /\
  nth_error kd 30 = Some (Fin (3 / 2)) /\ nth_error kd' 30 = Some (Fin (3 / 2 * (1 - 1 / 9 + 1))).
Proof.
  destruct (ray_cython 1) as (kd' & dl' & E').
  assert (Sm : smoothing ray_cs) by (split; [reflexivity|]; unfold ray_cs; simpl; lra).
  assert (Ad : forall j, (j < 60)%nat -> nth j ray_dp 0 = 2 * (3 / 2) * gate_range 0 (1 / 10) j + 2).
  { intros j Hj. unfold ray_dp. rewrite (map_at (fun j => 2 * (3 / 2) * gate_range 0 (1 / 10) j + 2) (seq 0 ray_n) 0%nat) by (rewrite seq_length; exact Hj).
    now rewrite seq_nth. }
  assert (L1 : length ray_dp = 60%nat) by (unfold ray_dp; now rewrite map_length, seq_length).
  assert (Rg : forall j, (j < 60)%nat -> 0 <= gate_range 0 (1 / 10) j <= 6) by (intros j Hj; apply ray_range; exact Hj).
  destruct (C80_python_line_with_gaps fit_ex i16_ex 2 ray_cs (-9) (3 / 2) 2 0 (1 / 10) 60 ray_dp ray_dz (PRay (map Fin ray_th)) 1)
    as (kd & dl & sd & E & _ & _ & C); auto using fit_ex_ok, i16_ex_ok; try lra.
  exists kd, dl, sd, kd', dl'. split; [exact E|]. split; [exact E'|].
  assert (Ez : nth 30 ray_dz 0 = 50) by reflexivity.
  assert (Ea : adaptive 2 50 = 2%nat) by (unfold adaptive; repeat (destruct Rlt_dec; try lra); auto).
  assert (Th : forall j, (j < 60)%nat -> nth j ray_th 0 = 100).
  { intros j Hj. unfold ray_th. rewrite (nth_indep _ 0 100) by now rewrite repeat_length. apply nth_repeat. }
  assert (Sd : forall i, py_sd_spec (-9) ray_dp i <= 100).
  { intro i. unfold py_sd_spec. destruct (_ && _)%bool; [|lra].
    destruct (Nat.ltb_spec 5 (length (filter (differs (-9)) (slice ray_dp (i - 5) 10)))); [|lra].
    apply popstd_bound.
    - intro Eq. rewrite Eq in *. simpl in *. lia.
    - intros x Hx. apply filter_In in Hx as (Hx & _). apply ray_dp_range.
      unfold slice in Hx. rewrite <- (firstn_skipn (i - 5) ray_dp). apply in_or_app. right.
      rewrite <- (firstn_skipn 10 (skipn (i - 5) ray_dp)). apply in_or_app. left. auto. }
  split.
  - pose proof (C80_python_one_pass_gates fit_ex i16_ex 2 ray_cs (-9) (3 / 2) 2 0 (1 / 10) 60 ray_dp ray_dz ray_th kd dl sd
      fit_ex_ok eq_refl Sm ltac:(lra) eq_refl (fun j Hj => or_intror (Ad j Hj)) E) as G. cbv zeta in G.
    set (counts := fun j => (Rleb (py_sd_spec (-9) ray_dp j) (nth j ray_th 0) && differs (-9) (nth j ray_dp 0))%bool) in *.
    assert (Q : forall j, (j < 60)%nat -> counts j = true).
    { intros j Hj. unfold counts. rewrite Th by auto. rewrite (proj2 (Rleb_true _ _)) by apply Sd. cbn [andb].
      rewrite Ad by auto. unfold differs. destruct Req_EM_T as [e|]; auto. specialize (Rg j Hj). lra. }
    apply C; try lia; rewrite Ez, Ea; [lia|change (2 / 2)%nat with 1%nat; lia|].
    intros j J1 J2. rewrite G by lia. rewrite Q by lia. rewrite filter_all by (intros k Hk; apply in_seq in Hk; apply Q; lia).
    rewrite seq_length. destruct (Nat.leb_spec 2 j); [|lia]. destruct (Nat.ltb_spec (j + 2 + 1) 60); [|lia]. cbn [andb].
    change (8 * 2 <? 5 * (2 * 2 + 1))%nat with true. cbv iota. intro X. injection X. specialize (Rg j ltac:(lia)). lra.
  - destruct (C51_linear_phase Cython 2 1 (-9) (3 / 2) 2 0 (1 / 10) ray_cs (fun _ => 1) 0 60 ray_dz ray_th (2 * Z.of_nat 5 + 1) kd' dl' ray_sd) as (A & B); auto.
    + lra.
    + intro I. apply (ray_dp_range (-9)) in I. lra.
    + intro I. apply in_map_iff in I as (j & Ej & Hj). apply in_seq in Hj. specialize (Rg j ltac:(lia)). lra.
    + discriminate.
    + cbv beta iota zeta in A, B. rewrite B by lia. rewrite Ez, Ea.
      assert (D : differs (-9) 50 = true) by (unfold differs; destruct Req_EM_T; [lra|reflexivity]). rewrite D. cbn [andb].
      assert (SW : rsum (tl ray_cs ++ [1]) = 1 - 1 / 9 + 1) by (unfold ray_cs; simpl; lra).
      assert (MW : moment 2 (tl ray_cs ++ [1]) = 12 / 9) by (unfold moment, ray_cs; simpl; lra).
      assert (Ld : length dl' = 60%nat).
      { pose proof (ray_ok _ _ _ _ _ _ _ _ _ _ _ E') as R. cbv zeta in R. destruct R as (_ & _ & _ & _ & Ld & _). now rewrite map_length, L1 in Ld. }
      assert (EN : length (kd_valid Cython (Fin (-9)) dl' (Z.of_nat 2) 30) = 2%nat).
      { unfold kd_valid, kd_js. cbv zeta. rewrite Ld. cbn [half_of]. change (Z.of_nat 2 / 2)%Z with 1%Z.
        change (zrange (Z.of_nat 30 - 1) (Z.of_nat 30 + 1)) with [29; 30]%Z.
        change ((0 <=? Z.of_nat 30 - 1)%Z && (Z.of_nat 30 + 1 <=? Z.of_nat 60 - 1)%Z)%bool with true. cbv iota.
        assert (V : forall j, (j = 29 \/ j = 30)%nat -> feq (at_ dl' j) (Fin (-9)) = false).
        { intros j Hj. unfold at_. rewrite (nth_error_nth _ _ _ (A j ltac:(lia))). rewrite ray_filtered by lia.
          rewrite feq_fin. apply Reqb_false. rewrite SW, MW. specialize (Rg j ltac:(lia)). lra. }
        cbn [filter]. change (Z.to_nat 29) with 29%nat. change (Z.to_nat 30) with 30%nat. rewrite !V by lia. reflexivity. }
      rewrite EN. change (4 * 2 <? 5 * 2)%nat with true. cbv iota. rewrite SW. do 2 f_equal. ring.
Qed.

Example C81_std_example : exists kd dl sd kd' dl' sd',
  let dp := repeat 5 15 ++ repeat 7 5 in
  calc_kdp_ray (fun _ => Ok (Fin 0, Fin 0)) i16_ex (map Fin dp) (map Fin (repeat 50 20)) (map Fin (map INR (seq 0 20)))
    (PNum (Fin 12)) 0 (Fin (-9)) (Some (mkfir 4 (Fin 1) (map Fin ray_cs))) = Ok (kd, dl, sd) /\
  calc_kdp_ray_fir (mkpar Cython (2 * 2) (Fin 1) (map Fin ray_cs) (fun _ => Fin 0) (Fin (-9))) 0
    (map Fin dp) (map Fin (repeat 50 20)) (map Fin (map INR (seq 0 20))) (map Fin (repeat 12 20)) 1 11 = Ok (kd', dl', sd') /\
  nth_error sd 10 = Some (Fin 0) /\ nth_error sd' 10 <> Some (Fin 0).
Proof.
  set (dp := repeat 5 15 ++ repeat 7 5).
  assert (T : exists kd dl sd, calc_kdp_ray (fun _ => Ok (Fin 0, Fin 0)) i16_ex (map Fin dp) (map Fin (repeat 50 20)) (map Fin (map INR (seq 0 20)))
    (PNum (Fin 12)) 0 (Fin (-9)) (Some (mkfir 4 (Fin 1) (map Fin ray_cs))) = Ok (kd, dl, sd)).
  { unfold calc_kdp_ray. cbv zeta. rewrite !map_length, seq_length, repeat_length. change (length dp) with 20%nat.
    rewrite !Nat.eqb_refl. cbn [andb negb seq forM bind fst].
    match goal with |- context [mapM ?g ?l] => destruct (mapM_total g l) as (kd & ->) end.
    - intros i _. unfold py_kd. destruct (negb _); [|eauto]. destruct (py_indices _ _). destruct (_ && _)%bool; [|eauto].
      destruct (_ <=? _)%Z; cbn [bind]; eauto.
    - cbn [bind]. eauto. }
  destruct T as (kd & dl & sd & E).
  destruct (C52_total_on_finite_rays (mkpar Cython (2 * 2) (Fin 1) (map Fin ray_cs) (fun _ => Fin 0) (Fin (-9))) 0
    dp (repeat 50 20) (map INR (seq 0 20)) ray_cs (map Fin (repeat 12 20)) 1 5 2 (-9) 1) as (kd' & dl' & sd' & E'); auto.
  - lia.
  - intros; eexists; reflexivity.
  - apply FinFun.Injective_map_NoDup; [|apply seq_NoDup]. intros x y Eq. now apply INR_eq.
  - intro I. apply in_map_iff in I as (j & Ej & _). pose proof (pos_INR j). lra.
  - exists kd, dl, sd, (map Fin kd'), (map Fin dl'), (map Fin sd'). cbv zeta. split; [exact E|]. split; [exact E'|].
    change (2 * Z.of_nat 5 + 1)%Z with 11%Z in E'.
    destruct (C81_std_window (fun _ => Ok (Fin 0, Fin 0)) i16_ex _ _ _ _ _ _ _ _ (-9)
      (mkpar Cython (2 * 2) (Fin 1) (map Fin ray_cs) (fun _ => Fin 0) (Fin (-9))) _ _ _ _ _ _ _ _ dp 10 5 7 E eq_refl E')
      as (A & s & B & Hs); try lra; try (unfold dp; rewrite app_length, !repeat_length; lia); try lia.
    + intros j Hj. assert (X : j = 5%nat \/ j = 6%nat \/ j = 7%nat \/ j = 8%nat \/ j = 9%nat \/ j = 10%nat \/ j = 11%nat \/ j = 12%nat \/ j = 13%nat \/ j = 14%nat) by lia.
      destruct X as [->|[->|[->|[->|[->|[->|[->|[->|[->| ->]]]]]]]]]; reflexivity.
    + reflexivity.
    + split; [exact A|]. rewrite B. intro X. injection X. lra.
Qed.
