(** * C47, C49, C51, C52, C67 at the user's level: calc_kdp_bringi *)
From Coq Require Import Reals Lra Lia Qreals Arith ZArith.
From Verif Require Import Base.Num Base.ListFacts Base.XReal Base.XTac Base.XArith.
From Verif Require Import Model.Tables Model.Beta Model.Melt Model.Kdp Spec.KdpSpec.
From Verif Require Import Proofs.HidProofs Proofs.SummerProofs Proofs.KdpReal Proofs.KdpProofs Proofs.KdpFilter.
From Verif Require Import Properties.P14_Kdp Properties.P15_KdpFilter Properties.P16_KdpDispatch Properties.P25_KdpFir.

(** ray r of an argument and of a result *)
Definition ray_of {F} (a : nd F) (r : nat) : option (list F) :=
  match a with
  | N1 l => match r with O => Some l | _ => None end
  | N2 rows => nth_error rows r
  | _ => None
  end.
Definition out_ray {F} (o : kdp_ret F) (r : nat) : option (list F * list F * list F) :=
  match o with
  | Ray kd dl sd => match r with O => Some (kd, dl, sd) | _ => None end
  | Sweep kd dl sd => match nth_error kd r, nth_error dl r, nth_error sd r with
                      | Some k, Some d, Some s => Some (k, d, s) | _, _, _ => None end
  | NoneTriple => None
  end.
(** std_gate, an even one replaced by 11 *)
Definition odd_gate (sg : Z) : Z := if Z.odd sg then sg else 11%Z.

Section LawFree.
Context {F : Type} {fo : FloatOps F}.
Variable bd : build.
Variable toint : F -> Z.
Variable firwin : Z -> F -> F -> res (list F).
Variable env : nat -> (nat -> F) * Z.

Lemma odd_gate_eq sg : (if negb (sg mod 2 =? 1)%Z then 11%Z else sg) = odd_gate sg.
Proof.
  unfold odd_gate. rewrite Zodd_mod. unfold Zeq_bool, Z.eqb.
  pose proof (Z.mod_pos_bound sg 2 eq_refl). assert (sg mod 2 = 0 \/ sg mod 2 = 1)%Z as [->| ->] by lia; reflexivity.
Qed.

(** Every ray of the result comes from the compiled routine applied to that ray
    alone, and there are as many as the phase has. *)
Theorem C54_every_ray dp dz rng thsd nf bad gs window sg out :
  calc_kdp_bringi bd toint firwin env (Some dp) (Some dz) (Some rng) thsd nf bad gs window sg = Ok out ->
  out <> NoneTriple ->
  exists order gain coef, get_fir toint firwin gs window = Ok (order, gain, coef) /\ (0 <= order)%Z /\
  (forall r, out_ray out r = None <-> ray_of dp r = None) /\
  forall r kd dl sd, out_ray out r = Some (kd, dl, sd) ->
  exists d z g t, ray_of dp r = Some d /\ ray_of dz r = Some z /\ ray_of rng r = Some g /\
    (forall x, thsd = TNum x -> t = map (fun _ => f32 x) d) /\
    calc_kdp_ray_fir (mkpar bd (Z.to_nat order) gain coef (fst (env r)) (f32 bad)) (snd (env r))
      (map f32 d) (map f32 z) (map f32 g) t nf (odd_gate sg) = Ok (kd, dl, sd).
Proof.
  unfold calc_kdp_bringi. intros E Hn.
  destruct (negb _) eqn:Hd; [discriminate|]. cbv zeta in E. rewrite odd_gate_eq in E.
  destruct (get_fir toint firwin gs window) as [((order & gain) & coef)| | | |]; try discriminate;
    [|injection E as <-; congruence].
  exists order, gain, coef. split; [auto|].
  destruct (Z.ltb_spec order 0); [discriminate|]. split; [auto|].
  destruct dp as [x|dp|dps|]; try discriminate.
  - destruct dz as [|dz| |]; try discriminate. destruct rng as [|rng| |]; try discriminate.
    apply bind_ok in E as (t & Et & E). apply bind_ok in E as (((kd & dl) & sd) & Er & E). injection E as <-.
    cbn [fst snd] in *. split; [intros [|r]; cbn; split; discriminate || auto|].
    intros r kd' dl' sd' Eo. destruct r as [|r]; [|discriminate]. cbn in Eo. injection Eo as <- <- <-.
    exists dp, dz, rng, t. split; [auto|]. split; [auto|]. split; [auto|]. split; [|exact Er].
    intros x ->. injection Et as <-. now rewrite map_map.
  - destruct dz as [| |dzs|]; try discriminate. destruct rng as [| |rngs|]; try discriminate.
    apply bind_ok in E as (o & E & Eo). injection Eo as <-. apply mapM_ok in E as (Lo & G). rewrite seq_length in Lo.
    split.
    { intro r. cbn [out_ray ray_of]. rewrite !map_nth_error'. destruct (nth_error o r) as [v|] eqn:Ev; cbn.
      - split; [discriminate|]. intro Hr. apply nth_error_None in Hr. apply nth_error_lt in Ev. lia.
      - split; auto. intros _. apply nth_error_None in Ev. apply nth_error_None. lia. }
    intros r kd dl sd Er. cbn [out_ray] in Er. rewrite !map_nth_error' in Er.
    destruct (nth_error o r) as [v|] eqn:Ev; cbn in Er; [|discriminate].
    assert (Hr : (r < length dps)%nat) by (apply nth_error_lt in Ev; lia).
    destruct (G r r (seq_nth_error _ _ Hr)) as (v' & Ev' & Er'). rewrite Ev in Ev'. injection Ev' as <-.
    destruct v as ((k & d) & s). cbn [fst snd] in Er. injection Er as <- <- <-.
    destruct (nth_error dzs r) as [z|] eqn:Ez; [|discriminate]. destruct (nth_error rngs r) as [g|] eqn:Eg; [|discriminate].
    apply bind_ok in Er' as (t & Et & Er').
    exists (nth r dps []), z, g, t. cbn [ray_of]. rewrite (nth_error_nth' _ []) by auto.
    split; [auto|]. split; [auto|]. split; [auto|]. split; [|exact Er'].
    intros x ->. injection Et as <-. now rewrite map_map.
Qed.
End LawFree.

Open Scope R_scope.
Definition half_gate (sg : Z) : nat := if Z.odd sg then Z.to_nat ((sg - 1) / 2) else 5%nat.
Lemma odd_half sg : (0 < sg)%Z \/ Z.even sg = true -> odd_gate sg = (2 * Z.of_nat (half_gate sg) + 1)%Z.
Proof.
  intro H. unfold odd_gate, half_gate. rewrite <- Z.negb_even in *. destruct (Z.even sg) eqn:E; [reflexivity|].
  destruct H as [H|]; [|discriminate]. cbn [negb].
  assert (O : Z.odd sg = true) by (now rewrite <- Z.negb_even, E). apply Z.odd_spec in O as (k & ->).
  replace (2 * k + 1 - 1)%Z with (k * 2)%Z by lia. rewrite Z.div_mul by lia. lia.
Qed.
Lemma map_f32 (l : list xr) : map f32 l = l.
Proof. induction l; cbn; f_equal; auto. Qed.

Lemma mapM_fault {A B} (f : A -> res B) l : mapM f l = Fault -> exists x, In x l /\ f x = Fault.
Proof.
  induction l as [|x l IH]; cbn; [discriminate|]. destruct (f x) eqn:E; cbn [bind]; try discriminate.
  - destruct (mapM f l) eqn:El; cbn [bind]; try discriminate. intros _. destruct IH as (y & I & Ey); eauto.
  - exists x; auto.
Qed.

Section Api.
Variable bd : build.
Variable toint : xr -> Z.
Variable firwin : Z -> xr -> xr -> res (list xr).
Variable env : nat -> (nat -> xr) * Z.

(** ** C47 *)
(** The third result, for one ray or a sweep, every threshold and option: the
    population standard deviation of the window, 100 where it is not defined. *)
Theorem C47_calc_kdp_bringi_std dp dz rng thsd nf (b : R) gs window sg out r d kd dl sd :
  calc_kdp_bringi bd toint firwin env (Some dp) (Some dz) (Some rng) thsd nf (Fin b) gs window sg = Ok out ->
  (0 < sg)%Z \/ Z.even sg = true ->
  ray_of dp r = Some (map Fin d) -> out_ray out r = Some (kd, dl, sd) ->
  sd = map (fun i => Fin (sd_spec (half_gate sg) b d i)) (seq 0 (length d)).
Proof.
  intros E Hs Ed Eo.
  assert (Hn : out <> NoneTriple) by (intros ->; discriminate).
  destruct (C54_every_ray bd toint firwin env dp dz rng thsd nf (Fin b) gs window sg out E Hn)
    as (order & gain & coef & _ & _ & _ & G).
  destruct (G r kd dl sd Eo) as (d' & z & g & t & E1 & _ & _ & _ & Er). rewrite Ed in E1. injection E1 as <-.
  rewrite !map_f32, (odd_half sg Hs) in Er.
  refine (C47_std_is_population_std _ _ d _ _ _ _ _ b kd dl sd _ Er). reflexivity.
Qed.

(** ** C49 *)
Theorem C49_calc_kdp_bringi dp dz rng thsd nf (b : R) gs window sg out r kd dl sd d z g :
  calc_kdp_bringi bd toint firwin env (Some dp) (Some dz) (Some rng) thsd nf (Fin b) gs window sg = Ok out ->
  out_ray out r = Some (kd, dl, sd) ->
  ray_of dp r = Some d -> ray_of dz r = Some z -> ray_of rng r = Some g ->
  exists order gain coef, get_fir toint firwin gs window = Ok (order, gain, coef) /\
  let half := (Z.to_nat order / 2)%nat in
  length kd = length d /\ length dl = length d /\ length sd = length d /\
  (nf = 0%nat -> dl = d) /\
  (forall i, (i < length d)%nat -> nth_error z i = Some (Fin b) -> nth_error kd i = Some (Fin b)) /\
  ((1 <= nf)%nat -> forall i, (i < length d)%nat ->
     (i < half)%nat \/ (length d <= i + half)%nat \/
     (exists x s, thsd = TNum (Fin x) /\ nth_error sd i = Some (Fin s) /\ x < s) ->
     nth_error dl i = Some (Fin b)).
Proof.
  intros E Eo Ed Ez Eg.
  assert (Hn : out <> NoneTriple) by (intros ->; discriminate).
  destruct (C54_every_ray bd toint firwin env dp dz rng thsd nf (Fin b) gs window sg out E Hn)
    as (order & gain & coef & Ef & _ & _ & G). exists order, gain, coef. split; [exact Ef|].
  destruct (G r kd dl sd Eo) as (d' & z' & g' & t & E1 & E2 & E3 & Et & Er).
  rewrite Ed in E1. injection E1 as <-. rewrite Ez in E2. injection E2 as <-. rewrite Eg in E3. injection E3 as <-.
  rewrite !map_f32 in Er. cbv zeta. destruct (C49_lengths _ _ _ _ _ _ _ _ _ _ _ Er) as (L1 & L2 & L3).
  split; [auto|]. split; [auto|]. split; [auto|]. split; [|split].
  - intros ->. rewrite (C49_no_filter _ _ _ _ _ _ _ _ _ _ Er). apply map_f32.
  - intros i Hi Hz. refine (C49_missing_reflectivity _ _ _ _ _ _ _ _ _ _ _ i Er Hi _).
    unfold at_. rewrite (nth_error_nth _ _ _ Hz). cbn. now apply Reqb_true.
  - intros H1 i Hi Hc. refine (C49_edges_and_noisy_gates _ _ _ _ _ _ _ _ _ _ _ i Er H1 Hi _). cbn [p_order].
    destruct Hc as [?|[?|(x & s & Ex & Es & Hx)]]; auto. right. right.
    rewrite (Et _ Ex). unfold at_. rewrite (nth_error_nth _ _ _ Es).
    rewrite (nth_indep _ fnan (f32 (Fin x))) by (now rewrite map_length).
    rewrite (map_nth (fun _ => f32 (Fin x)) d fnan i). cbn. apply Rleb_false. lra.
Qed.

Theorem C49_calc_kdp_bringi_value dp dz rng thsd nf (b : R) gs window sg out r kd dl sd (d z g : list R) i :
  calc_kdp_bringi bd toint firwin env (Some dp) (Some dz) (Some rng) thsd nf (Fin b) gs window sg = Ok out ->
  out_ray out r = Some (kd, map Fin dl, sd) ->
  ray_of dp r = Some (map Fin d) -> ray_of dz r = Some (map Fin z) -> ray_of rng r = Some (map Fin g) ->
  length g = length d -> (i < length d)%nat -> nth i z 0 <> b ->
  exists order gain coef, get_fir toint firwin gs window = Ok (order, gain, coef) /\
  let w := adaptive (Z.to_nat order / 2) (nth i z 0) in
  let pts := window_points (incl bd) b (combine g dl) (w / 2) i in
  (5 * length pts <= 4 * w -> nth_error kd i = Some (Fin b))%nat /\
  ((4 * w < 5 * length pts)%nat ->
   (forall q, In q pts -> kept bd b q = true) -> ~ same_x pts ->
   exists a c, best_line pts a c /\ nth_error kd i = Some (Fin (a / 2))).
Proof.
  intros E Eo Ed Ez Eg Lg Hi Hz.
  assert (Hn : out <> NoneTriple) by (intros ->; discriminate).
  destruct (C54_every_ray bd toint firwin env dp dz rng thsd nf (Fin b) gs window sg out E Hn)
    as (order & gain & coef & Ef & _ & _ & G). exists order, gain, coef. split; [exact Ef|].
  destruct (G r _ _ _ Eo) as (d' & z' & g' & t & E1 & E2 & E3 & Et & Er).
  rewrite Ed in E1. injection E1 as <-. rewrite Ez in E2. injection E2 as <-. rewrite Eg in E3. injection E3 as <-.
  rewrite !map_f32 in Er.
  refine (C49_kdp_value _ _ _ z g _ _ _ kd dl sd b i _ _ Er _ Hz).
  - reflexivity. - now rewrite map_length. - now rewrite map_length.
Qed.

(** ** C52 *)
Lemma no_fault_ray p nadp0 (d z g t : list xr) nf sg :
  (p_order p <= match p_build p with Cython => 334 | Fortran => 332 end)%nat ->
  length z = length d -> length g = length d -> length t = length d -> ~ In NaN z ->
  calc_kdp_ray_fir p nadp0 d z g t nf sg <> Fault.
Proof.
  intros Ho Lz Lg Lt Nz. apply C52_work_arrays_suffice; try lia.
  - destruct (p_build p); apply Nat.div_le_upper_bound; lia.
  - intros i Hi. assert (In (at_ z i) z) by (apply nth_In; lia).
    unfold dz_known. destruct (at_ z i) as [v| | |]; [|right; left; reflexivity|right; right; right; reflexivity|contradiction].
    right. rewrite !lit_fin, !flt_fin, !fle_fin. cbn [Qnum Qden].
    destruct (Rltb_spec v (35/1)), (Rltb_spec v (45/1)), (Rleb_spec (35/1) v), (Rleb_spec (45/1) v); cbn; auto; lra.
Qed.

(** order window/gs at most 334 (Cython) or 332 (Fortran): no access outside the
    work arrays, one ray or a sweep of equal-length rays *)
Theorem C52_calc_kdp_bringi_no_fault dp dz rng x nf bad gs window sg order gain coef :
  get_fir toint firwin gs window = Ok (order, gain, coef) ->
  (order <= match bd with Cython => 334 | Fortran => 332 end)%Z ->
  (forall r d, ray_of dp r = Some d -> forall z, ray_of dz r = Some z -> length z = length d /\ ~ In NaN z) ->
  (forall r d, ray_of dp r = Some d -> forall g, ray_of rng r = Some g -> length g = length d) ->
  calc_kdp_bringi bd toint firwin env (Some dp) (Some dz) (Some rng) (TNum x) nf bad gs window sg <> Fault.
Proof.
  intros Ef Ho Hz Hg. unfold calc_kdp_bringi. destruct (negb _); [discriminate|]. cbv zeta. rewrite Ef.
  destruct (Z.ltb_spec order 0); [discriminate|]. rewrite odd_gate_eq.
  assert (Ho' : (Z.to_nat order <= match bd with Cython => 334 | Fortran => 332 end)%nat) by (destruct bd; lia).
  destruct dp as [y|d|dps|]; try discriminate.
  - destruct dz as [|z| |]; try discriminate. destruct rng as [|g| |]; try discriminate.
    cbn [bind]. rewrite !map_f32.
    destruct (Hz 0%nat d eq_refl z eq_refl) as (Lz & Nz). pose proof (Hg 0%nat d eq_refl g eq_refl) as Lg.
    pose proof (no_fault_ray (mkpar bd (Z.to_nat order) gain coef (fst (env 0%nat)) (f32 bad)) (snd (env 0%nat)) d z g
      (map (fun _ => f32 x) d) nf (odd_gate sg) Ho' Lz Lg (map_length _ _) Nz) as N.
    destruct (calc_kdp_ray_fir _ _ _ _ _ _ _ _); cbn [bind]; congruence.
  - destruct dz as [| |dzs|]; try discriminate. destruct rng as [| |rngs|]; try discriminate.
    destruct (mapM _ _) eqn:E; cbn [bind]; try discriminate. exfalso.
    apply mapM_fault in E as (r & Ir & E). apply in_seq in Ir.
    destruct (nth_error dzs r) as [z|] eqn:Ez; [|discriminate]. destruct (nth_error rngs r) as [g|] eqn:Eg; [|discriminate].
    cbn [bind] in E. rewrite !map_f32 in E. revert E.
    assert (Ed : ray_of (N2 dps) r = Some (nth r dps [])) by (cbn; apply nth_error_nth'; lia).
    destruct (Hz r _ Ed z Ez) as (Lz & Nz). pose proof (Hg r _ Ed g Eg) as Lg.
    now apply (no_fault_ray (mkpar bd (Z.to_nat order) gain coef (fst (env r)) (f32 bad))); rewrite ?map_length.
Qed.

(** ** C51 *)
(** A ray of linear phase through calc_kdp_bringi, filter designer as SciPy's:
    symmetric coefficients of unit sum.  Gate i is filtered if half a filter
    window fits on both sides, its phase is no noisier than the threshold and so
    is more than 80% (of the order) of the window.
    Fortran build: a filtered gate keeps its phase, every other is missing; KDP
    is K or missing, and it is K where the adaptive window lies among filtered
    gates.  Cython build: KDP is off by a factor. *)
Theorem C51_calc_kdp_bringi h (b K c r0 d : R) cs m n (z : list R) (x gs window : R) sg out :
  gs <> 0 -> toint (Fin (window * 1000 / gs)) = (2 * Z.of_nat h)%Z -> (2 <= h)%nat ->
  firwin (2 * Z.of_nat h + 1)%Z (Fin (1.6 / IZR (2 * Z.of_nat h))) (Fin (1.4 * IZR (2 * Z.of_nat h))) = Ok (map Fin cs) ->
  length cs = (2 * h + 1)%nat -> smoothing cs -> d <> 0 -> length z = n ->
  let r := map (gate_range r0 d) (seq 0 n) in
  let phase j := 2 * K * gate_range r0 d j + c in
  let dp := map phase (seq 0 n) in
  ~ In b dp -> ~ In b r -> (forall y, In y r \/ In y dp -> y <= huge) ->
  fst (env 0%nat) (2 * h + 1)%nat = Fin m ->
  (0 < sg)%Z \/ Z.even sg = true ->
  calc_kdp_bringi bd toint firwin env (Some (N1 (map Fin dp))) (Some (N1 (map Fin z))) (Some (N1 (map Fin r)))
    (TNum (Fin x)) 1 (Fin b) (Fin gs) (Fin window) sg = Ok out ->
  exists kd dl sd, out = Ray kd dl sd /\
  let quiet i := if Rle_dec (sd_spec (half_gate sg) b dp i) x then true else false in
  let filtered i := (h <= i)%nat /\ (i + h < n)%nat /\ quiet i = true /\
    (4 * (2 * h) < 5 * length (filter quiet (seq (i - h) (2 * h + 1))))%nat in
  match bd with
  | Fortran =>
      (forall i, (i < n)%nat -> (filtered i -> nth_error dl i = Some (Fin (phase i))) /\
                                (~ filtered i -> nth_error dl i = Some (Fin b))) /\
      (forall i, (i < n)%nat -> nth_error kd i = Some (Fin K) \/ nth_error kd i = Some (Fin b)) /\
      (forall i, (i < n)%nat -> nth i z 0 <> b ->
         let k := (adaptive h (nth i z 0%R) / 2)%nat in
         (k <= i)%nat -> (forall j, (i - k <= j <= i + k)%nat -> filtered j) -> nth_error kd i = Some (Fin K))
  | Cython =>
      forall i, (i < n)%nat ->
        nth_error kd i = Some (Fin (K * (1 - nth 0 cs 0 + m))) \/ nth_error kd i = Some (Fin b)
  end.
Proof.
  change huge with (IZR BIG).
  intros Hg Ht Hh Hf Lc Sm Hd Lz r phase dp N1' N2' HB Hm Hs E.
  assert (EF : get_fir (F:=xr) toint firwin (Fin gs) (Fin window) = Ok ((2 * Z.of_nat h)%Z, Fin 1, map Fin cs)).
  { rewrite (C87_get_fir toint firwin gs window (2 * Z.of_nat h)); auto; try lia.
    - cbn [fir_request fst snd]. rewrite Hf. reflexivity.
    - apply Z.even_spec. exists (Z.of_nat h). lia. }
  revert E. unfold calc_kdp_bringi. cbn [ndim Nat.eqb andb negb]. cbv zeta. rewrite EF.
  destruct (Z.ltb_spec (2 * Z.of_nat h) 0); [lia|]. cbn [bind]. rewrite odd_gate_eq, !map_f32, map_map. intro E.
  apply bind_ok in E as (((kd & dl) & sd) & Er & E). injection E as <-. cbn [fst snd].
  exists kd, dl, sd. split; [reflexivity|].
  assert (Ldp : length dp = n) by (unfold dp; rewrite map_length; apply seq_length).
  assert (Esd : sd = map Fin (map (sd_spec (half_gate sg) b dp) (seq 0 (length dp)))).
  { rewrite map_map. rewrite (odd_half sg Hs) in Er.
    refine (C47_std_is_population_std _ _ dp _ _ _ _ _ b kd dl sd _ Er). reflexivity. }
  rewrite Esd in Er. replace (Z.to_nat (2 * Z.of_nat h)) with (2 * h)%nat in Er by lia.
  assert (Et : map (fun _ : R => f32 (Fin x)) dp = map Fin (map (fun _ => x) dp)) by (rewrite map_map; reflexivity).
  rewrite Et in Er.
  assert (Lt : length (map (fun _ : R => x) dp) = n) by now rewrite map_length.
  set (quiet := fun i => if Rle_dec (sd_spec (half_gate sg) b dp i) x then true else false).
  assert (PQ : forall i, (i < n)%nat -> passes (map (sd_spec (half_gate sg) b dp) (seq 0 (length dp))) (map (fun _ => x) dp) i = quiet i).
  { intros i Hi. unfold passes, quiet.
    rewrite (nth_indep (map (sd_spec _ _ _) _) 0 (sd_spec (half_gate sg) b dp 0)) by (rewrite map_length, seq_length; lia).
    rewrite map_nth, seq_nth by lia. cbn [Nat.add].
    rewrite (nth_indep (map (fun _ => x) dp) 0 ((fun _ : R => x) 0)) by lia. rewrite (map_nth (fun _ : R => x) dp 0 i).
    destruct (Rle_dec (sd_spec (half_gate sg) b dp i) x); [now apply Rleb_true|apply Rleb_false; lra]. }
  assert (FI : forall i, (i < n)%nat -> is_filtered h n (map (sd_spec (half_gate sg) b dp) (seq 0 (length dp))) (map (fun _ => x) dp) i = true
     <-> ((h <= i)%nat /\ (i + h < n)%nat /\ quiet i = true /\ (4 * (2 * h) < 5 * length (filter quiet (seq (i - h) (2 * h + 1))))%nat)).
  { intros i Hi. unfold is_filtered. rewrite PQ by auto.
    rewrite !andb_true_iff, Nat.leb_le, !Nat.ltb_lt.
    assert (EQ : (i + h < n)%nat -> filter (passes (map (sd_spec (half_gate sg) b dp) (seq 0 (length dp))) (map (fun _ => x) dp)) (seq (i - h) (2 * h + 1))
      = filter quiet (seq (i - h) (2 * h + 1)) \/ (i < h)%nat).
    { intro Hn. destruct (Nat.lt_ge_cases i h); [now right|]. left. apply filter_ext_in. intros j Hj. apply in_seq in Hj. apply PQ. lia. }
    split.
    - intros (((H1 & H2) & H3) & H4). destruct (EQ H2) as [EQ'|]; [|lia]. rewrite EQ' in H4. auto.
    - intros (H1 & H2 & H3 & H4). destruct (EQ H2) as [EQ'|]; [|lia]. rewrite EQ'. auto. }
  destruct bd.
  - rewrite (C50_cython_one_past (2 * h) (Fin 1) (map Fin cs) _ (fun _ => Fin m)) in Er;
      [|rewrite map_length; lia|exact Hm].
    intros i Hi.
    exact (C51_cython_biased h b K c r0 d cs (fun _ => m) (snd (env 0%nat)) n z (map (fun _ => x) dp) (odd_gate sg) kd dl
      (map (sd_spec (half_gate sg) b dp) (seq 0 (length dp))) Lc Sm Lt Hd N1' N2' Er i Hi).
  - rewrite (C50_fortran_in_bounds (2 * h) (Fin 1) (map Fin cs) _ (fun _ => Fin 0)) in Er by (rewrite map_length; lia).
    destruct (C51_fortran_exact h b K c r0 d cs (fun _ => 0) (snd (env 0%nat)) n z (map (fun _ => x) dp) (odd_gate sg) kd dl
      (map (sd_spec (half_gate sg) b dp) (seq 0 (length dp))) Lc Sm Hh Lt Hd N1' N2' HB Er) as (A & B & C).
    split; [|split; [exact B|]].
    + intros i Hi. rewrite (A i Hi). specialize (FI i Hi).
      destruct (is_filtered _ _ _ _ _); split; intro Hc.
      * fold phase dp. unfold dp. rewrite (nth_indep _ 0 (phase 0%nat)) by (rewrite map_length, seq_length; lia).
        now rewrite map_nth, seq_nth by lia.
      * exfalso. apply Hc, FI; auto.
      * apply FI in Hc. discriminate.
      * reflexivity.
    + intros i Hi Hz Hk Hj. apply (C i Hi Hz Hk). intros j Hjj. pose proof (Hj j Hjj) as (J1 & J2 & J3).
      split; [lia|]. apply FI; [lia|]. exact (Hj j Hjj).
Qed.

(** ** C67 *)
Theorem C67_calc_kdp_bringi d z g x nf (b : R) (gs window : R) sg kd dl sd i v :
  bd = Cython -> gs <> 0 -> (toint (Fin (window * 1000 / gs)) = 2 \/ toint (Fin (window * 1000 / gs)) = 6 \/
                toint (Fin (window * 1000 / gs)) = 10)%Z ->
  calc_kdp_bringi bd toint firwin env (Some (N1 d)) (Some (N1 z)) (Some (N1 g)) (TNum x) nf (Fin b) (Fin gs) (Fin window) sg
    = Ok (Ray kd dl sd) ->
  (i < length d)%nat -> nth_error z i = Some (Fin v) -> 45 <= v -> nth_error kd i = Some (Fin b).
Proof.
  intros Eb Hgs Ho E Hi Hz Hv.
  assert (Hn : Ray kd dl sd <> NoneTriple) by discriminate.
  destruct (C54_every_ray bd toint firwin env _ _ _ (TNum x) nf (Fin b) (Fin gs) (Fin window) sg _ E Hn)
    as (order & gain & coef & Ef & _ & _ & G).
  destruct (G 0%nat kd dl sd eq_refl) as (d' & z' & g' & t & E1 & E2 & E3 & Et & Er).
  injection E1 as <-. injection E2 as <-. injection E3 as <-. rewrite !map_f32 in Er.
  assert (Hord : order = toint (Fin (window * 1000 / gs))).
  { unfold get_fir in Ef. rewrite (lit_fin 1000.0), fmul_fin, fdiv_fin in Ef by auto.
    cbn [Qnum Qden] in Ef. replace (window * (10000 / 10) / gs) with (window * 1000 / gs) in Ef by (field; auto).
    cbv zeta in Ef. destruct (negb _); [discriminate|]. destruct (firwin _ _ _); cbn [bind] in Ef; try discriminate.
    now injection Ef as <- <- <-. }
  refine (C67_no_kdp_in_heavy_rain _ _ d z g t nf _ kd dl sd i _ _ Er Hi _ _ _); cbn [p_order p_build];
    unfold at_; rewrite ?(nth_error_nth _ _ _ Hz).
  - exact Eb.
  - rewrite <- Hord in Ho. destruct Ho as [->|[->| ->]]; auto.
  - rewrite (lit_fin 45), fle_fin. apply Rleb_true. cbn [Qnum Qden]. lra.
  - rewrite (lit_fin 45), flt_fin. apply Rltb_false. cbn [Qnum Qden]. lra.
  - rewrite (lit_fin 35), flt_fin. apply Rltb_false. cbn [Qnum Qden]. lra.
Qed.

End Api.

(** Non-vacuity: a two-ray sweep with 500 m gates and the default 3 km window
    (order 6), and a ray for C51. *)
Example api_orders : 3 * 1000 / 500 = 6 /\ half_gate 11 = 5%nat /\ half_gate 12 = 5%nat /\ odd_gate 12 = 11%Z.
Proof. split; [lra|]. repeat split. Qed.
Example api_smoothing : smoothing [1/5; 1/5; 1/5; 1/5; 1/5] /\ length [1/5; 1/5; 1/5; 1/5; 1/5] = (2 * 2 + 1)%nat.
Proof. split; [split; [reflexivity|cbn; lra]|reflexivity]. Qed.
