(** * C53, C54, C66, C67, C68: state leaks, dispatch and parameters *)
From Coq Require Import Lia Arith Qreals.
From Verif Require Import Base.Num Base.ListFacts Base.Pointwise Base.QOps.
From Verif Require Import Model.Tables Model.Beta Model.Melt Model.Kdp.
From Verif Require Import Proofs.HidProofs Proofs.SummerProofs Proofs.KdpProofs.

Section LawFree.
Context {F : Type} {fo : FloatOps F}.

(** ** C53 *)
(** reflectivity that is neither the missing value nor in a class: NaN *)
Definition dz_nan (bad dz : F) : Prop := feq dz bad = false /\ classified dz = false.

(** without NaN at gate i, KDP there does not depend on the reflectivity of any
    other gate, nor on uninitialised memory *)
Theorem C53_local (p : par F) nadp0 nadp0' dp dz dz' rng thsd nf sg kd dl sd kd' dl' sd' i :
  calc_kdp_ray_fir p nadp0 dp dz rng thsd nf sg = Ok (kd, dl, sd) ->
  calc_kdp_ray_fir p nadp0' dp dz' rng thsd nf sg = Ok (kd', dl', sd') ->
  (i < length dp)%nat -> nth_error dz i = nth_error dz' i -> ~ dz_nan (p_bad p) (at_ dz i) ->
  sd = sd' /\ dl = dl' /\ nth_error kd i = nth_error kd' i.
Proof.
  intros E E' Hi Ez Nn.
  assert (Esd : sd = sd' /\ dl = dl').
  { unfold calc_kdp_ray_fir in E, E'. cbv zeta in E, E'.
    destruct (_ || _)%bool; [discriminate|]. destruct (_ || _)%bool; [discriminate|].
    apply bind_ok in E as (s & Es & E). apply bind_ok in E' as (s' & Es' & E'). rewrite Es in Es'. injection Es' as <-.
    apply bind_ok in E as (t & Et & E). apply bind_ok in E' as (t' & Et' & E'). rewrite Et in Et'. injection Et' as <-.
    apply bind_ok in E as (k & _ & E). apply bind_ok in E' as (k' & _ & E').
    injection E as <- <- <-. injection E' as <- <- <-. auto. }
  destruct Esd as (-> & ->). split; [auto|split; [auto|]].
  apply ray_ok in E. apply ray_ok in E'. cbv zeta in E, E'.
  destruct E as (_ & _ & _ & Lk & _ & _ & _ & _ & G). destruct E' as (_ & _ & _ & Lk' & _ & _ & _ & _ & G').
  specialize (G i Hi). specialize (G' i Hi).
  assert (Ea : at_ dz i = at_ dz' i).
  { unfold at_. destruct (nth_error dz i) as [x|] eqn:Ex; symmetry in Ez.
    - now rewrite (nth_error_nth _ _ _ Ex), (nth_error_nth _ _ _ Ez).
    - apply nth_error_None in Ex. apply nth_error_None in Ez. now rewrite !nth_overflow by lia. }
  rewrite !(nth_error_nth' _ fnan) by lia. fold (at_ kd i) (at_ kd' i). f_equal.
  unfold kd_val in *. rewrite <- Ea in G'. destruct (feq (at_ dz i) (p_bad p)) eqn:Eb; [congruence|].
  destruct (classified (at_ dz i)) eqn:Ec.
  - rewrite (new_nadp_classified _ _ _ (nadp_at (p_order p / 2) (p_bad p) dz nadp0 i) Ec) in G'. congruence.
  - exfalso. apply Nn. split; auto.
Qed.

(** with NaN there, the adaptive window is the one of the last gate before it
    whose reflectivity was neither missing nor NaN *)
Theorem C53_nan_gate (p : par F) nadp0 dp dz rng thsd nf sg kd dl sd i j :
  calc_kdp_ray_fir p nadp0 dp dz rng thsd nf sg = Ok (kd, dl, sd) ->
  (i < length dp)%nat -> dz_nan (p_bad p) (at_ dz i) ->
  (j < i)%nat -> feq (at_ dz j) (p_bad p) = false -> classified (at_ dz j) = true ->
  (forall k, (j < k < i)%nat -> feq (at_ dz k) (p_bad p) = true \/ dz_nan (p_bad p) (at_ dz k)) ->
  Ok (at_ kd i) = kd_gate (p_build p) (p_bad p) rng dl (new_nadp (p_order p / 2) (at_ dz j) 0) i.
Proof.
  intros E Hi (Nb & Nc) Hj Bj Cj Hk. apply ray_ok in E. cbv zeta in E. destruct E as (_ & _ & _ & _ & _ & _ & _ & _ & G).
  specialize (G i Hi). unfold kd_val in G. rewrite Nb in G. rewrite <- G. f_equal.
  assert (NN : forall z m, classified z = false -> new_nadp (p_order p / 2) z m = m).
  { intros z m C. unfold classified in C. apply orb_false_iff in C as (C & C3). apply orb_false_iff in C as (C1 & C2).
    unfold new_nadp. now rewrite C1, C2, C3. }
  rewrite NN by auto.
  assert (I : forall k, (j < k <= i)%nat -> nadp_at (p_order p / 2) (p_bad p) dz nadp0 k = new_nadp (p_order p / 2) (at_ dz j) 0).
  { intros k. induction k as [|k IH]; intro Hk'; [lia|]. cbn [nadp_at]. cbv zeta.
    destruct (Nat.eq_dec k j) as [->|Nj].
    - rewrite Bj. now apply new_nadp_classified.
    - destruct (Hk k) as [B|(B & C)]; [lia| |].
      + rewrite B. apply IH. lia.
      + rewrite B, NN by auto. apply IH. lia. }
  apply I. lia.
Qed.

(** ** C54 *)
Variable bd : build.
Variable toint : F -> Z.
Variable firwin : Z -> F -> F -> res (list F).
Variable env : nat -> (nat -> F) * Z.

Definition order_of (gs window : F) : Z := toint (fdiv (fmul window (flit 1000.0)) gs).

Theorem C54_missing_input dp dz rng thsd nf bad gs window sg :
  dp = None \/ dz = None \/ rng = None ->
  calc_kdp_bringi bd toint firwin env dp dz rng thsd nf bad gs window sg = PyNone.
Proof. unfold calc_kdp_bringi. destruct dp, dz, rng; intros [?|[?|?]]; try discriminate; reflexivity. Qed.

(** the number of dimensions of an argument *)
Inductive has_dims : nd F -> nat -> Prop :=
  | dims0 x : has_dims (N0 x) 0 | dims1 l : has_dims (N1 l) 1 | dims2 rows : has_dims (N2 rows) 2 | dims3 : has_dims N3 3.
Lemma dims_ndim a n : has_dims a n -> ndim a = n.
Proof. now destruct 1. Qed.
Theorem C54_dimension_mismatch dp dz rng d1 d2 d3 thsd nf bad gs window sg :
  has_dims dp d1 -> has_dims dz d2 -> has_dims rng d3 -> d1 <> d2 \/ d1 <> d3 ->
  calc_kdp_bringi bd toint firwin env (Some dp) (Some dz) (Some rng) thsd nf bad gs window sg = PyNone.
Proof.
  intros D1 D2 D3 D. apply dims_ndim in D1, D2, D3. subst. unfold calc_kdp_bringi.
  destruct (Nat.eqb_spec (ndim dp) (ndim dz)), (Nat.eqb_spec (ndim dp) (ndim rng)); try reflexivity. intuition.
Qed.
(** neither 1-D nor 2-D *)
Theorem C54_other_dimensions dp dz rng d thsd nf bad gs window sg order gain coef :
  has_dims dp d -> has_dims dz d -> has_dims rng d -> (d <> 1)%nat -> (d <> 2)%nat ->
  get_fir toint firwin gs window = Ok (order, gain, coef) -> (0 <= order)%Z ->
  calc_kdp_bringi bd toint firwin env (Some dp) (Some dz) (Some rng) thsd nf bad gs window sg = PyNone.
Proof.
  intros D1 D2 D3 N1' N2' E Ho. unfold calc_kdp_bringi. rewrite (dims_ndim _ _ D1), (dims_ndim _ _ D2), (dims_ndim _ _ D3), Nat.eqb_refl.
  cbn [andb negb]. cbv zeta. rewrite E. destruct (Z.ltb_spec order 0); [lia|].
  destruct D1; try congruence; reflexivity.
Qed.

Theorem C54_odd_order dp dz rng thsd nf bad gs window sg :
  forall d, has_dims dp d -> has_dims dz d -> has_dims rng d -> Z.odd (order_of gs window) = true ->
  calc_kdp_bringi bd toint firwin env (Some dp) (Some dz) (Some rng) thsd nf bad gs window sg = Ok NoneTriple.
Proof.
  intros d D1 D2 D3 O. unfold calc_kdp_bringi. rewrite (dims_ndim _ _ D1), (dims_ndim _ _ D2), (dims_ndim _ _ D3), Nat.eqb_refl. cbn [andb negb]. cbv zeta.
  unfold get_fir. fold (order_of gs window). rewrite Zodd_mod in O. apply Zeq_bool_eq in O.
  cbv zeta. rewrite O. reflexivity.
Qed.

Theorem C54_even_std_gate dp dz rng thsd nf bad gs window sg :
  Z.even sg = true ->
  calc_kdp_bringi bd toint firwin env dp dz rng thsd nf bad gs window sg
  = calc_kdp_bringi bd toint firwin env dp dz rng thsd nf bad gs window 11.
Proof.
  intro E. rewrite Zeven_mod in E. apply Zeq_bool_eq in E. unfold calc_kdp_bringi. rewrite E. reflexivity.
Qed.

(** 1-D data, scalar threshold: the compiled routine on the float32 arrays *)
Theorem C54_one_ray dp dz rng x nf bad gs window sg order gain coef :
  get_fir toint firwin gs window = Ok (order, gain, coef) -> (0 <= order)%Z -> Z.odd sg = true ->
  calc_kdp_bringi bd toint firwin env (Some (N1 dp)) (Some (N1 dz)) (Some (N1 rng)) (TNum x) nf bad gs window sg
  = (o <- calc_kdp_ray_fir (mkpar bd (Z.to_nat order) gain coef (fst (env 0%nat)) (f32 bad)) (snd (env 0%nat))
       (map f32 dp) (map f32 dz) (map f32 rng) (map (fun _ => f32 x) dp) nf sg ;;
     Ok (Ray (fst (fst o)) (snd (fst o)) (snd o))).
Proof.
  intros E Ho Os. unfold calc_kdp_bringi. cbn [ndim Nat.eqb andb negb]. cbv zeta. rewrite E.
  destruct (Z.ltb_spec order 0); [lia|].
  rewrite Zodd_mod in Os. apply Zeq_bool_eq in Os. rewrite Os. cbn [Z.eqb Pos.eqb negb bind]. rewrite map_map. reflexivity.
Qed.

(** 2-D data: ray r of the three outputs is what the 1-D call on ray r gives
    (in the memory environment of that ray): no ray influences another *)
Theorem C54_rays_independent dps dzs rngs thsd nf bad gs window sg kd dl sd r :
  calc_kdp_bringi bd toint firwin env (Some (N2 dps)) (Some (N2 dzs)) (Some (N2 rngs)) thsd nf bad gs window sg
    = Ok (Sweep kd dl sd) ->
  (r < length dps)%nat ->
  length kd = length dps /\ length dl = length dps /\ length sd = length dps /\
  calc_kdp_bringi bd toint firwin (fun _ => env r) (Some (N1 (nth r dps []))) (Some (N1 (nth r dzs []))) (Some (N1 (nth r rngs [])))
    (match thsd with TNum x => TNum x | T1 s l => T1 s l | T2 s rows => T1 s (nth r rows []) end) nf bad gs window sg
  = Ok (Ray (nth r kd []) (nth r dl []) (nth r sd [])).
Proof.
  unfold calc_kdp_bringi. cbn [ndim Nat.eqb andb negb]. cbv zeta. intros E Hr.
  destruct (get_fir toint firwin gs window) as [((order & gain) & coef)| | | |]; try discriminate.
  destruct (order <? 0)%Z; [discriminate|]. apply bind_ok in E as (out & E & Eo). injection Eo as <- <- <-.
  apply mapM_ok in E as (Lo & G). rewrite seq_length in Lo.
  rewrite !map_length. split; [auto|split; [auto|split; [auto|]]].
  destruct (G r r (seq_nth_error _ _ Hr)) as (o & Eo & Er).
  destruct (nth_error dzs r) as [z|] eqn:Ez; [|discriminate]. destruct (nth_error rngs r) as [g|] eqn:Eg; [|discriminate].
  apply bind_ok in Er as (t & Et & Er).
  rewrite (nth_error_nth _ _ _ Ez), (nth_error_nth _ _ _ Eg).
  assert (Et' : (match (match thsd with TNum x => TNum x | T1 s l => T1 s l | T2 s rows => T1 s (nth r rows []) end) with
     | TNum x => Ok (map (fun _ => f32 x) (map f32 (nth r dps [])))
     | T1 single t => as_single bd single t | T2 _ _ => Raise ValueError end) = Ok t).
  { destruct thsd as [x|s l|s rows]; auto; [destruct (nth_error l r), bd; discriminate|]. destruct (nth_error rows r) as [row|] eqn:Ew; [|discriminate].
    now rewrite (nth_error_nth _ _ _ Ew). }
  rewrite Et'. cbn [bind]. rewrite Er. cbn [bind].
  do 2 f_equal; symmetry;
    (apply nth_error_nth; rewrite map_nth_error', Eo; reflexivity).
Qed.

(** ** C66 *)
(** the documentation allows a vector of thresholds; a float64 vector is refused
    by the Cython build *)
Theorem C66_float64_thresholds_refused dp dz rng th nf bad gs window sg order gain coef :
  bd = Cython -> get_fir toint firwin gs window = Ok (order, gain, coef) -> (0 <= order)%Z ->
  calc_kdp_bringi bd toint firwin env (Some (N1 dp)) (Some (N1 dz)) (Some (N1 rng)) (T1 false th) nf bad gs window sg
  = Raise ValueError.
Proof.
  intros -> E Ho. unfold calc_kdp_bringi. cbn [ndim Nat.eqb andb negb]. cbv zeta. rewrite E.
  destruct (Z.ltb_spec order 0); [lia|]. reflexivity.
Qed.
(** and a vector of any kind is refused with two-dimensional data *)
Theorem C66_vector_thresholds_refused_for_sweeps dps dzs rngs single th nf bad gs window sg order gain coef :
  bd = Cython -> get_fir toint firwin gs window = Ok (order, gain, coef) -> (0 <= order)%Z ->
  dps <> [] -> dzs <> [] -> rngs <> [] -> th <> [] ->
  calc_kdp_bringi bd toint firwin env (Some (N2 dps)) (Some (N2 dzs)) (Some (N2 rngs)) (T1 single th) nf bad gs window sg
  = Raise ValueError.
Proof.
  intros -> E Ho H1 H2 H3 H4. unfold calc_kdp_bringi. cbn [ndim Nat.eqb andb negb]. cbv zeta. rewrite E.
  destruct (Z.ltb_spec order 0); [lia|]. destruct dps as [|d dps]; [contradiction|]. destruct dzs as [|z dzs]; [contradiction|].
  destruct rngs as [|g rngs]; [contradiction|]. destruct th as [|t th]; [contradiction|]. reflexivity.
Qed.

(** a float32 vector of equal values does what the scalar does *)
Theorem C66_float32_thresholds dp dz rng x nf bad gs window sg order gain coef :
  get_fir toint firwin gs window = Ok (order, gain, coef) -> (0 <= order)%Z ->
  bd = Cython ->
  calc_kdp_bringi bd toint firwin env (Some (N1 dp)) (Some (N1 dz)) (Some (N1 rng)) (T1 true (map (fun _ => f32 x) dp)) nf bad gs window sg
  = calc_kdp_bringi bd toint firwin env (Some (N1 dp)) (Some (N1 dz)) (Some (N1 rng)) (TNum x) nf bad gs window sg.
Proof.
  intros E Ho ->. unfold calc_kdp_bringi. cbn [ndim Nat.eqb andb negb]. cbv zeta. rewrite E.
  destruct (Z.ltb_spec order 0); [lia|]. cbn [as_single bind]. rewrite map_map. reflexivity.
Qed.

End LawFree.

(** ** C67 *)
Section LawFree67.
Context {F : Type} {fo : FloatOps F}.
(** Cython build, filter order 2, 6 or 10 (e.g. 500 m gates and the default 3 km
    window): no KDP anywhere at 45 dBZ and above *)
Theorem C67_no_kdp_in_heavy_rain (p : par F) nadp0 dp dz rng thsd nf sg kd dl sd i :
  p_build p = Cython -> (p_order p = 2 \/ p_order p = 6 \/ p_order p = 10)%nat ->
  calc_kdp_ray_fir p nadp0 dp dz rng thsd nf sg = Ok (kd, dl, sd) -> (i < length dp)%nat ->
  fle (flit 45) (at_ dz i) = true -> flt (at_ dz i) (flit 45) = false -> flt (at_ dz i) (flit 35) = false ->
  nth_error kd i = Some (p_bad p).
Proof.
  intros Eb Ho E Hi H45 N45 N35. apply ray_ok in E. cbv zeta in E. destruct E as (_ & _ & _ & Lk & _ & _ & _ & _ & G).
  specialize (G i Hi). rewrite (nth_error_nth' _ fnan) by lia. fold (at_ kd i). f_equal.
  unfold kd_val in G. destruct (feq (at_ dz i) (p_bad p)); [congruence|].
  assert (En : forall h m, new_nadp h (at_ dz i) m = Z.of_nat h).
  { intros h m. unfold new_nadp. rewrite H45, N45, N35. now rewrite andb_false_r. }
  rewrite En, kd_gate_eq, Eb in G. cbv zeta in G.
  set (js := kd_valid Cython (p_bad p) dl (Z.of_nat (p_order p / 2)) i) in *.
  assert (L : (length js <= Z.to_nat (2 * half_of Cython (Z.of_nat (p_order p / 2)) + 0))%nat).
  { unfold js, kd_valid. etransitivity; [apply filter_len|]. apply (kd_js_len Cython). }
  assert (C : (4 * Z.of_nat (p_order p / 2) <? 5 * Z.of_nat (length js))%Z = false).
  { apply Z.ltb_ge. clearbody js. destruct Ho as [Ho|[Ho|Ho]]; rewrite Ho in *; [change (2 / 2)%nat with 1%nat in *|change (6 / 2)%nat with 3%nat in *|change (10 / 2)%nat with 5%nat in *];
      [change (half_of Cython (Z.of_nat 1)) with 0%Z in L|change (half_of Cython (Z.of_nat 3)) with 1%Z in L|change (half_of Cython (Z.of_nat 5)) with 2%Z in L]; lia. }
  rewrite C in G. destruct (500 <? length js)%nat; [discriminate|]. congruence.
Qed.

(** ** C68 *)
(** -1 % 2 is 1 in Python, so a negative odd std_gate is let through *)
Theorem C68_negative_std_gate (p : par F) nadp0 dp dz rng thsd nf sg :
  p_build p = Cython -> dp <> [] ->
  (length dp <= length dz)%nat -> (length dp <= length rng)%nat -> (length dp <= length thsd)%nat ->
  Z.odd sg = true -> (sg < 0)%Z ->
  calc_kdp_ray_fir p nadp0 dp dz rng thsd nf sg = Raise ZeroDivisionError.
Proof.
  intros Eb Nn H1 H2 H3 Os Hs. unfold calc_kdp_ray_fir. cbv zeta.
  destruct (Nat.ltb_spec (length dz) (length dp)); [lia|].
  destruct (Nat.ltb_spec (length rng) (length dp)); [lia|].
  destruct (Nat.ltb_spec (length thsd) (length dp)); [lia|]. cbn [orb]. rewrite Eb. cbn [half_of].
  set (h := ((sg - 1) / 2)%Z). assert (Hh : (h < 0)%Z) by (apply Z.div_lt_upper_bound; lia).
  assert (E0 : sd_gate Cython h (p_bad p) dp 0 = Raise ZeroDivisionError).
  { unfold sd_gate. cbv zeta. destruct (Z.leb_spec 0 (Z.of_nat 0 - h)); [|lia].
    destruct (Z.leb_spec (Z.of_nat 0 + h) (Z.of_nat (length dp) - 1)); [|lia]. cbn [andb].
    assert (W : window dp (Z.of_nat 0) h = []).
    { unfold window. replace (zrange (Z.of_nat 0 - h) (Z.of_nat 0 + h + 1)) with (@nil Z); auto.
      unfold zrange. replace (Z.to_nat (Z.of_nat 0 + h + 1 - (Z.of_nat 0 - h))) with 0%nat by lia. reflexivity. }
    rewrite W. cbn [sd_loop fold_left d_n]. destruct (Z.ltb_spec h (Z.of_nat 0)); [reflexivity|lia]. }
  destruct dp as [|x dp]; [contradiction|]. cbn [length seq mapM]. rewrite E0. reflexivity.
Qed.
End LawFree67.

(** ** Concrete rays *)
Definition q_of (n : nat) : option Q := Some (inject_Z (Z.of_nat n)).
Definition sq_dp : list (option Q) := map (fun j => q_of (j * j * j)) (seq 0 14).
Definition sq_rng : list (option Q) := map q_of (seq 0 14).
Definition q_par : par (option Q) := mkpar Cython 4 (Some 1%Q) [] (fun _ => None) (Some (-9)%Q).
(** reflectivity missing except at gate 3; NaN at gate 7 *)
Definition q_dz (z : Q) : list (option Q) :=
  map (fun j => if (j =? 3)%nat then Some z else if (j =? 7)%nat then None else Some (-9)%Q) (seq 0 14).
Definition q_th : list (option Q) := map (fun _ => Some 12%Q) (seq 0 14).

(** C53: the two rays differ only in the reflectivity of gate 3, KDP of gate 7
    differs: 63.5 (window of 2 gates) against 65.9 (6 gates) *)
Definition kd7 (r : res (list (option Q) * list (option Q) * list (option Q))) : option Q :=
  match r with Ok (kd, _, _) => nth 7 kd None | _ => None end.
Theorem C53_leak_witness :
  kd7 (calc_kdp_ray_fir q_par 0 sq_dp (q_dz 50%Q) sq_rng q_th 0 11) = Some (Qmake 127 2) /\
  kd7 (calc_kdp_ray_fir q_par 0 sq_dp (q_dz 20%Q) sq_rng q_th 0 11) = Some 65.9%Q.
Proof. vm_compute. split; reflexivity. Qed.
(** with NaN at gate 7 and nothing before it, the result depends on the content
    of uninitialised memory *)
Theorem C53_uninitialised_witness :
  kd7 (calc_kdp_ray_fir q_par 2 sq_dp (q_dz (-9)%Q) sq_rng q_th 0 11) = Some (Qmake 127 2) /\
  kd7 (calc_kdp_ray_fir q_par 6 sq_dp (q_dz (-9)%Q) sq_rng q_th 0 11) = Some 65.9%Q.
Proof. vm_compute. split; reflexivity. Qed.
(** C53: the hypotheses of both general theorems hold on these rays *)
Example C53_example :
  (exists o, calc_kdp_ray_fir q_par 0 sq_dp (q_dz 50%Q) sq_rng q_th 0 11 = Ok o) /\
  dz_nan (p_bad q_par) (at_ (q_dz 50%Q) 7) /\ classified (at_ (q_dz 50%Q) 3) = true /\
  feq (at_ (q_dz 50%Q) 3) (p_bad q_par) = false /\ ~ dz_nan (p_bad q_par) (at_ (q_dz 50%Q) 3).
Proof. repeat split; try (vm_compute; eauto; fail). intros (_ & X). discriminate X. Qed.

(** C54: a sweep of two rays, default window on 150 m gates (order 20) and on
    200 m gates with window 3 (order 15, odd) *)
Definition q_toint (x : option Q) : Z := match x with Some q => Z.quot (Qnum q) (Zpos (Qden q)) | None => 0 end.
Definition q_firwin (n : Z) (_ _ : option Q) : res (list (option Q)) := Ok (repeat (Some 1%Q) (Z.to_nat n)).
Definition q_env (r : nat) : (nat -> option Q) * Z := (fun _ => None, 0%Z).
Definition q_call gs window thsd sg :=
  calc_kdp_bringi Cython q_toint q_firwin q_env (Some (N2 [sq_dp; sq_rng])) (Some (N2 [q_dz 50%Q; q_dz 20%Q]))
    (Some (N2 [sq_rng; sq_rng])) thsd 0 (Some (-9)%Q) (Some gs) (Some window) sg.
Example C54_example :
  (exists kd dl sd, q_call 750 3 (TNum (Some 12%Q)) 11 = Ok (Sweep kd dl sd)) /\
  q_call 200 3 (TNum (Some 12%Q)) 11 = Ok NoneTriple /\
  q_call 750 3 (TNum (Some 12%Q)) 8 = q_call 750 3 (TNum (Some 12%Q)) 11 /\
  get_fir q_toint q_firwin (Some 150%Q) (Some 3%Q) = Ok (20%Z, Some 1.0%Q, repeat (Some 1%Q) 21).
Proof. vm_compute. repeat split. do 3 eexists. reflexivity. Qed.
(** C66 *)
Example C66_example :
  calc_kdp_bringi Cython q_toint q_firwin q_env (Some (N1 sq_dp)) (Some (N1 (q_dz 50%Q))) (Some (N1 sq_rng)) (T1 false q_th) 0
    (Some (-9)%Q) (Some 150%Q) (Some 3%Q) 11 = Raise ValueError.
Proof. reflexivity. Qed.
(** C67: order 6; the ray has KDP at 40 dBZ and none at 50 dBZ *)
Definition q_par6 bd : par (option Q) := mkpar bd 6 (Some 1%Q) [] (fun _ => None) (Some (-9)%Q).
Example C67_example :
  kd7 (calc_kdp_ray_fir (q_par6 Cython) 0 sq_dp (map (fun _ => Some 40%Q) sq_dp) sq_rng q_th 0 11) = Some 65.9%Q /\
  kd7 (calc_kdp_ray_fir (q_par6 Cython) 0 sq_dp (map (fun _ => Some 50%Q) sq_dp) sq_rng q_th 0 11) = Some (-9)%Q /\
  kd7 (calc_kdp_ray_fir (q_par6 Fortran) 0 sq_dp (map (fun _ => Some 50%Q) sq_dp) sq_rng q_th 0 11) = Some 74%Q.
Proof. vm_compute. repeat split. Qed.
(** C68 *)
Example C68_example : calc_kdp_ray_fir q_par 0 sq_dp (q_dz 50%Q) sq_rng q_th 0 (-1) = Raise ZeroDivisionError.
Proof. reflexivity. Qed.
