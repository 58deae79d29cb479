(** * Property C111: masked arrays in the quality-control filters and the Z-R rain rate

    Law-free: [F] is any type of floats (IEEE included). *)
From Verif Require Import Base.Num Base.ListFacts Base.QOps.
From Verif Require Import Model.Misc Model.Masked Spec.MiscSpec Proofs.MiscProofs Properties.P01_Misc.
From Verif Require Model.Common Properties.P02_Rain.
Open Scope nat_scope.

Section C111.
Context {F : Type} `{FloatOps F}.

(** a masked array is well formed when data and mask fit together *)
Definition ma_ok (x : marr F) : Prop :=
  length (mdata x) = prod (mshape x) /\ length (mmask x) = length (mdata x).
(** the array with [v] in every masked gate (numpy's [x.filled(v)]) *)
Definition filled (v : F) (x : marr F) : arr F :=
  mkarr (madt x) (mshape x) (map2 (fun (m : bool) y => if m then v else y) (mmask x) (mdata x)).

(** despeckle: the answer is that for the array whose masked gates are filled
    with any value other than [bad] -- masked gates count as echo -- and nothing
    in it is masked. *)
Theorem C111_despeckle_masked_is_echo : forall (x : marr F) (bad : F) (ngates : Z) (v : F),
  ma_ok x -> feq v bad = false ->
  despeckle_ma x bad ngates =
  match despeckle (AArr (filled v x)) bad ngates with
  | Ok (sh, flags) => Ok (sh, (flags, map (fun _ => false) flags))
  | PyNone => PyNone
  | Raise e => Raise e | Fault => Fault | Unmodelled => Unmodelled
  end.
Proof.
  intros [dt sh d mk] bad n v [_ L] Hv. cbn [mshape mdata mmask] in L.
  unfold despeckle_ma, despeckle, filled, ma_eq, plain, lnot. cbn [mshape mdata mmask adata ashape fst snd].
  set (ones := map2 _ (map negb _) _).
  assert (E : ones = map negb (map (fun y => feq y bad) (map2 (fun (m : bool) y => if m then v else y) mk d))).
  { unfold ones. clear ones. revert d L. induction mk as [|m mk IH]; intros [|y d] L; try discriminate; [reflexivity|].
    injection L as L. cbn [map2 map]. rewrite IH by exact L.
    destruct m; [rewrite Hv; reflexivity|destruct (feq y bad); reflexivity]. }
  rewrite E. destruct sh as [|a [|b [|c s]]]; reflexivity.
Qed.
(** so the values under the mask have no influence *)
Theorem C111_despeckle_ignores_masked_values : forall (x y : marr F) (bad : F) (ngates : Z),
  ma_ok x -> ma_ok y -> mshape x = mshape y -> mmask x = mmask y ->
  (forall i, nth_error (mmask x) i = Some false -> nth_error (mdata x) i = nth_error (mdata y) i) ->
  despeckle_ma x bad ngates = despeckle_ma y bad ngates.
Proof.
  intros [dt sh d mk] [dt' sh' d' mk'] bad n [_ L] [_ L'] S M G. cbn [mshape mdata mmask] in *. subst sh' mk'.
  unfold despeckle_ma, ma_eq. cbn [mshape mdata mmask fst snd].
  assert (E : map2 (fun (m : bool) (y : F) => if m then flit 1 else y) mk d =
              map2 (fun (m : bool) (y : F) => if m then flit 1 else y) mk d').
  { clear -L L' G. revert d d' L L' G. induction mk as [|m mk IH]; intros [|y d] [|y' d'] L L' G; try discriminate; [reflexivity|].
    injection L as L. injection L' as L'. cbn [map2]. rewrite (IH d d' L L' (fun i => G (S i))).
    destruct m; [reflexivity|]. specialize (G 0 eq_refl). injection G as ->. reflexivity. }
  rewrite E. reflexivity.
Qed.
(** A gate of a masked ray is kept exactly when it lies in a run of more than
    [ngates] gates each of which is masked or differs from [bad]. *)
Theorem C111_despeckle_ray : forall dt (data : list F) (mask : list bool) (bad v : F) (ngates : Z),
  length mask = length data -> feq v bad = false ->
  exists flags, despeckle_ma (mkma dt [length data] data mask) bad ngates
      = Ok ([length data], (flags, map (fun _ => false) flags)) /\ length flags = length data /\
    forall i, i < length data ->
      (nth_error flags i = Some false <->
       exists lo hi, lo <= i < hi /\ hi <= length data /\ (ngates < Z.of_nat hi - Z.of_nat lo)%Z /\
         forall j, lo <= j < hi -> nth_error mask j = Some true \/
                                   exists x, nth_error data j = Some x /\ feq x bad = false).
Proof.
  intros dt data mask bad v n L Hv.
  set (f := map2 (fun (m : bool) y => if m then v else y) mask data).
  assert (Lf : length f = length data) by (unfold f; rewrite map2_length; lia).
  destruct (C01_despeckle_kept_iff_in_long_run dt f bad n) as (flags & E & A & B). rewrite Lf in *.
  exists flags. rewrite (C111_despeckle_masked_is_echo (mkma dt [length data] data mask) bad n v).
  2:{ split; [cbn; lia|exact L]. } 2:{ exact Hv. }
  unfold filled. cbn [madt mshape mmask mdata]. fold f. rewrite E. split; [reflexivity|]. split; [exact A|].
  intros i Hi. rewrite (B i Hi). unfold in_long_run. split.
  - intros (lo & hi & R & N & G). exists lo, hi. split; [exact R|].
    assert (Hh : hi <= length data).
    { destruct (Nat.le_gt_cases hi (length data)); auto. destruct (G (hi - 1)) as (x & X & _); [lia|].
      apply nth_error_lt in X. lia. }
    split; [exact Hh|]. split; [exact N|].
    intros j Hj. destruct (G j Hj) as (x & X & Gx). unfold f in X. rewrite map2_nth_error in X.
    destruct (nth_error mask j) as [[]|]; [auto| |discriminate].
    destruct (nth_error data j) as [y|]; [|discriminate]. injection X as ->. right. eauto.
  - intros (lo & hi & R & Hh & N & G). exists lo, hi. split; [exact R|]. split; [exact N|].
    intros j Hj. destruct (@nth_error_map_some _ data j) as [y Ey]; [lia|].
    destruct (nth_error_length_eq data mask j (eq_sym L) Ey) as [m Em].
    unfold f. rewrite map2_nth_error, Em, Ey. destruct m; [eauto|].
    destruct (G j Hj) as [X|(x & X & Gx)]; [congruence|]. exists y. split; [reflexivity|congruence].
Qed.
(** a wholly masked ray longer than [ngates] keeps every gate *)
Theorem C111_despeckle_all_masked : forall dt (data : list F) (bad v : F) (ngates : Z) i,
  (ngates < Z.of_nat (length data))%Z -> feq v bad = false -> i < length data ->
  exists flags, despeckle_ma (mkma dt [length data] data (map (fun _ => true) data)) bad ngates
      = Ok ([length data], (flags, map (fun _ => false) flags)) /\ nth_error flags i = Some false.
Proof.
  intros dt data bad v n i N Hv Hi.
  destruct (C111_despeckle_ray dt data (map (fun _ => true) data) bad v n) as (flags & E & _ & G); [apply map_length|exact Hv|].
  exists flags. split; [exact E|]. apply (G i Hi). exists 0, (length data). split; [lia|]. split; [lia|]. split; [lia|].
  intros j Hj. left. rewrite map_nth_error'. destruct (@nth_error_map_some _ data j) as [y ->]; [lia|]. reflexivity.
Qed.

(** second_trip_filter_magnetron: a masked gate is never flagged and stays
    masked; another gate is flagged iff it equals [bad]. *)
Theorem C111_second_trip : forall (vr : marr F) (bad : F), ma_ok vr ->
  let out := second_trip_filter_magnetron_ma vr bad in
  snd out = mmask vr /\
  forall i x m, nth_error (mdata vr) i = Some x -> nth_error (mmask vr) i = Some m ->
    (nth_error (fst out) i = Some true <-> m = false /\ feq x bad = true).
Proof.
  intros vr bad [_ L]. split; [reflexivity|]. intros i x m Ex Em. cbn [second_trip_filter_magnetron_ma ma_eq fst].
  rewrite map2_nth_error, Em, Ex. destruct m; split; try congruence; intros; intuition congruence.
Qed.

(** differential_phase_filter and calc_rain_nexrad read the data under the mask;
    the filter keeps the mask, the rain rate loses it. *)
Theorem C111_differential_phase : forall (sdp : marr F) dt (t : F),
  exists flags, differential_phase_filter (mkarr (madt sdp) (mshape sdp) (mdata sdp)) (AScalar dt t) = Ok flags /\
    differential_phase_filter_ma sdp t = (flags, mmask sdp).
Proof. intros. eexists. split; reflexivity. Qed.
Theorem C111_nexrad_ignores_mask : forall (dz : marr F) (thresh a b : F),
  let out := calc_rain_nexrad_ma dz thresh a b in
  fst out = mshape dz /\ length (snd out) = length (mdata dz) /\
  forall i d, nth_error (mdata dz) i = Some d -> nth_error (snd out) i = Some
    (let d' := if flt thresh d then thresh else d in
     fpow (fdiv (fpow (flit 10) (fdiv d' (flit 10))) a) (fdiv (flit 1) b)).
Proof.
  intros [dt sh d mk] thresh a b. destruct (P02_Rain.C07_nexrad_gate_by_gate (mkarr dt sh d) thresh a b) as (out & E & L & G).
  unfold Common.calc_rain_nexrad in E. injection E as E. cbn [adata] in *. cbv zeta.
  assert (E' : snd (calc_rain_nexrad_ma (mkma dt sh d mk) thresh a b) = out) by exact E. rewrite E'.
  split; [reflexivity|]. split; [exact L|].
  intros i y Ey. rewrite (G i y Ey). destruct (flt thresh y); reflexivity.
Qed.

(** ** insect_filter *)
Lemma conds_ma (dz zdr : marr F) rs ts : forall i acc,
  match insect_conds_ma dz zdr rs ts i acc with
  | Ok c => insect_conds (mdata dz) (mdata zdr) rs ts i (map fst acc) = Ok (map fst c) /\
            exists k, c = acc ++ k /\ length k = length ts /\
              forall x, In x k -> snd x = lor (lor (mmask dz) (mmask dz)) (mmask zdr)
  | Raise e => insect_conds (mdata dz) (mdata zdr) rs ts i (map fst acc) = Raise e
  | _ => False
  end.
Proof.
  induction ts as [|t ts IH]; intros i acc; cbn [insect_conds_ma insect_conds].
  - split; [reflexivity|]. exists []. rewrite app_nil_r. split; [reflexivity|]. split; [reflexivity|]. intros x [].
  - destruct (nth_error rs i) as [[lo hi]|]; [|reflexivity].
    specialize (IH (S i) (acc ++ [ma_and (ma_and (ma_cmp (fun d => flt lo d) dz) (ma_cmp (fun d => fle d hi) dz)) (ma_cmp (fun r => fle t r) zdr)])).
    destruct (insect_conds_ma _ _ _ _ _ _) as [c| |e| |]; try contradiction.
    + rewrite map_app in IH. cbn [map ma_and ma_cmp fst snd] in IH. destruct IH as (E & k & -> & Lk & G).
      split; [exact E|]. rewrite <- app_assoc. eexists. split; [reflexivity|]. cbn [app length]. split; [lia|].
      intros x [<-|X]; [reflexivity|]. auto.
    + rewrite map_app in IH. exact IH.
Qed.
Lemma fold_ma (c : list mbool) : forall m, fst (fold_left ma_or c m) = fold_left lor (map fst c) (fst m) /\
  snd (fold_left ma_or c m) = fold_left lor (map snd c) (snd m).
Proof. induction c as [|x c IH]; intro m; [split; reflexivity|]. cbn [fold_left map]. destruct (IH (ma_or m x)) as [-> ->]. split; reflexivity. Qed.

(** The result is masked exactly where dz or zdr is.  A gate is True (in the
    data, which is what boolean indexing uses) iff the given mask is True there
    or, when no mask is given, dz or zdr is an unmasked [bad] there; or the
    values of dz and zdr -- also values under the mask -- are in some interval
    and above its threshold. *)
Theorem C111_insect : forall (dz zdr : marr F) height (mask : option (list bool)) dz_range dr_thresh (bad : F),
  ma_ok dz -> ma_ok zdr -> mshape dz = mshape zdr ->
  (forall m, mask = Some m -> length m = length (mdata dz)) -> length dr_thresh <= length dz_range ->
  exists flags masked, insect_filter_ma dz zdr height mask dz_range dr_thresh bad = Ok (flags, masked) /\
    length flags = length (mdata dz) /\ length masked = length (mdata dz) /\
    forall i d r md mr, nth_error (mdata dz) i = Some d -> nth_error (mdata zdr) i = Some r ->
      nth_error (mmask dz) i = Some md -> nth_error (mmask zdr) i = Some mr ->
      (mask = None \/ dr_thresh <> [] -> nth_error masked i = Some (md || mr)%bool) /\
      (nth_error flags i = Some true <->
       match mask with
       | Some m => nth_error m i = Some true
       | None => (md = false /\ feq d bad = true) \/ (mr = false /\ feq r bad = true)
       end \/
       exists k lo hi t, nth_error dz_range k = Some (lo, hi) /\ nth_error dr_thresh k = Some t /\
         flt lo d = true /\ fle d hi = true /\ fle t r = true).
Proof.
  intros dz zdr h mask rs ts bad [P1 L1] [P2 L2] S Lm Lt.
  assert (L3 : length (mdata dz) = length (mdata zdr)) by congruence.
  unfold insect_filter_ma. rewrite S, shape_eqb_refl. cbn [negb].
  set (m0 := match mask with None => _ | Some m => _ end).
  assert (Lm0 : length (fst m0) = length (mdata dz) /\ length (snd m0) = length (mdata dz)).
  { unfold m0. destruct mask as [m|].
    - cbn [plain fst snd]. rewrite map_length. auto.
    - cbn [ma_or ma_eq fst snd]. unfold lor. rewrite !map2_length. lia. }
  pose proof (conds_ma dz zdr rs ts 0 []) as C. cbn [map] in C.
  rewrite insect_conds_ok in C by lia.
  destruct (insect_conds_ma dz zdr rs ts 0 []) as [c| |e| |]; try contradiction; [|discriminate].
  destruct C as (E & k & Ek & Lk & G). cbn [app] in Ek. subst k. injection E as E. cbn [skipn] in E.
  destruct (fold_ma c m0) as [F1 F2]. cbn [bind].
  destruct (C05_insect_filter_exact (mkarr (madt dz) (mshape dz) (mdata dz)) (mkarr (madt zdr) (mshape zdr) (mdata zdr)) h (Some (fst m0)) rs ts bad)
    as (out & E1 & Lo & Go); cbn [ashape adata]; auto.
  { intros m X. injection X as <-. apply Lm0. }
  unfold insect_filter in E1. cbn [ashape adata] in E1. rewrite S, shape_eqb_refl in E1. cbn [negb] in E1.
  rewrite insect_conds_ok in E1 by lia. cbn [bind skipn app] in E1. rewrite E in E1. injection E1 as E1.
  exists out, (fold_left lor (map snd c) (snd m0)).
  split. { rewrite (surjective_pairing (fold_left ma_or c m0)), F1, F2, E1. reflexivity. }
  split; [exact Lo|].
  assert (Lc : forall x, In x (map snd c) -> length x = length (mdata dz)).
  { intros x X. apply in_map_iff in X. destruct X as (y & <- & Y). rewrite (G y Y). unfold lor. rewrite !map2_length. lia. }
  split. { apply fold_lor_length; [apply Lm0|]. exact Lc. }
  intros i d r md mr Ed Er Emd Emr. split.
  - intro Hn.
    assert (U : forall x, In x (map snd c) -> nth_error x i = Some (md || mr)%bool).
    { intros x X. apply in_map_iff in X. destruct X as (y & <- & Y). rewrite (G y Y), !lor_nth_error, Emd, Emr.
      now rewrite orb_diag. }
    assert (M0 : exists b, nth_error (snd m0) i = Some b /\ (b = true -> (md || mr)%bool = true) /\ (mask = None -> b = (md || mr)%bool)).
    { unfold m0. destruct mask as [m|].
      - exists false. cbn [plain snd]. rewrite map_nth_error'.
        destruct (nth_error_length_eq (mdata dz) m i (eq_sym (Lm m eq_refl)) Ed) as [b ->]. split; [reflexivity|]. split; discriminate.
      - exists (md || mr)%bool. cbn [ma_or ma_eq snd]. rewrite lor_nth_error, Emd, Emr. auto. }
    destruct M0 as (b & Eb & Hb & Hb'). rewrite (fold_lor_nth (map snd c) i (snd m0) Eb).
    2:{ intros x X. eexists. apply U, X. }
    f_equal. destruct (existsb _ (map snd c)) eqn:X.
    + apply existsb_exists in X. destruct X as (x & X1 & X2). rewrite (U x X1) in X2. rewrite X2. apply orb_true_r.
    + rewrite orb_false_r. destruct Hn as [Hn|Hn]; [auto|].
      destruct c as [|c0 c]; [destruct ts; [congruence|discriminate]|].
      cbn [existsb map] in X. apply orb_false_iff in X. destruct X as [X _]. rewrite (U _ (or_introl eq_refl)) in X.
      rewrite X in *. destruct b; [symmetry; auto|reflexivity].
  - rewrite (Go i d r Ed Er). clear -Ed Er Emd Emr.
    assert (Q : nth_error (fst m0) i = Some true <-> match mask with
       | Some m => nth_error m i = Some true
       | None => (md = false /\ feq d bad = true) \/ (mr = false /\ feq r bad = true)
       end).
    { unfold m0. destruct mask as [m|]; [reflexivity|]. cbn [ma_or ma_eq fst].
      rewrite lor_nth_error, !map2_nth_error, Emd, Emr, Ed, Er.
      destruct md, mr, (feq d bad), (feq r bad); cbn [orb]; split; intro X; try discriminate; auto;
        destruct X as [[? ?]|[? ?]]; discriminate. }
    rewrite Q. reflexivity.
Qed.
(** fewer intervals than thresholds: IndexError, as for plain arrays *)
Theorem C111_insect_index_error : forall (dz zdr : marr F) height mask dz_range dr_thresh (bad : F),
  mshape dz = mshape zdr -> length dz_range < length dr_thresh ->
  insect_filter_ma dz zdr height mask dz_range dr_thresh bad = Raise IndexError.
Proof.
  intros dz zdr h mask rs ts bad S L. unfold insect_filter_ma. rewrite S, shape_eqb_refl. cbn [negb].
  pose proof (conds_ma dz zdr rs ts 0 []) as C. cbn [map] in C. rewrite insect_conds_short in C by lia.
  destruct (insect_conds_ma dz zdr rs ts 0 []) as [c| |e| |]; try contradiction; [destruct C; discriminate|].
  injection C as <-. reflexivity.
Qed.
End C111.

(** ** Concrete cases *)
Open Scope Q_scope.
(** two echo gates, two masked, two echo: one run of six *)
Example C111_bridge :
  despeckle_ma (mkma DFloat [7%nat] (qs [7; 7; -32768; -32768; 7; 7; -32768])
    [false; false; true; true; false; false; false]) (Some (-32768)) 4
  = Ok ([7%nat], ([false; false; false; false; false; false; true], repeat false 7)) /\
  despeckle (AArr (qarr [7; 7; -32768; -32768; 7; 7; -32768])) (Some (-32768)) 4
  = Ok ([7%nat], repeat true 7).
Proof. split; vm_compute; reflexivity. Qed.
(** unmasked [bad] is flagged, the same value under the mask is not; a value under
    the mask can be flagged as insects *)
Example C111_insect_ex :
  insect_filter_ma (mkma DFloat [3%nat] (qs [-32768; -32768; 5]) [false; true; true])
    (mkma DFloat [3%nat] (qs [0; 0; 3]) [false; false; true]) ANone None DEFAULT_DZ_RANGE DEFAULT_DR_THRESH (Some (-32768))
  = Ok ([true; false; true], [false; true; true]).
Proof. vm_compute. reflexivity. Qed.
