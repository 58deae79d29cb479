(** * Properties C01-C06: csu_misc

    Law-free theorems: [F] is any type of floats (IEEE included). *)
From Coq Require Import Reals Lra.
From Verif Require Import Base.Num Base.ListFacts Base.XReal Base.XTac Base.QOps.
From Verif Require Import Model.Misc Spec.MiscSpec Proofs.MiscProofs.
Open Scope nat_scope.

Section C01_C06.
Context {F : Type} `{FloatOps F}.

(** ** C01 *)
(** The mask has the ray's length; gate i is False (kept) exactly when it lies
    in a run of more than [ngates] consecutive gates that differ from [bad]. *)
Theorem C01_despeckle_kept_iff_in_long_run :
  forall (dt : dtype) (ray : list F) (bad : F) (ngates : Z),
  exists mask, despeckle (AArr (mkarr dt [length ray] ray)) bad ngates
                 = Ok ([length ray], mask)
    /\ length mask = length ray
    /\ forall i, i < length ray ->
         (nth_error mask i = Some false <->
          in_long_run (fun x => feq x bad = false) ray ngates i).
Proof.
  intros. exists (ray_mask ray bad ngates). rewrite despeckle_1d.
  split; [auto|split; [apply ray_mask_length|]]. intros. now apply ray_mask_spec.
Qed.

(** The same by maximal runs: True iff equal to bad, or the maximal run of
    non-bad gates around it has at most [ngates] gates. *)
Theorem C01_despeckle_masked_iff_bad_or_short_run :
  forall (dt : dtype) (ray : list F) (bad : F) (ngates : Z) (sh : list nat) (mask : list bool),
  despeckle (AArr (mkarr dt [length ray] ray)) bad ngates = Ok (sh, mask) ->
  forall i x, nth_error ray i = Some x ->
  (nth_error mask i = Some true <->
     feq x bad = true \/
     exists lo hi, maximal_run (fun y => feq y bad = false) ray i lo hi /\
                   (Z.of_nat hi - Z.of_nat lo <= ngates)%Z).
Proof.
  intros dt ray bad n sh mask E i x Hx. rewrite despeckle_1d in E. injection E as <- <-.
  assert (Hi : i < length ray) by (eapply nth_error_lt; eauto).
  rewrite ray_mask_true by auto. split.
  - intro Hn. destruct (feq x bad) eqn:Ex; [now left|right].
    destruct (@maximal_run_exists _ (good_gate bad) (good_gate_dec bad) ray i) as (lo & hi & Hm).
    { exists x; auto. }
    exists lo, hi; split; auto.
    rewrite (@long_run_maximal _ _ _ _ _ _ _ Hm) in Hn. lia.
  - intros [Eb|(lo & hi & Hm & Hl)] Hr.
    + destruct Hr as (lo & hi & R & _ & G). destruct (G i R) as (y & Ey & Gy).
      unfold good_gate in Gy; congruence.
    + apply (@long_run_maximal _ _ _ _ _ _ _ Hm) in Hr. lia.
Qed.

(** ** C02 *)
(** A run of exactly [ngates] good gates, isolated by bad gates or ray ends, is
    masked wherever it sits; one gate more and it is kept. *)
Theorem C02_run_of_ngates_is_masked :
  forall (dt : dtype) (pre run post : list F) (bad : F) (ngates : nat) mask sh,
  length run = ngates ->
  (forall x, In x run -> feq x bad = false) ->
  (forall x, nth_error pre (length pre - 1) = Some x -> feq x bad = true) ->
  (forall x, nth_error post 0 = Some x -> feq x bad = true) ->
  despeckle (AArr (mkarr dt [length (pre ++ run ++ post)] (pre ++ run ++ post)))
            bad (Z.of_nat ngates) = Ok (sh, mask) ->
  forall i, length pre <= i < length pre + length run -> nth_error mask i = Some true.
Proof.
  intros dt pre run post bad n mask sh Hn Hr Hpre Hpost E i Hi.
  rewrite despeckle_1d in E. injection E as <- <-.
  apply ray_mask_true; [rewrite !app_length; lia|].
  rewrite (@long_run_maximal _ _ _ _ i (length pre) (length pre + length run)); [lia|].
  split; [auto|split; [|split]].
  - intros j Hj. rewrite nth_error_app2, nth_error_app1 by lia.
    destruct (@nth_error_map_some _ run (j - length pre)) as [x Hx]; [lia|].
    exists x; split; auto. apply Hr. eapply nth_error_In; eauto.
  - intros j x Hj Hx. rewrite nth_error_app1 in Hx by lia.
    replace j with (length pre - 1) in Hx by lia. apply Hpre in Hx. unfold good_gate; congruence.
  - intros x Hx. rewrite nth_error_app2, nth_error_app2 in Hx by lia.
    replace (length pre + length run - length pre - length run) with 0 in Hx by lia.
    apply Hpost in Hx. unfold good_gate; congruence.
Qed.

Theorem C02_run_of_ngates_plus_one_is_kept :
  forall (dt : dtype) (pre run post : list F) (bad : F) (ngates : nat) mask sh,
  length run = S ngates ->
  (forall x, In x run -> feq x bad = false) ->
  despeckle (AArr (mkarr dt [length (pre ++ run ++ post)] (pre ++ run ++ post)))
            bad (Z.of_nat ngates) = Ok (sh, mask) ->
  forall i, length pre <= i < length pre + length run -> nth_error mask i = Some false.
Proof.
  intros dt pre run post bad n mask sh Hn Hr E i Hi.
  rewrite despeckle_1d in E. injection E as <- <-.
  apply ray_mask_spec; [rewrite !app_length; lia|].
  exists (length pre), (length pre + length run). split; [auto|split; [lia|]].
  intros j Hj. rewrite nth_error_app2, nth_error_app1 by lia.
  destruct (@nth_error_map_some _ run (j - length pre)) as [x Hx]; [lia|].
  exists x; split; auto. apply Hr. eapply nth_error_In; eauto.
Qed.

(** ** C03 *)
(** Row [az] of the 2-D mask is despeckle of row [az] alone. *)
Theorem C03_despeckle_2d_is_ray_by_ray :
  forall (dt : dtype) (n m : nat) (data : list F) (bad : F) (ngates : Z),
  length data = n * m ->
  exists mask, despeckle (AArr (mkarr dt [n; m] data)) bad ngates = Ok ([n; m], mask)
    /\ length mask = n * m
    /\ forall az, az < n ->
       despeckle (AArr (mkarr dt [m] (firstn m (skipn (az * m) data)))) bad ngates
       = Ok ([m], firstn m (skipn (az * m) mask)).
Proof.
  intros dt n m data bad ng Hl. rewrite despeckle_2d. eexists; split; [reflexivity|].
  split.
  - apply concat_rows_length. intros k Hk. rewrite ray_mask_length. apply row_length with n; auto; lia.
  - intros az Haz. set (rw := firstn m (skipn (az * m) data)).
    assert (Hrw : length rw = m) by (apply (@row_length _ m data n az); auto).
    rewrite <- Hrw at 1. rewrite despeckle_1d, Hrw. do 2 f_equal.
    symmetry. apply (@concat_map_row _ (fun az => ray_mask (row m data az) bad ng) m az n 0); auto.
    intros k Hk. rewrite ray_mask_length. apply row_length with n; auto; lia.
Qed.

(** Scalars and arrays that are neither 1-D nor 2-D: warning and None. *)
Theorem C03_despeckle_other_dimensions_return_none :
  forall (bad : F) (ngates : Z),
  (forall dt x, despeckle (AScalar dt x) bad ngates = PyNone) /\
  (forall a, length (ashape a) <> 1 -> length (ashape a) <> 2 ->
             despeckle (AArr a) bad ngates = PyNone).
Proof.
  intros; split; [reflexivity|]. intros [dt [|a [|b [|c s]]] d]; simpl; auto; lia.
Qed.

(** ** C04 *)
Theorem C04_despeckle_idempotent_1d :
  forall (dt : dtype) (ray : list F) (bad : F) (ngates : Z) sh mask,
  feq bad bad = true ->
  despeckle (AArr (mkarr dt [length ray] ray)) bad ngates = Ok (sh, mask) ->
  despeckle (AArr (mkarr dt [length ray]
     (map2 (fun (b : bool) x => if b then bad else x) mask ray))) bad ngates = Ok (sh, mask).
Proof.
  intros dt ray bad n sh mask Hb E. rewrite despeckle_1d in E. injection E as <- <-.
  pose proof (@ray_mask_idem F _ ray bad n Hb) as Hi. unfold overwrite, msetc in Hi.
  rewrite <- Hi at 2. unfold despeckle; simpl. reflexivity.
Qed.

(** Every bad gate is masked, and raising [ngates] never un-masks a gate. *)
Theorem C04_despeckle_masks_bad_and_monotone :
  forall (dt : dtype) (ray : list F) (bad : F) (n n' : Z) sh sh' mask mask',
  despeckle (AArr (mkarr dt [length ray] ray)) bad n = Ok (sh, mask) ->
  despeckle (AArr (mkarr dt [length ray] ray)) bad n' = Ok (sh', mask') ->
  (n <= n')%Z ->
  (forall i x, nth_error ray i = Some x -> feq x bad = true -> nth_error mask i = Some true) /\
  (forall i, nth_error mask i = Some true -> nth_error mask' i = Some true).
Proof.
  intros dt ray bad n n' sh sh' mask mask' E E' Hn. rewrite despeckle_1d in E, E'.
  injection E as <- <-. injection E' as <- <-. split.
  - intros i x Hx Hb. apply ray_mask_true; [eapply nth_error_lt; eauto|].
    intros (lo & hi & R & _ & G). destruct (G i R) as (y & Ey & Gy).
    unfold good_gate in Gy; congruence.
  - intros i Hi. assert (Hl : i < length ray).
    { rewrite <- (ray_mask_length ray bad n). eapply nth_error_lt; eauto. }
    apply ray_mask_true; auto. apply ray_mask_true in Hi; auto.
    intro Hr; apply Hi. eapply in_long_run_mono; eauto.
Qed.

(** ** C05 *)
(** insect_filter is True exactly where the mask is, or where some k has
    dz_range[k][0] < dz <= dz_range[k][1] and zdr >= dr_thresh[k]. *)
Theorem C05_insect_filter_exact :
  forall (dz zdr : arr F) (height : pyarg F) (mask : option (list bool))
         (dz_range : list (F * F)) (dr_thresh : list F) (bad : F),
  ashape dz = ashape zdr -> length (adata dz) = length (adata zdr) ->
  (forall m, mask = Some m -> length m = length (adata dz)) ->
  length dr_thresh <= length dz_range ->
  exists out, insect_filter dz zdr height mask dz_range dr_thresh bad = Ok out /\
    length out = length (adata dz) /\
    forall i d r, nth_error (adata dz) i = Some d -> nth_error (adata zdr) i = Some r ->
    (nth_error out i = Some true <->
      match mask with
      | Some m => nth_error m i = Some true
      | None => feq d bad = true \/ feq r bad = true
      end \/
      exists k lo hi t, nth_error dz_range k = Some (lo, hi) /\ nth_error dr_thresh k = Some t /\
        flt lo d = true /\ fle d hi = true /\ fle t r = true).
Proof.
  intros dz zdr height mask rs ts bad H1 H2 H3 H4.
  destruct (@insect_filter_ok F _ dz zdr height mask rs ts bad H1 H2 H3 H4) as (out & E & L & S).
  exists out; split; [auto|split; auto]. intros i d r Hd Hr. apply (S i d r Hd Hr).
Qed.

Theorem C05_insect_filter_too_few_ranges_raises :
  forall (dz zdr : arr F) height mask (dz_range : list (F * F)) (dr_thresh : list F) bad,
  ashape dz = ashape zdr -> length dz_range < length dr_thresh ->
  insect_filter dz zdr height mask dz_range dr_thresh bad = Raise IndexError.
Proof.
  intros dz zdr height mask rs ts bad Hs Hl. unfold insect_filter.
  rewrite Hs, shape_eqb_refl. simpl negb. cbv iota.
  rewrite insect_conds_short by lia. reflexivity.
Qed.

(** The height argument is never read. *)
Theorem C05_insect_filter_ignores_height :
  forall (dz zdr : arr F) h h' mask rs ts bad,
  insect_filter dz zdr h mask rs ts bad = insect_filter dz zdr h' mask rs ts bad.
Proof. reflexivity. Qed.

(** ** C06 *)
Theorem C06_second_trip_exact :
  forall (vr : arr F) (bad : F) i v, nth_error (adata vr) i = Some v ->
  length (second_trip_filter_magnetron vr bad) = length (adata vr) /\
  (nth_error (second_trip_filter_magnetron vr bad) i = Some true <-> feq v bad = true).
Proof.
  intros vr bad i v Hv. unfold second_trip_filter_magnetron. split; [apply map_length|].
  rewrite map_nth_error', Hv. split; congruence.
Qed.

Theorem C06_differential_phase_scalar_threshold :
  forall (sdp : arr F) dt (t : F),
  exists out, differential_phase_filter sdp (AScalar dt t) = Ok out /\
    length out = length (adata sdp) /\
    forall i s, nth_error (adata sdp) i = Some s ->
      (nth_error out i = Some true <-> flt t s = true).
Proof.
  intros. eexists; split; [reflexivity|split; [apply map_length|]].
  intros i s Hs. rewrite map_nth_error', Hs. split; congruence.
Qed.

Theorem C06_differential_phase_array_threshold :
  forall (sdp thr : arr F),
  ashape thr = ashape sdp -> length (adata thr) = length (adata sdp) ->
  exists out, differential_phase_filter sdp (AArr thr) = Ok out /\
    length out = length (adata sdp) /\
    forall i s t, nth_error (adata sdp) i = Some s -> nth_error (adata thr) i = Some t ->
      (nth_error out i = Some true <-> flt t s = true).
Proof.
  intros sdp thr Hs Hl. simpl. rewrite Hs, shape_eqb_refl.
  eexists; split; [reflexivity|split; [rewrite map2_length; lia|]].
  intros i s t Es Et. rewrite map2_nth_error, Es, Et. split; congruence.
Qed.
End C01_C06.

(** ** C05 with the default tables, and C06 on NaN, over the extended reals *)
Open Scope R_scope.

(** The exact region flagged by the default tables. *)
Definition default_insect_region (d r : R) : Prop :=
  (-100 < d <= 10 /\ r >= 1) \/ (10 < d <= 15 /\ r >= 1.3) \/ (15 < d <= 20 /\ r >= 1.7) \/
  (20 < d <= 25 /\ r >= 2.1) \/ (25 < d <= 30 /\ r >= 2.5) \/ (30 < d <= 35 /\ r >= 2.8).

Theorem C05_insect_default_tables :
  forall (dz zdr : arr xr) (height : pyarg xr) (bad : xr),
  ashape dz = ashape zdr -> length (adata dz) = length (adata zdr) ->
  exists out,
    insect_filter dz zdr height None DEFAULT_DZ_RANGE DEFAULT_DR_THRESH bad = Ok out /\
    forall i d r, nth_error (adata dz) i = Some (Fin d) -> nth_error (adata zdr) i = Some (Fin r) ->
    (nth_error out i = Some true <->
       Fin d = bad \/ Fin r = bad \/ default_insect_region d r).
Proof.
  intros dz zdr height bad Hs Hl.
  destruct (@C05_insect_filter_exact xr _ dz zdr height None DEFAULT_DZ_RANGE DEFAULT_DR_THRESH bad)
    as (out & E & L & S); auto; [discriminate|].
  exists out; split; auto. intros i d r Hd Hr. rewrite (S i _ _ Hd Hr). clear.
  assert (Hbad : forall v, feq (Fin v) bad = true <-> Fin v = bad).
  { intro v. destruct bad as [b| | |]; xs; try (split; congruence).
    rewrite Reqb_true. split; congruence. }
  rewrite !Hbad, or_assoc.
  apply or_iff_compat_l, or_iff_compat_l. unfold default_insect_region.
  split.
  - intros (k & lo & hi & t & E1 & E2 & H1 & H2 & H3).
    do 6 (destruct k as [|k]; [simpl in E1, E2; injection E1 as <- <-; injection E2 as <-;
      xs; xprop; lra|]).
    simpl in E1. destruct k; discriminate.
  - intros Hc.
    assert (T : forall k lo hi t, nth_error (@DEFAULT_DZ_RANGE xr _) k = Some (lo, hi) ->
       nth_error (@DEFAULT_DR_THRESH xr _) k = Some t ->
       flt lo (Fin d) = true /\ fle (Fin d) hi = true /\ fle t (Fin r) = true ->
       exists k lo hi t, nth_error (@DEFAULT_DZ_RANGE xr _) k = Some (lo, hi) /\
         nth_error (@DEFAULT_DR_THRESH xr _) k = Some t /\
         flt lo (Fin d) = true /\ fle (Fin d) hi = true /\ fle t (Fin r) = true).
    { intros k lo hi t A B C; exists k, lo, hi, t; auto. }
    destruct Hc as [Hc|[Hc|[Hc|[Hc|[Hc|Hc]]]]];
      [eapply (T 0%nat)|eapply (T 1%nat)|eapply (T 2%nat)|eapply (T 3%nat)
      |eapply (T 4%nat)|eapply (T 5%nat)]; try reflexivity;
      xs; rewrite ?Rltb_true, ?Rleb_true; lra.
Qed.

(** Consequence: more Zdr can only add flags: of two gates (of the same call or of
    two calls) with the same reflectivity and neither missing, if the one with the
    smaller Zdr is flagged so is the other. *)
Theorem C05_insect_default_monotone_in_zdr :
  forall (dz zdr dz' zdr' : arr xr) (height height' : pyarg xr) (bad : xr) out out' i j d r r',
  ashape dz = ashape zdr -> length (adata dz) = length (adata zdr) ->
  ashape dz' = ashape zdr' -> length (adata dz') = length (adata zdr') ->
  insect_filter dz zdr height None DEFAULT_DZ_RANGE DEFAULT_DR_THRESH bad = Ok out ->
  insect_filter dz' zdr' height' None DEFAULT_DZ_RANGE DEFAULT_DR_THRESH bad = Ok out' ->
  nth_error (adata dz) i = Some (Fin d) -> nth_error (adata zdr) i = Some (Fin r) ->
  nth_error (adata dz') j = Some (Fin d) -> nth_error (adata zdr') j = Some (Fin r') ->
  Fin d <> bad -> Fin r <> bad -> r <= r' ->
  nth_error out i = Some true -> nth_error out' j = Some true.
Proof.
  intros dz zdr dz' zdr' h h' bad out out' i j d r r' S1 L1 S2 L2 E1 E2 D1 R1 D2 R2 Nd Nr Hr T.
  destruct (C05_insect_default_tables dz zdr h bad S1 L1) as (o & F1 & G1).
  destruct (C05_insect_default_tables dz' zdr' h' bad S2 L2) as (o' & F2 & G2).
  assert (o = out) as -> by congruence. assert (o' = out') as -> by congruence.
  apply (G2 j d r' D2 R2). right. right. apply (G1 i d r D1 R1) in T as [T|[T|T]]; try contradiction.
  revert T. unfold default_insect_region; intros; lra.
Qed.

(** NaN is never flagged by the two simple filters. *)
Theorem C06_nan_never_flagged :
  forall (a : arr xr) (bad t : xr) dt i out,
  nth_error (adata a) i = Some NaN ->
  differential_phase_filter a (AScalar dt t) = Ok out ->
  nth_error (second_trip_filter_magnetron a bad) i = Some false /\
  nth_error out i = Some false.
Proof.
  intros a bad t dt i out Hi E. simpl in E. injection E as <-.
  unfold second_trip_filter_magnetron. rewrite !map_nth_error', Hi.
  split; xs; [reflexivity|]. destruct t; reflexivity.
Qed.

(** ** Concrete cases (non-vacuity) *)
Open Scope Q_scope.
Example despeckle_runs :
  despeckle (AArr (qarr [7; 7; -32768; 7; 7; 7; -32768; 7])) (Some (-32768)) 2
  = Ok ([8%nat], [true; true; true; false; false; false; true; true]).
Proof. vm_compute. reflexivity. Qed.

Example despeckle_sweep :
  despeckle (AArr (mkarr DFloat [2; 3]%nat (qs [5; 5; 5; 5; 0; 5]))) (Some 0) 1
  = Ok ([2; 3]%nat, [false; false; false; true; true; true]).
Proof. vm_compute. reflexivity. Qed.

Example insect_default_run :
  insect_filter (qarr [5; 5; 20; 40; -32768]) (qarr [1; 0.9; 1.7; 9; 0]) ANone None
    DEFAULT_DZ_RANGE DEFAULT_DR_THRESH (Some (-32768))
  = Ok [true; false; true; false; true].
Proof. vm_compute. reflexivity. Qed.
