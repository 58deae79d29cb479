(** * C44, C45: the melting level *)
From Coq Require Import Reals Lra Lia Permutation Sorted Arith Qreals.
From Verif Require Import Base.Num Base.ListFacts Base.XReal Base.XTac Base.Pointwise Base.XArith Base.QOps.
From Verif Require Import Model.Tables Model.Beta Model.TTraps Model.Hid Model.Melt Spec.MeltSpec Proofs.MeltProofs.
Open Scope R_scope.

(** ** C44: RHI and gridded scans *)
(** the statistics can be printed: verbose off, or a SciPy whose stats.mode
    returns an array (before 1.11) *)
Definition quiet (mode_scalar verbose : bool) : Prop := verbose = false \/ mode_scalar = false.
Lemma quiet_and ms vb : quiet ms vb -> (vb && ms)%bool = false.
Proof. intros [-> | ->]; auto using andb_false_r. Qed.

Lemma level_map m (gs : list (Z * xr)) :
  msetc (map (fun z => flt (Fin m) z) (map snd gs)) 2%Z
    (msetc (map (fun z => flt z (Fin m)) (map snd gs)) 0%Z (map (fun _ => 1%Z) gs))
  = map (fun g => level m (snd g)) gs.
Proof.
  rewrite !map_map, !msetc_map. apply map_ext. intros (c, z). cbn [snd]. unfold level.
  destruct z as [z| | |]; try reflexivity. rewrite !flt_fin.
  destruct (Rltb_spec m z), (Rltb_spec z m), (Rlt_dec z m), (Rlt_dec m z); auto; lra.
Qed.

(** the height used with an expected level e *)
Definition rhi_height (e : R) (gs : list (Z * xr)) (m : R) : Prop :=
  if (10 <? length (near_points e gs))%nat then is_median (near_points e gs) m else m = e.

(** For every class map, every heights (finite or not) and every expected
    level: the level is the median of the nearby wet snow, or the expected one. *)
Theorem C44_expected ms vb (gs : list (Z * xr)) (e : R) : quiet ms vb -> exists m,
  get_ml_rhi ms vb (map fst gs) (map snd gs) (Some (Fin e)) = Ok (map (fun g => level m (snd g)) gs, Fin m)
  /\ rhi_height e gs m.
Proof.
  intro Q. unfold get_ml_rhi. rewrite (quiet_and _ _ Q).
  rewrite !map_map, land_map, land_map, msel_map.
  rewrite (filter_ext _ (fun g : Z * xr => (fle (snd g) (fadd (Fin e) (flit 1.5)) && fle (fsub (Fin e) (flit 1.5)) (snd g)) && wet_snow (fst g))%bool)
    by (intros (c, x); reflexivity).
  rewrite filter_near, map_length. unfold rhi_height.
  destruct (10 <? length (near_points e gs))%nat eqn:E.
  - rewrite all_finite, np_median_fin.
    2:{ intro N. rewrite N in E. discriminate. }
    cbn [bind]. exists (rmedian (near_points e gs)). split; [|apply rmedian_is].
    now rewrite level_map.
  - cbn [bind]. exists e. split; auto.
    now rewrite level_map.
Qed.

(** m is determined, and within 1.5 km of the expected level *)
Lemma rhi_within e gs m : rhi_height e gs m -> Rabs (m - e) <= 3 / 2.
Proof.
  unfold rhi_height. destruct (_ <? _)%nat eqn:E; [|intros ->; rewrite Rminus_diag_eq, Rabs_R0; lra].
  intro Hm. assert (B : e - 3/2 <= m <= e + 3/2).
  { eapply median_between; eauto.
    - intro N. rewrite N in E. discriminate.
    - intros x Hx. unfold near_points in Hx. apply in_flat_map in Hx as ((c, z) & _ & Hx).
      destruct z as [z| | |]; try contradiction. destruct (wet_snow c); [|contradiction].
      destruct Rle_dec as [A|]; [|contradiction]. destruct Hx as [<-|[]].
      revert A. unfold Rabs. destruct Rcase_abs; intros; lra. }
  unfold Rabs. destruct Rcase_abs; lra.
Qed.
Lemma rhi_unique e gs m m' : rhi_height e gs m -> rhi_height e gs m' -> m = m'.
Proof.
  unfold rhi_height. destruct (_ <? _)%nat; [apply median_unique|congruence].
Qed.

(** verbose never changes a result that is returned *)
Lemma rhi_verbose {F} {fo : FloatOps F} ms vb fh (hs : list F) e r :
  get_ml_rhi ms vb fh hs e = Ok r -> get_ml_rhi ms false fh hs e = Ok r.
Proof.
  unfold get_ml_rhi. cbv zeta. destruct (_ <? _)%nat; auto. destruct (forallb _ _); auto.
  destruct (vb && ms)%bool; cbn [andb]; auto. discriminate.
Qed.
(** The height returned is always within 1.5 km of the expected one. *)
Theorem C44_within ms vb (gs : list (Z * xr)) (e : R) lev h :
  get_ml_rhi ms vb (map fst gs) (map snd gs) (Some (Fin e)) = Ok (lev, h) ->
  exists m, h = Fin m /\ Rabs (m - e) <= 3 / 2.
Proof.
  intro E. apply rhi_verbose in E. destruct (C44_expected ms false gs e) as (m & E' & Hm); [now left|]. rewrite E' in E. exists m. split; [congruence|].
  now apply (rhi_within e gs).
Qed.
(** It depends only on which wet-snow heights lie within 1.5 km of the expected
    level, not on their order nor on any other gate. *)
Theorem C44_order_irrelevant ms vb vb' (gs gs' : list (Z * xr)) (e : R) lev h lev' h' :
  get_ml_rhi ms vb (map fst gs) (map snd gs) (Some (Fin e)) = Ok (lev, h) ->
  get_ml_rhi ms vb' (map fst gs') (map snd gs') (Some (Fin e)) = Ok (lev', h') ->
  Permutation (near_points e gs) (near_points e gs') -> h = h'.
Proof.
  intros E E' P. apply rhi_verbose in E, E'.
  destruct (C44_expected ms false gs e) as (m & E1 & Hm); [now left|]. rewrite E1 in E.
  destruct (C44_expected ms false gs' e) as (m' & E2 & Hm'); [now left|]. rewrite E2 in E'.
  assert (m = m'); [|congruence]. unfold rhi_height in *. rewrite <- (Permutation_length P) in Hm'.
  destruct (_ <? _)%nat; [|congruence]. apply (median_unique (near_points e gs)); auto.
  destruct Hm' as (s & Ps & Ss & ->). exists s. rewrite <- (Permutation_length P). split; [|auto]. now transitivity (near_points e gs').
Qed.

(** Without an expected level: all wet snow heights; with 10 or fewer of them a
    TypeError, with more and one of them not finite a ValueError. *)
Definition wet_heights (gs : list (Z * xr)) : list xr :=
  map snd (filter (fun g => wet_snow (fst g)) gs).

Theorem C44_no_expected_few ms vb (gs : list (Z * xr)) : (length (wet_heights gs) <= 10)%nat ->
  get_ml_rhi ms vb (map fst gs) (map snd gs) None = Raise TypeError.
Proof.
  intro L. unfold get_ml_rhi. rewrite !map_map, msel_map.
  rewrite (filter_ext _ (fun g : Z * xr => wet_snow (fst g))) by reflexivity.
  fold (wet_heights gs). apply Nat.ltb_ge in L. rewrite L. reflexivity.
Qed.
Lemma not_finite l : forallb (@finite xr _) l = false <-> exists x, In x l /\ forall r, x <> Fin r.
Proof.
  assert (Ff : forall x : xr, finite x = false <-> forall r, x <> Fin r).
  { intro x. unfold finite, fisnan. destruct x as [r| | |].
    - rewrite fsub_fin, feq_fin. assert (Reqb (r - r) (r - r) = true) as -> by now apply Reqb_true.
      split; [discriminate|]. intro H. now destruct (H r).
    - split; [intros _ r; discriminate|reflexivity].
    - split; [intros _ r; discriminate|reflexivity].
    - split; [intros _ r; discriminate|reflexivity]. }
  induction l as [|x l IH]; cbn [forallb].
  - split; [discriminate|]. intros (x & [] & _).
  - destruct (finite x) eqn:E; cbn [andb].
    + rewrite IH. split; intros (y & Hy & N); exists y; split; auto; [now right|].
      destruct Hy as [<-|]; auto. apply Ff in N. congruence.
    + split; auto. intros _. exists x. split; [now left|]. now apply Ff.
Qed.
Theorem C44_no_expected_nonfinite ms vb (gs : list (Z * xr)) x : (10 < length (wet_heights gs))%nat ->
  In x (wet_heights gs) -> (forall r, x <> Fin r) ->
  get_ml_rhi ms vb (map fst gs) (map snd gs) None = Raise ValueError.
Proof.
  intros L I N. unfold get_ml_rhi. rewrite !map_map, msel_map.
  rewrite (filter_ext _ (fun g : Z * xr => wet_snow (fst g))) by reflexivity.
  fold (wet_heights gs). apply Nat.ltb_lt in L. rewrite L.
  rewrite (proj2 (not_finite _)) by eauto. reflexivity.
Qed.
Theorem C44_no_expected ms vb (gs : list (Z * xr)) zs : (10 < length (wet_heights gs))%nat ->
  wet_heights gs = map Fin zs -> quiet ms vb -> exists m,
  get_ml_rhi ms vb (map fst gs) (map snd gs) None = Ok (map (fun g => level m (snd g)) gs, Fin m)
  /\ is_median zs m.
Proof.
  intros L E Q. exists (rmedian zs). split; [|apply rmedian_is].
  unfold get_ml_rhi. rewrite (quiet_and _ _ Q). rewrite !map_map, msel_map.
  rewrite (filter_ext _ (fun g : Z * xr => wet_snow (fst g))) by reflexivity.
  fold (wet_heights gs). apply Nat.ltb_lt in L. rewrite L. rewrite E, all_finite, np_median_fin.
  2:{ intros ->. rewrite E in L. discriminate. }
  cbn [bind]. now rewrite level_map.
Qed.

(** ** C45: PPI scans *)
Definition dzx (g : gate) : xr := match g_dz g with Some z => Fin z | None => NaN end.

(** the arrays the caller passes *)
Definition classes_of (rays : list (R * list gate)) := map (fun ag => g_class (snd ag)) (scan_gates rays).
Definition heights_of (rays : list (R * list gate)) : list xr := map (fun ag => Fin (g_height (snd ag))) (scan_gates rays).
Definition dz_of (rays : list (R * list gate)) : list xr := map (fun ag => dzx (snd ag)) (scan_gates rays).
Definition azimuths_of (rays : list (R * list gate)) : list xr := map (fun r => Fin (fst r)) rays.

Lemma az3d_gates rays ng : (forall r, In r rays -> length (snd r) = ng) ->
  az3d (azimuths_of rays) ng = map (fun ag => Fin (fst ag)) (scan_gates rays).
Proof.
  induction rays as [|(a, gs) rays IH]; intro H; auto. unfold az3d, azimuths_of, scan_gates.
  cbn [map flat_map fst snd]. rewrite map_app, map_map. cbn [fst].
  unfold az3d, azimuths_of, scan_gates in IH. rewrite IH by (intros; apply H; now right).
  f_equal. specialize (H (a, gs) (or_introl eq_refl)). simpl in H. subst ng.
  clear. induction gs; simpl; congruence.
Qed.

Definition edge (n i : nat) : R := INR i * (360 / INR (n - 1)).
Lemma of_nat_fin n : @of_nat xr _ n = Fin (INR n).
Proof.
  unfold of_nat. change (inject_Z (Z.of_nat n)) with (Qmake (Z.of_nat n) 1).
  now rewrite lit_int, INR_IZR_INZ.
Qed.
Lemma edge_last n : (2 <= n)%nat -> edge n (n - 1) = 360.
Proof. intro H. unfold edge. assert (0 < INR (n - 1)) by (apply lt_0_INR; lia). field. lra. Qed.

Lemma linspace_edges n : (2 <= n)%nat -> linspace360 n = map (fun i => Fin (edge n i)) (seq 0 n).
Proof.
  intro H. unfold linspace360. apply map_ext_in. intros i Hi. apply in_seq in Hi.
  destruct (Nat.eqb_spec (S i) n).
  - destruct (Nat.eqb_spec n 1); [lia|]. replace i with (n - 1)%nat by lia.
    now rewrite edge_last, lit_int.
  - rewrite !of_nat_fin, !lit_int, fdiv_fin, fmul_fin, fadd_fin by (apply not_0_INR; lia).
    f_equal. unfold edge. lra.
Qed.
Lemma combine_tl {A} (f : nat -> A) n : forall k,
  combine (map f (seq k (S n))) (map f (seq (S k) n)) = map (fun i => (f i, f (S i))) (seq k n).
Proof. induction n; intro k; simpl; auto. f_equal. apply (IHn (S k)). Qed.
Lemma sector_pairs n : (2 <= n)%nat ->
  combine (linspace360 n) (tl (linspace360 n)) = map (fun i => (Fin (edge n i), Fin (edge n (S i)))) (seq 0 (n - 1)).
Proof.
  intro H. rewrite linspace_edges by auto. destruct n as [|n]; [lia|].
  replace (S n - 1)%nat with n by lia. rewrite <- (combine_tl (fun i => Fin (edge (S n) i))). reflexivity.
Qed.

Lemma in_sector_b n i a : (fle (Fin (edge n i)) (Fin a) && flt (Fin a) (Fin (edge n (S i))))%bool = in_sector n i a.
Proof.
  rewrite fle_fin, flt_fin. unfold in_sector, edge.
  destruct (Rleb_spec (INR i * (360 / INR (n - 1))) a), (Rltb_spec a (INR (S i) * (360 / INR (n - 1))));
  destruct Rle_dec; try destruct Rlt_dec; auto; lra.
Qed.

(** the mean *)
Lemma nan_filter gs : filter (fun x => negb (fisnan x)) (map dzx gs) = map Fin (dz_values gs).
Proof.
  induction gs as [|g gs IH]; auto. cbn [map filter]. unfold dz_values. cbn [flat_map].
  fold (dz_values gs). assert (D : dzx g = match g_dz g with Some z => Fin z | None => NaN end) by reflexivity.
  rewrite D. clear D. destruct (g_dz g) as [z|].
  - unfold fisnan at 1. rewrite feq_fin. assert (Reqb z z = true) as -> by now apply Reqb_true.
    cbn [negb map app]. now rewrite IH.
  - exact IH.
Qed.
Lemma fold_fin l : forall a, fold_left fadd (map Fin l) (Fin a) = Fin (a + Rsum l).
Proof.
  induction l as [|x l IH]; intro a; cbn [map fold_left]; [f_equal; simpl; lra|].
  rewrite fadd_fin, IH. f_equal. simpl. lra.
Qed.
Lemma nanmean_gt gs : flt (flit 15) (nanmean (map dzx gs)) = true <->
  (dz_values gs <> [] /\ 15 < mean (dz_values gs)).
Proof.
  unfold nanmean. rewrite nan_filter, map_length, of_nat_fin, !lit_int, fold_fin.
  destruct (dz_values gs) as [|x l] eqn:E.
  - assert (D : fdiv (Fin (0 + Rsum [])) (Fin (INR (length (@nil R)))) = NaN).
    { simpl. destruct Req_EM_T; [|lra]. unfold xinf. destruct Rlt_dec; [lra|]. destruct Rlt_dec; [lra|]. reflexivity. }
    rewrite D. split; [discriminate|]. intros (H & _). now destruct H.
  - rewrite fdiv_fin by (apply not_0_INR; discriminate). rewrite flt_fin, Rltb_true, Rplus_0_l.
    unfold mean. split; [intro; split; [discriminate|auto]|tauto].
Qed.

(** one sector *)
Definition sheight n i rays (e : R) : R :=
  let wet := sector_wet n i rays in
  if (Rltb (INR (length (sector_gates n i rays))) (1000 * INR (length wet))
      && flt (flit 15) (nanmean (map dzx wet)))%bool
  then let m := rmedian (map g_height wet) in if Rltb 2 (Rabs (m - e)) then 0 else m
  else 0.

Lemma sheight_spec n i rays e : sector_height n i rays e (sheight n i rays e).
Proof.
  exists (rmedian (map g_height (sector_wet n i rays))). split; [apply rmedian_is|].
  unfold sheight, sector_ok. set (m := rmedian _). set (wet := sector_wet n i rays).
  pose proof (nanmean_gt wet) as N.
  destruct (Rltb_spec (INR (length (sector_gates n i rays))) (1000 * INR (length wet))); cbn [andb].
  2:{ right. split; auto. tauto. }
  destruct (flt (flit 15) (nanmean (map dzx wet))).
  2:{ right. split; auto. intros (_ & A & B & _). assert (false = true) by (apply N; auto). discriminate. }
  destruct (proj1 N eq_refl) as (A & B). cbv zeta. destruct (Rltb_spec 2 (Rabs (m - e))).
  - right. split; auto. intros (_ & _ & _ & D). lra.
  - left. split; auto. repeat split; auto. lra.
Qed.

Lemma sector_sel {A} n i rays (f : gate -> A) :
  map (fun ag : R * gate => f (snd ag)) (filter (fun ag => in_sector n i (fst ag)) (scan_gates rays))
  = map f (sector_gates n i rays).
Proof. unfold sector_gates. now rewrite map_map. Qed.
Lemma wet_sel {A} n i rays (f : gate -> A) :
  map (fun ag : R * gate => f (snd ag))
    (filter (fun ag => in_sector n i (fst ag) && wet_snow (g_class (snd ag)))%bool (scan_gates rays))
  = map f (sector_wet n i rays).
Proof.
  unfold sector_wet, sector_gates. induction (scan_gates rays) as [|(a, g) l IH]; auto.
  cbn [filter fst snd]. destruct (in_sector n i a); cbn [andb map filter snd]; auto.
  destruct (wet_snow (g_class g)); cbn [map snd]; now rewrite <- IH.
Qed.

Lemma ppi_sector_ok n i rays e meds (f : R * gate -> xr) : (2 <= n)%nat ->
  ppi_sector (classes_of rays) (dz_of rays) (heights_of rays) (map (fun ag => Fin (fst ag)) (scan_gates rays))
     (Some (Fin e)) (Fin (edge n i)) (Fin (edge n (S i))) (meds, map f (scan_gates rays))
  = match sector_gates n i rays with
    | [] => Raise ZeroDivisionError
    | _ => Ok (meds ++ [Fin (sheight n i rays e)],
               map (fun ag => if in_sector n i (fst ag) then Fin (sheight n i rays e) else f ag) (scan_gates rays))
    end.
Proof.
  intro Hn. unfold ppi_sector, classes_of, dz_of, heights_of. rewrite !map_map, land_map.
  rewrite (map_ext (fun ag : R * gate => (fle (Fin (edge n i)) (Fin (fst ag)) && flt (Fin (fst ag)) (Fin (edge n (S i))))%bool)
    (fun ag => in_sector n i (fst ag))) by (intro; apply in_sector_b).
  rewrite land_map.
  change (fun x : R * gate => in_sector n i (fst x) && (g_class (snd x) =? 2)%Z)%bool
    with (fun ag : R * gate => in_sector n i (fst ag) && wet_snow (g_class (snd ag)))%bool.
  rewrite !msel_map, (wet_sel n i rays (fun g => Fin (g_height g))), (wet_sel n i rays dzx).
  assert (C : length (filter (fun b : bool => b) (map (fun ag : R * gate => in_sector n i (fst ag)) (scan_gates rays)))
    = length (sector_gates n i rays)).
  { unfold sector_gates. rewrite map_length. induction (scan_gates rays) as [|ag l IH]; auto.
    cbn [map filter]. destruct (in_sector n i (fst ag)); cbn [length]; auto. }
  rewrite C, map_length.
  destruct (sector_gates n i rays) as [|g0 gr] eqn:E; [reflexivity|].
  rewrite <- E. assert (L : (0 < length (sector_gates n i rays))%nat) by (rewrite E; simpl; lia).
  destruct (Nat.eqb_spec (2 * length (sector_gates n i rays)) 0); [lia|].
  assert (Lr : 0 < INR (length (sector_gates n i rays))) by now apply lt_0_INR.
  assert (P : flt (@flit xr _ 0.05) (fmul (fdiv (of_nat (length (sector_wet n i rays)))
      (of_nat (2 * length (sector_gates n i rays)))) (flit 100))
    = Rltb (INR (length (sector_gates n i rays))) (1000 * INR (length (sector_wet n i rays)))).
  { rewrite !of_nat_fin, mult_INR. simpl (INR 2). rewrite fdiv_fin by lra.
    rewrite lit_int, fmul_fin. assert (Q : @flit xr _ 0.05 = Fin (5/100)) by (rewrite lit_fin; reflexivity).
    rewrite Q, flt_fin.
    assert (D : INR (length (sector_wet n i rays)) / ((1 + 1) * INR (length (sector_gates n i rays))) * 100
      = 50 * (INR (length (sector_wet n i rays)) / INR (length (sector_gates n i rays)))) by (field; lra).
    rewrite D. set (w := INR (length (sector_wet n i rays))) in *. set (g := INR (length (sector_gates n i rays))) in *.
    assert (M : w / g * g = w) by (field; lra).
    destruct (Rltb_spec (5/100) (50 * (w / g))), (Rltb_spec g (1000 * w)); auto; exfalso; nra. }
  rewrite P. clear P. unfold sheight.
  set (cond := (Rltb _ _ && _)%bool).
  assert (B : cond = true -> np_median (map (fun g => Fin (g_height g)) (sector_wet n i rays))
     = Fin (rmedian (map g_height (sector_wet n i rays)))).
  { intro Ct. rewrite <- (map_map g_height Fin). apply np_median_fin. unfold cond in Ct.
    apply andb_true_iff in Ct as (Ct & _). apply Rltb_true in Ct.
    intro N. apply map_eq_nil in N. rewrite N in Ct. simpl in Ct. lra. }
  destruct cond.
  - rewrite B by auto. cbn [bind]. cbv zeta. rewrite fsub_fin, fabs_fin, !lit_int, flt_fin.
    set (q := Rabs _). rewrite msetc_map. destruct (Rltb 2 q); reflexivity.
  - cbn [bind]. rewrite msetc_map, lit_int. reflexivity.
Qed.

(** all sectors *)
Definition az_height n rays e (l : list nat) (a : R) : R :=
  fold_left (fun acc i => if in_sector n i a then sheight n i rays e else acc) l 0.

Lemma sectors_loop n rays e : (2 <= n)%nat -> forall l,
  (forall i, In i l -> sector_gates n i rays <> []) ->
  forM (map (fun i => (Fin (edge n i), Fin (edge n (S i)))) l)
   (fun ab st => ppi_sector (classes_of rays) (dz_of rays) (heights_of rays)
       (map (fun ag => Fin (fst ag)) (scan_gates rays)) (Some (Fin e)) (fst ab) (snd ab) st)
   ([], map (fun _ => Fin 0) (scan_gates rays))
  = Ok (map (fun i => Fin (sheight n i rays e)) l, map (fun ag => Fin (az_height n rays e l (fst ag))) (scan_gates rays)).
Proof.
  intros Hn l. induction l as [|i l IH] using rev_ind; intro H; [reflexivity|].
  rewrite map_app, forM_app, IH by (intros; apply H; apply in_or_app; now left).
  cbn [bind map forM fst snd]. rewrite ppi_sector_ok by auto.
  destruct (sector_gates n i rays) eqn:E.
  - exfalso. apply (H i); auto. apply in_or_app. right. now left.
  - cbn [bind]. rewrite map_app. f_equal. f_equal. apply map_ext. intro ag.
    unfold az_height. rewrite fold_left_app. cbn [fold_left]. now destruct (in_sector n i (fst ag)).
Qed.
Lemma sectors_raise n rays e i : (2 <= n)%nat -> sector_gates n i rays = [] -> forall l, In i l -> forall meds f,
  forM (map (fun i => (Fin (edge n i), Fin (edge n (S i)))) l)
   (fun ab st => ppi_sector (classes_of rays) (dz_of rays) (heights_of rays)
       (map (fun ag => Fin (fst ag)) (scan_gates rays)) (Some (Fin e)) (fst ab) (snd ab) st)
   (meds, map f (scan_gates rays))
  = Raise ZeroDivisionError.
Proof.
  intros Hn E l. induction l as [|k l IH]; intros Hi meds f; [contradiction|].
  cbn [map forM fst snd]. rewrite ppi_sector_ok by auto.
  destruct (sector_gates n k rays) eqn:Ek; [reflexivity|].
  cbn [bind]. apply IH. destruct Hi as [->|]; auto. congruence.
Qed.

(** ** Sectors partition [0, 360) *)
Lemma in_sector_true n i a : in_sector n i a = true <-> edge n i <= a < edge n (S i).
Proof.
  unfold in_sector, edge. destruct Rle_dec; try destruct Rlt_dec; split; auto; try discriminate; intros; lra.
Qed.
Lemma edge_le n i j : (2 <= n)%nat -> (i <= j)%nat -> edge n i <= edge n j.
Proof.
  intros Hn H. unfold edge. apply le_INR in H. assert (0 < INR (n - 1)) by (apply lt_0_INR; lia).
  assert (0 < 360 / INR (n - 1)) by (apply Rdiv_lt_0_compat; lra). nra.
Qed.
Lemma sectors_disjoint n i j a : (2 <= n)%nat -> in_sector n i a = true -> in_sector n j a = true -> i = j.
Proof.
  intros Hn Hi Hj. apply in_sector_true in Hi, Hj.
  destruct (Nat.lt_trichotomy i j) as [L|[|L]]; auto; exfalso.
  - pose proof (edge_le n (S i) j Hn L). lra.
  - pose proof (edge_le n (S j) i Hn L). lra.
Qed.
Lemma sectors_cover n a : (2 <= n)%nat ->
  (0 <= a < 360 <-> exists i, (i < n - 1)%nat /\ in_sector n i a = true).
Proof.
  intro Hn. split.
  - intros (H0 & H1). assert (G : forall k, a < edge n k -> exists i, (i < k)%nat /\ in_sector n i a = true).
    { induction k; intro H.
      - exfalso. unfold edge in H. simpl in H. lra.
      - destruct (Rlt_dec a (edge n k)) as [L|L].
        + destruct (IHk L) as (i & Hi & Hs). exists i. split; auto.
        + exists k. split; auto. apply in_sector_true. lra. }
    apply G. rewrite edge_last; auto.
  - intros (i & Hi & Hs). apply in_sector_true in Hs.
    pose proof (edge_le n 0 i Hn ltac:(lia)). pose proof (edge_le n (S i) (n - 1) Hn ltac:(lia)).
    rewrite edge_last in * by auto. unfold edge at 1 in H. simpl INR in H. lra.
Qed.

Lemma az_height_none n rays e l a : (forall i, In i l -> in_sector n i a = false) -> az_height n rays e l a = 0.
Proof.
  unfold az_height. induction l as [|i l IH] using rev_ind; intro H; auto.
  rewrite fold_left_app. cbn [fold_left]. rewrite H by (apply in_or_app; right; now left).
  apply IH. intros. apply H. apply in_or_app. now left.
Qed.
Lemma az_height_some n rays e l a i : (2 <= n)%nat -> In i l -> in_sector n i a = true ->
  az_height n rays e l a = sheight n i rays e.
Proof.
  intros Hn Hi Hs. unfold az_height. induction l as [|k l IH] using rev_ind; [contradiction|].
  rewrite fold_left_app. cbn [fold_left]. destruct (in_sector n k a) eqn:E.
  - now rewrite (sectors_disjoint n i k a).
  - apply IH. apply in_app_or in Hi as [|[->|[]]]; auto. congruence.
Qed.

(** For every scan whose sectors all hold a gate: one height per sector, and
    every gate is 0 at or below the height of its own sector and 2 above it
    (height 0 for an azimuth outside [0, 360)). *)
Theorem C45_levels ms (rays : list (R * list gate)) ng n e : (2 <= n)%nat ->
  (forall r, In r rays -> length (snd r) = ng) ->
  (forall i, (i < n - 1)%nat -> sector_gates n i rays <> []) ->
  exists hs lev,
    get_ml_ppi ms (classes_of rays) (dz_of rays) (heights_of rays) ng (Some (Fin e)) n (Some (azimuths_of rays))
     = Ok (lev, SectorHeights (map Fin hs)) /\
    length hs = (n - 1)%nat /\
    (forall i h, nth_error hs i = Some h -> sector_height n i rays e h) /\
    length lev = length (scan_gates rays) /\
    (forall j a g, nth_error (scan_gates rays) j = Some (a, g) -> exists h,
       nth_error lev j = Some (if Rle_dec (g_height g) h then 0 else 2)%Z /\
       ((exists i, in_sector n i a = true /\ nth_error hs i = Some h) \/
        (~ 0 <= a < 360 /\ h = 0))).
Proof.
  intros Hn Hng Hs.
  exists (map (fun i => sheight n i rays e) (seq 0 (n - 1))),
    (map (fun ag => if Rle_dec (g_height (snd ag)) (az_height n rays e (seq 0 (n - 1)) (fst ag)) then 0 else 2)%Z (scan_gates rays)).
  split; [|split; [|split; [|split]]].
  - unfold get_ml_ppi. destruct (Nat.eqb_spec n 0); [lia|].
    rewrite (az3d_gates rays ng Hng), sector_pairs by auto.
    assert (L : length (map (fun ag : R * gate => Fin (fst ag)) (scan_gates rays)) = length (classes_of rays))
      by (unfold classes_of; now rewrite !map_length).
    rewrite L, Nat.eqb_refl. cbn [negb]. cbv zeta.
    assert (Z0 : map (fun _ : Z => @flit xr _ 0) (classes_of rays) = map (fun _ => Fin 0) (scan_gates rays)).
    { unfold classes_of. rewrite map_map, lit_int. reflexivity. }
    rewrite Z0, sectors_loop; auto.
    2:{ intros i Hi. apply in_seq in Hi. apply Hs. lia. }
    cbn [bind]. rewrite map_map. f_equal. f_equal.
    unfold classes_of, heights_of. rewrite !map2_map, map_map, !msetc_map. apply map_ext.
    intros (a, g). cbn [fst snd]. rewrite !fle_fin.
    destruct (Rleb_spec (g_height g) (az_height n rays e (seq 0 (n - 1)) a)), Rle_dec; try lra; auto.
    assert (Rleb (az_height n rays e (seq 0 (n - 1)) a) (g_height g) = true) as -> by (apply Rleb_true; lra). reflexivity.
  - now rewrite map_length, seq_length.
  - intros i h Hi. rewrite map_nth_error' in Hi. destruct (nth_error (seq 0 (n - 1)) i) eqn:E; [|discriminate].
    injection Hi as <-. assert (Hlt := nth_error_lt _ _ E). rewrite seq_length in Hlt.
    assert (n0 = i) as ->. { rewrite (nth_error_nth' _ 0%nat) in E by (now rewrite seq_length).
      rewrite seq_nth in E by auto. injection E. lia. }
    apply sheight_spec.
  - now rewrite map_length.
  - intros j a g Hj. exists (az_height n rays e (seq 0 (n - 1)) a).
    split; [rewrite map_nth_error', Hj; reflexivity|].
    destruct (Rle_dec 0 a) as [A|A].
    2:{ right. split; [lra|]. apply az_height_none. intros i Hi. destruct (in_sector n i a) eqn:E; auto.
        assert (0 <= a < 360); [|lra]. apply (sectors_cover n a Hn). exists i. apply in_seq in Hi. split; [lia|auto]. }
    destruct (Rlt_dec a 360) as [B|B].
    2:{ right. split; [lra|]. apply az_height_none. intros i Hi. destruct (in_sector n i a) eqn:E; auto.
        assert (0 <= a < 360); [|lra]. apply (sectors_cover n a Hn). exists i. apply in_seq in Hi. split; [lia|auto]. }
    left. destruct (proj1 (sectors_cover n a Hn) (conj A B)) as (i & Hi & Hsec). exists i. split; auto.
    rewrite map_nth_error', (nth_error_nth' _ 0%nat) by (now rewrite seq_length).
    rewrite seq_nth by auto. f_equal. symmetry. apply az_height_some; auto. apply in_seq. lia.
Qed.

(** Every gate with an azimuth in [0, 360) is judged by exactly one sector. *)
Theorem C45_one_sector_per_gate ms (rays : list (R * list gate)) ng n e lev hs j a g : (2 <= n)%nat ->
  (forall r, In r rays -> length (snd r) = ng) ->
  (forall i, (i < n - 1)%nat -> sector_gates n i rays <> []) ->
  get_ml_ppi ms (classes_of rays) (dz_of rays) (heights_of rays) ng (Some (Fin e)) n (Some (azimuths_of rays))
     = Ok (lev, SectorHeights (map Fin hs)) ->
  nth_error (scan_gates rays) j = Some (a, g) -> 0 <= a < 360 ->
  exists! i, (i < length hs)%nat /\ in_sector n i a = true /\
    nth_error lev j = Some (if Rle_dec (g_height g) (nth i hs 0%R) then 0 else 2)%Z.
Proof.
  intros Hn Hng Hs E Hj Ha. destruct (C45_levels ms rays ng n e Hn Hng Hs) as (hs' & lev' & E' & L & _ & _ & G).
  rewrite E' in E. assert (lev' = lev) as -> by congruence.
  assert (hs' = hs) as ->.
  { assert (Em : map Fin hs' = map Fin hs) by congruence. clear -Em. revert hs Em. induction hs'; intros [|y hs] Em; try discriminate; auto.
    cbn [map] in Em. injection Em as -> Em. f_equal. auto. }
  destruct (G j a g Hj) as (h & Hl & [(i & Hi & Hh)|(N & _)]); [|contradiction].
  exists i. split.
  - split; [eapply nth_error_lt; eauto|]. split; auto. now rewrite (nth_error_nth _ _ 0 Hh).
  - intros i' (_ & Hi' & _). now apply (sectors_disjoint n i i' a).
Qed.

(** hence never 1 *)
Corollary C45_never_one ms (rays : list (R * list gate)) ng n e lev h : (2 <= n)%nat ->
  (forall r, In r rays -> length (snd r) = ng) ->
  get_ml_ppi ms (classes_of rays) (dz_of rays) (heights_of rays) ng (Some (Fin e)) n (Some (azimuths_of rays)) = Ok (lev, h) ->
  (forall i, (i < n - 1)%nat -> sector_gates n i rays <> []) ->
  Forall (fun c => c = 0 \/ c = 2)%Z lev.
Proof.
  intros Hn Hng E Hs. destruct (C45_levels ms rays ng n e Hn Hng Hs) as (hs & lev' & E' & _ & _ & L & G).
  rewrite E' in E. injection E as <- _. apply Forall_forall. intros c Hc.
  apply In_nth_error in Hc as (j & Hj). pose proof (nth_error_lt _ _ Hj) as Hl. rewrite L in Hl.
  destruct (nth_error_map_some (scan_gates rays) (i := j)) as ((a, g) & Hg); auto.
  destruct (G j a g Hg) as (hh & Hh & _). rewrite Hh in Hj. injection Hj as <-. destruct Rle_dec; auto.
Qed.

(** One sector without a gate, and the whole call fails: with the default 36
    (35 sectors) any scan narrower than a full circle does. *)
Theorem C45_empty_sector ms (rays : list (R * list gate)) ng n e i : (2 <= n)%nat -> (i < n - 1)%nat ->
  (forall r, In r rays -> length (snd r) = ng) -> sector_gates n i rays = [] ->
  get_ml_ppi ms (classes_of rays) (dz_of rays) (heights_of rays) ng (Some (Fin e)) n (Some (azimuths_of rays))
  = Raise ZeroDivisionError.
Proof.
  intros Hn Hi Hng E. unfold get_ml_ppi. destruct (Nat.eqb_spec n 0); [lia|].
  rewrite (az3d_gates rays ng Hng), sector_pairs by auto.
  assert (L : length (map (fun ag : R * gate => Fin (fst ag)) (scan_gates rays)) = length (classes_of rays))
    by (unfold classes_of; now rewrite !map_length).
  rewrite L, Nat.eqb_refl. cbn [negb]. cbv zeta.
  assert (Z0 : map (fun _ : Z => @flit xr _ 0) (classes_of rays) = map (fun _ => Fin 0) (scan_gates rays)).
  { unfold classes_of. rewrite map_map, lit_int. reflexivity. }
  rewrite Z0, (sectors_raise n rays e i); auto. apply in_seq. lia.
Qed.

(** Without azimuths the RHI version runs. *)
Theorem C45_no_azimuths (F : Type) (fo : FloatOps F) ms fh (dz height : list F) ng e n :
  get_ml_ppi ms fh dz height ng e n None
  = match get_ml_rhi ms false fh height e with
    | Ok (m, z) => Ok (m, OneHeight z)
    | PyNone => PyNone | Raise x => Raise x | Fault => Fault | Unmodelled => Unmodelled
    end.
Proof. unfold get_ml_ppi. destruct (get_ml_rhi ms false fh height e) as [(m, z)| | | |]; reflexivity. Qed.

(** ** Non-vacuity *)
Example C44_example : exists m : R,
  let gs := repeat (2%Z, Fin 3) 11 ++ [(1%Z, Fin 9); (2%Z, Fin 8); (2%Z, NaN)] in
  rhi_height 4 gs m /\ m = 3 /\ length (near_points 4 gs) = 11%nat.
Proof.
  exists 3. cbv zeta.
  assert (E : near_points 4 (repeat (2%Z, Fin 3) 11 ++ [(1%Z, Fin 9); (2%Z, Fin 8); (2%Z, NaN)]) = repeat 3 11).
  { unfold near_points. cbn [repeat app flat_map wet_snow Z.eqb Pos.eqb].
    destruct (Rle_dec (Rabs (3 - 4)) (3 / 2)) as [|N].
    - destruct (Rle_dec (Rabs (8 - 4)) (3 / 2)) as [A|]; [|reflexivity].
      exfalso. rewrite Rabs_right in A; lra.
    - exfalso. apply N. rewrite Rabs_left; lra. }
  unfold rhi_height. rewrite E. split; [|split; reflexivity].
  cbn [repeat length Nat.ltb Nat.leb]. exists (repeat 3 11). split; [reflexivity|]. split; [|simpl; lra].
  cbn [repeat]. repeat (constructor; [|repeat (constructor; [lra|]); constructor]). constructor.
Qed.

Definition two_rays : list (R * list gate) :=
  [(10, [mkgate 2 3 (Some 30); mkgate 1 5 None]); (200, [mkgate 2 2 (Some 10); mkgate 2 9 None])].
Example C45_example : (forall r, In r two_rays -> length (snd r) = 2%nat) /\
  (forall i, (i < 3 - 1)%nat -> sector_gates 3 i two_rays <> []) /\
  sector_gates 3 0 two_rays = snd (10, [mkgate 2 3 (Some 30); mkgate 1 5 None]).
Proof.
  assert (S0 : in_sector 3 0 10 = true) by (apply in_sector_true; unfold edge; simpl; lra).
  assert (S1 : in_sector 3 1 200 = true) by (apply in_sector_true; unfold edge; simpl; lra).
  assert (S2 : in_sector 3 1 10 = false).
  { destruct (in_sector 3 1 10) eqn:E; auto. apply in_sector_true in E. unfold edge in E. simpl in E. lra. }
  assert (S3 : in_sector 3 0 200 = false).
  { destruct (in_sector 3 0 200) eqn:E; auto. apply in_sector_true in E. unfold edge in E. simpl in E. lra. }
  unfold two_rays, sector_gates, scan_gates. cbn [flat_map map app fst snd filter]. split; [|split].
  - intros r [<-|[<-|[]]]; reflexivity.
  - intros i Hi. destruct i as [|[|i]]; [| |lia]; rewrite ?S0, ?S1, ?S2, ?S3; discriminate.
  - now rewrite S0, S3.
Qed.
(** computed on rationals: sector heights 3 and 0 (too weak), levels 0 2 | 2 2 *)
Example C45_run : get_ml_ppi (F := option Q) true [2; 1; 2; 2]%Z [Some 30; None; Some 10; None]%Q [Some 3; Some 5; Some 2; Some 9]%Q
   2 (Some (Some 4%Q)) 3 (Some [Some 10; Some 200]%Q)
  = Ok ([0; 2; 2; 2]%Z, SectorHeights [Some 3; Some 0]%Q).
Proof. vm_compute. reflexivity. Qed.
