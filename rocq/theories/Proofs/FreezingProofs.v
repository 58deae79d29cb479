(** Soundings: sorting, maxima, argmax (for get_freezing_altitude). *)
From Coq Require Import Reals Lra Permutation Sorted.
From Verif Require Import Base.Num Base.ListFacts Base.XReal Base.XTac Base.XArith.
From Verif Require Model.LiquidIce.
Import Model.LiquidIce.
Open Scope R_scope.

(** (height, temperature) as floats *)
Definition fz (p : R * R) : xr * xr := (Fin (fst p), Fin (snd p)).

Fixpoint rinsert (p : R * R) (l : list (R * R)) : list (R * R) :=
  match l with
  | [] => [p]
  | q :: r => if Rltb (fst q) (fst p) then q :: rinsert p r else p :: l
  end.
Definition rsort (l : list (R * R)) := fold_right rinsert [] l.

Lemma insert_fz p l : insert_zT (fz p) (map fz l) = map fz (rinsert p l).
Proof.
  induction l as [|q l IH]; auto. cbn [map insert_zT rinsert].
  change (flt (fst (fz q)) (fst (fz p))) with (Rltb (fst q) (fst p)).
  destruct Rltb; cbn [map]; congruence.
Qed.
Lemma sort_fz l : sort_zT (map fz l) = map fz (rsort l).
Proof.
  induction l as [|p l IH]; auto. cbn [map]. unfold sort_zT, rsort in *. cbn [fold_right].
  rewrite IH. apply insert_fz.
Qed.
Lemma rinsert_perm p l : Permutation (p :: l) (rinsert p l).
Proof.
  induction l as [|q l IH]; auto. cbn [rinsert]. destruct Rltb; auto.
  rewrite perm_swap. now apply perm_skip.
Qed.
Lemma rsort_perm l : Permutation l (rsort l).
Proof.
  induction l as [|p l IH]; auto. cbn [rsort fold_right].
  rewrite <- rinsert_perm. now apply perm_skip.
Qed.
Definition hle (p q : R * R) := fst p <= fst q.
Lemma rinsert_sorted p l : StronglySorted hle l -> StronglySorted hle (rinsert p l).
Proof.
  induction 1 as [|q l S IH A]; cbn [rinsert]; [repeat constructor|].
  destruct (Rltb_spec (fst q) (fst p)).
  - constructor; auto. apply Forall_forall. intros x Hx.
    apply (Permutation_in x (Permutation_sym (rinsert_perm p l))) in Hx.
    destruct Hx as [<-|Hx]; [unfold hle; lra|]. rewrite Forall_forall in A. auto.
  - constructor; [constructor; auto|]. constructor; [unfold hle; lra|].
    eapply Forall_impl; [|exact A]. unfold hle; intros; lra.
Qed.
Lemma rsort_sorted l : StronglySorted hle (rsort l).
Proof. induction l; cbn [rsort fold_right]; [constructor|]. now apply rinsert_sorted. Qed.

Lemma msel_filter {A B} (f : A -> bool) (g : A -> B) l :
  msel (map f l) (map g l) = map g (filter f l).
Proof. induction l as [|a l IH]; auto. cbn. destruct (f a); cbn; congruence. Qed.

Lemma combine_map {A B C} (f : A -> B) (g : A -> C) l :
  combine (map f l) (map g l) = map (fun x => (f x, g x)) l.
Proof. induction l; cbn; congruence. Qed.

Lemma npmax2_fin x y : npmax2 (Fin x) (Fin y) = Fin (Rmax x y).
Proof.
  unfold npmax2, fisnan. rewrite !feq_fin, flt_fin. rewrite !(proj2 (Reqb_true _ _)) by auto.
  cbn [negb]. unfold Rmax. destruct (Rltb_spec x y), (Rle_dec x y); auto; f_equal; lra.
Qed.
Lemma npmin2_fin x y : npmin2 (Fin x) (Fin y) = Fin (Rmin x y).
Proof.
  unfold npmin2, fisnan. rewrite !feq_fin, flt_fin. rewrite !(proj2 (Reqb_true _ _)) by auto.
  cbn [negb]. unfold Rmin. destruct (Rltb_spec y x), (Rle_dec x y); auto; f_equal; lra.
Qed.
Lemma npmax_fin l : l <> [] -> exists m, npmax (map Fin l) = Ok (Fin m) /\ In m l /\
  forall x, In x l -> x <= m.
Proof.
  destruct l as [|a l]; [congruence|intros _]. cbn [map npmax].
  revert a; induction l as [|b l IH]; intro a; cbn [map fold_left].
  - exists a. repeat split; auto; [now left|]. intros x [->|[]]; lra.
  - rewrite npmax2_fin. destruct (IH (Rmax a b)) as (m & E & I & B).
    exists m. split; auto. split.
    + destruct I as [<-|I]; [|right; right; auto].
      unfold Rmax; destruct Rle_dec; [right; now left|now left].
    + intros x [<-|[<-|Hx]].
      * apply Rle_trans with (Rmax a b); [apply Rmax_l|]. apply B; now left.
      * apply Rle_trans with (Rmax a b); [apply Rmax_r|]. apply B; now left.
      * apply B; now right.
Qed.
Lemma npmin_fin l : l <> [] -> exists m, npmin (map Fin l) = Ok (Fin m) /\ In m l /\
  forall x, In x l -> m <= x.
Proof.
  destruct l as [|a l]; [congruence|intros _]. cbn [map npmin].
  revert a; induction l as [|b l IH]; intro a; cbn [map fold_left].
  - exists a. repeat split; auto; [now left|]. intros x [->|[]]; lra.
  - rewrite npmin2_fin. destruct (IH (Rmin a b)) as (m & E & I & B).
    exists m. split; auto. split.
    + destruct I as [<-|I]; [|right; right; auto].
      unfold Rmin; destruct Rle_dec; [now left|right; now left].
    + intros x [<-|[<-|Hx]].
      * apply Rle_trans with (Rmin a b); [|apply Rmin_l]. apply B; now left.
      * apply Rle_trans with (Rmin a b); [|apply Rmin_r]. apply B; now left.
      * apply B; now right.
Qed.

Lemma argmax_from_lt (l : list xr) best bi i :
  (bi < i)%nat -> (argmax_from best bi i l < i + length l)%nat.
Proof.
  revert best bi i; induction l as [|x l IH]; intros best bi i H; cbn [argmax_from length]; [lia|].
  destruct (flt best x); [specialize (IH x i (S i))|specialize (IH best bi (S i))]; lia.
Qed.
Lemma argmax_lt (l : list xr) : l <> [] -> exists k, argmax l = Ok k /\ (k < length l)%nat.
Proof.
  destruct l as [|x l]; [congruence|intros _]. cbn [argmax length]. eexists; split; [reflexivity|].
  assert (H := argmax_from_lt l x 0 1). lia.
Qed.
(** strictly increasing values: the last index *)
Lemma argmax_from_incr l best bi i : StronglySorted Rlt (best :: l) -> S bi = i ->
  argmax_from (Fin best) bi i (map Fin l) = (bi + length l)%nat.
Proof.
  revert best bi i; induction l as [|x l IH]; intros best bi i S E;
    cbn [map argmax_from length]; [lia|].
  rewrite flt_fin. inversion S as [|? ? S' A]; subst. inversion A; subst.
  rewrite (proj2 (Rltb_true _ _)) by auto. rewrite IH; auto. lia.
Qed.
Lemma argmax_incr l : StronglySorted Rlt l -> l <> [] ->
  argmax (map Fin l) = Ok (length l - 1)%nat.
Proof.
  destruct l as [|x l]; [congruence|intros S _]. cbn [map argmax].
  rewrite argmax_from_incr by auto. f_equal. cbn [length]. lia.
Qed.

(** interpolation between finite points *)
Lemma interp2_mid t0 t1 z0 z1 : t0 < 0 < t1 ->
  interp2 (flit 0) (Fin t0) (Fin t1) (Fin z0) (Fin z1) =
  Fin ((z1 - z0) / (t1 - t0) * (0 - t0) + z0).
Proof.
  intro H. unfold interp2. rewrite (lit_int 0), !flt_fin, feq_fin.
  rewrite (proj2 (Rltb_false 0 t0)), (proj2 (Rltb_false t1 0)), (proj2 (Reqb_false 0 t1)) by lra.
  rewrite !fsub_fin, fdiv_fin by lra. now rewrite fmul_fin, fadd_fin.
Qed.
Lemma interp2_left t0 t1 z0 z1 : 0 < t0 ->
  interp2 (flit 0) (Fin t0) (Fin t1) (Fin z0) (Fin z1) = Fin z0.
Proof.
  intro H. unfold interp2. rewrite (lit_int 0), !flt_fin.
  now rewrite (proj2 (Rltb_true 0 t0)) by lra.
Qed.
Lemma interp2_right t0 t1 z0 z1 : t0 <= t1 -> t1 < 0 ->
  interp2 (flit 0) (Fin t0) (Fin t1) (Fin z0) (Fin z1) = Fin z1.
Proof.
  intros H H1. unfold interp2. rewrite (lit_int 0), !flt_fin.
  now rewrite (proj2 (Rltb_false 0 t0)), (proj2 (Rltb_true t1 0)) by lra.
Qed.
(** always between the two heights *)
Lemma interp2_between t0 t1 z0 z1 : t0 <= t1 -> t0 <> 0 -> t1 <> 0 ->
  exists h, interp2 (flit 0) (Fin t0) (Fin t1) (Fin z0) (Fin z1) = Fin h /\
    Rmin z0 z1 <= h <= Rmax z0 z1.
Proof.
  intros H N0 N1.
  pose proof (Rmin_l z0 z1). pose proof (Rmin_r z0 z1).
  pose proof (Rmax_l z0 z1). pose proof (Rmax_r z0 z1).
  destruct (Rlt_dec 0 t0); [rewrite interp2_left by auto; exists z0; split; auto; lra|].
  destruct (Rlt_dec t1 0); [rewrite interp2_right by auto; exists z1; split; auto; lra|].
  rewrite interp2_mid by lra. eexists; split; [reflexivity|].
  assert (Hf : exists w, 0 <= w <= 1 /\ (z1 - z0) / (t1 - t0) * (0 - t0) + z0 = z0 + w * (z1 - z0)).
  { exists ((0 - t0) / (t1 - t0)). split; [split|field; lra].
    - apply Rmult_le_pos; [lra|]. left; apply Rinv_0_lt_compat; lra.
    - apply Rmult_le_reg_r with (t1 - t0); [lra|]. unfold Rdiv.
      rewrite Rmult_assoc, Rinv_l by lra. lra. }
  destruct Hf as (w & Hw & ->).
  unfold Rmin, Rmax in *. destruct (Rle_dec z0 z1); nra.
Qed.

(** ** get_freezing_altitude on a real sounding *)
Definition heights (s : list (R * R)) : list xr := map (fun p => Fin (fst p)) s.
Definition temps (s : list (R * R)) : list xr := map (fun p => Fin (snd p)) s.

Lemma zero_levels s :
  msel (map (fun t => feq t (flit 0)) (temps s)) (heights s)
  = map Fin (map fst (filter (fun p => Reqb (snd p) 0) s)).
Proof.
  unfold temps, heights. rewrite map_map, msel_filter, map_map. f_equal.
  apply filter_ext. intro p. now rewrite (lit_int 0), feq_fin.
Qed.

Lemma same_len s : (length (temps s) =? length (heights s))%nat = true.
Proof. unfold temps, heights. rewrite !map_length. apply Nat.eqb_refl. Qed.
Lemma not_shorter s : (length (temps s) <? length (heights s))%nat = false.
Proof. unfold temps, heights. rewrite !map_length. apply Nat.ltb_irrefl. Qed.

Lemma gfa_zero pf s : (exists p, In p s /\ snd p = 0) ->
  exists h, get_freezing_altitude pf (temps s) (heights s) = Ok (Fin h) /\
    In (h, 0) s /\ forall p, In p s -> snd p = 0 -> fst p <= h.
Proof.
  intros (p & Hp & E0). unfold get_freezing_altitude. rewrite same_len, zero_levels.
  assert (Hin : In (fst p) (map fst (filter (fun p => Reqb (snd p) 0) s))).
  { apply in_map. apply filter_In. split; auto. now apply Reqb_true. }
  destruct (npmax_fin (map fst (filter (fun p => Reqb (snd p) 0) s))) as (m & E & I & B).
  { intro Z. rewrite Z in Hin. destruct Hin. }
  rewrite E. exists m. split; auto. split.
  - apply in_map_iff in I. destruct I as ([a b] & E1 & I). apply filter_In in I.
    destruct I as [I Z]. cbn in E1, Z. apply Reqb_true in Z. now subst.
  - intros q Hq Zq. apply B. apply in_map. apply filter_In. split; auto. now apply Reqb_true.
Qed.

Lemma no_zero_filter (s : list (R * R)) : (forall p, In p s -> snd p <> 0) ->
  filter (fun p => Reqb (snd p) 0) s = [].
Proof.
  intro H. induction s as [|p s IH]; auto. cbn [filter].
  rewrite (proj2 (Reqb_false _ _)) by (apply H; now left). apply IH. intros; apply H; now right.
Qed.

(** the function after the try block, on the sorted sounding *)
Definition gfa_rest (pf : list xr -> list xr -> xr) (s : list (R * R)) : res xr :=
  let st := rsort s in
  mx <- npmax (temps s) ;; mn <- npmin (temps s) ;;
  if (flt (flit 0) mx && flt mn (flit 0))%bool then
    zarg <- argmax (map Fin (map fst (filter (fun p => Rltb 0 (snd p)) st))) ;;
    match skipn zarg st with
    | a :: b :: _ =>
        if Rltb (snd b) (snd a)
        then Ok (interp2 (flit 0) (Fin (snd b)) (Fin (snd a)) (Fin (fst b)) (Fin (fst a)))
        else Ok (interp2 (flit 0) (Fin (snd a)) (Fin (snd b)) (Fin (fst a)) (Fin (fst b)))
    | _ => Raise IndexError
    end
  else if (flt mx (flit 0) || flt (flit 0) mn)%bool then Ok (pf (temps st) (heights st))
  else PyNone.

Lemma gfa_nozero pf s : (forall p, In p s -> snd p <> 0) ->
  get_freezing_altitude pf (temps s) (heights s) = gfa_rest pf s.
Proof.
  intro H. unfold get_freezing_altitude, gfa_rest. rewrite same_len, not_shorter, zero_levels, no_zero_filter by auto.
  cbn [map npmax].
  assert (C : sort_zT (combine (heights s) (temps s)) = map fz (rsort s)).
  { unfold heights, temps. rewrite combine_map. rewrite <- sort_fz. reflexivity. }
  rewrite C. rewrite !map_map.
  change (map (fun x => fst (fz x)) (rsort s)) with (heights (rsort s)).
  change (map (fun x => snd (fz x)) (rsort s)) with (temps (rsort s)).
  assert (P : msel (map (fun t => flt (flit 0) t) (temps (rsort s))) (heights (rsort s))
    = map Fin (map fst (filter (fun p => Rltb 0 (snd p)) (rsort s)))).
  { unfold temps, heights. rewrite map_map, msel_filter, map_map. f_equal.
    apply filter_ext. intro p. now rewrite (lit_int 0), flt_fin. }
  rewrite map_map in P.
  change (npmax (map (fun p => Fin (snd p)) s)) with (npmax (temps s)).
  assert (EM : map (fun x => flt (flit 0) (snd (fz x))) (rsort s)
     = map (fun t => flt (flit 0) t) (temps (rsort s))) by (unfold temps; now rewrite map_map).
  rewrite EM, P.
  destruct (npmax (temps s)); cbn [bind]; auto. destruct (npmin (temps s)); cbn [bind]; auto.
  destruct (_ && _)%bool; auto.
  destruct (argmax _) as [k| | | |]; cbn [bind]; auto.
  unfold temps, heights. rewrite !skipn_map.
  destruct (skipn k (rsort s)) as [|x [|y r]]; cbn [map]; auto.
Qed.

Lemma filter_prefix {A} (f : A -> bool) (R : A -> A -> Prop) l :
  (forall x y, R x y -> f y = true -> f x = true) -> StronglySorted R l ->
  exists a b, l = a ++ b /\ filter f l = a /\ (forall x, In x b -> f x = false).
Proof.
  intros HR S. induction S as [|x l S IH AA]; [exists [], []; repeat split; auto; intros ? []|].
  destruct IH as (a & b & E & Fa & Fb). cbn [filter]. destruct (f x) eqn:Ex.
  - exists (x :: a), b. subst l. repeat split; auto. now rewrite Fa.
  - exists [], (x :: l). repeat split; auto.
    + rewrite Forall_forall in AA.
      assert (N : forall y, In y l -> f y = false).
      { intros y Hy. destruct (f y) eqn:Ey; auto. rewrite (HR x y) in Ex; auto. }
      clear -N. induction l as [|y l IH]; auto. cbn. rewrite N by now left.
      apply IH. intros; apply N; now right.
    + intros y [<-|Hy]; auto. destruct (f y) eqn:Ey; auto. rewrite Forall_forall in AA.
      rewrite (HR x y) in Ex; auto.
Qed.

Lemma skipn_two {A} (a b : list A) : a <> [] -> b <> [] ->
  exists a' x y b', a = a' ++ [x] /\ b = y :: b' /\
    skipn (length a - 1) (a ++ b) = x :: y :: b'.
Proof.
  intros Ha Hb. destruct (exists_last Ha) as (a' & x & ->). destruct b as [|y b']; [congruence|].
  exists a', x, y, b'. repeat split; auto.
  rewrite app_length; cbn [length]. replace (length a' + 1 - 1)%nat with (length a') by lia.
  rewrite <- app_assoc. rewrite skipn_app, skipn_all, Nat.sub_diag. reflexivity.
Qed.

Lemma extremes s : s <> [] -> exists mx mn,
  npmax (temps s) = Ok (Fin mx) /\ npmin (temps s) = Ok (Fin mn) /\
  (exists p, In p s /\ snd p = mx) /\ (exists p, In p s /\ snd p = mn) /\
  forall p, In p s -> mn <= snd p <= mx.
Proof.
  intro H. assert (T : temps s = map Fin (map snd s)) by (unfold temps; now rewrite map_map).
  rewrite T. assert (N : map snd s <> []) by (destruct s; cbn; congruence).
  destruct (npmax_fin _ N) as (mx & E1 & I1 & B1), (npmin_fin _ N) as (mn & E2 & I2 & B2).
  exists mx, mn. repeat split; auto.
  - apply in_map_iff in I1. destruct I1 as (p & ? & ?); eauto.
  - apply in_map_iff in I2. destruct I2 as (p & ? & ?); eauto.
  - apply B2. now apply in_map.
  - apply B1. now apply in_map.
Qed.

Lemma StronglySorted_nodup_lt l : StronglySorted hle l -> NoDup (map fst l) ->
  StronglySorted (fun p q => fst p < fst q) l.
Proof.
  induction 1 as [|p l S IH A]; intro N; constructor.
  - apply IH. inversion N; auto.
  - inversion N as [|? ? NI _]; subst. rewrite Forall_forall in *. intros q Hq.
    destruct (A q Hq) as [?|E]; auto. exfalso; apply NI. rewrite E. now apply in_map.
Qed.

Lemma StronglySorted_app_inv {A} (R : A -> A -> Prop) a b :
  StronglySorted R (a ++ b) -> StronglySorted R a /\ StronglySorted R b /\
  forall x y, In x a -> In y b -> R x y.
Proof.
  induction a as [|x a IH]; cbn [app]; intro S.
  - repeat split; auto; [constructor|intros ? ? []].
  - inversion S as [|? ? S' F]; subst. destruct (IH S') as (Sa & Sb & Hab).
    rewrite Forall_forall in F. repeat split; auto.
    + constructor; auto. apply Forall_forall. intros y Hy. apply F, in_or_app; auto.
    + intros u v [<-|Hu] Hv; auto. apply F, in_or_app; auto.
Qed.

Lemma StronglySorted_map {A B} (R : A -> A -> Prop) (Q : B -> B -> Prop) (f : A -> B) l :
  (forall x y, R x y -> Q (f x) (f y)) -> StronglySorted R l -> StronglySorted Q (map f l).
Proof.
  intros H S. induction S as [|x l S IH F]; cbn; constructor; auto.
  apply Forall_forall. intros y Hy. apply in_map_iff in Hy. destruct Hy as (z & <- & Hz).
  rewrite Forall_forall in F. auto.
Qed.

Lemma gfa_monotone pf s :
  NoDup (map fst s) ->
  (forall p q, In p s -> In q s -> fst p < fst q -> snd q < snd p) ->
  (forall p, In p s -> snd p <> 0) ->
  (exists p, In p s /\ 0 < snd p) -> (exists p, In p s /\ snd p < 0) ->
  exists a b, In a s /\ In b s /\ 0 < snd a /\ snd b < 0 /\ fst a < fst b /\
    (forall p, In p s -> fst p <= fst a \/ fst b <= fst p) /\
    get_freezing_altitude pf (temps s) (heights s) =
      Ok (Fin ((fst a - fst b) / (snd a - snd b) * (0 - snd b) + fst b)).
Proof.
  intros ND MONO NZ (pp & Ipp & Ppp) (pn & Ipn & Ppn).
  rewrite gfa_nozero by auto. unfold gfa_rest.
  destruct (extremes s) as (mx & mn & E1 & E2 & _ & _ & B); [destruct s; [destruct Ipp|congruence]|].
  rewrite E1, E2. cbn [bind]. rewrite (lit_int 0), !flt_fin.
  rewrite (proj2 (Rltb_true 0 mx)) by (pose proof (B _ Ipp); lra).
  rewrite (proj2 (Rltb_true mn 0)) by (pose proof (B _ Ipn); lra).
  cbn [andb].
  pose proof (rsort_perm s) as P. set (st := rsort s) in *.
  assert (NDt : NoDup (map fst st)) by (apply (Permutation_NoDup (Permutation_map fst P)); auto).
  assert (Sst : StronglySorted (fun p q => fst p < fst q) st)
    by (apply StronglySorted_nodup_lt; auto; apply rsort_sorted).
  assert (Inst : forall p, In p st -> In p s) by (intros p Hp; apply Permutation_sym in P; eapply Permutation_in; eauto).
  assert (Inst' : forall p, In p s -> In p st) by (intros p Hp; eapply Permutation_in; eauto).
  assert (Q : StronglySorted (fun p q => In p s /\ In q s /\ fst p < fst q) st).
  { clear -Sst Inst. induction Sst as [|x l S IH F]; constructor.
    - apply IH. intros; apply Inst; now right.
    - apply Forall_forall. intros y Hy. rewrite Forall_forall in F.
      repeat split; auto; apply Inst; [now left|now right]. }
  destruct (filter_prefix (fun p => Rltb 0 (snd p))
    (fun p q => In p s /\ In q s /\ fst p < fst q) st) as (xa & xb & Est & Fa & Fb); [|exact Q|].
  { intros x y (Hx & Hy & Hxy) Hp. cbv beta in *. apply Rltb_true in Hp. apply Rltb_true.
    pose proof (MONO _ _ Hx Hy Hxy). lra. }
  rewrite Fa.
  assert (Hxa : In pp xa) by (rewrite <- Fa; apply filter_In; split; auto; now apply Rltb_true).
  assert (Hxb : In pn xb).
  { pose proof (Inst' _ Ipn) as H. rewrite Est in H. apply in_app_or in H. destruct H as [H|H]; auto.
    rewrite <- Fa in H. apply filter_In in H. destruct H as [_ H]. apply Rltb_true in H. lra. }
  rewrite Est in Sst. destruct (StronglySorted_app_inv _ _ _ Sst) as (Sa & Sb & Sab).
  rewrite argmax_incr.
  2:{ eapply StronglySorted_map; [|exact Sa]. auto. }
  2:{ destruct xa; [destruct Hxa|cbn; congruence]. }
  rewrite map_length. cbn [bind].
  assert (Nxa : xa <> []) by (intro Z; rewrite Z in Hxa; destruct Hxa).
  assert (Nxb : xb <> []) by (intro Z; rewrite Z in Hxb; destruct Hxb).
  destruct (skipn_two xa xb Nxa Nxb) as (a' & x & y & b' & Ea & Eb & Sk).
  rewrite Est, Sk.
  assert (Ix : In x xa) by (rewrite Ea; apply in_or_app; right; now left).
  assert (Iy : In y xb) by (rewrite Eb; now left).
  assert (Px : 0 < snd x) by (rewrite <- Fa in Ix; apply filter_In in Ix; destruct Ix as [_ H]; now apply Rltb_true in H).
  assert (Isx : In x s) by (apply Inst; rewrite Est; apply in_or_app; auto).
  assert (Isy : In y s) by (apply Inst; rewrite Est; apply in_or_app; auto).
  assert (Py : snd y < 0).
  { pose proof (Fb _ Iy) as H. cbv beta in H. apply Rltb_false in H. pose proof (NZ _ Isy). lra. }
  exists x, y. repeat split; auto.
  - intros p Hp. apply Inst' in Hp. rewrite Est in Hp. apply in_app_or in Hp. destruct Hp as [Hp|Hp].
    + left. rewrite Ea in Hp, Sa. apply in_app_or in Hp. destruct Hp as [Hp|[<-|[]]]; [|lra].
      destruct (StronglySorted_app_inv _ _ _ Sa) as (_ & _ & H). left. apply H; auto. now left.
    + right. rewrite Eb in Hp, Sb. destruct Hp as [<-|Hp]; [lra|].
      inversion Sb as [|? ? _ F]; subst. rewrite Forall_forall in F. left. auto.
  - rewrite (proj2 (Rltb_true (snd y) (snd x))) by lra.
    change (Fin (IZR 0)) with (Fin 0). rewrite <- (lit_int 0). rewrite interp2_mid by lra. reflexivity.
Qed.

(** any crossing sounding: an answer between two neighbouring levels *)
Lemma gfa_crossing_total pf s :
  (forall p, In p s -> snd p <> 0) ->
  (exists p, In p s /\ 0 < snd p) -> (exists p, In p s /\ snd p < 0) ->
  exists h a b, get_freezing_altitude pf (temps s) (heights s) = Ok (Fin h) /\
    In a s /\ In b s /\ fst a <= h <= fst b.
Proof.
  intros NZ (pp & Ipp & Ppp) (pn & Ipn & Ppn).
  rewrite gfa_nozero by auto. unfold gfa_rest.
  destruct (extremes s) as (mx & mn & E1 & E2 & _ & _ & B); [destruct s; [destruct Ipp|congruence]|].
  rewrite E1, E2. cbn [bind]. rewrite (lit_int 0), !flt_fin.
  rewrite (proj2 (Rltb_true 0 mx)) by (pose proof (B _ Ipp); lra).
  rewrite (proj2 (Rltb_true mn 0)) by (pose proof (B _ Ipn); lra).
  cbn [andb].
  pose proof (rsort_perm s) as P. pose proof (rsort_sorted s) as Sst. set (st := rsort s) in *.
  assert (Inst : forall p, In p st -> In p s) by (intros p Hp; apply Permutation_sym in P; eapply Permutation_in; eauto).
  assert (Inst' : forall p, In p s -> In p st) by (intros p Hp; eapply Permutation_in; eauto).
  set (pos := filter (fun p => Rltb 0 (snd p)) st).
  assert (Ipos : In pp pos) by (apply filter_In; split; auto; now apply Rltb_true).
  destruct (argmax_lt (map Fin (map fst pos))) as (k & Ek & Hk).
  { destruct pos; [destruct Ipos|cbn; congruence]. }
  rewrite Ek. cbn [bind]. rewrite !map_length in Hk.
  assert (Hlen : (length pos < length st)%nat).
  { assert (Inn : In pn st) by auto. unfold pos. clear -Inn Ppn.
    induction st as [|q l IH]; [destruct Inn|]. cbn [filter].
    assert (G : (length (filter (fun p : R * R => Rltb 0 (snd p)) l) <= length l)%nat) by (clear; induction l as [|x l IH]; cbn; [lia|]; destruct Rltb; cbn; lia).
    destruct Inn as [->|Inn].
    - rewrite (proj2 (Rltb_false _ _)) by lra. cbn [length]. lia.
    - specialize (IH Inn). destruct Rltb; cbn [length]; lia. }
  destruct (skipn k st) as [|a [|b r]] eqn:Sk.
  - assert (L := skipn_length k st). rewrite Sk in L. cbn in L. lia.
  - assert (L := skipn_length k st). rewrite Sk in L. cbn in L. lia.
  - assert (Ia : In a st). { rewrite <- (firstn_skipn k st), Sk. apply in_or_app; right; now left. }
    assert (Ib : In b st). { rewrite <- (firstn_skipn k st), Sk. apply in_or_app; right; right; now left. }
    assert (Hab : fst a <= fst b).
    { rewrite <- (firstn_skipn k st), Sk in Sst. apply StronglySorted_app_inv in Sst.
      destruct Sst as (_ & S2 & _). inversion S2 as [|? ? _ F]; subst. inversion F; auto. }
    change (Fin 0) with (Fin (IZR 0)). rewrite <- (lit_int 0).
    destruct (Rltb_spec (snd b) (snd a)).
    + destruct (interp2_between (snd b) (snd a) (fst b) (fst a)) as (h & E & Hh); auto; [lra|].
      rewrite E. rewrite Rmin_right, Rmax_left in Hh by lra. exists h, a, b. repeat split; auto; lra.
    + destruct (interp2_between (snd a) (snd b) (fst a) (fst b)) as (h & E & Hh); auto; [lra|].
      rewrite E. rewrite Rmin_left, Rmax_right in Hh by lra. exists h, a, b. repeat split; auto; lra.
Qed.

Lemma gfa_no_crossing pf s : s <> [] ->
  ((forall p, In p s -> 0 < snd p) \/ (forall p, In p s -> snd p < 0)) ->
  exists st, Permutation s st /\ StronglySorted hle st /\
    get_freezing_altitude pf (temps s) (heights s) = Ok (pf (temps st) (heights st)).
Proof.
  intros N H. exists (rsort s). split; [apply rsort_perm|]. split; [apply rsort_sorted|].
  rewrite gfa_nozero by (intros p Hp; destruct H as [H|H]; specialize (H p Hp); lra).
  unfold gfa_rest. destruct (extremes s N) as (mx & mn & E1 & E2 & (p & Ip & Ep) & (q & Iq & Eq) & B).
  rewrite E1, E2. cbn [bind]. rewrite (lit_int 0), !flt_fin.
  destruct H as [H|H].
  - assert (0 < mn) by (rewrite <- Eq; auto).
    rewrite (proj2 (Rltb_false mn 0)), andb_false_r, (proj2 (Rltb_true 0 mn)), orb_true_r by lra. auto.
  - assert (mx < 0) by (rewrite <- Ep; auto).
    rewrite (proj2 (Rltb_false 0 mx)), (proj2 (Rltb_true mx 0)) by lra. auto.
Qed.
