(** * C30, C31, C41: membership beta functions and their parameter tables *)
From Coq Require Import Reals Lra Lia Qreals Arith.
From Verif Require Import Base.Num Base.ListFacts Base.XReal Base.XTac Base.Pointwise Base.XArith Base.QOps.
From Verif Require Import Model.Tables Model.Beta Model.Hid Spec.HidSpec Proofs.HidProofs Proofs.BetaProofs.
Open Scope R_scope.

(** ** C30 *)

Lemma mapM_map {A B} (f : A -> res B) (g : A -> B) l :
  (forall x, f x = Ok (g x)) -> mapM f l = Ok (map g l).
Proof. intro E. induction l; simpl; auto. now rewrite E, IHl. Qed.

(** hid_beta_f applies the documented function to each of the first [ngates]
    elements (NaN stays NaN, +-inf gives 0), for every a <> 0, b > 0. *)
Theorem C30_values n (x : list xr) a b m : a <> 0 -> 0 < b -> (n <= length x)%nat ->
  hid_beta_f n x (Fin a) (Fin b) (Fin m) = Ok (map (beta_ext m a b) (firstn n x)).
Proof.
  intros Ha Hb L. unfold hid_beta_f. destruct (Nat.ltb_spec (length x) n); [lia|].
  apply mapM_map. intro; now apply beta_gate_xr.
Qed.

(** The number returned for one finite measurement. *)
Corollary C30_one x a b m : a <> 0 -> 0 < b ->
  hid_beta_f 1 [Fin x] (Fin a) (Fin b) (Fin m) = Ok [Fin (beta_spec m a b x)].
Proof. intros. now rewrite C30_values by (simpl; auto). Qed.

(** It lies in (0, 1]. *)
Lemma beta_range m a b x : 0 < beta_spec m a b x <= 1.
Proof. apply beta_spec_range. Qed.

Lemma sq_div x m a : a <> 0 -> ((x - m) / a) ^ 2 = (x - m) ^ 2 / a ^ 2.
Proof. intros. field. auto. Qed.

(** strictly decreasing in the distance from the centre *)
Lemma beta_decreasing m a b x y : a <> 0 -> 0 < b ->
  Rabs (x - m) < Rabs (y - m) -> beta_spec m a b y < beta_spec m a b x.
Proof.
  intros Ha Hb H. unfold beta_spec.
  assert (P : pow0 (((x - m) / a) ^ 2) b < pow0 (((y - m) / a) ^ 2) b).
  { apply pow0_lt; auto.
    - rewrite <- Rsqr_pow2; apply Rle_0_sqr.
    - rewrite !sq_div by auto. apply Rmult_lt_compat_r.
      + apply Rinv_0_lt_compat. rewrite <- Rsqr_pow2. now apply Rsqr_pos_lt.
      + rewrite <- !Rsqr_pow2. now apply Rsqr_lt_abs_1. }
  pose proof (pow0_nonneg (((x - m) / a) ^ 2) b).
  unfold Rdiv. rewrite !Rmult_1_l. apply Rinv_lt_contravar; [|lra].
  apply Rmult_lt_0_compat; lra.
Qed.

(** 1 exactly at the centre *)
Lemma beta_centre m a b x : a <> 0 -> 0 < b -> (beta_spec m a b x = 1 <-> x = m).
Proof.
  intros Ha Hb.
  assert (C : beta_spec m a b m = 1).
  { unfold beta_spec. replace (((m - m) / a) ^ 2) with 0 by (field; auto).
    unfold pow0. destruct Req_EM_T; [|lra]. lra. }
  split; [|intros ->; auto]. intro E. destruct (Req_dec x m) as [|N]; auto.
  assert (beta_spec m a b x < beta_spec m a b m); [|lra].
  apply beta_decreasing; auto. rewrite Rminus_diag_eq, Rabs_R0 by auto. apply Rabs_pos_lt. lra.
Qed.

(** 1/2 exactly at the half width *)
Lemma beta_half m a b x : a <> 0 -> 0 < b ->
  (beta_spec m a b x = 1 / 2 <-> x = m - a \/ x = m + a).
Proof.
  intros Ha Hb.
  assert (C : forall y, Rabs (y - m) = Rabs a -> beta_spec m a b y = 1 / 2).
  { intros y E. unfold beta_spec. replace (((y - m) / a) ^ 2) with 1.
    - rewrite pow0_1. lra.
    - rewrite sq_div by auto. assert (S : (y - m)² = a²) by now apply Rsqr_eq_asb_1.
      rewrite !Rsqr_pow2 in S. rewrite S. field. auto. }
  split.
  - intro E. destruct (Rtotal_order (Rabs (x - m)) (Rabs ((m + a) - m))) as [L|[L|L]].
    + apply (beta_decreasing m a b) in L; auto. rewrite (C (m + a)) in L by (f_equal; lra). lra.
    + replace (m + a - m) with a in L by lra. 
      assert (S : (x - m)² = a²) by now apply Rsqr_eq_asb_1.
      apply Rsqr_eq in S. destruct S; [right|left]; lra.
    + apply (beta_decreasing m a b) in L; auto. rewrite (C (m + a)) in L by (f_equal; lra). lra.
  - intros [-> | ->]; apply C.
    + replace (m - a - m) with (- a) by lra. apply Rabs_Ropp.
    + f_equal. lra.
Qed.

(** symmetric about the centre *)
Lemma beta_symmetric m a b d : beta_spec m a b (m + d) = beta_spec m a b (m - d).
Proof.
  unfold beta_spec. f_equal. f_equal. f_equal.
  replace (m + d - m) with d by lra. replace (m - d - m) with (- d) by lra.
  unfold Rdiv. rewrite !Rpow_mult_distr. f_equal. simpl. lra.
Qed.

(** *** The same of the function itself: gates i, j of the array with finite
    values x, y *)
Lemma beta_at n (xs : list xr) a b m out i x : a <> 0 -> 0 < b ->
  hid_beta_f n xs (Fin a) (Fin b) (Fin m) = Ok out -> (i < n)%nat -> nth_error xs i = Some (Fin x) ->
  nth_error out i = Some (Fin (beta_spec m a b x)).
Proof.
  intros Ha Hb E Hi Hx.
  assert (L : (n <= length xs)%nat).
  { unfold hid_beta_f in E. destruct (Nat.ltb_spec (length xs) n); [discriminate|auto]. }
  rewrite C30_values in E by auto. injection E as <-. rewrite map_nth_error'.
  rewrite <- (firstn_skipn n xs), nth_error_app1 in Hx by (rewrite firstn_length; lia). rewrite Hx. reflexivity.
Qed.

(** A membership lies in (0, 1]. *)
Theorem C30_range n xs a b m out i x : a <> 0 -> 0 < b ->
  hid_beta_f n xs (Fin a) (Fin b) (Fin m) = Ok out -> (i < n)%nat -> nth_error xs i = Some (Fin x) ->
  exists u, nth_error out i = Some (Fin u) /\ 0 < u <= 1.
Proof. intros. eexists. split; [eapply beta_at; eauto|]. apply beta_range. Qed.

(** It is strictly decreasing in the distance from the centre, *)
Theorem C30_decreasing n xs a b m out i j x y : a <> 0 -> 0 < b ->
  hid_beta_f n xs (Fin a) (Fin b) (Fin m) = Ok out -> (i < n)%nat -> (j < n)%nat ->
  nth_error xs i = Some (Fin x) -> nth_error xs j = Some (Fin y) -> Rabs (x - m) < Rabs (y - m) ->
  exists u v, nth_error out i = Some (Fin u) /\ nth_error out j = Some (Fin v) /\ v < u.
Proof. intros. do 2 eexists. split; [|split]; [eapply beta_at; eauto ..|]. now apply beta_decreasing. Qed.

(** symmetric about the centre, *)
Theorem C30_symmetric n xs a b m out i j d : a <> 0 -> 0 < b ->
  hid_beta_f n xs (Fin a) (Fin b) (Fin m) = Ok out -> (i < n)%nat -> (j < n)%nat ->
  nth_error xs i = Some (Fin (m + d)) -> nth_error xs j = Some (Fin (m - d)) ->
  exists u, nth_error out i = Some (Fin u) /\ nth_error out j = Some (Fin u).
Proof. intros. eexists. split; [eapply beta_at; eauto|]. rewrite beta_symmetric. eapply beta_at; eauto. Qed.

(** 1 exactly at the centre *)
Theorem C30_centre n xs a b m out i x : a <> 0 -> 0 < b ->
  hid_beta_f n xs (Fin a) (Fin b) (Fin m) = Ok out -> (i < n)%nat -> nth_error xs i = Some (Fin x) ->
  (nth_error out i = Some (Fin 1) <-> x = m).
Proof.
  intros Ha Hb E Hi Hx. rewrite (beta_at _ _ _ _ _ _ _ _ Ha Hb E Hi Hx), <- (beta_centre m a b x Ha Hb).
  split; [intro K; congruence|intros ->; auto].
Qed.

(** and 1/2 exactly at the half width. *)
Theorem C30_half n xs a b m out i x : a <> 0 -> 0 < b ->
  hid_beta_f n xs (Fin a) (Fin b) (Fin m) = Ok out -> (i < n)%nat -> nth_error xs i = Some (Fin x) ->
  (nth_error out i = Some (Fin (1 / 2)) <-> x = m - a \/ x = m + a).
Proof.
  intros Ha Hb E Hi Hx. rewrite (beta_at _ _ _ _ _ _ _ _ Ha Hb E Hi Hx), <- (beta_half m a b x Ha Hb).
  split; [intro K; congruence|intros ->; auto].
Qed.

(** A zero width raises ZeroDivisionError on any non-empty input, for every
    float arithmetic; on the empty input it returns the empty array. *)
Theorem C30_zero_width (F : Type) (fo : FloatOps F) n (x : list F) a b m :
  feq (f32 a) (flit 0) = true -> (n <= length x)%nat ->
  hid_beta_f n x a b m = if (n =? 0)%nat then Ok [] else Raise ZeroDivisionError.
Proof.
  intros E L. unfold hid_beta_f. destruct (Nat.ltb_spec (length x) n); [lia|].
  destruct n; [reflexivity|]. destruct x; [simpl in L; lia|]. simpl.
  unfold hid_beta_gate at 1. now rewrite E.
Qed.

(** The numpy version of the same formula (csu_fhc.hid_beta) agrees wherever
    the width is non-zero... *)
Theorem C30_numpy_agrees a b m x : a <> 0 -> 0 < b ->
  hid_beta_f 1 [x] (Fin a) (Fin b) (Fin m) = Ok [hid_beta x (Fin a) (Fin b) (Fin m)].
Proof.
  intros Ha Hb. rewrite C30_values by (simpl; auto). simpl map.
  pose proof (beta_gate_xr x a b m Ha Hb) as G. unfold hid_beta_gate in G.
  destruct (feq (Fin a) (flit 0)); [discriminate|].
  cbv zeta in G. destruct (feq _ (flit 0)) in G; [discriminate|].
  unfold hid_beta. injection G as <-. reflexivity.
Qed.

(** ...but does not raise at width 0: it returns 0 off the centre, NaN at it. *)
Theorem C30_numpy_zero_width b m x : 0 < b ->
  hid_beta (Fin x) (Fin 0) (Fin b) (Fin m) = if Req_EM_T x m then NaN else Fin 0.
Proof.
  intro Hb. unfold hid_beta. rewrite fsub_fin, !lit_int.
  change (@fdiv xr _) with xdiv. change (@fpow xr _) with xpow.
  assert (E : xdiv (Fin (x - m)) (Fin 0) = xinf (x - m))
    by (simpl; destruct Req_EM_T; [reflexivity|lra]).
  rewrite E. unfold xinf. destruct Req_EM_T.
  - destruct Rlt_dec; [lra|]. destruct Rlt_dec; [lra|].
    simpl. destruct (Req_EM_T 2 0); [lra|]. simpl. destruct (Req_EM_T b 0); [lra|]. reflexivity.
  - assert (P2 : xpow PInf (Fin 2) = PInf)
      by (simpl; destruct (Req_EM_T 2 0); [lra|]; destruct (Rlt_dec 0 2); [auto|lra]).
    assert (N2 : xpow NInf (Fin 2) = PInf).
    { simpl. destruct (Req_EM_T 2 0); [lra|]; destruct (Rlt_dec 0 2); [|lra].
      replace (Int_part 2) with 2%Z by (symmetry; apply Int_part_IZR). now rewrite andb_comm. }
    assert (Pb : xpow PInf (Fin b) = PInf)
      by (simpl; destruct (Req_EM_T b 0); [lra|]; destruct (Rlt_dec 0 b); [auto|lra]).
    assert (K : xpow (if Rlt_dec 0 (x - m) then PInf else if Rlt_dec (x - m) 0 then NInf else NaN) (Fin 2) = PInf)
      by (destruct Rlt_dec; auto; destruct Rlt_dec; [auto|lra]).
    rewrite K, Pb. reflexivity.
Qed.

(** An array shorter than [ngates] is read out of bounds. *)
Theorem C30_short_array (F : Type) (fo : FloatOps F) n (x : list F) a b m :
  (length x < n)%nat -> hid_beta_f n x a b m = Fault.
Proof. intro L. unfold hid_beta_f. destruct (Nat.ltb_spec (length x) n); [auto|lia]. Qed.

Example C30_run :
  hid_beta_f 4 (qs [0; 1; 3; -1]%Q ++ [None]) (Some 1%Q) (Some 1%Q) (Some 1%Q)
  = Ok [Some (Qmake 1 2); Some 1%Q; Some (Qmake 1 5); Some (Qmake 1 5)].
Proof. vm_compute. reflexivity. Qed.

(** ** C31 *)

(** a row of finite numbers with positive width and slope *)
Definition good_row (r : row) : Prop :=
  exists m a b, r = (Some m, Some a, Some b) /\ (0 < a)%Q /\ (0 < b)%Q.

Lemma wf_good r : wf_row r = true -> good_row r.
Proof.
  destruct r as (([m|], [a|]), [b|]); simpl; try discriminate. intro E.
  apply andb_true_iff in E as (Ha & Hb). exists m, a, b. split; auto.
  unfold Qlt. simpl. apply Z.ltb_lt in Ha, Hb. lia.
Qed.

Lemma wf_all n l : wf_table n l = true -> length l = n /\ Forall good_row l.
Proof.
  unfold wf_table. intro E. apply andb_true_iff in E as (L & E). apply Nat.eqb_eq in L.
  split; auto. rewrite forallb_forall in E. apply Forall_forall. intros r Hr.
  now apply wf_good, E.
Qed.

Theorem C31_summer_tables bd k : length (csv Summer bd k) = 10%nat /\ Forall good_row (csv Summer bd k).
Proof. apply wf_all, summer_tables. Qed.

Theorem C31_melt_tables bd k : length (csv Melt bd k) = 2%nat /\ Forall good_row (csv Melt bd k).
Proof. apply wf_all, melt_tables. Qed.

(** the winter tables: 6 rows, usable exactly for DZ, DR, KD and T; every
    correlation-coefficient and LDR row has NaN centre and width. *)
Theorem C31_winter_tables bd k :
  length (csv Winter bd k) = 6%nat /\
  (Forall good_row (csv Winter bd k) <-> k <> KRH /\ k <> KLD) /\
  (k = KRH \/ k = KLD ->
     forall r, In r (csv Winter bd k) -> fst r = (None, None) /\ exists b, snd r = Some b /\ (0 < b)%Q).
Proof.
  assert (N : forall k, (k = KRH \/ k = KLD) -> forallb (fun r : row => match r with
     (None, None, Some b) => (0 <? Qnum b)%Z | _ => false end) (csv Winter bd k) = true
     /\ length (csv Winter bd k) = 6%nat).
  { intros k' [-> | ->]; destruct bd; vm_compute; auto. }
  assert (K : (k = KRH \/ k = KLD) \/ In k [KDZ; KDR; KKD; KT]) by (destruct k; simpl; auto 10).
  destruct K as [K|K].
  - destruct (N _ K) as (NB & L). rewrite forallb_forall in NB.
    assert (R : forall r, In r (csv Winter bd k) -> fst r = (None, None) /\ exists b, snd r = Some b /\ (0 < b)%Q).
    { intros r Hr. specialize (NB r Hr). destruct r as (([m|], [a|]), [b|]); try discriminate.
      split; auto. exists b. split; auto. apply Z.ltb_lt in NB. unfold Qlt. simpl. lia. }
    split; auto. split; [|auto]. split.
    + intro A. exfalso. destruct (csv Winter bd k) as [|r l]; [discriminate|].
      inversion A; subst. destruct H1 as (m & a & b & -> & _).
      destruct (R _ (or_introl eq_refl)) as (E & _). discriminate.
    + intros (A & B). destruct K; contradiction.
  - destruct (wf_all 6 (csv Winter bd k)) as (L & G); [now apply winter_tables|].
    split; auto. split.
    + split; auto. intros _. simpl in K. split; intros ->; decompose [or] K; auto; discriminate.
    + intros [-> | ->]; simpl in K; decompose [or] K; try discriminate; contradiction.
Qed.

(** ** C41 *)

(** get_beta_set divides all three parameters by [factor]... *)
Theorem C41_divides (rows : list row) f : f <> 0 ->
  forall c m a b, nth_error rows c = Some (Some m, Some a, Some b) ->
    nth_error (sm (get_beta_set rows (Fin f))) c = Some (Fin (Q2R m / f)) /\
    nth_error (sa (get_beta_set rows (Fin f))) c = Some (Fin (Q2R a / f)) /\
    nth_error (sb (get_beta_set rows (Fin f))) c = Some (Fin (Q2R b / f)).
Proof.
  intros Hf c m a b E. unfold get_beta_set. cbn [sm sa sb].
  rewrite !map_nth_error', E. cbn [fst snd]. rewrite !cell_q, !fdiv_fin by auto. auto.
Qed.

(** ...and nothing else: factor 1 returns the table itself. *)
Theorem C41_identity (rows : list row) :
  get_beta_set rows (Fin 1) =
  mkset (map (fun r : row => cell (fst (fst r))) rows)
        (map (fun r : row => cell (snd (fst r))) rows)
        (map (fun r : row => cell (snd r)) rows).
Proof.
  assert (D : forall c : option Q, fdiv (@cell xr _ c) (Fin 1) = cell c).
  { intros [q|]; [|reflexivity]. rewrite cell_q, fdiv_fin by lra. f_equal. lra. }
  unfold get_beta_set. f_equal; apply map_ext; intro; apply D.
Qed.

(** Consequently the temperatures with membership >= 1/2 form the interval
    [m - a, m + a] divided by the factor: a factor above 1 narrows it (and pulls
    it towards 0 C), contrary to "temp_factor > 1 will broaden". *)
Lemma beta_narrows m a b f x : 0 < a -> 0 < b -> 0 < f ->
  (1 / 2 <= beta_spec (m / f) (a / f) (b / f) x <-> (m - a) / f <= x <= (m + a) / f) /\
  (1 < f -> (m + a) / f - (m - a) / f < (m + a) - (m - a)).
Proof.
  intros Ha Hb Hf. split.
  - assert (A : a / f <> 0) by (apply Rgt_not_eq, Rdiv_lt_0_compat; lra).
    assert (B : 0 < b / f) by (apply Rdiv_lt_0_compat; lra).
    assert (P : 0 < a / f) by (apply Rdiv_lt_0_compat; lra).
    assert (H : beta_spec (m / f) (a / f) (b / f) (m / f + a / f) = 1 / 2)
      by (apply beta_half; auto).
    replace ((m - a) / f) with (m / f - a / f) by (field; lra).
    replace ((m + a) / f) with (m / f + a / f) by (field; lra).
    set (M := m / f) in *. set (A' := a / f) in *. set (B' := b / f) in *.
    split.
    + intro G.
      destruct (Rlt_dec (Rabs (M + A' - M)) (Rabs (x - M))) as [L|L].
      * apply (beta_decreasing M A' B') in L; auto. lra.
      * replace (M + A' - M) with A' in L by lra. rewrite (Rabs_pos_eq A') in L by lra.
        revert L. unfold Rabs. destruct Rcase_abs; lra.
    + intro G. destruct (Req_dec (Rabs (x - M)) A') as [E|E].
      * right. symmetry. apply beta_half; auto. revert E. unfold Rabs. destruct Rcase_abs; lra.
      * left. rewrite <- H. apply beta_decreasing; auto.
        replace (M + A' - M) with A' by lra. rewrite (Rabs_pos_eq A') by lra.
        revert E. unfold Rabs. destruct Rcase_abs; lra.
  - intro F1. replace ((m + a) / f - (m - a) / f) with (2 * a / f) by (field; lra).
    replace (m + a - (m - a)) with (2 * a) by lra.
    apply (Rmult_lt_reg_r f); [lra|]. unfold Rdiv. rewrite Rmult_assoc, Rinv_l by lra. nra.
Qed.

(** The function with the parameters get_sets hands out: row (m, a, b) of the
    shipped temperature table of season s and band bd, temp_factor f. *)
Theorem C41_narrows_refuted s bd f set c m a b p q r x :
  0 < f -> get_sets s true (Fin f) bd KT = Some set ->
  nth_error (csv s bd KT) c = Some (Some m, Some a, Some b) -> (0 < a)%Q -> (0 < b)%Q ->
  nth_error (sm set) c = Some p -> nth_error (sa set) c = Some q -> nth_error (sb set) c = Some r ->
  exists y, hid_beta_f 1 [Fin x] q r p = Ok [Fin y] /\
    (1 / 2 <= y <-> (Q2R m - Q2R a) / f <= x <= (Q2R m + Q2R a) / f) /\
    (1 < f -> (Q2R m + Q2R a) / f - (Q2R m - Q2R a) / f < (Q2R m + Q2R a) - (Q2R m - Q2R a)).
Proof.
  intros Hf E Ec Ha Hb Ep Eq Er. cbn [get_sets] in E. injection E as <-.
  apply Qlt_Rlt in Ha, Hb. rewrite RMicromega.Q2R_0 in Ha, Hb.
  destruct (C41_divides (csv s bd KT) f ltac:(lra) c m a b Ec) as (E1 & E2 & E3).
  rewrite E1 in Ep. rewrite E2 in Eq. rewrite E3 in Er. injection Ep as <-. injection Eq as <-. injection Er as <-.
  assert (P : 0 < Q2R a / f) by (apply Rdiv_lt_0_compat; lra).
  assert (B : 0 < Q2R b / f) by (apply Rdiv_lt_0_compat; lra).
  eexists. split; [apply C30_one; lra|]. now apply beta_narrows.
Qed.

(** The T sets handed to the classifiers are those of the shipped table. *)
Theorem C41_T_sets s bd f : get_sets s true f bd KT = Some (get_beta_set (csv s bd KT) f).
Proof. reflexivity. Qed.

(** Non-vacuity: S-band rain, factor 2 *)
Example C41_run : forall s, get_sets Summer true (Some 2%Q) BS KT = Some s ->
  nth_error (sm s) 1 = Some (Some 24%Q) /\ nth_error (sa s) 1 = Some (Some (Qmake 51 2)) /\
  nth_error (sb s) 1 = Some (Some 15%Q).
Proof. intros s E. injection E as <-. vm_compute. auto. Qed.
