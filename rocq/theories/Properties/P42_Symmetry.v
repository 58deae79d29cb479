(** * C103: symmetries of despeckle, of the freezing altitude and of the melting level *)
From Coq Require Import Reals Lra Lia Permutation Sorting.Sorted Arith ZArith List.
From Verif Require Import Base.Num Base.ListFacts Base.XReal Base.XTac Base.XArith Base.QOps.
From Verif Require Import Model.Misc Model.LiquidIce Model.Tables Model.Beta Model.TTraps Model.Hid Model.Melt.
From Verif Require Import Spec.MiscSpec Spec.MeltSpec Proofs.MiscProofs Proofs.LiquidIceProofs Proofs.FreezingProofs Proofs.HidProofs Proofs.MeltProofs.
From Verif Require Import Properties.P01_Misc Properties.P04_LiquidIce Properties.P12_Melt Properties.P13_RunWinter Properties.P27_Freezing.
Import ListNotations.
Open Scope nat_scope.

(** ** despeckle *)
Section Despeckle.
Context {F : Type} `{FloatOps F}.

Lemma nth_error_rev {A} (l : list A) i : i < length l -> nth_error (rev l) i = nth_error l (length l - 1 - i).
Proof.
  revert i. induction l as [|x l IH]; intros i Hi; [cbn in Hi; lia|]. cbn [rev length] in *.
  destruct (Nat.eq_dec i (length l)) as [->|N].
  - rewrite nth_error_app2 by (rewrite rev_length; lia). rewrite rev_length, Nat.sub_diag.
    replace (S (length l) - 1 - length l) with 0 by lia. reflexivity.
  - rewrite nth_error_app1 by (rewrite rev_length; lia). rewrite IH by lia.
    replace (S (length l) - 1 - i) with (S (length l - 1 - i)) by lia. reflexivity.
Qed.

Lemma long_run_rev {A} (good : A -> Prop) ray n i : i < length ray ->
  in_long_run good (rev ray) n i -> in_long_run good ray n (length ray - 1 - i).
Proof.
  intros Hi (lo & hi & B & L & G).
  assert (Hh : hi <= length ray).
  { destruct (le_lt_dec hi (length ray)); auto. destruct (G (length ray)) as (x & Hx & _); [lia|].
    apply nth_error_lt in Hx. rewrite rev_length in Hx. lia. }
  exists (length ray - hi), (length ray - lo). repeat split; try lia. intros j Hj.
  destruct (G (length ray - 1 - j)) as (x & Hx & Gx); [lia|]. rewrite nth_error_rev in Hx by lia.
  replace (length ray - 1 - (length ray - 1 - j)) with j in Hx by lia. eauto.
Qed.

Lemma bools_ext (l m : list bool) : length l = length m ->
  (forall i, i < length l -> nth_error l i = Some false <-> nth_error m i = Some false) -> l = m.
Proof.
  intros L E. apply nth_error_ext. intro i. destruct (le_lt_dec (length l) i) as [G|G].
  - rewrite (proj2 (nth_error_None l i)), (proj2 (nth_error_None m i)); auto; lia.
  - specialize (E i G). destruct (nth_error l i) as [[]|] eqn:E1, (nth_error m i) as [[]|] eqn:E2; auto.
    + destruct E as (_ & E). now rewrite E.
    + apply nth_error_None in E2. lia.
    + destruct E as (E & _). now rewrite E.
    + apply nth_error_None in E2. lia.
    + apply nth_error_None in E1. lia.
    + apply nth_error_None in E1. lia.
Qed.

(** The direction of the ray does not matter. *)
Theorem C103_despeckle_reversed : forall (dt : dtype) (ray : list F) (bad : F) (ngates : Z) sh mask,
  despeckle (AArr (mkarr dt [length ray] ray)) bad ngates = Ok (sh, mask) ->
  despeckle (AArr (mkarr dt [length ray] (rev ray))) bad ngates = Ok (sh, rev mask).
Proof.
  intros dt ray bad n sh mask E.
  destruct (C01_despeckle_kept_iff_in_long_run dt ray bad n) as (m1 & E1 & L1 & G1).
  destruct (C01_despeckle_kept_iff_in_long_run dt (rev ray) bad n) as (m2 & E2 & L2 & G2).
  rewrite E1 in E. injection E as <- <-. rewrite rev_length in *. rewrite E2. do 2 f_equal.
  apply bools_ext; [rewrite rev_length; lia|]. rewrite L2. intros i Hi. rewrite G2 by auto.
  rewrite nth_error_rev by lia. rewrite L1, G1 by lia. split; intro R.
  - now apply long_run_rev.
  - assert (R' : in_long_run (fun x => feq x bad = false) (rev (rev ray)) n (length ray - 1 - i)) by now rewrite rev_involutive.
    apply long_run_rev in R'; [|rewrite rev_length; lia].
    rewrite rev_length in R'. now replace (length ray - 1 - (length ray - 1 - i)) with i in R' by lia.
Qed.

(** Only the pattern of missing gates matters. *)
Theorem C103_despeckle_pattern : forall (dt dt' : dtype) (ray ray' : list F) (bad bad' : F) (ngates : Z),
  map (fun x => feq x bad) ray = map (fun x => feq x bad') ray' ->
  despeckle (AArr (mkarr dt [length ray] ray)) bad ngates = despeckle (AArr (mkarr dt' [length ray'] ray')) bad' ngates.
Proof.
  intros dt dt' ray ray' bad bad' n E. assert (L : length ray = length ray') by (apply (f_equal (@length _)) in E; now rewrite !map_length in E).
  unfold despeckle. cbn [ashape adata]. now rewrite E, L.
Qed.

(** A missing gate separates: what is on one side of it has no influence on the
    other side. *)
Theorem C103_despeckle_split : forall (dt : dtype) (pre post : list F) (x bad : F) (ngates : Z) sh1 sh2 m1 m2,
  feq x bad = true ->
  despeckle (AArr (mkarr dt [length pre] pre)) bad ngates = Ok (sh1, m1) ->
  despeckle (AArr (mkarr dt [length post] post)) bad ngates = Ok (sh2, m2) ->
  despeckle (AArr (mkarr dt [length (pre ++ x :: post)] (pre ++ x :: post))) bad ngates
    = Ok ([length (pre ++ x :: post)], m1 ++ true :: m2).
Proof.
  intros dt pre post x bad n sh1 sh2 m1 m2 Hx E1 E2.
  destruct (C01_despeckle_kept_iff_in_long_run dt pre bad n) as (p1 & P1 & L1 & G1). rewrite P1 in E1. injection E1 as <- <-.
  destruct (C01_despeckle_kept_iff_in_long_run dt post bad n) as (p2 & P2 & L2 & G2). rewrite P2 in E2. injection E2 as <- <-.
  destruct (C01_despeckle_kept_iff_in_long_run dt (pre ++ x :: post) bad n) as (m & E & L & G). rewrite E. do 2 f_equal.
  apply bools_ext; [rewrite L, !app_length; cbn; lia|]. rewrite L. intros i Hi. rewrite G by auto.
  assert (Sep : forall lo hi, (forall j, lo <= j < hi -> exists y, nth_error (pre ++ x :: post) j = Some y /\ feq y bad = false) ->
    hi <= length pre \/ length pre < lo \/ hi <= lo).
  { intros lo hi R. destruct (le_lt_dec hi (length pre)); auto. destruct (le_lt_dec lo (length pre)); auto.
    destruct (R (length pre)) as (y & Hy & By); [lia|]. rewrite nth_error_app2, Nat.sub_diag in Hy by lia. cbn in Hy. congruence. }
  destruct (lt_eq_lt_dec i (length pre)) as [[I|I]|I].
  - rewrite nth_error_app1 by lia. rewrite G1 by lia. split; intros (lo & hi & B & Sz & R); exists lo, hi; repeat split; try lia.
    + intros j Hj. destruct (Sep lo hi R) as [|[|]]; try lia. destruct (R j Hj) as (y & Hy & By).
      rewrite nth_error_app1 in Hy by lia. eauto.
    + intros j Hj. destruct (R j Hj) as (y & Hy & By). exists y. split; auto. rewrite nth_error_app1; auto. now apply nth_error_lt in Hy.
  - subst i. rewrite nth_error_app2, L1, Nat.sub_diag by lia. cbn. split; [|discriminate].
    intros (lo & hi & B & Sz & R). destruct (Sep lo hi R) as [|[|]]; lia.
  - rewrite nth_error_app2, L1 by lia. replace (i - length pre) with (S (i - length pre - 1)) by lia. cbn [nth_error].
    rewrite app_length in Hi. cbn in Hi. rewrite G2 by lia. split; intros (lo & hi & B & Sz & R).
    + destruct (Sep lo hi R) as [|[|]]; try lia. exists (lo - length pre - 1), (hi - length pre - 1). repeat split; try lia.
      intros j Hj. destruct (R (j + length pre + 1)) as (y & Hy & By); [lia|]. rewrite nth_error_app2 in Hy by lia.
      replace (j + length pre + 1 - length pre) with (S j) in Hy by lia. eauto.
    + exists (lo + length pre + 1), (hi + length pre + 1). repeat split; try lia.
      intros j Hj. destruct (R (j - length pre - 1)) as (y & Hy & By); [lia|]. exists y. split; auto.
      rewrite nth_error_app2 by lia. replace (j - length pre) with (S (j - length pre - 1)) by lia. auto.
Qed.

Lemma firstn_map2 {A B C} (f : A -> B -> C) k a b : firstn k (map2 f a b) = map2 f (firstn k a) (firstn k b).
Proof. revert a b. induction k as [|k IH]; intros [|x a] [|y b]; cbn; auto. now rewrite IH. Qed.
Lemma skipn_map2 {A B C} (f : A -> B -> C) k a b : skipn k (map2 f a b) = map2 f (skipn k a) (skipn k b).
Proof. revert a b. induction k as [|k IH]; intros [|x a] [|y b]; cbn; auto. now destruct (skipn k a). Qed.
Lemma skipn_add {A} k m (l : list A) : skipn k (skipn m l) = skipn (m + k) l.
Proof. revert l. induction m as [|m IH]; intros [|x l]; cbn; auto. apply skipn_nil. Qed.

(** C04 for a sweep: despeckling an array whose masked gates have been
    overwritten with the missing value masks nothing more. *)
Theorem C04_despeckle_idempotent_2d : forall (dt : dtype) (n m : nat) (data : list F) (bad : F) (ngates : Z) sh mask,
  length data = n * m -> feq bad bad = true ->
  despeckle (AArr (mkarr dt [n; m] data)) bad ngates = Ok (sh, mask) ->
  despeckle (AArr (mkarr dt [n; m] (map2 (fun (b : bool) x => if b then bad else x) mask data))) bad ngates = Ok (sh, mask).
Proof.
  intros dt n m data bad ng sh mask L Hb E.
  destruct (C03_despeckle_2d_is_ray_by_ray dt n m data bad ng L) as (m1 & E1 & L1 & G1).
  rewrite E1 in E. injection E as <- <-. set (data' := map2 _ m1 data).
  assert (L' : length data' = n * m) by (unfold data'; rewrite map2_length; lia).
  destruct (C03_despeckle_2d_is_ray_by_ray dt n m data' bad ng L') as (m2 & E2 & L2 & G2).
  rewrite E2. do 2 f_equal.
  assert (R : forall az, az < n -> firstn m (skipn (az * m) m2) = firstn m (skipn (az * m) m1)).
  { intros az Ha. specialize (G1 az Ha). specialize (G2 az Ha).
    assert (Lr : length (firstn m (skipn (az * m) data)) = m) by (rewrite firstn_length, skipn_length, L; nia).
    assert (D : firstn m (skipn (az * m) data') = map2 (fun (b : bool) x => if b then bad else x) (firstn m (skipn (az * m) m1)) (firstn m (skipn (az * m) data))).
    { unfold data'. now rewrite skipn_map2, firstn_map2. }
    rewrite D in G2. rewrite <- Lr in G1 at 1. rewrite <- Lr in G2 at 1.
    pose proof (C04_despeckle_idempotent_1d dt _ bad ng _ _ Hb G1) as G. rewrite G in G2. now injection G2. }
  clear -R L1 L2. revert m1 m2 L1 L2 R. induction n as [|n IH]; intros m1 m2 L1 L2 R.
  - destruct m1, m2; auto; discriminate.
  - rewrite <- (firstn_skipn m m1), <- (firstn_skipn m m2). f_equal.
    + apply (R 0). lia.
    + apply IH; try (rewrite skipn_length; lia). intros az Ha. specialize (R (S az) ltac:(lia)).
      rewrite !skipn_add. exact R.
Qed.
End Despeckle.

(** Non-vacuity: a short run, a missing gate, a long run *)
Example C103_despeckle_example :
  let r : list (option Q) := [Some 1; Some 2; Some (-9); Some 3; Some 4; Some 5]%Q in
  let call l := despeckle (AArr (mkarr DFloat [length l] l)) (Some (-9)%Q) 2 in
  call r = Ok ([6], [true; true; true; false; false; false]) /\
  call (rev r) = Ok ([6], [false; false; false; true; true; true]) /\
  call [Some 1; Some 2]%Q = Ok ([2], [true; true]) /\ call [Some 3; Some 4; Some 5]%Q = Ok ([3], [false; false; false]).
Proof. vm_compute. auto. Qed.

(** ** get_freezing_altitude *)
Open Scope R_scope.
(** the sounding in other units: heights a z + b, temperatures k T *)
Definition in_units (a b k : R) (s : list (R * R)) : list (R * R) := map (fun p => (a * fst p + b, k * snd p)) s.

(** minimisers of the squared error are unique when two temperatures differ *)
Lemma sse_mid s a b a' b' :
  sse s ((a + a') / 2) ((b + b') / 2) = (sse s a b + sse s a' b') / 2
    - fold_right (fun p acc => ((a - a') * snd p + (b - b')) * ((a - a') * snd p + (b - b')) + acc) 0 s / 4.
Proof. induction s as [|p s IH]; cbn [sse fold_right] in *; [lra|]. unfold sse in *. rewrite IH. field. Qed.
Lemma sq_sum_zero (f : R * R -> R) s : fold_right (fun p acc => f p * f p + acc) 0 s <= 0 -> forall p, In p s -> f p = 0.
Proof.
  intro Hs. assert (P : forall l, 0 <= fold_right (fun p acc => f p * f p + acc) 0 l).
  { induction l; cbn [fold_right]; [lra|]. nra. }
  induction s as [|q s IH]; intros p [].
  - subst. cbn [fold_right] in Hs. specialize (P s). nra.
  - apply IH; auto. cbn [fold_right] in Hs. nra.
Qed.
Lemma lsq_unique s b b' : (exists p q, In p s /\ In q s /\ snd p <> snd q) -> lsq_intercept s b -> lsq_intercept s b' -> b = b'.
Proof.
  intros (p & q & Ip & Iq & D) (a & M) (a' & M').
  pose proof (M ((a + a') / 2) ((b + b') / 2)) as H1. rewrite sse_mid in H1.
  pose proof (M' a b) as H2. pose proof (M a' b') as H3.
  pose proof (sq_sum_zero (fun p => (a - a') * snd p + (b - b')) s ltac:(lra)) as Z.
  pose proof (Z p Ip) as Zp. pose proof (Z q Iq) as Zq. cbn beta in *.
  assert ((a - a') * (snd p - snd q) = 0) by lra. apply Rmult_integral in H as [|]; [|lra]. rewrite H in Zp. lra.
Qed.
Lemma sse_units a b k s u v : k <> 0 -> sse (in_units a b k s) (a * u / k) (a * v + b) = a * a * sse s u v.
Proof. intro Hk. induction s as [|p s IH]; cbn [sse fold_right in_units map fst snd] in *; [lra|]. unfold sse, in_units in *. rewrite IH. field. auto. Qed.
Lemma lsq_units a b k s v : a <> 0 -> k <> 0 -> lsq_intercept s v -> lsq_intercept (in_units a b k s) (a * v + b).
Proof.
  intros Ha Hk (u & M). exists (a * u / k). intros a' b'.
  replace a' with (a * (k * a' / a) / k) by (field; auto). replace b' with (a * ((b' - b) / a) + b) by (field; auto).
  rewrite !sse_units by auto. apply Rmult_le_compat_l; [nra|apply M].
Qed.

Lemma exists_dec_list {A} (P : A -> Prop) (D : forall x, {P x} + {~ P x}) (l : list A) : (exists x, In x l /\ P x) \/ forall x, In x l -> ~ P x.
Proof.
  induction l as [|x l [(y & I & Hy)|N]]; [right; intros ? []| left; exists y; split; auto; now right|].
  destruct (D x) as [Hx|Hx]; [left; exists x; split; auto; now left|]. right. intros y [<-|I]; auto.
Qed.
Lemma filter_perm {A} (f : A -> bool) l m : Permutation l m -> Permutation (filter f l) (filter f m).
Proof.
  induction 1; cbn [filter]; auto.
  - destruct (f x); auto.
  - destruct (f x), (f y); auto. apply perm_swap.
  - etransitivity; eauto.
Qed.

(** Levels at distinct heights with at least two temperatures.  The order in
    which the levels are given does not matter, and the answer follows a change
    of height units (a > 0, any origin b) and of temperature units (k > 0): the
    answer for the sounding in the new units is the answer in the new units. *)
Theorem C103_freezing_altitude_units : forall pf (s s' : list (R * R)) (a b k : R),
  0 < a -> 0 < k -> polyfit_ok pf -> NoDup (map fst s) ->
  (exists p q, In p s /\ In q s /\ snd p <> snd q) ->
  Permutation s' (in_units a b k s) ->
  exists h, get_freezing_altitude pf (temps s) (heights s) = Ok (Fin h) /\
            get_freezing_altitude pf (temps s') (heights s') = Ok (Fin (a * h + b)).
Proof.
  intros pf s s' a b k Ha Hk PF N D P.
  assert (In' : forall p, In p s' <-> exists q, In q s /\ p = (a * fst q + b, k * snd q)).
  { intro p. split.
    - intro I. apply (Permutation_in _ P) in I. unfold in_units in I. apply in_map_iff in I as (q & <- & I). eauto.
    - intros (q & I & ->). apply (Permutation_in _ (Permutation_sym P)). apply in_map_iff. eauto. }
  destruct (exists_dec_list (fun p => snd p = 0) (fun p => Req_EM_T (snd p) 0) s) as [Z|Z].
  - destruct (C23_exact_zero_points_highest pf s Z) as (h & E & I & M).
    destruct (C23_exact_zero_points_highest pf s') as (h' & E' & I' & M').
    { exists (a * h + b, 0). split; auto. apply In'. exists (h, 0). split; auto. cbn. f_equal. ring. }
    exists h. split; auto. rewrite E'. do 2 f_equal.
    apply In' in I' as (q & Iq & Eq). injection Eq as E1 E2. assert (Zq : snd q = 0) by nra. specialize (M q Iq Zq).
    assert (I2 : In (a * h + b, 0) s') by (apply In'; exists (h, 0); split; auto; cbn; f_equal; ring).
    specialize (M' _ I2 eq_refl). cbn in M'. nra.
  - assert (Z' : forall p, In p s' -> snd p <> 0).
    { intros p I. apply In' in I as (q & Iq & ->). cbn. specialize (Z q Iq). nra. }
    destruct (exists_dec_list (fun p => 0 < snd p) (fun p => Rlt_dec 0 (snd p)) s) as [W|W];
    [destruct (exists_dec_list (fun p => snd p < 0) (fun p => Rlt_dec (snd p) 0) s) as [C|C]|].
    + set (l := FreezingProofs.rsort s).
      assert (Sl : StronglySorted by_height l).
      { apply StronglySorted_nodup_lt; [apply FreezingProofs.rsort_sorted|]. eapply Permutation_NoDup; [|exact N]. apply Permutation_map, FreezingProofs.rsort_perm. }
      assert (Pl : Permutation s l) by apply FreezingProofs.rsort_perm.
      destruct (C24_deciding_levels pf s l Pl Sl Z W C) as (p & q & h & Ep & Eq & Eh & H1 & H2 & H3).
      destruct (C24_deciding_levels pf s' (in_units a b k l)) as (p' & q' & h' & Ep' & Eq' & Eh' & H1' & H2' & H3'); auto.
      * rewrite P. apply Permutation_map, Pl.
      * unfold in_units. clear -Sl Ha. induction Sl as [|x l Sl IH Fl]; cbn; constructor; auto.
        rewrite Forall_map. eapply Forall_impl; [|exact Fl]. intros y Hy. unfold by_height in *. cbn. nra.
      * destruct W as (w & Iw & Hw). exists (a * fst w + b, k * snd w). split; [apply In'; eauto|]. cbn. nra.
      * destruct C as (w & Iw & Hw). exists (a * fst w + b, k * snd w). split; [apply In'; eauto|]. cbn. nra.
      * assert (Ln : length (filter warm s') = length (filter warm s)).
        { rewrite (Permutation_length (filter_perm warm _ _ P)). unfold in_units. clear -Hk.
          induction s as [|x s IH]; cbn [filter map length]; auto.
          assert (Ew : warm (a * fst x + b, k * snd x) = warm x).
          { unfold warm. cbn [snd]. destruct (Rltb_spec 0 (k * snd x)), (Rltb_spec 0 (snd x)); auto; nra. }
          rewrite Ew. destruct (warm x); cbn [length]; auto. }
        rewrite Ln in *. unfold in_units in Ep', Eq'. rewrite map_nth_error', Ep in Ep'. rewrite map_nth_error', Eq in Eq'.
        injection Ep' as <-. injection Eq' as <-. cbn [fst snd] in *.
        exists h. split; auto. rewrite Eh'. do 2 f_equal.
        assert (Zp : snd p <> 0) by (apply Z; apply (Permutation_in _ (Permutation_sym Pl)); eapply nth_error_In; eauto).
        assert (Zq : snd q <> 0) by (apply Z; apply (Permutation_in _ (Permutation_sym Pl)); eapply nth_error_In; eauto).
        destruct (Rlt_dec (snd p * snd q) 0) as [X|X].
        -- destruct (H1 X) as (_ & L). destruct H1' as (_ & L'); [replace (k * snd p * (k * snd q)) with (k * k * (snd p * snd q)) by ring; assert (0 < k * k) by nra; nra|].
           assert (Dpq : snd q - snd p <> 0) by (intro; assert (snd q = snd p) by lra; nra).
           apply Rmult_eq_reg_r with (k * (snd q - snd p)); [|apply Rmult_integral_contrapositive_currified; lra].
           transitivity ((a * fst p + b) * (k * (snd q - snd p)) + a * k * ((0 - snd p) * (fst q - fst p))); [lra|rewrite <- L; ring].
        -- destruct (Rlt_dec 0 (snd p)) as [Pp|Pp].
           ++ rewrite H2, H2' by nra. destruct (Rlt_dec (snd q) (snd p)), (Rlt_dec (k * snd q) (k * snd p)); auto; nra.
           ++ rewrite H3, H3' by nra. destruct (Rlt_dec (snd q) (snd p)), (Rlt_dec (k * snd q) (k * snd p)); auto; nra.
    + destruct (C23_no_crossing_least_squares pf s PF) as (h & E & L); auto.
      { left. intros p I. specialize (Z p I). specialize (C p I). lra. }
      destruct D as (p & q & Ip & Iq & D).
      destruct (C23_no_crossing_least_squares pf s' PF) as (h' & E' & L').
      { left. intros x I. apply In' in I as (y & Iy & ->). cbn. specialize (Z y Iy). specialize (C y Iy). nra. }
      { exists (a * fst p + b, k * snd p), (a * fst q + b, k * snd q). repeat split; try (apply In'; eauto). cbn. nra. }
      exists h. split; auto. rewrite E'. do 2 f_equal. apply (lsq_unique s').
      * exists (a * fst p + b, k * snd p), (a * fst q + b, k * snd q). repeat split; try (apply In'; eauto). cbn. nra.
      * auto.
      * apply (lsq_units a b k) in L as (u & M); try lra. exists u. intros a' b'. rewrite !(sse_perm _ _ _ _ P). apply M.
    + destruct (C23_no_crossing_least_squares pf s PF) as (h & E & L); auto.
      { right. intros p I. specialize (Z p I). specialize (W p I). lra. }
      destruct D as (p & q & Ip & Iq & D).
      destruct (C23_no_crossing_least_squares pf s' PF) as (h' & E' & L').
      { right. intros x I. apply In' in I as (y & Iy & ->). cbn. specialize (Z y Iy). specialize (W y Iy). nra. }
      { exists (a * fst p + b, k * snd p), (a * fst q + b, k * snd q). repeat split; try (apply In'; eauto). cbn. nra. }
      exists h. split; auto. rewrite E'. do 2 f_equal. apply (lsq_unique s').
      * exists (a * fst p + b, k * snd p), (a * fst q + b, k * snd q). repeat split; try (apply In'; eauto). cbn. nra.
      * auto.
      * apply (lsq_units a b k) in L as (u & M); try lra. exists u. intros a' b'. rewrite !(sse_perm _ _ _ _ P). apply M.
Qed.

(** Non-vacuity: an inversion (the interesting case of C24), in metres and from
    another origin, levels in reverse order *)
Example C103_freezing_hypotheses :
  let s := [(0, 10); (1, -2); (2, 3); (3, -5)] in
  let s' := rev (in_units 1000 (-250) 1 s) in
  NoDup (map fst s) /\ (exists p q, In p s /\ In q s /\ snd p <> snd q) /\ Permutation s' (in_units 1000 (-250) 1 s) /\ s' <> in_units 1000 (-250) 1 s.
Proof.
  cbv zeta. split; [cbn; repeat constructor; cbn; lra|]. split; [exists (0, 10), (1, -2); cbn; intuition lra|].
  split; [symmetry; apply Permutation_rev|]. cbn. intro E. injection E as E _. lra.
Qed.

(** ** The melting level of RHI and gridded scans *)
(** d added to every height *)
Definition raised (d : R) (hs : list xr) : list xr := map (fun z => fadd z (Fin d)) hs.

Lemma near_raised d e gs : near_points (e + d) (map (fun g => (fst g, fadd (snd g) (Fin d))) gs) = map (fun z => z + d) (near_points e gs).
Proof.
  induction gs as [|(c, z) gs IH]; auto. cbn [map near_points flat_map fst snd] in *. unfold near_points in IH at 1. rewrite IH. rewrite map_app. f_equal.
  destruct z as [z| | |]; try reflexivity. rewrite fadd_fin. destruct (wet_snow c); auto.
  replace (z + d - (e + d)) with (z - e) by ring. destruct Rle_dec; auto.
Qed.
Lemma median_raised d l m : l <> [] -> is_median l m -> is_median (map (fun z => z + d) l) (m + d).
Proof.
  intros N (s & P & S & ->). exists (map (fun z => z + d) s). split; [now apply Permutation_map|]. split.
  - clear -S. induction S as [|x s S IH Fs]; cbn; constructor; auto. rewrite Forall_map. eapply Forall_impl; [|exact Fs]. intros; lra.
  - rewrite map_length. pose proof (Permutation_length P) as L. destruct l as [|x l]; [contradiction|]. cbn [length] in *.
    assert (forall k, (k < length s)%nat -> nth k (map (fun z => z + d) s) 0 = nth k s 0 + d).
    { intros k Hk. rewrite (nth_indep _ 0 (0 + d)) by (now rewrite map_length). apply (map_nth (fun z => z + d)). }
    rewrite !H.
    + lra.
    + rewrite <- L. apply Nat.div_lt_upper_bound; lia.
    + rewrite <- L. apply Nat.div_lt_upper_bound; lia.
Qed.
Lemma level_raised d m z : level (m + d) (fadd z (Fin d)) = level m z.
Proof.
  destruct z as [z| | |]; try reflexivity. rewrite fadd_fin. unfold level.
  destruct (Rlt_dec (z + d) (m + d)), (Rlt_dec z m); try lra; auto.
  destruct (Rlt_dec (m + d) (z + d)), (Rlt_dec m z); try lra; auto.
Qed.


Lemma rhi_raised ms vb d fh (hs : list xr) e : quiet ms vb -> length fh = length hs ->
  exists lev r, get_ml_rhi ms vb fh hs (Some (Fin e)) = Ok (lev, Fin r) /\
    get_ml_rhi ms vb fh (raised d hs) (Some (Fin (e + d))) = Ok (lev, Fin (r + d)).
Proof.
  intros Q L. set (gs := combine fh hs). 
  assert (Ef : fh = map fst gs /\ hs = map snd gs).
  { unfold gs. clear -L. revert hs L. induction fh as [|c fh IH]; intros [|z hs] L; try discriminate; auto.
    cbn. injection L as L. destruct (IH hs L) as (E1 & E2). split; f_equal; auto. }
  destruct Ef as (Ef & Eh). clearbody gs.
  set (gs' := map (fun g : Z * xr => (fst g, fadd (snd g) (Fin d))) gs).
  assert (Ef' : fh = map fst gs') by (unfold gs'; rewrite map_map; cbn [fst]; exact Ef).
  assert (Eh' : raised d hs = map snd gs') by (unfold gs', raised; rewrite Eh, !map_map; reflexivity).
  destruct (C44_expected ms vb gs e Q) as (m & E & Hm). destruct (C44_expected ms vb gs' (e + d) Q) as (m' & E' & Hm').
  assert (m' = m + d).
  { apply (rhi_unique (e + d) gs'); auto. unfold rhi_height in *. unfold gs'. rewrite near_raised, map_length.
    destruct (10 <? length (near_points e gs))%nat eqn:Lt; [|now subst]. apply median_raised; auto.
    intro N. rewrite N in Lt. discriminate. }
  subst m'. rewrite <- Ef, <- Eh in E. rewrite <- Ef', <- Eh' in E'.
  exists (map (fun g : Z * xr => level m (snd g)) gs), m. split; auto. rewrite E'. do 2 f_equal.
  unfold gs'. rewrite map_map. apply map_ext. intros (c, z). cbn [snd]. apply level_raised.
Qed.

(** the scan with d added to all its heights *)
Definition scan_raised (d : R) (s : scan xr) : scan xr :=
  mkscan (s_shape s) (s_dz s) (s_zdr s) (s_kdp s) (s_rho s) (s_rhomask s) (s_sn s) (s_T s) (option_map (raised d) (s_heights s)) (s_azimuths s).
Definition rhi_or_grid (st : string) : Prop := st = "rhi"%string \/ st = "grid"%string.

(** Heights counted from another origin (the expected level with them): the same
    map of below / at / above, the level in the new heights, the same classes. *)
Theorem C103_melting_level_origin ms vb (s : scan xr) st bd minRH e n thr d lev hgt fh sc :
  scan_ok s -> rhi_or_grid st -> quiet ms vb ->
  melting_layer ms vb s st bd minRH (Some (Fin e)) n thr = Ok (lev, hgt, fh, sc) ->
  exists r, hgt = OneHeight (Fin r) /\
    melting_layer ms vb (scan_raised d s) st bd minRH (Some (Fin (e + d))) n thr = Ok (lev, OneHeight (Fin (r + d)), fh, sc).
Proof.
  intros Hok Hst Q E. assert (St : (String.eqb st "rhi" || String.eqb st "grid")%bool = true) by (destruct Hst as [-> | ->]; reflexivity).
  unfold melting_layer in *. cbv zeta in *. rewrite St in *.
  change (ml_fields (scan_raised d s)) with (ml_fields s). cbn [scan_raised s_dz s_sn s_rho s_rhomask s_heights] in *.
  apply bind_ok in E as (sc0 & Es & E). rewrite Es. cbn [bind].
  destruct sc0 as [sh mu|]; [|discriminate].
  destruct (ml_fh s minRH thr sh mu Hok) as (fh1 & Ef & Lf & _). cbv zeta in Ef.
  apply bind_ok in E as (fh0 & Ea & E). rewrite Ea in *. cbn [bind] in *.
  apply (f_equal (fun r => match r with Ok z => z | _ => fh1 end)) in Ef.
  destruct (s_heights s) as [hs|] eqn:Eh; [|discriminate]. cbn [option_map]. rewrite Ef in E |- *.
  destruct Hok as (_ & _ & _ & _ & _ & _ & _ & Hh). rewrite Eh in Hh. cbn in Hh.
  destruct (rhi_raised ms vb d fh1 hs e Q) as (lev' & r & E1 & E2); [lia|].
  rewrite E1 in E. rewrite E2. cbn [bind fst snd] in *. injection E as <- <- <- <-. exists r. auto.
Qed.

(** run_winter: everything it returns is the same. *)
Theorem C103_run_winter_origin ms vb (s : scan xr) ut bd method st minRH e n thr d r :
  scan_ok s -> rhi_or_grid st -> quiet ms vb ->
  run_winter ms vb s ut bd method st minRH (Some (Fin e)) n thr = Ok r ->
  run_winter ms vb (scan_raised d s) ut bd method st minRH (Some (Fin (e + d))) n thr = Ok r.
Proof.
  intros Hok Hst Q E. unfold run_winter in *. apply bind_ok in E as ((((lev & hgt) & fh) & sc) & Em & E).
  assert (Em' : melting_layer ms vb s st bd minRH (Some (Fin e)) n thr = Ok (lev, hgt, fh, sc)).
  { destruct (melting_layer ms vb s st bd minRH (Some (Fin e)) n thr); try discriminate; auto. }
  destruct (C103_melting_level_origin _ _ _ _ _ _ _ _ _ d _ _ _ _ Hok Hst Q Em') as (h & -> & Er).
  rewrite Er. cbn [bind]. exact E.
Qed.

(** PPI scans have no such law: a sector without a melting level gets the level
    0, so the origin of the heights decides what lies below it.  One gate without
    wet snow, 1 km high; the same gate in heights counted from a 2 km site. *)
Theorem C103_ppi_origin_matters :
  let call h e := @get_ml_ppi _ q_ops false [1]%Z [Some 20%Q] [Some h] 1 (Some (Some e)) 2 (Some [Some 10%Q]) in
  call 1%Q 3%Q = Ok ([2]%Z, SectorHeights [Some 0%Q]) /\ call (1 - 2)%Q (3 - 2)%Q = Ok ([0]%Z, SectorHeights [Some 0%Q]).
Proof. vm_compute. auto. Qed.

(** Non-vacuity *)
Definition ex_scan_r : scan xr :=
  mkscan [2]%nat [Fin 20; Fin 30] (Some [Fin 1; Fin 1.5]) (Some [Fin 0; Fin 0]) [Fin 0.99; Fin 0.93] [false; false]
    None (Some [Fin 5; Fin 0]) (Some [Fin 1; Fin 4]) None.
Example C103_winter_hypotheses : exists r,
  run_winter false true ex_scan_r false BS "linear" "rhi" (Fin 0.5) (Some (Fin 4)) 36 (Fin 5) = Ok r /\
  run_winter false true (scan_raised (-2) ex_scan_r) false BS "linear" "rhi" (Fin 0.5) (Some (Fin (4 + -2))) 36 (Fin 5) = Ok r.
Proof.
  assert (Ok' : scan_ok ex_scan_r) by (unfold scan_ok; repeat split; reflexivity).
  assert (Q : quiet false true) by now right.
  destruct (C42_total false true ex_scan_r false BS "linear" "rhi" (Fin 0.5) 4 36 (Fin 5) Ok') as (r & E); try discriminate; auto.
  - now left.
  - right. discriminate.
  - left. discriminate.
  - exists r. split; auto. apply C103_run_winter_origin; auto. now left.
Qed.
