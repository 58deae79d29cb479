(** * C24, the general rule: which two levels decide the freezing altitude *)
From Coq Require Import Reals Lra Lia Permutation Sorting.Sorted List.
From Verif Require Import Base.Num Base.ListFacts Base.XReal Base.XTac Base.XArith.
From Verif Require Import Model.LiquidIce Proofs.LiquidIceProofs Proofs.FreezingProofs Properties.P04_LiquidIce.
Import ListNotations.
Open Scope R_scope.

Definition by_height (p q : R * R) : Prop := fst p < fst q.

Lemma sorted_unique (l m : list (R * R)) : StronglySorted by_height l -> StronglySorted by_height m ->
  Permutation l m -> l = m.
Proof.
  intro Sl. revert m. induction Sl as [|x l Sl IH Fl]; intros m Sm P.
  - now apply Permutation_nil in P.
  - destruct m as [|y m]; [symmetry in P; now apply Permutation_nil in P|].
    inversion Sm as [|? ? Sm' Fm]; subst. rewrite Forall_forall in Fl, Fm.
    assert (x = y).
    { assert (Ix : In x (y :: m)) by (eapply Permutation_in; eauto; now left).
      assert (Iy : In y (x :: l)) by (eapply Permutation_in; [symmetry; eauto|now left]).
      destruct Ix as [->|Ix]; auto. destruct Iy as [->|Iy]; auto.
      apply Fm in Ix. apply Fl in Iy. unfold by_height in *. lra. }
    subst y. f_equal. apply IH; auto. eapply Permutation_cons_inv; eauto.
Qed.

Lemma sorted_nodup l : StronglySorted by_height l -> NoDup (map fst l).
Proof.
  induction 1 as [|x l S IH F]; constructor; auto. rewrite Forall_forall in F.
  intro I. apply in_map_iff in I as (y & E & Iy). apply F in Iy. unfold by_height in Iy. lra.
Qed.

Lemma rsort_unique s l : Permutation s l -> StronglySorted by_height l -> rsort s = l.
Proof.
  intros P S. apply sorted_unique; auto.
  - apply StronglySorted_nodup_lt; [apply rsort_sorted|].
    eapply Permutation_NoDup; [|apply sorted_nodup; exact S]. apply Permutation_map.
    rewrite <- P. apply rsort_perm.
  - rewrite <- rsort_perm. auto.
Qed.

Lemma filter_sorted (f : R * R -> bool) l : StronglySorted by_height l -> StronglySorted by_height (filter f l).
Proof.
  induction 1 as [|x l S IH F]; cbn [filter]; [constructor|]. destruct (f x); auto. constructor; auto.
  rewrite Forall_forall in *. intros y Hy. apply filter_In in Hy. apply F, Hy.
Qed.

Lemma skipn_nth_two {A} (l : list A) k a b : nth_error l k = Some a -> nth_error l (S k) = Some b ->
  exists r, skipn k l = a :: b :: r.
Proof.
  revert l; induction k as [|k IH]; intros [|x l] Ea Eb; try discriminate; cbn in Ea, Eb.
  - destruct l as [|y l]; [discriminate|]. injection Ea as ->. injection Eb as ->. cbn. eauto.
  - destruct (IH l Ea Eb) as (r & Er). cbn. eauto.
Qed.

Definition warm (p : R * R) : bool := Rltb 0 (snd p).

(** s: a sounding without exact zeros that has both signs, l its levels from the
    bottom up, n the number of above-freezing levels.  The answer is decided by
    the n-th and (n+1)-th levels from the bottom, wherever the freezing level is:
    opposite signs interpolate between the two, otherwise it is the height of the
    one nearer to 0 C (ties: the lower of two warm levels, the upper of two cold
    ones). *)
Theorem C24_deciding_levels : forall pf (s l : list (R * R)),
  Permutation s l -> StronglySorted by_height l ->
  (forall p, In p s -> snd p <> 0) ->
  (exists p, In p s /\ 0 < snd p) -> (exists p, In p s /\ snd p < 0) ->
  let n := length (filter warm s) in
  exists a b h, nth_error l (n - 1) = Some a /\ nth_error l n = Some b /\
    get_freezing_altitude pf (temps s) (heights s) = Ok (Fin h) /\
    (snd a * snd b < 0 -> fst a < h < fst b /\
       (h - fst a) * (snd b - snd a) = (0 - snd a) * (fst b - fst a)) /\
    (0 < snd a -> 0 < snd b -> h = if Rlt_dec (snd b) (snd a) then fst b else fst a) /\
    (snd a < 0 -> snd b < 0 -> h = if Rlt_dec (snd b) (snd a) then fst a else fst b).
Proof.
  intros pf s l P Sl NZ (pp & Ipp & Ppp) (pn & Ipn & Ppn) n.
  rewrite gfa_nozero by auto. unfold gfa_rest. rewrite (rsort_unique s l) by auto.
  destruct (extremes s) as (mx & mn & E1 & E2 & _ & _ & B); [destruct s; [destruct Ipp|congruence]|].
  rewrite E1, E2. cbn [bind]. rewrite (lit_int 0), !flt_fin.
  rewrite (proj2 (Rltb_true 0 mx)) by (specialize (B _ Ipp); lra).
  rewrite (proj2 (Rltb_true mn 0)) by (specialize (B _ Ipn); lra).
  cbn [andb]. fold warm.
  change (fun p : R * R => Rltb 0 (snd p)) with warm.
  assert (Pf : Permutation (filter warm s) (filter warm l)).
  { clear -P. induction P; cbn [filter]; auto.
    - destruct (warm x); auto.
    - destruct (warm x), (warm y); auto. apply perm_swap.
    - etransitivity; eauto. }
  assert (Ln : length (filter warm l) = n) by (symmetry; now apply Permutation_length).
  assert (Hn : (0 < n)%nat).
  { assert (I : In pp (filter warm s)) by (apply filter_In; split; auto; now apply Rltb_true).
    unfold n. destruct (filter warm s); [destruct I|cbn; lia]. }
  assert (Hl : (n < length l)%nat).
  { rewrite <- Ln. assert (In pn l) by (eapply Permutation_in; eauto).
    assert (W : warm pn = false) by (apply Rltb_false; lra).
    clear -H W. induction l as [|x l IH]; [destruct H|]. cbn [filter length].
    assert (length (filter warm l) <= length l)%nat by (clear; induction l as [|y l IH]; cbn; [lia|destruct (warm y); cbn; lia]).
    destruct H as [-> |H]; [rewrite W; lia|]. specialize (IH H). destruct (warm x); cbn; lia. }
  rewrite argmax_incr.
  2:{ apply (StronglySorted_map by_height); auto. now apply filter_sorted. }
  2:{ intro Z. apply map_eq_nil in Z. rewrite Z in Ln. cbn in Ln. lia. }
  cbn [bind]. rewrite map_length, Ln.
  destruct (nth_error_map_some l (i := (n - 1)%nat)) as (a & Ea); [lia|].
  destruct (nth_error_map_some l (i := n)) as (b & Eb); [lia|].
  destruct (skipn_nth_two l (n - 1) a b) as (r & Er); auto. { now replace (S (n - 1)) with n by lia. }
  rewrite Er.
  assert (Hab : fst a < fst b).
  { clear -Sl Er. assert (S2 : StronglySorted by_height (skipn (n - 1) l)).
    { clear Er. generalize (n - 1)%nat. intro k. revert k. induction Sl as [|x l Sl IH F]; intros [|k]; cbn; auto; constructor; auto. }
    rewrite Er in S2. inversion S2 as [|? ? _ F]; subst. inversion F; auto. }
  assert (Na : snd a <> 0) by (apply NZ; eapply Permutation_in; [symmetry; eauto|eapply nth_error_In; eauto]).
  assert (Nb : snd b <> 0) by (apply NZ; eapply Permutation_in; [symmetry; eauto|eapply nth_error_In; eauto]).
  exists a, b. destruct a as (za, ta), b as (zb, tb). cbn [fst snd] in *.
  destruct (Rlt_dec tb ta) as [L|L].
  - rewrite (proj2 (Rltb_true tb ta)) by auto.
    destruct (Rlt_dec 0 tb) as [T1|T1].
    + rewrite <- (lit_int 0), interp2_left by auto. exists zb. repeat split; auto; try nra; intros; lra.
    + destruct (Rlt_dec ta 0) as [T2|T2].
      * rewrite <- (lit_int 0), interp2_right by lra. exists za. repeat split; auto; try nra; intros; lra.
      * rewrite <- (lit_int 0), interp2_mid by lra.
        exists ((za - zb) / (ta - tb) * (0 - tb) + zb). split; auto. split; auto. split; auto.
        assert (Hf : exists w, 0 < w < 1 /\ (za - zb) / (ta - tb) * (0 - tb) + zb = zb + w * (za - zb)).
        { exists ((0 - tb) / (ta - tb)). split; [split|field; lra].
          - apply Rdiv_lt_0_compat; lra.
          - apply Rmult_lt_reg_r with (ta - tb); [lra|]. unfold Rdiv. rewrite Rmult_assoc, Rinv_l by lra. lra. }
        split; [intros _; split|split; intros; lra].
        -- destruct Hf as (w & Hw & ->). nra.
        -- field. lra.
  - rewrite (proj2 (Rltb_false tb ta)) by lra.
    destruct (Rlt_dec 0 ta) as [T1|T1].
    + rewrite <- (lit_int 0), interp2_left by auto. exists za. repeat split; auto; try nra; intros; lra.
    + destruct (Rlt_dec tb 0) as [T2|T2].
      * rewrite <- (lit_int 0), interp2_right by lra. exists zb. repeat split; auto; try nra; intros; lra.
      * rewrite <- (lit_int 0), interp2_mid by lra.
        exists ((zb - za) / (tb - ta) * (0 - ta) + za). split; auto. split; auto. split; auto.
        assert (Hf : exists w, 0 < w < 1 /\ (zb - za) / (tb - ta) * (0 - ta) + za = za + w * (zb - za)).
        { exists ((0 - ta) / (tb - ta)). split; [split|field; lra].
          - apply Rdiv_lt_0_compat; lra.
          - apply Rmult_lt_reg_r with (tb - ta); [lra|]. unfold Rdiv. rewrite Rmult_assoc, Rinv_l by lra. lra. }
        split; [intros _; split|split; intros; lra].
        -- destruct Hf as (w & Hw & ->). nra.
        -- field. lra.
Qed.

(** Non-vacuity: a surface inversion; two warm levels, so the second and third
    levels decide, both warm: the answer is a level of the sounding at +3 C. *)
Example C24_deciding_ex : forall pf,
  let s := [(3, -2); (0, -1); (1, 5); (2, 3)] in
  get_freezing_altitude pf (temps s) (heights s) = Ok (Fin 2).
Proof.
  intros pf s.
  destruct (C24_deciding_levels pf s [(0, -1); (1, 5); (2, 3); (3, -2)]) as (a & b & h & Ea & Eb & E & _ & Hw & _).
  - unfold s. apply (Permutation_cons_app [(0, -1); (1, 5); (2, 3)] []). reflexivity.
  - repeat constructor; unfold by_height; cbn; lra.
  - intros p Hp. cbn in Hp. decompose [or] Hp; subst; cbn; try lra; contradiction.
  - exists (1, 5). cbn. split; [auto|lra].
  - exists (3, -2). cbn. split; [auto|lra].
  - assert (N : length (filter warm s) = 2%nat).
    { unfold s, warm. cbn [filter snd]. rewrite (proj2 (Rltb_false 0 (-2))), (proj2 (Rltb_false 0 (-1))) by lra.
      rewrite (proj2 (Rltb_true 0 5)), (proj2 (Rltb_true 0 3)) by lra. reflexivity. }
    rewrite N in Ea, Eb. cbn in Ea, Eb. injection Ea as <-. injection Eb as <-. rewrite E. do 2 f_equal.
    rewrite Hw by (cbn [fst snd]; lra). cbn [fst snd]. destruct (Rlt_dec 3 5); lra.
Qed.
