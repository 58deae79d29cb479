(** csu_fhc_summer in exact arithmetic: totality and the value of every score. *)
From Coq Require Import Reals Lra Lia Qreals Arith.
From Verif Require Import Base.Num Base.ListFacts Base.XReal Base.XTac Base.Pointwise Base.XArith.
From Verif Require Import Model.Tables Model.Beta Model.TTraps Model.Hid.
From Verif Require Import Spec.HidSpec Spec.TrapSpec.
From Verif Require Import Proofs.TrapProofs Proofs.HidProofs Proofs.BetaProofs Proofs.SummerProofs.
Open Scope R_scope.

Lemma fold_fadd_fin (l : list R) r :
  fold_left fadd (map Fin l) (Fin r) = Fin (fold_left Rplus l r).
Proof. revert r; induction l; intro; simpl; auto. Qed.

(** no rounding in exact arithmetic *)
Lemma gsum_xr (rows : list xr) ws : gsum rows ws =
  match rows with [] => Unmodelled | r :: rs => Ok (fdiv (fold_left fadd rs r) ws) end.
Proof. reflexivity. Qed.

Lemma fold_Rplus l r : fold_left Rplus l r = r + fold_right Rplus 0 l.
Proof. revert r; induction l; intro; simpl; [lra|]. rewrite IHl. lra. Qed.

Lemma ksum_ext vl u u' f f' : (forall k, In k vl -> u k = u' k /\ (u' k = true -> f k = f' k)) ->
  ksum vl u f = ksum vl u' f'.
Proof.
  induction vl as [|k vl IH]; simpl; intro E; auto.
  destruct (E k (or_introl eq_refl)) as (-> & E'). rewrite IH by auto.
  destruct (u' k); auto. now rewrite E'.
Qed.

Lemma flag_mul b w : fmul (@flag xr _ b) (Fin w) = Fin (if b then w else 0).
Proof. unfold flag. destruct b; rewrite lit_int, fmul_fin; f_equal; lra. Qed.

Lemma weight_sum_fin v W vl :
  weight_sum v (fun k => Fin (W k)) vl = Fin (ksum vl v W).
Proof.
  unfold weight_sum. rewrite (map_ext _ (fun k => Fin (if v k then W k else 0)))
    by (intro; apply flag_mul).
  rewrite <- (map_map (fun k => if v k then W k else 0) Fin). unfold fsum.
  destruct vl as [|k vl]; simpl map.
  - rewrite lit_int. reflexivity.
  - cbv iota. rewrite fold_fadd_fin, fold_Rplus. f_equal. unfold ksum. simpl. f_equal.
    induction vl; simpl; auto. now rewrite IHvl.
Qed.

(** a weighted sum over the present keys *)
Lemma gate_sum_fin (f : key * xr -> res xr) (g : key -> option xr) (p : key -> bool) (x : key -> xr)
  (T : key -> R) vl ws :
  (forall k, In k vl -> if p k then g k = Some (x k) /\ f (k, x k) = Ok (Fin (T k)) else g k = None) ->
  existsb p vl = true -> ws <> 0 ->
  (rows <- mapM f (flat_map (fun k => match g k with Some y => [(k, y)] | None => [] end) vl) ;;
   gsum rows (Fin ws)) = Ok (Fin (ksum vl p T / ws)).
Proof.
  intros Hp He Hw.
  assert (E : mapM f (flat_map (fun k => match g k with Some y => [(k, y)] | None => [] end) vl)
     = Ok (map Fin (flat_map (fun k => if p k then [T k] else []) vl))).
  { clear He. induction vl as [|k vl IH]; simpl; auto.
    pose proof (Hp k (or_introl eq_refl)) as Hk. specialize (IH ltac:(intros; apply Hp; now right)).
    destruct (p k).
    - destruct Hk as (-> & Ek). simpl. rewrite Ek. simpl. rewrite IH. reflexivity.
    - rewrite Hk. simpl. exact IH. }
  rewrite E. cbn [bind].
  assert (S : fold_right Rplus 0 (flat_map (fun k => if p k then [T k] else []) vl) = ksum vl p T).
  { clear. induction vl as [|k vl IH]; simpl; auto. destruct (p k); simpl; rewrite IH; lra. }
  rewrite <- S. clear E S.
  assert (N : flat_map (fun k => if p k then [T k] else []) vl <> []).
  { clear -He. induction vl as [|k vl IH]; simpl in *; [discriminate|].
    destruct (p k); [discriminate|]. apply IH, He. }
  destruct (flat_map _ _) as [|r l]; [contradiction|].
  simpl map. rewrite gsum_xr. rewrite fold_fadd_fin, fold_Rplus, fdiv_fin by auto. reflexivity.
Qed.

Lemma gate_calc_val (v : key -> bool) (W : key -> R) sets vl c g (x : key -> xr) B :
  (forall k, In k vl -> if v k then g k = Some (x k) /\ gate_beta (sets k) c (x k) = Ok (Fin (B k))
     else g k = None) ->
  existsb v vl = true -> ksum vl v W <> 0 ->
  gate_calc v (fun k => Fin (W k)) sets vl (Fin (ksum vl v W)) c g = Ok (Fin (wmean vl v W B)).
Proof.
  intros Hk He Hw. unfold gate_calc.
  eapply (@gate_sum_fin _ g v x (fun k : key => W k * B k) vl); auto.
  intros k Hin. specialize (Hk k Hin). destruct (v k) eqn:Ev; auto.
  destruct Hk as (-> & ->). split; auto. cbn [bind]. rewrite flag_mul, !f32_xr, fmul_fin. reflexivity.
Qed.

(** ** Weighted means of numbers in [0,1] *)
Lemma ksum_nonneg vl u f : (forall k, In k vl -> u k = true -> 0 <= f k) -> 0 <= ksum vl u f.
Proof.
  induction vl as [|k vl IH]; simpl; intro Hf; [lra|].
  specialize (IH ltac:(intros; apply Hf; auto)).
  destruct (u k) eqn:E; [|lra]. specialize (Hf k (or_introl eq_refl) E). lra.
Qed.
Lemma ksum_le vl u f f' : (forall k, In k vl -> u k = true -> f k <= f' k) -> ksum vl u f <= ksum vl u f'.
Proof.
  induction vl as [|k vl IH]; simpl; intro Hf; [lra|].
  specialize (IH ltac:(intros; apply Hf; auto)).
  destruct (u k) eqn:E; [|lra]. specialize (Hf k (or_introl eq_refl) E). lra.
Qed.
Lemma wmean_range vl u w B : (forall k, In k vl -> u k = true -> 0 <= w k) ->
  (forall k, 0 <= B k <= 1) -> 0 < ksum vl u w -> 0 <= wmean vl u w B <= 1.
Proof.
  intros Hw HB Hs. unfold wmean.
  assert (A : 0 <= ksum vl u (fun k => w k * B k)).
  { apply ksum_nonneg. intros k Hi E. specialize (Hw k Hi E). specialize (HB k). nra. }
  assert (C : ksum vl u (fun k => w k * B k) <= ksum vl u w).
  { apply ksum_le. intros k Hi E. specialize (Hw k Hi E). specialize (HB k). nra. }
  split.
  - apply Rmult_le_pos; auto. left; now apply Rinv_0_lt_compat.
  - apply (Rmult_le_reg_r (ksum vl u w)); auto. unfold Rdiv.
    rewrite Rmult_assoc, Rinv_l by lra. lra.
Qed.

(** ** Totality *)
Lemma gate_beta_total s n bd k ut tf c : wf_table n (csv s bd k) = true -> (c < n)%nat -> 0 < tf ->
  (k = KT -> ut = true) -> forall v, exists y, gate_beta (get_sets s ut (Fin tf) bd k) c v = Ok y.
Proof. intros. eexists. eapply gate_beta_table; eauto. Qed.

Lemma rd_len {F} {fo : FloatOps F} (a : fields F) k x : radar_data a k = Some x -> length x = size (a k).
Proof.
  unfold radar_data, size. destruct (a k); intro E; inversion E; subst; simpl; auto.
  apply map_length.
Qed.

(** "if not None, all must match in shape/size" *)
Definition sizes_match {F} (a : fields F) : Prop :=
  forall k, supplied (a k) = true -> size (a k) = size (a KDZ).

Lemma get_trap_total c (x : list xr) : (c < 10)%nat -> exists l, get_hid_traps DFloat c x = Ok l.
Proof. intro. do 10 (destruct c as [|c]; [eexists; reflexivity|]). lia. Qed.

(** rows of _calculate_test always exist when the tables are good *)
Lemma mapM_rows_nonempty {A B} (f : A -> res B) l ys : mapM f l = Ok ys -> l <> [] -> ys <> [].
Proof. intros E N ->. apply mapM_ok in E as (L & _). destruct l; [contradiction|discriminate]. Qed.

Lemma any_pol_flag (u : key -> bool) : get_pol_flag u = any_pol u.
Proof.
  unfold get_pol_flag, any_pol, pol_keys. simpl.
  destruct (u KDR), (u KKD), (u KRH), (u KLD); reflexivity.
Qed.

Lemma flat_map_present {F} (a : fields F) vl :
  existsb (fun k => supplied (a k)) vl = true -> forall (fo : FloatOps F),
  flat_map (fun k => match radar_data a k with Some x => [(k, x)] | None => [] end) vl <> [].
Proof.
  intros E fo. induction vl as [|k vl IH]; simpl in *; [discriminate|].
  unfold radar_data at 1. unfold supplied at 1 in E. destruct (a k); simpl in *; auto; discriminate.
Qed.

Lemma in_flat {F} (fo : FloatOps F) (a : fields F) vl k x :
  In (k, x) (flat_map (fun k => match radar_data a k with Some x => [(k, x)] | None => [] end) vl) ->
  In k vl /\ radar_data a k = Some x.
Proof.
  intro I. apply in_flat_map in I as (k' & Hk & I). destruct (radar_data a k') eqn:E; [|contradiction].
  destruct I as [I|[]]. inversion I; subst. auto.
Qed.

Lemma calc_total s n (a : fields xr) v w bd ut tf vl ws c : (c < n)%nat -> 0 < tf ->
  (forall k, In k vl -> supplied (a k) = true ->
      wf_table n (csv s bd k) = true /\ (k = KT -> ut = true)) ->
  sizes_match a -> existsb (fun k => supplied (a k)) vl = true ->
  exists l, calculate_test v w (radar_data a) (get_sets s ut (Fin tf) bd) vl ws c (dz_size a) = Ok l.
Proof.
  intros Hc Htf Hk Hsz Hex. unfold calculate_test.
  match goal with |- exists l, (rows <- mapM ?f ?l0 ;; _) = Ok l =>
    destruct (mapM_total f l0) as (rows & E) end.
  - intros (k, x) I. apply in_flat in I as (Hin & Hx).
    assert (Sp : supplied (a k) = true) by (unfold radar_data in Hx; unfold supplied; destruct (a k); auto; discriminate).
    destruct (Hk k Hin Sp) as (W & HT).
    destruct (beta_of_total (dz_size a) x (get_sets s ut (Fin tf) bd k) c) as (l & El).
    + rewrite (rd_len _ _ _ Hx), size_eq, (Hsz _ Sp). lia.
    + eapply gate_beta_total; eauto.
    + rewrite El. simpl. eauto.
  - rewrite E. cbn [bind]. pose proof (mapM_rows_nonempty _ _ _ E (flat_map_present a vl Hex _)).
    destruct rows; [contradiction|]. simpl. eauto.
Qed.

Lemma calc_trap_total (a : fields xr) v w bd ut tf vl ws c : (c < 10)%nat -> 0 < tf ->
  sizes_match a -> existsb (fun k => supplied (a k)) vl = true ->
  exists l, calculate_test_trap v w (radar_data a) (get_sets Summer ut (Fin tf) bd) vl ws c (dz_size a) = Ok l.
Proof.
  intros Hc Htf Hsz Hex. unfold calculate_test_trap.
  match goal with |- exists l, (rows <- mapM ?f ?l0 ;; _) = Ok l =>
    destruct (mapM_total f l0) as (rows & E) end.
  - intros (k, x) I. apply in_flat in I as (Hin & Hx).
    assert (Sp : supplied (a k) = true) by (unfold radar_data in Hx; unfold supplied; destruct (a k); auto; discriminate).
    assert (K : (k <> KT) \/ k = KT) by (destruct k; auto; left; discriminate).
    destruct K as [K| ->].
    + destruct (beta_of_total (dz_size a) x (get_sets Summer ut (Fin tf) bd k) c) as (l & El).
      * rewrite (rd_len _ _ _ Hx), size_eq, (Hsz _ Sp). lia.
      * eapply gate_beta_total; eauto using summer_tables.
      * destruct k; try contradiction; rewrite El; simpl; eauto.
    + rewrite (rd_len _ _ _ Hx), size_eq, (Hsz _ Sp), Nat.eqb_refl. destruct (get_trap_total c x Hc) as (l & ->); cbn [bind]; eauto.
  - rewrite E. cbn [bind]. pose proof (mapM_rows_nonempty _ _ _ E (flat_map_present a vl Hex _)).
    destruct rows; [contradiction|]. simpl. eauto.
Qed.

Lemma beta_total s n (a : fields xr) bd ut tf k c : (c < n)%nat -> 0 < tf -> sizes_match a ->
  supplied (a k) = true -> wf_table n (csv s bd k) = true -> (k = KT -> ut = true) ->
  exists l, match radar_data a k with Some x => beta_of (dz_size a) x (get_sets s ut (Fin tf) bd k) c
            | None => Raise ValueError end = Ok l.
Proof.
  intros Hc Htf Hsz Sp W HT. destruct (radar_data a k) as [x|] eqn:Hx.
  - apply beta_of_total.
    + rewrite (rd_len _ _ _ Hx), size_eq, (Hsz _ Sp). lia.
    + eapply gate_beta_total; eauto.
  - exfalso. unfold radar_data, supplied in *. destruct (a k); discriminate.
Qed.

Lemma varlist_cases method vl : varlist method = Some vl ->
  (contains "hybrid" method = true /\ vl = pol_keys) \/
  (contains "hybrid" method = false /\ contains "linear" method = true /\ vl = all_keys).
Proof.
  unfold varlist. destruct (contains "hybrid" method).
  - intro E; injection E as <-; now left.
  - destruct (contains "linear" method); [|discriminate]. intro E; injection E as <-. now right.
Qed.

(** when a call must return scores *)
Definition scores_ok {F} (a : fields F) (use_temp : bool) (method : string) (use_trap : bool) : Prop :=
  supplied (a KDZ) = true /\ field_ok (a KDZ) /\ sizes_match a /\
  (contains "hybrid" method = true \/
   (contains "linear" method = true /\ any_pol (fun k => supplied (a k)) = true /\
    (supplied (a KT) = true -> use_temp = true \/ use_trap = true))).

Lemma summer_total ut w method (a : fields xr) trap tf bd : scores_ok a ut method trap -> 0 < tf ->
  exists mu, csu_fhc_summer ut w method a trap 10 (Fin tf) bd true
             = Ok (Scores (10%nat :: shape (a KDZ)) mu).
Proof.
  intros (Hdz & Hok & Hsz & Hm) Htf. unfold csu_fhc_summer.
  change (fhc_vars a KDZ) with (supplied (a KDZ)). rewrite Hdz. cbn [negb].
  set (ut' := if fhc_vars a KT then ut else false).
  assert (HT : supplied (a KT) = false -> ut' = false)
    by (intro E; unfold ut'; change (fhc_vars a KT) with (supplied (a KT)); now rewrite E).
  assert (HT' : supplied (a KT) = true -> ut' = ut)
    by (intro E; unfold ut'; change (fhc_vars a KT) with (supplied (a KT)); now rewrite E).
  destruct (varlist method) as [vl|] eqn:Evl.
  2:{ exfalso. unfold varlist in Evl. destruct Hm as [Hm|(Hm & _)]; rewrite Hm in Evl;
      destruct (contains "hybrid" method); discriminate. }
  rewrite dz_set_len, csv_len. cbv zeta.
  pose proof (varlist_cases _ _ Evl) as Cs.
  assert (Hm' : contains "hybrid" method = true \/
     (contains "linear" method = true /\ get_pol_flag (fhc_vars a) = true)).
  { destruct Hm as [Hm|(Hm & Hp & _)]; auto. right. split; auto. rewrite any_pol_flag. exact Hp. }
  unfold used_vars at 1. change (fhc_vars a KDZ) with (supplied (a KDZ)). rewrite Hdz.
  rewrite get_test_list_map by auto.
  match goal with |- context [mapM ?f ?l] => destruct (mapM_total f l) as (rows & E) end.
  - intros c Hc. apply in_seq in Hc. unfold one_row.
    assert (BZ : exists l, match radar_data a KDZ with
       Some x => beta_of (dz_size a) x (get_sets Summer ut' (Fin tf) bd KDZ) c
       | None => Raise ValueError end = Ok l)
      by (apply (beta_total Summer 10); auto using summer_tables; [lia|discriminate]).
    assert (Cc : get_pol_flag (fhc_vars a) = true -> exists l,
       (if trap then calculate_test_trap (used_vars a ut') w (radar_data a) (get_sets Summer ut' (Fin tf) bd) vl
           (weight_sum (used_vars a ut') w vl) c (dz_size a)
        else calculate_test (used_vars a ut') w (radar_data a) (get_sets Summer ut' (Fin tf) bd) vl
           (weight_sum (used_vars a ut') w vl) c (dz_size a)) = Ok l).
    { intro Hp. rewrite any_pol_flag in Hp.
      assert (Hex : existsb (fun k => supplied (a k)) vl = true).
      { destruct Cs as [(_ & ->)|(_ & _ & ->)]; [exact Hp|].
        apply existsb_exists in Hp as (k & Hin & Hs). apply existsb_exists. exists k.
        split; auto. unfold pol_keys in Hin. unfold all_keys. simpl in Hin |- *. tauto. }
      destruct trap.
      - apply calc_trap_total; auto; lia.
      - apply (calc_total Summer 10); auto; [lia|]. intros k Hin Sp. split; [apply summer_tables|].
        intros ->. destruct Cs as [(_ & ->)|(Hh & _ & ->)].
        + simpl in Hin. decompose [or] Hin; discriminate || contradiction.
        + destruct Hm as [Hm|(_ & _ & Hm)]; [congruence|].
          destruct (Hm Sp) as [->|?]; [auto|discriminate]. }
    assert (BT : ut' = true -> exists l, match radar_data a KT with
       Some x => beta_of (dz_size a) x (get_sets Summer ut' (Fin tf) bd KT) c
       | None => Raise ValueError end = Ok l).
    { intro Eu. apply (beta_total Summer 10); auto using summer_tables; [lia|].
      destruct (supplied (a KT)) eqn:Sp; auto. now rewrite HT in Eu. }
    destruct BZ as (lz & ->).
    destruct (contains "hybrid" method) eqn:Eh.
    + destruct (get_pol_flag (fhc_vars a)).
      * destruct Cc as (lc & ->); auto. cbn [bind]. destruct ut'.
        -- destruct BT as (lt & ->); auto. cbn [bind]. eauto.
        -- cbn [bind]. eauto.
      * destruct ut'; [|eauto]. destruct BT as (lt & ->); auto. cbn [bind]. eauto.
    + apply Cc. destruct Hm' as [?|(_ & ?)]; [discriminate|auto].
  - rewrite E. cbn [bind].
    assert (L : length (concat rows) = (10 * prod (dz_shape a))%nat).
    { pose proof E as E0. apply mapM_ok in E0 as (Lr & _). rewrite seq_length in Lr.
      rewrite (concat_length (dz_size a)).
      - rewrite Lr, size_eq. f_equal. rewrite shape_eq.
        unfold field_ok, arr_ok, size, shape in *. destruct (a KDZ); auto.
      - destruct (core_rows (contains "hybrid" method) (get_pol_flag (fhc_vars a)) ut'
         (fun c => if trap then calculate_test_trap (used_vars a ut') w (radar_data a) (get_sets Summer ut' (Fin tf) bd) vl
           (weight_sum (used_vars a ut') w vl) c (dz_size a)
          else calculate_test (used_vars a ut') w (radar_data a) (get_sets Summer ut' (Fin tf) bd) vl
           (weight_sum (used_vars a ut') w vl) c (dz_size a))
         (fun c => match radar_data a KT with Some x => beta_of (dz_size a) x (get_sets Summer ut' (Fin tf) bd KT) c
                   | None => Raise ValueError end)
         (fun c => match radar_data a KDZ with Some x => beta_of (dz_size a) x (get_sets Summer ut' (Fin tf) bd KDZ) c
                   | None => Raise ValueError end)
         (fun i c => if trap then gate_calc_trap (used_vars a ut') w (get_sets Summer ut' (Fin tf) bd) vl
            (weight_sum (used_vars a ut') w vl) c (gv (radar_data a) i)
          else gate_calc (used_vars a ut') w (get_sets Summer ut' (Fin tf) bd) vl
            (weight_sum (used_vars a ut') w vl) c (gv (radar_data a) i))
         (fun i c => match gv (radar_data a) i KT with Some x => gate_beta (get_sets Summer ut' (Fin tf) bd KT) c x
                 | None => Raise ValueError end)
         (fun i c => match gv (radar_data a) i KDZ with Some x => gate_beta (get_sets Summer ut' (Fin tf) bd KDZ) c x
                 | None => Raise ValueError end)
         (dz_size a) (seq 0 10) rows) as (_ & Lrow & _); auto.
        + destruct trap; intros c l El; [now apply calculate_test_trap_gate in El|now apply calculate_test_gate in El].
        + intros c l El. now apply beta_gate_sets in El.
        + intros c l El. now apply beta_gate_sets in El. }
    rewrite L, Nat.eqb_refl. cbn [negb]. eexists. rewrite shape_eq. reflexivity.
Qed.
