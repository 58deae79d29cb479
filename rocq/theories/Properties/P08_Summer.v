(** * C32-C38: the summer hydrometeor identification csu_fhc_summer *)
From Coq Require Import Reals Lra Lia Qreals Arith.
From Verif Require Import Base.Num Base.ListFacts Base.XReal Base.XTac Base.Pointwise Base.XArith Base.QOps.
From Verif Require Import Model.Tables Model.Beta Model.TTraps Model.Hid.
From Verif Require Import Spec.HidSpec Spec.TrapSpec.
From Verif Require Import Proofs.TrapProofs Proofs.HidProofs Proofs.BetaProofs Proofs.SummerProofs Proofs.SummerReal.
Open Scope R_scope.

(** ** C36: option combinations that cannot work.  Any float arithmetic. *)
Theorem C36_no_dz (F : Type) (fo : FloatOps F) ut w method (a : fields F) trap n tf bd rs :
  supplied (a KDZ) = false -> csu_fhc_summer ut w method a trap n tf bd rs = PyNone.
Proof. intro E. unfold csu_fhc_summer. change (fhc_vars a KDZ) with (supplied (a KDZ)). now rewrite E. Qed.

Theorem C36_unknown_method (F : Type) (fo : FloatOps F) ut w method (a : fields F) trap n tf bd rs :
  contains "hybrid" method = false -> contains "linear" method = false ->
  csu_fhc_summer ut w method a trap n tf bd rs = PyNone.
Proof.
  intros E1 E2. unfold csu_fhc_summer. destruct (negb _); auto.
  unfold varlist. now rewrite E1, E2.
Qed.

(** linear needs a polarimetric variable *)
Theorem C36_linear_without_pol (F : Type) (fo : FloatOps F) ut w method (a : fields F) trap n tf bd rs :
  supplied (a KDZ) = true -> contains "hybrid" method = false -> contains "linear" method = true ->
  any_pol (fun k => supplied (a k)) = false ->
  csu_fhc_summer ut w method a trap n tf bd rs = Raise UnboundLocalError.
Proof.
  intros Ed Eh El Ep. unfold csu_fhc_summer. change (fhc_vars a KDZ) with (supplied (a KDZ)).
  rewrite Ed. cbn [negb]. unfold varlist. rewrite Eh, El. cbv zeta.
  rewrite dz_set_len, csv_len, any_pol_flag.
  change (any_pol (fhc_vars a)) with (any_pol (fun k => supplied (a k))). rewrite Ep.
  change (seq 0 10) with (0%nat :: seq 1 9). now rewrite get_test_list_unbound.
Qed.

Lemma mapM_raise {A B} (f : A -> res B) l1 x l2 e ys :
  mapM f l1 = Ok ys -> f x = Raise e -> mapM f (l1 ++ x :: l2) = Raise e.
Proof.
  revert ys; induction l1 as [|y l1 IH]; simpl; intros ys E Ex.
  - now rewrite Ex.
  - apply bind_ok in E as (z & -> & E). apply bind_ok in E as (zs & Ez & _).
    simpl. now rewrite (IH _ Ez Ex).
Qed.

Lemma row_ok (a : fields xr) v w ut tf bd k x :
  0 < tf -> sizes_match a -> In k pol_keys -> radar_data a k = Some x ->
  exists y, (bt <- beta_of (dz_size a) x (get_sets Summer ut (Fin tf) bd k) 0 ;;
     Ok (map (fun y => fmul (fmul (flag (v k)) (w k)) y) bt)) = Ok y.
Proof.
  intros Htf Hsz Hin Hx.
  destruct (beta_of_total (dz_size a) x (get_sets Summer ut (Fin tf) bd k) 0) as (l & El).
  - rewrite (rd_len _ _ _ Hx), size_eq. rewrite (Hsz k); [lia|].
    unfold radar_data in Hx; unfold supplied; destruct (a k); auto; discriminate.
  - apply (gate_beta_total Summer 10); auto using summer_tables; [lia|].
    intros ->. exfalso. simpl in Hin. decompose [or] Hin; try discriminate; contradiction.
  - rewrite El. simpl. eauto.
Qed.

(** T supplied but switched off: the beta variant of 'linear' still looks up
    the missing T table *)
Theorem C36_linear_T_unused ut w method (a : fields xr) n tf bd rs :
  supplied (a KDZ) = true -> contains "hybrid" method = false -> contains "linear" method = true ->
  any_pol (fun k => supplied (a k)) = true -> supplied (a KT) = true -> ut = false ->
  0 < tf -> sizes_match a ->
  csu_fhc_summer ut w method a false n (Fin tf) bd rs = Raise TypeError.
Proof.
  intros Ed Eh El Ep ET -> Htf Hsz. unfold csu_fhc_summer.
  change (fhc_vars a KDZ) with (supplied (a KDZ)). rewrite Ed. cbn [negb].
  change (fhc_vars a KT) with (supplied (a KT)). rewrite ET. unfold varlist. rewrite Eh, El. cbv zeta.
  rewrite dz_set_len, csv_len, any_pol_flag.
  change (any_pol (fhc_vars a)) with (any_pol (fun k => supplied (a k))). rewrite Ep.
  assert (U : used_vars a false KDZ = true) by exact Ed. rewrite U.
  rewrite get_test_list_map by auto. change (seq 0 10) with (0%nat :: seq 1 9).
  cbn [mapM one_row].
  match goal with |- (rows <- (y <- ?c ;; _) ;; _) = _ => assert (E : c = Raise TypeError) end;
    [|now rewrite E].
  unfold calculate_test.
  set (f := fun kx : key * list xr => _).
  assert (RT : exists xT, radar_data a KT = Some xT)
    by (unfold radar_data; unfold supplied in ET; destruct (a KT); try discriminate; eauto).
  destruct RT as (xT & RT).
  change [KDR; KKD; KRH; KLD; KT; KDZ] with (pol_keys ++ [KT; KDZ]).
  rewrite flat_map_app. cbn [flat_map]. rewrite RT.
  destruct (mapM_total f (flat_map (fun k => match radar_data a k with Some x => [(k, x)] | None => [] end) pol_keys))
    as (ys & Ey).
  - intros (k, x) I. apply in_flat in I as (Hin & Hx). unfold f.
    now apply (row_ok a (used_vars a false) w false tf bd k x).
  - rewrite <- app_comm_cons || cbn [app].
    rewrite (mapM_raise f _ _ _ TypeError ys Ey); reflexivity.
Qed.

(** ** C34: use_trap is ignored by the hybrid method.  Any float arithmetic. *)
Theorem C34_trap_irrelevant (F : Type) (fo : FloatOps F) ut w method (a : fields F) n tf bd rs :
  contains "hybrid" method = true ->
  csu_fhc_summer ut w method a true n tf bd rs = csu_fhc_summer ut w method a false n tf bd rs.
Proof.
  intro Eh. unfold csu_fhc_summer. destruct (negb _) eqn:Ed; auto.
  unfold varlist. rewrite Eh. cbv zeta. set (ut' := if fhc_vars a KT then ut else false).
  assert (C : forall c, calculate_test_trap (used_vars a ut') w (radar_data a) (get_sets Summer ut' tf bd)
      [KDR; KKD; KRH; KLD] (weight_sum (used_vars a ut') w [KDR; KKD; KRH; KLD]) c (dz_size a)
    = calculate_test (used_vars a ut') w (radar_data a) (get_sets Summer ut' tf bd)
      [KDR; KKD; KRH; KLD] (weight_sum (used_vars a ut') w [KDR; KKD; KRH; KLD]) c (dz_size a)).
  { intro c. unfold calculate_test_trap, calculate_test.
    match goal with |- bind ?m1 _ = bind ?m2 _ => assert (E : m1 = m2) end; [|now rewrite E].
    apply mapM_ext. intros (k, x) I. apply in_flat in I as (Hin & _). simpl in Hin.
    decompose [or] Hin; subst; auto; contradiction. }
  assert (Z : used_vars a ut' KDZ = true) by (apply negb_false_iff in Ed; exact Ed).
  rewrite Z. rewrite !get_test_list_map by auto.
  match goal with |- bind ?m1 _ = bind ?m2 _ => assert (E : m1 = m2) end; [|now rewrite E].
  apply mapM_ext. intros c _. unfold one_row. now rewrite C.
Qed.

(** ** C33: classes *)

(** n_types must be 10: the scores cannot be reshaped otherwise (dz not empty). *)
Theorem C33_n_types ut w method (a : fields xr) trap n tf bd rs :
  scores_ok a ut method trap -> 0 < tf -> size (a KDZ) <> 0%nat -> n <> 10%nat ->
  csu_fhc_summer ut w method a trap n (Fin tf) bd rs = Raise ValueError.
Proof.
  intros Hs Htf Hz Hn. destruct (summer_total ut w method a trap tf bd Hs Htf) as (mu & E).
  pose proof E as E1. apply summer_scores in E1 as (_ & _ & L & _).
  assert (P : prod (shape (a KDZ)) = size (a KDZ)).
  { destruct Hs as (_ & Hok & _). unfold field_ok, shape, size, arr_ok in *. destruct (a KDZ); auto. }
  unfold csu_fhc_summer in E |- *. destruct (negb _); [discriminate|].
  destruct (varlist method); [|discriminate]. cbv zeta in E |- *.
  destruct (get_test_list _ _ _ _ _ _ _ _ _) as [rows| | | |]; cbn [bind] in E |- *; try discriminate.
  rewrite shape_eq, P in E |- *.
  destruct (Nat.eqb_spec (length (concat rows)) (10 * size (a KDZ))) as [E2|]; [|discriminate].
  destruct (Nat.eqb_spec (length (concat rows)) (n * size (a KDZ))) as [E3|]; [|reflexivity].
  exfalso. apply Hn. rewrite E2 in E3. apply Nat.mul_cancel_r in E3; auto.
Qed.

(** Whenever it returns classes: dz's shape, one class in 1..10 per gate.
    Any float arithmetic. *)
Theorem C33_codes (F : Type) (fo : FloatOps F) ut w method (a : fields F) trap n tf bd sh hid :
  csu_fhc_summer ut w method a trap n tf bd false = Ok (Classes sh hid) -> field_ok (a KDZ) ->
  sh = shape (a KDZ) /\ length hid = size (a KDZ) /\ forall i h, nth_error hid i = Some h -> (1 <= h <= 10)%nat.
Proof.
  intros E Hok. rewrite summer_classes in E.
  destruct (csu_fhc_summer ut w method a trap n tf bd true) as [[s mu|]| | | |] eqn:Es; try discriminate.
  apply bind_ok in E as (h & Eh & E). injection E as <- <-.
  destruct (Nat.eq_dec n 0) as [->|Hn].
  { unfold argmax0 in Eh. discriminate. }
  destruct (argmax0_ok n (size (a KDZ)) mu Hn) as (h' & Eh' & L & G).
  assert (h' = h) as -> by congruence. rewrite map_length. split; auto. split; auto.
  intros i x Hx. rewrite map_nth_error' in Hx. destruct (nth_error h i) as [k|] eqn:Ek; [|discriminate].
  injection Hx as <-. pose proof (nth_error_lt _ _ Ek) as Hi.
  destruct (G i) as (k' & Hk' & Hlt & _); [lia|]. assert (k' = k) as -> by congruence.
  assert (n = 10%nat) by (eapply summer_ntypes; eauto; lia). lia.
Qed.

(** numpy argmax on numbers: the first maximum *)
Lemma np_argmax_from_spec (l : list xr) : forall best bi i k,
  best <> NaN -> (forall x, In x l -> x <> NaN) -> np_argmax_from best bi i l = k ->
  exists m, m <> NaN /\ xle best m = true /\ (forall x, In x l -> xle x m = true) /\
    ((k = bi /\ m = best) \/
     (exists j, k = (i + j)%nat /\ nth_error l j = Some m /\ xlt best m = true /\
       forall j' x, (j' < j)%nat -> nth_error l j' = Some x -> xlt x m = true)).
Proof.
  assert (refl : forall x, x <> NaN -> xle x x = true)
    by (intros [r| | |] N; simpl; auto; try contradiction; apply Rleb_true; lra).
  assert (trans : forall x y z, xle x y = true -> xle y z = true -> xle x z = true).
  { intros [x| | |] [y| | |] [z| | |]; simpl; auto; try discriminate.
    intros A B. apply Rleb_true in A, B. apply Rleb_true. lra. }
  assert (nle : forall x y, x <> NaN -> y <> NaN -> xle x y = false -> xlt y x = true).
  { intros [x| | |] [y| | |] N1 N2; simpl; auto; try discriminate; try contradiction.
    intro A. apply Rleb_false in A. now apply Rltb_true. }
  assert (lele : forall x y, xlt x y = true -> xle x y = true).
  { intros [x| | |] [y| | |]; simpl; auto; try discriminate.
    intro A. apply Rltb_true in A. apply Rleb_true; lra. }
  assert (ltle : forall x y z, xlt x y = true -> xle y z = true -> xlt x z = true).
  { intros [x| | |] [y| | |] [z| | |]; simpl; auto; try discriminate.
    intros A B. apply Rltb_true in A. apply Rleb_true in B. apply Rltb_true. lra. }
  assert (lelt : forall x y z, xle x y = true -> xlt y z = true -> xlt x z = true).
  { intros [x| | |] [y| | |] [z| | |]; simpl; auto; try discriminate.
    intros A B. apply Rleb_true in A. apply Rltb_true in B. apply Rltb_true. lra. }
  induction l as [|x l IH]; intros best bi i k Nb Nl E; simpl in E.
  - exists best. split; [auto|]. split; [auto|]. split; [intros ? []|auto].
  - assert (B0 : fisnan best = false).
    { unfold fisnan. destruct best; try reflexivity; try contradiction.
      change (negb (Reqb r r) = false). assert (Reqb r r = true) as -> by now apply Reqb_true. reflexivity. }
    rewrite B0 in E. assert (Nx : x <> NaN) by (apply Nl; now left).
    change (@fle xr _) with xle in E. destruct (xle x best) eqn:Ex.
    + destruct (IH best bi (S i) k Nb ltac:(intros; apply Nl; now right) E) as (m & Nm & Lm & Am & C).
      exists m. split; auto. split; auto. split.
      { intros y [<-|Hy]; auto. eapply trans; eauto. }
      destruct C as [C|(j & -> & Hj & Lj & Bj)]; [now left|]. right. exists (S j).
      split; [lia|]. split; auto. split; auto. intros [|j'] y Hj' Hy; simpl in Hy.
      * injection Hy as <-. eapply lelt; eauto.
      * eapply Bj; eauto; lia.
    + apply nle in Ex; auto.
      destruct (IH x i (S i) k Nx ltac:(intros; apply Nl; now right) E) as (m & Nm & Lm & Am & C).
      exists m. split; auto. split. { eapply trans; [apply lele, Ex|auto]. } split.
      { intros y [<-|Hy]; auto. }
      right. destruct C as [(-> & ->)|(j & -> & Hj & Lj & Bj)].
      * exists 0%nat. split; [lia|]. simpl. split; auto. split; auto. intros; lia.
      * exists (S j). split; [lia|]. simpl. split; auto. split; [eapply ltle; eauto|].
        intros [|j'] y Hj' Hy; simpl in Hy.
        -- injection Hy as <-. auto.
        -- eapply Bj; eauto; lia.
Qed.

Lemma np_argmax_spec (l : list xr) k : np_argmax l = Ok k -> (forall x, In x l -> x <> NaN) ->
  exists m, nth_error l k = Some m /\ (forall x, In x l -> xle x m = true) /\
    forall j x, (j < k)%nat -> nth_error l j = Some x -> xlt x m = true.
Proof.
  destruct l as [|y l]; [discriminate|]. intros E N. injection E as E.
  destruct (np_argmax_from_spec l y 0 1 k) as (m & Nm & Lm & Am & C); auto.
  { apply N; now left. } { intros; apply N; now right. }
  exists m. destruct C as [(-> & ->)|(j & -> & Hj & Lj & Bj)].
  - split; auto. split; [|intros; lia]. intros x [<-|Hx]; auto.
  - simpl. split; auto. split. { intros x [<-|Hx]; auto. }
    intros [|j'] x Hj' Hx; simpl in Hx; [injection Hx as <-; auto|]. eapply Bj; eauto; lia.
Qed.

(** The class is the first one of maximal score, at every gate whose ten scores
    are numbers; scores and classes are those returned with return_scores set
    and unset. *)
Theorem C33_first_maximum ut w method (a : fields xr) trap tf bd sh mu :
  csu_fhc_summer ut w method a trap 10 tf bd true = Ok (Scores sh mu) ->
  exists hid, csu_fhc_summer ut w method a trap 10 tf bd false = Ok (Classes (shape (a KDZ)) hid) /\
    length hid = size (a KDZ) /\
    forall i, (i < size (a KDZ))%nat ->
      (forall c, (c < 10)%nat -> nth_error mu (c * size (a KDZ) + i) <> Some NaN) ->
      exists h m, nth_error hid i = Some (S h) /\ (h < 10)%nat /\
        nth_error mu (h * size (a KDZ) + i) = Some m /\
        (forall c x, (c < 10)%nat -> nth_error mu (c * size (a KDZ) + i) = Some x -> xle x m = true) /\
        (forall c x, (c < h)%nat -> nth_error mu (c * size (a KDZ) + i) = Some x -> xlt x m = true).
Proof.
  intro E. rewrite summer_classes, E.
  destruct (argmax0_ok 10 (size (a KDZ)) mu) as (hid & Eh & L & G); [discriminate|].
  rewrite Eh. cbn [bind]. exists (map S hid). split; auto. rewrite map_length. split; auto.
  intros i Hi NN. destruct (G i Hi) as (h & Hh & Hlt & Ea).
  apply summer_scores in E as (_ & _ & Lm & _).
  assert (Cn : forall c, (c < 10)%nat -> nth_error mu (c * size (a KDZ) + i)
     = Some (nth (c * size (a KDZ) + i) mu fnan)).
  { intros c Hc. apply nth_error_nth'. rewrite Lm. nia. }
  assert (Col : forall c x, nth_error (column 10 (size (a KDZ)) mu i) c = Some x ->
     (c < 10)%nat /\ nth_error mu (c * size (a KDZ) + i) = Some x).
  { intros c x Hx. pose proof (nth_error_lt _ _ Hx) as Hc. rewrite column_len in Hc. split; auto.
    rewrite column_nth in Hx by auto. rewrite Cn by auto. auto. }
  destruct (np_argmax_spec _ _ Ea) as (m & Hm & Am & Bm).
  { intros x Hx. apply In_nth_error in Hx as (c & Hc). apply Col in Hc as (Hc & Hx).
    intros ->. now apply (NN c). }
  exists h, m. split; [rewrite map_nth_error', Hh; auto|]. split; auto.
  destruct (Col _ _ Hm) as (_ & Hm'). split; auto. split.
  - intros c x Hc Hx. apply Am. apply nth_error_In with (n := c). rewrite column_nth by auto.
    rewrite Cn in Hx by auto. exact Hx.
  - intros c x Hc Hx. apply (Bm c x Hc). rewrite column_nth by lia. rewrite Cn in Hx by lia. exact Hx.
Qed.

(** With return_scores: shape (10,) + shape of dz. Any float arithmetic. *)
Theorem C33_score_shape (F : Type) (fo : FloatOps F) ut w method (a : fields F) trap n tf bd sh mu :
  csu_fhc_summer ut w method a trap n tf bd true = Ok (Scores sh mu) -> field_ok (a KDZ) ->
  size (a KDZ) <> 0%nat -> sh = 10%nat :: shape (a KDZ) /\ length mu = (10 * size (a KDZ))%nat.
Proof.
  intros E Hok Hz. pose proof (summer_ntypes _ _ _ _ _ _ _ _ _ _ E Hok Hz) as ->.
  apply summer_scores in E as (-> & _ & L & _). auto.
Qed.

(** ** C37: gate locality.  Two calls with the same options and the same set of
    supplied fields give the same scores and the same class at any two gates
    where the measurements agree; other gates are irrelevant.  Any float
    arithmetic. *)
Theorem C37_gate_local (F : Type) (fo : FloatOps F) ut w method (a a' : fields F) trap n tf bd sh sh' mu mu' i i' :
  csu_fhc_summer ut w method a trap n tf bd true = Ok (Scores sh mu) ->
  csu_fhc_summer ut w method a' trap n tf bd true = Ok (Scores sh' mu') ->
  (forall k, supplied (a k) = supplied (a' k)) ->
  (i < size (a KDZ))%nat -> (i' < size (a' KDZ))%nat ->
  (forall k, at_gate (a k) i = at_gate (a' k) i') ->
  forall c, (c < 10)%nat ->
    nth_error mu (c * size (a KDZ) + i) = nth_error mu' (c * size (a' KDZ) + i').
Proof.
  intros E E' Hs Hi Hi' Hg c Hc.
  apply summer_scores in E as (_ & _ & _ & G). apply summer_scores in E' as (_ & _ & _ & G').
  destruct (G c i Hc Hi) as (y & -> & Ey). destruct (G' c i' Hc Hi') as (y' & -> & Ey').
  assert (Es : summer_gate (fun k => supplied (a k)) ut w method trap tf bd
     (fun k => option_map f32 (at_gate (a k) i)) c
   = summer_gate (fun k => supplied (a' k)) ut w method trap tf bd
     (fun k => option_map f32 (at_gate (a' k) i')) c).
  2:{ rewrite Es, Ey' in Ey. now injection Ey as ->. }
  clear -Hs Hg. unfold summer_gate. rewrite <- !Hs, <- !Hg.
  set (ut' := if supplied (a KT) then ut else false).
  assert (Ep : get_pol_flag (fun k => supplied (a k)) = get_pol_flag (fun k => supplied (a' k)))
    by (unfold get_pol_flag; now rewrite !Hs).
  rewrite <- Ep. destruct (varlist method) as [vl|]; auto. cbv zeta.
  set (v := fun k => match k with KT => _ | _ => supplied (a k) end).
  set (v' := fun k => match k with KT => _ | _ => supplied (a' k) end).
  assert (V : forall k, v' k = v k) by (intros []; unfold v, v'; rewrite ?Hs; reflexivity).
  assert (W : weight_sum v' w vl = weight_sum v w vl)
    by (unfold weight_sum; f_equal; apply map_ext; intro; now rewrite V).
  assert (FM : flat_map (fun k => match option_map f32 (at_gate (a' k) i') with Some x => [(k, x)] | None => [] end) vl
    = flat_map (fun k => match option_map f32 (at_gate (a k) i) with Some x => [(k, x)] | None => [] end) vl).
  { clear W. induction vl; simpl; auto. now rewrite <- Hg, IHvl. }
  rewrite W. unfold gate_row, gate_calc, gate_calc_trap. rewrite FM.
  assert (C1 : mapM (fun kx : key * F => let '(k, x) := kx in
       bt <- gate_beta (get_sets Summer ut' tf bd k) c x;; Ok (f32 (fmul (f32 (fmul (flag (v' k)) (w k))) bt)))
     (flat_map (fun k => match option_map f32 (at_gate (a k) i) with Some x => [(k, x)] | None => [] end) vl)
     = mapM (fun kx : key * F => let '(k, x) := kx in
       bt <- gate_beta (get_sets Summer ut' tf bd k) c x;; Ok (f32 (fmul (f32 (fmul (flag (v k)) (w k))) bt)))
     (flat_map (fun k => match option_map f32 (at_gate (a k) i) with Some x => [(k, x)] | None => [] end) vl)).
  { apply mapM_ext. intros (k, x) _. now rewrite V. }
  assert (C2 : forall l, mapM (fun kx : key * F => let '(k, x) := kx in
       match k with KT => t <- gate_trap c x ;; Ok (f32 t) | _ =>
       bt <- gate_beta (get_sets Summer ut' tf bd k) c x;; Ok (f32 (fmul (f32 (fmul (flag (v' k)) (w k))) bt)) end) l
     = mapM (fun kx : key * F => let '(k, x) := kx in
       match k with KT => t <- gate_trap c x ;; Ok (f32 t) | _ =>
       bt <- gate_beta (get_sets Summer ut' tf bd k) c x;; Ok (f32 (fmul (f32 (fmul (flag (v k)) (w k))) bt)) end) l).
  { intro l. apply mapM_ext. intros (k, x) _. destruct k; auto; now rewrite V. }
  rewrite C1, C2. reflexivity.
Qed.

Theorem C37_gate_local_class (F : Type) (fo : FloatOps F) ut w method (a a' : fields F) trap tf bd sh sh' hid hid' i i' :
  csu_fhc_summer ut w method a trap 10 tf bd false = Ok (Classes sh hid) ->
  csu_fhc_summer ut w method a' trap 10 tf bd false = Ok (Classes sh' hid') ->
  (forall k, supplied (a k) = supplied (a' k)) ->
  (i < size (a KDZ))%nat -> (i' < size (a' KDZ))%nat ->
  (forall k, at_gate (a k) i = at_gate (a' k) i') ->
  nth_error hid i = nth_error hid' i'.
Proof.
  intros E E' Hs Hi Hi' Hg. rewrite summer_classes in E, E'.
  destruct (csu_fhc_summer ut w method a trap 10 tf bd true) as [[s mu|]| | | |] eqn:S1; try discriminate.
  destruct (csu_fhc_summer ut w method a' trap 10 tf bd true) as [[s' mu'|]| | | |] eqn:S2; try discriminate.
  destruct (argmax0_ok 10 (size (a KDZ)) mu) as (h & Eh & L & G); [discriminate|].
  destruct (argmax0_ok 10 (size (a' KDZ)) mu') as (h' & Eh' & L' & G'); [discriminate|].
  rewrite Eh in E. rewrite Eh' in E'. cbn [bind] in E, E'. injection E as _ <-. injection E' as _ <-.
  destruct (G i Hi) as (k & Hk & _ & Ek). destruct (G' i' Hi') as (k' & Hk' & _ & Ek').
  rewrite !map_nth_error', Hk, Hk'. f_equal. f_equal.
  assert (C : column 10 (size (a KDZ)) mu i = column 10 (size (a' KDZ)) mu' i').
  { unfold column. apply map_ext_in. intros c Hc. apply in_seq in Hc.
    assert (Hc' : (c < 10)%nat) by lia.
    pose proof (C37_gate_local _ _ _ _ _ _ _ _ _ _ _ _ _ _ _ i i' S1 S2 Hs Hi Hi' Hg c Hc') as N.
    destruct (summer_scores _ _ _ _ _ _ _ _ _ _ S1) as (_ & _ & _ & Gs).
    destruct (Gs c i Hc' Hi) as (y & Ny & _). rewrite Ny in N.
    rewrite (nth_error_nth _ _ fnan Ny). symmetry in N. now rewrite (nth_error_nth _ _ fnan N). }
  rewrite C in Ek. congruence.
Qed.
