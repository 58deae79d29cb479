(** * C39, C40, C63: the winter classifier csu_fhc_winter, and C64: the melting
    layer scores csu_fhc_cold_newml1 *)
From Coq Require Import Reals Lra Lia Qreals Arith.
From Verif Require Import Base.Num Base.ListFacts Base.XReal Base.XTac Base.Pointwise Base.XArith Base.QOps.
From Verif Require Import Model.Tables Model.Beta Model.TTraps Model.Hid.
From Verif Require Import Spec.HidSpec Spec.TrapSpec.
From Verif Require Import Proofs.TrapProofs Proofs.HidProofs Proofs.BetaProofs Proofs.SummerProofs Proofs.SummerReal Proofs.CoreProofs.
From Verif Require Import Properties.P09_SummerScores.
Open Scope R_scope.

(** ** Totality *)
Definition nan_row (r : row) : bool := match r with (None, None, Some b) => (0 <? Qnum b)%Z | _ => false end.
Lemma nan_tables bd k : k = KRH \/ k = KLD -> forallb nan_row (csv Winter bd k) = true /\ length (csv Winter bd k) = 6%nat.
Proof. intros [-> | ->]; destruct bd; vm_compute; auto. Qed.

Lemma beta_gate_nan x b : b <> 0 -> hid_beta_gate x NaN (Fin b) NaN = Ok NaN.
Proof.
  intro Hb. unfold hid_beta_gate.
  assert (P2 : fpow (fdiv (fsub x (NaN : xr)) NaN) (flit 2) = NaN).
  { assert (D : fdiv (fsub x (NaN : xr)) NaN = NaN) by (destruct x; reflexivity).
    rewrite D, lit_int. simpl. destruct Req_EM_T; [lra|reflexivity]. }
  assert (Pb : fpow (NaN : xr) (Fin b) = NaN) by (simpl; destruct Req_EM_T; [contradiction|reflexivity]).
  change (feq (NaN : xr) (flit 0)) with false. cbv iota. change (@f32 xr _) with (fun x : xr => x). cbv beta.
  rewrite P2, Pb. rewrite lit_int. reflexivity.
Qed.

Lemma nan_gate bd k ut tf c x : k = KRH \/ k = KLD -> (c < 6)%nat ->
  gate_beta (get_sets Winter ut tf bd k) c x = Ok NaN.
Proof.
  intros K Hc. destruct (nan_tables bd k K) as (N & L). rewrite forallb_forall in N.
  destruct (nth_error_map_some (csv Winter bd k) (i:=c)) as (r & Hr); [lia|].
  specialize (N r (nth_error_In _ _ Hr)). destruct r as (([m|], [a|]), [b|]); try discriminate.
  assert (E : get_sets Winter ut tf bd k = Some (get_beta_set (csv Winter bd k) (flit 1.0)))
    by (destruct K as [-> | ->]; reflexivity).
  rewrite E. unfold gate_beta, get_beta_set. cbn [sa sb sm].
  rewrite (idx_ok _ c (NaN : xr)); [|rewrite map_nth_error', Hr; reflexivity].
  rewrite (idx_ok _ c (Fin (Q2R b / 1))); [|rewrite map_nth_error', Hr; cbn [fst snd]; rewrite cell_q, lit_1, fdiv_fin by lra; reflexivity].
  rewrite (idx_ok _ c (NaN : xr)); [|rewrite map_nth_error', Hr; reflexivity].
  cbn [bind]. change (@f32 xr _) with (fun x : xr => x). cbv beta. apply beta_gate_nan.
  assert (0 < Q2R b). { apply Z.ltb_lt in N. unfold Q2R. apply Rmult_lt_0_compat; [now apply IZR_lt|].
    apply Rinv_0_lt_compat. now apply IZR_lt. } lra.
Qed.

Lemma winter_gate_total bd k ut tf c : (c < 6)%nat -> 0 < tf -> (k = KT -> ut = true) ->
  forall x, exists y, gate_beta (get_sets Winter ut (Fin tf) bd k) c x = Ok y.
Proof.
  intros Hc Htf HT x.
  assert (K : (k = KRH \/ k = KLD) \/ In k [KDZ; KDR; KKD; KT]) by (destruct k; simpl; auto 10).
  destruct K as [K|K].
  - exists NaN. now apply nan_gate.
  - eapply gate_beta_total; eauto using winter_tables.
Qed.

Lemma types_lt warm c : In c (winter_types warm) -> (c < 6)%nat.
Proof. destruct warm; simpl; lia. Qed.

(** With the fields documented as required it returns scores, of shape
    (2,) or (4,) + shape of dz. *)
Theorem C40_total ut w method (a : fields xr) tf warm bd :
  scores_ok a ut method false -> 0 < tf ->
  exists mu, csu_fhc_winter ut w method a (Fin tf) warm bd
     = Ok (Scores ((if warm then 2 else 4)%nat :: shape (a KDZ)) mu) /\
     length mu = ((if warm then 2 else 4) * size (a KDZ))%nat.
Proof.
  intros Hs Htf. destruct (core_total Winter ut w method a (Fin tf) bd (winter_types warm) Hs) as (rows & E).
  { intros c k Hc Sp HT. apply winter_gate_total; auto. - eapply types_lt; eauto.
    - intros ->. rewrite Sp. auto. }
  rewrite winter_core, E. cbn [bind].
  apply core_scores in E as (L & Lr & _); [|destruct warm; discriminate].
  assert (Lc : length (concat rows) = ((if warm then 2 else 4) * size (a KDZ))%nat).
  { rewrite (concat_length (size (a KDZ))) by auto. rewrite L. now destruct warm. }
  assert (P : prod (shape (a KDZ)) = size (a KDZ)).
  { destruct Hs as (_ & Hok & _). unfold field_ok, shape, size, arr_ok in *. destruct (a KDZ); auto. }
  assert (T : length (winter_types warm) = (if warm then 2 else 4)%nat) by now destruct warm.
  rewrite P, T, Lc, Nat.eqb_refl. cbn [negb]. eauto.
Qed.

(** ** Scores, gate by gate *)
Lemma winter_scores (w : key -> nat -> xr) ut method (a : fields xr) tf warm bd sh mu :
  csu_fhc_winter ut w method a tf warm bd = Ok (Scores sh mu) ->
  length mu = ((if warm then 2 else 4) * size (a KDZ))%nat /\
  forall j c i, nth_error (winter_types warm) j = Some c -> (i < size (a KDZ))%nat ->
   exists y, nth_error mu (j * size (a KDZ) + i) = Some y /\
    core_gate Winter (fun k => supplied (a k)) ut w method tf bd
        (fun k => option_map f32 (at_gate (a k) i)) c = Ok y.
Proof.
  rewrite winter_core. intro E. apply bind_ok in E as (rows & Er & E).
  destruct (negb _); [discriminate|]. injection E as <- <-.
  apply core_scores in Er as (L & Lr & G); [|destruct warm; discriminate].
  split; auto. rewrite (concat_length (size (a KDZ))) by auto. rewrite L. now destruct warm.
Qed.

Lemma split_index n sz j : (j < n * sz)%nat -> exists c i, (c < n)%nat /\ (i < sz)%nat /\ j = (c * sz + i)%nat.
Proof.
  intro H. assert (sz <> 0)%nat by lia. exists (j / sz)%nat, (j mod sz)%nat.
  split; [apply Nat.div_lt_upper_bound; lia|]. split; [now apply Nat.mod_upper_bound|].
  rewrite (Nat.div_mod j sz) at 1 by auto. lia.
Qed.

(** if every gate score is NaN then so is the whole array *)
Lemma all_nan (warm : bool) (a : fields xr) (mu : list xr) :
  length mu = ((if warm then 2 else 4) * size (a KDZ))%nat ->
  (forall j c i, nth_error (winter_types warm) j = Some c -> (i < size (a KDZ))%nat ->
     nth_error mu (j * size (a KDZ) + i) = Some NaN) -> Forall (fun y => y = NaN) mu.
Proof.
  intros L G. apply Forall_forall. intros y Hy. apply In_nth_error in Hy as (j & Hj).
  pose proof (nth_error_lt _ _ Hj) as Hlt. rewrite L in Hlt.
  apply split_index in Hlt as (c & i & Hc & Hi & ->).
  destruct (nth_error_map_some (winter_types warm) (i:=c)) as (c' & Hc'); [destruct warm; simpl; lia|].
  rewrite (G _ _ _ Hc' Hi) in Hj. congruence.
Qed.

(** ** C39: a rho or LDR field makes every score NaN, whatever the fields,
    weights, temperature options and band. *)
Theorem C39_all_nan (w : key -> nat -> xr) ut method (a : fields xr) tf warm bd sh mu k :
  csu_fhc_winter ut w method a tf warm bd = Ok (Scores sh mu) -> sizes_match a ->
  k = KRH \/ k = KLD -> supplied (a k) = true -> Forall (fun y => y = NaN) mu.
Proof.
  intros E Hsz K Sp. apply winter_scores in E as (L & G). apply (all_nan warm a); auto.
  intros j c i Hc Hi. destruct (G j c i Hc Hi) as (y & -> & Ey). apply f_equal.
  assert (c < 6)%nat by (eapply types_lt, nth_error_In; eauto).
  unfold core_gate in Ey. destruct (varlist method) as [vl|] eqn:Evl; [|discriminate]. cbv zeta in Ey.
  set (ut' := if supplied (a KT) then ut else false) in *.
  assert (I : In k vl).
  { destruct (varlist_cases _ _ Evl) as [(_ & ->)|(_ & _ & ->)]; destruct K as [-> | ->]; simpl; auto 10. }
  assert (exists x, option_map f32 (at_gate (a k) i) = Some x) as (x & Gx).
  { specialize (Hsz k Sp). rewrite <- Hsz in Hi. unfold at_gate, size, supplied in *.
    destruct (a k); [discriminate| |].
    - assert (i = 0%nat) as -> by lia. simpl. eauto.
    - destruct (nth_error_map_some (adata a0) (i:=i)) as (x & Hx); auto. rewrite Hx. simpl. eauto. }
  assert (C : forall v t, gate_calc v (fun k => w k c) (get_sets Winter ut' tf bd) vl
     (weight_sum v (fun k => w k c) vl) c (fun k => option_map f32 (at_gate (a k) i)) = Ok t -> t = NaN).
  { intros v t Et. apply bind_ok in Et as (rows & Er & Et). apply mapM_inv in Er.
    destruct (Forall2_in _ _ _ (k, x) Er) as (z & Iz & Ez).
    { apply (in_flat_g (fun k => option_map f32 (at_gate (a k) i))); auto. }
    cbv beta iota in Ez. rewrite nan_gate in Ez by auto. cbn [bind] in Ez.
    rewrite fmul_nan_r in Ez. injection Ez as <-. eapply gsum_nan; eauto. }
  assert (Pol : get_pol_flag (fun k => supplied (a k)) = true).
  { rewrite any_pol_flag. apply existsb_exists. exists k. split; auto. destruct K as [-> | ->]; simpl; auto. }
  unfold gate_row in Ey. rewrite Pol in Ey. destruct (contains "hybrid" method).
  - apply bind_ok in Ey as (t & Et & Ey). apply C in Et as ->. destruct ut'.
    + apply bind_ok in Ey as (b & _ & Ey). apply bind_ok in Ey as (z & _ & Ey).
      rewrite ?fnp_xr, ?f32_xr, !fmul_nan_l in Ey. congruence.
    + apply bind_ok in Ey as (z & _ & Ey). rewrite ?fnp_xr, ?f32_xr, !fmul_nan_l in Ey. congruence.
  - now apply C in Ey.
Qed.

(** ... hence np.argmax, as the docstring recommends, gives the first class
    everywhere. *)
Corollary C39_argmax (w : key -> nat -> xr) ut method (a : fields xr) tf warm bd sh mu k :
  csu_fhc_winter ut w method a tf warm bd = Ok (Scores sh mu) -> sizes_match a ->
  k = KRH \/ k = KLD -> supplied (a k) = true ->
  argmax0 (if warm then 2 else 4) (size (a KDZ)) mu = Ok (repeat 0%nat (size (a KDZ))).
Proof.
  intros E Hsz K Sp. pose proof (C39_all_nan _ _ _ _ _ _ _ _ _ _ E Hsz K Sp) as A.
  apply winter_scores in E as (L & _). rewrite Forall_forall in A.
  set (n := (if warm then 2 else 4)%nat) in *.
  assert (Hn : n <> 0%nat) by (unfold n; destruct warm; discriminate).
  destruct (argmax0_ok n (size (a KDZ)) mu Hn) as (h & -> & Lh & G). f_equal.
  apply nth_error_ext. intro i.
  destruct (Nat.lt_ge_cases i (size (a KDZ))) as [Hi|Hi].
  - destruct (G i Hi) as (q & Hq & _ & Ea). rewrite Hq. symmetry.
    rewrite nth_error_repeat by auto.
    destruct n as [|n']; [contradiction|]. unfold column in Ea. simpl map in Ea.
    rewrite np_argmax_nan0 in Ea. { congruence. }
    assert (N : nth i mu NaN = NaN).
    { destruct (nth_in_or_default i mu NaN) as [I|I]; auto. }
    rewrite Nat.add_0_l || idtac. change (@fnan xr _) with NaN. rewrite N. reflexivity.
  - rewrite (proj2 (nth_error_None _ _)) by lia. symmetry. apply nth_error_None.
    rewrite repeat_length. lia.
Qed.

(** ** C40: values without rho and LDR *)
Lemma core_gate_linear s n ut (W : key -> nat -> R) (a : fields xr) tf bd c i (x : key -> xr) :
  scores_ok a ut "linear" false -> 0 < tf -> (c < n)%nat ->
  (forall k, used a ut k = true -> wf_table n (csv s bd k) = true) ->
  ksum all_keys (used a ut) (fun k => W k c) <> 0 ->
  (forall k, used a ut k = true -> at_gate (a k) i = Some (x k) /\ x k <> NaN) ->
  core_gate s (fun k => supplied (a k)) ut (fun k c => Fin (W k c)) "linear" (Fin tf) bd
     (fun k => option_map f32 (at_gate (a k) i)) c
  = Ok (Fin (linear_score (used a ut) (fun k => W k c) (fun k => membership s bd tf c k (x k)))).
Proof.
  intros (Hdz & Hok & Hsz & Hm) Htf Hc Hwf Hw Hx. unfold core_gate.
  change (varlist "linear") with (Some all_keys). cbv zeta. unfold gate_row.
  change (contains "hybrid" "linear") with false. cbv iota.
  rewrite (ws_ext _ (used a ut)), weight_sum_fin by (intro; apply used_v).
  rewrite (calc_ext _ (used a ut)) by (intro; apply used_v).
  destruct Hm as [|(_ & Hp & HT)]; [discriminate|].
  set (ut' := if supplied (a KT) then ut else false).
  unfold linear_score. apply (gate_calc_val _ (fun k => W k c) _ _ _ _ x).
  - intros k Hin. destruct (used a ut k) eqn:E.
    + destruct (Hx k E) as (-> & N). split; auto. apply (beta_at _ _ _ n); auto.
      intros ->. unfold ut'. simpl in E. destruct (supplied (a KT)); auto; discriminate.
    + rewrite at_none; auto. destruct k; try exact E.
      simpl in E. destruct (supplied (a KT)); auto. destruct (HT eq_refl) as [-> |]; discriminate.
  - apply existsb_exists. exists KDZ. split; [|exact Hdz]. unfold all_keys. simpl. auto 10.
  - exact Hw.
Qed.

(** Any weights *)
Theorem C40_exact ut (W : key -> nat -> R) (a : fields xr) tf warm bd sh mu :
  scores_ok a ut "linear" false -> supplied (a KRH) = false -> supplied (a KLD) = false -> 0 < tf ->
  csu_fhc_winter ut (fun k c => Fin (W k c)) "linear" a (Fin tf) warm bd = Ok (Scores sh mu) ->
  forall j c i x, nth_error (winter_types warm) j = Some c -> (i < size (a KDZ))%nat ->
    ksum all_keys (used a ut) (fun k => W k c) <> 0 ->
    (forall k, used a ut k = true -> at_gate (a k) i = Some (x k) /\ x k <> NaN) ->
    nth_error mu (j * size (a KDZ) + i)
    = Some (Fin (linear_score (used a ut) (fun k => W k c) (fun k => membership Winter bd tf c k (x k)))).
Proof.
  intros Hs HR HL Htf E j c i x Hj Hi Hw Hx. apply winter_scores in E as (L & G).
  destruct (G j c i Hj Hi) as (y & -> & Ey).
  rewrite (core_gate_linear Winter 6 ut W a tf bd c i x) in Ey; auto.
  - congruence.
  - eapply types_lt, nth_error_In; eauto.
  - intros k Hk. apply winter_tables. destruct k; simpl in Hk |- *; auto 10; congruence.
Qed.

(** the default weights csu_fhc_winter.py:19-24 as numbers *)
Definition winter_W (k : key) (c : nat) : R :=
  match k with
  | KDZ => if (c <? 4)%nat then 5 else 10
  | KDR => if (c <? 3)%nat then 9 else if (c =? 3)%nat then 10 else 0
  | KKD => if (c <? 3)%nat then 11 else if (c =? 3)%nat then 10 else 0
  | KRH | KLD => 0
  | KT => if (c <? 4)%nat then 0 else 20
  end.
Lemma winter_weights_W k c : @winter_weights xr _ k c = Fin (winter_W k c).
Proof.
  unfold winter_weights, winter_W. destruct k; repeat destruct (_ <? _)%nat; repeat destruct (_ =? _)%nat;
    rewrite lit_int; reflexivity.
Qed.
Lemma winter_W_nonneg k c : 0 <= winter_W k c.
Proof. unfold winter_W. destruct k; repeat destruct (_ <? _)%nat; repeat destruct (_ =? _)%nat; lra. Qed.
Lemma winter_sum_pos (u : key -> bool) c : u KDZ = true -> 0 < ksum all_keys u (fun k => winter_W k c).
Proof.
  intro Z. unfold ksum, all_keys. cbn [fold_right]. rewrite Z.
  pose proof (winter_W_nonneg KDR c). pose proof (winter_W_nonneg KKD c).
  pose proof (winter_W_nonneg KRH c). pose proof (winter_W_nonneg KLD c). pose proof (winter_W_nonneg KT c).
  assert (0 < winter_W KDZ c) by (unfold winter_W; destruct (_ <? _)%nat; lra).
  cbv beta. destruct (u KDR), (u KKD), (u KRH), (u KLD), (u KT); lra.
Qed.

(** The default weights: every score is a number in [0, 1]. *)
Theorem C40_range ut (a : fields xr) tf warm bd sh mu :
  scores_ok a ut "linear" false -> supplied (a KRH) = false -> supplied (a KLD) = false -> 0 < tf ->
  csu_fhc_winter ut winter_weights "linear" a (Fin tf) warm bd = Ok (Scores sh mu) ->
  forall j c i x, nth_error (winter_types warm) j = Some c -> (i < size (a KDZ))%nat ->
    (forall k, used a ut k = true -> at_gate (a k) i = Some (x k) /\ x k <> NaN) ->
    exists s, nth_error mu (j * size (a KDZ) + i) = Some (Fin s) /\ 0 <= s <= 1 /\
      s = linear_score (used a ut) (fun k => winter_W k c) (fun k => membership Winter bd tf c k (x k)).
Proof.
  intros Hs HR HL Htf E j c i x Hj Hi Hx.
  assert (Z : used a ut KDZ = true) by apply Hs.
  eexists. split; [|split; [|reflexivity]].
  - eapply (C40_exact ut winter_W a tf warm bd sh mu); eauto.
    + rewrite <- E. unfold csu_fhc_winter.
      assert (WE : forall c k, @winter_weights xr _ k c = Fin (winter_W k c)) by (intros; apply winter_weights_W).
      destruct (negb _); auto. destruct (varlist _) as [vl|]; auto. cbv zeta.
      assert (CE : forall v sets c, calculate_test v (fun k => Fin (winter_W k c)) (radar_data a) sets vl
           (weight_sum v (fun k => Fin (winter_W k c)) vl) c (dz_size a)
         = calculate_test v (fun k => winter_weights k c) (radar_data a) sets vl
           (weight_sum v (fun k => winter_weights k c) vl) c (dz_size a)).
      { intros v sets c0.
        assert (S : weight_sum v (fun k => Fin (winter_W k c0)) vl = weight_sum v (fun k => winter_weights k c0) vl)
          by (unfold weight_sum; apply f_equal, map_ext; intro; now rewrite WE).
        rewrite S. unfold calculate_test.
        match goal with |- bind ?m _ = bind ?m' _ => assert (M : m = m') end; [|now rewrite M].
        apply mapM_ext. intros (k, xx) _. now rewrite WE. }
      match goal with |- bind ?m _ = bind ?m' _ => assert (M : m = m') end; [|now rewrite M].
      assert (P : used_vars a (if fhc_vars a KT then ut else false) KDZ = true) by exact Z. rewrite P.
      destruct Hs as (_ & _ & _ & Hm).
      assert (Hm' : contains "hybrid" "linear" = true \/
        (contains "linear" "linear" = true /\ get_pol_flag (fhc_vars a) = true)).
      { right. split; auto. destruct Hm as [|(_ & Hp & _)]; [discriminate|]. rewrite any_pol_flag. exact Hp. }
      rewrite !get_test_list_map by auto. apply mapM_ext. intros c0 _. unfold one_row. now rewrite CE.
    + pose proof (winter_sum_pos (used a ut) c Z). lra.
  - apply wmean_range.
    + intros; apply winter_W_nonneg.
    + intro; apply membership_range.
    + now apply winter_sum_pos.
Qed.

(** Non-vacuity: two gates with dz, zdr, kdp and T *)
Definition ex_wfields {F} (l : key -> list F) (k : key) : pyarg F :=
  match k with KLD | KRH => ANone | _ => AArr (mkarr DFloat [2%nat] (l k)) end.
Example C40_hypotheses (l : key -> list xr) : (forall k, length (l k) = 2%nat) ->
  scores_ok (ex_wfields l) true "linear" false /\
  supplied (ex_wfields l KRH) = false /\ supplied (ex_wfields l KLD) = false.
Proof.
  intro L. split; auto. split; auto. split. { unfold field_ok, ex_wfields, arr_ok. simpl. now rewrite L. }
  split. { intros k Hk. destruct k; unfold size, ex_wfields; simpl; rewrite ?L; auto; discriminate. }
  right. repeat split; auto.
Qed.
Definition ex_wvals (k : key) : list (option Q) :=
  match k with KDZ => [Some 10; Some 25] | KDR => [Some 0.2; Some 1] | KKD => [Some 0.1; Some 0.2]
  | KRH | KLD => [Some 0.98; Some 0.98] | KT => [Some 1; Some 5] end%Q.
Example C40_run : match csu_fhc_winter true winter_weights "linear" (ex_wfields ex_wvals) (Some 1%Q) true BC with
  | Ok (Scores sh mu) => sh = [2; 2]%nat /\ length mu = 4%nat /\ ~ In None mu
  | _ => False end.
Proof. vm_compute. repeat split. intros H. decompose [or] H; discriminate || contradiction. Qed.
Example C39_run : csu_fhc_winter true winter_weights "linear"
    (fun k => match k with KLD => ANone | _ => AArr (mkarr DFloat [2%nat] (ex_wvals k)) end) (Some 1%Q) true BC
  = Ok (Scores [2; 2]%nat [None; None; None; None]).
Proof. vm_compute. reflexivity. Qed.

(** ** C63: the 'hybrid' method cannot score the warm classes: with the default
    weights and any polarimetric field every warm score is 0/0. *)
Lemma zero_or_nan_sum (l : list xr) r : r = Fin 0 \/ r = NaN -> Forall (fun y => y = Fin 0 \/ y = NaN) l ->
  fold_left fadd l r = Fin 0 \/ fold_left fadd l r = NaN.
Proof.
  revert r; induction l as [|x l IH]; intros r Hr Hl; auto. inversion Hl; subst. simpl. apply IH; auto.
  destruct Hr as [-> | ->]; [|now right].
  match goal with H : x = _ \/ _ |- _ => destruct H as [-> | ->] end; [left|now right].
  change (Fin (0 + 0) = Fin 0). f_equal. lra.
Qed.

Lemma ksum_0 vl u : ksum vl u (fun _ => 0) = 0.
Proof. induction vl as [|k vl IH]; simpl; [lra|]. rewrite IH. destruct (u k); lra. Qed.

Theorem C63_warm_hybrid_nan ut method (a : fields xr) tf bd sh mu :
  csu_fhc_winter ut winter_weights method a (Fin tf) true bd = Ok (Scores sh mu) ->
  contains "hybrid" method = true -> any_pol (fun k => supplied (a k)) = true -> 0 < tf ->
  Forall (fun y => y = NaN) mu.
Proof.
  intros E Eh Hp Htf. apply winter_scores in E as (L & G). apply (all_nan true a); auto.
  intros j c i Hc Hi. destruct (G j c i Hc Hi) as (y & -> & Ey). apply f_equal.
  assert (C45 : c = 4%nat \/ c = 5%nat) by (apply nth_error_In in Hc; simpl in Hc; lia).
  unfold core_gate, varlist in Ey. rewrite Eh in Ey. cbv zeta in Ey. unfold gate_row in Ey.
  rewrite any_pol_flag, Hp in Ey.
  change [KDR; KKD; KRH; KLD] with pol_keys in Ey.
  apply bind_ok in Ey as (t & Et & Ey).
  assert (t = NaN) as ->.
  { set (v := fun k : key => match k with KT => _ | _ => supplied (a k) end) in Et.
    assert (W0 : forall k, In k pol_keys -> @winter_weights xr _ k c = Fin 0).
    { intros k Hk. rewrite winter_weights_W. unfold winter_W.
      destruct C45 as [-> | ->]; simpl in Hk; decompose [or] Hk; subst; try contradiction; reflexivity. }
    assert (S0 : weight_sum v (fun k => winter_weights k c) pol_keys = Fin 0).
    { transitivity (weight_sum v (fun k => Fin 0) pol_keys).
      - unfold weight_sum. apply f_equal, map_ext_in. intros k Hk. now rewrite W0.
      - rewrite (weight_sum_fin v (fun _ => 0)). f_equal. apply ksum_0. }
    rewrite S0 in Et. apply bind_ok in Et as (rows & Er & Et).
    assert (Z : Forall (fun y => y = Fin 0 \/ y = NaN) rows).
    { apply mapM_inv in Er. apply Forall_forall. intros z Hz.
      assert (X : exists kx, In kx (flat_map (fun k => match option_map f32 (at_gate (a k) i) with
          Some x => [(k, x)] | None => [] end) pol_keys) /\
        (let '(k, x) := kx in bt <- gate_beta (get_sets Winter (if supplied (a KT) then ut else false) (Fin tf) bd k) c x;;
           Ok (fmul (fmul (flag (v k)) (winter_weights k c)) bt)) = Ok z).
      { clear -Er Hz. induction Er; [contradiction|]. destruct Hz as [<-|Hz].
        - exists x. split; [now left|]. exact H.
        - destruct (IHEr Hz) as (kx & I & E). exists kx. split; [now right|exact E]. }
      destruct X as ((k, x) & I & E0). apply in_flat_map in I as (k' & Hk' & I).
      destruct (option_map f32 (at_gate (a k') i)) as [x'|]; [|contradiction].
      destruct I as [I|[]]. injection I as -> ->.
      apply bind_ok in E0 as (bt & Eb & E0). rewrite W0 in E0 by auto. rewrite flag_mul in E0.
      assert (Hk : In k [KDR; KKD; KRH; KLD]) by exact Hk'.
      assert (B : (exists r, bt = Fin r) \/ bt = NaN).
      { assert (K : (k = KRH \/ k = KLD) \/ In k [KDZ; KDR; KKD; KT]) by (destruct k; simpl; auto 10).
        destruct K as [K|K].
        - rewrite nan_gate in Eb by (auto; destruct C45; lia). right. congruence.
        - rewrite (gate_beta_table Winter bd k 6) in Eb; auto using winter_tables; [|destruct C45; lia|].
          + destruct (params Winter bd tf k c) as ((m, aa), b). injection Eb as <-.
            destruct x; simpl; eauto.
          + intros ->. simpl in Hk. decompose [or] Hk; discriminate || contradiction. }
      assert (z = fmul (Fin (if v k then 0 else 0)) bt) as -> by congruence. destruct B as [(r & ->)| ->]; [left|right; apply fmul_nan_r].
      rewrite fmul_fin. f_equal. destruct (v k); lra. }
    destruct rows as [|r rs]; [discriminate|]. rewrite gsum_xr in Et. inversion Z; subst.
    destruct (zero_or_nan_sum rs r) as [S | S]; auto; rewrite S in Et;
      apply (f_equal (fun r => match r with Ok z => z | _ => t end)) in Et; rewrite <- Et.
    - change (xdiv (Fin 0) (Fin 0) = NaN). simpl. destruct Req_EM_T; [|lra].
      unfold xinf. repeat destruct Rlt_dec; try lra. reflexivity.
    - reflexivity. }
  destruct (if supplied (a KT) then ut else false).
  - apply bind_ok in Ey as (b & _ & Ey). apply bind_ok in Ey as (z & _ & Ey).
    rewrite ?fnp_xr, ?f32_xr, !fmul_nan_l in Ey. congruence.
  - apply bind_ok in Ey as (z & _ & Ey). rewrite ?fnp_xr, ?f32_xr, !fmul_nan_l in Ey. congruence.
Qed.

Example C63_run : csu_fhc_winter true winter_weights "hybrid" (ex_wfields ex_wvals) (Some 1%Q) true BC
  = Ok (Scores [2; 2]%nat [None; None; None; None]).
Proof. vm_compute. reflexivity. Qed.

(** ** C64: the melting-layer scores (csu_fhc_cold_newml1) *)
Lemma ml1_scores (w : key -> nat -> xr) ut method (a : fields xr) n tf bd sh mu :
  csu_fhc_cold_newml1 ut w method a n tf bd = Ok (Scores sh mu) ->
  sh = n :: shape (a KDZ) /\ length mu = (2 * size (a KDZ))%nat /\
  forall c i, (c < 2)%nat -> (i < size (a KDZ))%nat ->
   exists y, nth_error mu (c * size (a KDZ) + i) = Some y /\
    core_gate Melt (fun k => supplied (a k)) ut w method tf bd
        (fun k => option_map f32 (at_gate (a k) i)) c = Ok y.
Proof.
  rewrite ml1_core. intro E. apply bind_ok in E as (rows & Er & E).
  destruct (negb _); [discriminate|]. injection E as <- <-.
  apply core_scores in Er as (L & Lr & G); [|discriminate].
  split; auto. split.
  - rewrite (concat_length (size (a KDZ))) by auto. now rewrite L.
  - intros c i Hc Hi. apply (G c c i); auto using seq_nth_error.
Qed.

Theorem C64_total ut w method (a : fields xr) tf bd :
  scores_ok a ut method false -> 0 < tf ->
  exists mu, csu_fhc_cold_newml1 ut w method a 2 (Fin tf) bd
     = Ok (Scores (2%nat :: shape (a KDZ)) mu) /\ length mu = (2 * size (a KDZ))%nat.
Proof.
  intros Hs Htf. destruct (core_total Melt ut w method a (Fin tf) bd (seq 0 2) Hs) as (rows & E).
  { intros c k Hc Sp HT. apply in_seq in Hc. eapply gate_beta_total; eauto using melt_tables; [lia|].
    intros ->. rewrite Sp. auto. }
  rewrite ml1_core, E. cbn [bind].
  apply core_scores in E as (L & Lr & _); [|discriminate].
  assert (Lc : length (concat rows) = (2 * size (a KDZ))%nat).
  { rewrite (concat_length (size (a KDZ))) by auto. now rewrite L. }
  assert (P : prod (shape (a KDZ)) = size (a KDZ)).
  { destruct Hs as (_ & Hok & _). unfold field_ok, shape, size, arr_ok in *. destruct (a KDZ); auto. }
  rewrite P, Lc, Nat.eqb_refl. cbn [negb]. eauto.
Qed.

(** method 'linear' (what melting_layer uses), any non-negative weights: the
    weighted mean of the memberships in the two-class tables, in [0, 1] *)
Theorem C64_exact ut (W : key -> nat -> R) (a : fields xr) n tf bd sh mu :
  scores_ok a ut "linear" false -> 0 < tf ->
  csu_fhc_cold_newml1 ut (fun k c => Fin (W k c)) "linear" a n (Fin tf) bd = Ok (Scores sh mu) ->
  forall c i x, (c < 2)%nat -> (i < size (a KDZ))%nat ->
    ksum all_keys (used a ut) (fun k => W k c) <> 0 ->
    (forall k, used a ut k = true -> at_gate (a k) i = Some (x k) /\ x k <> NaN) ->
    nth_error mu (c * size (a KDZ) + i)
    = Some (Fin (linear_score (used a ut) (fun k => W k c) (fun k => membership Melt bd tf c k (x k)))) /\
    ((forall k, 0 <= W k c) -> 0 < ksum all_keys (used a ut) (fun k => W k c) ->
     0 <= linear_score (used a ut) (fun k => W k c) (fun k => membership Melt bd tf c k (x k)) <= 1).
Proof.
  intros Hs Htf E c i x Hc Hi Hw Hx. apply ml1_scores in E as (_ & L & G).
  destruct (G c i Hc Hi) as (y & -> & Ey). split.
  - rewrite (core_gate_linear Melt 2 ut W a tf bd c i x) in Ey; auto; [congruence|].
    intros k _. apply melt_tables.
  - intros HW Hs'. apply wmean_range; auto. intro; apply membership_range.
Qed.

(** n_types other than 2 raises *)
Theorem C64_n_types ut w method (a : fields xr) n tf bd :
  scores_ok a ut method false -> 0 < tf -> size (a KDZ) <> 0%nat -> n <> 2%nat ->
  csu_fhc_cold_newml1 ut w method a n (Fin tf) bd = Raise ValueError.
Proof.
  intros Hs Htf Hz Hn. destruct (core_total Melt ut w method a (Fin tf) bd (seq 0 2) Hs) as (rows & E).
  { intros c k Hc Sp HT. apply in_seq in Hc. eapply gate_beta_total; eauto using melt_tables; [lia|].
    intros ->. rewrite Sp. auto. }
  rewrite ml1_core, E. cbn [bind].
  apply core_scores in E as (L & Lr & _); [|discriminate].
  assert (Lc : length (concat rows) = (2 * size (a KDZ))%nat).
  { rewrite (concat_length (size (a KDZ))) by auto. now rewrite L. }
  assert (P : prod (shape (a KDZ)) = size (a KDZ)).
  { destruct Hs as (_ & Hok & _). unfold field_ok, shape, size, arr_ok in *. destruct (a KDZ); auto. }
  rewrite P, Lc. destruct (Nat.eqb_spec (2 * size (a KDZ)) (n * size (a KDZ))) as [E|]; [|reflexivity].
  exfalso. apply Hn. symmetry. now apply Nat.mul_cancel_r in E.
Qed.
