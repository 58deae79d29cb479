(** * C32, C35, C38: the values of csu_fhc_summer's scores *)
From Coq Require Import Reals Lra Lia Qreals Arith.
From Verif Require Import Base.Num Base.ListFacts Base.XReal Base.XTac Base.Pointwise Base.XArith Base.QOps.
From Verif Require Import Model.Tables Model.Beta Model.TTraps Model.Hid.
From Verif Require Import Spec.HidSpec Spec.TrapSpec.
From Verif Require Import Proofs.TrapProofs Proofs.HidProofs Proofs.BetaProofs Proofs.SummerProofs Proofs.SummerReal.
From Verif Require Import Properties.P06_Traps Properties.P07_Beta.
Open Scope R_scope.

(** weights are non-negative and the ones that take part are not all zero *)
Definition weights_ok (u : key -> bool) (method : string) (W : key -> R) : Prop :=
  (forall k, 0 <= W k) /\
  (if contains "hybrid" method then any_pol u = true -> 0 < ksum pol_keys u W
   else 0 < ksum all_keys u W).

(** the score documented for [method] *)
Definition method_score (method : string) (u : key -> bool) (W B : key -> R) : R :=
  if contains "hybrid" method then hybrid_score u W B else linear_score u W B.

Lemma used_v (a : fields xr) ut k :
  (match k with KT => (supplied (a KT) && (if supplied (a KT) then ut else false))%bool | _ => supplied (a k) end)
  = used a ut k.
Proof. destruct k; auto. simpl. destruct (supplied (a KT)); auto. Qed.

Lemma ws_ext (v v' : key -> bool) (w : key -> xr) vl : (forall k, v k = v' k) -> weight_sum v w vl = weight_sum v' w vl.
Proof. intro E. unfold weight_sum. apply f_equal, map_ext. intro; now rewrite E. Qed.

Lemma calc_ext (v v' : key -> bool) (w : key -> xr) sets vl ws c g : (forall k, v k = v' k) ->
  gate_calc v w sets vl ws c g = gate_calc v' w sets vl ws c g.
Proof.
  intro E. unfold gate_calc. match goal with |- bind ?m _ = bind ?m' _ => assert (M : m = m') end.
  { apply mapM_ext. intros (k, x) _. now rewrite E. } now rewrite M.
Qed.
Lemma calc_trap_ext (v v' : key -> bool) (w : key -> xr) sets vl ws c g : (forall k, v k = v' k) ->
  gate_calc_trap v w sets vl ws c g = gate_calc_trap v' w sets vl ws c g.
Proof.
  intro E. unfold gate_calc_trap. match goal with |- bind ?m _ = bind ?m' _ => assert (M : m = m') end.
  { apply mapM_ext. intros (k, x) _. destruct k; now rewrite ?E. } now rewrite M.
Qed.

Lemma any_pol_ext u u' : (forall k, In k pol_keys -> u k = u' k) -> any_pol u = any_pol u'.
Proof.
  intro E. unfold any_pol, pol_keys in *. simpl in *.
  rewrite (E KDR), (E KKD), (E KRH), (E KLD) by auto 10. reflexivity.
Qed.

Lemma beta_at s bd k n ut tf c x : wf_table n (csv s bd k) = true -> (c < n)%nat -> 0 < tf ->
  (k = KT -> ut = true) -> x <> NaN ->
  gate_beta (get_sets s ut (Fin tf) bd k) c x = Ok (Fin (membership s bd tf c k x)).
Proof.
  intros. rewrite (gate_beta_table s bd k n) by auto. unfold membership.
  destruct (params s bd tf k c) as ((m, a), b). now rewrite beta_ext_val.
Qed.

Lemma at_none {F} (p : pyarg F) i : supplied p = false -> at_gate p i = None.
Proof. destruct p; simpl; auto; discriminate. Qed.

(** ** C32 *)
Lemma summer_gate_value ut W method (a : fields xr) tf bd c i (x : key -> xr) :
  scores_ok a ut method false -> 0 < tf -> weights_ok (used a ut) method W -> (c < 10)%nat ->
  (forall k, used a ut k = true -> at_gate (a k) i = Some (x k) /\ x k <> NaN) ->
  summer_gate (fun k => supplied (a k)) ut (fun k => Fin (W k)) method false (Fin tf) bd
     (fun k => option_map f32 (at_gate (a k) i)) c
  = Ok (Fin (method_score method (used a ut) W (fun k => membership Summer bd tf c k (x k)))).
Proof.
  intros (Hdz & Hok & Hsz & Hm) Htf (HW & Hw) Hc Hx. unfold summer_gate.
  destruct (varlist method) as [vl|] eqn:Evl.
  2:{ exfalso. unfold varlist in Evl. destruct Hm as [Hm|(Hm & _)]; rewrite Hm in Evl;
      destruct (contains "hybrid" method); discriminate. }
  cbv zeta. rewrite any_pol_flag. unfold method_score.
  set (v := fun k : key => match k with KT => _ | _ => supplied (a k) end).
  set (ut' := if supplied (a KT) then ut else false) in *.
  assert (V : forall k, v k = used a ut k) by (intro; apply used_v).
  set (g := fun k => option_map f32 (at_gate (a k) i)).
  change (option_map f32 (at_gate (a KDZ) i)) with (g KDZ).
  change (option_map f32 (at_gate (a KT) i)) with (g KT).
  assert (Ut : ut' = used a ut KT) by (unfold ut'; simpl; destruct (supplied (a KT)); auto).
  assert (G : forall k, used a ut k = true -> g k = Some (x k) /\ x k <> NaN).
  { intros k Hk. destruct (Hx k Hk) as (E & N). unfold g. rewrite E. auto. }
  assert (B : forall k, used a ut k = true ->
     gate_beta (get_sets Summer ut' (Fin tf) bd k) c (x k) = Ok (Fin (membership Summer bd tf c k (x k)))).
  { intros k Hk. apply (beta_at _ _ _ 10); auto using summer_tables.
    - intros ->. now rewrite Ut.
    - now apply G. }
  assert (P : any_pol (fun k => supplied (a k)) = any_pol (used a ut)).
  { apply any_pol_ext. intros k Hk. simpl in Hk. decompose [or] Hk; subst; auto; contradiction. }
  assert (Z : used a ut KDZ = true) by exact Hdz.
  rewrite (ws_ext v (used a ut)) by auto. rewrite weight_sum_fin.
  rewrite P. pose proof (varlist_cases _ _ Evl) as Cs.
  unfold gate_row. destruct Cs as [(Eh & ->)|(Eh & El & ->)]; rewrite Eh in *.
  - (* hybrid *)
    unfold hybrid_score.
    assert (C : any_pol (used a ut) = true ->
      gate_calc v (fun k => Fin (W k)) (get_sets Summer ut' (Fin tf) bd) pol_keys
        (Fin (ksum pol_keys (used a ut) W)) c g
      = Ok (Fin (wmean pol_keys (used a ut) W (fun k => membership Summer bd tf c k (x k))))).
    { intro Ep. rewrite (calc_ext v (used a ut)) by auto. apply (gate_calc_val _ _ _ _ _ _ x).
      - intros k Hin. destruct (used a ut k) eqn:E; [split; [now apply G|now apply B]|].
        unfold g. simpl in Hin. rewrite at_none; auto.
        decompose [or] Hin; subst; try contradiction; exact E.
      - exact Ep.
      - specialize (Hw Ep). lra. }
    assert (GZ : g KDZ = Some (x KDZ)) by now apply G. rewrite GZ, B by auto.
    destruct (any_pol (used a ut)) eqn:Ep.
    + rewrite C by auto. cbn [bind]. destruct (used a ut KT) eqn:ET.
      * rewrite (proj1 (G KT ET)), (B KT ET), Ut. cbn [bind]. rewrite ?fnp_xr, ?f32_xr, !fmul_fin. reflexivity.
      * rewrite Ut. cbn [bind]. rewrite ?fnp_xr, ?f32_xr, !fmul_fin. do 2 f_equal. lra.
    + destruct (used a ut KT) eqn:ET.
      * rewrite (proj1 (G KT ET)), (B KT ET), Ut. cbn [bind]. rewrite ?fnp_xr, ?f32_xr, !fmul_fin. do 2 f_equal. lra.
      * rewrite Ut. do 2 f_equal. lra.
  - (* linear *)
    destruct Hm as [|(_ & Hp & HT)]; [congruence|].
    rewrite (calc_ext v (used a ut)) by auto. unfold linear_score.
    apply (gate_calc_val _ _ _ _ _ _ x).
    + intros k Hin. destruct (used a ut k) eqn:E; [split; [now apply G|now apply B]|].
      unfold g. rewrite at_none; auto. destruct k; try exact E.
      simpl in E. destruct (supplied (a KT)); auto. destruct (HT eq_refl) as [-> |]; discriminate.
    + apply existsb_exists. exists KDZ. split; [|exact Z]. unfold all_keys. simpl. auto 10.
    + lra.
Qed.

(** Every score is the documented weighted mean ("linear") or product
    ("hybrid") of the memberships of the variables that take part, at every
    gate where those variables are numbers. *)
Theorem C32_exact ut W method (a : fields xr) tf bd :
  scores_ok a ut method false -> 0 < tf -> weights_ok (used a ut) method W ->
  exists mu, csu_fhc_summer ut (fun k => Fin (W k)) method a false 10 (Fin tf) bd true
     = Ok (Scores (10%nat :: shape (a KDZ)) mu) /\ length mu = (10 * size (a KDZ))%nat /\
  forall c i x, (c < 10)%nat -> (i < size (a KDZ))%nat ->
    (forall k, used a ut k = true -> at_gate (a k) i = Some (x k) /\ x k <> NaN) ->
    nth_error mu (c * size (a KDZ) + i)
    = Some (Fin (method_score method (used a ut) W (fun k => membership Summer bd tf c k (x k)))).
Proof.
  intros Hs Htf HW. destruct (summer_total ut (fun k => Fin (W k)) method a false tf bd Hs Htf) as (mu & E).
  exists mu. split; auto. apply summer_scores in E as (_ & _ & L & G). split; auto.
  intros c i x Hc Hi Hx. destruct (G c i Hc Hi) as (y & Hy & Ey).
  rewrite (summer_gate_value ut W method a tf bd c i x) in Ey by auto. injection Ey as <-. exact Hy.
Qed.

Lemma method_score_range method u W B : weights_ok u method W ->
  (forall k, 0 <= B k <= 1) -> u KDZ = true -> 0 <= method_score method u W B <= 1.
Proof.
  intros (HW & Hw) HB Hz. unfold method_score. destruct (contains "hybrid" method).
  - unfold hybrid_score.
    assert (A : 0 <= (if any_pol u then wmean pol_keys u W B else 1) <= 1).
    { destruct (any_pol u) eqn:E; [|lra]. apply wmean_range; auto. }
    assert (T : 0 <= (if u KT then B KT else 1) <= 1) by (destruct (u KT); auto; lra).
    specialize (HB KDZ). set (p := if any_pol u then _ else _) in *. set (t := if u KT then _ else _) in *.
    clearbody p t. assert (0 <= p * t <= 1) by nra. nra.
  - apply wmean_range; auto.
Qed.

(** ... hence a number in [0, 1]. *)
Theorem C32_range ut W method (a : fields xr) tf bd sh mu :
  scores_ok a ut method false -> 0 < tf -> weights_ok (used a ut) method W ->
  csu_fhc_summer ut (fun k => Fin (W k)) method a false 10 (Fin tf) bd true = Ok (Scores sh mu) ->
  forall c i, (c < 10)%nat -> (i < size (a KDZ))%nat ->
    (forall k, used a ut k = true -> at_gate (a k) i <> Some NaN) ->
    exists s, nth_error mu (c * size (a KDZ) + i) = Some (Fin s) /\ 0 <= s <= 1.
Proof.
  intros Hs Htf HW E c i Hc Hi Hx.
  destruct (C32_exact ut W method a tf bd Hs Htf HW) as (mu' & E' & L & G).
  rewrite E in E'. injection E' as _ <-.
  pose (x := fun k => match at_gate (a k) i with Some y => y | None => Fin 0 end).
  exists (method_score method (used a ut) W (fun k => membership Summer bd tf c k (x k))). split.
  - apply G; auto. intros k Hk. destruct Hs as (Hdz & Hok & Hsz & _).
    assert (Sp : supplied (a k) = true).
    { destruct k; auto. simpl in Hk. apply andb_true_iff in Hk. tauto. }
    assert (exists y, at_gate (a k) i = Some y) as (y & Ey).
    { specialize (Hsz k Sp). rewrite <- Hsz in Hi. unfold at_gate, size, supplied in *.
      destruct (a k); [discriminate| |].
      - assert (i = 0%nat) as -> by lia. eauto.
      - now apply nth_error_map_some. }
    specialize (Hx k Hk). unfold x. rewrite Ey in *. split; auto. congruence.
  - apply method_score_range; auto. intro; apply membership_range. apply Hs.
Qed.

(** Non-vacuity: two gates, the default weights, hybrid, T used *)
Definition ex_fields {F} (l : key -> list F) (k : key) : pyarg F :=
  match k with KLD => ANone | _ => AArr (mkarr DFloat [2%nat] (l k)) end.
Definition ex_W (k : key) : R :=
  match k with KDZ => 3/2 | KDR => 8/10 | KKD => 1 | KRH => 8/10 | KLD => 1/2 | KT => 4/10 end.

Example C32_hypotheses l method : (forall k, length (l k) = 2%nat) ->
  (method = "hybrid"%string \/ method = "linear"%string) ->
  scores_ok (@ex_fields xr l) true method false /\ weights_ok (used (ex_fields l) true) method ex_W.
Proof.
  intros L M. split.
  - split; auto. split. { unfold field_ok, ex_fields, arr_ok. simpl. now rewrite L. }
    split. { intros k Hk. destruct k; unfold size, ex_fields; simpl; rewrite ?L; auto; discriminate. }
    destruct M as [-> | ->]; [now left|right]. repeat split; auto.
  - split; [intros []; simpl; lra|].
    destruct M as [-> | ->]; simpl; unfold used, ex_fields; simpl; [intros _|]; lra.
Qed.

(** ** C35 *)

(** trapezoid membership of any temperature *)
Definition trap_val (c : nat) (x : xr) : R :=
  match x with
  | Fin t => trap_spec c t
  | PInf => trap_spec c 100 | NInf => trap_spec c (-100)
  | NaN => 0
  end.

Definition no_T := [KDR; KKD; KRH; KLD; KDZ].

(** method 'linear' with trapezoids: [p] says which fields are supplied, [u]
    which take part in the normalisation.  The trapezoid is not weighted. *)
Definition trap_score (p u : key -> bool) (W B : key -> R) (tr : R) : R :=
  (ksum no_T p (fun k => W k * B k) + (if p KT then tr else 0)) / ksum all_keys u W.

Lemma gate_trap_val c x : (c < 10)%nat -> gate_trap c x = Ok (Fin (trap_val c x)).
Proof.
  intro Hc. destruct (C46_values c [x]) as (out & E & L & H1 & H2 & H3 & H4); [lia|].
  unfold gate_trap. rewrite E. cbn [bind]. unfold idx.
  destruct x as [t| | |].
  - now rewrite (H1 0%nat t).
  - now rewrite H3.
  - now rewrite H4.
  - now rewrite H2.
Qed.

Lemma ksum_T p T : ksum all_keys p T = ksum no_T p T + (if p KT then T KT else 0).
Proof. unfold ksum, all_keys, no_T. simpl. destruct (p KT); lra. Qed.

Theorem C35_exact ut W method (a : fields xr) tf bd :
  scores_ok a ut method true -> contains "hybrid" method = false -> 0 < tf ->
  ksum all_keys (used a ut) W <> 0 ->
  exists mu, csu_fhc_summer ut (fun k => Fin (W k)) method a true 10 (Fin tf) bd true
     = Ok (Scores (10%nat :: shape (a KDZ)) mu) /\ length mu = (10 * size (a KDZ))%nat /\
  forall c i x, (c < 10)%nat -> (i < size (a KDZ))%nat ->
    (forall k, supplied (a k) = true -> at_gate (a k) i = Some (x k) /\ (k <> KT -> x k <> NaN)) ->
    nth_error mu (c * size (a KDZ) + i)
    = Some (Fin (trap_score (fun k => supplied (a k)) (used a ut) W
                   (fun k => membership Summer bd tf c k (x k)) (trap_val c (x KT)))).
Proof.
  intros Hs Eh Htf HW. destruct (summer_total ut (fun k => Fin (W k)) method a true tf bd Hs Htf) as (mu & E).
  exists mu. split; auto. apply summer_scores in E as (_ & _ & L & G). split; auto.
  intros c i x Hc Hi Hx. destruct (G c i Hc Hi) as (y & Hy & Ey). rewrite Hy. apply f_equal.
  destruct Hs as (Hdz & Hok & Hsz & Hm). destruct Hm as [|(El & Hp & HT)]; [congruence|].
  unfold summer_gate, varlist in Ey. rewrite Eh, El in Ey. cbv zeta in Ey.
  unfold gate_row in Ey. change [KDR; KKD; KRH; KLD; KT; KDZ] with all_keys in Ey.
  rewrite (ws_ext _ (used a ut)), weight_sum_fin in Ey by (intro; apply used_v).
  rewrite (calc_trap_ext _ (used a ut)) in Ey by (intro; apply used_v).
  unfold gate_calc_trap in Ey.
  rewrite (gate_sum_fin _ _ (fun k => supplied (a k)) x
    (fun k => match k with KT => trap_val c (x KT) | _ => W k * membership Summer bd tf c k (x k) end)) in Ey;
    auto.
  - apply (f_equal (fun r => match r with Ok z => z | _ => y end)) in Ey. cbv beta iota in Ey.
    rewrite <- Ey. unfold trap_score. rewrite (ksum_T (fun k => supplied (a k))). reflexivity.
  - intros k _. destruct (supplied (a k)) eqn:Sk; [|now rewrite at_none].
    destruct (Hx k Sk) as (Ek & Nk). rewrite Ek. split; [reflexivity|].
    assert (K : k <> KT -> used a ut k = true) by (destruct k; auto; contradiction).
    assert (B : k <> KT -> (bt <- gate_beta (get_sets Summer (if supplied (a KT) then ut else false) (Fin tf) bd k) c (x k);;
       Ok (fmul (fmul (flag (used a ut k)) (Fin (W k))) bt)) = Ok (Fin (W k * membership Summer bd tf c k (x k)))).
    { intro N. rewrite (beta_at Summer bd k 10) by (auto using summer_tables; contradiction).
      cbn [bind]. rewrite flag_mul, K, fmul_fin by auto. reflexivity. }
    destruct k; try (apply B; discriminate). rewrite gate_trap_val by auto. reflexivity.
  - apply existsb_exists. exists KDZ. split; [|exact Hdz]. unfold all_keys. simpl. auto 10.
Qed.

(** The centre of class c for variable k *)
Definition centre (bd : band) (k : key) (c : nat) : R := fst (fst (params Summer bd 1 k c)).

Lemma membership_centre bd k c : (c < 10)%nat -> k <> KT -> membership Summer bd 1 c k (Fin (centre bd k c)) = 1.
Proof.
  intros Hc Hk. unfold membership, centre.
  destruct (wf_table_nth _ _ c (summer_tables bd k) Hc) as (m & a & b & E & Ha & Hb).
  unfold params. rewrite E. destruct k; try contradiction; cbn [fst beta_val]; apply beta_centre; auto; lra.
Qed.

(** A gate with all six fields, at the centre of class c in the five radar
    variables, and a temperature where the trapezoid is 1, scores 1.12 > 1 with
    the default weights (every class but hail, whose trapezoid peaks at 0.8). *)
Lemma trap_above_one bd c : (c < 10)%nat -> c <> 8%nat ->
  exists t, (-100 <= t <= 100) /\
  trap_score (fun _ => true) (fun _ => true) ex_W
    (fun k => membership Summer bd 1 c k (Fin (centre bd k c))) (trap_val c (Fin t)) = 112 / 100.
Proof.
  intros Hc H8.
  assert (exists t, -100 <= t <= 100 /\ trap_spec c t = 1) as (t & Rt & Et).
  { do 10 (destruct c as [|c];
      [first [solve [exists 10; split; [lra|unfold trap_spec; rdec]]
             | solve [exists (-1); split; [lra|unfold trap_spec; rdec]]
             | solve [exfalso; lia]]|]). lia. }
  exists t. split; auto. simpl trap_val. rewrite Et. unfold trap_score, ksum, no_T, all_keys. simpl fold_right.
  rewrite !membership_centre by (auto; discriminate). unfold ex_W. lra.
Qed.

(** ... and the far side of rain scores below 0. *)
Lemma beta_far m a b : 0 < a -> 1 <= b -> beta_spec m a b (m + 3 * a) <= 1 / 10.
Proof.
  intros Ha Hb. unfold beta_spec. replace (((m + 3 * a - m) / a) ^ 2) with 9 by (field; lra).
  assert (P : 9 <= pow0 9 b).
  { unfold pow0. destruct Req_EM_T; [lra|]. rewrite <- (Rpower_1 9) at 1 by lra. apply Rle_Rpower; lra. }
  set (p := pow0 9 b) in *. clearbody p.
  unfold Rdiv. rewrite !Rmult_1_l. apply Rinv_le_contravar; lra.
Qed.

Lemma slopes bd k : forallb (fun r : row => match snd r with Some b => Qle_bool 1 b | _ => false end)
  (csv Summer bd k) = true.
Proof. destruct bd, k; vm_compute; reflexivity. Qed.

Definition far (bd : band) (k : key) (c : nat) : R :=
  let '(m, a, _) := params Summer bd 1 k c in m + 3 * a.

Lemma membership_far bd k c : (c < 10)%nat -> k <> KT -> 0 <= membership Summer bd 1 c k (Fin (far bd k c)) <= 1 / 10.
Proof.
  intros Hc Hk. split; [apply membership_range|]. unfold membership, far.
  destruct (wf_table_nth _ _ c (summer_tables bd k) Hc) as (m & a & b & E & Ha & Hb).
  assert (B1 : 1 <= Q2R b).
  { pose proof (slopes bd k) as S. rewrite forallb_forall in S.
    specialize (S _ (nth_error_In _ _ E)). simpl in S. apply Qle_bool_iff, Qle_Rle in S.
    replace (Q2R 1) with 1 in S by (unfold Q2R; simpl; lra). exact S. }
  unfold params. rewrite E. destruct k; try contradiction; cbn [beta_val]; apply beta_far; auto.
Qed.

Lemma trap_below_zero bd : exists x : key -> R,
  trap_score (fun _ => true) (fun _ => true) ex_W
    (fun k => membership Summer bd 1 1 k (Fin (x k))) (trap_val 1 (Fin (x KT))) < 0.
Proof.
  exists (fun k => match k with KT => -20 | _ => far bd k 1 end).
  assert (T : trap_val 1 (Fin (-20)) = -1) by (simpl; unfold trap_spec; rdec). rewrite T.
  unfold trap_score, ksum, no_T, all_keys. simpl fold_right.
  pose proof (membership_far bd KDR 1 ltac:(lia) ltac:(discriminate)).
  pose proof (membership_far bd KKD 1 ltac:(lia) ltac:(discriminate)).
  pose proof (membership_far bd KRH 1 ltac:(lia) ltac:(discriminate)).
  pose proof (membership_far bd KLD 1 ltac:(lia) ltac:(discriminate)).
  pose proof (membership_far bd KDZ 1 ltac:(lia) ltac:(discriminate)).
  unfold ex_W. lra.
Qed.

(** One gate with all six fields given, through csu_fhc_summer with method
    'linear', trapezoids and the default weights, factor 1, score array
    requested. *)
Definition one_gate (x : key -> R) : fields xr := fun k => AArr (mkarr DFloat [1%nat] [Fin (x k)]).
Lemma one_gate_scores bd x : exists mu,
  csu_fhc_summer true (fun k => Fin (ex_W k)) "linear" (one_gate x) true 10 (Fin 1) bd true = Ok (Scores [10%nat; 1%nat] mu) /\
  forall c, (c < 10)%nat -> nth_error mu c =
    Some (Fin (trap_score (fun _ => true) (fun _ => true) ex_W
                 (fun k => membership Summer bd 1 c k (Fin (x k))) (trap_val c (Fin (x KT))))).
Proof.
  destruct (C35_exact true ex_W "linear" (one_gate x) 1 bd) as (mu & E & L & G); try lra; auto.
  - unfold scores_ok. split; [reflexivity|]. split; [reflexivity|]. split; [intros k _; reflexivity|].
    right. split; [reflexivity|]. split; [reflexivity|]. intros _. now left.
  - unfold ksum, all_keys, used, one_gate, ex_W. simpl. lra.
  - exists mu. split; [exact E|]. intros c Hc. specialize (G c 0%nat (fun k => Fin (x k)) Hc).
    change (size (one_gate x KDZ)) with 1%nat in G. rewrite Nat.mul_1_r, Nat.add_0_r in G.
    rewrite G; [reflexivity|lia|]. intros k _. split; [reflexivity|discriminate].
Qed.

(** [ex_W] are the default weights of csu_fhc_summer. *)
Theorem C35_default_weights k : @summer_weights xr _ k = Fin (ex_W k).
Proof. destruct k; unfold summer_weights, ex_W; rewrite lit_fin; f_equal; unfold Q2R; simpl; lra. Qed.

(** At the centre of class c in the five radar variables and a temperature where
    the trapezoid is 1, class c scores 1.12 > 1 (every class but hail, whose
    trapezoid peaks at 0.8). *)
Theorem C35_above_one bd c : (c < 10)%nat -> c <> 8%nat -> exists x mu,
  csu_fhc_summer true (fun k => Fin (ex_W k)) "linear" (one_gate x) true 10 (Fin 1) bd true = Ok (Scores [10%nat; 1%nat] mu) /\
  nth_error mu c = Some (Fin (112 / 100)).
Proof.
  intros Hc H8. destruct (trap_above_one bd c Hc H8) as (t & _ & Et).
  set (x := fun k => match k with KT => t | _ => centre bd k c end).
  destruct (one_gate_scores bd x) as (mu & E & G). exists x, mu. split; auto. rewrite G by auto. do 2 f_equal.
  rewrite <- Et. reflexivity.
Qed.

(** ... and the far side of rain scores below 0. *)
Theorem C35_below_zero bd : exists x mu v,
  csu_fhc_summer true (fun k => Fin (ex_W k)) "linear" (one_gate x) true 10 (Fin 1) bd true = Ok (Scores [10%nat; 1%nat] mu) /\
  nth_error mu 1 = Some (Fin v) /\ v < 0.
Proof.
  destruct (trap_below_zero bd) as (x & Hx). destruct (one_gate_scores bd x) as (mu & E & G).
  exists x, mu. eexists. split; [exact E|]. split; [apply G; lia|exact Hx].
Qed.

(** C35_exact applies to gates like these. *)
Example C35_hypotheses (l : key -> list xr) : (forall k, length (l k) = 2%nat) ->
  scores_ok (ex_fields l) true "linear" true /\ ksum all_keys (used (ex_fields l) true) ex_W <> 0.
Proof.
  intro L. destruct (C32_hypotheses l "linear" L (or_intror eq_refl)) as ((A & B & C & D) & _ & E).
  change (0 < ksum all_keys (used (ex_fields l) true) ex_W) in E. split; [|lra]. unfold scores_ok. intuition.
Qed.

(** ** C38 *)
Lemma fold_nan (l : list xr) : fold_left fadd l NaN = NaN.
Proof. induction l; auto. Qed.
Lemma xadd_nan_r (x : xr) : fadd x NaN = NaN.
Proof. destruct x; reflexivity. Qed.
Lemma fold_in_nan (l : list xr) r : In NaN l -> fold_left fadd l r = NaN.
Proof.
  revert r; induction l as [|x l IH]; intros r; [contradiction|]. intros [->|I]; simpl.
  - rewrite xadd_nan_r. apply fold_nan.
  - now apply IH.
Qed.
Lemma gsum_nan rows ws y : In NaN rows -> gsum rows ws = Ok y -> y = NaN.
Proof.
  destruct rows as [|r rs]; [contradiction|]. intros I E. rewrite gsum_xr in E. injection E as <-.
  destruct I as [->|I]; [now rewrite fold_nan|now rewrite fold_in_nan].
Qed.
Lemma Forall2_in {A B} (P : A -> B -> Prop) l l' x : Forall2 P l l' -> In x l -> exists y, In y l' /\ P x y.
Proof. induction 1; intros []; subst; simpl; eauto. destruct IHForall2 as (z & ? & ?); eauto. Qed.

Lemma in_flat_g (g : key -> option xr) vl k x : In k vl -> g k = Some x ->
  In (k, x) (flat_map (fun k => match g k with Some y => [(k, y)] | None => [] end) vl).
Proof. intros I E. apply in_flat_map. exists k. rewrite E. simpl. auto. Qed.

Lemma fmul_nan_r (x : xr) : fmul x NaN = NaN.
Proof. destruct x; reflexivity. Qed.
Lemma fmul_nan_l (x : xr) : fmul NaN x = NaN.
Proof. destruct x; reflexivity. Qed.

Lemma calc_nan v w sets vl ws c g k y : gate_calc v w sets vl ws c g = Ok y ->
  In k vl -> g k = Some NaN -> gate_beta (sets k) c NaN = Ok NaN -> y = NaN.
Proof.
  intros E I G B. apply bind_ok in E as (rows & Er & E). apply mapM_inv in Er.
  destruct (Forall2_in _ _ _ (k, NaN) Er (in_flat_g g vl k NaN I G)) as (z & Iz & Ez).
  cbv beta iota in Ez. rewrite B in Ez. cbn [bind] in Ez. rewrite ?fnp_xr, ?f32_xr, fmul_nan_r in Ez. injection Ez as <-.
  eapply gsum_nan; eauto.
Qed.
Lemma calc_trap_nan v w sets vl ws c g k y : gate_calc_trap v w sets vl ws c g = Ok y ->
  In k vl -> k <> KT -> g k = Some NaN -> gate_beta (sets k) c NaN = Ok NaN -> y = NaN.
Proof.
  intros E I N G B. apply bind_ok in E as (rows & Er & E). apply mapM_inv in Er.
  destruct (Forall2_in _ _ _ (k, NaN) Er (in_flat_g g vl k NaN I G)) as (z & Iz & Ez).
  cbv beta iota in Ez. rewrite B in Ez. cbn [bind] in Ez. rewrite ?fnp_xr, ?f32_xr, fmul_nan_r in Ez.
  eapply gsum_nan; [|eauto]. destruct k; try contradiction; injection Ez as <-; exact Iz.
Qed.

Lemma beta_nan s bd k n ut tf c : wf_table n (csv s bd k) = true -> (c < n)%nat -> 0 < tf ->
  (k = KT -> ut = true) -> gate_beta (get_sets s ut (Fin tf) bd k) c NaN = Ok NaN.
Proof.
  intros. rewrite (gate_beta_table s bd k n) by auto.
  destruct (params s bd tf k c) as ((m, a), b). reflexivity.
Qed.

(** A field that takes part in the score is NaN at gate i: all ten scores
    there are NaN and the class is 1, whatever the other fields and weights.
    (The trapezoid T term of 'linear' is the only exception: it is 0 at NaN,
    see C35_exact.) *)
Theorem C38_scores ut (w : key -> xr) method (a : fields xr) trap n tf bd sh mu i k :
  csu_fhc_summer ut w method a trap n (Fin tf) bd true = Ok (Scores sh mu) -> 0 < tf ->
  (i < size (a KDZ))%nat -> used a ut k = true -> at_gate (a k) i = Some NaN ->
  ~ (k = KT /\ trap = true /\ contains "hybrid" method = false) ->
  forall c, (c < 10)%nat -> nth_error mu (c * size (a KDZ) + i) = Some NaN.
Proof.
  intros E Htf Hi Hu Hn Hex c Hc. apply summer_scores in E as (_ & _ & _ & G).
  destruct (G c i Hc Hi) as (y & -> & Ey). apply f_equal. clear G.
  unfold summer_gate in Ey. destruct (varlist method) as [vl|] eqn:Evl; [|discriminate]. cbv zeta in Ey.
  set (ut' := if supplied (a KT) then ut else false) in *.
  assert (Ut : k = KT -> ut' = true)
    by (intros ->; unfold ut'; simpl in Hu; destruct (supplied (a KT)); auto; discriminate).
  assert (B : gate_beta (get_sets Summer ut' (Fin tf) bd k) c NaN = Ok NaN)
    by (apply (beta_nan _ _ _ 10); auto using summer_tables).
  assert (Gk : option_map f32 (at_gate (a k) i) = Some NaN) by now rewrite Hn.
  assert (Pol : In k pol_keys -> get_pol_flag (fun k => supplied (a k)) = true).
  { intro I. rewrite any_pol_flag. apply existsb_exists. exists k. split; auto.
    simpl in I. decompose [or] I; subst; auto; contradiction. }
  assert (K : In k pol_keys \/ k = KT \/ k = KDZ) by (destruct k; simpl; auto 10).
  pose proof (varlist_cases _ _ Evl) as Cs. unfold gate_row in Ey.
  destruct Cs as [(Eh & ->)|(Eh & El & ->)]; rewrite Eh in Ey.
  - destruct K as [K|[-> | ->]].
    + rewrite (Pol K) in Ey. apply bind_ok in Ey as (t & Et & Ey).
      assert (t = NaN) as ->.
      { destruct trap.
        - eapply calc_trap_nan; eauto. intros ->. simpl in K. decompose [or] K; discriminate || contradiction.
        - eapply calc_nan; eauto. }
      destruct ut'.
      * apply bind_ok in Ey as (b & _ & Ey). apply bind_ok in Ey as (z & _ & Ey).
        rewrite ?fnp_xr, !fmul_nan_l in Ey. congruence.
      * apply bind_ok in Ey as (z & _ & Ey). rewrite ?fnp_xr, !fmul_nan_l in Ey. congruence.
    + rewrite (Ut eq_refl) in Ey. rewrite (Ut eq_refl) in B. rewrite Gk, B in Ey.
      destruct (get_pol_flag _) in Ey.
      * apply bind_ok in Ey as (t & _ & Ey). cbn [bind] in Ey. apply bind_ok in Ey as (z & _ & Ey).
        rewrite ?fnp_xr, fmul_nan_r, fmul_nan_l in Ey. congruence.
      * cbn [bind] in Ey. apply bind_ok in Ey as (z & _ & Ey). rewrite ?fnp_xr, ?f32_xr, fmul_nan_l in Ey. congruence.
    + rewrite Gk, B in Ey. destruct (get_pol_flag _) in Ey.
      * apply bind_ok in Ey as (t & _ & Ey). destruct ut'.
        -- apply bind_ok in Ey as (b & _ & Ey). cbn [bind] in Ey. rewrite ?fnp_xr, ?f32_xr, fmul_nan_r in Ey. congruence.
        -- cbn [bind] in Ey. rewrite ?fnp_xr, ?f32_xr, fmul_nan_r in Ey. congruence.
      * destruct ut'; [|congruence]. apply bind_ok in Ey as (b & _ & Ey). cbn [bind] in Ey.
        rewrite ?fnp_xr, ?f32_xr, fmul_nan_r in Ey. congruence.
  - assert (I : In k all_keys) by (destruct k; unfold all_keys; simpl; auto 10).
    destruct trap.
    + eapply calc_trap_nan; eauto. 
    + eapply calc_nan; eauto.
Qed.

Theorem C38_class ut (w : key -> xr) method (a : fields xr) trap tf bd sh hid i k :
  csu_fhc_summer ut w method a trap 10 (Fin tf) bd false = Ok (Classes sh hid) -> 0 < tf ->
  (i < size (a KDZ))%nat -> used a ut k = true -> at_gate (a k) i = Some NaN ->
  ~ (k = KT /\ trap = true /\ contains "hybrid" method = false) ->
  nth_error hid i = Some 1%nat.
Proof.
  intros E Htf Hi Hu Hn Hex. rewrite summer_classes in E.
  destruct (csu_fhc_summer ut w method a trap 10 (Fin tf) bd true) as [[s mu|]| | | |] eqn:Es; try discriminate.
  destruct (argmax0_ok 10 (size (a KDZ)) mu) as (h & Eh & L & G); [discriminate|].
  rewrite Eh in E. cbn [bind] in E. injection E as _ <-.
  destruct (G i Hi) as (j & Hj & _ & Ea).
  pose proof (C38_scores _ _ _ _ _ _ _ _ _ _ i k Es Htf Hi Hu Hn Hex 0%nat ltac:(lia)) as N.
  assert (C : column 10 (size (a KDZ)) mu i = NaN :: tl (column 10 (size (a KDZ)) mu i)).
  { unfold column. simpl map. simpl tl. f_equal. apply nth_error_nth. exact N. }
  rewrite C, np_argmax_nan0 in Ea by reflexivity. injection Ea as <-.
  now rewrite map_nth_error', Hj.
Qed.

(** Non-vacuity: gate 0 has NaN reflectivity, gate 1 is S-band rain *)
Definition ex_vals (k : key) : list (option Q) :=
  match k with KDZ => [None; Some 40] | KDR => [Some 1; Some 2] | KKD => [Some 0; Some 1]
  | KRH => [Some 0.99; Some 0.99] | KLD => [] | KT => [Some 10; Some 20] end%Q.
Example C38_run :
  csu_fhc_summer true summer_weights "hybrid" (ex_fields ex_vals) false 10 (Some 1%Q) BS false
  = Ok (Classes [2%nat] [1; 2]%nat).
Proof. vm_compute. reflexivity. Qed.
