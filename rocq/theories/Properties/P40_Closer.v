(** * C101: measurements closer to the centre of a class score higher *)
From Coq Require Import Reals Lra Lia Qreals Arith.
From Verif Require Import Base.Num Base.ListFacts Base.XReal Base.XTac Base.Pointwise Base.XArith Base.QOps.
From Verif Require Import Model.Tables Model.Beta Model.TTraps Model.Hid.
From Verif Require Import Spec.HidSpec.
From Verif Require Import Proofs.HidProofs Proofs.BetaProofs Proofs.SummerProofs Proofs.SummerReal Proofs.CoreProofs.
From Verif Require Import Properties.P07_Beta Properties.P08_Summer Properties.P09_SummerScores Properties.P10_SelfClass Properties.P11_Winter.
Open Scope R_scope.

(** centre of class c for variable k (a table entry; T divided by temp_factor) *)
Definition class_centre (s : season) (bd : band) (tf : R) (c : nat) (k : key) : R := fst (fst (params s bd tf k c)).

(** every variable of [x] is at least as close to the centre of class c as in [y] *)
Definition closer s bd tf c (u : key -> bool) (x y : key -> R) : Prop := forall k, u k = true ->
  Rabs (x k - class_centre s bd tf c k) <= Rabs (y k - class_centre s bd tf c k).

(** the variables whose membership can change the score *)
Definition counts (method : string) (W : key -> R) (k : key) : Prop :=
  if contains "hybrid" method then match k with KDZ | KT => True | _ => 0 < W k end else 0 < W k.

Lemma mem_pos s bd tf c k x : 0 < membership s bd tf c k (Fin x).
Proof. unfold membership. destruct (params s bd tf k c) as ((m, a), b). apply beta_spec_range. Qed.

Lemma mem_params s n bd tf c k : wf_table n (csv s bd k) = true -> (c < n)%nat -> 0 < tf ->
  exists m a b, params s bd tf k c = (m, a, b) /\ 0 < a /\ 0 < b.
Proof.
  intros T Hc Htf. destruct (wf_table_nth _ _ c T Hc) as (m & a & b & E & Ha & Hb). unfold params. rewrite E.
  assert (0 < Q2R a / tf) by now apply Rdiv_lt_0_compat.
  assert (0 < Q2R b / tf) by now apply Rdiv_lt_0_compat.
  destruct k; do 3 eexists; split; eauto; lra.
Qed.
Lemma mem_lt s n bd tf c k x y : wf_table n (csv s bd k) = true -> (c < n)%nat -> 0 < tf ->
  Rabs (x - class_centre s bd tf c k) < Rabs (y - class_centre s bd tf c k) ->
  membership s bd tf c k (Fin y) < membership s bd tf c k (Fin x).
Proof.
  intros T Hc Htf. destruct (mem_params s n bd tf c k T Hc Htf) as (m & a & b & E & Ha & Hb).
  unfold class_centre, membership. rewrite E. cbn [fst beta_val]. intro. apply beta_decreasing; lra.
Qed.
Lemma mem_le s n bd tf c k x y : wf_table n (csv s bd k) = true -> (c < n)%nat -> 0 < tf ->
  Rabs (x - class_centre s bd tf c k) <= Rabs (y - class_centre s bd tf c k) ->
  membership s bd tf c k (Fin y) <= membership s bd tf c k (Fin x).
Proof.
  intros T Hc Htf [L|E]; [left; eapply mem_lt; eauto|].
  destruct (mem_params s n bd tf c k T Hc Htf) as (m & a & b & E' & Ha & Hb).
  unfold class_centre, membership in *. rewrite E' in *. cbn [fst beta_val] in *. right. unfold beta_spec.
  assert (Sq : (y - m) ^ 2 = (x - m) ^ 2) by (rewrite <- !Rsqr_pow2; now apply Rsqr_eq_asb_1).
  rewrite !sq_div by lra. now rewrite Sq.
Qed.

(** ** the two combinations of memberships are monotone *)
Lemma ksum_lt vl u f f' k : (forall k, In k vl -> u k = true -> f k <= f' k) -> In k vl -> u k = true -> f k < f' k ->
  ksum vl u f < ksum vl u f'.
Proof.
  intros L I U S. induction vl as [|j vl IH]; [contradiction|]. cbn [ksum fold_right].
  assert (T : ksum vl u f <= ksum vl u f') by (apply ksum_le; intros; apply L; auto; now right).
  assert (J : u j = true -> f j <= f' j) by (intro; apply L; auto; now left).
  unfold ksum in *. destruct I as [->|I].
  - rewrite U in *. lra.
  - specialize (IH ltac:(intros; apply L; auto; now right) I). destruct (u j); [specialize (J eq_refl)|]; lra.
Qed.
Lemma wmean_le vl u w B B' : (forall k, 0 <= w k) -> 0 < ksum vl u w -> (forall k, u k = true -> B' k <= B k) ->
  wmean vl u w B' <= wmean vl u w B.
Proof.
  intros Hw Hs L. unfold wmean, Rdiv. apply Rmult_le_compat_r; [left; now apply Rinv_0_lt_compat|].
  apply ksum_le. intros k _ U. specialize (Hw k). specialize (L k U). nra.
Qed.
Lemma wmean_lt vl u w B B' k : (forall k, 0 <= w k) -> 0 < ksum vl u w -> (forall k, u k = true -> B' k <= B k) ->
  In k vl -> u k = true -> 0 < w k -> B' k < B k -> wmean vl u w B' < wmean vl u w B.
Proof.
  intros Hw Hs L I U Wk S. unfold wmean, Rdiv. apply Rmult_lt_compat_r; [now apply Rinv_0_lt_compat|].
  apply (ksum_lt _ _ _ _ k); auto; [|nra]. intros j _ U'. specialize (Hw j). specialize (L j U'). nra.
Qed.
Lemma ksum_some vl u w : 0 < ksum vl u w -> exists k, In k vl /\ u k = true /\ 0 < w k.
Proof.
  induction vl as [|j vl IH]; [cbn; lra|]. cbn [ksum fold_right]. intro P.
  destruct (Rlt_dec 0 (ksum vl u w)) as [P'|N].
  - destruct (IH P') as (k & I & ?). exists k. split; [now right|auto].
  - unfold ksum in *. destruct (u j) eqn:U; [|lra]. exists j. split; [now left|]. split; auto. lra.
Qed.
Lemma wmean_pos vl u w B : (forall k, 0 <= w k) -> 0 < ksum vl u w -> (forall k, 0 < B k) -> 0 < wmean vl u w B.
Proof.
  intros Hw Hs HB. replace 0 with (wmean vl u w (fun _ => 0)).
  - destruct (ksum_some _ _ _ Hs) as (k & I & U & P). apply (wmean_lt _ _ _ _ _ k); auto. intros j _. left. auto.
  - unfold wmean. rewrite (ksum_ext vl u u (fun k => w k * 0) (fun _ => 0)); [|intros; split; auto; intro; ring].
    rewrite ksum_0. unfold Rdiv. ring.
Qed.

Lemma score_le method u W B B' : weights_ok u method W -> u KDZ = true -> (forall k, 0 < B' k) ->
  (forall k, u k = true -> B' k <= B k) -> method_score method u W B' <= method_score method u W B.
Proof.
  intros (HW & Hw) Z P L. unfold method_score. destruct (contains "hybrid" method); [|now apply wmean_le].
  unfold hybrid_score.
  assert (A : 0 < (if any_pol u then wmean pol_keys u W B' else 1) /\
    (if any_pol u then wmean pol_keys u W B' else 1) <= (if any_pol u then wmean pol_keys u W B else 1)).
  { destruct (any_pol u); [|lra]. split; [apply wmean_pos; auto|apply wmean_le; auto]. }
  assert (T : 0 < (if u KT then B' KT else 1) /\ (if u KT then B' KT else 1) <= (if u KT then B KT else 1)).
  { destruct (u KT) eqn:E; [auto|lra]. }
  specialize (L KDZ Z). specialize (P KDZ). destruct A as (A0 & A1), T as (T0 & T1).
  apply Rmult_le_compat; auto; [apply Rmult_le_pos; lra|lra|]. apply Rmult_le_compat; lra.
Qed.
Lemma mult3_lt p p' t t' z z' : 0 < p' -> 0 < t' -> 0 < z' -> p' <= p -> t' <= t -> z' <= z ->
  p' < p \/ t' < t \/ z' < z -> p' * t' * z' < p * t * z.
Proof.
  intros P T Z Lp Lt Lz S.
  assert (0 < p' * t') by now apply Rmult_lt_0_compat.
  assert (p' * t' <= p * t) by (apply Rmult_le_compat; lra).
  destruct S as [S|[S|S]].
  - assert (p' * t' < p * t) by (apply Rle_lt_trans with (p' * t); [apply Rmult_le_compat_l; lra|apply Rmult_lt_compat_r; lra]).
    apply Rle_lt_trans with (p' * t' * z); [apply Rmult_le_compat_l; lra|apply Rmult_lt_compat_r; lra].
  - assert (p' * t' < p * t) by (apply Rlt_le_trans with (p' * t); [apply Rmult_lt_compat_l; lra|apply Rmult_le_compat_r; lra]).
    apply Rle_lt_trans with (p' * t' * z); [apply Rmult_le_compat_l; lra|apply Rmult_lt_compat_r; lra].
  - apply Rlt_le_trans with (p' * t' * z); [apply Rmult_lt_compat_l; lra|apply Rmult_le_compat_r; lra].
Qed.
Lemma score_lt method u W B B' k : weights_ok u method W -> u KDZ = true -> (forall k, 0 < B' k) ->
  (forall k, u k = true -> B' k <= B k) -> u k = true -> counts method W k -> B' k < B k ->
  method_score method u W B' < method_score method u W B.
Proof.
  intros (HW & Hw) Z P L U C S. unfold method_score, counts in *. destruct (contains "hybrid" method).
  - unfold hybrid_score. apply mult3_lt; auto.
    + destruct (any_pol u); [|lra]. apply wmean_pos; auto.
    + destruct (u KT); auto; lra.
    + destruct (any_pol u); [|lra]. apply wmean_le; auto.
    + destruct (u KT) eqn:E; auto; lra.
    + assert (D : In k pol_keys \/ k = KT \/ k = KDZ) by (destruct k; cbn; auto 10). destruct D as [D|[-> | ->]]; auto.
      * left. assert (A : any_pol u = true) by (apply existsb_exists; eauto). rewrite A.
        apply (wmean_lt _ _ _ _ _ k); auto. destruct k; auto; cbn in D; decompose [or] D; discriminate || contradiction.
      * right. left. rewrite U. auto.
  - apply (wmean_lt _ _ _ _ _ k); auto. destruct k; cbn; auto 10.
Qed.

(** ** Summer *)
Section Summer.
Variables (ut : bool) (W : key -> R) (method : string) (a b : fields xr) (tf : R) (bd : band) (x y : key -> R) (i j : nat).
Hypothesis Same : forall k, supplied (a k) = supplied (b k).
Hypotheses (Ha : scores_ok a ut method false) (Hb : scores_ok b ut method false).
Hypothesis Htf : 0 < tf.
Hypothesis HW : weights_ok (used a ut) method W.
Hypotheses (Hi : (i < size (a KDZ))%nat) (Hj : (j < size (b KDZ))%nat).
Hypothesis Gx : forall k, used a ut k = true -> at_gate (a k) i = Some (Fin (x k)).
Hypothesis Gy : forall k, used a ut k = true -> at_gate (b k) j = Some (Fin (y k)).

Lemma used_same k : used b ut k = used a ut k.
Proof. unfold used. destruct k; now rewrite Same. Qed.
Lemma weights_b : weights_ok (used b ut) method W.
Proof.
  destruct HW as (P & Q). split; auto.
  assert (E : forall vl, ksum vl (used b ut) W = ksum vl (used a ut) W).
  { intro. apply ksum_ext. intros k _. split; auto. apply used_same. }
  rewrite !E. rewrite (any_pol_ext (used b ut) (used a ut)); auto. intros. apply used_same.
Qed.
Lemma score_same B : method_score method (used b ut) W B = method_score method (used a ut) W B.
Proof.
  assert (E : forall vl f, ksum vl (used b ut) f = ksum vl (used a ut) f).
  { intros. apply ksum_ext. intros k _. split; auto. apply used_same. }
  unfold method_score, hybrid_score, linear_score, wmean. rewrite !E, !used_same.
  rewrite (any_pol_ext (used b ut) (used a ut)); auto. intros. apply used_same.
Qed.

(** the scores of the two gates, in two calls with the same settings *)
Lemma two_scores : exists mu nu,
  csu_fhc_summer ut (fun k => Fin (W k)) method a false 10 (Fin tf) bd true = Ok (Scores (10%nat :: shape (a KDZ)) mu) /\
  csu_fhc_summer ut (fun k => Fin (W k)) method b false 10 (Fin tf) bd true = Ok (Scores (10%nat :: shape (b KDZ)) nu) /\
  forall c, (c < 10)%nat ->
    nth_error mu (c * size (a KDZ) + i) = Some (Fin (method_score method (used a ut) W (fun k => membership Summer bd tf c k (Fin (x k))))) /\
    nth_error nu (c * size (b KDZ) + j) = Some (Fin (method_score method (used a ut) W (fun k => membership Summer bd tf c k (Fin (y k))))).
Proof.
  destruct (C32_exact ut W method a tf bd Ha Htf HW) as (mu & E & _ & G).
  destruct (C32_exact ut W method b tf bd Hb Htf weights_b) as (nu & E' & _ & G').
  exists mu, nu. split; auto. split; auto. intros c Hc. split.
  - apply (G c i (fun k => Fin (x k))); auto. intros k U. split; [auto|discriminate].
  - rewrite <- score_same. apply (G' c j (fun k => Fin (y k))); auto. intros k U. rewrite used_same in U. split; [auto|discriminate].
Qed.

(** moving towards the centre of a class never lowers its score ... *)
Theorem C101_summer_closer_scores_higher : exists mu nu,
  csu_fhc_summer ut (fun k => Fin (W k)) method a false 10 (Fin tf) bd true = Ok (Scores (10%nat :: shape (a KDZ)) mu) /\
  csu_fhc_summer ut (fun k => Fin (W k)) method b false 10 (Fin tf) bd true = Ok (Scores (10%nat :: shape (b KDZ)) nu) /\
  forall c, (c < 10)%nat -> closer Summer bd tf c (used a ut) x y ->
    exists s t, nth_error mu (c * size (a KDZ) + i) = Some (Fin s) /\ nth_error nu (c * size (b KDZ) + j) = Some (Fin t) /\
      t <= s /\
      (* ... and raises it when a variable that counts moves *)
      (forall k, used a ut k = true -> counts method W k ->
         Rabs (x k - class_centre Summer bd tf c k) < Rabs (y k - class_centre Summer bd tf c k) -> t < s).
Proof.
  destruct two_scores as (mu & nu & E & E' & G). exists mu, nu. split; auto. split; auto. intros c Hc C.
  destruct (G c Hc) as (A & B). do 2 eexists. split; [exact A|]. split; [exact B|].
  assert (Z : used a ut KDZ = true) by apply Ha.
  assert (P : forall k, 0 < membership Summer bd tf c k (Fin (y k))) by (intro; apply mem_pos).
  assert (L : forall k, used a ut k = true -> membership Summer bd tf c k (Fin (y k)) <= membership Summer bd tf c k (Fin (x k))).
  { intros k U. apply (mem_le _ 10); auto. apply summer_tables. }
  split; [now apply score_le|]. intros k U K S. apply (score_lt _ _ _ _ _ k); auto.
  apply (mem_lt _ 10); auto. apply summer_tables.
Qed.

(** A gate that moves towards the centre of its class and away from, or at equal
    distance of, the centres of all other classes keeps its class. *)
Theorem C101_class_kept hid c :
  csu_fhc_summer ut (fun k => Fin (W k)) method b false 10 (Fin tf) bd false = Ok (Classes (shape (b KDZ)) hid) ->
  nth_error hid j = Some (S c) ->
  closer Summer bd tf c (used a ut) x y ->
  (forall c', (c' < 10)%nat -> c' <> c -> closer Summer bd tf c' (used a ut) y x) ->
  exists hid', csu_fhc_summer ut (fun k => Fin (W k)) method a false 10 (Fin tf) bd false = Ok (Classes (shape (a KDZ)) hid') /\
    nth_error hid' i = Some (S c).
Proof.
  intros H Hc C O. destruct two_scores as (mu & nu & E & E' & G).
  pose proof (C33_first_maximum _ _ _ _ _ _ _ _ _ E) as (hid' & Eh & _ & M). exists hid'. split; auto.
  pose proof (C33_first_maximum _ _ _ _ _ _ _ _ _ E') as (hid0 & Eh0 & _ & M0). rewrite H in Eh0. injection Eh0 as <-.
  destruct (M i Hi) as (h & m & Hh & Hlt & Hm & Mx & My). { intros c' Hc'. rewrite (proj1 (G c' Hc')). discriminate. }
  destruct (M0 j Hj) as (h0 & m0 & Hh0 & Hlt0 & Hm0 & Mx0 & My0). { intros c' Hc'. rewrite (proj2 (G c' Hc')). discriminate. }
  rewrite Hc in Hh0. injection Hh0 as <-. rewrite Hh. do 2 f_equal.
  assert (Z : used a ut KDZ = true) by apply Ha.
  assert (P : forall z c k, 0 < membership Summer bd tf c k (Fin (z k))) by (intros; apply mem_pos).
  rewrite (proj1 (G h Hlt)) in Hm. injection Hm as <-. rewrite (proj2 (G c Hlt0)) in Hm0. injection Hm0 as <-.
  set (f := fun c => method_score method (used a ut) W (fun k => membership Summer bd tf c k (Fin (x k)))) in *.
  set (g := fun c => method_score method (used a ut) W (fun k => membership Summer bd tf c k (Fin (y k)))) in *.
  assert (Up : g c <= f c).
  { apply score_le; auto. intros k U. apply (mem_le _ 10); auto. apply summer_tables. }
  assert (Dn : forall c', (c' < 10)%nat -> c' <> c -> f c' <= g c').
  { intros c' Hc' N. apply score_le; auto. intros k U. apply (mem_le _ 10); auto; [apply summer_tables|now apply O]. }
  destruct (lt_eq_lt_dec h c) as [[L|Eq]|L]; auto; exfalso.
  - assert (D := Dn h Hlt ltac:(lia)). specialize (My0 h _ L (proj2 (G h Hlt))). cbn in My0. apply Rltb_true in My0.
    specialize (Mx c _ Hlt0 (proj1 (G c Hlt0))). cbn in Mx. apply Rleb_true in Mx. fold (f c) (f h) (g h) (g c) in *. lra.
  - assert (D := Dn h Hlt ltac:(lia)). specialize (My c _ L (proj1 (G c Hlt0))). cbn in My. apply Rltb_true in My.
    specialize (Mx0 h _ Hlt (proj2 (G h Hlt))). cbn in Mx0. apply Rleb_true in Mx0. fold (f c) (f h) (g h) (g c) in *. lra.
Qed.
End Summer.

(** ** How the variables limit the score *)
Lemma wmean_between vl u w B lo hi : (forall k, 0 <= w k) -> 0 < ksum vl u w ->
  (forall k, In k vl -> u k = true -> lo <= B k <= hi) -> lo <= wmean vl u w B <= hi.
Proof.
  intros Hw Hs HB. assert (K : forall t, ksum vl u (fun k => w k * t) = ksum vl u w * t).
  { intro t. clear. induction vl as [|k vl IH]; cbn [ksum fold_right]; [ring|]. unfold ksum in *. rewrite IH. destruct (u k); ring. }
  unfold wmean. split; apply Rmult_le_reg_r with (ksum vl u w); auto; unfold Rdiv; rewrite Rmult_assoc, Rinv_l, Rmult_1_r by lra;
    [rewrite Rmult_comm, <- (K lo)|rewrite (Rmult_comm hi), <- (K hi)]; apply ksum_le; intros k I U; specialize (HB k I U); specialize (Hw k); nra.
Qed.
(** "hybrid": reflectivity and temperature each cap the score; "linear": the
    score lies between the smallest and the largest membership *)
Theorem C101_summer_score_bounds ut W method (a : fields xr) tf bd :
  scores_ok a ut method false -> 0 < tf -> weights_ok (used a ut) method W ->
  exists mu, csu_fhc_summer ut (fun k => Fin (W k)) method a false 10 (Fin tf) bd true
     = Ok (Scores (10%nat :: shape (a KDZ)) mu) /\
  forall c i x, (c < 10)%nat -> (i < size (a KDZ))%nat ->
    (forall k, used a ut k = true -> at_gate (a k) i = Some (x k) /\ x k <> NaN) ->
    exists s, nth_error mu (c * size (a KDZ) + i) = Some (Fin s) /\
    (contains "hybrid" method = true -> s <= membership Summer bd tf c KDZ (x KDZ) /\
       (used a ut KT = true -> s <= membership Summer bd tf c KT (x KT))) /\
    (contains "hybrid" method = false -> forall lo hi,
       (forall k, used a ut k = true -> lo <= membership Summer bd tf c k (x k) <= hi) -> lo <= s <= hi).
Proof.
  intros Hs Htf HW. destruct (C32_exact ut W method a tf bd Hs Htf HW) as (mu & E & _ & G). exists mu. split; auto.
  intros c i x Hc Hi Hx. eexists. split; [apply (G c i x Hc Hi Hx)|]. destruct HW as (HW & Hw).
  set (B := fun k => membership Summer bd tf c k (x k)). assert (R : forall k, 0 <= B k <= 1) by (intro; apply membership_range).
  unfold method_score. split; intro M; rewrite M in *.
  - unfold hybrid_score. fold (B KDZ) (B KT).
    assert (A : 0 <= (if any_pol (used a ut) then wmean pol_keys (used a ut) W B else 1) <= 1).
    { destruct (any_pol (used a ut)) eqn:Ep; [|lra]. apply wmean_range; auto. }
    set (p := if any_pol _ then _ else _) in *.
    assert (T : 0 <= (if used a ut KT then B KT else 1) <= 1) by (destruct (used a ut KT); auto; lra).
    pose proof (R KDZ). set (t := if used a ut KT then _ else _) in *.
    assert (0 <= p * t <= 1) by (clearbody p t; nra). split.
    + set (z := B KDZ) in *. clearbody p t z. nra.
    + intro Ut. assert (t = B KT) as Et by (unfold t; now rewrite Ut). rewrite <- Et.
      set (z := B KDZ) in *. clearbody p t z. assert (p * t <= t) by nra. assert (p * t * z <= p * t) by nra. lra.
  - intros lo hi L. apply wmean_between; auto. intros k _ U. exact (L k U).
Qed.

(** ** Winter and melting layer, "linear" *)
Section Linear.
Variables (ut : bool) (W : key -> nat -> R) (a b : fields xr) (tf : R) (bd : band) (x y : key -> R) (i j : nat).
Hypothesis Same : forall k, supplied (a k) = supplied (b k).
Hypotheses (Ha : scores_ok a ut "linear" false) (Hb : scores_ok b ut "linear" false).
Hypothesis Htf : 0 < tf.
Hypotheses (Hi : (i < size (a KDZ))%nat) (Hj : (j < size (b KDZ))%nat).
Hypothesis Gx : forall k, used a ut k = true -> at_gate (a k) i = Some (Fin (x k)).
Hypothesis Gy : forall k, used a ut k = true -> at_gate (b k) j = Some (Fin (y k)).

Lemma ksum_same vl f : ksum vl (used b ut) f = ksum vl (used a ut) f.
Proof. apply ksum_ext. intros k _. split; auto. now apply used_same. Qed.

Lemma linear_mono s n c : (forall k, used a ut k = true -> wf_table n (csv s bd k) = true) -> (c < n)%nat ->
  (forall k, 0 <= W k c) -> 0 < ksum all_keys (used a ut) (fun k => W k c) -> closer s bd tf c (used a ut) x y ->
  let f z := linear_score (used a ut) (fun k => W k c) (fun k => membership s bd tf c k (Fin (z k))) in
  f y <= f x /\ (forall k, used a ut k = true -> 0 < W k c ->
    Rabs (x k - class_centre s bd tf c k) < Rabs (y k - class_centre s bd tf c k) -> f y < f x).
Proof.
  intros T Hc Hw Hs C f.
  assert (L : forall k, used a ut k = true -> membership s bd tf c k (Fin (y k)) <= membership s bd tf c k (Fin (x k))).
  { intros k U. apply (mem_le _ n); auto. }
  unfold f, linear_score. split; [apply wmean_le; auto|]. intros k U K S. apply (wmean_lt _ _ _ _ _ k); auto.
  - destruct k; cbn; auto 10.
  - apply (mem_lt _ n); auto.
Qed.

(** warm and cold winter scores; rhohv and LDR must not be supplied (C39) *)
Theorem C101_winter_closer_scores_higher warm sh sh' mu nu : supplied (a KRH) = false -> supplied (a KLD) = false ->
  csu_fhc_winter ut (fun k c => Fin (W k c)) "linear" a (Fin tf) warm bd = Ok (Scores sh mu) ->
  csu_fhc_winter ut (fun k c => Fin (W k c)) "linear" b (Fin tf) warm bd = Ok (Scores sh' nu) ->
  forall p c, nth_error (winter_types warm) p = Some c ->
    (forall k, 0 <= W k c) -> 0 < ksum all_keys (used a ut) (fun k => W k c) -> closer Winter bd tf c (used a ut) x y ->
    exists s t, nth_error mu (p * size (a KDZ) + i) = Some (Fin s) /\ nth_error nu (p * size (b KDZ) + j) = Some (Fin t) /\
      t <= s /\
      (forall k, used a ut k = true -> 0 < W k c ->
         Rabs (x k - class_centre Winter bd tf c k) < Rabs (y k - class_centre Winter bd tf c k) -> t < s).
Proof.
  intros HR HL E E' p c Hp Hw Hs C.
  assert (Hc : (c < 6)%nat) by (eapply types_lt, nth_error_In; eauto).
  assert (A := C40_exact ut W a tf warm bd sh mu Ha HR HL Htf E p c i (fun k => Fin (x k)) Hp Hi ltac:(lra)
    ltac:(intros k U; split; [auto|discriminate])).
  assert (B := C40_exact ut W b tf warm bd sh' nu Hb ltac:(rewrite <- Same; auto) ltac:(rewrite <- Same; auto) Htf E' p c j (fun k => Fin (y k)) Hp Hj
    ltac:(rewrite ksum_same; lra) ltac:(intros k U; rewrite (used_same ut a b Same) in U; split; [auto|discriminate])).
  unfold linear_score, wmean in B. rewrite !ksum_same in B.
  do 2 eexists. split; [exact A|]. split; [exact B|]. apply (linear_mono Winter 6 c); auto.
  intros k Hk. apply winter_tables. destruct k; simpl in Hk |- *; auto 10; congruence.
Qed.

Theorem C101_melt_closer_scores_higher n sh sh' mu nu :
  csu_fhc_cold_newml1 ut (fun k c => Fin (W k c)) "linear" a n (Fin tf) bd = Ok (Scores sh mu) ->
  csu_fhc_cold_newml1 ut (fun k c => Fin (W k c)) "linear" b n (Fin tf) bd = Ok (Scores sh' nu) ->
  forall c, (c < 2)%nat ->
    (forall k, 0 <= W k c) -> 0 < ksum all_keys (used a ut) (fun k => W k c) -> closer Melt bd tf c (used a ut) x y ->
    exists s t, nth_error mu (c * size (a KDZ) + i) = Some (Fin s) /\ nth_error nu (c * size (b KDZ) + j) = Some (Fin t) /\
      t <= s /\
      (forall k, used a ut k = true -> 0 < W k c ->
         Rabs (x k - class_centre Melt bd tf c k) < Rabs (y k - class_centre Melt bd tf c k) -> t < s).
Proof.
  intros E E' c Hc Hw Hs C.
  destruct (C64_exact ut W a n tf bd sh mu Ha Htf E c i (fun k => Fin (x k)) Hc Hi ltac:(lra)
    ltac:(intros k U; split; [auto|discriminate])) as (A & _).
  destruct (C64_exact ut W b n tf bd sh' nu Hb Htf E' c j (fun k => Fin (y k)) Hc Hj
    ltac:(rewrite ksum_same; lra) ltac:(intros k U; rewrite (used_same ut a b Same) in U; split; [auto|discriminate])) as (B & _).
  unfold linear_score, wmean in B. rewrite !ksum_same in B.
  do 2 eexists. split; [exact A|]. split; [exact B|]. apply (linear_mono Melt 2 c); auto.
  intros k _. apply melt_tables.
Qed.
End Linear.

(** ** Non-vacuity: reflectivity alone at one gate, S band; 57.5 dBZ is hail,
    moving to 57.8 dBZ leaves it hail and raises its score *)
Definition dz_only (z : R) : fields xr := fun k =>
  match k with KDZ => AArr (mkarr DFloat [1%nat] [Fin z]) | _ => ANone end.
Lemma dz_only_ok z : scores_ok (dz_only z) true "hybrid" false.
Proof. split; [reflexivity|]. split; [reflexivity|]. split; [intros [] H; try discriminate; reflexivity|]. now left. Qed.
Lemma dz_only_weights z : weights_ok (used (dz_only z) true) "hybrid" ex_W.
Proof. split; [intros []; cbn; lra|]. cbn. discriminate. Qed.
Lemma pow0_nat y n : 0 < y -> pow0 y (INR n) = y ^ n.
Proof. intro P. unfold pow0. destruct (Req_EM_T y 0); [lra|]. now apply Rpower_pow. Qed.
Lemma hail_wins c : (c < 10)%nat -> c <> 8%nat ->
  membership Summer BS 1 c KDZ (Fin 57.5) < membership Summer BS 1 8 KDZ (Fin 57.5).
Proof.
  intros Hc N.
  assert (G : forall m a n m' a' n', a > 0 -> a' > 0 -> 57.5 <> m -> 57.5 <> m' ->
    (((57.5 - m') / a') ^ 2) ^ n' < (((57.5 - m) / a) ^ 2) ^ n -> beta_spec m a (INR n) 57.5 < beta_spec m' a' (INR n') 57.5).
  { intros m a n m' a' n' A A' M M' L.
    assert (Q : forall m a, a > 0 -> 57.5 <> m -> 0 < ((57.5 - m) / a) ^ 2).
    { intros u v V U. rewrite <- Rsqr_pow2. apply Rsqr_pos_lt. intro Z. apply Rmult_integral in Z as [Z|Z]; [lra|].
      assert (0 < / v) by (apply Rinv_0_lt_compat; lra). lra. }
    unfold beta_spec. rewrite !pow0_nat by (apply Q; auto).
    pose proof (pow_lt _ n' (Q m' a' A' M')). pose proof (pow_lt _ n (Q m a A M)).
    unfold Rdiv at 1 3. rewrite !Rmult_1_l. apply Rinv_lt_contravar; [|lra]. apply Rmult_lt_0_compat; lra. }
  destruct c as [|[|[|[|[|[|[|[|[|[|c]]]]]]]]]]; try lia; unfold membership, params; cbn -[Rdiv IZR pow Q2R].
  all: match goal with |- beta_spec _ _ (Q2R ?q) _ < _ =>
    let n := eval vm_compute in (Z.to_nat (Qnum q)) in
    replace (Q2R q) with (INR n) by (unfold Q2R; cbn; lra); replace (Q2R 10) with (INR 10) by (unfold Q2R; cbn; lra)
  end; apply G; unfold Q2R; cbn [Qnum Qden]; try lra; replace (INR 8) with 8 by (cbn; lra); lra.
Qed.
Example C101_hypotheses :
  (exists hid, csu_fhc_summer true (fun k => Fin (ex_W k)) "hybrid" (dz_only 57.8) false 10 (Fin 1) BS false = Ok (Classes [1%nat] hid) /\
    nth_error hid 0 = Some 9%nat) /\
  exists mu nu s t,
    csu_fhc_summer true (fun k => Fin (ex_W k)) "hybrid" (dz_only 57.8) false 10 (Fin 1) BS true = Ok (Scores [10; 1]%nat mu) /\
    csu_fhc_summer true (fun k => Fin (ex_W k)) "hybrid" (dz_only 57.5) false 10 (Fin 1) BS true = Ok (Scores [10; 1]%nat nu) /\
    nth_error mu 8 = Some (Fin s) /\ nth_error nu 8 = Some (Fin t) /\ t < s.
Proof.
  assert (C8 : class_centre Summer BS 1 8 KDZ = 58) by (unfold class_centre; cbn; unfold Q2R; cbn; lra).
  assert (CL : closer Summer BS 1 8 (used (dz_only 57.8) true) (fun _ => 57.8) (fun _ => 57.5)).
  { intros [] U; try discriminate U. rewrite C8. rewrite !Rabs_left by lra. lra. }
  split.
  - destruct (C32_exact true ex_W "hybrid" (dz_only 57.5) 1 BS (dz_only_ok _) Rlt_0_1 (dz_only_weights _)) as (mu & E & _ & G).
    pose proof (C33_first_maximum _ _ _ _ _ _ _ _ _ E) as (hid & Eh & _ & M).
    change (shape (dz_only 57.8 KDZ)) with (shape (dz_only 57.5 KDZ)).
    apply (C101_class_kept true ex_W "hybrid" (dz_only 57.8) (dz_only 57.5) 1 BS (fun _ => 57.8) (fun _ => 57.5) 0 0) with (hid := hid) (c := 8%nat); auto;
      try apply dz_only_ok; try apply dz_only_weights; try (cbn; lia); try lra.
    + intros []; reflexivity.
    + intros [] U; try discriminate U; reflexivity.
    + intros [] U; try discriminate U; reflexivity.
    + assert (V : forall c, (c < 10)%nat -> nth_error mu c = Some (Fin (membership Summer BS 1 c KDZ (Fin 57.5)))).
      { intros c Hc. specialize (G c 0%nat (fun _ => Fin 57.5) Hc). change (size (dz_only 57.5 KDZ)) with 1%nat in G.
        rewrite Nat.mul_1_r, Nat.add_0_r in G. rewrite G; [|lia|intros [] U; try discriminate U; split; [reflexivity|discriminate]].
        do 2 f_equal. unfold method_score. cbn -[membership]. unfold hybrid_score. cbn -[membership]. ring. }
      destruct (M 0%nat ltac:(cbn; lia)) as (h & m & Hh & Hlt & Hm & Mx & _).
      { intros c Hc. change (size (dz_only 57.5 KDZ)) with 1%nat. rewrite Nat.mul_1_r, Nat.add_0_r, V by auto. discriminate. }
      change (size (dz_only 57.5 KDZ)) with 1%nat in *. rewrite Nat.mul_1_r, Nat.add_0_r, V in Hm by auto. injection Hm as <-.
      destruct (Nat.eq_dec h 8) as [->|N]; auto. exfalso.
      specialize (Mx 8%nat _ ltac:(lia) (V 8%nat ltac:(lia))). cbn -[membership] in Mx. apply Rleb_true in Mx.
      pose proof (hail_wins h Hlt N). lra.
    + intros c' Hc' N [] U; try discriminate U.
      assert (K : class_centre Summer BS 1 c' KDZ <= 57).
      { destruct c' as [|[|[|[|[|[|[|[|[|[|c']]]]]]]]]]; try lia; unfold class_centre; cbn; unfold Q2R; cbn; lra. }
      rewrite !Rabs_right by lra. lra.
  - destruct (C101_summer_closer_scores_higher true ex_W "hybrid" (dz_only 57.8) (dz_only 57.5) 1 BS (fun _ => 57.8) (fun _ => 57.5) 0 0)
      as (mu & nu & E & E' & G); try apply dz_only_ok; try apply dz_only_weights; try (cbn; lia); try lra.
    + intros []; reflexivity.
    + intros [] U; try discriminate U; reflexivity.
    + intros [] U; try discriminate U; reflexivity.
    + destruct (G 8%nat ltac:(lia) CL) as (s & t & A & B & _ & S). exists mu, nu, s, t.
      split; [exact E|]. split; [exact E'|]. split; [exact A|]. split; [exact B|].
      apply (S KDZ eq_refl); [exact I|]. rewrite C8. rewrite !Rabs_left by lra. lra.
Qed.
