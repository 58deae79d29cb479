(** * The fuzzy-logic scores in IEEE-754 arithmetic (C90)

    The memberships and the scores of the default weights stay in [0, 1] not
    only on paper but in the arithmetic the package runs: measurements and
    memberships in single precision, weights and powers in double, for every
    measurement whatever (NaN, infinities, subnormal numbers).  The promotion
    rules of NumPy 1 and NumPy 2 differ and so do the bounds. *)
From Coq Require Import Reals Lra Lia ZArith QArith Floats.SpecFloat.
From Flocq Require Import Core IEEE754.BinarySingleNaN.
From Verif Require Import Base.Num Base.ListFacts Base.XReal Base.Ieee.
From Verif Require Import Model.Tables Model.Beta Model.TTraps Model.Hid.
From Verif Require Import Spec.HidSpec Spec.IeeeSpec.
From Verif Require Import Proofs.IeeeSign Proofs.HidProofs Proofs.SummerProofs Proofs.SummerReal Proofs.CoreProofs Proofs.IeeeScores Proofs.IeeeEnum.
Open Scope R_scope.

Section Membership.
Variables (prec emax p32 e32 : Z).
Context (Hp : Prec_gt_0 prec) (He : Prec_lt_emax prec emax).
Context (Hp3 : Prec_gt_0 p32) (He3 : Prec_lt_emax p32 e32).
Notation bf := (binary_float prec emax).
Variables (np1 : bool) (lm : libm bf).
Hypothesis Lm : pow_signs prec emax Hp He lm.
#[local] Instance fm : FloatOps bf := ieee_ops prec emax p32 e32 Hp He Hp3 He3 np1 lm.

Lemma bnd_range (C x : bf) : bnd prec emax C x -> flt x (flit 0) = false /\ flt C x = false.
Proof.
  intros (S & U). split.
  - change (Bltb x (b_lit prec emax Hp He 0) = false). rewrite val_lt. now apply s_notneg.
  - change (Bltb C x = false). rewrite val_lt.
    destruct U as [-> |U]; [now destruct (val prec emax C)|].
    destruct (val prec emax x), (val prec emax C); cbn in *; auto; try discriminate.
    apply Rleb_true in U. apply Rltb_false. lra.
Qed.

(** every value of the compiled membership routine, whatever the parameters *)
Theorem C90_membership_in_unit_interval n (xs : list bf) a b m out :
  hid_beta_f n xs a b m = Ok out ->
  forall i y, nth_error out i = Some y -> flt y (flit 0) = false /\ flt (flit 1) y = false.
Proof.
  unfold hid_beta_f. destruct (_ <? n)%nat; [discriminate|]. intros E i y Hy.
  apply mapM_ok in E as (L & G). pose proof (nth_error_lt _ _ Hy) as Hi. rewrite L in Hi.
  destruct (nth_error_map_some (firstn n xs) (i:=i)) as (x & Hx); auto.
  destruct (G i x Hx) as (y' & Hy' & Ey). rewrite Hy in Hy'. assert (y' = y) as -> by congruence.
  apply bnd_range. eapply gate_beta_bnd; eauto.
Qed.

(** and of the NumPy one *)
Theorem C90_numpy_membership_in_unit_interval (x a b m : bf) :
  flt (hid_beta x a b m) (flit 0) = false /\ flt (flit 1) (hid_beta x a b m) = false.
Proof.
  apply bnd_range. apply beta_bnd. now apply s_member.
Qed.

(** the compiled routine raises ZeroDivisionError exactly when the slope is
    zero (after conversion to a C float) and there is a gate *)
Theorem C90_membership_zero_division n (xs : list bf) a b m : (n <= length xs)%nat ->
  hid_beta_f n xs a b m = Raise ZeroDivisionError <-> (n <> 0)%nat /\ feq (f32 a) (flit 0) = true.
Proof.
  intro L. unfold hid_beta_f. destruct (Nat.ltb_spec (length xs) n); [lia|].
  destruct (feq (f32 a) (flit 0)) eqn:Ea.
  - split; intro Hx.
    + split; auto. intros ->. discriminate.
    + destruct Hx as (N & _). destruct n as [|n]; [contradiction|]. destruct xs as [|x xs]; [cbn in L; lia|].
      cbn [firstn mapM]. unfold hid_beta_gate at 1. rewrite Ea. reflexivity.
  - split; [|intros (_ & X); discriminate]. intro Hx. exfalso.
    destruct (mapM_total (fun x => hid_beta_gate x (f32 a) (f32 b) (f32 m)) (firstn n xs)) as (l & El).
    + intros x _. now apply gate_beta_ok.
    + rewrite El in Hx. discriminate.
Qed.
End Membership.

(** ** Default weights *)
Section Scores.
Variable lm : libm double.
Hypothesis Lm : pow_signs 53 1024 p53 e1024 lm.
Notation zero := (b_lit 53 1024 p53 e1024 0).
Notation one := (b_lit 53 1024 p53 e1024 1).
(** 1 + 2^-24 *)
Notation one' := (b_lit 53 1024 p53 e1024 (Qmake 16777217 16777216)).

Lemma core_range np C s ut w method (a : fields double) tf bd types rows n x : types <> [] ->
  is_finite C = true -> Bsign C = false -> Bleb one C = true ->
  Bleb (@fnp _ (double_ops np lm) C) C = true ->
  (forall c vl, In c types -> vl = pol_keys \/ vl = all_keys ->
     enum_check 53 1024 24 128 p53 e1024 p24 e128 np lm C (fun k => w k c) vl = true) ->
  @core _ (double_ops np lm) s ut w method a tf bd types = Ok rows -> nth_error (concat rows) n = Some x ->
  @flt _ (double_ops np lm) x (@flit _ (double_ops np lm) 0) = false /\ @flt _ (double_ops np lm) C x = false.
Proof.
  intros. apply (bnd_range 53 1024 24 128 p53 e1024 p24 e128 np lm).
  eapply (core_bnd 53 1024 24 128 p53 e1024 p24 e128 np lm Lm C); eauto.
  intros. apply enum_ok; auto.
Qed.

(** *** csu_fhc_summer *)
(** NumPy 1: never negative, never above 1 *)
Theorem C90_summer_scores_in_unit_interval_numpy1 ut method (a : fields double) n tf bd sh mu :
  @csu_fhc_summer _ (double_ops true lm) ut (@summer_weights _ (double_ops true lm)) method a false n tf bd true
    = Ok (Scores sh mu) ->
  forall i s, nth_error mu i = Some s -> Bltb s zero = false /\ Bltb one s = false.
Proof.
  rewrite summer_core. intros E i s Hs. apply bind_ok in E as (rows & Er & E).
  destruct (negb _); [discriminate|]. assert (mu = concat rows) as -> by congruence.
  eapply (core_range true one); [..|exact Er|exact Hs]; try reflexivity; [discriminate|].
  intros c vl _ Hvl. pose proof (summer_enum1 lm) as S. rewrite forallb_forall in S.
  assert (I : In vl [pol_keys; all_keys]) by (destruct Hvl; subst; cbn; auto). exact (S vl I).
Qed.

(** NumPy 2: at most 1 + 2^-24 *)
Theorem C90_summer_scores_bound_numpy2 ut method (a : fields double) n tf bd sh mu :
  @csu_fhc_summer _ (double_ops false lm) ut (@summer_weights _ (double_ops false lm)) method a false n tf bd true
    = Ok (Scores sh mu) ->
  forall i s, nth_error mu i = Some s -> Bltb s zero = false /\ Bltb one' s = false.
Proof.
  rewrite summer_core. intros E i s Hs. apply bind_ok in E as (rows & Er & E).
  destruct (negb _); [discriminate|]. assert (mu = concat rows) as -> by congruence.
  eapply (core_range false one'); [..|exact Er|exact Hs]; try reflexivity; [discriminate|].
  intros c vl _ Hvl. pose proof (summer_enum2 lm) as S. rewrite forallb_forall in S.
  assert (I : In vl [pol_keys; all_keys]) by (destruct Hvl; subst; cbn; auto). exact (S vl I).
Qed.

(** *** csu_fhc_winter, either NumPy *)
Theorem C90_winter_scores_in_unit_interval np1 ut method (a : fields double) tf warm bd sh mu :
  @csu_fhc_winter _ (double_ops np1 lm) ut (@winter_weights _ (double_ops np1 lm)) method a tf warm bd
    = Ok (Scores sh mu) ->
  forall i s, nth_error mu i = Some s -> Bltb s zero = false /\ Bltb one s = false.
Proof.
  rewrite winter_core. intros E i s Hs. apply bind_ok in E as (rows & Er & E).
  destruct (negb _); [discriminate|]. assert (mu = concat rows) as -> by congruence.
  eapply (core_range np1 one); [..|exact Er|exact Hs]; try reflexivity.
  - destruct warm; discriminate.
  - destruct np1; reflexivity.
  - intros c vl Hc Hvl. pose proof (winter_enum lm np1) as S. rewrite forallb_forall in S.
    assert (S' : forall c0, In c0 [0; 3; 4]%nat ->
      (forall k, @winter_weights _ (double_ops np1 lm) k c = @winter_weights _ (double_ops np1 lm) k c0) ->
      enum_check 53 1024 24 128 p53 e1024 p24 e128 np1 lm one (fun k => @winter_weights _ (double_ops np1 lm) k c) vl = true).
    { intros c0 H0 Hk. specialize (S c0 H0). rewrite forallb_forall in S.
      assert (I : In vl [pol_keys; all_keys]) by (destruct Hvl; subst; cbn; auto). specialize (S vl I).
      rewrite <- S. apply enum_ext. intros k _. apply Hk. }
    destruct warm; cbn [winter_types In] in Hc; decompose [or] Hc; subst; try contradiction.
    + apply (S' 4%nat); cbn [In]; auto; intros []; reflexivity.
    + apply (S' 4%nat); cbn [In]; auto; intros []; reflexivity.
    + apply (S' 0%nat); cbn [In]; auto; intros []; reflexivity.
    + apply (S' 0%nat); cbn [In]; auto; intros []; reflexivity.
    + apply (S' 0%nat); cbn [In]; auto; intros []; reflexivity.
    + apply (S' 3%nat); cbn [In]; auto; intros []; reflexivity.
Qed.

(** *** csu_fhc_cold_newml1, either NumPy *)
Theorem C90_melt_scores_in_unit_interval np1 ut method (a : fields double) n tf bd sh mu :
  @csu_fhc_cold_newml1 _ (double_ops np1 lm) ut (@ml1_weights _ (double_ops np1 lm)) method a n tf bd
    = Ok (Scores sh mu) ->
  forall i s, nth_error mu i = Some s -> Bltb s zero = false /\ Bltb one s = false.
Proof.
  rewrite ml1_core. intros E i s Hs. apply bind_ok in E as (rows & Er & E).
  destruct (negb _); [discriminate|]. assert (mu = concat rows) as -> by congruence.
  eapply (core_range np1 one); [..|exact Er|exact Hs]; try reflexivity.
  - discriminate.
  - destruct np1; reflexivity.
  - intros c vl _ Hvl. pose proof (ml1_enum lm np1) as S. rewrite forallb_forall in S.
    assert (I : In vl [pol_keys; all_keys]) by (destruct Hvl; subst; cbn; auto). exact (S vl I).
Qed.
(** ** Every call returns *)
(** no slope of the shipped tables rounds to zero *)
Definition slope_ok (np1 : bool) (s : season) (bd : band) (k : key) : bool :=
  let fo := double_ops np1 lm in
  match get_sets s true one bd k with
  | Some st => forallb (fun a => negb (feq (f32 a) (@flit _ fo 0))) (sa st) &&
      (length (sa st) =? length (csv s bd KDZ))%nat && (length (sb st) =? length (csv s bd KDZ))%nat && (length (sm st) =? length (csv s bd KDZ))%nat
  | None => false
  end.
Lemma slopes_ok np1 s bd k : slope_ok np1 s bd k = true.
Proof. destruct np1, s, bd, k; vm_cast_no_check (eq_refl true). Qed.

Lemma gate_beta_returns np1 s ut bd k c x : (c < length (csv s bd KDZ))%nat -> (k = KT -> ut = true) ->
  exists y, @gate_beta _ (double_ops np1 lm) (@get_sets _ (double_ops np1 lm) s ut one bd k) c x = Ok y.
Proof.
  intros Hc Hk. set (fo := double_ops np1 lm). pose proof (slopes_ok np1 s bd k) as S. unfold slope_ok in S. cbv zeta in S. fold fo in S.
  assert (G : get_sets s ut one bd k = get_sets s true one bd k).
  { destruct k; try exact eq_refl. rewrite Hk; exact eq_refl. }
  rewrite G. destruct (get_sets s true one bd k) as [st|]; [|discriminate S]. clear G.
  apply andb_prop in S as (S & Lm'). apply andb_prop in S as (S & Lb). apply andb_prop in S as (S & La).
  apply Nat.eqb_eq in La, Lb, Lm'. unfold gate_beta.
  destruct (nth_error_map_some (sa st) (i:=c)) as (a & Ha); [lia|].
  destruct (nth_error_map_some (sb st) (i:=c)) as (b & Hb); [lia|].
  destruct (nth_error_map_some (sm st) (i:=c)) as (m & Hm); [lia|].
  unfold idx. rewrite Ha, Hb, Hm. cbn [bind].
  apply (gate_beta_ok 53 1024 24 128 p53 e1024 p24 e128 np1 lm Lm).
  rewrite forallb_forall in S. apply nth_error_In in Ha. specialize (S a Ha). now apply negb_true_iff in S.
Qed.

Lemma core_returns np1 s ut w method (a : fields double) bd types : types <> [] ->
  scores_ok a ut method false -> (forall c, In c types -> (c < length (csv s bd KDZ))%nat) ->
  exists rows, @core _ (double_ops np1 lm) s ut w method a one bd types = Ok rows /\
    length (concat rows) = (length types * prod (shape (a KDZ)))%nat.
Proof.
  intros Ht Ha Hc. destruct (@core_total _ (double_ops np1 lm) s ut w method a one bd types Ha) as (rows & E).
  - intros c k Hin Hs Hk x. apply gate_beta_returns; auto. intros ->. rewrite Hs. auto.
  - exists rows. split; auto. destruct (core_scores _ _ _ _ _ _ _ _ _ Ht E) as (L & Lr & _).
    rewrite (concat_length (size (a KDZ))) by auto. rewrite L. f_equal.
    destruct Ha as (_ & Hok & _). unfold size, shape, field_ok, arr_ok in *. destruct (a KDZ); auto.
Qed.

(** with the default temp_factor and any weights, a well-formed call returns
    scores: no membership divides by zero *)
Theorem C90_summer_returns np1 ut w method (a : fields double) bd : scores_ok a ut method false ->
  exists mu, @csu_fhc_summer _ (double_ops np1 lm) ut w method a false 10 one bd true
    = Ok (Scores (10%nat :: shape (a KDZ)) mu) /\ length mu = (10 * prod (shape (a KDZ)))%nat.
Proof.
  intro Ha. rewrite summer_core.
  destruct (core_returns np1 Summer ut (fun k _ => w k) method a bd (seq 0 10)) as (rows & -> & L); auto.
  - discriminate.
  - intros c Hc. apply in_seq in Hc. rewrite csv_len. lia.
  - cbn [bind]. rewrite seq_length in L. rewrite L, Nat.eqb_refl. cbn [negb]. exists (concat rows). auto.
Qed.
Theorem C90_winter_returns np1 ut w method (a : fields double) warm bd : scores_ok a ut method false ->
  exists mu, @csu_fhc_winter _ (double_ops np1 lm) ut w method a one warm bd
    = Ok (Scores ((if warm then 2 else 4)%nat :: shape (a KDZ)) mu).
Proof.
  intro Ha. rewrite winter_core.
  destruct (core_returns np1 Winter ut w method a bd (winter_types warm)) as (rows & -> & L); auto.
  - destruct warm; discriminate.
  - intros c Hc. rewrite csv_len. destruct warm; cbn in Hc; lia.
  - cbn [bind]. rewrite L, Nat.eqb_refl. cbn [negb]. exists (concat rows). destruct warm; reflexivity.
Qed.
Theorem C90_melt_returns np1 ut w method (a : fields double) bd : scores_ok a ut method false ->
  exists mu, @csu_fhc_cold_newml1 _ (double_ops np1 lm) ut w method a 2 one bd
    = Ok (Scores (2%nat :: shape (a KDZ)) mu).
Proof.
  intro Ha. rewrite ml1_core.
  destruct (core_returns np1 Melt ut w method a bd (seq 0 2)) as (rows & -> & L); auto.
  - discriminate.
  - intros c Hc. apply in_seq in Hc. rewrite csv_len. lia.
  - cbn [bind]. rewrite seq_length in L. rewrite L, Nat.eqb_refl. cbn [negb]. exists (concat rows). reflexivity.
Qed.
(** ** Scores are never negative, whatever the weights (zero or positive) *)
Definition weight_sane (w : double) : Prop := w = zero \/ Bltb zero w = true.
Lemma weight_sign w : weight_sane w -> Bsign w = false.
Proof.
  intros [-> |H]; [reflexivity|]. apply (s_above 53 1024 p53 e1024 w w); auto. rewrite val_lt in H.
  rewrite val_le. destruct (val 53 1024 w); auto; try discriminate. apply Rleb_true. lra.
Qed.
Lemma sign_notneg (x : double) : Bsign x = false -> Bltb x zero = false.
Proof. intro H. rewrite val_lt. now apply s_notneg. Qed.

Theorem C90_summer_scores_never_negative np1 ut w method (a : fields double) n tf bd sh mu :
  (forall k, weight_sane (w k)) ->
  @csu_fhc_summer _ (double_ops np1 lm) ut w method a false n tf bd true = Ok (Scores sh mu) ->
  forall i s, nth_error mu i = Some s -> Bltb s zero = false.
Proof.
  intro Hw. rewrite summer_core. intros E i s Hs. apply bind_ok in E as (rows & Er & E).
  destruct (negb _); [discriminate|]. assert (mu = concat rows) as -> by congruence. apply sign_notneg.
  eapply (core_s 53 1024 24 128 p53 e1024 p24 e128 np1 lm Lm); [..|exact Er|exact Hs]; [discriminate|].
  intros. now apply weight_sign.
Qed.
Theorem C90_winter_scores_never_negative np1 ut w method (a : fields double) tf warm bd sh mu :
  (forall k c, weight_sane (w k c)) ->
  @csu_fhc_winter _ (double_ops np1 lm) ut w method a tf warm bd = Ok (Scores sh mu) ->
  forall i s, nth_error mu i = Some s -> Bltb s zero = false.
Proof.
  intro Hw. rewrite winter_core. intros E i s Hs. apply bind_ok in E as (rows & Er & E).
  destruct (negb _); [discriminate|]. assert (mu = concat rows) as -> by congruence. apply sign_notneg.
  eapply (core_s 53 1024 24 128 p53 e1024 p24 e128 np1 lm Lm); [..|exact Er|exact Hs]; [destruct warm; discriminate|].
  intros. now apply weight_sign.
Qed.
Theorem C90_melt_scores_never_negative np1 ut w method (a : fields double) n tf bd sh mu :
  (forall k c, weight_sane (w k c)) ->
  @csu_fhc_cold_newml1 _ (double_ops np1 lm) ut w method a n tf bd = Ok (Scores sh mu) ->
  forall i s, nth_error mu i = Some s -> Bltb s zero = false.
Proof.
  intro Hw. rewrite ml1_core. intros E i s Hs. apply bind_ok in E as (rows & Er & E).
  destruct (negb _); [discriminate|]. assert (mu = concat rows) as -> by congruence. apply sign_notneg.
  eapply (core_s 53 1024 24 128 p53 e1024 p24 e128 np1 lm Lm); [..|exact Er|exact Hs]; [discriminate|].
  intros. now apply weight_sign.
Qed.

(** ** "Max of test should never be > 1" (csu_fhc.py:447) fails under NumPy 2 *)
(** dz, zdr and T all at the centre of the first class *)
Definition centre (k : key) : double :=
  match nth_error (csv Summer BS k) 0 with
  | Some (Some m, _, _) => @f32 _ (double_ops false lm) (@flit _ (double_ops false lm) m) | _ => B754_nan end.
Definition at_centre : fields double := fun k =>
  match k with KDZ | KDR | KT => AArr (mkarr DFloat [1%nat] [centre k]) | _ => ANone end.

Section Numpy2.
Hypothesis Pz : pow_zero 53 1024 p53 e1024 lm.
#[local] Instance fo2 : FloatOps double := double_ops false lm.

Lemma member_one (x a b m : double) : feq a (flit 0) = false ->
  f32 (fdiv (f32 (fsub x m)) a) = zero -> Bltb zero b = true -> hid_beta_gate x a b m = Ok one.
Proof.
  intros Ha Hz Hb. unfold hid_beta_gate. rewrite Ha, Hz.
  assert (P : forall y, Bltb zero y = true -> fpow zero y = zero) by exact Pz.
  rewrite (P (flit 2)) by reflexivity. rewrite (P b) by auto.
  replace (feq _ (flit 0)) with false by (vm_compute; reflexivity). f_equal. apply B2SF_inj. vm_compute. reflexivity.
Qed.

Lemma centre_member k : In k [KDZ; KDR; KT] ->
  gate_beta (get_sets Summer true one BS k) 0 (f32 (centre k)) = Ok one.
Proof.
  intro Hk. cbn [In] in Hk. decompose [or] Hk; subst; try contradiction.
  all: unfold gate_beta, get_sets, get_beta_set, csv; cbn [sa sb sm];
    unfold csv_Summer_S_KDZ, csv_Summer_S_KDR, csv_Summer_S_KT; cbn [map]; unfold idx; cbn [nth_error bind fst snd cell].
  all: apply member_one; vm_compute; reflexivity.
Qed.

Lemma score_above_one : exists s, core_gate Summer (fun k => supplied (at_centre k)) true (fun k _ => summer_weights k)
  "linear" one BS (fun k => option_map f32 (at_gate (at_centre k) 0)) 0 = Ok s /\ Bltb one s = true.
Proof.
  unfold core_gate. change (varlist "linear") with (Some all_keys). cbv zeta.
  change (contains "hybrid" "linear") with false. unfold gate_row, gate_calc.
  unfold all_keys. cbn [flat_map app at_centre at_gate adata nth_error option_map mapM supplied].
  change (if supplied (at_centre KT) then true else false) with true.
  rewrite !centre_member by (cbn; auto).
  cbn [bind]. eexists. split; [reflexivity|]. vm_compute. reflexivity.
Qed.

Theorem C90_numpy2_scores_at_most_one_refuted : exists (a : fields double) mu s,
  csu_fhc_summer true summer_weights "linear" a false 10 one BS true = Ok (Scores [10; 1]%nat mu) /\
  nth_error mu 0 = Some s /\ flt one s = true.
Proof.
  exists at_centre. destruct (C90_summer_returns false true summer_weights "linear" at_centre BS) as (mu & E & L).
  - split; [reflexivity|]. split; [reflexivity|]. split.
    + intros [] H; try discriminate; reflexivity.
    + right. split; [reflexivity|]. split; [reflexivity|]. auto.
  - exists mu. change (shape (at_centre KDZ)) with [1%nat] in *.
    destruct (summer_scores _ _ _ _ _ _ _ _ _ _ E) as (_ & _ & _ & G).
    destruct (G 0%nat 0%nat) as (s & Hs & Es); [lia|cbn; lia|]. cbn [Nat.mul Nat.add] in Hs.
    destruct score_above_one as (s' & Es' & H). exists s. repeat split; auto.
    assert (s' = s) as <-; [|exact H]. enough (Ok s' = Ok s) by congruence. rewrite <- Es, <- Es'. reflexivity.
Qed.
End Numpy2.
End Scores.

(** ** Non-vacuity: a C library meeting the assumptions, and calls that return *)
Example C90_libm_exists : pow_signs 53 1024 p53 e1024 lm_stub /\ pow_zero 53 1024 p53 e1024 lm_stub.
Proof. split; [exact stub_signs|exact stub_zero]. Qed.

Definition gates (l : list double) : pyarg double := AArr (mkarr DFloat [length l] l).
Definition ex_fields (k : key) : pyarg double :=
  match k with KDZ | KDR => gates [b_lit 53 1024 p53 e1024 30; B754_nan; B754_infinity true] | _ => ANone end.
Example C90_calls_return np1 :
  exists mu, @csu_fhc_summer _ (double_ops np1 lm_stub) true (@summer_weights _ (double_ops np1 lm_stub)) "hybrid" ex_fields false 10
     (b_lit 53 1024 p53 e1024 1) BS true = Ok (Scores [10; 3]%nat mu) /\ length mu = 30%nat.
Proof.
  destruct (C90_summer_returns lm_stub stub_signs np1 true (@summer_weights _ (double_ops np1 lm_stub)) "hybrid" ex_fields BS) as (mu & E & L); eauto.
  split; [reflexivity|]. split; [reflexivity|]. split; [|left; reflexivity]. intros [] H; try discriminate; reflexivity.
Qed.
