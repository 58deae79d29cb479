(** * C99: accuracy of the hydrometeor scores, and of the class, in the arithmetic the package runs

    Measurements, parameters and memberships are stored in single precision,
    weights and powers are double.  Every score is within 1/2000 of the score of
    the documented formula at the same measurements; so wherever one class leads
    by more than 1/1000 on paper, that class is the one returned. *)
From Coq Require Import Reals Lra Lia ZArith QArith Qreals Arith.
From Flocq Require Import Core IEEE754.BinarySingleNaN.
From Verif Require Import Base.Num Base.ListFacts Base.XReal Base.Ieee.
From Verif Require Import Model.Tables Model.Beta Model.TTraps Model.Hid.
From Verif Require Import Spec.HidSpec Spec.IeeeSpec Spec.PowSpec Base.RelErr.
From Verif Require Import Proofs.HidProofs Proofs.SummerProofs Proofs.SummerReal Proofs.CoreProofs Proofs.BetaErr Proofs.HidErr.
From Verif Require Import Proofs.BetaProofs Proofs.IeeeSign Properties.P29_IeeeScores.
From Verif Require Import Properties.P09_SummerScores Properties.P11_Winter Properties.P24_DefaultScores.
Open Scope R_scope.

(** the measurements at gate [i] are the numbers [x] *)
Definition measures (a : fields double) (ut : bool) (i : nat) (x : key -> R) : Prop :=
  forall k, used a ut k = true -> exists d, at_gate (a k) i = Some d /\ val 53 1024 d = Fin (x k) /\ Rabs (x k) <= 10 ^ 30.
(** the double [w] stands for the weight [W]: zero, or of ordinary size and
    rounded no worse than a decimal literal *)
Definition stands_for (w : double) (W : R) : Prop :=
  (W = 0 \/ / 10 ^ 20 <= W) /\ W <= 10 ^ 20 /\
  exists v, val 53 1024 w = Fin v /\ Rabs (v - W) <= 1 / 10 ^ 14 * W.
(** within 1/2000 of the documented score *)
Definition accurate (z : double) (s : R) : Prop := exists r, val 53 1024 z = Fin r /\ Rabs (r - s) <= 1 / 2000.

Section C99.
Variables (np1 : bool) (lm : libm double).
Hypothesis Lm : pow_good lm.
#[local] Instance fo99 : FloatOps double := double_ops np1 lm.

Lemma rows_accurate s ut w (W : key -> nat -> R) method (a : fields double) one bd types rows n :
  types <> [] -> core s ut w method a one bd types = Ok rows ->
  scores_ok a ut method false -> val 53 1024 one = Fin 1 ->
  (forall c k, In c types -> stands_for (w k c) (W k c)) ->
  (forall c, In c types -> weights_ok (used a ut) method (fun k => W k c)) ->
  (forall k, used a ut k = true -> acc_table n (csv s bd k) = true) -> (forall c, In c types -> (c < n)%nat) ->
  forall j c i x, nth_error types j = Some c -> (i < size (a KDZ))%nat -> measures a ut i x ->
  exists z, nth_error (concat rows) (j * size (a KDZ) + i) = Some z /\
    accurate z (method_score method (used a ut) (fun k => W k c) (fun k => membership s bd 1 c k (Fin (x k)))).
Proof.
  intros Ht E Hs O Sw Hw Ac Hn j c i x Hj Hi Hx.
  destruct (core_scores _ _ _ _ _ _ _ _ _ Ht E) as (_ & _ & G).
  destruct (G j c i Hj Hi) as (z & Hz & Ez). exists z. split; auto.
  pose proof (nth_error_In _ _ Hj) as Hc.
  destruct (core_gate_err np1 lm Lm s ut w (fun k => W k c) method a one bd c i n x) as (z' & Ez' & N); auto.
  - intro k. destruct (Sw c k Hc) as (A & B & C). split; [exact C|]. split; auto.
  - apply Hw; auto.
  - enough (z' = z) as -> by exact N. enough (Ok z' = Ok z) by congruence. rewrite <- Ez, <- Ez'. reflexivity.
Qed.

Theorem C99_summer_scores ut w W method (a : fields double) one n bd sh mu :
  csu_fhc_summer ut w method a false n one bd true = Ok (Scores sh mu) ->
  scores_ok a ut method false -> val 53 1024 one = Fin 1 ->
  (forall k, stands_for (w k) (W k)) -> weights_ok (used a ut) method W ->
  forall c i x, (c < 10)%nat -> (i < size (a KDZ))%nat -> measures a ut i x ->
  exists z, nth_error mu (c * size (a KDZ) + i) = Some z /\
    accurate z (method_score method (used a ut) W (fun k => membership Summer bd 1 c k (Fin (x k)))).
Proof.
  rewrite summer_core. intros E Hs O Sw Hw c i x Hc Hi Hx. apply bind_ok in E as (rows & Er & E).
  destruct (negb _); [discriminate|]. assert (mu = concat rows) as -> by congruence.
  eapply (rows_accurate Summer ut (fun k _ => w k) (fun k _ => W k) method a one bd (seq 0 10) rows 10); eauto.
  - discriminate.
  - intros k _. apply summer_acc.
  - intros c' Hc'. apply in_seq in Hc'. lia.
  - now apply seq_nth_error.
Qed.

Theorem C99_winter_scores ut w W method (a : fields double) one warm bd sh mu :
  csu_fhc_winter ut w method a one warm bd = Ok (Scores sh mu) ->
  scores_ok a ut method false -> supplied (a KRH) = false -> supplied (a KLD) = false ->
  val 53 1024 one = Fin 1 ->
  (forall k c, stands_for (w k c) (W k c)) ->
  (forall c, In c (winter_types warm) -> weights_ok (used a ut) method (fun k => W k c)) ->
  forall j c i x, nth_error (winter_types warm) j = Some c -> (i < size (a KDZ))%nat -> measures a ut i x ->
  exists z, nth_error mu (j * size (a KDZ) + i) = Some z /\
    accurate z (method_score method (used a ut) (fun k => W k c) (fun k => membership Winter bd 1 c k (Fin (x k)))).
Proof.
  rewrite winter_core. intros E Hs R L O Sw Hw j c i x Hj Hi Hx. apply bind_ok in E as (rows & Er & E).
  destruct (negb _); [discriminate|]. assert (mu = concat rows) as -> by congruence.
  eapply (rows_accurate Winter ut w W method a one bd (winter_types warm) rows 6); eauto.
  - destruct warm; discriminate.
  - intros k Hk. apply winter_acc. destruct k; cbn in *; auto; congruence.
  - intros c' Hc'. destruct warm; cbn in Hc'; lia.
Qed.

Theorem C99_melt_scores ut w W method (a : fields double) one n bd sh mu :
  csu_fhc_cold_newml1 ut w method a n one bd = Ok (Scores sh mu) ->
  scores_ok a ut method false -> val 53 1024 one = Fin 1 ->
  (forall k c, stands_for (w k c) (W k c)) ->
  (forall c, (c < 2)%nat -> weights_ok (used a ut) method (fun k => W k c)) ->
  forall c i x, (c < 2)%nat -> (i < size (a KDZ))%nat -> measures a ut i x ->
  exists z, nth_error mu (c * size (a KDZ) + i) = Some z /\
    accurate z (method_score method (used a ut) (fun k => W k c) (fun k => membership Melt bd 1 c k (Fin (x k)))).
Proof.
  rewrite ml1_core. intros E Hs O Sw Hw c i x Hc Hi Hx. apply bind_ok in E as (rows & Er & E).
  destruct (negb _); [discriminate|]. assert (mu = concat rows) as -> by congruence.
  eapply (rows_accurate Melt ut w W method a one bd (seq 0 2) rows 2); eauto.
  - discriminate.
  - intros c' Hc'. apply in_seq in Hc'. apply Hw. lia.
  - intros k _. apply melt_acc.
  - intros c' Hc'. apply in_seq in Hc'. lia.
  - now apply seq_nth_error.
Qed.

(** ** The class *)
Lemma argmax_from_leads (l : list double) (V : nat -> R) : forall best bi i t,
  (forall j, (j < length l)%nat -> exists z, nth_error l j = Some z /\ val 53 1024 z = Fin (V (i + j)%nat)) ->
  val 53 1024 best = Fin (V bi) -> (bi < i)%nat -> (t = bi \/ i <= t < i + length l)%nat ->
  (forall j, (j = bi \/ i <= j < i + length l)%nat -> j <> t -> V j < V t) ->
  np_argmax_from best bi i l = t.
Proof.
  induction l as [|z l IH]; intros best bi i t Hl Hb Hbi Ht Hlead; cbn [np_argmax_from].
  - cbn in Ht. lia.
  - assert (Nb : fisnan best = false) .
    { change (negb (Beqb best best) = false). rewrite (val_eq 53 1024), Hb. cbn [xeq].
      now rewrite (proj2 (Reqb_true _ _) eq_refl). }
    rewrite Nb.
    destruct (Hl 0%nat) as (z' & Hz & Vz); [cbn; lia|]. cbn in Hz. assert (z' = z) as -> by congruence.
    rewrite Nat.add_0_r in Vz.
    assert (C : fle z best = Rleb (V i) (V bi)).
    { change (Bleb z best = Rleb (V i) (V bi)). now rewrite val_le, Vz, Hb. }
    rewrite C. cbn [length] in Ht, Hlead.
    assert (Hl' : forall j, (j < length l)%nat -> exists z, nth_error l j = Some z /\ val 53 1024 z = Fin (V (S i + j)%nat)).
    { intros j Hj. destruct (Hl (S j)) as (y & Hy & Vy); [cbn; lia|]. exists y. split; auto. rewrite Vy. do 2 f_equal. lia. }
    destruct (Rleb_spec (V i) (V bi)) as [Le|Gt].
    + apply IH; auto; try lia.
      * destruct (Nat.eq_dec t i) as [->|]; [|lia]. exfalso. assert (V bi < V i) by (apply Hlead; lia). lra.
      * intros j Hj Ne. apply Hlead; auto. lia.
    + apply IH; auto; try lia.
      * destruct (Nat.eq_dec t bi) as [->|]; [|lia]. exfalso. assert (V i < V bi) by (apply Hlead; lia). lra.
      * intros j Hj Ne. apply Hlead; auto. lia.
Qed.
Lemma argmax_leads (l : list double) (V : nat -> R) t :
  (forall j, (j < length l)%nat -> exists z, nth_error l j = Some z /\ val 53 1024 z = Fin (V j)) ->
  (t < length l)%nat -> (forall j, (j < length l)%nat -> j <> t -> V j < V t) -> np_argmax l = Ok t.
Proof.
  destruct l as [|z l]; [cbn; lia|]. intros Hl Ht Hlead. unfold np_argmax. f_equal. cbn [length] in *.
  apply (argmax_from_leads l V); try lia.
  - intros j Hj. destruct (Hl (S j)) as (y & Hy & Vy); [lia|]. exists y. auto.
  - destruct (Hl 0%nat) as (y & Hy & Vy); [lia|]. cbn in Hy. congruence.
  - intros j Hj. apply Hlead. lia.
Qed.

(** csu_fhc_summer returns class c + 1 wherever that class leads by more than 1/1000 *)
Theorem C99_summer_class ut w W method (a : fields double) one bd sh hid :
  csu_fhc_summer ut w method a false 10 one bd false = Ok (Classes sh hid) ->
  scores_ok a ut method false -> val 53 1024 one = Fin 1 ->
  (forall k, stands_for (w k) (W k)) -> weights_ok (used a ut) method W ->
  forall c i x, (c < 10)%nat -> (i < size (a KDZ))%nat -> measures a ut i x ->
  (forall c', (c' < 10)%nat -> c' <> c ->
     method_score method (used a ut) W (fun k => membership Summer bd 1 c' k (Fin (x k))) + 1 / 1000
     < method_score method (used a ut) W (fun k => membership Summer bd 1 c k (Fin (x k)))) ->
  nth_error hid i = Some (S c).
Proof.
  rewrite summer_classes. intros E Hs O Sw Hw c i x Hc Hi Hx Hlead.
  destruct (csu_fhc_summer ut w method a false 10 one bd true) as [[sh' mu|]| | | |] eqn:Es; try discriminate.
  apply bind_ok in E as (h & Eh & E). injection E as <- <-.
  destruct (argmax0_ok 10 (size (a KDZ)) mu ltac:(lia)) as (h' & Eh' & _ & G).
  assert (h' = h) as -> by congruence. destruct (G i Hi) as (k & Hk & _ & Ek).
  enough (k = c) as ->. { now rewrite map_nth_error', Hk. }
  pose proof (C99_summer_scores ut w W method a one 10 bd sh' mu Es Hs O Sw Hw) as Sc.
  set (ms := fun c => method_score method (used a ut) W (fun k => membership Summer bd 1 c k (Fin (x k)))) in *.
  assert (T : forall j, (j < 10)%nat -> exists z r, nth_error (column 10 (size (a KDZ)) mu i) j = Some z /\
     val 53 1024 z = Fin r /\ Rabs (r - ms j) <= 1 / 2000).
  { intros j Hj. destruct (Sc j i x Hj Hi Hx) as (z & Hz & r & Vr & Br). exists z, r. repeat split; auto.
    rewrite column_nth by auto. now rewrite (nth_error_nth _ _ _ Hz). }
  pose (V := fun j => match nth_error (column 10 (size (a KDZ)) mu i) j with
                      | Some z => match val 53 1024 z with Fin r => r | _ => 0 end | None => 0 end).
  assert (VT : forall j, (j < 10)%nat -> Rabs (V j - ms j) <= 1 / 2000).
  { intros j Hj. destruct (T j Hj) as (z & r & Hz & Vr & Br). unfold V. now rewrite Hz, Vr. }
  enough (np_argmax (column 10 (size (a KDZ)) mu i) = Ok c) by congruence.
  apply (argmax_leads _ V); rewrite column_len; auto.
  - intros j Hj. destruct (T j Hj) as (z & r & Hz & Vr & Br). exists z. split; auto. unfold V. now rewrite Hz, Vr.
  - intros j Hj Ne. pose proof (Hlead j Hj Ne). pose proof (VT j Hj). pose proof (VT c Hc).
    fold (ms j) (ms c) in *. apply Rabs_le_inv in H0, H1. unfold ms in *. lra.
Qed.

(** ** The default weights *)
Lemma lit_stands q : Q2R q <= 10 ^ 6 -> Q2R q = 0 \/ / 10 ^ 20 <= Q2R q -> stands_for (flit q) (Q2R q).
Proof.
  intros B K. split; auto. split; [lra|].
  assert (V : dval (flit q) = drnd (Q2R q)) by exact (val_lit 53 1024 p53 e1024 q).
  destruct K as [K|K].
  - exists 0. rewrite V, K. split; [apply (rnd_0 53 1024)|]. unfold Rminus. rewrite Rplus_0_l, Rabs_Ropp, Rabs_R0. lra.
  - assert (0 < / 10 ^ 20) by lra.
    destruct (drnd_err (Q2R q)) as (y & Y & D); [rewrite Rabs_pos_eq; lra|].
    exists y. rewrite V. split; auto. rewrite (Rabs_pos_eq (Q2R q)) in D by lra. unfold ud, taud in D. lra.
Qed.
Lemma lit_stands' q W : Q2R q = W -> W <= 10 ^ 6 -> W = 0 \/ / 10 ^ 20 <= W -> stands_for (flit q) W.
Proof. intros <-. apply lit_stands. Qed.
Lemma summer_stands k : stands_for (summer_weights k) (sW k).
Proof. destruct k; unfold summer_weights, sW; apply lit_stands'; unfold Q2R; cbn [Qnum Qden]; lra. Qed.
Lemma melt_stands k c : stands_for (ml1_weights k c) (mlW k c).
Proof. destruct k; unfold ml1_weights, mlW; apply lit_stands'; unfold Q2R; cbn [Qnum Qden]; lra. Qed.
Lemma winter_stands k c : stands_for (winter_weights k c) (winter_W k c).
Proof.
  destruct k; unfold winter_weights, winter_W; repeat destruct (_ <? _)%nat; repeat destruct (_ =? _)%nat;
    apply lit_stands'; unfold Q2R; cbn [Qnum Qden]; lra.
Qed.

Theorem C99_summer_scores_defaults ut method (a : fields double) one n bd sh mu :
  csu_fhc_summer ut summer_weights method a false n one bd true = Ok (Scores sh mu) ->
  scores_ok a ut method false -> val 53 1024 one = Fin 1 ->
  forall c i x, (c < 10)%nat -> (i < size (a KDZ))%nat -> measures a ut i x ->
  exists z, nth_error mu (c * size (a KDZ) + i) = Some z /\
    accurate z (method_score method (used a ut) sW (fun k => membership Summer bd 1 c k (Fin (x k)))).
Proof.
  intros E Hs O. eapply C99_summer_scores; eauto using summer_stands. apply sW_ok. apply Hs.
Qed.
Theorem C99_summer_class_defaults ut method (a : fields double) one bd sh hid :
  csu_fhc_summer ut summer_weights method a false 10 one bd false = Ok (Classes sh hid) ->
  scores_ok a ut method false -> val 53 1024 one = Fin 1 ->
  forall c i x, (c < 10)%nat -> (i < size (a KDZ))%nat -> measures a ut i x ->
  (forall c', (c' < 10)%nat -> c' <> c ->
     method_score method (used a ut) sW (fun k => membership Summer bd 1 c' k (Fin (x k))) + 1 / 1000
     < method_score method (used a ut) sW (fun k => membership Summer bd 1 c k (Fin (x k)))) ->
  nth_error hid i = Some (S c).
Proof.
  intros E Hs O. eapply C99_summer_class; eauto using summer_stands. apply sW_ok. apply Hs.
Qed.
Theorem C99_winter_scores_defaults ut (a : fields double) one warm bd sh mu :
  csu_fhc_winter ut winter_weights "linear" a one warm bd = Ok (Scores sh mu) ->
  scores_ok a ut "linear" false -> supplied (a KRH) = false -> supplied (a KLD) = false ->
  val 53 1024 one = Fin 1 ->
  forall j c i x, nth_error (winter_types warm) j = Some c -> (i < size (a KDZ))%nat -> measures a ut i x ->
  exists z, nth_error mu (j * size (a KDZ) + i) = Some z /\
    accurate z (linear_score (used a ut) (fun k => winter_W k c) (fun k => membership Winter bd 1 c k (Fin (x k)))).
Proof.
  intros E Hs R L O. change linear_score with (method_score "linear").
  eapply (C99_winter_scores ut winter_weights winter_W); eauto using winter_stands.
  intros c _. split; [intro; apply winter_W_nonneg|].
  change (0 < ksum all_keys (used a ut) (fun k => winter_W k c)). apply winter_sum_pos. apply Hs.
Qed.
Theorem C99_melt_scores_defaults ut (a : fields double) one n bd sh mu :
  csu_fhc_cold_newml1 ut ml1_weights "linear" a n one bd = Ok (Scores sh mu) ->
  scores_ok a ut "linear" false -> val 53 1024 one = Fin 1 ->
  forall c i x, (c < 2)%nat -> (i < size (a KDZ))%nat -> measures a ut i x ->
  exists z, nth_error mu (c * size (a KDZ) + i) = Some z /\
    accurate z (linear_score (used a ut) (fun k => mlW k c) (fun k => membership Melt bd 1 c k (Fin (x k)))).
Proof.
  intros E Hs O. change linear_score with (method_score "linear").
  eapply (C99_melt_scores ut ml1_weights mlW); eauto using melt_stands.
  intros c _. assert (Z : used a ut KDZ = true) by apply Hs. split; [intros []; unfold mlW; lra|].
  change (0 < ksum all_keys (used a ut) (fun k => mlW k c)).
  unfold ksum, all_keys. cbn [fold_right]. rewrite Z. unfold mlW.
  destruct (used a ut KDR), (used a ut KKD), (used a ut KRH), (used a ut KLD), (used a ut KT); lra.
Qed.
End C99.

(** ** Non-vacuity *)
(** a C library that meets the assumptions: the power rounded to nearest,
    saturating far out (noncomputable) *)
Definition lm_full : libm double :=
  mklibm (fun x y => match dval x, dval y with
    | Fin a, Fin b =>
        if Req_EM_T a 0 then B754_zero false else
        let r := Rpower (Rabs a) b in
        if Rlt_dec (exp 500) r then B754_infinity false
        else if Rlt_dec r (exp (-500)) then B754_zero false else near_double r
    | _, _ => B754_nan end)
    (fun x => x) (fun x => x) (fun x => x) (fun x => x) (fun x => x) (b_lit 53 1024 p53 e1024 (Qmake 355 113)).

Lemma near_double_pos r : exp (-500) <= r <= exp 500 -> exists v, dval (near_double r) = Fin v /\ 0 < v /\
  Rabs (v - r) <= bpow radix2 (-52) * r.
Proof.
  intro B. pose proof (exp_pos (-500)) as P0. assert (P : 0 < r) by lra.
  assert (B' : exp (-500) <= Rabs r <= exp 500) by (rewrite Rabs_pos_eq; lra).
  rewrite (near_double_val r B'). destruct (rnd_apx r B') as (d & D & E). exists (r * exp d). split; auto.
  split. { apply Rmult_lt_0_compat; [lra|apply exp_pos]. }
  replace (r * exp d - r) with (r * (exp d - 1)) by ring. rewrite Rabs_mult, (Rabs_pos_eq r), Rmult_comm by lra.
  apply Rmult_le_compat_r; [lra|]. pose proof eta_small. apply Rle_trans with (10 / 9 * eta); [apply exp_near; lra|].
  unfold eta. assert (B52 : bpow radix2 (-52) = 2 * bpow radix2 (-53)).
  { change (-53)%Z with (-52 + -1)%Z. rewrite bpow_plus. change (bpow radix2 (-1)) with (/ 2). lra. }
  rewrite B52. pose proof (bpow_gt_0 radix2 (-53)). lra.
Qed.

Lemma full_mid x y a b : dval x = Fin a -> dval y = Fin b -> a <> 0 ->
  exp (-500) <= Rpower (Rabs a) b <= exp 500 ->
  exists v, dval (lm_pow lm_full x y) = Fin v /\ 0 < v /\ Rabs (v - Rpower (Rabs a) b) <= bpow radix2 (-52) * Rpower (Rabs a) b.
Proof.
  intros X Y A B. cbn [lm_full lm_pow]. rewrite X, Y.
  destruct (Req_EM_T a 0); [contradiction|]. cbv zeta.
  destruct (Rlt_dec _ _); [lra|]. destruct (Rlt_dec _ _); [lra|]. now apply near_double_pos.
Qed.
Lemma sq_pow a : a <> 0 -> Rpower (Rabs a) 2 = a ^ 2.
Proof. intro A. change 2 with (INR 2). rewrite Rpower_pow by (now apply Rabs_pos_lt). apply pow2_abs. Qed.
Lemma val_2 : dval (b_lit 53 1024 p53 e1024 2) = Fin 2.
Proof.
  rewrite val_lit. cbn [Qnum Qden]. replace (2 / 1) with 2 by field. apply rnd_int; [exact p53|exact e1024|lia].
Qed.
Lemma full_good : pow_good lm_full.
Proof.
  split.
  - intros x y a b X Y A B. assert (Ra : Rabs a = a) by (apply Rabs_pos_eq; lra).
    destruct (full_mid x y a b X Y) as (v & V & _ & D); rewrite ?Ra in *; try lra. eauto.
  - intros x a X A B. destruct (full_mid x _ a 2 X val_2 A) as (v & V & _ & D); rewrite ?sq_pow in * by auto; auto. eauto.
  - intros x y b X Y B. cbn [lm_full lm_pow]. rewrite X, Y. destruct (Req_EM_T 0 0); [reflexivity|congruence].
  - intros x y a b X Y A B. left. cbn [lm_full lm_pow]. rewrite X, Y.
    destruct (Req_EM_T a 0); [lra|]. rewrite Rabs_pos_eq by lra. cbv zeta. destruct (Rlt_dec _ _); [reflexivity|lra].
  - intros x y a b X Y A B. exists 0. split; [|pose proof (exp_pos (-499)); lra].
    cbn [lm_full lm_pow]. rewrite X, Y.
    destruct (Req_EM_T a 0); [lra|]. rewrite Rabs_pos_eq by lra. cbv zeta.
    destruct (Rlt_dec (exp 500) _) as [L|_].
    { exfalso. assert (exp (-500) < exp 500) by (apply exp_increasing; lra). lra. }
    destruct (Rlt_dec _ _); [reflexivity|lra].
Qed.
Lemma full_sign x y : Bsign (lm_pow lm_full x y) = false.
Proof.
  cbn [lm_full lm_pow]. destruct (dval x) as [a| | |], (dval y) as [b| | |]; try reflexivity.
  destruct (Req_EM_T a 0); [reflexivity|]. cbv zeta.
  destruct (Rlt_dec _ _); [reflexivity|]. destruct (Rlt_dec _ _); [reflexivity|].
  destruct (near_double_pos (Rpower (Rabs a) b)) as (v & V & P & _); [lra|].
  apply (s_above 53 1024 p53 e1024 (near_double (Rpower (Rabs a) b)) (near_double (Rpower (Rabs a) b))).
  - rewrite val_lt, V, val_lit. cbn [Qnum Qden]. replace (0 / 1) with 0 by field. rewrite (rnd_0 53 1024). cbn [xlt].
    now apply Rltb_true.
  - rewrite val_le, V. cbn [xle]. apply Rleb_true. lra.
Qed.
Example C99_libm_exists : pow_good lm_full /\ pow_signs 53 1024 p53 e1024 lm_full.
Proof. split; [exact full_good|]. split; intros; apply full_sign. Qed.

(** one gate with dBZ 21 and rho_hv 25/32, the heart of the wet-snow class
    (row 4): csu_fhc_summer must return class 5 *)
Definition one_pair : fields double := fun k =>
  match k with
  | KDZ => AArr (mkarr DFloat [1%nat] [b_lit 53 1024 p53 e1024 21])
  | KRH => AArr (mkarr DFloat [1%nat] [b_lit 53 1024 p53 e1024 (Qmake 25 32)])
  | _ => ANone end.
Definition one_pair_x (k : key) : R := match k with KDZ => 21 | _ => 25 / 32 end.
Lemma one_pair_ok : scores_ok one_pair true "linear" false.
Proof.
  split; [reflexivity|]. split; [reflexivity|]. split.
  - intros [] H; try discriminate; reflexivity.
  - right. split; [reflexivity|]. split; [reflexivity|]. intro; discriminate.
Qed.
Lemma one_pair_measures : measures one_pair true 0 one_pair_x.
Proof.
  intros [] H; try discriminate; unfold one_pair_x; (eexists; split; [reflexivity|]); rewrite Rabs_pos_eq by lra; (split; [|lra]);
    rewrite val_lit; cbn [Qnum Qden].
  - replace (21 / 1) with 21 by field. apply rnd_int; [exact p53|exact e1024|lia].
  - apply rnd_fmt.
    + replace (25 / 32) with (F2R (Float radix2 25 (-5))) by (unfold F2R; cbn; lra).
      apply generic_format_F2R. intros _. unfold cexp. rewrite mag_F2R_Zdigits by lia.
      change (Zdigits radix2 25) with 5%Z. unfold SpecFloat.fexp, SpecFloat.emin. lia.
    + rewrite Rabs_pos_eq by lra. apply Rlt_le_trans with (bpow radix2 0); [cbn; lra|apply bpow_le; lia].
Qed.
Lemma beta_out m a b x : 9 / 4 <= ((x - m) / a) ^ 2 -> 1 <= b -> beta_spec m a b x <= 4 / 13.
Proof.
  intros H B. unfold beta_spec. set (u := ((x - m) / a) ^ 2) in *. clearbody u.
  assert (P : 9 / 4 <= pow0 u b).
  { unfold pow0. destruct Req_EM_T; [lra|]. apply Rle_trans with u; auto. rewrite <- (Rpower_1 u) at 1 by lra. apply Rle_Rpower; lra. }
  replace (4 / 13) with (1 / (1 + 9 / 4)) by field. unfold Rdiv. rewrite !Rmult_1_l. apply Rinv_le_contravar; lra.
Qed.
Lemma beta_in m a b x : ((x - m) / a) ^ 2 <= 1 / 9 -> 1 <= b -> 9 / 10 <= beta_spec m a b x.
Proof.
  intros H B. unfold beta_spec. set (u := ((x - m) / a) ^ 2) in *. assert (U : 0 <= u) by apply pow2_ge_0. clearbody u.
  assert (P : 0 <= pow0 u b <= 1 / 9).
  { unfold pow0. destruct Req_EM_T; [lra|]. split; [left; apply exp_pos|]. apply Rle_trans with u; auto.
    rewrite <- (Rpower_1 u) at 2 by lra. unfold Rpower. apply exp_le_mono. 
    assert (ln u <= 0) by (left; rewrite <- ln_1; apply ln_increasing; lra). nra. }
  replace (9 / 10) with (1 / (1 + 1 / 9)) by field. unfold Rdiv at 1 3. rewrite !Rmult_1_l. apply Rinv_le_contravar; lra.
Qed.
Lemma one_pair_out c : (c < 10)%nat -> c <> 4%nat -> membership Summer BS 1 c KRH (Fin (25 / 32)) <= 4 / 13.
Proof.
  intros Hc H4. do 10 (destruct c as [|c]; [first [contradiction H4; reflexivity|
    unfold membership; cbn [params csv csv_Summer_S_KRH nth_error beta_val]; unfold Q2R; cbn [Qnum Qden]; apply beta_out; lra]|]). lia.
Qed.
Lemma one_pair_in : 9 / 10 <= membership Summer BS 1 4 KRH (Fin (25 / 32)).
Proof. unfold membership; cbn [params csv csv_Summer_S_KRH nth_error beta_val]; unfold Q2R; cbn [Qnum Qden]; apply beta_in; lra. Qed.
Lemma one_pair_dz : 9 / 10 <= membership Summer BS 1 4 KDZ (Fin 21).
Proof. unfold membership; cbn [params csv csv_Summer_S_KDZ nth_error beta_val]; unfold Q2R; cbn [Qnum Qden]; apply beta_in; lra. Qed.

Example C99_one_class np1 : let _ := double_ops np1 lm_full in
  exists hid, csu_fhc_summer true summer_weights "linear" one_pair false 10 (flit 1) BS false = Ok (Classes [1%nat] hid) /\
    nth_error hid 0 = Some 5%nat.
Proof.
  cbv zeta. set (fo := double_ops np1 lm_full).
  destruct (P29_IeeeScores.C90_summer_returns lm_full (proj2 C99_libm_exists) np1 true summer_weights "linear" one_pair BS one_pair_ok)
    as (mu & E & _).
  assert (C : exists hid, csu_fhc_summer true summer_weights "linear" one_pair false 10 (flit 1) BS false = Ok (Classes [1%nat] hid)).
  { rewrite summer_classes. change (flit 1) with (b_lit 53 1024 p53 e1024 1). fold fo in E. rewrite E.
    destruct (argmax0_ok 10 (size (one_pair KDZ)) mu ltac:(lia)) as (h & -> & _). cbn [bind]. eexists. reflexivity. }
  destruct C as (hid & C). exists hid. split; auto.
  eapply (C99_summer_class_defaults np1 lm_full full_good); [exact C|exact one_pair_ok|..|exact one_pair_measures|].
  - exact (v_one np1 lm_full).
  - lia.
  - cbn. lia.
  - intros c Hc Ne. change (method_score "linear") with linear_score. unfold linear_score, wmean, ksum, all_keys. cbn [fold_right].
    change (used one_pair true KDR) with false. change (used one_pair true KKD) with false. change (used one_pair true KLD) with false.
    change (used one_pair true KT) with false. change (used one_pair true KRH) with true. change (used one_pair true KDZ) with true.
    cbv iota. unfold one_pair_x, sW.
    pose proof (one_pair_out c Hc Ne). pose proof one_pair_in. pose proof one_pair_dz.
    pose proof (membership_range Summer BS 1 c KDZ (Fin 21)). lra.
Qed.

Lemma val_1 : dval (b_lit 53 1024 p53 e1024 1) = Fin 1.
Proof.
  rewrite val_lit. cbn [Qnum Qden]. replace (1 / 1) with 1 by field. apply rnd_int; [exact p53|exact e1024|lia].
Qed.
(** the same two fields through csu_fhc_cold_newml1, and two through csu_fhc_winter *)
Example C99_one_melt_score np1 : let _ := double_ops np1 lm_full in
  exists mu z, csu_fhc_cold_newml1 true ml1_weights "linear" one_pair 2 (flit 1) BS = Ok (Scores [2; 1]%nat mu) /\
    nth_error mu 0 = Some z /\
    accurate z ((14 * membership Melt BS 1 0 KRH (Fin (25 / 32)) + 4 * membership Melt BS 1 0 KDZ (Fin 21)) / 18).
Proof.
  cbv zeta. set (fo := double_ops np1 lm_full). change (flit 1) with (b_lit 53 1024 p53 e1024 1).
  destruct (P29_IeeeScores.C90_melt_returns lm_full (proj2 C99_libm_exists) np1 true ml1_weights "linear" one_pair BS one_pair_ok)
    as (mu & E). fold fo in E.
  pose proof (C99_melt_scores_defaults np1 lm_full full_good true one_pair (b_lit 53 1024 p53 e1024 1) 2 BS) as T.
  specialize (T (2%nat :: shape (one_pair KDZ)) mu E).
  specialize (T one_pair_ok val_1 0%nat 0%nat one_pair_x ltac:(lia)).
  specialize (T ltac:(cbn; lia) one_pair_measures). destruct T as (z & Z & A).
  exists mu, z. split; [exact E|]. split; [exact Z|]. destruct A as (r & R & D). exists r. split; auto.
  eapply Rle_trans; [|exact D]. right. do 2 f_equal. unfold linear_score, wmean, ksum, all_keys. cbn [fold_right].
  change (used one_pair true KDR) with false. change (used one_pair true KKD) with false. change (used one_pair true KLD) with false.
  change (used one_pair true KT) with false. change (used one_pair true KRH) with true. change (used one_pair true KDZ) with true.
  cbv iota. unfold one_pair_x, mlW. lra.
Qed.
Definition winter_pair : fields double := fun k => match k with KDR => one_pair KRH | KDZ => one_pair KDZ | _ => ANone end.
Example C99_one_winter_score np1 : let _ := double_ops np1 lm_full in
  exists mu z, csu_fhc_winter true winter_weights "linear" winter_pair (flit 1) false BS = Ok (Scores [4; 1]%nat mu) /\
    nth_error mu 3 = Some z /\
    accurate z ((10 * membership Winter BS 1 3 KDR (Fin (25 / 32)) + 5 * membership Winter BS 1 3 KDZ (Fin 21)) / 15).
Proof.
  cbv zeta. set (fo := double_ops np1 lm_full). change (flit 1) with (b_lit 53 1024 p53 e1024 1).
  assert (Ok1 : scores_ok winter_pair true "linear" false).
  { split; [reflexivity|]. split; [reflexivity|]. split.
    - intros [] H; try discriminate; reflexivity.
    - right. split; [reflexivity|]. split; [reflexivity|]. intro; discriminate. }
  destruct (P29_IeeeScores.C90_winter_returns lm_full (proj2 C99_libm_exists) np1 true winter_weights "linear" winter_pair false BS Ok1)
    as (mu & E). fold fo in E.
  assert (Ms : measures winter_pair true 0 one_pair_x).
  { intros k H. destruct k; try discriminate H.
    - destruct (one_pair_measures KDZ eq_refl) as (d & D & V). exists d. split; [exact D|exact V].
    - destruct (one_pair_measures KRH eq_refl) as (d & D & V). exists d. split; [exact D|exact V]. }
  pose proof (C99_winter_scores_defaults np1 lm_full full_good true winter_pair (b_lit 53 1024 p53 e1024 1) false BS) as T.
  specialize (T (4%nat :: shape (winter_pair KDZ)) mu E).
  specialize (T Ok1 eq_refl eq_refl val_1 3%nat 3%nat 0%nat one_pair_x eq_refl).
  specialize (T ltac:(cbn; lia) Ms). destruct T as (z & Z & A).
  exists mu, z. split; [exact E|]. split; [exact Z|]. destruct A as (r & R & D). exists r. split; auto.
  eapply Rle_trans; [|exact D]. right. do 2 f_equal. unfold linear_score, wmean, ksum, all_keys. cbn [fold_right].
  change (used winter_pair true KDR) with true. change (used winter_pair true KKD) with false. change (used winter_pair true KLD) with false.
  change (used winter_pair true KT) with false. change (used winter_pair true KRH) with false. change (used winter_pair true KDZ) with true.
  cbv iota. unfold one_pair_x, winter_W. cbn. lra.
Qed.
