(** The membership functions and the shipped tables in exact arithmetic. *)
From Coq Require Import Reals Lra Lia Qreals Arith.
From Verif Require Import Base.Num Base.ListFacts Base.XReal Base.XTac Base.Pointwise Base.XArith.
From Verif Require Import Model.Tables Model.Beta Model.Hid Spec.HidSpec Proofs.HidProofs.
Open Scope R_scope.

Lemma pow0_nonneg y b : 0 <= pow0 y b.
Proof. unfold pow0. destruct Req_EM_T; [lra|]. left; apply Rpower_pos. Qed.
Lemma pow0_pos y b : y <> 0 -> 0 < pow0 y b.
Proof. unfold pow0. destruct Req_EM_T; [contradiction|]. intros; apply Rpower_pos. Qed.
Lemma pow0_lt y z b : 0 <= y -> y < z -> 0 < b -> pow0 y b < pow0 z b.
Proof.
  intros Hy Hz Hb. unfold pow0 at 1. destruct Req_EM_T.
  - apply pow0_pos; lra.
  - unfold pow0. destruct Req_EM_T; [lra|]. apply Rpower_lt_base; lra.
Qed.
Lemma pow0_1 b : pow0 1 b = 1.
Proof. unfold pow0. destruct Req_EM_T; [lra|]. unfold Rpower. rewrite ln_1, Rmult_0_r. apply exp_0. Qed.

Lemma xpow_pow0 y b : 0 <= y -> 0 < b -> xpow (Fin y) (Fin b) = Fin (pow0 y b).
Proof.
  intros Hy Hb. simpl. unfold xpow_fin, pow0.
  destruct (Req_EM_T b 0); [lra|]. destruct Rlt_dec.
  - destruct Req_EM_T; [lra|reflexivity].
  - destruct Req_EM_T; [|lra]. destruct Rlt_dec; [reflexivity|lra].
Qed.
Lemma xpow_sq x : xpow (Fin x) (xlit 2) = Fin (x ^ 2).
Proof. change (xlit 2) with (@flit xr _ 2). rewrite lit_int. replace 2 with (INR 2) by (simpl; lra). apply xpow_nat. Qed.

Lemma beta_spec_range m a b x : 0 < beta_spec m a b x <= 1.
Proof.
  unfold beta_spec. pose proof (pow0_nonneg (((x - m) / a) ^ 2) b) as H.
  set (p := pow0 _ _) in *. clearbody p. unfold Rdiv. rewrite Rmult_1_l. split.
  - apply Rinv_0_lt_compat; lra.
  - rewrite <- Rinv_1 at 2. apply Rinv_le_contravar; lra.
Qed.

Lemma beta_gate_xr x a b m : a <> 0 -> 0 < b ->
  hid_beta_gate x (Fin a) (Fin b) (Fin m) = Ok (beta_ext m a b x).
Proof.
  intros Ha Hb. unfold hid_beta_gate.
  change (@f32 xr _) with (fun x : xr => x). cbv beta.
  change (@feq xr _) with xeq. rewrite !lit_int. simpl xeq at 1.
  assert (Reqb a 0 = false) as -> by now apply Reqb_false.
  assert (K : exists p, 0 <= p /\ (forall r, x = Fin r -> p = pow0 (((r - m) / a) ^ 2) b) /\
    (match x with Fin _ => fadd (Fin 1) (fpow (fpow (fdiv (fsub x (Fin m)) (Fin a)) (flit 2)) (Fin b)) = Fin (1 + p)
     | NaN => fadd (Fin 1) (fpow (fpow (fdiv (fsub x (Fin m)) (Fin a)) (flit 2)) (Fin b)) = NaN
     | _ => fadd (Fin 1) (fpow (fpow (fdiv (fsub x (Fin m)) (Fin a)) (flit 2)) (Fin b)) = PInf end)).
  { destruct x as [r| | |].
    - exists (pow0 (((r - m) / a) ^ 2) b). split; [apply pow0_nonneg|]. split; [congruence|].
      rewrite fsub_fin, fdiv_fin by auto.
      change (@fpow xr _) with xpow. change (@flit xr _ 2) with (xlit 2).
      rewrite xpow_sq, xpow_pow0; auto. rewrite <- Rsqr_pow2. apply Rle_0_sqr.
    - exists 0. split; [lra|]. split; [congruence|].
      change (fsub PInf (Fin m)) with PInf.
      change (@fpow xr _) with xpow. rewrite lit_int. change (@fdiv xr _) with xdiv.
      unfold xdiv. destruct Rlt_dec.
      + change (xpow NInf (Fin 2)) with (if Req_EM_T 2 0 then Fin 1 else if Rlt_dec 0 2 then
          (if is_int 2 && Z.odd (Int_part 2) then NInf else PInf) else Fin 0)%bool.
        destruct Req_EM_T; [lra|]. destruct (Rlt_dec 0 2); [|lra].
        replace (Int_part 2) with 2%Z by (symmetry; apply Int_part_IZR). rewrite andb_comm. simpl.
        destruct (Req_EM_T b 0); [lra|]. destruct (Rlt_dec 0 b); [reflexivity|lra].
      + change (xpow PInf (Fin 2)) with (if Req_EM_T 2 0 then Fin 1 else if Rlt_dec 0 2 then PInf else Fin 0).
        destruct Req_EM_T; [lra|]. destruct (Rlt_dec 0 2); [|lra]. simpl.
        destruct (Req_EM_T b 0); [lra|]. destruct (Rlt_dec 0 b); [reflexivity|lra].
    - exists 0. split; [lra|]. split; [congruence|].
      change (fsub NInf (Fin m)) with NInf.
      change (@fpow xr _) with xpow. rewrite lit_int. change (@fdiv xr _) with xdiv.
      unfold xdiv. destruct Rlt_dec.
      + change (xpow PInf (Fin 2)) with (if Req_EM_T 2 0 then Fin 1 else if Rlt_dec 0 2 then PInf else Fin 0).
        destruct Req_EM_T; [lra|]. destruct (Rlt_dec 0 2); [|lra]. simpl.
        destruct (Req_EM_T b 0); [lra|]. destruct (Rlt_dec 0 b); [reflexivity|lra].
      + change (xpow NInf (Fin 2)) with (if Req_EM_T 2 0 then Fin 1 else if Rlt_dec 0 2 then
          (if is_int 2 && Z.odd (Int_part 2) then NInf else PInf) else Fin 0)%bool.
        destruct Req_EM_T; [lra|]. destruct (Rlt_dec 0 2); [|lra].
        replace (Int_part 2) with 2%Z by (symmetry; apply Int_part_IZR). rewrite andb_comm. simpl.
        destruct (Req_EM_T b 0); [lra|]. destruct (Rlt_dec 0 b); [reflexivity|lra].
    - exists 0. split; [lra|]. split; [congruence|].
      rewrite lit_int. simpl. destruct (Req_EM_T 2 0); [lra|]. simpl.
      destruct (Req_EM_T b 0); [lra|]. reflexivity. }
  destruct K as (p & Hp & Hr & K). rewrite lit_int in K.
  destruct x as [r| | |]; rewrite K.
  - simpl xeq. assert (Reqb (1 + p) 0 = false) as -> by (apply Reqb_false; lra).
    rewrite fdiv_fin by lra. rewrite (Hr r eq_refl). reflexivity.
  - reflexivity.
  - reflexivity.
  - reflexivity.
Qed.

(** ** The tables *)
Definition wf_row (r : row) : bool :=
  match r with
  | (Some _, Some a, Some b) => (0 <? Qnum a)%Z && (0 <? Qnum b)%Z
  | _ => false
  end.
Definition wf_table (n : nat) (l : list row) : bool :=
  (length l =? n)%nat && forallb wf_row l.

Lemma summer_tables : forall bd k, wf_table 10 (csv Summer bd k) = true.
Proof. intros [] []; vm_compute; reflexivity. Qed.
Lemma melt_tables : forall bd k, wf_table 2 (csv Melt bd k) = true.
Proof. intros [] []; vm_compute; reflexivity. Qed.
Lemma winter_tables : forall bd k, In k [KDZ; KDR; KKD; KT] -> wf_table 6 (csv Winter bd k) = true.
Proof.
  intros [] [] H; try (vm_compute; reflexivity); exfalso; simpl in H; decompose [or] H;
    try discriminate; contradiction.
Qed.

Lemma wf_table_nth n l c : wf_table n l = true -> (c < n)%nat ->
  exists m a b, nth_error l c = Some (Some m, Some a, Some b) /\ 0 < Q2R a /\ 0 < Q2R b.
Proof.
  unfold wf_table. intros H Hc. apply andb_true_iff in H as (L & H).
  apply Nat.eqb_eq in L. destruct (nth_error_map_some l (i:=c)) as (r & Hr); [lia|].
  rewrite forallb_forall in H. specialize (H r (nth_error_In _ _ Hr)).
  destruct r as ((om, oa), ob). simpl in H.
  destruct om as [m|], oa as [a|], ob as [b|]; try discriminate.
  apply andb_true_iff in H as (Ha & Hb). apply Z.ltb_lt in Ha, Hb.
  exists m, a, b. split; auto. unfold Q2R.
  split; (apply Rmult_lt_0_compat; [now apply IZR_lt | apply Rinv_0_lt_compat; now apply IZR_lt]).
Qed.

Lemma cell_q q : @cell xr _ (Some q) = Fin (Q2R q).
Proof. reflexivity. Qed.

Lemma lit_1 : @flit xr _ 1.0 = Fin 1.
Proof. rewrite lit_fin. cbn [Qnum Qden]. f_equal. lra. Qed.

Lemma idx_ok {A} (l : list A) c x : nth_error l c = Some x -> idx l c = Ok x.
Proof. unfold idx. now intros ->. Qed.

(** the beta of class c of a well-formed table on one measurement *)
Lemma gate_beta_table s bd k n ut tf c x :
  wf_table n (csv s bd k) = true -> (c < n)%nat -> 0 < tf -> (k = KT -> ut = true) ->
  gate_beta (get_sets s ut (Fin tf) bd k) c x
  = Ok (let '(m, a, b) := params s bd tf k c in beta_ext m a b x).
Proof.
  intros W Hc Htf Hut. destruct (wf_table_nth _ _ _ W Hc) as (m & a & b & E & Ha & Hb).
  unfold params. rewrite E.
  assert (K : exists t, 0 < t /\ get_sets s ut (Fin tf) bd k = Some (get_beta_set (csv s bd k) (Fin t))
     /\ match k with KT => (Q2R m / tf, Q2R a / tf, Q2R b / tf) | _ => (Q2R m, Q2R a, Q2R b) end
        = (Q2R m / t, Q2R a / t, Q2R b / t)).
  { destruct k; try (exists 1; split; [lra|]; split;
      [unfold get_sets; rewrite lit_1; reflexivity | unfold Rdiv; rewrite Rinv_1, !Rmult_1_r; reflexivity]).
    exists tf. split; auto. simpl. rewrite Hut by auto. auto. }
  destruct K as (t & Ht & -> & ->). unfold gate_beta, get_beta_set. cbn [sa sb sm].
  rewrite (idx_ok _ c (Fin (Q2R a / t))); [|rewrite map_nth_error', E; cbn [fst snd]; rewrite cell_q, fdiv_fin by lra; reflexivity].
  rewrite (idx_ok _ c (Fin (Q2R b / t))); [|rewrite map_nth_error', E; cbn [fst snd]; rewrite cell_q, fdiv_fin by lra; reflexivity].
  rewrite (idx_ok _ c (Fin (Q2R m / t))); [|rewrite map_nth_error', E; cbn [fst snd]; rewrite cell_q, fdiv_fin by lra; reflexivity].
  cbn [bind]. change (@f32 xr _) with (fun x : xr => x). cbv beta.
  apply beta_gate_xr.
  - apply Rgt_not_eq. apply Rdiv_lt_0_compat; lra.
  - apply Rdiv_lt_0_compat; lra.
Qed.

Lemma membership_range s bd tf c k x : 0 <= membership s bd tf c k x <= 1.
Proof.
  unfold membership. destruct (params s bd tf k c) as ((m, a), b). destruct x; simpl; try lra.
  pose proof (beta_spec_range m a b r). lra.
Qed.

Lemma beta_ext_val m a b x : x <> NaN -> beta_ext m a b x = Fin (beta_val m a b x).
Proof. destruct x; try reflexivity; contradiction. Qed.
