(** Bounds of the fuzzy-logic scores in IEEE-754 arithmetic. *)
From Coq Require Import Reals Lra Lia ZArith QArith Floats.SpecFloat.
From Flocq Require Import Core IEEE754.BinarySingleNaN.
From Verif Require Import Base.Num Base.ListFacts Base.XReal Base.Ieee.
From Verif Require Import Model.Tables Model.Beta Model.TTraps Model.Hid.
From Verif Require Import Spec.HidSpec Spec.IeeeSpec.
From Verif Require Import Proofs.IeeeSign Proofs.HidProofs Proofs.SummerProofs Proofs.SummerReal Proofs.CoreProofs.
Open Scope R_scope.

Section B.
Variables (prec emax p32 e32 : Z).
Context (Hp : Prec_gt_0 prec) (He : Prec_lt_emax prec emax).
Context (Hp3 : Prec_gt_0 p32) (He3 : Prec_lt_emax p32 e32).
Notation bf := (binary_float prec emax).
Variables (np1 : bool) (lm : libm bf).
Hypothesis Lm : pow_signs prec emax Hp He lm.
#[local] Instance fo : FloatOps bf := ieee_ops prec emax p32 e32 Hp He Hp3 He3 np1 lm.
Notation v := (val prec emax).

(** sign bit clear, and NaN or at most c *)
Definition bnd (c x : bf) : Prop := Bsign x = false /\ ub (v x) (v c).

Lemma v_f32 x : v (f32 x) = rndx prec emax (rndx p32 e32 (v x)).
Proof. change (v (conv p32 e32 prec emax Hp He (conv prec emax p32 e32 Hp3 He3 x)) = rndx prec emax (rndx p32 e32 (v x))).
  now rewrite !val_conv. Qed.
Lemma s_f32 x : Bsign x = false -> Bsign (f32 x) = false.
Proof. intro. now apply s_conv, s_conv. Qed.
Lemma s_fnp x : Bsign x = false -> Bsign (fnp x) = false.
Proof. intro. change (Bsign ((if np1 then b_f32 prec emax p32 e32 Hp He Hp3 He3 else fun x => x) x) = false).
  destruct np1; auto. now apply s_f32. Qed.
Lemma ub_f32 x y : ub (v x) (v y) -> ub (v (f32 x)) (v (f32 y)).
Proof.
  rewrite !v_f32. intros [-> |H]; [now left|right]. apply rndx_mono; auto. now apply rndx_mono.
Qed.
Lemma ub_fnp x y : ub (v x) (v y) -> ub (v (fnp x)) (v (fnp y)).
Proof.
  change (ub (v x) (v y) -> ub (v ((if np1 then b_f32 prec emax p32 e32 Hp He Hp3 He3 else fun x => x) x))
    (v ((if np1 then b_f32 prec emax p32 e32 Hp He Hp3 He3 else fun x => x) y))).
  destruct np1; auto. apply ub_f32.
Qed.
Lemma bnd_f32 c x : bnd c x -> bnd (f32 c) (f32 x).
Proof. intros (S & U). split; [now apply s_f32|now apply ub_f32]. Qed.
Lemma bnd_fnp c x : bnd c x -> bnd (fnp c) (fnp x).
Proof. intros (S & U). split; [now apply s_fnp|now apply ub_fnp]. Qed.
Lemma bnd_trans c d x : bnd c x -> xle (v c) (v d) = true -> bnd d x.
Proof. intros (S & U) H. split; auto. eapply ub_trans; eauto. Qed.
Lemma bnd_nan x : v x = NaN -> forall c, bnd c x.
Proof. intros H c. split; [|now left]. destruct x as [|[]| |]; try discriminate; auto. Qed.

Lemma v_1 : v (flit 1) = Fin 1.
Proof. change (v (b_lit prec emax Hp He 1) = Fin 1). rewrite val_lit by auto. cbn [Qnum Qden].
  unfold Rdiv. rewrite Rinv_1, Rmult_1_r. now apply rnd_1. Qed.
Lemma v_0 : v (flit 0) = Fin 0.
Proof. reflexivity. Qed.
Lemma s_1 : Bsign (@flit bf _ 1) = false.
Proof. apply s_lit. discriminate. Qed.
Lemma v_f32_1 : v (f32 (flit 1)) = Fin 1.
Proof. rewrite v_f32, v_1. cbn [rndx]. rewrite (rnd_1 p32 e32) by auto. cbn [rndx]. now apply rnd_1. Qed.
Lemma v_fix x : rndx prec emax (v x) = v x.
Proof.
  destruct (is_finite x) eqn:E. - rewrite val_finite by auto. cbn [rndx]. now apply val_fmt.
  - destruct x as [|[]| |]; try discriminate; reflexivity.
Qed.

(** ** Arithmetic *)
Lemma bnd_mul c x y : (exists r, v c = Fin r) -> Bsign c = false -> bnd c x -> bnd (flit 1) y -> bnd c (fmul x y).
Proof.
  intros (r & Hr) Sc (Sx & Ux) (Sy & Uy). split; [now apply s_mul|].
  pose proof (s_xr _ _ x Sx) as Px. pose proof (s_xr _ _ y Sy) as Py.
  change (ub (v (Bmult mode_NE x y)) (v c)). rewrite val_mult by auto. rewrite <- (v_fix c).
  rewrite v_1 in Uy. rewrite Hr in *.
  destruct (v x) as [a| | |]; destruct (v y) as [b| | |]; try contradiction;
    try (left; reflexivity); try (destruct Ux as [?|?]; discriminate); try (destruct Uy as [?|?]; discriminate).
  right. apply rndx_mono; auto. cbn. apply Rleb_true.
  destruct Ux as [?|Ux]; [discriminate|]. destruct Uy as [?|Uy]; [discriminate|].
  cbn in Ux, Uy. apply Rleb_true in Ux. apply Rleb_true in Uy. nra.
Qed.

Lemma bnd_add c d x y : Bsign c = false -> Bsign d = false -> v c <> NaN -> v d <> NaN ->
  bnd c x -> bnd d y -> bnd (fadd c d) (fadd x y).
Proof.
  intros Sc Sd Nc Nd (Sx & Ux) (Sy & Uy). split; [now apply s_plus|].
  pose proof (s_xr _ _ x Sx) as Px. pose proof (s_xr _ _ y Sy) as Py.
  pose proof (s_xr _ _ c Sc) as Pc. pose proof (s_xr _ _ d Sd) as Pd.
  change (ub (v (Bplus mode_NE x y)) (v (Bplus mode_NE c d))). rewrite !val_plus by auto.
  destruct (v x) as [a| | |]; destruct (v y) as [b| | |]; try contradiction;
    try (left; reflexivity); right; apply rndx_mono; auto;
  destruct Ux as [?|Ux]; try discriminate; destruct Uy as [?|Uy]; try discriminate;
  destruct (v c) as [c'| | |]; try contradiction; try discriminate;
  destruct (v d) as [d'| | |]; try contradiction; try discriminate; cbn in *; auto.
  apply Rleb_true in Ux. apply Rleb_true in Uy. apply Rleb_true. lra.
Qed.

Lemma bnd_div c x w : (exists r, v c = Fin r) -> (exists r, v w = Fin r /\ 0 < r) -> Bsign w = false ->
  bnd c x -> bnd (fdiv c w) (fdiv x w).
Proof.
  intros (c' & Hc) (w' & Hw & P) Sw (Sx & Ux). split; [now apply s_div|].
  pose proof (s_xr _ _ x Sx) as Px.
  change (ub (v (Bdiv mode_NE x w)) (v (Bdiv mode_NE c w))).
  assert (N : v w <> Fin 0) by (rewrite Hw; intro E; injection E; lra).
  rewrite !val_div by auto. rewrite Hc, Hw in *.
  destruct (v x) as [a| | |]; try contradiction; try (left; reflexivity);
    destruct Ux as [?|Ux]; try discriminate.
  right. apply rndx_mono; auto. cbn in Ux |- *. apply Rleb_true in Ux. destruct Req_EM_T; [lra|].
  cbn. apply Rleb_true. unfold Rdiv. apply Rmult_le_compat_r; auto. left. now apply Rinv_0_lt_compat.
Qed.

Lemma zero_div c x w : v c = Fin 0 -> v w = Fin 0 -> bnd c x -> v (fdiv x w) = NaN.
Proof.
  intros Hc Hw (Sx & Ux). rewrite Hc in Ux. pose proof (s_xr _ _ x Sx) as Px.
  change (v (Bdiv mode_NE x w) = NaN).
  assert (Wz : exists s, w = B754_zero s).
  { destruct w as [s|[]| |s m e H]; try discriminate; eauto. exfalso. cbn in Hw. injection Hw as Hw.
    apply eq_0_F2R in Hw. destruct s; discriminate. }
  destruct Wz as (s' & ->).
  destruct x as [s|[]| |s m e H]; try reflexivity; cbn in *; try contradiction.
  - destruct Ux; discriminate.
  - destruct Ux as [?|Ux]; [discriminate|]. subst s. apply Rleb_true in Ux.
    assert (0 < F2R (Float radix2 (Zpos m) e)) by now apply F2R_gt_0. cbn in *. lra.
Qed.

(** ** Membership functions *)
Lemma beta_den (q : bf) : Bsign q = false ->
  Bsign (fadd (flit 1) q) = false /\ (v (fadd (flit 1) q) = NaN \/ xle (Fin 1) (v (fadd (flit 1) q)) = true).
Proof.
  intro Sq. split. { apply s_plus; auto. apply s_1. }
  pose proof (s_xr _ _ q Sq) as Pq.
  change (v (fadd (flit 1) q)) with (v (Bplus mode_NE (flit 1) q)). rewrite val_plus, v_1 by auto.
  destruct (v q) as [r| | |]; try contradiction; auto. right. cbn [xadd rndx].
  rewrite <- (rnd_1 prec emax Hp He). apply rnd_mono; auto. lra.
Qed.

Lemma beta_bnd (q : bf) : Bsign q = false -> bnd (flit 1) (fdiv (flit 1) (fadd (flit 1) q)).
Proof.
  intro Sq. destruct (beta_den q Sq) as (Sd & D). set (d := fadd (flit 1) q) in *.
  split. { apply s_div; auto. apply s_1. }
  change (ub (v (Bdiv mode_NE (flit 1) d)) (v (flit 1))).
  assert (N : v d <> Fin 0).
  { destruct D as [-> | D]; [discriminate|]. intro E. rewrite E in D. apply Rleb_true in D. lra. }
  rewrite val_div, v_1 by auto. destruct D as [-> | D]; [now left|].
  destruct (v d) as [r| | |]; try discriminate.
  - apply Rleb_true in D. cbn [xdiv]. destruct Req_EM_T; [lra|]. cbn [rndx]. right.
    rewrite <- (rnd_1 prec emax Hp He). apply rnd_mono; auto.
    apply Rmult_le_reg_r with r; [lra|]. field_simplify; lra.
  - cbn. right. rewrite rnd_0 by auto. cbn. apply Rleb_true. lra.
Qed.

Lemma s_member (x a b m : bf) : Bsign (fpow (fpow x (flit 2)) b) = false.
Proof. apply (pow_pos _ _ _ _ _ Lm), (pow_sq _ _ _ _ _ Lm). Qed.

Lemma gate_beta_bnd x a b m y : hid_beta_gate x a b m = Ok y -> bnd (flit 1) y.
Proof.
  unfold hid_beta_gate. destruct (feq a (flit 0)); [discriminate|]. cbv zeta.
  destruct (feq _ (flit 0)); [discriminate|]. intro E. 
  match type of E with Ok ?z = _ => assert (y = z) as -> by congruence end.
  eapply bnd_trans; [apply bnd_f32, beta_bnd|].
  - now apply s_member.
  - rewrite v_f32_1, v_1. apply Rleb_true. lra.
Qed.

(** the compiled routine never divides by zero: 1 + q is at least 1 *)
Lemma gate_beta_ok x a b m : feq a (flit 0) = false -> exists y, hid_beta_gate x a b m = Ok y.
Proof.
  intro Ha. unfold hid_beta_gate. rewrite Ha. cbv zeta.
  match goal with |- context [feq (fadd (flit 1) ?q) _] => destruct (beta_den q) as (_ & D); [now apply s_member|];
    set (d := fadd (flit 1) q) in * end.
  replace (feq d (flit 0)) with false; [eauto|]. symmetry.
  change (Beqb d (b_lit prec emax Hp He 0) = false). rewrite val_eq. change (v (b_lit prec emax Hp He 0)) with (Fin 0).
  destruct D as [-> |D]; auto. destruct (v d); auto; try discriminate. cbn in *.
  apply Rleb_true in D. apply Reqb_false. lra.
Qed.

Lemma gbeta_bnd set c x y : gate_beta set c x = Ok y -> bnd (flit 1) y.
Proof.
  destruct set as [s|]; [|discriminate]. intro E. apply bind_ok in E as (a & _ & E).
  apply bind_ok in E as (b & _ & E). apply bind_ok in E as (m & _ & E). now apply gate_beta_bnd in E.
Qed.

(** ** Weighted sums *)
(** the terms, the sum and the score of a gate whose memberships are all 1 *)
Definition term1 (vv : key -> bool) (w : key -> bf) (k : key) : bf := f32 (f32 (fmul (flag (vv k)) (w k))).
Definition sum1 (l : list bf) : bf :=
  match l with [] => flit 0 | r :: rs => fold_left (fun x y => f32 (fadd x y)) rs r end.
Definition okterm (t : bf) : bool := (fle (flit 0) t && negb (Bsign t))%bool.
Definition finite (t : bf) : bool := is_finite t.

Lemma fin_v t : is_finite t = true -> exists r, v t = Fin r.
Proof. intro H. exists (B2R t). now apply val_finite. Qed.

Lemma fold_bnd : forall cs rs c r, Forall2 bnd cs rs -> bnd c r ->
  Forall (fun c => Bsign c = false /\ v c <> NaN) cs -> Bsign c = false -> v c <> NaN ->
  bnd (fold_left (fun x y => f32 (fadd x y)) cs c) (fold_left (fun x y => f32 (fadd x y)) rs r).
Proof.
  intros cs; induction cs as [|c1 cs IH]; intros rs c r F2 B Fc Sc Nc; inversion F2; subst; cbn [fold_left]; auto.
  inversion Fc as [|? ? (S1 & N1) Fc']; subst. apply IH; auto.
  - apply bnd_f32, bnd_add; auto.
  - apply s_f32. now apply s_plus.
  - rewrite v_f32. change (v (fadd c c1)) with (v (Bplus mode_NE c c1)). rewrite val_plus by auto.
    pose proof (s_xr _ _ c Sc). pose proof (s_xr _ _ c1 S1).
    assert (RN : forall p e z, z <> NaN -> rndx p e z <> NaN).
    { intros p e [z| | |] Hz; cbn; auto. apply rnd_not_nan. }
    apply RN, RN, RN. destruct (v c), (v c1); try contradiction; cbn; congruence.
Qed.

(** a term is at most its weight *)
Lemma term_bnd (vv : key -> bool) w k bt : Bsign (fmul (flag (vv k)) (w k)) = false ->
  (exists r, v (f32 (fmul (flag (vv k)) (w k))) = Fin r) -> bnd (flit 1) bt ->
  bnd (term1 vv w k) (f32 (fmul (f32 (fmul (flag (vv k)) (w k))) bt)).
Proof.
  intros Sw Fw B. apply bnd_f32. apply bnd_mul; auto. now apply s_f32.
  split; [now apply s_f32|]. destruct Fw as (r & ->). right. apply Rleb_true. lra.
Qed.

(** what must be checked of the weights (by computation) so that no score
    exceeds [C] *)
Definition weights_check (C : bf) (vv : key -> bool) (w : key -> bf) (pr : key -> bool) (vl : list key) : bool :=
  let ks := filter pr vl in
  let ts := map (term1 vv w) ks in
  let ws := fnp (weight_sum vv w vl) in
  (forallb (fun k => negb (Bsign (fmul (flag (vv k)) (w k))) && is_finite (f32 (fmul (flag (vv k)) (w k)))
                     && is_finite (term1 vv w k) && negb (Bsign (term1 vv w k))) ks
   && negb (Bsign ws) && is_finite ws && is_finite (sum1 ts)
   && ((Bltb (flit 0) ws && Bleb (fnp (fdiv (sum1 ts) ws)) C)
       || (Beqb ws (flit 0) && Beqb (sum1 ts) (flit 0))))%bool.

Lemma xle_v x y : Bleb x y = true -> xle (v x) (v y) = true.
Proof. now rewrite val_le. Qed.

Lemma calc_bnd C vv w sets vl c g y pr : (forall k, In k vl -> pr k = match g k with Some _ => true | None => false end) ->
  weights_check C vv w pr vl = true ->
  gate_calc vv w sets vl (weight_sum vv w vl) c g = Ok y -> bnd C y.
Proof.
  intros Hpr W E. unfold weights_check in W. cbv zeta in W.
  repeat (apply andb_prop in W as (W & ?)). rename H into Hc, H0 into Hs, H1 into Hf, H2 into Hn.
  rewrite forallb_forall in W.
  unfold gate_calc in E. apply bind_ok in E as (rows & Er & E). apply mapM_inv in Er.
  (* rows against the bounds *)
  assert (R : Forall2 bnd (map (term1 vv w) (filter pr vl)) rows).
  { clear E Hc Hs Hf Hn. revert rows Er. induction vl as [|k vl IH]; intros rows Er; cbn [flat_map filter map app] in *.
    - inversion Er. constructor.
    - rewrite (Hpr k) in * by now left. destruct (g k) as [x|].
      + cbn [app] in Er. inversion Er as [|? z ? zs Ez Er']; subst. cbn [map]. constructor.
        * apply bind_ok in Ez as (bt & Eb & Ez).
          assert (z = f32 (fmul (f32 (fmul (flag (vv k)) (w k))) bt)) as -> by congruence.
          specialize (W k (or_introl eq_refl)). repeat (apply andb_prop in W as (W & ?)).
          apply term_bnd.
          -- now apply negb_true_iff.
          -- now apply fin_v.
          -- eapply gbeta_bnd; eauto.
        * apply IH; auto. { intros; apply Hpr; now right. } intros k' Hk'. apply W. now right.
      + apply IH; auto. intros; apply Hpr; now right. }
  assert (FT : Forall (fun c => Bsign c = false /\ v c <> NaN) (map (term1 vv w) (filter pr vl))).
  { apply Forall_forall. intros t Ht. apply in_map_iff in Ht as (k & <- & Hk). specialize (W k Hk).
    repeat (apply andb_prop in W as (W & ?)). split; [now apply negb_true_iff|].
    apply fin_v in H0 as (r & ->). discriminate. }
  destruct rows as [|r rs]; [discriminate|]. cbn [gsum] in E.
  destruct (map (term1 vv w) (filter pr vl)) as [|t ts] eqn:Et; [inversion R|].
  inversion R as [|? ? ? ? R1 R2]; subst. inversion FT as [|? ? (T1 & T2) FT']; subst.
  assert (SB : bnd (sum1 (t :: ts)) (fold_left (fun x y => f32 (fadd x y)) rs r)) by (apply fold_bnd; auto).
  set (ws := fnp (weight_sum vv w vl)) in *. set (S := fold_left _ rs r) in *.
  assert (y = fnp (fdiv S ws)) as -> by congruence.
  apply fin_v in Hs. apply fin_v in Hf. apply negb_true_iff in Hn.
  apply orb_prop in Hc as [Hc|Hc]; apply andb_prop in Hc as (H1 & H2).
  - apply (bnd_trans (fnp (fdiv (sum1 (t :: ts)) ws))); [|now apply xle_v].
    apply bnd_fnp, bnd_div; auto. destruct Hf as (q & Hq). exists q. split; auto.
    rewrite val_lt, Hq in H1 by auto. change (v (flit 0)) with (Fin 0) in H1. now apply Rltb_true in H1.
  - apply bnd_nan. rewrite val_eq in H1, H2 by auto.
    assert (Zr : forall z, xeq (v z) (v (flit 0)) = true -> v z = Fin 0).
    { intros z Hz. change (v (flit 0)) with (Fin 0) in Hz. destruct (v z); try discriminate.
      cbn in Hz. apply Reqb_true in Hz. now subst. }
    apply Zr in H1. apply Zr in H2.
    assert (D : v (fdiv S ws) = NaN) by (eapply zero_div; eauto).
    change (v ((if np1 then b_f32 prec emax p32 e32 Hp He Hp3 He3 else fun x => x) (fdiv S ws)) = NaN).
    destruct np1; auto. change (v (f32 (fdiv S ws)) = NaN). rewrite v_f32, D. reflexivity.
Qed.

(** ** A whole score *)
Lemma row_bnd C hyb pol ut calc bT bZ c y :
  (exists r, v C = Fin r) -> Bsign C = false -> xle (Fin 1) (v C) = true -> xle (v (fnp C)) (v C) = true ->
  (pol = true \/ hyb = false -> forall t, calc c = Ok t -> bnd C t) ->
  (forall t, bT c = Ok t -> bnd (flit 1) t) -> (forall t, bZ c = Ok t -> bnd (flit 1) t) ->
  gate_row hyb pol ut calc bT bZ c = Ok y -> bnd C y.
Proof.
  intros FC SC C1 CN Hc HT HZ. unfold gate_row.
  assert (M : forall x z, bnd C x -> bnd (flit 1) z -> bnd C (fnp (fmul x z))).
  { intros x z Hx Hz. eapply bnd_trans; [apply bnd_fnp, bnd_mul; eauto|exact CN]. }
  assert (O : forall x, bnd (flit 1) x -> bnd C x) by (intros x Hx; eapply bnd_trans; [exact Hx|now rewrite v_1]).
  destruct hyb.
  - destruct pol.
    + intro E. apply bind_ok in E as (t & Et & E). specialize (Hc (or_introl eq_refl) _ Et). destruct ut.
      * apply bind_ok in E as (b & Eb & E). apply bind_ok in E as (z & Ez & E).
        assert (y = fnp (fmul (fnp (fmul t b)) z)) as -> by congruence. auto.
      * apply bind_ok in E as (z & Ez & E). assert (y = fnp (fmul t z)) as -> by congruence. auto.
    + destruct ut; intro E; auto.
      apply bind_ok in E as (b & Eb & E). apply bind_ok in E as (z & Ez & E).
      assert (y = f32 (fmul b z)) as -> by congruence. apply O.
      eapply bnd_trans; [apply bnd_f32, (bnd_mul (flit 1)); auto|].
      * exists 1. apply v_1.
      * apply s_1.
      * rewrite v_f32_1, v_1. apply Rleb_true. lra.
  - intro E. apply Hc; auto.
Qed.

(** ** Signs with any weights *)
Lemma s_flag (b : bool) : Bsign (@flag bf _ b) = false.
Proof. destruct b; [apply s_1|reflexivity]. Qed.
Lemma wsum_s vv (w : key -> bf) vl : (forall k, Bsign (w k) = false) -> Bsign (weight_sum vv w vl) = false.
Proof.
  intro Hw. unfold weight_sum.
  assert (S : forall x, In x (map (fun k => fmul (flag (vv k)) (w k)) vl) -> Bsign x = false).
  { intros x Hx. apply in_map_iff in Hx as (k & <- & _). apply s_mul; auto. apply s_flag. }
  destruct (map _ vl) as [|x l]; [reflexivity|]. cbn [fsum].
  assert (Sx : Bsign x = false) by (apply S; now left). assert (Sl : forall z, In z l -> Bsign z = false) by (intros; apply S; now right).
  clear S. revert x Sx. induction l as [|y l IH]; intros x Sx; cbn [fold_left]; auto.
  apply IH. { intros; apply Sl; now right. } apply s_plus; auto. apply Sl; now left.
Qed.
Lemma calc_s vv w sets vl c g y : (forall k, Bsign (w k) = false) ->
  gate_calc vv w sets vl (weight_sum vv w vl) c g = Ok y -> Bsign y = false.
Proof.
  intros Hw E. unfold gate_calc in E. apply bind_ok in E as (rows & Er & E). apply mapM_inv in Er.
  assert (R : forall z, In z rows -> Bsign z = false).
  { clear E. induction Er as [|(k, x) z l zs Ez Er IH]; intros z' Hz; [contradiction|]. destruct Hz as [<- |Hz]; auto.
    apply bind_ok in Ez as (bt & Eb & Ez).
    assert (z = f32 (fmul (f32 (fmul (flag (vv k)) (w k))) bt)) as -> by congruence.
    apply s_f32. apply s_mul; auto; [apply s_f32, s_mul; auto using s_flag|]. now apply gbeta_bnd in Eb as (? & _). }
  destruct rows as [|r rs]; [discriminate|]. cbn [gsum] in E.
  assert (y = fnp (fdiv (fold_left (fun x y => f32 (fadd x y)) rs r) (fnp (weight_sum vv w vl)))) as -> by congruence.
  apply s_fnp. apply s_div; auto; [|now apply s_fnp, wsum_s].
  assert (Sr : Bsign r = false) by (apply R; now left). assert (Sl : forall z, In z rs -> Bsign z = false) by (intros; apply R; now right).
  clear -Sr Sl. revert r Sr. induction rs as [|x rs IH]; intros r Sr; cbn [fold_left]; auto.
  apply IH. { intros; apply Sl; now right. } apply s_f32, s_plus; auto. apply Sl; now left.
Qed.
Lemma row_s hyb pol ut calc bT bZ c y :
  (forall t, calc c = Ok t -> Bsign t = false) ->
  (forall t, bT c = Ok t -> Bsign t = false) -> (forall t, bZ c = Ok t -> Bsign t = false) ->
  gate_row hyb pol ut calc bT bZ c = Ok y -> Bsign y = false.
Proof.
  intros Hc HT HZ. unfold gate_row. destruct hyb; [|apply Hc]. destruct pol.
  - intro E. apply bind_ok in E as (t & Et & E). specialize (Hc _ Et). destruct ut.
    + apply bind_ok in E as (b & Eb & E). apply bind_ok in E as (z & Ez & E).
      assert (y = fnp (fmul (fnp (fmul t b)) z)) as -> by congruence.
      apply s_fnp, s_mul; auto. apply s_fnp, s_mul; auto.
    + apply bind_ok in E as (z & Ez & E). assert (y = fnp (fmul t z)) as -> by congruence. apply s_fnp, s_mul; auto.
  - destruct ut; intro E; auto.
    apply bind_ok in E as (b & Eb & E). apply bind_ok in E as (z & Ez & E).
    assert (y = f32 (fmul b z)) as -> by congruence. apply s_f32, s_mul; auto.
Qed.
End B.

(** ** The whole array *)
Section Core.
Variables (prec emax p32 e32 : Z).
Context (Hp : Prec_gt_0 prec) (He : Prec_lt_emax prec emax).
Context (Hp3 : Prec_gt_0 p32) (He3 : Prec_lt_emax p32 e32).
Notation bf := (binary_float prec emax).
Variables (np1 : bool) (lm : libm bf).
Hypothesis Lm : pow_signs prec emax Hp He lm.
#[local] Instance fo2 : FloatOps bf := ieee_ops prec emax p32 e32 Hp He Hp3 He3 np1 lm.
Notation v := (val prec emax).
Notation bnd := (bnd prec emax).
Notation wcheck := (weights_check prec emax p32 e32 Hp He Hp3 He3 np1 lm).

Lemma concat_in {A} (rows : list (list A)) sz n x :
  (forall r, In r rows -> length r = sz) -> nth_error (concat rows) n = Some x ->
  exists j i, (j < length rows)%nat /\ (i < sz)%nat /\ n = (j * sz + i)%nat.
Proof.
  intros L Hx. pose proof (nth_error_lt _ _ Hx) as Hn. rewrite (concat_length sz) in Hn by auto.
  assert (sz <> 0)%nat by lia. exists (n / sz)%nat, (n mod sz)%nat. repeat split.
  - apply Nat.div_lt_upper_bound; lia.
  - now apply Nat.mod_upper_bound.
  - rewrite (Nat.div_mod n sz) at 1 by auto. lia.
Qed.

(** [vv]: variables used; [pr]: variables supplied *)
Definition all_checks (C : bf) (w : key -> bf) (vl : list key) : Prop :=
  forall vv pr, (forall k, pr k = true -> k = KT \/ vv k = true) -> wcheck C vv w pr vl = true.

Lemma core_bnd C s ut w method a tf bd types rows n x : types <> [] ->
  is_finite C = true -> Bsign C = false -> Bleb (flit 1) C = true -> Bleb (fnp C) C = true ->
  (forall c vl, In c types -> vl = pol_keys \/ vl = all_keys -> all_checks C (fun k => w k c) vl) ->
  core s ut w method a tf bd types = Ok rows -> nth_error (concat rows) n = Some x -> bnd C x.
Proof.
  intros Ht FC SC C1 CN W E Hx. destruct (core_scores _ _ _ _ _ _ _ _ _ Ht E) as (L & Lr & G).
  destruct (concat_in _ _ _ _ Lr Hx) as (j & i & Hj & Hi & ->). rewrite L in Hj.
  destruct (nth_error_map_some types (i:=j)) as (c & Hc); auto.
  destruct (G j c i Hc Hi) as (y & Hy & Ey). rewrite Hx in Hy. assert (y = x) as -> by congruence.
  unfold core_gate in Ey. destruct (varlist method) as [vl|] eqn:Evl; [|discriminate]. cbv zeta in Ey.
  set (ut' := if supplied (a KT) then ut else false) in *.
  set (g := fun k => option_map f32 (at_gate (a k) i)) in *.
  rewrite val_le in C1, CN by auto. assert (V1 : v (flit 1) = Fin 1) by exact (v_1 prec emax p32 e32 Hp He Hp3 He3 np1 lm). rewrite V1 in C1.
  eapply (row_bnd prec emax p32 e32 Hp He Hp3 He3 np1 lm C); [..|exact Ey]; auto.
  - now apply fin_v.
  - intros _ t Et. eapply (calc_bnd prec emax p32 e32 Hp He Hp3 He3 np1 lm Lm C) with
      (pr := fun k => match g k with Some _ => true | None => false end); [..|exact Et]; auto.
    apply W. { eapply nth_error_In; eauto. }
    + apply varlist_cases in Evl as [(_ & ->)|(_ & _ & ->)]; auto.
    + intros k Hk. unfold g in Hk.
      assert (supplied (a k) = true) by (destruct (a k); auto). destruct k; auto.
  - intros t Et. unfold g in Et. destruct (option_map f32 (at_gate (a KT) i)); [|discriminate].
    eapply gbeta_bnd; eauto.
  - intros t Et. unfold g in Et. destruct (option_map f32 (at_gate (a KDZ) i)); [|discriminate].
    eapply gbeta_bnd; eauto.
Qed.

Lemma core_s s ut w method a tf bd types rows n x : types <> [] ->
  (forall c k, Bsign (w k c) = false) ->
  core s ut w method a tf bd types = Ok rows -> nth_error (concat rows) n = Some x -> Bsign x = false.
Proof.
  intros Ht W E Hx. destruct (core_scores _ _ _ _ _ _ _ _ _ Ht E) as (L & Lr & G).
  destruct (concat_in _ _ _ _ Lr Hx) as (j & i & Hj & Hi & ->). rewrite L in Hj.
  destruct (nth_error_map_some types (i:=j)) as (c & Hc); auto.
  destruct (G j c i Hc Hi) as (y & Hy & Ey). rewrite Hx in Hy. assert (y = x) as -> by congruence.
  unfold core_gate in Ey. destruct (varlist method) as [vl|] eqn:Evl; [|discriminate]. cbv zeta in Ey.
  eapply (row_s prec emax p32 e32 Hp He Hp3 He3 np1 lm); [..|exact Ey].
  - intros t Et. eapply (calc_s prec emax p32 e32 Hp He Hp3 He3 np1 lm Lm); [|exact Et]. intro; apply W.
  - intros t Et. destruct (option_map f32 (at_gate (a KT) i)); [|discriminate].
    eapply (gbeta_bnd prec emax p32 e32 Hp He Hp3 He3 np1 lm Lm) in Et as (? & _); auto.
  - intros t Et. destruct (option_map f32 (at_gate (a KDZ) i)); [|discriminate].
    eapply (gbeta_bnd prec emax p32 e32 Hp He Hp3 He3 np1 lm Lm) in Et as (? & _); auto.
Qed.

(** *** by enumeration *)
Definition ofb (b : bool * bool * bool * bool * bool * bool) (k : key) : bool :=
  let '(b1, b2, b3, b4, b5, b6) := b in
  match k with KDR => b1 | KKD => b2 | KRH => b3 | KLD => b4 | KT => b5 | KDZ => b6 end.
Definition bits : list (bool * bool * bool * bool * bool * bool) :=
  let B := [true; false] in
  list_prod (list_prod (list_prod (list_prod (list_prod B B) B) B) B) B.
Lemma bits_all b : In b bits.
Proof. destruct b as (((((b1, b2), b3), b4), b5), b6). unfold bits.
  repeat apply in_prod; repeat match goal with b : bool |- _ => destruct b; clear b end; cbn; auto. Qed.
Definition keqb (j k : key) : bool :=
  match j, k with KDR, KDR | KKD, KKD | KRH, KRH | KLD, KLD | KT, KT | KDZ, KDZ => true | _, _ => false end.
Lemma keqb_eq j k : keqb j k = true <-> j = k.
Proof. destruct j, k; cbn; split; intro; congruence. Qed.
Definition mem (vl : list key) (k : key) : bool := existsb (keqb k) vl.
Lemma mem_in vl k : In k vl -> mem vl k = true.
Proof. intro. apply existsb_exists. exists k. split; auto. now apply keqb_eq. Qed.
(** the settings of the variables of [vl] *)
Definition bits_of (vl : list key) :=
  filter (fun b => forallb (fun k => implb (ofb b k) (mem vl k)) [KDR; KKD; KRH; KLD; KT; KDZ]) bits.
Definition enum_check (C : bf) (w : key -> bf) (vl : list key) : bool :=
  forallb (fun b => forallb (fun p =>
    if forallb (fun k => implb (ofb p k) (ofb b k)) [KDR; KKD; KRH; KLD; KDZ]
    then wcheck C (ofb b) w (ofb p) vl else true) (bits_of vl)) (bits_of vl).

Lemma enum_ext C w w' vl : (forall k, In k vl -> w k = w' k) -> enum_check C w vl = enum_check C w' vl.
Proof.
  intro Hw. unfold enum_check.
  assert (FE : forall A (f g : A -> bool) l, (forall k, In k l -> f k = g k) -> forallb f l = forallb g l).
  { intros A f g l' Hfg. induction l' as [|k' ? IH]; cbn; auto. rewrite Hfg, IH; auto; cbn; auto.
    intros; apply Hfg; cbn; auto. }
  apply FE. intros b _. apply FE. intros p _. destruct (forallb _ _); auto.
  unfold weights_check, weight_sum. cbv zeta.
  set (l := filter (ofb p) vl). assert (Hl : forall k, In k l -> In k vl) by (intros k Hk; now apply filter_In in Hk).
  assert (M1 : map (term1 prec emax p32 e32 Hp He Hp3 He3 np1 lm (ofb b) w) l
             = map (term1 prec emax p32 e32 Hp He Hp3 He3 np1 lm (ofb b) w') l).
  { apply map_ext_in. intros k Hk. unfold term1. rewrite Hw; auto. }
  assert (M2 : map (fun k => fmul (flag (ofb b k)) (w k)) vl = map (fun k => fmul (flag (ofb b k)) (w' k)) vl).
  { apply map_ext_in. intros k Hk. now rewrite Hw. }
  change (fo2) with (fo prec emax p32 e32 Hp He Hp3 He3 np1 lm) in M2.
  rewrite M1, M2.
  match goal with |- (forallb ?f ?l && _ && _ && _ && _)%bool = (forallb ?g ?l && _ && _ && _ && _)%bool =>
    rewrite (FE _ f g l); [reflexivity|] end.
  intros k Hk. unfold term1. rewrite Hw; auto.
Qed.

Lemma enum_ok C w vl : enum_check C w vl = true -> all_checks C w vl.
Proof.
  unfold enum_check, all_checks. intros H vv pr I. rewrite forallb_forall in H.
  pose (m := fun (f : key -> bool) k => (f k && mem vl k)%bool).
  pose (bb := fun f : key -> bool => (m f KDR, m f KKD, m f KRH, m f KLD, m f KT, m f KDZ)).
  assert (X0 : forall f k, ofb (bb f) k = m f k) by (intros f []; reflexivity).
  assert (B : forall f, In (bb f) (bits_of vl)).
  { intro f. apply filter_In. split; [apply bits_all|]. apply forallb_forall. intros k _. rewrite X0. unfold m.
    destruct (f k), (mem vl k); reflexivity. }
  specialize (H (bb vv) (B vv)). rewrite forallb_forall in H. specialize (H (bb pr) (B pr)).
  assert (X : forall f k, In k vl -> ofb (bb f) k = f k).
  { intros f k Hk. rewrite X0. unfold m. rewrite mem_in by auto. apply andb_true_r. }
  replace (forallb _ [KDR; KKD; KRH; KLD; KDZ]) with true in H.
  2:{ symmetry. apply forallb_forall. intros k Hk. rewrite !X0. unfold m. specialize (I k).
      destruct (pr k); auto. destruct I as [-> | ->]; auto.
      - cbn in Hk. decompose [or] Hk; try discriminate; contradiction.
      - cbn. now destruct (mem vl k). }
  rewrite <- H. unfold weights_check, weight_sum. cbv zeta.
  assert (Fi : filter pr vl = filter (ofb (bb pr)) vl)
    by (apply filter_ext_in; intros; symmetry; now apply X).
  rewrite Fi.
  set (l := filter (ofb (bb pr)) vl). assert (Hl : forall k, In k l -> In k vl) by (intros k Hk; now apply filter_In in Hk).
  assert (M1 : map (term1 prec emax p32 e32 Hp He Hp3 He3 np1 lm vv w) l
             = map (term1 prec emax p32 e32 Hp He Hp3 He3 np1 lm (ofb (bb vv)) w) l).
  { apply map_ext_in. intros k Hk. unfold term1. rewrite X; auto. }
  assert (M2 : map (fun k => fmul (flag (vv k)) (w k)) vl = map (fun k => fmul (flag (ofb (bb vv) k)) (w k)) vl).
  { apply map_ext_in. intros k Hk. now rewrite X. }
  change (fo2) with (fo prec emax p32 e32 Hp He Hp3 He3 np1 lm) in M2.
  rewrite M1, M2.
  assert (FE : forall (f g : key -> bool) l, (forall k, In k l -> f k = g k) -> forallb f l = forallb g l).
  { intros f g l' Hfg. induction l' as [|k' ? IH]; cbn; auto. rewrite Hfg, IH; auto; cbn; auto.
    intros; apply Hfg; cbn; auto. }
  match goal with |- (forallb ?f ?l && _ && _ && _ && _)%bool = (forallb ?g ?l && _ && _ && _ && _)%bool =>
    rewrite (FE f g l); [reflexivity|] end.
  intros k Hk. unfold term1. rewrite X; auto.
Qed.
End Core.
