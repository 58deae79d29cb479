(** * C85: the trapezoid functions of csu_t_traps.py called with arbitrary corners *)
From Coq Require Import Reals Lra Lia.
From Verif Require Import Base.Num Base.ListFacts Base.XReal Base.XTac Base.Pointwise Base.XArith.
From Verif Require Import Model.TTraps Proofs.TrapProofs.
Open Scope R_scope.

(** A trapezoid: level [a] left of x1, straight to [b] on [x1,x2], [b] up to
    x3, straight to [c] on [x3,x4], level [e] to the right. *)
Definition trapezoid (a b c e x1 x2 x3 x4 t : R) : R :=
  if Rlt_dec t x1 then a
  else if Rle_dec t x2 then a + (b - a) * ((t - x1) / (x2 - x1))
  else if Rle_dec t x3 then b
  else if Rle_dec t x4 then b + (c - b) * ((t - x3) / (x4 - x3))
  else e.

Ltac gates :=
  intros; etransitivity; [solve [unfold setc, setv, win, wle, wge; pw]|]; f_equal;
  cbn [cast]; unfold fabs, fle, flt, fadd, fsub, fmul, fdiv, flit;
  cbn [xr_ops xle xadd xsub xneg xabs andb xlit Qnum Qden]; unfold xlit; cbn [Qnum Qden].
(** every element of [xs]: the gate's value is [f] of its temperature *)
Definition at_each (out xs : list xr) (f : R -> R) : Prop :=
  length out = length xs /\
  forall i t, nth_error xs i = Some (Fin t) -> nth_error out i = Some (Fin (f t)).

Lemma abs_pm x : (0 <= x /\ Rabs x = x) \/ (x < 0 /\ Rabs x = - x).
Proof. destruct (Rle_dec 0 x); [left; split; auto; apply Rabs_pos_eq; lra|right; split; [lra|apply Rabs_left; lra]]. Qed.

(** corners on both sides of 0: x1 < x2 <= 0 <= x3 < x4 *)
Section Four.
Variables x1 x2 x3 x4 : R.
Hypothesis H12 : x1 < x2.
Hypothesis H2 : x2 <= 0.
Hypothesis H3 : 0 <= x3.
Hypothesis H34 : x3 < x4.

Lemma abs_slopes : Rabs x1 = - x1 /\ Rabs x4 = x4 /\ Rabs (Rabs x1 + - Rabs x2) = x2 - x1 /\
  Rabs (Rabs x4 + - Rabs x3) = x4 - x3.
Proof.
  rewrite (Rabs_left x1), (Rabs_pos_eq x4), (Rabs_pos_eq x3), (Rabs_left1 x2) by lra.
  rewrite !Rabs_pos_eq by lra. repeat split; lra.
Qed.

Ltac four :=
  destruct abs_slopes as (A1 & A4 & A12 & A34);
  split; [unfold setc, setv, win, wle, wge; pwlen|]; gates;
  rewrite ?A12, ?A34, ?A1, ?A4;
  repeat (rewrite xdiv_fin by lra); cbn [xmul xadd xsub xneg xabs]; unfold trapezoid;
  rdec; f_equal; try (field; lra);
  try (assert (x2 = 0) by lra; assert (x3 = 0) by lra; match goal with t : R |- _ => assert (t = 0) by lra end; subst; field; lra);
  match goal with t : R |- _ => assert (t = x3) by lra end; subst; field; lra.

Lemma four_agg xs : at_each (t_trap_agg DFloat xs (Fin x1) (Fin x2) (Fin x3) (Fin x4)) xs
  (trapezoid (1/2) 1 0 (-1) x1 x2 x3 x4).
Proof. unfold t_trap_agg. four. Qed.
Lemma four_ldg xs : at_each (t_trap_ldg DFloat xs (Fin x1) (Fin x2) (Fin x3) (Fin x4)) xs
  (trapezoid (1/2) 1 0 (-1) x1 x2 x3 x4).
Proof. unfold t_trap_ldg. four. Qed.
Lemma four_hdg xs : at_each (t_trap_hdg DFloat xs (Fin x1) (Fin x2) (Fin x3) (Fin x4)) xs
  (trapezoid (3/10) 1 (-1) (-1) x1 x2 x3 x4).
Proof. unfold t_trap_hdg. four. Qed.
Lemma four_ha xs : at_each (t_trap_ha DFloat xs (Fin x1) (Fin x2) (Fin x3) (Fin x4)) xs
  (trapezoid (1/5) (4/5) (1/5) (1/5) x1 x2 x3 x4).
Proof. unfold t_trap_ha. four. Qed.
End Four.

(** Corners on both sides of 0: the four-corner functions are the trapezoids
    through their corners; aggregates and low-density graupel drop from 0 to -1
    at the last corner. *)
Theorem C85_four_corners :
  forall (xs : list xr) x1 x2 x3 x4, x1 < x2 -> x2 <= 0 -> 0 <= x3 -> x3 < x4 ->
  at_each (t_trap_agg DFloat xs (Fin x1) (Fin x2) (Fin x3) (Fin x4)) xs (trapezoid (1/2) 1 0 (-1) x1 x2 x3 x4) /\
  at_each (t_trap_ldg DFloat xs (Fin x1) (Fin x2) (Fin x3) (Fin x4)) xs (trapezoid (1/2) 1 0 (-1) x1 x2 x3 x4) /\
  at_each (t_trap_hdg DFloat xs (Fin x1) (Fin x2) (Fin x3) (Fin x4)) xs (trapezoid (3/10) 1 (-1) (-1) x1 x2 x3 x4) /\
  at_each (t_trap_ha DFloat xs (Fin x1) (Fin x2) (Fin x3) (Fin x4)) xs (trapezoid (1/5) (4/5) (1/5) (1/5) x1 x2 x3 x4).
Proof. auto using four_agg, four_ldg, four_hdg, four_ha. Qed.

(** Otherwise the ramps move: with a positive first corner the rising ramp of
    the aggregates function lies above the trapezoid by x1/(x2-x1), starting
    above its own plateau when x2 < 3 x1. *)
Theorem C85_positive_corners_shift_ramp :
  forall (xs : list xr) x1 x2 x3 x4 i t, 0 < x1 -> x1 < x2 -> x2 < x3 -> x3 < x4 ->
  nth_error xs i = Some (Fin t) -> x1 <= t <= x2 ->
  exists v, nth_error (t_trap_agg DFloat xs (Fin x1) (Fin x2) (Fin x3) (Fin x4)) i = Some (Fin v) /\
    v = trapezoid (1/2) 1 0 (-1) x1 x2 x3 x4 t + x1 / (x2 - x1) /\
    (x2 < 3 * x1 -> 1 < v).
Proof.
  intros xs x1 x2 x3 x4 i t P1 P12 P23 P34 E Ht. unfold t_trap_agg.
  eexists. split; [|split; [reflexivity|]].
  - revert E. gates.
    rewrite (Rabs_pos_eq x1), (Rabs_pos_eq x2), (Rabs_pos_eq x3), (Rabs_pos_eq x4) by lra.
    rewrite (Rabs_left (x1 + - x2)), (Rabs_pos_eq (x4 + - x3)) by lra.
    repeat (rewrite xdiv_fin by lra); cbn [xmul xadd xsub xneg xabs]; unfold trapezoid.
    rdec; f_equal; field; lra.
  - intro H3. unfold trapezoid. rdec.
    assert (0 < x2 - x1) by lra.
    assert (0 <= (t - x1) / (x2 - x1)) by (apply Rmult_le_pos; [lra|left; apply Rinv_0_lt_compat; lra]).
    assert (1 / 2 < x1 / (x2 - x1)).
    { apply Rmult_lt_reg_r with (x2 - x1); auto. replace (x1 / (x2 - x1) * (x2 - x1)) with x1 by (field; lra). lra. }
    lra.
Qed.

Definition two_levels (l r : R) (ramp : R -> R) (x1 x2 t : R) : R :=
  if Rlt_dec t x1 then l else if Rle_dec t x2 then ramp t else r.

Ltac two := split; [unfold setc, setv, win, wle, wge; pwlen|]; gates.

(** The two-corner functions at any corners x1 < x2.  The ramp of the drizzle
    and big-drop functions ends at 2/(|x1|+|x2|), not at 1; those of rain and
    ice crystals have slope 1/|x1+x2|, not 1/(x2-x1). *)
Theorem C85_two_corners :
  forall (xs : list xr) x1 x2, x1 < x2 ->
  at_each (t_trap_dz DFloat xs (Fin x1) (Fin x2)) xs
    (two_levels (-1) 1 (fun t => 2 / (Rabs x1 + Rabs x2) * ((t - x1) / (x2 - x1))) x1 x2) /\
  at_each (t_trap_bd DFloat xs (Fin x1) (Fin x2)) xs
    (two_levels (-1) 1 (fun t => 2 / (Rabs x1 + Rabs x2) * ((t - x1) / (x2 - x1))) x1 x2) /\
  at_each (t_trap_ws DFloat xs (Fin x1) (Fin x2)) xs (two_levels (-1) (-1) (fun _ => 1) x1 x2) /\
  (x1 + x2 <> 0 ->
   at_each (t_trap_rain DFloat xs (Fin x1) (Fin x2)) xs
     (two_levels (-1) 1 (fun t => (t - x1) / Rabs (x1 + x2)) x1 x2) /\
   at_each (t_trap_ic DFloat xs (Fin x1) (Fin x2)) xs
     (two_levels 1 (-1) (fun t => 1 - (t - x1) / Rabs (x1 + x2)) x1 x2)).
Proof.
  intros xs x1 x2 H.
  assert (P : 0 < Rabs x1 + Rabs x2) by (destruct (abs_pm x1) as [[? ->]|[? ->]], (abs_pm x2) as [[? ->]|[? ->]]; lra).
  assert (Q : forall t, x1 <= t -> Rabs (2 / 1 / (Rabs x1 + Rabs x2) * (t + - x1) / (x2 + - x1))
     = 2 / (Rabs x1 + Rabs x2) * ((t - x1) / (x2 - x1))).
  { intros t Ht. rewrite Rabs_pos_eq; [field; lra|].
    apply Rmult_le_pos; [apply Rmult_le_pos; [apply Rmult_le_pos; [lra|left; apply Rinv_0_lt_compat; lra]|lra]|
      left; apply Rinv_0_lt_compat; lra]. }
  split; [|split; [|split]].
  - unfold t_trap_dz. two. rewrite (Rabs_pos_eq (Rabs x1 + Rabs x2)) by lra.
    repeat (rewrite xdiv_fin by lra); cbn [xmul xadd xsub xneg xabs].
    repeat (rewrite xdiv_fin by lra); cbn [xmul xadd xsub xneg xabs].
    unfold two_levels. rdec; f_equal; try lra; rewrite Q by lra; reflexivity.
  - unfold t_trap_bd. two. rewrite (Rabs_pos_eq (Rabs x1 + Rabs x2)) by lra.
    repeat (rewrite xdiv_fin by lra); cbn [xmul xadd xsub xneg xabs].
    repeat (rewrite xdiv_fin by lra); cbn [xmul xadd xsub xneg xabs].
    unfold two_levels. rdec; f_equal; try lra; rewrite Q by lra; reflexivity.
  - unfold t_trap_ws. two. unfold two_levels. rdec; f_equal; lra.
  - intro H0. assert (P0 : 0 < Rabs (x2 + x1)) by (apply Rabs_pos_lt; lra).
    assert (Q0 : forall t, x1 <= t -> Rabs (1 / 1 / Rabs (x2 + x1) * (t + - x1)) = (t - x1) / Rabs (x1 + x2)).
    { intros t Ht. rewrite (Rplus_comm x1 x2). rewrite Rabs_pos_eq; [field; lra|].
      apply Rmult_le_pos; [|lra]. apply Rmult_le_pos; [lra|left; apply Rinv_0_lt_compat; lra]. }
    split.
    + unfold t_trap_rain. two. repeat (rewrite xdiv_fin by lra); cbn [xmul xadd xsub xneg xabs].
      unfold two_levels. rdec; f_equal; try lra; apply Q0; lra.
    + unfold t_trap_ic. two. repeat (rewrite xdiv_fin by lra); cbn [xmul xadd xsub xneg xabs].
      unfold two_levels. rdec; f_equal; try lra; rewrite Q0 by lra; lra.
Qed.

(** Corners symmetric about 0 make the rain and ice-crystal ramps divide by 0:
    NaN at the first corner, infinite on the rest of the ramp. *)
Theorem C85_symmetric_corners_divide_by_zero :
  forall (xs : list xr) a i t, 0 < a -> nth_error xs i = Some (Fin t) ->
  (t = - a ->
   nth_error (t_trap_rain DFloat xs (Fin (- a)) (Fin a)) i = Some NaN /\
   nth_error (t_trap_ic DFloat xs (Fin (- a)) (Fin a)) i = Some NaN) /\
  (- a < t <= a ->
   nth_error (t_trap_rain DFloat xs (Fin (- a)) (Fin a)) i = Some PInf /\
   nth_error (t_trap_ic DFloat xs (Fin (- a)) (Fin a)) i = Some NInf).
Proof.
  intros xs a i t Ha E.
  assert (S : xdiv (Fin (1 / 1)) (Fin (Rabs (a + - a))) = PInf).
  { replace (a + - a) with 0 by lra. rewrite Rabs_R0. unfold xdiv, xinf.
    repeat match goal with |- context [Req_EM_T ?x ?y] => destruct (Req_EM_T x y); try lra
      | |- context [Rlt_dec ?x ?y] => destruct (Rlt_dec x y); try lra end; reflexivity. }
  assert (M : forall u, xmul PInf (Fin u) = if Req_EM_T u 0 then NaN else if Rlt_dec 0 u then PInf else NInf).
  { intro u. cbn [xmul]. unfold xinf. repeat match goal with |- context [Req_EM_T ?x ?y] => destruct (Req_EM_T x y); try lra
      | |- context [Rlt_dec ?x ?y] => destruct (Rlt_dec x y); try lra end; reflexivity. }
  split; intro Ht; (split; [unfold t_trap_rain|unfold t_trap_ic]); revert E; gates;
    rewrite S, M;
    repeat match goal with |- context [Req_EM_T ?x ?y] => destruct (Req_EM_T x y); try lra
      | |- context [Rlt_dec ?x ?y] => destruct (Rlt_dec x y); try lra end; rdec; reflexivity.
Qed.

(** ** The hypotheses are met *)
Example C85_ex : at_each (t_trap_agg DFloat [Fin (-30); Fin 2] (Fin (-35)) (Fin (-25)) (Fin 0) (Fin 5)) [Fin (-30); Fin 2]
  (trapezoid (1/2) 1 0 (-1) (-35) (-25) 0 5) /\ trapezoid (1/2) 1 0 (-1) (-35) (-25) 0 5 (-30) = 3/4.
Proof. split; [apply C85_four_corners; lra|unfold trapezoid; rdec; field]. Qed.
