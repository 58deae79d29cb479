(** Proofs about csu_t_traps.py: refinement of the array program to
    [Spec.TrapSpec.trap_spec]. *)
From Coq Require Import Reals Lra Lia.
From Verif Require Import Base.Num Base.ListFacts Base.XReal Base.XTac Base.Pointwise Base.XArith.
From Verif Require Import Model.TTraps Spec.TrapSpec.
Open Scope R_scope.

Ltac rabs := repeat match goal with |- context [Rabs ?a] =>
  first [rewrite (Rabs_pos_eq a) by lra | rewrite (Rabs_left a) by lra] end.

Ltac rabs2 := repeat match goal with |- context [Rabs ?a] =>
  first [rewrite (Rabs_pos_eq a) by (first [lra | field_simplify; lra])] end.

Ltac rdec := repeat match goal with |- context [if ?b then _ else _] =>
  match b with
  | Rlt_dec ?x ?y => destruct (Rlt_dec x y)
  | Rle_dec ?x ?y => destruct (Rle_dec x y)
  | Rltb ?x ?y => destruct (Rltb_spec x y)
  | Rleb ?x ?y => destruct (Rleb_spec x y)
  | (Rleb ?x ?y && _)%bool => destruct (Rleb_spec x y)
  | (_ && Rleb ?x ?y)%bool => destruct (Rleb_spec x y)
  end; cbn [andb]; try lra end.

(** the value at one gate for any temperature, finite or not *)
Definition trap_x (c : nat) (x : xr) : xr :=
  match x with
  | Fin r => Fin (trap_spec c r)
  | PInf => Fin (trap_spec c 100) | NInf => Fin (trap_spec c (-100))
  | NaN => Fin 0
  end.

Ltac litz := repeat match goal with |- context [@flit xr _ (Qmake ?z 1)] =>
    rewrite (lit_int z) end.
Ltac trapgate :=
  intros; etransitivity; [solve [unfold setc, setv, win, wle, wge; pw]|]; f_equal;
  litz; cbn [cast];
  let x := match goal with |- context [trap_x _ ?x] => x end in
  destruct x as [r| | |];
  unfold fabs, fle, flt, fadd, fsub, fmul, fdiv, flit; cbn [xr_ops xle xadd xsub xneg xabs andb xlit Qnum Qden trap_x];
  unfold trap_spec, xlit; cbn [Qnum Qden];
  [ | | | reflexivity ];
  rdec; rabs; repeat (rewrite xdiv_fin by lra); cbn [xmul xadd xsub xneg xabs];
  rabs; repeat (rewrite xdiv_fin by lra); cbn [xmul xadd xsub xneg xabs];
  try solve [f_equal; rabs2; first [reflexivity | lra | field | field_simplify_eq; lra]].

Lemma trap_dz_at xs i x : nth_error xs i = Some x ->
  nth_error (t_trap_dz DFloat xs (flit (-3)) (flit (-1))) i = Some (trap_x 0 x).
Proof. unfold t_trap_dz. trapgate. Qed.
Lemma trap_rain_at xs i x : nth_error xs i = Some x ->
  nth_error (t_trap_rain DFloat xs (flit (-10)) (flit (-2))) i = Some (trap_x 1 x).
Proof. unfold t_trap_rain. trapgate. Qed.
Lemma trap_ic_at xs i x : nth_error xs i = Some x ->
  nth_error (t_trap_ic DFloat xs (flit 0) (flit 5)) i = Some (trap_x 2 x).
Proof. unfold t_trap_ic. trapgate. Qed.
Lemma trap_agg_at xs i x : nth_error xs i = Some x ->
  nth_error (t_trap_agg DFloat xs (flit (-35)) (flit (-25)) (flit 0) (flit 5)) i
  = Some (trap_x 3 x).
Proof. unfold t_trap_agg. trapgate. Qed.
Lemma trap_ws_at xs i x : nth_error xs i = Some x ->
  nth_error (t_trap_ws DFloat xs (flit (-3)) (flit 3)) i = Some (trap_x 4 x).
Proof. unfold t_trap_ws. trapgate. Qed.
Lemma trap_ldg_at xs i x : nth_error xs i = Some x ->
  nth_error (t_trap_ldg DFloat xs (flit (-40)) (flit (-30)) (flit 0) (flit 5)) i
  = Some (trap_x 6 x).
Proof. unfold t_trap_ldg. trapgate. Qed.
Lemma trap_hdg_at xs i x : nth_error xs i = Some x ->
  nth_error (t_trap_hdg DFloat xs (flit (-30)) (flit (-20)) (flit 5) (flit 30)) i
  = Some (trap_x 7 x).
Proof. unfold t_trap_hdg. trapgate. Qed.
Lemma trap_ha_at xs i x : nth_error xs i = Some x ->
  nth_error (t_trap_ha DFloat xs (flit (-30)) (flit (-20)) (flit 5) (flit 15)) i
  = Some (trap_x 8 x).
Proof. unfold t_trap_ha. trapgate. Qed.
Lemma trap_bd_at xs i x : nth_error xs i = Some x ->
  nth_error (t_trap_bd DFloat xs (flit (-2)) (flit 1)) i = Some (trap_x 9 x).
Proof. unfold t_trap_bd. trapgate. Qed.
