(** * C115: the trapezoid temperature memberships in double precision *)
From Coq Require Import Reals Lra Lia ZArith QArith.
From Flocq Require Import Core IEEE754.BinarySingleNaN.
From Verif Require Import Base.Num Base.ListFacts Base.XReal Base.Ieee Spec.IeeeSpec.
From Verif Require Import Model.TTraps Spec.TrapSpec.
From Verif Require Import Proofs.IeeeSign Proofs.HidErr Proofs.TrapErr.
From Verif Require Import Properties.P28_Ieee Properties.P06_Traps Spec.LibmSpec.
Open Scope R_scope.
#[local] Existing Instances p53 e1024 p24 e128.

Section Traps.
Variables (np1 : bool) (lm : libm double).
#[local] Instance dop : FloatOps double := double_ops np1 lm.

(** Every class, every array of doubles: twelve digits of the documented
    piecewise-linear function, at the break points and jumps too; infinite
    temperatures behave like the outermost pieces; NaN gives exactly 0. *)
Theorem C115_traps c (xs : list double) : (c <= 9)%nat ->
  exists out, get_hid_traps DFloat c xs = Ok out /\ length out = length xs /\
    (forall i x t, nth_error xs i = Some x -> denotes x t ->
       exists y v, nth_error out i = Some y /\ denotes y v /\ Rabs (v - trap_spec c t) <= 1 / 10 ^ 12) /\
    (forall i, nth_error xs i = Some (B754_infinity false) ->
       exists y v, nth_error out i = Some y /\ denotes y v /\ Rabs (v - trap_spec c 100) <= 1 / 10 ^ 12) /\
    (forall i, nth_error xs i = Some (B754_infinity true) ->
       exists y v, nth_error out i = Some y /\ denotes y v /\ Rabs (v - trap_spec c (-100)) <= 1 / 10 ^ 12) /\
    (forall i, nth_error xs i = Some B754_nan -> exists y, nth_error out i = Some y /\ denotes y 0).
Proof.
  intro Hc.
  assert (E : exists out, get_hid_traps DFloat c xs = Ok out).
  { do 10 (destruct c as [|c]; [eexists; reflexivity|]). lia. }
  destruct E as (out & E). exists out. split; [exact E|]. split; [exact (trap_len _ _ _ _ _ _ E)|].
  pose proof (fun x => trap_near np1 lm c x Hc) as N. pose proof (gate_at np1 lm c xs out) as G.
  split; [|split; [|split]].
  - intros i x t Hi X. destruct (N x) as (v & V & D). unfold denotes in X. rewrite X in D. exists (gate_of np1 lm c x), v.
    split; [exact (G i x E Hi)|]. split; [exact V|exact D].
  - intros i Hi. destruct (N (B754_infinity false)) as (v & V & D). exists (gate_of np1 lm c (B754_infinity false)), v.
    split; [exact (G i _ E Hi)|]. split; [exact V|exact D].
  - intros i Hi. destruct (N (B754_infinity true)) as (v & V & D). exists (gate_of np1 lm c (B754_infinity true)), v.
    split; [exact (G i _ E Hi)|]. split; [exact V|exact D].
  - intros i Hi. exists (gate_of np1 lm c B754_nan). split; [exact (G i _ E Hi)|].
    clear - Hc. do 10 (destruct c as [|c]; [reflexivity|]). lia.
Qed.

(** so no membership leaves [-1, 1] by more than 10^-12 *)
Theorem C115_range c (xs out : list double) i y : get_hid_traps DFloat c xs = Ok out -> nth_error out i = Some y ->
  exists v, denotes y v /\ - 1 - 1 / 10 ^ 12 <= v <= 1 + 1 / 10 ^ 12.
Proof.
  intros E Hy. assert (Hc : (c <= 9)%nat).
  { destruct (Nat.le_gt_cases c 9); auto. rewrite C46_out_of_range in E by lia. discriminate. }
  assert (L := trap_len _ _ _ _ _ _ E).
  destruct (nth_error xs i) as [x|] eqn:Ex.
  - pose proof (gate_at np1 lm c xs out i x E Ex) as G. assert (y = gate_of np1 lm c x) as -> by congruence.
    destruct (trap_near np1 lm c x Hc) as (v & V & D). exists v. split; [exact V|].
    assert (B : -1 <= trapv c (Ieee.val 53 1024 x) <= 1).
    { unfold trapv. destruct (Ieee.val 53 1024 x); try apply trap_spec_range; lra. }
    assert (A : Rabs (v - trapv c (Ieee.val 53 1024 x)) <= 1 / 10 ^ 12) by exact D. apply Rabs_le_inv in A. lra.
  - apply nth_error_None in Ex. apply nth_error_lt in Hy. lia.
Qed.
End Traps.

(** ** A concrete case: jump, ramp, plateau, not a number *)
Example ex115 : (1 <= 9)%nat /\
  denotes (b_lit 53 1024 p53 e1024 (Qmake (-2) 1)) (-2) /\ trap_spec 1 (-2) = 2 / 3 /\ trap_spec 1 (-1) = 1.
Proof.
  split; [lia|]. split; [apply (EdgeRain.lit_int (-2)); lia|].
  unfold trap_spec. split; repeat (destruct Rlt_dec; try lra); repeat (destruct Rle_dec; try lra).
Qed.
