(** Tactics for the extended-real instance. *)
From Verif Require Import Base.Num Base.XReal.
From Coq Require Import Reals Lra.
Open Scope R_scope.

(** Unfold the float interface at [xr] and turn literals into reals. *)
Ltac xs := cbn [fadd fsub fmul fdiv fpow fabs fsqrt flog10 flog fsin fcos fasin fpi fnan
  flt fle feq flit ftrunc f32 fnp xr_ops xlit Qnum Qden xadd xsub xneg xmul xlt xle xeq
  xabs fisnan] in *.

Ltac xcase :=
  match goal with
  | |- context [Rltb ?a ?b] => destruct (Rltb_spec a b)
  | |- context [Rleb ?a ?b] => destruct (Rleb_spec a b)
  | |- context [Reqb ?a ?b] => destruct (Reqb_spec a b)
  end.

(** hypotheses [Rltb a b = true] etc. into inequalities *)
Ltac xprop :=
  repeat match goal with
  | H : Rltb _ _ = true |- _ => apply Rltb_true in H
  | H : Rltb _ _ = false |- _ => apply Rltb_false in H
  | H : Rleb _ _ = true |- _ => apply Rleb_true in H
  | H : Rleb _ _ = false |- _ => apply Rleb_false in H
  | H : Reqb _ _ = true |- _ => apply Reqb_true in H
  | H : Reqb _ _ = false |- _ => apply Reqb_false in H
  | H : (_ && _)%bool = true |- _ => apply andb_true_iff in H; destruct H
  | H : (_ || _)%bool = false |- _ => apply orb_false_iff in H; destruct H
  | H : negb _ = true |- _ => apply negb_true_iff in H
  | H : negb _ = false |- _ => apply negb_false_iff in H
  end.
