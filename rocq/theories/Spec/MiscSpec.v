(** * Specification vocabulary for csu_misc (independent of the model) *)
From Coq Require Import List ZArith.
Set Implicit Arguments.

(** Gate [i] belongs to a run of more than [n] consecutive gates that all
    satisfy [good]. *)
Definition in_long_run {A} (good : A -> Prop) (ray : list A) (n : Z) (i : nat) : Prop :=
  exists lo hi : nat,
    lo <= i < hi /\ (n < Z.of_nat hi - Z.of_nat lo)%Z /\
    forall j, lo <= j < hi -> exists x, nth_error ray j = Some x /\ good x.

(** [lo, hi) is the maximal run of good gates around gate [i]. *)
Definition maximal_run {A} (good : A -> Prop) (ray : list A) (i lo hi : nat) : Prop :=
  lo <= i < hi /\
  (forall j, lo <= j < hi -> exists x, nth_error ray j = Some x /\ good x) /\
  (forall j x, S j = lo -> nth_error ray j = Some x -> ~ good x) /\
  (forall x, nth_error ray hi = Some x -> ~ good x).
