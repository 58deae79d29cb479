(** The weights check of the default weights, by computation, for every subset
    of supplied variables and both summation lists. *)
From Coq Require Import Reals ZArith QArith List.
From Flocq Require Import Core IEEE754.BinarySingleNaN.
From Verif Require Import Base.Num Base.Ieee.
From Verif Require Import Model.Tables Model.Hid.
From Verif Require Import Spec.HidSpec Spec.IeeeSpec Proofs.IeeeScores.
Import ListNotations.

Section Enum.
Variable lm : libm double.
Notation one := (b_lit 53 1024 p53 e1024 1).
(** 1 + 2^-24 *)
Notation one' := (b_lit 53 1024 p53 e1024 (Qmake 16777217 16777216)).

Lemma summer_enum1 : forallb (enum_check 53 1024 24 128 p53 e1024 p24 e128 true lm one
    (fun k => @summer_weights _ (double_ops true lm) k)) [pol_keys; all_keys] = true.
Proof. vm_cast_no_check (eq_refl true). Qed.
Lemma summer_enum2 : forallb (enum_check 53 1024 24 128 p53 e1024 p24 e128 false lm one'
    (fun k => @summer_weights _ (double_ops false lm) k)) [pol_keys; all_keys] = true.
Proof. vm_cast_no_check (eq_refl true). Qed.
Lemma winter_enum np : forallb (fun c => forallb (enum_check 53 1024 24 128 p53 e1024 p24 e128 np lm one
    (fun k => @winter_weights _ (double_ops np lm) k c)) [pol_keys; all_keys]) [0; 3; 4]%nat = true.
Proof. destruct np; vm_cast_no_check (eq_refl true). Qed.
Lemma ml1_enum np : forallb (enum_check 53 1024 24 128 p53 e1024 p24 e128 np lm one
    (fun k => @ml1_weights _ (double_ops np lm) k 0%nat)) [pol_keys; all_keys] = true.
Proof. destruct np; vm_cast_no_check (eq_refl true). Qed.
End Enum.
