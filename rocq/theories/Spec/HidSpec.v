(** * What the fuzzy-logic scores are, per gate and per class

    Independent of the array programs: memberships, parameters read from the
    shipped tables, weighted mean ("linear") and product form ("hybrid"). *)
From Coq Require Import Reals QArith Qreals List.
From Verif Require Import Base.Num Base.XReal Model.Tables.
Import ListNotations.
Open Scope R_scope.

(** y ** b for y >= 0, b > 0 *)
Definition pow0 (y b : R) : R := if Req_EM_T y 0 then 0 else Rpower y b.

(** the membership function of the module docstring of beta_functions.py *)
Definition beta_spec (m a b x : R) : R := 1 / (1 + pow0 (((x - m) / a) ^ 2) b).

(** membership of any measurement: 0 at +-inf, NaN at NaN *)
Definition beta_ext (m a b : R) (x : xr) : xr :=
  match x with Fin r => Fin (beta_spec m a b r) | PInf | NInf => Fin 0 | NaN => NaN end.
Definition beta_val (m a b : R) (x : xr) : R :=
  match x with Fin r => beta_spec m a b r | _ => 0 end.

(** parameters (m, a, b) of class c: the table row; T rows divided by temp_factor *)
Definition params (s : season) (bd : band) (tf : R) (k : key) (c : nat) : R * R * R :=
  match nth_error (csv s bd k) c with
  | Some (Some m, Some a, Some b) =>
      match k with
      | KT => (Q2R m / tf, Q2R a / tf, Q2R b / tf)
      | _ => (Q2R m, Q2R a, Q2R b)
      end
  | _ => (0, 1, 1)
  end.

(** membership of measurement x of variable k in class c *)
Definition membership (s : season) (bd : band) (tf : R) (c : nat) (k : key) (x : xr) : R :=
  let '(m, a, b) := params s bd tf k c in beta_val m a b x.

(** a field as the caller passed it *)
Definition supplied {F} (p : pyarg F) : bool := match p with ANone => false | _ => true end.
Definition at_gate {F} (p : pyarg F) (i : nat) : option F :=
  match p with
  | ANone => None
  | AScalar _ x => match i with O => Some x | _ => None end
  | AArr v => nth_error (adata v) i
  end.
Definition size {F} (p : pyarg F) : nat :=
  match p with AArr v => List.length (adata v) | _ => 1%nat end.
Definition shape {F} (p : pyarg F) : list nat := match p with AArr v => ashape v | _ => [] end.
Definition field_ok {F} (p : pyarg F) : Prop := match p with AArr v => arr_ok v | _ => True end.

Definition pol_keys := [KDR; KKD; KRH; KLD].
Definition all_keys := [KDR; KKD; KRH; KLD; KT; KDZ].

(** sum of f over the keys of [vl] satisfying [u] *)
Definition ksum (vl : list key) (u : key -> bool) (f : key -> R) : R :=
  fold_right (fun k s => (if u k then f k else 0) + s) 0 vl.

(** weighted mean of the memberships [B] of the used variables *)
Definition wmean (vl : list key) (u : key -> bool) (w B : key -> R) : R :=
  ksum vl u (fun k => w k * B k) / ksum vl u w.

Definition any_pol (u : key -> bool) : bool := existsb u pol_keys.

(** the two scoring methods documented at csu_fhc.py:65-67 *)
Definition linear_score (u : key -> bool) (w B : key -> R) : R := wmean all_keys u w B.
Definition hybrid_score (u : key -> bool) (w B : key -> R) : R :=
  (if any_pol u then wmean pol_keys u w B else 1) * (if u KT then B KT else 1) * B KDZ.

(** the variables that take part in a summer score *)
Definition used {F} (a : key -> pyarg F) (use_temp : bool) (k : key) : bool :=
  match k with KT => (supplied (a KT) && use_temp)%bool | _ => supplied (a k) end.
