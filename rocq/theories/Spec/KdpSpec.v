(** * What the KDP routine should compute, on real numbers *)
From Coq Require Import Reals List Arith.
Import ListNotations.
Open Scope R_scope.

(** numbers above 10^35 mark missing points for the Fortran line fit *)
Definition huge : R := IZR 100000000000000000000000000000000000.

Fixpoint rsum (l : list R) : R := match l with [] => 0 | x :: r => x + rsum r end.
Definition avg (l : list R) : R := rsum l / INR (length l).
(** population standard deviation *)
Definition popstd (l : list R) : R := sqrt (avg (map (fun x => (x - avg l) ^ 2) l)).

(** n elements from position i *)
Definition slice {A} (l : list A) (i n : nat) : list A := firstn n (skipn i l).
Definition differs (b x : R) : bool := if Req_EM_T x b then false else true.

(** the phase standard deviation at gate i: window of h gates on either side,
    missing value b *)
Definition sd_spec (h : nat) (b : R) (dp : list R) (i : nat) : R :=
  if ((h <=? i) && (i + h <? length dp))%nat%bool then
    let v := filter (differs b) (slice dp (i - h) (2 * h + 1)) in
    if (h <? length v)%nat then popstd v else 100
  else 100.

(** sum of squared residuals of the line y = a x + b *)
Definition ss (a b : R) (pts : list (R * R)) : R :=
  rsum (map (fun p => (snd p - (a * fst p + b)) ^ 2) pts).
(** (a, b) is the one best line *)
Definition best_line (pts : list (R * R)) (a b : R) : Prop :=
  (forall a' b', ss a b pts <= ss a' b' pts) /\
  (forall a' b', ss a' b' pts = ss a b pts -> a' = a /\ b' = b).
(** all points at the same range *)
Definition same_x (pts : list (R * R)) : Prop := forall p q, In p pts -> In q pts -> fst p = fst q.

(** sum of products *)
Definition dot (w z : list R) : R := rsum (map (fun p => fst p * snd p) (combine w z)).
(** coefficients that read the same backwards and sum to 1 *)
Definition smoothing (w : list R) : Prop := rev w = w /\ rsum w = 1.
(** equally spaced ranges: gate j at r0 + j d *)
Definition gate_range (r0 d : R) (j : nat) : R := r0 + INR j * d.

(** the adaptive window, in gates, for half a filter window of h gates *)
Definition adaptive (h : nat) (dz : R) : nat :=
  if Rlt_dec dz 35 then 3 * h else if Rlt_dec dz 45 then 2 * h else h.
(** the valid (range, filtered phase) pairs within k gates of gate i; [incl]
    says whether the gate i + k takes part; none if the window leaves the ray *)
Definition window_points (incl : bool) (b : R) (pairs : list (R * R)) (k i : nat) : list (R * R) :=
  if ((k <=? i) && (i + k <? length pairs))%nat%bool
  then filter (fun p => differs b (snd p)) (slice pairs (i - k) (2 * k + if incl then 1 else 0))
  else [].

(** a straight-line fitting routine: for points at two or more ranges it returns
    the one line with the least sum of squares *)
Definition fits_lines (fit : list (R * R) -> option (R * R)) : Prop :=
  forall pts, ~ same_x pts -> exists a b, fit pts = Some (a, b) /\ best_line pts a b.
