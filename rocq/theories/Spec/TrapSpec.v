(** * What the trapezoid temperature memberships should be (csu_t_traps.py)

    A function of the class number (0-based) and the temperature in Celsius,
    written piece by piece. *)
From Coq Require Import Reals.
Open Scope R_scope.

Definition trap_spec (c : nat) (t : R) : R :=
  match c with
  | 0%nat => (* drizzle: -1, ramp of slope 1/4 on [-3,-1], 1 *)
      if Rlt_dec t (-3) then -1 else if Rle_dec t (-1) then (t + 3) / 4 else 1
  | 1%nat => (* rain *)
      if Rlt_dec t (-10) then -1 else if Rle_dec t (-2) then (t + 10) / 12 else 1
  | 2%nat | 5%nat => (* ice crystals, vertical ice *)
      if Rlt_dec t 0 then 1 else if Rle_dec t 5 then 1 - t / 5 else -1
  | 3%nat => (* aggregates *)
      if Rlt_dec t (-35) then 1 / 2 else if Rlt_dec t (-25) then 1 / 2 + (t + 35) / 20
      else if Rlt_dec t 0 then 1 else if Rle_dec t 5 then 1 - t / 5 else -1
  | 4%nat => (* wet snow *)
      if Rlt_dec t (-3) then -1 else if Rle_dec t 3 then 1 else -1
  | 6%nat => (* low-density graupel *)
      if Rlt_dec t (-40) then 1 / 2 else if Rlt_dec t (-30) then 1 / 2 + (t + 40) / 20
      else if Rlt_dec t 0 then 1 else if Rle_dec t 5 then 1 - t / 5 else -1
  | 7%nat => (* high-density graupel *)
      if Rlt_dec t (-30) then 3 / 10 else if Rlt_dec t (-20) then 3 / 10 + 7 * (t + 30) / 100
      else if Rlt_dec t 5 then 1 else if Rlt_dec t 30 then 1 - 2 * (t - 5) / 25 else -1
  | 8%nat => (* hail *)
      if Rlt_dec t (-30) then 1 / 5 else if Rlt_dec t (-20) then 1 / 5 + 6 * (t + 30) / 100
      else if Rlt_dec t 5 then 4 / 5 else if Rlt_dec t 15 then 4 / 5 - 6 * (t - 5) / 100
      else 1 / 5
  | _ => (* big drops *)
      if Rlt_dec t (-2) then -1 else if Rle_dec t 1 then 2 * (t + 2) / 9 else 1
  end.
