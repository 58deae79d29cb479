(** * Model of csu_radartools/csu_t_traps.py

    Arrays of any shape, raveled; [dt] is the dtype of the temperature array
    (np.zeros_like keeps it, so an integer array truncates every stored
    value). *)
From Verif Require Import Base.Num.
Set Implicit Arguments.
Open Scope fl_scope.

Section Traps.
Context {F : Type} `{FloatOps F}.
Variable dt : dtype.

(** np.where(x <= v), np.where(x >= v), np.where(logical_and(x >= u, x <= v)) *)
Definition wle (x : list F) (v : F) : list bool := map (fun t => t <=? v) x.
Definition wge (x : list F) (v : F) : list bool := map (fun t => t >=? v) x.
Definition win (x : list F) (u v : F) : list bool := land (wge x u) (wle x v).

(** beta[wh] = c and beta[wh] = test[wh] *)
Definition setc (wh : list bool) (c : F) (beta : list F) : list F := msetc wh (cast dt c) beta.
Definition setv (wh : list bool) (v beta : list F) : list F := mset wh (map (cast dt) v) beta.

(** csu_t_traps.py:83-100 *)
Definition t_trap_agg (x_arr : list F) (x1 x2 x3 x4 : F) : list F :=
  let beta := map (fun _ => #0) x_arr in
  let beta := setc (wle x_arr x1) #0.5 beta in
  let beta := setc (win x_arr x2 x3) #1 beta in
  let beta := setc (wge x_arr x4) (#(-1)) beta in
  let slope_x1_x2 := #0.5 / fabs (fabs x1 - fabs x2) in
  let slope_x3_x4 := #1 / fabs (fabs x4 - fabs x3) in
  let test1 := map (fun t => slope_x1_x2 * (fabs x1 + t) + #0.5) x_arr in
  let beta := setv (win x_arr x1 x2) test1 beta in
  let test2 := map (fun t => slope_x3_x4 * (fabs x4 - t)) x_arr in
  setv (win x_arr x3 x4) test2 beta.

(** csu_t_traps.py:102-114 *)
Definition t_trap_bd (x_arr : list F) (x1 x2 : F) : list F :=
  let beta := map (fun _ => #0) x_arr in
  let beta := setc (wle x_arr x1) (#(-1)) beta in
  let beta := setc (wge x_arr x2) #1 beta in
  let slope_x1_x2 := #2 / fabs (fabs x1 + fabs x2) in
  let test1 := map (fun t => fabs (slope_x1_x2 * (t - x1) / (x2 - x1))) x_arr in
  setv (win x_arr x1 x2) test1 beta.

(** csu_t_traps.py:116-128 (the stray print is not modelled) *)
Definition t_trap_dz (x_arr : list F) (x1 x2 : F) : list F :=
  let beta := map (fun _ => #0) x_arr in
  let beta := setc (wle x_arr x1) (#(-1)) beta in
  let beta := setc (wge x_arr x2) #1 beta in
  let slope_x1_x2 := #2 / fabs (fabs x1 + fabs x2) in
  let test1 := map (fun t => fabs (slope_x1_x2 * (t - x1) / (x2 - x1))) x_arr in
  setv (win x_arr x1 x2) test1 beta.

(** csu_t_traps.py:130-147 *)
Definition t_trap_ha (x_arr : list F) (x1 x2 x3 x4 : F) : list F :=
  let beta := map (fun _ => #0) x_arr in
  let beta := setc (wle x_arr x1) #0.2 beta in
  let beta := setc (win x_arr x2 x3) #0.8 beta in
  let beta := setc (wge x_arr x4) #0.2 beta in
  let slope_x1_x2 := #0.6 / fabs (fabs x1 - fabs x2) in
  let slope_x3_x4 := #0.6 / fabs (fabs x4 - fabs x3) in
  let test1 := map (fun t => slope_x1_x2 * (fabs x1 + t) + #0.2) x_arr in
  let beta := setv (win x_arr x1 x2) test1 beta in
  let test2 := map (fun t => slope_x3_x4 * (fabs x4 - t) + #0.2) x_arr in
  setv (win x_arr x3 x4) test2 beta.

(** csu_t_traps.py:149-166 *)
Definition t_trap_hdg (x_arr : list F) (x1 x2 x3 x4 : F) : list F :=
  let beta := map (fun _ => #0) x_arr in
  let beta := setc (wle x_arr x1) #0.3 beta in
  let beta := setc (win x_arr x2 x3) #1 beta in
  let beta := setc (wge x_arr x4) (#(-1)) beta in
  let slope_x1_x2 := #0.7 / fabs (fabs x1 - fabs x2) in
  let slope_x3_x4 := #2 / fabs (fabs x4 - fabs x3) in
  let test1 := map (fun t => slope_x1_x2 * (fabs x1 + t) + #0.3) x_arr in
  let beta := setv (win x_arr x1 x2) test1 beta in
  let test2 := map (fun t => slope_x3_x4 * (fabs x4 - t) - #1) x_arr in
  setv (win x_arr x3 x4) test2 beta.

(** csu_t_traps.py:169-181 *)
Definition t_trap_ic (x_arr : list F) (x1 x2 : F) : list F :=
  let beta := map (fun _ => #0) x_arr in
  let beta := setc (wle x_arr x1) #1 beta in
  let beta := setc (wge x_arr x2) (#(-1)) beta in
  let slope_x1_x2 := #1 / fabs (x2 + x1) in
  let test1 := map (fun t => #1 - fabs (slope_x1_x2 * (t - x1))) x_arr in
  setv (win x_arr x1 x2) test1 beta.

(** csu_t_traps.py:183-200 *)
Definition t_trap_ldg (x_arr : list F) (x1 x2 x3 x4 : F) : list F :=
  let beta := map (fun _ => #0) x_arr in
  let beta := setc (wle x_arr x1) #0.5 beta in
  let beta := setc (win x_arr x2 x3) #1 beta in
  let beta := setc (wge x_arr x4) (#(-1)) beta in
  let slope_x1_x2 := #0.5 / fabs (fabs x1 - fabs x2) in
  let slope_x3_x4 := #1 / fabs (fabs x4 - fabs x3) in
  let test1 := map (fun t => slope_x1_x2 * (fabs x1 + t) + #0.5) x_arr in
  let beta := setv (win x_arr x1 x2) test1 beta in
  let test2 := map (fun t => slope_x3_x4 * (fabs x4 - t)) x_arr in
  setv (win x_arr x3 x4) test2 beta.

(** csu_t_traps.py:202-214 *)
Definition t_trap_rain (x_arr : list F) (x1 x2 : F) : list F :=
  let beta := map (fun _ => #0) x_arr in
  let beta := setc (wle x_arr x1) (#(-1)) beta in
  let beta := setc (wge x_arr x2) #1 beta in
  let slope_x1_x2 := #1 / fabs (x2 + x1) in
  let test1 := map (fun t => fabs (slope_x1_x2 * (t - x1))) x_arr in
  setv (win x_arr x1 x2) test1 beta.

(** csu_t_traps.py:216-224 *)
Definition t_trap_ws (x_arr : list F) (x1 x2 : F) : list F :=
  let beta := map (fun _ => #0) x_arr in
  let beta := setc (wle x_arr x1) (#(-1)) beta in
  let beta := setc (wge x_arr x2) (#(-1)) beta in
  setc (win x_arr x1 x2) #1 beta.

(** csu_t_traps.py:19-81; [c] is a class index >= 0 *)
Definition get_hid_traps (c : nat) (x_arr : list F) : res (list F) :=
  match c with
  | 0 => Ok (t_trap_dz x_arr (#(-3)) (#(-1)))
  | 1 => Ok (t_trap_rain x_arr (#(-10)) (#(-2)))
  | 2 => Ok (t_trap_ic x_arr #0 #5)
  | 3 => Ok (t_trap_agg x_arr (#(-35)) (#(-25)) #0 #5)
  | 4 => Ok (t_trap_ws x_arr (#(-3)) #3)
  | 5 => Ok (t_trap_ic x_arr #0 #5)
  | 6 => Ok (t_trap_ldg x_arr (#(-40)) (#(-30)) #0 #5)
  | 7 => Ok (t_trap_hdg x_arr (#(-30)) (#(-20)) #5 #30)
  | 8 => Ok (t_trap_ha x_arr (#(-30)) (#(-20)) #5 #15)
  | 9 => Ok (t_trap_bd x_arr (#(-2)) #1)
  | _ => PyNone
  end%nat.

End Traps.
