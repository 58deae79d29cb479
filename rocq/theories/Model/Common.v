(** * Model of csu_radartools/common.py *)
From Verif Require Import Base.Num.
Set Implicit Arguments.
Open Scope fl_scope.

(** NumPy's broadcasting rule: shapes are aligned at the last axis, and two axes
    of different lengths, neither of them 1, cannot be combined. *)
Fixpoint axes_clash (s t : list nat) : bool :=
  match s, t with
  | a :: s', b :: t' => (negb (a =? b) && negb (a =? 1) && negb (b =? 1) || axes_clash s' t')%nat%bool
  | _, _ => false
  end.
Definition clash (s t : list nat) : bool := axes_clash (rev s) (rev t).
(** The outcome when the listed pairs of shapes are combined elementwise and are
    not all equal: ValueError if one pair cannot be broadcast; the results of
    broadcasting are [Unmodelled]. *)
Definition misfit {A} (pairs : list (list nat * list nat)) : res A :=
  if existsb (fun p => clash (fst p) (snd p)) pairs then Raise ValueError else Unmodelled.
(** A boolean index of shape [s] into an array of a different shape [t] raises
    IndexError unless [s] is the beginning of [t] ([Unmodelled]: selects rows). *)
Fixpoint is_prefix (s t : list nat) : bool :=
  match s, t with
  | [], _ => true
  | a :: s', b :: t' => ((a =? b)%nat && is_prefix s' t')%bool
  | _, _ => false
  end.
Definition index_misfit {A} (s t : list nat) : res A := if is_prefix s t then Unmodelled else Raise IndexError.

Section Common.
Context {F : Type} `{FloatOps F}.

(** ** Elementwise formulas (the numpy expressions applied to one element) *)

(** common.py:77-86, dbz2z *)
Definition dbz2z (dbz : F) : F := #10 ** (dbz / #10).
(** common.py:89-90, linearize *)
Definition linearize (dbz : F) : F := dbz2z dbz.
(** common.py:93-102, z2dbz *)
Definition z2dbz (zlin : F) : F := #10 * flog10 zlin.
(** common.py:105-114, si2kmh *)
Definition si2kmh (si : F) : F := si * #3600 / #1000.
(** common.py:117-126, si2mph *)
Definition si2mph (si : F) : F := si * #0.62137 / #1000 * #3600.
(** common.py:129-138, si2kts *)
Definition si2kts (si : F) : F := si * #0.51.
(** common.py:141-150, kmh2si *)
Definition kmh2si (kmh : F) : F := kmh * #1000 / #3600.
(** common.py:153-162, mph2si *)
Definition mph2si (mph : F) : F := mph * #1000 / (#0.62137 * #3600).
(** common.py:165-174, kts2si *)
Definition kts2si (kts : F) : F := kts / #0.51.

(** common.py:27-32, calc_rain_zr, one element *)
Definition calc_rain_zr (dz a b : F) : F := (linearize dz / a) ** (#1 / b).

(** common.py:47-53, calc_rain_kdp_zdr, one element *)
Definition calc_rain_kdp_zdr (kdp zdr a b c : F) : F :=
  a * kdp ** b * #10 ** (c * zdr).

(** common.py:56-62, calc_rain_z_zdr, one element *)
Definition calc_rain_z_zdr (dz zdr a b c : F) : F :=
  a * linearize dz ** b * #10 ** (c * zdr).

(** common.py:65-70, calc_rain_kdp, one element *)
Definition calc_rain_kdp (kdp a b : F) : F := a * kdp ** b.

(** common.py:35-44, calc_rain_nexrad on an ndarray (list of elements): all
    elements, then the masked assignment.  [rr] comes from a float power, so
    its dtype is float whatever [dz]'s is. *)
Definition calc_rain_nexrad_arr (dz : list F) (thresh_nexrad a b : F) : list F :=
  let rr := map (fun d => calc_rain_zr d a b) dz in
  let cond := map (fun d => flt thresh_nexrad d) dz in
  msetc cond (calc_rain_zr thresh_nexrad a b) rr.

(** common.py:35-44 called by the user.  With a plain number, [rr] is a numpy
    scalar and [rr[cond] = ...] raises TypeError. *)
Definition calc_rain_nexrad (dz : pyarg F) (thresh_nexrad a b : F) : res (list nat * list F) :=
  match dz with
  | ANone => Raise TypeError
  | AScalar _ _ => Raise TypeError
  | AArr x => Ok (ashape x, calc_rain_nexrad_arr (adata x) thresh_nexrad a b)
  end.

(** common.py:13-19, _check_for_array: when [dz] is a number, all three are
    wrapped in 1-element arrays.  [np.array([x])] of an ndarray [x] prepends an
    axis.  Returns [Unmodelled] when [dz] is an array and another is a number
    (numpy would broadcast). *)
Definition np_array_of (x : pyarg F) : res (arr F) :=
  match x with
  | AScalar d v => Ok (arr1 d v)
  | AArr a => Ok (mkarr (adt a) (1%nat :: ashape a) (adata a))
  | ANone => Unmodelled
  end.
Definition as_array (x : pyarg F) : res (arr F) :=
  match x with AArr a => Ok a | _ => Unmodelled end.
Definition check_for_array (dz zdr kdp : pyarg F)
  : res (arr F * arr F * arr F * bool) :=
  match dz with
  | AArr d =>
      z <- as_array zdr ;; k <- as_array kdp ;; Ok (d, z, k, true)
  | _ =>
      d <- np_array_of dz ;; z <- np_array_of zdr ;; k <- np_array_of kdp ;;
      Ok (d, z, k, false)
  end.

End Common.
