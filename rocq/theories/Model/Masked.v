(** * Model of csu_radartools/csu_misc.py and calc_rain_nexrad on numpy masked arrays

    A masked array is a data array and a boolean mask of the same shape.  The
    numpy.ma operations the code uses are modelled from numpy's sources:
    - [x == s], s a number: MaskedArray._comparison; the data of the result is
      False where x is masked, the comparison elsewhere; the mask is x's;
    - [x > s], [x >= s], [x <= s]: the data of the result compares the data of x
      also where x is masked; the mask is x's;
    - np.logical_and/or(x, y): the ufunc on the data; the union of the masks;
    - [~x]: the ufunc on the data; the mask of x;
    - [x[idx] = number] with a masked boolean index: writes the data where the
      data of idx is True;
    - np.asarray(x), and C code reading x: the data.
    Masks are soft (numpy's default). *)
From Verif Require Import Base.Num.
From Verif Require Import Model.Misc.
From Verif Require Model.Common.
Set Implicit Arguments.

Section Masked.
Context {F : Type} `{FloatOps F}.

(** numpy.ma.MaskedArray: dtype, shape, data, mask *)
Record marr : Type := mkma { madt : dtype; mshape : list nat; mdata : list F; mmask : list bool }.
(** a masked boolean array: data and mask *)
Definition mbool := (list bool * list bool)%type.

(** [x == s] *)
Definition ma_eq (x : marr) (s : F) : mbool :=
  (map2 (fun (m : bool) v => if m then false else feq v s) (mmask x) (mdata x), mmask x).
(** [p x] for an order comparison with a number *)
Definition ma_cmp (p : F -> bool) (x : marr) : mbool := (map p (mdata x), mmask x).
(** np.logical_and, np.logical_or *)
Definition ma_and (x y : mbool) : mbool := (land (fst x) (fst y), lor (snd x) (snd y)).
Definition ma_or (x y : mbool) : mbool := (lor (fst x) (fst y), lor (snd x) (snd y)).
(** a plain boolean array in a numpy.ma operation: nothing masked *)
Definition plain (b : list bool) : mbool := (b, map (fun _ => false) b).

(** csu_misc.py:38-42 on masked arrays *)
Fixpoint insect_conds_ma (dz zdr : marr) (dz_range : list (F * F))
  (dr_thresh : list F) (i : nat) (cond : list mbool) : res (list mbool) :=
  match dr_thresh with
  | [] => Ok cond
  | thresh :: rest =>
      match nth_error dz_range i with
      | None => Raise IndexError
      | Some (lo, hi) =>
          let cond_dz := ma_and (ma_cmp (fun d => flt lo d) dz) (ma_cmp (fun d => fle d hi) dz) in
          let sub_cond := ma_and cond_dz (ma_cmp (fun r => fle thresh r) zdr) in
          insect_conds_ma dz zdr dz_range rest (S i) (cond ++ [sub_cond])
      end
  end.

(** csu_misc.py:28-46, insect_filter on two masked arrays of one shape; [mask] is
    None or a plain boolean array of that shape.  The result is (data, mask). *)
Definition insect_filter_ma (dz zdr : marr) (height : pyarg F) (mask : option (list bool))
  (dz_range : list (F * F)) (dr_thresh : list F) (bad : F) : res mbool :=
  if negb (shape_eqb (mshape dz) (mshape zdr)) then Unmodelled else
  let mask := match mask with
              | None => ma_or (ma_eq dz bad) (ma_eq zdr bad)
              | Some m => plain m
              end in
  cond <- insect_conds_ma dz zdr dz_range dr_thresh 0 [] ;;
  Ok (fold_left ma_or cond mask).

(** csu_misc.py:49-55 *)
Definition second_trip_filter_magnetron_ma (vr : marr) (bad : F) : mbool := ma_eq vr bad.

(** csu_misc.py:58-63, threshold a number *)
Definition differential_phase_filter_ma (sdp : marr) (thresh_sdp : F) : mbool :=
  ma_cmp (fun s => flt thresh_sdp s) sdp.

(** csu_misc.py:66-92, despeckle.  Line 80: the data of [1.0 * data] is numpy's
    1.0 where masked (np.ma.multiply keeps its first operand there).  Line 83:
    [~mask] is True in the data of masked gates.  Rays are read by
    scipy.ndimage.label through np.asarray.  The result of the 2-D case is the
    masked array [mask], every row of which is overwritten by plain values. *)
Definition despeckle_ma (data : marr) (bad : F) (ngates : Z)
  : res (list nat * mbool) :=
  let array := mkma DFloat (mshape data)
     (map2 (fun (m : bool) v => if m then flit 1 else v) (mmask data) (mdata data)) (mmask data) in
  let mask := ma_eq array bad in
  let ones := map2 (fun (one : bool) (zero : bool) => if one then true else if zero then false else true)
                (lnot (fst mask)) (fst mask) in
  match mshape data with
  | [n; m] =>
      Ok (mshape data, plain (concat (map (fun az => despeckle_ray (row m ones az) ngates) (seq 0 n))))
  | [_] => Ok (mshape data, plain (despeckle_ray ones ngates))
  | _ => PyNone
  end.

(** common.py:35-44, calc_rain_nexrad: dbz2z (common.py:77-86) calls np.asarray,
    so [rr] is a plain array; the masked boolean index [cond] counts by its data. *)
Definition calc_rain_nexrad_ma (dz : marr) (thresh_nexrad a b : F) : list nat * list F :=
  let rr := map (fun d => Common.calc_rain_zr d a b) (mdata dz) in
  let cond := ma_cmp (fun d => flt thresh_nexrad d) dz in
  (mshape dz, msetc (fst cond) (Common.calc_rain_zr thresh_nexrad a b) rr).

End Masked.
Arguments marr : clear implicits.
