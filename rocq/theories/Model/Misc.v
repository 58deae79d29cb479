(** * Model of csu_radartools/csu_misc.py *)
From Verif Require Import Base.Num.
From Verif Require Model.Common.
Set Implicit Arguments.

Section Misc.
Context {F : Type} `{FloatOps F}.

(** csu_misc.py:23-25, DEFAULT_DZ_RANGE and DEFAULT_DR_THRESH *)
Definition DEFAULT_DZ_RANGE : list (F * F) :=
  [(flit (-100), flit 10); (flit 10, flit 15); (flit 15, flit 20);
   (flit 20, flit 25); (flit 25, flit 30); (flit 30, flit 35)].
Definition DEFAULT_DR_THRESH : list F :=
  [flit 1; flit 1.3; flit 1.7; flit 2.1; flit 2.5; flit 2.8].

(** csu_misc.py:38-42: the loop [for i, thresh in enumerate(dr_thresh)] that
    appends one boolean array per threshold; [i] is the enumerate counter.
    [dz_range[i]] past the end raises IndexError. *)
Fixpoint insect_conds (dz zdr : list F) (dz_range : list (F * F))
  (dr_thresh : list F) (i : nat) (cond : list (list bool)) : res (list (list bool)) :=
  match dr_thresh with
  | [] => Ok cond
  | thresh :: rest =>
      match nth_error dz_range i with
      | None => Raise IndexError
      | Some (lo, hi) =>
          let cond_dz := land (map (fun d => flt lo d) dz) (map (fun d => fle d hi) dz) in
          let sub_cond := land cond_dz (map (fun r => fle thresh r) zdr) in
          insect_conds dz zdr dz_range rest (S i) (cond ++ [sub_cond])
      end
  end.

(** csu_misc.py:28-46, insect_filter on two ndarrays and a mask of the shape of
    [dz] ([height] is accepted and never read).  Fields of different shapes meet at
    line 36, or at line 41 when a mask is given. *)
Definition insect_filter (dz zdr : arr F) (height : pyarg F)
  (mask : option (list bool)) (dz_range : list (F * F)) (dr_thresh : list F)
  (bad : F) : res (list bool) :=
  if negb (shape_eqb (ashape dz) (ashape zdr)) then
    match mask, dr_thresh, dz_range with
    | None, _, _ | _, _ :: _, _ :: _ => Common.misfit [(ashape dz, ashape zdr)]
    | _, _, _ => Unmodelled
    end else
  let mask := match mask with
              | None => lor (map (fun d => feq d bad) (adata dz))
                            (map (fun r => feq r bad) (adata zdr))
              | Some m => m
              end in
  cond <- insect_conds (adata dz) (adata zdr) dz_range dr_thresh 0 [] ;;
  Ok (fold_left lor cond mask).

(** csu_misc.py:49-55 *)
Definition second_trip_filter_magnetron (vr : arr F) (bad : F) : list bool :=
  map (fun v => feq v bad) (adata vr).

(** csu_misc.py:58-63; [thresh_sdp] is a number or an array of the same shape *)
Definition differential_phase_filter (sdp : arr F) (thresh_sdp : pyarg F)
  : res (list bool) :=
  match thresh_sdp with
  | AScalar _ t => Ok (map (fun s => flt t s) (adata sdp))
  | AArr t => if shape_eqb (ashape t) (ashape sdp)
              then Ok (map2 (fun t s => flt t s) (adata t) (adata sdp))
              else Common.misfit [(ashape sdp, ashape t)]
  | ANone => Raise TypeError
  end.

(** scipy.ndimage.label on a 1-D 0/1 array (called at csu_misc.py:99), with
    the default structuring element: every maximal run of non-zero elements
    gets one label; labels are 1, 2, ... from left to right; 0 elsewhere.
    This is an external routine: modelled from its documentation.
    [cur] = last label given; [inrun] = the previous element was non-zero. *)
Fixpoint label_from (cur : nat) (inrun : bool) (ray : list bool) : list nat :=
  match ray with
  | [] => []
  | false :: r => 0%nat :: label_from cur false r
  | true :: r =>
      let c := if inrun then cur else S cur in
      c :: label_from c true r
  end.
Definition label (ray : list bool) : list nat := label_from 0 false ray.

Definition count (x : nat) (l : list nat) : nat :=
  List.length (filter (Nat.eqb x) l).
Definition lmax (l : list nat) : nat := fold_right Nat.max 0%nat l.
Definition lmin (l : list nat) : nat :=
  match l with [] => 0%nat | x :: r => fold_right Nat.min x r end.

(** csu_misc.py:95-107, _despeckle_ray.  [ray]: element is 1 (not [bad]).
    np.linspace(min, max, num=max-min+1) of two integers is min, ..., max.
    [bad] is passed and never read.  [ngates] is an integer. *)
Definition despeckle_ray (ray : list bool) (ngates : Z) : list bool :=
  let lab := label ray in
  let nf := lmax lab in
  let lab' :=
    if (0 <? nf)%nat then
      let labels := filter (fun x => (0 <? x)%nat) lab in
      fold_left
        (fun lab feat =>
           if (Z.of_nat (count feat labels) <=? ngates)%Z
           then map (fun x => if (x =? feat)%nat then 0%nat else x) lab
           else lab)
        (seq (lmin labels) (lmax labels - lmin labels + 1)) lab
    else lab in
  map (fun x => (x =? 0)%nat) lab'.

(** [array[az, :]] of an n x m row-major array *)
Definition row {A} (m : nat) (l : list A) (az : nat) : list A :=
  firstn m (skipn (az * m) l).

(** csu_misc.py:66-92, despeckle.  [1.0 * data] is modelled as a copy.
    [PyNone]: warned and returned None. *)
Definition despeckle (data : pyarg F) (bad : F) (ngates : Z)
  : res (list nat * list bool) :=
  match data with
  | AScalar _ _ | ANone => PyNone
  | AArr a =>
      let mask := map (fun x => feq x bad) (adata a) in
      let array := map negb mask in
      match ashape a with
      | [n; m] =>
          Ok (ashape a,
              concat (map (fun az => despeckle_ray (row m array az) ngates) (seq 0 n)))
      | [_] => Ok (ashape a, despeckle_ray array ngates)
      | _ => PyNone
      end
  end.

End Misc.
