(** * Model of csu_kdp.py:157-274, the pure Python KDP estimator [_calc_kdp_ray]
    and its helpers.

    Simplifications: one float type (the rays are binary64, so is every
    intermediate result); np.dot and mean add from left to right;
    [siz > 0.8 * order] is [5 siz > 4 order] and [siz >= 0.8 * nadp] is
    [5 siz >= 4 nadp], which they are exactly (0.8 times an integer rounds to the
    integer when the exact product is one: C98); int16 and int32 do not overflow;
    [1.0 * z] is a copy of z and [np.zeros(n) + bad] holds bad n times.
    [lstsq pts] is numpy.linalg.lstsq for the line through pts: (slope,
    intercept) or an exception; [toi16] is the conversion of a float to int16.
    Rays of different lengths are not modelled. *)
From Verif Require Import Base.Num.
From Verif Require Import Model.Tables Model.Beta Model.Melt Model.Kdp.
Set Implicit Arguments.
Open Scope fl_scope.

Section KdpPy.
Context {F : Type} `{FloatOps F}.
Variable lstsq : list (F * F) -> res (F * F).
Variable toi16 : F -> Z.

(** x.sum(), np.dot(c, d) *)
Definition np_sum (l : list F) : F := fold_left fadd l #0.
Definition np_dot (c d : list F) : F := fold_left fadd (map2 fmul c d) #0.

(** csu_kdp.py:269-274, _quick_std on the selected elements *)
Definition quick_std (a : list F) : F :=
  let m := np_sum a / of_nat (List.length a) in
  let c := map (fun x => x - m) a in
  (np_dot c c / of_nat (List.length a)) ** #0.5.

(** the elements i .. i+n-1 *)
Definition gates (l : list F) (i n : nat) : list F := map (at_ l) (seq i n).

(** csu_kdp.py:195-203: sd_lin[i]; the slice stops before index2 *)
Definition py_sd (bad : F) (dp : list F) (i : nat) : F :=
  if ((at_ dp i !=? bad) && (5 <=? i)%nat && (i + 5 <? List.length dp - 1)%nat)%bool then
    let a := filter (fun x => x !=? bad) (gates dp (i - 5) 10) in
    if (5 <? List.length a)%nat then quick_std a else #100
  else #100.

(** fir, as get_fir returns it *)
Record fir := mkfir { f_order : nat; f_gain : F; f_coef : list F }.

(** csu_kdp.py:208: the mask of one pass, fixed before its loop *)
Definition py_mask (bad : F) (sd thsd z : list F) : list bool :=
  map (fun j => ((at_ sd j <=? at_ thsd j) && (at_ z j !=? bad))%bool) (seq 0 (List.length z)).
Definition on (mask : list bool) (j : nat) : bool := nth j mask false.

(** csu_kdp.py:213-220: [yy[~tmp_mask] = ...] where yy is a view of z *)
Definition py_fill (mask : list bool) (a b : F) (rng : list F) (i n : nat) (z : list F) : list F :=
  map (fun j => if ((i <=? j)%nat && (j <? i + n)%nat && negb (on mask j))%bool
                then a * at_ rng j + b else at_ z j) (seq 0 (List.length z)).

(** csu_kdp.py:209-221: one gate of the loop, state (z, y) *)
Definition py_gate (f : fir) (rng : list F) (mask : list bool) (i : nat) (st : list F * list F)
  : res (list F * list F) :=
  let '(z, y) := st in
  let half := (f_order f / 2)%nat in
  let n := (2 * half + 1)%nat in
  if ((half <=? i)%nat && (i + half <? List.length z - 1)%nat)%bool then
    let sel := filter (on mask) (seq (i - half) n) in
    let siz := List.length sel in
    if (4 * f_order f <? 5 * siz)%nat then
      z <- (if (siz <? f_order f + 1)%nat
            then ab <- lstsq (map (fun j => (at_ rng j, at_ z j)) sel) ;;
                 Ok (py_fill mask (fst ab) (snd ab) rng (i - half) n z)
            else Ok z) ;;
      if (List.length (f_coef f) =? n)%nat
      then Ok (z, upd i (f_gain f * np_dot (f_coef f) (gates z (i - half) n)) y)
      else Raise ValueError                                  (* shapes not aligned *)
    else Ok st
  else Ok st.

(** csu_kdp.py:208-222: one pass over [lin[mask]], then z = 1.0 * y; y is not reset *)
Definition py_pass (f : fir) (bad : F) (rng thsd sd : list F) (st : list F * list F) : res (list F * list F) :=
  let mask := py_mask bad sd thsd (fst st) in
  st <- forM (filter (on mask) (seq 0 (List.length (fst st)))) (py_gate f rng mask) st ;;
  Ok (snd st, snd st).

(** csu_kdp.py:229-233: nadp[i]; no case applies to NaN *)
Definition py_nadp (half : nat) (dz : F) : Z :=
  let h := Z.of_nat half in
  let nadp := toi16 (#0 * dz + of_nat half) in
  let nadp := if dz <? #35 then (3 * h)%Z else nadp in
  if ((dz >=? #35) && (dz <? #45))%bool then (2 * h)%Z else nadp.

(** csu_kdp.py:259-261, _get_nadp_indices: np.int32 drops the fraction *)
Definition py_indices (nadp : Z) (i : nat) : Z * Z :=
  let i := Z.of_nat i in
  (Z.quot (2 * i - nadp) 2, Z.quot (2 * i + nadp + 2) 2).

(** csu_kdp.py:234-244, 250-256, 264-266: kd_lin[i] *)
Definition py_kd (bad : F) (rng dp_lin : list F) (nadp : Z) (i : nat) : res F :=
  if at_ dp_lin i !=? bad then
    let '(index1, index2) := py_indices nadp i in
    if ((0 <=? index1) && (index2 <=? Z.of_nat (List.length dp_lin)))%Z%bool then
      let sel := filter (fun j => at_ dp_lin (Z.to_nat j) !=? bad) (zrange index1 index2) in
      if (4 * nadp <=? 5 * Z.of_nat (List.length sel))%Z then
        ab <- lstsq (map (fun j => (at_ rng (Z.to_nat j), at_ dp_lin (Z.to_nat j))) sel) ;;
        Ok (#0.5 * fst ab)
      else Ok bad
    else Ok bad
  else Ok bad.

(** thsd: a number or a ray *)
Inductive pthr := PNum (x : F) | PRay (l : list F).

(** csu_kdp.py:157-247, _calc_kdp_ray: (kd_lin, dp_lin, sd_lin) *)
Definition calc_kdp_ray (dp dz rng : list F) (thsd : pthr) (nfilter : nat) (bad : F) (f : option fir)
  : res (list F * list F * list F) :=
  let n := List.length rng in
  let thsd := match thsd with PNum x => map (fun _ => x) rng | PRay l => l end in
  match f with
  | None => Raise TypeError                                   (* None['order'] *)
  | Some f =>
      if negb ((List.length dp =? n) && (List.length dz =? n) && (List.length thsd =? n))%nat%bool then Unmodelled else
      let half := (f_order f / 2)%nat in
      let sd := map (py_sd bad dp) (seq 0 n) in
      st <- forM (seq 0 nfilter) (fun _ => py_pass f bad rng thsd sd)
              (dp, map (fun _ => bad) rng) ;;
      let dp_lin := fst st in
      kd <- mapM (fun i => py_kd bad rng dp_lin (py_nadp half (at_ dz i)) i) (seq 0 n) ;;
      Ok (kd, dp_lin, sd)
  end.

End KdpPy.
Arguments fir : clear implicits.
Arguments pthr : clear implicits.
