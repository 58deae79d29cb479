(** * Model of csu_radartools/calc_kdp_ray_fir.pyx (LSE, calc_kdp_ray_fir), of
    its Fortran twin calc_kdp_ray_fir.f and of csu_radartools/csu_kdp.py

    setup.py builds the .pyx file by default and the .f file when CSURT_F2PY is
    set; the two are the same program except where [build] is matched on.
    Fortran indices are shifted to start at 0.  Every operation on C doubles is
    an operation of [F] and every operation on C floats or Fortran REALs is one
    followed by [f32] (no excess precision, no fused multiply-add).
    Simplifications: int and int32 do not overflow; [float(N) > 0.8 * float(k)] is [5 N > 4 k], which it is exactly
    for every representable k (0.8 is rounded up by less than half an ulp of
    the product: C98).  Cython's [/] raises ZeroDivisionError on a zero divisor. *)
From Verif Require Import Base.Num.
From Verif Require Import Model.Tables Model.Beta Model.Melt.
Set Implicit Arguments.
Open Scope fl_scope.

Inductive build := Cython | Fortran.

Section Kdp.
Context {F : Type} `{FloatOps F}.

(** element i of an array of sufficient length *)
Definition at_ (l : list F) (i : nat) : F := nth i l fnan.
(** l[i] = v *)
Fixpoint upd (i : nat) (v : F) (l : list F) : list F :=
  match l, i with
  | [], _ => []
  | _ :: r, O => v :: r
  | x :: r, S k => x :: upd k v r
  end.

(** a local variable or an intermediate result that is a C double in the Cython
    build and a REAL in the Fortran build *)
Definition loc (bd : build) (x : F) : F := match bd with Cython => x | Fortran => f32 x end.

(** pyx:31, f:21 *)
Definition BIG : Z := (10 ^ 35)%Z.
Definition lse_skip (bd : build) (bad x y : F) : bool :=
  match bd with
  | Cython => ((x ==? bad) || (y ==? bad))%bool
  | Fortran => ((x >? flit (inject_Z BIG)) || (y >? flit (inject_Z BIG)))%bool
  end.

(** pyx:18-37, f:15-29: total, xsum, ysum, xxsum, xysum after the loop *)
Record sums := mksums { s_n : F; s_x : F; s_y : F; s_xx : F; s_xy : F }.
Definition lse_step (bd : build) (bad : F) (s : sums) (p : F * F) : sums :=
  let '(x, y) := p in
  if lse_skip bd bad x y
  then mksums (f32 (s_n s - #1)) (s_x s) (s_y s) (s_xx s) (s_xy s)
  else mksums (s_n s) (f32 (s_x s + x)) (f32 (s_y s + y)) 
              (f32 (s_xx s + loc bd (x * x))) (f32 (s_xy s + loc bd (x * y))).
Definition lse_sums (bd : build) (bad : F) (pts : list (F * F)) : sums :=
  fold_left (lse_step bd bad) pts (mksums (f32 (of_nat (List.length pts))) #0 #0 #0 #0).

(** calc_kdp_ray_fir.pyx:10-42, calc_kdp_ray_fir.f:3-34, LSE on the points
    (x[0], y[0]), ..., (x[n-1], y[n-1]): (slope, intercept) *)
Definition LSE (bd : build) (bad : F) (pts : list (F * F)) : res (F * F) :=
  let s := lse_sums bd bad pts in
  let det := f32 (f32 (s_n s * s_xx s) - f32 (s_x s ** #2)) in
  let a := f32 (f32 (f32 (s_n s * s_xy s) - f32 (s_x s * s_y s)) / det) in
  let b := f32 (f32 (f32 (s_y s * s_xx s) - f32 (s_x s * s_xy s)) / det) in
  match bd with
  | Cython => if det ==? #0 then Raise ZeroDivisionError else Ok (a, b)
  | Fortran => Ok (a, b)
  end.

(** pyx:105-114, f:98-108: the loop over the standard-deviation window; W is
    set at the first valid gate, before it is used *)
Record sdst := mksd { d_n : nat; d_w : F; d_a : F; d_v : F }.
Definition sd_step (bd : build) (bad : F) (s : sdst) (X : F) : sdst :=
  if X ==? bad then s else
  let W := if (d_n s =? 0)%nat then X else d_w s in
  let N := S (d_n s) in
  let D := loc bd (X - W) in
  let E := loc bd (D - d_a s) in
  let V := loc bd (loc bd (loc bd (of_nat (N - 1) * loc bd (E ** #2)) / of_nat N) + d_v s) in
  let A := loc bd (loc bd (E / of_nat N) + d_a s) in
  mksd N W A V.
Definition sd_loop (bd : build) (bad : F) (w : list F) : sdst := fold_left (sd_step bd bad) w (mksd 0 fnan #0 #0).

(** the elements i - h .. i + h *)
Definition window (l : list F) (i h : Z) : list F :=
  map (fun j => at_ l (Z.to_nat j)) (zrange (i - h) (i + h + 1)).

(** pyx:96-116, f:89-112: sd_lin[i]; a comparison [!=] with a NaN holds, so NaN
    counts as valid *)
Definition sd_gate (bd : build) (half_std_win : Z) (bad : F) (dp : list F) (i : nat) : res F :=
  let i := Z.of_nat i in
  if ((0 <=? i - half_std_win) && (i + half_std_win <=? Z.of_nat (List.length dp) - 1))%Z%bool then
    let s := sd_loop bd bad (window dp i half_std_win) in
    if (half_std_win <? Z.of_nat (d_n s))%Z then
      match bd, d_n s with
      | Cython, O => Raise ZeroDivisionError
      | _, n => Ok (f32 (fsqrt (loc bd (d_v s / of_nat n))))
      end
    else Ok #100
  else Ok #100.

(** pyx:142-143, f:143-146: A.  The Cython build carries over the Fortran
    index, so it reads one past the coefficients; [mem k] is what the memory
    holds at coefficient index k outside the array ([boundscheck=False]). *)
Definition coeff (bd : build) (fir_coeff : list F) (mem : nat -> F) (k : nat) : F :=
  let k := match bd with Cython => S k | Fortran => k end in
  match nth_error fir_coeff k with Some c => c | None => mem k end.
Definition fir_sum (bd : build) (fir_coeff : list F) (mem : nat -> F) (z : list F) (index1 n : nat) : F :=
  fold_left (fun A k => loc bd (A + loc bd (coeff bd fir_coeff mem k * at_ z (index1 + k)))) (seq 0 n) #0.

(** sd_lin[j] <= thsd[j] and z[j] != bad *)
Definition good (bad : F) (sd thsd z : list F) (j : nat) : bool :=
  ((at_ sd j <=? at_ thsd j) && (at_ z j !=? bad))%bool.

(** the parameters of one call *)
Record par := mkpar { p_build : build; p_order : nat; p_gain : F; p_coeff : list F; p_mem : nat -> F; p_bad : F }.

(** pyx:136-138, f:136-140: fill the gaps of the window *)
Definition fill (bd : build) (bad aa bb : F) (rng : list F) (index1 n : nat) (z : list F) : list F :=
  map (fun j => if ((index1 <=? j)%nat && (j <? index1 + n)%nat && (at_ z j ==? bad))%bool
                then f32 (loc bd (aa * at_ rng j) + bb) else at_ z j) (seq 0 (List.length z)).

(** pyx:122-144, f:119-149: one gate of one filtering pass, state (z, y).  The
    points are collected in work arrays of 500 elements. *)
Definition fir_gate (p : par) (rng thsd sd : list F) (i : nat) (st : list F * list F)
  : res (list F * list F) :=
  let '(z, y) := st in
  let half := (p_order p / 2)%nat in
  let bad := p_bad p in
  if good bad sd thsd z i then
    let index1 := (i - half)%nat in
    let n := (2 * half + 1)%nat in
    let pts := map (fun j => (at_ rng j, at_ z j)) (filter (good bad sd thsd z) (seq index1 n)) in
    let N := List.length pts in
    if (500 <? N)%nat then Fault else
    if (4 * p_order p <? 5 * N)%nat then
      z <- (if (N <? p_order p + 1)%nat
            then ab <- LSE (p_build p) bad pts ;; Ok (fill (p_build p) bad (fst ab) (snd ab) rng index1 n z)
            else Ok z) ;;
      let A := fir_sum (p_build p) (p_coeff p) (p_mem p) z index1 n in
      Ok (z, upd i (f32 (A * p_gain p)) y)
    else Ok st
  else Ok st.

(** pyx:121-146, f:118-153: one pass, then z = y *)
Definition fir_pass (p : par) (rng thsd sd : list F) (st : list F * list F) : res (list F * list F) :=
  let half := (p_order p / 2)%nat in
  let n := List.length (fst st) in
  st <- forM (seq half (n - half - half)) (fir_gate p rng thsd sd) st ;;
  Ok (snd st, snd st).

(** pyx:120-146, f:117-154 *)
Definition fir_filter (p : par) (nf : nat) (rng thsd sd : list F) (st : list F * list F) : res (list F * list F) :=
  forM (seq 0 nf) (fun _ => fir_pass p rng thsd sd) st.

(** pyx:156-161, f:165-169: the adaptive window; no case applies to NaN and
    nadp keeps its value *)
Definition new_nadp (half_fir_win : nat) (dz : F) (nadp : Z) : Z :=
  let h := Z.of_nat half_fir_win in
  let nadp := if dz >=? #45 then h else nadp in
  let nadp := if ((dz >=? #35) && (dz <? #45))%bool then (2 * h)%Z else nadp in
  if dz <? #35 then (3 * h)%Z else nadp.

(** pyx:162-174, f:170-186: kd_lin[i] for an adaptive window of nadp gates; the
    Cython loop leaves out index2 *)
Definition half_of (bd : build) (n : Z) : Z :=
  match bd with Cython => (n / 2)%Z | Fortran => Z.quot n 2 end.
Definition kd_gate (bd : build) (bad : F) (rng dp_lin : list F) (nadp : Z) (i : nat) : res F :=
  let n := Z.of_nat (List.length dp_lin) in
  let index1 := (Z.of_nat i - half_of bd nadp)%Z in
  let index2 := (Z.of_nat i + half_of bd nadp)%Z in
  let js := if ((0 <=? index1) && (index2 <=? n - 1))%Z%bool
            then zrange index1 (match bd with Cython => index2 | Fortran => index2 + 1 end)%Z else [] in
  let pts := map (fun j => (at_ rng (Z.to_nat j), at_ dp_lin (Z.to_nat j)))
               (filter (fun j => at_ dp_lin (Z.to_nat j) !=? bad) js) in
  let N := List.length pts in
  if (500 <? N)%nat then Fault else
  if (4 * nadp <? 5 * Z.of_nat N)%Z then
    ab <- LSE bd bad pts ;; Ok (f32 (#0.5 * fst ab))
  else Ok bad.

(** pyx:154-174, f:163-188: state (nadp, kd_lin so far) *)
Definition kd_step (bd : build) (half_fir_win : nat) (bad : F) (rng dp_lin dz : list F) (i : nat)
  (st : Z * list F) : res (Z * list F) :=
  let '(nadp, kd) := st in
  if at_ dz i ==? bad then Ok (nadp, kd ++ [bad]) else
  let nadp := new_nadp half_fir_win (at_ dz i) nadp in
  k <- kd_gate bd bad rng dp_lin nadp i ;;
  Ok (nadp, kd ++ [k]).

(** calc_kdp_ray_fir.pyx:45-177, calc_kdp_ray_fir.f:37-192: (kd_lin, dp_lin,
    sd_lin).  ngates is the length of dp, as csu_kdp.py passes it; fir_order is
    not negative; [nadp0] is the content of the uninitialised nadp.  Arrays
    shorter than the ray are read out of bounds (Fault; for rng and thsd only
    if the loops get there, which the model does not distinguish). *)
Definition calc_kdp_ray_fir (p : par) (nadp0 : Z) (dp dz rng thsd : list F) (nf : nat) (std_gate : Z)
  : res (list F * list F * list F) :=
  let n := List.length dp in
  if ((List.length dz <? n) || (List.length rng <? n) || (List.length thsd <? n))%nat%bool then Fault else
  let bad := p_bad p in
  let half_std_win := half_of (p_build p) (std_gate - 1) in
  sd <- mapM (sd_gate (p_build p) half_std_win bad dp) (seq 0 n) ;;
  st <- fir_filter p nf rng thsd sd (map f32 dp, map (fun _ => bad) dp) ;;
  let dp_lin := fst st in
  kd <- forM (seq 0 n) (kd_step (p_build p) (p_order p / 2) bad rng dp_lin dz) (nadp0, []) ;;
  Ok (snd kd, dp_lin, sd).

(** ** csu_kdp.py *)

(** csu_kdp.py:136-154, get_fir: None or (order, gain, coefficients).  [toint]
    is the float to int32 conversion, [firwin order freq std] is
    scipy.signal.firwin with a Gaussian window. *)
Definition get_fir (toint : F -> Z) (firwin : Z -> F -> F -> res (list F)) (gs window : F)
  : res (Z * F * list F) :=
  let order := toint (window * #1000.0 / gs) in
  if negb (order mod 2 =? 0)%Z then PyNone else
  let ratio := flit (inject_Z order) / #20 in
  coef <- firwin (order + 1)%Z (#0.08 / ratio) (ratio * #28.0) ;;
  Ok (order, #1.0, coef).

(** dp, dz, rng: None or an array (of at most two dimensions) *)
Inductive nd := N0 (x : F) | N1 (l : list F) | N2 (rows : list (list F)) | N3.
(** thsd: a number, or an array of dtype float32 or another *)
Inductive thr := TNum (x : F) | T1 (single : bool) (l : list F) | T2 (single : bool) (rows : list (list F)).

Definition ndim (a : nd) : nat := match a with N0 _ => 0 | N1 _ => 1 | N2 _ => 2 | N3 => 3 end%nat.

(** what calc_kdp_bringi returns *)
Inductive kdp_ret := NoneTriple | Ray (kd dp sd : list F) | Sweep (kd dp sd : list (list F)).

(** an array handed to a [float[:]] argument: the Cython build wants float32 *)
Definition as_single (bd : build) (single : bool) (l : list F) : res (list F) :=
  match bd with
  | Cython => if single then Ok l else Raise ValueError     (* Buffer dtype mismatch *)
  | Fortran => Ok (map f32 l)
  end.

(** csu_kdp.py:27-133, calc_kdp_bringi.  [env r] is the memory content and the
    uninitialised nadp of the call for ray r.  With
    a one-dimensional thsd and two-dimensional data thsd[ray] is a number: the
    Cython build refuses a zero-dimensional buffer, what f2py makes of it is not
    modelled. *)
Definition calc_kdp_bringi (bd : build) (toint : F -> Z) (firwin : Z -> F -> F -> res (list F))
  (env : nat -> (nat -> F) * Z)
  (dp dz rng : option nd) (thsd : thr) (nfilter : nat) (bad gs window : F) (std_gate : Z)
  : res kdp_ret :=
  match dp, dz, rng with
  | Some dp, Some dz, Some rng =>
      if negb ((ndim dp =? ndim dz) && (ndim dp =? ndim rng))%nat%bool then PyNone else
      let std_gate := if negb (std_gate mod 2 =? 1)%Z then 11%Z else std_gate in
      match get_fir toint firwin gs window with
      | PyNone => Ok NoneTriple
      | Ok (order, gain, coef) =>
          if (order <? 0)%Z then Unmodelled else
          let p r := mkpar bd (Z.to_nat order) gain coef (fst (env r)) (f32 bad) in
          match dp, dz, rng with
          | N2 dps, N2 dzs, N2 rngs =>
              out <- mapM (fun r =>
                 let d := map f32 (nth r dps []) in
                 match nth_error dzs r, nth_error rngs r with
                 | Some z, Some g =>
                     t <- (match thsd with
                           | TNum x => Ok (map (fun _ => f32 x) d)
                           | T2 single rows => match nth_error rows r with
                                               | Some t => as_single bd single t
                                               | None => Raise IndexError end
                           | T1 _ l => match nth_error l r, bd with
                                       | None, _ => Raise IndexError
                                       | _, Cython => Raise ValueError     (* wrong number of dimensions *)
                                       | _, Fortran => Unmodelled
                                       end
                           end) ;;
                     calc_kdp_ray_fir (p r) (snd (env r)) d (map f32 z) (map f32 g) t nfilter std_gate
                 | _, _ => Raise IndexError
                 end) (seq 0 (List.length dps)) ;;
              Ok (Sweep (map (fun o => fst (fst o)) out) (map (fun o => snd (fst o)) out) (map snd out))
          | N1 d, N1 z, N1 g =>
              let d := map f32 d in
              t <- (match thsd with
                    | TNum x => Ok (map (fun _ => f32 x) d)
                    | T1 single t => as_single bd single t
                    | T2 _ _ => Raise ValueError      (* wrong number of dimensions *)
                    end) ;;
              o <- calc_kdp_ray_fir (p 0%nat) (snd (env 0%nat)) d (map f32 z) (map f32 g) t nfilter std_gate ;;
              Ok (Ray (fst (fst o)) (snd (fst o)) (snd o))
          | _, _, _ => PyNone
          end
      | Raise e => Raise e | Fault => Fault | Unmodelled => Unmodelled
      end
  | _, _, _ => PyNone
  end.

End Kdp.
Arguments par : clear implicits.
Arguments nd : clear implicits.
Arguments thr : clear implicits.
Arguments kdp_ret : clear implicits.
