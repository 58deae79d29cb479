(** * Model of csu_radartools/beta_functions.py and of hid_beta_f in
    csu_radartools/calc_kdp_ray_fir.pyx *)
From Verif Require Import Base.Num.
From Verif Require Import Model.Tables.
Set Implicit Arguments.
Open Scope fl_scope.

(** map with exceptions *)
Fixpoint mapM {A B} (f : A -> res B) (l : list A) : res (list B) :=
  match l with
  | [] => Ok []
  | x :: r => y <- f x ;; ys <- mapM f r ;; Ok (y :: ys)
  end.

Section Beta.
Context {F : Type} `{FloatOps F}.

(** beta_functions.py:63-66, _get_beta_example; csu_fhc.py:32-34,
    csu_fhc_winter.py:27-29, csu_fhc_ml1.py:25-27, hid_beta: numpy, one element *)
Definition hid_beta (x a b m : F) : F :=
  #1 / (#1 + ((((x - m) / a) ** #2) ** b)).

(** calc_kdp_ray_fir.pyx:192-193, one iteration: [(x - m) / a] on C
    floats, the powers and the rest on doubles; Cython's default
    [cdivision=False] turns a zero divisor into ZeroDivisionError.  The
    parameters arrive as C [float] and the result is stored in a float32. *)
Definition hid_beta_gate (x a b m : F) : res F :=
  if a ==? #0 then Raise ZeroDivisionError else
  let d := #1 + ((f32 (f32 (x - m) / a) ** #2) ** b) in
  if d ==? #0 then Raise ZeroDivisionError else Ok (f32 (#1 / d)).

(** calc_kdp_ray_fir.pyx:180-196, hid_beta_f.  [boundscheck=False]: an array
    shorter than [ngates] is read out of bounds; of a longer one only the first
    [ngates] elements are used. *)
Definition hid_beta_f (ngates : nat) (x_arr : list F) (a b m : F) : res (list F) :=
  if (List.length x_arr <? ngates)%nat then Fault
  else mapM (fun x => hid_beta_gate x (f32 a) (f32 b) (f32 m)) (firstn ngates x_arr).

(** one of the {'m': .., 'a': .., 'b': ..} dictionaries *)
Record bset := mkset { sm : list F; sa : list F; sb : list F }.

(** a CSV cell as a float *)
Definition cell (c : option Q) : F := match c with Some q => #q | None => fnan end.

(** beta_functions.py:120-131, get_beta_set, after pd.read_csv *)
Definition get_beta_set (rows : list row) (factor : F) : bset :=
  mkset (map (fun r : row => cell (fst (fst r)) / factor) rows)
        (map (fun r : row => cell (snd (fst r)) / factor) rows)
        (map (fun r : row => cell (snd r) / factor) rows).

(** beta_functions.py:134-204 (get_mbf_sets_winter, [Winter]), 206-276
    (get_mbf_sets_winterML, [Melt]), 278-353 (get_mbf_sets_summerML, [Winter]),
    357-435 (get_mbf_sets_summer, [Summer]); with _convert_mbf_sets
    (csu_fhc.py:298-307, csu_fhc_winter.py:135-144, csu_fhc_ml1.py:121-130)
    already applied, so the result is indexed by key.  plot_flag, verbose and
    n_types have no effect on the result and are not modelled; fdir is the
    shipped directory. *)
Definition get_sets (s : season) (use_temp : bool) (temp_factor : F) (b : band)
  (k : key) : option bset :=
  match k with
  | KT => if use_temp then Some (get_beta_set (csv s b KT) temp_factor) else None
  | _ => Some (get_beta_set (csv s b k) #1.0)
  end.

End Beta.
Arguments bset : clear implicits.
