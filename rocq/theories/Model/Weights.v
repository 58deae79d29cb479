(** * The weights argument of the classifiers as the dictionary it is

    The classifier models take the weights as a function of the variable.  A
    caller passes a dictionary, which may lack a variable; for csu_fhc_winter and
    csu_fhc_cold_newml1 it must hold one sequence per variable, indexed by class. *)
From Verif Require Import Base.Num Base.ListFacts.
From Verif Require Import Model.Tables Model.Beta Model.TTraps Model.Hid.

Section Weights.
Context {F : Type} `{FloatOps F}.

(** weights[key] *)
Definition dict_get {A} (d : key -> option A) (k : key) : res A :=
  match d k with Some x => Ok x | None => Raise KeyError end.

(** csu_fhc.py:171-290 with the reads of weights[key] in _get_weight_sum
    (csu_fhc.py:364-365), which come before those of _calculate_test *)
Definition summer_dict (use_temp : bool) (weights : key -> option F) (method : string) (a : fields F)
  (use_trap : bool) (n_types : nat) (temp_factor : F) (bd : band) (return_scores : bool)
  : res (fhc_ret F) :=
  if negb (fhc_vars a KDZ) then PyNone else
  match varlist method with
  | None => PyNone
  | Some vl =>
      _ <- mapM (dict_get weights) vl ;;
      csu_fhc_summer use_temp (fun k => match weights k with Some w => w | None => fnan end)
        method a use_trap n_types temp_factor bd return_scores
  end.

(** an entry of a winter dictionary: a number, or a list of numbers *)
Inductive wentry := WNum (x : F) | WSeq (l : list F).
(** weights[key][i] *)
Definition class_weight (d : key -> option wentry) (i : nat) (k : key) : res F :=
  e <- dict_get d k ;;
  match e with
  | WNum _ => Raise TypeError        (* number is not subscriptable *)
  | WSeq l => idx l i
  end.
(** the reads of _get_weight_sum: class by class, variable by variable;
    csu_fhc_winter.py:202-206 (six classes), csu_fhc_ml1.py:187-190 (two) *)
Definition read_weights (d : key -> option wentry) (classes : nat) (vl : list key) : res (list (list F)) :=
  mapM (fun i => mapM (class_weight d i) vl) (seq 0 classes).
Definition entry (d : key -> option wentry) (k : key) (c : nat) : F :=
  match d k with Some (WSeq l) => nth c l fnan | _ => fnan end.

(** csu_fhc_winter.py:32-128 *)
Definition winter_dict (use_temp : bool) (weights : key -> option wentry) (method : string)
  (a : fields F) (temp_factor : F) (warm : bool) (bd : band) : res (fhc_ret F) :=
  if negb (fhc_vars a KDZ) then PyNone else
  match varlist method with
  | None => PyNone
  | Some vl =>
      _ <- read_weights weights 6 vl ;;
      csu_fhc_winter use_temp (entry weights) method a temp_factor warm bd
  end.

(** csu_fhc_ml1.py:30-114 *)
Definition melt_dict (use_temp : bool) (weights : key -> option wentry) (method : string)
  (a : fields F) (n_types : nat) (temp_factor : F) (bd : band) : res (fhc_ret F) :=
  if negb (fhc_vars a KDZ) then PyNone else
  match varlist method with
  | None => PyNone
  | Some vl =>
      _ <- read_weights weights 2 vl ;;
      csu_fhc_cold_newml1 use_temp (entry weights) method a n_types temp_factor bd
  end.
End Weights.
Arguments wentry : clear implicits.
