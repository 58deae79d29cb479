(** * Model of the plotting side of csu_radartools/beta_functions.py: what
    [plot_flag=True] writes and where, and what it does to the callers *)
From Verif Require Import Base.Num.
From Verif Require Import Model.Tables Model.Beta Model.Hid.
Set Implicit Arguments.
Open Scope fl_scope.

Section Plot.
Context {F : Type} `{FloatOps F}.

(** One saved figure: suptitle pieces (band, species name, temp_factor), then
    the six panels (title, abscissae, ordinates), beta_functions.py:98-115.  Line
    widths, margins, the LDR panel's y limits and the rendering are not modelled,
    and the three pieces of the title are kept apart instead of being formatted. *)
Record figure := mkfig {
  fig_band : string; fig_label : string; fig_factor : F;
  fig_panels : list (string * list F * list F) }.

(** Python code that saves files: the files in the order saved, and the outcome.
    Files saved before an exception stay saved. *)
Definition io (A : Type) : Type := (list (string * figure) * res A)%type.
Definition lift {A} (r : res A) : io A := ([], r).
Definition save (path : string) (f : figure) : io unit := ([(path, f)], Ok tt).
Definition iobind {A B} (x : io A) (k : A -> io B) : io B :=
  match x with
  | (w, Ok a) => let '(w', r) := k a in ((w ++ w')%list, r)
  | (w, PyNone) => (w, PyNone) | (w, Raise e) => (w, Raise e)
  | (w, Fault) => (w, Fault) | (w, Unmodelled) => (w, Unmodelled)
  end.

(** beta_functions.py:79-81, label *)
Definition labels : list string :=
  ["Drizzle"; "Rain"; "Ice_Crystals"; "Aggregates"; "Wet_Snow"; "Vertical_Ice";
   "Low-Density_Graupel"; "High-Density_Graupel"; "Hail"; "Big_Drops"]%string.

(** beta_functions.py:84-89: [lo + np.arange(n)/step] *)
Definition axis (lo : F) (n : nat) (step : F) : list F :=
  map (fun k => lo + flit (inject_Z (Z.of_nat k)) / step) (seq 0 n).
(** beta_functions.py:84, [np.arange(701)/10.] *)
Definition axis0 (n : nat) (step : F) : list F :=
  map (fun k => flit (inject_Z (Z.of_nat k)) / step) (seq 0 n).
(** beta_functions.py:84-89, the dummy arrays *)
Definition dummy (k : key) : list F :=
  match k with
  | KDZ => axis0 701 #10
  | KDR => axis #(-2) 801 #100
  | KKD => axis #(-2) 901 #100
  | KLD => axis #(-60) 5900 #100
  | KRH => axis #0.75 2501 #10000
  | KT => axis #(-50) 1001 #10
  end.

(** beta_functions.py:63-66, _get_beta_example: [None] subscripted is a
    TypeError; Python evaluates 'm', then 'a', then 'b' *)
Definition get_beta_example (k : key) (set : option (bset F)) (i : nat) : res (list F) :=
  match set with
  | None => Raise TypeError
  | Some s =>
      m <- idx (sm s) i ;; a <- idx (sa s) i ;; b <- idx (sb s) i ;;
      Ok (map (fun x => hid_beta x a b m) (dummy k))
  end.

(** the band argument as the string it is *)
Definition band_name (b : band) : string :=
  match b with BS => "S" | BC => "C" | BX => "X" end%string.

(** beta_functions.py:90-117: one iteration of the loop.  The six curves are
    computed before the figure exists; [label[i]] is read by suptitle. *)
Definition plot_one (sets : key -> option (bset F)) (b : band) (temp_factor : F)
  (pdir : string) (i : nat) : io unit :=
  iobind (lift (get_beta_example KDZ (sets KDZ) i)) (fun dz =>
  iobind (lift (get_beta_example KKD (sets KKD) i)) (fun kdp =>
  iobind (lift (get_beta_example KDR (sets KDR) i)) (fun zdr =>
  iobind (lift (get_beta_example KLD (sets KLD) i)) (fun ldr =>
  iobind (lift (get_beta_example KRH (sets KRH) i)) (fun rho =>
  iobind (lift (get_beta_example KT (sets KT) i)) (fun T =>
  iobind (lift (idx labels i)) (fun label =>
  save (pdir ++ label ++ "_beta_" ++ band_name b ++ ".png")
    (mkfig (band_name b) label temp_factor
       [("dBZ", dummy KDZ, dz); ("Kdp", dummy KKD, kdp); ("Zdr", dummy KDR, zdr);
        ("LDR", dummy KLD, ldr); ("$\rho$$_{hv}$", dummy KRH, rho); ("T", dummy KT, T)]%string)
  ))))))).

(** beta_functions.py:69-117, plot_beta_functions *)
Fixpoint plot_loop (sets : key -> option (bset F)) (b : band) (temp_factor : F)
  (pdir : string) (is : list nat) : io unit :=
  match is with
  | [] => lift (Ok tt)
  | i :: r => iobind (plot_one sets b temp_factor pdir i)
                (fun _ => plot_loop sets b temp_factor pdir r)
  end.
Definition plot_beta_functions (sets : key -> option (bset F)) (b : band) (temp_factor : F)
  (pdir : string) (n_types : nat) : io unit :=
  plot_loop sets b temp_factor pdir (seq 0 n_types).

(** beta_functions.py:134-204, 206-276, 278-353, 357-435: get_mbf_sets_* with
    plot_flag, n_types and pdir; the dictionary is keyed as after _convert_mbf_sets *)
Definition get_mbf_sets (s : season) (use_temp plot_flag : bool) (n_types : nat)
  (temp_factor : F) (b : band) (pdir : string) : io (key -> option (bset F)) :=
  let sets := get_sets s use_temp temp_factor b in
  if plot_flag
  then iobind (plot_beta_functions sets b temp_factor pdir n_types) (fun _ => lift (Ok sets))
  else lift (Ok sets).

(** csu_fhc.py:226-240, csu_fhc_winter.py:73-89, csu_fhc_ml1.py:71-83: the start
    of the three classifiers with plot_flag; get_mbf_sets_* is called without
    pdir, so with './'.  [rest] is everything the call does after that, with
    use_temp as corrected for T=None. *)
Definition fhc_io (s : season) (use_temp plot_flag : bool) (a : fields F) (n_types : nat)
  (temp_factor : F) (b : band) (rest : res (fhc_ret F)) : io (fhc_ret F) :=
  if negb (fhc_vars a KDZ) then lift PyNone else
  let use_temp := if fhc_vars a KT then use_temp else false in
  iobind (get_mbf_sets s use_temp plot_flag n_types temp_factor b "./") (fun _ => lift rest).

(** csu_fhc.py:171-290, csu_fhc_summer with its plot_flag *)
Definition csu_fhc_summer_io (use_temp : bool) (weights : key -> F) (method : string)
  (a : fields F) (plot_flag use_trap : bool) (n_types : nat) (temp_factor : F) (b : band)
  (return_scores : bool) : io (fhc_ret F) :=
  fhc_io Summer use_temp plot_flag a n_types temp_factor b
    (csu_fhc_summer use_temp weights method a use_trap n_types temp_factor b return_scores).

(** csu_fhc_winter.py:32-128, csu_fhc_winter with plot_flag and n_types (default
    7), which the scores do not depend on *)
Definition csu_fhc_winter_io (use_temp : bool) (weights : key -> nat -> F) (method : string)
  (a : fields F) (plot_flag : bool) (n_types : nat) (temp_factor : F) (warm : bool) (b : band)
  : io (fhc_ret F) :=
  fhc_io Winter use_temp plot_flag a n_types temp_factor b
    (csu_fhc_winter use_temp weights method a temp_factor warm b).

(** csu_fhc_ml1.py:30-114, csu_fhc_cold_newml1 with plot_flag *)
Definition csu_fhc_cold_newml1_io (use_temp : bool) (weights : key -> nat -> F) (method : string)
  (a : fields F) (plot_flag : bool) (n_types : nat) (temp_factor : F) (b : band)
  : io (fhc_ret F) :=
  fhc_io Melt use_temp plot_flag a n_types temp_factor b
    (csu_fhc_cold_newml1 use_temp weights method a n_types temp_factor b).

(** the directory after files were saved in this order: a later save to the
    same path replaces the earlier one *)
Definition disk : Type := string -> option figure.
Fixpoint saved (d : disk) (w : list (string * figure)) : disk :=
  match w with
  | [] => d
  | (p, f) :: r => saved (fun q => if String.eqb p q then Some f else d q) r
  end.

End Plot.
Arguments figure : clear implicits.
Arguments io : clear implicits.
Arguments disk : clear implicits.
