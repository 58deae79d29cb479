(** * What plot_flag=True is meant to leave behind

    One PNG per species, named after it, with the membership curve of each of the
    six variables over a fixed axis. *)
From Coq Require Import Reals String List.
From Verif Require Import Base.Num Base.XReal Model.Tables Spec.HidSpec.
Import ListNotations.
Open Scope R_scope.

(** the ten species of csu_fhc_summer's docstring, as spelled in file names *)
Definition species : list string :=
  ["Drizzle"; "Rain"; "Ice_Crystals"; "Aggregates"; "Wet_Snow"; "Vertical_Ice";
   "Low-Density_Graupel"; "High-Density_Graupel"; "Hail"; "Big_Drops"]%string.
Definition species_name (i : nat) : string := nth i species ""%string.
Definition band_letter (b : band) : string :=
  match b with BS => "S" | BC => "C" | BX => "X" end%string.
(** the file of species i *)
Definition plot_path (pdir : string) (b : band) (i : nat) : string :=
  (pdir ++ species_name i ++ "_beta_" ++ band_letter b ++ ".png")%string.

(** number of classes in the shipped tables *)
Definition classes (s : season) : nat :=
  match s with Summer => 10 | Winter => 6 | Melt => 2 end%nat.

(** first abscissa, spacing and number of abscissae of each panel *)
Definition grid (k : key) : R * R * nat :=
  match k with
  | KDZ => (0, 1 / 10, 701%nat) | KDR => (-2, 1 / 100, 801%nat) | KKD => (-2, 1 / 100, 901%nat)
  | KLD => (-60, 1 / 100, 5900%nat) | KRH => (3 / 4, 1 / 10000, 2501%nat)
  | KT => (-50, 1 / 10, 1001%nat)
  end.
Definition grid_points (k : key) : list R :=
  let '(lo, st, n) := grid k in map (fun j => lo + INR j * st) (seq 0 n).

(** panels in order: title and variable *)
Definition panels : list (string * key) :=
  [("dBZ", KDZ); ("Kdp", KKD); ("Zdr", KDR); ("LDR", KLD); ("$\rho$$_{hv}$", KRH); ("T", KT)]%string.

(** the winter tables have no parameters for RHOHV and LDR *)
Definition no_params (s : season) (k : key) : bool :=
  match s, k with Winter, KRH | Winter, KLD => true | _, _ => false end.
(** ordinate of the curve of variable k for class i *)
Definition curve (s : season) (b : band) (tf : R) (i : nat) (k : key) (x : R) : xr :=
  if no_params s k then NaN else Fin (membership s b tf i k (Fin x)).
