(** * The shipped membership parameters, transcribed verbatim from the 54 CSV files in
    csu_radartools/beta_function_parameters/ by tools/gen_tables.py.
    A row is (m, a, b); [None] is a NaN cell.  Column lookup is by header name. *)
From Coq Require Import QArith List.
Import ListNotations.
Local Open Scope Q_scope.

(** keys of csu_fhc.py:28 and of the mbf_sets dictionaries *)
Inductive key := KDZ | KDR | KKD | KRH | KLD | KT.
(** the band argument: 'S', 'C' or 'X'; any other string has no CSV file *)
Inductive band := BS | BC | BX.
(** which family of files: <name>.csv, <name>_winter.csv, <name>_ML.csv *)
Inductive season := Summer | Winter | Melt.
Definition row : Type := (option Q * option Q * option Q)%type.

(** csu_radartools/beta_function_parameters/S-band_Reflectivity.csv:1-11 *)
Definition csv_Summer_S_KDZ : list row :=
  [(Some (2 # 1), Some (29 # 1), Some (10 # 1));
   (Some (83 # 2), Some (31 # 2), Some (10 # 1));
   (Some (-3 # 1), Some (22 # 1), Some (20 # 1));
   (Some (17 # 1), Some (17 # 1), Some (15 # 1));
   (Some (21 # 1), Some (22 # 1), Some (10 # 1));
   (Some (-3 # 1), Some (22 # 1), Some (20 # 1));
   (Some (37 # 1), Some (8 # 1), Some (8 # 1));
   (Some (49 # 1), Some (9 # 1), Some (6 # 1));
   (Some (58 # 1), Some (12 # 1), Some (10 # 1));
   (Some (57 # 1), Some (9 # 1), Some (10 # 1))].
(** csu_radartools/beta_function_parameters/S-band_Differential_Reflectivity.csv:1-11 *)
Definition csv_Summer_S_KDR : list row :=
  [(Some (7 # 20), Some (7 # 20), Some (5 # 1));
   (Some (13 # 5), Some (14 # 5), Some (9 # 1));
   (Some (16 # 5), Some (14 # 5), Some (10 # 1));
   (Some (3 # 5), Some (3 # 5), Some (7 # 1));
   (Some (13 # 10), Some (13 # 10), Some (10 # 1));
   (Some (-9 # 10), Some (9 # 10), Some (10 # 1));
   (Some (3 # 10), Some (4 # 5), Some (6 # 1));
   (Some (1 # 1), Some (19 # 10), Some (8 # 1));
   (Some (7 # 50), Some (11 # 20), Some (8 # 1));
   (Some (4 # 1), Some (17 # 10), Some (8 # 1))].
(** csu_radartools/beta_function_parameters/S-band_Specific_Differential_Phase.csv:1-11 *)
Definition csv_Summer_S_KKD : list row :=
  [(Some (1 # 100), Some (1 # 100), Some (2 # 1));
   (Some (37 # 10), Some (4 # 1), Some (10 # 1));
   (Some (43 # 1000), Some (43 # 1000), Some (6 # 1));
   (Some (1 # 25), Some (1 # 20), Some (1 # 1));
   (Some (13 # 100), Some (1 # 2), Some (6 # 1));
   (Some (-23 # 100), Some (23 # 100), Some (3 # 1));
   (Some (1 # 5), Some (14 # 25), Some (3 # 1));
   (Some (11 # 20), Some (231 # 200), Some (3 # 1));
   (Some (1 # 5), Some (4 # 5), Some (6 # 1));
   (Some (8 # 5), Some (3 # 2), Some (6 # 1))].
(** csu_radartools/beta_function_parameters/S-band_Correlation_Coefficient.csv:1-11 *)
Definition csv_Summer_S_KRH : list row :=
  [(Some (1 # 1), Some (3 # 200), Some (3 # 1));
   (Some (1 # 1), Some (1 # 50), Some (2 # 1));
   (Some (1 # 1), Some (1 # 50), Some (3 # 1));
   (Some (499 # 500), Some (1 # 50), Some (3 # 1));
   (Some (39 # 50), Some (1 # 5), Some (10 # 1));
   (Some (97 # 100), Some (1 # 25), Some (3 # 1));
   (Some (1 # 1), Some (1 # 100), Some (1 # 1));
   (Some (1 # 1), Some (1 # 25), Some (4 # 1));
   (Some (24 # 25), Some (1 # 10), Some (3 # 1));
   (Some (49 # 50), Some (1 # 25), Some (3 # 1))].
(** csu_radartools/beta_function_parameters/S-band_Linear_Depolarization_Ratio.csv:1-11 *)
Definition csv_Summer_S_KLD : list row :=
  [(Some (-2419 # 50), Some (11 # 2), Some (10 # 1));
   (Some (-25 # 1), Some (11 # 2), Some (4 # 1));
   (Some (-2333 # 100), Some (399 # 50), Some (20 # 1));
   (Some (-9291 # 200), Some (787 # 40), Some (20 # 1));
   (Some (-2721 # 200), Some (1289 # 200), Some (8 # 1));
   (Some (-742 # 25), Some (119 # 10), Some (20 # 1));
   (Some (-2159 # 50), Some (323 # 25), Some (8 # 1));
   (Some (-7179 # 200), Some (2641 # 200), Some (3 # 1));
   (Some (-4449 # 200), Some (1553 # 200), Some (8 # 1));
   (Some (-852 # 25), Some (153 # 50), Some (10 # 1))].
(** csu_radartools/beta_function_parameters/S-band_Temperature.csv:1-11 *)
Definition csv_Summer_S_KT : list row :=
  [(Some (40 # 1), Some (41 # 1), Some (50 # 1));
   (Some (48 # 1), Some (51 # 1), Some (30 # 1));
   (Some (-50 # 1), Some (50 # 1), Some (25 # 1));
   (Some (-25 # 1), Some (26 # 1), Some (15 # 1));
   (Some (1 # 1), Some (7 # 2), Some (5 # 1));
   (Some (-50 # 1), Some (50 # 1), Some (25 # 1));
   (Some (-50 # 1), Some (50 # 1), Some (25 # 1));
   (Some (-5 # 2), Some (20 # 1), Some (2 # 1));
   (Some (0 # 1), Some (100 # 1), Some (5 # 1));
   (Some (48 # 1), Some (51 # 1), Some (30 # 1))].
(** csu_radartools/beta_function_parameters/C-band_Reflectivity.csv:1-11 *)
Definition csv_Summer_C_KDZ : list row :=
  [(Some (7 # 4), Some (29 # 1), Some (10 # 1));
   (Some (39 # 1), Some (19 # 1), Some (10 # 1));
   (Some (-3 # 1), Some (22 # 1), Some (20 # 1));
   (Some (17 # 1), Some (181 # 10), Some (10 # 1));
   (Some (24 # 1), Some (213 # 10), Some (10 # 1));
   (Some (-3 # 1), Some (22 # 1), Some (20 # 1));
   (Some (37 # 1), Some (46 # 5), Some (8 # 1));
   (Some (443 # 10), Some (51 # 5), Some (6 # 1));
   (Some (623 # 10), Some (143 # 10), Some (10 # 1));
   (Some (289 # 5), Some (17 # 2), Some (10 # 1))].
(** csu_radartools/beta_function_parameters/C-band_Differential_Reflectivity.csv:1-11 *)
Definition csv_Summer_C_KDR : list row :=
  [(Some (23 # 50), Some (23 # 50), Some (5 # 1));
   (Some (23 # 10), Some (11 # 5), Some (9 # 1));
   (Some (29 # 10), Some (27 # 10), Some (10 # 1));
   (Some (1 # 1), Some (11 # 10), Some (7 # 1));
   (Some (13 # 10), Some (9 # 10), Some (10 # 1));
   (Some (-9 # 10), Some (9 # 10), Some (10 # 1));
   (Some (9 # 10), Some (9 # 10), Some (6 # 1));
   (Some (8 # 5), Some (6 # 5), Some (3 # 1));
   (Some (7 # 50), Some (14 # 25), Some (8 # 1));
   (Some (22 # 5), Some (19 # 10), Some (8 # 1))].
(** csu_radartools/beta_function_parameters/C-band_Specific_Differential_Phase.csv:1-11 *)
Definition csv_Summer_C_KKD : list row :=
  [(Some (3 # 100), Some (3 # 100), Some (2 # 1));
   (Some (11 # 2), Some (11 # 2), Some (10 # 1));
   (Some (2 # 25), Some (2 # 25), Some (6 # 1));
   (Some (-1 # 125), Some (3 # 10), Some (1 # 1));
   (Some (1 # 4), Some (43 # 100), Some (6 # 1));
   (Some (-3 # 4), Some (3 # 4), Some (30 # 1));
   (Some (1 # 10), Some (2 # 25), Some (3 # 1));
   (Some (19 # 10), Some (19 # 10), Some (3 # 1));
   (Some (3 # 5), Some (7 # 2), Some (6 # 1));
   (Some (17 # 5), Some (33 # 10), Some (6 # 1))].
(** csu_radartools/beta_function_parameters/C-band_Correlation_Coefficient.csv:1-11 *)
Definition csv_Summer_C_KRH : list row :=
  [(Some (1 # 1), Some (9 # 500), Some (3 # 1));
   (Some (1 # 1), Some (1 # 40), Some (3 # 1));
   (Some (49 # 50), Some (1 # 40), Some (3 # 1));
   (Some (93 # 100), Some (7 # 100), Some (3 # 1));
   (Some (37 # 50), Some (1 # 4), Some (10 # 1));
   (Some (39 # 40), Some (11 # 500), Some (3 # 1));
   (Some (1 # 1), Some (1 # 40), Some (1 # 1));
   (Some (1 # 1), Some (1 # 25), Some (2 # 1));
   (Some (97 # 100), Some (1 # 10), Some (3 # 1));
   (Some (99 # 100), Some (3 # 100), Some (3 # 1))].
(** csu_radartools/beta_function_parameters/C-band_Linear_Depolarization_Ratio.csv:1-11 *)
Definition csv_Summer_C_KLD : list row :=
  [(Some (-4833 # 100), Some (11 # 2), Some (10 # 1));
   (Some (-25 # 1), Some (11 # 2), Some (4 # 1));
   (Some (-1503 # 50), Some (1463 # 100), Some (20 # 1));
   (Some (-172 # 5), Some (128 # 5), Some (20 # 1));
   (Some (-2639 # 200), Some (1371 # 200), Some (8 # 1));
   (Some (-307 # 10), Some (129 # 10), Some (20 # 1));
   (Some (-1271 # 25), Some (2471 # 100), Some (8 # 1));
   (Some (-8917 # 200), Some (4513 # 200), Some (3 # 1));
   (Some (-556 # 25), Some (176 # 25), Some (8 # 1));
   (Some (-832 # 25), Some (313 # 100), Some (10 # 1))].
(** csu_radartools/beta_function_parameters/C-band_Temperature.csv:1-11 *)
Definition csv_Summer_C_KT : list row :=
  [(Some (40 # 1), Some (41 # 1), Some (50 # 1));
   (Some (48 # 1), Some (51 # 1), Some (30 # 1));
   (Some (-50 # 1), Some (50 # 1), Some (25 # 1));
   (Some (-25 # 1), Some (26 # 1), Some (15 # 1));
   (Some (1 # 1), Some (7 # 2), Some (5 # 1));
   (Some (-50 # 1), Some (50 # 1), Some (25 # 1));
   (Some (-50 # 1), Some (50 # 1), Some (25 # 1));
   (Some (-5 # 2), Some (20 # 1), Some (2 # 1));
   (Some (0 # 1), Some (100 # 1), Some (5 # 1));
   (Some (48 # 1), Some (51 # 1), Some (30 # 1))].
(** csu_radartools/beta_function_parameters/X-band_Reflectivity.csv:1-11 *)
Definition csv_Summer_X_KDZ : list row :=
  [(Some (2 # 1), Some (29 # 1), Some (10 # 1));
   (Some (42 # 1), Some (17 # 1), Some (10 # 1));
   (Some (-3 # 1), Some (22 # 1), Some (20 # 1));
   (Some (16 # 1), Some (17 # 1), Some (15 # 1));
   (Some (28 # 1), Some (29 # 1), Some (10 # 1));
   (Some (-3 # 1), Some (22 # 1), Some (20 # 1));
   (Some (36 # 1), Some (9 # 1), Some (8 # 1));
   (Some (43 # 1), Some (9 # 1), Some (5 # 1));
   (Some (59 # 1), Some (103 # 10), Some (6 # 1));
   (Some (56 # 1), Some (9 # 1), Some (10 # 1))].
(** csu_radartools/beta_function_parameters/X-band_Differential_Reflectivity.csv:1-11 *)
Definition csv_Summer_X_KDR : list row :=
  [(Some (9 # 20), Some (9 # 20), Some (5 # 1));
   (Some (57 # 20), Some (151 # 50), Some (9 # 1));
   (Some (16 # 5), Some (13 # 5), Some (10 # 1));
   (Some (7 # 10), Some (7 # 10), Some (7 # 1));
   (Some (8 # 5), Some (6 # 5), Some (10 # 1));
   (Some (-9 # 10), Some (1 # 1), Some (10 # 1));
   (Some (3 # 10), Some (1 # 1), Some (6 # 1));
   (Some (3 # 5), Some (3 # 2), Some (2 # 1));
   (Some (3 # 25), Some (1 # 2), Some (8 # 1));
   (Some (43 # 10), Some (2 # 1), Some (8 # 1))].
(** csu_radartools/beta_function_parameters/X-band_Specific_Differential_Phase.csv:1-11 *)
Definition csv_Summer_X_KKD : list row :=
  [(Some (3 # 100), Some (3 # 100), Some (2 # 1));
   (Some (51 # 4), Some (13 # 1), Some (60 # 1));
   (Some (3 # 20), Some (3 # 20), Some (6 # 1));
   (Some (1 # 5), Some (1 # 5), Some (1 # 1));
   (Some (-7 # 1), Some (81 # 10), Some (6 # 1));
   (Some (-79 # 100), Some (79 # 100), Some (3 # 1));
   (Some (7 # 10), Some (21 # 10), Some (3 # 1));
   (Some (31 # 20), Some (61 # 20), Some (3 # 1));
   (Some (1 # 2), Some (3 # 2), Some (6 # 1));
   (Some (18 # 5), Some (33 # 10), Some (6 # 1))].
(** csu_radartools/beta_function_parameters/X-band_Correlation_Coefficient.csv:1-11 *)
Definition csv_Summer_X_KRH : list row :=
  [(Some (1 # 1), Some (3 # 200), Some (2 # 1));
   (Some (1 # 1), Some (1 # 25), Some (2 # 1));
   (Some (1 # 1), Some (3 # 100), Some (3 # 1));
   (Some (499 # 500), Some (1 # 50), Some (3 # 1));
   (Some (7 # 10), Some (13 # 50), Some (10 # 1));
   (Some (49 # 50), Some (1 # 50), Some (3 # 1));
   (Some (1 # 1), Some (3 # 200), Some (1 # 1));
   (Some (1 # 1), Some (7 # 200), Some (1 # 1));
   (Some (97 # 100), Some (3 # 20), Some (3 # 1));
   (Some (49 # 50), Some (3 # 100), Some (3 # 1))].
(** csu_radartools/beta_function_parameters/X-band_Linear_Depolarization_Ratio.csv:1-11 *)
Definition csv_Summer_X_KLD : list row :=
  [(Some (-4833 # 100), Some (11 # 2), Some (10 # 1));
   (Some (-25091 # 1000), Some (11 # 2), Some (4 # 1));
   (Some (-4689 # 200), Some (1621 # 200), Some (20 # 1));
   (Some (-9187 # 200), Some (3887 # 200), Some (20 # 1));
   (Some (-529 # 40), Some (1363 # 200), Some (8 # 1));
   (Some (-6217 # 200), Some (133 # 10), Some (20 # 1));
   (Some (-1693 # 40), Some (2681 # 200), Some (8 # 1));
   (Some (-1717 # 50), Some (683 # 50), Some (3 # 1));
   (Some (-899 # 40), Some (1353 # 200), Some (8 # 1));
   (Some (-1629 # 50), Some (47 # 50), Some (10 # 1))].
(** csu_radartools/beta_function_parameters/X-band_Temperature.csv:1-11 *)
Definition csv_Summer_X_KT : list row :=
  [(Some (40 # 1), Some (41 # 1), Some (50 # 1));
   (Some (48 # 1), Some (51 # 1), Some (30 # 1));
   (Some (-50 # 1), Some (50 # 1), Some (25 # 1));
   (Some (-25 # 1), Some (26 # 1), Some (15 # 1));
   (Some (1 # 1), Some (7 # 2), Some (5 # 1));
   (Some (-50 # 1), Some (50 # 1), Some (25 # 1));
   (Some (-50 # 1), Some (50 # 1), Some (25 # 1));
   (Some (-5 # 2), Some (20 # 1), Some (2 # 1));
   (Some (0 # 1), Some (100 # 1), Some (5 # 1));
   (Some (48 # 1), Some (51 # 1), Some (30 # 1))].
(** csu_radartools/beta_function_parameters/S-band_Reflectivity_winter.csv:1-7 *)
Definition csv_Winter_S_KDZ : list row :=
  [(Some (6 # 1), Some (11 # 1), Some (5 # 1));
   (Some (12 # 1), Some (13 # 1), Some (5 # 1));
   (Some (17 # 1), Some (14 # 1), Some (5 # 1));
   (Some (28 # 1), Some (12 # 1), Some (5 # 1));
   (Some (283 # 25), Some (2883 # 100), Some (15 # 1));
   (Some (1953 # 100), Some (597 # 20), Some (15 # 1))].
(** csu_radartools/beta_function_parameters/S-band_Differential_Reflectivity_winter.csv:1-7 *)
Definition csv_Winter_S_KDR : list row :=
  [(Some (0 # 1), Some (1 # 1), Some (20 # 1));
   (Some (11 # 2), Some (37 # 10), Some (10 # 1));
   (Some (263 # 100), Some (13 # 10), Some (10 # 1));
   (Some (0 # 1), Some (1 # 1), Some (15 # 1));
   (Some (21 # 100), Some (21 # 100), Some (5 # 1));
   (Some (57 # 50), Some (109 # 100), Some (8 # 1))].
(** csu_radartools/beta_function_parameters/S-band_Specific_Differential_Phase_winter.csv:1-7 *)
Definition csv_Winter_S_KKD : list row :=
  [(Some (0 # 1), Some (1 # 5), Some (5 # 1));
   (Some (13 # 100), Some (13 # 100), Some (5 # 1));
   (Some (31 # 100), Some (3 # 10), Some (5 # 1));
   (Some (0 # 1), Some (1 # 5), Some (5 # 1));
   (Some (9 # 100), Some (9 # 100), Some (8 # 1));
   (Some (59 # 50), Some (59 # 50), Some (8 # 1))].
(** csu_radartools/beta_function_parameters/S-band_Correlation_Coefficient_winter.csv:1-7 *)
Definition csv_Winter_S_KRH : list row :=
  [(None, None, Some (10 # 1));
   (None, None, Some (10 # 1));
   (None, None, Some (10 # 1));
   (None, None, Some (10 # 1));
   (None, None, Some (10 # 1));
   (None, None, Some (10 # 1))].
(** csu_radartools/beta_function_parameters/S-band_Linear_Depolarization_Ratio_winter.csv:1-7 *)
Definition csv_Winter_S_KLD : list row :=
  [(None, None, Some (5 # 1));
   (None, None, Some (5 # 1));
   (None, None, Some (5 # 1));
   (None, None, Some (5 # 1));
   (None, None, Some (5 # 1));
   (None, None, Some (5 # 1))].
(** csu_radartools/beta_function_parameters/S-band_Temperature_winter.csv:1-7 *)
Definition csv_Winter_S_KT : list row :=
  [(Some (-20 # 1), Some (20 # 1), Some (20 # 1));
   (Some (-13 # 1), Some (3 # 1), Some (20 # 1));
   (Some (-15 # 1), Some (3 # 1), Some (20 # 1));
   (Some (-4 # 1), Some (3 # 1), Some (20 # 1));
   (Some (-4 # 1), Some (3 # 1), Some (20 # 1));
   (Some (25 # 1), Some (25 # 1), Some (40 # 1))].
(** csu_radartools/beta_function_parameters/C-band_Reflectivity_winter.csv:1-7 *)
Definition csv_Winter_C_KDZ : list row :=
  [(Some (6 # 1), Some (11 # 1), Some (5 # 1));
   (Some (12 # 1), Some (13 # 1), Some (5 # 1));
   (Some (17 # 1), Some (14 # 1), Some (5 # 1));
   (Some (28 # 1), Some (12 # 1), Some (5 # 1));
   (Some (283 # 25), Some (2883 # 100), Some (15 # 1));
   (Some (1953 # 100), Some (597 # 20), Some (15 # 1))].
(** csu_radartools/beta_function_parameters/C-band_Differential_Reflectivity_winter.csv:1-7 *)
Definition csv_Winter_C_KDR : list row :=
  [(Some (0 # 1), Some (1 # 1), Some (20 # 1));
   (Some (11 # 2), Some (37 # 10), Some (10 # 1));
   (Some (263 # 100), Some (13 # 10), Some (10 # 1));
   (Some (0 # 1), Some (1 # 1), Some (15 # 1));
   (Some (21 # 100), Some (21 # 100), Some (5 # 1));
   (Some (57 # 50), Some (109 # 100), Some (8 # 1))].
(** csu_radartools/beta_function_parameters/C-band_Specific_Differential_Phase_winter.csv:1-7 *)
Definition csv_Winter_C_KKD : list row :=
  [(Some (0 # 1), Some (13 # 40), Some (5 # 1));
   (Some (27 # 100), Some (13 # 50), Some (5 # 1));
   (Some (1 # 1), Some (7 # 10), Some (5 # 1));
   (Some (0 # 1), Some (13 # 40), Some (5 # 1));
   (Some (9 # 100), Some (9 # 100), Some (8 # 1));
   (Some (59 # 50), Some (59 # 50), Some (8 # 1))].
(** csu_radartools/beta_function_parameters/C-band_Correlation_Coefficient_winter.csv:1-7 *)
Definition csv_Winter_C_KRH : list row :=
  [(None, None, Some (10 # 1));
   (None, None, Some (10 # 1));
   (None, None, Some (10 # 1));
   (None, None, Some (10 # 1));
   (None, None, Some (10 # 1));
   (None, None, Some (10 # 1))].
(** csu_radartools/beta_function_parameters/C-band_Linear_Depolarization_Ratio_winter.csv:1-7 *)
Definition csv_Winter_C_KLD : list row :=
  [(None, None, Some (5 # 1));
   (None, None, Some (5 # 1));
   (None, None, Some (5 # 1));
   (None, None, Some (5 # 1));
   (None, None, Some (5 # 1));
   (None, None, Some (5 # 1))].
(** csu_radartools/beta_function_parameters/C-band_Temperature_winter.csv:1-7 *)
Definition csv_Winter_C_KT : list row :=
  [(Some (-20 # 1), Some (20 # 1), Some (20 # 1));
   (Some (-13 # 1), Some (3 # 1), Some (20 # 1));
   (Some (-15 # 1), Some (3 # 1), Some (20 # 1));
   (Some (-4 # 1), Some (3 # 1), Some (20 # 1));
   (Some (-4 # 1), Some (3 # 1), Some (20 # 1));
   (Some (25 # 1), Some (25 # 1), Some (40 # 1))].
(** csu_radartools/beta_function_parameters/X-band_Reflectivity_winter.csv:1-7 *)
Definition csv_Winter_X_KDZ : list row :=
  [(Some (6 # 1), Some (11 # 1), Some (5 # 1));
   (Some (12 # 1), Some (13 # 1), Some (5 # 1));
   (Some (17 # 1), Some (14 # 1), Some (5 # 1));
   (Some (28 # 1), Some (12 # 1), Some (5 # 1));
   (Some (283 # 25), Some (2883 # 100), Some (15 # 1));
   (Some (1953 # 100), Some (597 # 20), Some (15 # 1))].
(** csu_radartools/beta_function_parameters/X-band_Differential_Reflectivity_winter.csv:1-7 *)
Definition csv_Winter_X_KDR : list row :=
  [(Some (0 # 1), Some (1 # 1), Some (20 # 1));
   (Some (11 # 2), Some (37 # 10), Some (10 # 1));
   (Some (263 # 100), Some (13 # 10), Some (10 # 1));
   (Some (0 # 1), Some (1 # 1), Some (15 # 1));
   (Some (21 # 100), Some (21 # 100), Some (5 # 1));
   (Some (57 # 50), Some (109 # 100), Some (8 # 1))].
(** csu_radartools/beta_function_parameters/X-band_Specific_Differential_Phase_winter.csv:1-7 *)
Definition csv_Winter_X_KKD : list row :=
  [(Some (-11 # 20), Some (111 # 200), Some (5 # 1));
   (Some (23 # 50), Some (9 # 20), Some (5 # 1));
   (Some (33 # 25), Some (32 # 25), Some (5 # 1));
   (Some (-11 # 20), Some (11 # 20), Some (5 # 1));
   (Some (9 # 100), Some (9 # 100), Some (8 # 1));
   (Some (59 # 50), Some (59 # 50), Some (8 # 1))].
(** csu_radartools/beta_function_parameters/X-band_Correlation_Coefficient_winter.csv:1-7 *)
Definition csv_Winter_X_KRH : list row :=
  [(None, None, Some (10 # 1));
   (None, None, Some (10 # 1));
   (None, None, Some (10 # 1));
   (None, None, Some (10 # 1));
   (None, None, Some (10 # 1));
   (None, None, Some (10 # 1))].
(** csu_radartools/beta_function_parameters/X-band_Linear_Depolarization_Ratio_winter.csv:1-7 *)
Definition csv_Winter_X_KLD : list row :=
  [(None, None, Some (5 # 1));
   (None, None, Some (5 # 1));
   (None, None, Some (5 # 1));
   (None, None, Some (5 # 1));
   (None, None, Some (5 # 1));
   (None, None, Some (5 # 1))].
(** csu_radartools/beta_function_parameters/X-band_Temperature_winter.csv:1-7 *)
Definition csv_Winter_X_KT : list row :=
  [(Some (-20 # 1), Some (20 # 1), Some (20 # 1));
   (Some (-13 # 1), Some (3 # 1), Some (20 # 1));
   (Some (-15 # 1), Some (3 # 1), Some (20 # 1));
   (Some (-4 # 1), Some (3 # 1), Some (20 # 1));
   (Some (-4 # 1), Some (3 # 1), Some (20 # 1));
   (Some (25 # 1), Some (25 # 1), Some (40 # 1))].
(** csu_radartools/beta_function_parameters/S-band_Reflectivity_ML.csv:1-3 *)
Definition csv_Melt_S_KDZ : list row :=
  [(Some (16 # 1), Some (17 # 1), Some (5 # 1));
   (Some (25 # 1), Some (23 # 1), Some (10 # 1))].
(** csu_radartools/beta_function_parameters/S-band_Differential_Reflectivity_ML.csv:1-3 *)
Definition csv_Melt_S_KDR : list row :=
  [(Some (1 # 2), Some (3 # 2), Some (15 # 1));
   (Some (3 # 1), Some (5 # 1), Some (10 # 1))].
(** csu_radartools/beta_function_parameters/S-band_Specific_Differential_Phase_ML.csv:1-3 *)
Definition csv_Melt_S_KKD : list row :=
  [(Some (0 # 1), Some (1 # 5), Some (6 # 1));
   (Some (0 # 1), Some (1 # 1), Some (6 # 1))].
(** csu_radartools/beta_function_parameters/S-band_Correlation_Coefficient_ML.csv:1-3 *)
Definition csv_Melt_S_KRH : list row :=
  [(Some (49 # 50), Some (1 # 20), Some (10 # 1));
   (Some (3 # 4), Some (23 # 100), Some (30 # 1))].
(** csu_radartools/beta_function_parameters/S-band_Linear_Depolarization_Ratio_ML.csv:1-3 *)
Definition csv_Melt_S_KLD : list row :=
  [(Some (-172 # 5), Some (128 # 5), Some (20 # 1));
   (Some (-2639 # 200), Some (1371 # 200), Some (8 # 1))].
(** csu_radartools/beta_function_parameters/S-band_Temperature_ML.csv:1-3 *)
Definition csv_Melt_S_KT : list row :=
  [(Some (-4 # 1), Some (3 # 1), Some (20 # 1));
   (Some (0 # 1), Some (1 # 1), Some (15 # 1))].
(** csu_radartools/beta_function_parameters/C-band_Reflectivity_ML.csv:1-3 *)
Definition csv_Melt_C_KDZ : list row :=
  [(Some (16 # 1), Some (17 # 1), Some (5 # 1));
   (Some (35 # 1), Some (23 # 1), Some (10 # 1))].
(** csu_radartools/beta_function_parameters/C-band_Differential_Reflectivity_ML.csv:1-3 *)
Definition csv_Melt_C_KDR : list row :=
  [(Some (1 # 2), Some (3 # 2), Some (15 # 1));
   (Some (3 # 1), Some (6 # 1), Some (10 # 1))].
(** csu_radartools/beta_function_parameters/C-band_Specific_Differential_Phase_ML.csv:1-3 *)
Definition csv_Melt_C_KKD : list row :=
  [(Some (0 # 1), Some (1 # 5), Some (6 # 1));
   (Some (0 # 1), Some (1 # 1), Some (6 # 1))].
(** csu_radartools/beta_function_parameters/C-band_Correlation_Coefficient_ML.csv:1-3 *)
Definition csv_Melt_C_KRH : list row :=
  [(Some (49 # 50), Some (1 # 50), Some (10 # 1));
   (Some (3 # 4), Some (23 # 100), Some (20 # 1))].
(** csu_radartools/beta_function_parameters/C-band_Linear_Depolarization_Ratio_ML.csv:1-3 *)
Definition csv_Melt_C_KLD : list row :=
  [(Some (-172 # 5), Some (128 # 5), Some (20 # 1));
   (Some (-2639 # 200), Some (1371 # 200), Some (8 # 1))].
(** csu_radartools/beta_function_parameters/C-band_Temperature_ML.csv:1-3 *)
Definition csv_Melt_C_KT : list row :=
  [(Some (-4 # 1), Some (3 # 1), Some (20 # 1));
   (Some (0 # 1), Some (1 # 1), Some (15 # 1))].
(** csu_radartools/beta_function_parameters/X-band_Reflectivity_ML.csv:1-3 *)
Definition csv_Melt_X_KDZ : list row :=
  [(Some (16 # 1), Some (17 # 1), Some (5 # 1));
   (Some (35 # 1), Some (23 # 1), Some (10 # 1))].
(** csu_radartools/beta_function_parameters/X-band_Differential_Reflectivity_ML.csv:1-3 *)
Definition csv_Melt_X_KDR : list row :=
  [(Some (1 # 2), Some (3 # 2), Some (15 # 1));
   (Some (3 # 1), Some (5 # 1), Some (10 # 1))].
(** csu_radartools/beta_function_parameters/X-band_Specific_Differential_Phase_ML.csv:1-3 *)
Definition csv_Melt_X_KKD : list row :=
  [(Some (0 # 1), Some (1 # 5), Some (6 # 1));
   (Some (0 # 1), Some (1 # 1), Some (6 # 1))].
(** csu_radartools/beta_function_parameters/X-band_Correlation_Coefficient_ML.csv:1-3 *)
Definition csv_Melt_X_KRH : list row :=
  [(Some (49 # 50), Some (1 # 20), Some (10 # 1));
   (Some (3 # 4), Some (23 # 100), Some (30 # 1))].
(** csu_radartools/beta_function_parameters/X-band_Linear_Depolarization_Ratio_ML.csv:1-3 *)
Definition csv_Melt_X_KLD : list row :=
  [(Some (-172 # 5), Some (128 # 5), Some (20 # 1));
   (Some (-2639 # 200), Some (1371 # 200), Some (8 # 1))].
(** csu_radartools/beta_function_parameters/X-band_Temperature_ML.csv:1-3 *)
Definition csv_Melt_X_KT : list row :=
  [(Some (-4 # 1), Some (3 # 1), Some (20 # 1));
   (Some (0 # 1), Some (1 # 1), Some (15 # 1))].

(** file name construction, beta_functions.py:166-187, 238-259, 315-336, 397-418:
    band + '-band_' + variable + suffix + '.csv' *)
Definition csv (s : season) (b : band) (k : key) : list row :=
  match s, b, k with
  | Summer, BS, KDZ => csv_Summer_S_KDZ
  | Summer, BS, KDR => csv_Summer_S_KDR
  | Summer, BS, KKD => csv_Summer_S_KKD
  | Summer, BS, KRH => csv_Summer_S_KRH
  | Summer, BS, KLD => csv_Summer_S_KLD
  | Summer, BS, KT => csv_Summer_S_KT
  | Summer, BC, KDZ => csv_Summer_C_KDZ
  | Summer, BC, KDR => csv_Summer_C_KDR
  | Summer, BC, KKD => csv_Summer_C_KKD
  | Summer, BC, KRH => csv_Summer_C_KRH
  | Summer, BC, KLD => csv_Summer_C_KLD
  | Summer, BC, KT => csv_Summer_C_KT
  | Summer, BX, KDZ => csv_Summer_X_KDZ
  | Summer, BX, KDR => csv_Summer_X_KDR
  | Summer, BX, KKD => csv_Summer_X_KKD
  | Summer, BX, KRH => csv_Summer_X_KRH
  | Summer, BX, KLD => csv_Summer_X_KLD
  | Summer, BX, KT => csv_Summer_X_KT
  | Winter, BS, KDZ => csv_Winter_S_KDZ
  | Winter, BS, KDR => csv_Winter_S_KDR
  | Winter, BS, KKD => csv_Winter_S_KKD
  | Winter, BS, KRH => csv_Winter_S_KRH
  | Winter, BS, KLD => csv_Winter_S_KLD
  | Winter, BS, KT => csv_Winter_S_KT
  | Winter, BC, KDZ => csv_Winter_C_KDZ
  | Winter, BC, KDR => csv_Winter_C_KDR
  | Winter, BC, KKD => csv_Winter_C_KKD
  | Winter, BC, KRH => csv_Winter_C_KRH
  | Winter, BC, KLD => csv_Winter_C_KLD
  | Winter, BC, KT => csv_Winter_C_KT
  | Winter, BX, KDZ => csv_Winter_X_KDZ
  | Winter, BX, KDR => csv_Winter_X_KDR
  | Winter, BX, KKD => csv_Winter_X_KKD
  | Winter, BX, KRH => csv_Winter_X_KRH
  | Winter, BX, KLD => csv_Winter_X_KLD
  | Winter, BX, KT => csv_Winter_X_KT
  | Melt, BS, KDZ => csv_Melt_S_KDZ
  | Melt, BS, KDR => csv_Melt_S_KDR
  | Melt, BS, KKD => csv_Melt_S_KKD
  | Melt, BS, KRH => csv_Melt_S_KRH
  | Melt, BS, KLD => csv_Melt_S_KLD
  | Melt, BS, KT => csv_Melt_S_KT
  | Melt, BC, KDZ => csv_Melt_C_KDZ
  | Melt, BC, KDR => csv_Melt_C_KDR
  | Melt, BC, KKD => csv_Melt_C_KKD
  | Melt, BC, KRH => csv_Melt_C_KRH
  | Melt, BC, KLD => csv_Melt_C_KLD
  | Melt, BC, KT => csv_Melt_C_KT
  | Melt, BX, KDZ => csv_Melt_X_KDZ
  | Melt, BX, KDR => csv_Melt_X_KDR
  | Melt, BX, KKD => csv_Melt_X_KKD
  | Melt, BX, KRH => csv_Melt_X_KRH
  | Melt, BX, KLD => csv_Melt_X_KLD
  | Melt, BX, KT => csv_Melt_X_KT
  end.
