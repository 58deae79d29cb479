(** * Model of csu_radartools/csu_fhc_melt.py and of run_winter in csu_fhc.py

    Fields are ndarrays of dz's shape, stored flat; rho is a masked array (data
    and mask), the other fields carry no mask.  Class maps are integer arrays.
    [verbose] is modelled for what it can do to the outcome (it is True by default
    in run_winter), not for the text printed: [mode_scalar] says whether the
    installed SciPy's stats.mode of a 1-D array returns a number (1.11 and later)
    or an array of one element (earlier), which line 147 indexes.
    Not modelled: the values of the unused statistics (mode, std, var, skew,
    kurtosis, percentiles), scalar fields, fields of different shapes
    (Unmodelled), fdir. *)
From Verif Require Import Base.Num.
From Verif Require Import Model.Tables Model.Beta Model.TTraps Model.Hid.
Set Implicit Arguments.
Open Scope fl_scope.

Section Melt.
Context {F : Type} `{FloatOps F}.

(** np.sort *)
Fixpoint finsert (x : F) (l : list F) : list F :=
  match l with [] => [x] | y :: r => if x <=? y then x :: l else y :: finsert x r end.
Definition fsort (l : list F) : list F := fold_right finsert [] l.

(** np.median: NaN if any element is NaN (or none), else the mean of the middle
    element(s) of the sorted list *)
Definition np_median (l : list F) : F :=
  if existsb fisnan l then fnan else
  let s := fsort l in
  let n := List.length l in
  match nth_error s ((n - 1) / 2)%nat, nth_error s (n / 2)%nat with
  | Some a, Some b => if Nat.odd n then b else (a + b) / #2
  | _, _ => fnan
  end.

(** np.isfinite *)
Definition finite (x : F) : bool := negb (fisnan (x - x)).

(** csu_fhc_melt.py:89-171, get_ml_rhi: (meltlev, ML_medianZ).  np.histogram
    (line 122) raises ValueError on a height that is not finite; comparing with
    None (lines 163-164) raises TypeError; with verbose, [ML_mode[0]] (line 147)
    raises IndexError when stats.mode returned a number. *)
Definition get_ml_rhi (mode_scalar verbose : bool) (fh : list Z) (height : list F) (expected_ML : option F)
  : res (list Z * F) :=
  let ws := map (fun c => (c =? 2)%Z) fh in
  let wh := match expected_ML with
    | Some e => land (land (map (fun z => z <=? e + #1.5) height)
                           (map (fun z => z >=? e - #1.5) height)) ws
    | None => ws
    end in
  let ML_z := msel wh height in
  med <- (if (10 <? List.length ML_z)%nat then
            if forallb finite ML_z then
              if (verbose && mode_scalar)%bool then Raise IndexError else Ok (np_median ML_z)
            else Raise ValueError
          else match expected_ML with Some e => Ok e | None => Raise TypeError end) ;;
  let meltlev := map (fun _ => 1%Z) fh in
  let meltlev := msetc (map (fun z => z <? med) height) 0%Z meltlev in
  let meltlev := msetc (map (fun z => z >? med) height) 2%Z meltlev in
  Ok (meltlev, med).

(** a count as a float *)
Definition of_nat (n : nat) : F := flit (inject_Z (Z.of_nat n)).

(** np.linspace(0, 360, n): i * step, the last one set to 360 *)
Definition linspace360 (n : nat) : list F :=
  map (fun i => if (S i =? n)%nat then (if (n =? 1)%nat then #0 else #360)
                else of_nat i * (#360 / of_nat (n - 1)) + #0) (seq 0 n).

(** np.nanmean *)
Definition nanmean (l : list F) : F :=
  let v := filter (fun x => negb (fisnan x)) l in
  fold_left fadd v #0 / of_nat (List.length v).

(** np.repeat(azimuths[..., np.newaxis], ngates, axis=1), raveled *)
Definition az3d (azimuths : list F) (ng : nat) : list F := flat_map (fun a => repeat a ng) azimuths.

(** one pass of the loop at csu_fhc_melt.py:207-251: sector [a, b); the state is
    (ML_medianZ so far, meltlev_az).  np.ravel of the index tuple (line 213) has
    two entries per gate.  Python's float / int raises on 0. *)
Definition ppi_sector (fh : list Z) (dz height az : list F) (expected_ML : option F) (a b : F)
  (st : list F * list F) : res (list F * list F) :=
  let '(meds, melt_az) := st in
  let wh_az := land (map (fun z => z >=? a) az) (map (fun z => z <? b) az) in
  let ws := land wh_az (map (fun c => (c =? 2)%Z) fh) in
  let ML_sector := msel ws height in
  let npts := (2 * List.length (filter (fun b => b) wh_az))%nat in
  if (npts =? 0)%nat then Raise ZeroDivisionError else
  let per_ML := of_nat (List.length ML_sector) / of_nat npts * #100 in
  med <- (if ((per_ML >? #0.05) && (nanmean (msel ws dz) >? #15))%bool then
            match expected_ML with
            | None => Raise TypeError
            | Some e => let MLcheck := np_median ML_sector in
                        Ok (if fabs (MLcheck - e) >? #2 then #0 else MLcheck)
            end
          else Ok #0) ;;
  Ok (meds ++ [med], msetc wh_az med melt_az).

(** csu_fhc_melt.py:174-261, get_ml_ppi: (meltlev, ML_medianZ) for fields of
    shape (number of azimuths, ng).  meltlev is a float array holding 0, 1, 2;
    the model keeps the numbers.  The RHI version is called with verbose=False
    (line 260). *)
Inductive ml_height := OneHeight (z : F) | SectorHeights (z : list F).
Definition get_ml_ppi (mode_scalar : bool) (fh : list Z) (dz height : list F) (ng : nat) (expected_ML : option F)
  (nsect : nat) (azimuths : option (list F)) : res (list Z * ml_height) :=
  match azimuths with
  | None => r <- get_ml_rhi mode_scalar false fh height expected_ML ;; Ok (fst r, OneHeight (snd r))
  | Some azs =>
      if (nsect =? 0)%nat then Raise ValueError else   (* np.zeros([-1]) *)
      let az := az3d azs ng in
      if negb (List.length az =? List.length fh)%nat then Unmodelled else
      let az_sector := linspace360 nsect in
      st <- forM (combine az_sector (tl az_sector))
              (fun ab st => ppi_sector fh dz height az expected_ML (fst ab) (snd ab) st)
              ([], map (fun _ => #0) fh) ;;
      let '(meds, melt_az) := st in
      let meltlev := map (fun _ => 1%Z) fh in
      let meltlev := msetc (map2 (fun z m => z >=? m) height melt_az) 2%Z meltlev in
      let meltlev := msetc (map2 (fun z m => z <=? m) height melt_az) 0%Z meltlev in
      Ok (meltlev, SectorHeights meds)
  end.

(** the inputs of run_winter that are not options *)
Record scan := mkscan {
  s_shape : list nat;
  s_dz : list F;
  s_zdr : option (list F);
  s_kdp : option (list F);
  s_rho : list F;               (* rho.data *)
  s_rhomask : list bool;        (* rho.mask *)
  s_sn : option (list F);
  s_T : option (list F);
  s_heights : option (list F);
  s_azimuths : option (list F)
}.

Definition oarr (sh : list nat) (l : option (list F)) : pyarg F :=
  match l with Some d => AArr (mkarr DFloat sh d) | None => ANone end.

(** the fields handed to csu_fhc_cold_newml1 (csu_fhc_melt.py:36-38) *)
Definition ml_fields (s : scan) (k : key) : pyarg F :=
  match k with
  | KDZ => oarr (s_shape s) (Some (s_dz s)) | KDR => oarr (s_shape s) (s_zdr s)
  | KKD => oarr (s_shape s) (s_kdp s) | KRH => oarr (s_shape s) (Some (s_rho s))
  | KLD | KT => ANone
  end.
(** the fields handed to csu_fhc_winter (csu_fhc.py:120-122, 130-132) *)
Definition winter_fields (s : scan) (k : key) : pyarg F :=
  match k with
  | KDZ => oarr (s_shape s) (Some (s_dz s)) | KDR => oarr (s_shape s) (s_zdr s)
  | KKD => oarr (s_shape s) (s_kdp s) | KT => oarr (s_shape s) (s_T s)
  | KLD | KRH => ANone
  end.

(** np.argmax(scores, axis=0) + 1 *)
Definition argmax_class (n sz : nat) (r : fhc_ret F) : res (list Z) :=
  match r with
  | Scores _ mu => h <- argmax0 n sz mu ;; Ok (map (fun k => Z.of_nat (S k)) h)
  | Classes _ _ => Unmodelled
  end.

(** csu_fhc_melt.py:31-86, melting_layer; [scan_type] 'rhi' and 'grid' use the
    RHI version, anything else the PPI version.  PyNone when heights is None. *)
Definition melting_layer (mode_scalar verbose : bool) (s : scan) (scan_type : string) (bd : band) (minRH : F)
  (expected_ML : option F) (nsect : nat) (sn_thresh : F)
  : res (list Z * ml_height * list Z * fhc_ret F) :=
  scores <- loud verbose (List.length (s_dz s))
              (csu_fhc_cold_newml1 false ml1_weights "linear" (ml_fields s) 2 #1 BS) ;;
  fh <- argmax_class 2 (List.length (s_dz s)) scores ;;
  let fh := match s_sn s with
    | Some sn => msetc (map (fun x => x <? sn_thresh) sn) 0%Z fh | None => fh end in
  let fh := msetc (map2 (fun x (m : bool) => if m then true else fisnan x) (s_rho s) (s_rhomask s)) (-1)%Z fh in
  let fh := msetc (map (fun x => x <=? minRH) (s_rho s)) (-1)%Z fh in
  match s_heights s with
  | None => PyNone
  | Some height =>
      if (String.eqb scan_type "rhi" || String.eqb scan_type "grid")%bool then
        r <- get_ml_rhi mode_scalar verbose fh height expected_ML ;;
        Ok (fst r, OneHeight (snd r), fh, scores)
      else
        ng <- (match s_azimuths s, s_shape s with
               | None, _ => Ok 0%nat
               | Some _, [_; n] => Ok n
               | _, _ => Unmodelled
               end) ;;
        r <- get_ml_ppi mode_scalar fh (s_dz s) height ng expected_ML nsect (s_azimuths s) ;;
        Ok (fst r, snd r, fh, scores)
  end.

(** csu_fhc.py:103-166, run_winter: (winter_hca, (scores_ML, warm, cold), (fh,
    fhwarm, fhcold)); with return_scores=False only the first.  The arguments
    ldr, use_temp, band, method are accepted. *)
Definition run_winter (mode_scalar verbose : bool) (s : scan) (use_temp : bool) (bd : band) (method : string) (scan_type : string)
  (minRH : F) (expected_ML : option F) (nsect : nat) (sn_thresh : F)
  : res (list Z * (fhc_ret F * fhc_ret F * fhc_ret F) * (list Z * list Z * list Z)) :=
  ml <- (match melting_layer mode_scalar verbose s scan_type bd minRH expected_ML nsect sn_thresh with
         | PyNone => Raise TypeError        (* cannot unpack None *)
         | r => r
         end) ;;
  let '(meltlev, _, fh, scores_ML) := ml in
  let sz := List.length (s_dz s) in
  scores_warm <- loud verbose sz (csu_fhc_winter true winter_weights "linear" (winter_fields s) #1 true BC) ;;
  fhwarm <- argmax_class 2 sz scores_warm ;;
  let fhwarm := msetc (map (fun c => (c =? 1)%Z) fhwarm) 6%Z fhwarm in
  let fhwarm := msetc (map (fun c => (c =? 2)%Z) fhwarm) 7%Z fhwarm in
  scores_cold <- loud verbose sz (csu_fhc_winter true winter_weights "linear" (winter_fields s) #1 false BC) ;;
  fhcold <- argmax_class 4 sz scores_cold ;;
  let fh := msetc (map (fun c => (c =? 2)%Z) fh) 5%Z fh in
  let hca := map (fun _ => (-1)%Z) fh in
  let hca := mset (map (fun m => (m =? 0)%Z) meltlev) fhwarm hca in
  let hca := mset (map (fun m => (m =? 2)%Z) meltlev) fhcold hca in
  let hca := if String.eqb scan_type "grid"
             then mset (map (fun m => (m =? 1)%Z) meltlev) fhcold hca else hca in
  let hca := msetc (map (fun c => (c =? 5)%Z) fh) 5%Z hca in
  let hca := msetc (map (fun c => (c =? -1)%Z) fh) (-1)%Z hca in
  let hca := msetc (map (fun c => (c =? 0)%Z) fh) (-1)%Z hca in
  Ok (hca, (scores_ML, scores_warm, scores_cold), (fh, fhwarm, fhcold)).

End Melt.
Arguments scan : clear implicits.
Arguments ml_height : clear implicits.
