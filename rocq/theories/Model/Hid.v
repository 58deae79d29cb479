(** * Model of the fuzzy-logic classifiers: csu_radartools/csu_fhc.py
    (csu_fhc_summer), csu_fhc_winter.py and csu_fhc_ml1.py.

    The three modules carry their own copies of the private helpers; where the
    copies are the same program the model has one definition citing all of
    them.  [verbose] is modelled by [loud] for what it can do to the outcome, not
    for the text printed; plot_flag is in Plot.v.  Not modelled: fdir (always the shipped tables),
    weights dictionaries with missing keys or short lists. *)
From Verif Require Import Base.Num.
From Verif Require Import Model.Tables Model.Beta Model.TTraps.
Set Implicit Arguments.
Open Scope fl_scope.

(** Python [sub in s] on strings *)
Fixpoint contains (sub s : string) : bool :=
  (String.prefix sub s ||
   match s with EmptyString => false | String _ r => contains sub r end)%bool.

Section Hid.
Context {F : Type} `{FloatOps F}.

(** the keyword arguments dz, zdr, kdp, rho, ldr, T *)
Definition fields := key -> pyarg F.

(** csu_fhc.py:319-347, csu_fhc_winter.py:156-185, csu_fhc_ml1.py:142-170,
    _populate_vars: raveled float32 copy of every supplied field (None: not in
    the dictionary); [np.array(masked)] keeps the data under the mask. *)
Definition radar_data (a : fields) (k : key) : option (list F) :=
  match a k with
  | ANone => None
  | AScalar _ x => Some [f32 x]
  | AArr v => Some (map f32 (adata v))
  end.
Definition fhc_vars (a : fields) (k : key) : bool :=
  match a k with ANone => false | _ => true end.
(** np.shape(dz) *)
Definition dz_shape (a : fields) : list nat :=
  match a KDZ with AArr v => ashape v | _ => [] end.
(** np.size(dz) *)
Definition dz_size (a : fields) : nat :=
  match a KDZ with AArr v => List.length (adata v) | _ => 1%nat end.

(** fhc_vars after "fhc_vars['T'] = 0" when T is not used; csu_fhc.py:256-263,
    csu_fhc_winter.py:93-98, csu_fhc_ml1.py:88-94 *)
Definition used_vars (a : fields) (use_temp : bool) (k : key) : bool :=
  match k with KT => (fhc_vars a KT && use_temp)%bool | _ => fhc_vars a k end.

(** csu_fhc.py:310-316, csu_fhc_winter.py:147-153, csu_fhc_ml1.py:133-139 *)
Definition get_pol_flag (v : key -> bool) : bool := (v KDR || v KKD || v KLD || v KRH)%bool.

(** the varlist half of _get_weight_sum, csu_fhc.py:350-368,
    csu_fhc_winter.py:188-209, csu_fhc_ml1.py:173-193 *)
Definition varlist (method : string) : option (list key) :=
  if contains "hybrid" method then Some [KDR; KKD; KRH; KLD]
  else if contains "linear" method then Some [KDR; KKD; KRH; KLD; KT; KDZ]
  else None.

(** fhc_vars[key] as a number *)
Definition flag (b : bool) : F := if b then #1 else #0.

(** np.sum over a short list: left to right *)
Definition fsum (l : list F) : F :=
  match l with [] => #0 | x :: r => fold_left fadd r x end.

(** the sum half of _get_weight_sum (same lines) *)
Definition weight_sum (v : key -> bool) (w : key -> F) (vl : list key) : F :=
  fsum (map (fun k => flag (v k) * w k) vl).

(** list indexing *)
Definition idx {A} (l : list A) (c : nat) : res A :=
  match nth_error l c with Some x => Ok x | None => Raise IndexError end.

(** hid_beta_f(sz, radar_data[key], sets[key]['a'][c], sets[key]['b'][c],
    sets[key]['m'][c]) *)
Definition beta_of (sz : nat) (x : list F) (set : option (bset F)) (c : nat) : res (list F) :=
  match set with
  | None => Raise TypeError     (* 'NoneType' object is not subscriptable *)
  | Some s => a <- idx (sa s) c ;; b <- idx (sb s) c ;; m <- idx (sm s) c ;;
              hid_beta_f sz x a b m
  end.

(** np.sum(np.array(rows), axis=0) / weight_sum: float32 rows added in single
    precision, divided by a np.float64 *)
Definition vsum_div (rows : list (list F)) (ws : F) : res (list F) :=
  match rows with
  | [] => Unmodelled     (* no row: never reached, pol_flag is set *)
  | r :: rs => Ok (map (fun x => fnp (x / fnp ws)) (fold_left (map2 (fun x y => f32 (x + y))) rs r))
  end.

(** csu_fhc.py:371-382, csu_fhc_winter.py:212-226, csu_fhc_ml1.py:196-207,
    _calculate_test; [w] are the weights of class c.  A Python float times a
    float32 array is a float32 array. *)
Definition calculate_test (v : key -> bool) (w : key -> F) (rd : key -> option (list F))
  (sets : key -> option (bset F)) (vl : list key) (ws : F) (c sz : nat) : res (list F) :=
  rows <- mapM (fun kx : key * list F => let '(k, x) := kx in
                  bt <- beta_of sz x (sets k) c ;;
                  Ok (map (fun y => f32 (f32 (flag (v k) * w k) * y)) bt))
               (flat_map (fun k => match rd k with Some x => [(k, x)] | None => [] end) vl) ;;
  vsum_div rows ws.

(** csu_fhc.py:385-410, _calculate_test_trap.  A T array whose length differs
    from the size of dz cannot be stacked with the other rows.  The trapezoid
    row is stored as float32; its ramp arithmetic is not rounded step by step. *)
Definition calculate_test_trap (v : key -> bool) (w : key -> F) (rd : key -> option (list F))
  (sets : key -> option (bset F)) (vl : list key) (ws : F) (c sz : nat) : res (list F) :=
  rows <- mapM (fun kx : key * list F => let '(k, x) := kx in
                  match k with
                  | KT => if (List.length x =? sz)%nat then t <- get_hid_traps DFloat c x ;; Ok (map f32 t)
                          else Unmodelled
                  | _ => bt <- beta_of sz x (sets k) c ;;
                         Ok (map (fun y => f32 (f32 (flag (v k) * w k) * y)) bt)
                  end)
               (flat_map (fun k => match rd k with Some x => [(k, x)] | None => [] end) vl) ;;
  vsum_div rows ws.

(** csu_fhc.py:413-471, csu_fhc_winter.py:229-281, csu_fhc_ml1.py:210-257,
    _get_test_list: the body for one class.  [calc c] is _calculate_test (or
    _calculate_test_trap); [bT c], [bZ c] are the beta functions of T and DZ;
    [test] is the local variable of that name, None while unbound.  The
    products overwrite [test] in place, on a fresh array: of [calc]'s type when
    [pol_flag], float32 otherwise. *)
Definition test_body (hybrid linear pol_flag use_temp dz_flag : bool)
  (calc bT bZ : nat -> res (list F)) (c : nat) (test : option (list F))
  : res (option (list F)) :=
  if hybrid then
    test <- (if pol_flag then t <- calc c ;; Ok (Some t) else Ok test) ;;
    test <- (if use_temp then
               if pol_flag then
                 match test with
                 | None => Raise UnboundLocalError
                 | Some t => b <- bT c ;; Ok (Some (map2 (fun x y => fnp (x * y)) t b))
                 end
               else b <- bT c ;; Ok (Some b)
             else Ok test) ;;
    (if dz_flag then
       if (pol_flag || use_temp)%bool then
         match test with
         | None => Raise UnboundLocalError
         | Some t => b <- bZ c ;;
             Ok (Some (map2 (fun x y => if pol_flag then fnp (x * y) else f32 (x * y)) t b))
         end
       else b <- bZ c ;; Ok (Some b)
     else Ok test)
  else if linear then
    (if pol_flag then t <- calc c ;; Ok (Some t) else Ok test)
  else Ok test.

(** the loop of _get_test_list (same lines) over the class indices *)
Definition get_test_list (hybrid linear pol_flag use_temp dz_flag : bool)
  (calc bT bZ : nat -> res (list F)) (classes : list nat) : res (list (list F)) :=
  st <- forM classes (fun c (st : option (list F) * list (list F)) =>
          let '(test, acc) := st in
          test' <- test_body hybrid linear pol_flag use_temp dz_flag calc bT bZ c test ;;
          match test' with
          | None => Raise UnboundLocalError
          | Some t => Ok (Some t, acc ++ [t])
          end) (None, []) ;;
  Ok (snd st).

(** np.argmax of a nonempty list: first maximum; the first NaN wins *)
Fixpoint np_argmax_from (best : F) (bi i : nat) (l : list F) : nat :=
  match l with
  | [] => bi
  | x :: r => if fisnan best then bi
              else if x <=? best then np_argmax_from best bi (S i) r
              else np_argmax_from x i (S i) r
  end.
Definition np_argmax (l : list F) : res nat :=
  match l with [] => Raise ValueError | x :: r => Ok (np_argmax_from x 0 1 r) end.

(** np.argmax(mu, axis=0) for mu of n layers of sz elements, stored flat *)
Definition column (n sz : nat) (mu : list F) (i : nat) : list F :=
  map (fun c => nth (c * sz + i) mu fnan) (seq 0 n).
Definition argmax0 (n sz : nat) (mu : list F) : res (list nat) :=
  if (n =? 0)%nat then Raise ValueError
  else mapM (fun i => np_argmax (column n sz mu i)) (seq 0 sz).

(** what the classifiers return *)
Inductive fhc_ret := Scores (shape : list nat) (mu : list F)
                   | Classes (shape : list nat) (hid : list nat).

(** csu_fhc.py:279-281, csu_fhc_winter.py:123-125, csu_fhc_ml1.py:111-112: with
    verbose=True [mu.max()] is printed just before the result is reshaped; the
    maximum of an array without elements is a ValueError.  [gates]: size of dz
    (mu has a row of that length per class). *)
Definition loud {A} (verbose : bool) (gates : nat) (r : res A) : res A :=
  x <- r ;; if (verbose && (gates =? 0)%nat)%bool then Raise ValueError else Ok x.

(** csu_fhc.py:28-29 *)
Definition summer_weights (k : key) : F :=
  match k with KDZ => #1.5 | KDR => #0.8 | KKD => #1.0 | KRH => #0.8 | KLD => #0.5 | KT => #0.4 end.

(** csu_fhc.py:171-290, csu_fhc_summer *)
Definition csu_fhc_summer (use_temp : bool) (weights : key -> F) (method : string) (a : fields)
  (use_trap : bool) (n_types : nat) (temp_factor : F) (bd : band) (return_scores : bool)
  : res fhc_ret :=
  if negb (fhc_vars a KDZ) then PyNone else
  let use_temp := if fhc_vars a KT then use_temp else false in
  let rd := radar_data a in
  let shp := dz_shape a in
  let sz := dz_size a in
  let sets := get_sets Summer use_temp temp_factor bd in
  let pol_flag := get_pol_flag (fhc_vars a) in
  let v := used_vars a use_temp in
  match varlist method with
  | None => PyNone
  | Some vl =>
      let ws := weight_sum v weights vl in
      let calc c := if use_trap then calculate_test_trap v weights rd sets vl ws c sz
                    else calculate_test v weights rd sets vl ws c sz in
      let beta k c := match rd k with Some x => beta_of sz x (sets k) c
                      | None => Raise ValueError end in
      rows <- get_test_list (contains "hybrid" method) (contains "linear" method)
                pol_flag use_temp (v KDZ) calc (beta KT) (beta KDZ)
                (seq 0 (match sets KDZ with Some s => List.length (sm s) | None => 0%nat end)) ;;
      let mu := concat rows in
      if negb (List.length mu =? n_types * prod shp)%nat then Raise ValueError else
      if return_scores then Ok (Scores (n_types :: shp) mu)
      else hid <- argmax0 n_types sz mu ;; Ok (Classes shp (map S hid))
  end.

(** csu_fhc_winter.py:19-24 *)
Definition winter_weights (k : key) (c : nat) : F :=
  match k with
  | KDZ => if (c <? 4)%nat then #5 else #10
  | KDR => if (c <? 3)%nat then #9 else if (c =? 3)%nat then #10 else #0
  | KKD => if (c <? 3)%nat then #11 else if (c =? 3)%nat then #10 else #0
  | KRH | KLD => #0
  | KT => if (c <? 4)%nat then #0 else #20
  end.

(** csu_fhc_winter.py:32-128, csu_fhc_winter; the result is the score array *)
Definition csu_fhc_winter (use_temp : bool) (weights : key -> nat -> F) (method : string)
  (a : fields) (temp_factor : F) (warm : bool) (bd : band) : res fhc_ret :=
  if negb (fhc_vars a KDZ) then PyNone else
  let use_temp := if fhc_vars a KT then use_temp else false in
  let rd := radar_data a in
  let shp := dz_shape a in
  let sz := dz_size a in
  let sets := get_sets Winter use_temp temp_factor bd in
  let pol_flag := get_pol_flag (fhc_vars a) in
  let v := used_vars a use_temp in
  match varlist method with
  | None => PyNone
  | Some vl =>
      let w c k := weights k c in
      let types := if warm then [4; 5]%nat else [0; 1; 2; 3]%nat in
      let calc c := calculate_test v (w c) rd sets vl (weight_sum v (w c) vl) c sz in
      let beta k c := match rd k with Some x => beta_of sz x (sets k) c
                      | None => Raise ValueError end in
      rows <- get_test_list (contains "hybrid" method) (contains "linear" method)
                pol_flag use_temp (v KDZ) calc (beta KT) (beta KDZ) types ;;
      let mu := concat rows in
      if negb (List.length mu =? List.length types * prod shp)%nat then Raise ValueError
      else Ok (Scores (List.length types :: shp) mu)
  end.

(** csu_fhc_ml1.py:21-22 *)
Definition ml1_weights (k : key) (c : nat) : F :=
  match k with KDZ => #4 | KDR => #7 | KRH => #14 | _ => #0 end.

(** csu_fhc_ml1.py:30-114, csu_fhc_cold_newml1 *)
Definition csu_fhc_cold_newml1 (use_temp : bool) (weights : key -> nat -> F) (method : string)
  (a : fields) (n_types : nat) (temp_factor : F) (bd : band) : res fhc_ret :=
  if negb (fhc_vars a KDZ) then PyNone else
  let use_temp := if fhc_vars a KT then use_temp else false in
  let rd := radar_data a in
  let shp := dz_shape a in
  let sz := dz_size a in
  let sets := get_sets Melt use_temp temp_factor bd in
  let pol_flag := get_pol_flag (fhc_vars a) in
  let v := used_vars a use_temp in
  match varlist method with
  | None => PyNone
  | Some vl =>
      let w c k := weights k c in
      let calc c := calculate_test v (w c) rd sets vl (weight_sum v (w c) vl) c sz in
      let beta k c := match rd k with Some x => beta_of sz x (sets k) c
                      | None => Raise ValueError end in
      rows <- get_test_list (contains "hybrid" method) (contains "linear" method)
                pol_flag use_temp (v KDZ) calc (beta KT) (beta KDZ)
                (seq 0 (match sets KDZ with Some s => List.length (sm s) | None => 0%nat end)) ;;
      let mu := concat rows in
      if negb (List.length mu =? n_types * prod shp)%nat then Raise ValueError
      else Ok (Scores (n_types :: shp) mu)
  end.

End Hid.
Arguments fields : clear implicits.
Arguments fhc_ret : clear implicits.
