(** * Model of csu_radartools/csu_blended_rain_tropical.py *)
From Verif Require Import Base.Num Model.Common Model.BlendedRain.
Set Implicit Arguments.
Open Scope fl_scope.

Section Tropical.
Context {F : Type} `{FloatOps F}.

(** Keyword arguments, csu_blended_rain_tropical.py:27-39.  [ice_flag],
    [thresh_frac_ice], [thresh_nexrad], [fit_a], [fit_b], [method] are accepted
    by the function and never read; they are left out. *)
Record trop_opts := {
  t_thresh_dz : F; t_thresh_zdr : F; t_thresh_kdp : F;
  t_r_z_a : F; t_r_z_b : F; t_r_z_a_c : F; t_r_z_b_c : F; t_r_z_a_s : F; t_r_z_b_s : F;
  t_r_kdp_a : F; t_r_kdp_b : F;
  t_r_z_zdr_a : F; t_r_z_zdr_b : F; t_r_z_zdr_c : F;
  t_r_kdp_zdr_a : F; t_r_kdp_zdr_b : F; t_r_kdp_zdr_c : F }.

(** The default keyword values, csu_blended_rain_tropical.py:31-39. *)
Definition trop_defaults : trop_opts := {|
  t_thresh_dz := #38; t_thresh_zdr := #0.25; t_thresh_kdp := #0.3;
  t_r_z_a := #216; t_r_z_b := #1.39; t_r_z_a_c := #126; t_r_z_b_c := #1.39;
  t_r_z_a_s := #291; t_r_z_b_s := #1.55;
  t_r_kdp_a := #59.5202; t_r_kdp_b := #0.7451;
  t_r_z_zdr_a := #0.0085; t_r_z_zdr_b := #0.9237; t_r_z_zdr_c := #(-5.2389) / #10;
  t_r_kdp_zdr_a := #96.5726; t_r_kdp_zdr_b := #0.9315;
  t_r_kdp_zdr_c := #(-2.1140) / #10 |}.

(** csu_blended_rain_tropical.py:101-158: [predef == 'True'] overrides.
    The S-band R(Kdp, Zdr) values are 1-tuples in the source; numpy broadcasts
    them like the number they hold. *)
Definition trop_coefs (predef band : string) (o : trop_opts) : trop_opts :=
  if negb (String.eqb predef "True") then o else
  let o := {| t_thresh_dz := t_thresh_dz o; t_thresh_zdr := t_thresh_zdr o;
    t_thresh_kdp := t_thresh_kdp o;
    t_r_z_a := #216; t_r_z_b := #1.39; t_r_z_a_c := #126; t_r_z_b_c := #1.39;
    t_r_z_a_s := #291; t_r_z_b_s := #1.55;
    t_r_kdp_a := t_r_kdp_a o; t_r_kdp_b := t_r_kdp_b o;
    t_r_z_zdr_a := t_r_z_zdr_a o; t_r_z_zdr_b := t_r_z_zdr_b o;
    t_r_z_zdr_c := t_r_z_zdr_c o;
    t_r_kdp_zdr_a := t_r_kdp_zdr_a o; t_r_kdp_zdr_b := t_r_kdp_zdr_b o;
    t_r_kdp_zdr_c := t_r_kdp_zdr_c o |} in
  let with_band kza kzb kzc zza zzb zzc ka kb :=
   {| t_thresh_dz := t_thresh_dz o; t_thresh_zdr := t_thresh_zdr o;
    t_thresh_kdp := t_thresh_kdp o;
    t_r_z_a := t_r_z_a o; t_r_z_b := t_r_z_b o; t_r_z_a_c := t_r_z_a_c o;
    t_r_z_b_c := t_r_z_b_c o; t_r_z_a_s := t_r_z_a_s o; t_r_z_b_s := t_r_z_b_s o;
    t_r_kdp_a := ka; t_r_kdp_b := kb;
    t_r_z_zdr_a := zza; t_r_z_zdr_b := zzb; t_r_z_zdr_c := zzc;
    t_r_kdp_zdr_a := kza; t_r_kdp_zdr_b := kzb; t_r_kdp_zdr_c := kzc |} in
  if String.eqb band "S" then
    with_band (#96.5726) (#0.9315) (#(-2.1140) / #10)
              (#0.0085) (#0.9237) (#(-5.2389) / #10) (#59.5202) (#0.7451)
  else if String.eqb band "C" then
    with_band (#45.6976) (#0.8763) (#(-1.6718) / #10)
              (#0.0086) (#0.9088) (#(-4.2059) / #10) (#34.5703) (#0.7331)
  else if String.eqb band "X" then
    with_band (#28.1289) (#0.9194) (#(-1.6876) / #10)
              (#0.0085) (#0.9294) (#(-4.4580) / #10) (#21.9729) (#0.7221)
  else o.

(** csu_blended_rain_tropical.py:163-224, the array computation.
    [cs], [fhc]: [None] or an array broadcast to dz's shape.  [inv]: what
    [~cond_zdr] does (lines 188, 190). *)
Definition trop_core_with (inv : list bool -> list bool) (o : trop_opts) (dt : dtype) (dz zdr kdp : list F)
  (cs fhc : option (list F)) : list F * list Z :=
  let put mask v x := mset mask (map (cast dt) v) x in
  let putc mask c x := msetc mask (cast dt c) x in
  let r_blended := map (fun _ => #0) dz in
  let meth := map (fun _ => (0 - 1)%Z) dz in
  let r_dz_conv := map (fun d => calc_rain_zr d (t_r_z_a_c o) (t_r_z_b_c o)) dz in
  let r_dz_strat := map (fun d => calc_rain_zr d (t_r_z_a_s o) (t_r_z_b_s o)) dz in
  let r_dz_all := map (fun d => calc_rain_zr d (t_r_z_a o) (t_r_z_b o)) dz in
  let r_kdp_zdr := map2 (fun k r => calc_rain_kdp_zdr k r
      (t_r_kdp_zdr_a o) (t_r_kdp_zdr_b o) (t_r_kdp_zdr_c o)) kdp zdr in
  let r_dz_zdr := map2 (fun d r => calc_rain_z_zdr d r
      (t_r_z_zdr_a o) (t_r_z_zdr_b o) (t_r_z_zdr_c o)) dz zdr in
  let r_kdp := map (fun k => calc_rain_kdp k (t_r_kdp_a o) (t_r_kdp_b o)) kdp in
  let cond_kdp := map (fun k => k >=? t_thresh_kdp o) kdp in
  let cond_dbz := map (fun d => d >=? t_thresh_dz o) dz in
  let cond_kdpz := land cond_kdp cond_dbz in
  let cond_zdr := map (fun r => r >=? t_thresh_zdr o) zdr in
  let cond_meth_1 := land cond_kdpz cond_zdr in
  let cond_meth_2 := land cond_kdpz (inv cond_zdr) in
  let cond_meth_3 := land cond_zdr (lnot cond_kdpz) in
  let cond_meth_4 := land (lnot cond_kdpz) (inv cond_zdr) in
  let '(meth, r_blended) :=
    match cs with
    | None => (msetc cond_meth_4 4%Z meth, put cond_meth_4 r_dz_all r_blended)
    | Some cs =>
        let cond_meth_4c := land cond_meth_4 (map (fun c => c ==? #2) cs) in
        let cond_meth_4s := land cond_meth_4 (map (fun c => c ==? #1) cs) in
        let cond_meth_4a := land cond_meth_4 (map (fun c => c ==? #3) cs) in
        let meth := msetc cond_meth_4c 5%Z meth in
        let meth := msetc cond_meth_4s 6%Z meth in
        let meth := msetc cond_meth_4a 4%Z meth in
        let r_blended := put cond_meth_4c r_dz_conv r_blended in
        let r_blended := put cond_meth_4s r_dz_strat r_blended in
        let r_blended := put cond_meth_4a r_dz_all r_blended in
        (meth, r_blended)
    end in
  let meth := msetc cond_meth_1 1%Z meth in
  let meth := msetc cond_meth_2 2%Z meth in
  let meth := msetc cond_meth_3 3%Z meth in
  let r_blended := put cond_meth_1 r_kdp_zdr r_blended in
  let r_blended := put cond_meth_2 r_kdp r_blended in
  let r_blended := put cond_meth_3 r_dz_zdr r_blended in
  let '(meth, r_blended) :=
    match fhc with
    | None => (meth, r_blended)
    | Some fhc =>
        let cond_ice := land (map (fun c => c >? #2) fhc) (map (fun c => c <? #10) fhc) in
        let r_blended := putc cond_ice (#0) r_blended in
        let meth := msetc cond_ice (-1)%Z meth in
        let cond_hail := land (map (fun c => c ==? #9) fhc) cond_kdpz in
        let r_blended := put cond_hail r_kdp r_blended in
        let meth := msetc cond_ice 2%Z meth in
        (meth, r_blended)
    end in
  let low := map (fun d => d <? #(-10)) dz in
  let r_blended := putc low (#0) r_blended in
  let meth := msetc low (-1)%Z meth in
  (r_blended, meth).

(** csu_blended_rain_tropical.py:163-224 on arrays *)
Definition trop_core := trop_core_with lnot.

Definition broadcast_opt (shape : list nat) (n : nat) (x : pyarg F) : res (option (list F)) :=
  match x with
  | ANone => Ok None
  | _ => l <- broadcast shape n x ;; Ok (Some l)
  end.

(** fhc's conditions index arrays of shape [shape] (lines 216-218) *)
Definition index_opt (shape : list nat) (n : nat) (x : pyarg F) : res (option (list F)) :=
  match x with
  | ANone => Ok None
  | AScalar _ v => Ok (Some (repeat v n))
  | AArr a => if shape_eqb (ashape a) shape then Ok (Some (adata a)) else index_misfit (ashape a) shape
  end.

(** csu_blended_rain_tropical.py:27-227, calc_blended_rain_tropical.  Returns
    (did it warn about a missing fhc, shape, rain, method): always arrays, even
    for numbers.  [PyNone]: warned and returned None. *)
Definition calc_blended_rain_tropical (dz zdr kdp cs fhc : pyarg F)
  (predef band : string) (o : trop_opts) : res (bool * list nat * list F * list Z) :=
  match dz, kdp, zdr with
  | ANone, _, _ | _, ANone, _ | _, _, ANone => PyNone
  | _, _, _ =>
      ' (d, r, k, _) <- check_for_array dz zdr kdp ;;
      if negb (shape_eqb (ashape d) (ashape r) && shape_eqb (ashape d) (ashape k))
      then misfit [(ashape k, ashape r); (ashape d, ashape r); (ashape k, ashape d)] else
      c <- broadcast_opt (ashape d) (List.length (adata d)) cs ;;
      f <- index_opt (ashape d) (List.length (adata d)) fhc ;;
      let warned := match f with None => true | Some _ => false end in
      let '(rain, meth) := trop_core (trop_coefs predef band o) (adt d)
                             (adata d) (adata r) (adata k) c f in
      Ok (warned, ashape d, rain, meth)
  end.

(** calc_blended_rain_tropical with arrays dz, kdp and a number for zdr ([py]: a
    Python number, else a numpy one).  With predef='True' and band='S' the
    coefficient of zdr is a 1-tuple (line 119), and a tuple times a number is a
    TypeError (for a Python int it is a longer tuple, and the power of 10.0 to it
    a TypeError). *)
Definition calc_blended_rain_tropical_znum (py : bool) (dz : arr F) (zdr : F) (kdp : arr F)
  (cs fhc : pyarg F) (predef band : string) (o : trop_opts) : res (bool * list nat * list F * list Z) :=
  if (String.eqb predef "True" && String.eqb band "S")%bool then Raise TypeError else
  if negb (shape_eqb (ashape dz) (ashape kdp)) then misfit [(ashape kdp, ashape dz)] else
  c <- broadcast_opt (ashape dz) (List.length (adata dz)) cs ;;
  f <- index_opt (ashape dz) (List.length (adata dz)) fhc ;;
  let warned := match f with None => true | Some _ => false end in
  let '(rain, meth) := trop_core_with (if py then py_inv else lnot) (trop_coefs predef band o) (adt dz)
                         (adata dz) (map (fun _ => zdr) (adata dz)) (adata kdp) c f in
  Ok (warned, ashape dz, rain, meth).

End Tropical.
Arguments trop_opts F : clear implicits.
