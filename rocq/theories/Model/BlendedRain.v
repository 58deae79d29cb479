(** * Model of csu_radartools/csu_blended_rain.py *)
From Verif Require Import Base.Num Model.Common.
From Verif Require Model.LiquidIce.
Set Implicit Arguments.
Open Scope fl_scope.

Section BlendedRain.
Context {F : Type} `{FloatOps F}.

(** Keyword arguments of calc_blended_rain (csu_blended_rain.py:24-31); also
    used for csu_hidro_rain (csu_blended_rain.py:148-153), which has no
    thresh_frac_ice, fit_a, fit_b, method. *)
Record rain_opts := {
  thresh_dz : F; thresh_zdr : F; thresh_kdp : F; thresh_frac_ice : F;
  thresh_nexrad : F; r_z_a : F; r_z_b : F; r_kdp_a : F; r_kdp_b : F;
  r_z_zdr_a : F; r_z_zdr_b : F; r_z_zdr_c : F;
  fit_a : option F; fit_b : option F; method : string;
  r_kdp_zdr_a : F; r_kdp_zdr_b : F; r_kdp_zdr_c : F }.

(** The default keyword values, csu_blended_rain.py:24-31 (and 148-153). *)
Definition rain_defaults : rain_opts := {|
  thresh_dz := #38; thresh_zdr := #0.5; thresh_kdp := #0.3;
  thresh_frac_ice := #0.1; thresh_nexrad := #53;
  r_z_a := #300; r_z_b := #1.4; r_kdp_a := #40.5; r_kdp_b := #0.85;
  r_z_zdr_a := #0.0067; r_z_zdr_b := #0.927; r_z_zdr_c := #(-0.343);
  fit_a := None; fit_b := None; method := "cr1995";
  r_kdp_zdr_a := #90.8; r_kdp_zdr_b := #0.93; r_kdp_zdr_c := #(-0.169) |}.

(** Arrays returned: rain, method, and (Zdp, ice fraction) when asked for. *)
Record rain_out := { out_rain : list F; out_meth : list Z;
                     out_ice : option (list F * list F) }.

(** csu_blended_rain.py:67-133, the array computation of calc_blended_rain
    after _check_for_array.  [dt] is dz's dtype: [np.zeros_like(dz)] has it
    and every masked assignment into [r_blended] casts to it.  [inv] is what
    [~cond_zdr] does (lines 106, 111): elementwise negation for arrays and numpy
    numbers, see [py_inv] for the rest. *)
Definition blended_core_with (inv : list bool -> list bool) (o : rain_opts) (band : string) (ice_flag : bool)
  (dt : dtype) (dz zdr kdp : list F) : res rain_out :=
  let r_blended := map (fun _ => #0) dz in
  let meth := map (fun _ => 0%Z) dz in
  let r_dz_nexrad := calc_rain_nexrad_arr dz (thresh_nexrad o) (r_z_a o) (r_z_b o) in
  let r_kdp := map (fun k => calc_rain_kdp k (r_kdp_a o) (r_kdp_b o)) kdp in
  let cond_kdp := map (fun k => k >=? thresh_kdp o) kdp in
  let cond_dz := map (fun d => d >=? thresh_dz o) dz in
  let cond_dz_kdp := land cond_dz cond_kdp in
  let put mask v x := mset mask (map (cast dt) v) x in
  let finish (cond_meth_2 cond_meth_4 : list bool) (meth : list Z) (r_blended : list F) :=
    let meth := msetc cond_meth_2 2%Z meth in
    let r_blended := put cond_meth_2 r_kdp r_blended in
    let meth := msetc cond_meth_4 4%Z meth in
    let r_blended := put cond_meth_4 r_dz_nexrad r_blended in
    (r_blended, meth) in
  if String.eqb band "S" then
    let r_kdp_zdr := map2 (fun k r => calc_rain_kdp_zdr k r
        (r_kdp_zdr_a o) (r_kdp_zdr_b o) (r_kdp_zdr_c o)) kdp zdr in
    let r_dz_zdr := map2 (fun d r => calc_rain_z_zdr d r
        (r_z_zdr_a o) (r_z_zdr_b o) (r_z_zdr_c o)) dz zdr in
    let '(zhor, zvert) := LiquidIce.calc_zh_zv dz zdr in
    let zdp := LiquidIce.calc_zdp zhor zvert in
    ' (fa, fb) <- match fit_a o, fit_b o with
                  | None, _ => Ok (LiquidIce.get_linear_fits (method o))
                  | Some a, Some b => Ok (a, b)
                  | Some _, None => Raise TypeError
                  end ;;
    let zrain := map (fun p => #10 ** ((fa * p + fb) / #10)) zdp in
    let dzrain := map (fun z => #10 * flog10 z) zrain in
    let fi := map2 (fun zr zh => #1 - (zr / zh)) zrain zhor in
    let r_dz_rainonly :=
      calc_rain_nexrad_arr dzrain (thresh_nexrad o) (r_z_a o) (r_z_b o) in
    let cond_ice := map (fun f => f <? thresh_frac_ice o) fi in
    let cond_zdr := map (fun r => r >=? thresh_zdr o) zdr in
    let cond_meth_1or2 := land cond_ice cond_dz_kdp in
    let cond_meth_1 := land cond_meth_1or2 cond_zdr in
    let cond_meth_2a := land cond_meth_1or2 (inv cond_zdr) in
    let cond_meth_2b := land (lnot cond_ice) cond_dz_kdp in
    let cond_meth_2 := lor cond_meth_2a cond_meth_2b in
    let cond_meth_3or4 := land cond_ice (lnot cond_dz_kdp) in
    let cond_meth_3 := land cond_meth_3or4 cond_zdr in
    let cond_meth_4 := land cond_meth_3or4 (inv cond_zdr) in
    let cond_meth_5 := land (lnot cond_ice) (lnot cond_dz_kdp) in
    let meth := msetc cond_meth_1 1%Z meth in
    let r_blended := put cond_meth_1 r_kdp_zdr r_blended in
    let meth := msetc cond_meth_3 3%Z meth in
    let r_blended := put cond_meth_3 r_dz_zdr r_blended in
    let meth := msetc cond_meth_5 5%Z meth in
    let r_blended := put cond_meth_5 r_dz_rainonly r_blended in
    let '(r_blended, meth) := finish cond_meth_2 cond_meth_4 meth r_blended in
    Ok {| out_rain := r_blended; out_meth := meth;
          out_ice := if ice_flag then Some (zdp, fi) else None |}
  else
    let cond_meth_2 := cond_dz_kdp in
    let cond_meth_4 := lnot cond_dz_kdp in
    let '(r_blended, meth) := finish cond_meth_2 cond_meth_4 meth r_blended in
    Ok {| out_rain := r_blended; out_meth := meth; out_ice := None |}.

(** csu_blended_rain.py:67-133 on arrays *)
Definition blended_core := blended_core_with lnot.

(** When zdr is a Python number, [cond_zdr = zdr >= thresh_zdr] is a Python bool
    and [~cond_zdr] is the integer -2 or -1: np.logical_and takes both for True. *)
Definition py_inv (l : list bool) : list bool := map (fun _ => true) l.

(** What the caller gets: arrays of the input shape, or [x[0]] of each. *)
Inductive rain_ret :=
  | RainArr (shape : list nat) (o : rain_out)
  | RainScalar (rain : F) (meth : Z) (ice : option (F * F)).

(** csu_blended_rain.py:135-145: the return statement. *)
Definition rain_return (len_flag : bool) (shape : list nat) (o : rain_out) : res rain_ret :=
  if len_flag then Ok (RainArr shape o)
  else
    match out_rain o, out_meth o with
    | r :: _, m :: _ =>
        match out_ice o with
        | None => Ok (RainScalar r m None)
        | Some (p :: _, f :: _) => Ok (RainScalar r m (Some (p, f)))
        | Some _ => Raise IndexError
        end
    | _, _ => Raise IndexError
    end.

(** csu_blended_rain.py:24-145, calc_blended_rain.  [PyNone]: warned and
    returned None.  Shapes: dz and kdp are combined at line 77 and, at S band only,
    each of them with zdr (lines 81-84). *)
Definition calc_blended_rain (dz zdr kdp : pyarg F) (ice_flag : bool)
  (band : string) (o : rain_opts) : res rain_ret :=
  match dz, kdp, zdr with
  | ANone, _, _ | _, ANone, _ | _, _, ANone => PyNone
  | _, _, _ =>
      ' (d, r, k, len_flag) <- check_for_array dz zdr kdp ;;
      if (if shape_eqb (ashape d) (ashape r) && shape_eqb (ashape d) (ashape k) then false
          else String.eqb band "S" || negb (shape_eqb (ashape d) (ashape k)))%bool
      then misfit ((ashape d, ashape k)
             :: if String.eqb band "S" then [(ashape k, ashape r); (ashape d, ashape r)] else []) else
      out <- blended_core o band ice_flag (adt d) (adata d) (adata r) (adata k) ;;
      rain_return len_flag (ashape d) out
  end.

(** calc_blended_rain (csu_blended_rain.py:24-145) with arrays dz, kdp and a
    number for zdr, which numpy broadcasts; [py]: a Python number, else a numpy
    one.  Simplification: Python's own power 10.0**x raises OverflowError for x
    above 308, here it is the power of the number type. *)
Definition calc_blended_rain_znum (py : bool) (dz : arr F) (zdr : F) (kdp : arr F) (ice_flag : bool)
  (band : string) (o : rain_opts) : res rain_ret :=
  if negb (shape_eqb (ashape dz) (ashape kdp)) then misfit [(ashape dz, ashape kdp)] else
  out <- blended_core_with (if py then py_inv else lnot) o band ice_flag (adt dz)
           (adata dz) (map (fun _ => zdr) (adata dz)) (adata kdp) ;;
  rain_return true (ashape dz) out.

(** csu_blended_rain.py:185-248, the array computation of csu_hidro_rain.
    [calc_rain_nexrad] is called without [thresh_nexrad]: its default, 53.
    [inv]: what [~cond_zdr] does (lines 215, 217), as above. *)
Definition hidro_core_with (inv : list bool -> list bool) (o : rain_opts) (band : string)
  (dt : dtype) (dz zdr kdp fhc : list F) : rain_out :=
  let crr_hidzk := map (fun _ => #0) dz in
  let crr_meth := map (fun _ => 0%Z) dz in
  let crr_z88t := calc_rain_nexrad_arr dz (#53) (r_z_a o) (r_z_b o) in
  let crr_kd := map (fun k => calc_rain_kdp k (r_kdp_a o) (r_kdp_b o)) kdp in
  let cond_rain_a := lor (map (fun c => c ==? #1) fhc) (map (fun c => c ==? #2) fhc) in
  let cond_rain := lor (map (fun c => c ==? #10) fhc) cond_rain_a in
  let cond_kdp := map (fun k => k >=? thresh_kdp o) kdp in
  let cond_dz := map (fun d => d >=? thresh_dz o) dz in
  let cond_dz_kdp := land cond_dz cond_kdp in
  let cond_ice_a := lor (map (fun c => c ==? #5) fhc) (map (fun c => c ==? #7) fhc) in
  let cond_ice_b := lor (map (fun c => c ==? #8) fhc) (map (fun c => c ==? #9) fhc) in
  let cond_ice := lor cond_ice_a cond_ice_b in
  let cond_ice_kdp := land cond_ice cond_kdp in
  let put mask v x := mset mask (map (cast dt) v) x in
  let finish (cond_meth_2 cond_meth_4 : list bool) (meth : list Z) (rain : list F) :=
    let meth := msetc cond_meth_2 2%Z meth in
    let rain := put cond_meth_2 crr_kd rain in
    let meth := msetc cond_meth_4 4%Z meth in
    let rain := put cond_meth_4 crr_z88t rain in
    {| out_rain := rain; out_meth := meth; out_ice := None |} in
  if String.eqb band "S" then
    let crr_zhdr := map2 (fun d r => calc_rain_z_zdr d r
        (r_z_zdr_a o) (r_z_zdr_b o) (r_z_zdr_c o)) dz zdr in
    let crr_kddr := map2 (fun k r => calc_rain_kdp_zdr k r
        (r_kdp_zdr_a o) (r_kdp_zdr_b o) (r_kdp_zdr_c o)) kdp zdr in
    let cond_zdr := map (fun r => r >=? thresh_zdr o) zdr in
    let cond_dz_kdp_zdr := land cond_dz_kdp cond_zdr in
    let cond_dz_kdp_not_zdr := land cond_dz_kdp (inv cond_zdr) in
    let cond_not_kdp_zdr := land (lnot cond_kdp) cond_zdr in
    let cond_not_kdp_not_zdr := land (lnot cond_kdp) (inv cond_zdr) in
    let cond_meth_1 := land cond_rain cond_dz_kdp_zdr in
    let cond_meth_2 := land cond_rain cond_dz_kdp_not_zdr in
    let cond_meth_3 := land cond_rain cond_not_kdp_zdr in
    let cond_meth_4a := land cond_rain cond_not_kdp_not_zdr in
    let cond_meth_4b := land cond_rain (lnot cond_dz) in
    let cond_meth_4 := lor cond_meth_4a cond_meth_4b in
    let crr_meth := msetc cond_meth_1 1%Z crr_meth in
    let crr_hidzk := put cond_meth_1 crr_kddr crr_hidzk in
    let crr_meth := msetc cond_meth_3 3%Z crr_meth in
    let crr_hidzk := put cond_meth_3 crr_zhdr crr_hidzk in
    let crr_meth := msetc cond_ice_kdp 2%Z crr_meth in
    let crr_hidzk := put cond_ice_kdp crr_kd crr_hidzk in
    finish cond_meth_2 cond_meth_4 crr_meth crr_hidzk
  else
    let cond_meth_2 := cond_dz_kdp in
    let cond_meth_4 := land (lnot cond_dz_kdp) cond_rain in
    let cond_ice_kdp := land (lnot cond_dz_kdp) (lnot cond_rain) in
    let crr_meth := msetc cond_ice_kdp 2%Z crr_meth in
    let crr_hidzk := msetc cond_ice_kdp (cast dt (#0)) crr_hidzk in
    finish cond_meth_2 cond_meth_4 crr_meth crr_hidzk.

(** csu_blended_rain.py:185-248 on arrays *)
Definition hidro_core := hidro_core_with lnot.

(** numpy broadcasting of [fhc] (or [cs]) against arrays of shape [shape] and
    [n] elements: a number is repeated. *)
Definition broadcast (shape : list nat) (n : nat) (x : pyarg F) : res (list F) :=
  match x with
  | AScalar _ v => Ok (repeat v n)
  | AArr a => if shape_eqb (ashape a) shape then Ok (adata a) else misfit [(ashape a, shape)]
  | ANone => Unmodelled
  end.

(** csu_blended_rain.py:148-253, csu_hidro_rain.  Shapes: dz and kdp are combined
    at line 198, fhc with kdp at line 203, zdr (S band only) at lines 207-210. *)
Definition csu_hidro_rain (dz zdr kdp fhc : pyarg F) (band : string) (o : rain_opts)
  : res rain_ret :=
  match dz, kdp, zdr, fhc with
  | ANone, _, _, _ | _, ANone, _, _ | _, _, ANone, _ | _, _, _, ANone => PyNone
  | _, _, _, _ =>
      ' (d, r, k, len_flag) <- check_for_array dz zdr kdp ;;
      if (if shape_eqb (ashape d) (ashape r) && shape_eqb (ashape d) (ashape k) then false
          else String.eqb band "S" || negb (shape_eqb (ashape d) (ashape k)))%bool
      then misfit ((ashape d, ashape k)
             :: if String.eqb band "S" then [(ashape k, ashape r); (ashape d, ashape r)] else []) else
      c <- broadcast (ashape d) (List.length (adata d)) fhc ;;
      rain_return len_flag (ashape d)
        (hidro_core o band (adt d) (adata d) (adata r) (adata k) c)
  end.

(** csu_hidro_rain (csu_blended_rain.py:148-253) with arrays dz, kdp and a number
    for zdr, as [calc_blended_rain_znum]. *)
Definition csu_hidro_rain_znum (py : bool) (dz : arr F) (zdr : F) (kdp : arr F) (fhc : pyarg F)
  (band : string) (o : rain_opts) : res rain_ret :=
  match fhc with
  | ANone => PyNone
  | _ =>
      if negb (shape_eqb (ashape dz) (ashape kdp)) then misfit [(ashape dz, ashape kdp)] else
      c <- broadcast (ashape dz) (List.length (adata dz)) fhc ;;
      rain_return true (ashape dz)
        (hidro_core_with (if py then py_inv else lnot) o band (adt dz)
           (adata dz) (map (fun _ => zdr) (adata dz)) (adata kdp) c)
  end.

End BlendedRain.
Arguments rain_opts F : clear implicits.
Arguments rain_out F : clear implicits.
Arguments rain_ret F : clear implicits.
