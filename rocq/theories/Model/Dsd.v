(** * Model of csu_radartools/csu_dsd.py *)
From Verif Require Import Base.Num Model.Common.
From Verif Require Model.LiquidIce.
Set Implicit Arguments.
Open Scope fl_scope.

Section Dsd.
Context {F : Type} `{FloatOps F}.

(** csu_dsd.py:24 *)
Definition DEFAULT_MU : F := #3.

(** csu_dsd.py:51-53, power_law (one element) *)
Definition power_law (var a b : F) : F := a * var ** b.

(** csu_dsd.py:80-82, d0_low_zdr (one element; power_law's default b is 1.0) *)
Definition d0_low_zdr (zdr a b c d e : F) : F :=
  power_law zdr a (#4) + power_law zdr b (#3) + power_law zdr c (#2) + power_law zdr d (#1) + e.

(** csu_dsd.py:85-86, d0_high_zdr (one element) *)
Definition d0_high_zdr (zdr a b c d : F) : F :=
  power_law zdr a (#3) + power_law zdr b (#2) + power_law zdr c (#1) + d.

(** (d0, Nw, mu) arrays *)
Definition dsd : Type := list F * list F * list F.

(** csu_dsd.py:62-77, calc_dsd_cband_bringi_2009.  [0.0 * dz] is a float array
    whatever dz's dtype. *)
Definition calc_dsd_cband_bringi_2009 (dz zdr : list F) : dsd :=
  let d0 := map (fun d => #0 * d) dz in
  let dz_lin := map LiquidIce.linearize dz in
  let meth1 := land (map (fun r => r >=? #(-0.5)) zdr) (map (fun r => r <=? #1.25) zdr) in
  let d0 := mset meth1
    (map (fun r => d0_low_zdr r (#0.0203) (#(-0.1488)) (#0.2209) (#0.5571) (#0.801)) zdr) d0 in
  let meth2 := map (fun r => r >? #1.25) zdr in
  let d0 := mset meth2
    (map (fun r => d0_high_zdr r (#0.0355) (#(-0.3021)) (#1.0556) (#0.6844)) zdr) d0 in
  let Nw := map2 (fun z d => z / power_law d (#0.056) (#7.319)) dz_lin d0 in
  let mu := map (fun d => #0 * d + DEFAULT_MU) dz in
  (d0, Nw, mu).

(** csu_dsd.py:94-111, calc_dsd_sband_bringi_2013 *)
Definition calc_dsd_sband_bringi_2013 (dz zdr : list F) : dsd :=
  let d0 := map (fun d => #0 * d) dz in
  let dz_lin := map LiquidIce.linearize dz in
  let meth1 := map (fun r => r <? #1) zdr in
  let d0 := mset meth1
    (map (fun r => d0_low_zdr r (#0.0424) (#(-0.4571)) (#0.6125) (#0.457) (#0.8808)) zdr) d0 in
  let meth2 := map (fun r => r >=? #1) zdr in
  let d0 := mset meth2
    (map (fun r => d0_high_zdr r (#0.0536) (#(-0.1971)) (#0.6261) (#1.0815)) zdr) d0 in
  let Nw := map2 (fun z d => #19.76 * z / power_law d (#1) (#7.46)) dz_lin d0 in
  let mu := map (fun d => #0 * d + DEFAULT_MU) dz in
  (d0, Nw, mu).

(** csu_dsd.py:151-153, calc_beta (one element, default coefficients) *)
Definition calc_beta (dz kdp zeta : F) : F :=
  #2.08 * (dz ** #(-0.365)) * (kdp ** #0.38) * (zeta ** #0.965).

(** csu_dsd.py:192-194, d0_from_dz_zeta (one element) *)
Definition d0_from_dz_zeta (dz zeta a b c : F) : F := a * dz ** b * zeta ** c.

(** csu_dsd.py:156-159, calc_d0_sband_method1 *)
Definition calc_d0_sband_method1 (dz zeta beta : F) : F :=
  d0_from_dz_zeta dz zeta (#0.56) (#0.064) (power_law beta (#0.024) (#(-1.42))).

(** csu_dsd.py:162-165, calc_logNw_sband_method1 *)
Definition calc_logNw_sband_method1 (dz zeta beta : F) : F :=
  #3.29 * (dz ** #0.058) * (zeta ** (power_law beta (#(-0.023)) (#(-1.389)))).

(** csu_dsd.py:168-176, calc_mu_sband_method1 *)
Definition calc_mu_sband_method1 (d0 zeta beta : F) : F :=
  let a := power_law beta (#203) (#1.89) in
  let b := power_law beta (#2.23) (#0.0388) in
  let c := power_law beta (#3.16) (#(-0.0463)) in
  let d := power_law beta (#0.374) (#(-0.355)) in
  a * ((d0 ** b) / (zeta - #1)) - power_law zeta c d.

(** csu_dsd.py:187-189, calc_Nw_mult_methods *)
Definition calc_Nw_mult_methods (dz d0 : F) : F := #21 * dz / power_law d0 (#1) (#7.3529).

(** csu_dsd.py:179-184, calc_d0_sband_method3 *)
Definition calc_d0_sband_method3 (dz zdr zeta : F) : F :=
  let part1 := ((zdr - #0.2) / #3) * power_law zdr (#1.81) (#0.486) in
  let part2 := ((#0.5 - zdr) / #3) * d0_from_dz_zeta dz zeta (#0.6096) (#0.0516) (#3.111) in
  part1 + part2.

(** csu_dsd.py:197-202, dsd_sband_method1 (one element) *)
Definition dsd_sband_method1 (dz zeta beta : F) : F * F * F :=
  let d0 := calc_d0_sband_method1 dz zeta beta in
  let logNw := calc_logNw_sband_method1 dz zeta beta in
  let mu := calc_mu_sband_method1 d0 zeta beta in
  (d0, #10 ** logNw, mu).
(** csu_dsd.py:205-210, dsd_sband_method2 *)
Definition dsd_sband_method2 (dz zdr : F) : F * F * F :=
  let d0 := power_law zdr (#1.81) (#0.486) in
  (d0, calc_Nw_mult_methods dz d0, #0 * dz + DEFAULT_MU).
(** csu_dsd.py:213-218, dsd_sband_method3 *)
Definition dsd_sband_method3 (dz zdr zeta : F) : F * F * F :=
  let d0 := calc_d0_sband_method3 dz zdr zeta in
  (d0, calc_Nw_mult_methods dz d0, #0 * dz + DEFAULT_MU).
(** csu_dsd.py:221-226, dsd_sband_method4 *)
Definition dsd_sband_method4 (dz zeta : F) : F * F * F :=
  let d0 := d0_from_dz_zeta dz zeta (#0.6096) (#0.0516) (#3.111) in
  (d0, calc_Nw_mult_methods dz d0, #0 * dz + DEFAULT_MU).

(** csu_dsd.py:120-148, calc_dsd_sband_bringi_2004.  The method functions are
    elementwise, so applying them to the selected elements and storing the
    results is [mset] of their values at all elements. *)
Definition calc_dsd_sband_bringi_2004 (dz zdr kdp : list F) : dsd :=
  let zeros := map (fun d => #0 * d) dz in
  let zeta := map LiquidIce.linearize zdr in
  let dz_lin := map LiquidIce.linearize dz in
  let beta := map3 calc_beta dz_lin kdp zeta in
  let put mask (v : list (F * F * F)) (x : dsd) : dsd :=
    let '(d0, Nw, mu) := x in
    (mset mask (map (fun t => fst (fst t)) v) d0,
     mset mask (map (fun t => snd (fst t)) v) Nw,
     mset mask (map (fun t => snd t) v) mu) in
  let meth1a := land (map (fun d => d >=? #35) dz) (map (fun r => r >=? #0.2) zdr) in
  let meth1 := land meth1a (map (fun k => k >=? #0.3) kdp) in
  let x := put meth1 (map3 dsd_sband_method1 dz_lin zeta beta) (zeros, zeros, zeros) in
  let meth2 := land (map (fun k => k <? #0.3) kdp) (map (fun r => r >=? #0.5) zdr) in
  let x := put meth2 (map2 dsd_sband_method2 dz_lin zdr) x in
  let meth3a := land (map (fun r => r >=? #0.2) zdr) (map (fun r => r <? #0.5) zdr) in
  let meth3 := land meth3a (map (fun k => k <? #0.3) kdp) in
  let x := put meth3 (map3 dsd_sband_method3 dz_lin zdr zeta) x in
  let meth4a := land (map (fun r => r >=? #(-0.5)) zdr) (map (fun r => r <? #0.2) zdr) in
  let meth4 := land meth4a (map (fun k => k <? #0.3) kdp) in
  put meth4 (map2 dsd_sband_method4 dz_lin zeta) x.

Inductive dsd_ret := DsdArr (shape : list nat) (d0 Nw mu : list F) | DsdScalar (d0 Nw mu : F).

(** csu_dsd.py:27-48, calc_dsd.  Line 31 refers to the module [warnings],
    which is not imported (csu_dsd.py:20 imports only the function warn):
    NameError.  Shapes: the 2013 and 2009 retrievals index by zdr and never look
    at kdp; the 2004 one multiplies all three (csu_dsd.py:131, 153). *)
Definition calc_dsd (dz zdr kdp : pyarg F) (band method : string) : res dsd_ret :=
  match dz, kdp, zdr with
  | ANone, _, _ | _, ANone, _ | _, _, ANone => Raise NameError
  | _, _, _ =>
      ' (d, r, k, len_flag) <- check_for_array dz zdr kdp ;;
      let indexed (x : dsd) : res dsd :=
        if shape_eqb (ashape d) (ashape r) then Ok x else index_misfit (ashape r) (ashape d) in
      ' (d0, Nw, mu) <-
         (if String.eqb band "S" then
            if String.eqb method "2013" then indexed (calc_dsd_sband_bringi_2013 (adata d) (adata r))
            else if negb (shape_eqb (ashape d) (ashape r) && shape_eqb (ashape d) (ashape k))
            then misfit [(ashape d, ashape k); (ashape d, ashape r); (ashape k, ashape r)]
            else Ok (calc_dsd_sband_bringi_2004 (adata d) (adata r) (adata k))
          else if String.eqb band "C" then indexed (calc_dsd_cband_bringi_2009 (adata d) (adata r))
          else PyNone) ;;
      if len_flag then Ok (DsdArr (ashape d) d0 Nw mu)
      else match d0, Nw, mu with
           | a :: _, b :: _, c :: _ => Ok (DsdScalar a b c)
           | _, _, _ => Raise IndexError
           end
  end.
End Dsd.
Arguments dsd_ret F : clear implicits.
Arguments DsdArr {F}. Arguments DsdScalar {F}.
