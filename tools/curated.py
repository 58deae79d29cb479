#!/usr/bin/env python3
"""Curated wrong programs.  usage: curated.py SCRATCH OUT.jsonl ; SCRATCH is a built copy of /verif/rocq outside /verif."""
import re, sys, os, subprocess, json, time
scratch, out = sys.argv[1], sys.argv[2]
TH = scratch + '/theories/'
E = [
# file, definition, old, new, claim
('Kdp','lse_step','f32 (s_xx s + loc bd (x * x))','s_xx s + loc bd (x * x)','C91: the sum of squares is accumulated in single precision (a double accumulator would not lose the slope)'),
('Kdp','lse_step','(f32 (s_xy s + loc bd (x * y)))','(f32 (s_xy s + loc bd (x * x)))','C48: the fit is the least-squares line'),
('Kdp','LSE','if det ==? #0 then Raise ZeroDivisionError else Ok (a, b)','Ok (a, b)','C48/C91: equal ranges raise ZeroDivisionError in the Cython build'),
('Kdp','sd_gate','Ok (f32 (fsqrt (loc bd (d_v s / of_nat n))))','Ok (f32 (loc bd (d_v s / of_nat n)))','C47/C91: the deviation is a square root'),
('Kdp','sd_step','of_nat (N - 1) * loc bd (E ** #2)','of_nat N * loc bd (E ** #2)','C47: population standard deviation'),
('Kdp','sd_gate','if (half_std_win <? Z.of_nat (d_n s))%Z then','if (half_std_win <=? Z.of_nat (d_n s))%Z then','C47: more than half the window must be valid'),
('Kdp','coeff','match bd with Cython => S k | Fortran => k end','k','C50: the Cython build reads past the coefficients'),
('Kdp','fir_gate','if (4 * p_order p <? 5 * N)%nat then','if (4 * p_order p <=? 5 * N)%nat then','C49: more than 80% of the window must be good'),
('Kdp','fir_gate','if (500 <? N)%nat then Fault else','','C52: windows of more than 500 points overrun the work arrays'),
('Kdp','new_nadp','let nadp := if dz >=? #45 then h else nadp in','let nadp := if dz >? #45 then h else nadp in','C67: adaptive window at exactly 45 dBZ'),
('Kdp','kd_gate','Ok (f32 (#0.5 * fst ab))','Ok (f32 (fst ab))','C48/C51: KDP is half the phase slope'),
('Kdp','kd_gate','match bd with Cython => index2 | Fortran => index2 + 1 end','index2 + 1','C67: the Cython window leaves out its last gate'),
('Kdp','kd_step','if at_ dz i ==? bad then Ok (nadp, kd ++ [bad]) else','if at_ dz i ==? bad then Ok (nadp, kd ++ [#0]) else','C49: missing gates get the missing value'),
('Kdp','as_single','Cython => if single then Ok l else Raise ValueError','Cython => Ok (map f32 l)','C66: float64 thresholds are rejected by the Cython build'),
('Kdp','calc_kdp_bringi','then 11%Z else std_gate in','then 13%Z else std_gate in','C68: an even std_gate is replaced by 11'),
('Hid','vsum_div','fnp (x / fnp ws)','x / ws','C90: with NumPy 1 the quotient is rounded to single precision'),
('Hid','calculate_test','f32 (f32 (flag (v k) * w k) * y)','flag (v k) * w k * y','C90: rows are float32'),
('Hid','weight_sum','fsum (map (fun k => flag (v k) * w k) vl)','fsum (map w vl)','C32: only supplied variables count in the weight sum'),
('Hid','get_pol_flag','(v KDR || v KKD || v KLD || v KRH)%bool','(v KDR || v KKD || v KLD)%bool','C32/C36: rho alone is a polarimetric variable'),
('Hid','used_vars','(fhc_vars a KT && use_temp)%bool','fhc_vars a KT','C32: T is not used when use_temp is off'),
('Hid','np_argmax_from','else if x <=? best then','else if x <? best then','C33: the first of equal maxima wins'),
('Hid','np_argmax_from','if fisnan best then bi','if false then bi','C38: the first NaN wins'),
('Hid','csu_fhc_summer','Ok (Classes shp (map S hid))','Ok (Classes shp hid)','C33: classes are numbered from 1'),
('Hid','csu_fhc_summer','let sets := get_sets Summer use_temp temp_factor bd in','let sets := get_sets Winter use_temp temp_factor bd in','C62: the summer tables are used'),
('Hid','csu_fhc_winter','let types := if warm then [4; 5]%nat else [0; 1; 2; 3]%nat in','let types := if warm then [0; 1; 2; 3]%nat else [4; 5]%nat in','C42: warm and cold class sets'),
('Hid','csu_fhc_summer','if negb (fhc_vars a KDZ) then PyNone else\n  let use_temp := if fhc_vars a KT then use_temp else false in\n  let rd := radar_data a in\n  let shp := dz_shape a in\n  let sz := dz_size a in\n  let sets := get_sets Summer','if negb (fhc_vars a KDZ) then PyNone else\n  let rd := radar_data a in\n  let shp := dz_shape a in\n  let sz := dz_size a in\n  let sets := get_sets Summer','C36: use_temp without T is switched off'),
('Beta','hid_beta_gate','Ok (f32 (#1 / d))','Ok (#1 / d)','C90: memberships are stored as float32'),
('Beta','hid_beta_gate','let d := #1 + (','let d := #2 + (','C30: the membership is 1 at the centre'),
('Beta','hid_beta_gate','if a ==? #0 then Raise ZeroDivisionError else','','C90: a zero width raises'),
('Beta','get_sets','if use_temp then Some (get_beta_set (csv s b KT) temp_factor) else None','Some (get_beta_set (csv s b KT) temp_factor)','C36: no T table without use_temp'),
('Beta','get_beta_set','cell (fst (fst r)) / factor','cell (fst (fst r))','C41: temp_factor divides the centres too'),
('Melt','get_ml_rhi','if (10 <? List.length ML_z)%nat then','if (10 <=? List.length ML_z)%nat then','C44: more than ten wet-snow gates'),
('Melt','get_ml_rhi','z >=? e - #1.5','z >=? e','C44: heights within 1.5 km on both sides'),
('Melt','np_median','if Nat.odd n then b else (a + b) / #2','b','C44: the median of an even number of heights'),
('Melt','ppi_sector','let npts := (2 * List.length','let npts := (List.length','C45: each gate counts twice in the percentage'),
('Melt','ppi_sector','map (fun z => z <? b) az','map (fun z => z <=? b) az','C45: half-open sectors'),
('Melt','ppi_sector','if fabs (MLcheck - e) >? #2 then #0','if (MLcheck - e) >? #2 then #0','C45: sector heights far from the expected one on either side are dropped'),
('Melt','get_ml_ppi','map2 (fun z m => z <=? m) height melt_az) 0%Z','map2 (fun z m => z <? m) height melt_az) 0%Z','C45: gates at the level are warm'),
('Melt','melting_layer','csu_fhc_cold_newml1 false ml1_weights "linear" (ml_fields s) 2 #1 BS','csu_fhc_cold_newml1 false ml1_weights "linear" (ml_fields s) 2 #1 bd','C43: band is ignored'),
('Melt','melting_layer','map (fun x => x <=? minRH) (s_rho s)','map (fun x => x <? minRH) (s_rho s)','C42: rho equal to minRH is masked'),
('Melt','run_winter','let hca := msetc (map (fun c => (c =? 5)%Z) fh) 5%Z hca in\n','','C42: wet snow code 5'),
('Melt','run_winter','let hca := mset (map (fun m => (m =? 2)%Z) meltlev) fhcold hca in','let hca := mset (map (fun m => (m =? 2)%Z) meltlev) fhwarm hca in','C42: above the melting level the cold classes'),
('Melt','run_winter','csu_fhc_winter true winter_weights "linear" (winter_fields s) #1 true BC','csu_fhc_winter use_temp winter_weights "linear" (winter_fields s) #1 true BC','C43: use_temp is ignored'),
('Misc','despeckle_ray','(Z.of_nat (count feat labels) <=? ngates)%Z','(Z.of_nat (count feat labels) <? ngates)%Z','C02: runs of exactly ngates gates are masked'),
('Misc','label_from','let c := if inrun then cur else S cur in','let c := S cur in','C01: a run is one feature'),
('Misc','despeckle','despeckle_ray (row m array az) ngates','despeckle_ray (row n array az) ngates','C03: rays are rows'),
('Misc','insect_conds','(map (fun d => flt lo d) dz)','(map (fun d => fle lo d) dz)','C05: half-open Z intervals'),
('Misc','insect_filter','fold_left lor cond mask','fold_left lor cond (map (fun _ => false) mask)','C05: bad gates stay flagged'),
('Common','calc_rain_nexrad_arr','flt thresh_nexrad d','flt d thresh_nexrad','C07: the cap applies above the threshold'),
('Common','calc_rain_zr','(#1 / b)','b','C07/C83: R = (Z/a)^(1/b)'),
('Common','calc_rain_kdp','a * kdp ** b','a * kdp ** b - #0.001','C89: R(Kdp) is never negative'),
('BlendedRain','blended_core','let cond_ice := map (fun f => f <? thresh_frac_ice o) fi in','let cond_ice := map (fun f => f <=? thresh_frac_ice o) fi in','C08: ice fraction equal to the threshold is ice'),
('BlendedRain','blended_core','let cond_meth_2 := lor cond_meth_2a cond_meth_2b in','let cond_meth_2 := cond_meth_2a in','C08: R(Kdp) in ice'),
('BlendedRain','blended_core','let put mask v x := mset mask (map (cast dt) v) x in\n  let finish','let put mask v x := mset mask v x in\n  let finish','C12: integer reflectivity truncates'),
('BlendedRain','hidro_core','(#53) (r_z_a o)','(thresh_nexrad o) (r_z_a o)','C15: thresh_nexrad is ignored'),
('BlendedRain','hidro_core','let cond_rain := lor (map (fun c => c ==? #10) fhc) cond_rain_a in','let cond_rain := cond_rain_a in','C13: big drops are rain'),
('BlendedRain','hidro_core','put cond_ice_kdp crr_kd crr_hidzk','put cond_ice crr_kd crr_hidzk','C13: ice without KDP gets no rain'),
('BlendedRain','rain_return','Ok (RainScalar r m None)','Ok (RainArr shape o)','C11: numbers in, numbers out'),
('Tropical','trop_core','let low := map (fun d => d <? #(-10)) dz in','let low := map (fun d => d <? #10) dz in','C16: only below -10 dBZ is blanked'),
('Tropical','trop_core','let meth := msetc cond_ice 2%Z meth in\n','','C17: ice gates are labelled R(Kdp)'),
('Tropical','trop_core','let cond_meth_4c := land cond_meth_4 (map (fun c => c ==? #2) cs) in','let cond_meth_4c := land cond_meth_4 (map (fun c => c ==? #1) cs) in','C16: convective gates are cs = 2'),
('Tropical','trop_coefs','if negb (String.eqb predef "True") then o else','','C18: predef other than True keeps the caller coefficients'),
('LiquidIce','calc_zdp','(map (fun d => d <=? #0) Z_dp)','(map (fun d => d <? #0) Z_dp)','C20/C21: Zdp of zero difference is floored'),
('LiquidIce','liquid_ice_calcs','let mass_w := msetc (map (fun r => r <? #0) zdr) (#0) mass_w in\n','','C20: no liquid water for negative Zdr'),
('LiquidIce','liquid_ice_calcs','let delta_z := msetc (map (fun d => d <? #0) delta_z) (#0) delta_z in\n','','C20/C21: negative excess is no ice'),
('LiquidIce','liquid_ice_calcs','| None, _ => Ok (get_linear_fits "cifelli")','| None, _ => Ok (get_linear_fits "cr1995")','C22: the cifelli line is always used'),
('LiquidIce','get_delta_thresh','(#0 - #8) / #3','#8 / #3','C25: the threshold decreases with height'),
('LiquidIce','get_freezing_altitude','if tb <? ta then Ok (interp2 (#0) tb ta zb za)\n            else','','C23: interpolation on a cooling pair of levels'),
('LiquidIce','get_hfrz','| None, None => Ok DEFAULT_HFRZ','| None, None => Ok #0','C20: 4.5 km default freezing height'),
('Dsd','calc_d0_sband_method3','part1 + part2','part1 - part2','C28: method 3'),
('Dsd','calc_dsd_sband_bringi_2004','let meth2 := land (map (fun k => k <? #0.3) kdp) (map (fun r => r >=? #0.5) zdr) in','let meth2 := map (fun r => r >=? #0.5) zdr in','C26: one method per gate'),
('Dsd','calc_dsd','if String.eqb method "2013" then','if String.eqb method "2009" then','C27: method dispatch'),
('Dsd','calc_Nw_mult_methods','#21 * dz','#21 + dz','C29: Nw formula'),
('TTraps','wle','','','skip'),
('Plot','labels','"Low-Density_Graupel"; "High-Density_Graupel"','"High-Density_Graupel"; "Low-Density_Graupel"','C92: species names in class order'),
('Plot','axis','lo + flit','flit','C92: the axes start at their lower ends'),
('Plot','dummy','KRH => axis #0.75 2501 #10000','KRH => axis #0.75 2500 #10000','C92: RHOHV curve up to 1.0'),
('Plot','dummy','KLD => axis #(-60) 5900 #100','KLD => axis #(-60) 5900 #10','C92: LDR curve sampled every 0.01 dB'),
('Plot','get_beta_example','hid_beta x a b m','hid_beta x m b a','C92: curves are the membership functions'),
('Plot','get_beta_example','| None => Raise TypeError','| None => Ok []','C92: no temperature, no plots: TypeError'),
('Plot','plot_one','("Kdp", dummy KKD, kdp); ("Zdr", dummy KDR, zdr)','("Kdp", dummy KKD, zdr); ("Zdr", dummy KDR, kdp)','C92: each panel shows its own variable'),
('Plot','plot_one','(pdir ++ label ++ "_beta_" ++ band_name b ++ ".png")','(label ++ "_beta_" ++ band_name b ++ ".png")','C92/C93: files go into pdir'),
('Plot','plot_one','(pdir ++ label ++ "_beta_" ++ band_name b ++ ".png")','(pdir ++ label ++ "_beta.png")','C93: bands do not overwrite each other'),
('Plot','plot_one','(mkfig (band_name b) label temp_factor','(mkfig (band_name b) label #1','C92: the title carries temp_factor'),
('Plot','plot_one','(sets KT) i)) (fun T','(sets KDZ) i)) (fun T','C92: the T panel uses the T parameters'),
('Plot','plot_loop','iobind (plot_one sets b temp_factor pdir i)','iobind (plot_one sets b temp_factor pdir (S i))','C92: one file per species from the first'),
('Plot','plot_beta_functions','(seq 0 n_types)','(seq 0 10)','C92: n_types files'),
('Plot','plot_beta_functions','(seq 0 n_types)','(rev (seq 0 n_types))','C92: files in species order (what is left after a failure)'),
('Plot','get_mbf_sets','if plot_flag','if negb plot_flag','C92: plot_flag=False writes nothing'),
('Plot','get_mbf_sets','let sets := get_sets s use_temp temp_factor b in\n  if plot_flag','let sets := get_sets s true temp_factor b in\n  if plot_flag','C92: without temperature plotting raises'),
('Plot','fhc_io','if negb (fhc_vars a KDZ) then lift PyNone else\n','','C92: no reflectivity, no files'),
('Plot','fhc_io','b "./")','b "")','C92: plots go to the working directory'),
('Plot','fhc_io','(fun _ => lift rest)','(fun _ => lift PyNone)','C92: the result is unchanged by plotting'),
('Plot','fhc_io','if fhc_vars a KT then use_temp else false','use_temp','C92: T=None disables temperature before plotting'),
('Plot','csu_fhc_winter_io','fhc_io Winter','fhc_io Summer','C92: winter plots winter parameters'),
('Plot','saved','if String.eqb p q then Some f else d q','match d q with Some g => Some g | None => if String.eqb p q then Some f else None end','C93: a later plot replaces the earlier one'),
('Plot','iobind','| (w, PyNone) => (w, PyNone) | (w, Raise e) => (w, Raise e)','| (w, PyNone) => (w, PyNone) | (w, Raise e) => ([], Raise e)','C92: files saved before the IndexError stay'),
('Masked','ma_eq','if m then false else feq v s','feq v s','C111: masked gates are not bad gates in the second-trip mask'),
('Masked','ma_and','lor (snd x) (snd y)','land (snd x) (snd y)','C111: a gate masked in either field is masked in the result'),
('Masked','ma_or','lor (snd x) (snd y)','snd x','C111: a gate masked in either field is masked in the result'),
('Masked','insect_conds_ma','flt lo d) dz) (ma_cmp (fun d => fle d hi)','fle lo d) dz) (ma_cmp (fun d => fle d hi)','C111: half-open Z intervals'),
('Masked','insect_filter_ma','| Some m => plain m','| Some m => ma_or (plain m) (ma_eq dz bad)','C111: a supplied mask replaces the bad-gate mask'),
('Masked','despeckle_ma','if m then flit 1 else v','v','C111: masked gates count as data in despeckle'),
('Masked','despeckle_ma','plain (despeckle_ray ones ngates)','(despeckle_ray ones ngates, mmask data)','C111: the despeckle result masks nothing'),
('Masked','calc_rain_nexrad_ma','(mdata dz) in\n  let cond','(map2 (fun (m : bool) v => if m then fnan else v) (mmask dz) (mdata dz)) in\n  let cond','C111: calc_rain_nexrad ignores the mask'),
('Masked','differential_phase_filter_ma','flt thresh_sdp s','fle thresh_sdp s','C111: strictly above the threshold'),
('Fundamentals','atleast_1d','[1%nat] (adata a)','[2%nat] (adata a)','C58: zero-dimensional arguments give one-element arrays'),
('Fundamentals','dndh_default','1000000','1000001','C73: the default gradient'),
('Fundamentals','k_boltz','10 ^ 26','10 ^ 27','C72/C112: Boltzmann constant'),
('Fundamentals','dielectric_default','#0.93','#0.931','C88: the default dielectric factor'),
('Fundamentals','noise_temp_default','#290','#300','C88: the default noise temperature'),
('Fundamentals','ray_height','term1 - reff + h0','term1 - (reff + h0)','C60/C88/C112: the altitude is added'),
('Fundamentals','sample_vol_gauss','#16 * flog #2','#16 * flog10 #2','C88/C112: natural logarithm'),
('Fundamentals','deg2rad','fpi / #180','fpi / #360','C88/C112: degrees to radians'),
('Fundamentals','radar_const','gainlin ** #2 * tau','gainlin * tau','C88/C112: the gain enters squared'),
('Fundamentals','thermal_noise','x / #0.001','x * #0.001','C72/C112: dBm are relative to 1 mW'),
]
E = [e for e in E if e[4] != 'skip']
def enclosing(s, pos):
    ms = list(re.finditer(r"^\s*(?:#\[\w+\] )?(?:Theorem|Lemma|Example|Definition|Fixpoint|Corollary)\s+([\w']+)", s[:pos], re.M))
    return ms[-1].group(1) if ms else '?'
only = sys.argv[3:]
for f, d, old, new, claim in E:
    if only and d not in only and f not in only and f + "." + d not in only: continue
    p = TH + 'Model/' + f + '.v'; s = open(p).read()
    m = re.search(r'(Definition|Fixpoint) ' + re.escape(d) + r'\b', s)
    i = s.find(old, m.start()) if m else -1
    if i < 0: print('NOT FOUND', f, d, old); continue
    open(p, 'w').write(s[:i] + new + s[i+len(old):]); t0 = time.time()
    try: r = subprocess.run('make -k -j4', shell=True, cwd=scratch, capture_output=True, text=True, timeout=840); o = r.stdout + r.stderr; rc = r.returncode
    except subprocess.TimeoutExpired: o = ''; rc = 99
    fails = []
    for x in re.finditer(r'File "\./(theories/[\w/]+\.v)", line (\d+)', o):
        q = open(scratch + '/' + x.group(1)).read(); pos = sum(len(y)+1 for y in q.split('\n')[:int(x.group(2))])
        fails.append(os.path.basename(x.group(1)) + ':' + enclosing(q, pos))
    if rc == 0: fails = []
    open(p, 'w').write(s)
    still = any(x.startswith(f + '.v:') for x in fails)
    rec = dict(campaign='curated', definition=d + ' (Model/' + f + '.v)', edit=old + '  =>  ' + new, claim_broken=claim, theorems_failed=sorted(set(fails)), theorems_tightened=[], rc=rc, stillborn=still, secs=round(time.time()-t0))
    open(out, 'a').write(json.dumps(rec) + '\n')
    print('SURVIVED' if rc == 0 else 'TIMEOUT' if rc == 99 else 'stillborn' if still else 'killed', f, d, '|', new[:60], '|', rec['theorems_failed'][:4], rec['secs']); sys.stdout.flush()
