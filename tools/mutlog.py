#!/usr/bin/env python3
"""Turn records of tools/mutate.py into lines of seeded/LOG.jsonl.  usage: mutlog.py CAMPAIGN RECORDS.jsonl..."""
import json, sys, re
CL = [  
 (r'Plot.v', 'C92 C93', 'the files plot_flag writes'),  # (file:definition regex, claims, English)
 (r'Weights.v', 'C100', 'what the classifiers make of the caller-supplied weights'),
 (r'Common.v:(axes_clash|clash|misfit|is_prefix|index_misfit)', 'C107', 'fields whose shapes do not fit together are rejected'),
 (r'Beta.v:hid_beta|Beta.v:get_', 'C30 C32 C41', 'the membership functions are 1/(1+((x-m)/a)^(2b)) with the shipped, temperature-scaled parameters'),
 (r'Beta.v', 'C30 C31 C32', 'the membership functions and their shipped parameters'),
 (r'BlendedRain.v:(blended_core|calc_blended)', 'C08 C09 C83', 'calc_blended_rain follows its documented decision tree at every gate'),
 (r'BlendedRain.v:(hidro_core|csu_hidro)', 'C13 C14 C83', 'csu_hidro_rain follows its documented decision tree at every gate'),
 (r'BlendedRain.v', 'C08 C13 C83', 'the rain algorithms use the documented defaults'),
 (r'Common.v:.*(2si|si2)', 'C55 C56', 'unit conversions are the documented factors'),
 (r'Common.v:calc_rain_nexrad', 'C07 C83', 'calc_rain_nexrad caps the reflectivity'),
 (r'Common.v:check_for_array', 'C11', 'scalar calls agree with array calls'),
 (r'Common.v', 'C08 C13 C83', 'the rain-rate relations are the documented power laws'),
 (r'Dsd.v:(calc_dsd_cband|calc_dsd_sband_bringi_2013|d0_)', 'C27 C29', 'piecewise d0 of the 2009/2013 retrievals'),
 (r'Dsd.v', 'C26 C27 C28 C29', 'calc_dsd assigns the documented method and formula per gate'),
 (r'Fundamentals.v', 'C57 C58 C59 C60 C69 C70 C71 C72 C73 C74 C75 C76 C77 C78 C88', 'each function is its documented formula'),
 (r'Hid.v:(np_argmax|argmax0|column|fhc_vars)', 'C33 C37 C38', 'the class is the first maximum of the scores, gate by gate'),
 (r'Hid.v:winter|Hid.v:csu_fhc_winter', 'C39 C40 C63 C86', 'winter scores are the documented weighted means'),
 (r'Hid.v:ml1|Hid.v:csu_fhc_cold', 'C64 C86', 'melting-layer scores are the documented weighted means'),
 (r'Hid.v', 'C32 C33 C35 C36 C86', 'summer scores are the documented weighted means of the supplied variables'),
 (r'Kdp.v:(LSE|lse_)', 'C48 C91', 'the line fit is the least-squares line'),
 (r'/Kdp.v:(sd_|window)', 'C47 C68', 'the phase standard deviation is the population deviation of the window'),
 (r'/Kdp.v:(fill|fir_|coeff|good)', 'C49 C50 C51 C52', 'the FIR pass: gaps, edges, coefficients'),
 (r'/Kdp.v:(kd_|new_nadp|half_of)', 'C48 C51 C53 C67', 'KDP is half the slope over the adaptive window'),
 (r'/Kdp.v:get_fir', 'C87', 'the filter design requested from scipy'),
 (r'/Kdp.v', 'C49 C54 C66', 'calc_kdp_bringi dispatch and the ray routine'),
 (r'KdpPy.v', 'C79 C80 C81 C82', 'the Python KDP estimator: gates, gaps, edges, window, statistics'),
 (r'LiquidIce.v:(get_freezing|interp2)', 'C23 C24', 'the freezing altitude of a sounding'),
 (r'LiquidIce.v:get_delta', 'C25', 'the delta threshold profile'),
 (r'LiquidIce.v', 'C20 C21 C22', 'liquid/ice masses per gate and where they are zero'),
 (r'Melt.v:run_winter|Melt.v:argmax_class', 'C42 C43 C65', 'run_winter codes and precedence'),
 (r'Melt.v', 'C44 C45', 'the melting level is the documented median / sector profile'),
 (r'Misc.v:(despeckle|label|lmax)', 'C01 C02 C03 C04', 'despeckle masks exactly bad gates and short runs'),
 (r'Misc.v', 'C05 C06', 'insect/second-trip/phase filters are exact predicates'),
 (r'TTraps.v', 'C46 C85', 'trapezoid memberships: range, plateaus, breaks'),
 (r'Tropical.v:trop_(coefs|defaults)', 'C18 C83', 'tropical coefficient selection and defaults'),
 (r'Tropical.v', 'C16 C17 C83', 'calc_blended_rain_tropical gate by gate'),
]
SURV = json.load(open(sys.argv[0].replace('mutlog.py', 'survivors.json')))
camp = sys.argv[1]
for fn in sys.argv[2:]:
    for l in open(fn):
        r = json.loads(l)
        if r['stillborn'] or r['rc'] == 99: continue
        key = r['file'] + ':' + r['definition']
        ids, eng = next((c, e) for p, c, e in CL if re.search(p, key))
        o = {'campaign': camp, 'definition': r['definition'] + ' (' + r['file'] + ')', 'edit': r['before'] + '  =>  ' + r['after'],
             'claim_broken': ids.replace(' ', ', ') + ': ' + eng, 'theorems_failed': r['failed'], 'theorems_tightened': []}
        if r['rc'] == 0:
            for s in SURV:
                if s['definition'] == r['definition'] and s['match'] in o['edit']:
                    o['claim_broken'] = s.get('claim', o['claim_broken']); o['theorems_tightened'] = s.get('tightened', [])
                    o['verdict'] = s['verdict']; break
            else: print('UNEXPLAINED SURVIVOR', json.dumps(r), file=sys.stderr)
        print(json.dumps(o))
