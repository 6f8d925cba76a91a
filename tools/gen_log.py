"""Collects the results of the mutation harness (/tmp/mut) into seeded/LOG.jsonl (appends what is not there yet)."""
import json,sys,os
LOG='/verif/seeded/LOG.jsonl'
tight={
 'SO2-9':(['C71_so2_nearest'],'the claim list was too narrow; C71 tightened to say which signal nearest sampling returns; rerun as SO2-9r'),
 'SO2-10':(['C63_so2_random_grid','C63_o2_random_grid'],'C63 extended: every angle in [0, 2 pi) is drawn, intervals have the right share; rerun as SO2-10r'),
 'O2-6':(['C63_o2_random_grid'],'C63 extended: coefficient 1 exactly when the draw exceeds 1/2; rerun as O2-6r'),
 'LY-7':(['C55_max_windows','C55_avg_windows'],'C55 restated over windows of arbitrary size, stride, padding and dilation; rerun as LY-7r'),
 'LY-22':(['C55_max_windows','C55_avg_windows'],'rerun as LY-22r'),
 'LY-23':(['C55_max_windows','C55_avg_windows'],'rerun as LY-23r'),
 'PB-3':(['C69_int_group_kernel_size'],'new theorem; rerun as PB-3r'),
 'PB-6':(['C53_values'],'new theorem; rerun as PB-6r'),
 'S2-5':(['C66'],'C66 restated over the modelled s2 function instead of a local copy of the formula; rerun as S2-5r'),
 'SO3-34':(['C27_case_insensitive'],'new theorem; rerun as SO3-34r'),
 'S2-3':([], 'wrong claim id: the edited function belongs to C32; rerun as S2-3r'),
 'GC-2':([], 'malformed edit (the text occurred elsewhere); rerun as GC-2r'),
 'SO3-13':([], 'malformed edit; rerun as SO3-13r'),
 'SO3-24':([], 'equivalent mutant: eps = 0 is never reached in the edited branch'),
 'FN-5':([], 'C49 does not depend on the edited case; caught by C59'),
 'FN-6':([], 'claims listed too widely; caught by C59/C51'),
 'FN-8':([], 'claims listed too widely; caught by another theorem'),
 'PB-2':([], 'caught by C69 (C43 does not speak about the edited constructor)'),
 'PB-7':([], 'caught by C53 (C69 does not speak about the permutation draw)'),
 'TU-8':([], 'behaviour-preserving edit (control): no theorem should fail'),
}
if os.path.exists('/tmp/mut/tight.json'): tight.update(json.load(open('/tmp/mut/tight.json')))
have=set()
if os.path.exists(LOG):
    for l in open(LOG):
        have.add(json.loads(l)['id'])
out=open(LOG,'a')
for f in sys.argv[1:]:
    for l in open(f):
        r=json.loads(l)
        if r['id'] in have: continue
        have.add(r['id'])
        t,n=tight.get(r['id'],([],''))
        tf=r['result'].get('theorems_failed') or []
        out.write(json.dumps({'id':r['id'],'definition':r['definition'],
          'edit':[{'file':e[0]+'.v','from':e[1],'to':e[2]} for e in r['edits']],
          'description':r['desc'],'claims_broken':r['claim'],'caught':bool(tf),
          'theorems_failed':tf,'lemmas_failed':r['result'].get('failures'),
          'theorems_tightened':t,'note':n})+'\n')
