# collects the results of the mutation runs into seeded/LOG.jsonl
import json,os,re
D='/tmp/mut/'
NOTE={
'k_err_commits':('no claim is false of the edited program: failed operations leave the transaction unchanged',[]),
'bl_blocks':('survived the first time (no theorem spoke about blocks(ABSENT))',['C02_absent','C02_absent_refuted']),
'u_auto':('survived the first time (no theorem spoke about entries added without an offset)',['C46_auto']),
'u_plus_auto':('survived the first time (no theorem spoke about entries added without an offset)',['C46_auto_plus']),
'm_pread_eof':('equivalent to the original: only a proof script broke, no claim is false of the edited program',[]),
'l_close':('this edit repairs the code: as expected the refutations fail',[]),
'x_readdir_two_tx':('no claim is false of the edited program',[]),
'io_read_fixed':('only descriptions broke, no property theorem',['C67_read_bytes','C67_read_back']),
'io_splice_off':('survived the first time (no theorem spoke about single bytes)',['C67_write_bytes']),
'io_splice_cut':('survived the first time (no theorem spoke about single bytes)',['C67_write_bytes']),
'io_write_all':('survived the first time',['C67_write_bytes']),
'cd_parse_len':('no theorem spoke about the record of an entry',['C68_record','C68_record_error']),
'cd_parse_mode':('no theorem spoke about the record of an entry',['C68_record','C68_record_error']),
'cd_mark_size':('no claim is false of the edited program: the size that is remembered is never used',[]),
'im_new_uid':('survived an earlier automatic run (no theorem spoke about the attributes of new objects)',['C44_attributes','C44_fstat_attributes']),
'w_root_join':('survived the first time (only PropsWalk was rebuilt; no theorem of C41/C72 spelled the path of an entry out)',['C41_where','C72_where']),
'bk_multi':('survived the first time (no theorem spoke about the length of a batch of forgets)',['C72_batch']),
'dw_children_err':('this edit partly repairs the code: the theorems about the defect fail, as they must',[]),
'ld_read_error':('this edit partly repairs the code: the theorems about the defect fail, as they must',[]),
'ld_close_always':('this edit partly repairs the code: the theorems about the defect fail, as they must',[]),
'ld_null_checked':('this edit repairs the code: the theorems about the defect fail, as they must',[]),
'pl_synced':('this edit partly repairs the code: the theorems about the defect fail, as they must',[]),
'x_forget_rw':('no claim is false of the edited program',[]),
}
out=[];seen=set()
for q in ['q1','q2','q3','q4','q5','q6','q7','q8','q9','q10','q11','q12','q13','q14','q15','q16','q17','q18','q19','q20','q21','q22','q23','q24','q25']:
    r='r'+q[1:]+'.jsonl'
    if not os.path.exists(D+r): continue
    ns={}; 
    cwd=os.getcwd(); os.chdir(D); exec(open(D+q+'.py').read(),ns); os.chdir(cwd)
    claim={m[0]:m[2] for m in ns['M']}
    for l in open(D+r):
        d=json.loads(l); n=d['name']
        note,tight=NOTE.get(n,('',[]))
        e=dict(id=n,definition='; '.join(sorted({x[0]+'.v' for x in d['edits']})),edit=[{'file':'rocq/theories/%s.v'%f,'old':o,'new':w} for f,o,w in d['edits']],
          claim_broken=claim.get(n,''),failed_proofs=d['failed'],property_theorems_lost=sorted(set(d['tainted'])),theorems_tightened=tight)
        if d.get('stopped')=='max failures': e['note']='stopped after %d failing proofs'%len(d['failed'])
        if note: e['note']=(e.get('note','')+'; ' if e.get('note') else '')+note
        if n in ('bl_blocks','u_auto','u_plus_auto'):
            e['round']=2 if q=='q8' else 1
            if q!='q8': e['theorems_tightened']=tight
        out.append(e)
open('/verif/seeded/LOG.jsonl','w').write(''.join(json.dumps(e)+'\n' for e in out))
print(len(out),[e['id'] for e in out if not e['failed_proofs']])
