#!/usr/bin/env python3
"""Write the expectations of the project's own tests as a Coq file.

Usage: gen.py OUT.v, then in the directory of OUT.v
  coqc -Q /verif/rocq/theories Verif OUT.v      (about three minutes)

Every test of /repo/tests listed below is transcribed by hand: the calls it
makes, run on the model with the default constants and the test layer as file
system, and what it expects.  The file computes the names of the checks that
do not hold; the list is empty.
"""
import json,os,re,sys,textwrap
T='/repo/tests'
def S(s): return '(['+';'.join(str(ord(c)) for c in s)+']%N : str)'
out=[]
W=out.append
W('From Verif Require Import PyStr Regex Patterns PyPath Res Inline Const Item Access Lines Stash StrFacts Demo.')
W('From Coq Require Import Bool.')
files={}
for d,_,fs in os.walk(T):
    for f in fs:
        p=os.path.join(d,f)
        if p.endswith('.py') or p.endswith('.expect') or '__pycache__' in p: continue
        files[p]=open(p).read()
dirs={os.path.dirname(p) for p in files}|{'/repo/tests','/repo','/','/tmp','/tmp/x'}
for p in list(dirs):
    while p!='/': p=os.path.dirname(p); dirs.add(p)
globs={T+'/testlayer/conf/distro/*.conf':[p for p in files if re.fullmatch(T+'/testlayer/conf/distro/[^/]*\\.conf',p)],
       T+'/testlayer/conf/machine/*.conf':[p for p in files if re.fullmatch(T+'/testlayer/conf/machine/[^/]*\\.conf',p)]}
W('Definition t_files : list (str*str) := [%s].'%';'.join('(%s,%s)'%(S(p),S(t)) for p,t in files.items()))
W('Definition t_dirs : list str := [%s].'%';'.join(S(p) for p in sorted(dirs)))
W('Definition t_globs : list (str*list str) := [%s].'%';'.join('(%s,[%s])'%(S(p),';'.join(map(S,l))) for p,l in globs.items()))
def db(x):
    if isinstance(x,dict): return 'CDict [%s]'%';'.join('(%s,%s)'%(S(k),db(v)) for k,v in x.items())
    if isinstance(x,list): return 'CList [%s]'%';'.join(map(S,x))
    return 'CStr %s'%S(x)
W('Definition t_db : cval := %s.'%db(json.load(open('/repo/oelint_parser/data/const-default.json'))))
W(r'''
Definition t_url (u : str) : option (str*str*str) :=
  if startswith "http://foo.bar" u then Some ("http" : str, "foo.bar" : str, "/baz.git;test1=1;test2=2" : str) else None.
Definition xenv (extra : list (str*str)) : env :=
  MkEnv (demo_fs (extra ++ t_files) t_dirs t_globs) dedup_items dedup_str (fun i => it_raw i) t_url.
Definition run (extra : list (str*str)) (neg : bool) (fs : list str) (fin : bool) : env * stash * bool :=
  let e := xenv extra in
  let '(s,ok) := fold_left (fun a p => let '(s,ok) := a in let '(r,s') := add_file 10 e p 0 None s in (s', ok && is_ok r)) fs (new_stash false neg t_db, true) in
  if fin then let '(r,s') := finalize e s in (e,s',ok && is_ok r) else (e,s,ok).
Definition all_q := MkQuery None ANone ANone ANone false.
Definition items (x : env*stash*bool) (q : query) : list item := let '(e,s,ok) := x in if ok then get_items_for e s q else [].
Definition cls (c : str) := MkQuery None (AOne c) ANone ANone false.
Definition clsv (c a v : str) := MkQuery None (AOne c) (AOne a) (AOne (VStr v)) false.
Definition att (i : item) (k : str) : pyval := match dget k (attributes i) with Some v => v | None => VOther end.
Definition pveq (a b : pyval) : bool := match a,b with VStr x, VStr y => str_eqb x y | VInt x, VInt y => Z.eqb x y | VBool x, VBool y => Bool.eqb x y | _,_ => false end.
Definition has (i : item) (k : str) (v : pyval) : bool := pveq (att i k) v.
Fixpoint leq (a b : list str) : bool := match a,b with [],[] => true | x::a, y::b => str_eqb x y && leq a b | _,_ => false end.
Definition ne {A} (l : list A) := match l with [] => false | _ => true end.
Definition every (l : list item) (f : item -> bool) := ne l && forallb f l.
Definition term (x : env*stash*bool) (f v : str) (o : str) : bool := let '(e,s,ok) := x in match expand_term e s f v with Ok r => str_eqb r o | _ => false end.
Definition var (x : env*stash*bool) (f n : str) (o : list str) : bool := let '(e,s,ok) := x in match expand_var e s (Some f) (AOne "VarName") (AOne (VStr n)) false with Ok r => match dget n r with Some l => leq l o | None => false end | _ => false end.
''')
checks=[]
def chk(n,e): checks.append((n,e))
R=T+'/test-recipe_1.0.bb'
W('Definition rec1 := Eval vm_compute in run [] false [%s] false.'%S(R))
W('Definition rec1s := rec1.')
def V(run,cl,attn,v): return 'items %s (clsv "%s" "%s" %s)'%(run,cl,attn,S(v))
def H(**kw):
    r=[]
    for k,v in kw.items():
        if isinstance(v,bool): r.append('has i "%s" (VBool %s)'%(k,str(v).lower()))
        elif isinstance(v,int): r.append('has i "%s" (VInt %d)'%(k,v))
        else: r.append('has i "%s" (VStr %s)'%(k,S(v)))
    return ' && '.join(r)
def L(l): return '['+';'.join(map(S,l))+']'
def E(run,cl,attn,v,cond): return 'every (%s) (fun i => %s)'%(V(run,cl,attn,v) if attn else 'items %s (cls "%s")'%(run,cl),cond)
GI=lambda l:'leq (get_items_of i) %s'%L(l)
SI=lambda l:'leq (sub_items i) %s'%L(l)
chk('var',E('rec1','Variable','VarName','LICENSE',H(VarValue='"BSD-2-Clause"',VarValueStripped='BSD-2-Clause',VarName='LICENSE',VarNameComplete='LICENSE',Raw='LICENSE = "BSD-2-Clause"\n',RawVarName='LICENSE',SubItem='',VarOp=' = ')+' && '+GI(['BSD-2-Clause'])+' && '+SI([])+' && str_eqb (class_override i) []'))
chk('periods',E('rec1','Variable','VarName','SOME.VAR.WITH.PERIODS',H(VarValue='"foo"',VarNameComplete='SOME.VAR.WITH.PERIODS',Raw='SOME.VAR.WITH.PERIODS = "foo"\n',RawVarName='SOME.VAR.WITH.PERIODS',SubItem='',VarOp=' = ')+' && '+GI(['foo'])+' && '+SI([])))
chk('rdepends',E('rec1','Variable','VarName','RDEPENDS',H(VarValue='"foo"',VarNameComplete='RDEPENDS_${PN}-test',RawVarName='RDEPENDS',VarOp=' += ',OverrideDelimiter='_')+' && '+GI(['foo'])+' && '+SI(['${PN}-test'])))
chk('include',E('rec1','Include','','',H(Raw='require another_file.inc\n',IncName='another_file.inc',Statement='require')))
chk('export','match items rec1 (cls "Export") with [a;b] => (let i := a in %s) && (let i := b in %s) | _ => false end'%(H(Name='lib',Value='${bindir}/foo'),H(Name='PYTHON_ABI',Value='')))
chk('flag',E('rec1','FlagAssignment','VarName','do_configure',H(Raw='do_configure[noexec] = "1"\n',VarName='do_configure',Value='"1"',Flag='noexec')))
chk('pyblock',E('rec1','PythonBlock','','',H(FuncName='example_function')))
chk('taskadd',E('rec1','TaskAdd','','',H(FuncName='do_example',Comment='# comment')+' && match it_pay i with PTaskAdd _ b a _ => leq a ["do_foo"] && leq b ["do_bar"] | _ => false end'))
chk('taskdel',E('rec1','TaskDel','','','('+H(FuncName='do_baz',Comment='# comment')+') || ('+H(FuncName='do_baz2',Comment='')+')'))
chk('function1','match filter (fun i => negb (mem_str "append" (sub_items i))) (items rec1 (cls "Function")) with i::_ => %s && contains %s (match att i "FuncBody" with VStr b => b | _ => [] end) && negb (appends_function i) && str_eqb (machine_entry i) [] && str_eqb (distro_entry (distros_known t_db) i) [] | _ => false end'%(H(IsPython=False,IsFakeroot=False,FuncName='do_example',FuncNameComplete='do_example',FuncBodyStripped='bbwarn "This is an example warning"'),S('bbwarn "This is an example warning"')))
chk('function2','match filter (fun i => (mem_str "append" (sub_items i))) (items rec1 (cls "Function")) with i::_ => %s && (appends_function i) && str_eqb (machine_entry i) [] && str_eqb (distro_entry (distros_known t_db) i) [] | _ => false end'%(H(IsPython=True,IsFakeroot=True,FuncName='do_something',FuncBodyStripped='bb.warn("This is another example warning")',OverrideDelimiter='_')))
chk('anon','let l := filter (fun i => has i "FuncName" (VStr []) || has i "FuncName" (VStr "__anonymous")) (items rec1 (cls "Function")) in Nat.eqb (length l) 3 && forallb (fun i => %s) l'%H(IsPython=True))
chk('varflag',E('rec1','FlagAssignment','VarName','PACKAGECONFIG',H(Flag='abc')))
chk('multiline',E('rec1','Variable','VarName','SOMELIST',GI(['a','b','c'])+' && in_several_lines i'))
chk('expand','term rec1 %s %s %s'%(S(R),S('${SOMEVAR}/SOMEMORE'),S('source/SOMEMORE')))
chk('expandvar','let \'(e,s,ok) := rec1 in match expand_var e s (Some %s) (AOne "VarName") (AOne (VStr "RDEPENDS")) false with Ok r => match dget "RDEPENDS_test-recipe-test" r with Some _ => true | None => false end | _ => false end'%S(R))
chk('inlinecode',E('rec1','Variable','VarName','INLINECODEBLOCK',H(VarValueStripped='systemd-systemctl-native')+' && negb (str_eqb (it_raw i) (it_realraw i))'))
chk('noml',E('rec1','Variable','VarName','UPSTREAM_CHECK_REGEX','negb (in_several_lines i)'))
for v,c in [('TARGETVAR','class-target'),('CROSSVAR','class-cross'),('NATIVEVAR','class-native'),('SDKVAR','class-nativesdk')]:
    chk(c,E('rec1','Variable','VarName',v,H(VarValueStripped='foo')+' && str_eqb (class_override i) "%s"'%c))
chk('remove','let \'(e,s,ok) := rec1 in let x := items rec1 (cls "Export") in Nat.eqb (length x) 2 && let \'(r,s\') := remove_items x s in is_ok r && negb (ne (items (e,s\',true) (cls "Export")))')
chk('reduce','let \'(e,s,ok) := rec1 in let x := items rec1 (cls "Export") in Nat.eqb (length (reduce_ e s x (MkQuery None ANone (AOne "Name") (AOne (VStr "PYTHON_ABI")) false))) 1 && Nat.eqb (length (reduce_ e s x (MkQuery None ANone (AOne "Name") (AOne (VStr "NOT")) false))) 0')
chk('comments','Nat.eqb (length (items rec1 (cls "Comment"))) 1')
chk('inherit','let l := items rec1 (cls "Inherit") in Nat.eqb (length l) 4 && forallb (fun i => (%s) || (%s) || (%s)) l && existsb (fun i => match att i "Statement" with VStr x => contains "inherit_defer" x | _ => false end) l && existsb (fun i => match att i "Statement" with VStr x => contains "INHERIT" x | _ => false end) l'%(H(Class='someclass'),H(Class='${CLASS_TO_INHERIT}'),H(Class='foo bar')))
chk('multi','Nat.eqb (length (items rec1 (MkQuery None (AOne "Variable") (AOne "VarName") (AMany [VStr "SOMEVAR"; VStr "LICENSE"]) false))) 3 && Nat.eqb (length (items rec1 (MkQuery None (AOne "Variable") (AMany ["VarName";"VarValueStripped"]) (AOne (VStr "destination")) false))) 2')
chk('unset',E('rec1','Unset','VarName','Z',H(Flag=''))+' && '+E('rec1','Unset','VarName','A',H(Flag='my-flag')))
chk('hex','match %s with i::_ => Nat.eqb (length (get_items_of i)) 1 | _ => false end'%V('rec1','Variable','VarName','SRC_URI'))
# layer
def rundef(n,fs,fin,extra=[],neg=False):
    W('Definition %s := Eval vm_compute in run [%s] %s [%s] %s.'%(n,';'.join('(%s,%s)'%(S(a),S(b)) for a,b in extra),str(neg).lower(),';'.join(map(S,fs)),str(fin).lower()))
L1=T+'/testlayer/recipes-foo/recipe-foo_1.0.bb'
rundef('lay1',[L1],False)
chk('distros','let \'(e,s,ok) := lay1 in ok && cval_contains "anotherdistro" (distros_known (st_const s)) && cval_contains "mydistro" (distros_known (st_const s)) && cval_contains "another-machine" (machines_known (st_const s)) && cval_contains "abc" (machines_known (st_const s))')
chk('bbclass_a','existsb (fun i => endswith "foo.bbclass" (it_origin i)) (%s)'%V('lay1','Variable','VarName','FOO_A'))
chk('nonlayer','ne (items lay1 all_q) && forallb (fun i => negb (endswith "foo-foreign.bbclass" (it_origin i))) (items lay1 all_q)')
chk('exports','match items lay1 (cls "FunctionExports") with i::_ => %s && %s && leq (unaliased i) %s | _ => false end'%(H(FuncNames="do_install do_somenotexistingtask",IsFromClass=True),GI(["do_install", "do_somenotexistingtask"]),L(["foo-do_install", "foo-do_somenotexistingtask"])))
chk('fromclass','match %s with i::_ => %s | _ => false end'%(V('lay1','Variable','VarName','B'),H(IsFromClass=False)))
F=T+'/testlayer/recipes-foo/'
rundef('layg',[F+'recipe-bar_1.0.bb'],False); rundef('laygf',[F+'recipe-bar_1.0.bb'],True)
chk('global','existsb (fun i => endswith "global-foo.bbclass" (it_origin i)) (%s)'%V('layg','Variable','VarName','FOO_A'))
chk('incfrom','match %s with i::_ => let l := map basename (it_incfrom i) in forallb (fun x => mem_str x l) ["sub.inc";"test.inc";"recipe-bar_1.0.bb";"global-foo.bbclass"] | _ => false end'%V('laygf','Variable','VarName','SUB_INC'))
rundef('layr',[F+'recipe-baz_1.0.bb'],False)
chk('recipeclass','existsb (fun i => endswith "recipe-foo.bbclass" (it_origin i)) (%s)'%V('layr','Variable','VarName','FOO_A'))
rundef('lay2',[F+'recipe-foo_2.0.bb'],False)
chk('multiinherit','Nat.eqb (length (items lay2 (MkQuery None (AOne "Variable") (AOne "VarName") (AMany [VStr "A"; VStr "B"]) false))) 2')
rundef('lay3',[F+'recipe-foo_3.0.bb'],False); rundef('lay31',[F+'recipe-foo_3.1.bb'],False)
chk('paths','match items lay3 (cls "Inherit") with [i] => match it_pay i with PInherit _ _ l => mem_str %s l && mem_str %s l | _ => false end | _ => false end'%(S(T+'/testlayer/classes/foo.bbclass'),S(T+'/testlayer/classes-recipe/recipe-foo.bbclass')))
chk('nopaths','match items lay31 (cls "Inherit") with [i] => match it_pay i with PInherit _ _ l => negb (ne l) | _ => false end | _ => false end')
A=T+'/testlayer/recipes-appends/test'
for n,fs,lone,recs in [('a1',['.bb'],0,1),('a2',['.bbappend'],1,0),('a3',['.bb','.bbappend'],0,1),('a4',['.bbappend','.bb'],0,1)]:
    rundef(n,[A+x for x in fs],True)
    chk('append_'+n,'let \'(e,s,ok) := %s in ok && Nat.eqb (length (get_lone_appends s)) %d && Nat.eqb (length (get_recipes s)) %d'%(n,lone,recs))
chk('append_links','let \'(e,s,ok) := a2 in mem_str %s (get_links_for_file e s %s) && negb (mem_str %s (get_links_for_file e s %s))'%(S(A+'.inc'),S(A+'.bbappend'),S(A+'.bbappend'),S(A+'.bbappend')))
rundef('conf',[T+'/test-conf.bb'],False)
chk('pylib','match items conf (cls "AddPylib") with [i] => %s | _ => false end'%H(Path='${LAYERDIR}/path/to/somewhere',Namespace='foo'))
chk('fragments','match items conf (cls "AddFragements") with [i] => %s | _ => false end'%H(Path='when/I/grow/up/I/going/to/be/a/full/path',Variable='FOO',Flagged='BAR'))
chk('includeall','match items conf (cls "IncludeAll") with [i] => %s | _ => false end'%H(File='I/wish/I/was/implemented/as/a/well/known/bitbake/handler.conf'))
# expand
X='/tmp/x/testfile.bb'
def ex(n,text,checksf,fin=True,f=X):
    t=textwrap.dedent(text).lstrip('\n'); rundef(n,[f],fin,[(f,t)]); checksf(n,t)
def gi_terms(n,exp): chk('exp_'+n,'match %s with i::_ => let l := get_items_of i in ne l && forallb (fun w => let \'(e,s,_) := %s in match expand_term_full e s %s w [] [] (Some i) with Ok r => str_eqb r %s | _ => false end) l | _ => false end'%(V(n,'Variable','VarName','A'),n,S(X),S(exp)))
def gi_terms0(n,exp): chk('exp_'+n,'match %s with i::_ => let l := get_items_of i in ne l && forallb (fun w => term %s %s w %s) l | _ => false end'%(V(n,'Variable','VarName','A'),n,S(X),S(exp)))
def ev(n,exp): chk('expv_'+n,'var %s %s "A" %s'%(n,S(X),L(exp.split(' ')) if False else L([exp])))
def evj(n,exp): chk('expv_'+n,'let \'(e,s,ok) := %s in match expand_var e s (Some %s) (AOne "VarName") (AOne (VStr "A")) false with Ok r => match dget "A" r with Some l => str_eqb (join " " l) %s | None => false end | _ => false end'%(n,S(X),S(exp)))
ex('x1','''
            B = "${@some.function(d, foo)}"
            A = "${B}/abc"
''',lambda n,t:(gi_terms0(n,'${@some.function(d, foo)}/abc'),evj(n,'${@some.function(d, foo)}/abc')))
ex('x2','A = "${THISDIR}"\n',lambda n,t:gi_terms0(n,'/tmp/x'))
ex('x3','A = "${@d.getVar(\'THISDIR\')}"\n',lambda n,t:gi_terms0(n,'/tmp/x'))
ex('x4','A = "${@oe.utils.read_file(\'${FILE}\')}"\n',lambda n,t:chk('readfile','match %s with i::_ => let \'(e,s,_) := x4 in match expand_term_full e s %s (var_value i) [] [] (Some i) with Ok r => str_eqb (strip_ws r) %s | _ => false end | _ => false end'%(V('x4','Variable','VarName','A'),S(X),S(t.strip()))))
ex('x5','A = "${@some.function(d, foo)}/abc"\n',lambda n,t:(gi_terms(n,'${@some.function(d, foo)}/abc'),evj(n,'${@some.function(d, foo)}/abc')))
ex('x6','A = "${@some.function(d, foo)}/abc ${@some.function2(d, foo)}/def"\n',lambda n,t:(gi_terms(n,'${@some.function(d, foo)}/abc ${@some.function2(d, foo)}/def'),evj(n,'${@some.function(d, foo)}/abc ${@some.function2(d, foo)}/def')))
ex('x7','B = "200"\nC = "${@some.function(d, foo)}/${B}"\nA = "${C}/abc"\n',lambda n,t:(gi_terms(n,'${@some.function(d, foo)}/200/abc'),evj(n,'${@some.function(d, foo)}/200/abc')))
ex('x8','B = "200"\nC = "${@some.function(d, d.getVar(\'B\'))}"\nA = "${C}/abc"\n',lambda n,t:(gi_terms(n,'${@some.function(d, 200)}/abc'),evj(n,'${@some.function(d, 200)}/abc')))
ex('x9','C = "${@some.function(d, d.getVar(\'FILE\'))}"\nA = "${C}/abc"\n',lambda n,t:(gi_terms(n,'${@some.function(d, "%s")}/abc'%X),evj(n,'${@some.function(d, "%s")}/abc'%X)))
for k,(fn,c,o) in enumerate([('myrecipe.bb','A = "b"','1.0'),('myrecipe.bb','PV = "2.1"','2.1'),('myrecipe_1.0.bb','A = "b"','1.0'),('myrecipe_3.3.bb','A = "b"','3.3'),('myrecipe_3.1.bb','PV = "4.2"','4.2')]):
    n='pv%d'%k; rundef(n,['/tmp/x/'+fn],True,[('/tmp/x/'+fn,c)]); chk(n,'term %s %s "${PV}" %s'%(n,S('/tmp/x/'+fn),S(o)))
rundef('img',[T+'/test-image.bb'],False); rundef('pkg',[T+'/test-pkggroup.bb'],False); rundef('none',[T+'/test-recipe_1.0'],False)
chk('image','let \'(e,s,ok) := img in ok && is_image e s %s'%S(T+'/test-image.bb'))
chk('pkggroup','let \'(e,s,ok) := pkg in ok && is_packagegroup e s %s'%S(T+'/test-pkggroup.bb'))
chk('notimage','let \'(e,s,ok) := none in ok && negb (is_image e s %s) && negb (is_packagegroup e s %s)'%(S(T+'/test-recipe_1.0'),S(T+'/test-recipe_1.0')))
B=T+'/testlayer/recipes-bar/'
rundef('inc1',[B+'test_2.bb',B+'test-alt_2.bb'],True)
for f in ['test_2.bb','test-alt_2.bb']:
    chk('inc_'+f,'every (items inc1 (MkQuery (Some %s) (AOne "Variable") (AOne "VarName") (AOne (VStr "C")) false)) (fun i => %s)'%(S(B+f),H(VarValueStripped='1')))
rundef('inc2',[B+'test_2.bb'],True)
chk('incfile','let l := map (fun i => match att i "FileIncluded" with VStr x => x | _ => [] end) (items inc2 (MkQuery (Some %s) (AOne "Include") ANone ANone false)) in forallb (fun x => mem_str x l) %s'%(S(B+'test_2.bb'),L([B+'test.inc',B+'test2.inc',B+'test3.inc'])))
rundef('lnk',[B+'test_1.bb',B+'test_2.bb',B+'empty_1.bb',B+'empty_1.bbappend'],True)
for f,l in [('test_1.bb',['global-foo.bbclass', 'recipe-foo.bbclass', 'test.inc', 'test2.inc', 'test_1.bb']),('test_2.bb',['global-foo.bbclass', 'recipe-foo.bbclass','test.inc', 'test2.inc', 'test3.inc', 'test_2.bb']),('empty_1.bb',['empty_1.bbappend'])]:
    chk('links_'+f,'leq (sort_str (dedup_str (map (fun i => basename (it_origin i)) (items lnk (MkQuery (Some %s) ANone ANone ANone false))))) %s'%(S(B+f),L(sorted(l))))
src=open(T+'/test_inlineexpansion.py').read()
k0=src.index("[\n",src.index("parametrize('input_'")); k1=src.index('],\n                             )')
import ast
for k,(c,neg,r) in enumerate(ast.literal_eval(src[k0:k1]+']')):
    n='in%d'%k; rundef(n,['/tmp/x/test-snippet.bb'],False,[('/tmp/x/test-snippet.bb',c)],neg); chk(n,'match items %s all_q with [i] => %s | _ => false end'%(n,H(Raw=r)))
FC=[('',0),('A = "1"\n',1),('FOO = "1"\n\nBAR = "abc"\n',3)]
RP='/tmp/x/myrecipe_3.1.bb'; AP=RP+'append'
for a,(ra,rn) in enumerate(FC):
    for b,(ba,bn) in enumerate(FC):
        n='ln%d%d'%(a,b); rundef(n,[RP,AP],True,[(RP,ra),(AP,ba)])
        mx=lambda q,o:'Z.eqb (fold_left Z.max (map it_line (%s)) 0%%Z) %d'%(q,o)
        chk(n,mx('items %s (MkQuery None ANone (AOne "Origin") (AOne (VStr %s)) true)'%(n,S(RP)),rn)+' && '+mx('items %s (MkQuery None ANone (AOne "Origin") (AOne (VStr %s)) false)'%(n,S(AP)),rn+bn if bn else 0))
O='/tmp/x/otherrecipe_2.4.bb'; P='/tmp/x/myrecipe_%.bbappend'
rundef('unrel',[RP,P,O],True,[(RP,'A = "21"\nZ = "foo"\n'),(P,'FOO = "abc"\nBAR = "xyz"\nBAZ = "123"\n'),(O,'M = "42"\nP = "bar"\nQ = "alpha"\nS = "${WORKDIR}/git"\n')])
chk('unrel',' && '.join(mx('items unrel (MkQuery None ANone (AOne "Origin") (AOne (VStr %s)) %s)'%(S(p),nl),o) for p,o,nl in [(RP,2,'true'),(P,5,'false'),(O,4,'false')]))
rundef('dyn',[RP],True,[(RP,'PACKAGES_DYNAMIC = "^${PN}-lib.* ^foo-"\nRDEPENDS:${PN}-libfoo += "baz"\nRSUGGESTS:myrecipe-libbar += "baz"\nFILES:foo-bar += "baz"\n')])
for nme,o in [('${PN}-libfoo','true'),('myrecipe-libfoo','true'),('foo-bar','true'),('myrecipe','false')]:
    chk('dyn_'+nme,'let \'(e,s,ok) := dyn in match is_dynamic_package e s %s %s with Ok b => Bool.eqb b %s | _ => false end'%(S(RP),S(nme),o))
N1=T+'/test-recipe-new_1.0.bb'
rundef('new1',[N1],False)
chk('n_a',E('new1','Variable','VarName','A',H(VarValue='" X"',VarValueStripped=' X',RawVarName='A',VarOp=' = ',OverrideDelimiter=':')+' && '+GI(['X'])+' && '+SI(['append'])))
chk('n_b',E('new1','Variable','VarName','B',H(VarValue='"X2"',RawVarName='B',VarOp=' = ',OverrideDelimiter=':')+' && '+GI(['X2'])+' && '+SI(['remove','qemuall'])))
chk('n_src',E('new1','FlagAssignment','VarName','SRC_URI',H(Value='"5c274e52576976bd70565cd72505db41"',ValueStripped='5c274e52576976bd70565cd72505db41',Flag='foo.md5sum',VarOp=' = ')+' && '+GI(["SRC_URI", "foo.md5sum", " = ", '5c274e52576976bd70565cd72505db41'])))
chk('n_rd',E('new1','Variable','VarName','RDEPENDS',H(VarValue='"foo"',VarNameComplete='RDEPENDS:${PN}-test',RawVarName='RDEPENDS',VarOp=' += ',OverrideDelimiter=':')+' && '+GI(['foo'])+' && '+SI(['${PN}-test'])))
chk('n_func','match items new1 (cls "Function") with i::_ => %s && mem_str "prepend" (sub_items i) && appends_function i && str_eqb (distro_entry (distros_known t_db) i) "poky" && str_eqb (machine_entry i) "qemux86-64" | _ => false end'%H(IsPython=False,IsFakeroot=False,FuncName='do_example',FuncNameComplete='do_example:prepend:qemux86-64:poky',FuncBodyStripped='bbwarn "This is an example warning"',OverrideDelimiter=':'))
rundef('newn',[T+'/test-recipe-new-native_1.0.bb'],False)
chk('n_bp','term newn %s "${BP}" "test-recipe-new-1.0" && term newn %s "${P}" "test-recipe-new-1.0"'%(S(N1),S(N1)))
chk('n_p','term new1 %s "${P}" "test-recipe-new-1.0"'%S(N1))
rundef('new2',[T+'/test-recipe-new_2.0.bb'],False)
chk('n_style','every (items new2 all_q) (fun i => %s)'%H(IsNewStyleOverrideSyntax=True,OverrideDelimiter=':'))
chk('n_srcrev','match %s with [a;b] => (let i := a in %s) && (let i := b in %s) | _ => false end && Nat.eqb (length (%s)) 1'%(V('new1','Variable','VarName','SRCREV_foo'),SI([]),SI(['more','to','come']),V('new1','Variable','VarName','SRCREV_FORMAT')))
chk('n_app',E('new1','Variable','VarName','C','is_append (var_op i) (sub_items i) && mem_str %s (append_operation (var_op i) (sub_items i))'%S('  += ')))
for v,f in [('VAR_FLAG_WITH_SLASH','abc/def'),('VAR_FLAG_WITH_AT','abc@def'),('VAR_FLAG_WITH_UNDERLINE','abc_def')]:
    chk(v,E('new1','FlagAssignment','VarName',v,H(Flag=f)))
rundef('wrong',[T+'/test-recipe-wrong-syntax_1.0.bb'],False)
for c,v in [('PythonBlock','do-foo'),('Function','do-bar'),('TaskAdd','do-bar'),('TaskDel','do-bar')]:
    chk('wrong_'+c,E('wrong',c,'','',H(FuncName=v)))
chk('url','let \'(a,b,c) := scr_components (xenv []) (new_stash false false t_db) "http://foo.bar/baz.git;test1=1;test2=2" in str_eqb a "http" && str_eqb b "foo.bar/baz.git" && dhas "test1" c && dhas "test2" c')
for f in ['pattern_var.bb','pattern_python.bb','pattern_function.bb','pattern_comment_py.bb']:
    n='pat_'+f[:-3]; rundef(n,[T+'/pattern/'+f],True)
    exp=json.load(open(T+'/pattern/'+f+'.expect'))
    cs=[]
    for d in exp:
        dd={k:v for k,v in d.items() if not isinstance(v,list)}
        c=H(**dd)
        if 'SubItems' in d: c+=' && '+SI(d['SubItems'])
        c+=' && negb (ne (it_blocks i))'
        cs.append('(fun i => %s)'%c)
    chk(n,'(fix go (l : list item) (f : list (item -> bool)) := match l,f with [],[] => true | i::l, c::f => c i && go l f | _,_ => false end) (items %s all_q) [%s]'%(n,';\n'.join(cs)))
src=open(T+'/test_snippet.py').read()
k0=src.index("[\n",src.index("parametrize('input_'")); k1=src.index('],\n                             )')
for k,c in enumerate(ast.literal_eval(src[k0:k1]+']')):
    c=textwrap.dedent(c).lstrip('\n')
    n='sn%d'%k; rundef(n,['/tmp/x/test-snippet.bb'],False,[('/tmp/x/test-snippet.bb',c)]); chk(n,'Nat.eqb (length (items %s all_q)) 1'%n)
hb="def _helper_a(d):\n    return d.getVar('A')\n\ndef _helper_b(d):\n    return d.getVar('B')\n\naddhandler myclass_eventhandler\npython myclass_eventhandler() {\n    if bb.event.getName(e) == \"ConfigParsed\":\n        _helper_a(e.data)\n}\n"
rundef('hnd',['/tmp/x/test-handler.bb'],False,[('/tmp/x/test-handler.bb',hb)])
chk('handler','match items hnd (cls "Function") with [i] => %s && contains "bb.event.getName" (it_realraw i) && endswith "}" (rstrip_ws (it_realraw i)) | _ => false end && Nat.eqb (length (items hnd (cls "PythonBlock"))) 2 && forallb (fun i => negb (str_eqb (classifier i) "Item" && contains "python" (it_realraw i))) (items hnd all_q)'%H(FuncName='myclass_eventhandler',IsPython=True))
rundef('uns',[T+'/test-unset.bb'],False)
chk('unsetvar','var uns %s "A" %s'%(S(T+'/test-unset.bb'),L(['3','2'])))
rundef('ver',[T+'/test-versioned.bb'],False)
chk('versioned',E('ver','Variable','VarName','DEPENDS','leq (variable_words i [] true) ["a";"b";"c"]'))
chk('unversioned',E('ver','Variable','VarName','SOMEVALUE','negb (leq (variable_words i [] false) ["a";"b";"c"]) && forallb (fun y => mem_str y (get_items_of i)) ["a";"b";"c"]'))
W('Definition results : list (str*bool) := [\n%s].'%';\n'.join('(%s, %s)'%(S(n),e) for n,e in checks))
W('Definition failed := Eval vm_compute in map fst (filter (fun x => negb (snd x)) results).')
W('Compute (length results). Print failed.')
open(sys.argv[1],'w').write('\n'.join(out))
print(len(checks))
