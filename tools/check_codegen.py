#!/usr/bin/env python3
"""Textual check that every width-specialised helper of libcob/codegen.h 290-2679
(little endian, ALLOW_MISALIGNED undefined) is the instance of the template that
rocq/theories/BinOps.v models.  Reads the text only."""
import re,sys
src=open('/repo/libcob/codegen.h').read()
# resolve conditionals: WORDS_BIGENDIAN undefined, ALLOW_MISALIGNED undefined
out=[];stack=[]
for l in src.split('\n'):
    m=re.match(r'\s*#\s*(ifdef|ifndef|if|else|endif)\b\s*(.*)',l)
    if m:
        k,a=m.group(1),m.group(2)
        if k=='ifdef': stack.append(not ('WORDS_BIGENDIAN' in a or 'ALLOW_MISALIGNED' in a))
        elif k=='ifndef': stack.append(True)
        elif k=='if': stack.append(True)
        elif k=='else': stack[-1]=not stack[-1]
        else: stack.pop()
        continue
    if all(stack): out.append(l)
txt='\n'.join(out)
txt=re.sub(r'/\*.*?\*/','',txt,flags=re.S)
fn={}
for m in re.finditer(r'COB_STATIC (int|void)\n(\w+) \((.*?)\)\n\{(.*?)\n\}',txt,flags=re.S):
    fn[m.group(2)]=re.sub(r'\s+',' ',m.group(4)).strip()
def strip(b): return re.sub(r'\s+','',b)
def o(base,i): return '*'+base if i==0 else '*(%s+%d)'%(base,i)
bad=0;seen=set()
def cont(w): return {1:1,2:2,3:4,4:4,5:8,6:8,7:8,8:8}[w]
ct={(2,'u'):'unsignedshort',(2,'s'):'short',(4,'u'):'unsignedint',(4,'s'):'int',(8,'u'):'unsignedlonglong',(8,'s'):'longlong'}
def decl_rm(b,w,s,var):
    b=strip(b); t=ct[(cont(w),s)]
    n=0
    for d in ('%s%s=0;'%(t,var),'%s%s;'%(t,var)):
        if d in b: b=b.replace(d,'',1); n+=1; zero='=0' in d; break
    else: return b,None
    b=b.replace('unsignedchar*x;','',1)
    return b,zero
def check(name,alts):
    global bad
    seen.add(name)
    if name not in fn: print('missing',name); bad+=1; return
    if fn_body not in alts: print('DIFF',name,'\n ',fn_body,'\n  expected',alts); bad+=1
CMP='return(val<n)?-1:(val>n);'
for s in 'us':
  for w in range(1,9):
    c=cont(w) if w>1 else 1
    guard='if(n<0){return1;}' if s=='u' else ''
    # native compare
    nm='cob_cmp_%s%d_binary'%(s,8*w)
    if w==1:
        fn_body=strip(fn[nm]); check(nm,['if(n<0){return1;}return(*p<n)?-1:(*p>n);' if s=='u' else 'return(*(constsignedchar*)p<n)?-1:(*(constsignedchar*)p>n);'])
    else:
        fn_body,z=decl_rm(fn[nm],w,s,'val')
        off=0 if s=='u' else c-w
        x='x=(unsignedchar*)&val;' if off==0 else 'x=((unsignedchar*)&val)+%d;'%off
        copy=''.join('%s=%s;'%(o('x',i),o('p',i)) for i in range(w))
        sh='val>>=%d;'%(8*(c-w)) if off else ''
        check(nm,[guard+x+copy+sh+CMP])
        if z!=(c!=w): print('zero init',nm,z); bad+=1
    for op,sg in (('add','+'),('sub','-')):
        nm='cob_%s_%s%d_binary'%(op,s,8*w)
        if w==1:
            fn_body=strip(fn[nm]); check(nm,['*p%s=val;'%sg if s=='u' else '*(signedchar*)p%s=val;'%sg]); continue
        fn_body,z=decl_rm(fn[nm],w,s,'n')
        x=x.replace('&val','&n')
        copy=''.join('%s=%s;'%(o('x',i),o('p',i)) for i in range(w))
        back=''.join('%s=%s;'%(o('p',i),o('x',i)) for i in range(w))
        sh=('n>>=%d;'%(8*(c-w)) if off else '')
        x2='x=(unsignedchar*)&n;' if off else ''
        check(nm,[x+copy+sh+'n%s=val;'%sg+x2+back])
        if z!=(c!=w): print('zero init',nm,z); bad+=1
    if w==1: continue
    # swapped compare
    nm='cob_cmpswp_%s%d_binary'%(s,8*w)
    fn_body,z=decl_rm(fn[nm],w,s,'val')
    off=c-w if s=='u' else 0
    x='x=(unsignedchar*)&val;' if off==0 else 'x=((unsignedchar*)&val)+%d;'%off
    copy=''.join('%s=%s;'%(o('x',i),o('p',i)) for i in range(w))
    sh='val>>=%d;'%(8*(c-w)) if (s=='s' and c!=w) else ''
    check(nm,[guard+x+copy+'val=COB_BSWAP_%d(val);'%(8*c)+sh+CMP])
    if z!=(c!=w): print('zero init',nm,z); bad+=1
    # swapped add, subtract, set
    for op,sg in (('addswp','+'),('subswp','-'),('setswp','')):
        nm='cob_%s_%s%d_binary'%(op,s,8*w)
        b=strip(fn[nm])
        if w==8:
            load='for(i=0;i<8;++i){u.c[7-i]=p[i];}' if sg else ''
            t=ct[(8,s)]
            fn_body=b; check(nm,['size_ti;union{%sn;unsignedcharc[8];}u;'%t+load+'u.n%s=val;'%sg+'for(i=0;i<8;++i){p[i]=u.c[7-i];}']); continue
        fn_body,z=decl_rm(fn[nm],w,s,'n')
        if w in (2,4):
            cast='' if (w==4 and s=='u') else '(%s)'%ct[(w,s)]
            e={2:'(p[0]<<8)|p[1]',4:'(p[0]<<24)|(p[1]<<16)|(p[2]<<8)|p[3]'}[w]
            load=('n=%s;'%(cast+'('+e+')' if cast else e)) if sg else ''
            st={2:'p[0]=(unsignedchar)(n>>8);p[1]=(unsignedchar)n;',4:'*p++=(unsignedchar)(n>>24);*p++=(unsignedchar)(n>>16);*p++=(unsignedchar)(n>>8);*p=(unsignedchar)n;'}[w]
            alt=load.replace('n=','n=(unsignedint)(',1)[:-1]+');' if (w==4 and s=='u' and sg) else load
            check(nm,[load+'n%s=val;'%sg+st,alt+'n%s=val;'%sg+st]); continue
        off=0 if s=='u' else c-w
        x='x=(unsignedchar*)&n;' if off==0 else 'x=((unsignedchar*)&n)+%d;'%off
        copy=''.join('%s=%s;'%(o('x',i),o('p',w-1-i)) for i in range(w))
        back=''.join('%s=%s;'%(o('p',i),o('x',w-1-i)) for i in range(w))
        sh=('n>>=%d;'%(8*(c-w)) if off else '')
        x2='x=(unsignedchar*)&n;' if off else ''
        if sg: check(nm,[x+copy+sh+'n%s=val;'%sg+x2+back])
        else: check(nm,['n=val;x=(unsignedchar*)&n;'+back])
# aligned
for s in 'us':
  for w in (2,4,8):
    t=ct[(w,s)]; guard='if(n<0){return1;}' if s=='u' else ''
    for nm,e in (('cob_cmp_align_%s%d_binary','*(%sMISALIGNED*)p'),('cob_cmpswp_align_%s%d_binary','COB_BSWAP_%d(*(%%sMISALIGNED*)p)'%(8*w))):
        nm=nm%(s,8*w); fn_body=strip(fn[nm]); check(nm,['%sval;'%t+guard+'val='+e%t+';'+CMP])
    for op,sg in (('add','+'),('sub','-')):
        nm='cob_%s_align_%s%d_binary'%(op,s,8*w); fn_body=strip(fn[nm]); check(nm,['*(%sMISALIGNED*)p%s=val;'%(t,sg)])
# the tables of cobc/typeck.c: index (size - 1) + 8 * signed + 16 * swapped
ty=open('/repo/cobc/typeck.c').read()
def table(name):
    m=re.search(r'%s\[\] = \{(.*?)\};'%name,ty,flags=re.S)
    return [None if x.strip()=='NULL' else x.strip().strip('"') for x in m.group(1).split(',') if x.strip()]
for name,op,al in (('bin_compare_funcs','cmp',''),('bin_add_funcs','add',''),('bin_sub_funcs','sub',''),('align_bin_compare_funcs','cmp','align_'),('align_bin_add_funcs','add','align_'),('align_bin_sub_funcs','sub','align_')):
    t=table(name)
    for z in range(32):
        w=z%8+1; s='us'[z//8%2]; sw=z//16
        if w==1: want='cob_%s_%s8_binary'%(op,s)
        else:
            a=al if w in (2,4,8) and not (sw and op!='cmp') else ''
            want='cob_%s%s_%s%s%d_binary'%(op,'swp' if sw else '',a,s,8*w)
        if t[z]!=want and not (al and t[z] is None): print('TABLE',name,z,t[z],want); bad+=1
t=table('bin_set_funcs')
for z in range(16):
    w=z%8+1
    if w>1 and t[z]!='cob_setswp_%s%d_binary'%('us'[z//8],8*w): print('TABLE set',z,t[z]); bad+=1
rest=[n for n in fn if n.endswith('_binary') and n not in seen]
print(len(seen),'functions checked,',bad,'differences; not covered:',rest)
sys.exit(bad!=0)
