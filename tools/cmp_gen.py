import re
src=open('/repo/gvariant-macro/src/generate_impl.rs').read()
gen=open('/verif/rocq/theories/Gen.v').read()+open('/verif/rocq/theories/Marker.v').read()
# rust string literals (raw r#"..."#, and plain)
lits=[]
i=0
while i<len(src):
    if src.startswith('//',i):
        i=src.index('\n',i); continue
    m=re.match(r'r(#*)"',src[i:])
    if m and (i==0 or not src[i-1].isalnum()):
        end='"'+m.group(1); j=src.index(end,i+m.end()); lits.append((src[:i].count('\n')+1,src[i+m.end():j])); i=j+len(end); continue
    if src[i]=='"':
        j=i+1; s=''
        while src[j]!='"':
            if src[j]=='\\':
                c=src[j+1]
                if c=='n': s+='\n'
                elif c=='\n':
                    j+=2
                    while src[j].isspace(): j+=1
                    continue
                else: s+={'\\':'\\','"':'"','0':'\0',"'":"'"}.get(c,'?'+c)
                j+=2
            else: s+=src[j]; j+=1
        lits.append((src[:i].count('\n')+1,s)); i=j+1; continue
    if src[i]=="'" : 
        m=re.match(r"'(\\.|[^'])'",src[i:])
        if m: i+=m.end(); continue
    i+=1
glits=set()
for m in re.finditer(r'"((?:[^"]|"")*)"',gen): glits.add(m.group(1).replace('""','"'))
alltext='\x01'.join(glits)
for ln,l in lits:
    parts=re.split(r'(?<!\{)\{[a-z_0-9:?#]*\}(?!\})',l.replace('{{','\x02').replace('}}','\x03'))
    for p in parts:
        p=p.replace('\x02','{').replace('\x03','}')
        if not p.strip(): continue
        if p not in glits:
            # allow pieces
            if p in alltext: print('SUB',ln,repr(p)[:80])
            else: print('MISSING',ln,repr(p)[:300])
