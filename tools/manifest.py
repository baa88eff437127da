# writes MANIFEST.json; one line per claim
import json
C=[]
def c(p,status,theorems,note=""):
    C.append({"property":p,"status":status,"theorems":theorems.split(),"note":note})
exec(open('/verif/tools/claims.txt').read())
json.dump({"claims":C},open('/verif/MANIFEST.json','w'),indent=1)
