#!/usr/bin/env python3
"""Writes rocq/theories/FlattenModel.v (the field-wise merge is repetitive)."""
import os
here = os.path.dirname(os.path.abspath(__file__))
# field, kind; the kinds are the ways pkg/crd/flatten.go:74-164 treats a field
F = [("k_id","str"),("k_schema_uri","str"),("k_ref","ptr"),("k_desc","doc"),("k_type","type"),("k_format","str"),
 ("k_title","doc"),("k_default","ptr"),("k_maximum","ptr"),("k_excl_max","bool"),("k_minimum","ptr"),("k_excl_min","bool"),
 ("k_max_length","ptr"),("k_min_length","ptr"),("k_pattern","str"),("k_max_items","ptr"),("k_min_items","ptr"),
 ("k_unique_items","bool"),("k_multiple_of","ptr"),("k_enum","slice"),("k_max_props","ptr"),("k_min_props","ptr"),
 ("k_required","req"),("k_ext_docs","doc"),("k_example","doc"),("k_nullable","bool"),("k_x_preserve","last"),
 ("k_x_embedded","bool"),("k_x_int_or_string","bool"),("k_x_list_map_keys","slice"),("k_x_list_type","ptr"),
 ("k_x_map_type","last"),("k_x_validations","cel")]
def dst(f,k):
    a="(%s d) (%s s)"%(f,f)
    return {"str":"keep_str "+a,"ptr":"keep_ptr "+a,"slice":"keep_slice "+a,"bool":"%s d || %s s"%(f,f),"doc":"%s d"%f,
      "type":"keep_type "+a,"req":"%s d ++ %s s"%(f,f),"last":"last_ptr "+a,"cel":"%s s ++ %s d"%(f,f)}[k]
def rem(f,k,w):
    a="(%s d) (%s s)"%(f,f)
    z={"str":'""',"ptr":"None","slice":"[]","bool":"false","type":'""',"req":"[]","last":"None","cel":"[]"}
    if k=="doc": return {"k_desc":'""',"k_title":'""',"k_ext_docs":"None","k_example":"None"}[f]
    if k in("str","ptr","slice"): return "%s_%s "%(w,k)+a
    return z[k]
def flag(f,k):
    a="(%s d) (%s s)"%(f,f)
    if k in("str","ptr","slice"): return "clash_%s "%k+a
def mk(parts): return "  mkKw "+"\n       ".join("(%s)"%p for p in parts)+"."
out = open(os.path.join(here,"flatten_head.v.in")).read()
out = out.replace("@DST@",mk([dst(f,k) for f,k in F])).replace("@DREM@",mk([rem(f,k,"drem") for f,k in F])).replace("@SREM@",mk([rem(f,k,"srem") for f,k in F]))
out = out.replace("@FLAG@","  "+"\n  || ".join(x for x in (flag(f,k) for f,k in F) if x)+".")
open(os.path.join(here,"..","rocq","theories","FlattenModel.v"),"w").write(out)
