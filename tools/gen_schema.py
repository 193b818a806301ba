fields=[("id","string",'""'),("schema_uri","string",'""'),("ref","option string","None"),("desc","string",'""'),("type","string",'""'),("format","string",'""'),("title","string",'""'),
("default","option json","None"),("maximum","option Q","None"),("excl_max","bool","false"),("minimum","option Q","None"),("excl_min","bool","false"),
("max_length","option Z","None"),("min_length","option Z","None"),("pattern","string",'""'),("max_items","option Z","None"),("min_items","option Z","None"),("unique_items","bool","false"),
("multiple_of","option Q","None"),("enum","list json","[]"),("max_props","option Z","None"),("min_props","option Z","None"),("required","list string","[]"),
("ext_docs","option (string * string)","None"),("example","option json","None"),("nullable","bool","false"),("x_preserve","option bool","None"),("x_embedded","bool","false"),("x_int_or_string","bool","false"),
("x_list_map_keys","list string","[]"),("x_list_type","option string","None"),("x_map_type","option string","None"),("x_validations","list vrule","[]")]
rec=[("items","option (option schema * list schema)","None"),("allOf","list schema","[]"),("oneOf","list schema","[]"),("anyOf","list schema","[]"),("not","option schema","None"),
("props","list (string * schema)","[]"),("addl","option (bool * option schema)","None"),("patprops","list (string * schema)","[]"),("deps","list (string * (option schema * list string))","[]"),
("addl_items","option (bool * option schema)","None"),("defs","list (string * schema)","[]")]
o=[]
o.append('''(** * The schema tree: apiext.JSONSchemaProps as pkg/crd uses it. Definitions only. *)

From Coq Require Import List String ZArith QArith Bool.
From Verif Require Import GoLib.
Import ListNotations.
Open Scope string_scope.
Open Scope list_scope.

(** JSON values. apiext.JSON holds their text (pkg/crd/markers/validation.go marshals values into it); the model
    holds the value. Numbers are rationals: NaN and infinities are not JSON. *)
Inductive json :=
| JNull | JBool (b : bool) | JNum (q : Q) | JStr (s : string)
| JArr (l : list json) | JObj (l : list (string * json)).

(** apiext.ValidationRule, pkg/crd/markers/validation.go:346-353 (all its fields are strings or flags). *)
Record vrule := mkVrule { vr_rule : string; vr_message : string; vr_messageExpr : string; vr_reason : string;
                          vr_fieldPath : string; vr_optionalOldSelf : option bool }.

(** The keywords of apiext.JSONSchemaProps that hold no subschema. Go nil pointers are [None], nil slices and
    nil maps are []; a non-nil empty slice is not distinguished from nil. *)
Record kw := mkKw {''')
o.append(";\n".join("  k_%s : %s"%(n,t) for n,t,_ in fields)+" }.\n")
o.append("Definition kw0 : kw :=\n  mkKw "+" ".join(d for _,_,d in fields)+".\n")
o.append('''(** apiext.JSONSchemaProps; the recursive fields in the order pkg/crd/schema_visitor.go:81-103 walks them.
    JSONSchemaPropsOrArray is (Schema, JSONSchemas), JSONSchemaPropsOrBool is (Allows, Schema),
    JSONSchemaPropsOrStringArray is (Schema, Property). *)
Inductive schema := Sch {
  s_kw : kw;''')
o.append(";\n".join("  s_%s : %s"%(n,t) for n,t,_ in rec)+" }.\n")
o.append("(** The zero value apiext.JSONSchemaProps{}, pkg/crd/flatten.go:63. *)\nDefinition schema0 : schema := Sch kw0 "+" ".join(d for _,_,d in rec)+".\n")
o.append("(** Field assignment, [schema.Field = v]. *)")
allk=[n for n,_,_ in fields]
for n,t,_ in fields:
    args=" ".join("v" if m==n else "(k_%s k)"%m for m in allk)
    o.append("Definition set_k_%s (k : kw) (v : %s) : kw :=\n  mkKw %s."%(n,t,args))
o.append("Definition with_kw (s : schema) (k : kw) : schema :=\n  Sch k %s."%(" ".join("(s_%s s)"%m for m,_,_ in rec)))
for n,t,_ in rec:
    args=" ".join("v" if m==n else "(s_%s s)"%m for m,_,_ in rec)
    o.append("Definition set_%s (s : schema) (v : %s) : schema :=\n  Sch (s_kw s) %s."%(n,t,args))
for n,t,_ in fields:
    o.append("Definition set_%s (s : schema) (v : %s) : schema := with_kw s (set_k_%s (s_kw s) v)."%(n,t,n))
o.append('''
(** Direct children, in the order pkg/crd/schema_visitor.go:81-103 walks them (maps in list order). *)
Definition opt_list {A : Type} (o : option A) : list A := match o with Some x => [x] | None => [] end.
Definition items_list (i : option (option schema * list schema)) : list schema :=
  match i with Some (o, l) => opt_list o ++ l | None => [] end.
Definition orbool_list (a : option (bool * option schema)) : list schema :=
  match a with Some (_, o) => opt_list o | None => [] end.
Definition children (s : schema) : list schema :=
  items_list (s_items s) ++ s_allOf s ++ s_oneOf s ++ s_anyOf s ++ opt_list (s_not s) ++
  map snd (s_props s) ++ orbool_list (s_addl s) ++ map snd (s_patprops s) ++
  flat_map (fun d => opt_list (fst (snd d))) (s_deps s) ++ orbool_list (s_addl_items s) ++ map snd (s_defs s).
''')
open('/verif/rocq/theories/SchemaModel.v','w').write("\n".join(o))
