(** * The text of the methods that the object generator writes

    pkg/deepcopy/traverse.go once more, as in DeepModel function by function, but with the lines as they are written. Definitions only.

    Simplified: the alias of another package is given ([qualifier]): it is the one that the finished list of imports has, as NeedImport answers the
    same each time it is asked (C30). A line is without its newline. What String says of a type that has no name is a parameter. *)
From Coq Require Import List String Ascii Bool Arith.
From Verif Require Import GoLib DeepModel ImportModel ObjectModel CopiesModel.
Import ListNotations.
Open Scope string_scope.
Open Scope list_scope.

(** The lines written, pkg/deepcopy/traverse.go:42-54; None: not within the steps *)
Definition text := option (list string).
(** Line and Linef, pkg/deepcopy/traverse.go:46-54 *)
Definition line (l : string) : text := Some [l].
(** No lines: errors and cases with nothing to do, pkg/deepcopy/traverse.go:284-565 *)
Definition no_line : text := Some [].
(** One call after the other, pkg/deepcopy/traverse.go:284-565 *)
Definition and (a b : text) : text := match a, b with Some a, Some b => Some (a ++ b) | _, _ => None end.
(** If, pkg/deepcopy/traverse.go:58-62 *)
Definition t_if (setup : string) (b : text) : text := and (line ("if " ++ setup ++ " {")) (and b (line "}")).
(** IfElse, pkg/deepcopy/traverse.go:66-72 *)
Definition t_ifelse (setup : string) (b b' : text) : text := and (line ("if " ++ setup ++ " {")) (and b (and (line "} else {") (and b' (line "}")))).
(** For, pkg/deepcopy/traverse.go:76-80 *)
Definition t_for (setup : string) (b : text) : text := and (line ("for " ++ setup ++ " {")) (and b (line "}")).

Section Text.
  Variable decls : string -> decl.
  Variable qualifier : string -> option string.
  Variable bare : string -> string.
  Variable field_name : string -> nat -> string.
  Variable string_of : ty -> string.

  (** Syntax, pkg/deepcopy/traverse.go:169-207 *)
  Fixpoint syntax_text (t : ty) : string :=
    match t with
    | TBasic _ s => s
    | TNamed n => match qualifier n with Some a => (a ++ "." ++ bare n)%string | None => bare n end
    | TPtr e => ("*" ++ syntax_text e)%string
    | TSlice e => ("[]" ++ syntax_text e)%string
    | TMap k e => ("map[" ++ syntax_text k ++ "]" ++ syntax_text e)%string
    | TStruct _ | TOther _ => string_of t
    end.

  Section Step.
    (** The type whose methods are written: its fields are the ones named in pkg/deepcopy/traverse.go:470-505. *)
    Variable self : string.
    Variable n : nat.
    Variable block : ty -> text.

    (** The body of the loop, pkg/deepcopy/traverse.go:342-401 *)
    Definition map_body_text (e : ty) : text :=
      if has_any decls e then
        match result_ptr decls n e (has_copy decls e) with
        | None => None
        | Some in_is_ptr =>
            let in_is_ptr := match has_copy decls e with Some p => p | None => in_is_ptr end in
            if Bool.eqb in_is_ptr (is_ptr e) then line "(*out)[key] = val.DeepCopy()"
            else if is_ptr e then and (line "{") (and (line "x := val.DeepCopy()") (and (line "(*out)[key] = &x") (line "}")))
            else line "(*out)[key] = *val.DeepCopy()"
        end
      else
        match shallow decls n e with
        | None => None
        | Some true => line "(*out)[key] = val"
        | Some false =>
            if by_ref (under decls e) then
              and (line ("var outVal " ++ syntax_text (under decls e)))
                (and (t_ifelse "val == nil" (line "(*out)[key] = nil")
                        (and (line "inVal := (*in)[key]") (and (line "in, out := &inVal, &outVal") (block e))))
                     (line "(*out)[key] = outVal"))
            else match under decls e with
                 | TStruct _ => line "(*out)[key] = *val.DeepCopy()"
                 | _ => no_line
                 end
        end.

    (** genMapDeepCopy, pkg/deepcopy/traverse.go:330-402 *)
    Definition map_text (t k e : ty) : text :=
      match shallow decls n k with
      | None => None
      | Some false => no_line
      | Some true => and (line ("*out = make(" ++ syntax_text t ++ ", len(*in))")) (t_for "key, val := range *in" (map_body_text e))
      end.

    (** genSliceDeepCopy, pkg/deepcopy/traverse.go:406-443 *)
    Definition slice_text (t e : ty) : text :=
      and (line ("*out = make(" ++ syntax_text t ++ ", len(*in))"))
        (if has_any decls e then t_for "i := range *in" (line "(*in)[i].DeepCopyInto(&(*out)[i])")
         else match shallow decls n (under decls e) with
              | None => None
              | Some true => line "copy(*out, *in)"
              | Some false =>
                  t_for "i := range *in"
                    (if by_ref (under decls e) || has_any decls e then t_if "(*in)[i] != nil" (and (line "in, out := &(*in)[i], &(*out)[i]") (block e))
                     else match under decls e with
                          | TStruct _ => line "(*in)[i].DeepCopyInto(&(*out)[i])"
                          | _ => no_line
                          end)
              end).

    (** One round of the loop of genStructDeepCopy, pkg/deepcopy/traverse.go:450-514, and whether it is left *)
    Definition field_text (i : nat) (f : ty) : option (list string * bool) :=
      let x := field_name self i in
      let go (r : text) : option (list string * bool) := match r with Some l => Some (l, false) | None => None end in
      let delegate := t_if ("in." ++ x ++ " != nil") (and (line ("in, out := &in." ++ x ++ ", &out." ++ x)) (block f)) in
      if has_any decls f then
        match result_ptr decls n f (has_copy decls f) with
        | None => None
        | Some in_is_ptr =>
            go (if is_ptr f then delegate
                else if Bool.eqb in_is_ptr (is_ptr f) then line ("out." ++ x ++ " = in." ++ x ++ ".DeepCopy()")
                else line ("in." ++ x ++ ".DeepCopyInto(&out." ++ x ++ ")"))
        end
      else if by_ref (under decls f) then go delegate
      else match under decls f with
           | TBasic true _ => Some ([], true)
           | TBasic false _ => go no_line
           | TStruct _ =>
               match shallow decls n f with
               | None => None
               | Some true => go (line ("out." ++ x ++ " = in." ++ x))
               | Some false => go (line ("in." ++ x ++ ".DeepCopyInto(&out." ++ x ++ ")"))
               end
           | _ => Some ([], true)
           end.
    (** The loop, pkg/deepcopy/traverse.go:450-514 *)
    Fixpoint fields_text (i : nat) (fs : list ty) : text :=
      match fs with
      | [] => no_line
      | f :: fs' =>
          match field_text i f with
          | None => None
          | Some (l, true) => Some l
          | Some (l, false) => and (Some l) (fields_text (S i) fs')
          end
      end.
    (** genStructDeepCopy, pkg/deepcopy/traverse.go:447-515 *)
    Definition struct_text (fs : list ty) : text := and (line "*out = *in") (fields_text 0 fs).

    (** genPointerDeepCopy, pkg/deepcopy/traverse.go:519-565 *)
    Definition pointer_text (e : ty) : text :=
      if has_any decls e then
        match result_ptr decls n e (has_copy decls e) with
        | None => None
        | Some out_needs_ptr =>
            let out_needs_ptr := match has_copy decls e with Some p => p | None => out_needs_ptr end in
            if out_needs_ptr then line "*out = (*in).DeepCopy()"
            else and (line "x := (*in).DeepCopy()") (line "*out = &x")
        end
      else
        match shallow decls n (under decls e) with
        | None => None
        | Some true => and (line ("*out = new(" ++ syntax_text e ++ ")")) (line "**out = **in")
        | Some false =>
            if by_ref (under decls e) then
              and (line ("*out = new(" ++ syntax_text (under decls e) ++ ")"))
                (t_if "**in != nil" (and (line "in, out := *in, *out") (block (under decls e))))
            else match under decls e with
                 | TStruct _ => and (line ("*out = new(" ++ syntax_text e ++ ")")) (line "(*in).DeepCopyInto(*out)")
                 | _ => no_line
                 end
        end.

    (** genDeepCopyIntoBlock, pkg/deepcopy/traverse.go:284-326 *)
    Definition step_text (t : ty) : text :=
      let last := under decls t in
      if negb (is_ptr last) && has_any decls t then line "*out = in.DeepCopy()"
      else match last with
           | TBasic true _ => no_line
           | TBasic false _ => and (match has_copy decls t with Some _ => line "*out = in.DeepCopy()" | None => no_line end) (line "*out = *in")
           | TMap k e => map_text t k e
           | TSlice e => slice_text t e
           | TStruct fs => struct_text fs
           | TPtr e => pointer_text e
           | TNamed _ | TOther _ => no_line
           end.
  End Step.

  (** genDeepCopyIntoBlock, pkg/deepcopy/traverse.go:284-326; for the type itself the name is info.Name (:254), which is how a local type is
      called anyway. *)
  Fixpoint block_text (self : string) (n : nat) (t : ty) : text :=
    match n with
    | 0 => None
    | S n' => step_text self n' (block_text self n') t
    end.

  (** DeepCopyInto, pkg/deepcopy/traverse.go:235-260 *)
  Definition into_text (steps : nat) (name : string) : text :=
    let ptr := ptr_receiver decls (TNamed name) in
    and (line "// DeepCopyInto is an autogenerated deepcopy function, copying the receiver, writing into out. in must be non-nil.")
    (and (if ptr then line ("func (in *" ++ name ++ ") DeepCopyInto(out *" ++ name ++ ") {")
          else and (line ("func (in " ++ name ++ ") DeepCopyInto(out *" ++ name ++ ") {")) (line "{in := &in"))
    (and (match d_copy (decls name) with
          | Some true => and (line "clone := in.DeepCopy()") (line "*out = *clone")
          | Some false => line "*out = in.DeepCopy()"
          | None => block_text name steps (TNamed name)
          end)
    (and (if ptr then no_line else line "}") (line "}")))).

  (** ptrDeepCopy and bareDeepCopy, pkg/deepcopy/traverse.go:801-820 *)
  Definition copy_text (name : string) (ptr : bool) : list string :=
    let t := if ptr then ("*" ++ name)%string else name in
    [""; ("// DeepCopy is an autogenerated deepcopy function, copying the receiver, creating a new " ++ name ++ ".")%string;
     ("func (in " ++ t ++ ") DeepCopy() " ++ t ++ " {")%string;
     "	if in == nil { return nil }";
     ("	out := new(" ++ name ++ ")")%string;
     "	in.DeepCopyInto(out)";
     (if ptr then "	return out" else "	return *out");
     "}"; ""].
  (** ptrDeepCopyObj and bareDeepCopyObj, pkg/deepcopy/traverse.go:823-838 *)
  Definition object_text (name : string) (ptr : bool) (alias : string) : list string :=
    ["";  "// DeepCopyObject is an autogenerated deepcopy function, copying the receiver, creating a new runtime.Object.";
     ("func (in " ++ (if ptr then "*" else "") ++ name ++ ") DeepCopyObject() " ++ alias ++ ".Object {")%string] ++
    (if ptr then ["	if c := in.DeepCopy(); c != nil {"; "		return c"; "	}"; "	return nil"] else ["	return in.DeepCopy()"]) ++
    ["}"; ""].

  (** GenerateMethodsFor, pkg/deepcopy/traverse.go:219-280; [object]: the alias of the package of runtime.Object, if DeepCopyObject is asked for *)
  Definition methods_text (steps : nat) (name : string) (object : option string) : text :=
    let ptr := ptr_receiver decls (TNamed name) in
    and (if d_into (decls name) then no_line else into_text steps name)
        (match d_copy (decls name) with
         | Some _ => no_line
         | None => Some (copy_text name ptr ++ match object with Some a => object_text name ptr a | None => [] end)
         end).
End Text.

(** The end of each line, pkg/deepcopy/traverse.go:46-54 *)
Fixpoint unlines (ls : list string) : string := match ls with [] => "" | l :: ls => (l ++ newline ++ unlines ls)%string end.
(** ImportSpecs, pkg/deepcopy/traverse.go:143-157. %q of a path: paths are without quotes, backslashes and characters that cannot be printed. *)
Definition spec_text (i : option string * string) : string :=
  match fst i with None => ("""" ++ snd i ++ """")%string | Some a => (a ++ " """ ++ snd i ++ """")%string end.
(** The imports in writeHeader, pkg/deepcopy/gen.go:186-190; strings.Join *)
Definition imports_text (is : list (option string * string)) : string :=
  ("import (" ++ newline ++ join newline (map spec_text is) ++ newline ++ ")" ++ newline ++ newline)%string.
(** The file before format.Source, pkg/deepcopy/gen.go:247-252 *)
Definition source_text (header package : string) (is : list (option string * string)) (methods : list (list string)) : string :=
  (top_text header package ++ imports_text is ++ String.concat "" (map unlines methods))%string.

(** writeMethods over all types, pkg/deepcopy/gen.go:264-277; None: not within the steps *)
Fixpoint all_lines (l : list text) : option (list (list string)) :=
  match l with
  | [] => Some []
  | t :: l => match t, all_lines l with Some ls, Some r => Some (ls :: r) | _, _ => None end
  end.
(** The source of a file, pkg/deepcopy/gen.go:243-252 and pkg/deepcopy/gen.go:264-277 *)
Definition file_source (decls : string -> decl) (qualifier : string -> option string) (bare : string -> string) (field_name : string -> nat -> string) (string_of : ty -> string)
    (word_text : word -> string) (steps : nat) (header package : string) (f : file) : option string :=
  option_map (source_text header package (map (fun i => (option_map word_text (fst i), word_text (snd i))) (f_imports f)))
    (all_lines (map (fun nm => methods_text decls qualifier bare field_name string_of steps (fst nm) (option_map (fun o => word_text (snd o)) (w_object (snd nm)))) (f_methods f))).
(** The alias that the file has for the package of a type: what NeedImport answers, pkg/deepcopy/traverse.go:196-206, when all is written *)
Definition qualifier_in (home : string -> place) (name_of : word -> option word) (word_text : word -> string) (f : file) (n : string) : option string :=
  match home n with
  | Foreign p =>
      match find (fun i => word_eqb (snd i) (no_vendor p)) (f_imports f) with
      | Some (Some a, _) => Some (word_text a)
      | Some (None, q) => option_map word_text (name_of q)
      | None => None
      end
  | _ => None
  end.
