(** * Model of type-scaffold: pkg/typescaffold and cmd/type-scaffold. Definitions only.

    The template is given as the text in the repository; what text/template does with it is modelled for the actions that occur in it.
    flect and strings.ToLower are parameters. *)
From Coq Require Import List String Ascii Bool.
From Verif Require Import GoLib.
Import ListNotations.
Open Scope string_scope.
Open Scope list_scope.

(** ** Options *)
(** Resource, pkg/typescaffold/resource.go:27-36 *)
Record sresource := mkSResource { sr_namespaced : bool; sr_kind : string; sr_resource : string }.
(** ScaffoldOptions, pkg/typescaffold/scaffold.go:87-91 *)
Record options := mkOptions { o_resource : sresource; o_help : string; o_clients : bool }.
(** The errors of pkg/typescaffold/resource.go:39-53 *)
Inductive verr := VEmpty | VCase (expected was : string).

Section Validate.
  (** flect.Pluralize, flect.Pascalize, strings.ToLower *)
  Variables pluralize pascalize lower : string -> string.
  (** Resource.Validate, pkg/typescaffold/resource.go:39-53: the resource as it is then, and an error *)
  Definition validate_resource (r : sresource) : sresource * option verr :=
    if String.eqb (sr_kind r) "" then (r, Some VEmpty)
    else
      let r' := if String.eqb (sr_resource r) "" then mkSResource (sr_namespaced r) (sr_kind r) (pluralize (lower (sr_kind r))) else r in
      if negb (String.eqb (sr_kind r') (pascalize (sr_kind r'))) then (r', Some (VCase (pascalize (sr_kind r')) (sr_kind r'))) else (r', None).
  (** ScaffoldOptions.Validate, pkg/typescaffold/scaffold.go:94-97 *)
  Definition validate (o : options) : options * option verr :=
    let '(r, e) := validate_resource (o_resource o) in (mkOptions r (o_help o) (o_clients o), e).
End Validate.

(** ** text/template *)
(** The conditions and actions of pkg/typescaffold/scaffold.go:26-76 *)
Inductive tcond := WhenHelp | WhenClients | UnlessNamespaced | ClientsUnlessNamespaced.
(** The actions of pkg/typescaffold/scaffold.go:26-76 *)
Inductive action := AKind | AResource | ADot | AIf (c : tcond) | ARange | AEnd.
(** The texts of the actions in pkg/typescaffold/scaffold.go:26-76, without spaces around *)
Definition action_of (s : string) : option action :=
  if String.eqb s ".Resource.Kind" then Some AKind
  else if String.eqb s ".Resource.Resource" then Some AResource
  else if String.eqb s "." then Some ADot
  else if String.eqb s "if .AdditionalHelp" then Some (AIf WhenHelp)
  else if String.eqb s "range .AdditionalHelp | SplitLines" then Some ARange
  else if String.eqb s "if .GenerateClients" then Some (AIf WhenClients)
  else if String.eqb s "if not .Resource.Namespaced" then Some (AIf UnlessNamespaced)
  else if String.eqb s "if and (.GenerateClients) (not .Resource.Namespaced)" then Some (AIf ClientsUnlessNamespaced)
  else if String.eqb s "end" then Some AEnd
  else None.

(** strings.Index and slices, as in text/template/parse: what is before and after the first [sep]. For pkg/typescaffold/scaffold.go:81. *)
Fixpoint cut_at (sep s : string) : option (string * string) :=
  if has_prefix sep s then Some ("", substring (String.length sep) (String.length s - String.length sep) s)
  else match s with EmptyString => None | String c s' => match cut_at sep s' with Some (a, b) => Some (String c a, b) | None => None end end.
(** The spaces text/template trims, for pkg/typescaffold/scaffold.go:81 *)
Definition is_blank (c : ascii) : bool := let n := nat_of_ascii c in Nat.eqb n 32 || Nat.eqb n 9 || Nat.eqb n 13 || Nat.eqb n 10.
(** Left trimming; for pkg/typescaffold/scaffold.go:81 *)
Fixpoint trim_left (s : string) : string := match s with String c s' => if is_blank c then trim_left s' else s | EmptyString => EmptyString end.
(** Right trimming, which "{{- " asks for; for pkg/typescaffold/scaffold.go:81 *)
Fixpoint trim_right (s : string) : string :=
  match s with EmptyString => EmptyString | String c s' => match trim_right s' with EmptyString => if is_blank c then EmptyString else String c EmptyString | t => String c t end end.

(** Texts and actions; for pkg/typescaffold/scaffold.go:81 *)
Inductive item := IText (s : string) | IAct (a : action).
(** The lexer of text/template, for templates without " -}}", comments and quotes in actions. For pkg/typescaffold/scaffold.go:81. *)
Fixpoint lex (fuel : nat) (s : string) : option (list item) :=
  match fuel with
  | O => None
  | S fuel' =>
      match cut_at "{{" s with
      | None => Some [IText s]
      | Some (a, rest) =>
          let trims := has_prefix "- " rest in
          let rest' := if trims then substring 2 (String.length rest - 2) rest else rest in
          match cut_at "}}" rest' with
          | None => None
          | Some (act, after) =>
              match action_of (trim_right (trim_left act)), lex fuel' after with
              | Some x, Some l => Some (IText (if trims then trim_right a else a) :: IAct x :: l)
              | _, _ => None
              end
          end
      end
  end.

(** The tree of a template; for pkg/typescaffold/scaffold.go:81 *)
Inductive node := NText (s : string) | NKind | NResource | NDot | NIf (c : tcond) (body : list node) | NRange (body : list node).
(** The parser of text/template: [cur] are the nodes so far, last first; [stack] the conditions and ranges open, with the nodes before
    them. For pkg/typescaffold/scaffold.go:81. *)
Fixpoint build (l : list item) (cur : list node) (stack : list (option tcond * list node)) : option (list node) :=
  match l with
  | [] => match stack with [] => Some (rev cur) | _ => None end
  | IText s :: l' => build l' (if String.eqb s "" then cur else NText s :: cur) stack
  | IAct a :: l' =>
      match a with
      | AKind => build l' (NKind :: cur) stack
      | AResource => build l' (NResource :: cur) stack
      | ADot => build l' (NDot :: cur) stack
      | AIf c => build l' [] ((Some c, cur) :: stack)
      | ARange => build l' [] ((None, cur) :: stack)
      | AEnd => match stack with
                | [] => None
                | (Some c, before) :: stack' => build l' (NIf c (rev cur) :: before) stack'
                | (None, before) :: stack' => build l' (NRange (rev cur) :: before) stack'
                end
      end
  end.
(** template.Must(... .Parse(raw)), pkg/typescaffold/scaffold.go:81: None is a panic when the program starts *)
Definition parse_template (raw : string) : option (list node) := match lex (String.length raw) raw with Some l => build l [] [] | None => None end.

(** Execute, pkg/typescaffold/scaffold.go:100-102, and SplitLines, :78 *)
Section Execute.
  Variable o : options.
  (** The conditions of pkg/typescaffold/scaffold.go:26-76 *)
  Definition test (c : tcond) : bool :=
    match c with
    | WhenHelp => negb (String.eqb (o_help o) "")
    | WhenClients => o_clients o
    | UnlessNamespaced => negb (sr_namespaced (o_resource o))
    | ClientsUnlessNamespaced => o_clients o && negb (sr_namespaced (o_resource o))
    end.
  (** pkg/typescaffold/scaffold.go:100-102 *)
  Fixpoint exec (dot : string) (n : node) : string :=
    match n with
    | NText s => s
    | NKind => sr_kind (o_resource o)
    | NResource => sr_resource (o_resource o)
    | NDot => dot
    | NIf c body => if test c then String.concat "" (map (exec dot) body) else ""
    | NRange body => String.concat "" (map (fun line => String.concat "" (map (exec line) body)) (split_char (ascii_of_nat 10) (o_help o)))
    end.
End Execute.

(** pkg/typescaffold/scaffold.go:26-76, as it is there *)
Definition types_template_raw : string :=
"// {{.Resource.Kind}}Spec defines the desired state of {{.Resource.Kind}}
type {{.Resource.Kind}}Spec struct {
	// INSERT ADDITIONAL SPEC FIELDS -- desired state of cluster
{{- if .AdditionalHelp }}
{{- range .AdditionalHelp | SplitLines }}
	// {{.}}
{{- end }}
{{- end }}
}

// {{.Resource.Kind}}Status defines the observed state of {{.Resource.Kind}}.
// It should always be reconstructable from the state of the cluster and/or outside world.
type {{.Resource.Kind}}Status struct {
	// INSERT ADDITIONAL STATUS FIELDS -- observed state of cluster
{{- if .AdditionalHelp }}
{{- range .AdditionalHelp | SplitLines }}
	// {{.}}
{{- end }}
{{- end }}
}

// +k8s:deepcopy-gen:interfaces=k8s.io/apimachinery/pkg/runtime.Object
{{- if .GenerateClients }}
// +genclient
{{- if not .Resource.Namespaced }}
// +genclient:nonNamespaced
{{- end }}
{{- end }}

// {{.Resource.Kind}} is the Schema for the {{ .Resource.Resource }} API
// +k8s:openapi-gen=true
type {{.Resource.Kind}} struct {
	metav1.TypeMeta   `json:"",inline""`
	metav1.ObjectMeta `json:""metadata,omitempty""`

	Spec   {{.Resource.Kind}}Spec   `json:""spec,omitempty""`
	Status {{.Resource.Kind}}Status `json:""status,omitempty""`
}

// +k8s:deepcopy-gen:interfaces=k8s.io/apimachinery/pkg/runtime.Object
{{- if and (.GenerateClients) (not .Resource.Namespaced) }}
// +genclient:nonNamespaced
{{- end }}

// {{.Resource.Kind}}List contains a list of {{.Resource.Kind}}
type {{.Resource.Kind}}List struct {
	metav1.TypeMeta `json:"",inline""`
	metav1.ListMeta `json:""metadata,omitempty""`
	Items           []{{ .Resource.Kind }} `json:""items""`
}
".

(** Scaffold, pkg/typescaffold/scaffold.go:100-102. None: the program does not start. *)
Definition scaffold (o : options) : option string :=
  match parse_template types_template_raw with Some t => Some (String.concat "" (map (exec o "") t)) | None => None end.

(** ** The command *)
(** How cmd/type-scaffold/main.go:48-71 ends *)
Inductive sres := SWritten (out : string) | SInvalid (e : verr) | SPanic.
Section Command.
  Variables pluralize pascalize lower : string -> string.
  (** main, cmd/type-scaffold/main.go:26-72: the flags --kind, --resource and --namespaced with their defaults; cobra is not modelled *)
  Definition command (kind : string) (resource : option string) (namespaced : option bool) : sres :=
    let r := mkSResource (match namespaced with Some b => b | None => true end) kind (match resource with Some s => s | None => "" end) in
    match validate pluralize pascalize lower (mkOptions r "" false) with
    | (_, Some e) => SInvalid e
    | (o, None) => match scaffold o with Some s => SWritten s | None => SPanic end
    end.
End Command.
