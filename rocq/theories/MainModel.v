(** * controller-gen as a whole: cmd/controller-gen/main.go. Definitions only.

    The command of cobra with its flags, the options (GenallModel), the roots, the run and the exit code.  What cobra makes of the arguments
    is given.  So is loading of roots (LoadRootsWithConfig with the
    build tags) and the registration of the generators' markers, which C48 and C17 are about.

    Not modelled: the texts; that writing to the terminal may fail. *)

From Coq Require Import List String Ascii Bool Arith.
From Verif Require Import GoLib RegistryModel GenallModel.
Import ListNotations.
Open Scope string_scope.
Open Scope list_scope.

(** The flags: --help, --version, how many -h, how many -w, --load-build-tags, and the other arguments; cmd/controller-gen/main.go:130-133 and :195-199 *)
Record flags := mkFlags { f_help : bool; f_version : bool; f_h : nat; f_w : nat; f_tags : list string; f_options : list string }.

(** The levels of help, cmd/controller-gen/main.go:270-276 *)
Inductive level := Summary | Detailed | Full | Json.
(** cmd/controller-gen/main.go:238-268: what is printed at a level; [None]: nothing *)
Definition level_of (n : nat) : option level :=
  match n with 1 => Some Summary | 2 => Some Detailed | 3 => Some Full | 4 => Some Json | _ => None end.

(** What is printed: the version; the usage with the options; the markers of generators; the error by cobra; an error of a generator; the
    last line. cmd/controller-gen/main.go:160-222 *)
Inductive event (G : Type) := PVersion | PUsage (options : option level) | PMarkers (l : option level) (gens : list G) | PError | PGenerator (text : string) | PHint.
Arguments PVersion {G}.
Arguments PUsage {G}.
Arguments PMarkers {G}.
Arguments PError {G}.
Arguments PGenerator {G}.
Arguments PHint {G}.

Section Main.
Variables G D : Type.
Variable parse : D -> string -> option (optval G).
Variable reg : registry D.
Variable o : list (string * rule) -> list (string * rule).
Variable pjoin : string -> string -> string.
Variable o1 : list (string * nat) -> list (string * nat).
Variable o2 : list (nat * rule) -> list (nat * rule).
Variable W pkg : Type.
Variable act : G -> option rule -> bool -> W -> W * option string.
Variable needs_check : G -> bool.
Variable errors_of : W -> pkg -> list bool.
Variable visit : W -> list pkg -> list pkg.
(** LoadRootsWithConfig: the packages it makes are part of the world. *)
Variable load : list string -> list string -> W -> W * option (list pkg).
(** Generators.RegisterMarkers *)
Variable registers : list G -> bool.

(** What RunE returns: nil, an error, an error without usage (noUsageError); or it panics. cmd/controller-gen/main.go:127 and :160-192 *)
Inductive returned := Nil | Failed | FailedNoUsage | Panicked.

(** ForRootsWithConfig and the rest of FromOptionsWithConfig, pkg/genall/options.go:81-109 and pkg/genall/genall.go:224-247 *)
Definition from_options (tags opts : list string) (w : W) : W * outcome (proto G * list pkg * rules) :=
  match proto_from_options G D parse o reg opts with
  | Err => (w, Err)
  | Panic => (w, Panic)
  | Ok p =>
      match load tags (p_paths p) w with
      | (w', None) => (w', Err)
      | (w', Some roots) => if registers (p_gens p) then (w', Ok (p, roots, runtime_rules G pjoin o1 o2 p)) else (w', Err)
      end
  end.

(** RunE, cmd/controller-gen/main.go:160-192; the usage is written with the level of -h *)
Definition run_e (f : flags) (w : W) : W * list (event G) * returned :=
  if f_version f then (w, [PVersion], Nil)
  else if Nat.ltb 0 (f_h f) then (w, [PUsage (level_of (f_h f))], Nil)
  else if Nat.ltb 0 (f_w f) then
    (* printMarkerDocs, cmd/controller-gen/main.go:227-236 *)
    match proto_from_options G D parse o reg (f_options f) with
    | Err => (w, [], Failed)
    | Panic => (w, [], Panicked)
    | Ok p => if registers (p_gens p) then (w, [PMarkers (level_of (f_w f)) (p_gens p)], Nil) else (w, [], Failed)
    end
  else
    match from_options (f_tags f) (f_options f) w with
    | (w1, Err) => (w1, [], Failed)
    | (w1, Panic) => (w1, [], Panicked)
    | (w1, Ok (p, roots, rs)) =>
        match p_gens p with
        | [] => (w1, [], Failed)
        | _ =>
            match run G W act needs_check pkg errors_of visit rs (combine (seq 0 (List.length (p_gens p))) (p_gens p)) roots w1 with
            | (w2, texts, had) => (w2, map PGenerator texts, if had then FailedNoUsage else Nil)
            end
        end
    end.

(** Execute and main, cmd/controller-gen/main.go:200-223: the exit code; 2 after a panic. The usage in main is at the level of -h, or the summary. *)
Definition usage_level (h : nat) : option level := level_of (if Nat.eqb h 0 then 1 else h).
(** cmd/controller-gen/main.go:129-223; the arguments: flags, or after how many -h the flags do not parse *)
Definition main (args : nat + flags) (w : W) : W * list (event G) * nat :=
  match args with
  | inl h => (w, [PError; PUsage (usage_level h); PHint], 1)
  | inr f =>
      if f_help f then (w, [PUsage (usage_level (f_h f))], 0)
      else
        match run_e f w with
        | (w', es, Nil) => (w', es, 0)
        | (w', es, Failed) => (w', es ++ [PError; PUsage (usage_level (f_h f)); PHint], 1)
        | (w', es, FailedNoUsage) => (w', es ++ [PError; PHint], 1)
        | (w', es, Panicked) => (w', es, 2)
        end
  end.
End Main.
