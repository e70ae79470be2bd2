(** booklitcmd/main.go and booklitcmd/command.go: the command, with its templates, its
    exit status and running itself again with plugins.

    Not modelled: reading the command line (go-flags); profiling; logging; what is
    printed before a page fails, or by a crash ([None] below). *)
From Coq Require Import Ascii String.
From stdpp Require Import base strings list.
From Verif Require Import GoBase Ast Content Section Render Peg Evaluate Collect Html TextRender Json Command
  Templates Tmpl TmplSrc TmplEsc TmplExec Annotate Report.
Local Open Scope string_scope. Local Open Scope list_scope.

(** command.go:21-53, as far as used here. *)
Record command := Cmd {
  c_opt : options;
  c_html : string;              (* --html-templates *)
  c_text : string;              (* --text-templates *)
  c_broken : bool;              (* --allow-broken-references *)
  c_port : nat;                 (* --serve *)
  c_plugins : list string       (* --plugin *)
}.

(** What the command line asks for (main.go:12-31). *)
Inductive request :=
| AskVersion
| AskHelp
| BadFlags (msg : string)
| Run (c : command).

(** Errors of Execute. *)
Inductive trouble :=
| TTemplates               (* LoadTemplates *)
| TBuild (f : failure)
| TListen (msg : string)
| TTemp (msg : string)     (* command.go:207, 228: the temporary directory or file *)
| TInstall (msg : string)
| TStart (msg : string).

(** The rest of the system. *)
Record system := System {
  y_glob : string → list (file string);      (* the template files of a directory *)
  y_version : string;                        (* booklit.Version *)
  y_help : string;                           (* go-flags' help *)
  y_templates : string;                      (* the text of LoadTemplates' error *)
  y_mkdir : string;                          (* the text of os.MkdirAll's error *)
  y_listen : option string;                  (* http.ListenAndServe's error *)
  y_temp : option string;
  y_install : string → string + env;         (* go install, of a source text: its error, or the
                                                program: booklitcmd.Main with these plugins *)
  y_start : option string;                   (* the program cannot be run *)
  y_killed : option files                    (* it is ended by a signal, leaving these files *)
}.

(** command.go:59. *)
Definition with_broken (b : bool) (E : env) : env :=
  Env (e_fs E) (e_registry E) (e_methods E) (e_similar E) b (e_jumps E).

Definition is_html (o : options) : bool := String.eqb (o_text o) "".
Definition bundled (o : options) : tset (list Tmpl.node) := if is_html o then bundled_html else bundled_text.

(** command.go:130-152: the engine's templates. *)
Definition engine_templates (glob : string → list (file string)) (c : command) : option (tset (list Tmpl.node)) :=
  let dir := if is_html (c_opt c) then c_html c else c_text c in
  if String.eqb dir "" then Some (bundled (c_opt c))
  else
    let '(e, ok) := Templates.load TmplExec.parse_file empty_tree (bundled (c_opt c)) (glob dir)
                      (new_engine (bundled (c_opt c))) in
    if ok then Some (e_tmpl e) else None.

(** The page of a section with given templates. *)
Definition template_page (E : env) (W : world) (o : options) (tmpls : tset (list Tmpl.node)) (m : nat)
    (h : heap) (i : nat) : rendered :=
  run_page (e_similar E) (e_broken E) h (w_force W) (cstring (e_similar E) (e_broken E) h (e_jumps E))
    (extension o) (is_html o) tmpls m i.

(** command.go:125-203 [Build]. *)
Definition build_command (Y : system) (E : env) (W : world) (c : command) (n m : nat) (fs : files)
    : files * outcome trouble string :=
  match engine_templates (y_glob Y) c with
  | None => (fs, Err TTemplates)
  | Some tmpls =>
    let '(fs, r) := build_with E W (template_page E W (c_opt c) tmpls m) (c_opt c) n fs in
    (fs, match r with Ok x => Ok x | Err f => Err (TBuild f) | Panic => Panic | NoFuel => NoFuel end)
  end.

(** command.go:218-227: the program that imports the plugins. *)
Definition go_source (plugins : list string) : string :=
  "package main" +:+ lf +:+
  "import ""github.com/vito/booklit/booklitcmd""" +:+ lf +:+
  sconcat (map (λ p, "import _ """ +:+ p +:+ """" +:+ lf) plugins) +:+
  "func main() {" +:+ lf +:+
  String "009" "booklitcmd.Main()" +:+ lf +:+
  "}" +:+ lf.

(** How a process goes on or ends. The output is not modelled where it is [None]. *)
Inductive process :=
| Listens
| Exits (status : nat) (out err : option string).

(** main.go:34-43. *)
Definition told (T : telling) (Y : system) (t : trouble) : string :=
  match t with
  | TTemplates => y_templates Y +:+ lf
  | TBuild (FRender (RTag e)) => report T e
  | TBuild (FRender _) => t_tmpl T +:+ lf
  | TBuild (FUnknownTag name) => "unknown tag: " +:+ name +:+ lf
  | TBuild FMkdir => y_mkdir Y +:+ lf
  | TBuild (FLoad e) | TBuild (FWrite e) | TBuild (FIndex e) => report T e
  | TListen msg | TTemp msg => msg +:+ lf
  | TInstall msg => "build failed: " +:+ msg +:+ lf
  | TStart msg => "reexec failed: " +:+ msg +:+ lf
  end.

Section program.
  Context (T : telling) (Y : system) (W : world) (n m : nat).

  Definition failing (t : trouble) : process := Exits 1 None (Some (told T Y t)).

  (** command.go:55-105 [Execute] without plugins to import, and the exit status
      (main.go:33-43; 2 is Go's for a panic). None: more than [n] or [m] is needed. *)
  Definition execute (E : env) (c : command) (fs : files) : files * option process :=
    if negb (Nat.eqb (c_port c) 0) then
      (fs, Some match y_listen Y with Some msg => failing (TListen msg) | None => Listens end)
    else
      match build_command Y (with_broken (c_broken c) E) W c n m fs with
      | (fs, Ok out) => (fs, Some (Exits 0 (Some out) (Some "")))
      | (fs, Err t) => (fs, Some (failing t))
      | (fs, Panic) => (fs, Some (Exits 2 None None))
      | (fs, NoFuel) => (fs, None)
      end.

  (** command.go:61-73, 205-260 [reexec]. [again]: BOOKLIT_REEXEC is set. The outputs
      of the second process are those of the first; the status of a process that was
      ended by a signal is -1, which exit makes 255. *)
  Definition start (again : bool) (E : env) (c : command) (fs : files) : files * option process :=
    match again, c_plugins c with
    | false, _ :: _ =>
      match y_temp Y with
      | Some msg => (fs, Some (failing (TTemp msg)))
      | None =>
        match y_install Y (go_source (c_plugins c)) with
        | inl msg => (fs, Some (failing (TInstall msg)))
        | inr E =>
          match y_start Y with
          | Some msg => (fs, Some (failing (TStart msg)))
          | None =>
            match y_killed Y with
            | Some fs => (fs, Some (Exits 255 None None))
            | None => execute E c fs
            end
          end
        end
      end
    | _, _ => execute E c fs
    end.

  (** main.go:12-44 [Main]. go-flags has printed a message about bad flags to the
      standard error already. *)
  Definition main (again : bool) (E : env) (r : request) (fs : files) : files * option process :=
    match r with
    | AskVersion => (fs, Some (Exits 0 (Some (y_version Y +:+ lf)) (Some "")))
    | AskHelp => (fs, Some (Exits 0 (Some (y_help Y)) (Some "")))
    | BadFlags msg => (fs, Some (Exits 1 (Some (msg +:+ lf)) (Some (msg +:+ lf))))
    | Run c => start again E c fs
    end.
End program.
