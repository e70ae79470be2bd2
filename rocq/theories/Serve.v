(** booklitcmd/server.go: answering requests, one after the other. The server keeps
    the processor's parse cache and the engine's templates. The sections of a request
    are in a heap of their own, as those of other requests cannot be reached from
    them. (For requests at the same time see Cache.v.)

    Not modelled: the file server; the headers; failing to write the response. *)
From Coq Require Import Ascii String.
From stdpp Require Import base strings list.
From Verif Require Import GoBase Ast Content Section Render Peg Evaluate Collect Html Command
  Templates Tmpl TmplSrc TmplEsc TmplExec Server.
Local Open Scope string_scope. Local Open Scope list_scope.

Definition cache : Type := list (string * (Ast.node * nat)).
Definition tree : Type := list Tmpl.node.
Record server := Srv { sv_cache : cache; sv_engine : engine tree }.

(** command.go:107-117. *)
Definition new_server : server := Srv [] (new_engine bundled_html).

Inductive reply :=
| RStatic                   (* the file server answers *)
| RLoadFailed (e : error)   (* status 500 with a page about the error, these three *)
| RTmplFailed
| RPageFailed (e : rerr)
| RPage (bytes : string).

Section serve.
  Context (E : env) (W : world) (book : string) (n m : nat).

  (** server.go:81-113 [loadRequestedSection]. *)
  Definition load_requested (path : string) (c : cache) : cache * outcome error (option (heap * nat)) :=
    match request_tag "html" path with
    | None => (c, Ok None)
    | Some name =>
      match Collect.load E (w_order W) n book [FBase] (St [] c) with
      | (s, Ok r) =>
        (st_cache s,
         match find_tag (st_heap s) r name with
         | None => Panic
         | Some [] => Ok None
         | Some (t :: _) => match t_section t with Some i => Ok (Some (st_heap s, i)) | None => Panic end
         end)
      | (s, Err e) => (st_cache s, Err e)
      | (s, Panic) => (st_cache s, Panic)
      | (s, NoFuel) => (st_cache s, NoFuel)
      end
    end.

  (** server.go:50-79. [dir]: the files of --html-templates, if it is given. *)
  Definition render_requested (dir : option (list (file string))) (h : heap) (i : nat) (e : engine tree)
      : engine tree * outcome unit reply :=
    let '(e, ok) :=
      match dir with
      | None => (e, true)
      | Some d => Templates.load TmplExec.parse_file empty_tree bundled_html d e
      end in
    (e, if (ok : bool) then
          match run_page (e_similar E) (e_broken E) h (w_force W) (cstring (e_similar E) (e_broken E) h (e_jumps E))
                  "html" true (e_tmpl e) m i with
          | Ok bytes => Ok (RPage bytes)
          | Err e => Ok (RPageFailed e)
          | Panic => Panic
          | NoFuel => NoFuel
          end
        else Ok RTmplFailed).

  (** server.go:30-79 [ServeHTTP]. *)
  Definition serve_request (dir : option (list (file string))) (path : string) (sv : server) : server * outcome unit reply :=
    match load_requested path (sv_cache sv) with
    | (c, Ok (Some (h, i))) =>
      let '(e, r) := render_requested dir h i (sv_engine sv) in (Srv c e, r)
    | (c, Ok None) => (Srv c (sv_engine sv), Ok RStatic)
    | (c, Err e) => (Srv c (sv_engine sv), Ok (RLoadFailed e))
    | (c, Panic) => (Srv c (sv_engine sv), Panic)
    | (c, NoFuel) => (Srv c (sv_engine sv), NoFuel)
    end.
End serve.
