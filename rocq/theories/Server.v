(** booklitcmd/server.go: which section a request is answered with. Loading and
    rendering are modelled elsewhere; here the book has been loaded. *)
From Coq Require Import Ascii String.
From stdpp Require Import base list strings.
From Verif Require Import GoBase Ast Content Section.

(** server.go:85-96: the tag named by the path of a request, if any. *)
Definition request_tag (ext path : string) : option string :=
  let path := if String.eqb path "/" then ("/index." +:+ ext)%string else path in
  if has_suffix ("." +:+ ext)%string path then
    Some (trim_suffix ("." +:+ ext)%string (trim_prefix "/" path))
  else None.

Inductive response :=
| RFile           (* server.go:45-48: the file server answers *)
| RSection (i : nat).

(** server.go:84-113 [loadRequestedSection], after the root was loaded. None: not
    defined (a tag without section). *)
Definition requested (h : heap) (root : nat) (ext path : string) : option response :=
  match request_tag ext path with
  | None => Some RFile
  | Some name =>
    tags ← find_tag h root name;
    match tags with
    | [] => Some RFile
    | t :: _ => s ← t_section t; Some (RSection s)
    end
  end.
