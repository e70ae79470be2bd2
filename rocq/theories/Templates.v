(** render/html.go:61-153, render/text.go:43-147: the engines' templates and
    reloading them. Both engines have the same code.

    Not modelled: Go's template language; [parse] stands for trimming line feeds at
    the end of a file and parsing, and yields the templates the text defines: the
    one named after the file and those of its "define" actions. A load sees the
    directory at one moment. *)
From Coq Require Import Lia ZArith.
From stdpp Require Import base tactics functions list strings.

(** Templates by name (template.Template's set). *)
Notation tset tree := (string → option tree).

Section Templates.
  Context {content tree : Type}.
  Variable parse : string → content → option (list (string * tree)).
  (** Whether a tree holds only blanks and comments (text/template/parse
      IsEmptyTree). *)
  Variable empty : tree → bool.

  (** Template.associate of Go's text/template: an empty body does not replace an
      existing one. *)
  Definition associate (s : tset tree) (d : string * tree) : tset tree :=
    if empty d.2 && (if s d.1 then true else false) then s else <[d.1:=Some d.2]> s.

  (** engine.tmpl.New(name).Parse(text). *)
  Definition add_text (s : tset tree) (name : string) (text : content) : option (tset tree) :=
    defs ← parse name text; Some (fold_left associate defs s).

  (** A file "*.tmpl": os.Stat or reading it may fail (a dangling link, a
      directory). *)
  Record file := File { f_name : string; f_stat : option Z; f_read : option content }.

  Record engine := Engine { e_times : string → option Z; e_tmpl : tset tree }.

  (** html.go:115-130. The times are noted while the files are checked. None: an
      error is returned. *)
  Fixpoint check (d : list file) (times : string → option Z) (reload : bool) : (string → option Z) * option bool :=
    match d with
    | [] => (times, Some reload)
    | f :: d =>
      match f_stat f with
      | None => (times, None)
      | Some t =>
        let newer := match times (f_name f) with None => true | Some t' => (t' <? t)%Z end in
        check d (<[f_name f:=Some t]> times) (reload || newer)
      end
    end.

  (** 138-150. *)
  Fixpoint add_files (d : list file) (s : tset tree) : tset tree * bool :=
    match d with
    | [] => (s, true)
    | f :: d =>
      match c ← f_read f; add_text s (f_name f) c with
      | None => (s, false)
      | Some s' => add_files d s'
      end
    end.

  Variable bundled : tset tree.

  (** LoadTemplates; false: an error is returned. *)
  Definition load (d : list file) (e : engine) : engine * bool :=
    match check d (e_times e) false with
    | (times, None) => (Engine times (e_tmpl e), false)
    | (times, Some false) => (Engine times (e_tmpl e), true)
    | (times, Some true) =>
      let '(s, ok) := add_files d bundled in (Engine times s, ok)
    end.

  (** NewHTMLEngine, NewTextEngine. *)
  Definition new_engine : engine := Engine (λ _, None) bundled.
End Templates.
Arguments file : clear implicits.
(** What filepath.Glob finds, sorted by name. *)
Notation dir content := (list (file content)).
Arguments engine : clear implicits.
