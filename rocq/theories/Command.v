(** booklitcmd/command.go:125-203: building a book, from the bytes of its files to the
    bytes of its pages. For --html-templates, --text-templates, --plugin and the exit
    status see Program.v. Not modelled: profiling and logging. *)
From Coq Require Import Ascii String.
From stdpp Require Import base strings list.
From Verif Require Import GoBase Ast Content Section Render Peg Evaluate Collect Html TextRender Json.
Local Open Scope string_scope. Local Open Scope list_scope.

(** load/processor.go:84-112: what a file holds. The last two cases do not occur
    (C01, C02). *)
Definition parse_file (path bytes : string) : node + error :=
  match go_parse bytes with
  | PVal (VNode nd) => inl nd
  | PErr errs =>
    match unpack_error errs with
    | Some (_, l) => inr (EParse (ErrLoc path l 1))
    | None => inr (EPlugin "no error")
    end
  | _ => inr (EPlugin "no node")
  end.

(** Files with their modification times. *)
Definition disk := string → option (nat * string).

(** The environment of a processor that reads from a disk; the other fields are
    those of [E]. *)
Definition reading (d : disk) (E : env) : env :=
  Env (λ path, '(mt, bytes) ← d path; Some (mt, parse_file path bytes))
    (e_registry E) (e_methods E) (e_similar E) (e_broken E) (e_jumps E).

(** command.go:21-53, the options used here. *)
Record options := Options {
  o_in : string;
  o_out : string;
  o_tag : string;      (* --section-tag *)
  o_path : string;     (* --section-path *)
  o_index : bool;      (* --save-search-index *)
  o_text : string      (* --text-file-extension *)
}.

(** What is not determined by the documents. *)
Record world := World {
  w_order : nat → nat → list nat;      (* order of map iteration *)
  w_force : nat → option content;      (* results of lazy contents *)
  w_partial : nat → string;            (* what is written of a page that fails *)
  w_mkdir : bool;                      (* os.MkdirAll succeeds *)
  w_open : string → bool;              (* os.OpenFile succeeds *)
  w_short : bool                       (* see [json_string] *)
}.

Inductive failure :=
| FLoad (e : error)
| FUnknownTag (name : string)     (* command.go:165 *)
| FMkdir
| FRender (e : rerr)              (* printing *)
| FWrite (e : error)
| FIndex (e : error).

Section build.
  Context (E : env) (W : world).

  (** command.go:130-152: HTML unless an extension is given. *)
  Definition extension (o : options) : string := if String.eqb (o_text o) "" then "html" else o_text o.
  Definition page (o : options) (m : nat) (h : heap) (i : nat) : rendered :=
    let str := cstring (e_similar E) (e_broken E) h (e_jumps E) in
    if String.eqb (o_text o) "" then html_page (e_similar E) (e_broken E) h (w_force W) str m i
    else text_page h (w_force W) str m i.

  (** The engine as the writer sees it, given the pages. The error of a reference is
      found in what text/template makes of it (errors.As in main.go:35); all others,
      and not returning, are one error here. *)
  Definition engine_with (pg : nat → rendered) : engine := λ i,
    match pg i with
    | Ok bytes => (bytes, None)
    | Err (RTag e) => (w_partial W i, Some e)
    | _ => (w_partial W i, Some (EPlugin "rendering"))
    end.

  (** command.go:154-174: the root and the section to render. *)
  Definition choose (o : options) (n : nat) : st * outcome failure (nat * nat) :=
    match load E (w_order W) n (o_in o) [FBase] (St [] []) with
    | (s, Ok r) =>
      if negb (String.eqb (o_tag o) "") then
        match find_tag (st_heap s) r (o_tag o) with
        | None => (s, Panic)
        | Some [] => (s, Err (FUnknownTag (o_tag o)))
        | Some (t :: _) => match t_section t with Some i => (s, Ok (r, i)) | None => (s, Panic) end
        end
      else if negb (String.eqb (o_path o) "") then
        match load_in E (w_order W) n (Some r) (o_path o) [FBase] s with
        | (s, Ok i) => (s, Ok (r, i))
        | (s, Err e) => (s, Err (FLoad e))
        | (s, Panic) => (s, Panic)
        | (s, NoFuel) => (s, NoFuel)
        end
      else (s, Ok (r, r))
    | (s, Err e) => (s, Err (FLoad e))
    | (s, Panic) => (s, Panic)
    | (s, NoFuel) => (s, NoFuel)
    end.

  (** command.go:154-203: the destination directory afterwards, and what was
      printed. [n]: depth of evaluation. *)
  Definition build_with (pg : heap → nat → rendered) (o : options) (n : nat) (fs : files) : files * outcome failure string :=
    match choose o n with
    | (s, Ok (r, i)) =>
      let h := st_heap s in
      if String.eqb (o_out o) "" then
        match pg h i with
        | Ok bytes => (fs, Ok bytes)
        | Err e => (fs, Err (FRender e))
        | Panic => (fs, Panic)
        | NoFuel => (fs, NoFuel)
        end
      else if w_mkdir W then
        match write_section h (w_open W) (extension o) (engine_with (pg h)) i fs with
        | None => (fs, Panic)
        | Some (fs, Some e) => (fs, Err (FWrite e))
        | Some (fs, None) =>
          if o_index o then
            match write_search_index (w_short W) (cstring (e_similar E) (e_broken E) h (e_jumps E)) h
                    (w_open W) (extension o) r "search_index.json" fs with
            | Ok fs => (fs, Ok "")
            | Err e => (fs, Err (FIndex e))
            | Panic => (fs, Panic)
            | NoFuel => (fs, NoFuel)
            end
          else (fs, Ok "")
        end
      else (fs, Err FMkdir)
    | (_, Err e) => (fs, Err e)
    | (_, Panic) => (fs, Panic)
    | (_, NoFuel) => (fs, NoFuel)
    end.

  (** With the bundled templates. [m]: depth of rendering. *)
  Definition build (o : options) (n m : nat) (fs : files) : files * outcome failure string := build_with (page o m) o n fs.
End build.
