(** errors.go:21-79 and the [PrettyHTML] methods: error pages, by executing
    errhtml/*.tmpl. Reading and escaping templates is that of Tmpl.v and TmplEsc.v; of
    executing them (TmplExec.v) there is here what these templates need, with the data
    and functions they have. Anything else is an error. *)
From Coq Require Import Ascii String ZArith.
From stdpp Require Import base strings list.
From Verif Require Import GoBase Ast Content Section Render Html Templates Tmpl TmplEsc TmplExec Annotate Report ErrSrc.
Local Open Scope string_scope. Local Open Scope list_scope.

(** The data: errors.go:94-99, 121-127, 161-167, 203-208, 234-240, 280-284, 318-322,
    356-361. *)
Inductive dat :=
| DStr (s : string) | DHtml (s : string) | DBool (b : bool) | DErr (e : error) | DLoc (l : errloc) | DTag (t : tag)
| DSnippet (file : string) (s : snippet) | DList (l : list dat).

Notation dgot := (outcome rerr dat).

Section errors.
  Context (T : telling).

  Definition d_truth (v : dat) : bool :=
    match v with
    | DStr s | DHtml s => negb (String.eqb s "")
    | DBool b => b
    | DList l => match l with [] => false | _ => true end
    | _ => true
    end.

  (** The cause of a syntax error is an error of which only the text is modelled. *)
  Definition d_member (v : dat) (f : string) : dgot :=
    match v with
    | DErr (EParse l) =>
      if String.eqb f "Err" then Ok (DStr (t_inner T l))
      else if String.eqb f "ErrorLocation" then Ok (DLoc l)
      else fails
    | DErr (EUnknownTag name similar l) =>
      if String.eqb f "TagName" then Ok (DStr name)
      else if String.eqb f "SimilarTags" then Ok (DList (map DTag similar))
      else if String.eqb f "ErrorLocation" then Ok (DLoc l)
      else fails
    | DErr (EAmbiguous name defs l) =>
      if String.eqb f "TagName" then Ok (DStr name)
      else if String.eqb f "DefinedLocations" then Ok (DList (map DLoc defs))
      else if String.eqb f "ErrorLocation" then Ok (DLoc l)
      else fails
    | DErr (EUndefined fn l) =>
      if String.eqb f "Function" then Ok (DStr fn)
      else if String.eqb f "ErrorLocation" then Ok (DLoc l)
      else fails
    | DErr (EFailed fn e l) =>
      if String.eqb f "Function" then Ok (DStr fn)
      else if String.eqb f "Err" then Ok (DErr e)
      else if String.eqb f "ErrorLocation" then Ok (DLoc l)
      else fails
    | DErr (ETitleTwice first l) =>
      if String.eqb f "TitleLocation" then Ok (DLoc first)
      else if String.eqb f "ErrorLocation" then Ok (DLoc l)
      else fails
    | DTag t => if String.eqb f "Name" then Ok (DStr (t_name t)) else fails
    | DSnippet file s =>
      if String.eqb f "FilePath" then Ok (DStr file)
      else if String.eqb f "EOF" then Ok (DBool (sn_eof s))
      else if String.eqb f "Lineno" then Ok (DStr (four (sn_line s)))
      else if String.eqb f "Prefix" then Ok (DStr (sn_prefix s))
      else if String.eqb f "Annotated" then Ok (DStr (sn_annotated s))
      else if String.eqb f "Suffix" then Ok (DStr (sn_suffix s))
      else fails
    | _ => fails
    end.

  (** The functions, errors.go:25-50. *)
  Context (func : string → dat → dgot).

  Definition d_operand (dot : dat) (o : operand) : dgot :=
    match o with
    | ODot => Ok dot
    | OField [f] => d_member dot f
    | _ => fails
    end.
  Definition d_pipe (dot : dat) (p : pipe) : dgot :=
    match p with
    | [o] :: cmds =>
      fold_left (λ v cmd, obind (λ v, match cmd with [OFunc f] => func f v | _ => fails end) v) cmds (d_operand dot o)
    | _ => fails
    end.

  (** Only places in text occur. *)
  Definition d_put (x : place) (v : dat) : rendered :=
    match x, v with
    | XText, DHtml s => Ok s
    | XText, DStr s => Ok (escape s)
    | _, _ => fails
    end.

  Definition d_list (f : dat → node → rendered) (dot : dat) : list node → rendered :=
    fix go l :=
      match l with
      | [] => Ok ""
      | x :: l => obind (λ s, obind (λ t, Ok (s +:+ t)) (go l)) (f dot x)
      end.
  Definition d_range (f : dat → rendered) : list dat → rendered :=
    fix go l :=
      match l with
      | [] => Ok ""
      | x :: l => obind (λ s, obind (λ t, Ok (s +:+ t)) (go l)) (f x)
      end.

  Fixpoint d_node (dot : dat) (x : node) {struct x} : rendered :=
    match x with
    | NText s => Ok s
    | NAct pl p => obind (d_put pl) (d_pipe dot p)
    | NIf p t f => obind (λ v, d_list d_node dot (if d_truth v then t else f)) (d_pipe dot p)
    | NRange [] p t f =>
      obind (λ v,
        match v with
        | DList [] => d_list d_node dot f
        | DList l => d_range (λ x, d_list d_node x t) l
        | _ => fails
        end) (d_pipe dot p)
    | _ => fails
    end.
  Definition d_exec (t : list node) (data : dat) : rendered := d_list d_node data t.
End errors.

(** errors.go:53-66. *)
Definition err_templates : tset (list node) := default no_templates (templates no_templates err_sources).

(** The template of an error; others have none (errors.go:35-39). *)
Definition err_template (e : error) : option string :=
  match e with
  | EParse _ => Some "parse-error.tmpl"
  | EUnknownTag _ _ _ => Some "unknown-tag.tmpl"
  | EAmbiguous _ _ _ => Some "ambiguous-reference.tmpl"
  | EUndefined _ _ => Some "undefined-function.tmpl"
  | EFailed _ _ _ => Some "function-error.tmpl"
  | ETitleTwice _ _ => Some "title-twice-error.tmpl"
  | _ => None
  end.

Section run.
  Context (T : telling).

  Definition d_named (func : string → dat → dgot) (name : string) (v : dat) : rendered :=
    match t ← err_templates name; esc_tree t with
    | None => fails
    | Some t => d_exec T func t v
    end.

  (** errors.go:363-393 [AnnotatedHTML]. *)
  Definition run_annotated (l : errloc) : rendered :=
    match annotated (t_size T) (match t_open T (el_file l) with inl _ => None | inr f => Some f end) l with
    | ANone => Ok ""
    | AFail | APanic => fails
    | AShow s => d_named (λ _ _, fails) "annotated-line.tmpl" (DSnippet (el_file l) s)
    end.

  (** errors.go:25-50. [n] bounds the nesting. *)
  Fixpoint run_error (n : nat) (e : error) : rendered :=
    match n with
    | 0 => NoFuel
    | S n =>
      match err_template e with
      | Some name =>
        d_named (λ f v,
          match v with
          | DErr e => if String.eqb f "error" then obind (λ s, Ok (DHtml s)) (run_error n e) else fails
          | DLoc l => if String.eqb f "annotate" then obind (λ s, Ok (DHtml s)) (run_annotated l) else fails
          | _ => fails
          end) name (DErr e)
      | None => Ok ("<pre class=""raw-error"">" +:+ escape_string (error_text T e) +:+ "</pre>")
      end
    end.
End run.
