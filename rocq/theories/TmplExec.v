(** Executing templates: text/template/exec.go and funcs.go of Go's standard
    library, with the data and the functions of render/html.go and render/text.go.

    An error of any kind, including a panic inside a function or a method that is
    called, is an [rerr]; what had been written before it is not modelled. Not
    modelled, and taken as errors: fields and methods that are not listed, such as
    source locations, plugins and whole maps of partials; methods that change
    a section; functions of text/template other than [and], [or], [not], [eq],
    [ne] and [len]; writing out a tag, a definition or a list of anything as a
    whole; HTML in an attribute that holds no URL; fields of the data of a template
    that is called without data, and ranging over it (Go takes that data as empty).
    What Go rejects when it parses a template (functions and variables that do not
    exist, values in a later stage of a pipeline that take no argument) is an error
    here when it is executed. *)
From Coq Require Import Ascii String.
From stdpp Require Import base strings list.
From Verif Require Import GoBase Ast Content Section Render Html TextRender Templates Tmpl TmplSrc TmplEsc.
Local Open Scope string_scope. Local Open Scope list_scope.

(** The data of templates. [VNil] is any nil; [VHtml] is template.HTML, [VUrl]
    template.URL; [VSec] is a pointer to a section; [VTag] a tag or a pointer to
    one; [VWalk] render/html.go's WalkContext. *)
Inductive val :=
| VNil | VBool (b : bool) | VInt (n : nat) | VStr (s : string) | VHtml (s : string) | VUrl (s : string)
| VCon (c : content) | VSec (i : nat) | VTag (t : tag) | VDef (s d : content) | VList (l : list val)
| VWalk (cur sec : nat).

Definition vcon (c : content) : val := match c with CSection i => VSec i | c => VCon c end.
Definition vcon_opt (o : option content) : val := match o with Some c => vcon c | None => VNil end.
Definition vsec_opt (o : option nat) : val := match o with Some i => VSec i | None => VNil end.
Definition con_of (v : val) : option content :=
  match v with VCon c => Some c | VSec i => Some (CSection i) | _ => None end.

Notation got := (outcome rerr val).
Definition fails {A} : outcome rerr A := Err RNil.
Definition want {A} (o : option A) (f : A → val) : got := match o with Some a => Ok (f a) | None => fails end.

(** exec.go [isTrue]. *)
Definition truth (v : val) : bool :=
  match v with
  | VNil => false
  | VBool b => b
  | VInt n => negb (Nat.eqb n 0)
  | VStr s | VHtml s | VUrl s => negb (String.eqb s "")
  | VList l => match l with [] => false | _ => true end
  | VCon c =>
    match c with
    | CString s => negb (String.eqb s "")
    | CSeq [] | CPara [] | CPre [] | CDefs [] => false
    | _ => true
    end
  | VSec _ | VTag _ | VDef _ _ | VWalk _ _ => true
  end.

(** exec.go [walkRange]. *)
Definition items (v : val) : option (list val) :=
  match v with
  | VList l => Some l
  | VCon (CSeq l) | VCon (CPara l) | VCon (CPre l) => Some (map vcon l)
  | VCon (CDefs l) => Some (map (λ p, VDef p.1 p.2) l)
  | _ => None
  end.

(** html/template/html.go [htmlNormReplacementTable]. *)
Fixpoint escape_norm (s : string) : string :=
  match s with
  | "" => ""
  | String c s => (if Ascii.eqb c "&" then "&" else escape_char c) +:+ escape_norm s
  end.
(** html/template/url.go [processURLOnto] without [norm]. *)
Fixpoint url_escape (s : string) : string :=
  match s with
  | "" => ""
  | String c r =>
    (if is_lower c || is_upper c || is_digit c || existsb (Ascii.eqb c) ["-"; "."; "_"; "~"]%char then String c ""
     else percent c) +:+ url_escape r
  end.
(** html/template/html.go [htmlNameFilter]. *)
Definition name_filter (s : string) : string :=
  let s := smap lower s in
  if negb (String.eqb s "") && (match attr_kind s with ANone => true | _ => false end) &&
     negb (existsb (String.eqb s) unsafe_attrs) && sforall (λ c, is_lower c || is_digit c) s
  then s else "ZgotmplZ".

Section exec.
  Context (similar : string → string → bool) (broken : bool) (h : heap).
  Context (force : nat → option content) (str : content → outcome error string).
  (** The extension of pages; whether the engine is the HTML one. *)
  Context (ext : string) (html : bool).

  Definition text_val (c : content) : got :=
    match str c with Ok s => Ok (VStr s) | NoFuel => NoFuel | _ => fails end.

  (** ** Fields and methods (exec.go [evalField]) *)

  (** section.go. *)
  Definition section_member (i : nat) (s : section) (f : string) (args : list val) : got :=
    match args with
    | [] =>
      if String.eqb f "Path" then Ok (VStr (s_path s))
      else if String.eqb f "Title" then Ok (vcon (s_title s))
      else if String.eqb f "Body" then Ok (vcon (s_body s))
      else if String.eqb f "PrimaryTag" then Ok (VTag (s_primary s))
      else if String.eqb f "Tags" then Ok (VList (map VTag (s_tags s)))
      else if String.eqb f "Parent" then Ok (vsec_opt (s_parent s))
      else if String.eqb f "Children" then Ok (VList (map VSec (s_children s)))
      else if String.eqb f "Style" then Ok (VStr (s_style s))
      else if String.eqb f "SplitSections" then Ok (VBool (s_split s))
      else if String.eqb f "PreventSplitSections" then Ok (VBool (s_prevent s))
      else if String.eqb f "ResetDepth" then Ok (VBool (s_reset s))
      else if String.eqb f "OmitChildrenFromTableOfContents" then Ok (VBool (s_omit s))
      else if String.eqb f "String" then text_val (CSection i)
      else if String.eqb f "FilePath" then want (file_path h i) VStr
      else if String.eqb f "IsFlow" then Ok (VBool (is_flow (CSection i)))
      else if String.eqb f "Number" then want (number h i) VStr
      else if String.eqb f "HasAnchors" then want (has_anchors h i) VBool
      else if String.eqb f "AnchorTags" then Ok (VList (map VTag (anchor_tags s)))
      else if String.eqb f "Top" then want (top h i) VSec
      else if String.eqb f "Prev" then want (prev h i) vsec_opt
      else if String.eqb f "Next" then want (next h i) vsec_opt
      else if String.eqb f "NextSibling" then want (next_sibling h i) vsec_opt
      else if String.eqb f "Depth" then want (depth h i) VInt
      else if String.eqb f "PageDepth" then want (page_depth h i) VInt
      else if String.eqb f "SplitSectionsPrevented" then want (split_prevented h i) VBool
      else fails
    | [VSec j] =>
      if String.eqb f "Contains" then want (contains h i j) VBool
      else if String.eqb f "IsOrHasChild" then want (is_or_has_child h i j) VBool
      else fails
    | [VStr name] =>
      if String.eqb f "Partial" then Ok (vcon_opt (partial name s))
      else if String.eqb f "FindTag" then want (find_tag h i name) (λ ts, VList (map VTag ts))
      else fails
    | _ => fails
    end.

  (** The other kinds of content. *)
  Definition content_member (c : content) (f : string) (args : list val) : got :=
    match args with
    | [] =>
      if String.eqb f "String" then text_val c
      else if String.eqb f "IsFlow" then Ok (VBool (is_flow c))
      else
        match c with
        | CSeq l => if String.eqb f "Contents" then Ok (VList (map vcon l)) else fails
        | CRef sec name rc opt l =>
          if String.eqb f "Section" then Ok (VSec sec)
          else if String.eqb f "TagName" then Ok (VStr name)
          else if String.eqb f "Content" then Ok (vcon_opt rc)
          else if String.eqb f "Optional" then Ok (VBool opt)
          else if String.eqb f "Tag" then
            match ref_tag similar broken h sec name opt l with
            | Ok t => Ok (match t with Some t => VTag t | None => VNil end)
            | Err e => Err (RTag e)
            | NoFuel => NoFuel
            | Panic => fails
            end
          else if String.eqb f "Display" then
            match ref_display similar broken h sec name rc opt l with
            | Ok d => Ok (vcon_opt d)
            | Err e => Err (RTag e)
            | NoFuel => NoFuel
            | Panic => fails
            end
          else fails
        | CLink x t =>
          if String.eqb f "Content" then Ok (vcon x)
          else if String.eqb f "Target" then Ok (VStr t)
          else fails
        | CToc i => if String.eqb f "Section" then Ok (VSec i) else fails
        | CStyled st b x ps =>
          if String.eqb f "Style" then Ok (VStr st)
          else if String.eqb f "Block" then Ok (VBool b)
          else if String.eqb f "Content" then Ok (vcon x)
          else fails
        | CTarget t _ ti x =>
          if String.eqb f "TagName" then Ok (VStr t)
          else if String.eqb f "Title" then Ok (vcon_opt ti)
          else if String.eqb f "Content" then Ok (vcon_opt x)
          else fails
        | CImage p d =>
          if String.eqb f "Path" then Ok (VStr p)
          else if String.eqb f "Description" then Ok (VStr d)
          else fails
        | CList l o =>
          if String.eqb f "Items" then Ok (VList (map vcon l))
          else if String.eqb f "Ordered" then Ok (VBool o)
          else fails
        | CTable rows => if String.eqb f "Rows" then Ok (VList (map (λ r, VList (map vcon r)) rows)) else fails
        | CAux x => if String.eqb f "Content" then Ok (vcon x) else fails
        | _ => fails
        end
    | [VStr name] =>
      match c with
      | CStyled _ _ _ ps =>
        if String.eqb f "Partial" then
          Ok (vcon_opt (match assoc_get name ps with Some c => c | None => None end))
        else fails
      | _ => fails
      end
    | _ => fails
    end.

  Definition member (v : val) (f : string) (args : list val) : got :=
    match v with
    | VSec i => match h !! i with Some s => section_member i s f args | None => fails end
    | VCon c => content_member c f args
    | VTag t =>
      match args with
      | [] =>
        if String.eqb f "Name" then Ok (VStr (t_name t))
        else if String.eqb f "Title" then Ok (vcon_opt (t_title t))
        else if String.eqb f "Section" then Ok (vsec_opt (t_section t))
        else if String.eqb f "Anchor" then Ok (VStr (t_anchor t))
        else if String.eqb f "Content" then Ok (vcon_opt (t_content t))
        else fails
      | _ => fails
      end
    | VDef s d =>
      match args with
      | [] =>
        if String.eqb f "Subject" then Ok (vcon s)
        else if String.eqb f "Definition" then Ok (vcon d)
        else fails
      | _ => fails
      end
    | VWalk cur sec =>
      match args with
      | [] =>
        if String.eqb f "Current" then Ok (VSec cur)
        else if String.eqb f "Section" then Ok (VSec sec)
        else fails
      | _ => fails
      end
    | _ => fails
    end.

  (** A chain of fields; only the last one gets the arguments. *)
  Fixpoint members (v : val) (fs : list string) (args : list val) : got :=
    match fs with
    | [] => match args with [] => Ok v | _ => fails end
    | [f] => member v f args
    | f :: fs => obind (λ v, members v fs args) (member v f [])
    end.

  (** ** Functions *)

  (** Values of kind string. *)
  Definition str_val (v : val) : option string :=
    match v with VStr s | VHtml s | VUrl s | VCon (CString s) => Some s | _ => None end.
  (** funcs.go [eq] of two values of basic kinds. *)
  Definition eq_val (a b : val) : option bool :=
    match a, b with
    | VBool a, VBool b => Some (Bool.eqb a b)
    | VInt a, VInt b => Some (Nat.eqb a b)
    | _, _ => match str_val a, str_val b with Some a, Some b => Some (String.eqb a b) | _, _ => None end
    end.
  (** With more than one value: whether it is one of them. *)
  Fixpoint eq_one (a : val) (l : list val) : option bool :=
    match l with
    | [] => Some false
    | b :: l => match eq_val a b with Some true => Some true | Some false => eq_one a l | None => None end
    end.

  (** What [render] gives for a content. *)
  Context (render : content → rendered).
  (** Executing another template. *)
  Context (call : string → val → rendered).

  (** render/html.go:26-57,103-105 and render/text.go:23-40,87-93. *)
  Definition apply_func (f : string) (args : list val) : got :=
    if String.eqb f "not" then match args with [v] => Ok (VBool (negb (truth v))) | _ => fails end
    else if String.eqb f "eq" then match args with a :: b :: l => want (eq_one a (b :: l)) VBool | _ => fails end
    else if String.eqb f "ne" then match args with [a; b] => want (eq_val a b) (λ b, VBool (negb b)) | _ => fails end
    else if String.eqb f "len" then
      match args with
      | [v] => match str_val v with Some s => Ok (VInt (String.length s)) | None => want (items v) (λ l, VInt (length l)) end
      | _ => fails
      end
    else if String.eqb f "render" then
      match args with
      | [v] =>
        match con_of v with
        | Some c => obind (λ s, Ok (if html then VHtml s else VStr s)) (render c)
        | None => fails
        end
      | _ => fails
      end
    else if String.eqb f "url" then match args with [VTag t] => want (tag_url h ext t) VStr | _ => fails end
    else if String.eqb f "stripAux" then
      match args with
      | [v] => match con_of v with Some c => want (strip_aux c) vcon | None => fails end
      | _ => fails
      end
    else if html then
      if String.eqb f "rawHTML" then
        match args with
        | [v] => match con_of v with
                 | Some c => match str c with Ok s => Ok (VHtml s) | NoFuel => NoFuel | _ => fails end
                 | None => fails
                 end
        | _ => fails
        end
      else if String.eqb f "rawURL" then
        match args with
        | [v] => match con_of v with
                 | Some c => match str c with Ok s => Ok (VUrl s) | NoFuel => NoFuel | _ => fails end
                 | None => fails
                 end
        | _ => fails
        end
      else if String.eqb f "walkContext" then
        match args with [VSec i; VSec j] => Ok (VWalk i j) | _ => fails end
      else if String.eqb f "headerDepth" then
        match args with [VSec i] => want (header_depth h i) VInt | _ => fails end
      else fails
    else
      if String.eqb f "htmlURL" then match args with [VTag t] => want (tag_url h "html" t) VStr | _ => fails end
      else if String.eqb f "joinLines" then
        match args with [VStr p; VStr s] => Ok (VStr (join_lines p s)) | _ => fails end
      else fails.

  (** ** Pipelines (exec.go [evalPipeline], [evalCommand], [evalArg]) *)

  Notation env := (list (string * val)).

  (** funcs.go [and], [or]: the arguments that are not needed are not evaluated. *)
  Definition shortcut (stop : bool) (eval : operand → got) : val → list operand → got :=
    fix go v args :=
      if Bool.eqb (truth v) stop then Ok v
      else match args with [] => Ok v | a :: args => obind (λ v, go v args) (eval a) end.

  Definition eval_command (e : env) (dot : val) (eval : operand → got) (cmd : list operand) (final : option val) : got :=
    match cmd with
    | [] => fails
    | o :: args =>
      let given (k : list val → got) :=
        obind (λ vs, k (vs ++ match final with Some v => [v] | None => [] end)) (omapM eval args) in
      match o with
      | OFunc f =>
        if String.eqb f "and" || String.eqb f "or" then
          match args, final with
          | a :: args, None => obind (λ v, shortcut (String.eqb f "or") eval v args) (eval a)
          | _, _ => fails
          end
        else given (apply_func f)
      | OField fs => given (members dot fs)
      | OVar v (f :: fs) =>
        match assoc_get v e with Some x => given (members x (f :: fs)) | None => fails end
      | ONil => fails
      | _ => match args, final with [], None => eval o | _, _ => fails end
      end
    end.

  Definition eval_pipe (e : env) (dot : val) (eval : operand → got) : pipe → option val → got :=
    fix go p final :=
      match p with
      | [] => match final with Some v => Ok v | None => fails end
      | cmd :: p => obind (λ v, go p (Some v)) (eval_command e dot eval cmd final)
      end.

  Fixpoint eval_arg (e : env) (dot : val) (o : operand) : got :=
    match o with
    | ODot => Ok dot
    | OField fs => members dot fs []
    | OVar v fs => match assoc_get v e with Some x => members x fs [] | None => fails end
    | OFunc f => apply_func f []
    | OStr s => Ok (VStr s)
    | ONum n => Ok (VInt n)
    | OBool b => Ok (VBool b)
    | ONil => Ok VNil
    | OParen p => eval_pipe e dot (eval_arg e dot) p None
    end.
  Definition eval (e : env) (dot : val) (p : pipe) : got := eval_pipe e dot (eval_arg e dot) p None.

  (** ** Output (exec.go [printValue], html/template's escapers) *)

  Definition fmt_panic_v : string :=
    "%!v(PANIC=String method: runtime error: invalid memory address or nil pointer dereference)".
  Definition show (v : val) : rendered :=
    match v with
    | VNil => Ok (if html then "" else "<no value>")
    | VBool b => Ok (if b then "true" else "false")
    | VInt n => Ok (dec n)
    | VStr s | VHtml s | VUrl s => Ok s
    | VCon c => match str c with Ok s => Ok s | NoFuel => NoFuel | _ => Ok fmt_panic_v end
    | VSec i => match str (CSection i) with Ok s => Ok s | NoFuel => NoFuel | _ => Ok fmt_panic_v end
    | VTag _ | VDef _ _ | VList _ | VWalk _ _ => fails
    end.

  Definition is_html (v : val) : bool := match v with VHtml _ => true | _ => false end.
  Definition is_url (v : val) : bool := match v with VUrl _ => true | _ => false end.

  Definition put (x : place) (v : val) : rendered :=
    match x with
    | XRaw => show v
    | XText => obind (λ s, Ok (if is_html v then s else escape s)) (show v)
    | XRcdata => obind (λ s, Ok (if is_html v then escape_norm s else escape s)) (show v)
    | XName => obind (λ s, Ok (name_filter s)) (show v)
    | XAttr => if is_html v then fails else obind (λ s, Ok (escape s)) (show v)
    | XUrl => obind (λ s, Ok (escape (url_normalize (if is_url v then s else url_filter s)))) (show v)
    | XUrlPath => obind (λ s, Ok (escape (url_normalize s))) (show v)
    | XUrlQuery => obind (λ s, Ok (escape (if is_url v then url_normalize s else url_escape s))) (show v)
    end.

  (** ** Templates (exec.go [walk]) *)

  Definition exec_list (f : env → val → node → rendered) (dot : val) : env → list node → rendered :=
    fix go e l :=
      match l with
      | [] => Ok ""
      | NDecl v p :: l => obind (λ x, go ((v, x) :: e) l) (eval e dot p)
      | x :: l => obind (λ s, obind (λ t, Ok (s +:+ t)) (go e l)) (f e dot x)
      end.

  Definition binds (vs : list string) (i : nat) (x : val) (e : env) : env :=
    match vs with
    | [] => e
    | [v] => (v, x) :: e
    | v :: w :: _ => (w, x) :: (v, VInt i) :: e
    end.

  (** The elements of a list with their indices. *)
  Definition exec_range (f : nat → val → rendered) : nat → list val → rendered :=
    fix go i l :=
      match l with
      | [] => Ok ""
      | x :: l => obind (λ s, obind (λ t, Ok (s +:+ t)) (go (S i) l)) (f i x)
      end.

  Fixpoint exec_node (e : env) (dot : val) (x : node) {struct x} : rendered :=
    match x with
    | NText s => Ok s
    | NAct pl p => obind (put pl) (eval e dot p)
    | NDecl _ _ => Ok ""
    | NIf p t f => obind (λ v, exec_list exec_node dot e (if truth v then t else f)) (eval e dot p)
    | NWith p t f =>
      obind (λ v, if truth v then exec_list exec_node v e t else exec_list exec_node dot e f) (eval e dot p)
    | NRange vs p t f =>
      obind (λ v,
        match items v with
        | None => fails
        | Some [] => exec_list exec_node dot e f
        | Some l => exec_range (λ i x, exec_list exec_node x (binds vs i x e) t) 0 l
        end) (eval e dot p)
    | NCall name p =>
      obind (call name) (match p with Some p => eval e dot p | None => Ok VNil end)
    end.

  (** [$] is the data the template is executed with. *)
  Definition exec (t : list node) (data : val) : rendered := exec_list exec_node data [("", data)] t.
End exec.

(** ** The engines *)

(** The template of a content and what it is executed with: html.go:191-285,
    text.go:179-273, [Visit...]. Lazy and auxiliary content have none of their own. *)
Definition template_of (h : heap) (c : content) : option (string * val) :=
  match c with
  | CString _ => Some ("string", VCon c)
  | CSeq _ => Some ("sequence", VCon c)
  | CPara _ => Some ("paragraph", VCon c)
  | CPre _ => Some ("preformatted", VCon c)
  | CRef _ _ _ _ _ => Some ("reference", VCon c)
  | CLink _ _ => Some ("link", VCon c)
  | CSection i => s ← h !! i; Some (if String.eqb (s_style s) "" then "section" else s_style s, VSec i)
  | CToc i => Some ("toc", VSec i)
  | CStyled st _ _ _ => Some (st, VCon c)
  | CTarget _ _ _ _ => Some ("target", VCon c)
  | CImage _ _ => Some ("image", VCon c)
  | CList _ _ => Some ("list", VCon c)
  | CTable _ => Some ("table", VCon c)
  | CDefs _ => Some ("definitions", VCon c)
  | CLazy _ _ | CAux _ => None
  end.

Inductive task := TRender (c : content) | TExec (name : string) (data : val).

Section run.
  Context (similar : string → string → bool) (broken : bool) (h : heap).
  Context (force : nat → option content) (str : content → outcome error string).
  Context (ext : string) (html : bool).
  (** The templates. *)
  Context (tmpls : string → option (list node)).

  (** html.go:287-309 [setTmpl], [render], [subRender]; text.go likewise. [n] bounds
      the nesting. *)
  Fixpoint run (n : nat) (t : task) : rendered :=
    match n with
    | 0 => NoFuel
    | S n =>
      let named name v :=
        match tmpls name with
        | None => Err (RTemplate name)
        | Some t =>
          match (if html then esc_tree t else Some t) with
          | None => fails
          | Some t =>
            exec similar broken h str ext html (λ c, run n (TRender c)) (λ name v, run n (TExec name v)) t v
          end
        end in
      match t with
      | TRender (CLazy _ t) => match force t with Some x => run n (TRender x) | None => Err RLazy end
      | TRender (CAux x) => run n (TRender x)
      | TRender c =>
        match template_of h c with Some (name, v) => named (name +:+ ".tmpl") v | None => fails end
      | TExec name v => named name v
      end
    end.

  (** html.go:168-189, text.go:160-176 [RenderSection]: the HTML engine falls back
      to page.tmpl. *)
  Definition run_page (n : nat) (i : nat) : rendered :=
    match h !! i with
    | None => fails
    | Some s =>
      if String.eqb (s_style s) "" then run n (TExec "page.tmpl" (VSec i))
      else
        let own := s_style s +:+ "-page.tmpl" in
        match tmpls own, html with
        | None, true => run n (TExec "page.tmpl" (VSec i))
        | _, _ => run n (TExec own (VSec i))
        end
    end.
End run.

(** render/html.go:70,144, render/text.go:51,136: a template file. *)
Definition parse_file (name text : string) : option (list (string * list node)) := parse name (trim_right nl text).

(** The set of templates given by files, added to another. [None]: one of them does
    not parse. *)
Definition templates (s : tset (list node)) (l : list (string * string)) : option (tset (list node)) :=
  fold_left (λ o p, s ← o; add_text parse_file empty_tree s p.1 p.2) l (Some s).
Definition no_templates : tset (list node) := λ _, None.

(** render/html.go:60-77, render/text.go:43-60 [init]. *)
Definition bundled_html : tset (list node) := default no_templates (templates no_templates html_sources).
Definition bundled_text : tset (list node) := default no_templates (templates no_templates text_sources).
