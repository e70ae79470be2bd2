(** Contextual escaping: html/template/escape.go, transition.go, attr.go, html.go,
    url.go of Go's standard library.

    Before a template is executed its text is read as HTML, and every action is
    told by the text before it where it stands. Not modelled, and taken as errors:
    comments; actions inside of scripts, style sheets and the attributes that hold
    such, srcset attributes, and unquoted attribute values; scripts and style sheets
    that are not empty; character references in the text of a URL; a template
    called from within a tag. A template that cannot be escaped is an error when it
    is executed, in Go already when one is executed from which it could be called. *)
From Coq Require Import Ascii String.
From stdpp Require Import base strings list.
From Verif Require Import GoBase Html Tmpl.
Local Open Scope string_scope. Local Open Scope list_scope.

(** context.go [element], [attr], [urlPart]. *)
Inductive elem := LNone | LScript | LStyle | LTextarea | LTitle.
Inductive akind := ANone | AUrl | AOther.
Inductive upart := UNone | UPath | UQuery.
Global Instance elem_eq_dec : EqDecision elem.
Proof. solve_decision. Defined.
Global Instance akind_eq_dec : EqDecision akind.
Proof. solve_decision. Defined.
Global Instance upart_eq_dec : EqDecision upart.
Proof. solve_decision. Defined.

(** context.go [context]. *)
Inductive hctx :=
| HText
| HRcdata (e : elem)
| HRaw (e : elem)
| HTag (e : elem)
| HAttrName (e : elem) (a : akind)
| HAfterName (e : elem) (a : akind)
| HBeforeValue (e : elem) (a : akind)
| HValue (e : elem) (a : akind) (q : ascii) (u : upart).
Global Instance hctx_eq_dec : EqDecision hctx.
Proof. solve_decision. Defined.

(** attr.go [attrTypeMap]: the attributes holding URLs; style, srcset and the
    handlers of events are the others. *)
Definition url_attrs : list string :=
  ["action"; "archive"; "background"; "cite"; "classid"; "codebase"; "data"; "formaction"; "href"; "icon"; "longdesc";
   "manifest"; "poster"; "profile"; "src"; "usemap"; "xmlns"].
(** attr.go [attrTypeMap]: those that no value may name. *)
Definition unsafe_attrs : list string :=
  ["accept-charset"; "async"; "challenge"; "charset"; "content"; "crossorigin"; "defer"; "enctype"; "form"; "formenctype";
   "formmethod"; "formnovalidate"; "http-equiv"; "keytype"; "language"; "method"; "novalidate"; "pattern"; "rel"; "sandbox";
   "srcdoc"; "type"; "value"].
Fixpoint contains_str (p s : string) : bool :=
  has_prefix p s || match s with "" => false | String _ s => contains_str p s end.
Fixpoint split_char (q : ascii) (s : string) : string * option string :=
  match s with
  | "" => ("", None)
  | String c r => if Ascii.eqb c q then ("", Some r) else let '(a, o) := split_char q r in (String c a, o)
  end.
(** attr.go [attrType]. *)
Definition attr_kind (name : string) : akind :=
  let name := if has_prefix "data-" name then sdrop 5 name else
              match split_char ":" name with
              | (ns, Some l) => if String.eqb ns "xmlns" then "xmlns" else l
              | (_, None) => name
              end in
  if existsb (String.eqb name) url_attrs then AUrl
  else if existsb (String.eqb name) ["style"; "srcset"] then AOther
  else if existsb (String.eqb name) ["srcdoc"; "srclang"] then ANone
  else if has_prefix "on" name then AOther
  else if contains_str "src" name || contains_str "uri" name || contains_str "url" name then AUrl
  else ANone.

(** transition.go [elementNameMap]. *)
Definition elem_of (name : string) : elem :=
  let name := smap lower name in
  if String.eqb name "script" then LScript
  else if String.eqb name "style" then LStyle
  else if String.eqb name "textarea" then LTextarea
  else if String.eqb name "title" then LTitle
  else LNone.
Definition elem_name (e : elem) : string :=
  match e with LNone => "" | LScript => "script" | LStyle => "style" | LTextarea => "textarea" | LTitle => "title" end.
(** transition.go [elementContentType]. *)
Definition content_of (e : elem) : hctx :=
  match e with LNone => HText | LScript | LStyle => HRaw e | LTextarea | LTitle => HRcdata e end.

Definition is_html_sp (c : ascii) : bool := is_sp c || Ascii.eqb c "012".
Fixpoint skip_sp (s : string) : string * string :=
  match s with
  | String c r => if is_html_sp c then let '(a, b) := skip_sp r in (String c a, b) else ("", s)
  | "" => ("", "")
  end.

(** transition.go [eatTagName]: letters and digits, with colons and hyphens
    between them. *)
Fixpoint tag_name (s : string) : string * string :=
  match s with
  | String c r =>
    if is_lower c || is_upper c || is_digit c then let '(a, b) := tag_name r in (String c a, b)
    else if Ascii.eqb c ":" || Ascii.eqb c "-" then
      match r with
      | String d _ =>
        if is_lower d || is_upper d || is_digit d then let '(a, b) := tag_name r in (String c a, b) else ("", s)
      | "" => ("", s)
      end
    else ("", s)
  | "" => ("", "")
  end.
Definition eat_tag_name (s : string) : string * string :=
  match s with String c _ => if is_lower c || is_upper c then tag_name s else ("", s) | "" => ("", s) end.

(** transition.go [eatAttrName]. *)
Fixpoint attr_name (s : string) : option (string * string) :=
  match s with
  | "" => Some ("", "")
  | String c r =>
    if is_html_sp c || Ascii.eqb c "=" || Ascii.eqb c ">" then Some ("", s)
    else if Ascii.eqb c "'" || Ascii.eqb c """" || Ascii.eqb c "<" then None
    else '(a, b) ← attr_name r; Some (String c a, b)
  end.

(** transition.go [indexTagEnd]: the end tag of an element of which the content is
    not HTML. *)
Definition ends_element (e : elem) (s : string) : bool :=
  let m := "</" +:+ elem_name e in
  has_prefix m (smap lower s) &&
  match sdrop (String.length m) s with
  | String c _ => is_html_sp c || Ascii.eqb c ">" || Ascii.eqb c "/"
  | "" => false
  end.
Fixpoint split_end (e : elem) (s : string) : string * option string :=
  if ends_element e s then ("", Some s)
  else match s with "" => ("", None) | String c r => let '(a, o) := split_end e r in (String c a, o) end.

Fixpoint escape_lt (s : string) : string :=
  match s with "" => "" | String c s => (if Ascii.eqb c "<" then "&lt;" else String c "") +:+ escape_lt s end.

(** transition.go [tURL]. *)
Definition url_part (u : upart) (s : string) : upart :=
  if contains_str "#" s || contains_str "?" s then UQuery
  else match u with UNone => if sforall is_html_sp s then UNone else UPath | _ => u end.

Definition prepend (a : string) (o : option (string * hctx)) : option (string * hctx) :=
  '(b, c) ← o; Some (a +:+ b, c).

(** escape.go [escapeText], [contextAfterText], transition.go: the text as it is
    written, and where it ends. [n] bounds the number of steps; the bound taken
    below is never reached (TmplEscProofs.v). *)
Fixpoint esc_text (n : nat) (c : hctx) (s : string) : option (string * hctx) :=
  match n with
  | 0 => None
  | S n =>
    match s with
    | "" => Some ("", c)
    | String x r =>
      match c with
      | HText =>
        (** transition.go [tText] *)
        if Ascii.eqb x "<" then
          if has_prefix "!--" r then None
          else
            let '(slash, r') := match r with
              | String d r' => if Ascii.eqb d "/" then ("/", r') else ("", r)
              | "" => ("", r)
              end in
            match eat_tag_name r' with
            | ("", _) =>
              prepend (if has_prefix "<!DOCTYPE" (smap upper s) then "<" else "&lt;") (esc_text n c r)
            | (name, r'') =>
              prepend ("<" +:+ slash +:+ name)
                (esc_text n (HTag (if String.eqb slash "" then elem_of name else LNone)) r'')
            end
        else prepend (String x "") (esc_text n c r)
      | HRcdata e =>
        match split_end e s with
        | (a, Some b) => prepend (escape_lt a) (esc_text n HText b)
        | (a, None) => Some (escape_lt a, c)
        end
      | HRaw e =>
        match split_end e s with
        | (a, Some b) => if sforall is_html_sp a then prepend a (esc_text n HText b) else None
        | (a, None) => if sforall is_html_sp a then Some (a, c) else None
        end
      | HTag e =>
        (** [tTag] *)
        let '(sp, r) := skip_sp s in
        match r with
        | "" => Some (sp, c)
        | String y r' =>
          if Ascii.eqb y ">" then prepend (sp +:+ ">") (esc_text n (content_of e) r')
          else
            '(name, r'') ← attr_name r;
            match name with
            | "" => None
            | _ =>
              let a := attr_kind (smap lower name) in
              match r'' with
              | "" => Some (sp +:+ name, HAttrName e a)
              | _ => prepend (sp +:+ name) (esc_text n (HAfterName e a) r'')
              end
            end
        end
      | HAttrName e a =>
        '(name, r) ← attr_name s;
        match r with "" => Some (name, c) | _ => prepend name (esc_text n (HAfterName e a) r) end
      | HAfterName e a =>
        let '(sp, r) := skip_sp s in
        match r with
        | "" => Some (sp, c)
        | String y r' =>
          if Ascii.eqb y "=" then prepend (sp +:+ "=") (esc_text n (HBeforeValue e a) r')
          else prepend sp (esc_text n (HTag e) r)
        end
      | HBeforeValue e a =>
        let '(sp, r) := skip_sp s in
        match r with
        | "" => Some (sp, c)
        | String q r' =>
          if Ascii.eqb q """" || Ascii.eqb q "'" then prepend (sp +:+ String q "") (esc_text n (HValue e a q UNone) r')
          else None
        end
      | HValue e a q u =>
        match split_char q s with
        | (v, Some r) => prepend (v +:+ String q "") (esc_text n (HTag e) r)
        | (v, None) =>
          match a with
          | AUrl => if contains_str "&" v then None else Some (v, HValue e a q (url_part u v))
          | _ => Some (v, c)
          end
        end
      end
    end
  end.

(** escape.go [nudge]. *)
Definition nudge (c : hctx) : hctx :=
  match c with
  | HTag e => HAttrName e ANone
  | HAfterName e _ => HAttrName e ANone
  | _ => c
  end.

(** escape.go [escapeAction]. *)
Definition place_in (c : hctx) : option (place * hctx) :=
  let c := nudge c in
  match c with
  | HText => Some (XText, c)
  | HRcdata _ => Some (XRcdata, c)
  | HAttrName _ _ => Some (XName, c)
  | HValue _ ANone _ _ => Some (XAttr, c)
  | HValue _ AUrl _ UNone => Some (XUrl, c)
  | HValue _ AUrl _ UPath => Some (XUrlPath, c)
  | HValue _ AUrl _ UQuery => Some (XUrlQuery, c)
  | _ => None
  end.

(** escape.go [join]. *)
Definition join_ctx (a b : hctx) : option hctx :=
  if decide (a = b) then Some a
  else if decide (nudge a = nudge b) then Some (nudge a)
  else None.

(** escape.go [escapeList]. *)
Definition esc_list (f : hctx → node → option (node * hctx)) : hctx → list node → option (list node * hctx) :=
  fix go c l :=
    match l with
    | [] => Some ([], c)
    | x :: l =>
      match f c x with
      | None => None
      | Some (x, c) => match go c l with None => None | Some (l, c) => Some (x :: l, c) end
      end
    end.

(** escape.go [escape], [escapeBranch], [escapeTemplate]. *)
Fixpoint esc_node (c : hctx) (x : node) {struct x} : option (node * hctx) :=
  let branch (loop : bool) (k : list node → list node → node) (t e : list node) :=
    '(t', c0) ← esc_list esc_node c t;
    c0 ← (if loop then '(_, c1) ← esc_list esc_node c0 t; join_ctx c0 c1 else Some c0);
    '(e', c1) ← esc_list esc_node c e;
    c2 ← join_ctx c0 c1;
    Some (k t' e', c2) in
  match x with
  | NText s => '(s, c) ← esc_text (4 + 4 * String.length s) c s; Some (NText s, c)
  | NAct _ p => '(x, c) ← place_in c; Some (NAct x p, c)
  | NDecl _ _ => Some (x, c)
  | NIf p t e => branch false (NIf p) t e
  | NWith p t e => branch false (NWith p) t e
  | NRange vs p t e => branch true (NRange vs p) t e
  | NCall _ _ => match c with HText => Some (x, c) | _ => None end
  end.

(** escape.go [escapeTemplate]: a template must end where it began. *)
Definition esc_tree (t : list node) : option (list node) :=
  '(t, c) ← esc_list esc_node HText t;
  match c with HText => Some t | _ => None end.
