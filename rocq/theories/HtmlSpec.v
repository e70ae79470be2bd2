(** Reading HTML, independently of how it is written: a tokenizer in the manner of
    the HTML standard, character by character, strict about everything; and
    balanced markup. *)
From Coq Require Import Ascii String.
From stdpp Require Import base strings list.
From Verif Require Import GoBase Ast Content Section.
Local Open Scope string_scope. Local Open Scope list_scope.

Inductive token :=
| TChar (c : ascii)
| TOpen (name : string) (attrs : list (string * string))
| TClose (name : string)
| TVoid (name : string) (attrs : list (string * string))
| TDoctype (d : string).

(** Character references. *)
Definition entity (e : string) : option ascii :=
  if String.eqb e "amp" then Some "&"%char
  else if String.eqb e "lt" then Some "<"%char
  else if String.eqb e "gt" then Some ">"%char
  else if String.eqb e "#34" then Some """"%char
  else if String.eqb e "#39" then Some "'"%char
  else if String.eqb e "#43" then Some "+"%char
  else None.

Inductive tstate :=
| SText
| SEntity (e : string)
| STag
| SDecl (d : string)
| SName (n : string)
| SEnd (n : string)
| SAttrs (n : string) (l : list (string * string))
| SAttr (n : string) (l : list (string * string)) (a : string)
| SQuote (n : string) (l : list (string * string)) (a : string)
| SValue (n : string) (l : list (string * string)) (a v : string)
| SValueEntity (n : string) (l : list (string * string)) (a v e : string)
| SAfter (n : string) (l : list (string * string))
| SSlash (n : string) (l : list (string * string)).

Definition snoc (s : string) (c : ascii) : string := s +:+ String c "".

Definition name_char (c : ascii) : bool := is_lower c || is_digit c.
Definition attr_char (c : ascii) : bool := is_lower c || Ascii.eqb c "-".

Definition tstep (s : tstate) (c : ascii) : option (tstate * list token) :=
  match s with
  | SText =>
    if Ascii.eqb c "<" then Some (STag, [])
    else if Ascii.eqb c "&" then Some (SEntity "", [])
    else if Ascii.eqb c ">" || Ascii.eqb c """" || Ascii.eqb c "'" || Ascii.eqb c "000" then None
    else Some (SText, [TChar c])
  | SEntity e =>
    if Ascii.eqb c ";" then x ← entity e; Some (SText, [TChar x]) else Some (SEntity (snoc e c), [])
  | STag =>
    if Ascii.eqb c "/" then Some (SEnd "", [])
    else if Ascii.eqb c "!" then Some (SDecl "", [])
    else if is_lower c then Some (SName (String c ""), [])
    else None
  | SDecl d => if Ascii.eqb c ">" then Some (SText, [TDoctype d]) else Some (SDecl (snoc d c), [])
  | SName n =>
    if Ascii.eqb c ">" then Some (SText, [TOpen n []])
    else if Ascii.eqb c " " then Some (SAttrs n [], [])
    else if name_char c then Some (SName (snoc n c), [])
    else None
  | SEnd n =>
    if Ascii.eqb c ">" then Some (SText, [TClose n])
    else if name_char c then Some (SEnd (snoc n c), [])
    else None
  | SAttrs n l =>
    if Ascii.eqb c "/" then Some (SSlash n l, [])
    else if attr_char c then Some (SAttr n l (String c ""), [])
    else None
  | SAttr n l a =>
    if Ascii.eqb c "=" then Some (SQuote n l a, [])
    else if attr_char c then Some (SAttr n l (snoc a c), [])
    else None
  | SQuote n l a => if Ascii.eqb c """" then Some (SValue n l a "", []) else None
  | SValue n l a v =>
    if Ascii.eqb c """" then Some (SAfter n (l ++ [(a, v)]), [])
    else if Ascii.eqb c "&" then Some (SValueEntity n l a v "", [])
    else if Ascii.eqb c "<" || Ascii.eqb c ">" || Ascii.eqb c "'" || Ascii.eqb c "000" then None
    else Some (SValue n l a (snoc v c), [])
  | SValueEntity n l a v e =>
    if Ascii.eqb c ";" then x ← entity e; Some (SValue n l a (snoc v x), [])
    else Some (SValueEntity n l a v (snoc e c), [])
  | SAfter n l =>
    if Ascii.eqb c ">" then Some (SText, [TOpen n l])
    else if Ascii.eqb c " " then Some (SAttrs n l, [])
    else None
  | SSlash n l => if Ascii.eqb c ">" then Some (SText, [TVoid n l]) else None
  end.

Fixpoint read (st : tstate) (s : string) : option (tstate * list token) :=
  match s with
  | "" => Some (st, [])
  | String c s =>
    match tstep st c with
    | None => None
    | Some (st', ts) => match read st' s with None => None | Some (st'', ts') => Some (st'', ts ++ ts') end
    end
  end.

(** The tokens of a document. *)
Definition tokens (s : string) : option (list token) :=
  match read SText s with Some (SText, ts) => Some ts | _ => None end.

(** Elements are closed in the reverse order of their opening. *)
Fixpoint balance (stack : list string) (ts : list token) : option (list string) :=
  match ts with
  | [] => Some stack
  | TOpen n _ :: ts => balance (n :: stack) ts
  | TClose n :: ts =>
    match stack with m :: stack => if String.eqb m n then balance stack ts else None | [] => None end
  | _ :: ts => balance stack ts
  end.
Definition balanced (ts : list token) : Prop := balance [] ts = Some [].

(** The scheme of a URL: a letter and then letters, digits, plus, minus, dots, up
    to a colon (RFC 3986, 3.1). *)
Definition scheme_char (c : ascii) : bool :=
  is_lower c || is_upper c || is_digit c || Ascii.eqb c "+" || Ascii.eqb c "-" || Ascii.eqb c ".".
Definition has_scheme (u s : string) : Prop :=
  ∃ rest, u = s +:+ String ":" rest ∧ sforall scheme_char s = true ∧ s ≠ "".

Definition harmless (u : string) : Prop :=
  ∀ s, has_scheme u s → smap lower s = "http" ∨ smap lower s = "https" ∨ smap lower s = "mailto".

(** The elements and attributes of the templates. *)
Definition element_names : list string :=
  ["a"; "blockquote"; "body"; "code"; "dd"; "div"; "dl"; "dt"; "em"; "h1"; "h2"; "h3"; "h4"; "h5"; "h6"; "head"; "html";
   "li"; "nav"; "ol"; "p"; "pre"; "span"; "strong"; "sub"; "sup"; "table"; "td"; "title"; "tr"; "ul"].
Definition attr_ok (a : string * string) : Prop :=
  match a with
  | (n, v) => n = "id" ∨ n = "alt" ∨ (n = "href" ∨ n = "src") ∧ harmless v ∨
      (n, v) ∈ [("class", "aside"); ("class", "inset"); ("class", "section-header"); ("class", "section-number");
                ("style", "margin: 0 2em 1em"); ("style", "font-size: 120%"); ("style", "font-size: 80%");
                ("style", "text-decoration: line-through"); ("http-equiv", "content-type");
                ("content", "text/html; charset=utf-8")]
  end.
Definition from_template (t : token) : Prop :=
  match t with
  | TChar _ => True
  | TOpen n l => n ∈ element_names ∧ Forall attr_ok l
  | TClose n => n ∈ element_names
  | TVoid n l => (n = "img" ∨ n = "meta") ∧ Forall attr_ok l
  | TDoctype d => d = "DOCTYPE html"
  end.

(** ** No raw HTML *)

(** No part of a content has the style raw-html. *)
Fixpoint clean (c : content) : bool :=
  match c with
  | CSeq l | CPara l | CPre l | CList l _ => forallb clean l
  | CRef _ _ rc _ _ => match rc with Some c => clean c | None => true end
  | CLink c _ => clean c
  | CStyled st _ c _ => negb (String.eqb st "raw-html") && clean c
  | CTarget _ _ ti x =>
    match ti with Some c => clean c | None => true end && match x with Some c => clean c | None => true end
  | CTable rows => forallb (forallb clean) rows
  | CDefs defs => forallb (λ p, match p with (s, d) => clean s && clean d end) defs
  | CAux c => clean c
  | CString _ | CSection _ | CToc _ | CImage _ _ | CLazy _ _ => true
  end.

(** Nor has a section, nor what its tags show. *)
Definition clean_section (s : section) : Prop :=
  s_style s ≠ "raw-html" ∧ clean (s_title s) = true ∧ clean (s_body s) = true ∧
  Forall (λ t, ∀ c, t_title t = Some c → clean c = true) (s_tags s).
Definition clean_heap (h : heap) : Prop := ∀ i s, h !! i = Some s → clean_section s.
