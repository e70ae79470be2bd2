(** Where the actions of an HTML template stand: how the text of a template reads as
    HTML, and what may stand where (the documentation of Go's html/template). Only
    templates that are written well are covered: quoted attribute values, no [<] that
    begins no tag, empty scripts and style sheets, no action within a name but at its
    end. *)
From Coq Require Import Ascii String.
From stdpp Require Import base strings list.
From Verif Require Import GoBase Tmpl TmplEsc.
Local Open Scope string_scope. Local Open Scope list_scope.

(** ** Attributes *)

Definition has (p s : string) : Prop := ∃ a z, s = a +:+ p +:+ z.
Definition begins (p s : string) : Prop := ∃ z, s = p +:+ z.

(** The name of an attribute without what does not matter: a "data-", a namespace. *)
Inductive local : string → string → Prop :=
| l_data n : local ("data-" +:+ n) n
| l_xmlns n : local ("xmlns:" +:+ n) "xmlns"
| l_space ns n : ns ≠ "xmlns" → ¬ has ":" ns → ¬ begins "data-" (ns +:+ ":" +:+ n) → local (ns +:+ ":" +:+ n) n
| l_plain n : ¬ has ":" n → ¬ begins "data-" n → local n n.

(** The attributes of HTML that hold URLs. *)
Definition url_names : list string :=
  ["action"; "archive"; "background"; "cite"; "classid"; "codebase"; "data"; "formaction"; "href"; "icon"; "longdesc";
   "manifest"; "poster"; "profile"; "src"; "usemap"; "xmlns"].
(** Attributes that hold scripts, style sheets, or lists of URLs. *)
Definition coded (n : string) : Prop := n = "style" ∨ n = "srcset" ∨ begins "on" n.
Definition holds_code (a : string) : Prop := ∃ n, local a n ∧ coded n.
Definition holds_url (a : string) : Prop :=
  ∃ n, local a n ∧ (n ∈ url_names ∨ (¬ coded n ∧ n ∉ ["srcdoc"; "srclang"] ∧ (has "src" n ∨ has "uri" n ∨ has "url" n))).

(** ** Reading *)

Definition html_blank (c : ascii) : Prop := c ∈ [" "; "009"; "010"; "012"; "013"]%char.
Definition html_blanks (s : string) : Prop := ∀ c, c ∈ list_ascii_of_string s → html_blank c.
Definition letter (c : ascii) : bool := is_lower c || is_upper c.
Definition alnum (c : ascii) : bool := letter c || is_digit c.

(** Letters and digits, with single hyphens and colons between them. *)
Inductive tag_rest : string → Prop :=
| tr_nil : tag_rest ""
| tr_char c s : alnum c = true → tag_rest s → tag_rest (String c s)
| tr_sep c d s : c = ":"%char ∨ c = "-"%char → alnum d = true → tag_rest s → tag_rest (String c (String d s)).
Definition tag_word (w : string) : Prop := ∃ c s, w = String c s ∧ letter c = true ∧ tag_rest s.
Definition attr_word (w : string) : Prop :=
  w ≠ "" ∧ ∀ c, c ∈ list_ascii_of_string w → ¬ html_blank c ∧ c ∉ ["="; ">"; "<"; "'"; """"]%char.
Definition low (s : string) : string := smap lower s.

(** The elements of which the content is not HTML. *)
Inductive is_elem : string → elem → Prop :=
| ie_script w : low w = "script" → is_elem w LScript
| ie_style w : low w = "style" → is_elem w LStyle
| ie_textarea w : low w = "textarea" → is_elem w LTextarea
| ie_title w : low w = "title" → is_elem w LTitle
| ie_other w : low w ∉ ["script"; "style"; "textarea"; "title"] → is_elem w LNone.
(** What an attribute holds: a URL, code, or neither. *)
Inductive is_attr : string → akind → Prop :=
| ia_url w : holds_url (low w) → is_attr w AUrl
| ia_code w : holds_code (low w) → is_attr w AOther
| ia_plain w : ¬ holds_url (low w) → ¬ holds_code (low w) → is_attr w ANone.

(** Where one is: in the content of elements; in the content of a title or text area;
    in a script or style sheet; in a tag, between its parts; after a name in a tag
    that ends with the value of an action; after the [=] of an attribute; in the
    quoted value of an attribute (for URLs: before, in and after its path). *)
Inductive spot :=
| InText
| InPlain (e : elem)
| InCode (e : elem)
| InTag (e : elem)
| InName (e : elem)
| InEq (e : elem) (a : akind)
| InValue (e : elem) (a : akind) (q : ascii) (u : upart).

Definition inside (e : elem) : spot :=
  match e with LNone => InText | LTitle | LTextarea => InPlain e | LScript | LStyle => InCode e end.

(** A name ends before [s]. *)
Definition name_ends (s : string) : Prop := match s with "" => True | String c _ => html_blank c ∨ c = ">"%char ∨ c = "/"%char end.
(** An attribute without a value ends before [s]. *)
Definition flag_ends (s : string) : Prop :=
  begins ">" s ∨ ∃ sp c r, s = sp +:+ String c r ∧ sp ≠ "" ∧ html_blanks sp ∧ ¬ html_blank c ∧ c ≠ "="%char.

(** How far in a URL one is after the text [v]. *)
Inductive moves : akind → upart → string → upart → Prop :=
| mv_other a u v : a ≠ AUrl → moves a u v u
| mv_query u v : has "#" v ∨ has "?" v → moves AUrl u v UQuery
| mv_start v : html_blanks v → moves AUrl UNone v UNone
| mv_path v : ¬ has "#" v → ¬ has "?" v → ¬ html_blanks v → moves AUrl UNone v UPath
| mv_stay u v : ¬ has "#" v → ¬ has "?" v → u ≠ UNone → moves AUrl u v u.

Inductive reads : spot → string → spot → Prop :=
| r_end c : reads c "" c
(** text, and tags *)
| r_char x s c : x ≠ "<"%char → reads InText s c → reads InText (String x s) c
| r_doctype s c : reads InText s c → reads InText ("<!DOCTYPE" +:+ s) c
| r_open w e s c : tag_word w → is_elem w e → name_ends s → reads (InTag e) s c → reads InText ("<" +:+ w +:+ s) c
| r_close w s c : tag_word w → name_ends s → reads (InTag LNone) s c → reads InText ("</" +:+ w +:+ s) c
(** the inside of tags *)
| r_blank e x s c : html_blank x → reads (InTag e) s c → reads (InTag e) (String x s) c
| r_tag_end e s c : reads (inside e) s c → reads (InTag e) (">" +:+ s) c
| r_attr e w a sp s c : attr_word w → is_attr w a → html_blanks sp → reads (InEq e a) s c → reads (InTag e) (w +:+ sp +:+ "=" +:+ s) c
| r_flag e w s c : attr_word w → flag_ends s → reads (InTag e) s c → reads (InTag e) (w +:+ s) c
| r_name e s c : flag_ends s → reads (InTag e) s c → reads (InName e) s c
(** values *)
| r_eq_blank e a x s c : html_blank x → reads (InEq e a) s c → reads (InEq e a) (String x s) c
| r_quote e a q s c : q = "'"%char ∨ q = """"%char → reads (InValue e a q UNone) s c → reads (InEq e a) (String q s) c
| r_value_end e a q u v s c : ¬ has (String q "") v → reads (InTag e) s c → reads (InValue e a q u) (v +:+ String q s) c
| r_value e a q u v u' : ¬ has (String q "") v → v ≠ "" → (a = AUrl → ¬ has "&" v) → moves a u v u' → reads (InValue e a q u) v (InValue e a q u')
(** titles, text areas, scripts, style sheets *)
| r_plain e t : ¬ has "<" t → reads (InPlain e) t (InPlain e)
| r_plain_end e t w s c : ¬ has "<" t → is_elem w e → e ≠ LNone → name_ends s → s ≠ "" → reads InText ("</" +:+ w +:+ s) c → reads (InPlain e) (t +:+ "</" +:+ w +:+ s) c
| r_code e t : html_blanks t → reads (InCode e) t (InCode e)
| r_code_end e t w s c : html_blanks t → is_elem w e → e ≠ LNone → name_ends s → s ≠ "" → reads InText ("</" +:+ w +:+ s) c → reads (InCode e) (t +:+ "</" +:+ w +:+ s) c.

(** ** Actions *)

(** How a value is written where it stands, and where one is after it. *)
Inductive stands : spot → place → spot → Prop :=
| st_text : stands InText XText InText
| st_plain e : stands (InPlain e) XRcdata (InPlain e)
| st_tag e : stands (InTag e) XName (InName e)
| st_name e : stands (InName e) XName (InName e)
| st_attr e q u : stands (InValue e ANone q u) XAttr (InValue e ANone q u)
| st_url e q : stands (InValue e AUrl q UNone) XUrl (InValue e AUrl q UNone)
| st_path e q : stands (InValue e AUrl q UPath) XUrlPath (InValue e AUrl q UPath)
| st_query e q : stands (InValue e AUrl q UQuery) XUrlQuery (InValue e AUrl q UQuery).
(** No value may stand in code. *)
Inductive code_spot : spot → Prop :=
| cs_element e : code_spot (InCode e)
| cs_attr e q u : code_spot (InValue e AOther q u).

(** Two ways that come to an end together. *)
Inductive meet : spot → spot → spot → Prop :=
| m_same c : meet c c c
| m_left e : meet (InTag e) (InName e) (InName e)
| m_right e : meet (InName e) (InTag e) (InName e).

(** [placed c l l' c']: from [c] the nodes [l] lead to [c'], and their actions stand
    where [l'] says. *)
Inductive placed1 : spot → node → node → spot → Prop :=
| pl_text c s c' : reads c s c' → placed1 c (NText s) (NText s) c'
| pl_act c x p y c' : stands c y c' → placed1 c (NAct x p) (NAct y p) c'
| pl_let c v p : placed1 c (NDecl v p) (NDecl v p) c
| pl_if c p t e t' e' c1 c2 c' : placed c t t' c1 → placed c e e' c2 → meet c1 c2 c' → placed1 c (NIf p t e) (NIf p t' e') c'
| pl_with c p t e t' e' c1 c2 c' : placed c t t' c1 → placed c e e' c2 → meet c1 c2 c' → placed1 c (NWith p t e) (NWith p t' e') c'
| pl_range c vs p t e t' e' c1 c2 c' : placed c t t' c1 → placed c1 t t' c1 → placed c e e' c2 → meet c1 c2 c' → placed1 c (NRange vs p t e) (NRange vs p t' e') c'
| pl_call n p : placed1 InText (NCall n p) (NCall n p) InText
with placed : spot → list node → list node → spot → Prop :=
| pl_nil c : placed c [] [] c
| pl_cons c x x' c1 l l' c' : placed1 c x x' c1 → placed c1 l l' c' → placed c (x :: l) (x' :: l') c'.

(** What is refused: values in code; ways that come to an end differently. *)
Inductive wrong1 : spot → node → Prop :=
| wr_act c x p : code_spot c → wrong1 c (NAct x p)
| wr_if_then c p t e : wrong c t → wrong1 c (NIf p t e)
| wr_if_else c p t e : wrong c e → wrong1 c (NIf p t e)
| wr_if c p t e t' e' c1 c2 : placed c t t' c1 → placed c e e' c2 → (∀ c', ¬ meet c1 c2 c') → wrong1 c (NIf p t e)
| wr_with_then c p t e : wrong c t → wrong1 c (NWith p t e)
| wr_with_else c p t e : wrong c e → wrong1 c (NWith p t e)
| wr_with c p t e t' e' c1 c2 : placed c t t' c1 → placed c e e' c2 → (∀ c', ¬ meet c1 c2 c') → wrong1 c (NWith p t e)
| wr_range_body c vs p t e : wrong c t → wrong1 c (NRange vs p t e)
| wr_range_else c vs p t e : wrong c e → wrong1 c (NRange vs p t e)
| wr_range c vs p t e t' e' c1 c2 : placed c t t' c1 → placed c1 t t' c1 → placed c e e' c2 → (∀ c', ¬ meet c1 c2 c') → wrong1 c (NRange vs p t e)
with wrong : spot → list node → Prop :=
| wr_here c x l : wrong1 c x → wrong c (x :: l)
| wr_later c x x' c1 l : placed1 c x x' c1 → wrong c1 l → wrong c (x :: l).

Scheme placed1_mut := Minimality for placed1 Sort Prop
with placed_mut := Minimality for placed Sort Prop.
Combined Scheme placed_all from placed1_mut, placed_mut.
Scheme wrong1_mut := Minimality for wrong1 Sort Prop
with wrong_mut := Minimality for wrong Sort Prop.
Combined Scheme wrong_all from wrong1_mut, wrong_mut.
