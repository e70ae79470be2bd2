(** What a page may consist of, whatever the templates are. *)
From Coq Require Import Ascii String.
From stdpp Require Import base tactics strings list.
From Verif Require Import GoBase Content Section Tmpl TmplExec.
Local Open Scope string_scope.
Local Open Scope list_scope.

(** Text that cannot begin or end a tag or an attribute value. *)
Definition inert (s : string) : Prop :=
  sforall (λ c, negb (existsb (Ascii.eqb c) ["<"; ">"; """"; "'"]%char)) s = true.

(** The text in a template outside its actions. *)
Fixpoint texts (x : node) : list string :=
  match x with
  | NText s => [s]
  | NAct _ _ | NDecl _ _ | NCall _ _ => []
  | NIf _ t e | NWith _ t e | NRange _ _ t e => flat_map texts t ++ flat_map texts e
  end.

(** [s'] is [s], with some [<] written as [&lt;]. *)
Inductive softened : string → string → Prop :=
| soft_nil : softened "" ""
| soft_same c s s' : softened s s' → softened (String c s) (String c s')
| soft_lt s s' : softened s s' → softened (String "<" s) ("&lt;" +:+ s').

(** The contents directly in a content. *)
Definition parts (c : content) : list content :=
  match c with
  | CSeq l | CPara l | CPre l | CList l _ => l
  | CRef _ _ o _ _ => match o with Some c => [c] | None => [] end
  | CLink c _ | CAux c => [c]
  | CStyled _ _ c ps => c :: omap snd ps
  | CTarget _ _ t o => (match t with Some c => [c] | None => [] end) ++ (match o with Some c => [c] | None => [] end)
  | CTable rows => concat rows
  | CDefs l => flat_map (λ p : content * content, [p.1; p.2]) l
  | CString _ | CSection _ | CToc _ | CImage _ _ | CLazy _ _ => []
  end.
(** The contents of a section. *)
Definition tag_contents (t : tag) : list content := omap id [t_title t; t_content t].
Definition held (s : section) : list content :=
  s_title s :: s_body s :: omap snd (s_partials s) ++ flat_map tag_contents (s_primary s :: s_tags s).

(** The contents of a document. *)
Inductive occurs (h : heap) (force : nat → option content) : content → Prop :=
| occ_section i : occurs h force (CSection i)
| occ_string s : occurs h force (CString s)
| occ_held i s c : h !! i = Some s → c ∈ held s → occurs h force c
| occ_part c c' : occurs h force c → c' ∈ parts c → occurs h force c'
| occ_lazy b t c : occurs h force (CLazy b t) → force t = Some c → occurs h force c
| occ_stripped c c' : occurs h force c → strip_aux c = Some c' → occurs h force c'.

(** A function occurs in a pipeline. *)
Fixpoint uses (f : string) (o : operand) : bool :=
  match o with
  | OFunc g => String.eqb g f
  | OParen p => existsb (existsb (uses f)) p
  | _ => false
  end.
Definition pipe_uses (f : string) (p : pipe) : bool := existsb (existsb (uses f)) p.
(** A node neither uses the function [f] nor the template [n]. *)
Fixpoint without (f n : string) (x : node) : bool :=
  match x with
  | NText _ => true
  | NAct _ p | NDecl _ p => negb (pipe_uses f p)
  | NIf p t e | NWith p t e | NRange _ p t e => negb (pipe_uses f p) && forallb (without f n) t && forallb (without f n) e
  | NCall m p => negb (String.eqb m n) && match p with Some p => negb (pipe_uses f p) | None => true end
  end.

(** Only raw-html.tmpl inserts HTML as it is, that of the content it is for. *)
Definition raw_html_tree : list node := [NAct XRaw [[ODot]; [OFunc "rawHTML"]]].
Definition raw_only_there (T : string → option (list node)) : Prop := ∀ n t, T n = Some t →
  (n = "raw-html.tmpl" ∧ t = raw_html_tree) ∨
  (n ≠ "raw-html.tmpl" ∧ forallb (without "rawHTML" "raw-html.tmpl") t = true).

(** Built of text of the templates, of inert text, and of what was to be inserted
    as it is. *)
Inductive made (h : heap) (force : nat → option content) (str : content → outcome error string)
    (T : string → option (list node)) : string → Prop :=
| made_nil : made h force str T ""
| made_app a b : made h force str T a → made h force str T b → made h force str T (a +:+ b)
| made_text n t s s' : T n = Some t → s ∈ flat_map texts t → softened s s' → made h force str T s'
| made_inert s : inert s → made h force str T s
| made_raw c v s : occurs h force c → template_of h c = Some ("raw-html", v) → str c = Ok s → made h force str T s.
