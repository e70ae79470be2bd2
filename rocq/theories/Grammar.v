(** The Booklit language as a grammar: which text is a rendering of which tree.
    Unlike ast/booklit.peg this does not say how to parse: every constructor only
    says how a construct is written and what may follow it. [w] is the text of the
    construct, [u] the rest of the document. Invocations carry no location here.

    Blocks strip the indentation of their first line, which the parser keeps in a
    variable shared by all blocks; [s] and [s'] are that variable before and after
    (see [blines]). *)
From Coq Require Import Ascii String NArith.
From stdpp Require Import base list strings numbers.
From Verif Require Import GoBase Ast ParseSpec.
Local Open Scope string_scope.
Local Open Scope list_scope.

Definition noloc : loc := Loc 0 0 0.

(** A tree without its locations. *)
Fixpoint erase (nd : node) : node :=
  match nd with
  | NString t => NString t
  | NSeq l => NSeq (map erase l)
  | NPara ls => NPara (map (map erase) ls)
  | NPre ls => NPre (map (map erase) ls)
  | NInvoke f args _ => NInvoke f (map erase args) noloc
  end.

(** ** Characters *)

Definition blank (a : ascii) : bool := Ascii.eqb a " " || Ascii.eqb a "009".
Definition brk (a : ascii) : bool := Ascii.eqb a nl || Ascii.eqb a cr.
Definition special (a : ascii) : bool := Ascii.eqb a "\" || Ascii.eqb a "{" || Ascii.eqb a "}".
Definition text_char (a : ascii) : bool := negb (special a) && negb (brk a).
Definition verb_char (a : ascii) : bool := negb (Ascii.eqb a "}") && negb (brk a).

(** [u] does not start with a character of the class. *)
Definition ends (p : ascii → bool) (u : string) : Prop :=
  match u with String a _ => p a = false | "" => True end.
Definition starts (w u : string) : bool := has_prefix w u.

Definition is_break (w : string) : Prop := w = nls ∨ w = String cr nls.
Definition no_break (u : string) : Prop := starts nls u = false ∧ starts (String cr nls) u = false.

(** ** Comments *)

Inductive cbody : string → Prop :=
| cb_nil : cbody ""
| cb_nest b b' : cbody b → cbody b' → cbody ("{-" +:+ b +:+ "-}" +:+ b')
| cb_char a b : cbody b → starts "-}" (String a (b +:+ "-}")) = false →
    starts "{-" (String a (b +:+ "-}")) = false → cbody (String a b).

Inductive comment : string → Prop :=
| comment_intro t b : sforall blank t = true → cbody b → comment (t +:+ "{-" +:+ b +:+ "-}").

(** No comment starts here. *)
Inductive no_comment : string → Prop :=
| no_comment_intro t u : sforall blank t = true → ends blank u → starts "{-" u = false → no_comment (t +:+ u).

Inductive opt_comment : string → string → Prop :=
| opt_none u : no_comment u → opt_comment "" u
| opt_some w u : comment w → opt_comment w u.

(** Line breaks and comments between paragraphs. *)
Inductive spacing : string → Prop :=
| spacing_nil : spacing ""
| spacing_break w r : is_break w → spacing r → spacing (w +:+ r)
| spacing_comment w r : comment w → spacing r → spacing (w +:+ r).
Definition spacing_end (u : string) : Prop := no_break u ∧ no_comment u.

(** ** Verbatim text *)

Inductive vpieces : list string → string → string → Prop :=
| vp_nil u : ends verb_char u → (starts "}" u = true → starts "}}}" u = true) → vpieces [] "" u
| vp_run t ts w u : t ≠ "" → sforall verb_char t = true → ends verb_char (w +:+ u) →
    vpieces ts w u → vpieces (t :: ts) (t +:+ w) u
| vp_brace ts w u : starts "}}" (w +:+ u) = false → vpieces ts w u → vpieces ("}" :: ts) (String "}" w) u.

(** Lines of a block. [k] is the number of blanks to take off, decided by the
    first line unless [s] is given. *)
Inductive vlines : option nat → list (list node) → string → string → Prop :=
| vl_nil s u : vlines s [] "" u
| vl_cons s i ts w b ls r u k : sforall blank i = true → ends blank (w +:+ b +:+ r +:+ u) →
    vpieces ts w (b +:+ r +:+ u) → is_break b → k = default (String.length i) s →
    vlines (Some k) ls r u →
    vlines s ((NString (sdrop k i) :: map NString ts) :: ls) (i +:+ w +:+ b +:+ r) u.

(** ** Words *)

(** Where a line ends: nothing left, a line break, a closing brace, or a comment
    before one of these. *)
Definition stop0 (u : string) : Prop :=
  match u with String a _ => brk a = true ∨ a = "}"%char | "" => True end.
Inductive stop : string → Prop :=
| stop_now u : stop0 u → stop u
| stop_comment w u : comment w → stop0 u → stop (w +:+ u).

(** No line starts here. *)
Inductive line_stop : string → Prop :=
| line_stop_intro t u : sforall blank t = true → ends blank u → stop u → line_stop (t +:+ u).

Inductive word : option nat → node → string → string → option nat → Prop :=
| word_intro s nd p w q u s' : opt_comment p (w +:+ q +:+ u) → core s nd w (q +:+ u) s' → opt_comment q u →
    word s nd (p +:+ w +:+ q) u s'
with core : option nat → node → string → string → option nat → Prop :=
| core_text s t u : t ≠ "" → sforall text_char t = true → ends text_char u → core s (NString t) t u s
| core_escape s a u : special a = true → core s (NString (String a "")) (String "\" (String a "")) u s
| core_invoke s f args v u s' : name_ok f → ends name_char (v +:+ u) → arguments s args v u s' →
    core s (NInvoke f args noloc) (String "\" (f +:+ v)) u s'
| core_interp s nd w u s' : word s nd w ("}" +:+ u) s' → core s nd ("{" +:+ w +:+ "}") u s'
| core_empty s u : core s (NSeq []) "{}" u s
with arguments : option nat → list node → string → string → option nat → Prop :=
| args_nil s u : starts "{" u = false → arguments s [] "" u s
| args_cons s nd w l v u s1 s2 : arg s nd w (v +:+ u) s1 → arguments s1 l v u s2 →
    arguments s (nd :: l) (w +:+ v) u s2
with arg : option nat → node → string → string → option nat → Prop :=
| arg_empty s u : arg s (NString "") "{}" u s
| arg_line s ws w u s' : (starts "{" w = true → starts "{{" w = false ∧ no_break (sdrop 1 w +:+ "}")) →
    wrapped s ws w ("}" +:+ u) s' →
    arg s (NSeq ws) ("{" +:+ w +:+ "}") u s'
| arg_paras s b sp ps w t u s' : is_break b → spacing sp → spacing_end (w +:+ t +:+ "}" +:+ u) →
    paras s ps w (t +:+ "}" +:+ u) s' → sforall blank t = true →
    arg s (NSeq (map NPara ps)) ("{" +:+ b +:+ sp +:+ w +:+ t +:+ "}") u s'
| arg_verbatim s ts w u : vpieces ts w ("}}}" +:+ u) →
    arg s (NSeq (map NString ts)) ("{{{" +:+ w +:+ "}}}") u s
| arg_vblock s b ls w t u : is_break b → vlines s ls w (t +:+ "}}}" +:+ u) → sforall blank t = true →
    arg s (NPre ls) ("{{{" +:+ b +:+ w +:+ t +:+ "}}}") u None
| arg_block s b ls w t u s' : is_break b → blines s ls w (t +:+ "}}" +:+ u) s' → sforall blank t = true →
    arg s (NPre ls) ("{{" +:+ b +:+ w +:+ t +:+ "}}") u None
with blines : option nat → list (list node) → string → string → option nat → Prop :=
| bl_nil s u : blines s [] "" u s
| bl_cons s i ws w b ls r u k s1 s2 : sforall blank i = true → ends blank (w +:+ b +:+ r +:+ u) →
    k = default (String.length i) s →
    words (Some k) ws w (b +:+ r +:+ u) s1 → is_break b → blines s1 ls r u s2 →
    blines s ((NString (sdrop k i) :: ws) :: ls) (i +:+ w +:+ b +:+ r) u s2
with words : option nat → list node → string → string → option nat → Prop :=
| words_nil s u : stop u → words s [] "" u s
| words_cons s nd w l v u s1 s2 : word s nd w (v +:+ u) s1 → words s1 l v u s2 →
    words s (nd :: l) (w +:+ v) u s2
(** Words of an argument, which may go over several lines. *)
with wrapped : option nat → list node → string → string → option nat → Prop :=
| wrapped_intro s nd w l v u s1 s2 : word s nd w (v +:+ u) s1 → wrest s1 l v u s2 →
    wrapped s (nd :: l) (w +:+ v) u s2
with wrest : option nat → list node → string → string → option nat → Prop :=
| wrest_nil s u : stop u → no_break u → wrest s [] "" u s
| wrest_word s nd w l v u s1 s2 : word s nd w (v +:+ u) s1 → wrest s1 l v u s2 →
    wrest s (nd :: l) (w +:+ v) u s2
| wrest_split s b t l v u s2 : is_break b → sforall blank t = true → ends blank (v +:+ u) → wrest s l v u s2 →
    wrest s (NString " " :: l) (b +:+ t +:+ v) u s2
with line : option nat → list node → string → string → option nat → Prop :=
| line_intro s t l w u s' : sforall blank t = true → ends blank (w +:+ u) → l ≠ [] → words s l w u s' →
    line s l (t +:+ w) u s'
with para : option nat → list (list node) → string → string → option nat → Prop :=
| para_last s l w b u s' : line s l w (b +:+ u) s' → (is_break b ∨ b = "" ∧ no_break u) → line_stop u →
    para s [l] (w +:+ b) u s'
| para_cons s l w b ls v u s1 s2 : line s l w (b +:+ v +:+ u) s1 → is_break b → para s1 ls v u s2 →
    para s (l :: ls) (w +:+ b +:+ v) u s2
with paras : option nat → list (list (list node)) → string → string → option nat → Prop :=
| paras_last s p w sp u s' : para s p w (sp +:+ u) s' → spacing sp → spacing_end u → line_stop u →
    paras s [p] (w +:+ sp) u s'
| paras_cons s p w sp ps v u s1 s2 : para s p w (sp +:+ v +:+ u) s1 → spacing sp → spacing_end (v +:+ u) →
    paras s1 ps v u s2 →
    paras s (p :: ps) (w +:+ sp +:+ v) u s2.

(** A document. *)
Inductive document : list (list (list node)) → string → Prop :=
| document_intro sp ps w s' : spacing sp → spacing_end w → paras None ps w "" s' → document ps (sp +:+ w).
