(** Ways of writing a syntax tree. [show] prints a tree in one way; the relations
    below allow comments after words, line breaks of either kind and any spacing
    between paragraphs. Nothing here depends on what follows in the document. *)
From Coq Require Import Ascii String NArith.
From stdpp Require Import base list strings numbers.
From Verif Require Import GoBase Ast ParseSpec Grammar.
Local Open Scope string_scope.
Local Open Scope list_scope.

(** A run of text without special characters. *)
Definition is_run (nd : node) : bool :=
  match nd with NString (String a t) => sforall text_char (String a t) | _ => false end.
Definition starts_run (l : list node) : bool := match l with nd :: _ => is_run nd | [] => false end.
(** Text made only of blanks. *)
Definition all_blank (nd : node) : bool := match nd with NString t => sforall blank t | _ => false end.
Definition starts_blank (l : list node) : bool :=
  match l with NString (String a _) :: _ => blank a | _ => false end.

(** What may follow the word [nd]: nothing, or a comment. *)
Definition remark (nd : node) (c : string) : Prop :=
  c = "" ∨ comment c ∧ (is_run nd = true → ends blank c) ∧ all_blank nd = false.

(** What separates paragraphs after the line break of the last line. *)
Definition separator (sp : string) : Prop :=
  spacing sp ∧ ((∃ b r, is_break b ∧ sp = b +:+ r) ∨ (∃ c b r, comment c ∧ is_break b ∧ sp = c +:+ b +:+ r)).

(** The first line of a block has no indentation left. *)
Definition flush (ls : list (list node)) : Prop :=
  match ls with (NString i :: _) :: _ => i = "" | _ => True end.

(** [true] if preformatted blocks may occur: they may not inside one another, see
    [nested_indent_refuted]. *)
Inductive wword : bool → node → string → Prop :=
| ww_run b t : is_run (NString t) = true → valid_utf8 t → wword b (NString t) t
| ww_escape b a : special a = true → wword b (NString (String a "")) (String "\" (String a ""))
| ww_empty b : wword b (NSeq []) "{}"
| ww_invoke b f args l w : name_ok f → wargs b args w → wword b (NInvoke f args l) ("{\" +:+ f +:+ w +:+ "}")
with wargs : bool → list node → string → Prop :=
| wa_nil b : wargs b [] ""
| wa_cons b nd l w v : warg b nd w → wargs b l v → wargs b (nd :: l) (w +:+ v)
with warg : bool → node → string → Prop :=
| wa_empty b : warg b (NString "") "{}"
| wa_line b ws w : ws ≠ [] → wwords b ws w → warg b (NSeq ws) ("{" +:+ w +:+ "}")
| wa_paras b ps br w : is_break br → wparas b ps w → warg b (NSeq (map NPara ps)) ("{" +:+ br +:+ w +:+ "}")
| wa_block ls br w : is_break br → flush ls → wblock ls w → warg true (NPre ls) ("{{" +:+ br +:+ w +:+ "}}")
with wwords : bool → list node → string → Prop :=
| wws_nil b : wwords b [] ""
| wws_cons b nd l w c v : wword b nd w → remark nd c → valid_utf8 c → wwords b l v →
    (is_run nd = true → c = "" → starts_run l = false) →
    wwords b (nd :: l) (w +:+ c +:+ v)
with wblock : list (list node) → string → Prop :=
| wb_nil : wblock [] ""
| wb_cons i ws ls br w v : sforall blank i = true → starts_blank ws = false → wwords false ws w → is_break br →
    wblock ls v → wblock ((NString i :: ws) :: ls) (i +:+ w +:+ br +:+ v)
with wpara : bool → list (list node) → string → Prop :=
| wp_last b l w : l ≠ [] → starts_blank l = false → wwords b l w → wpara b [l] w
| wp_cons b l w br ls v : l ≠ [] → starts_blank l = false → wwords b l w → is_break br → wpara b ls v →
    wpara b (l :: ls) (w +:+ br +:+ v)
with wparas : bool → list (list (list node)) → string → Prop :=
| wps_last b p w : wpara b p w → wparas b [p] w
| wps_cons b p w br sp ps v : wpara b p w → is_break br → separator sp → valid_utf8 sp → wparas b ps v →
    wparas b (p :: ps) (w +:+ br +:+ sp +:+ v).

Definition written (ps : list (list (list node))) (d : string) : Prop := wparas true ps d.

(** ** A printer *)

Definition join (sep : string) (l : list string) : string :=
  match l with [] => "" | w :: r => w +:+ sconcat (map (String.append sep) r) end.

Fixpoint show (nd : node) : string :=
  match nd with
  | NString (String a "") => if special a then String "\" (String a "") else String a ""
  | NString t => t
  | NSeq [] => "{}"
  | NInvoke f args _ => "{\" +:+ f +:+ sconcat (map show_arg args) +:+ "}"
  | _ => ""
  end
with show_arg (nd : node) : string :=
  match nd with
  | NSeq (NPara ls :: r) =>
      let para p := match p with
                    | NPara ls => join nls (map (λ l, sconcat (map show l)) ls)
                    | _ => ""
                    end in
      "{" +:+ nls +:+ join (nls +:+ nls) (para (NPara ls) :: map para r) +:+ "}"
  | NSeq ws => "{" +:+ sconcat (map show ws) +:+ "}"
  | NPre ls => "{{" +:+ nls +:+ sconcat (map (λ l, sconcat (map show l) +:+ nls) ls) +:+ "}}"
  | _ => "{}"
  end.

Definition show_para (ls : list (list node)) : string := join nls (map (λ l, sconcat (map show l)) ls).
Definition show_doc (ps : list (list (list node))) : string := join (nls +:+ nls) (map show_para ps).

(** Trees the printer can print: no two runs of text in a row, no blanks where
    they would be dropped, blocks not nested in blocks. *)
Inductive nword : bool → node → Prop :=
| nw_run b t : is_run (NString t) = true → valid_utf8 t → nword b (NString t)
| nw_escape b a : special a = true → nword b (NString (String a ""))
| nw_empty b : nword b (NSeq [])
| nw_invoke b f args l : name_ok f → nargs b args → nword b (NInvoke f args l)
with nargs : bool → list node → Prop :=
| na_nil b : nargs b []
| na_cons b nd l : narg b nd → nargs b l → nargs b (nd :: l)
with narg : bool → node → Prop :=
| na_empty b : narg b (NString "")
| na_line b ws : ws ≠ [] → nwords b ws → narg b (NSeq ws)
| na_paras b ps : nparas b ps → narg b (NSeq (map NPara ps))
| na_block ls : flush ls → nblock ls → narg true (NPre ls)
with nwords : bool → list node → Prop :=
| nws_nil b : nwords b []
| nws_cons b nd l : nword b nd → nwords b l → (is_run nd = true → starts_run l = false) → nwords b (nd :: l)
with nblock : list (list node) → Prop :=
| nb_nil : nblock []
| nb_cons i ws ls : sforall blank i = true → starts_blank ws = false → nwords false ws → nblock ls →
    nblock ((NString i :: ws) :: ls)
with npara : bool → list (list node) → Prop :=
| np_last b l : l ≠ [] → starts_blank l = false → nwords b l → npara b [l]
| np_cons b l ls : l ≠ [] → starts_blank l = false → nwords b l → npara b ls → npara b (l :: ls)
with nparas : bool → list (list (list node)) → Prop :=
| nps_last b p : npara b p → nparas b [p]
| nps_cons b p ps : npara b p → nparas b ps → nparas b (p :: ps).

Definition normal (ps : list (list (list node))) : Prop := nparas true ps.

(** ** Escaping *)

Fixpoint escape (t : string) : string :=
  match t with
  | "" => ""
  | String a r => (if special a then String "\" (String a "") else String a "") +:+ escape r
  end.

(** The text of a line made only of strings. *)
Definition texts (l : list node) : option string :=
  sconcat <$> mapM (λ nd, match nd with NString t => Some t | _ => None end) l.
