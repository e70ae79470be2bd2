(** Syntax highlighting: chroma/plugin.go. The lexer and formatter are external:
    their output is a string [html] here. A regular expression is its function
    from strings to the index pairs of [FindAllStringIndex]. *)
From Coq Require Import Ascii String.
From stdpp Require Import base tactics strings list.
From Verif Require Import GoBase Section Content.
Local Open Scope string_scope. Local Open Scope list_scope.

(** Go's [str[i:j]]; [None] is the panic. *)
Definition cut (s : string) (i j : nat) : option string :=
  if Nat.leb i j && Nat.leb j (String.length s) then Some (stake (j - i) (sdrop i s)) else None.

(** chroma/plugin.go:50 [Transformer]. *)
Record transformer := Transformer {
  tr_find : string → list (nat * nat);
  tr_apply : string → content }.

(** chroma/plugin.go:57-77 [TransformAll], the loop over the matches and what
    follows it. *)
Fixpoint transform_go (f : string → content) (str : string) (last : nat) (ms : list (nat * nat)) : option (list content) :=
  match ms with
  | [] =>
      if Nat.ltb last (String.length str) then s ← cut str last (String.length str); Some [CString s] else Some []
  | (b, e) :: ms =>
      pre ← (if Nat.ltb last b then s ← cut str last b; Some [CString s] else Some []);
      m ← cut str b e;
      rest ← transform_go f str e ms;
      Some (pre ++ f m :: rest)
  end.

Definition transform_all (t : transformer) (str : string) : option (list content) :=
  transform_go (tr_apply t) str 0 (tr_find t str).

(** chroma/plugin.go:106-114: one transformer over all content. *)
Fixpoint transform_each (t : transformer) (l : list content) : option (list content) :=
  match l with
  | [] => Some []
  | con :: l =>
      out ← (match con with CString s => transform_all t s | _ => Some [con] end);
      rest ← transform_each t l;
      Some (out ++ rest)
  end.

(** chroma/plugin.go:105-117: all transformers in turn. *)
Fixpoint transform_seq (ts : list transformer) (l : list content) : option (list content) :=
  match ts with
  | [] => Some l
  | t :: ts => l' ← transform_each t l; transform_seq ts l'
  end.

(** chroma/plugin.go:119-126. *)
Definition raw_strings (l : list content) : list content :=
  map (λ con, match con with CString _ => CStyled "raw-html" false con [] | _ => con end) l.

(** chroma/plugin.go:79-136 [SyntaxTransform] once lexer and formatter succeeded. *)
Definition syntax_transform (language : string) (code : content) (html : string) (ts : list transformer) : option content :=
  l ← transform_seq ts [CString html];
  Some (CStyled (if is_flow code then "code-flow" else "code-block") (negb (is_flow code))
          (CSeq (raw_strings l)) [("Language", Some (CString language))]).
