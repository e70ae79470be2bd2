(** ast/node.go: the syntax tree. *)
From Coq Require Import Ascii String.
From stdpp Require Import base list strings.
From Verif Require Import GoBase.

(** ast/node.go:36-40 [Location]. *)
Record loc := Loc { l_line : nat; l_col : nat; l_off : nat }.
Definition loc0 : loc := Loc 0 0 0.

(** ast/node.go:13-88: [String], [Sequence], [Paragraph], [Preformatted],
    [Invoke]. [Paragraph] and [Preformatted] are slices of [Sequence], modelled
    as lists of lists of nodes. *)
Inductive node :=
| NString (s : string)
| NSeq (l : list node)
| NPara (lines : list (list node))
| NPre (lines : list (list node))
| NInvoke (fn : string) (args : list node) (l : loc).

(** ast/node.go:60: [cases.Title(language.AmericanEnglish).String(word)] for an
    ASCII word: first letter upper-cased, the rest lower-cased. *)
Definition title_case (w : string) : string :=
  match w with
  | "" => ""
  | String c r => String (upper c) (smap lower r)
  end%string.

(** ast/node.go:57-63 [Invoke.Method]. *)
Definition method_name (fn : string) : string :=
  sconcat (map title_case (ssplit "-"%char fn)).
