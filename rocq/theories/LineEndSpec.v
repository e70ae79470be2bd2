(** Specification: what converting the line ends of a document means (C08). *)
From Coq Require Import Ascii String.
From stdpp Require Import base strings list.
From Verif Require Import GoBase Ast.
Local Open Scope string_scope.
Local Open Scope list_scope.

(** A line feed becomes a carriage return and a line feed. *)
Fixpoint crlf (s : string) : string :=
  match s with
  | "" => ""
  | String a r => if Ascii.eqb a nl then String cr (String nl (crlf r)) else String a (crlf r)
  end.

Definition no_cr (s : string) : Prop := sforall (λ a, negb (Ascii.eqb a cr)) s = true.

(** The same tree, with the same lines and columns; byte offsets may differ. *)
Inductive alike : node → node → Prop :=
| al_string s : alike (NString s) (NString s)
| al_seq l l' : Forall2 alike l l' → alike (NSeq l) (NSeq l')
| al_para l l' : Forall2 (Forall2 alike) l l' → alike (NPara l) (NPara l')
| al_pre l l' : Forall2 (Forall2 alike) l l' → alike (NPre l) (NPre l')
| al_invoke f l l' i j : Forall2 alike l l' → l_line i = l_line j → l_col i = l_col j →
    alike (NInvoke f l i) (NInvoke f l' j).
