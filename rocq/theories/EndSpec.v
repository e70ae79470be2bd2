(** Properties of documents as written, used to say when loading ends and when it
    does not panic. *)
From Coq Require Import Ascii String.
From stdpp Require Import base tactics strings list.
From Verif Require Import GoBase Ast Content Section Evaluate.
Local Open Scope string_scope.
Local Open Scope list_scope.

(** [calls nd fn args]: the document contains this invocation, at any depth. *)
Inductive calls : node → string → list node → Prop :=
| calls_here fn args l : calls (NInvoke fn args l) fn args
| calls_arg fn args l a fn' args' : a ∈ args → calls a fn' args' → calls (NInvoke fn args l) fn' args'
| calls_seq l a fn' args' : a ∈ l → calls a fn' args' → calls (NSeq l) fn' args'
| calls_para ls l a fn' args' : l ∈ ls → a ∈ l → calls a fn' args' → calls (NPara ls) fn' args'
| calls_pre ls l a fn' args' : l ∈ ls → a ∈ l → calls a fn' args' → calls (NPre ls) fn' args'.

(** The text of an argument made of text only. *)
Fixpoint literal (nd : node) : option string :=
  match nd with
  | NString s => Some s
  | NSeq l => (fix go l := match l with
                           | [] => Some ""
                           | x :: r => match literal x, go r with Some a, Some b => Some (a +:+ b) | _, _ => None end
                           end) l
  | _ => None
  end.

(** [includes fs p q]: file [p] contains an inclusion whose path, from the
    directory of [p], may be [q], which exists. An argument that is not plain text may
    stand for any path. *)
Definition includes (fs : string → option (nat * (node + Section.error))) (p q : string) : Prop :=
  ∃ mt nd fn a str, fs p = Some (mt, inl nd) ∧ calls nd fn [a] ∧ method_name fn = "IncludeSection" ∧
    (∀ s, literal a = Some s → str = s) ∧ q = path_join (path_dir p) str ∧ is_Some (fs q).

(** Methods of the base plugin that return no content. *)
Definition silent : list string :=
  ["UsePlugin"; "Styled"; "Title"; "Section"; "IncludeSection"; "SinglePage"; "SplitSections";
   "OmitChildrenFromTableOfContents"; "SetPartial"].

(** The node stands for some content. *)
Fixpoint yields (nd : node) : bool :=
  match nd with
  | NString _ | NPre _ => true
  | NSeq l => existsb yields l
  | NPara ls => existsb (existsb yields) ls
  | NInvoke fn _ _ => negb (bool_decide (method_name fn ∈ silent))
  end.

(** Every reference and target in the node is given contents of its own. *)
Fixpoint steady (nd : node) : bool :=
  match nd with
  | NString _ => true
  | NSeq l => forallb steady l
  | NPara ls | NPre ls => forallb (forallb steady) ls
  | NInvoke fn args _ =>
    forallb steady args &&
    (negb (String.eqb (method_name fn) "Reference") || Nat.ltb 1 (length args)) &&
    (negb (String.eqb (method_name fn) "Target") || Nat.eqb 3 (length args))
  end.

(** Arguments other than those of [\section] stand for some content, and titles
    without tags are steady. *)
Fixpoint safe (nd : node) : bool :=
  match nd with
  | NString _ => true
  | NSeq l => forallb safe l
  | NPara ls | NPre ls => forallb (forallb safe) ls
  | NInvoke fn args _ =>
    forallb safe args &&
    (String.eqb (method_name fn) "Section" || forallb yields args) &&
    (negb (String.eqb (method_name fn) "Title") || negb (Nat.eqb (length args) 1) || forallb steady args)
  end.
