(** Independent vocabulary for statements about content. *)
From Coq Require Import Ascii String.
From stdpp Require Import base list strings.
From Verif Require Import GoBase Ast Content.

(** No [Aux] occurs anywhere in the content. *)
Fixpoint no_aux (c : content) : bool :=
  match c with
  | CSeq l | CPara l | CPre l | CList l _ => forallb no_aux l
  | CRef _ _ rc _ _ => match rc with Some c => no_aux c | None => true end
  | CLink c _ => no_aux c
  | CStyled _ _ c ps =>
    no_aux c && forallb (λ p, match p with (_, Some v) => no_aux v | (_, None) => true end) ps
  | CTarget _ _ ti x =>
    match ti with Some c => no_aux c | None => true end &&
    match x with Some c => no_aux c | None => true end
  | CTable rows => forallb (forallb no_aux) rows
  | CDefs defs => forallb (λ p, match p with (s, d) => no_aux s && no_aux d end) defs
  | CAux _ => false
  | CString _ | CSection _ | CToc _ | CImage _ _ | CLazy _ _ => true
  end.

(** No nil content, and no nil partial, occurs anywhere. *)
Fixpoint no_nil (c : content) : bool :=
  match c with
  | CSeq l | CPara l | CPre l | CList l _ => forallb no_nil l
  | CRef _ _ rc _ _ => match rc with Some c => no_nil c | None => false end
  | CLink c _ => no_nil c
  | CStyled _ _ c ps =>
    no_nil c && forallb (λ p, match p with (_, Some v) => no_nil v | (_, None) => false end) ps
  | CTarget _ _ ti x =>
    match ti with Some c => no_nil c | None => false end &&
    match x with Some c => no_nil c | None => false end
  | CTable rows => forallb (forallb no_nil) rows
  | CDefs defs => forallb (λ p, match p with (s, d) => no_nil s && no_nil d end) defs
  | CAux c => no_nil c
  | CString _ | CSection _ | CToc _ | CImage _ _ | CLazy _ _ => true
  end.

(** No nil content at a place StripAux visits: it does not look into the dropped
    [Aux] elements, and skips nil partials. *)
Fixpoint strippable (c : content) : bool :=
  match c with
  | CSeq l | CPara l | CPre l | CList l _ => forallb (λ x, is_aux x || strippable x) l
  | CRef _ _ rc _ _ => match rc with Some c => strippable c | None => false end
  | CLink c _ => strippable c
  | CStyled _ _ c ps =>
    strippable c && forallb (λ p, match p with (_, Some v) => strippable v | (_, None) => true end) ps
  | CTarget _ _ ti x =>
    match ti with Some c => strippable c | None => false end &&
    match x with Some c => strippable c | None => false end
  | CTable rows => forallb (forallb (λ x, is_aux x || strippable x)) rows
  | CDefs defs => forallb (λ p, match p with (s, d) => strippable s && strippable d end) defs
  | CAux c => strippable c
  | CString _ | CSection _ | CToc _ | CImage _ _ | CLazy _ _ => true
  end.

(** The leaves of a content in order: strings, and the other atoms. [drop] tells
    whether to leave out [Aux] elements of lists. *)
Inductive leaf :=
| LString (s : string) | LSection (s : nat) | LToc (s : nat) | LImage (p d : string) | LLazy (b : bool) (t : nat).

Fixpoint leaves (drop : bool) (c : content) : list leaf :=
  let elem := λ x, if drop && is_aux x then [] else leaves drop x in
  match c with
  | CString s => [LString s]
  | CSeq l | CPara l | CPre l | CList l _ => flat_map elem l
  | CRef _ _ rc _ _ => match rc with Some c => leaves drop c | None => [] end
  | CLink c _ => leaves drop c
  | CStyled _ _ c ps =>
    leaves drop c ++ flat_map (λ p, match p with (_, Some v) => leaves drop v | (_, None) => [] end) ps
  | CTarget _ _ ti x =>
    match ti with Some c => leaves drop c | None => [] end ++
    match x with Some c => leaves drop c | None => [] end
  | CTable rows => flat_map (flat_map elem) rows
  | CDefs defs => flat_map (λ p, match p with (s, d) => leaves drop s ++ leaves drop d end) defs
  | CAux c => leaves drop c
  | CSection s => [LSection s]
  | CToc s => [LToc s]
  | CImage p d => [LImage p d]
  | CLazy b t => [LLazy b t]
  end.

(** ** Flow *)

(** Block-level content by its kind. *)
Definition is_block (c : content) : Prop :=
  match c with
  | CPara _ | CPre _ | CSection _ | CToc _ | CList _ _ | CTable _ | CDefs _ => True
  | CStyled _ b _ _ => b = true
  | CLazy b _ => b = true
  | _ => False
  end.

(** [part c x]: [x] is shown in line with [c]: [c] itself, an element of a
    sequence, the content of a link, style or aux. *)
Inductive part : content → content → Prop :=
| part_self c : part c c
| part_seq l x y : x ∈ l → part x y → part (CSeq l) y
| part_link c t y : part c y → part (CLink c t) y
| part_styled st b c ps y : part c y → part (CStyled st b c ps) y
| part_aux c y : part c y → part (CAux c) y.

(** ** Appending *)

(** The elements a content contributes to a sequence it starts. *)
Definition elements (c : option content) : list content :=
  match c with None => [] | Some (CSeq l) => l | Some c => [c] end.
