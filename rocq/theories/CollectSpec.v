(** What collection should find, independently of the collector. *)
From Coq Require Import Ascii String.
From stdpp Require Import base list strings.
From Verif Require Import GoBase Ast Content Section.

(** A target: tag name, location, title, content. *)
Record tgt := Tgt { g_name : string; g_loc : loc; g_title : option content; g_content : option content }.

(** The tag a target gives rise to in section [i]. *)
Definition tag_of (i : nat) (t : tgt) : tag :=
  Tag (g_name t) (g_title t) (Some i) (g_name t) (g_content t) (g_loc t).

(** [occ c ts]: [ts] are the targets occurring in [c] in reading order (each
    style's partials in some order). Nothing is looked for inside references and
    inside targets themselves. *)
Inductive occ : content → list tgt → Prop :=
| occ_string s : occ (CString s) []
| occ_seq l ls : Forall2 occ l ls → occ (CSeq l) (concat ls)
| occ_para l ls : Forall2 occ l ls → occ (CPara l) (concat ls)
| occ_pre l ls : Forall2 occ l ls → occ (CPre l) (concat ls)
| occ_ref s t c o l : occ (CRef s t c o l) []
| occ_link c t ts : occ c ts → occ (CLink c t) ts
| occ_toc s : occ (CToc s) []
| occ_styled st b c ps ts ls ls' :
    occ c ts → Forall2 occ (omap snd ps) ls → ls' ≡ₚ ls →
    occ (CStyled st b c ps) (ts ++ concat ls')
| occ_target t l ti x : occ (CTarget t l ti x) [Tgt t l ti x]
| occ_image p d : occ (CImage p d) []
| occ_list l o ls : Forall2 occ l ls → occ (CList l o) (concat ls)
| occ_table rows lss : Forall2 (Forall2 occ) rows lss → occ (CTable rows) (concat (map (@concat tgt) lss))
| occ_defs defs ls : Forall2 (λ p q, occ (fst p) (fst q) ∧ occ (snd p) (snd q)) defs ls →
    occ (CDefs defs) (concat (map (λ q, fst q ++ snd q) ls))
| occ_lazy b t : occ (CLazy b t) []
| occ_aux c ts : occ c ts → occ (CAux c) ts.

(** Targets of a section: those of its title, its body, and its partials in some
    order. *)
Definition section_occ (s : section) (ts : list tgt) : Prop :=
  ∃ tt tb ls ls',
    occ (s_title s) tt ∧ occ (s_body s) tb ∧ Forall2 occ (omap snd (s_partials s)) ls ∧ ls' ≡ₚ ls ∧
    ts = tt ++ tb ++ concat ls'.

(** No section is used as content. *)
Fixpoint no_sec (c : content) : bool :=
  match c with
  | CSeq l | CPara l | CPre l | CList l _ => forallb no_sec l
  | CRef _ _ rc _ _ => match rc with Some c => no_sec c | None => true end
  | CLink c _ => no_sec c
  | CStyled _ _ c ps =>
    no_sec c && forallb (λ p, match p with (_, Some v) => no_sec v | (_, None) => true end) ps
  | CTarget _ _ ti x =>
    match ti with Some c => no_sec c | None => true end &&
    match x with Some c => no_sec c | None => true end
  | CTable rows => forallb (forallb no_sec) rows
  | CDefs defs => forallb (λ p, match p with (s, d) => no_sec s && no_sec d end) defs
  | CAux c => no_sec c
  | CSection _ => false
  | CString _ | CToc _ | CImage _ _ | CLazy _ _ => true
  end.

(** A section whose contents contain no section and whose partials are not nil. *)
Definition plain (s : section) : Prop :=
  no_sec (s_title s) = true ∧ no_sec (s_body s) = true ∧
  Forall (λ p, ∃ v, snd p = Some v ∧ no_sec v = true) (s_partials s).
