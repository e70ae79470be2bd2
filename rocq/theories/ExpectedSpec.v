(** What the text of a syntax error should say. *)
From Coq Require Import Ascii String NArith Sorted.
From stdpp Require Import base strings list.
From Verif Require Import GoBase Ast Peg JsonSpec Expected.
Local Open Scope string_scope. Local Open Scope list_scope.

(** What is looked for is there. All characters of classes are single bytes, so other
    characters are told by their first byte. *)
Definition in_class (k : class) (c : ascii) : Prop :=
  c ∈ k_chars k ∨ ∃ r, r ∈ k_ranges k ∧ (N_of_ascii r.1 ≤ N_of_ascii c ≤ N_of_ascii r.2)%N.
Definition meets (w : want) (rest : string) : Prop :=
  match w with
  | WLit s => ∃ z, rest = s +:+ z
  | WClass k => ∃ c z, rest = String c z ∧ if k_inv k then ¬ in_class k c else in_class k c
  | WAny => rest ≠ ""
  end.

(** What stops the parser: something that is not there, or something that is there and
    must not be. *)
Definition stops (y : try) : Prop := y_met y = y_inv y.
Definition called (inv : bool) (w : want) : string := (if inv then "!" else "") +:+ want_text w.

(** Names, in order and each once, the end of the file last. *)
Definition names (l : list string) (there : string → Prop) : Prop :=
  ∃ a z, l = a ++ z ∧ StronglySorted before a ∧ (∀ t, t ∈ a ↔ there t ∧ t ≠ "!.") ∧
    (z = ["EOF"] ∧ there "!." ∨ z = [] ∧ ¬ there "!.").
(** "a", "a or b", "a, b or c". *)
Inductive listing : list string → string → Prop :=
| list_one a : listing [a] a
| list_two a b : listing [a; b] (a +:+ " or " +:+ b)
| list_more a b c l s : listing (b :: c :: l) s → listing (a :: b :: c :: l) (a +:+ ", " +:+ s).

(** All that a parser of the grammar tries: the matchers it comes to, where it comes to
    them. [goes] is the outcome of parsing with an expression. *)
Definition goes (e : expr) (m : env) (st : pstate) (r : option val) (m1 : env) (st1 : pstate) : Prop :=
  ∃ n, parse_expr n e m st = RDone r m1 st1.
Definition here (st : pstate) (w : want) (y : try) : Prop :=
  y_off y = c_off (p_pt st) ∧ y_inv y = p_inv st ∧ y_want y = w ∧ (y_met y = true ↔ meets w (c_rest (p_pt st))).
Definition negated (st : pstate) : pstate := PState (p_pt st) (p_errs st) (p_mf st) (negb (p_inv st)) (p_store st).
Inductive looks : expr → env → pstate → try → Prop :=
| look_lit s m st y : here st (WLit s) y → looks (ELit s) m st y
| look_class k m st y : here st (WClass k) y → looks (EClass k) m st y
| look_any m st y : here st WAny y → looks EAny m st y
| look_act a e m st y : looks e m st y → looks (EAct a e) m st y
| look_lab x e m st y : looks e [] st y → looks (ELab x e) m st y
| look_opt e m st y : looks e [] st y → looks (EOpt e) m st y
| look_not e m st y : looks e [] (negated st) y → looks (ENot e) m st y
| look_rule q m st y : looks (rule_expr q) [] st y → looks (ERule q) m st y
| look_seq e l m st y : looks e m st y → looks (ESeq (e :: l)) m st y
| look_seq_on e l m st v m1 st1 y : goes e m st (Some v) m1 st1 → looks (ESeq l) m1 st1 y → looks (ESeq (e :: l)) m st y
| look_choice e l m st y : looks e [] st y → looks (EChoice (e :: l)) m st y
| look_choice_on e l m st m1 st1 y : goes e [] st None m1 st1 → looks (EChoice l) m st1 y → looks (EChoice (e :: l)) m st y
| look_star e m st y : looks e [] st y → looks (EStar e) m st y
| look_star_on e m st v m1 st1 y : goes e [] st (Some v) m1 st1 → looks (EStar e) m st1 y → looks (EStar e) m st y
| look_plus e m st y : looks (EStar e) m st y → looks (EPlus e) m st y.
(** What a parser of the whole grammar comes to in a document. *)
Definition comes_to (d : string) (y : try) : Prop := looks (ERule RBooklit) [] (start_state d) y.

(** The matchers in a rule, as they are written. *)
Fixpoint matchers (e : expr) : list want :=
  match e with
  | ELit s => [WLit s]
  | EClass k => [WClass k]
  | EAny => [WAny]
  | EAct _ e | ELab _ e | ENot e | EOpt e | EStar e | EPlus e => matchers e
  | ESeq l | EChoice l => flat_map matchers l
  | ERule _ => []
  end.
