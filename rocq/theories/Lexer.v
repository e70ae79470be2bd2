(** The lexer for Booklit documents: chroma/booklit_lexer.go, run by chroma's
    [RegexLexer] (github.com/alecthomas/chroma v0.10.0, regexp.go). The engine is
    modelled from its documentation: the rules of the state on top of the stack are
    tried in order at the current place, the first that matches gives the token and
    changes the stack; where none does, a newline outside the first state resets
    the stack and any other character is an error token. All patterns here have at
    most one repetition, at their end, so that trying them needs no backtracking.
    Texts are bytes: a character of several bytes is taken by the rules as its bytes
    would be, with the same types, except that it may be cut into two tokens. *)
From Coq Require Import Ascii String.
From stdpp Require Import base tactics strings list.
From Verif Require Import GoBase.
Local Open Scope string_scope. Local Open Scope list_scope.

Inductive lstate := LRoot | LVerbatim | LComment.
Global Instance lstate_eq_dec : EqDecision lstate.
Proof. solve_decision. Defined.

(** chroma's token types, those of the rules and [Error]. *)
Inductive ltype := TyText | TyStringDouble | TyCommentMultiline | TyNameBuiltin | TyKeyword | TyError.
Global Instance ltype_eq_dec : EqDecision ltype.
Proof. solve_decision. Defined.

(** chroma's [Push(state)], [Push()] (the state on top once more) and [Pop(1)]. *)
Inductive mutator := MNil | MPush (s : lstate) | MPushTop | MPop.

(** Regular expressions of one character after another, possibly ending in a
    repetition. *)
Inductive atom := One (p : ascii → bool) | Many (p : ascii → bool).
Record rule := Rule { r_pat : list atom; r_type : ltype; r_mut : mutator }.

Definition among (s : string) (c : ascii) : bool := existsb (Ascii.eqb c) (list_ascii_of_string s).
Definition but (s : string) (c : ascii) : bool := negb (among s c).
Definition exactly (s : string) : list atom := map (λ c, One (Ascii.eqb c)) (list_ascii_of_string s).
Definition lower_dash (c : ascii) : bool :=
  (Nat.leb 97 (nat_of_ascii c) && Nat.leb (nat_of_ascii c) 122) || Ascii.eqb c "-".

(** chroma/booklit_lexer.go:9-37. *)
Definition booklit_rules (st : lstate) : list rule :=
  match st with
  | LRoot =>
      [ Rule [Many (but "\{}")] TyText MNil;
        Rule (exactly "{{{") TyStringDouble (MPush LVerbatim);
        Rule (exactly "{-") TyCommentMultiline (MPush LComment);
        Rule [One (among "{}")] TyNameBuiltin MNil;
        Rule [One (Ascii.eqb "\"); Many lower_dash] TyKeyword MNil;
        Rule [One (Ascii.eqb "\"); Many (among "\{}")] TyText MNil ]
  | LVerbatim =>
      [ Rule (exactly "}}}") TyStringDouble MPop;
        Rule [Many (but "}")] TyStringDouble MNil;
        Rule [One (Ascii.eqb "}"); One (but "}")] TyStringDouble MNil ]
  | LComment =>
      [ Rule [Many (but "-{}")] TyCommentMultiline MNil;
        Rule (exactly "{-") TyCommentMultiline MPushTop;
        Rule (exactly "-}") TyCommentMultiline MPop;
        Rule [One (among "-{}")] TyCommentMultiline MNil ]
  end.

(** The longest beginning of [s] of characters in [p], and the rest. *)
Fixpoint span (p : ascii → bool) (s : string) : string * string :=
  match s with
  | "" => ("", "")
  | String c r => if p c then let '(a, b) := span p r in (String c a, b) else ("", s)
  end.

(** A pattern at the beginning of [s]: what it matches and the rest. *)
Fixpoint match_at (pat : list atom) (s : string) : option (string * string) :=
  match pat with
  | [] => Some ("", s)
  | One p :: pat =>
      match s with
      | "" => None
      | String c r => if p c then '(m, r') ← match_at pat r; Some (String c m, r') else None
      end
  | Many p :: pat =>
      match span p s with
      | ("", _) => None
      | (m, r) => '(m', r') ← match_at pat r; Some (m +:+ m', r')
      end
  end.

(** chroma regexp.go [matchRules]. *)
Fixpoint match_rules (rs : list rule) (s : string) : option (rule * string * string) :=
  match rs with
  | [] => None
  | r :: rs => match match_at (r_pat r) s with Some (m, rest) => Some (r, m, rest) | None => match_rules rs s end
  end.

(** The stack has its top first. *)
Definition mutate (m : mutator) (stack : list lstate) : list lstate :=
  match m with
  | MNil => stack
  | MPush s => s :: stack
  | MPushTop => match stack with [] => [] | s :: _ => s :: stack end
  | MPop => tail stack
  end.

Definition token : Type := ltype * string.

(** chroma regexp.go [LexerState.Iterator]; [None] is running out of fuel. *)
Fixpoint lex (n : nat) (stack : list lstate) (s : string) : option (list token) :=
  match s with
  | "" => Some []
  | String c r =>
      match n with
      | 0 => None
      | S n =>
          match stack with
          | [] => Some [(TyError, s)]
          | st :: _ =>
              match match_rules (booklit_rules st) s with
              | Some (ru, m, rest) => ts ← lex n (mutate (r_mut ru) stack) rest; Some ((r_type ru, m) :: ts)
              | None =>
                  if Ascii.eqb c nl && negb (bool_decide (st = LRoot)) then lex n [LRoot] s
                  else ts ← lex n stack r; Some ((TyError, String c "") :: ts)
              end
          end
      end
  end.

(** chroma regexp.go [ensureLF]: CRLF and CR become LF. *)
Fixpoint ensure_lf (s : string) : string :=
  match s with
  | "" => ""
  | String c r =>
      if Ascii.eqb c cr then
        match r with
        | String d r' => if Ascii.eqb d nl then String nl (ensure_lf r') else String nl (ensure_lf r)
        | "" => nls
        end
      else String c (ensure_lf r)
  end.

(** chroma regexp.go [RegexLexer.Tokenise] with the default options. *)
Definition tokenise (s : string) : option (list token) :=
  let t := ensure_lf s in lex (S (String.length t)) [LRoot] t.
