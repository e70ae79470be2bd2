(** The grammar of ast/booklit.peg read as a recursive-descent parser with typed
    results. This is not a model of the code but an intermediate step of the
    proofs: DescentProofs.v shows that the interpreter of Peg.v computes the same. *)
From Coq Require Import Ascii String NArith.
From stdpp Require Import base list strings numbers.
From Verif Require Import GoBase Ast Utf8 Peg.
Local Open Scope string_scope.
Local Open Scope list_scope.

(** ** Parsers *)

Inductive out (A : Type) :=
| Deep
| Fail (s : store)
| Match (a : A) (c : cursor) (s : store).
Arguments Deep {A}.
Arguments Fail {A} s.
Arguments Match {A} a c s.

Definition parser (A : Type) := cursor → store → out A.

Definition pret {A} (a : A) : parser A := λ c s, Match a c s.
Definition pbind {A B} (p : parser A) (f : A → parser B) : parser B := λ c s,
  match p c s with
  | Match a c' s' => f a c' s'
  | Fail s' => Fail s'
  | Deep => Deep
  end.
Notation "x <~ p ; q" := (pbind p (λ x, q)) (at level 80, p at level 70, right associativity).
Notation "p ;~ q" := (pbind p (λ _, q)) (at level 80, right associativity).

Definition palt {A} (p q : parser A) : parser A := λ c s,
  match p c s with
  | Fail s' => q c s'
  | r => r
  end.
Definition popt {A} (p : parser A) : parser (option A) := λ c s,
  match p c s with
  | Match a c' s' => Match (Some a) c' s'
  | Fail s' => Match None c s'
  | Deep => Deep
  end.
Definition pnot {A} (p : parser A) : parser unit := λ c s,
  match p c s with
  | Match _ _ s' => Fail s'
  | Fail s' => Match tt c s'
  | Deep => Deep
  end.
Fixpoint pmany_go {A} (p : parser A) (k : nat) (acc : list A) : parser (list A) := λ c s,
  match k with
  | 0 => Deep
  | S k =>
    match p c s with
    | Match a c' s' => pmany_go p k (acc ++ [a]) c' s'
    | Fail s' => Match acc c s'
    | Deep => Deep
    end
  end.
Definition pmany {A} (p : parser A) : parser (list A) := λ c s,
  pmany_go p (S (String.length (c_rest c))) [] c s.
Definition pmany1 {A} (p : parser A) : parser (list A) := λ c s,
  match pmany p c s with
  | Match [] _ s' => Fail s'
  | r => r
  end.

(** Characters. *)
Fixpoint plit_go (w : string) (c : cursor) : option cursor :=
  match w with
  | "" => Some c
  | String a w => if N.eqb (cur_rn c) (byte a) then plit_go w (next c) else None
  end.
Definition plit (w : string) : parser unit := λ c s,
  match plit_go w c with Some c' => Match tt c' s | None => Fail s end.
Definition pclass (k : class) : parser unit := λ c s,
  if at_end c then Fail s
  else if class_match k (cur_rn c) then Match tt (next c) s else Fail s.
Definition pany : parser unit := λ c s,
  if at_end c then Fail s else Match tt (next c) s.

(** The bytes a parser consumes. *)
Definition ptext {A} (p : parser A) : parser string := λ c s,
  match p c s with
  | Match _ c' s' => Match (slice c c') c' s'
  | Fail s' => Fail s'
  | Deep => Deep
  end.

(** ** The rules *)

Definition p_break : parser unit := palt (plit nls) (plit (String cr nls)).
Definition p_blanks : parser (list unit) := pmany (pclass blanks).

Fixpoint p_comment (n : nat) : parser unit :=
  match n with
  | 0 => λ _ _, Deep
  | S n =>
    p_blanks;~ plit "{-";~
    pmany (palt (p_comment n) (pnot (plit "-}");~ pany));~
    plit "-}"
  end.

Definition p_string : parser node :=
  palt (t <~ ptext (pmany1 (pclass textc)); pret (NString t))
       (t <~ ptext (plit "\";~ pclass escc); pret (NString (sdrop 1 t))).

Definition p_vstring : parser node :=
  palt (t <~ ptext (pmany1 (pclass verbc)); pret (NString t))
       (t <~ ptext (plit "}";~ pnot (plit "}}")); pret (NString t)).

(** The blanks at the start of a block line, less the indentation to skip, which
    the first line of the block decides. *)
Definition p_indent : parser string := λ c s,
  match ptext p_blanks c s with
  | Match t c' s' => let k := default (String.length t) s' in Match (sdrop k t) c' (Some k)
  | r => r
  end.
Definition p_clear : parser unit := λ c s, Match tt c None.

Definition p_block_line (word : parser node) : parser (list node) :=
  i <~ p_indent; ws <~ pmany word; p_break;~ pret (NString i :: ws).
Definition p_block (word : parser node) : parser (list (list node)) :=
  p_break;~ ls <~ pmany (p_block_line word); p_blanks;~ p_clear;~ pret ls.

Definition p_verb_arg : parser node :=
  plit "{{{";~
  nd <~ palt (ls <~ p_block p_vstring; pret (NPre ls))
             (ws <~ pmany p_vstring; pret (NSeq ws));
  plit "}}}";~ pret nd.

Section Words.
  Variable comment : parser unit.
  Variable word : parser node.

  Definition p_spacing : parser unit := palt p_break comment.
  Definition p_line : parser (list node) := p_blanks;~ pmany1 word.
  Definition p_para : parser (list (list node)) :=
    pmany1 (l <~ p_line; popt p_break;~ pret l).
  Definition p_paras : parser (list (list (list node))) :=
    pmany p_spacing;~ pmany1 (p <~ p_para; pmany p_spacing;~ pret p).

  Definition p_split : parser node := p_break;~ p_blanks;~ pret (NString " ").
  Definition p_wrapped : parser (list node) :=
    w <~ word; ws <~ pmany (palt word p_split); pret (w :: ws).

  Definition p_pre_arg : parser node :=
    plit "{{";~ ls <~ p_block word; plit "}}";~ pret (NPre ls).

  Definition p_arg_body : parser (option node) :=
    palt (ws <~ p_wrapped; pret (Some (NSeq ws)))
      (palt (ps <~ p_paras; p_blanks;~ pret (Some (NSeq (map NPara ps))))
        (pmany p_spacing;~ pret None)).
  Definition p_arg : parser node :=
    plit "{";~ nd <~ popt p_arg_body; plit "}";~ pret (default (NString "") (mjoin nd)).

  Definition p_argument : parser node := palt p_verb_arg (palt p_pre_arg p_arg).

  Definition p_invoke : parser node := λ c s,
    (plit "\";~ fn <~ ptext (pmany1 (pclass namec)); args <~ pmany p_argument;
     pret (NInvoke fn args (cur_loc c))) c s.

  Definition p_interp : parser node :=
    plit "{";~ w <~ popt word; plit "}";~ pret (default (NSeq []) w).

  Definition p_word_body : parser node :=
    popt comment;~ v <~ palt p_string (palt p_invoke p_interp); popt comment;~ pret v.

  Definition p_doc : parser (list (list (list node))) :=
    ps <~ p_paras; pnot pany;~ pret ps.
End Words.

Fixpoint p_word (n : nat) : parser node :=
  match n with
  | 0 => λ _ _, Deep
  | S n => p_word_body (p_comment n) (p_word n)
  end.

Definition p_document (n : nat) : parser (list (list (list node))) :=
  p_doc (p_comment n) (p_word n).
