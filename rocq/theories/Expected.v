(** The texts of syntax errors: the interpreter of Peg.v with the list of what was
    expected (ast/booklit.peg.go:1749, 1871-1888, 2043-2080). It runs as the one of
    Peg.v does (ExpectedProofs.v); lines are cited there.

    [x_log] is not in the program: it keeps all that was tried, to speak about it. *)
From Coq Require Import Ascii String NArith.
From stdpp Require Import base list strings numbers.
From Verif Require Import GoBase Ast Utf8 Peg Json.
Local Open Scope string_scope. Local Open Scope list_scope.

(** What a matcher looks for, and what it is called: [want] of literals, [val] of
    character classes, "." *)
Inductive want := WLit (s : string) | WClass (k : class) | WAny.

Definition quoted (c : ascii) : string :=
  if Ascii.eqb c nl then "\n" else if Ascii.eqb c cr then "\r" else if Ascii.eqb c "009" then "\t"
  else if Ascii.eqb c "\" then "\\" else String c "".
Definition quoted_all (l : list ascii) : string := sconcat (map quoted l).
Definition want_text (w : want) : string :=
  match w with
  | WLit s => """" +:+ quoted_all (list_ascii_of_string s) +:+ """"
  | WClass k =>
    "[" +:+ (if k_inv k then "^" else "") +:+
    sconcat (map (λ r : ascii * ascii, quoted r.1 +:+ "-" +:+ quoted r.2) (k_ranges k)) +:+ quoted_all (k_chars k) +:+ "]"
  | WAny => "."
  end.

(** A matcher was tried at an offset, inside of a negation or not, and matched or not. *)
Record try := Tried { y_off : nat; y_inv : bool; y_want : want; y_met : bool }.

Record xstate := X { x_st : pstate; x_exp : list string (* maxFailExpected *); x_log : list try }.
Definition x_on (f : pstate → pstate) (xs : xstate) : xstate := X (f (x_st xs)) (x_exp xs) (x_log xs).

(** 1871-1888 [failAt]. *)
Definition x_fail_at (fail : bool) (l : loc) (w : want) (xs : xstate) : xstate :=
  let st := x_st xs in
  X (fail_at fail l st)
    (if Bool.eqb fail (p_inv st) then
       if Nat.ltb (l_off l) (l_off (p_mf st)) then x_exp xs
       else (if Nat.ltb (l_off (p_mf st)) (l_off l) then [] else x_exp xs) ++ [(if p_inv st then "!" else "") +:+ want_text w]
     else x_exp xs)
    (x_log xs ++ [Tried (l_off l) (p_inv st) w fail]).

Inductive xres :=
| XDeep
| XPanic (xs : xstate)
| XDone (r : option val) (m : env) (xs : xstate).

(** [w] is the whole literal. *)
Fixpoint x_lit_loop (w s : string) (start : cursor) (xs : xstate) : option xstate * xstate :=
  match s with
  | "" => (Some xs, xs)
  | String a r =>
    if N.eqb (cur_rn (p_pt (x_st xs))) (byte a) then x_lit_loop w r start (x_on read xs)
    else (None, x_on (λ st, restore st start) (x_fail_at false (cur_loc start) (WLit w) xs))
  end.

Section Loops.
  Variable P : expr → env → xstate → xres.

  Fixpoint x_seq_loop (pt : cursor) (l : list expr) (acc : list val) (m : env) (xs : xstate) : xres :=
    match l with
    | [] => XDone (Some (VList acc)) m xs
    | e :: l =>
      match P e m xs with
      | XDone (Some v) m' xs' => x_seq_loop pt l (acc ++ [v]) m' xs'
      | XDone None m' xs' => XDone None m' (x_on (λ st, restore st pt) xs')
      | r => r
      end
    end.
  Fixpoint x_choice_loop (l : list expr) (m : env) (xs : xstate) : xres :=
    match l with
    | [] => XDone None m xs
    | e :: l =>
      match P e [] xs with
      | XDone (Some v) _ xs' => XDone (Some v) m xs'
      | XDone None _ xs' => x_choice_loop l m xs'
      | r => r
      end
    end.
  Fixpoint x_many_loop (k : nat) (e : expr) (acc : list val) (xs : xstate) : xres :=
    match k with
    | 0 => XDeep
    | S k =>
      match P e [] xs with
      | XDone (Some v) _ xs' => x_many_loop k e (acc ++ [v]) xs'
      | XDone None _ xs' => XDone (Some (VList acc)) [] xs'
      | r => r
      end
    end.
End Loops.

Definition x_parse_body (P : expr → env → xstate → xres) (e : expr) (m : env) (xs : xstate) : xres :=
  let start := p_pt (x_st xs) in
  match e with
  | EAct a e =>
    match P e m xs with
    | XDone (Some _) m' xs' =>
      match run_action a m' (cur_loc start) (slice start (p_pt (x_st xs'))) (p_store (x_st xs')) with
      | (Some v, s) => XDone (Some v) m' (x_on (λ st, set_store st s) xs')
      | (None, s) => XPanic (x_on (λ st, set_store st s) xs')
      end
    | r => r
    end
  | ESeq l => x_seq_loop P start l [] m xs
  | EChoice l => x_choice_loop P l m xs
  | ELab x e =>
    match P e [] xs with
    | XDone (Some v) _ xs' => XDone (Some v) (env_set x v m) xs'
    | XDone None _ xs' => XDone None m xs'
    | r => r
    end
  | ENot e =>
    match P e [] (x_on flip_inv xs) with
    | XDone r _ xs' =>
      XDone (match r with Some _ => None | None => Some VNil end) m
        (x_on (λ st, restore st start) (x_on flip_inv xs'))
    | r => r
    end
  | EOpt e =>
    match P e [] xs with
    | XDone r _ xs' => XDone (Some (default VNil r)) m xs'
    | r => r
    end
  | EStar e =>
    match x_many_loop P (rounds (x_st xs)) e [] xs with
    | XDone r _ xs' => XDone r m xs'
    | r => r
    end
  | EPlus e =>
    match x_many_loop P (rounds (x_st xs)) e [] xs with
    | XDone (Some (VList [])) _ xs' => XDone None m xs'
    | XDone r _ xs' => XDone r m xs'
    | r => r
    end
  | ERule r =>
    match P (rule_expr r) [] xs with
    | XDone v _ xs' => XDone v m xs'
    | r => r
    end
  | ELit s =>
    match x_lit_loop s s start xs with
    | (Some xs', _) =>
      XDone (Some (VBytes (slice start (p_pt (x_st xs'))))) m (x_fail_at true (cur_loc start) (WLit s) xs')
    | (None, xs') => XDone None m xs'
    end
  | EClass k =>
    if at_end start then XDone None m (x_fail_at false (cur_loc start) (WClass k) xs)
    else if class_match k (cur_rn start) then
      let xs' := x_on read xs in
      XDone (Some (VBytes (slice start (p_pt (x_st xs'))))) m (x_fail_at true (cur_loc start) (WClass k) xs')
    else XDone None m (x_fail_at false (cur_loc start) (WClass k) xs)
  | EAny =>
    if at_end start then XDone None m (x_fail_at false (cur_loc start) WAny xs)
    else
      let xs' := x_on read xs in
      XDone (Some (VBytes (slice start (p_pt (x_st xs'))))) m (x_fail_at true (cur_loc start) WAny xs')
  end.

Fixpoint x_parse_expr (n : nat) (e : expr) (m : env) (xs : xstate) : xres :=
  match n with
  | 0 => XDeep
  | S n => x_parse_body (x_parse_expr n) e m xs
  end.

Definition x_parse (d : string) : xres :=
  x_parse_expr (depth_for d) (ERule RBooklit) [] (X (start_state d) [] []).

(** sort.Strings. *)
Fixpoint str_insert (x : string) (l : list string) : list string :=
  match l with
  | [] => [x]
  | y :: l => if string_ltb x y then x :: y :: l else y :: str_insert x l
  end.
Fixpoint str_sort (l : list string) : list string :=
  match l with [] => [] | x :: l => str_insert x (str_sort l) end.

(** 2071-2080 [listJoin]. *)
Definition list_join (l : list string) (sep last_sep : string) : string :=
  match reverse l with
  | [] => ""
  | [x] => x
  | x :: r => String.concat sep (reverse r) +:+ " " +:+ last_sep +:+ " " +:+ x
  end.

(** 2046-2063: what is listed. *)
Definition listed (exp : list string) : list string :=
  let ks := remove_dups exp in
  str_sort (List.filter (λ k, negb (String.eqb k "!.")) ks) ++ (if existsb (String.eqb "!.") ks then ["EOF"] else []).

(** The text of the first error of a document (1282, 2027, 2063, and the function
    UnpackError of ast/errors.go:10-27): no error, or its text. No action of the
    grammar panics (C02). *)
Definition error_said (d : string) : option string :=
  match x_parse d with
  | XDeep => None
  | XPanic xs => match p_errs (x_st xs) with [] => Some "panic" | _ => Some "invalid encoding" end
  | XDone r _ xs =>
    match r, p_errs (x_st xs) with
    | _, _ :: _ => Some "invalid encoding"
    | None, [] => Some ("no match found, expected: " +:+ list_join (listed (x_exp xs)) ", " "or")
    | Some _, [] => None
    end
  end.

(** All that was tried. *)
Definition tried (d : string) : list try :=
  match x_parse d with XDeep => [] | XPanic xs | XDone _ _ xs => x_log xs end.
