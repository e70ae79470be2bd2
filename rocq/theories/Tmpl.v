(** Go's template language, as far as templates of books use it: text/template/parse/lex.go
    and parse.go of Go's standard library (go1.18 or later, which the modules of
    go.mod require). Templates are read from their source.

    Not modelled, and taken as not parsing: comments, [else if], [block], [break],
    [continue], assignments, declarations in [if] and [with], escapes in quoted
    strings, raw strings, characters, numbers with a sign, a fraction or an
    exponent, and fields of parenthesised pipelines. Where Go requires a space
    between operands, none is required here. *)
From Coq Require Import Ascii String.
From stdpp Require Import base strings list.
From Verif Require Import GoBase.
Local Open Scope string_scope. Local Open Scope list_scope.

(** ** Lexer (lex.go) *)

Inductive tok :=
| KDot | KField (f : string) | KVar (v : string) | KId (i : string) | KStr (s : string) | KNum (n : nat)
| KPipe | KLeft | KRight | KComma | KDecl | KSpace.

Inductive item := IText (s : string) | IAct (ts : list tok).

(** lex.go [spaceChars]. *)
Definition is_sp (c : ascii) : bool := Ascii.eqb c " " || Ascii.eqb c "009" || Ascii.eqb c "013" || Ascii.eqb c "010".

(** lex.go [isAlphaNumeric], of ASCII characters. *)
Definition is_alpha (c : ascii) : bool := is_lower c || is_upper c || Ascii.eqb c "_".
Definition is_alnum (c : ascii) : bool := is_alpha c || is_digit c.

Fixpoint span (p : ascii → bool) (s : string) : string * string :=
  match s with
  | String c r => if p c then let '(a, b) := span p r in (String c a, b) else ("", s)
  | "" => ("", "")
  end.

Fixpoint number_of (acc : nat) (s : string) : nat :=
  match s with "" => acc | String c s => number_of (10 * acc + (code c - 48)) s end.

Fixpoint trim_left_sp (s : string) : string :=
  match s with String c r => if is_sp c then trim_left_sp r else s | "" => "" end.
Fixpoint trim_right_sp (s : string) : string :=
  match s with
  | "" => ""
  | String c r => match trim_right_sp r with "" => if is_sp c then "" else String c "" | t => String c t end
  end.

(** lex.go [lexInsideAction] up to the right delimiter; the result says whether
    that is a trimming one. *)
Fixpoint lex_act (n : nat) (s : string) : option (list tok * bool * string) :=
  match n with
  | 0 => None
  | S n =>
    let cons t r := '(ts, b, r) ← lex_act n r; Some (t :: ts, b, r) in
    match s with
    | "" => None
    | String c r =>
      if has_prefix "}}" s then Some ([], false, sdrop 2 s)
      else if is_sp c then if has_prefix "-}}" r then Some ([], true, sdrop 3 r) else cons KSpace r
      else if Ascii.eqb c """" then
        let '(q, r') := span (λ c, negb (Ascii.eqb c """" || Ascii.eqb c "\" || Ascii.eqb c "010")) r in
        match r' with String c' r'' => if Ascii.eqb c' """" then cons (KStr q) r'' else None | "" => None end
      else if Ascii.eqb c "." then
        match span is_alnum r with
        | (String d w, r') => if is_digit d then None else cons (KField (String d w)) r'
        | ("", _) => cons KDot r
        end
      else if Ascii.eqb c "$" then let '(w, r') := span is_alnum r in cons (KVar w) r'
      else if Ascii.eqb c "|" then cons KPipe r
      else if Ascii.eqb c "(" then cons KLeft r
      else if Ascii.eqb c ")" then cons KRight r
      else if Ascii.eqb c "," then cons KComma r
      else if has_prefix ":=" s then cons KDecl (sdrop 2 s)
      else if is_digit c then
        let '(w, r') := span is_digit s in
        match r' with
        | String d _ => if is_alpha d || Ascii.eqb d "." then None else cons (KNum (number_of 0 w)) r'
        | "" => None
        end
      else if is_alpha c then let '(w, r') := span is_alnum s in cons (KId w) r'
      else None
    end
  end.

Fixpoint split_open (s : string) : string * option string :=
  match s with
  | "" => ("", None)
  | String c r => if has_prefix "{{" s then ("", Some (sdrop 2 s)) else let '(a, o) := split_open r in (String c a, o)
  end.

(** lex.go [lexText], [lexLeftDelim], [lexRightDelim]. [trim]: the text that comes
    follows a trimming delimiter. *)
Fixpoint lex (n : nat) (trim : bool) (s : string) : option (list item) :=
  match n with
  | 0 => None
  | S n =>
    let '(t, o) := split_open s in
    let text (right : bool) : list item :=
      let t := if trim then trim_left_sp t else t in
      let t := if right then trim_right_sp t else t in
      match t with "" => [] | _ => [IText t] end in
    match o with
    | None => Some (text false)
    | Some r =>
      let right := match r with String d (String e _) => Ascii.eqb d "-" && is_sp e | _ => false end in
      '(ts, b, r) ← lex_act (S (String.length r)) (if right then sdrop 1 r else r);
      is ← lex n b r;
      Some (text right ++ IAct ts :: is)
    end
  end.

(** ** Parser (parse.go) *)

Inductive operand :=
| ODot | OField (fs : list string) | OVar (v : string) (fs : list string) | OFunc (f : string)
| OStr (s : string) | ONum (n : nat) | OBool (b : bool) | ONil
| OParen (p : list (list operand)).
Notation pipe := (list (list operand)).

(** How the value of an action is put into its surroundings; [XRaw]: as it is
    (text/template). *)
Inductive place := XRaw | XText | XRcdata | XName | XAttr | XUrl | XUrlPath | XUrlQuery.

Inductive node :=
| NText (s : string)
| NAct (x : place) (p : pipe)
| NDecl (v : string) (p : pipe)
| NIf (p : pipe) (t e : list node)
| NWith (p : pipe) (t e : list node)
| NRange (vs : list string) (p : pipe) (t e : list node)
| NCall (name : string) (p : option pipe).

Fixpoint take_fields (ts : list tok) : list string * list tok :=
  match ts with
  | KField f :: r => let '(fs, r') := take_fields r in (f :: fs, r')
  | _ => ([], ts)
  end.

(** parse.go [pipeline], [command], [operand], [term]. *)
Fixpoint p_pipe (n : nat) (cmds : pipe) (cmd : list operand) (ts : list tok) : option (pipe * list tok) :=
  match n with
  | 0 => None
  | S n =>
    match ts with
    | [] | KRight :: _ => match cmd with [] => None | _ => Some (reverse (reverse cmd :: cmds), ts) end
    | KSpace :: r => p_pipe n cmds cmd r
    | KPipe :: r => match cmd with [] => None | _ => p_pipe n (reverse cmd :: cmds) [] r end
    | KLeft :: r =>
      '(p, r) ← p_pipe n [] [] r;
      match r with KRight :: r => p_pipe n cmds (OParen p :: cmd) r | _ => None end
    | KField _ :: _ => let '(fs, r) := take_fields ts in p_pipe n cmds (OField fs :: cmd) r
    | KVar v :: r => let '(fs, r) := take_fields r in p_pipe n cmds (OVar v fs :: cmd) r
    | KDot :: r => p_pipe n cmds (ODot :: cmd) r
    | KStr s :: r => p_pipe n cmds (OStr s :: cmd) r
    | KNum k :: r => p_pipe n cmds (ONum k :: cmd) r
    | KId w :: r =>
      let o := if String.eqb w "true" then OBool true else if String.eqb w "false" then OBool false
               else if String.eqb w "nil" then ONil else OFunc w in
      p_pipe n cmds (o :: cmd) r
    | KComma :: _ | KDecl :: _ => None
    end
  end.
Definition pipe_of (ts : list tok) : option pipe :=
  '(p, r) ← p_pipe (S (length ts)) [] [] ts; match r with [] => Some p | _ => None end.

Fixpoint skip_space (ts : list tok) : list tok := match ts with KSpace :: r => skip_space r | _ => ts end.

(** The variables declared at the head of a pipeline. *)
Definition decl_of (ts : list tok) : list string * list tok :=
  match skip_space ts with
  | KVar v :: r =>
    match skip_space r with
    | KDecl :: r => ([v], r)
    | KComma :: r =>
      match skip_space r with
      | KVar w :: r => match skip_space r with KDecl :: r => ([v; w], r) | _ => ([], ts) end
      | _ => ([], ts)
      end
    | _ => ([], ts)
    end
  | _ => ([], ts)
  end.

Inductive ending := EEnd | EElse | EFile.

(** parse.go [itemList], [action] and the control structures; [define] is only
    allowed outside of them. *)
Fixpoint p_list (n : nat) (top : bool) (is : list item) :
    option (list node * list (string * list node) * ending * list item) :=
  match n with
  | 0 => None
  | S n =>
    let cons x r := '(ns, ds, e, r) ← p_list n top r; Some (x :: ns, ds, e, r) in
    (** parse.go [parseControl] *)
    let control (k : list node → list node → node) r :=
      '(t, _, e, r) ← p_list n false r;
      match e with
      | EEnd => cons (k t []) r
      | EElse =>
        '(f, _, e, r) ← p_list n false r;
        match e with EEnd => cons (k t f) r | _ => None end
      | EFile => None
      end in
    match is with
    | [] => Some ([], [], EFile, [])
    | IText s :: r => cons (NText s) r
    | IAct ts :: r =>
      match skip_space ts with
      | KId w :: ts' =>
        if String.eqb w "end" then match skip_space ts' with [] => Some ([], [], EEnd, r) | _ => None end
        else if String.eqb w "else" then match skip_space ts' with [] => Some ([], [], EElse, r) | _ => None end
        else if String.eqb w "if" then p ← pipe_of ts'; control (NIf p) r
        else if String.eqb w "with" then p ← pipe_of ts'; control (NWith p) r
        else if String.eqb w "range" then
          let '(vs, ts') := decl_of ts' in p ← pipe_of ts'; control (NRange vs p) r
        else if String.eqb w "template" then
          match skip_space ts' with
          | KStr name :: ts' =>
            match skip_space ts' with
            | [] => cons (NCall name None) r
            | ts' => p ← pipe_of ts'; cons (NCall name (Some p)) r
            end
          | _ => None
          end
        else if String.eqb w "define" then
          match top, skip_space ts' with
          | true, KStr name :: ts' =>
            match skip_space ts' with
            | [] =>
              '(t, _, e, r) ← p_list n false r;
              match e with
              | EEnd => '(ns, ds, e, r) ← p_list n true r; Some (ns, (name, t) :: ds, e, r)
              | _ => None
              end
            | _ => None
            end
          | _, _ => None
          end
        else if String.eqb w "block" || String.eqb w "break" || String.eqb w "continue" then None
        else p ← pipe_of ts; cons (NAct XRaw p) r
      | _ =>
        match decl_of ts with
        | ([v], ts') => p ← pipe_of ts'; cons (NDecl v p) r
        | _ => p ← pipe_of ts; cons (NAct XRaw p) r
        end
      end
    end
  end.

(** The bodies in a text, in the order in which Go adds them to the set of the text:
    those of its definitions, and its own under [name]. *)
Definition bodies_of (name : string) (s : string) : option (list (string * list node)) :=
  is ← lex (S (String.length s)) false s;
  '(ns, ds, e, _) ← p_list (S (length is)) true is;
  match e with EFile => Some (ds ++ [(name, ns)]) | _ => None end.

(** parse.go [IsEmptyTree]. *)
Definition empty_tree (ns : list node) : bool :=
  forallb (λ n, match n with NText s => sforall is_sp s | _ => false end) ns.

(** parse.go [Tree.add]: a template is defined once in a text, apart from empty
    bodies. *)
Definition add_tree (ts : list (string * list node)) (d : string * list node) : option (list (string * list node)) :=
  match List.find (λ t : string * list node, String.eqb t.1 d.1) ts with
  | None => Some (ts ++ [d])
  | Some t =>
    if empty_tree t.2 then Some (List.filter (λ t : string * list node, negb (String.eqb t.1 d.1)) ts ++ [d])
    else if empty_tree d.2 then Some ts else None
  end.

(** parse.go [Parse]: the templates a text defines. *)
Definition parse (name : string) (s : string) : option (list (string * list node)) :=
  ds ← bodies_of name s; fold_left (λ o d, ts ← o; add_tree ts d) ds (Some []).
