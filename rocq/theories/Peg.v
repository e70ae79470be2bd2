(** The generated parser, ast/booklit.peg.go: the run-time (lines 1456-2553) as an
    interpreter for grammar expressions, the grammar table (lines 46-973) as data
    and the semantic actions (lines 975-1270).

    Left out: memoization (off by default), debug output, statistics, the limit
    of 2^64-1 expressions, [cur.state] (no rule uses it), throw/recover and
    predicates written in code (no rule uses them), and the text of error
    messages (the "expected" list; it is in Expected.v). The stack of variable sets ([vstack]) is
    represented by the recursion: [pushV] is passing an empty set down, [popV]
    dropping the resulting set. *)
From Coq Require Import Ascii String NArith.
From stdpp Require Import base list strings numbers.
From Verif Require Import GoBase Ast Utf8.

(** ** Positions *)

(** booklit.peg.go:1461-1472: [position] and [savepoint]. The current rune and its
    width ([rn], [w]) are the decoding of the remaining bytes [c_rest], which is
    [p.data[offset:]]. *)
Record cursor := Cur { c_line : nat; c_col : nat; c_off : nat; c_rest : string }.

Definition cur_rn (c : cursor) : N := fst (decode_rune (c_rest c)).
Definition cur_w (c : cursor) : nat := snd (decode_rune (c_rest c)).
Definition cur_loc (c : cursor) : loc := Loc (c_line c) (c_col c) (c_off c).

(** booklit.peg.go:1893-1900 [read]: what happens on reaching the given bytes. *)
Definition arrive (line col off : nat) (rest : string) : cursor :=
  if (fst (decode_rune rest) =? 10)%N
  then Cur (S line) 0 off rest else Cur line (S col) off rest.

(** booklit.peg.go:1892-1900: the position after [read]. *)
Definition next (c : cursor) : cursor :=
  arrive (c_line c) (c_col c) (c_off c + cur_w c) (sdrop (cur_w c) (c_rest c)).

(** booklit.peg.go:1970-1972 [sliceFrom]. *)
Definition slice (c c' : cursor) : string := stake (c_off c' - c_off c) (c_rest c).

(** ** Grammar expressions *)

Inductive rule :=
| RBooklit | RParagraphs | RLineBreak | RCommentSpacing | RParagraph | RLine | RWord
| RComment | RInterpolated | RWrappedLine | RSplit | RString | RVerbatimString
| RPreformattedBlockLine | RPreformattedBlock | RVerbatimLine | RVerbatimBlockLine
| RVerbatimBlock | RInvoke | RVerbatimArg | RPreformattedArg | REmptyArg | RArg
| RParaArg | RArgument | RIndent.

(** One constructor per [callon...] method, lines 975-1270. *)
Inductive action :=
| ABooklit1 | AParagraphs7 | AParagraphs1 | AParagraph4 | AParagraph1 | ALine1 | AWord1
| AInterpolated1 | AWrappedLine1 | ASplit1 | AString2 | AString6 | AVerbatimString2
| AVerbatimString6 | APreformattedBlockLine1 | APreformattedBlock1 | AVerbatimLine1
| AVerbatimBlockLine1 | AVerbatimBlock1 | AInvoke1 | AVerbatimArg1 | APreformattedArg1
| AEmptyArg1 | AArg1 | AParaArg1 | AIndent1.

(** booklit.peg.go:1581-1590: a character class; all its characters are ASCII. *)
Record class := Class { k_chars : list ascii; k_ranges : list (ascii * ascii); k_inv : bool }.

(** booklit.peg.go:1497-1592: the expression types the grammar uses. *)
Inductive expr :=
| EAct (a : action) (e : expr)
| ESeq (l : list expr)
| EChoice (l : list expr)
| ELab (x : string) (e : expr)
| ENot (e : expr)
| EOpt (e : expr)
| EStar (e : expr)
| EPlus (e : expr)
| ERule (r : rule)
| ELit (s : string)
| EClass (k : class)
| EAny.

Definition blanks : class := Class [" "%char; "009"%char] [] false.
Definition star_blanks : expr := EStar (EClass blanks).
Definition textc : class := Class ["\"; "{"; "}"; cr; nl]%char [] true.
Definition escc : class := Class ["\"; "{"; "}"]%char [] false.
Definition verbc : class := Class [cr; nl; "}"%char] [] true.
Definition namec : class := Class ["-"%char] [("a", "z")%char] false.

Local Open Scope string_scope.
Local Open Scope list_scope.

(** booklit.peg.go:46-973 (generated from ast/booklit.peg:34-161). *)
Definition rule_expr (r : rule) : expr :=
  match r with
  | RBooklit => (* 48-75 *)
    EAct ABooklit1 (ESeq [ELab "node" (ERule RParagraphs); ENot EAny])
  | RParagraphs => (* 76-121 *)
    EAct AParagraphs1 (ESeq [
      EStar (ERule RCommentSpacing);
      ELab "paragraphs" (EPlus (EAct AParagraphs7 (ESeq [
        ELab "p" (ERule RParagraph); EStar (ERule RCommentSpacing)])))])
  | RLineBreak => (* 122-142 *)
    EChoice [ELit nls; ELit (String cr nls)]
  | RCommentSpacing => (* 143-160 *)
    EChoice [ERule RLineBreak; ERule RComment]
  | RParagraph => (* 161-198 *)
    EAct AParagraph1 (ELab "lines" (EPlus (EAct AParagraph4 (ESeq [
      ELab "l" (ERule RLine); EOpt (ERule RLineBreak)]))))
  | RLine => (* 199-232 *)
    EAct ALine1 (ESeq [star_blanks; ELab "words" (EPlus (ERule RWord))])
  | RWord => (* 233-283 *)
    EAct AWord1 (ESeq [EOpt (ERule RComment);
      ELab "val" (EChoice [ERule RString; ERule RInvoke; ERule RInterpolated]);
      EOpt (ERule RComment)])
  | RComment => (* 284-342 *)
    ESeq [star_blanks; ELit "{-";
      EStar (EChoice [ERule RComment; ESeq [ENot (ELit "-}"); EAny]]);
      ELit "-}"]
  | RInterpolated => (* 343-377 *)
    EAct AInterpolated1 (ESeq [ELit "{"; ELab "word" (EOpt (ERule RWord)); ELit "}"])
  | RWrappedLine => (* 378-419 *)
    EAct AWrappedLine1 (ESeq [ELab "firstWord" (ERule RWord);
      ELab "words" (EStar (EChoice [ERule RWord; ERule RSplit]))])
  | RSplit => (* 420-446 *)
    EAct ASplit1 (ESeq [ERule RLineBreak; star_blanks])
  | RString => (* 447-499 *)
    EChoice [EAct AString2 (ELab "str" (EPlus (EClass textc)));
      EAct AString6 (ESeq [ELit "\"; EClass escc])]
  | RVerbatimString => (* 500-550 *)
    EChoice [EAct AVerbatimString2 (ELab "str" (EPlus (EClass verbc)));
      EAct AVerbatimString6 (ESeq [ELit "}"; ENot (ELit "}}")])]
  | RPreformattedBlockLine => (* 551-585 *)
    EAct APreformattedBlockLine1 (ESeq [ELab "indent" (ERule RIndent);
      ELab "words" (EStar (ERule RWord)); ERule RLineBreak])
  | RPreformattedBlock => (* 586-624 *)
    EAct APreformattedBlock1 (ESeq [ERule RLineBreak;
      ELab "lines" (EStar (ERule RPreformattedBlockLine)); star_blanks])
  | RVerbatimLine => (* 625-644 *)
    EAct AVerbatimLine1 (ELab "words" (EStar (ERule RVerbatimString)))
  | RVerbatimBlockLine => (* 645-679 *)
    EAct AVerbatimBlockLine1 (ESeq [ELab "indent" (ERule RIndent);
      ELab "words" (EStar (ERule RVerbatimString)); ERule RLineBreak])
  | RVerbatimBlock => (* 680-718 *)
    EAct AVerbatimBlock1 (ESeq [ERule RLineBreak;
      ELab "lines" (EStar (ERule RVerbatimBlockLine)); star_blanks])
  | RInvoke => (* 719-764 *)
    EAct AInvoke1 (ESeq [ELit "\"; ELab "name" (EPlus (EClass namec));
      ELab "args" (EStar (ERule RArgument))])
  | RVerbatimArg => (* 765-805 *)
    EAct AVerbatimArg1 (ESeq [ELit "{{{";
      ELab "node" (EChoice [ERule RVerbatimBlock; ERule RVerbatimLine]); ELit "}}}"])
  | RPreformattedArg => (* 806-837 *)
    EAct APreformattedArg1 (ESeq [ELit "{{"; ELab "node" (ERule RPreformattedBlock); ELit "}}"])
  | REmptyArg => (* 838-852 *)
    EAct AEmptyArg1 (EStar (ERule RCommentSpacing))
  | RArg => (* 853-899 *)
    EAct AArg1 (ESeq [ELit "{";
      ELab "node" (EOpt (EChoice [ERule RWrappedLine; ERule RParaArg; ERule REmptyArg]));
      ELit "}"])
  | RParaArg => (* 900-930 *)
    EAct AParaArg1 (ESeq [ELab "paras" (ERule RParagraphs); star_blanks])
  | RArgument => (* 931-952 *)
    EChoice [ERule RVerbatimArg; ERule RPreformattedArg; ERule RArg]
  | RIndent => (* 953-971 *)
    EAct AIndent1 star_blanks
  end.

(** ** Values and actions *)

(** The dynamic values ([interface{}]) that occur: [nil], [[]byte],
    [[]interface{}], an [ast.Node] and a Go string. *)
Inductive val :=
| VNil
| VBytes (b : string)
| VList (l : list val)
| VNode (nd : node)
| VStr (s : string).

(** A variable set. *)
Definition env := list (string * val).
Definition env_set (x : string) (v : val) (m : env) : env := (x, v) :: m.
Fixpoint env_get (x : string) (m : env) : val :=
  match m with
  | [] => VNil
  | (y, v) :: r => if String.eqb x y then v else env_get x r
  end.

(** booklit.peg.go:21-46: conversions; [None] is a failed type assertion, a panic. *)
Definition as_list (v : val) : option (list val) :=
  match v with VList l => Some l | _ => None end.
Definition as_bytes (v : val) : option string :=
  match v with VBytes b => Some b | _ => None end.
Definition as_node (v : val) : option node :=
  match v with VNode nd => Some nd | _ => None end.
Definition as_seq (v : val) : option (list node) :=
  match v with VNode (NSeq l) => Some l | _ => None end.
Definition as_str (v : val) : option string :=
  match v with VStr s => Some s | _ => None end.

Definition iface_str (v : val) : option string :=
  l ← as_list v; bs ← mapM as_bytes l; Some (sconcat bs).
Definition iface_sequences (v : val) : option (list (list node)) :=
  l ← as_list v; mapM as_seq l.
Definition iface_nodes (v : val) : option (list node) :=
  l ← as_list v; mapM as_node l.

(** A block line: lines 1120-1124 and 1153-1157. *)
Definition block_line (m : env) : option val :=
  indent ← as_str (env_get "indent" m);
  words ← iface_nodes (env_get "words" m);
  Some (VNode (NSeq (NString indent :: words))).

(** [c.globalStore["indent-skip"]]. *)
Definition store := option nat.

(** The actions: value (or panic) and the new global store. [l] is [c.pos],
    [text] is [c.text]. *)
Definition run_action (a : action) (m : env) (l : loc) (text : string) (s : store)
  : option val * store :=
  match a with
  | ABooklit1 => (Some (env_get "node" m), s)                                (* 975-977 *)
  | AParagraphs7 => (Some (env_get "p" m), s)                                (* 985-987 *)
  | AParagraphs1 =>                                                          (* 995-997 *)
    (ns ← iface_nodes (env_get "paragraphs" m); Some (VNode (NSeq ns)), s)
  | AParagraph4 => (Some (env_get "l" m), s)                                 (* 1005-1007 *)
  | AParagraph1 =>                                                           (* 1015-1017 *)
    (ls ← iface_sequences (env_get "lines" m); Some (VNode (NPara ls)), s)
  | ALine1 =>                                                                (* 1025-1027 *)
    (ns ← iface_nodes (env_get "words" m); Some (VNode (NSeq ns)), s)
  | AWord1 => (Some (env_get "val" m), s)                                    (* 1035-1037 *)
  | AInterpolated1 =>                                                        (* 1045-1051 *)
    (Some match env_get "word" m with VNil => VNode (NSeq []) | w => w end, s)
  | AWrappedLine1 =>                                                         (* 1059-1062 *)
    (ws ← as_list (env_get "words" m);
     ns ← iface_nodes (VList (env_get "firstWord" m :: ws)); Some (VNode (NSeq ns)), s)
  | ASplit1 => (Some (VNode (NString " ")), s)                               (* 1070-1072 *)
  | AString2 => (Some (VNode (NString text)), s)                             (* 1080-1082 *)
  | AString6 => (Some (VNode (NString (sdrop 1 text))), s)                   (* 1090-1092 *)
  | AVerbatimString2 => (Some (VNode (NString text)), s)                     (* 1100-1102 *)
  | AVerbatimString6 => (Some (VNode (NString text)), s)                     (* 1110-1112 *)
  | APreformattedBlockLine1 => (block_line m, s)                             (* 1120-1124 *)
  | APreformattedBlock1 =>                                                   (* 1132-1135 *)
    (ls ← iface_sequences (env_get "lines" m); Some (VNode (NPre ls)), None)
  | AVerbatimLine1 =>                                                        (* 1143-1145 *)
    (ns ← iface_nodes (env_get "words" m); Some (VNode (NSeq ns)), s)
  | AVerbatimBlockLine1 => (block_line m, s)                                 (* 1153-1157 *)
  | AVerbatimBlock1 =>                                                       (* 1165-1168 *)
    (ls ← iface_sequences (env_get "lines" m); Some (VNode (NPre ls)), None)
  | AInvoke1 =>                                                              (* 1176-1187 *)
    (fn ← iface_str (env_get "name" m); args ← iface_nodes (env_get "args" m);
     Some (VNode (NInvoke fn args l)), s)
  | AVerbatimArg1 => (Some (env_get "node" m), s)                            (* 1195-1197 *)
  | APreformattedArg1 => (Some (env_get "node" m), s)                        (* 1205-1207 *)
  | AEmptyArg1 => (Some VNil, s)                                             (* 1215-1217 *)
  | AArg1 =>                                                                 (* 1225-1231 *)
    (Some match env_get "node" m with VNil => VNode (NString "") | w => w end, s)
  | AParaArg1 => (Some (env_get "paras" m), s)                               (* 1239-1241 *)
  | AIndent1 =>                                                              (* 1249-1264 *)
    let skip := default (String.length text) s in
    (Some (VStr (sdrop skip text)), Some skip)
  end.

(** ** The parser state *)

(** What is recorded in [p.errs]: lines 1282-1283, 2059 and 2021-2034. *)
Inductive perr := InvalidEncoding | NoMatch | ActionPanic.

(** booklit.peg.go:1727-1763: the mutable part of [parser]. *)
Record pstate := PState {
  p_pt : cursor;
  p_errs : list (perr * loc);
  p_mf : loc;           (* maxFailPos *)
  p_inv : bool;         (* maxFailInvertExpected *)
  p_store : store       (* cur.globalStore *)
}.

Definition set_pt (st : pstate) (c : cursor) : pstate :=
  PState c (p_errs st) (p_mf st) (p_inv st) (p_store st).
Definition set_store (st : pstate) (s : store) : pstate :=
  PState (p_pt st) (p_errs st) (p_mf st) (p_inv st) s.
Definition flip_inv (st : pstate) : pstate :=
  PState (p_pt st) (p_errs st) (p_mf st) (negb (p_inv st)) (p_store st).
Definition add_err (st : pstate) (e : perr) (l : loc) : pstate :=
  PState (p_pt st) (p_errs st ++ [(e, l)]) (p_mf st) (p_inv st) (p_store st).

(** 1902-1906: an invalid byte is recorded as an error where it is read. *)
Definition bad_rune (c : cursor) : bool := (cur_rn c =? rune_error)%N && Nat.eqb (cur_w c) 1.
Definition note_rune (st : pstate) : pstate :=
  if bad_rune (p_pt st) then add_err st InvalidEncoding (cur_loc (p_pt st)) else st.

(** 1891-1907 [read]. *)
Definition read (st : pstate) : pstate := note_rune (set_pt st (next (p_pt st))).

(** 1910-1918 [restore]. *)
Definition restore (st : pstate) (c : cursor) : pstate :=
  if Nat.eqb (c_off c) (c_off (p_pt st)) then st else set_pt st c.

(** 1871-1889 [failAt], without the expected list. *)
Definition fail_at (fail : bool) (l : loc) (st : pstate) : pstate :=
  if Bool.eqb fail (p_inv st)
  then if Nat.ltb (l_off (p_mf st)) (l_off l)
       then PState (p_pt st) (p_errs st) l (p_inv st) (p_store st) else st
  else st.

(** ** The interpreter *)

(** Result of parsing an expression: out of recursion depth; an action panicked;
    or a match ([Some]) or a mismatch ([None]). *)
Inductive res :=
| RDeep
| RPanic (st : pstate)
| RDone (r : option val) (m : env) (st : pstate).

(** 2233-2247, 2254-2257: at the end of the input? *)
Definition at_end (c : cursor) : bool := (cur_rn c =? rune_error)%N && Nat.eqb (cur_w c) 0.

(** 2265-2311: does the class match the rune? *)
Definition class_match (k : class) (r : N) : bool :=
  let hit := existsb (λ a, N.eqb (byte a) r) (k_chars k)
          || existsb (λ p, (byte (fst p) <=? r)%N && (r <=? byte (snd p))%N) (k_ranges k) in
  if k_inv k then negb hit else hit.

(** 2369-2389: the loop of [parseLitMatcher]. *)
Fixpoint lit_loop (s : string) (start : cursor) (st : pstate) : option pstate * pstate :=
  match s with
  | "" => (Some st, st)
  | String a r =>
    if N.eqb (cur_rn (p_pt st)) (byte a) then lit_loop r start (read st)
    else (None, restore (fail_at false (cur_loc start) st) start)
  end.

Section Loops.
  (** [parseExpr] one level down. *)
  Variable P : expr → env → pstate → res.

  (** 2476-2495 [parseSeqExpr]; [pt] is the position to go back to. *)
  Fixpoint seq_loop (pt : cursor) (l : list expr) (acc : list val) (m : env) (st : pstate) : res :=
    match l with
    | [] => RDone (Some (VList acc)) m st
    | e :: l =>
      match P e m st with
      | RDone (Some v) m' st' => seq_loop pt l (acc ++ [v]) m' st'
      | RDone None m' st' => RDone None m' (restore st' pt)
      | r => r
      end
    end.

  (** 2330-2352 [parseChoiceExpr]. *)
  Fixpoint choice_loop (l : list expr) (m : env) (st : pstate) : res :=
    match l with
    | [] => RDone None m st
    | e :: l =>
      match P e [] st with
      | RDone (Some v) _ st' => RDone (Some v) m st'
      | RDone None _ st' => choice_loop l m st'
      | r => r
      end
    end.

  (** 2425-2445, 2525-2541: the loop of [parseOneOrMoreExpr] and
      [parseZeroOrMoreExpr]. The loop would run forever on a body that matches
      without consuming; the model gives up ([RDeep]) after more rounds than
      there are bytes left. *)
  Fixpoint many_loop (k : nat) (e : expr) (acc : list val) (st : pstate)
    : res :=
    match k with
    | 0 => RDeep
    | S k =>
      match P e [] st with
      | RDone (Some v) _ st' => many_loop k e (acc ++ [v]) st'
      | RDone None _ st' => RDone (Some (VList acc)) [] st'
      | r => r
      end
    end.
End Loops.

Definition rounds (st : pstate) : nat := S (String.length (c_rest (p_pt st))).

(** 2111-2553 [parseExpr], [P] being [parseExpr] one level down. *)
Definition parse_body (P : expr → env → pstate → res) (e : expr) (m : env) (st : pstate) : res :=
  let start := p_pt st in
  match e with
  | EAct a e =>                                                            (* 2176-2199 *)
    match P e m st with
    | RDone (Some _) m' st' =>
      match run_action a m' (cur_loc start) (slice start (p_pt st')) (p_store st') with
      | (Some v, s) => RDone (Some v) m' (set_store st' s)
      | (None, s) => RPanic (set_store st' s)
      end
    | r => r
    end
  | ESeq l => seq_loop P start l [] m st
  | EChoice l => choice_loop P l m st
  | ELab x e =>                                                            (* 2354-2367 *)
    match P e [] st with
    | RDone (Some v) _ st' => RDone (Some v) (env_set x v m) st'
    | RDone None _ st' => RDone None m st'
    | r => r
    end
  | ENot e =>                                                              (* 2407-2423 *)
    match P e [] (flip_inv st) with
    | RDone r _ st' =>
      RDone (match r with Some _ => None | None => Some VNil end) m
        (restore (flip_inv st') start)
    | r => r
    end
  | EOpt e =>                                                              (* 2543-2553 *)
    match P e [] st with
    | RDone r _ st' => RDone (Some (default VNil r)) m st'
    | r => r
    end
  | EStar e =>
    match many_loop P (rounds st) e [] st with
    | RDone r _ st' => RDone r m st'
    | r => r
    end
  | EPlus e =>
    match many_loop P (rounds st) e [] st with
    | RDone (Some (VList [])) _ st' => RDone None m st'
    | RDone r _ st' => RDone r m st'
    | r => r
    end
  | ERule r =>                                                             (* 2082-2109, 2459-2474 *)
    match P (rule_expr r) [] st with
    | RDone v _ st' => RDone v m st'
    | r => r
    end
  | ELit s =>
    match lit_loop s start st with
    | (Some st', _) =>
      RDone (Some (VBytes (slice start (p_pt st')))) m (fail_at true (cur_loc start) st')
    | (None, st') => RDone None m st'
    end
  | EClass k =>                                                            (* 2249-2313 *)
    if at_end start then RDone None m (fail_at false (cur_loc start) st)
    else if class_match k (cur_rn start) then
      let st' := read st in
      RDone (Some (VBytes (slice start (p_pt st')))) m (fail_at true (cur_loc start) st')
    else RDone None m (fail_at false (cur_loc start) st)
  | EAny =>                                                                (* 2233-2247 *)
    if at_end start then RDone None m (fail_at false (cur_loc start) st)
    else
      let st' := read st in
      RDone (Some (VBytes (slice start (p_pt st')))) m (fail_at true (cur_loc start) st')
  end.

(** [n] bounds the depth of the recursion. *)
Fixpoint parse_expr (n : nat) (e : expr) (m : env) (st : pstate) : res :=
  match n with
  | 0 => RDeep
  | S n => parse_body (parse_expr n) e m st
  end.

(** ** Parsing a document *)

Inductive parsed :=
| PDeep
| PErr (errs : list (perr * loc))
| PVal (v : val).

(** 1656-1684 [newParser] and the first [read] of [parse] (2043): line 1, column
    0, nothing read yet, nothing stored. *)
Definition start_state (d : string) : pstate :=
  note_rune (PState (arrive 1 0 0 d) [] (Loc 1 1 0) false None).

(** 2005-2069 [parse]: a panic is recovered and reported at the current position;
    a mismatch without other errors is reported at the furthest position; any
    recorded error makes the parse fail. *)
Definition parse_with (n : nat) (d : string) : parsed :=
  match parse_expr n (ERule RBooklit) [] (start_state d) with
  | RDeep => PDeep
  | RPanic st => PErr (p_errs (add_err st ActionPanic (cur_loc (p_pt st))))
  | RDone None _ st =>
    PErr (p_errs (match p_errs st with [] => add_err st NoMatch (p_mf st) | _ => st end))
  | RDone (Some v) _ st =>
    match p_errs st with [] => PVal v | errs => PErr errs end
  end.

(** Depth per byte; see [parse_depth] in PegTotal.v. *)
Definition depth_per_byte : nat := 64.
Definition depth_for (d : string) : nat := depth_per_byte * S (String.length d).

(** 1456-1458 [Parse] (and 1445-1452 [ParseReader] for a reader that succeeds). *)
Definition go_parse (d : string) : parsed := parse_with (depth_for d) d.

(** ast/errors.go:10-27 [UnpackError] as used in load/processor.go:88-103: the
    location of the first error. *)
Definition unpack_error (errs : list (perr * loc)) : option (perr * loc) := head errs.
