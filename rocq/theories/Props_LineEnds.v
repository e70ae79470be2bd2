(** C08: the line-ending style of a document does not matter. *)
From Coq Require Import Ascii String NArith Lia.
From stdpp Require Import base tactics strings list.
From Verif Require Import GoBase Ast Utf8 Peg StrProofs PegBase Descent DescentProofs ParserMain LineEndSpec LineEnds.
Local Open Scope string_scope.
Local Open Scope list_scope.

(** A document without carriage returns and its conversion to CRLF both parse, into
    the same tree with the same lines and columns, or both are rejected. *)
Theorem line_ends d : no_cr d →
  (∃ v v', go_parse d = PVal (VNode v) ∧ go_parse (crlf d) = PVal (VNode v') ∧ alike v v') ∨
  (∃ errs errs', go_parse d = PErr errs ∧ go_parse (crlf d) = PErr errs').
Proof.
  intros Hd. destruct (parse_crlf_case d Hd) as [(ps & ps' & _ & _ & H & E & E')|H]; [|by right].
  left. eexists _, _. split_and!; [done|done|]. constructor. by apply paras_alike.
Qed.
Print Assumptions line_ends.

(** Comments, wrapped lines, arguments over several lines, verbatim blocks, blank
    lines and an invocation after them all. *)
Definition ended : string :=
  "Hi {- a" +:+ nls +:+ nls +:+ "b -} there" +:+ nls +:+ "\foo{x" +:+ nls +:+ "  y}{{{" +:+ nls +:+ "  z" +:+ nls +:+ "}}}" +:+
  nls +:+ nls +:+ "  \bar" +:+ nls.
Example ex_line_ends : no_cr ended ∧
  go_parse ended = PVal (VNode (NSeq
    [NPara [[NString "Hi "; NString " there"];
            [NInvoke "foo" [NSeq [NString "x"; NString " "; NString "y"]; NPre [[NString ""; NString "z"]]] (Loc 4 1 20)]];
     NPara [[NInvoke "bar" [] (Loc 9 3 46)]]])) ∧
  go_parse (crlf ended) = PVal (VNode (NSeq
    [NPara [[NString "Hi "; NString " there"];
            [NInvoke "foo" [NSeq [NString "x"; NString " "; NString "y"]; NPre [[NString ""; NString "z"]]] (Loc 4 1 23)]];
     NPara [[NInvoke "bar" [] (Loc 9 3 54)]]])).
Proof. split_and!; vm_compute; reflexivity. Qed.

(** Both are rejected. *)
Example ex_line_ends_error : no_cr ("a {" +:+ nls) ∧ ∃ e e', go_parse ("a {" +:+ nls) = PErr e ∧
  go_parse (crlf ("a {" +:+ nls)) = PErr e'.
Proof. split; [done|]. eexists _, _. split; vm_compute; reflexivity. Qed.

(** The hypothesis is needed: converting a file that already has carriage returns
    leaves a lone one, which no rule accepts. *)
Theorem line_ends_mixed_refuted : ∃ d v errs, ¬ no_cr d ∧ go_parse d = PVal v ∧ go_parse (crlf d) = PErr errs.
Proof.
  exists ("a" +:+ String cr (nls +:+ "b")). eexists _, _. split; [done|]. split; vm_compute; reflexivity.
Qed.
Print Assumptions line_ends_mixed_refuted.
