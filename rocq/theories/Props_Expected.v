(** Properties of the texts of syntax errors. *)
From Coq Require Import Ascii String NArith Sorted Lia.
From stdpp Require Import base tactics relations strings numbers list.
From Verif Require Import GoBase Ast Utf8 Peg StrProofs JsonSpec Expected ExpectedSpec ExpectedProofs ParserMain.
Local Open Scope string_scope. Local Open Scope list_scope.

(** ** C80: what syntax errors say *)

(** Keeping the list of what was looked for does not change what is read. *)
Theorem expected_same_parse d : 
  (∃ v, go_parse d = PVal v) ↔ error_said d = None.
Proof. symmetry. apply said_none. Qed.
Print Assumptions expected_same_parse.

(** The text of a syntax error lists, in order, each once and the end of the file last,
    what stopped the parser at the position the error is reported at. The parser was
    stopped nowhere further on. *)
Theorem syntax_error_text d l : go_parse d = PErr [(NoMatch, l)] →
  ∃ texts s, error_said d = Some ("no match found, expected: " +:+ s) ∧ listing texts s ∧
    names texts (λ t, ∃ y, comes_to d y ∧ stops y ∧ y_off y = l_off l ∧ t = called (y_inv y) (y_want y)) ∧
    (∀ y, comes_to d y → stops y → y_off y ≤ l_off l).
Proof.
  intros Hd. destruct (said_texts _ _ Hd) as (texts & s & H1 & H2 & H3 & H4). exists texts, s. split; [done|]. split; [done|]. split.
  - eapply names_iff; [|exact H3]. intros t. cbn beta. unfold comes_to. by setoid_rewrite tried_looks.
  - intros y Hy. by apply H4, tried_looks.
Qed.
Print Assumptions syntax_error_text.

(** What the matchers are called. *)
Theorem matcher_texts :
  map (λ q, map want_text (matchers (rule_expr q)))
    [RBooklit; RParagraphs; RLineBreak; RCommentSpacing; RParagraph; RLine; RWord; RComment; RInterpolated; RWrappedLine; RSplit;
     RString; RVerbatimString; RPreformattedBlockLine; RPreformattedBlock; RVerbatimLine; RVerbatimBlockLine; RVerbatimBlock;
     RInvoke; RVerbatimArg; RPreformattedArg; REmptyArg; RArg; RParaArg; RArgument; RIndent] =
  [["."]; []; ["""\n"""; """\r\n"""]; []; []; ["[ \t]"]; []; ["[ \t]"; """{-"""; """-}"""; "."; """-}"""]; ["""{"""; """}"""]; []; ["[ \t]"];
   ["[^\\{}\r\n]"; """\\"""; "[\\{}]"]; ["[^\r\n}]"; """}"""; """}}"""]; []; ["[ \t]"]; []; []; ["[ \t]"];
   ["""\\"""; "[a-z-]"]; ["""{{{"""; """}}}"""]; ["""{{"""; """}}"""]; []; ["""{"""; """}"""]; ["[ \t]"]; []; ["[ \t]"]].
Proof. vm_compute. reflexivity. Qed.
Print Assumptions matcher_texts.

(** What the parser finds is there, and what it misses is missing. *)
Theorem looks_truly d y : comes_to d y →
  y_off y ≤ String.length d ∧ (y_met y = true ↔ meets (y_want y) (sdrop (y_off y) d)).
Proof. intros Hy%tried_looks. by apply tried_honest. Qed.
Print Assumptions looks_truly.

(** So nothing listed is there, except what is listed as not wanted, which is; and
    something is listed. *)
Theorem expected_missing d l : go_parse d = PErr [(NoMatch, l)] →
  ∃ texts s, error_said d = Some ("no match found, expected: " +:+ s) ∧ listing texts s ∧ texts ≠ [] ∧
    ∀ t, t ∈ texts →
      t = "EOF" ∧ sdrop (l_off l) d ≠ "" ∨
      ∃ inv w, t = called inv w ∧ if inv : bool then meets w (sdrop (l_off l) d) else ¬ meets w (sdrop (l_off l) d).
Proof.
  intros Hd. destruct (said_texts _ _ Hd) as (texts & s & Hs & Hl & (a & z & -> & _ & Ha & Hz) & _).
  exists (a ++ z), s. split; [done|]. split; [done|]. split; [intros E; rewrite E in Hl; inversion Hl|].
  assert (∀ y, y ∈ tried d → stops y → y_off y = l_off l →
    if y_inv y then meets (y_want y) (sdrop (l_off l) d) else ¬ meets (y_want y) (sdrop (l_off l) d)) as Hy.
  { intros y Hy Hst Ho. destruct (tried_honest _ _ Hy) as [_ Hm]. unfold stops in Hst. rewrite Ho in Hm.
    destruct (y_inv y); rewrite <- Hm; [done|]. by rewrite Hst. }
  intros t [Ht|Ht]%elem_of_app.
  - right. apply Ha in Ht as [(y & H1 & H2 & H3 & ->) _]. exists (y_inv y), (y_want y). split; [done|]. by apply Hy.
  - destruct Hz as [[-> (y & H1 & H2 & H3 & H4)]|[-> _]]; [|by apply elem_of_nil in Ht]. apply elem_of_list_singleton in Ht as ->.
    left. split; [done|]. specialize (Hy y H1 H2 H3). unfold called in H4.
    assert (y_inv y = true ∧ y_want y = WAny) as [E1 E2].
    { destruct (y_inv y), (y_want y) as [q|k|]; cbn in H4; try done. }
    rewrite E1, E2 in Hy. exact Hy.
Qed.
Print Assumptions expected_missing.

(** A document that is not UTF-8 is said to be not. *)
Theorem encoding_error_text d e l errs : go_parse d = PErr ((e, l) :: errs) → e ≠ NoMatch →
  error_said d = Some "invalid encoding".
Proof. apply said_encoding. Qed.
Print Assumptions encoding_error_text.

Example ex_lone_backslash : go_parse "\" = PErr [(NoMatch, Loc 1 2 1)] ∧
  error_said "\" = Some "no match found, expected: [\\{}] or [a-z-]".
Proof. split; vm_compute; reflexivity. Qed.
Example ex_unopened : (∃ l, go_parse "hello } x" = PErr [(NoMatch, l)] ∧ l_off l = 6) ∧
  error_said "hello } x" =
    Some ("no match found, expected: ""\\"", ""\n"", ""\r\n"", ""{"", ""{-"", [ \t], [^\\{}\r\n] or EOF").
Proof. split; [eexists; split|]; vm_compute; reflexivity. Qed.
Example ex_unclosed : error_said "\foo{bar" =
  Some "no match found, expected: ""\\"", ""\n"", ""\r\n"", ""{"", ""{-"", ""}"", [ \t] or [^\\{}\r\n]".
Proof. vm_compute. reflexivity. Qed.
Example ex_comment : error_said "{- a" =
  Some "no match found, expected: ""-}"", ""{-"", ""}"", ., [ \t] or [^\\{}\r\n]".
Proof. vm_compute. reflexivity. Qed.
Example ex_not_utf8 : error_said (String "255" "") = Some "invalid encoding".
Proof. vm_compute. reflexivity. Qed.
