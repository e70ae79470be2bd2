(** Properties of the language (C03, C04, C05, C06, C10). *)
From Coq Require Import Ascii String NArith Lia.
From stdpp Require Import base tactics relations strings numbers list.
From Verif Require Import GoBase Ast Utf8 Peg StrProofs PegBase Descent DescentProofs ParseSpec ParserMain
  Encoding Positions Runs Shape Grammar GrammarProofs GrammarParse Written WrittenProofs WrittenMore Verbatim.
Local Open Scope string_scope.
Local Open Scope list_scope.

(** ** The grammar *)

(** Every document the declarative grammar derives parses to its tree, so the
    grammar is unambiguous. *)
Theorem grammar_sound ps d : document ps d → valid_utf8 d →
  ∃ ps', go_parse d = PVal (VNode (NSeq (map NPara ps'))) ∧ map (map (map erase)) ps' = ps.
Proof. apply document_parses. Qed.
Print Assumptions grammar_sound.

Theorem grammar_unambiguous ps ps' d : document ps d → document ps' d → valid_utf8 d → ps = ps'.
Proof.
  intros H1 H2 Hv. destruct (grammar_sound ps d H1 Hv) as (q & E & <-).
  destruct (grammar_sound ps' d H2 Hv) as (q' & E' & <-). rewrite E in E'. injection E' as E'.
  f_equal. clear - E'. revert q' E'. induction q as [|x q IH]; intros [|x' q'] E'; try done.
  simpl in E'. injection E' as -> E'. f_equal. by apply IH.
Qed.
Print Assumptions grammar_unambiguous.

(** ** C03: escaped text is preserved *)

Theorem escaped_text t : t ≠ "" → valid_utf8 t → line_free t = true → sblank t = false →
  ∃ l, go_parse (escape t) = PVal (VNode (NSeq [NPara [l]])) ∧ texts l = Some t.
Proof.
  intros Hn Hv Hl Hb. destruct (text_pieces true t Hv Hl) as (l & H1 & H2 & H3 & H4 & H5 & _).
  exists l. split; [|done]. eapply one_line; [done|by apply H5|by rewrite H4|].
  rewrite <- H3. by apply normal_written_all.
Qed.
Print Assumptions escaped_text.

Example ex_escaped : go_parse (escape "a \bold{x} -}") =
  PVal (VNode (NSeq [NPara [map NString ["a "; "\"; "bold"; "{"; "x"; "}"; " -"; "}"]]])).
Proof. vm_compute. reflexivity. Qed.

(** Leading blanks are not preserved. *)
Example leading_blank_refuted : ∃ t l s, t ≠ "" ∧ valid_utf8 t ∧ line_free t = true ∧
  go_parse (escape t) = PVal (VNode (NSeq [NPara [l]])) ∧ texts l = Some s ∧ s ≠ t.
Proof.
  exists " a", [NString "a"], "a". split_and!; try done. by apply valid_ascii.
Qed.

(** ** C04: inline verbatim arguments are byte-exact *)

Theorem verbatim_exact f t : name_ok f → valid_utf8 t → line_free t = true → no_close t "}}}" →
  ∃ ts l, go_parse ("\" +:+ f +:+ "{{{" +:+ t +:+ "}}}") =
      PVal (VNode (NSeq [NPara [[NInvoke f [NSeq (map NString ts)] l]]])) ∧ sconcat ts = t.
Proof.
  intros Hf Hv Hl Hc. destruct (vpieces_exist t "}}}") as (ts & Hp & Hs); [done..|].
  destruct (invoke_document f (NSeq (map NString ts)) ("{{{" +:+ t +:+ "}}}") None) as (nd & l & E & Hd).
  - done.
  - by apply arg_verbatim.
  - apply valid_app; [by apply valid_ascii|]. apply valid_app; [done|by apply valid_ascii].
  - done.
  - exists ts, l. split; [|done]. change ("\" +:+ f +:+ "{{{" +:+ t +:+ "}}}") with (String "\" (f +:+ "{{{" +:+ t +:+ "}}}")).
    rewrite Hd. destruct nd as [|l'| | |]; try done. simpl in E. injection E as E.
    rewrite (texts_erase (map NString ts) l' t); [done|rewrite texts_strings; by rewrite Hs|].
    by rewrite E, map_erase_strings.
Qed.
Print Assumptions verbatim_exact.

(** In any context: a verbatim argument is an argument whatever comes after it. *)
Theorem verbatim_argument t s u : line_free t = true → no_close t ("}}}" +:+ u) →
  ∃ ts, arg s (NSeq (map NString ts)) ("{{{" +:+ t +:+ "}}}") u s ∧ sconcat ts = t.
Proof.
  intros Hl Hc. destruct (vpieces_exist t ("}}}" +:+ u)) as (ts & Hp & Hs); [done..|].
  exists ts. split; [by constructor|done].
Qed.
Print Assumptions verbatim_argument.

Example ex_verbatim : no_close "\x{ {- }} }" "}}}" → False.
Proof. intros H. specialize (H 10 ltac:(simpl; lia)). vm_compute in H. done. Qed.
Example ex_verbatim2 : no_close "\x{ {- }} y" "}}}" ∧
  go_parse ("\" +:+ "f" +:+ "{{{" +:+ "\x{ {- }} y" +:+ "}}}") =
    PVal (VNode (NSeq [NPara [[NInvoke "f" [NSeq (map NString ["\x{ {- "; "}"; "}"; " y"])] (Loc 1 1 0)]]])).
Proof.
  split; [|vm_compute; reflexivity]. intros i Hi. simpl in Hi.
  do 11 (destruct i as [|i]; [vm_compute; reflexivity|]). lia.
Qed.

(** Text that ends in a closing brace cannot be written this way. *)
Example verbatim_brace_refuted : ∃ t, line_free t = true ∧ valid_utf8 t ∧
  ∃ errs, go_parse ("\f{{{" +:+ t +:+ "}}}") = PErr errs.
Proof. exists "a}". split_and!; [done|by apply valid_ascii|]. eexists. vm_compute. reflexivity. Qed.

(** ** C05: blocks strip the indentation of their first line *)

Theorem block_indentation f ls t : name_ok f → Forall bline_ok ls → sforall blank t = true →
  ∃ ns l, go_parse ("\" +:+ f +:+ "{{{" +:+ nls +:+ block_text ls +:+ t +:+ "}}}") =
      PVal (VNode (NSeq [NPara [[NInvoke f [NPre ns] l]]])) ∧
    Forall2 (λ (x : bline) n, texts n = Some (sdrop (first_indent ls) x.1 +:+ x.2)) ls ns.
Proof.
  intros Hf Hls Ht. destruct (block_lines None ls (t +:+ "}}}" +:+ "") Hls) as (ns & Hv & Hns). simpl in Hns.
  destruct (invoke_document f (NPre ns) ("{{{" +:+ nls +:+ block_text ls +:+ t +:+ "}}}") None) as (nd & l & E & Hd).
  - done.
  - apply arg_vblock; [by left|done|done].
  - apply valid_app; [by apply valid_ascii|]. apply valid_app; [by apply valid_ascii|].
    apply valid_app; [by apply valid_block|]. apply valid_app; [by apply valid_blanks|by apply valid_ascii].
  - done.
  - exists ns, l. split; [|done].
    change ("\" +:+ f +:+ "{{{" +:+ nls +:+ block_text ls +:+ t +:+ "}}}") with
      (String "\" (f +:+ "{{{" +:+ nls +:+ block_text ls +:+ t +:+ "}}}")).
    rewrite Hd. destruct nd as [| | |ns'|]; try done. simpl in E. injection E as E.
    by rewrite (lines_erase ns ns' ls _ Hns E).
Qed.
Print Assumptions block_indentation.

Example ex_block : Forall bline_ok [("  ", "a"); ("    ", "b }} {"); (" ", "c"); ("", "")] ∧
  go_parse ("\f{{{" +:+ nls +:+ block_text [("  ", "a"); ("    ", "b }} {"); (" ", "c"); ("", "")] +:+ "  }}}") =
    PVal (VNode (NSeq [NPara [[NInvoke "f" [NPre [map NString [""; "a"]; map NString ["  "; "b "; "}"; "}"; " {"];
      map NString [""; "c"]; map NString [""]]] (Loc 1 1 0)]]])).
Proof.
  split; [|vm_compute; reflexivity]. repeat constructor; try (by apply valid_ascii); try done; intros i Hi; simpl in Hi.
  - destruct i; [done|lia].
  - do 6 (destruct i as [|i]; [vm_compute; reflexivity|]). lia.
  - destruct i; [done|lia].
  - lia.
Qed.

(** Blocks share the variable holding the indentation: inside another block the
    outer indentation is used, so the first line of the inner block keeps some. *)
Example nested_indent_refuted : ∃ d l1 l2 r,
  d = "\f{{" +:+ nls +:+ "  \g{{{" +:+ nls +:+ "    x" +:+ nls +:+ "  }}}" +:+ nls +:+ "}}" ∧
  go_parse d = PVal (VNode (NSeq [NPara [[NInvoke "f" [NPre [[NString ""; NInvoke "g" [NPre [[r; NString "x"]]] l2]]] l1]]])) ∧
  r ≠ NString "".
Proof. do 3 eexists. exists (NString "  "). split; [reflexivity|]. split; [vm_compute; reflexivity|done]. Qed.

(** ** C06: comments leave no trace *)

(** A comment in the middle of a line. *)
Theorem comment_in_line x y b : valid_utf8 x → line_free x = true → sblank x = false → solid x →
  valid_utf8 y → line_free y = true → cbody b → valid_utf8 b →
  ∃ l, go_parse (escape x +:+ "{-" +:+ b +:+ "-}" +:+ escape y) = PVal (VNode (NSeq [NPara [l]])) ∧
    texts l = Some (x +:+ y).
Proof.
  intros Hvx Hlx Hbx Hsx Hvy Hly Hb Hvb.
  destruct (text_pieces true x Hvx Hlx) as (lx & H1 & H2 & H3 & H4 & H5 & H6).
  destruct (text_pieces true y Hvy Hly) as (ly & G1 & G2 & G3 & G4 & G5 & _).
  destruct (H6 Hsx) as (l' & nd & -> & Hr & Ha).
  assert (l' ++ [nd] ≠ []) as Hne by by destruct l'.
  exists ((l' ++ [nd]) ++ ly). split; [|by apply texts_app].
  eapply one_line; [by apply texts_app| | |].
  - by destruct l'.
  - rewrite starts_blank_app by done. by rewrite H4.
  - rewrite <- H3, <- G3.
    replace ("{-" +:+ b +:+ "-}" +:+ sconcat (map show ly)) with
      (("{-" +:+ b +:+ "-}") +:+ sconcat (map show ly)) by by rewrite !sapp_assoc.
    apply words_before; try done; [by apply remark_comment|by apply valid_comment|by apply normal_written_all].
Qed.
Print Assumptions comment_in_line.

(** Comments after words and between paragraphs: all ways of writing a tree parse
    to the same tree. *)
Theorem comments_no_trace ps d d' : written ps d → written ps d' →
  ∃ qs qs', go_parse d = PVal (VNode (NSeq (map NPara qs))) ∧ go_parse d' = PVal (VNode (NSeq (map NPara qs'))) ∧
    map (map (map erase)) qs = map (map (map erase)) qs'.
Proof.
  intros H H'. destruct (written_parses ps d H) as (qs & E & H1). destruct (written_parses ps d' H') as (qs' & E' & H2).
  exists qs, qs'. split_and!; [done|done|]. by rewrite H1, H2.
Qed.
Print Assumptions comments_no_trace.

(** Comments nest to any depth. *)
Fixpoint nest (n : nat) (t : string) : string :=
  match n with 0 => t | S n => "{-" +:+ nest n t +:+ "-}" end.
Theorem nested_comment n x y t : valid_utf8 x → line_free x = true → sblank x = false → solid x →
  valid_utf8 y → line_free y = true → sforall (λ a, negb (special a)) t = true → valid_utf8 t →
  ∃ l, go_parse (escape x +:+ nest (S n) t +:+ escape y) = PVal (VNode (NSeq [NPara [l]])) ∧
    texts l = Some (x +:+ y).
Proof.
  intros Hvx Hlx Hbx Hsx Hvy Hly Ht Hvt.
  assert (cbody (nest n t) ∧ valid_utf8 (nest n t)) as [Hc Hv].
  { induction n as [|n [IH1 IH2]].
    - split; [|done]. simpl. clear Hvt. induction t as [|a t IH]; [constructor|]. simpl in Ht.
      apply andb_true_iff in Ht as [Ha Ht]. apply negb_true_iff in Ha. constructor; [by apply IH| |].
      + unfold starts. cbn [has_prefix]. destruct t as [|b t]; cbn [append has_prefix].
        * change (Ascii.eqb "}" "-") with false. by rewrite andb_false_r.
        * simpl in Ht. apply andb_true_iff in Ht as [Hb _]. apply negb_true_iff in Hb.
          by rewrite (eqb_not special "}" b), andb_false_r.
      + unfold starts. cbn [has_prefix]. by rewrite (eqb_not special "{" a).
    - split; [|by apply valid_comment]. simpl. rewrite <- (sapp_nil_r "-}"). apply cb_nest; [done|constructor]. }
  destruct (comment_in_line x y (nest n t)) as (l & H1 & H2); try done. exists l. split; [|done].
  rewrite <- H1. do 2 f_equal. simpl. by rewrite !sapp_assoc.
Qed.
Print Assumptions nested_comment.

Example ex_comment : solid "foo " ∧
  go_parse (escape "foo " +:+ nest 3 "x" +:+ escape "{bar") =
    PVal (VNode (NSeq [NPara [map NString ["foo "; "{"; "bar"]]])).
Proof. split; [by exists "fo", "o"%char, " "|]. vm_compute. reflexivity. Qed.

(** After an invocation without a blank a comment is taken for an argument. *)
Example comment_argument_refuted : ∃ l, go_parse "\f{-c-}" =
  PVal (VNode (NSeq [NPara [[NInvoke "f" [NSeq [NString "-c-"]] l]]])).
Proof. eexists. vm_compute. reflexivity. Qed.

(** A comment on its own line splits the paragraph. *)
Example comment_line_refuted :
  go_parse ("foo" +:+ nls +:+ "{-c-}" +:+ nls +:+ "bar") =
    PVal (VNode (NSeq [NPara [[NString "foo"]]; NPara [[NString "bar"]]])) ∧
  go_parse ("foo" +:+ nls +:+ "bar") = PVal (VNode (NSeq [NPara [[NString "foo"]; [NString "bar"]]])).
Proof. split; vm_compute; reflexivity. Qed.

(** Blanks before a comment are dropped unless they belong to a text. *)
Example comment_blanks_refuted : ∃ x y c l s, comment c ∧ line_free x = true ∧ line_free y = true ∧
  go_parse (escape x +:+ c +:+ escape y) = PVal (VNode (NSeq [NPara [l]])) ∧ texts l = Some s ∧ s ≠ x +:+ y.
Proof.
  exists "} ", "a", "{-c-}", [NString "}"; NString "a"], "}a". split_and!; try done.
  apply (remark_comment "c"). repeat constructor.
Qed.

(** A line of blanks does not separate paragraphs: it is a syntax error. *)
Example blank_line_refuted : ∃ errs, go_parse ("foo" +:+ nls +:+ " " +:+ nls +:+ "bar") = PErr errs.
Proof. eexists. vm_compute. reflexivity. Qed.

(** ** C10: documents can be written for every tree *)

Theorem print_parse ps : normal ps →
  ∃ ps', go_parse (show_doc ps) = PVal (VNode (NSeq (map NPara ps'))) ∧
    map (map (map erase)) ps' = map (map (map erase)) ps.
Proof. intros H. by apply written_parses, normal_written. Qed.
Print Assumptions print_parse.

Definition ex_tree : list (list (list node)) :=
  [[[NString "See "; NInvoke "bold" [NSeq [NString "a"; NString "{"; NInvoke "x" [] noloc]; NString ""] noloc; NString "."];
    [NSeq []]];
   [[NInvoke "code" [NPre [[NString ""; NString "x = "; NInvoke "y" [] noloc]; [NString "  "; NString "\"]]] noloc;
     NInvoke "z" [NSeq [NPara [[NString "p"]; [NString "q"]]; NPara [[NInvoke "w" [] noloc]]]] noloc]]].

Example ex_print : normal ex_tree ∧ show_doc ex_tree =
  "See {\bold{a\{{\x}}{}}." +:+ nls +:+ "{}" +:+ nls +:+ nls +:+
  "{\code{{" +:+ nls +:+ "x = {\y}" +:+ nls +:+ "  \\" +:+ nls +:+ "}}}" +:+
  "{\z{" +:+ nls +:+ "p" +:+ nls +:+ "q" +:+ nls +:+ nls +:+ "{\w}}}".
Proof.
  split; [|vm_compute; reflexivity].
  repeat first [ done | by apply nw_run; [|apply valid_ascii] | by apply nw_escape
    | match goal with |- narg _ (NSeq [NPara ?a; NPara ?b]) => apply (na_paras _ [a; b]) end
    | apply np_last | apply nps_last | progress constructor ].
Qed.
