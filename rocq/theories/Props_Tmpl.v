(** C66: executing the bundled templates. *)
From Coq Require Import Ascii String Lia.
From stdpp Require Import base tactics relations functions strings list.
From Verif Require Import GoBase StrProofs Ast Peg Evaluate Content ContentProofs Section Render Html TextRender Templates Tmpl TmplSrc TmplEsc TmplExec
  TmplSpec TmplBundled TmplProofs TmplHtml TmplFuel TmplText TmplTextFuel TmplEscProofs TmplParseProofs RenderFuel Props_Html.
Local Open Scope string_scope.
Local Open Scope list_scope.

(** [String] methods: a string gives itself, a section that does not exist nothing.
    [Section.cstring] is such. *)
Definition strings_ok (h : heap) (str : content → outcome error string) : Prop :=
  (∀ s, str (CString s) = Ok s) ∧ ∀ j, h !! j = None → str (CSection j) = Panic.
Lemma cstring_ok similar broken h n : strings_ok h (cstring similar broken h n).
Proof.
  split; [intros s; by destruct n|]. intros j Hj. destruct n; cbn [cstring cstring_F]; rewrite Hj; reflexivity.
Qed.

Lemma same_of {f g : nat → rendered} : (∀ n, rel (g n) (f n)) → (∀ n, evr (f n) g) → (∀ n n', n ≤ n' → below (f n) (f n')) →
  same_results f g.
Proof.
  intros A B C. split.
  - intros n N. destruct (B n) as [E|E]; [done|exact E].
  - intros n N. exists n. intros m Hm. destruct (A n) as [E|E]; [done|].
    destruct (C n m Hm) as [E'|E'].
    + rewrite E' in E. by destruct (g n).
    + by rewrite E'.
Qed.

(** *** The templates are all right *)

(** [init] does not panic, every template can be escaped, and the names are those
    of the files. *)
Theorem bundled_parse :
  (∃ t, templates no_templates html_sources = Some t) ∧ (∃ t, templates no_templates text_sources = Some t) ∧
  (∀ n, is_Some (bundled_html n) ↔ n ∈ map fst html_sources) ∧ (∀ n, is_Some (bundled_text n) ↔ n ∈ map fst text_sources) ∧
  (∀ n t, bundled_html n = Some t → is_Some (esc_tree t)).
Proof.
  assert (∀ n (l : list (string * list Tmpl.node)), is_Some (assoc_get n l) ↔ n ∈ map fst l) as G.
  { intros n l. induction l as [|[k t] l IH]; cbn [assoc_get map fst].
    - split; [by intros []|by intros ?%elem_of_nil].
    - rewrite elem_of_cons. destruct (String.eqb_spec k n) as [->|N]; [split; eauto|]. rewrite IH. naive_solver. }
  split_and!.
  - eexists. apply (templates_defs _ _ _ html_trees_eq).
  - eexists. apply (templates_defs _ _ _ text_trees_eq).
  - intros n. rewrite bundled_html_get, G. change (map fst html_trees) with (map fst html_sources). done.
  - intros n. rewrite bundled_text_get, G. change (map fst text_trees) with (map fst text_sources). done.
  - intros n t E. destruct (html_escaped_get n) as [A B]. rewrite E in A, B. cbn [base.mbind option_bind] in A. rewrite A.
    destruct (assoc_get n html_escaped); [eauto|]. destruct B as [_ B]. by specialize (B eq_refl).
Qed.
Print Assumptions bundled_parse.

(** The reference template in the tree and the one compiled in differ, but not in
    what they do. *)
Theorem reference_same : src_html_reference ≠ src_html_reference_file ∧
  parse_file "reference.tmpl" src_html_reference = parse_file "reference.tmpl" src_html_reference_file ∧
  is_Some (parse_file "reference.tmpl" src_html_reference).
Proof. split; [done|]. split; [vm_compute; reflexivity|]. eexists. vm_compute. reflexivity. Qed.
Print Assumptions reference_same.

(** Reading and escaping a template are bounded in the model, by the length of what
    is read. The bounds do not make anything fail: no larger ones give other results. *)
Theorem reading_bounds :
  (∀ n s x, String.length s ≤ String.length x → S (String.length x) ≤ n → lex_act n s = lex_act (S (String.length x)) s) ∧
  (∀ n b s, S (String.length s) ≤ n → lex n b s = lex (S (String.length s)) b s) ∧
  (∀ n ts, S (length ts) ≤ n → p_pipe n [] [] ts = p_pipe (S (length ts)) [] [] ts) ∧
  (∀ n top is, S (length is) ≤ n → p_list n top is = p_list (S (length is)) top is) ∧
  (∀ n c s, 4 + 4 * String.length s ≤ n → esc_text n c s = esc_text (4 + 4 * String.length s) c s).
Proof.
  split_and!.
  - intros n s x L H. apply lex_act_bound; lia.
  - intros n b s H. apply lex_fuel; lia.
  - intros n ts H. apply p_pipe_fuel; lia.
  - intros n top is H. apply p_list_fuel; lia.
  - intros n c s. apply esc_text_bound.
Qed.
Print Assumptions reading_bounds.

(** *** Executing them *)

Theorem bundled_html_renders : ∀ similar broken h force str c, strings_ok h str →
  same_results (λ n, html similar broken h force str n c)
    (λ n, run similar broken h force str "html" true bundled_html n (TRender c)).
Proof.
  intros similar broken h force str c [S D]. apply same_of.
  - intros n. by apply run_rel.
  - intros n. by apply run_evr.
  - intros n n' H. by apply html_below.
Qed.
Print Assumptions bundled_html_renders.

Theorem bundled_html_pages : ∀ similar broken h force str i, strings_ok h str →
  same_results (λ n, html_page similar broken h force str n i)
    (λ n, run_page similar broken h force str "html" true bundled_html n i).
Proof.
  intros similar broken h force str i [S D]. apply same_of.
  - intros n. by apply run_page_rel.
  - intros n. by apply run_page_evr.
  - intros n n' H. unfold html_page, page_tmpl. apply below_need. intros s. apply below_text. intros t.
    apply below_obind; [by apply html_below|]. intros b. apply below_refl.
Qed.
Print Assumptions bundled_html_pages.

Theorem bundled_text_renders : ∀ similar broken h force str ext c, strings_ok h str →
  same_results (λ n, text h force str n c)
    (λ n, run similar broken h force str ext false bundled_text n (TRender c)).
Proof.
  intros similar broken h force str ext c [S D]. apply same_of.
  - intros n. by apply run_rel_t.
  - intros n. by apply run_evr_t.
  - intros n n' H. by apply text_below.
Qed.
Print Assumptions bundled_text_renders.

Theorem bundled_text_pages : ∀ similar broken h force str ext i, strings_ok h str →
  same_results (λ n, text_page h force str n i)
    (λ n, run_page similar broken h force str ext false bundled_text n i).
Proof.
  intros similar broken h force str ext i [S D]. apply same_of.
  - intros n. by apply run_page_rel_t.
  - intros n. by apply run_page_evr_t.
  - intros n n' H. unfold text_page, page_text_tmpl. apply below_need. intros s.
    destruct (String.eqb (s_style s) ""); [|apply below_refl]. apply below_need. intros s'. apply below_text. intros t.
    apply below_obind; [by apply text_below|]. intros b. apply below_refl.
Qed.
Print Assumptions bundled_text_pages.

(** *** A document rendered both ways *)

Definition executed_page (T : tset (list Tmpl.node)) (nd : Ast.node) : rendered :=
  run_page (λ _ _, false) false (st_heap (fst (loaded_file nd))) (λ _, None)
    (cstring (λ _ _, false) false (st_heap (fst (loaded_file nd))) 5) "html" true T 20 0.
Example hostile_executed : strings_ok (st_heap (fst (loaded_file hostile_lit)))
    (cstring (λ _ _, false) false (st_heap (fst (loaded_file hostile_lit))) 5) ∧
  executed_page bundled_html hostile_lit = page_of hostile_lit ∧
  ∃ out, page_of hostile_lit = Ok out ∧ 300 < String.length out.
Proof.
  split; [apply cstring_ok|]. split; [vm_compute; reflexivity|].
  eexists. split; [vm_compute; reflexivity|]. apply Nat.ltb_lt. vm_compute. reflexivity.
Qed.

(** With a template of one's own: that of tests/fixtures/toc.tmpl, and one for
    italics. *)
Definition own_templates : list (string * string) :=
  [("italic.tmpl", "<i class=""{{.Style}}"">{{.Content | render}}</i>" +:+ nls);
   ("toc.tmpl", "{{if and .Children (not .OmitChildrenFromTableOfContents)}}" +:+ nls +:+ "<ul>" +:+ nls +:+
     "{{range .Children}}" +:+ nls +:+ "  <li>" +:+ nls +:+ "    <a href=""{{.PrimaryTag | url}}"">{{.Title | stripAux | render}}</a>" +:+ nls +:+ nls +:+
     "    {{template ""toc.tmpl"" .}}" +:+ nls +:+ "  </li>" +:+ nls +:+ "{{end}}" +:+ nls +:+ "</ul>" +:+ nls +:+ "{{end}}" +:+ nls)].
Definition own_set : tset (list Tmpl.node) := default no_templates (templates bundled_html own_templates).
Definition own_page : rendered := executed_page own_set hostile_lit.
Example own_executed : (match templates bundled_html own_templates with Some _ => true | None => false end) = true ∧
  match own_page, executed_page bundled_html hostile_lit with
  | Ok out, Ok out' => contains_str "<i class=""italic"">a &lt;i&gt;b</i>" out && negb (contains_str "<i class" out')
  | _, _ => false
  end = true.
Proof. split; vm_compute; reflexivity. Qed.
