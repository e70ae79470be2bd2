(** C63: error pages are what their templates make of an error. *)
From Coq Require Import Ascii String ZArith Lia.
From stdpp Require Import base tactics functions strings list.
From Verif Require Import GoBase StrProofs Ast Content Section Render Html Templates Tmpl TmplSrc TmplEsc TmplExec TmplBundled
  Annotate Report ErrSrc ErrTmpl ErrTmplProofs.
Local Open Scope string_scope. Local Open Scope list_scope.

(** [init] does not panic; of the templates for the six kinds of errors and for source
    lines none is missing, and all can be escaped. *)
Theorem error_templates_parse : (∃ t, templates no_templates err_sources = Some t) ∧
  (∀ e name, err_template e = Some name → ∃ t t', err_templates name = Some t ∧ esc_tree t = Some t') ∧
  (∃ t t', err_templates "annotated-line.tmpl" = Some t ∧ esc_tree t = Some t').
Proof.
  split; [eexists; apply (templates_defs _ _ _ err_trees_eq)|].
  assert (∀ name, existsb (String.eqb name) ["parse-error.tmpl"; "unknown-tag.tmpl"; "ambiguous-reference.tmpl"; "undefined-function.tmpl";
    "function-error.tmpl"; "title-twice-error.tmpl"; "annotated-line.tmpl"] = true →
    ∃ t t', err_templates name = Some t ∧ esc_tree t = Some t') as H.
  { intros name Hn. rewrite err_templates_get. cbn [existsb] in Hn.
    repeat (apply orb_true_iff in Hn as [->%String.eqb_eq|Hn];
      [eexists _, _; split; [vm_compute; reflexivity|vm_compute; reflexivity]|]).
    done. }
  split; [|by apply H]. intros e name E. apply H. destruct e; try discriminate E; injection E as <-; reflexivity.
Qed.
Print Assumptions error_templates_parse.

(** Executing them yields the HTML described by Report.v, or fails where there is
    none. *)
Theorem error_templates_give : ∀ T e, ∃ n, ∀ m, n ≤ m →
  run_error T m e = match error_html T e with Some html => Ok html | None => Err RNil end.
Proof. intros T e. exists (nesting e). intros m Hm. by rewrite error_runs. Qed.
Print Assumptions error_templates_give.

(** Five pieces make up page.tmpl: text up to the style sheet, the style sheet, text, the
    error and text. The style sheet stands in an element for such, and the error in
    text; the pieces of text are written as they are. *)
Theorem error_page_template : ∃ a b c,
  err_templates "page.tmpl" =
    Some [NText a; NCall "errors.css" None; NText b; NAct XRaw [[ODot]; [OFunc "error"]]; NText c] ∧
  esc_text (4 + 4 * String.length a) HText a = Some (a, HRaw LStyle) ∧
  esc_text (4 + 4 * String.length b) (HRaw LStyle) b = Some (b, HText) ∧
  place_in HText = Some (XText, HText) ∧
  esc_text (4 + 4 * String.length c) HText c = Some (c, HText) ∧
  ∀ T css e html, error_html T e = Some html → error_response T css e = a +:+ css +:+ b +:+ html +:+ c.
Proof.
  rewrite err_templates_get. eexists _, _, _. split; [reflexivity|].
  split; [vm_compute; reflexivity|]. split; [vm_compute; reflexivity|]. split; [reflexivity|]. split; [vm_compute; reflexivity|].
  intros T css e html E. unfold error_response. rewrite E. unfold error_page_before, error_page_after.
  rewrite ?sapp_assoc. reflexivity.
Qed.
Print Assumptions error_page_template.

(** An error within an error, with a source line: *)
Example ex_error_templates :
  let T := Telling (λ _, inr ("\title{<b>}" +:+ lf)) 4096 (λ _, "") (λ _, "") (λ _, "") "" in
  let l := ErrLoc "a.lit" (Loc 1 1 0) 6 in
  ∃ html, run_error T 2 (EFailed "title" (EPlugin "no <b>") l) = Ok html ∧ run_error T 1 (EFailed "title" (EPlugin "no <b>") l) = NoFuel ∧
    String.index 0 "<span class=""annotated"">\title</span>{&lt;b&gt;}</pre>" html ≠ None ∧
    String.index 0 "<pre class=""raw-error"">no &lt;b&gt;</pre>" html ≠ None.
Proof. intros T l. eexists. split; [vm_compute; reflexivity|]. split; [vm_compute; reflexivity|]. split; vm_compute; discriminate. Qed.
