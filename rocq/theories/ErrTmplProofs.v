(** Executing the templates of error pages gives the error pages of Report.v. *)
From Coq Require Import Ascii String ZArith Lia.
From stdpp Require Import base tactics functions strings list.
From Verif Require Import GoBase StrProofs Ast Content Section Render Html Templates Tmpl TmplSrc TmplEsc TmplExec TmplBundled
  Annotate Report ErrSrc ErrTmpl.
Local Open Scope string_scope. Local Open Scope list_scope.

Definition err_trees : list (string * list Tmpl.node) := Eval vm_compute in default [] (definitions err_sources).
Lemma err_trees_eq : definitions err_sources = Some err_trees.
Proof. vm_compute. reflexivity. Qed.
Lemma err_templates_get n : err_templates n = assoc_get n err_trees.
Proof.
  unfold err_templates. rewrite (templates_defs _ _ _ err_trees_eq).
  change (fold_left (associate empty_tree) err_trees no_templates n = assoc_get n err_trees).
  rewrite associate_get; [by destruct (assoc_get n err_trees)| |done].
  apply (bool_decide_unpack _). vm_compute. done.
Qed.

Definition shown (o : option string) : rendered := match o with Some s => Ok s | None => fails end.

Ltac tree := unfold d_named; rewrite err_templates_get;
  match goal with |- context [t ← ?a; esc_tree t] =>
    let v := eval vm_compute in (t ← a; esc_tree t) in
    replace (t ← a; esc_tree t) with v by (vm_compute; reflexivity) end; cbv beta iota; unfold d_exec.
Ltac go := cbn [d_list d_node d_pipe d_operand d_member fold_left obind d_put d_truth String.eqb Ascii.eqb Bool.eqb].

Lemma annotated_runs T l : run_annotated T l = shown (annotated_html T l).
Proof.
  unfold run_annotated, annotated_html.
  destruct (annotated _ _ l) as [| | |s]; try done.
  tree. go. destruct (sn_eof s); go; cbn [shown]; f_equal; rewrite ?sapp_assoc, ?sapp_nil_r; reflexivity.
Qed.

(** How deep an error is nested. *)
Fixpoint nesting (e : error) : nat := match e with EFailed _ e _ => S (nesting e) | _ => 1 end.

Lemma error_runs T e : ∀ n, nesting e ≤ n → run_error T n e = shown (error_html T e).
Proof.
  induction e; intros k Hn; cbn [nesting] in Hn; (destruct k as [|k]; [lia|]); cbn [run_error err_template]; try reflexivity.
  - tree. go. rewrite annotated_runs. cbn [error_html]. destruct (annotated_html T l); [|reflexivity].
    cbn [shown obind base.mbind option_bind]. go. f_equal. unfold error_div, code_location. rewrite ?sapp_assoc, ?sapp_nil_r. reflexivity.
  - tree. go. rewrite annotated_runs. cbn [error_html]. destruct (annotated_html T l); [|reflexivity].
    cbn [shown obind base.mbind option_bind]. go. destruct similar as [|t ts]; cbn [map]; go; cbn [map].
    + f_equal. unfold error_div, code_location. rewrite ?sapp_assoc, ?sapp_nil_r. reflexivity.
    + match goal with |- context [d_range ?f] => assert (∀ l, d_range f (map DTag l) =
        Ok (sconcat (map (λ t, lf +:+ "    <li><p><code>" +:+ escape (t_name t) +:+ "</code></p></li>" +:+ lf +:+ "  ") l))) as R end.
      { clear. induction l as [|t l IH]; [done|]. cbn [map d_range sconcat]. go. rewrite IH. cbn [obind]. f_equal;
        rewrite ?sapp_assoc, ?sapp_nil_r; reflexivity. }
      change (DTag t :: map DTag ts) with (map DTag (t :: ts)). rewrite R. cbn [obind]. f_equal.
      unfold error_div, code_location. rewrite ?sapp_assoc, ?sapp_nil_r. reflexivity.
  - tree. go. rewrite annotated_runs. cbn [error_html]. destruct (annotated_html T l); [|reflexivity].
    cbn [shown obind base.mbind option_bind]. go.
    match goal with |- context [d_range ?f] => assert (∀ l, d_range f (map DLoc l) =
      match omap_all (annotated_html T) l with
      | Some hs => Ok (sconcat (map (λ h, lf +:+ code_location h +:+ "  ") hs)) | None => fails end) as R end.
    { clear. induction l as [|d l IH]; [done|]. cbn [map d_range omap_all]. go. rewrite annotated_runs.
      destruct (annotated_html T d); [|reflexivity]. cbn [shown obind base.mbind option_bind]. go. rewrite IH.
      destruct (omap_all _ l); [|reflexivity]. cbn [obind base.mbind option_bind map sconcat]. f_equal.
      unfold code_location. rewrite ?sapp_assoc, ?sapp_nil_r. reflexivity. }
    destruct defs as [|d ds].
    + go. cbn [map omap_all obind base.mbind option_bind sconcat]. f_equal. unfold error_div, code_location.
      rewrite ?sapp_assoc, ?sapp_nil_r. reflexivity.
    + cbn [map]. cbv iota. change (DLoc d :: map DLoc ds) with (map DLoc (d :: ds)). rewrite R.
      destruct (omap_all _ (d :: ds)); [|reflexivity]. cbn [obind base.mbind option_bind]. f_equal.
      unfold error_div, code_location. rewrite ?sapp_assoc, ?sapp_nil_r. reflexivity.
  - tree. go. rewrite annotated_runs. cbn [error_html]. destruct (annotated_html T l); [|reflexivity].
    cbn [shown obind base.mbind option_bind]. go. f_equal. unfold error_div, code_location. rewrite ?sapp_assoc, ?sapp_nil_r. reflexivity.
  - tree. go. rewrite annotated_runs. cbn [error_html]. destruct (annotated_html T l); [|reflexivity].
    cbn [shown obind base.mbind option_bind]. go. rewrite IHe by lia. destruct (error_html T e); [|reflexivity].
    cbn [shown obind base.mbind option_bind]. go. f_equal. unfold error_div, code_location. rewrite ?sapp_assoc, ?sapp_nil_r. reflexivity.
  - tree. go. rewrite !annotated_runs. cbn [error_html]. destruct (annotated_html T second); [|reflexivity].
    cbn [shown obind base.mbind option_bind]. go. destruct (annotated_html T first); [|reflexivity].
    cbn [shown obind base.mbind option_bind]. go. f_equal. unfold error_div, code_location. rewrite ?sapp_assoc, ?sapp_nil_r. reflexivity.
Qed.
