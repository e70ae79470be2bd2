(** The bundled templates, parsed. *)
From Coq Require Import Ascii String Lia.
From stdpp Require Import base tactics relations functions strings list.
From Verif Require Import GoBase StrProofs Ast Content Section Render Html TextRender Templates Tmpl TmplSrc TmplEsc TmplExec.
Local Open Scope string_scope.
Local Open Scope list_scope.

(** All the definitions of some files. *)
Fixpoint definitions (l : list (string * string)) : option (list (string * list node)) :=
  match l with
  | [] => Some []
  | (n, t) :: l => ds ← parse_file n t; es ← definitions l; Some (ds ++ es)
  end.

Lemma templates_none l : fold_left (λ o p, s ← o; add_text parse_file empty_tree s p.1 p.2) l None = None.
Proof. induction l; done. Qed.

Lemma associate_get ds : ∀ (s : tset (list node)), NoDup (map fst ds) → (∀ d, d ∈ ds → s d.1 = None) →
  ∀ n, fold_left (associate empty_tree) ds s n = match assoc_get n ds with Some t => Some t | None => s n end.
Proof.
  induction ds as [|[k t] ds IH]; intros s N H n; [done|]. cbn [fold_left map fst] in *.
  apply NoDup_cons in N as [Nk N].
  assert (associate empty_tree s (k, t) = <[k:=Some t]> s) as ->.
  { unfold associate. cbn [fst snd]. assert (s k = None) as -> by apply (H (k, t) (elem_of_list_here _ _)). by rewrite andb_false_r. }
  rewrite IH; [|done|].
  - cbn [assoc_get]. destruct (String.eqb_spec k n) as [->|Hk].
    + destruct (assoc_get n ds) as [t'|] eqn:E; [|by rewrite fn_lookup_insert].
      exfalso. apply Nk. clear -E. induction ds as [|[k t] ds IH]; [done|]. cbn [assoc_get] in E. cbn [map fst].
      destruct (String.eqb_spec k n) as [->|_]; [apply elem_of_list_here|]. apply elem_of_list_further. auto.
    + rewrite fn_lookup_insert_ne by done. done.
  - intros d Hd. rewrite fn_lookup_insert_ne.
    + apply H. by apply elem_of_list_further.
    + intros ->. apply Nk. by apply elem_of_list_fmap_1.
Qed.

Lemma templates_defs l : ∀ s ds, definitions l = Some ds → templates s l = Some (fold_left (associate empty_tree) ds s).
Proof.
  induction l as [|[n t] l IH]; intros s ds E; cbn [definitions] in E; [by injection E as <-|].
  destruct (parse_file n t) as [d|] eqn:P; [|done]. cbn [base.mbind option_bind] in E.
  destruct (definitions l) as [es|] eqn:D; [|done]. cbn [base.mbind option_bind] in E. injection E as <-.
  unfold templates. cbn [fold_left base.mbind option_bind fst snd]. unfold add_text at 2. rewrite P. cbn [base.mbind option_bind].
  rewrite fold_left_app. by apply IH.
Qed.

Definition html_trees : list (string * list node) := Eval vm_compute in default [] (definitions html_sources).
Definition text_trees : list (string * list node) := Eval vm_compute in default [] (definitions text_sources).

Lemma html_trees_eq : definitions html_sources = Some html_trees.
Proof. vm_compute. reflexivity. Qed.
Lemma text_trees_eq : definitions text_sources = Some text_trees.
Proof. vm_compute. reflexivity. Qed.

Lemma bundled_html_get n : bundled_html n = assoc_get n html_trees.
Proof.
  unfold bundled_html. rewrite (templates_defs _ _ _ html_trees_eq).
  change (fold_left (associate empty_tree) html_trees no_templates n = assoc_get n html_trees).
  rewrite associate_get; [by destruct (assoc_get n html_trees)| |done].
  apply (bool_decide_unpack _). vm_compute. done.
Qed.
Lemma bundled_text_get n : bundled_text n = assoc_get n text_trees.
Proof.
  unfold bundled_text. rewrite (templates_defs _ _ _ text_trees_eq).
  change (fold_left (associate empty_tree) text_trees no_templates n = assoc_get n text_trees).
  rewrite associate_get; [by destruct (assoc_get n text_trees)| |done].
  apply (bool_decide_unpack _). vm_compute. done.
Qed.

(** The escaped ones. *)
Definition html_escaped : list (string * list node) :=
  Eval vm_compute in map (λ p : string * list node, (p.1, default [] (esc_tree p.2))) html_trees.
Lemma html_escaped_get n : bundled_html n ≫= esc_tree = assoc_get n html_escaped ∧
  (bundled_html n = None ↔ assoc_get n html_escaped = None).
Proof.
  rewrite bundled_html_get.
  assert (html_escaped = map (λ p : string * list node, (p.1, default [] (esc_tree p.2))) html_trees ∧
    forallb (λ p : string * list node, match esc_tree p.2 with Some _ => true | None => false end) html_trees = true) as [-> F].
  { split; vm_compute; reflexivity. }
  revert F. generalize html_trees. intros l. induction l as [|[k t] l IH]; [done|]. cbn [forallb map assoc_get fst snd]. intros [F1 F2]%andb_true_iff.
  destruct (String.eqb k n); [|auto]. cbn [base.mbind option_bind]. by destruct (esc_tree t).
Qed.
