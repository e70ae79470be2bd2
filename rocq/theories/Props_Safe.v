(** C67, C68: what templates can and cannot do. *)
From Coq Require Import Ascii String Lia.
From stdpp Require Import base tactics relations functions strings list.
From Verif Require Import GoBase StrProofs Ast Peg Evaluate Content Section Render Html Templates Tmpl TmplSrc TmplEsc TmplExec
  TmplBundled TmplMono TmplSafeSpec TmplSafe Props_Html Props_Tmpl.
Local Open Scope string_scope.
Local Open Scope list_scope.

(** *** C67: only templates and raw HTML write markup *)

Theorem pages_made : ∀ similar broken h force str ext T n i out, raw_only_there T →
  run_page similar broken h force str ext true T n i = Ok out → made h force str T out.
Proof. intros. by eapply run_page_made. Qed.
Print Assumptions pages_made.

Theorem contents_made : ∀ similar broken h force str ext T n c out, raw_only_there T → occurs h force c →
  run similar broken h force str ext true T n (TRender c) = Ok out → made h force str T out.
Proof. intros * HT O. by eapply run_made. Qed.
Print Assumptions contents_made.

(** In particular without raw HTML: no tag but from a template. *)
Definition plain (T : string → option (list Tmpl.node)) : Prop :=
  ∀ n t s, T n = Some t → s ∈ flat_map texts t → inert s.
Definition no_raw (h : heap) (force : nat → option content) : Prop :=
  ∀ c v, occurs h force c → template_of h c ≠ Some ("raw-html", v).
Lemma made_plain h force str T s : plain T → no_raw h force → made h force str T s → inert s.
Proof.
  intros P N. induction 1 as [|a b _ IHa _ IHb|n t s s' Ht Hs S|s I|c v s O E _].
  - done.
  - by apply inert_app.
  - specialize (P _ _ _ Ht Hs). clear -P S. induction S as [|c s s' S IH|s s' S IH]; [done|..].
    + change (String c s) with (String c "" +:+ s) in P. apply inert_app in P as [P1 P2].
      change (String c s') with (String c "" +:+ s'). apply inert_app. auto.
    + apply (inert_app "<") in P as [P _]. done.
  - done.
  - by destruct (N c v).
Qed.
Theorem plain_templates : ∀ similar broken h force str ext T n i out, raw_only_there T → plain T → no_raw h force →
  run_page similar broken h force str ext true T n i = Ok out → inert out.
Proof. intros * HT P N E. by eapply made_plain, pages_made. Qed.
Print Assumptions plain_templates.

(** The bundled templates, and those of one's own that do not use [rawHTML]. *)
Definition raw_ok (p : string * list Tmpl.node) : bool :=
  if String.eqb p.1 "raw-html.tmpl" then
    match p.2 with [NAct XRaw [[ODot]; [OFunc f]]] => String.eqb f "rawHTML" | _ => false end
  else forallb (without "rawHTML" "raw-html.tmpl") p.2.
Lemma raw_ok_spec n t : raw_ok (n, t) = true →
  (n = "raw-html.tmpl" ∧ t = raw_html_tree) ∨ (n ≠ "raw-html.tmpl" ∧ forallb (without "rawHTML" "raw-html.tmpl") t = true).
Proof.
  intros H. unfold raw_ok in H. cbn [fst snd] in H. destruct (String.eqb_spec n "raw-html.tmpl") as [->|N]; [left; split; [done|]|by right].
  repeat match type of H with context [match ?x with _ => _ end] => destruct x; try discriminate H end.
  by apply String.eqb_eq in H as ->.
Qed.
Lemma raw_listed T l : (∀ n t, T n = Some t → (n, t) ∈ l) → forallb raw_ok l = true → raw_only_there T.
Proof.
  intros S F n t E. apply S in E. rewrite forallb_forall in F. apply raw_ok_spec, F. by apply elem_of_list_In.
Qed.
Lemma assoc_in {A} n (t : A) l : assoc_get n l = Some t → (n, t) ∈ l.
Proof.
  induction l as [|[k u] l IH]; [done|]. cbn [assoc_get]. destruct (String.eqb_spec k n) as [->|]; [intros [= ->]; left|]. right. auto.
Qed.
Theorem bundled_safe : raw_only_there bundled_html.
Proof.
  apply (raw_listed _ html_trees); [|vm_compute; reflexivity]. intros n t. rewrite bundled_html_get. apply assoc_in.
Qed.
Print Assumptions bundled_safe.

Theorem own_safe : ∀ l T T', raw_only_there T → templates T l = Some T' →
  (∀ f text defs n t, (f, text) ∈ l → parse_file f text = Some defs → (n, t) ∈ defs →
    n ≠ "raw-html.tmpl" ∧ forallb (without "rawHTML" "raw-html.tmpl") t = true) →
  raw_only_there T'.
Proof.
  assert (∀ ds T, raw_only_there T → (∀ n t, (n, t) ∈ ds → n ≠ "raw-html.tmpl" ∧ forallb (without "rawHTML" "raw-html.tmpl") t = true) →
    raw_only_there (fold_left (associate empty_tree) ds T)) as A.
  { induction ds as [|[n t] ds IH]; intros T HT H; [done|]. cbn [fold_left]. apply IH; [|intros; apply H; by right].
    unfold associate. cbn [fst snd]. destruct (_ && _); [done|]. intros m u.
    destruct (decide (n = m)) as [<-|N]; [|rewrite fn_lookup_insert_ne by done; apply HT].
    rewrite fn_lookup_insert. intros [= <-]. right. apply H. left. }
  induction l as [|[f text] l IH]; intros T T' HT E H.
  - by injection E as <-.
  - unfold templates in E. cbn [fold_left base.mbind option_bind fst snd] in E. unfold add_text at 2 in E.
    destruct (parse_file f text) as [ds|] eqn:P; cbn [base.mbind option_bind] in E; [|by rewrite templates_none in E].
    eapply IH; [|exact E|].
    + apply A; [done|]. intros n t Ht. eapply H; [left|done..].
    + intros. eapply H; [by right|done..].
Qed.
Print Assumptions own_safe.

Definition own_ok (p : string * string) : bool :=
  match parse_file p.1 p.2 with
  | Some ds => forallb (λ d, negb (String.eqb d.1 "raw-html.tmpl") && forallb (without "rawHTML" "raw-html.tmpl") d.2) ds
  | None => true
  end.
(** The page with a template of one's own for italics, of a document full of
    markup. *)
Example own_made : raw_only_there own_set ∧ ∃ out, own_page = Ok out ∧ contains_str "<i class=""italic"">a &lt;i&gt;b</i>" out = true.
Proof.
  split.
  - destruct (templates bundled_html own_templates) as [T|] eqn:E.
    2: { exfalso. pose proof (proj1 own_executed) as H. by rewrite E in H. }
    unfold own_set. rewrite E. cbn [default]. eapply own_safe; [apply bundled_safe|exact E|].
    assert (forallb own_ok own_templates = true) as F by (vm_compute; reflexivity).
    revert F. generalize own_templates. intros l F f text defs n t Hf P Ht. rewrite forallb_forall in F. apply elem_of_list_In, F in Hf.
    unfold own_ok in Hf. cbn [fst snd] in Hf. rewrite P, forallb_forall in Hf. apply elem_of_list_In, Hf in Ht. cbn [fst snd] in Ht.
    apply andb_true_iff in Ht as [Hn Ht]. split; [|exact Ht]. by apply negb_true_iff, String.eqb_neq in Hn.
  - generalize (proj2 own_executed). generalize own_page (executed_page bundled_html hostile_lit). intros a b H.
    destruct a as [out| | |]; [|discriminate H..]. exists out. split; [reflexivity|].
    destruct b; [|discriminate H..]. by apply andb_true_iff in H as [H _].
Qed.

(** Without the condition on [rawHTML] it does not hold: a template that inserts
    the title as it is, in a document without raw HTML. *)
Definition raw_title : string → option (list Tmpl.node) :=
  λ n, if String.eqb n "page.tmpl" then Some [NAct XRaw [[OField ["Title"]]; [OFunc "rawHTML"]]] else None.
Definition one_section : heap :=
  [Section "" (CString "<b>") CEmpty loc0 tag0 [] None [] "" [] false false false false [] loc0 loc0].
Lemma one_section_no_raw : no_raw one_section (λ _, None).
Proof.
  intros c v O. assert ((∃ i, c = CSection i) ∨ ∃ s, c = CString s) as [[i ->]|[s ->]].
  - induction O as [i|s|i s c Hi Hc|c c' _ IH Hc|b t c _ _ E|c c' _ IH E]; [eauto..|].
    + destruct i as [|[]]; [|done..]. injection Hi as <-. cbn in Hc. repeat (apply elem_of_cons in Hc as [->|Hc]; [eauto|]).
      by apply elem_of_nil in Hc.
    + destruct IH as [[i ->]|[s ->]]; by apply elem_of_nil in Hc.
    + done.
    + destruct IH as [[i ->]|[s ->]]; injection E as <-; eauto.
  - cbn [template_of]. destruct i as [|[]]; done.
  - done.
Qed.
Theorem raw_templates_refuted : ∃ T h force str out, plain T ∧ no_raw h force ∧
  run_page (λ _ _, false) false h force str "html" true T 5 0 = Ok out ∧ ¬ made h force str T out.
Proof.
  assert (plain raw_title) as P.
  { intros n t s. unfold raw_title. destruct (String.eqb n "page.tmpl"); [|done]. intros [= <-] []%elem_of_nil. }
  exists raw_title, one_section, (λ _, None), (cstring (λ _ _, false) false one_section 5), "<b>". split_and!.
  - exact P.
  - apply one_section_no_raw.
  - vm_compute. reflexivity.
  - intros M. apply made_plain in M; [|exact P|apply one_section_no_raw]. by vm_compute in M.
Qed.
Print Assumptions raw_templates_refuted.

(** *** C68: templates count by their names only *)

Definition missing (r : rendered) : Prop := ∃ n, r = Err (RTemplate n).
(** The templates without some. *)
Definition drop (N : string → bool) (T : string → option (list Tmpl.node)) : string → option (list Tmpl.node) :=
  λ n, if N n then None else T n.

(** What does not need templates that are missing is the same with any more of them. *)
Theorem more_templates : ∀ similar broken h force str ext html T T' k t r,
  (∀ n u, T n = Some u → T' n = Some u) →
  run similar broken h force str ext html T k t = r → r ≠ NoFuel → ¬ missing r →
  run similar broken h force str ext html T' k t = r.
Proof.
  intros * S E F M. destruct (run_templates similar broken h force str ext html T T' S k t) as [G|[(e & G & n & -> & _)|G]]; [congruence| |congruence].
  exfalso. apply M. exists n. congruence.
Qed.
Print Assumptions more_templates.

(** Hence replacing templates changes only what needs one of those. *)
Theorem other_templates : ∀ similar broken h force str ext html N T T' k t r,
  (∀ n, N n = false → T n = T' n) →
  run similar broken h force str ext html (drop N T) k t = r → r ≠ NoFuel → ¬ missing r →
  run similar broken h force str ext html T k t = r ∧ run similar broken h force str ext html T' k t = r.
Proof.
  intros * A E F M. split; (eapply more_templates; [|exact E|done..]); intros n u; unfold drop; destruct (N n) eqn:X; try done.
  by rewrite A.
Qed.
Print Assumptions other_templates.

(** Pages also, where the template of the page's style is not among them. *)
Theorem other_templates_page : ∀ similar broken h force str ext html N T T' k i r,
  (∀ n, N n = false → T n = T' n) →
  (∀ s, h !! i = Some s → N (s_style s +:+ "-page.tmpl") = false) →
  run_page similar broken h force str ext html (drop N T) k i = r → r ≠ NoFuel → ¬ missing r →
  run_page similar broken h force str ext html T k i = r ∧ run_page similar broken h force str ext html T' k i = r.
Proof.
  intros * A P. unfold run_page. destruct (h !! i) as [s|] eqn:Hi; [|done]. specialize (P _ eq_refl).
  destruct (String.eqb (s_style s) ""); [intros E F M; by eapply other_templates|]. cbv zeta.
  rewrite <-(A _ P). assert (drop N T (s_style s +:+ "-page.tmpl") = T (s_style s +:+ "-page.tmpl")) as -> by (unfold drop; by rewrite P).
  destruct (T (s_style s +:+ "-page.tmpl")), html; intros E F M; by eapply other_templates.
Qed.
Print Assumptions other_templates_page.

(** The bound on the nesting does not matter where it suffices. *)
Theorem more_depth : ∀ similar broken h force str ext html T k k' t r,
  run similar broken h force str ext html T k t = r → r ≠ NoFuel → k ≤ k' →
  run similar broken h force str ext html T k' t = r.
Proof. intros * E F L. by eapply run_more. Qed.
Print Assumptions more_depth.

(** The document above needs neither the template of tables nor that of lists; it
    does need that of italics. *)
Definition unneeded (n : string) : bool := existsb (String.eqb n) ["table.tmpl"; "list.tmpl"].
Example unneeded_dropped :
  executed_page (drop unneeded bundled_html) hostile_lit = executed_page bundled_html hostile_lit ∧
  (match executed_page (drop unneeded bundled_html) hostile_lit with Ok out => Nat.ltb 300 (String.length out) | _ => false end) = true ∧
  executed_page (drop (String.eqb "italic.tmpl") bundled_html) hostile_lit = Err (RTemplate "italic.tmpl").
Proof. split_and!; vm_compute; reflexivity. Qed.
