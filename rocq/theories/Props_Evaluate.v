(** Theorems about evaluation: C27, C28, C29, C30, C31, C32, C33, C34, C49. *)
From Coq Require Import Ascii String.
From stdpp Require Import base tactics relations strings list.
From Verif Require Import GoBase Ast Content ContentSpec ContentProofs Section StrProofs TreeSpec TreeProofs TagProofs QueryProofs
  Evaluate EvalProofs EvalFrame EvalInv BaseInv EvalSpec EvalTheory EvalFail EvalOnce EvalText EvalMore Paths
  Collect CollectSpec CollectProofs BaseFacts LoadProofs DemoDoc.
Local Open Scope string_scope.
Local Open Scope list_scope.

(** A document "/f" about to be evaluated. *)
Definition start : st := St [set_factories (new_section None "/f") [FBase]] [].

(** ** C27 *)

(** A finished evaluation produced the contents the tree stands for, and conversely. *)
Theorem evaluation_follows_tree : ∀ E n self nd s s' r, eval E n self None nd s = (s', Ok r) →
  ∃ cs, yields E self (runs E self) s nd s' cs ∧ r = joined cs.
Proof.
  intros E n self nd s s' r H. apply eval_sound in H as (cs & Y & ->). exists cs. by rewrite fold_append_joined.
Qed.
Print Assumptions evaluation_follows_tree.

Theorem tree_is_evaluated : ∀ E self nd s s' cs, wf (st_heap s) → valid (st_heap s) self →
  yields E self (runs E self) s nd s' cs → ∃ n, ∀ m, n ≤ m → eval E m self None nd s = (s', Ok (joined cs)).
Proof.
  intros E self nd s s' cs Hw Hv Y. destruct (proj1 (yields_complete E self) _ _ _ _ Y Hw Hv) as [n Hn].
  exists n. intros m Hm. rewrite <- fold_append_joined. eapply mle_ok; [|apply Hn]. by apply eval_mono.
Qed.
Print Assumptions tree_is_evaluated.

(** Paragraphs evaluated one after the other. *)
Inductive paragraphs (E : env) (self : nat) : st → list (list (list node)) → st → list (list (list content)) → Prop :=
| paragraphs_nil s : paragraphs E self s [] s []
| paragraphs_cons s p ps s1 s2 css csss : yields_lines E self (runs E self) s p s1 css →
    paragraphs E self s1 ps s2 csss → paragraphs E self s (p :: ps) s2 (css :: csss).

(** A document made of paragraphs evaluates to one block per paragraph that
    produced anything: a paragraph with a line per source line that produced
    anything, or the only block of a paragraph that consists of a single block. *)
Theorem document_structure : ∀ E n self ps s s' r, eval E n self None (NSeq (map NPara ps)) s = (s', Ok r) →
  ∃ csss, paragraphs E self s ps s' csss ∧
    Forall2 (λ p css, length css = length p) ps csss ∧
    r = joined (concat (map (λ css, block (omap joined css)) csss)).
Proof.
  intros E n self ps s s' r H. apply evaluation_follows_tree in H as (cs & Y & ->).
  inversion Y as [|? ? ? ? Ya| | |]; subst. clear Y.
  assert (∃ csss, paragraphs E self s ps s' csss ∧ Forall2 (λ p css, length css = length p) ps csss ∧
    cs = concat (map (λ css, block (omap joined css)) csss)) as (csss & H1 & H2 & ->); [|eauto].
  revert s cs Ya. induction ps as [|p ps IH]; intros s cs Ya; simpl in Ya.
  - inversion Ya; subst. exists []. split; [constructor|]. by split.
  - inversion Ya as [|? ? ? s1 ? a b Yp Yr]; subst. inversion Yp as [| |? ? ? css Yl| |]; subst.
    destruct (IH _ _ Yr) as (csss & P & L & ->). exists (css :: csss). split; [by econstructor|]. split; [|done].
    constructor; [|done]. clear -Yl. induction Yl; simpl; auto.
Qed.
Print Assumptions document_structure.

Example document_structure_example :
  snd (eval demo_env 5 0 None (NSeq (map NPara [[[txt "a"; call 1 "bold" [txt "b"]]; [call 2 "single-page" []]; [txt "c"]];
    [[call 3 "single-page" []]]; [[call 4 "list" [txt "x"]]]])) start) =
  Ok (Some (CSeq [CPara [CSeq [CString "a"; CStyled "bold" false (CString "b") []]; CString "c"]; CList [CString "x"] false])).
Proof. vm_compute. reflexivity. Qed.

(** ** C49 *)

(** The text of an evaluated document of plain text. *)
Theorem text_documents_keep_their_text : ∀ E n self ps s, ps ≠ [] →
  Forall (λ lines, lines ≠ [] ∧ Forall (λ l, l ≠ [] ∧ line_text l ≠ "") lines) ps →
  ∃ c, eval E (3 + n) self None (NSeq (map (λ lines, NPara (map (map NString) lines)) ps)) s = (s, Ok (Some c)) ∧
    str E (st_heap s) c = Ok (sconcat (map (λ lines, String.concat " " (map sconcat lines) +:+ nls +:+ nls) ps)).
Proof.
  intros E n self ps s Hne Hf. destruct (text_document E (st_heap s) ps Hne Hf) as (c & Hc & Hs). exists c. split; [|exact Hs].
  change (NSeq _) with (text_doc ps). change (3 + n) with (S (S (S n))). rewrite visit_text_doc, fold_append_joined, Hc. done.
Qed.
Print Assumptions text_documents_keep_their_text.

Example text_documents_example :
  let ps := [[["Hello, "; "world"]; ["again"]]; [["Bye."]]] in
  ps ≠ [] ∧ Forall (λ lines, lines ≠ [] ∧ Forall (λ l, l ≠ [] ∧ line_text l ≠ "") lines) ps.
Proof. split; [done|]. repeat constructor; done. Qed.

(** ** C28 *)

(** A call that returns ran the method of the first plugin that has it, on the
    arguments' values. *)
Theorem call_dispatches_to_first_plugin : ∀ E n self acc fn args l s s' r x, st_heap s !! self = Some x →
  eval E n self acc (NInvoke fn args l) s = (s', Ok r) →
  ∃ i f m, s_factories x !! i = Some f ∧ e_methods E f (method_name fn) = Some m ∧
    (∀ j g, j < i → s_factories x !! j = Some g → e_methods E g (method_name fn) = None) ∧
    ∃ s1 argv rets cs, yields_args E self (runs E self) (touch self l s) m 0 args s1 argv ∧
      runs E self s1 m argv s' rets ∧ returns rets cs ∧ r = fold_append acc cs.
Proof.
  intros E n self acc fn args l s s' r x Hx H. apply eval_sound in H as (cs & Y & ->).
  inversion Y as [| | | |? ? ? ? x0 m s1 argv ? rets ? Hx0 Hd Ha HY Hz Hb Hr]; subst.
  assert (x0 = x) as -> by congruence.
  assert (∃ i f, s_factories x !! i = Some f ∧ e_methods E f (method_name fn) = Some m ∧
    ∀ j g, j < i → s_factories x !! j = Some g → e_methods E g (method_name fn) = None) as (i & f & H1 & H2 & H3).
  { clear -Hd. induction Hd as [f fs m Hf|f fs m Hf Hd IH].
    - exists 0, f. split; [done|]. split; [done|]. lia.
    - destruct IH as (i & g & H1 & H2 & H3). exists (S i), g. split; [done|]. split; [done|].
      intros [|j] g' Hj Hg; simpl in Hg; [congruence|]. eapply H3; [|done]. lia. }
  exists i, f, m. split_and!; try done. eauto 10.
Qed.
Print Assumptions call_dispatches_to_first_plugin.

(** An unknown function fails the evaluation at once. *)
Theorem undefined_function_fails : ∀ E n self acc fn args l s x f, st_heap s !! self = Some x →
  file_path (st_heap s) self = Some f →
  (∀ g, g ∈ s_factories x → e_methods E g (method_name fn) = None) →
  eval E (S n) self acc (NInvoke fn args l) s =
    (touch self l s, Err (EUndefined fn (ErrLoc f l (S (String.length fn))))).
Proof.
  intros E n self acc fn args l s x f Hx Hf Hn. simpl. unfold visit_invoke.
  rewrite (mbind_eq _ _ _ _ _ (touch_eq self l s)). rewrite (mbind_eq mheap _ _ (touch self l s) _ eq_refl).
  simpl. rewrite (upd_lookup_eq _ _ _ _ Hx). rewrite file_path_upd by done. rewrite Hf. simpl.
  erewrite mbind_eq by reflexivity. apply (find_none E) in Hn. by rewrite Hn.
Qed.
Print Assumptions undefined_function_fails.

Example undefined_function_example : let s := start in
  file_path (st_heap s) 0 = Some "/f" ∧
  (∀ g, g ∈ [FBase] → e_methods demo_env g (method_name "no-such") = None) ∧
  e_methods demo_env FBase (method_name "single-page") = Some m_single_page.
Proof. split; [done|]. split; [|done]. by intros g ->%elem_of_list_singleton. Qed.

(** ** C29 *)

(** The number of arguments is checked first: nothing else happens. *)
Theorem wrong_arity_fails : ∀ E n self acc fn args l s x f m, st_heap s !! self = Some x →
  file_path (st_heap s) self = Some f → dispatches E (method_name fn) (s_factories x) m →
  (length args < length (m_in m) ∨ (m_variadic m = None ∧ length (m_in m) < length args)) →
  eval E (S n) self acc (NInvoke fn args l) s =
    (touch self l s, Err (EArity fn (length args) (length (m_in m)) (if m_variadic m then true else false))).
Proof.
  intros E n self acc fn args l s x f m Hx Hf Hd Hlen. simpl. unfold visit_invoke.
  rewrite (mbind_eq _ _ _ _ _ (touch_eq self l s)). rewrite (mbind_eq mheap _ _ (touch self l s) _ eq_refl).
  simpl. rewrite (upd_lookup_eq _ _ _ _ Hx). rewrite file_path_upd by done. rewrite Hf. simpl.
  erewrite mbind_eq by reflexivity. apply dispatches_find in Hd. rewrite Hd.
  destruct (arity_ok m (length args)) eqn:Ha.
  - exfalso. apply accepts_ok in Ha. unfold accepts in Ha. destruct (m_variadic m); destruct Hlen as [?|[? ?]]; try done; lia.
  - unfold is_variadic. by destruct (m_variadic m).
Qed.
Print Assumptions wrong_arity_fails.

(** A method that ran received one value per argument, each of its parameter's type. *)
Theorem arguments_are_passed_in_order : ∀ E n self acc fn args l s s' r x, st_heap s !! self = Some x →
  eval E n self acc (NInvoke fn args l) s = (s', Ok r) →
  ∃ m s1 argv rets, dispatches E (method_name fn) (s_factories x) m ∧ runs E self s1 m argv s' rets ∧
    length argv = length args ∧ length (m_in m) ≤ length args ∧ (m_variadic m = None → length args = length (m_in m)) ∧
    ∀ i nd, args !! i = Some nd → ∃ v ty sa sb, argv !! i = Some v ∧
      (m_in m !! i = Some ty ∨ length (m_in m) ≤ i ∧ m_variadic m = Some ty) ∧
      yields_arg E self (runs E self) sa ty nd sb v.
Proof.
  intros E n self acc fn args l s s' r x Hx H. apply eval_sound in H as (cs & Y & ->).
  inversion Y as [| | | |? ? ? ? x0 m s1 argv ? rets ? Hx0 Hd Ha HY Hz Hb Hr]; subst.
  assert (x0 = x) as -> by congruence. exists m, s1, argv, rets. split; [done|]. split; [done|].
  assert (length argv = length args ∧ ∀ i nd, args !! i = Some nd → ∃ v ty sa sb, argv !! i = Some v ∧
      param m (0 + i) ty ∧ yields_arg E self (runs E self) sa ty nd sb v) as [Hlen Hall].
  { revert HY. generalize (touch self l s). generalize 0. clear. intros k s0 HY.  induction HY as [|s m i ty nd args s1 v s2 vs P Y HY IH].
    - split; [done|]. intros j nd Hj. by rewrite lookup_nil in Hj.
    - destruct IH as [IH1 IH2]. split; [simpl; lia|]. intros [|j] nd' Hj; simpl in Hj.
      + injection Hj as <-. rewrite Nat.add_0_r. eauto 10.
      + destruct (IH2 j nd' Hj) as (v' & ty' & sa & sb & H1 & H2 & H3). rewrite <- Nat.add_succ_comm in *. eauto 10. }
  unfold accepts in Ha. split; [done|]. split; [destruct (m_variadic m); lia|]. split; [by intros Hv; rewrite Hv in Ha|].
  exact Hall.
Qed.
Print Assumptions arguments_are_passed_in_order.

Example wrong_arity_example : dispatches demo_env (method_name "link") [FBase] m_link ∧ length [txt "a"] < length (m_in m_link).
Proof. split; [by apply dispatches_here|simpl; lia]. Qed.

(** ** C30 *)

(** An evaluation ends with an error exactly when something in the tree fails, at
    that point and with that error. *)
Theorem evaluation_error_is_a_failure : ∀ E n self acc nd s s' e, eval E n self acc nd s = (s', Err e) →
  fails E self (runs E self) s nd s' e.
Proof. intros E n self acc nd s s' e. apply eval_fails. Qed.
Print Assumptions evaluation_error_is_a_failure.

Theorem failure_aborts_evaluation : ∀ E self nd s s' e, wf (st_heap s) → valid (st_heap s) self →
  fails E self (runs E self) s nd s' e → ∃ n, ∀ m acc, n ≤ m → eval E m self acc nd s = (s', Err e).
Proof.
  intros E self nd s s' e Hw Hv F. destruct (proj1 (fails_complete E self) _ _ _ _ F Hw Hv) as [n Hn].
  exists n. intros m acc Hm. eapply mle_err; [|apply Hn]. by apply eval_mono.
Qed.
Print Assumptions failure_aborts_evaluation.

(** What follows a failure is not evaluated. *)
Theorem failure_stops_evaluation : ∀ E n self acc s s' e,
  (∀ l rest, eval E n self acc (NSeq l) s = (s', Err e) → eval E n self acc (NSeq (l ++ rest)) s = (s', Err e)) ∧
  (∀ l rest, eval E n self acc (NPara l) s = (s', Err e) → eval E n self acc (NPara (l ++ rest)) s = (s', Err e)) ∧
  (∀ l rest, eval E n self acc (NPre l) s = (s', Err e) → eval E n self acc (NPre (l ++ rest)) s = (s', Err e)).
Proof.
  intros E n self acc s s' e. destruct n as [|n]; [done|].
  assert (∀ (l rest : list node) acc s, visit_seq (eval E n) self acc l s = (s', Err e) →
    visit_seq (eval E n) self acc (l ++ rest) s = (s', Err e)) as Hseq.
  { unfold visit_seq. induction l as [|nd l IH]; intros rest acc0 s0 H; [done|]. simpl in *.
    apply mbind_err in H as [H|(s1 & a & H1 & H)]; [by apply mbind_err_eq|].
    rewrite (mbind_eq _ _ _ _ _ H1). by apply IH. }
  assert (∀ l rest s, visit_lines (eval E n) self l s = (s', Err e) →
    visit_lines (eval E n) self (l ++ rest) s = (s', Err e)) as Hlines.
  { intros l rest s0 H. unfold visit_lines in *. apply mbind_err in H as [H|(s1 & a & H1 & H)]; [|done]. apply mbind_err_eq.
    revert s0 H. induction l as [|x l IH]; intros s0 H; [done|]. simpl in *.
    apply mbind_err in H as [H|(s1 & a & H1 & H)]; [by apply mbind_err_eq|].
    rewrite (mbind_eq _ _ _ _ _ H1). apply mbind_err in H as [H|(s2 & b & H2 & H)]; [|done]. apply mbind_err_eq. by apply IH. }
  split_and!; intros l rest H; simpl in *.
  - by apply Hseq.
  - apply mbind_err in H as [H|(s1 & a & H1 & H)]; [by apply mbind_err_eq, Hlines|].
    destruct a as [|c [|]]; try done. by destruct (is_flow c).
  - apply mbind_err in H as [H|(s1 & a & H1 & H)]; [by apply mbind_err_eq, Hlines|done].
Qed.
Print Assumptions failure_stops_evaluation.

(** An error returned by a function is passed on if it is pretty, and otherwise
    wrapped with the function's name and location. *)
Theorem returned_errors_surface : ∀ E self fn args l s x f m s1 argv s' rets e, wf (st_heap s) → valid (st_heap s) self →
  st_heap s !! self = Some x → file_path (st_heap s) self = Some f →
  dispatches E (method_name fn) (s_factories x) m → accepts m (length args) →
  yields_args E self (runs E self) (touch self l s) m 0 args s1 argv → ACon None ∉ argv →
  runs E self s1 m argv s' rets → (rets = [RErr (Some e)] ∨ ∃ r, rets = [r; RErr (Some e)]) →
  ∃ n, ∀ k acc, n ≤ k → eval E k self acc (NInvoke fn args l) s =
    (s', Err (if is_pretty e then e else EFailed fn e (ErrLoc f l (S (String.length fn))))).
Proof.
  intros E self fn args l s x f m s1 argv s' rets e Hw Hv Hx Hf Hd Ha HY Hz Hb Hr.
  apply failure_aborts_evaluation; [done..|]. eapply fails_returned; [done..|]. by exists f.
Qed.
Print Assumptions returned_errors_surface.

(** With the base plugin an error is wrapped at most once. *)
Theorem errors_are_wrapped_once : ∀ E n self nd s s' e, base_only E →
  (∀ path mt e fn e' l, e_fs E path = Some (mt, inr e) → e = EFailed fn e' l → is_pretty e' = false) →
  self < length (st_heap s) →
  eval E n self None nd s = (s', Err e) → ∀ fn e' l, e = EFailed fn e' l → is_pretty e' = false.
Proof.
  intros E n self nd s s' e Hb Hpe Hs He fn e' l ->.
  assert (∀ path mt e, e_fs E path = Some (mt, inr e) → wrapped_once e) as Hpe'.
  { intros path mt e Hfs. destruct e; simpl; try done. by eapply Hpe. }
  pose proof (base_eval_inv E _ _ _ Hb (base_facts E (length (st_heap s)) Hpe')) as HE.
  assert (base_state (length (st_heap s)) (st_heap s)) as HI.
  { intros j x Hj Hx. apply lookup_lt_Some in Hx. lia. }
  pose proof (tr_eval E _ _ _ HE n (length (st_heap s)) self None nd Hs I s HI (le_n _)) as T. rewrite He in T.
  apply T.
Qed.
Print Assumptions errors_are_wrapped_once.

Example returned_errors_example :
  snd (eval demo_env 5 0 None (NSeq [para [txt "a"]; para [call 2 "use-plugin" [txt "nope"]]; para [call 3 "single-page" []]])
    start) =
  Err (EFailed "use-plugin" (EUnknownPlugin "nope") (ErrLoc "/f" (Loc 2 1 20) 11)).
Proof. vm_compute. reflexivity. Qed.

(** ** C31 *)

(** A title, once set, stays: no later evaluation replaces it. *)
Theorem title_is_set_once : ∀ E n self acc nd s j x, base_env E → other_ops E no_set_title →
  st_heap s !! j = Some x → s_title x ≠ CString "" →
  ∃ x', st_heap (fst (eval E n self acc nd s)) !! j = Some x' ∧
    s_title x' = s_title x ∧ s_titleloc x' = s_titleloc x ∧ s_primary x' = s_primary x.
Proof.
  intros E n self acc nd s j x Hb Ho Hx Ht. apply title_set_once; [done..|].
  destruct (s_title x) as [[]| | | | | | | | | | | | | | |]; done.
Qed.
Print Assumptions title_is_set_once.

(** A second title fails the evaluation, pointing at both. *)
Theorem second_title_fails : ∀ E self l nd args s x f s1 argv, base_env E → other_ops E no_set_title →
  wf (st_heap s) → st_heap s !! self = Some x → s_title x ≠ CString "" → file_path (st_heap s) self = Some f →
  dispatches E "Title" (s_factories x) m_title →
  yields_args E self (runs E self) (touch self l s) m_title 0 (nd :: args) s1 argv → ACon None ∉ argv →
  ∃ x1 n, st_heap s1 !! self = Some x1 ∧ ∀ k acc, n ≤ k →
    eval E k self acc (NInvoke "title" (nd :: args) l) s =
      (s1, Err (ETitleTwice (ErrLoc f (s_titleloc x) 6) (ErrLoc f (s_invloc x1) 6))).
Proof.
  intros E self l nd args s x f s1 argv Hb Ho Hw Hx Ht Hf Hd Y Hz.
  assert (valid (st_heap s) self) as Hv by by eapply lookup_lt_Some.
  pose proof (touch_frame self l s Hw Hv) as F0. pose proof (ff_wf _ _ _ F0) as Hw0.
  assert (valid (st_heap (touch self l s)) self) as Hv0 by (pose proof (ff_length _ _ _ F0); unfold valid in *; lia).
  assert (is_empty (s_title x) = false) as He by (destruct (s_title x) as [[]| | | | | | | | | | | | | | |]; done).
  pose proof (yields_args_resp E frame _ _ _ _ _ _ _ (frame_eval_rel E) Y Hw0 Hv0 Hw0 Hv0) as F1.
  pose proof (yields_args_resp E _ _ _ _ _ _ _ _ (title_rel E Hb Ho) Y Hw0 Hv0) as T1.
  destruct (T1 self (set_invloc x l)) as (x1 & Hx1 & Ht1); [exact (upd_lookup_eq _ _ (λ y, set_invloc y l) _ Hx)|].
  destruct (Ht1 He) as (Ht1' & Htl & _).
  assert (file_path (st_heap s1) self = Some f) as Hf1.
  { rewrite (frame_file_path _ _ _ Hw0 F1) by done. simpl. by rewrite file_path_upd. }
  exists x1. destruct (returned_errors_surface E self "title" (nd :: args) l s x f m_title s1 argv s1
    [RErr (Some (ETitleTwice (ErrLoc f (s_titleloc x) 6) (ErrLoc f (s_invloc x1) 6)))]
    (ETitleTwice (ErrLoc f (s_titleloc x) 6) (ErrLoc f (s_invloc x1) 6))) as [n Hn]; try done.
  - unfold accepts. simpl. lia.
  - exists 0. destruct (title_args _ _ _ _ _ _ _ Y Hz) as (t & tags & ->). simpl. rewrite str_args_map.
    unfold getself, getpath. simpl. erewrite mbind_eq by reflexivity. rewrite Hx1. rewrite Ht1'. simpl. rewrite He.
    simpl. erewrite mbind_eq by reflexivity. rewrite Hf1. simpl. rewrite Htl. done.
  - by left.
  - exists n. split; [done|]. intros k acc Hk. by rewrite Hn.
Qed.
Print Assumptions second_title_fails.

Example second_title_example :
  snd (eval demo_env 5 0 None (NSeq [para [call 1 "title" [txt "a"]]; para [call 2 "title" [txt "b"]]])
    start) =
  Err (ETitleTwice (ErrLoc "/f" (Loc 1 1 10) 6) (ErrLoc "/f" (Loc 2 1 20) 6)).
Proof. vm_compute. reflexivity. Qed.

(** ** C32 *)

(** While a section or one of its ancestors is a single page, evaluating it does
    not split it, nor any section below it. *)
Theorem single_page_prevents_splitting : ∀ E n self acc nd s, base_env E → other_ops E no_split →
  wf (st_heap s) → valid (st_heap s) self →
  (∃ a x, ancestor (st_heap s) a self ∧ st_heap s !! a = Some x ∧ s_prevent x = true) →
  let h' := st_heap (fst (eval E n self acc nd s)) in
  (∀ x x', st_heap s !! self = Some x → h' !! self = Some x' → s_split x' = s_split x) ∧
  (∀ j x', length (st_heap s) ≤ j → h' !! j = Some x' → s_split x' = false).
Proof.
  intros E n self acc nd s Hb Ho Hw Hv Hs. destruct (eval_single E n self acc nd s Hb Ho) as [_ H]. by apply H.
Qed.
Print Assumptions single_page_prevents_splitting.

(** Every section that is split has had its header depth reset. *)
Theorem split_sections_reset_depth : ∀ E n path fs, base_env E → other_ops E no_split →
  ∀ j x, st_heap (fst (load_file E n path fs (St [] []))) !! j = Some x → s_split x = true → s_reset x = true.
Proof.
  intros E n path fs Hb Ho j x Hx.
  assert (∀ s, all_reset (st_heap s) → all_reset (st_heap (fst (load_file E n path fs s)))) as H.
  { intros s Hs. unfold load_file, evaluate_file. destruct (e_fs E path) as [[mt parsed]|]; [|done].
    unfold mbind at 1. unfold parse_step. destruct (match assoc_get path (st_cache s) with Some (n1, t) => _ | None => _ end) as [nd|e| |]; try done.
    unfold alloc. unfold mbind at 1. unfold mbind at 1. unfold evaluate_section. 
    pose proof (reset_rel E Hb Ho) as HR.
    assert (resp keeps_all_reset (mfold (λ _ f, mupd (length (st_heap s)) (use_plugin f)) tt fs)) as Hfold.
    { clear -HR. induction fs as [|f fs IH]; intros s0; simpl; [by intros ?|]. unfold mbind. simpl. intros H0. apply IH. simpl.
      by apply all_reset_upd. }
    unfold mbind at 1 2. specialize (Hfold (St (st_heap s ++ [new_section None path]) (st_cache s)) (all_reset_alloc _ _ _ Hs)).
    destruct (mfold _ tt fs _) as [s1 [[]|e| |]]; simpl in *; try done.
    pose proof (eval_resp E _ HR n (length (st_heap s)) None nd s1 Hfold) as H1.
    destruct (eval E n (length (st_heap s)) None nd s1) as [s2 [[c|]|e| |]]; simpl in *; try done.
    by apply all_reset_upd. }
  apply H in Hx; [done|]. intros k y Hy. simpl in Hy. by rewrite lookup_nil in Hy.
Qed.
Print Assumptions split_sections_reset_depth.

(** The order matters: [\single-page] after [\split-sections] does not undo it. *)
Theorem single_page_afterwards_refuted : ∃ s', 
  eval demo_env 5 0 None (NSeq [para [call 1 "split-sections" []]; para [call 2 "single-page" []]])
    start = (s', Ok None) ∧
  option_map s_prevent (st_heap s' !! 0) = Some true ∧ option_map s_split (st_heap s' !! 0) = Some true.
Proof. eexists. split; [vm_compute; reflexivity|]. split; reflexivity. Qed.
Print Assumptions single_page_afterwards_refuted.

(** ** C33 *)

(** A new section about to be evaluated: empty, below [self], with the given file
    and plugins. *)
Definition fresh_child (self : nat) (path : string) (fs : list factory) : section :=
  Section path CEmpty CEmpty loc0 tag0 [] (Some self) [] "" [] false false false false fs loc0 loc0.

(** [\section{nd}] evaluates [nd] in a new section that starts with the parent's
    plugins and ends as the parent's last child; plugins of all older sections,
    the parent included, are as before. *)
Theorem inline_section_inherits_plugins : ∀ E n self acc nd l s s' r x, wf (st_heap s) →
  st_heap s !! self = Some x → dispatches E "Section" (s_factories x) m_section →
  eval E n self acc (NInvoke "section" [nd] l) s = (s', Ok r) →
  r = acc ∧
  let c := length (st_heap s) in
  ∃ k s2 o y, eval E k c None nd (St (upd (st_heap s) self (λ z, set_invloc z l) ++ [fresh_child self "" (s_factories x)]) (st_cache s)) = (s2, Ok o) ∧
    st_heap s2 !! c = Some y ∧ s_factories x `prefix_of` s_factories y ∧
    (∃ y', st_heap s' !! c = Some y' ∧ s_factories y' = s_factories y ∧ s_parent y' = Some self ∧ s_loc y' = l) ∧
    (∃ x', st_heap s' !! self = Some x' ∧ s_factories x' = s_factories x ∧ s_children x' = s_children x ++ [c]) ∧
    (∀ j, j < c → j ≠ self → st_heap s' !! j = st_heap s !! j).
Proof.
  intros E n self acc nd l s s' r x Hw Hx Hd H. apply eval_sound in H as (cs & Y & ->).
  destruct (yields_invoke_inv E self _ _ _ _ _ _ x m_section Y Hx Hd) as (_ & s1 & argv & rets & Ya & Hz & Hb & Hr).
  destruct (yields_args_one E self _ _ TNode _ _ _ Ya) as (v & -> & Yv); [by left|]. inversion Yv; subst.
  assert (valid (st_heap s) self) as Hv by by eapply lookup_lt_Some.
  pose proof (touch_frame self l s Hw Hv) as F0. pose proof (ff_wf _ _ _ F0) as Hw0.
  assert (st_heap (touch self l s) !! self = Some (set_invloc x l)) as Hx0 by exact (upd_lookup_eq _ _ (λ y, set_invloc y l) _ Hx).
  destruct (runs_section E self _ nd s' rets cs _ Hx0 Hw0 Hb Hr) as (-> & k & s2 & o & He & ->). split; [done|].
  simpl. assert (length (st_heap (touch self l s)) = length (st_heap s)) as Hl by apply upd_length. rewrite Hl in *.
  change (s_factories (set_invloc x l)) with (s_factories x) in He.
  pose proof (eval_frame E k (length (st_heap s)) None nd (child_state self "" (s_factories x) (touch self l s))) as F.
  rewrite He in F. simpl in F.
  assert (frame_facts (length (st_heap s)) (st_heap (child_state self "" (s_factories x) (touch self l s))) (st_heap s2)) as FF.
  { apply F; [apply child_wf; [exact Hw0|unfold valid; simpl; by rewrite upd_length]|].
    unfold valid. simpl. rewrite app_length, upd_length. simpl. lia. }
  clear F. assert (self < length (st_heap s)) by done.
  assert (∀ j, j < length (st_heap s) → st_heap s2 !! j = st_heap (touch self l s) !! j) as Hold.
  { intros j Hj. rewrite (ff_others _ _ _ FF); [|simpl; rewrite app_length, upd_length; simpl; lia|lia].
    simpl. apply lookup_app_l. by rewrite upd_length. }
  destruct (ff_self _ _ _ FF (child_section self "" (s_factories x))) as (y & Hy & G).
  { simpl. apply list_lookup_middle. by rewrite upd_length. }
  exists k, s2, o, y. split; [exact He|]. split; [done|]. split; [apply (g_factories _ _ _ G)|]. simpl. rewrite ?upd_length in *. split_and!.
  - exists (set_loc (finish_body o y) l). simpl. rewrite upd_lookup_ne by lia.
    rewrite ?upd_length. rewrite (upd_lookup_eq _ _ _ (finish_body o y)); [|by apply upd_lookup_eq]. split; [done|].
    pose proof (g_parent _ _ _ G). destruct o; simpl; done.
  - eexists. split; [apply upd_lookup_eq; rewrite upd_lookup_ne by lia; rewrite upd_lookup_ne by lia; rewrite Hold by done; exact Hx0|].
    done.
  - intros j Hj Hne. rewrite !upd_lookup_ne by lia. rewrite Hold by done. simpl. by rewrite upd_lookup_ne by done.
Qed.
Print Assumptions inline_section_inherits_plugins.

(** [\include-section{p}] evaluates the file in a new section that starts with the
    base plugin only. *)
Theorem included_section_has_base_plugin : ∀ E n self acc arg l s s' r x, wf (st_heap s) →
  st_heap s !! self = Some x → dispatches E "IncludeSection" (s_factories x) m_include →
  eval E n self acc (NInvoke "include-section" [arg] l) s = (s', Ok r) →
  r = acc ∧
  ∃ p s1 f, yields_arg E self (runs E self) (touch self l s) TStr arg s1 (AStr p) ∧
  file_path (st_heap s) self = Some f ∧
  let path := path_join (path_dir f) p in
  let c := length (st_heap s1) in
  ∃ mt parsed nd k s2 o y, e_fs E path = Some (mt, parsed) ∧ parse_step path mt parsed s1 = (s1, Ok nd) ∧
    eval E k c None nd (St (st_heap s1 ++ [fresh_child self path [FBase]]) (st_cache s1)) = (s2, Ok o) ∧
    st_heap s2 !! c = Some y ∧ [FBase] `prefix_of` s_factories y ∧
    (∃ y', st_heap s' !! c = Some y' ∧ s_factories y' = s_factories y ∧ s_parent y' = Some self ∧ s_path y' = path) ∧
    (∃ x1 x', st_heap s1 !! self = Some x1 ∧ st_heap s' !! self = Some x' ∧
       s_factories x' = s_factories x1 ∧ s_children x' = s_children x1 ++ [c]) ∧
    (∀ j, j < c → j ≠ self → st_heap s' !! j = st_heap s1 !! j).
Proof.
  intros E n self acc arg l s s' r x Hw Hx Hd H. apply eval_sound in H as (cs & Y & ->).
  destruct (yields_invoke_inv E self _ _ _ _ _ _ x m_include Y Hx Hd) as (_ & s1 & argv & rets & Ya & Hz & Hb & Hr).
  destruct (yields_args_one E self _ _ TStr _ _ _ Ya) as (v & -> & Yv); [by left|].
  assert (∃ p, v = AStr p) as [p ->] by (inversion Yv; subst; eauto).
  assert (valid (st_heap s) self) as Hv by by eapply lookup_lt_Some.
  pose proof (touch_frame self l s Hw Hv) as F0. pose proof (ff_wf _ _ _ F0) as Hw0.
  assert (valid (st_heap (touch self l s)) self) as Hv0 by (pose proof (ff_length _ _ _ F0); unfold valid in *; lia).
  pose proof (yields_args_resp E frame _ _ _ _ _ _ _ (frame_eval_rel E) Ya Hw0 Hv0 Hw0 Hv0) as F1.
  pose proof (ff_wf _ _ _ F1) as Hw1. pose proof (ff_length _ _ _ F1).
  assert (valid (st_heap s1) self) as Hv1 by (unfold valid in *; lia).
  destruct (file_path_total (st_heap s) self Hw Hv) as [f Hf].
  assert (file_path (st_heap s1) self = Some f) as Hf1.
  { rewrite (frame_file_path _ _ _ Hw0 F1) by done. simpl. by rewrite file_path_upd. }
  destruct (runs_include E self s1 p s' rets cs f Hf1 Hb Hr) as (-> & k & mt & parsed & nd & s2 & o & Hfs & Hp & He & ->).
  split; [done|]. exists p, s1, f. split; [done|]. split; [done|].
  pose proof (eval_frame E k (length (st_heap s1)) None nd (child_state self (path_join (path_dir f) p) [FBase] s1)) as F.
  rewrite He in F. simpl in F.
  assert (frame_facts (length (st_heap s1)) (st_heap (child_state self (path_join (path_dir f) p) [FBase] s1)) (st_heap s2)) as FF.
  { apply F; [by apply child_wf|]. unfold valid. simpl. rewrite app_length. simpl. lia. }
  clear F. assert (self < length (st_heap s1)) by done.
  assert (∀ j, j < length (st_heap s1) → st_heap s2 !! j = st_heap s1 !! j) as Hold.
  { intros j Hj. rewrite (ff_others _ _ _ FF); [|simpl; rewrite app_length; simpl; lia|lia].
    simpl. by apply lookup_app_l. }
  destruct (ff_self _ _ _ FF (child_section self (path_join (path_dir f) p) [FBase])) as (y & Hy & G).
  { simpl. by apply list_lookup_middle. }
  destruct (lookup_lt_is_Some_2 _ _ Hv1) as [x1 Hx1].
  exists mt, parsed, nd, k, s2, o, y. split; [done|]. split; [done|]. split; [exact He|]. split; [done|].
  split; [apply (g_factories _ _ _ G)|]. simpl. split_and!.
  - exists (finish_body o y). rewrite upd_lookup_ne by lia.
    rewrite (upd_lookup_eq _ _ _ y) by done. split; [done|].
    pose proof (g_parent _ _ _ G). pose proof (g_path _ _ _ G). destruct o; simpl; done.
  - exists x1. eexists. split; [done|]. split; [apply upd_lookup_eq; rewrite upd_lookup_ne by lia; rewrite Hold by done; exact Hx1|].
    done.
  - intros j Hj Hne. rewrite !upd_lookup_ne by lia. by rewrite Hold by done.
Qed.
Print Assumptions included_section_has_base_plugin.

(** No evaluation changes the plugins of any older section but its own. *)
Theorem plugins_do_not_leak : ∀ E n self acc nd s, wf (st_heap s) → valid (st_heap s) self →
  ∀ j x, j ≠ self → st_heap s !! j = Some x →
  ∃ x', st_heap (fst (eval E n self acc nd s)) !! j = Some x' ∧ s_factories x' = s_factories x.
Proof.
  intros E n self acc nd s Hw Hv j x Hj Hx. exists x. split; [|done].
  rewrite (ff_others _ _ _ (eval_frame E n self acc nd s Hw Hv)); [done|by eapply lookup_lt_Some|done].
Qed.
Print Assumptions plugins_do_not_leak.

Example section_example : dispatches demo_env "Section" [FBase] m_section ∧ dispatches demo_env "IncludeSection" [FBase] m_include ∧
  wf (st_heap start) ∧
  ∃ s', eval demo_env 6 0 None (NInvoke "section" [NSeq [para [call 1 "title" [txt "a"]]]] loc0) start = (s', Ok None).
Proof.
  split; [by apply dispatches_here|]. split; [by apply dispatches_here|]. split; [|eexists; vm_compute; reflexivity].
  exact (upd_wf _ 0 (λ y, set_factories y [FBase]) (λ _, conj eq_refl eq_refl) (alloc_wf [] None "/f" empty_wf I)).
Qed.

(** ** C34 *)

(** Which file [\include-section{p}] loads: [p] followed from the directory of the
    file of the section calling it. *)
Theorem include_is_relative_to_file : ∀ f p dir file, ssplit slash f = dir ++ [file] →
  ∃ d d', walks (has_prefix "/" f) [] dir d ∧ walks (has_prefix "/" f) d (ssplit slash p) d' ∧
  path_join (path_dir f) p = shown (has_prefix "/" f) d'.
Proof.
  intros f p dir file Hs.
  destruct (walks_exists (has_prefix "/" f) dir [] (place_nil _)) as (d & W & P).
  { pose proof (ssplit_forall_no_char slash f) as Ha. rewrite Hs in Ha. by apply Forall_app in Ha as [? _]. }
  destruct (walks_exists (has_prefix "/" f) (ssplit slash p) d P (ssplit_forall_no_char _ _)) as (d' & W' & _).
  exists d, d'. split_and!; [done..|]. by eapply include_path.
Qed.
Print Assumptions include_is_relative_to_file.

(** The file of a section does not change during evaluation; that of an inline
    section is its parent's, that of an included one its own. *)
Theorem section_files : ∀ E n self acc nd s f, wf (st_heap s) → file_path (st_heap s) self = Some f →
  valid (st_heap s) self →
  let c := length (st_heap s) in
  (∀ j, valid (st_heap s) j → file_path (st_heap (fst (eval E n self acc nd s))) j = file_path (st_heap s) j) ∧
  (∀ fs, file_path (st_heap s ++ [fresh_child self "" fs]) c = Some f) ∧
  (∀ p fs, let path := path_join (path_dir f) p in file_path (st_heap s ++ [fresh_child self path fs]) c = Some path).
Proof.
  intros E n self acc nd s f Hw Hf Hv c. split_and!.
  - intros j Hj. apply (frame_file_path self _ _ Hw); [|done]. by apply eval_frame.
  - intros fs. rewrite <- Hf. apply (alloc_file_path _ self (fresh_child self "" fs)); try done. by apply child_wf.
  - intros p fs path. apply (alloc_file_path _ self (fresh_child self path fs)); try done; [by apply child_wf|].
    unfold path. simpl. destruct (ssplit slash f) as [|file dir _] eqn:Hs using rev_ind; [by apply ssplit_not_nil in Hs|].
    destruct (include_is_relative_to_file f p dir file Hs) as (d & d' & W & W' & ->).
    apply shown_nonempty.
    destruct (walks_exists (has_prefix "/" f) (dir ++ ssplit slash p) [] (place_nil _)) as (d0 & W0 & P).
    { apply Forall_app. split; [|apply ssplit_forall_no_char].
      pose proof (ssplit_forall_no_char slash f) as Ha. rewrite Hs in Ha. by apply Forall_app in Ha as [? _]. }
    by rewrite (walks_fun _ _ _ _ (walks_app _ _ _ _ _ _ W W') _ W0).
Qed.
Print Assumptions section_files.

Example include_example : path_join (path_dir "/b/index.lit") "../c/./x.lit" = "/c/x.lit" ∧
  path_join (path_dir "docs/index.lit") "../../x.lit" = "../x.lit" ∧
  walks true ["b"] ["..";"c";".";"x.lit"] ["c";"x.lit"].
Proof.
  split; [done|]. split; [done|]. apply (walks_up _ []); [done|]. apply walks_down; [done..|]. apply walks_stay; [by right|].
  apply walks_down; [done..|]. constructor.
Qed.
