(** The text of documents without invocations. *)
From Coq Require Import Ascii String.
From stdpp Require Import base tactics relations strings list.
From Verif Require Import GoBase Ast Content ContentSpec ContentProofs Section StrProofs Evaluate EvalSpec EvalTheory.

(** A document without invocations: paragraphs of lines of text nodes. *)
Definition text_doc (ps : list (list (list string))) : node :=
  NSeq (map (λ lines, NPara (map (map NString) lines)) ps).

(** Its text. *)
Definition line_text (l : list string) : string := sconcat l.
Definition para_text (lines : list (list string)) : string :=
  (String.concat " " (map line_text lines) +:+ nls +:+ nls)%string.
Definition doc_text (ps : list (list (list string))) : string := sconcat (map para_text ps).

Lemma cstring_step sim b h n : ∃ J, ∀ c, cstring sim b h n c = cstring_F sim b h J c.
Proof. destruct n; simpl; eexists; reflexivity. Qed.

Section text.
  Context (E : env) (h : heap).

  Lemma str_string t : str E h (CString t) = Ok t.
  Proof. unfold str. destruct (cstring_step (e_similar E) (e_broken E) h (e_jumps E)) as [J ->]. done. Qed.

  Lemma omapM_texts (f : content → outcome error string) cs ts : Forall2 (λ c t, f c = Ok t) cs ts → omapM f cs = Ok ts.
  Proof. induction 1 as [|c t cs ts Hc _ IH]; simpl; [done|]. by rewrite Hc, IH. Qed.

  Lemma str_seq cs ts : Forall2 (λ c t, str E h c = Ok t) cs ts → str E h (CSeq cs) = Ok (sconcat ts).
  Proof.
    unfold str. destruct (cstring_step (e_similar E) (e_broken E) h (e_jumps E)) as [J HJ]. intros HF.
    rewrite HJ. cbn [cstring_F]. rewrite (omapM_texts _ _ ts); [done|].
    eapply Forall2_impl; [exact HF|]. simpl. intros c t. by rewrite HJ.
  Qed.
  Lemma str_para cs ts : Forall2 (λ c t, str E h c = Ok t) cs ts → str E h (CPara cs) = Ok (para_string ts).
  Proof.
    unfold str. destruct (cstring_step (e_similar E) (e_broken E) h (e_jumps E)) as [J HJ]. intros HF.
    rewrite HJ. cbn [cstring_F]. rewrite (omapM_texts _ _ ts); [done|].
    eapply Forall2_impl; [exact HF|]. simpl. intros c t. by rewrite HJ.
  Qed.

  (** Joining contents that are not sequences concatenates their texts. *)
  Lemma joined_text cs ts : cs ≠ [] → Forall (λ c, ∀ l, c ≠ CSeq l) cs → Forall2 (λ c t, str E h c = Ok t) cs ts →
    ∃ c, joined cs = Some c ∧ str E h c = Ok (sconcat ts).
  Proof.
    intros Hn Hs HF. destruct HF as [|c t cs ts Hc HF]; [done|]. destruct HF as [|c' t' cs ts Hc' HF]; simpl.
    - exists c. split; [done|]. rewrite Hc. f_equal. by rewrite sapp_nil_r.
    - eexists. split; [done|]. apply (str_seq _ (t :: t' :: ts)).
      inversion Hs as [|? ? Hcs _]; subst. assert (match c with CSeq l => l | _ => [c] end = [c]) as ->.
      { destruct c; try done. by destruct (Hcs l). }
      by repeat constructor.
  Qed.
End text.

Lemma para_join_concat acc l : acc ≠ ""%string → Forall (λ t, t ≠ ""%string) l →
  para_join acc l = String.concat " " (acc :: l).
Proof.
  revert acc. induction l as [|t l IH]; intros acc Ha Hl; simpl; [done|]. inversion Hl; subst.
  destruct (String.eqb_spec acc ""); [done|]. rewrite IH; [|by destruct acc|done].
  destruct l; simpl.
  - by rewrite !sapp_assoc.
  - by rewrite !sapp_assoc.
Qed.

Lemma para_string_text l : l ≠ [] → Forall (λ t, t ≠ ""%string) l →
  para_string l = (String.concat " " l +:+ nls +:+ nls)%string.
Proof.
  intros Hn Hl. unfold para_string. destruct Hl as [|t l Ht Hl]; [done|]. simpl para_join.
  change ((if ("" =? "")%string then "" else "" +:+ " ") +:+ t)%string with t.
  rewrite para_join_concat by done. destruct (String.eqb_spec (String.concat " " (t :: l)) ""); [|done].
  exfalso. destruct l; simpl in *; [done|]. by destruct t.
Qed.

(** Evaluation of such a document. *)
Lemma visit_strings E n self s (l : list string) acc :
  visit_seq (eval E (S n)) self acc (map NString l) s = (s, Ok (fold_append acc (map CString l))).
Proof.
  revert acc. induction l as [|t l IH]; intros acc; [done|]. unfold visit_seq in *. simpl.
  unfold mbind at 1. simpl. rewrite IH. done.
Qed.

Definition line_content (l : list string) : option content := joined (map CString l).

Lemma visit_text_lines E n self s lines :
  mmap (visit_seq (eval E (S n)) self None) (map (map NString) lines) s = (s, Ok (map line_content lines)).
Proof.
  induction lines as [|l lines IH]; [done|]. simpl. erewrite mbind_eq; [|apply visit_strings].
  erewrite mbind_eq; [|apply IH]. unfold mret. by rewrite fold_append_joined.
Qed.

Definition para_contents (lines : list (list string)) : list content := block (omap line_content lines).

Lemma omap_map_id {A B} (f : A → option B) l : omap id (map f l) = omap f l.
Proof. induction l as [|x l IH]; [done|]. simpl. unfold id at 1. destruct (f x); [f_equal|]; exact IH. Qed.

Lemma visit_text_para E n self s acc lines :
  eval E (S (S n)) self acc (NPara (map (map NString) lines)) s = (s, Ok (fold_append acc (para_contents lines))).
Proof.
  cbn [eval]. unfold eval_F. erewrite mbind_eq.
  2: { unfold visit_lines. erewrite mbind_eq; [|apply visit_text_lines]. done. }
  rewrite omap_map_id. unfold para_contents, block.
  destruct (omap line_content lines) as [|c [|d rest]]; [done| |done]. by destruct (is_flow c).
Qed.

Lemma visit_text_doc E n self s acc ps :
  eval E (S (S (S n))) self acc (text_doc ps) s = (s, Ok (fold_append acc (concat (map para_contents ps)))).
Proof.
  cbn [eval]. unfold eval_F, text_doc, visit_seq. revert acc. induction ps as [|lines ps IH]; intros acc; [done|].
  cbn [map mfold]. erewrite mbind_eq; [|apply visit_text_para]. rewrite IH. simpl. by rewrite fold_append_app.
Qed.

Lemma text_line E h l : l ≠ [] → ∃ c, line_content l = Some c ∧ str E h c = Ok (line_text l).
Proof.
  intros Hl. unfold line_content. apply joined_text; [by destruct l| |].
  - apply Forall_fmap, Forall_forall. done.
  - apply Forall2_fmap_l. unfold line_text. clear Hl. induction l; constructor; [apply str_string|done].
Qed.

Lemma text_flow l c : line_content l = Some c → is_flow c = true.
Proof.
  unfold line_content. destruct l as [|a [|b l]]; simpl; [done|..]; intros [= <-]; [done|].
  change (forallb is_flow (CString a :: CString b :: map CString l) = true). simpl. induction l; done.
Qed.

Lemma text_para E h lines : lines ≠ [] → Forall (λ l, l ≠ [] ∧ line_text l ≠ ""%string) lines →
  ∃ c, para_contents lines = [c] ∧ str E h c = Ok (para_text lines) ∧ ∀ l, c ≠ CSeq l.
Proof.
  intros Hn Hl.
  assert (∃ cs, omap line_content lines = cs ∧ Forall2 (λ c t, str E h c = Ok t) cs (map line_text lines) ∧
    Forall (λ c, is_flow c = true) cs ∧ length cs = length lines) as (cs & Hcs & HF & Hfl & Hlen).
  { clear Hn. induction Hl as [|l lines [Hl Ht] _ (cs & Hcs & HF & Hfl & Hlen)]; [by exists []; repeat constructor|].
    destruct (text_line E h l Hl) as (c & Hc & Hs). exists (c :: cs). simpl. rewrite Hc. split; [f_equal; exact Hcs|].
    split; [by constructor|]. split; [constructor; [by eapply text_flow|done]|]. simpl. by rewrite Hlen. }
  assert (block cs = [CPara cs]) as Hb.
  { destruct cs as [|c [|d cs]]; simpl; [by destruct lines| |done]. inversion Hfl as [|? ? Hc _]; subst. by rewrite Hc. }
  exists (CPara cs). unfold para_contents. rewrite Hcs, Hb. split; [done|]. split; [|done].
  rewrite (str_para _ _ _ _ HF). f_equal. apply para_string_text; [by destruct lines|].
  apply Forall_fmap. eapply Forall_impl; [exact Hl|]. by intros l [].
Qed.

Lemma text_document E h ps : ps ≠ [] →
  Forall (λ lines, lines ≠ [] ∧ Forall (λ l, l ≠ [] ∧ line_text l ≠ ""%string) lines) ps →
  ∃ c, joined (concat (map para_contents ps)) = Some c ∧ str E h c = Ok (doc_text ps).
Proof.
  intros Hn Hps.
  assert (∃ cs, concat (map para_contents ps) = cs ∧ Forall2 (λ c t, str E h c = Ok t) cs (map para_text ps) ∧
    Forall (λ c, ∀ l, c ≠ CSeq l) cs ∧ length cs = length ps) as (cs & Hcs & HF & Hs & Hlen).
  { clear Hn. induction Hps as [|l lines [Hl Ht] _ (cs & Hcs & HF & Hfl & Hlen)]; [by exists []; repeat constructor|].
    destruct (text_para E h l Hl Ht) as (c & Hc & Hs & Hns). exists (c :: cs). simpl. rewrite Hc, Hcs. split; [done|].
    split; [by constructor|]. split; [by constructor|]. simpl. by rewrite Hlen. }
  rewrite Hcs. apply joined_text; [|done|done]. by destruct cs, ps.
Qed.
