(** C56: String() of loaded contents ends. *)
From Coq Require Import Ascii String Lia.
From stdpp Require Import base tactics relations strings list.
From Verif Require Import GoBase Ast Content Section ContentProofs TreeSpec TreeProofs TagProofs QueryProofs
  Evaluate EvalProofs EvalFrame EvalInv BaseInv Collect BaseFacts LoadProofs DemoDoc HtmlLoad HtmlProofs Sound StringEnds.
Local Open Scope string_scope.
Local Open Scope list_scope.

(** The contents of the sections of a heap. *)
Definition content_of (h : heap) (c : content) : Prop :=
  ∃ i x, h !! i = Some x ∧ (c = s_title x ∨ c = s_body x ∨ (∃ k, (k, Some c) ∈ s_partials x) ∨
    ∃ t, t ∈ s_tags x ∧ t_title t = Some c).

Lemma content_of_sound s c : base_history s → content_of (st_heap s) c → sound (length (st_heap s)) c = true.
Proof.
  intros H (i & x & Hx & Hc). destruct (base_history_sturdy s H i x Hx) as (H1 & H2 & H3 & H4 & _).
  destruct Hc as [-> |[-> |[[k Hk]|(t & Ht & Hc)]]]; [done|done| |].
  - rewrite Forall_forall in H3. destruct (H3 _ Hk) as (c' & [= <-] & ?). done.
  - rewrite Forall_forall in H4. destruct (H4 _ Ht) as (_ & c' & E & ?). congruence.
Qed.

(** The claim as it stands: every content of a loaded book has a text. It is false:
    the title of a section may refer to the section. *)
Definition loop_fs (p : string) : option (nat * (node + error)) :=
  if String.eqb p "/b/loop.lit"
  then Some (1, inl (NSeq [para [call 1 "title" [call 1 "reference" [txt "foo"]; txt "foo"]]]))
  else None.
Definition loop_env : env := Env loop_fs (λ _, None)
  (λ f name, match f with FBase => base_method name | FExt _ => None end) (λ _ _, false) false 10.
Definition loop_title : content := CRef 0 "foo" None false (Loc 1 1 10).

Theorem string_ends_refuted : ∃ E s c, base_only E ∧ load E in_order 10 "/b/loop.lit" [FBase] (St [] []) = (s, Ok 0) ∧
  content_of (st_heap s) c ∧ ∀ similar broken n, cstring similar broken (st_heap s) n c = NoFuel.
Proof.
  exists loop_env, (fst (load loop_env in_order 10 "/b/loop.lit" [FBase] (St [] []))), loop_title. split_and!.
  - split; [done|]. by intros [|n] Hf.
  - vm_compute. reflexivity.
  - eexists 0, _. split; [vm_compute; reflexivity|]. left. reflexivity.
  - intros similar broken n.
    assert (∀ opt l, ref_tag similar broken (st_heap (fst (load loop_env in_order 10 "/b/loop.lit" [FBase] (St [] [])))) 0 "foo" opt l =
      Ok (Some (Tag "foo" (Some loop_title) (Some 0) "" None (Loc 1 1 10)))) as Hr by (intros; vm_compute; reflexivity).
    induction n as [|n IH]; cbn [cstring]; unfold loop_title at 1; cbn [cstring_F]; rewrite Hr; [reflexivity|]. cbn [t_title]. exact IH.
Qed.
Print Assumptions string_ends_refuted.

(** When it holds, exactly: String() has a result if no endless chain of titles is
    shown, each by a reference within the one before. *)
Theorem string_ends : ∀ similar broken s c, base_history s → content_of (st_heap s) c →
  ((∃ n r, cstring similar broken (st_heap s) n c = Ok r) ↔ grounded (st_heap s) c) ∧
  ∀ n, (∃ r, cstring similar broken (st_heap s) n c = Ok r) ∨ cstring similar broken (st_heap s) n c = NoFuel.
Proof.
  intros similar broken s c H Hc. pose proof (content_of_sound s c H Hc) as Hs. pose proof (base_history_sturdy s H) as HS.
  destruct (history_wf s (base_history_history s H)) as [W _]. split; [split|].
  - intros (n & r & Hn). by eapply ends_grounded.
  - intros G. by eapply grounded_ends.
  - intros n. by apply str_cases.
Qed.
Print Assumptions string_ends.

(** The result does not depend on how deep the recursion may go. *)
Theorem string_unique : ∀ similar broken h c n n' r r',
  cstring similar broken h n c = Ok r → cstring similar broken h n' c = Ok r' → r = r'.
Proof. intros. by eapply str_unique. Qed.
Print Assumptions string_unique.

(** Titles that show no other titles. *)
Definition direct_title (c : content) : Prop :=
  ∀ sec name opt l, ¬ part c (CRef sec name None opt l).

(** The usual case: if no title contains a reference without a text of its own, all
    contents of the book have texts. *)
Theorem string_ends_direct : ∀ similar broken s, base_history s →
  (∀ i x t c, st_heap s !! i = Some x → t ∈ s_tags x → t_title t = Some c → direct_title c) →
  ∀ c, content_of (st_heap s) c → ∃ n r, cstring similar broken (st_heap s) n c = Ok r.
Proof.
  intros similar broken s H Ht c Hc. apply (string_ends similar broken s c H Hc). constructor.
  intros c' (sec & name & opt & l & t & _ & A & Ec'). constructor. intros c'' (sec' & name' & opt' & l' & t' & Hp & _).
  assert (t ∈ [t]) as Hin by by left. rewrite (all_tags_elem _ _ _ _ _ A) in Hin. destruct Hin as (i & x & _ & Hx & Hin & _).
  by destruct (Ht _ _ _ _ Hx Hin Ec' _ _ _ _ Hp).
Qed.
Print Assumptions string_ends_direct.

(** The demonstration book meets this; one of its titles is shown by a reference. *)
Example demo_history : base_history (fst demo_load).
Proof. unfold demo_load; rewrite load_is_in; apply base_load; [constructor|exact demo_env_base|exact I]. Qed.
Example demo_direct : ∀ i x t c, st_heap (fst demo_load) !! i = Some x → t ∈ s_tags x → t_title t = Some c →
  direct_title c.
Proof.
  intros i x t c Hx Ht Hc sec name opt l Hp.
  assert (Forall (λ x, Forall (λ t, ∃ s, t_title t = Some (CString s)) (s_tags x)) (st_heap (fst demo_load))) as HF.
  { vm_compute. repeat constructor; by eexists. }
  rewrite Forall_forall in HF. specialize (HF x (elem_of_list_lookup_2 _ _ _ Hx)). rewrite Forall_forall in HF.
  destruct (HF t Ht) as [s Es]. rewrite Es in Hc. injection Hc as <-. inversion Hp.
Qed.
(** The heap of the loaded book. *)
Definition demo_heap : heap := Eval vm_compute in st_heap (fst demo_load).
Lemma demo_heap_eq : st_heap (fst demo_load) = demo_heap.
Proof. vm_compute. reflexivity. Qed.

Example demo_shows : ∃ c, content_of (st_heap (fst demo_load)) c ∧ shows (st_heap (fst demo_load)) c (CString "Reference").
Proof.
  destruct (history_wf _ (base_history_history _ demo_history)) as [W _].
  rewrite demo_heap_eq in *. eexists. split.
  { eexists 1, _. split; [reflexivity|]. right. left. reflexivity. }
  exists 1, "ref", false, (Loc 8 1 80), (Tag "ref" (Some (CString "Reference")) (Some 2) "" None (Loc 1 1 10)). split_and!.
  - cbn. eapply part_para; [left|]. eapply part_seq; [right; left|]. constructor.
  - destruct (filter_tags_all demo_heap (λ n, String.eqb n "ref") 1 W) as (ts & E & A); [vm_compute; lia|].
    vm_compute in E. injection E as <-. exact A.
  - done.
Qed.
