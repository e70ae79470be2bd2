(** A section with a nil partial cannot be collected. *)
From Coq Require Import Ascii String Lia.
From stdpp Require Import base tactics relations strings list.
From Verif Require Import GoBase Ast Content Section ContentProofs TreeSpec TreeProofs TagProofs QueryProofs
  Evaluate EvalProofs EvalFrame EvalInv BaseInv Collect CollectSpec CollectProofs BaseFacts LoadProofs.

(** Every action of a sequence that succeeds succeeds, from some later state. *)
Lemma cseq_each l : Forall cshape l → ∀ s s' m, cseq l s = Ok s' → m ∈ l → ∃ t t', m t = Ok t' ∧ shape (fst s) (fst t).
Proof.
  induction 1 as [|a l Ha Hl IH]; intros s s' m; [by intros _ ?%elem_of_nil|]. simpl.
  destruct (a s) as [s1|e| |] eqn:E; simpl; [|done..]. intros H [->|Hm]%elem_of_cons.
  - exists s, s1. split; [done|apply shape_refl].
  - destruct (IH _ _ _ H Hm) as (t & t' & Ht & S). exists t, t'. split; [done|]. eapply shape_trans; [by apply Ha|done].
Qed.
Lemma map_range_each ord l : (∀ k n, ord k n ≡ₚ seq 0 n) → Forall cshape l → ∀ s s' m, map_range ord l s = Ok s' → m ∈ l →
  ∃ t t', m t = Ok t'.
Proof.
  intros O F s s' m H Hm. unfold map_range in H. eapply (cseq_each _) in H as (t & t' & Ht & _); [by eauto| |].
  - rewrite Forall_forall in *. intros a Ha. apply elem_of_list_omap in Ha as (i & _ & Hi). apply F. by eapply elem_of_list_lookup_2.
  - apply elem_of_list_lookup in Hm as [i Hi]. apply elem_of_list_omap. exists i. split; [|done].
    rewrite O. apply elem_of_seq. apply lookup_lt_Some in Hi. split; [lia|exact Hi].
Qed.

Lemma collect_each ord n cur con s s' x : (∀ k n, ord k n ≡ₚ seq 0 n) → fst s !! con = Some x → collect ord n cur con s = Ok s' →
  (∀ name, (name, None) ∉ s_partials x) ∧
  ∀ c, c ∈ s_children x → ∃ m t t', collect ord m c c t = Ok t' ∧ shape (fst s) (fst t).
Proof.
  intros O Hx. destruct n as [|n]; [done|]. cbn [collect]. unfold visit_section. rewrite Hx. intros H.
  set (P := map (λ p : string * option content, match snd p with None => cpanic | Some v => visit ord (collect ord n) cur v end) (s_partials x)) in H.
  assert (Forall cshape P) as HP.
  { apply cshape_map. rewrite Forall_forall. intros [k [v|]] _; simpl; [apply visit_shape, collect_shape|apply cshape_panic]. }
  assert (Forall cshape ([visit ord (collect ord n) cur (s_title x); visit ord (collect ord n) cur (s_body x); map_range ord P]
    ++ map (λ c, collect ord n c c) (s_children x))) as F.
  { apply Forall_app. split.
    - apply Forall_cons_2; [apply visit_shape, collect_shape|]. apply Forall_cons_2; [apply visit_shape, collect_shape|].
      apply Forall_cons_2; [|constructor]. by apply cshape_range.
    - apply cshape_map. rewrite Forall_forall. intros c _. apply collect_shape. }
  split.
  - intros name Hn. destruct (cseq_each _ F _ _ (map_range ord P) H) as (t & t' & Ht & _).
    { apply elem_of_app. left. right. right. left. }
    eapply (map_range_each _ _ O HP _ _ cpanic) in Ht as (u & u' & Hu); [done|].
    apply elem_of_list_fmap. by exists (name, None).
  - intros c Hc. destruct (cseq_each _ F _ _ (collect ord n c c) H) as (t & t' & Ht & S).
    { apply elem_of_app. right. apply elem_of_list_fmap. by exists c. }
    eauto.
Qed.

Lemma collect_nil ord i j : (∀ k n, ord k n ≡ₚ seq 0 n) → ∀ h, descendant h i j → ∀ n s s', shape h (fst s) → collect ord n i i s = Ok s' →
  ∀ x name, h !! j = Some x → (name, None) ∉ s_partials x.
Proof.
  intros O h. induction 1 as [i|i c j Hc _ IH]; intros n s s' S E x name Hx.
  - destruct (proj2 S _ _ Hx) as (ts & Hts). destruct (collect_each _ _ _ _ _ _ _ O Hts E) as [N _]. apply (N name).
  - destruct Hc as (y & Hy & Hc). destruct (proj2 S _ _ Hy) as (ts & Hts).
    destruct (collect_each _ _ _ _ _ _ _ O Hts E) as [_ N]. destruct (N c) as (m & t & t' & Ht & S').
    { exact Hc. }
    eapply IH; [|exact Ht|exact Hx]. by eapply shape_trans.
Qed.
