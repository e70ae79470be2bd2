(** The first tag of a section is one of its tags, whatever plugins do. *)
From Coq Require Import Ascii String Lia.
From stdpp Require Import base tactics relations strings list.
From Verif Require Import GoBase Ast Content Section TreeSpec TreeProofs TagProofs QueryProofs
  Evaluate EvalProofs EvalFrame EvalInv BaseInv EvalOnce Collect CollectProofs LoadProofs.

Definition primary_known (x : section) : Prop := s_primary x = tag0 ∨ s_primary x ∈ s_tags x.
Definition tagged (h : heap) : Prop := ∀ j x, h !! j = Some x → primary_known x.
Definition keeps_tagged (s s' : st) : Prop := tagged (st_heap s) → tagged (st_heap s').

Lemma tagged_upd h i f : (∀ x, primary_known x → primary_known (f x)) → tagged h → tagged (upd h i f).
Proof.
  intros Hf Ha j x. rewrite upd_lookup. destruct (decide (i = j)); [|apply Ha].
  destruct (h !! j) as [y|] eqn:Hy; simpl; [|done]. intros [= <-]. apply Hf. by eapply Ha.
Qed.
Lemma tagged_alloc h parent path : tagged h → tagged (h ++ [new_section parent path]).
Proof.
  intros Ha j x [Hj|[Hj Hx]]%lookup_app_Some; [by eapply Ha|]. apply list_lookup_singleton_Some in Hx as [_ <-]. by left.
Qed.

Lemma known_fields s t l ts : primary_known (set_title_fields s t l (hd tag0 ts) ts).
Proof. destruct ts as [|t0 ts]; [by left|right]. simpl. by left. Qed.

Lemma tagged_op E self o : resp keeps_tagged (run_op E self o).
Proof.
  intros s Ha. destruct o; simpl; try done; try (by apply tagged_upd; [|done]).
  - unfold mbind, mlift. simpl. destruct (title_tags _ _ _ _ _ _) as [ts|e| |]; simpl; try done.
    apply tagged_upd; [|done]. intros x _. apply known_fields.
  - apply tagged_upd; [|done]. intros x [H|H]; [by left|right]. simpl. apply elem_of_app. by left.
  - apply tagged_upd; [|done]. intros x [H|H]; [by left|right]. simpl. apply elem_of_app. by left.
Qed.

Lemma tagged_rel E : eval_rel E (λ _, keeps_tagged).
Proof.
  assert (∀ self path s s2, keeps_tagged (alloc_st (Some self) path s) s2 → keeps_tagged s s2) as Hc.
  { intros self path s s2 H Ha. apply H. by apply tagged_alloc. }
  constructor; try (intros; intros Ha; simpl in *; repeat (apply tagged_upd; [done|]); solve [done | by eapply Hc]).
  - intros _ a b c H1 H2 Ha. auto.
  - intros rec Hrec f name m self argv Hm.
    apply (resp_prog E (λ _, keeps_tagged) rec); try done.
    + intros i0 s Ha. done.
    + intros i0 a b c H1 H2 Ha. auto.
    + intros i0 c s Ha. by apply tagged_upd.
    + intros i0 c s Ha. by apply tagged_upd.
    + intros i0 s c Ha. done.
    + intros i path s s2 l H Ha. simpl. apply tagged_upd; [done|]. by apply (Hc _ _ _ _ H).
    + intros i path s s2 H Ha. simpl. apply tagged_upd; [done|]. by apply (Hc _ _ _ _ H).
    + intros i path s s2 l H Ha. simpl. do 2 (apply tagged_upd; [done|]). by apply (Hc _ _ _ _ H).
    + generalize (m_body m self argv). intros p. induction p; simpl; try done; eauto using tagged_op. 
Qed.

Lemma shape_tagged h h' : shape h h' → tagged h → tagged h'.
Proof.
  intros [Hl H] Ha j x' Hx'. destruct (lookup_lt_is_Some_2 h j) as [x Hx]; [rewrite <- Hl; by eapply lookup_lt_Some|].
  destruct (H _ _ Hx) as (ts & E). rewrite E in Hx'. injection Hx' as <-. destruct (Ha _ _ Hx) as [E0|E0]; [by left|right].
  simpl. apply elem_of_app. by left.
Qed.

Lemma history_tagged s : history s → tagged (st_heap s).
Proof.
  induction 1 as [|E ord n p path fs s _ IH Hp]; [by intros j x Hj|].
  destruct (tagged_rel E) as [Hrefl Htrans Hinv Hbody Huse Hcache Hchild Hloc Hatt Hla Hm].
  pose proof (evaluate_file_child E (λ _, keeps_tagged) (eval E n) Hrefl Htrans Hbody Huse Hcache
    (λ self acc nd s, eval_resp E _ (tagged_rel E) n self acc nd s) p path fs s) as Hf. cbv zeta in *.
  assert (keeps_tagged s (fst (evaluate_file E (eval E n) p path fs s))) as HF.
  { destruct Hf as [[-> _]|[HF _]]; [by intros ?|]. intros Ha. apply HF. by apply tagged_alloc. }
  specialize (HF IH). unfold load_in, mbind.
  destruct (evaluate_file E (eval E n) p path fs s) as [s1 [i|e| |]]; simpl in *; try by auto.
  eapply shape_tagged; [apply run_stages_shape|done].
Qed.
