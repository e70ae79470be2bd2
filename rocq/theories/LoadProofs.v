(** Complete loads: evaluation followed by collection, and histories of loads. *)
From Coq Require Import Ascii String.
From stdpp Require Import base tactics relations strings list.
From Verif Require Import GoBase Ast Content Section ContentProofs TreeSpec TreeProofs TagProofs QueryProofs
  Evaluate EvalProofs EvalFrame EvalInv BaseInv Collect CollectSpec CollectProofs BaseFacts.

(** ** Whatever the contents, collection only adds tags *)

Definition cshape (m : CM) : Prop := ∀ s s', m s = Ok s' → shape (fst s) (fst s').

Lemma cshape_skip : cshape cskip.
Proof. intros s s' [= <-]. apply shape_refl. Qed.
Lemma cshape_panic : cshape cpanic.
Proof. done. Qed.

Lemma cshape_seq l : Forall cshape l → cshape (cseq l).
Proof.
  induction 1 as [|m l Hm _ IH]; intros s s'; simpl; [by intros [= <-]; apply shape_refl|].
  destruct (m s) as [s1|e| |] eqn:Hs; simpl; [|done..]. intros H. eapply shape_trans; [by apply Hm|by apply IH].
Qed.

Lemma cshape_range ord l : Forall cshape l → cshape (map_range ord l).
Proof.
  intros Hl s s' H. unfold map_range in H. apply (cshape_seq) in H; [done|].
  rewrite Forall_forall in *. intros m Hm. apply elem_of_list_omap in Hm as (i & _ & Hi).
  apply Hl. by eapply elem_of_list_lookup_2.
Qed.

Lemma cshape_map {A} (f : A → CM) l : Forall (λ x, cshape (f x)) l → Forall cshape (map f l).
Proof. intros H. by apply Forall_fmap. Qed.

Lemma visit_shape ord jump cur c : (∀ a b, cshape (jump a b)) → cshape (visit ord jump cur c).
Proof.
  intros Hj.
  induction c as [s|l IH|l IH|l IH|sec t rc o l IH|c t IH|s|s|st b c ps IH IHps|t l ti x IH1 IH2|p d|l o IH|rows IH|defs IH|b t|c IH]
      using content_ind'; simpl; try apply cshape_skip; try done.
  - by apply cshape_seq, cshape_map.
  - by apply cshape_seq, cshape_map.
  - by apply cshape_seq, cshape_map.
  - apply (cshape_seq [_; _]). apply Forall_cons_2; [done|]. apply Forall_cons_2; [|constructor].
    apply cshape_range, cshape_map.
    eapply Forall_impl; [exact IHps|]. intros [k [v|]] Hv; [exact Hv|apply cshape_skip].
  - intros s s'. simpl. destruct (fst s !! cur) as [y|] eqn:Hy; [|done]. intros [= <-]. simpl.
    split; [apply upd_length|]. intros j z Hz. rewrite upd_lookup. destruct (decide (cur = j)) as [->|].
    + rewrite Hz. simpl. exists [Tgt t l ti x]. done.
    + exists []. by rewrite add_tags_nil.
  - by apply cshape_seq, cshape_map.
  - apply cshape_seq, cshape_map. eapply Forall_impl; [exact IH|]. intros r Hr. by apply cshape_seq, cshape_map.
  - apply cshape_seq, cshape_map. eapply Forall_impl; [exact IH|]. intros [a b] [Ha Hb].
    apply (cshape_seq [_; _]). apply Forall_cons_2; [done|]. apply Forall_cons_2; [done|constructor].
Qed.

Lemma collect_shape ord n : ∀ cur con, cshape (collect ord n cur con).
Proof.
  induction n as [|n IH]; intros cur con; simpl; [done|]. unfold visit_section. intros s s'.
  destruct (fst s !! con) as [x|]; [|done].
  intros H. apply cshape_seq in H; [done|].
  apply Forall_app. split.
  - apply Forall_cons_2; [by apply visit_shape|]. apply Forall_cons_2; [by apply visit_shape|].
    apply Forall_cons_2; [|constructor]. apply cshape_range, cshape_map.
    rewrite Forall_forall. intros [k [v|]] _; simpl; [by apply visit_shape|apply cshape_panic].
  - apply cshape_map. rewrite Forall_forall. auto.
Qed.

(** ** Histories of loads *)

(** States reached by any number of loads, each with its own file system,
    plugins, map orders and depth. *)
Inductive history : st → Prop :=
| history_start : history (St [] [])
| history_load E ord n parent path fs s : history s →
    match parent with Some p => p < length (st_heap s) | None => True end →
    history (fst (load_in E ord n parent path fs s)).

Lemma load_is_in E ord n path fs : load E ord n path fs = load_in E ord n None path fs.
Proof. reflexivity. Qed.

Lemma run_stages_shape ord i s : shape (st_heap s) (st_heap (fst (run_stages ord i s))).
Proof.
  unfold run_stages. destruct (collect _ _ _ _ _) as [[h k]|e| |] eqn:Hc; simpl; try apply shape_refl.
  by apply (collect_shape _ _ _ _ _ _ Hc).
Qed.

Lemma load_wf E ord n path fs s : wf (st_heap s) → tags_owned (st_heap s) →
  wf (st_heap (fst (load E ord n path fs s))) ∧ tags_owned (st_heap (fst (load E ord n path fs s))).
Proof.
  intros Hw Ho. destruct (load_file_facts E n path fs s Hw) as (W & _ & O & _). unfold load, mbind.
  destruct (load_file E n path fs s) as [s1 [i|e| |]]; simpl in *; try by auto.
  pose proof (run_stages_shape ord i s1) as HS. split; [by eapply shape_wf|]. eapply shape_owned; [done|auto].
Qed.

Lemma load_in_wf E ord n p path fs s : wf (st_heap s) → tags_owned (st_heap s) → p < length (st_heap s) →
  wf (st_heap (fst (load_in E ord n (Some p) path fs s))) ∧
  tags_owned (st_heap (fst (load_in E ord n (Some p) path fs s))).
Proof.
  intros Hw Ho Hp. destruct (frame_eval_rel E) as [Hrefl Htrans Hinv Hbody Huse Hcache Hchild Hloc Hatt Hla Hm].
  pose proof (evaluate_file_child E frame (eval E n) Hrefl Htrans Hbody Huse Hcache
    (λ self acc nd s, eval_frame E n self acc nd s) (Some p) path fs s) as Hf. cbv zeta in *.
  assert (frame p s (fst (evaluate_file E (eval E n) (Some p) path fs s))) as HF.
  { destruct Hf as [[-> _]|[HF _]]; [apply Hrefl|by eapply Hchild]. }
  destruct (HF Hw Hp) as [W _ _ _ _ O]. unfold load_in, mbind.
  destruct (evaluate_file E (eval E n) (Some p) path fs s) as [s1 [i|e| |]]; simpl in *; try by auto.
  pose proof (run_stages_shape ord i s1) as HS. split; [by eapply shape_wf|]. eapply shape_owned; [done|auto].
Qed.

Lemma history_wf s : history s → wf (st_heap s) ∧ tags_owned (st_heap s).
Proof.
  induction 1 as [|E ord n [p|] path fs s _ [Hw Ho] Hp].
  - split; [apply empty_wf|]. intros j x t Hj. done.
  - by apply load_in_wf.
  - by apply load_wf.
Qed.

(** A load never changes sections of earlier loads, except that it may add
    tags to sections used again as content. *)
Lemma load_keeps E ord n path fs s : wf (st_heap s) →
  ∀ j x, st_heap s !! j = Some x →
  ∃ x', st_heap (fst (load E ord n path fs s)) !! j = Some x' ∧ ∃ ts, x' = add_tags j ts x.
Proof.
  intros Hw j x Hx. destruct (load_file_facts E n path fs s Hw) as (_ & K & _). unfold load, mbind.
  destruct (load_file E n path fs s) as [s1 [i|e| |]]; simpl in *;
    try (exists x; split; [by auto|]; exists []; by rewrite add_tags_nil).
  destruct (proj2 (run_stages_shape ord i s1) j x) as (ts & Hts); [by auto|]. eauto.
Qed.

(** ** Loads with the base plugin *)

Lemma load_base E ord n path fs s s1 i : base_only E → (∀ k n, ord k n ≡ₚ seq 0 n) →
  wf (st_heap s) → (∀ path mt e, e_fs E path = Some (mt, inr e) → wrapped_once e) →
  load_file E n path fs s = (s1, Ok i) →
  base_state (length (st_heap s)) (st_heap s1) ∧
  ∃ h', load E ord n path fs s = (St h' (st_cache s1), Ok i) ∧ i = length (st_heap s) ∧
    collected (descendant (st_heap s1) i) (st_heap s1) h'.
Proof.
  intros Hb Hord Hw Hpe Hl.
  destruct (load_file_facts E n path fs s Hw) as (W & _ & _ & _ & Ht). rewrite Hl in *. simpl in *.
  destruct (Ht i eq_refl) as [-> (x & Hx & _)].
  pose proof (base_eval_inv E _ _ _ Hb (base_facts E (length (st_heap s)) Hpe)) as HE.
  assert (base_state (length (st_heap s)) (st_heap s1)) as HB.
  { unfold load_file in Hl.
    assert (base_state (length (st_heap s)) (st_heap s)) as H0.
    { intros j y Hj Hy. apply lookup_lt_Some in Hy. lia. }
    destruct (tr_evaluate_file E _ _ _ HE (eval E n) (tr_eval E _ _ _ HE n) (length (st_heap s)) None path fs I (λ _, I)
      (λ mt e He, Hpe path mt e He) s H0 (le_n _)) as (HI & _).
    by rewrite Hl in HI. }
  split; [done|].
  destruct (collect_tree ord (fuel_of (st_heap s1)) (st_heap s1) 0 (length (st_heap s)) Hord W) as (h' & k' & Hc & HC).
  { by apply lookup_lt_Some in Hx. }
  { unfold fuel_of. lia. }
  { intros j y Hj Hy. by apply (HB j y). }
  exists h'. split; [|done]. unfold load, mbind. rewrite Hl. unfold run_stages. by rewrite Hc.
Qed.
