(** Theorems about loaded section trees: C11, C50. *)
From Coq Require Import Ascii String.
From stdpp Require Import base tactics relations strings list.
From Verif Require Import GoBase Ast Content Section TreeSpec TreeProofs TagProofs QueryProofs
  Evaluate EvalFrame EvalInv BaseInv Collect CollectSpec CollectProofs BaseFacts LoadProofs DemoDoc.

(** ** C11 *)

(** Every child's Parent is the section listing it. *)
Theorem loaded_children_point_back : ∀ s, history s →
  ∀ p x c, st_heap s !! p = Some x → c ∈ s_children x →
  ∃ y, st_heap s !! c = Some y ∧ s_parent y = Some p.
Proof. intros s H. apply wf_child, history_wf, H. Qed.
Print Assumptions loaded_children_point_back.

(** No section is listed twice, by the same or by different sections. *)
Theorem loaded_children_listed_once : ∀ s, history s →
  ∀ p x q y, st_heap s !! p = Some x → st_heap s !! q = Some y →
  NoDup (s_children x) ∧ ∀ c, c ∈ s_children x → c ∈ s_children y → p = q.
Proof.
  intros s H p x q y Hx Hy. destruct (history_wf s H) as [W _]. split; [by eapply wf_nodup|].
  intros c Hcx Hcy. destruct (wf_child _ W _ _ _ Hx Hcx) as (z & Hz & Hp).
  destruct (wf_child _ W _ _ _ Hy Hcy) as (z' & Hz' & Hq). congruence.
Qed.
Print Assumptions loaded_children_listed_once.

(** Following Parent ends at a section without parent; there is no cycle. *)
Theorem loaded_parents_end : ∀ s, history s → ∀ i, i < length (st_heap s) →
  (∃ r, ancestor (st_heap s) r i ∧ is_top (st_heap s) r) ∧ ¬ tc (parent_of (st_heap s)) i i.
Proof.
  intros s H i Hi. destruct (history_wf s H) as [W _]. split.
  - induction (lt_wf i) as [i _ IH].
    destruct (lookup_lt_is_Some_2 _ _ Hi) as [x Hx]. destruct (s_parent x) as [p|] eqn:Hp.
    + pose proof (wf_parent _ W _ _ _ Hx Hp). destruct (IH p) as (r & Ha & Ht); [done|lia|].
      exists r. split; [|done]. eapply rtc_r; [exact Ha|]. by exists x.
    + exists i. split; [apply rtc_refl|]. by exists x.
  - intros Hc. assert (∀ a b, tc (parent_of (st_heap s)) a b → a < b) as Hlt.
    { clear -W. induction 1 as [a b (x & Hx & Hp)|a b c (x & Hx & Hp) _ IH]; pose proof (wf_parent _ W _ _ _ Hx Hp); lia. }
    apply Hlt in Hc. lia.
Qed.
Print Assumptions loaded_parents_end.

(** The section returned by a load is new and the top of its tree. *)
Theorem loaded_section_is_top : ∀ E ord n path fs s s' i, history s →
  load E ord n path fs s = (s', Ok i) → i = length (st_heap s) ∧ is_top (st_heap s') i.
Proof.
  intros E ord n path fs s s' i H Hl. destruct (history_wf s H) as [W _].
  destruct (load_file_facts E n path fs s W) as (_ & _ & _ & _ & Ht). unfold load, mbind in Hl.
  destruct (load_file E n path fs s) as [s1 [j|e| |]]; try done.
  pose proof (run_stages_shape ord j s1) as HS. rewrite Hl in HS. simpl in *.
  assert (i = j) as ->.
  { unfold run_stages in Hl. destruct (collect _ _ _ _ _) as [[h k]|e| |]; congruence. }
  destruct (Ht j eq_refl) as [-> (x & Hx & Hp)]. split; [done|].
  destruct (proj2 HS _ _ Hx) as (ts & Hts). by exists (add_tags (length (st_heap s)) ts x).
Qed.
Print Assumptions loaded_section_is_top.

(** Loading leaves the sections of earlier loads alone, up to added tags. *)
Theorem load_keeps_earlier_sections : ∀ E ord n path fs s, history s →
  ∀ j x, st_heap s !! j = Some x →
  ∃ x', st_heap (fst (load E ord n path fs s)) !! j = Some x' ∧ ∃ ts, x' = set_tags x (s_tags x ++ ts).
Proof.
  intros E ord n path fs s H j x Hx. destruct (history_wf s H) as [W _].
  destruct (load_keeps E ord n path fs s W j x Hx) as (x' & Hx' & ts & ->). eauto.
Qed.
Print Assumptions load_keeps_earlier_sections.

Example demo_history : history (fst demo_load) ∧ map s_children (st_heap (fst demo_load)) = [[1; 2]; []; []].
Proof. split; [unfold demo_load; rewrite load_is_in; apply history_load; [constructor|exact I]|vm_compute; reflexivity]. Qed.

(** ** C50 *)

(** After loading a book with the base plugin, the tags of every section of the
    tree are those of its title followed by one anchored tag per target in its
    title, body and partials, in order. *)
Theorem collection_finds_every_target : ∀ E ord n path fs s s1 i,
  base_only E → (∀ k n, ord k n ≡ₚ seq 0 n) → history s →
  (∀ path mt e, e_fs E path = Some (mt, inr e) → wrapped_once e) →
  load_file E n path fs s = (s1, Ok i) →
  ∃ s', load E ord n path fs s = (s', Ok i) ∧
    ∀ j x, descendant (st_heap s') i j → st_heap s' !! j = Some x →
    ∃ names ts, section_occ x ts ∧
      s_tags x = map (title_tag j x) names ++ map (tag_of j) ts ∧
      s_primary x = hd tag0 (map (title_tag j x) names).
Proof.
  intros E ord n path fs s s1 i Hb Hord H Hpe Hl. destruct (history_wf s H) as [W _].
  destruct (load_base E ord n path fs s s1 i Hb Hord W Hpe Hl) as (HB & h' & Hld & -> & HC).
  exists (St h' (st_cache s1)). split; [done|]. simpl. intros j x' Hd Hx'.
  apply (shape_desc _ _ _ _ (collected_shape _ _ _ HC)) in Hd.
  assert (length (st_heap s) ≤ j) as Hj.
  { destruct (load_file_facts E n path fs s W) as (W1 & _). rewrite Hl in W1. simpl in W1.
    clear -Hd W1. induction Hd as [|a b c Hab _ IH]; [done|]. pose proof (wf_child_lt _ _ _ W1 Hab). lia. }
  destruct (shape_inv _ _ _ _ (collected_shape _ _ _ HC) Hx') as (x & _ & Hx & _).
  destruct (proj2 HC _ _ Hx) as (ts & Hts & Hocc & _). rewrite Hx' in Hts. injection Hts as ->.
  destruct (HB j x Hj Hx) as [_ (names & Hnm & Hpr)].
  exists names, ts. split; [by apply Hocc|]. split; [simpl; by rewrite Hnm|]. simpl. by rewrite Hpr, Hnm.
Qed.
Print Assumptions collection_finds_every_target.

(** With any plugins: provided the sections evaluated contain no sections as
    content and no nil partials, collection succeeds and adds to every section of
    the tree exactly one tag per target, after the tags it had. *)
Theorem collection_adds_targets : ∀ ord h i, (∀ k n, ord k n ≡ₚ seq 0 n) →
  wf h → valid h i → (∀ j x, i ≤ j → h !! j = Some x → plain x) →
  ∃ h' k, collect ord (fuel_of h) i i (h, 0) = Ok (h', k) ∧ length h' = length h ∧
    ∀ j x, h !! j = Some x → ∃ ts, h' !! j = Some (set_tags x (s_tags x ++ map (tag_of j) ts)) ∧
      (descendant h i j → section_occ x ts) ∧ (¬ descendant h i j → ts = []).
Proof.
  intros ord h i Hord W V Hpl. destruct (collect_tree ord (fuel_of h) h 0 i Hord W V) as (h' & k & Hc & HC);
    [unfold fuel_of; lia|done|]. exists h', k. split; [done|]. exact HC.
Qed.
Print Assumptions collection_adds_targets.

Example demo_collected : base_only demo_env ∧ snd (load_file demo_env 10 "/b/index.lit" [FBase] (St [] [])) = Ok 0 ∧
  map (λ x, map t_name (s_tags x)) (st_heap (fst demo_load)) = [["book"; "faq"]; ["intro"]; ["ref"; "item"]]%string.
Proof. split; [exact demo_env_base|]. split; vm_compute; reflexivity. Qed.

(** Finding: a target inside the display text of a reference, or inside another
    target's title, gets no tag. *)
Definition hidden_doc : node := NSeq
  [ para [call 1 "title" [txt "Top"; txt "top"]];
    para [call 2 "reference" [txt "top"; call 2 "target" [txt "in-ref"]];
          call 3 "target" [txt "outer"; call 3 "target" [txt "in-title"]]] ].
Definition hidden_env : env := Env (λ p, if String.eqb p "/b/i.lit" then Some (1, inl hidden_doc) else None) (λ _, None)
  (λ f name, match f with FBase => base_method name | FExt _ => None end) (λ _ _, false) false 10.
Theorem collection_of_nested_targets_refuted : ∃ E n s', base_only E ∧
  load E in_order n "/b/i.lit" [FBase] (St [] []) = (s', Ok 0) ∧
  map s_body (st_heap s') =
    [CPara [CSeq [CRef 0 "top" (Some (CTarget "in-ref" (Loc 2 1 20) (Some (CString "in-ref")) None)) false (Loc 2 1 20);
       CTarget "outer" (Loc 3 1 30) (Some (CTarget "in-title" (Loc 3 1 30) (Some (CString "in-title")) None)) None]]] ∧
  map (λ x, map t_name (s_tags x)) (st_heap s') = [["top"; "outer"]]%string.
Proof.
  eexists hidden_env, 10, _. split; [split; [done|]; by intros [|k] Hf|].
  split; [|split]; vm_compute; reflexivity.
Qed.
Print Assumptions collection_of_nested_targets_refuted.

(** Finding: a partial that a plugin sets to nil makes collection panic (partials
    of styles are checked for nil, those of sections are not). *)
Theorem collection_of_nil_partial_refuted : ∃ h, wf h ∧ valid h 0 ∧
  ∀ ord, (∀ k n, ord k n ≡ₚ seq 0 n) → collect ord (fuel_of h) 0 0 (h, 0) = Panic.
Proof.
  exists [set_partial "Foo" None (new_section None "/b/i.lit")]. split; [|split].
  - constructor; intros [|i] s; try done.
    + by intros p [= <-].
    + intros c [= <-] Hc. by apply elem_of_nil in Hc.
    + intros [= <-]. constructor.
  - unfold valid. simpl. lia.
  - intros ord Hord. cbn [collect fuel_of length]. unfold visit_section. cbn.
    unfold map_range. cbn. pose proof (Hord 0 1) as H1. apply Permutation_sym, Permutation_singleton_l in H1.
    rewrite <- H1. reflexivity.
Qed.
Print Assumptions collection_of_nil_partial_refuted.
