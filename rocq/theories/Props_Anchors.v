(** C21: the fragments of URLs exist. *)
From Coq Require Import Ascii String Lia.
From stdpp Require Import base tactics relations strings list.
From Verif Require Import GoBase StrProofs Ast Content Section TreeSpec TreeProofs QueryProofs NavProofs RenderSpec WriterProofs
  Evaluate Collect CollectSpec CollectProofs BaseInv BaseFacts LoadProofs Render Demo DemoDoc
  Html HtmlSpec HtmlProofs HtmlRender HtmlLoad HtmlAnchors Props_Load Props_Html.
Local Open Scope string_scope.
Local Open Scope list_scope.

(** ** C21 *)

(** The sections shown on the page of [o] have the default style. *)
Definition default_page (h : heap) (o : nat) : Prop :=
  ∀ j x, rtc (inlined h) o j → h !! j = Some x → s_style x = "" ∨ s_style x = "section".

(** [t] is a tag of section [i]: of the section itself, or of a target that its
    title or body shows. *)
Definition tag_shown (s : section) (t : tag) : Prop :=
  t_anchor t = "" ∨ shown (s_title s) (t_anchor t) ∨ shown (s_body s) (t_anchor t).

Theorem fragments_exist : ∀ h r i s t ext, wf h → is_top h r → descendant h r i → h !! i = Some s →
  t_section t = Some i → tag_shown s t →
  ∃ o, is_page h o ∧ descendant h r o ∧
    (tag_url h ext t = Some (file_of h ext o) ∨
     ∃ a, tag_url h ext t = Some (file_of h ext o +:+ "#" +:+ a) ∧
       ∀ similar broken force str n out, clean_heap h → (∀ t x, force t = Some x → clean x = true) → default_page h o →
         html_page similar broken h force str n o = Ok out →
         ∃ ts, tokens out = Some ts ∧ anchor a ∈ ts).
Proof.
  intros h r i s t ext W T D Hs Hts Hsh.
  destruct (owner_partition _ _ _ W T D) as (o & Ho & Do & R & _).
  assert (valid h i) as V by by eapply lookup_lt_Some.
  exists o. split; [done|]. split; [done|]. destruct Ho as (os & Hos & Hpg).
  destruct (section_url_spec h ext i (t_anchor t) o os W V) as (s' & Hs' & E).
  { by exists os. } { by apply inlines_inline_parent. } { done. }
  assert (s' = s) as -> by congruence.
  assert (tag_url h ext t = section_url h ext i (t_anchor t)) as -> by (unfold tag_url; by rewrite Hts).
  rewrite E. cbv zeta. unfold file_of. rewrite Hos. unfold page_file.
  match goal with |- context [if String.eqb ?a "" then "" else _] => set (a0 := a); destruct (String.eqb_spec a0 "") as [Ea|Ea] end;
    [left; by rewrite sapp_nil_r|]. right. exists a0. split; [done|].
  intros similar broken force str n out Hc Hf Hst Hp. apply has_tokens. eapply page_has; try done.
  { intros j x R1 _ Hj. by eapply Hst. }
  unfold a0 in *. destruct (String.eqb_spec (t_anchor t) "") as [E0|E0].
  - destruct (Nat.eqb o i); [done|]. by left.
  - destruct Hsh as [?|Hsh]; [done|by right].
Qed.
Print Assumptions fragments_exist.

(** Targets of base contents are shown, except those in partials. *)
Lemma occ_shown c ts : occ c ts → base_made c = true → ∀ g, g ∈ ts → shown c (g_name g).
Proof.
  assert (∀ l ls, Forall (λ c, ∀ ts, occ c ts → base_made c = true → ∀ g, g ∈ ts → shown c (g_name g)) l →
    Forall2 occ l ls → forallb base_made l = true → ∀ g, g ∈ concat ls → ∃ c, c ∈ l ∧ shown c (g_name g)) as L.
  { clear. intros l ls IH F C g Hg. induction F as [|c ts l ls Hc F IHF]; [by apply elem_of_nil in Hg|].
    simpl in C, Hg. apply andb_true_iff in C as [C1 C2]. inversion IH; subst. apply elem_of_app in Hg as [Hg|Hg].
    - exists c. split; [by left|]. eauto.
    - destruct IHF as (c' & ? & ?); [done..|]. exists c'. split; [by right|done]. }
  revert ts.
  induction c as [s|l IH|l IH|l IH|sec t rc o l IH|c t IH|s|s|st b c ps IH IHps|t l ti x IHt IHx|p d|l o IH|rows IH|defs IH|b t|c IH]
      using ContentProofs.content_ind'; intros ts O C g Hg; inversion O; subst; try (by apply elem_of_nil in Hg);
    cbn [base_made] in C.
  - destruct (L _ _ IH ltac:(eassumption) C g Hg) as (c & ? & ?). by econstructor.
  - destruct (L _ _ IH ltac:(eassumption) C g Hg) as (c & ? & ?). by econstructor.
  - destruct (L _ _ IH ltac:(eassumption) C g Hg) as (c & ? & ?). by econstructor.
  - constructor. by eapply IH.
  - apply andb_true_iff in C as [[C1%bool_decide_eq_true C2]%andb_true_iff C3]. destruct ps; [|done].
    match goal with H : Forall2 occ (omap snd []) ?l |- _ => inversion H; subst end.
    match goal with H : ?l ≡ₚ [] |- _ => apply Permutation_nil_r in H; subst end.
    rewrite app_nil_r in Hg. constructor; [..|by eapply IH]; intros ->; unfold base_styles in C1;
      rewrite !elem_of_cons, elem_of_nil in C1; naive_solver.
  - apply elem_of_list_singleton in Hg as ->. constructor.
  - destruct (L _ _ IH ltac:(eassumption) C g Hg) as (c & ? & ?). by econstructor.
  - match goal with H : Forall2 (Forall2 occ) _ _ |- _ => rename H into F end.
    assert (∃ r c, r ∈ rows ∧ c ∈ r ∧ shown c (g_name g)) as (r & c & ? & ? & ?); [|by econstructor].
    clear O. induction F as [|r ts rows tss Hr F IHF]; [by apply elem_of_nil in Hg|].
    simpl in C, Hg. apply andb_true_iff in C as [C1 C2]. inversion IH; subst. apply elem_of_app in Hg as [Hg|Hg].
    + edestruct L as (c & ? & ?); [eassumption|eassumption|done|done|]. exists r, c. split; [by left|done].
    + destruct IHF as (r' & c & ? & ?); [done..|]. exists r', c. split; [by right|done].
  - match goal with H : Forall2 _ defs _ |- _ => rename H into F end.
    assert (∃ s d, (s, d) ∈ defs ∧ (shown s (g_name g) ∨ shown d (g_name g))) as (s & d & ? & [?|?]);
      [|by eapply shown_def_l|by eapply shown_def_r].
    clear O. induction F as [|[s d] [ts us] defs tss [Hs Hd] F IHF]; [by apply elem_of_nil in Hg|].
    simpl in C, Hg, Hs, Hd. apply andb_true_iff in C as [[C1 C1']%andb_true_iff C2].
    inversion IH as [|? ? [IH1 IH2] IH3]; subst. simpl in IH1, IH2. rewrite !elem_of_app in Hg. destruct Hg as [[Hg|Hg]|Hg].
    + exists s, d. split; [by left|]. left. by eapply IH1.
    + exists s, d. split; [by left|]. right. by eapply IH2.
    + destruct IHF as (s' & d' & ? & ?); [done..|]. exists s', d'. split; [by right|done].
  - constructor. by eapply IH.
Qed.

Lemma base_history_history s : base_history s → history s.
Proof. induction 1; by constructor. Qed.

(** The targets in the partials of a section. *)
Definition in_partial (x : section) (g : tgt) : Prop :=
  ∃ k c ts, (k, Some c) ∈ s_partials x ∧ occ c ts ∧ g ∈ ts.

(** After loading a book with the base plugin, every tag of it is that of a section
    or of a target, the URL of which names a page with that anchor, or of a target
    in a partial. *)
Theorem base_fragments_exist : ∀ E ord n path fs s s' r, base_only E → (∀ k n, ord k n ≡ₚ seq 0 n) → base_history s →
  (∀ path mt e, e_fs E path = Some (mt, inr e) → wrapped_once e) →
  load E ord n path fs s = (s', Ok r) →
  (∀ j x, st_heap s' !! j = Some x → s_style x = "" ∨ s_style x = "section") →
  ∀ i x t ext, descendant (st_heap s') r i → st_heap s' !! i = Some x → t ∈ s_tags x →
  (∃ g, in_partial x g ∧ t = tag_of i g) ∨
  ∃ o, is_page (st_heap s') o ∧ descendant (st_heap s') r o ∧
    (tag_url (st_heap s') ext t = Some (file_of (st_heap s') ext o) ∨
     ∃ a, tag_url (st_heap s') ext t = Some (file_of (st_heap s') ext o +:+ "#" +:+ a) ∧
       ∀ similar broken force str n out, (∀ t x, force t = Some x → clean x = true) →
         html_page similar broken (st_heap s') force str n o = Ok out →
         ∃ ts, tokens out = Some ts ∧ anchor a ∈ ts).
Proof.
  intros E ord n path fs s s' r Hb Hord Hs Hpe Hl Hst i x t ext D Hx Ht.
  pose proof (base_history_history _ Hs) as Hh.
  assert (base_history s') as Hs'.
  { replace s' with (fst (load_in E ord n None path fs s)); [by constructor|]. rewrite <- load_is_in. by rewrite Hl. }
  destruct (history_wf _ (base_history_history _ Hs')) as [W _].
  destruct (loaded_section_is_top _ _ _ _ _ _ _ _ Hh Hl) as [_ T].
  assert (∃ s1, load_file E n path fs s = (s1, Ok r)) as (s1 & Hl1).
  { unfold load, mbind in Hl. destruct (load_file E n path fs s) as [s1 [j|e| |]]; try done. exists s1.
    unfold run_stages in Hl. destruct (collect _ _ _ _ _) as [[h k]|e| |]; congruence. }
  destruct (collection_finds_every_target _ _ _ _ _ _ _ _ Hb Hord Hh Hpe Hl1) as (s2 & Hl2 & Hc).
  assert (s2 = s') as -> by congruence.
  destruct (Hc i x D Hx) as (names & ts & (tt & tb & ls & ls' & O1 & O2 & O3 & P & ->) & Etags & _).
  destruct (base_history_made _ Hs' _ _ Hx) as (M1 & M2 & M3 & _).
  assert ((t_section t = Some i ∧ tag_shown x t) ∨ ∃ g, in_partial x g ∧ t = tag_of i g) as [[H1 H2]|?]; [|right|by left].
  { rewrite Etags in Ht. apply elem_of_app in Ht as [Ht|Ht].
    - apply elem_of_list_fmap in Ht as (nm & -> & _). left. split; [done|]. by left.
    - apply elem_of_list_fmap in Ht as (g & -> & Hg). rewrite !elem_of_app in Hg. destruct Hg as [Hg|[Hg|Hg]].
      + left. split; [done|]. right. left. simpl. by eapply occ_shown.
      + left. split; [done|]. right. right. simpl. by eapply occ_shown.
      + right. exists g. split; [|done]. rewrite P in Hg.
        clear -O3 Hg. revert O3. unfold in_partial. induction (s_partials x) as [|[k [c|]] ps IH] in ls, Hg |- *; simpl; intros F.
        * inversion F; subst. by apply elem_of_nil in Hg.
        * inversion F as [|? ? ? ? Hc F']; subst. simpl in Hg. apply elem_of_app in Hg as [Hg|Hg].
          -- exists k, c, y. split; [by left|done].
          -- destruct (IH _ Hg F') as (k' & c' & ts & ? & ?). exists k', c', ts. split; [by right|done].
        * destruct (IH _ Hg F) as (k' & c' & ts & ? & ?). exists k', c', ts. split; [by right|done]. }
  destruct (fragments_exist _ _ _ _ _ ext W T D Hx H1 H2) as (o & Ho & Do & HU). exists o. split; [done|]. split; [done|].
  destruct HU as [HU|(a & HU & HA)]; [by left|right]. exists a. split; [done|].
  intros similar broken force str k out Hf. apply HA; [|done|by intros j y _; apply Hst].
  apply base_history_clean; [done|]. intros j y Hy. by destruct (Hst j y Hy) as [-> | ->].
Qed.
Print Assumptions base_fragments_exist.

(** index.lit of DemoDoc: the target in the body of the first page. *)
Example demo_fragment : base_history (fst demo_load) ∧ snd demo_load = Ok 0 ∧
  Forall (λ x, s_style x = "") (st_heap (fst demo_load)) ∧
  map (λ x, map (tag_url (st_heap (fst demo_load)) "html") (s_tags x)) (st_heap (fst demo_load)) =
    [[Some "book.html"; Some "book.html#faq"]; [Some "intro.html"]; [Some "ref.html"; Some "ref.html#item"]] ∧
  ∃ out ts, html_page (λ _ _, false) false (st_heap (fst demo_load)) (λ _, None)
      (cstring (λ _ _, false) false (st_heap (fst demo_load)) 5) 10 2 = Ok out ∧
    tokens out = Some ts ∧ anchor "item" ∈ ts.
Proof.
  split; [unfold demo_load; rewrite load_is_in; apply base_load; [constructor|exact demo_env_base|exact I]|].
  split; [vm_compute; reflexivity|]. split; [vm_compute; by repeat constructor|]. split; [vm_compute; reflexivity|].
  eexists _, _. split; [vm_compute; reflexivity|]. split; [vm_compute; reflexivity|]. vm_compute. among.
Qed.

Ltac not_among H := vm_compute in H; repeat (apply elem_of_cons in H as [H|H]; [discriminate H|]); by apply elem_of_nil in H.

(** Targets in partials get URLs, though the bundled templates show no partials. *)
Theorem partial_fragment_refuted : ∃ nd out ts, snd (loaded_file nd) = Ok 0 ∧
  map (λ x, map (tag_url (st_heap (fst (loaded_file nd))) "html") (s_tags x)) (st_heap (fst (loaded_file nd))) =
    [[Some "top.html"; Some "top.html#here"]] ∧
  page_of nd = Ok out ∧ tokens out = Some ts ∧ anchor "here" ∉ ts.
Proof.
  exists (NSeq [para [call 1 "title" [txt "Top"]]; para [call 2 "set-partial" [txt "Aside"; call 2 "target" [txt "here"]]]]).
  eexists _, _. split; [vm_compute; reflexivity|]. split; [vm_compute; reflexivity|].
  split; [vm_compute; reflexivity|]. split; [vm_compute; reflexivity|]. intros H. not_among H.
Qed.
Print Assumptions partial_fragment_refuted.

(** A section whose style is that of another bundled template has no anchor. *)
Theorem styled_fragment_refuted : ∃ nd out ts, snd (loaded_file nd) = Ok 0 ∧
  map (λ x, map (tag_url (st_heap (fst (loaded_file nd))) "html") (s_tags x)) (st_heap (fst (loaded_file nd))) =
    [[Some "top.html"]; [Some "top.html#sub"]] ∧
  page_of nd = Ok out ∧ tokens out = Some ts ∧ anchor "sub" ∉ ts.
Proof.
  exists (NSeq [para [call 1 "title" [txt "Top"]];
                para [call 2 "section" [NSeq [para [call 2 "title" [txt "Sub"]]; para [call 3 "styled" [txt "toc"]]]]]]).
  eexists _, _. split; [vm_compute; reflexivity|]. split; [vm_compute; reflexivity|].
  split; [vm_compute; reflexivity|]. split; [vm_compute; reflexivity|]. intros H. not_among H.
Qed.
Print Assumptions styled_fragment_refuted.
