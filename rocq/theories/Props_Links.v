(** C60: the links of pages. *)
From Coq Require Import Ascii String Lia.
From stdpp Require Import base tactics relations strings list.
From Verif Require Import GoBase StrProofs Ast Content Section TreeSpec TreeProofs QueryProofs NavProofs RenderSpec WriterProofs
  Evaluate Collect CollectSpec CollectProofs BaseInv BaseFacts LoadProofs Render Demo DemoDoc
  Html HtmlSpec HtmlProofs HtmlRender HtmlLoad HtmlAnchors Props_Load Props_Html Props_Anchors Props_Refs Listed
  HtmlLinks UrlSpec UrlProofs.
Local Open Scope string_scope.
Local Open Scope list_scope.

(** The value of the attribute href of some element. *)
Definition has_href (ts : list token) (v : string) : Prop :=
  ∃ name attrs, (TOpen name attrs ∈ ts ∨ TVoid name attrs ∈ ts) ∧ ("href", v) ∈ attrs.

(** ** C60 *)

(** Every link of a page was written by the author, or is the URL of a tag. *)
Theorem page_links : ∀ similar broken h force str n i out, clean_heap h → (∀ k c, force k = Some c → clean c = true) →
  html_page similar broken h force str n i = Ok out →
  ∃ ts, tokens out = Some ts ∧ ∀ v, has_href ts v →
    ∃ u, v = url_normalize (if is_safe_url u then u else "#ZgotmplZ") ∧ leads broken h force u.
Proof.
  intros similar broken h force str n i out Hh Hf E.
  destruct (html_page_al similar broken h force str Hh Hf n i out E) as (ts & Hts & F).
  exists ts. split; [unfold tokens; by rewrite Hts|]. intros v (name & attrs & Hin & Hv). rewrite Forall_forall in F.
  assert (Forall (href_ok (leads broken h force)) attrs) as HA by (destruct Hin as [Hin|Hin]; by apply F in Hin).
  rewrite Forall_forall in HA. destruct (HA _ Hv eq_refl) as (u & Hu & Ev). exists u. done.
Qed.
Print Assumptions page_links.

(** With the base plugin, every section that a load creates is part of the tree it
    returns. *)
Theorem loaded_sections_in_tree : ∀ E ord n path fs s s' r, base_only E → history s →
  load E ord n path fs s = (s', Ok r) →
  ∀ j, length (st_heap s) ≤ j → j < length (st_heap s') → descendant (st_heap s') r j.
Proof. intros E ord n path fs s s' r Hb H. apply load_all_descend; [done|]. by apply history_wf. Qed.
Print Assumptions loaded_sections_in_tree.

(** All tags of a book can be used as file names and in URLs as they are. *)
Definition plain_names (h : heap) : Prop :=
  ∀ i x t, h !! i = Some x → t ∈ s_tags x → plain_name (t_name t) ∧ plain_name (t_anchor t).

(** [v] leads to a page of the book, and to a place in it if it names one. *)
Definition arrives (h : heap) (r : nat) (v : string) : Prop :=
  ∃ o place, is_page h o ∧ descendant h r o ∧ opens v = Some (file_of h "html" o, place) ∧
    ∀ a, place = Some a → ∀ similar broken force str n out, (∀ k c, force k = Some c → clean c = true) →
      html_page similar broken h force str n o = Ok out → ∃ ts, tokens out = Some ts ∧ TOpen "a" [("id", a)] ∈ ts.

(** [v] is a link to a target in a partial; the bundled templates do not show partials. *)
Definition to_partial (h : heap) (v : string) : Prop :=
  ∃ i x g u, h !! i = Some x ∧ in_partial x g ∧ tag_url h "html" (tag_of i g) = Some u ∧ v = url_normalize (url_filter u).

(** In a book loaded with the base plugin, in which no section has another style
    and tags are plain names, a link is one that the author wrote as a link, or it
    leads to a page of the book. *)
Theorem site_links : ∀ E ord n path fs s' r, base_only E → (∀ k n, ord k n ≡ₚ seq 0 n) →
  (∀ path mt e, e_fs E path = Some (mt, inr e) → wrapped_once e) →
  load E ord n path fs (St [] []) = (s', Ok r) →
  (∀ j x, st_heap s' !! j = Some x → s_style x = "" ∨ s_style x = "section") →
  plain_names (st_heap s') →
  ∀ similar force str m i out, (∀ k c, force k = Some c → clean c = true) →
    html_page similar false (st_heap s') force str m i = Ok out →
    ∃ ts, tokens out = Some ts ∧ ∀ v, has_href ts v →
      (∃ c u, on_pages (st_heap s') force c ∧ u ∈ link_targets c ∧ v = url_normalize (url_filter u)) ∨
      to_partial (st_heap s') v ∨
      arrives (st_heap s') r v.
Proof.
  intros E ord n path fs s' r Hb Hord Hpe Hl Hst Hpl similar force str m i out Hf Hp.
  assert (base_history s') as Hs'.
  { replace s' with (fst (load_in E ord n None path fs (St [] []))); [constructor; [constructor|done|done]|]. rewrite <- load_is_in. by rewrite Hl. }
  pose proof (base_history_history _ Hs') as HH. destruct (history_wf _ HH) as [W O].
  assert (clean_heap (st_heap s')) as Hc.
  { apply base_history_clean; [done|]. intros j y Hy. by destruct (Hst j y Hy) as [-> | ->]. }
  destruct (page_links _ _ _ _ _ _ _ _ Hc Hf Hp) as (ts & Hts & HL). exists ts. split; [done|].
  intros v Hv. destruct (HL v Hv) as (u & Ev & Lu). change (v = url_normalize (url_filter u)) in Ev.
  assert (history (St [] [])) as H0 by constructor.
  destruct (loaded_section_is_top _ _ _ _ _ _ _ _ H0 Hl) as [_ T].
  assert (∀ j x, st_heap s' !! j = Some x → descendant (st_heap s') r j) as Hd.
  { intros j x Hj%lookup_lt_Some. eapply (loaded_sections_in_tree _ _ _ _ _ (St [] [])); [done|done|done|simpl; lia|done]. }
  assert (∃ s1, load_file E n path fs (St [] []) = (s1, Ok r)) as (s1 & Hl1).
  { unfold load, mbind in Hl. destruct (load_file E n path fs (St [] [])) as [s1 [j|e| |]]; try done. exists s1.
    unfold run_stages in Hl. destruct (collect _ _ _ _ _) as [[h k]|e| |]; congruence. }
  destruct (collection_finds_every_target _ _ _ _ _ _ _ _ Hb Hord H0 Hpe Hl1) as (s2 & Hl2 & Hct).
  assert (s2 = s') as -> by congruence.
  assert (∀ j x, st_heap s' !! j = Some x → s_primary x = tag0 ∨ s_primary x ∈ s_tags x) as Hprim.
  { intros j x Hx. destruct (Hct j x (Hd _ _ Hx) Hx) as (names & tt & _ & Htags & ->).
    destruct names as [|nm names]; [by left|right]. rewrite Htags. by left. }
  assert (∀ j x, st_heap s' !! j = Some x → plain_name (t_name (s_primary x))) as Hpn.
  { intros j x Hx. destruct (Hprim _ _ Hx) as [-> |Hin]; [done|]. by destruct (Hpl _ _ _ Hx Hin). }
  destruct Lu as [c Hon Hu|j x t Hx Ht Hu|? ? ? Hbr _]; [left; eauto| |done]. right.
  assert (t ∈ s_tags x) as Htx.
  { destruct Ht as [Ht|Ht]; [done|]. subst t. destruct (Hprim _ _ Hx) as [E0|?]; [|done]. by rewrite E0 in Hu. }
  clear Ht.
  destruct (base_fragments_exist E ord n path fs (St [] []) s' r Hb Hord ltac:(constructor) Hpe Hl Hst j x t "html" (Hd _ _ Hx) Hx Htx)
    as [(g & Hg & ->)|(o & Ho & Do & HU)].
  { left. exists j, x, g, u. done. }
  right. pose proof (O _ _ _ Hx Htx) as Hts'.
  assert (∀ o, plain_name (file_of (st_heap s') "html" o)) as Hfile.
  { intros o'. unfold file_of. destruct (st_heap s' !! o') as [y|] eqn:Hy; [|done]. apply plain_app. split; [by eapply Hpn|done]. }
  destruct (tag_address _ _ "html" t j W T (Hd _ _ Hx) Hts') as (u' & Hu' & (o' & y & _ & _ & Hy & Hshape)).
  assert (u' = u) as -> by congruence. assert (y = x) as -> by congruence.
  assert (∃ place, opens v = Some (file_of (st_heap s') "html" o', place) ∧
    (place = None ∧ u = file_of (st_heap s') "html" o' ∨
     ∃ a, place = Some a ∧ plain_name a ∧ u = file_of (st_heap s') "html" o' +:+ "#" +:+ a)) as (place & Hop & Hcase).
  { subst v. destruct (Hpl _ _ _ Hx Htx) as [_ Hanch].
    destruct Hshape as [(_ & ->)|[(_ & _ & ->)|[(_ & _ & _ & ->)|(_ & _ & _ & ->)]]].
    - rewrite opens_fragment by done. eauto 10.
    - rewrite opens_file by done. eauto 10.
    - rewrite opens_fragment by (eauto). eauto 10.
    - rewrite opens_file by done. eauto 10. }
  exists o, place. split; [done|]. split; [done|].
  destruct HU as [HU|(a & HU & HA)].
  - assert (opens v = Some (file_of (st_heap s') "html" o, None)) as Hop2.
    { subst v. rewrite Hu in HU. injection HU as ->. by apply opens_file. }
    rewrite Hop in Hop2. injection Hop2 as Ef ->. rewrite Hop, Ef. done.
  - rewrite Hu in HU. injection HU as HU.
    destruct Hcase as [[-> Hcase]|(b & -> & Hb' & Hcase)].
    + exfalso. pose proof (Hfile o') as Q. rewrite <- Hcase, HU in Q. by apply plain_app in Q as [_ [Q _]%plain_cons].
    + assert (file_of (st_heap s') "html" o = file_of (st_heap s') "html" o' ∧ a = b) as [Ef ->].
      { rewrite HU in Hcase. revert Hcase. generalize (Hfile o) (Hfile o').
        generalize (file_of (st_heap s') "html" o) (file_of (st_heap s') "html" o'). clear.
        intros f. induction f as [|c f IH]; intros g Pf Pg E; destruct g as [|d g].
        - cbn in E. by injection E as ->.
        - cbn in E. injection E as <- _. by apply plain_cons in Pg as [? _].
        - cbn in E. injection E as -> _. by apply plain_cons in Pf as [? _].
        - cbn [append] in E. injection E as -> E. apply plain_cons in Pf as [_ Pf]. apply plain_cons in Pg as [_ Pg].
          destruct (IH g Pf Pg E) as [-> ->]. done. }
      rewrite Hop, Ef. split; [done|]. intros a' [= <-] similar' broken' force' str' k' out' Hf' Hp'.
      destruct (HA similar' broken' force' str' k' out' Hf' Hp') as (ts' & Hts2 & Hin). exists ts'. split; [done|].
      unfold anchor in Hin. rewrite unnul_id in Hin; [done|].
      unfold plain_name in Hb'. eapply sforall_impl; [|exact Hb']. intros c Hc'. cbn [existsb] in Hc'.
      destruct (Ascii.eqb c "000"); [|done]. by rewrite !orb_true_r in Hc'.
Qed.
Print Assumptions site_links.

(** The book of DemoDoc: its pages link to each other, and a link from the second
    page reaches the third. *)
Example demo_links : base_only demo_env ∧ snd demo_load = Ok 0 ∧
  Forall (λ x, s_style x = "") (st_heap (fst demo_load)) ∧ plain_names (st_heap (fst demo_load)) ∧
  ∃ out ts, html_page (λ _ _, false) false (st_heap (fst demo_load)) (λ _, None)
      (cstring (λ _ _, false) false (st_heap (fst demo_load)) 5) 10 1 = Ok out ∧
    tokens out = Some ts ∧ has_href ts "ref.html" ∧
    opens "ref.html" = Some (file_of (st_heap (fst demo_load)) "html" 2, None).
Proof.
  split; [exact demo_env_base|]. split; [vm_compute; reflexivity|]. split; [vm_compute; by repeat constructor|].
  split.
  { assert (Forall (λ x, Forall (λ t, plain_name (t_name t) ∧ plain_name (t_anchor t)) (s_tags x)) (st_heap (fst demo_load))) as F.
    { vm_compute. by repeat constructor. }
    intros i x t Hx Ht. rewrite Forall_forall in F. specialize (F x (elem_of_list_lookup_2 _ _ _ Hx)).
    rewrite Forall_forall in F. by apply F. }
  eexists _, _. split; [vm_compute; reflexivity|]. split; [vm_compute; reflexivity|]. split; [|vm_compute; reflexivity].
  exists "a", [("href", "ref.html")]. split; [left; vm_compute; among|by left].
Qed.

(** The URLs of tags reach their files and places though they are percent-encoded. *)
Example opens_encoded : url_normalize (url_filter "a b (ü).html#""x""") = "a%20b%20%28%c3%bc%29.html#%22x%22" ∧
  opens "a%20b%20%28%c3%bc%29.html#%22x%22" = Some ("a b (ü).html", Some """x""").
Proof. vm_compute. done. Qed.

(** Without plain names it is false. A tag with a colon gets links that lead nowhere:
    what is before the colon is taken for a scheme. *)
Theorem colon_link_refuted : ∃ nd out ts, snd (loaded_file nd) = Ok 0 ∧
  map (λ x, map (tag_url (st_heap (fst (loaded_file nd))) "html") (s_tags x)) (st_heap (fst (loaded_file nd))) =
    [[Some "top.html"; Some "top.html#fn:1"]] ∧
  page_of nd = Ok out ∧ tokens out = Some ts ∧ anchor "fn:1" ∈ ts ∧
  has_href ts "#ZgotmplZ" ∧ opens "#ZgotmplZ" = Some ("", Some "ZgotmplZ") ∧ anchor "ZgotmplZ" ∉ ts.
Proof.
  exists (NSeq [para [call 1 "title" [txt "Top"]]; para [call 2 "target" [txt "fn:1"]; call 3 "reference" [txt "fn:1"]]]).
  eexists _, _. split; [vm_compute; reflexivity|]. split; [vm_compute; reflexivity|].
  split; [vm_compute; reflexivity|]. split; [vm_compute; reflexivity|]. split; [vm_compute; among|].
  split; [exists "a", [("href", "#ZgotmplZ")]; split; [left; vm_compute; among|by left]|].
  split; [vm_compute; reflexivity|]. intros H. not_among H.
Qed.
Print Assumptions colon_link_refuted.

(** A number sign, a question mark or an encoded character in a tag makes links to
    its page lead to another file. *)
Theorem reserved_link_refuted : ∃ nd out ts, snd (loaded_file nd) = Ok 0 ∧
  map (file_of (st_heap (fst (loaded_file nd))) "html") [1; 2; 3] = ["c#.html"; "what?.html"; "%41.html"] ∧
  Forall (is_page (st_heap (fst (loaded_file nd)))) [1; 2; 3] ∧
  page_of nd = Ok out ∧ tokens out = Some ts ∧
  has_href ts "c#.html" ∧ opens "c#.html" = Some ("c", Some ".html") ∧
  has_href ts "what?.html" ∧ opens "what?.html" = None ∧
  has_href ts "%41.html" ∧ opens "%41.html" = Some ("A.html", None).
Proof.
  exists (NSeq [para [call 1 "title" [txt "Top"]]; para [call 2 "split-sections" []]; para [call 3 "table-of-contents" []];
    para [call 4 "section" [NSeq [para [call 4 "title" [txt "C sharp"; txt "c#"]]]]];
    para [call 5 "section" [NSeq [para [call 5 "title" [txt "What"; txt "what?"]]]]];
    para [call 6 "section" [NSeq [para [call 6 "title" [txt "Percent"; txt "%41"]]]]]]).
  eexists _, _. split; [vm_compute; reflexivity|]. split; [vm_compute; reflexivity|].
  split; [apply Forall_cons; split; [|apply Forall_cons; split; [|apply Forall_cons; split; [|done]]]; (eexists; split; [vm_compute; reflexivity|cbn [s_parent]; eexists; split; [vm_compute; reflexivity|done]])|].
  split; [vm_compute; reflexivity|]. split; [vm_compute; reflexivity|].
  split; [eexists "a", [("href", "c#.html")]; split; [left; vm_compute; among|by left]|].
  split; [vm_compute; reflexivity|].
  split; [eexists "a", [("href", "what?.html")]; split; [left; vm_compute; among|by left]|].
  split; [vm_compute; reflexivity|].
  split; [eexists "a", [("href", "%41.html")]; split; [left; vm_compute; among|by left]|].
  vm_compute; reflexivity.
Qed.
Print Assumptions reserved_link_refuted.
