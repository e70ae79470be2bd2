(** Theorems about pages, files, URLs and the search index: C18, C19, C20, C22. *)
From Coq Require Import Ascii String.
From stdpp Require Import base list strings relations.
From Verif Require Import GoBase Ast Content Section Render TreeSpec RenderSpec TreeProofs NavProofs
  QueryProofs WriterProofs Demo.

(** ** C18 *)

Theorem page_owner_is_unique : ∀ h i o, wf h → valid h i →
  page_owner h i = Some o ↔ is_page h o ∧ rtc (inline_parent h) o i.
Proof. exact page_owner_spec. Qed.
Print Assumptions page_owner_is_unique.

(** Over all pages of a tree, the sections shown are the sections of the tree,
    each exactly once. *)
Theorem every_section_on_exactly_one_page : ∀ h r l pages contents, wf h → is_top h r →
  listing h (λ _, true) r l → pages_of h r pages → Forall2 (page_sections h) pages contents →
  concat contents ≡ₚ l.
Proof. exact pages_cover. Qed.
Print Assumptions every_section_on_exactly_one_page.

(** A page shows exactly the sections it owns. *)
Theorem page_shows_what_it_owns : ∀ h r o i, wf h → is_top h r → descendant h r i → is_page h o →
  page_owner h i = Some o ↔ rtc (inlined h) o i.
Proof. exact page_owner_inlined. Qed.
Print Assumptions page_shows_what_it_owns.

Example pages_example : wf demo ∧ is_top demo 0 ∧ listing demo (λ _, true) 0 [0; 1; 2; 3; 4; 5] ∧
  pages_of demo 0 [0; 1; 4; 5] ∧ page_owner demo 3 = Some 1 ∧ page_owner demo 5 = Some 5 ∧
  Forall2 (page_sections demo) [0; 1; 4; 5] [[0]; [1; 2; 3]; [4]; [5]].
Proof.
  split; [exact demo_wf|]. split; [exact demo_top|]. split; [exact demo_listing|].
  split; [exists [0; 1; 2; 3; 4; 5]; split; [exact demo_listing|reflexivity]|].
  split; [reflexivity|]. split; [reflexivity|].
  constructor; [econstructor; [reflexivity|constructor]|].
  constructor.
  { econstructor; [reflexivity|]. simpl. apply (listings_cons _ _ _ _ [2] [3]).
    - econstructor; [reflexivity|constructor].
    - apply (listings_cons _ _ _ _ [3] []); [|constructor]. econstructor; [reflexivity|constructor]. }
  constructor; [econstructor; [reflexivity|constructor]|].
  constructor; [econstructor; [reflexivity|constructor]|constructor].
Qed.

(** ** C19 *)

Theorem tag_urls_point_to_pages : ∀ h r ext t i s, wf h → is_top h r → descendant h r i →
  h !! i = Some s → t ∈ s_tags s → t_section t = Some i →
  ∃ o frag, is_page h o ∧ descendant h r o ∧
    tag_url h ext t = Some (file_of h ext o +:+ frag)%string ∧
    (frag = "" ∨ ∃ a, frag = "#" +:+ a)%string.
Proof. exact no_dangling. Qed.
Print Assumptions tag_urls_point_to_pages.

(** ... and a successful WriteSection of the top section writes that page's file. *)
Theorem no_dangling_page_links : ∀ h r open_ok ext eng fs fs' t i s, wf h → is_top h r → descendant h r i →
  h !! i = Some s → t ∈ s_tags s → t_section t = Some i →
  write_section h open_ok ext eng r fs = Some (fs', None) →
  ∃ page frag bytes, tag_url h ext t = Some (page +:+ frag)%string ∧
    (frag = "" ∨ ∃ a, frag = "#" +:+ a)%string ∧
    assoc_get page fs' = Some bytes ∧
    ∃ o, is_page h o ∧ descendant h r o ∧ bytes = fst (eng o) ∧ file_of h ext o = page.
Proof. exact links_are_written. Qed.
Print Assumptions no_dangling_page_links.

Example links_example : wf demo ∧ is_top demo 0 ∧ descendant demo 0 2 ∧
  (∃ s t, demo !! 2 = Some s ∧ t ∈ s_tags s ∧ t_section t = Some 2 ∧
          tag_url demo "html" t = Some "intro.html#faq"%string) ∧
  ∃ fs', write_section demo (λ _, true) "html" (λ i, (dec i, None)) 0 [] = Some (fs', None).
Proof.
  split; [exact demo_wf|]. split; [exact demo_top|]. split; [apply demo_desc; lia|]. split.
  - eexists _, (Tag "faq" _ _ _ _ _). split; [reflexivity|]. simpl. split; [right; left|].
    split; reflexivity.
  - eexists. vm_compute. reflexivity.
Qed.

(** ** C20 *)

(** WriteSection behaves as writing the pages one after the other in
    depth-first order until the first failure. *)
Theorem write_section_writes_pages_in_order : ∀ h open_ok ext eng r pages fs, wf h → pages_of h r pages →
  write_section h open_ok ext eng r fs = Some (write_pages h open_ok ext eng pages fs).
Proof. exact write_section_spec. Qed.
Print Assumptions write_section_writes_pages_in_order.

Theorem pages_are_pages : ∀ h r pages x, pages_of h r pages → x ∈ pages ↔ is_page h x ∧ descendant h r x.
Proof. exact pages_of_elem. Qed.
Print Assumptions pages_are_pages.

Theorem pages_are_distinct : ∀ h r pages, wf h → pages_of h r pages → NoDup pages.
Proof. exact pages_of_nodup. Qed.
Print Assumptions pages_are_distinct.

(** Success: every page has its file, holding what was rendered for it (when no
    other page has the same name); no other file changed. *)
Theorem write_section_success : ∀ h open_ok ext eng r pages fs fs', wf h → pages_of h r pages →
  write_section h open_ok ext eng r fs = Some (fs', None) →
  (∀ i, i ∈ pages → snd (eng i) = None) ∧
  (∀ i, i ∈ pages → (∀ j, j ∈ pages → file_of h ext j = file_of h ext i → j = i) →
        assoc_get (file_of h ext i) fs' = Some (fst (eng i))) ∧
  (∀ name, (∀ i, i ∈ pages → file_of h ext i ≠ name) → assoc_get name fs' = assoc_get name fs).
Proof. exact write_section_ok. Qed.
Print Assumptions write_section_success.

(** Failure: the first page that fails is the last one touched. *)
Theorem write_section_failure : ∀ h open_ok ext eng r pages fs fs' e, wf h → pages_of h r pages →
  write_section h open_ok ext eng r fs = Some (fs', Some e) →
  ∃ l1 i l2, pages = l1 ++ i :: l2 ∧
    (∀ j, j ∈ l1 → snd (eng j) = None) ∧
    (e = EStat (file_of h ext i) ∨ snd (eng i) = Some e) ∧
    (∀ name, (∀ j, j ∈ l1 ++ [i] → file_of h ext j ≠ name) → assoc_get name fs' = assoc_get name fs).
Proof. exact write_section_err. Qed.
Print Assumptions write_section_failure.

(** Finding: two pages with the same primary tag do overwrite each other; the
    distinctness hypothesis above is needed. *)
Theorem pages_overwrite_each_other_refuted : ∃ h r i j, wf h ∧ is_top h r ∧
  is_page h i ∧ is_page h j ∧ i ≠ j ∧ descendant h r i ∧ descendant h r j ∧
  ∀ eng fs, (∀ k, snd (eng k) = None) →
   ∃ fs', write_section h (λ _, true) "html" eng r fs = Some (fs', None) ∧
     assoc_get (file_of h "html" i) fs' = Some (fst (eng j)).
Proof. exact overwrite_witness. Qed.
Print Assumptions pages_overwrite_each_other_refuted.

Example write_example : wf demo ∧ pages_of demo 0 [0; 1; 4; 5] ∧
  write_section demo (λ _, true) "html" (λ i, (dec i, None)) 0 [] =
    Some ([("index.html", "0"); ("intro.html", "1"); ("ref.html", "4"); ("api.html", "5")]%string, None) ∧
  write_section demo (λ _, true) "html" (λ i, (dec i, if Nat.eqb i 4 then Some (EPlugin "x") else None)) 0 [] =
    Some ([("index.html", "0"); ("intro.html", "1"); ("ref.html", "4")]%string, Some (EPlugin "x")).
Proof.
  split; [exact demo_wf|].
  split; [exists [0; 1; 2; 3; 4; 5]; split; [exact demo_listing|reflexivity]|].
  split; reflexivity.
Qed.

(** ** C22 *)

(** [str] stands for the String() methods. *)
Theorem search_index_contents : ∀ str h ext r l idx name, wf h → listing h (λ _, true) r l →
  search_index str h ext r = Ok idx →
  NoDup (map fst idx) ∧
  ((∃ t d, last_named name (flat_map (own_tags h) l) t ∧ tag_doc str h ext t = Ok d ∧
           assoc_get name idx = Some d) ∨
   ((∀ t, t ∈ flat_map (own_tags h) l → t_name t ≠ name) ∧ assoc_get name idx = None)).
Proof. exact search_index_spec. Qed.
Print Assumptions search_index_contents.

Theorem search_index_entry : ∀ str h ext t d, tag_doc str h ext t = Ok d ↔
  ∃ x sec ti, t_section t = Some x ∧ h !! x = Some sec ∧ t_title t = Some ti ∧
    tag_url h ext t = Some (sd_location d) ∧
    str ti = Ok (sd_title d) ∧
    str (match t_content t with Some c => c | None => s_body sec end) = Ok (sd_text d) ∧
    depth h x = Some (sd_depth d) ∧
    sd_section_tag d = t_name (s_primary sec).
Proof. exact tag_doc_spec. Qed.
Print Assumptions search_index_entry.

Theorem search_index_succeeds : ∀ str h ext r l, wf h → listing h (λ _, true) r l →
  (∃ idx, search_index str h ext r = Ok idx) ↔
  ∀ t, t ∈ flat_map (own_tags h) l → ∃ d, tag_doc str h ext t = Ok d.
Proof. exact search_index_ok. Qed.
Print Assumptions search_index_succeeds.

Example search_index_example : wf demo ∧ listing demo (λ _, true) 0 [0; 1; 2; 3; 4; 5] ∧
  ∃ idx, search_index (cstring (λ _ _, false) false demo 5) demo "html" 0 = Ok idx ∧
    assoc_get "faq" idx = Some (SearchDoc "api.html#faq" "API FAQ" ("body of  api" +:+ nls +:+ nls) 2 "api") ∧
    length idx = 7.
Proof.
  split; [exact demo_wf|]. split; [exact demo_listing|].
  eexists. split; [vm_compute; reflexivity|]. split; reflexivity.
Qed.
