(** C44: document text cannot inject HTML. *)
From Coq Require Import Ascii String Lia.
From stdpp Require Import base tactics relations strings list.
From Verif Require Import GoBase StrProofs Ast Content Section TreeSpec Evaluate Collect BaseInv LoadProofs Render Demo DemoDoc
  Html HtmlSpec HtmlProofs HtmlRender HtmlLoad HtmlText.
Local Open Scope string_scope.
Local Open Scope list_scope.

(** ** C44 *)

(** Whatever [String] methods give and lazy contents are forced to, so long as
    nothing has the style raw-html: what is written can be tokenized, its elements
    nest, its elements and attributes are those of the templates, and its URLs
    have no scheme but http, https and mailto. *)
Theorem html_content_wellformed : ∀ similar broken h force str n c out,
  clean_heap h → (∀ t x, force t = Some x → clean x = true) → clean c = true →
  html similar broken h force str n c = Ok out →
  ∃ ts, tokens out = Some ts ∧ balanced ts ∧ Forall from_template ts.
Proof. intros similar broken h force str n c out Hh Hf Hc E. eapply good_tokens, html_good; done. Qed.
Print Assumptions html_content_wellformed.

Theorem html_page_wellformed : ∀ similar broken h force str n i out,
  clean_heap h → (∀ t x, force t = Some x → clean x = true) →
  html_page similar broken h force str n i = Ok out →
  ∃ ts, tokens out = Some ts ∧ balanced ts ∧ Forall from_template ts.
Proof. intros similar broken h force str n i out Hh Hf E. eapply good_tokens, html_page_good; done. Qed.
Print Assumptions html_page_wellformed.

(** After any number of loads by which only the base plugin is used, all that
    matters is that no section was given the style raw-html. *)
Theorem base_pages_wellformed : ∀ s similar broken force str n i out, base_history s →
  (∀ j x, st_heap s !! j = Some x → s_style x ≠ "raw-html") →
  (∀ t x, force t = Some x → clean x = true) →
  html_page similar broken (st_heap s) force str n i = Ok out →
  ∃ ts, tokens out = Some ts ∧ balanced ts ∧ Forall from_template ts.
Proof.
  intros s similar broken force str n i out Hs Hst Hf E. eapply good_tokens, html_page_good; try done.
  by apply base_history_clean.
Qed.
Print Assumptions base_pages_wellformed.

(** Text is shown character by character, NUL excepted. *)
Theorem html_string_exact : ∀ similar broken h force str n s, sforall (λ c, negb (Ascii.eqb c "000")) s = true →
  ∃ out, html similar broken h force str n (CString s) = Ok out ∧
    tokens out = Some (map TChar (list_ascii_of_string s)).
Proof.
  intros similar broken h force str n s Hs. exists (escape s). split; [by destruct n|].
  unfold tokens. by rewrite read_escape, unnul_id.
Qed.
Print Assumptions html_string_exact.

(** Nested in anything of the base plugin, nothing but white space is lost, added
    or moved; a NUL is shown as U+FFFD. *)
Theorem html_text_shown : ∀ similar broken h force str n c, textual c = true →
  ∃ out ts, html similar broken h force str n c = Ok out ∧ tokens out = Some ts ∧
    ink (chars ts) = ink (unnul (written c)).
Proof.
  intros similar broken h force str n c Hc.
  assert (∃ out, html similar broken h force str n c = Ok out ∧ inks out (written c)) as (out & E & ts & R & I).
  { destruct n; by apply html_F_text. }
  exists out, ts. split; [done|]. split; [|done]. unfold tokens. by rewrite R.
Qed.
Print Assumptions html_text_shown.

(** The URL of a link is what was written, up to the escaping of characters that
    URLs cannot contain, unless it has another scheme; then it is a constant. *)
Theorem html_link_url : ∀ similar broken h force str n c s u, html similar broken h force str n c = Ok s →
  ∃ out, html similar broken h force str n (CLink c u) = Ok out ∧
    ∀ ts, tokens s = Some ts →
    tokens out = Some ([TOpen "a" [("href", url_normalize (if is_safe_url u then u else "#ZgotmplZ"))]] ++ ts ++ [TClose "a"]).
Proof.
  intros similar broken h force str n c s u E. exists ("<a href=""" +:+ url_attr u +:+ """>" +:+ s +:+ "</a>").
  split; [destruct n; cbn [html html_F] in *; by rewrite E|]. intros ts Ht.
  unfold tokens in *. destruct (read SText s) as [[[] ts']|] eqn:R; try done. injection Ht as ->.
  assert ("<a href=""" +:+ url_attr u +:+ """>" +:+ s +:+ "</a>" = ("<a href=""" +:+ url_attr u +:+ """>") +:+ (s +:+ "</a>")) as ->
    by by rewrite !sapp_assoc.
  erewrite read_app; [|eapply read_app; [reflexivity|]; eapply read_app; [apply read_escape_value|reflexivity]|
    eapply read_app; [exact R|reflexivity]].
  rewrite unnul_normalize. done.
Qed.
Print Assumptions html_link_url.

Ltac among := repeat first [apply elem_of_list_here|apply elem_of_list_further].

(** *** A hostile document *)

(** Tags in titles, tag names, descriptions and URLs. *)
Definition hostile_lit : node := NSeq
  [ para [call 1 "title" [txt "<b>T</b>"; txt """><script>"]];
    para [call 2 "italic" [txt "a <i>b"]; call 2 "link" [txt "x"; txt "javascript:alert(1)"]; call 2 "image" [txt """onerror=""x"]];
    para [call 3 "section" [NSeq [para [call 3 "title" [txt "&amp;"]];
          para [call 3 "target" [txt "'"]; call 3 "table-of-contents" []]]]] ].

Definition one_file (nd : node) : env := Env (λ p, if String.eqb p "/d.lit" then Some (1, inl nd) else None) (λ _, None)
  (λ f name, match f with FBase => base_method name | FExt _ => None end) (λ _ _, false) false 10.
Lemma one_file_base nd : base_only (one_file nd).
Proof. split; [done|]. by intros [|n] Hf. Qed.
Definition loaded_file (nd : node) : st * outcome error nat := load_in (one_file nd) in_order 10 None "/d.lit" [FBase] (St [] []).
Lemma loaded_file_history nd : base_history (fst (loaded_file nd)).
Proof. apply base_load; [constructor|apply one_file_base|done]. Qed.
Definition page_of (nd : node) : rendered :=
  html_page (λ _ _, false) false (st_heap (fst (loaded_file nd))) (λ _, None)
    (cstring (λ _ _, false) false (st_heap (fst (loaded_file nd))) 5) 10 0.

Example hostile_page : base_history (fst (loaded_file hostile_lit)) ∧
  Forall (λ x, s_style x ≠ "raw-html") (st_heap (fst (loaded_file hostile_lit))) ∧
  length (st_heap (fst (loaded_file hostile_lit))) = 2 ∧
  ∃ out ts, page_of hostile_lit = Ok out ∧ tokens out = Some ts ∧
    TOpen "a" [("href", "#ZgotmplZ")] ∈ ts ∧ TOpen "a" [("id", """><script>")] ∈ ts ∧
    TVoid "img" [("src", "%22onerror=%22x"); ("alt", "")] ∈ ts.
Proof.
  split; [apply loaded_file_history|]. split; [vm_compute; by repeat constructor|]. split; [vm_compute; reflexivity|].
  eexists _, _. split; [vm_compute; reflexivity|]. split; [vm_compute; reflexivity|].
  split_and!; among.
Qed.

(** *** Raw HTML *)

(** The style of a section is a template's name, and one of the bundled templates
    is raw-html.tmpl: a document using the base plugin only can give it to its
    sections, whose titles are then written as they are. *)
Theorem base_raw_html_refuted : ∃ nd out ts, page_of nd = Ok out ∧ base_history (fst (loaded_file nd)) ∧
  tokens out = Some ts ∧ TOpen "script" [] ∈ ts.
Proof.
  exists (NSeq [para [call 1 "styled" [txt "raw-html"]]; para [call 2 "title" [txt "<script>alert(1)</script>"; txt "t"]]]).
  eexists _, _. split; [vm_compute; reflexivity|]. split; [apply loaded_file_history|].
  split; [vm_compute; reflexivity|]. among.
Qed.
Print Assumptions base_raw_html_refuted.

(** Another is page.tmpl, which renders the section it is executed with: rendering
    never ends. *)
Theorem base_page_style_refuted : ∃ nd, snd (loaded_file nd) = Ok 0 ∧
  ∀ n, html_page (λ _ _, false) false (st_heap (fst (loaded_file nd))) (λ _, None)
    (cstring (λ _ _, false) false (st_heap (fst (loaded_file nd))) 5) n 0 = NoFuel.
Proof.
  exists (NSeq [para [call 1 "styled" [txt "page"]]; para [call 2 "title" [txt "T"; txt "t"]]]).
  split; [vm_compute; reflexivity|].
  set (h := st_heap _). set (str := cstring _ _ h 5).
  assert (∃ x, h !! 0 = Some x ∧ s_style x = "page" ∧ str (s_title x) = Ok "T") as (x & Hx & Hst & Hti).
  { eexists. split; [vm_compute; reflexivity|]. split; reflexivity. }
  clearbody h str. intros n. unfold html_page, page_tmpl. rewrite Hx. cbn [need]. unfold text_of. rewrite Hti.
  cut (html (λ _ _, false) false h (λ _, None) str n (CSection 0) = NoFuel); [by intros ->|].
  induction n as [|n IH]; cbn [html html_F]; unfold visit_section, page_tmpl, need, text_of; rewrite Hx, Hst;
    change (String.eqb "page" "" || String.eqb "page" "section") with false; change (String.eqb "page" "page") with true;
    cbv iota; rewrite Hti; [done|]. by rewrite IH.
Qed.
Print Assumptions base_page_style_refuted.
