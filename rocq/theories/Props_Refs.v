(** C57: where a reference links to, and what it shows. *)
From Coq Require Import Ascii String Lia.
From stdpp Require Import base tactics relations strings list.
From Verif Require Import GoBase StrProofs Ast Content Section TreeSpec TreeProofs TagProofs NavProofs QueryProofs Render RenderSpec
  WriterProofs Demo Html HtmlSpec HtmlProofs HtmlRender.
Local Open Scope string_scope.
Local Open Scope list_scope.

(** ** Specification *)

(** [u] is the address of the place called [anchor] in section [i]: the file of the
    page that shows the section, then the anchor. A section that is not itself the
    page stands for the place named after its own tag. *)
Definition address (h : heap) (ext : string) (i : nat) (anchor u : string) : Prop :=
  ∃ o s, is_page h o ∧ rtc (inlined h) o i ∧ h !! i = Some s ∧
    ((anchor ≠ "" ∧ u = file_of h ext o +:+ "#" +:+ anchor) ∨
     (anchor = "" ∧ o = i ∧ u = file_of h ext o) ∨
     (anchor = "" ∧ o ≠ i ∧ t_name (s_primary s) ≠ "" ∧ u = file_of h ext o +:+ "#" +:+ t_name (s_primary s)) ∨
     (anchor = "" ∧ o ≠ i ∧ t_name (s_primary s) = "" ∧ u = file_of h ext o)).

(** [out] is a link to [u] around what the tokens of [s] are. *)
Definition links (u s out : string) : Prop := ∀ ts, tokens s = Some ts →
  tokens out = Some ([TOpen "a" [("href", url_normalize (if is_safe_url u then u else "#ZgotmplZ"))]] ++ ts ++ [TClose "a"]).

(** ** C57 *)

Theorem tag_address : ∀ h r ext t i, wf h → is_top h r → descendant h r i → t_section t = Some i →
  ∃ u, tag_url h ext t = Some u ∧ address h ext i (t_anchor t) u.
Proof.
  intros h r ext t i W T D Hts.
  assert (valid h i) as V by (destruct T as (? & ? & _); eapply descendant_valid; [done| |done]; by eapply lookup_lt_Some).
  destruct (owner_partition _ _ _ W T D) as (o & Ho & Do & R & _). destruct Ho as (os & Hos & Hpg).
  destruct (section_url_spec h ext i (t_anchor t) o os W V) as (s & Hs & E).
  { by exists os. } { by apply inlines_inline_parent. } { done. }
  unfold tag_url. rewrite Hts. cbn [mbind option_bind]. rewrite E. cbv zeta. eexists. split; [done|].
  exists o, s. split; [by exists os|]. split; [done|]. split; [done|]. unfold file_of, page_file. rewrite Hos.
  destruct (String.eqb_spec (t_anchor t) "") as [Ha|Ha].
  - destruct (Nat.eqb_spec o i) as [->|Ho].
    + right; left. simpl. by rewrite sapp_nil_r.
    + destruct (String.eqb_spec (t_name (s_primary s)) "") as [En|En]; [|by right; right; left].
      right; right; right. by rewrite sapp_nil_r.
  - left. destruct (String.eqb_spec (t_anchor t) ""); done.
Qed.
Print Assumptions tag_address.

Lemma link_links u s : links u s ("<a href=""" +:+ url_attr u +:+ """>" +:+ s +:+ "</a>").
Proof.
  intros ts Ht. unfold tokens in *. destruct (read SText s) as [[[] ts']|] eqn:R; try done. injection Ht as ->.
  assert ("<a href=""" +:+ url_attr u +:+ """>" +:+ s +:+ "</a>" = ("<a href=""" +:+ url_attr u +:+ """>") +:+ (s +:+ "</a>")) as ->
    by by rewrite !sapp_assoc.
  erewrite read_app; [|eapply read_app; [reflexivity|]; eapply read_app; [apply read_escape_value|reflexivity]|
    eapply read_app; [exact R|reflexivity]].
  rewrite unnul_normalize. done.
Qed.

Lemma scope_tag h r sec name t : wf h → is_top h r → descendant h r sec → tags_owned h →
  all_tags h sec (λ n, String.eqb n name) [t] →
  t_name t = name ∧ ∃ i s, descendant h r i ∧ h !! i = Some s ∧ t ∈ s_tags s ∧ t_section t = Some i.
Proof.
  intros W T D O A. assert (t ∈ [t]) as Ht by by left.
  rewrite (all_tags_elem _ _ _ _ _ A) in Ht. destruct Ht as (x & s & Hx & Hs & Ht & Hn).
  split; [by apply String.eqb_eq|]. exists x, s. rewrite (in_scope_tree _ _ _ _ W T D) in Hx.
  split_and!; try done. by eapply O.
Qed.

(** A reference to a name that has one definition links to its address, and shows
    its own content if it has some, else the tag's title. *)
Theorem reference_links : ∀ similar broken h force str n r sec name rc opt l t d d' s, wf h → is_top h r → descendant h r sec →
  tags_owned h → all_tags h sec (λ n, String.eqb n name) [t] →
  rc = Some d ∨ (rc = None ∧ t_title t = Some d) → strip_aux d = Some d' → html similar broken h force str n d' = Ok s →
  ∃ i u out, t_section t = Some i ∧ descendant h r i ∧ address h "html" i (t_anchor t) u ∧
    html similar broken h force str (S n) (CRef sec name rc opt l) = Ok out ∧ links u s out.
Proof.
  intros similar broken h force str n r sec name rc opt l t d d' s W T D O A Hd Hst Hs.
  assert (valid h sec) as V by (destruct T as (? & ? & _); eapply descendant_valid; [done| |done]; by eapply lookup_lt_Some).
  destruct (scope_tag _ _ _ _ _ W T D O A) as (_ & i & x & Hi & Hx & Ht & Hts).
  destruct (tag_address h r "html" t i W T Hi Hts) as (u & Hu & Ha).
  destruct (resolve_spec similar h sec name opt l [t] W V O A) as (H1 & _). specialize (H1 t eq_refl).
  exists i, u. eexists. split; [done|]. split; [done|]. split; [done|]. split; [|apply link_links].
  cbn [html html_F]. unfold reference_tmpl, ref_display, ref_tag. rewrite H1, Hu.
  destruct Hd as [->|[-> ->]]; cbn [mbind option_bind]; rewrite Hst; by rewrite Hs.
Qed.
Print Assumptions reference_links.

(** A name without a definition: an optional reference is its content; others fail. *)
Theorem reference_missing : ∀ similar broken h force str n sec name rc opt l, wf h → valid h sec →
  tags_owned h → all_tags h sec (λ n, String.eqb n name) [] →
  (opt = true → ∀ d d', rc = Some d → strip_aux d = Some d' →
     html similar broken h force str (S n) (CRef sec name rc opt l) = html similar broken h force str n d') ∧
  (opt = false → broken = false → ∃ f sim,
     html similar broken h force str (S n) (CRef sec name rc opt l) = Err (RTag (EUnknownTag name sim (ErrLoc f l 10))) ∧
     file_path h sec = Some f ∧ all_tags h sec (similar name) sim).
Proof.
  intros similar broken h force str n sec name rc opt l W V O A.
  destruct (resolve_spec similar h sec name opt l [] W V O A) as (_ & H0 & _). specialize (H0 eq_refl).
  cbn [html html_F]. unfold reference_tmpl, ref_tag. split.
  - intros -> d d' -> Hd. rewrite H0. cbn [mbind option_bind]. by rewrite Hd.
  - intros -> ->. destruct H0 as (f & sim & -> & ?). by exists f, sim.
Qed.
Print Assumptions reference_missing.

(** A name with several definitions: it fails, and says where they all are. *)
Theorem reference_ambiguous : ∀ similar h force str n sec name rc opt l defs, wf h → valid h sec →
  tags_owned h → all_tags h sec (λ n, String.eqb n name) defs → 1 < length defs → ∃ f ds locs,
    html similar false h force str (S n) (CRef sec name rc opt l) = Err (RTag (EAmbiguous name locs (ErrLoc f l 10))) ∧
    file_path h sec = Some f ∧ ds ≡ₚ defs ∧ Forall2 (defined_at h) ds locs.
Proof.
  intros similar h force str n sec name rc opt l defs W V O A Hl.
  destruct (resolve_spec similar h sec name opt l defs W V O A) as (_ & _ & H2).
  destruct (H2 Hl) as (f & ds & locs & E & ?). exists f, ds, locs.
  cbn [html html_F]. unfold reference_tmpl, ref_tag. by rewrite E.
Qed.
Print Assumptions reference_ambiguous.

(** When broken references are allowed, the two failures are links to the place
    "broken" of the section they are in, that show the content or else the name. *)
Theorem reference_broken : ∀ similar h force str n r sec name rc opt l defs d d' s, wf h → is_top h r → descendant h r sec →
  tags_owned h → all_tags h sec (λ n, String.eqb n name) defs → 1 < length defs ∨ (defs = [] ∧ opt = false) →
  rc = Some d ∨ (rc = None ∧ d = CString ("{broken reference: " +:+ name +:+ "}")) → strip_aux d = Some d' →
  html similar true h force str n d' = Ok s →
  ∃ u out, address h "html" sec "broken" u ∧ html similar true h force str (S n) (CRef sec name rc opt l) = Ok out ∧ links u s out.
Proof.
  intros similar h force str n r sec name rc opt l defs d d' s W T D O A Hb Hd Hst Hs.
  assert (valid h sec) as V by (destruct T as (? & ? & _); eapply descendant_valid; [done| |done]; by eapply lookup_lt_Some).
  assert (∃ e, resolve similar h sec name opt l = Err e) as [e He].
  { destruct (resolve_spec similar h sec name opt l defs W V O A) as (_ & H0 & H2). destruct Hb as [Hb|[-> ->]].
    - destruct (H2 Hb) as (f & ds & locs & -> & _). by eexists.
    - destruct (H0 eq_refl) as (f & sim & -> & _). by eexists. }
  destruct (tag_address h r "html" (broken_tag sec name l) sec W T D eq_refl) as (u & Hu & Ha).
  exists u. eexists. split; [done|]. split; [|apply link_links].
  cbn [html html_F]. unfold reference_tmpl, ref_display, ref_tag. rewrite He, Hu.
  destruct Hd as [->|[-> ->]]; cbn [mbind option_bind t_title broken_tag]; rewrite Hst; by rewrite Hs.
Qed.
Print Assumptions reference_broken.

(** The doc comment of the field Optional says that the content is displayed; an
    optional reference need not have any, and then the page is not rendered. *)
Theorem optional_reference_refuted : ∃ h sec name l, wf h ∧ valid h sec ∧ tags_owned h ∧
  all_tags h sec (λ n, String.eqb n name) [] ∧
  ∀ similar broken force str n out, html similar broken h force str n (CRef sec name None true l) ≠ Ok out.
Proof.
  exists demo, 0, "none", loc0. split; [exact demo_wf|]. split; [unfold valid; simpl; lia|]. split; [exact demo_owned|].
  destruct (filter_tags_all demo (λ n, String.eqb n "none") 0 demo_wf) as (ts & E & A); [unfold valid; simpl; lia|].
  vm_compute in E. injection E as <-. split; [done|].
  intros similar broken force str [|n] out; vm_compute; done.
Qed.
Print Assumptions optional_reference_refuted.

Example reference_links_example : wf demo ∧ is_top demo 0 ∧ descendant demo 0 4 ∧ tags_owned demo ∧
  (∃ t, all_tags demo 4 (λ n, String.eqb n "why") [t] ∧ t_section t = Some 2 ∧ t_title t = Some (CString "why")) ∧
  html (λ _ _, false) false demo (λ _, None) (λ _, NoFuel) 1 (CRef 4 "why" None false loc0) = Ok "<a href=""intro.html#why"">why</a>" ∧
  html (λ _ _, false) false demo (λ _, None) (λ _, NoFuel) 1 (CRef 4 "why" (Some (CSeq [CString "so"; CAux (CString "!")])) false loc0) =
    Ok "<a href=""intro.html#why"">so</a>" ∧
  html (λ _ _, false) true demo (λ _, None) (λ _, NoFuel) 1 (CRef 5 "faq" None false loc0) =
    Ok "<a href=""api.html#broken"">{broken reference: faq}</a>".
Proof.
  split; [exact demo_wf|]. split; [exact demo_top|]. split; [apply demo_desc; lia|]. split; [exact demo_owned|].
  split.
  { destruct (filter_tags_all demo (λ n, String.eqb n "why") 4 demo_wf) as (ts & E & A); [unfold valid; simpl; lia|].
    vm_compute in E. injection E as <-. eexists. split; [exact A|]. split; reflexivity. }
  split; [|split]; vm_compute; reflexivity.
Qed.
