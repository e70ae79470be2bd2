(** Which links a page contains. *)
From Coq Require Import Ascii String Lia.
From stdpp Require Import base tactics relations strings list.
From Verif Require Import GoBase StrProofs Ast Content Section TreeSpec Render ContentProofs CollectSpec
  Html HtmlSpec HtmlProofs HtmlRender.
Local Open Scope string_scope.
Local Open Scope list_scope.

(** The targets of the links that [c] shows in place. *)
Fixpoint link_targets (c : content) : list string :=
  match c with
  | CSeq l | CPara l | CPre l | CList l _ => flat_map link_targets l
  | CRef _ _ rc _ _ => match rc with Some c => link_targets c | None => [] end
  | CLink c u => u :: link_targets c
  | CStyled _ _ c _ => link_targets c
  | CTable rows => flat_map (flat_map link_targets) rows
  | CDefs defs => flat_map (λ p, match p with (s, d) => link_targets s ++ link_targets d end) defs
  | CAux c => link_targets c
  | CString _ | CSection _ | CToc _ | CImage _ _ | CLazy _ _ | CTarget _ _ _ _ => []
  end.

(** Something a page may show: the title or the body of a section, the title of
    one of its tags (shown by references), or what a lazy content turns into. *)
Definition on_pages (h : heap) (force : nat → option content) (c : content) : Prop :=
  (∃ i s, h !! i = Some s ∧ (c = s_title s ∨ c = s_body s ∨ ∃ t, t ∈ s_tags s ∧ t_title t = Some c)) ∨
  ∃ k, force k = Some c.

(** Where a link leads before it is made into an attribute: a link written by the
    author, the URL of a tag, or that of an unknown tag if such are allowed. *)
Inductive leads (broken : bool) (h : heap) (force : nat → option content) (u : string) : Prop :=
| by_author c : on_pages h force c → u ∈ link_targets c → leads broken h force u
| by_tag i s t : h !! i = Some s → t ∈ s_tags s ∨ t = s_primary s → tag_url h "html" t = Some u → leads broken h force u
| by_broken sec name l : broken = true → tag_url h "html" (broken_tag sec name l) = Some u → leads broken h force u.

(** ** Proof *)

Section toks.
  Context (L : string → Prop).

  Definition href_ok (a : string * string) : Prop := fst a = "href" → ∃ u, L u ∧ snd a = url_normalize (url_filter u).
  Definition tok_ok (t : token) : Prop :=
    match t with TOpen _ l | TVoid _ l => Forall href_ok l | _ => True end.
  Definition al (s : string) : Prop := ∃ ts, read SText s = Some (SText, ts) ∧ Forall tok_ok ts.

  Lemma al_app a b : al a → al b → al (a +:+ b).
  Proof. intros (ts & H & F) (ts' & H' & F'). eexists. split; [by eapply read_app|by apply Forall_app]. Qed.

  Definition tokb (t : token) : bool :=
    match t with TOpen _ l | TVoid _ l => forallb (λ a, negb (String.eqb (fst a) "href")) l | _ => true end.
  Lemma al_lit a : match read SText a with Some (SText, ts) => forallb tokb ts | _ => false end = true → al a.
  Proof.
    destruct (read SText a) as [[[] ts]|] eqn:E; try done. intros H. exists ts. split; [done|].
    rewrite forallb_forall in H. apply Forall_forall. intros t Ht%elem_of_list_In%H.
    assert (∀ l : list (string * string), forallb (λ a, negb (String.eqb (fst a) "href")) l = true → Forall href_ok l) as X.
    { intros l Hl. rewrite forallb_forall in Hl. apply Forall_forall. intros x Hx%elem_of_list_In%Hl E'. rewrite E' in Hx. done. }
    destruct t; simpl in *; auto.
  Qed.
  Ltac tl := apply al_lit; vm_compute; reflexivity.

  Lemma al_concat l : Forall al l → al (sconcat l).
  Proof. induction 1; cbn [sconcat]; [tl|by apply al_app]. Qed.
  Lemma al_map {A} (f : A → string) l : (∀ x, x ∈ l → al (f x)) → al (sconcat (map f l)).
  Proof. intros H. apply al_concat, Forall_forall. intros s (x & -> & Hx)%elem_of_list_fmap. by apply H. Qed.
  Lemma al_join sep l : al sep → Forall al l → al (sjoin sep l).
  Proof.
    intros Hsep. induction 1 as [|s ss Hs F IH]; [tl|]. destruct ss as [|s' ss]; [done|]. rewrite sjoin_cons.
    apply al_app; [done|]. by apply al_app.
  Qed.
  Lemma al_escape s : al (escape s).
  Proof.
    eexists. split; [apply read_escape|]. apply Forall_forall. intros t (c & -> & _)%elem_of_list_fmap. done.
  Qed.
  Lemma al_href u s : L u → al s → al ("<a href=""" +:+ url_attr u +:+ """>" +:+ s +:+ "</a>").
  Proof.
    intros Hu Hs.
    assert ("<a href=""" +:+ url_attr u +:+ """>" +:+ s +:+ "</a>" = ("<a href=""" +:+ url_attr u +:+ """>") +:+ (s +:+ "</a>")) as ->
      by by rewrite !sapp_assoc.
    apply al_app; [|apply al_app; [done|tl]].
    eexists. split; [eapply read_app; [reflexivity|]; eapply read_app; [apply read_escape_value|reflexivity]|].
    simpl. constructor; [|constructor]. constructor; [|constructor]. intros _. exists u. split; [done|]. simpl. by rewrite unnul_normalize.
  Qed.
  Lemma al_id v : al ("<a id=""" +:+ escape v +:+ """></a>").
  Proof.
    eexists. split; [eapply read_app; [reflexivity|]; eapply read_app; [apply read_escape_value|reflexivity]|].
    simpl. by repeat constructor.
  Qed.
  Lemma al_img u d : al ("<img src=""" +:+ url_attr u +:+ """ alt=""" +:+ escape d +:+ """ />").
  Proof.
    eexists. split.
    - eapply read_app; [reflexivity|]. eapply read_app; [apply read_escape_value|].
      eapply read_app; [reflexivity|]. eapply read_app; [apply read_escape_value|reflexivity].
    - simpl. by repeat constructor.
  Qed.
  Lemma al_styled st flow pre post s : styled_wrap st flow = Some (pre, post) → al s → al (pre +:+ s +:+ post).
  Proof.
    unfold styled_wrap. intros E H.
    repeat match type of E with (if ?b then _ else _) = _ => destruct b; [injection E as <- <-; apply al_app; [tl|]; apply al_app; [done|tl]|] end.
    destruct (String.eqb st "verbatim"); [|done]. destruct flow; injection E as <- <-; apply al_app; try tl; apply al_app; done || tl.
  Qed.
  Lemma al_list o ss : Forall al ss → al (list_html o ss).
  Proof.
    intros F. rewrite Forall_forall in F.
    assert (al (sconcat (map (λ s, nls +:+ "  <li>" +:+ s +:+ "</li>" +:+ nls) ss))) as G.
    { apply al_map. intros z Hz. apply al_app; [tl|]. apply al_app; [tl|]. apply al_app; [by apply F|tl]. }
    unfold list_html. destruct o.
    - change (al (("<ol>" +:+ nls) +:+ (sconcat (map (λ s, nls +:+ "  <li>" +:+ s +:+ "</li>" +:+ nls) ss) +:+ (nls +:+ "</ol>")))).
      apply al_app; [tl|]. apply al_app; [done|tl].
    - change (al (("<ul>" +:+ nls) +:+ (sconcat (map (λ s, nls +:+ "  <li>" +:+ s +:+ "</li>" +:+ nls) ss) +:+ (nls +:+ "</ul>")))).
      apply al_app; [tl|]. apply al_app; [done|tl].
  Qed.
  Lemma al_table rows : Forall (Forall al) rows → al (table_html rows).
  Proof.
    intros F. rewrite Forall_forall in F. unfold table_html. do 3 (apply al_app; [tl|]). apply al_app; [|tl].
    apply al_map. intros z Hz. do 4 (apply al_app; [tl|]). apply al_app; [|tl]. apply al_map. intros y Hy.
    do 2 (apply al_app; [tl|]). apply al_app; [|tl]. specialize (F _ Hz). rewrite Forall_forall in F. by apply F.
  Qed.
  Lemma al_defs defs : Forall (λ p, al (fst p) ∧ al (snd p)) defs → al (defs_html defs).
  Proof.
    intros F. rewrite Forall_forall in F. unfold defs_html. do 3 (apply al_app; [tl|]). apply al_app; [|tl].
    apply al_map. intros [s d] Hz. destruct (F _ Hz) as [F1 F2]. simpl in F1, F2. do 2 (apply al_app; [tl|]). apply al_app; [done|].
    do 3 (apply al_app; [tl|]). apply al_app; [done|tl].
  Qed.
  Lemma al_page t b : al b → al (page_html t b).
  Proof.
    intros H. unfold page_html. pose proof (al_escape t) as T.
    repeat first [apply al_app; [first [tl|exact T|exact H]|]|tl].
  Qed.
  Lemma al_section d name number title body children : 1 ≤ d ≤ 6 → al title → al body →
    (∀ cs, children = Some cs → Forall al cs) → al (section_html (dec d) name number title body children).
  Proof.
    intros Hd Ht Hb Hc. unfold section_html.
    set (anch := "<a id=""" +:+ escape name +:+ """></a>").
    set (num := match number with Some n => _ | None => _ end). set (kids := match children with Some cs => _ | None => _ end).
    assert (al num) as Hn.
    { unfold num. destruct number as [n|]; [|tl]. 
      change (al ("<span class=""section-number"">" +:+ (escape n +:+ " </span>"))).
      eexists. split; [eapply read_app; [reflexivity|]; eapply read_app; [apply read_escape|reflexivity]|].
      simpl. constructor; [|apply Forall_app; split; [|by repeat constructor]].
      - by repeat constructor.
      - apply Forall_forall. intros t (c & -> & _)%elem_of_list_fmap. done. }
    assert (al kids) as Hk.
    { unfold kids. destruct children as [cs|]; [|tl]. specialize (Hc cs eq_refl). rewrite Forall_forall in Hc.
      do 2 (apply al_app; [tl|]). apply al_app; [|tl]. apply al_map. intros s Hs. do 2 (apply al_app; [tl|]).
      apply al_app; [by apply Hc|tl]. }
    assert (∀ x, "<h" +:+ dec d +:+ " class=""section-header""><a id=""" +:+ escape name +:+ """></a>" +:+ x =
      ("<h" +:+ dec d +:+ " class=""section-header"">") +:+ (anch +:+ x)) as E.
    { intros y. unfold anch. rewrite !sapp_assoc. reflexivity. }
    rewrite E.
    assert (∀ x, "</h" +:+ dec d +:+ ">" +:+ x = ("</h" +:+ dec d +:+ ">") +:+ x) as E2 by (intros y; by rewrite !sapp_assoc).
    rewrite E2.
    assert (al ("<h" +:+ dec d +:+ " class=""section-header"">") ∧ al ("</h" +:+ dec d +:+ ">")) as [T1 T2].
    { do 6 (destruct d as [|d]; [lia|destruct (decide (d = 0)) as [->|]; [split; tl|]]). lia. }
    repeat first [apply al_app; [first [tl|exact T1|exact T2|exact Hn|exact Ht|exact Hb|apply al_id]|]|exact Hk].
  Qed.
  Lemma al_toc es : Forall (λ e : string * string * string * string, match e with (u, n, t, sub) => L u ∧ al t ∧ al sub end) es → al (toc_html es).
  Proof.
    intros F. rewrite Forall_forall in F. unfold toc_html. do 6 (apply al_app; [tl|]). apply al_app; [|tl].
    apply al_map. intros [[[u n] t] sub] Hz. destruct (F _ Hz) as (Hu & Ht & Hs).
    do 4 (apply al_app; [tl|]). apply al_app.
    { pose proof (al_href u (escape n +:+ " " +:+ t) Hu) as H. rewrite !sapp_assoc in H. apply H.
      apply al_app; [apply al_escape|]. apply al_app; [tl|done]. }
    do 3 (apply al_app; [tl|]). apply al_app; [done|tl].
  Qed.
End toks.

(** Stripping adds no links. *)
Lemma strip_links c : StripP (λ c c', ∀ u, u ∈ link_targets c' → u ∈ link_targets c) c.
Proof.
  assert (∀ l l', Forall (StripP (λ c c', ∀ u, u ∈ link_targets c' → u ∈ link_targets c)) l → strip_list l = Some l' →
    ∀ u, u ∈ flat_map link_targets l' → u ∈ flat_map link_targets l) as L.
  { intros l l' IH E u. pose proof (strip_list_Forall2 _ _ _ IH E) as F.
    assert (u ∈ flat_map link_targets (keep l) → u ∈ flat_map link_targets l) as K.
    { intros H. apply elem_of_list_In, in_flat_map in H as (x & Hx & Hu). apply elem_of_list_In, in_flat_map. exists x. split; [|done].
      unfold keep in Hx. by apply filter_In in Hx as [Hx _]. }
    intros H. apply K. clear -F H. induction F as [|x y k k' Hx F IH]; [done|]. simpl in *.
    rewrite elem_of_app in *. destruct H; eauto. }
  induction c as [s|l IH|l IH|l IH|sec t rc o l IH|c t IH|s|s|st b c ps IH IHps|t l ti x IHt IHx|p d|l o IH|rows IH|defs IH|b t|c IH]
    using content_ind'; intros c' E; revert E; strip_rw; try (intros [= <-]; done).
  1-3,8: intros E; apply fmap_Some in E as (l' & El & ->); simpl; by apply L.
  - destruct rc as [rc|]; simpl; [|done]. destruct (strip_aux rc) eqn:E; simpl; [|done].
    intros [= <-]. simpl. by apply IH.
  - intros E. apply fmap_Some in E as (x & Ex & ->). simpl. intros u. rewrite !elem_of_cons. intros [?|?]; [by left|right]. by eapply IH.
  - destruct (strip_aux c) eqn:E; simpl; [|done]. destruct (mapM _ _) as [ps'|] eqn:Eps; simpl; [|done].
    intros [= <-]. simpl. by apply IH.
  - destruct ti as [a|]; simpl; [|done]. destruct (strip_aux a) eqn:Ea; simpl; [|done].
    destruct x as [y|]; simpl; [|done]. destruct (strip_aux y) eqn:Ey; simpl; [|done].
    by intros [= <-].
  - intros E. apply fmap_Some in E as (rs & Er & ->). simpl. apply mapM_Some_1 in Er. intros u.
    induction Er as [|r r' rs rs' Hr _ IHr]; simpl; [done|]. inversion IH; subst.
    rewrite !elem_of_app. intros [H|H]; [left; by eapply L|right; by apply IHr].
  - intros E. apply fmap_Some in E as (ds & Ed & ->). simpl. apply mapM_Some_1 in Ed. intros u.
    induction Ed as [|r r' rs rs' Hr _ IHr]; simpl; [done|].
    inversion IH as [|? ? [H1 H2] H3]; subst. unfold strip_def in Hr. destruct r as [s d]. simpl in *.
    destruct (strip_aux s) eqn:E1; simpl in Hr; [|done].
    destruct (strip_aux d) eqn:E2; simpl in Hr; [|done]. injection Hr as <-.
    rewrite !elem_of_app. intros [[H|H]|H]; [left; left; by eapply H1|left; right; by eapply H2|right; by apply IHr].
  - exact (IH c').
Qed.

Lemma ref_tag_leads similar broken h sec name opt l t : ref_tag similar broken h sec name opt l = Ok (Some t) →
  (broken = true ∧ t = broken_tag sec name l) ∨ ∃ i s, h !! i = Some s ∧ t ∈ s_tags s.
Proof.
  intros H. destruct broken.
  - destruct (ref_tag_from _ _ _ _ _ _ _ _ H); auto.
  - right. unfold ref_tag, resolve, find_tag, filter_tags in H.
    destruct (gofix _ _ _) as [tags|] eqn:E; [|done].
    pose proof (filter_tags_from _ _ _ _ _ E) as Hf.
    destruct tags as [|x [|y tags]].
    + destruct opt; [done|]. destruct (similar_tags _ _ _ _); [|done]. by destruct (file_path _ _).
    + injection H as <-. apply Hf. by left.
    + destruct (mapM _ _); [|done]. by destruct (file_path _ _).
Qed.

Section html.
  Context (similar : string → string → bool) (broken : bool) (h : heap).
  Context (force : nat → option content) (str : content → outcome error string).
  Context (Hh : clean_heap h) (Hf : ∀ t c, force t = Some c → clean c = true).
  Notation L := (leads broken h force).
  Notation al := (al L).

  Definition fine (c : content) : Prop := clean c = true ∧ ∀ u, u ∈ link_targets c → L u.
  Definition alj (jump : content → rendered) : Prop := ∀ c out, fine c → jump c = Ok out → al out.

  Lemma fine_on_pages c : on_pages h force c → clean c = true → fine c.
  Proof. intros H C. split; [done|]. intros u Hu. by econstructor. Qed.
  Lemma fine_title i s : h !! i = Some s → fine (s_title s).
  Proof. intros Hi. destruct (Hh _ _ Hi) as (_ & ? & _). apply fine_on_pages; [|done]. left. eauto 10. Qed.
  Lemma fine_body i s : h !! i = Some s → fine (s_body s).
  Proof. intros Hi. destruct (Hh _ _ Hi) as (_ & _ & ? & _). apply fine_on_pages; [|done]. left. eauto 10. Qed.
  Lemma fine_tag i s t c : h !! i = Some s → t ∈ s_tags s → t_title t = Some c → fine c.
  Proof.
    intros Hi Ht Hc. destruct (Hh _ _ Hi) as (_ & _ & _ & F). rewrite Forall_forall in F. apply fine_on_pages; [|by eapply F].
    left. eauto 10.
  Qed.
  Lemma fine_strip c c' : strip_aux c = Some c' → fine c → fine c'.
  Proof. intros E [C F]. split; [by apply (strip_clean _ _ E)|]. intros u Hu. by apply F, (strip_links _ _ E). Qed.

  Lemma toc_al jump i out : alj jump → toc_tmpl h jump i = Ok out → al out.
  Proof.
    intros J. assert (al "") as Hn by by exists []. unfold toc_tmpl, need. destruct (h !! i) as [s|] eqn:Hi; [|done].
    destruct (s_children s) as [|c0 cs] eqn:Hc; [by intros [= <-]|].
    destruct (s_omit s); [by intros [= <-]|].
    destruct (omapM _ (c0 :: cs)) as [es| | |] eqn:E; cbn [obind]; try done. intros [= <-].
    apply al_toc. apply omapM_Ok in E. clear Hc. revert E. generalize (c0 :: cs). intros l F. induction F as [|c e l es He F IH]; constructor; [|done].
    destruct (h !! c) as [x|] eqn:Hx; [|done]. destruct (tag_url _ _ _) as [u|] eqn:Hu; [|done].
    destruct (number h c) as [n|]; [|done]. destruct (strip_aux (s_title x)) as [t|] eqn:Et; [|done].
    destruct (jump t) as [ts| | |] eqn:Ej; cbn [obind] in He; try done.
    destruct (jump (CToc c)) as [sb| | |] eqn:Ej2; cbn [obind] in He; try done. injection He as <-.
    split_and!.
    - eapply by_tag; [exact Hx|by right|done].
    - eapply J; [|exact Ej]. eapply fine_strip; [done|]. by eapply fine_title.
    - eapply J; [|exact Ej2]. split; [done|]. intros ? []%elem_of_nil.
  Qed.

  Lemma fine_section i : fine (CSection i).
  Proof. split; [done|]. intros ? []%elem_of_nil. Qed.

  Lemma section_al jump i out : alj jump → section_tmpl h jump i = Ok out → al out.
  Proof.
    intros J. unfold section_tmpl, need. destruct (h !! i) as [s|] eqn:Hi; [|done].
    destruct (header_depth h i) as [d|] eqn:Hd; [|done]. destruct (number h i) as [n|]; [|done].
    assert (1 ≤ d ≤ 6) as Hd'.
    { unfold header_depth in Hd. destruct (page_depth h i) as [k|]; [|done]. cbn [mbind option_bind] in Hd.
      injection Hd as <-. destruct (Nat.ltb_spec 6 (k + 1)); lia. }
    destruct (jump (s_title s)) as [t| | |] eqn:Et; cbn [obind]; try done.
    destruct (jump (s_body s)) as [b| | |] eqn:Eb; cbn [obind]; try done.
    assert (al t) as At by (eapply J; [|exact Et]; by eapply fine_title).
    assert (al b) as Ab by (eapply J; [|exact Eb]; by eapply fine_body).
    destruct (s_split s).
    - intros [= <-]. by apply al_section.
    - destruct (omapM _ _) as [cs| | |] eqn:Ec; cbn [obind]; try done. intros [= <-].
      apply al_section; try done.
      intros cs' [= <-]. apply omapM_Ok in Ec. clear -Ec J. induction Ec; constructor; [|done]. eapply J; [|done]. apply fine_section.
  Qed.

  Lemma page_al jump i out : alj jump → page_tmpl h str jump i = Ok out → al out.
  Proof.
    intros J. unfold page_tmpl, need. destruct (h !! i) as [s|]; [|done]. intros (t & E)%text_of_Ok.
    destruct (jump (CSection i)) as [b| | |] eqn:Eb; cbn [obind] in E; try done. injection E as <-.
    apply al_page. eapply J; [|exact Eb]. apply fine_section.
  Qed.

  Lemma reference_al jump sec name rc opt l out : alj jump → optP fine rc →
    reference_tmpl similar broken h jump sec name rc opt l = Ok out → al out.
  Proof.
    intros J Hrc. unfold reference_tmpl. destruct (ref_tag _ _ _ _ _ _ _) as [[t|]| | |] eqn:Et; try done.
    - destruct (tag_url h "html" t) as [u|] eqn:Hu; [|done].
      rewrite (ref_display_tag similar broken h sec name rc opt l t Et).
      destruct (match rc with Some d => Some d | None => t_title t end) as [d|] eqn:Ed; [|done]. cbn [mbind option_bind].
      apply ref_tag_leads in Et.
      assert (L u) as Lu.
      { destruct Et as [[-> ->]|(i & s & Hi & Hin)]; [by eapply by_broken|]. eapply by_tag; [exact Hi|by left|done]. }
      assert (fine d) as Hd.
      { destruct rc as [r|]; [by injection Ed as <-|]. destruct Et as [[_ ->]|(i & s & Hi & Hin)].
        - injection Ed as <-. split; [done|]. intros ? []%elem_of_nil.
        - by eapply fine_tag. }
      destruct (strip_aux d) as [d'|] eqn:Es; [|done].
      destruct (jump d') as [s| | |] eqn:Ej; cbn [obind]; try done. intros [= <-]. apply al_href; [done|].
      eapply J; [|exact Ej]. by eapply fine_strip.
    - destruct rc as [r|]; [|done]. cbn [mbind option_bind]. destruct (strip_aux r) as [d|] eqn:Es; [|done].
      cbn [need]. intros Ej. eapply J; [|exact Ej]. by eapply fine_strip.
  Qed.

  Lemma fine_all (l : list content) : forallb clean l = true → (∀ u, u ∈ flat_map link_targets l → L u) → Forall fine l.
  Proof.
    intros C F. apply Forall_forall. intros c Hc. split.
    - rewrite forallb_forall in C. by apply C, elem_of_list_In.
    - intros u Hu. apply F. apply elem_of_list_In, in_flat_map. exists c. split; by apply elem_of_list_In.
  Qed.

  Lemma omapM_al (f : content → rendered) l ss : Forall (λ c, ∀ out, fine c → f c = Ok out → al out) l →
    Forall fine l → omapM f l = Ok ss → Forall al ss.
  Proof.
    intros H F E%omapM_Ok. induction E as [|c s l ss Hc E IH]; constructor; inversion H; inversion F; subst; auto.
  Qed.

  Lemma html_F_al jump c : alj jump → ∀ out, fine c → html_F similar broken h force str jump c = Ok out → al out.
  Proof.
    intros J.
    induction c as [s|l IH|l IH|l IH|sec t rc o l IH|c t IH|s|s|st b c ps IH IHps|t l ti x IHt IHx|p d|l o IH|rows IH|defs IH|b t|c IH]
      using content_ind'; intros out [C FL]; cbn [html_F clean link_targets] in *.
    - intros [= <-]. apply al_escape.
    - destruct (omapM _ l) as [ss| | |] eqn:E; cbn [obind]; try done. intros [= <-]. apply al_concat.
      eapply omapM_al; [exact IH|by apply fine_all|done].
    - destruct (omapM _ l) as [ss| | |] eqn:E; cbn [obind]; try done. intros [= <-].
      apply (al_app _ "<p>"); [apply al_lit; reflexivity|]. apply al_app; [|apply al_lit; reflexivity].
      apply al_join; [apply al_lit; reflexivity|]. eapply omapM_al; [exact IH|by apply fine_all|done].
    - destruct (omapM _ l) as [ss| | |] eqn:E; cbn [obind]; try done. intros [= <-].
      apply al_join; [apply al_lit; reflexivity|]. eapply omapM_al; [exact IH|by apply fine_all|done].
    - apply reference_al; [done|]. destruct rc; simpl; [by split|done].
    - destruct (html_F _ _ _ _ _ _ c) as [s| | |]; cbn [obind]; try done. intros [= <-].
      apply al_href; [apply FL; by left|]. apply IH; [|done]. split; [done|]. intros u Hu. apply FL. by right.
    - unfold visit_section, need. destruct (h !! s) as [x|] eqn:Hx; [|done].
      destruct (_ || _); [by apply section_al|]. destruct (String.eqb (s_style x) "page"); [by apply page_al|].
      destruct (String.eqb (s_style x) "toc"); [by apply toc_al|].
      destruct (String.eqb (s_style x) "string"); [intros (t & E)%text_of_Ok; injection E as <-; apply al_escape|].
      destruct (String.eqb_spec (s_style x) "raw-html"); [|done]. by destruct (Hh _ _ Hx) as (Hs & _).
    - by apply toc_al.
    - apply andb_true_iff in C as [C1 C2]. destruct (styled_wrap _ _) as [[pre post]|] eqn:Ew.
      + destruct (html_F _ _ _ _ _ _ c) as [s| | |]; cbn [obind]; try done. intros [= <-]. eapply al_styled; [done|].
        apply IH; [by split|done].
      + destruct (String.eqb st "string"); [intros (t & E)%text_of_Ok; injection E as <-; apply al_escape|].
        by destruct (String.eqb st "raw-html").
    - intros [= <-]. apply al_id.
    - intros [= <-]. apply al_img.
    - destruct (omapM _ l) as [ss| | |] eqn:E; cbn [obind]; try done. intros [= <-]. apply al_list.
      eapply omapM_al; [exact IH|by apply fine_all|done].
    - destruct (omapM _ rows) as [rs| | |] eqn:E; cbn [obind]; try done. intros [= <-]. apply al_table.
      apply omapM_Ok in E. induction E as [|r ss rows rs Hr F IHr]; constructor; inversion IH; subst;
        simpl in C; apply andb_true_iff in C as [C1 C2].
      + eapply omapM_al; [done| |done]. apply fine_all; [done|]. intros u Hu. apply FL. simpl. apply elem_of_app. by left.
      + apply IHr; [done|done|]. intros u Hu. apply FL. simpl. apply elem_of_app. by right.
    - destruct (omapM _ defs) as [ds| | |] eqn:E; cbn [obind]; try done. intros [= <-]. apply al_defs.
      apply omapM_Ok in E. induction E as [|[s d] p defs ds Hr F IHr]; constructor; inversion IH as [|? ? [H1 H2] H3]; subst;
        simpl in C; apply andb_true_iff in C as [C1 C2].
      + simpl in H1, H2. apply andb_true_iff in C1 as [C1 C3].
        destruct (html_F _ _ _ _ _ _ s) as [s'| | |]; cbn [obind] in Hr; try done.
        destruct (html_F _ _ _ _ _ _ d) as [d'| | |]; cbn [obind] in Hr; try done. injection Hr as <-. simpl. split.
        * apply H1; [|done]. split; [done|]. intros u Hu. apply FL. simpl. rewrite !elem_of_app. auto.
        * apply H2; [|done]. split; [done|]. intros u Hu. apply FL. simpl. rewrite !elem_of_app. auto.
      + apply IHr; [done|done|]. intros u Hu. apply FL. simpl. apply elem_of_app. by right.
    - destruct (force t) as [x|] eqn:Ef; [|done]. apply J. apply fine_on_pages; [|by eapply Hf]. right. eauto.
    - by apply IH.
  Qed.

  Lemma html_al n : ∀ c out, fine c → html similar broken h force str n c = Ok out → al out.
  Proof.
    induction n as [|n IH]; intros c out C E; cbn [html] in E; eapply html_F_al; try exact E; try done.
  Qed.
  Lemma html_page_al n i out : html_page similar broken h force str n i = Ok out → al out.
  Proof. apply page_al. intros c o. apply html_al. Qed.
End html.
