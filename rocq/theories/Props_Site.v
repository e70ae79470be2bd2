(** The pages of the documentation: C87. *)
From Coq Require Import Ascii String Lia.
From stdpp Require Import base tactics relations functions strings list.
From Verif Require Import TmplHtml DocsPages GoBase StrProofs Ast Content ContentProofs Section TreeSpec TreeProofs NavProofs TagProofs QueryProofs Evaluate Collect CollectProofs LoadProofs Render Html TextRender
  Templates Tmpl TmplSrc TmplEsc TmplExec TmplBundled TmplSpec TmplProofs RenderFuel HtmlProofs HtmlRender TmplMono DocsTmpl
  Props_Refs SiteSpec MembersSpec MembersProofs Props_Members Props_Html Props_Tmpl Demo BookHtml SiteLoad.
Local Open Scope string_scope.
Local Open Scope list_scope.




Lemma Forall2_within {A B} (P Q : A → B → Prop) l k : Forall2 P l k → (∀ x y, x ∈ l → P x y → Q x y) → Forall2 Q l k.
Proof.
  induction 1 as [|x y l k H _ IH]; intros F; constructor.
  - apply F; [by left|done].
  - apply IH. intros a b Ha. apply F. by right.
Qed.

Section site.
  Context (similar : string → string → bool) (broken : bool) (h : heap).
  Context (force : nat → option content) (str : content → outcome error string).

  Notation rn n t := (run similar broken h force str "html" true docs_set n t).
  (** With the templates of the documentation a content is rendered as, and a page
      is, this. *)
  Definition shows (c : content) (s : string) : Prop := ∃ n, rn n (TRender c) = Ok s.
  Definition shows_page (i : nat) (s : string) : Prop := ∃ n, run_page similar broken h force str "html" true docs_set n i = Ok s.

  Lemma rn_more n m t s : rn n t = Ok s → n ≤ m → rn m t = Ok s.
  Proof. intros E L. eapply run_more; [exact E|done|exact L]. Qed.
  Lemma rn_exec n name t v : assoc_get name docs_escaped = Some t →
    rn (S n) (TExec name v) = exec similar broken h str "html" true (λ c, rn n (TRender c)) (λ name v, rn n (TExec name v)) (tree name) v.
  Proof.
    intros E. destruct (docs_escaped_get _ _ E) as (t0 & Ht & He). cbn [run]. rewrite Ht, He. unfold tree. by rewrite E.
  Qed.
  Lemma rn_content n c name v t : template_of h c = Some (name, v) → assoc_get (name +:+ ".tmpl") docs_escaped = Some t →
    rn (S n) (TRender c) =
    exec similar broken h str "html" true (λ c, rn n (TRender c)) (λ name v, rn n (TExec name v)) (tree (name +:+ ".tmpl")) v.
  Proof.
    intros E1 E2. rewrite <- (rn_exec n _ t v E2). destruct c; cbn [run]; try discriminate E1; rewrite E1; reflexivity.
  Qed.
  Lemma common {A B} (F : nat → A → outcome rerr B) l ys : (∀ n m x y, F n x = Ok y → n ≤ m → F m x = Ok y) →
    Forall2 (λ x y, ∃ n, F n x = Ok y) l ys → ∃ n, ∀ m, n ≤ m → omapM (F m) l = Ok ys.
  Proof.
    intros M. induction 1 as [|x y l ys (n & Hn) _ (k & IH)]; [by exists 0|].
    exists (n `max` k). intros m Hm. apply omapM_all. constructor; [eapply M; [exact Hn|lia]|].
    specialize (IH m ltac:(lia)). by apply omapM_Ok.
  Qed.
  Lemma each {A B} (F : nat → A → outcome rerr B) n l ys : omapM (F n) l = Ok ys → Forall2 (λ x y, ∃ n, F n x = Ok y) l ys.
  Proof. intros E%omapM_Ok. eapply Forall2_impl; [exact E|]. intros x y Hx. by exists n. Qed.

  (** ** Contents *)

  Theorem site_styles n pre post b x ps out : (n, (pre, post)) ∈ site_wraps →
    shows (CStyled n b x ps) out ↔ ∃ s, shows x s ∧ out = pre +:+ s +:+ post.
  Proof.
    intros Hn. assert (∃ t, assoc_get (n +:+ ".tmpl") docs_escaped = Some t) as (t & Ht).
    { unfold site_wraps in Hn. repeat (apply elem_of_cons in Hn as [[= -> -> ->]|Hn]; [eexists; vm_compute; reflexivity|]). by apply elem_of_nil in Hn. }
    split.
    - intros ([|k] & E); [done|]. erewrite rn_content in E by done. rewrite (t_wraps _ _ _ _ _ _ _ _ _ _ _ _ _ Hn) in E.
      destruct (rn k (TRender x)) as [s| | |] eqn:Ex; try done. injection E as <-. exists s. split; [by exists k|done].
    - intros (s & (k & E) & ->). exists (S k). erewrite rn_content by done. rewrite (t_wraps _ _ _ _ _ _ _ _ _ _ _ _ _ Hn), E. done.
  Qed.

  Theorem site_columns_are b x l out : shows (CStyled "columns" b x [("Columns", Some (CSeq l))]) out ↔
    ∃ t cs, shows x t ∧ Forall2 shows l cs ∧ out = site_columns t cs.
  Proof.
    split.
    - intros ([|k] & E); [done|]. erewrite rn_content in E by reflexivity. cbn [append] in E. rewrite t_columns in E.
      destruct (rn k (TRender x)) as [t| | |] eqn:Ex; try done. cbn [obind] in E.
      destruct (omapM _ l) as [cs| | |] eqn:El; try done. injection E as <-. exists t, cs. split; [by exists k|]. split; [|done].
      exact (each (λ n c, rn n (TRender c)) k l cs El).
    - intros (t & cs & (k & Ex) & Hl & ->).
      destruct (common (λ n c, rn n (TRender c)) l cs) as (m & Hm); [intros; by eapply rn_more|exact Hl|].
      exists (S (k `max` m)). erewrite rn_content by reflexivity. cbn [append]. rewrite t_columns.
      rewrite (rn_more _ (k `max` m) _ _ Ex) by lia. cbn [obind]. by rewrite Hm by lia.
  Qed.

  Theorem site_definition_is b x y out : shows (CStyled "definition" b x [("Thumb", Some y)]) out ↔
    ∃ t c, shows y t ∧ shows x c ∧ out = site_definition t c.
  Proof.
    split.
    - intros ([|k] & E); [done|]. erewrite rn_content in E by reflexivity. cbn [append] in E. rewrite t_definition in E.
      destruct (rn k (TRender y)) as [t| | |] eqn:Ey; try done. cbn [obind] in E.
      destruct (rn k (TRender x)) as [c| | |] eqn:Ex; try done. injection E as <-. exists t, c. split; [by exists k|]. split; [by exists k|done].
    - intros (t & c & (k & Ey) & (m & Ex) & ->). exists (S (k `max` m)). erewrite rn_content by reflexivity. cbn [append]. rewrite t_definition.
      rewrite (rn_more _ (k `max` m) _ _ Ey) by lia. cbn [obind]. by rewrite (rn_more _ (k `max` m) _ _ Ex) by lia.
  Qed.

  (** ** Contents without templates of their own in the documentation *)

  Lemma rn_toc n i : rn n (TExec "toc.tmpl" (VSec i)) = rn n (TRender (CToc i)).
  Proof. by destruct n. Qed.
  Lemma rn_bundled n name v : assoc_get name docs_trees = None →
    rn (S n) (TExec name v) = named similar broken h str (λ c, rn n (TRender c)) (λ name v, rn n (TExec name v)) name v.
  Proof.
    intros E. cbn [run]. rewrite docs_set_get, E. unfold named. destruct (html_escaped_get name) as [A B].
    destruct (bundled_html name) as [t|]; cbn [base.mbind option_bind] in A.
    - destruct (esc_tree t) as [t'|]; rewrite <- A; [done|]. symmetry in A. by apply B in A.
    - by rewrite <- A.
  Qed.

  (** What they are rendered as, from what their parts are. *)
  Lemma others (Q : Prop) c name v out : strings_ok h str → template_of h c = Some (name, v) →
    assoc_get (name +:+ ".tmpl") docs_trees = None →
    (∀ n, html_1 similar broken h force str (λ c, rn n (TRender c)) (λ c, rn n (TRender c)) c = Ok out → Q) →
    (Q → ∃ n, html_1 similar broken h force str (λ c, rn n (TRender c)) (λ c, rn n (TRender c)) c = Ok out) →
    shows c out ↔ Q.
  Proof.
    intros Hs Ht Hd F B.
    assert (∀ n, rn (S n) (TRender c) = Ok out ↔ html_1 similar broken h force str (λ c, rn n (TRender c)) (λ c, rn n (TRender c)) c = Ok out) as E.
    { intros n. assert (rn (S n) (TRender c) = rn (S n) (TExec (name +:+ ".tmpl") v)) as ->.
      { destruct c; cbn [run]; try discriminate Ht; rewrite Ht; reflexivity. }
      rewrite rn_bundled by done.
      pose proof (visit_one similar broken h force str (λ c, rn n (TRender c)) (λ name v, rn n (TExec name v)) (rn_toc n) (proj1 Hs) (proj2 Hs) c) as V.
      rewrite Ht in V.
      assert (like (named similar broken h str (λ c, rn n (TRender c)) (λ name v, rn n (TExec name v)) (name +:+ ".tmpl") v)
        (html_1 similar broken h force str (λ c, rn n (TRender c)) (λ c, rn n (TRender c)) c)) as L by (destruct c; done).
      revert L. destruct (named _ _ _ _ _ _ _ _), (html_1 _ _ _ _ _ _ _ _); cbn [like]; try done. by intros ->. }
    split.
    - intros ([|n] & H); [done|]. by apply (F n), E.
    - intros HQ. destruct (B HQ) as (n & H). exists (S n). by apply E.
  Qed.
  Lemma rn_list l ss : (∃ n, omapM (λ c, rn n (TRender c)) l = Ok ss) ↔ Forall2 shows l ss.
  Proof.
    split; [intros (n & E); exact (each (λ n c, rn n (TRender c)) n l ss E)|]. intros H.
    destruct (common (λ n c, rn n (TRender c)) l ss) as (n & E); [|exact H|by exists n; apply E].
    intros n m x y E L. by eapply rn_more.
  Qed.
  Lemma others_list c name v l (f : list string → string) out : strings_ok h str → template_of h c = Some (name, v) →
    assoc_get (name +:+ ".tmpl") docs_trees = None →
    (∀ n, html_1 similar broken h force str (λ c, rn n (TRender c)) (λ c, rn n (TRender c)) c =
      obind (λ ss, Ok (f ss)) (omapM (λ c, rn n (TRender c)) l)) →
    shows c out ↔ ∃ ss, Forall2 shows l ss ∧ out = f ss.
  Proof.
    intros Hs Ht Hd E. eapply others; [done|exact Ht|done|..].
    - intros n. rewrite E. destruct (omapM _ _) as [ss| | |] eqn:Ess; try done. intros [= <-]. exists ss. split; [|done]. apply rn_list. by exists n.
    - intros (ss & H & ->). apply rn_list in H as (n & En). exists n. by rewrite E, En.
  Qed.

  (** Text, sequences, paragraphs, preformatted text, lists, links, images and
      anchors are as without the templates of the documentation, around what their
      parts are with them. *)
  Theorem site_plain : strings_ok h str →
    (∀ s out, shows (CString s) out ↔ out = escape s) ∧
    (∀ l out, shows (CSeq l) out ↔ ∃ ss, Forall2 shows l ss ∧ out = sconcat ss) ∧
    (∀ l out, shows (CPara l) out ↔ ∃ ss, Forall2 shows l ss ∧ out = "<p>" +:+ sjoin " " ss +:+ "</p>") ∧
    (∀ l out, shows (CPre l) out ↔ ∃ ss, Forall2 shows l ss ∧ out = sjoin nls ss) ∧
    (∀ l o out, shows (CList l o) out ↔ ∃ ss, Forall2 shows l ss ∧ out = list_html o ss) ∧
    (∀ x u out, shows (CLink x u) out ↔ ∃ s, shows x s ∧ out = "<a href=""" +:+ url_attr u +:+ """>" +:+ s +:+ "</a>") ∧
    (∀ p d out, shows (CImage p d) out ↔ out = "<img src=""" +:+ url_attr p +:+ """ alt=""" +:+ escape d +:+ """ />") ∧
    (∀ x out, shows (CAux x) out ↔ shows x out) ∧
    (∀ b t out, shows (CLazy b t) out ↔ ∃ x, force t = Some x ∧ shows x out).
  Proof.
    intros Hs. split_and!.
    - intros s out. eapply others; [done|reflexivity|reflexivity|..]; [by intros n [= <-]|]. intros ->. by exists 0.
    - intros l out. by eapply (others_list _ _ _ _ sconcat); [|reflexivity|reflexivity|].
    - intros l out. by eapply (others_list _ _ _ _ (λ ss, "<p>" +:+ sjoin " " ss +:+ "</p>")); [|reflexivity|reflexivity|].
    - intros l out. by eapply (others_list _ _ _ _ (sjoin nls)); [|reflexivity|reflexivity|].
    - intros l o out. by eapply (others_list _ _ _ _ (list_html o)); [|reflexivity|reflexivity|].
    - intros x u out. eapply others; [done|reflexivity|reflexivity|..].
      + intros n. cbn [html_1]. destruct (rn n (TRender x)) as [s| | |] eqn:E; try done. intros [= <-]. exists s. split; [by exists n|done].
      + intros (s & (n & E) & ->). exists n. cbn [html_1]. by rewrite E.
    - intros p d out. eapply others; [done|reflexivity|reflexivity|..]; [by intros n [= <-]|]. intros ->. by exists 0.
    - intros x out. split.
      + intros ([|n] & E); [done|]. by exists n.
      + intros (n & E). by exists (S n).
    - intros b t out. split.
      + intros ([|n] & E); [discriminate E|]. cbn [run] in E. destruct (force t) as [x|]; [|discriminate E]. exists x. split; [reflexivity|]. exists n. exact E.
      + intros (x & Hx & n & E). exists (S n). cbn [run]. rewrite Hx. exact E.
  Qed.

  Lemma rn_rows rows rs : (∃ n, omapM (λ row, omapM (λ c, rn n (TRender c)) row) rows = Ok rs) ↔ Forall2 (Forall2 shows) rows rs.
  Proof.
    split.
    - intros (n & E). apply (each (λ n row, omapM (λ c, rn n (TRender c)) row) n) in E.
      eapply Forall2_impl; [exact E|]. intros row r. apply rn_list.
    - intros H. destruct (common (λ n row, omapM (λ c, rn n (TRender c)) row) rows rs) as (n & E).
      + intros n m row r E%omapM_Ok L. apply omapM_all. eapply Forall2_impl; [exact E|]. intros c x Ex. exact (rn_more n m _ _ Ex L).
      + eapply Forall2_impl; [exact H|]. intros row r Hr. by apply rn_list.
      + by exists n; apply E.
  Qed.

  (** So are anchors, tables, definitions and the styles that are not redefined. *)
  Theorem site_kept : strings_ok h str →
    (∀ t x y l out, shows (CTarget t x y l) out ↔ out = "<a id=""" +:+ escape t +:+ """></a>") ∧
    (∀ rows out, shows (CTable rows) out ↔ ∃ rs, Forall2 (Forall2 shows) rows rs ∧ out = table_html rs) ∧
    (∀ defs out, shows (CDefs defs) out ↔
      ∃ ds, Forall2 (λ (p : content * content) (q : string * string), shows p.1 q.1 ∧ shows p.2 q.2) defs ds ∧ out = defs_html ds) ∧
    (∀ st b x ps pre post out, styled_wrap st (is_flow (CStyled st b x ps)) = Some (pre, post) →
      shows (CStyled st b x ps) out ↔ ∃ s, shows x s ∧ out = pre +:+ s +:+ post).
  Proof.
    intros Hs. split_and!.
    - intros t x y l out. eapply others; [exact Hs|reflexivity|reflexivity|..]; [by intros n [= <-]|]. intros ->. by exists 0.
    - intros rows out. eapply others; [exact Hs|reflexivity|reflexivity|..].
      + intros n. cbn [html_1]. destruct (omapM _ _) as [rs| | |] eqn:E; try discriminate. intros [= <-]. exists rs. split; [|reflexivity].
        apply rn_rows. by exists n.
      + intros (rs & H & ->). apply rn_rows in H as (n & E). exists n. cbn [html_1]. by rewrite E.
    - intros defs out. eapply others; [exact Hs|reflexivity|reflexivity|..].
      + intros n. cbn [html_1]. destruct (omapM _ _) as [ds| | |] eqn:E; try discriminate. intros [= <-]. exists ds. split; [|reflexivity].
        apply omapM_Ok in E. eapply Forall2_impl; [exact E|]. intros [c d] q. cbn [fst snd].
        destruct (rn n (TRender c)) as [x| | |] eqn:Ec; try discriminate. cbn [obind].
        destruct (rn n (TRender d)) as [y| | |] eqn:Ed; try discriminate. intros [= <-]. split; by exists n.
      + intros (ds & H & ->).
        destruct (common (λ n (p : content * content), match p with (s, d) =>
          obind (λ s, obind (λ d, Ok (s, d)) (rn n (TRender d))) (rn n (TRender s)) end) defs ds) as (n & E).
        * intros n m [c d] q. destruct (rn n (TRender c)) as [x| | |] eqn:Ec; try discriminate. cbn [obind].
          destruct (rn n (TRender d)) as [y| | |] eqn:Ed; try discriminate. intros E L.
          rewrite (rn_more _ _ _ _ Ec L). cbn [obind]. by rewrite (rn_more _ _ _ _ Ed L).
        * eapply Forall2_impl; [exact H|]. intros [c d] [x y] ((n & Ec) & (m & Ed)). cbn [fst snd] in *. exists (n `max` m).
          rewrite (rn_more _ (n `max` m) _ _ Ec) by lia. cbn [obind]. by rewrite (rn_more _ (n `max` m) _ _ Ed) by lia.
        * exists n. cbn [html_1]. by rewrite E.
    - intros st b x ps pre post out W.
      assert (assoc_get (st +:+ ".tmpl") docs_trees = None) as Hd.
      { unfold styled_wrap in W.
        repeat match type of W with (if String.eqb st ?n then _ else _) = _ => destruct (String.eqb_spec st n) as [->|_]; [vm_compute; reflexivity|] end.
        discriminate W. }
      eapply others; [exact Hs|reflexivity|exact Hd|..].
      + intros n. cbn [html_1]. rewrite W. destruct (rn n (TRender x)) as [s| | |] eqn:E; try discriminate. intros [= <-].
        exists s. split; [by exists n|reflexivity].
      + intros (s & (n & E) & ->). exists n. cbn [html_1]. rewrite W. by rewrite E.
  Qed.

  (** The frame takes what the URL is rendered as for the URL. *)
  Lemma frame_is b x y out : shows (CStyled "output-frame" b x [("URL", Some y)]) out ↔ ∃ s, shows y s ∧ out = site_frame s.
  Proof.
    split.
    - intros ([|k] & E); [done|]. erewrite rn_content in E by reflexivity. cbn [append] in E. rewrite t_frame in E.
      destruct (rn k (TRender y)) as [s| | |] eqn:Ey; try done. injection E as <-. exists s. split; [by exists k|done].
    - intros (s & (k & Ey) & ->). exists (S k). erewrite rn_content by reflexivity. cbn [append]. by rewrite t_frame, Ey.
  Qed.

  (** So a URL without characters special in HTML is the frame's. *)
  Theorem site_frames b x u out : strings_ok h str → escape u = u →
    shows (CStyled "output-frame" b x [("URL", Some (CString u))]) out ↔ out = site_frame u.
  Proof.
    intros Hs Hu. rewrite frame_is. destruct (site_plain Hs) as (P & _). split.
    - intros (s & Es & ->). apply P in Es as ->. by rewrite Hu.
    - intros ->. exists u. split; [|done]. apply P. by rewrite Hu.
  Qed.

  (** A section styled as splash is its body without a heading. *)
  Theorem site_splash i s out : h !! i = Some s → s_style s = "splash" → shows (CSection i) out ↔ shows (s_body s) out.
  Proof.
    intros Hi Hs. assert (template_of h (CSection i) = Some ("splash", VSec i)) as Ht.
    { cbn [template_of]. rewrite Hi. cbn [base.mbind option_bind]. by rewrite Hs. }
    split.
    - intros ([|k] & E); [done|]. erewrite rn_content in E by (exact Ht || reflexivity). cbn [append] in E.
      erewrite t_splash in E by done. by exists k.
    - intros (k & E). exists (S k). erewrite rn_content by (exact Ht || reflexivity). cbn [append]. by erewrite t_splash.
  Qed.

  (** ** Pages *)

  Section tree.
    Context (r : nat) (W : wf h) (O : tags_owned h) (G : tagged h) (T : is_top h r) (S : strings_ok h str).

    Lemma tag_at t c u : descendant h r c → t_section t = Some c → tag_url h "html" t = Some u ↔ address h "html" c (t_anchor t) u.
    Proof.
      intros D Ht. pose proof (functions_give h r (λ _, Panic) "html" true (λ _, NoFuel) "url" [VTag t] (VStr u) W T) as F.
      assert (passed h r [VTag t]) as P.
      { split; [|intros j Hj; by apply elem_of_list_singleton in Hj].
        intros t' Ht'%elem_of_list_singleton. injection Ht' as ->. eauto. }
      specialize (F P). change (apply_func h (λ _, Panic) "html" true (λ _, NoFuel) "url" [VTag t]) with (want (tag_url h "html" t) VStr) in F.
      split.
      - intros E. rewrite E in F. destruct F as [F _]. specialize (F eq_refl). inversion F; subst. congruence.
      - intros E. destruct F as [_ F]. specialize (F (ap_url _ _ _ _ _ _ _ _ Ht E)). destruct (tag_url h "html" t); [|done]. by injection F as ->.
    Qed.
    Lemma url_reached c x u : descendant h r c → h !! c = Some x → tag_url h "html" (s_primary x) = Some u ↔ reached h c u.
    Proof.
      intros D Hc. split.
      - intros E. destruct (G c x Hc) as [E0|Hin]; [by rewrite E0 in E|]. exists x. split_and!; [done|done|].
        apply tag_at; [done| |done]. by eapply O.
      - intros (x' & Hc' & Hin & A). rewrite Hc in Hc'. injection Hc' as <-. apply (tag_at _ c); [done|by eapply O|done].
    Qed.
    Lemma valid_below i : descendant h r i → valid h i.
    Proof. intros D. eapply descendant_valid; [done| |done]. destruct T as (x & Hx & _). by eapply lookup_lt_Some. Qed.
    Lemma contains_is c i b : descendant h r c → contains h c i = Some b ↔ (b = true ↔ descendant h c i).
    Proof.
      intros D. destruct (contains_spec h c i W (valid_below _ D)) as (b' & -> & Hb). split.
      - by intros [= ->].
      - intros H. f_equal. destruct b, b'; try done; exfalso; naive_solver.
    Qed.
    Lemma top_is i : descendant h r i → top h i = Some r.
    Proof. intros D. apply top_spec; [done|by apply valid_below|]. split; [done|by apply descendant_ancestor]. Qed.
    Lemma below_r rs c : h !! r = Some rs → c ∈ s_children rs → descendant h r c.
    Proof. intros Hr Hc. apply rtc_once. by exists rs. Qed.
    Lemma no_parent i s : descendant h r i → h !! i = Some s → (match s_parent s with None => true | Some _ => false end) = bool_decide (i = r).
    Proof.
      intros D Hi. destruct (s_parent s) as [p|] eqn:E.
      - symmetry. apply bool_decide_eq_false. intros ->. destruct T as (x & Hx & Hn). congruence.
      - symmetry. apply bool_decide_eq_true. symmetry. eapply top_descendant_eq; [done| |done]. by exists s.
    Qed.

    Definition Rn (n : nat) (c : content) : rendered := rn n (TRender c).
    Lemma nav_more i n m c s : nav h (Rn n) i c = Ok s → n ≤ m → nav h (Rn m) i c = Ok s.
    Proof.
      unfold nav. intros E L. destruct (h !! c) as [x|]; [|done]. cbn [need] in *. destruct (contains h c i) as [cb|]; [|done]. cbn [need] in *.
      destruct (tag_url _ _ _) as [u|]; [|done]. cbn [need] in *. destruct (strip_aux _) as [t|]; [|done]. cbn [need] in *.
      destruct (Rn n t) as [b| | |] eqn:Et; try done. unfold Rn in *. by rewrite (rn_more _ _ _ _ Et L).
    Qed.
    Lemma nav_is i c s : descendant h r c → (∃ n, nav h (Rn n) i c = Ok s) ↔ nav_for h shows i c s.
    Proof.
      intros D. unfold nav. split.
      - intros (n & E). destruct (h !! c) as [x|] eqn:Hc; [|done]. cbn [need] in *. destruct (contains h c i) as [b|] eqn:Hb; [|done]. cbn [need] in *.
        destruct (tag_url _ _ _) as [u|] eqn:Hu; [|done]. cbn [need] in *. destruct (strip_aux _) as [t|] eqn:Hs; [|done]. cbn [need] in *.
        destruct (Rn n t) as [ti| | |] eqn:Et; try done. injection E as <-. exists x, b, u, t, ti. split_and!; [done| | |done|by exists n|done].
        + by apply contains_is.
        + by eapply url_reached.
      - intros (x & b & u & t & ti & Hc & Hb & Hu & Hs & (n & Ht) & ->). exists n. rewrite Hc. cbn [need].
        rewrite (proj2 (contains_is c i b D) Hb). cbn [need]. rewrite (proj2 (url_reached c x u D Hc) Hu). cbn [need]. rewrite Hs. cbn [need].
        unfold Rn. by rewrite Ht.
    Qed.

    Lemma run_page_is n i s : h !! i = Some s →
      run_page similar broken h force str "html" true docs_set n i = rn n (TExec "page.tmpl" (VSec i)).
    Proof.
      intros Hi. unfold run_page. rewrite Hi. destruct (String.eqb (s_style s) ""); [done|]. by rewrite docs_no_page.
    Qed.

    (** Every page is as described, and every section is given its page unless some
        part of that cannot be rendered. *)
    Theorem site_pages i out : descendant h r i → shows_page i out ↔ page_for h shows str r i out.
    Proof.
      intros D. destruct (lookup_lt_is_Some_2 h i (valid_below _ D)) as [s Hi].
      destruct T as (rs & Hr & Hn). destruct S as [_ Sd].
      assert (∀ n, run_page similar broken h force str "html" true docs_set (Datatypes.S n) i =
        text_of str (s_title s) (λ t, need (tag_url h "html" (s_primary rs)) (λ u, obind (λ ns, obind (λ b,
          Ok (site_page t (bool_decide (i = r)) u ns b)) (Rn n (CSection i))) (omapM (nav h (Rn n) i) (s_children rs))))) as E.
      { intros n. rewrite (run_page_is _ i s Hi). erewrite rn_exec by reflexivity.
        rewrite (t_page _ _ _ _ _ _ Sd i s r rs Hi (top_is i D) Hr). by rewrite (no_parent i s D Hi). }
      unfold text_of in E. split.
      - intros ([|n] & En).
        { unfold run_page in En. rewrite Hi in En. destruct (String.eqb _ _); [done|]. by rewrite docs_no_page in En. }
        rewrite E in En. clear E. destruct (str (s_title s)) as [t| | |] eqn:Et; try done.
        destruct (tag_url _ _ _) as [u|] eqn:Eu; [|done]. cbn [need] in En.
        destruct (omapM _ _) as [ns| | |] eqn:Ens; try done. cbn [obind] in En.
        destruct (Rn n (CSection i)) as [b| | |] eqn:Eb; try done. injection En as <-.
        exists s, rs, t, u, ns, b. split_and!; [done|done|done| | |by exists n|done].
        + eapply url_reached; [constructor|done|done].
        + apply (each (λ n, nav h (Rn n) i) n) in Ens. eapply Forall2_within; [exact Ens|]. intros c x Hc Hx. apply nav_is; [|done]. by eapply below_r.
      - intros (s' & rs' & t & u & ns & b & Hi' & Hr' & Et & Hu & Hns & (m & Eb) & ->).
        rewrite Hi in Hi'. injection Hi' as <-. rewrite Hr in Hr'. injection Hr' as <-.
        destruct (common (λ n, nav h (Rn n) i) (s_children rs) ns) as (k & Hk).
        { intros n n' x y H1 H2. by eapply nav_more. }
        { eapply Forall2_within; [exact Hns|]. intros c x Hc Hx. apply nav_is; [|done]. by eapply below_r. }
        exists (Datatypes.S (m `max` k)). rewrite E, Et. apply (url_reached r rs u) in Hu; [|constructor|done]. rewrite Hu. cbn [need].
        rewrite Hk by lia. cbn [obind]. unfold Rn. by rewrite (rn_more _ (m `max` k) _ _ Eb) by lia.
    Qed.

    Lemma level_is i d : descendant h r i → header_depth h i = Some d ↔ heading_level h i d.
    Proof.
      intros D.
      pose proof (λ v, functions_give h r (λ _, Panic) "html" true (λ _, NoFuel) "headerDepth" [VSec i] v W T) as F.
      assert (passed h r [VSec i]) as P.
      { split; [by intros t' Ht'%elem_of_list_singleton|]. intros j Hj%elem_of_list_singleton. by injection Hj as ->. }
      assert (∀ v, want (header_depth h i) VInt = Ok v ↔ applied h (λ _, Panic) "html" true (λ _, NoFuel) "headerDepth" [VSec i] v) as F'.
      { intros v. exact (F v P). }
      split.
      - intros E. specialize (F' (VInt d)). rewrite E in F'. destruct F' as [F' _]. specialize (F' eq_refl).
        inversion F'; subst. unfold heading_level. eauto 6.
      - intros (a & k & H1 & H2 & ->). specialize (F' (VInt (Nat.min 6 (Datatypes.S k)))). destruct F' as [_ F'].
        specialize (F' (ap_depth _ _ _ _ _ _ _ _ eq_refl H1 H2)). destruct (header_depth h i); [|discriminate F']. by injection F' as ->.
    Qed.
    Lemma number_is i n : descendant h r i → number h i = Some n ↔ ∃ l, n = sjoin "." (map dec l) ∧ position h i l.
    Proof.
      intros D. split.
      - intros E. destruct (position_exists h r i W T D) as (l & Hl). exists l. split; [|done]. rewrite (number_position _ _ _ W Hl) in E. by injection E as <-.
      - intros (l & -> & Hl). by apply number_position.
    Qed.

    (** A section is its heading with its number, its body and the sections below it
        that are on the page. *)
    Theorem site_sections i s out : descendant h r i → h !! i = Some s → s_style s = "" ∨ s_style s = "section" →
      shows (CSection i) out ↔ section_for h shows r i out.
    Proof.
      intros D Hi Hs. assert (template_of h (CSection i) = Some ("section", VSec i)) as Ht.
      { cbn [template_of]. rewrite Hi. cbn [base.mbind option_bind]. by destruct Hs as [-> | ->]. }
      assert (∀ n, rn (Datatypes.S n) (TRender (CSection i)) =
        exec similar broken h str "html" true (λ c, rn n (TRender c)) (λ name v, rn n (TExec name v)) (tree "section.tmpl") (VSec i)) as E.
      { intros n. exact (rn_content n _ _ _ _ Ht eq_refl). }
      pose proof (no_parent i s D Hi) as N.
      split.
      - intros ([|n] & En); [discriminate En|]. rewrite E in En. erewrite DocsPages.t_section in En by done. clear E.
        destruct (header_depth h i) as [d|] eqn:Ed; [|discriminate En]. cbn [need] in En.
        match type of En with obind _ ?x = _ => destruct x as [num| | |] eqn:En' end; try discriminate En. cbn [obind] in En.
        destruct (rn n (TRender (s_title s))) as [t| | |] eqn:Et; try discriminate En. cbn [obind] in En.
        destruct (rn n (TRender (s_body s))) as [b| | |] eqn:Eb; try discriminate En. cbn [obind] in En.
        match type of En with obind _ ?x = _ => destruct x as [l| | |] eqn:El end; try discriminate En. cbn [obind] in En. injection En as <-.
        exists s, d, num, t, b, l. split_and!; [done|by apply level_is| |by exists n|by exists n| |done].
        + rewrite <- N. destruct (s_parent s); [|by injection En' as <-].
          destruct (tag_url _ _ _) as [u|] eqn:Eu; [|discriminate En']. destruct (number h i) as [nu|] eqn:Enu; [|discriminate En'].
          injection En' as <-. apply (number_is i nu D) in Enu as (l0 & -> & Hl). exists u, l0. split; [done|]. split; [|done].
          by apply (url_reached i s u D Hi).
        + destruct (s_split s); [by injection El as <-|]. destruct (omapM _ _) as [ls| | |] eqn:Els; try discriminate El.
          injection El as <-. exists ls. split; [done|]. exact (each (λ n c, rn n (TRender (CSection c))) n _ _ Els).
      - intros (s' & d & num & t & b & l & Hi' & Hd & Hn & (n1 & Et) & (n2 & Eb) & Hl & ->). rewrite Hi in Hi'. injection Hi' as <-.
        assert (∃ k, ∀ m, k ≤ m → (if s_split s then Ok None else obind (λ l, Ok (Some l)) (omapM (λ c, rn m (TRender (CSection c))) (s_children s))) = Ok l) as (k & Hk).
        { destruct (s_split s); [by rewrite Hl; exists 0|]. destruct Hl as (ls & -> & Hls).
          destruct (common (λ n c, rn n (TRender (CSection c))) (s_children s) ls) as (k & Hk); [|exact Hls|].
          { intros n m x y Ex L. by eapply rn_more. }
          exists k. intros m Hm. by rewrite Hk. }
        exists (Datatypes.S (n1 `max` n2 `max` k)). rewrite E. erewrite DocsPages.t_section by done.
        rewrite (proj2 (level_is i d D) Hd). cbn [need].
        assert ((match s_parent s with
          | None => Ok None
          | Some _ => match tag_url h "html" (s_primary s), number h i with Some u, Some n => Ok (Some (u, n)) | _, _ => fails end
          end) = Ok num) as ->.
        { rewrite <- N in Hn. destruct (s_parent s); [|by rewrite Hn]. destruct Hn as (u & l0 & -> & Hu & Hl0).
          rewrite (proj2 (url_reached i s u D Hi) Hu). rewrite (proj2 (number_is i _ D)) by eauto. done. }
        cbn [obind]. rewrite (rn_more _ (n1 `max` n2 `max` k) _ _ Et) by lia. cbn [obind].
        rewrite (rn_more _ (n1 `max` n2 `max` k) _ _ Eb) by lia. cbn [obind]. rewrite Hk by lia. reflexivity.
    Qed.

    (** ** References *)

    Lemma refers_below sec name opt l t : descendant h r sec → MembersSpec.refers h broken sec name opt l (Some t) →
      ∃ i, t_section t = Some i ∧ descendant h r i.
    Proof.
      intros D H. remember (Some t) as o eqn:Eo. destruct H as [t' A| |]; [|discriminate Eo|injection Eo as <-; by exists sec].
      injection Eo as ->. destruct A as (ids & _ & Hin & P).
      assert (t ∈ flat_map (tags_at h (λ n, String.eqb n name)) ids) as Ht by (rewrite <- P; by left).
      apply elem_of_list_In, in_flat_map in Ht as (x & Hx & Ht). apply elem_of_list_In, Hin in Hx.
      apply (in_scope_tree h r sec x W T D) in Hx. exists x. split; [|done].
      unfold tags_at in Ht. destruct (h !! x) as [s|] eqn:Es; [|by destruct Ht].
      apply filter_In in Ht as [Ht _]. eapply O; [exact Es|by apply elem_of_list_In].
    Qed.

    (** A reference is a link to the one section with the tag, showing its own words or
        the title of what has the tag, without auxiliary parts. An optional one without
        such a section is its own words. *)
    Theorem site_references sec name rc opt l out : descendant h r sec →
      shows (CRef sec name rc opt l) out ↔ referring h shows broken sec name rc opt l out.
    Proof.
      intros D. pose proof (valid_below _ D) as V. unfold referring. eapply others; [exact S|reflexivity|reflexivity|..].
      - intros n. cbn [html_1]. unfold reference_tmpl, ref_display.
        destruct (ref_tag similar broken h sec name opt l) as [[t|]| | |] eqn:Et; try discriminate.
        + apply ref_refers in Et; [|done]. destruct (refers_below _ _ _ _ _ D Et) as (i & Hi & Di).
          destruct (tag_url h "html" t) as [u|] eqn:Eu; [|discriminate]. apply (tag_at t i u Di Hi) in Eu.
          destruct rc as [c|]; cbv beta iota; cbn [base.mbind option_bind].
          * destruct (strip_aux c) as [c'|] eqn:Ec; [|discriminate]. destruct (rn n (TRender c')) as [s| | |] eqn:Er; try discriminate.
            intros [= <-]. left. exists t, i, u, c, c', s. split_and!; try done. by exists n.
          * destruct (t_title t) as [c|] eqn:Eti; cbn [base.mbind option_bind]; [|discriminate].
            destruct (strip_aux c) as [c'|] eqn:Ec; [|discriminate]. destruct (rn n (TRender c')) as [s| | |] eqn:Er; try discriminate.
            intros [= <-]. left. exists t, i, u, c, c', s. split_and!; try done. by exists n.
        + apply ref_refers in Et; [|done]. destruct rc as [c|]; cbn [base.mbind option_bind need]; [|discriminate].
          destruct (strip_aux c) as [c'|] eqn:Ec; cbn [need]; [|discriminate]. intros Er. right. exists c, c'. split_and!; try done. by exists n.
      - intros [(t & i & u & c & c' & s & Et & Hi & Hu & Hc & Ec & (n & Er) & ->)|(c & c' & Et & -> & Ec & (n & Er))]; exists n; cbn [html_1]; unfold reference_tmpl, ref_display.
        + destruct (refers_below _ _ _ _ _ D Et) as (i' & Hi' & Di). rewrite Hi in Hi'. injection Hi' as <-.
          rewrite (refers_ref similar broken h _ _ _ _ _ W V O Et). rewrite (proj2 (tag_at t i u Di Hi) Hu).
          destruct rc as [x|]; cbv beta iota; [subst x|rewrite Hc]; cbn [base.mbind option_bind]; rewrite Ec; by rewrite Er.
        + rewrite (refers_ref similar broken h _ _ _ _ _ W V O Et). cbn [base.mbind option_bind]. rewrite Ec. exact Er.
    Qed.

    (** ** Tables of contents *)

    Definition toc_one (n c : nat) : outcome rerr (string * string * string * string) :=
      match h !! c with
      | None => Err RNil
      | Some cs =>
        match tag_url h "html" (s_primary cs), number h c, strip_aux (s_title cs) with
        | Some u, Some n', Some t =>
          obind (λ t, obind (λ sub, Ok (u, n', t, sub)) (rn n (TRender (CToc c)))) (rn n (TRender t))
        | _, _, _ => Err RNil
        end
      end.
    Lemma toc_one_more n m c e : toc_one n c = Ok e → n ≤ m → toc_one m c = Ok e.
    Proof.
      unfold toc_one. intros E L. destruct (h !! c) as [x|]; [|discriminate E]. destruct (tag_url h _ _); [|discriminate E].
      destruct (number h c); [|discriminate E]. destruct (strip_aux (s_title x)) as [c0|]; [|discriminate E].
      destruct (rn n (TRender c0)) as [t| | |] eqn:Et; try discriminate E. cbn [obind] in E.
      destruct (rn n (TRender (CToc c))) as [b| | |] eqn:Eb; try discriminate E.
      rewrite (rn_more _ _ _ _ Et L). cbn [obind]. rewrite (rn_more _ _ _ _ Eb L). exact E.
    Qed.
    Lemma toc_one_is c e : descendant h r c → (∃ n, toc_one n c = Ok e) ↔ toc_entry h shows c e.
    Proof.
      intros D. unfold toc_one. split.
      - intros (n & E). destruct (h !! c) as [x|] eqn:Hc; [|discriminate E].
        destruct (tag_url _ _ _) as [u|] eqn:Eu; [|discriminate E]. destruct (number h c) as [nu|] eqn:En; [|discriminate E].
        destruct (strip_aux _) as [c'|] eqn:Ec; [|discriminate E].
        destruct (rn n (TRender c')) as [t| | |] eqn:Et; try discriminate E. cbn [obind] in E.
        destruct (rn n (TRender (CToc c))) as [b| | |] eqn:Eb; try discriminate E. injection E as <-.
        apply (number_is c nu D) in En as (l & -> & Hl). exists x, l, c'. cbn [fst snd]. split_and!; try done.
        + by apply (url_reached c x u D Hc).
        + by exists n.
        + by exists n.
      - destruct e as [[[u nu] t] b]. intros (x & l & c' & Hc & Hu & Hl & Hnu & Ec & (n & Et) & (m & Eb)). cbn [fst snd] in *. subst nu.
        exists (n `max` m). rewrite Hc, (proj2 (url_reached c x u D Hc) Hu), (number_position _ _ _ W Hl), Ec.
        rewrite (rn_more _ (n `max` m) _ _ Et) by lia. cbn [obind]. by rewrite (rn_more _ (n `max` m) _ _ Eb) by lia.
    Qed.
    Lemma below_any i s c : descendant h r i → h !! i = Some s → c ∈ s_children s → descendant h r c.
    Proof. intros D Hi Hc. eapply rtc_r; [exact D|]. by exists s. Qed.

    (** Every section below is listed, unless that is to be omitted. *)
    Theorem site_toc i out : descendant h r i → shows (CToc i) out ↔ toc_for h shows i out.
    Proof.
      intros D. destruct (lookup_lt_is_Some_2 h i (valid_below _ D)) as (s & Hi). eapply others; [exact S|reflexivity|reflexivity|..].
      - intros n. cbn [html_1]. unfold toc_tmpl. rewrite Hi. cbn [need]. intros E. exists s. split; [done|].
        destruct (s_children s) as [|c0 cs] eqn:Ecs; [injection E as <-; left; auto|].
        destruct (s_omit s) eqn:Eo; [injection E as <-; left; auto|]. right. split_and!; [discriminate|done|].
        change (obind (λ es, Ok (toc_html es)) (omapM (toc_one n) (c0 :: cs)) = Ok out) in E.
        destruct (omapM _ _) as [es| | |] eqn:Ees; try discriminate E. injection E as <-. exists es. split; [|done].
        apply (each toc_one n) in Ees. eapply Forall2_within; [exact Ees|]. intros c e Hc He. apply toc_one_is; [|done].
        eapply below_any; [exact D|exact Hi|by rewrite Ecs].
      - intros (s' & Hi' & H). rewrite Hi in Hi'. injection Hi' as <-. cbn [html_1]. unfold toc_tmpl. rewrite Hi. cbn [need].
        destruct H as [(-> & H)|(Hne & Ho & es & Hes & ->)].
        + exists 0. destruct H as [-> | ->]; [done|]. by destruct (s_children s).
        + rewrite Ho. destruct (s_children s) as [|c0 cs] eqn:Ecs; [by destruct Hne|].
          destruct (common toc_one (c0 :: cs) es) as (n & Hn).
          { intros n m c e. apply toc_one_more. }
          { eapply Forall2_within; [exact Hes|]. intros c e Hc He. apply toc_one_is; [|done]. eapply below_any; [exact D|exact Hi|by rewrite Ecs]. }
          exists n. change (obind (λ es, Ok (toc_html es)) (omapM (toc_one n) (c0 :: cs)) = Ok (toc_html es)). by rewrite Hn.
    Qed.

    (** The navigation marks one chapter, the one the page belongs to; on the front
        page it marks none. *)
    Theorem site_marks i rs : descendant h r i → h !! r = Some rs →
      (i = r → ∀ c, c ∈ s_children rs → ¬ descendant h c i) ∧
      (i ≠ r → ∃ k c, s_children rs !! k = Some c ∧ descendant h c i ∧
        ∀ k' c', s_children rs !! k' = Some c' → descendant h c' i → k' = k).
    Proof.
      intros D Hr. split.
      - intros -> c Hc. eapply child_not_desc_self; [done|]. by exists rs.
      - intros Ne. apply rtc_inv in D as [E|(c & (rs' & Hr' & Hc) & D)]; [by rewrite E in Ne|]. rewrite Hr in Hr'. injection Hr' as <-.
        apply elem_of_list_lookup in Hc as (k & Hk). exists k, c. split_and!; [done|done|]. intros k' c' Hk' D'.
        destruct (decide (c' = c)) as [->|Ne'].
        + eapply NoDup_lookup; [|exact Hk'|exact Hk]. by eapply (wf_nodup h W r).
        + exfalso. eapply (sibling_disjoint h r c' c i); [done| | |done|done|done]; exists rs; (split; [done|]); by eapply elem_of_list_lookup_2.
    Qed.
  End tree.
End site.

Print Assumptions site_styles.
Print Assumptions site_columns_are.
Print Assumptions site_definition_is.
Print Assumptions site_plain.
Print Assumptions site_kept.
Print Assumptions site_frames.
Print Assumptions site_splash.
Print Assumptions site_pages.
Print Assumptions site_sections.
Print Assumptions site_references.
Print Assumptions site_toc.
Print Assumptions site_marks.

(** The templates are taken, each of them can be escaped, and every other template
    is the bundled one, except for one that sidebar.tmpl defines. *)
Theorem site_templates : is_Some (templates bundled_html docs_sources) ∧
  (∀ n, n ∈ map fst docs_sources → ∃ t t', docs_set n = Some t ∧ esc_tree t = Some t') ∧
  ∀ n, n ∉ "section-link" :: map fst docs_sources → docs_set n = bundled_html n.
Proof.
  split; [rewrite docs_templates; by eexists|]. split.
  - intros n Hn. assert (is_Some (assoc_get n docs_escaped)) as (t' & E).
    { assert (Forall (λ n, n ∈ map fst docs_escaped) (map fst docs_sources)) as Em by (apply (bool_decide_unpack _); vm_compute; exact I).
      rewrite Forall_forall in Em. apply Em in Hn. clear Em.
      revert Hn. generalize docs_escaped. intros l. induction l as [|[k t] l IH]; [by intros ?%elem_of_nil|].
      cbn [map fst assoc_get]. intros [->|Hn]%elem_of_cons; [rewrite String.eqb_refl; by eexists|]. destruct (String.eqb k n); [by eexists|auto]. }
    destruct (docs_escaped_get _ _ E) as (t & Ht & He). exists t, t'. exact (conj Ht He).
  - intros n Hn. rewrite docs_set_get.
    assert (Forall (λ n, n ∈ "section-link" :: map fst docs_sources) (map fst docs_trees)) as Em by (apply (bool_decide_unpack _); vm_compute; exact I).
    rewrite Forall_forall in Em. assert (n ∉ map fst docs_trees) as Hn' by (intros H; by apply Hn, Em). clear Em Hn. rename Hn' into Hn.
    assert (assoc_get n docs_trees = None) as ->; [|reflexivity].
    revert Hn. generalize docs_trees. intros l. induction l as [|[k t] l IH]; [done|]. cbn [map fst assoc_get].
    intros [N1 N2]%not_elem_of_cons. destruct (String.eqb_spec k n) as [E|_]; [by destruct N1|auto].
Qed.
Print Assumptions site_templates.

(** The hypotheses on sections hold after any loads, with any plugins. *)
Theorem site_loaded s : history s → wf (st_heap s) ∧ tags_owned (st_heap s) ∧ tagged (st_heap s).
Proof. intros H. destruct (history_wf s H). split_and!; [done|done|by apply history_tagged]. Qed.
Print Assumptions site_loaded.

(** The frame of a URL with an ampersand is not the frame of that URL: it is escaped
    twice. *)
Theorem site_frames_refuted : ∃ h str u out, strings_ok h str ∧
  shows (λ _ _, false) false h (λ _, None) str (CStyled "output-frame" false (CString "") [("URL", Some (CString u))]) out ∧
  out ≠ site_frame u ∧
  out = "<iframe class=""output-frame"" scrolling=""no"" src=""demo?a=1&amp;amp;b=2""></iframe>".
Proof.
  exists demo, (cstring (λ _ _, false) false demo 9), "demo?a=1&b=2".
  exists "<iframe class=""output-frame"" scrolling=""no"" src=""demo?a=1&amp;amp;b=2""></iframe>".
  split; [apply cstring_ok|]. split; [|split; [vm_compute; discriminate|reflexivity]].
  apply frame_is. exists "demo?a=1&amp;b=2". split; [|vm_compute; reflexivity].
  destruct (site_plain (λ _ _, false) false demo (λ _, None) (cstring (λ _ _, false) false demo 9) (cstring_ok _ _ _ _)) as (P & _).
  apply P. vm_compute. reflexivity.
Qed.
Print Assumptions site_frames_refuted.

(** ** A book *)

Definition demo_str : content → outcome error string := cstring (λ _ _, false) false demo 9.
Lemma demo_tagged : tagged demo.
Proof.
  intros j x Hx. right. do 6 (destruct j as [|j]; [injection Hx as <-; by left|]). discriminate Hx.
Qed.
(** The page of "api", below the chapter "ref". *)
Definition demo_api : string := Eval vm_compute in
  match run_page (λ _ _, false) false demo (λ _, None) demo_str "html" true docs_set 9 5 with Ok s => s | _ => "" end.
Example demo_page : page_for demo (shows (λ _ _, false) false demo (λ _, None) demo_str) demo_str 0 5 demo_api.
Proof.
  apply (site_pages (λ _ _, false) false demo (λ _, None) demo_str 0 demo_wf demo_owned demo_tagged demo_top (cstring_ok _ _ _ _)).
  - apply demo_desc. lia.
  - exists 9. vm_compute. reflexivity.
Qed.
Example demo_marked : descendant demo 4 5 ∧ ¬ descendant demo 1 5.
Proof.
  split; [apply rtc_once; eexists; split; [reflexivity|by left]|]. intros D.
  destruct (site_marks demo 0 demo_wf 5 _ (demo_desc 5 ltac:(lia)) eq_refl) as [_ M]. destruct (M ltac:(discriminate)) as (k & c & _ & _ & Hu).
  assert (0 = k) as <- by by apply (Hu 0 1).
  assert (1 = 0) as F; [|discriminate F]. apply (Hu 1 4); [reflexivity|].
  apply rtc_once. eexists; split; [reflexivity|by left].
Qed.
Example demo_section_shown : ∃ out, section_for demo (shows (λ _ _, false) false demo (λ _, None) demo_str) 0 5 out.
Proof.
  destruct (run (λ _ _, false) false demo (λ _, None) demo_str "html" true docs_set 9 (TRender (CSection 5))) as [out| | |] eqn:E;
    [|vm_compute in E; discriminate E..].
  exists out. refine (proj1 (site_sections (λ _ _, false) false demo (λ _, None) demo_str 0 demo_wf demo_owned demo_tagged demo_top 5 _ out
    (demo_desc 5 ltac:(lia)) eq_refl (or_introl eq_refl)) _). exists 9. exact E.
Qed.

(** A reference to that chapter from there, and the table of contents. *)
Example demo_reference : referring demo (shows (λ _ _, false) false demo (λ _, None) demo_str) false 5 "ref" None false loc0
  "<a href=""ref.html"">ref</a>".
Proof.
  apply (site_references (λ _ _, false) false demo (λ _, None) demo_str 0 demo_wf demo_owned demo_top (cstring_ok _ _ _ _)).
  - apply demo_desc. lia.
  - exists 9. vm_compute. reflexivity.
Qed.
Example demo_toc : ∃ es out, toc_for demo (shows (λ _ _, false) false demo (λ _, None) demo_str) 0 out ∧ out = toc_html es ∧ length es = 2.
Proof.
  destruct (run (λ _ _, false) false demo (λ _, None) demo_str "html" true docs_set 12 (TRender (CToc 0))) as [out| | |] eqn:E;
    [|vm_compute in E; discriminate E..].
  assert (shows (λ _ _, false) false demo (λ _, None) demo_str (CToc 0) out) as Hs by (exists 12; exact E).
  apply (site_toc (λ _ _, false) false demo (λ _, None) demo_str 0 demo_wf demo_owned demo_tagged demo_top (cstring_ok _ _ _ _)) in Hs;
    [|apply demo_desc; lia].
  pose proof Hs as (s & Hi & [(_ & [F|F])|(_ & _ & es & Hes & Ho)]); injection Hi as <-; [discriminate F|discriminate F|].
  exists es, out. split; [exact Hs|]. split; [exact Ho|]. by rewrite <- (Forall2_length _ _ _ Hes).
Qed.
