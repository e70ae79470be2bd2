(** References that fail while a page is rendered tell where they are. *)
From Coq Require Import Ascii String Lia.
From stdpp Require Import base tactics relations strings list.
From Verif Require Import GoBase StrProofs Ast Content Section ContentSpec ContentProofs TreeSpec TreeProofs TagProofs QueryProofs Render
  TextRender Evaluate EvalProofs BaseInv BaseFacts Collect CollectProofs LoadProofs Html HtmlLoad HtmlProofs Sound
  EvalEnds LoadEnds EvalSpec EvalLoc LocSpec EvalAt CollectAt.
Local Open Scope string_scope.
Local Open Scope list_scope.

Lemma omapM_err {E A B} (f : A → outcome E B) l e : omapM f l = Err e → ∃ x, x ∈ l ∧ f x = Err e.
Proof.
  induction l as [|x l IH]; [done|]. change (omapM f (x :: l)) with (obind (λ y, obind (λ ys, Ok (y :: ys)) (omapM f l)) (f x)).
  destruct (f x) eqn:Ex; simpl; try done.
  - destruct (omapM f l) eqn:El; simpl; try done. intros [= ->]. destruct (IH eq_refl) as (y & ? & ?). exists y. split; [by right|done].
  - intros [= ->]. exists x. split; [by left|done].
Qed.
Lemma obind_err {E A B} (f : A → outcome E B) o e : obind f o = Err e → o = Err e ∨ ∃ a, o = Ok a ∧ f a = Err e.
Proof. destruct o; simpl; intros H; try discriminate; [right; eauto|left; congruence]. Qed.

Section at_.
  Context (occurs : string → node → Prop).
  Notation placed := (placed occurs).

  Definition mark_seen (h : heap) (m : mark) : Prop :=
    match m with
    | MRef i l => ∃ f, in_file h i f ∧ placed f "Reference" l
    | MTarget _ => True
    | MLazy => False
    end.
  Definition seen (h : heap) (c : content) : Prop := ∀ m, m ∈ marks c → mark_seen h m.

  Lemma marked_seen h f c : marked occurs h f c → seen h c.
  Proof.
    unfold marked. rewrite Forall_forall. intros H m Hm. specialize (H m Hm). destruct m as [i l|l|]; simpl in *; [|done..].
    by exists f.
  Qed.

  Lemma strip_marks c : StripP (λ c c', ∀ m, m ∈ marks c' → m ∈ marks c) c.
  Proof.
    assert (∀ l l', Forall (StripP (λ c c', ∀ u, u ∈ marks c' → u ∈ marks c)) l → strip_list l = Some l' →
      ∀ u, u ∈ flat_map marks l' → u ∈ flat_map marks l) as L.
    { intros l l' IH E u. pose proof (strip_list_Forall2 _ _ _ IH E) as F.
      assert (u ∈ flat_map marks (keep l) → u ∈ flat_map marks l) as K.
      { intros H. apply elem_of_list_In, in_flat_map in H as (x & Hx & Hu). apply elem_of_list_In, in_flat_map. exists x. split; [|done].
        unfold keep in Hx. by apply filter_In in Hx as [Hx _]. }
      intros H. apply K. clear -F H. induction F as [|x y k k' Hx F IH]; [done|]. simpl in *.
      rewrite elem_of_app in *. destruct H; eauto. }
    induction c as [s|l IH|l IH|l IH|sec t rc o l IH|c t IH|s|s|st b c ps IH IHps|t l ti x IHt IHx|p d|l o IH|rows IH|defs IH|b t|c IH]
      using content_ind'; intros c' E; revert E; strip_rw; try (intros [= <-]; done).
    1-3,8: intros E; apply fmap_Some in E as (l' & El & ->); simpl; by apply L.
    - destruct rc as [rc|]; simpl; [|done]. destruct (strip_aux rc) eqn:E; simpl; [|done].
      intros [= <-]. simpl. intros m. rewrite !elem_of_cons. intros [?|?]; [by left|right]. by eapply IH.
    - intros E. apply fmap_Some in E as (x & Ex & ->). simpl. intros u. by apply IH.
    - destruct (strip_aux c) eqn:E; simpl; [|done]. destruct (mapM _ _) as [ps'|] eqn:Eps; simpl; [|done].
      intros [= <-]. simpl. intros m. rewrite !elem_of_app. intros [H|H]; [left; by eapply IH|right].
      apply elem_of_list_In, in_flat_map in H as ([k v] & Hkv & Hm). apply elem_of_list_In, in_flat_map.
      apply mapM_Some_1 in Eps. apply elem_of_list_In, elem_of_list_lookup in Hkv as [j Hj].
      destruct (Forall2_lookup_r _ _ _ _ _ Eps Hj) as ([k0 v0] & Hj0 & Hs). apply elem_of_list_lookup_2 in Hj0.
      apply elem_of_list_In, filter_In in Hj0 as [Hin _]. exists (k0, v0). split; [done|].
      unfold strip_partial in Hs. destruct v0 as [v0|]; simpl in Hs; [|done]. destruct (strip_aux v0) as [w|] eqn:Ev; simpl in Hs; [|done].
      injection Hs as <- <-. simpl in Hm |- *. apply elem_of_list_In in Hin. rewrite Forall_forall in IHps. specialize (IHps _ Hin).
      simpl in IHps. apply elem_of_list_In. apply elem_of_list_In in Hm. by eapply IHps.
    - destruct ti as [a|]; simpl; [|done]. destruct (strip_aux a) eqn:Ea; simpl; [|done].
      destruct x as [y|]; simpl; [|done]. destruct (strip_aux y) eqn:Ey; simpl; [|done].
      intros [= <-]. simpl. intros m. rewrite !elem_of_cons, !elem_of_app.
      intros [?|[?|?]]; [by left|right; left; by eapply IHt|right; right; by eapply IHx].
    - intros E. apply fmap_Some in E as (rs & Er & ->). simpl. apply mapM_Some_1 in Er. intros u.
      induction Er as [|r r' rs rs' Hr _ IHr]; simpl; [done|]. inversion IH; subst.
      rewrite !elem_of_app. intros [H|H]; [left; by eapply L|right; by apply IHr].
    - intros E. apply fmap_Some in E as (ds & Ed & ->). simpl. apply mapM_Some_1 in Ed. intros u.
      induction Ed as [|r r' rs rs' Hr _ IHr]; simpl; [done|].
      inversion IH as [|? ? [H1 H2] H3]; subst. unfold strip_def in Hr. destruct r as [s d]. simpl in *.
      destruct (strip_aux s) eqn:E1; simpl in Hr; [|done].
      destruct (strip_aux d) eqn:E2; simpl in Hr; [|done]. injection Hr as <-.
      rewrite !elem_of_app. intros [[H|H]|H]; [left; left; by eapply H1|left; right; by eapply H2|right; by apply IHr].
    - exact (IH c').
  Qed.
  Lemma seen_strip h c c' : strip_aux c = Some c' → seen h c → seen h c'.
  Proof. intros E H m Hm. apply H. by eapply strip_marks. Qed.

  Context (h : heap) (HS : sturdy h) (HO : heap_ok occurs h).

  Lemma heap_seen i x : h !! i = Some x → seen h (s_title x) ∧ seen h (s_body x) ∧
    (∀ t c, t ∈ s_tags x → t_title t = Some c → seen h c).
  Proof.
    intros Hx. destruct (HO _ _ Hx) as (f & Hf & H1 & H2 & H3 & H4 & _). split_and!; try by eapply marked_seen.
    intros t c Ht Hc. rewrite Forall_forall in H4. destruct (H4 _ Ht) as (_ & _ & H & _). rewrite Hc in H. by eapply marked_seen.
  Qed.

  Lemma resolve_at similar sec name opt l e f : in_file h sec f → placed f "Reference" l →
    resolve similar h sec name opt l = Err e → ref_error occurs e.
  Proof.
    intros Hf Hl. unfold resolve. rewrite (in_file_path _ _ _ HS Hf). destruct (find_tag h sec name) as [ts|] eqn:Ef; [|done].
    destruct ts as [|t [|t' ts]]; [|done|].
    - destruct opt; [done|]. destruct (similar_tags _ _ _ _) as [sim|]; [|done]. intros [= <-]. by constructor.
    - set (us := t :: t' :: ts) in *. assert (2 ≤ length us) as Hlen by (simpl; lia). clearbody us.
      destruct (mapM _ us) as [locs|] eqn:Em; [|done]. intros [= <-]. apply mapM_Some_1 in Em.
      constructor; [done| |].
      + apply Forall2_length in Em. lia.
      + assert (∀ u, u ∈ us → ∃ j x, h !! j = Some x ∧ u ∈ s_tags x) as Hu by (intros u; by apply (find_tag_from _ _ _ _ _ Ef)).
        clear Ef Hlen. induction Em as [|u el us locs He _ IH]; constructor; [|apply IH; intros; apply Hu; by right].
        destruct (Hu u) as (j & x & Hx & Hin); [by left|]. destruct (HO _ _ Hx) as (g & Hg & _ & _ & _ & HT & _).
        rewrite Forall_forall in HT. destruct (HT _ Hin) as (Hts & Hp & _). rewrite Hts in He.
        rewrite (in_file_path _ _ _ HS Hg) in He. simpl in He. injection He as <-. split; [done|]. done.
  Qed.

  Context (similar : string → string → bool) (broken : bool) (force : nat → option content) (str : content → outcome error string).

  Lemma text_of_err c f e : text_of str c f = Err (RTag e) → ∃ s, f s = Err (RTag e).
  Proof. unfold text_of. destruct (str c); try done. eauto. Qed.

  Notation placed_jump jump := (∀ c e, seen h c → jump c = Err (RTag e) → ref_error occurs e).

  Lemma seen_toc i : seen h (CToc i). Proof. intros m Hm. simpl in Hm. by apply elem_of_nil in Hm. Qed.
  Lemma seen_section i : seen h (CSection i). Proof. intros m Hm. simpl in Hm. by apply elem_of_nil in Hm. Qed.

  Lemma toc_at jump i e : placed_jump jump → toc_tmpl h jump i = Err (RTag e) → ref_error occurs e.
  Proof.
    intros Hj. unfold toc_tmpl, need. destruct (h !! i) as [x|] eqn:Hx; [|done]. destruct (s_children x) as [|c0 cs0]; [done|].
    destruct (s_omit x); [done|]. intros H. apply obind_err in H as [H|(a & _ & H)]; [|done].
    apply omapM_err in H as (c & _ & H). destruct (h !! c) as [y|] eqn:Hy; [|done].
    destruct (tag_url h "html" (s_primary y)); [|done]. destruct (number h c); [|done].
    destruct (strip_aux (s_title y)) as [t|] eqn:Et; [|done].
    apply obind_err in H as [H|(a & _ & H)].
    - eapply Hj; [|exact H]. eapply seen_strip; [exact Et|]. by apply (heap_seen c y).
    - apply obind_err in H as [H|(b & _ & H)]; [|done]. eapply Hj; [|exact H]. apply seen_toc.
  Qed.
  Lemma section_at jump i e : placed_jump jump → section_tmpl h jump i = Err (RTag e) → ref_error occurs e.
  Proof.
    intros Hj. unfold section_tmpl, need. destruct (h !! i) as [x|] eqn:Hx; [|done]. destruct (header_depth h i); [|done].
    destruct (number h i); [|done]. destruct (heap_seen i x Hx) as (H1 & H2 & _).
    intros H. apply obind_err in H as [H|(a & _ & H)]; [exact (Hj _ _ H1 H)|].
    apply obind_err in H as [H|(b & _ & H)]; [exact (Hj _ _ H2 H)|]. destruct (s_split x); [done|].
    apply obind_err in H as [H|(b' & _ & H)]; [|done]. apply omapM_err in H as (c & _ & H). eapply Hj; [|exact H]. apply seen_section.
  Qed.
  Lemma page_at jump i e : placed_jump jump → page_tmpl h str jump i = Err (RTag e) → ref_error occurs e.
  Proof.
    intros Hj. unfold page_tmpl, need. destruct (h !! i) as [x|] eqn:Hx; [|done]. intros H. apply text_of_err in H as (s & H).
    apply obind_err in H as [H|(b & _ & H)]; [|done]. eapply Hj; [|exact H]. apply seen_section.
  Qed.
  Lemma visit_at jump i e : placed_jump jump → visit_section h str jump i = Err (RTag e) → ref_error occurs e.
  Proof.
    intros Hj. unfold visit_section, need. destruct (h !! i) as [x|] eqn:Hx; [|done]. cbv zeta.
    destruct (_ || _); [by apply section_at|]. destruct (String.eqb _ _); [by apply page_at|]. destruct (String.eqb _ _); [by apply toc_at|].
    destruct (String.eqb _ _); [intros H; by apply text_of_err in H as (? & ?)|]. destruct (String.eqb _ _); [intros H; by apply text_of_err in H as (? & ?)|done].
  Qed.
  Lemma reference_at jump sec name rc opt l e : placed_jump jump → seen h (CRef sec name rc opt l) →
    reference_tmpl similar broken h jump sec name rc opt l = Err (RTag e) → ref_error occurs e.
  Proof.
    intros Hj Hc. assert (∀ c, rc = Some c → seen h c) as Hrc.
    { intros c -> m Hm. apply Hc. simpl. by right. }
    unfold reference_tmpl. destruct (ref_tag _ _ _ _ _ _ _) as [[t|]|e'| |] eqn:Et; try done.
    - destruct (tag_url h "html" t); [|done].
      destruct (ref_display similar broken h sec name rc opt l) as [[d|]| | |] eqn:Ed; simpl; try done.
      destruct (strip_aux d) as [d'|] eqn:Es; [|done]. intros H. apply obind_err in H as [H|(a & _ & H)]; [|done].
      eapply Hj; [|exact H]. eapply seen_strip; [exact Es|]. unfold ref_display in Ed. destruct rc as [c|].
      { injection Ed as <-. by apply Hrc. }
      rewrite Et in Ed. injection Ed as Ed. unfold ref_tag in Et. destruct (resolve _ _ _ _ _ _) as [o|e'| |] eqn:Er; try done.
      + injection Et as ->. unfold resolve in Er. destruct (find_tag h sec name) as [[|u [|u' us]]|] eqn:Ef; try done.
        * destruct opt; [done|]. repeat case_match; done.
        * injection Er as ->. destruct (find_tag_from _ _ _ _ t Ef) as (j & x & Hx & Hin); [by left|].
          destruct (heap_seen j x Hx) as (_ & _ & HT). by eapply HT.
        * repeat case_match; done.
      + destruct broken; [|done]. injection Et as <-. simpl in Ed. injection Ed as <-. intros m Hm. simpl in Hm. by apply elem_of_nil in Hm.
    - destruct rc as [c|]; [|done]. simpl. destruct (strip_aux c) as [c'|] eqn:Es; [|done]. simpl. intros H.
      eapply Hj; [|exact H]. eapply seen_strip; [exact Es|]. by apply Hrc.
    - intros [= ->]. unfold ref_tag in Et. destruct (resolve _ _ _ _ _ _) as [o|e'| |] eqn:Er; try done.
      destruct broken; [done|]. injection Et as ->. destruct (Hc (MRef sec l)) as (f & Hf & Hp); [simpl; by left|].
      by eapply resolve_at.
  Qed.

  Lemma seen_in {A} (mk : A → list mark) (l : list A) x : (∀ m, m ∈ flat_map mk l → mark_seen h m) → x ∈ l →
    ∀ m, m ∈ mk x → mark_seen h m.
  Proof. intros H Hx m Hm. apply H. apply elem_of_list_In, in_flat_map. exists x. by rewrite <-!elem_of_list_In. Qed.
  Lemma list_at (f : content → rendered) l e : Forall (λ c, seen h c → f c = Err (RTag e) → ref_error occurs e) l →
    (∀ m, m ∈ flat_map marks l → mark_seen h m) → omapM f l = Err (RTag e) → ref_error occurs e.
  Proof.
    intros HF Hm H. apply omapM_err in H as (c & Hc & H). rewrite Forall_forall in HF. apply (HF c Hc); [|done].
    intros m. by eapply seen_in.
  Qed.

  Lemma html_F_at jump c e : placed_jump jump → seen h c →
    html_F similar broken h force str jump c = Err (RTag e) → ref_error occurs e.
  Proof.
    intros Hj.
    induction c as [s|l IH|l IH|l IH|sec t rc o l IH|c t IH|s|s|st b c ps IH IHps|t l ti x IHt IHx|p d|l o IH|rows IH|defs IH|b t|c IH]
      using content_ind'; cbn [html_F]; intros Hc H; try done.
    1-3,9: apply obind_err in H as [H|(a & _ & H)]; [|done]; by eapply list_at.
    - by eapply reference_at.
    - apply obind_err in H as [H|(a & _ & H)]; [|done]. by apply IH.
    - by eapply visit_at.
    - by eapply toc_at.
    - destruct (styled_wrap _ _) as [[pre post]|].
      + apply obind_err in H as [H|(a & _ & H)]; [|done]. apply IH; [|done]. intros m Hm. apply Hc. simpl. apply elem_of_app. by left.
      + destruct (String.eqb _ _); [by apply text_of_err in H as (? & ?)|]. destruct (String.eqb _ _); [by apply text_of_err in H as (? & ?)|done].
    - apply obind_err in H as [H|(a & _ & H)]; [|done]. apply omapM_err in H as (r & Hr & H).
      rewrite Forall_forall in IH. eapply list_at; [by apply IH| |exact H]. intros m. by eapply (seen_in (flat_map marks)).
    - apply obind_err in H as [H|(a & _ & H)]; [|done]. apply omapM_err in H as ([s d] & Hr & H).
      rewrite Forall_forall in IH. destruct (IH _ Hr) as [Hs Hd]. simpl in *.
      assert (∀ m, m ∈ marks s ++ marks d → mark_seen h m) as Hm.
      { intros m. by apply (seen_in (λ p : content * content, match p with (s, d) => marks s ++ marks d end) defs (s, d)). }
      apply obind_err in H as [H|(a & _ & H)]; [apply Hs; [|done]; intros m Hi; apply Hm, elem_of_app; by left|].
      apply obind_err in H as [H|(b & _ & H)]; [|done]. apply Hd; [|done]. intros m Hi. apply Hm, elem_of_app. by right.
    - exfalso. by apply (Hc MLazy), elem_of_list_here.
    - by apply IH.
  Qed.

  Lemma html_at n : ∀ c e, seen h c → html similar broken h force str n c = Err (RTag e) → ref_error occurs e.
  Proof.
    induction n as [|n IH]; intros c e Hc H; cbn [html] in H; eapply html_F_at in H; done.
  Qed.
  Lemma html_page_at n i e : html_page similar broken h force str n i = Err (RTag e) → ref_error occurs e.
  Proof. apply page_at. apply html_at. Qed.
End at_.

(** The text templates have no references. *)
Section text.
  Context (h : heap) (force : nat → option content) (str : content → outcome error string).
  Notation quiet o := (∀ e, o ≠ Err (RTag e)).

  Lemma text_of_quiet c f : (∀ s, quiet (f s)) → quiet (text_of str c f).
  Proof. intros Hf e. unfold text_of. by destruct (str c). Qed.
  Lemma obind_quiet {A B} (f : A → outcome rerr B) (o : outcome rerr A) : quiet o → (∀ a, quiet (f a)) → quiet (obind f o).
  Proof. intros Ho Hf e H. apply obind_err in H as [H|(a & _ & H)]; [by eapply Ho|by eapply Hf]. Qed.
  Lemma omapM_quiet {A B} (f : A → outcome rerr B) l : (∀ x, x ∈ l → quiet (f x)) → quiet (omapM f l).
  Proof. intros Hf e H. apply omapM_err in H as (x & Hx & H). by eapply Hf. Qed.

  Lemma toc_quiet jump i : (∀ c, quiet (jump c)) → quiet (toc_text_tmpl h jump i).
  Proof.
    intros Hj e. unfold toc_text_tmpl, need. destruct (h !! i) as [x|]; [|done]. destruct (s_children x); [done|]. destruct (s_omit x); [done|].
    apply obind_quiet; [|done]. apply omapM_quiet. intros c _ e'. destruct (h !! c); [|done]. destruct (number h c); [|done].
    destruct (strip_aux _); [|done]. revert e'. apply obind_quiet; [apply Hj|]. intros a. apply obind_quiet; [apply Hj|done].
  Qed.
  Lemma page_quiet jump i : (∀ c, quiet (jump c)) → quiet (page_text_tmpl h str jump i).
  Proof.
    intros Hj e. unfold page_text_tmpl, need. destruct (h !! i) as [x|]; [|done]. apply text_of_quiet. intros s.
    apply obind_quiet; [apply Hj|done].
  Qed.
  Lemma section_quiet jump i : (∀ c, quiet (jump c)) → quiet (section_text_tmpl h jump i).
  Proof.
    intros Hj e. unfold section_text_tmpl, need. destruct (h !! i) as [x|]; [|done].
    destruct (match s_parent x with Some _ => _ | None => _ end); [|done].
    apply obind_quiet; [apply Hj|]. intros a. apply obind_quiet; [apply Hj|]. intros b. destruct (s_split x); [done|].
    apply obind_quiet; [|done]. apply omapM_quiet. intros c _. apply Hj.
  Qed.
  Lemma text_F_quiet jump c : (∀ c, quiet (jump c)) → quiet (text_F h force str jump c).
  Proof.
    intros Hj.
    induction c as [s|l IH|l IH|l IH|sec t rc o l IH|c t IH|s|s|st b c ps IH IHps|t l ti x IHt IHx|p d|l o IH|rows IH|defs IH|b t|c IH]
      using content_ind'; cbn [text_F]; intros e; try done.
    1-3: apply obind_quiet; [|done]; apply omapM_quiet; by rewrite Forall_forall in IH.
    - unfold visit_section_text, need. destruct (h !! s) as [x|]; [|done]. cbv zeta.
      destruct (_ || _); [by apply section_quiet|]. destruct (String.eqb _ _); [by apply page_quiet|].
      destruct (String.eqb _ _); [by apply toc_quiet|]. destruct (String.eqb _ _); [by apply text_of_quiet|done].
    - by apply toc_quiet.
    - destruct (String.eqb _ _); [by apply obind_quiet|]. destruct (String.eqb _ _); [by apply text_of_quiet|done].
    - destruct (force t); [apply Hj|done].
  Qed.
  Lemma text_quiet n : ∀ c, quiet (text h force str n c).
  Proof. induction n as [|n IH]; intros c; cbn [text]; by apply text_F_quiet. Qed.
  Lemma text_no_tag n i e : text_page h force str n i ≠ Err (RTag e).
  Proof.
    unfold text_page, need. destruct (h !! i) as [x|]; [|done]. destruct (String.eqb _ _); [|done]. apply page_quiet, text_quiet.
  Qed.
End text.
