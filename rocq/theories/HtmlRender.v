(** What the renderer writes is well formed. *)
From Coq Require Import Ascii String Lia.
From stdpp Require Import base tactics strings list.
From Verif Require Import GoBase StrProofs Ast Content Section Render ContentProofs Html HtmlSpec HtmlProofs.
Local Open Scope string_scope.
Local Open Scope list_scope.

Lemma good_para ss : Forall good ss → good ("<p>" +:+ sjoin " " ss +:+ "</p>").
Proof. intros F. lits. sub; [apply good_join; [lits|done]|lits]. Qed.

Section html.
  Context (similar : string → string → bool) (broken : bool) (h : heap).
  Context (force : nat → option content) (str : content → outcome error string).
  Context (Hh : clean_heap h) (Hf : ∀ t c, force t = Some c → clean c = true).

  Lemma text_of_Ok c f out : text_of str c f = Ok out → ∃ s, f s = Ok out.
  Proof. unfold text_of. destruct (str c); try done. by eexists. Qed.

  Definition jumps (jump : content → rendered) : Prop := ∀ c out, clean c = true → jump c = Ok out → good out.

  Lemma toc_good jump i out : jumps jump → toc_tmpl h jump i = Ok out → good out.
  Proof.
    intros J. unfold toc_tmpl, need. destruct (h !! i) as [s|] eqn:Hi; [|done].
    destruct (s_children s) as [|c0 cs] eqn:Hc; [intros [= <-]; apply goes_nil|].
    destruct (s_omit s); [intros [= <-]; apply goes_nil|].
    destruct (omapM _ (c0 :: cs)) as [es| | |] eqn:E; cbn [obind]; try done. intros [= <-].
    apply good_toc. apply omapM_Ok in E. clear Hc. revert E. generalize (c0 :: cs). intros l F. induction F as [|c e l es He F IH]; constructor; [|done].
    destruct (h !! c) as [x|] eqn:Hx; [|done]. destruct (tag_url _ _ _) as [u|]; [|done].
    destruct (number h c) as [n|]; [|done]. destruct (strip_aux (s_title x)) as [t|] eqn:Et; [|done].
    destruct (jump t) as [ts| | |] eqn:Ej; cbn [obind] in He; try done.
    destruct (jump (CToc c)) as [sb| | |] eqn:Ej2; cbn [obind] in He; try done. injection He as <-.
    destruct (Hh _ _ Hx) as (_ & Hti & _). split; [|by eapply J; [|exact Ej2]].
    eapply J; [|exact Ej]. by apply (strip_clean _ _ Et).
  Qed.

  Lemma section_good jump i out : jumps jump → section_tmpl h jump i = Ok out → good out.
  Proof.
    intros J. unfold section_tmpl, need. destruct (h !! i) as [s|] eqn:Hi; [|done].
    destruct (Hh _ _ Hi) as (_ & Hti & Hbo & _).
    destruct (header_depth h i) as [d|] eqn:Hd; [|done]. destruct (number h i) as [n|]; [|done].
    assert (1 ≤ d ≤ 6) as Hd'.
    { unfold header_depth in Hd. destruct (page_depth h i) as [k|]; [|done]. cbn [mbind option_bind] in Hd.
      injection Hd as <-. destruct (Nat.ltb_spec 6 (k + 1)); lia. }
    destruct (jump (s_title s)) as [t| | |] eqn:Et; cbn [obind]; try done.
    destruct (jump (s_body s)) as [b| | |] eqn:Eb; cbn [obind]; try done.
    destruct (s_split s).
    - intros [= <-]. apply good_section; [done|by eapply J; [|exact Et]|by eapply J; [|exact Eb]|done].
    - destruct (omapM _ _) as [cs| | |] eqn:Ec; cbn [obind]; try done. intros [= <-].
      apply good_section; [done|by eapply J; [|exact Et]|by eapply J; [|exact Eb]|].
      intros cs' [= <-]. apply omapM_Ok in Ec. clear -Ec J. induction Ec; constructor; [|done]. by eapply J; [|done].
  Qed.

  Lemma page_good jump i out : jumps jump → page_tmpl h str jump i = Ok out → good out.
  Proof.
    intros J. unfold page_tmpl, need. destruct (h !! i) as [s|]; [|done]. intros (t & E)%text_of_Ok.
    destruct (jump (CSection i)) as [b| | |] eqn:Eb; cbn [obind] in E; try done. injection E as <-.
    apply good_page. by eapply J; [|exact Eb].
  Qed.

  Lemma reference_good jump sec name rc opt l out : jumps jump → optP (λ c, clean c = true) rc →
    reference_tmpl similar broken h jump sec name rc opt l = Ok out → good out.
  Proof.
    intros J Hrc. unfold reference_tmpl. destruct (ref_tag _ _ _ _ _ _ _) as [[t|]| | |] eqn:Et; try done.
    - destruct (tag_url h "html" t) as [u|]; [|done].
      rewrite (ref_display_tag similar broken h sec name rc opt l t Et).
      destruct (match rc with Some d => Some d | None => t_title t end) as [d|] eqn:Ed; [|done]. cbn [mbind option_bind].
      assert (clean d = true) as Hd.
      { destruct rc as [r|]; [by injection Ed as <-|]. apply ref_tag_from in Et as [->|(i & s & Hi & Hin)].
        - injection Ed as <-. done.
        - destruct (Hh _ _ Hi) as (_ & _ & _ & HF). rewrite Forall_forall in HF. by eapply HF. }
      destruct (strip_aux d) as [d'|] eqn:Es; [|done].
      destruct (jump d') as [s| | |] eqn:Ej; cbn [obind]; try done. intros [= <-]. apply good_href.
      eapply J; [|exact Ej]. by apply (strip_clean _ _ Es).
    - destruct rc as [r|]; [|done]. cbn [mbind option_bind]. destruct (strip_aux r) as [d|] eqn:Es; [|done].
      cbn [need]. intros Ej. eapply J; [|exact Ej]. by apply (strip_clean _ _ Es).
  Qed.

  Lemma omapM_good (f : content → rendered) l ss : Forall (λ c, ∀ out, clean c = true → f c = Ok out → good out) l →
    forallb clean l = true → omapM f l = Ok ss → Forall good ss.
  Proof.
    intros H C E. apply omapM_Ok in E. induction E as [|c s l ss Hc F IH]; constructor.
    - inversion H; subst. simpl in C. apply andb_true_iff in C as [C _]. auto.
    - inversion H; subst. simpl in C. apply andb_true_iff in C as [_ C]. auto.
  Qed.

  Lemma html_F_good jump c : jumps jump → ∀ out, clean c = true → html_F similar broken h force str jump c = Ok out → good out.
  Proof.
    intros J.
    induction c as [s|l IH|l IH|l IH|sec t rc o l IH|c t IH|s|s|st b c ps IH IHps|t l ti x IHt IHx|p d|l o IH|rows IH|defs IH|b t|c IH]
      using content_ind'; intros out C; cbn [html_F clean] in *.
    - intros [= <-]. apply good_escape.
    - destruct (omapM _ l) as [ss| | |] eqn:E; cbn [obind]; try done. intros [= <-]. apply good_concat. by eapply omapM_good.
    - destruct (omapM _ l) as [ss| | |] eqn:E; cbn [obind]; try done. intros [= <-].
      apply good_para. by eapply omapM_good.
    - destruct (omapM _ l) as [ss| | |] eqn:E; cbn [obind]; try done. intros [= <-].
      apply good_join; [lits|]. by eapply omapM_good.
    - apply reference_good; [done|]. by destruct rc.
    - destruct (html_F _ _ _ _ _ _ c) as [s| | |]; cbn [obind]; try done. intros [= <-]. apply good_href. auto.
    - unfold visit_section, need. destruct (h !! s) as [x|] eqn:Hx; [|done].
      destruct (_ || _); [by apply section_good|]. destruct (String.eqb (s_style x) "page"); [by apply page_good|].
      destruct (String.eqb (s_style x) "toc"); [by apply toc_good|].
      destruct (String.eqb (s_style x) "string"); [intros (t & E)%text_of_Ok; injection E as <-; apply good_escape|].
      destruct (String.eqb_spec (s_style x) "raw-html"); [|done]. by destruct (Hh _ _ Hx) as (Hs & _).
    - by apply toc_good.
    - apply andb_true_iff in C as [C1 C2]. destruct (styled_wrap _ _) as [[pre post]|] eqn:Ew.
      + destruct (html_F _ _ _ _ _ _ c) as [s| | |]; cbn [obind]; try done. intros [= <-]. eapply good_styled; [done|auto].
      + destruct (String.eqb st "string"); [intros (t & E)%text_of_Ok; injection E as <-; apply good_escape|].
        by destruct (String.eqb st "raw-html").
    - intros [= <-]. apply good_id.
    - intros [= <-]. apply good_img.
    - destruct (omapM _ l) as [ss| | |] eqn:E; cbn [obind]; try done. intros [= <-]. apply good_list. by eapply omapM_good.
    - destruct (omapM _ rows) as [rs| | |] eqn:E; cbn [obind]; try done. intros [= <-]. apply good_table.
      apply omapM_Ok in E. induction E as [|r ss rows rs Hr F IHr]; constructor; inversion IH; subst;
        simpl in C; apply andb_true_iff in C as [C1 C2]; [by eapply omapM_good|auto].
    - destruct (omapM _ defs) as [ds| | |] eqn:E; cbn [obind]; try done. intros [= <-]. apply good_defs.
      apply omapM_Ok in E. induction E as [|[s d] p defs ds Hr F IHr]; constructor; inversion IH as [|? ? [H1 H2] H3]; subst;
        simpl in C; apply andb_true_iff in C as [C1 C2]; [|auto]. simpl in H1, H2.
      apply andb_true_iff in C1 as [C1 C3].
      destruct (html_F _ _ _ _ _ _ s) as [s'| | |]; cbn [obind] in Hr; try done.
      destruct (html_F _ _ _ _ _ _ d) as [d'| | |]; cbn [obind] in Hr; try done. injection Hr as <-. simpl. auto.
    - destruct (force t) as [x|] eqn:Ef; [|done]. apply J. by eapply Hf.
    - auto.
  Qed.

  Lemma html_good n : ∀ c out, clean c = true → html similar broken h force str n c = Ok out → good out.
  Proof.
    induction n as [|n IH]; intros c out C E; cbn [html] in E; eapply html_F_good; try exact E; try done.
  Qed.
  Lemma html_page_good n i out : html_page similar broken h force str n i = Ok out → good out.
  Proof. apply page_good. intros c o. apply html_good. Qed.
End html.
