(** The sections on a page written by the bundled HTML templates. *)
From Coq Require Import Ascii String Lia.
From stdpp Require Import base tactics relations strings list.
From Verif Require Import GoBase StrProofs Ast Content Section TreeSpec TreeProofs QueryProofs NavProofs Render
  Html HtmlText Woven TextProofs.
Local Open Scope string_scope.
Local Open Scope list_scope.

Section html.
  Context (similar : string → string → bool) (broken : bool) (h : heap).
  Context (force : nat → option content) (str : content → outcome error string).
  Notation ht := (html similar broken h force str).

  (** ** Specification *)

  (** Section [c] without its children: a header of the section's depth with its
      anchor, its number (if it has a parent) and title, and then the body. *)
  Definition html_section (c : nat) (e : string) : Prop :=
    ∃ s d head m title body, h !! c = Some s ∧ header_depth h c = Some d ∧
      (s_parent s = None ∧ head = "" ∨
       ∃ p nu, s_parent s = Some p ∧ number h c = Some nu ∧ head = "<span class=""section-number"">" +:+ escape nu +:+ " </span>") ∧
      ht m (s_title s) = Ok title ∧ ht m (s_body s) = Ok body ∧
      e = "<h" +:+ dec d +:+ " class=""section-header""><a id=""" +:+ escape (t_name (s_primary s)) +:+ """></a>" +:+
          head +:+ title +:+ "</h" +:+ dec d +:+ ">" +:+ nls +:+ nls +:+ body.

  (** ** Proof *)

  Lemma html_unfold n : ∃ jump, ht n = html_F similar broken h force str jump ∧ ((∀ c, jump c = NoFuel) ∨ ∃ m, n = S m ∧ jump = ht m).
  Proof. destruct n as [|n]; eauto 10. Qed.

  Definition html_item (c : nat) (x : string) : Prop :=
    (∀ j s, rtc (edge h follow_page) c j → h !! j = Some s → plain_style s) ∧ ∃ m, ht m (CSection c) = Ok x.

  Lemma html_item_woven i s x : h !! i = Some s → html_item i x → ∃ e xs, html_section i e ∧
    Forall2 html_item (if follow_page s then s_children s else []) xs ∧ woven blank (e :: xs) x.
  Proof.
    intros Hi (Hst & n & E). pose proof (Hst _ _ (rtc_refl _ _) Hi) as Hp.
    destruct (html_unfold n) as (jump & Ej & J). rewrite Ej in E. cbn [html_F] in E.
    unfold visit_section, need in E. rewrite Hi in E. cbv zeta in E.
    assert (section_tmpl h jump i = Ok x) as E'.
    { destruct Hp as [Hp|Hp]; rewrite Hp in E; exact E. }
    clear E. rename E' into E. unfold section_tmpl, need in E. rewrite Hi in E.
    destruct (header_depth h i) as [d|] eqn:Hd; [|done]. destruct (number h i) as [nu|] eqn:Hn; [|done].
    destruct (jump (s_title s)) as [title| | |] eqn:Et; try done. cbn [obind] in E.
    destruct (jump (s_body s)) as [body| | |] eqn:Eb; try done. cbn [obind] in E.
    destruct J as [J|(m & _ & J)]; [by rewrite J in Et|]. subst jump.
    set (head := match (match s_parent s with Some _ => Some nu | None => None end) with
                 | Some n => "<span class=""section-number"">" +:+ escape n +:+ " </span>" | None => "" end) in *.
    set (e := "<h" +:+ dec d +:+ " class=""section-header""><a id=""" +:+ escape (t_name (s_primary s)) +:+ """></a>" +:+
          head +:+ title +:+ "</h" +:+ dec d +:+ ">" +:+ nls +:+ nls +:+ body).
    assert (html_section i e) as Hsec.
    { exists s, d, head, m, title, body. split_and!; try done. unfold head. destruct (s_parent s) as [p|]; [right|by left]. by exists p, nu. }
    assert (∀ o, section_html (dec d) (t_name (s_primary s)) (match s_parent s with Some _ => Some nu | None => None end) title body o =
      "" +:+ (e +:+ (nls +:+ nls +:+ match o with
        | Some cs => nls +:+ "  " +:+ sconcat (map (λ s, nls +:+ "    " +:+ s +:+ nls +:+ "  ") cs) +:+ nls | None => "" end))) as Q.
    { intros o. unfold section_html. fold head. unfold e. change ("" +:+ ?a) with a. by rewrite !sapp_assoc. }
    exists e. unfold follow_page. clearbody head e. destruct (s_split s) eqn:Hsp; cbn [negb].
    - injection E as <-. exists []. split; [done|]. split; [constructor|]. rewrite Q. constructor; [done|]. by constructor.
    - destruct (omapM (λ c, ht m (CSection c)) (s_children s)) as [xs| | |] eqn:M; try done. injection E as <-.
      apply omapM_Forall2 in M. exists xs. split; [done|]. split.
      + assert (∀ c, c ∈ s_children s → edge h follow_page i c) as He.
        { intros c Hc. exists s. unfold follow_page. by rewrite Hsp. }
        clear -M He Hst. induction M as [|c x cs xs Hc _ IH]; [constructor|]. constructor.
        * split; [|by exists m]. intros j s' R Hj. eapply Hst; [|done]. eapply rtc_l; [|done]. apply He. by left.
        * apply IH. intros c' Hc'. apply He. by right.
      + rewrite Q. clear Q. constructor; [done|]. do 4 (apply woven_between; [exact blank_app|done|]).
        clear. set (f := λ s0 : string, nls +:+ "    " +:+ s0 +:+ nls +:+ "  ").
        induction xs as [|x xs IH]; [by constructor|]. cbn [map sconcat].
        replace ((f x +:+ sconcat (map f xs)) +:+ nls) with ((nls +:+ "    ") +:+ (x +:+ (nls +:+ ("  " +:+ (sconcat (map f xs) +:+ nls)))))
          by (unfold f at 2; by rewrite !sapp_assoc).
        constructor; [done|]. do 2 (apply woven_between; [exact blank_app|done|]). exact IH.
  Qed.

  Lemma html_section_woven i l n out : listing h follow_page i l → (∀ j s, j ∈ l → h !! j = Some s → plain_style s) →
    ht n (CSection i) = Ok out → ∃ es, Forall2 html_section l es ∧ woven blank es out.
  Proof.
    intros H Hst E. eapply (tree_woven blank blank_app h follow_page html_section html_item html_item_woven); [done|].
    split; [|by exists n]. intros j s R. apply Hst. by eapply listing_elem.
  Qed.
End html.
