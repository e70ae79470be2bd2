(** As TmplFuel.v, for text. *)
From Coq Require Import Ascii String Lia.
From stdpp Require Import base tactics relations functions strings list.
From Verif Require Import GoBase StrProofs Ast Content ContentProofs Section Render Html TextRender Tmpl TmplEsc TmplExec
  TmplBundled TmplSpec TmplProofs TmplHtml TmplFuel TmplText RenderFuel.
Local Open Scope string_scope.
Local Open Scope list_scope.

Section text.
  Context (similar : string → string → bool) (broken : bool) (h : heap).
  Context (force : nat → option content) (str : content → outcome error string) (ext : string).
  Context (Hstr : ∀ s, str (CString s) = Ok s) (Hdangling : ∀ j, h !! j = None → str (CSection j) = Panic).

  Notation rt := (run similar broken h force str ext false bundled_text).
  Notation R k := (λ c, rt k (TRender c)).
  Notation text_1 := (text_1 h force str).

  Lemma tnamed_eq k name v :
    match bundled_text name with
    | None => Err (RTemplate name)
    | Some t => exec similar broken h str ext false (R k) (λ name v, rt k (TExec name v)) t v
    end = tnamed similar broken h str ext (R k) (λ name v, rt k (TExec name v)) name v.
  Proof. unfold tnamed. rewrite bundled_text_get. done. Qed.

  Lemma run_step_t k c : like (rt (S k) (TRender c)) (text_1 (R k) (R k) c).
  Proof.
    pose proof (x_visit_one similar broken h force str ext (R k) (λ name v, rt k (TExec name v))
      (run_call_toc similar broken h force str ext false bundled_text k) Hstr Hdangling c) as V.
    pose proof (run_visit similar broken h force str ext false bundled_text k c) as E.
    assert (∀ name v, rt (S k) (TExec name v) = tnamed similar broken h str ext (R k) (λ name v, rt k (TExec name v)) name v) as N
      by (intros; apply tnamed_eq).
    assert (∀ o, match o with Some (name, v) => rt (S k) (TExec (name +:+ ".tmpl") v) | None => fails end =
      match o with Some (name, v) => tnamed similar broken h str ext (R k) (λ name v, rt k (TExec name v)) (name +:+ ".tmpl") v | None => fails end) as N'
      by (intros [[name v]|]; [apply N|reflexivity]).
    destruct c; rewrite E; try (apply like_refl); rewrite N'; exact V.
  Qed.

  Lemma text_1_rel r r' j j' c : (∀ c, rel (r c) (r' c)) → (∀ c, rel (j c) (j' c)) → rel (text_1 r j c) (text_1 r' j' c).
  Proof.
    intros Hr Hj.
    destruct c; cbn [TmplText.text_1]; unfold visit_section_text, section_text_tmpl, page_text_tmpl, toc_text_tmpl; cbv zeta; rl.
  Qed.

  Lemma run_rel_next k : (∀ c, rel (R k c) (text h force str k c)) → ∀ c, rel (R k c) (text h force str (S k) c).
  Proof.
    intros IH c'. destruct (IH c') as [E|E]; [by left|].
    destruct (text_below h force str k (S k) c' ltac:(lia)) as [E'|E'].
    - left. rewrite E' in E. by destruct (R k c').
    - right. by rewrite E'.
  Qed.
  Lemma run_rel_t k : ∀ c, rel (R k c) (text h force str k c).
  Proof.
    induction k as [|k IH]; intros c; [by left|].
    cbn [text]. rewrite text_F_1. destruct (text_1_rel _ _ _ _ c (run_rel_next k IH) IH) as [E|E].
    - left. pose proof (run_step_t k c) as L. rewrite E in L. by destruct (R (S k) c).
    - right. eapply like_trans; [apply run_step_t|exact E].
  Qed.

  Ltac er := repeat first
    [ apply evr_const
    | by auto
    | apply evr_omapM, evr_all; intros ?
    | match goal with
      | |- evr (obind ?f ?o) (λ k, obind (@?f' k) (@?o' k)) => apply (evr_obind f f' o o'); [|intros ?]
      | |- evr (match ?o with _ => _ end) (λ k, match ?o with _ => _ end) => destruct o
      | |- evr (need ?o ?f) (λ k, need ?o (@?g k)) => destruct o; cbn [need]
      | |- evr (text_of ?s ?c ?f) (λ k, text_of ?s ?c (@?g k)) => unfold text_of; destruct (s c)
      end ].

  Lemma text_F_evr jump (j' : nat → content → rendered) c : (∀ c, evr (jump c) (λ k, j' k c)) →
    (∀ k c, like (j' (S k) c) (text_1 (j' k) (j' k) c)) →
    evr (text_F h force str jump c) (λ k, j' k c).
  Proof.
    intros J S1.
    assert (∀ c, evr (text_F h force str jump c) (λ k, text_1 (j' k) (j' k) c) →
      evr (text_F h force str jump c) (λ k, j' k c)) as Shift.
    { intros c' [E|(k0 & E)]; [by left|]. right. exists (S k0). intros [|k] Hk; [lia|].
      eapply like_trans; [apply (E k); lia|]. apply like_sym, S1. }
    induction c as [s|l IH|l IH|l IH|sec t rc o l IH|c t IH|s|s|st b c ps IH IHps|t l ti x IHt IHx|p d|l o IH|rows IH|defs IH|b t|c IH]
      using content_ind'; apply Shift; cbn [text_F TmplText.text_1]; try (apply evr_const).
    1,2,3: apply (evr_obind _ (λ _ ss, Ok _)); [by apply evr_omapM|intros ?; apply evr_const].
    - unfold visit_section_text, section_text_tmpl, page_text_tmpl, toc_text_tmpl. cbv zeta. er.
    - unfold toc_text_tmpl. er.
    - er.
    - er.
    - done.
  Qed.
  Lemma run_evr_t n : ∀ c, evr (text h force str n c) (λ k, R k c).
  Proof.
    induction n as [|n IH]; intros c; cbn [text]; apply (text_F_evr _ (λ k c, R k c)); try (intros; apply run_step_t).
    - intros c'. by left.
    - exact IH.
  Qed.

  (** A page: there is nothing to fall back to. *)
  Definition page_1 (r : content → rendered) (i : nat) : rendered :=
    need (h !! i) (λ s,
      if String.eqb (s_style s) "" then page_text_tmpl h str r i else Err (RTemplate (s_style s +:+ "-page"))).
  Lemma page_step_t k i : like (run_page similar broken h force str ext false bundled_text (S k) i) (page_1 (R k) i).
  Proof.
    unfold run_page, page_1. destruct (h !! i) as [s|] eqn:Hi; [|exact I]. cbn [need].
    destruct (String.eqb (s_style s) "").
    - cbn [run]. rewrite tnamed_eq. unfold tnamed.
      change (assoc_get "page.tmpl" text_trees) with (Some (ttree "page.tmpl")). cbv iota. apply like_eq.
      eapply (x_page similar broken h str ext (R k)); done.
    - cbv zeta. assert (bundled_text (s_style s +:+ "-page.tmpl") = None) as E.
      { rewrite bundled_text_get. apply no_suffix. vm_compute. reflexivity. }
      rewrite E. cbn [run]. rewrite E. exact I.
  Qed.
  Lemma page_1_rel r r' i : (∀ c, rel (r c) (r' c)) → rel (page_1 r i) (page_1 r' i).
  Proof. intros H. unfold page_1, page_text_tmpl. rl. Qed.
  Lemma run_page_rel_t k i : rel (run_page similar broken h force str ext false bundled_text k i) (text_page h force str k i).
  Proof.
    destruct k as [|k].
    - unfold run_page, text_page, page_text_tmpl. destruct (h !! i) as [s|]; [|by right]. left. cbv zeta.
      destruct (String.eqb (s_style s) ""); [reflexivity|]. destruct (bundled_text _); reflexivity.
    - destruct (page_1_rel _ _ i (run_rel_next k (run_rel_t k))) as [E|E].
      + left. pose proof (page_step_t k i) as L. rewrite E in L. by destruct (run_page _ _ _ _ _ _ _ _ (S k) i).
      + right. eapply like_trans; [apply page_step_t|exact E].
  Qed.
  Lemma run_page_evr_t n i : evr (text_page h force str n i)
    (λ k, run_page similar broken h force str ext false bundled_text k i).
  Proof.
    assert (evr (text_page h force str n i) (λ k, page_1 (R k) i)) as [E|(k0 & E)].
    { pose proof (run_evr_t n) as V. unfold text_page, page_1, page_text_tmpl. er. }
    - by left.
    - right. exists (S k0). intros [|k] Hk; [lia|]. eapply like_trans; [apply (E k); lia|]. apply like_sym, page_step_t.
  Qed.
End text.
