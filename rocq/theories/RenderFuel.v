(** The bound on the number of jumps does not matter: once rendering ends with some
    bound, it ends in the same way with any greater one. *)
From Coq Require Import Ascii String Lia.
From stdpp Require Import base tactics relations strings list.
From Verif Require Import GoBase StrProofs Ast Content ContentProofs Section Render Html TextRender.
Local Open Scope string_scope.
Local Open Scope list_scope.

Definition below {A} (o o' : outcome rerr A) : Prop := o = NoFuel ∨ o' = o.

Lemma below_refl {A} (o : outcome rerr A) : below o o.
Proof. by right. Qed.
Lemma below_none {A} (o : outcome rerr A) : below NoFuel o.
Proof. by left. Qed.
Lemma below_obind {A B} (f f' : A → outcome rerr B) o o' : below o o' → (∀ x, below (f x) (f' x)) → below (obind f o) (obind f' o').
Proof. intros [-> | ->] H; [by left|]. destruct o; [apply H|by right..]. Qed.
Lemma below_omapM {A B} (f f' : A → outcome rerr B) l : Forall (λ x, below (f x) (f' x)) l → below (omapM f l) (omapM f' l).
Proof.
  induction 1 as [|c l Hc _ IH]; [by right|].
  change (omapM f (c :: l)) with (obind (λ y, obind (λ ys, Ok (y :: ys)) (omapM f l)) (f c)).
  change (omapM f' (c :: l)) with (obind (λ y, obind (λ ys, Ok (y :: ys)) (omapM f' l)) (f' c)).
  apply below_obind; [done|]. intros y. apply below_obind; [done|]. intros ys. by right.
Qed.
Lemma below_need {A} (o : option A) f f' : (∀ x, below (f x) (f' x)) → below (need o f) (need o f').
Proof. intros H. destruct o; [apply H|by right]. Qed.
Lemma below_text str c f f' : (∀ x, below (f x) (f' x)) → below (text_of str c f) (text_of str c f').
Proof. intros H. unfold text_of. destruct (str c); [apply H|by right..]. Qed.
Lemma all_below {A B} (f f' : A → outcome rerr B) l : (∀ x, below (f x) (f' x)) → Forall (λ x, below (f x) (f' x)) l.
Proof. intros H. by apply Forall_forall. Qed.

Ltac bl := repeat first
  [ apply below_refl | apply below_obind; [|intros ?] | apply below_need; intros ? | apply below_text; intros ?
  | apply below_omapM, all_below; intros ? | by auto
  | match goal with |- below (match ?o with _ => _ end) (match ?o with _ => _ end) => destruct o end ].

Section html.
  Context (similar : string → string → bool) (broken : bool) (h : heap).
  Context (force : nat → option content) (str : content → outcome error string).

  Lemma html_F_below jump jump' c : (∀ c, below (jump c) (jump' c)) →
    below (html_F similar broken h force str jump c) (html_F similar broken h force str jump' c).
  Proof.
    intros J.
    induction c as [s|l IH|l IH|l IH|sec t rc o l IH|c t IH|s|s|st b c ps IH IHps|t l ti x IHt IHx|p d|l o IH|rows IH|defs IH|b t|c IH]
      using content_ind'; cbn [html_F]; try (by right).
    1,2,3,9: apply below_obind; [by apply below_omapM|intros ?; by right].
    - unfold reference_tmpl. bl.
    - bl.
    - unfold visit_section, section_tmpl, page_tmpl, toc_tmpl. cbv zeta. bl.
    - unfold toc_tmpl. bl.
    - bl.
    - apply below_obind; [|intros ?; by right]. apply below_omapM. eapply Forall_impl; [exact IH|]. intros r F. by apply below_omapM.
    - apply below_obind; [|intros ?; by right]. apply below_omapM. eapply Forall_impl; [exact IH|]. intros [x y] [F1 F2]. simpl in *. bl.
    - bl.
    - done.
  Qed.

  Lemma html_below n n' c : n ≤ n' → below (html similar broken h force str n c) (html similar broken h force str n' c).
  Proof.
    revert n' c. induction n as [|n IH]; intros [|n'] c L; try lia; cbn [html]; apply html_F_below; intros x; try (by left).
    apply IH. lia.
  Qed.
  Lemma html_more n n' c r : html similar broken h force str n c = r → r ≠ NoFuel → n ≤ n' → html similar broken h force str n' c = r.
  Proof. intros <- N L. by destruct (html_below n n' c L). Qed.
  Lemma html_unique n n' c r r' : html similar broken h force str n c = r → html similar broken h force str n' c = r' →
    r ≠ NoFuel → r' ≠ NoFuel → r = r'.
  Proof.
    intros E E' N N'. destruct (Nat.le_ge_cases n n') as [L|L].
    - rewrite <- E'. symmetry. by eapply html_more.
    - rewrite <- E. by eapply html_more.
  Qed.
  Lemma html_page_more n n' i r : html_page similar broken h force str n i = r → r ≠ NoFuel → n ≤ n' →
    html_page similar broken h force str n' i = r.
  Proof.
    intros <- N L. assert (below (html_page similar broken h force str n i) (html_page similar broken h force str n' i)) as [E|E]; [|done|done].
    unfold html_page, page_tmpl. apply below_need. intros s. apply below_text. intros t. apply below_obind; [|intros ?; by right].
    by apply html_below.
  Qed.

  Lemma text_F_below jump jump' c : (∀ c, below (jump c) (jump' c)) →
    below (text_F h force str jump c) (text_F h force str jump' c).
  Proof.
    intros J.
    induction c as [s|l IH|l IH|l IH|sec t rc o l IH|c t IH|s|s|st b c ps IH IHps|t l ti x IHt IHx|p d|l o IH|rows IH|defs IH|b t|c IH]
      using content_ind'; cbn [text_F]; try (by right).
    1,2,3: apply below_obind; [by apply below_omapM|intros ?; by right].
    - unfold visit_section_text, section_text_tmpl, page_text_tmpl, toc_text_tmpl. cbv zeta. bl.
    - unfold toc_text_tmpl. bl.
    - bl.
    - bl.
    - done.
  Qed.
  Lemma text_below n n' c : n ≤ n' → below (text h force str n c) (text h force str n' c).
  Proof.
    revert n' c. induction n as [|n IH]; intros [|n'] c L; try lia; cbn [text]; apply text_F_below; intros x; try (by left).
    apply IH. lia.
  Qed.
  Lemma text_more n n' c r : text h force str n c = r → r ≠ NoFuel → n ≤ n' → text h force str n' c = r.
  Proof. intros <- N L. by destruct (text_below n n' c L). Qed.
End html.
