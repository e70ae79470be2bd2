(** Bounds on the nesting of templates and on the number of jumps do not matter. *)
From Coq Require Import Ascii String Lia.
From stdpp Require Import base tactics relations functions strings list.
From Verif Require Import GoBase StrProofs Ast Content ContentProofs Section Render Html TextRender Tmpl TmplEsc TmplExec
  TmplBundled TmplSpec TmplProofs TmplHtml RenderFuel.
Local Open Scope string_scope.
Local Open Scope list_scope.

Lemma like_err_sym e f : like_err e f → like_err f e.
Proof. by destruct e, f. Qed.
Lemma like_err_trans e f g : like_err e f → like_err f g → like_err e g.
Proof. destruct e, f, g; cbn [like_err]; intros; by subst. Qed.
Lemma like_sym {A} (a b : outcome rerr A) : like a b → like b a.
Proof. destruct a, b; cbn [like]; try done. apply like_err_sym. Qed.
Lemma like_trans {A} (a b c : outcome rerr A) : like a b → like b c → like a c.
Proof. destruct a, b, c; cbn [like]; intros; subst; try done. by eapply like_err_trans. Qed.

(** ** Ended, or not *)

Definition rel {A} (a b : outcome rerr A) : Prop := a = NoFuel ∨ like a b.
Lemma rel_refl {A} (a : outcome rerr A) : rel a a.
Proof. right. apply like_refl. Qed.
Lemma rel_obind {A B} (f f' : A → outcome rerr B) o o' : rel o o' → (∀ x, rel (f x) (f' x)) → rel (obind f o) (obind f' o').
Proof.
  intros [->|H] F; [by left|]. destruct o, o'; cbn [like] in H; try done; cbn [obind]; subst; try (by right). apply F.
Qed.
Lemma rel_omapM {A B} (f f' : A → outcome rerr B) l : (∀ x, rel (f x) (f' x)) → rel (omapM f l) (omapM f' l).
Proof.
  intros F. induction l as [|c l IH]; [by right|].
  change (omapM f (c :: l)) with (obind (λ y, obind (λ ys, Ok (y :: ys)) (omapM f l)) (f c)).
  change (omapM f' (c :: l)) with (obind (λ y, obind (λ ys, Ok (y :: ys)) (omapM f' l)) (f' c)).
  apply rel_obind; [done|]. intros y. apply rel_obind; [done|]. intros ys. by right.
Qed.
Lemma rel_need {A} (o : option A) f f' : (∀ x, rel (f x) (f' x)) → rel (need o f) (need o f').
Proof. intros H. destruct o; [apply H|by right]. Qed.
Lemma rel_text str c f f' : (∀ x, rel (f x) (f' x)) → rel (text_of str c f) (text_of str c f').
Proof. intros H. unfold text_of. destruct (str c); [apply H|by right|by right|by left]. Qed.

Ltac rl := repeat first
  [ apply rel_refl | apply rel_obind; [|intros ?] | apply rel_need; intros ? | apply rel_text; intros ?
  | apply rel_omapM; intros ? | by auto
  | match goal with |- rel (match ?o with _ => _ end) (match ?o with _ => _ end) => destruct o end ].

(** ** Ended in the end *)

Definition evr {A} (a : outcome rerr A) (f : nat → outcome rerr A) : Prop :=
  a = NoFuel ∨ ∃ k0, ∀ k, k0 ≤ k → like a (f k).
Lemma evr_const {A} (a : outcome rerr A) : evr a (λ _, a).
Proof. right. exists 0. intros. apply like_refl. Qed.
Lemma evr_obind {A B} (g : A → outcome rerr B) (g' : nat → A → outcome rerr B) o (o' : nat → outcome rerr A) :
  evr o o' → (∀ x, evr (g x) (λ k, g' k x)) → evr (obind g o) (λ k, obind (g' k) (o' k)).
Proof.
  intros [->|(k0 & H)] F; [by left|]. destruct o as [x|e| |].
  - destruct (F x) as [E|(k1 & H1)]; [by left|]. right. exists (k0 `max` k1). intros k Hk.
    pose proof (H k) as Ho. destruct (o' k); cbn [like] in Ho; try (exfalso; apply Ho; lia).
    rewrite <- Ho by lia. cbn [obind]. apply H1. lia.
  - right. exists k0. intros k Hk. pose proof (H k Hk) as Ho. by destruct (o' k).
  - right. exists k0. intros k Hk. pose proof (H k Hk) as Ho. by destruct (o' k).
  - by left.
Qed.
Lemma evr_omapM {A B} (f : A → outcome rerr B) (f' : nat → A → outcome rerr B) l :
  Forall (λ x, evr (f x) (λ k, f' k x)) l → evr (omapM f l) (λ k, omapM (f' k) l).
Proof.
  induction 1 as [|c l Hc _ IH]; [apply evr_const|].
  change (omapM f (c :: l)) with (obind (λ y, obind (λ ys, Ok (y :: ys)) (omapM f l)) (f c)).
  change (λ k, omapM (f' k) (c :: l)) with (λ k, obind (λ y, obind (λ ys, Ok (y :: ys)) (omapM (f' k) l)) (f' k c)).
  apply (evr_obind _ (λ k y, obind (λ ys, Ok (y :: ys)) (omapM (f' k) l))); [done|]. intros y.
  apply (evr_obind _ (λ k ys, Ok (y :: ys))); [done|]. intros ys. apply evr_const.
Qed.
Lemma evr_all {A B} (f : A → outcome rerr B) f' l : (∀ x, evr (f x) (λ k, f' k x)) → Forall (λ x, evr (f x) (λ k, f' k x)) l.
Proof. intros H. by apply Forall_forall. Qed.

(** A name none of the keys ends like. *)
Lemma no_suffix suf x (l : list (string * list node)) :
  forallb (λ p, negb (has_suffix suf p.1)) l = true → assoc_get (x +:+ suf) l = None.
Proof.
  induction l as [|[n t] l IH]; [done|]. cbn [forallb fst assoc_get]. intros [Hn Hl]%andb_true_iff.
  destruct (String.eqb_spec n (x +:+ suf)) as [->|]; [|exact (IH Hl)].
  by rewrite has_suffix_app in Hn.
Qed.

(** One level of the interpreter, whatever the templates. *)
Lemma run_visit similar broken h force str ext html tmpls k c :
  match c with
  | CLazy _ t => run similar broken h force str ext html tmpls (S k) (TRender c) =
      match force t with Some x => run similar broken h force str ext html tmpls k (TRender x) | None => Err RLazy end
  | CAux x => run similar broken h force str ext html tmpls (S k) (TRender c) =
      run similar broken h force str ext html tmpls k (TRender x)
  | _ => run similar broken h force str ext html tmpls (S k) (TRender c) =
      match template_of h c with
      | Some (name, v) => run similar broken h force str ext html tmpls (S k) (TExec (name +:+ ".tmpl") v)
      | None => fails
      end
  end.
Proof. destruct c; reflexivity. Qed.
Lemma run_call_toc similar broken h force str ext html tmpls k i :
  run similar broken h force str ext html tmpls k (TExec "toc.tmpl" (VSec i)) =
  run similar broken h force str ext html tmpls k (TRender (CToc i)).
Proof. destruct k; reflexivity. Qed.

Section html.
  Context (similar : string → string → bool) (broken : bool) (h : heap).
  Context (force : nat → option content) (str : content → outcome error string).
  Context (Hstr : ∀ s, str (CString s) = Ok s) (Hdangling : ∀ j, h !! j = None → str (CSection j) = Panic).

  Notation rh := (run similar broken h force str "html" true bundled_html).
  Notation R k := (λ c, rh k (TRender c)).
  Notation html_1 := (html_1 similar broken h force str).

  Lemma call_toc k i : rh k (TExec "toc.tmpl" (VSec i)) = R k (CToc i).
  Proof. apply run_call_toc. Qed.

  Lemma named_eq k name v :
    match bundled_html name with
    | None => Err (RTemplate name)
    | Some t =>
      match esc_tree t with
      | None => fails
      | Some t => exec similar broken h str "html" true (R k) (λ name v, rh k (TExec name v)) t v
      end
    end = named similar broken h str (R k) (λ name v, rh k (TExec name v)) name v.
  Proof.
    unfold named. destruct (html_escaped_get name) as [E N]. destruct (bundled_html name) as [t|].
    - cbn [base.mbind option_bind] in E. rewrite E. destruct (assoc_get name html_escaped) eqn:G; [done|].
      exfalso. destruct N as [_ N]. by specialize (N eq_refl).
    - by rewrite (proj1 N eq_refl).
  Qed.

  Lemma run_step k c : like (rh (S k) (TRender c)) (html_1 (R k) (R k) c).
  Proof.
    pose proof (visit_one similar broken h force str (R k) (λ name v, rh k (TExec name v)) (call_toc k) Hstr Hdangling c) as V.
    pose proof (run_visit similar broken h force str "html" true bundled_html k c) as E.
    assert (∀ name v, rh (S k) (TExec name v) = named similar broken h str (R k) (λ name v, rh k (TExec name v)) name v) as N
      by (intros; apply named_eq).
    assert (∀ o, match o with Some (name, v) => rh (S k) (TExec (name +:+ ".tmpl") v) | None => fails end =
      match o with Some (name, v) => named similar broken h str (R k) (λ name v, rh k (TExec name v)) (name +:+ ".tmpl") v | None => fails end) as N'
      by (intros [[name v]|]; [apply N|reflexivity]).
    destruct c; rewrite E; try (apply like_refl); rewrite N'; exact V.
  Qed.

  Lemma html_1_rel r r' j j' c : (∀ c, rel (r c) (r' c)) → (∀ c, rel (j c) (j' c)) → rel (html_1 r j c) (html_1 r' j' c).
  Proof.
    intros Hr Hj.
    destruct c; cbn [TmplHtml.html_1]; unfold reference_tmpl, visit_section, section_tmpl, page_tmpl, toc_tmpl; cbv zeta; rl.
  Qed.

  Lemma run_rel k : ∀ c, rel (rh k (TRender c)) (html similar broken h force str k c).
  Proof.
    induction k as [|k IH]; intros c; [by left|].
    assert (∀ c, rel (R k c) (html similar broken h force str (S k) c)) as IH'.
    { intros c'. destruct (IH c') as [E|E]; [by left|].
      destruct (html_below similar broken h force str k (S k) c' ltac:(lia)) as [E'|E'].
      - left. rewrite E' in E. by destruct (rh k (TRender c')).
      - right. by rewrite E'. }
    cbn [html]. rewrite html_F_1. destruct (html_1_rel _ _ _ _ c IH' IH) as [E|E].
    - left. pose proof (run_step k c) as L. rewrite E in L. by destruct (rh (S k) (TRender c)).
    - right. eapply like_trans; [apply run_step|exact E].
  Qed.

  Ltac er := repeat first
    [ apply evr_const
    | by auto
    | apply evr_omapM, evr_all; intros ?
    | match goal with
      | |- evr (obind ?f ?o) (λ k, obind (@?f' k) (@?o' k)) => apply (evr_obind f f' o o'); [|intros ?]
      | |- evr (match ?o with _ => _ end) (λ k, match ?o with _ => _ end) => destruct o
      | |- evr (need ?o ?f) (λ k, need ?o (@?g k)) => destruct o; cbn [need]
      | |- evr (text_of ?s ?c ?f) (λ k, text_of ?s ?c (@?g k)) => unfold text_of; destruct (s c)
      end ].

  Lemma html_F_evr jump (j' : nat → content → rendered) c : (∀ c, evr (jump c) (λ k, j' k c)) →
    (∀ k c, like (j' (S k) c) (html_1 (j' k) (j' k) c)) →
    evr (html_F similar broken h force str jump c) (λ k, j' k c).
  Proof.
    intros J S1.
    assert (∀ c, evr (html_F similar broken h force str jump c) (λ k, html_1 (j' k) (j' k) c) →
      evr (html_F similar broken h force str jump c) (λ k, j' k c)) as Shift.
    { intros c' [E|(k0 & E)]; [by left|]. right. exists (S k0). intros [|k] Hk; [lia|].
      eapply like_trans; [apply (E k); lia|]. apply like_sym, S1. }
    induction c as [s|l IH|l IH|l IH|sec t rc o l IH|c t IH|s|s|st b c ps IH IHps|t l ti x IHt IHx|p d|l o IH|rows IH|defs IH|b t|c IH]
      using content_ind'; apply Shift; cbn [html_F TmplHtml.html_1]; try (apply evr_const).
    1,2,3,9: apply (evr_obind _ (λ _ ss, Ok _)); [by apply evr_omapM|intros ?; apply evr_const].
    - unfold reference_tmpl. er.
    - er.
    - unfold visit_section, section_tmpl, page_tmpl, toc_tmpl. cbv zeta. er.
    - unfold toc_tmpl. er.
    - er.
    - apply (evr_obind _ (λ _ ss, Ok _)); [|intros ?; apply evr_const].
      apply (evr_omapM _ (λ k row, omapM (j' k) row)). eapply Forall_impl; [exact IH|]. intros r F. by apply evr_omapM.
    - apply (evr_obind _ (λ _ ss, Ok _)); [|intros ?; apply evr_const].
      apply (evr_omapM _ (λ k p, match p with (s, d) => obind (λ s, obind (λ d, Ok (s, d)) (j' k d)) (j' k s) end)).
      eapply Forall_impl; [exact IH|]. intros [x y] [F1 F2]. simpl in *. er.
    - er.
    - done.
  Qed.

  Lemma run_evr n : ∀ c, evr (html similar broken h force str n c) (λ k, rh k (TRender c)).
  Proof.
    induction n as [|n IH]; intros c; cbn [html]; apply (html_F_evr _ (λ k c, rh k (TRender c))); try (intros; apply run_step).
    - intros c'. by left.
    - exact IH.
  Qed.

  Lemma page_step k i : like (run_page similar broken h force str "html" true bundled_html (S k) i) (page_tmpl h str (R k) i).
  Proof.
    unfold run_page, page_tmpl. destruct (h !! i) as [s|] eqn:Hi; [|exact I].
    assert (like (rh (S k) (TExec "page.tmpl" (VSec i))) (page_tmpl h str (R k) i)) as H.
    { cbn [run]. rewrite named_eq. unfold named.
      change (assoc_get "page.tmpl" html_escaped) with (Some (tree "page.tmpl")). cbv iota. apply like_eq.
      eapply (t_page similar broken h str (R k)); done. }
    unfold page_tmpl in H. rewrite Hi in H.
    destruct (String.eqb (s_style s) ""); [exact H|]. cbv zeta.
    assert (bundled_html (s_style s +:+ "-page.tmpl") = None) as ->; [|exact H].
    rewrite bundled_html_get.
    apply no_suffix. vm_compute. reflexivity.
  Qed.

  Lemma page_rel r r' i : (∀ c, rel (r c) (r' c)) → rel (page_tmpl h str r i) (page_tmpl h str r' i).
  Proof. intros H. unfold page_tmpl. rl. Qed.
  Lemma run_page_rel k i : rel (run_page similar broken h force str "html" true bundled_html k i)
    (html_page similar broken h force str k i).
  Proof.
    destruct k as [|k].
    - unfold run_page, html_page, page_tmpl. destruct (h !! i) as [s|]; [|by right]. left. cbv zeta.
      destruct (String.eqb (s_style s) ""); [reflexivity|]. destruct (bundled_html _); reflexivity.
    - unfold html_page.
      assert (∀ c, rel (R k c) (html similar broken h force str (S k) c)) as IH'.
      { intros c'. destruct (run_rel k c') as [E|E]; [by left|].
        destruct (html_below similar broken h force str k (S k) c' ltac:(lia)) as [E'|E'].
        - left. rewrite E' in E. by destruct (rh k (TRender c')).
        - right. by rewrite E'. }
      destruct (page_rel _ _ i IH') as [E|E].
      + left. pose proof (page_step k i) as L. rewrite E in L. by destruct (run_page _ _ _ _ _ _ _ _ (S k) i).
      + right. eapply like_trans; [apply page_step|exact E].
  Qed.
  Lemma run_page_evr n i : evr (html_page similar broken h force str n i)
    (λ k, run_page similar broken h force str "html" true bundled_html k i).
  Proof.
    assert (evr (html_page similar broken h force str n i) (λ k, page_tmpl h str (R k) i)) as [E|(k0 & E)].
    { pose proof (run_evr n) as V. unfold html_page, page_tmpl. er. }
    - by left.
    - right. exists (S k0). intros [|k] Hk; [lia|]. eapply like_trans; [apply (E k); lia|]. apply like_sym, page_step.
  Qed.
End html.
