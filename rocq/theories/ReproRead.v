(** What is read from heaps that are alike. *)
From Coq Require Import Ascii String Lia.
From stdpp Require Import base tactics relations strings list.
From Verif Require Import GoBase Ast Content ContentProofs Section Render Evaluate Collect CollectSpec Html TextRender ReproSpec Repro.

Lemma gofix_ext {X A} (F G : (X → option A) → X → option A) n x :
  (∀ rec rec' y, (∀ z, rec z = rec' z) → F rec y = G rec' y) → gofix F n x = gofix G n x.
Proof. intros H. revert x. induction n as [|n IH]; intros x; simpl; [done|]. by apply H. Qed.

Ltac skel_go := let Hr := fresh "Hr" in
  unfold fuel_of; rewrite ?map_length; apply gofix_ext; intros rec rec' i0 Hr.

Lemma skel_length h : length (skel h) = length h.
Proof. apply map_length. Qed.

Section skel.
  Context (h : heap).
  Notation K := (skel h).

  Ltac look i := rewrite ?(skel_lookup h i); destruct (h !! i) as [?s|]; simpl; [|done].
  Ltac walk := unfold fuel_of; rewrite ?skel_length; apply gofix_ext; intros rec rec' j Hr.

  Lemma file_path_skel i : file_path h i = file_path K i.
  Proof.
    unfold file_path. walk. unfold file_path_F. rewrite skel_lookup. destruct (h !! j) as [s|]; simpl; [|done].
    case_match; [|done]. case_match; [apply Hr|done].
  Qed.
  Lemma number_skel i : number h i = number K i.
  Proof.
    unfold number. walk. unfold number_F. rewrite skel_lookup. destruct (h !! j) as [s|]; simpl; [|done].
    destruct (s_parent s) as [p|]; [|done]. rewrite Hr. destruct (rec' p); simpl; [|done].
    rewrite skel_lookup. by destruct (h !! p).
  Qed.
  Lemma depth_skel i : depth h i = depth K i.
  Proof.
    unfold depth. walk. unfold depth_F. rewrite skel_lookup. destruct (h !! j) as [s|]; simpl; [|done].
    destruct (s_parent s) as [p|]; [|done]. by rewrite Hr.
  Qed.
  Lemma page_depth_skel i : page_depth h i = page_depth K i.
  Proof.
    unfold page_depth. walk. unfold page_depth_F. rewrite skel_lookup. destruct (h !! j) as [s|]; simpl; [|done].
    destruct (s_parent s) as [p|]; [|done]. rewrite skel_lookup. destruct (h !! p); simpl; [|done].
    case_match; [done|]. by rewrite Hr.
  Qed.
  Lemma header_depth_skel i : header_depth h i = header_depth K i.
  Proof. unfold header_depth. by rewrite page_depth_skel. Qed.
  Lemma page_owner_skel i : page_owner h i = page_owner K i.
  Proof.
    unfold page_owner. walk. unfold page_owner_F. rewrite skel_lookup. destruct (h !! j) as [s|]; simpl; [|done].
    destruct (s_parent s) as [p|]; [|done]. rewrite skel_lookup. destruct (h !! p); simpl; [|done].
    case_match; [done|]. by rewrite Hr.
  Qed.
  Lemma section_url_skel ext i a : section_url h ext i a = section_url K ext i a.
  Proof.
    unfold section_url. walk. unfold section_url_F. destruct j as [j b]. rewrite page_owner_skel.
    destruct (page_owner K j); simpl; [|done]. rewrite skel_lookup. destruct (h !! j) as [s|]; simpl; [|done].
    case_match; [by rewrite Hr|done].
  Qed.
  Lemma tag_url_skel ext t : tag_url h ext t = tag_url K ext t.
  Proof. unfold tag_url. destruct (t_section t); simpl; [apply section_url_skel|done]. Qed.
End skel.

Lemma alike_skel h h' : alike h h' → skel h' = skel h.
Proof.
  intros [H1 H2]. apply list_eq. intros i. rewrite !skel_lookup. destruct (h !! i) as [s|] eqn:E.
  - destruct (H2 _ _ E) as (A & B & B' & _ & -> & _). done.
  - apply lookup_ge_None in E. rewrite <- H1 in E. apply lookup_ge_None in E. by rewrite E.
Qed.

(** The same tags, and for tags in other places the same sections. *)
Definition tags_alike (l l' : list tag) : Prop := l ≡ₚ l' ∧ map t_section l = map t_section l'.

Lemma tags_alike_refl l : tags_alike l l.
Proof. done. Qed.
Lemma tags_alike_app a a' b b' : tags_alike a a' → tags_alike b b' → tags_alike (a ++ b) (a' ++ b').
Proof. intros [A1 A2] [B1 B2]. split; [by rewrite A1, B1|]. by rewrite !map_app, A2, B2. Qed.
Lemma own_alike (i : nat) B B' : B ≡ₚ B' → Forall (λ t, t_section t = Some i) B → tags_alike B B'.
Proof.
  intros P F. split; [done|]. assert (Forall (λ t, t_section t = Some i) B') as F' by (by rewrite <- P).
  assert (∀ l, Forall (λ t, t_section t = Some i) l → map t_section l = repeat (Some i) (length l)) as H.
  { induction 1 as [|x l E _ IH]; simpl; [done|]. by rewrite E, IH. }
  rewrite !H by done. by rewrite (Permutation_length P).
Qed.
Lemma list_filter_perm {A} (f : A → bool) l l' : l ≡ₚ l' → List.filter f l ≡ₚ List.filter f l'.
Proof.
  induction 1 as [|x l l' H IH|x y l|l1 l2 l3 H1 IH1 H2 IH2]; simpl; [done| | |by etrans].
  - case_match; by rewrite IH.
  - repeat case_match; first [apply perm_swap|reflexivity].
Qed.

Inductive opt_rel {A} (R : A → A → Prop) : option A → option A → Prop :=
| opt_none : opt_rel R None None
| opt_some a b : R a b → opt_rel R (Some a) (Some b).

Lemma gofix_rel {X A} (R : A → A → Prop) (F G : (X → option A) → X → option A) n x :
  (∀ rec rec' y, (∀ z, opt_rel R (rec z) (rec' z)) → opt_rel R (F rec y) (G rec' y)) → opt_rel R (gofix F n x) (gofix G n x).
Proof. intros H. revert x. induction n as [|n IH]; intros x; simpl; [constructor|]. by apply H. Qed.

Inductive osame {A} : outcome error A → outcome error A → Prop :=
| osame_ok a : osame (Ok a) (Ok a)
| osame_err e e' : same_error e e' → osame (Err e) (Err e')
| osame_panic : osame Panic Panic
| osame_nofuel : osame NoFuel NoFuel.

Inductive rsame {A} : outcome rerr A → outcome rerr A → Prop :=
| rsame_ok a : rsame (Ok a) (Ok a)
| rsame_err e : rsame (Err e) (Err e)
| rsame_tag e e' : same_error e e' → rsame (Err (RTag e)) (Err (RTag e'))
| rsame_panic : rsame Panic Panic
| rsame_nofuel : rsame NoFuel NoFuel.

Lemma rsame_refl {A} (o : outcome rerr A) : rsame o o.
Proof. destruct o; constructor. Qed.
Lemma rsame_bind {A B} (o o' : outcome rerr A) (f f' : A → outcome rerr B) :
  rsame o o' → (∀ a, rsame (f a) (f' a)) → rsame (obind f o) (obind f' o').
Proof. intros [] Hf; simpl; [apply Hf|constructor..]; done. Qed.
Lemma rsame_mapM {A B} (f f' : A → outcome rerr B) l : Forall (λ x, rsame (f x) (f' x)) l → rsame (omapM f l) (omapM f' l).
Proof.
  induction 1 as [|x l Hx Hl IH]; [constructor|]. cbn [omapM].
  apply rsame_bind; [done|]. intros y. apply rsame_bind; [exact IH|]. intros ys. constructor.
Qed.
Lemma omapM_ext {E A B} (f f' : A → outcome E B) l : Forall (λ x, f x = f' x) l → omapM f l = omapM f' l.
Proof.
  induction 1 as [|x l Hx Hl IH]; [done|]. cbn [omapM]. fold (omapM f l) (omapM f' l). by rewrite Hx, IH.
Qed.

Lemma mapM_perm {A B} (f : A → option B) l l' : l ≡ₚ l' → opt_rel (≡ₚ) (mapM f l) (mapM f l').
Proof.
  induction 1 as [|x l l' H IH|x y l|l1 l2 l3 H1 IH1 H2 IH2]; simpl.
  - by constructor.
  - destruct (f x); simpl; [|constructor]. destruct IH as [|u v P]; simpl; constructor. by rewrite P.
  - destruct (f x) as [u|], (f y) as [v|]; simpl; destruct (mapM f l) as [k|]; simpl; try apply opt_none. apply opt_some, perm_swap.
  - destruct IH1 as [|a b P]; [done|]. inversion IH2; subst. constructor. by etrans.
Qed.

Lemma same_text e e' : same_error e e' → error_text e = error_text e'.
Proof. by intros []. Qed.

Section alike.
  Context (similar : string → string → bool) (broken : bool) (h h' : heap) (HA : alike h h').

  Notation HS := (alike_skel h h' HA).
  Lemma file_path_alike i : file_path h' i = file_path h i.
  Proof. by rewrite file_path_skel, HS, <- file_path_skel. Qed.
  Lemma number_alike i : number h' i = number h i.
  Proof. by rewrite number_skel, HS, <- number_skel. Qed.
  Lemma depth_alike i : depth h' i = depth h i.
  Proof. by rewrite depth_skel, HS, <- depth_skel. Qed.
  Lemma header_depth_alike i : header_depth h' i = header_depth h i.
  Proof. by rewrite header_depth_skel, HS, <- header_depth_skel. Qed.
  Lemma tag_url_alike ext t : tag_url h' ext t = tag_url h ext t.
  Proof. by rewrite tag_url_skel, HS, <- tag_url_skel. Qed.

  Lemma lookup_alike i : opt_rel (λ s s', tags_alike (s_tags s) (s_tags s') ∧ s' = set_tags s (s_tags s') ∧
    ∀ f, tags_alike (List.filter f (s_tags s)) (List.filter f (s_tags s'))) (h !! i) (h' !! i).
  Proof.
    destruct HA as [H1 H2]. destruct (h !! i) as [s|] eqn:E.
    - destruct (H2 _ _ E) as (A & B & B' & Es & -> & P & F). constructor. rewrite Es. simpl.
      split; [|split; [done|]].
      + apply tags_alike_app; [apply tags_alike_refl|]. by eapply own_alike.
      + intros f. rewrite !List.filter_app. apply tags_alike_app; [apply tags_alike_refl|].
        eapply (own_alike i); [by apply list_filter_perm|]. rewrite Forall_forall in F |- *. intros x Hx.
        apply elem_of_list_In, filter_In in Hx as [Hx _]. by apply F, elem_of_list_In.
    - apply lookup_ge_None in E. rewrite <- H1 in E. apply lookup_ge_None in E. rewrite E. constructor.
  Qed.

  Lemma filter_tags_alike f i : opt_rel tags_alike (filter_tags h f i) (filter_tags h' f i).
  Proof.
    unfold filter_tags, fuel_of. rewrite (proj1 HA). apply gofix_rel. intros rec rec' [[up ex] j] Hr. unfold filter_tags_F.
    destruct (lookup_alike j) as [|s s' (_ & Es & Hf)]; simpl; [constructor|].
    assert (s_children s' = s_children s ∧ s_parent s' = s_parent s) as [-> ->] by (by rewrite Es).
    match goal with |- opt_rel _ (base.mbind _ ?x) (base.mbind _ ?y) => assert (opt_rel tags_alike x y) as HL end.
    { induction (s_children s) as [|c r IH]; [by constructor|].
      destruct (match ex with Some e => Nat.eqb c e | None => false end); [exact IH|].
      destruct (Hr (false, None, c)) as [|a b Hab]; simpl; [constructor|].
      destruct IH as [|a' b' Hab']; simpl; constructor. by apply tags_alike_app. }
    destruct HL as [|a b Hab]; simpl; [constructor|].
    destruct up; [|constructor; by apply tags_alike_app].
    destruct (s_parent s) as [p|]; [|constructor; by apply tags_alike_app].
    destruct (Hr (true, Some j, p)) as [|a' b' Hab']; simpl; constructor. repeat apply tags_alike_app; done.
  Qed.
  Lemma find_tag_alike i name : opt_rel tags_alike (find_tag h i name) (find_tag h' i name).
  Proof. apply filter_tags_alike. Qed.

  Lemma resolve_alike sec name opt l : osame (resolve similar h sec name opt l) (resolve similar h' sec name opt l).
  Proof.
    unfold resolve. destruct (find_tag_alike sec name) as [|a b [P Q]]; [constructor|].
    destruct a as [|t [|u a]].
    - apply Permutation_nil_l in P as <-. destruct opt; [constructor|].
      unfold similar_tags. rewrite file_path_alike. destruct (filter_tags_alike (similar name) sec) as [|x y [Pxy _]]; [constructor|].
      destruct (file_path h sec); constructor. by constructor.
    - apply Permutation_singleton_l in P as <-. constructor.
    - assert (∃ v w b', b = v :: w :: b') as (v & w & b' & ->).
      { apply Permutation_length in P. destruct b as [|v [|w b]]; [done..|]. by exists v, w, b. }
      match goal with |- osame (match mapM ?f _ with _ => _ end) (match mapM ?g _ with _ => _ end) =>
        assert (∀ x, g x = f x) as Hg; [intros x; destruct (t_section x); [|done]; by rewrite file_path_alike|];
        rewrite (mapM_ext g f (v :: w :: b')) by done; pose proof (mapM_perm f _ _ P) as HP end.
      rewrite file_path_alike. destruct HP as [|x y Pxy]; [constructor|]. destruct (file_path h sec); constructor. by constructor.
  Qed.
  Lemma ref_tag_alike sec name opt l : osame (ref_tag similar broken h sec name opt l) (ref_tag similar broken h' sec name opt l).
  Proof.
    unfold ref_tag. destruct (resolve_alike sec name opt l); [constructor| |constructor..].
    destruct broken; by constructor.
  Qed.

  Lemma cstring_F_alike jump jump' : (∀ c, jump c = jump' c) → ∀ c,
    cstring_F similar broken h jump c = cstring_F similar broken h' jump' c.
  Proof.
    intros J. induction c as [s|l IH|l IH|l IH|sec t rc o l IH|c t IH|s|s|st b c ps IH IHps|t l ti x IH1 IH2|p d|l o IH|rows IH|defs IH|b t|c IH]
      using content_ind'; cbn [cstring_F]; try done.
    1-3,6: by rewrite (omapM_ext _ _ _ IH).
    - destruct rc as [rc|]; [done|]. destruct (ref_tag_alike sec t o l) as [[u|]|e e' He| |]; try done.
      + destruct (t_title u); [|done]. apply J.
      + by rewrite (same_text _ _ He).
    - destruct (lookup_alike s) as [|x x' (_ & Ex & _)]; [done|]. rewrite Ex. simpl. by rewrite J.
    - erewrite omapM_ext; [done|]. eapply Forall_impl; [exact IH|]. intros row H. by apply omapM_ext.
    - erewrite omapM_ext; [done|]. eapply Forall_impl; [exact IH|]. intros [a b] [H1 H2]. simpl in *. by rewrite H1, H2.
  Qed.
  Lemma cstring_alike n c : cstring similar broken h n c = cstring similar broken h' n c.
  Proof. revert c. induction n as [|n IH]; intros c; simpl; by apply cstring_F_alike. Qed.

  Context (force : nat → option content) (str str' : content → outcome error string) (Hstr : ∀ c, str c = str' c).

  Lemma text_of_alike c f f' : (∀ s, rsame (f s) (f' s)) → rsame (text_of str c f) (text_of str' c f').
  Proof. intros Hf. unfold text_of. rewrite Hstr. destruct (str' c); [apply Hf|constructor..]. Qed.

  Section tmpl.
    Context (jump jump' : content → rendered) (J : ∀ c, rsame (jump c) (jump' c)).

    Lemma toc_alike i : rsame (toc_tmpl h jump i) (toc_tmpl h' jump' i).
    Proof.
      unfold toc_tmpl. destruct (lookup_alike i) as [|s s' (_ & Es & _)]; [constructor|]. rewrite Es. cbn [need s_children s_omit set_tags].
      destruct (s_children s) as [|c0 cs0]; [constructor|]. destruct (s_omit s); [constructor|]. generalize (c0 :: cs0). intros cs.
      apply rsame_bind; [|intros es; constructor]. apply rsame_mapM, Forall_forall. intros d _.
      destruct (lookup_alike d) as [|x x' (_ & Ex & _)]; [constructor|]. rewrite Ex. simpl.
      rewrite tag_url_alike, number_alike. destruct (tag_url h "html" (s_primary x)); [|constructor].
      destruct (number h d); [|constructor]. destruct (strip_aux (s_title x)); [|constructor].
      apply rsame_bind; [done|]. intros t. apply rsame_bind; [done|]. intros sub. constructor.
    Qed.
    Lemma section_tmpl_alike i : rsame (section_tmpl h jump i) (section_tmpl h' jump' i).
    Proof.
      unfold section_tmpl. destruct (lookup_alike i) as [|s s' (_ & Es & _)]; [constructor|]. rewrite Es. simpl.
      rewrite header_depth_alike, number_alike. destruct (header_depth h i); [|constructor]. destruct (number h i); [|constructor].
      apply rsame_bind; [done|]. intros t. apply rsame_bind; [done|]. intros b. destruct (s_split s); [constructor|].
      apply rsame_bind; [|intros cs; constructor]. apply rsame_mapM, Forall_forall. intros c _. done.
    Qed.
    Lemma page_tmpl_alike i : rsame (page_tmpl h str jump i) (page_tmpl h' str' jump' i).
    Proof.
      unfold page_tmpl. destruct (lookup_alike i) as [|s s' (_ & Es & _)]; [constructor|]. rewrite Es. simpl.
      apply text_of_alike. intros t. apply rsame_bind; [done|]. intros b. constructor.
    Qed.
    Lemma visit_section_alike i : rsame (Html.visit_section h str jump i) (Html.visit_section h' str' jump' i).
    Proof.
      unfold Html.visit_section. destruct (lookup_alike i) as [|s s' (_ & Es & _)]; [constructor|]. rewrite Es. simpl.
      repeat case_match; auto using section_tmpl_alike, page_tmpl_alike, toc_alike, rsame_refl; try constructor.
      all: apply text_of_alike; intros t; constructor.
    Qed.
    Lemma reference_alike sec name rc opt l :
      rsame (reference_tmpl similar broken h jump sec name rc opt l) (reference_tmpl similar broken h' jump' sec name rc opt l).
    Proof.
      unfold reference_tmpl, ref_display. destruct (ref_tag_alike sec name opt l) as [[t|]|e e' He| |]; try by constructor.
      - rewrite tag_url_alike. destruct (tag_url h "html" t); [|constructor].
        match goal with |- rsame (match ?o with Some _ => _ | None => _ end) _ => destruct o end;
          [|constructor]. apply rsame_bind; [done|]. intros ?. constructor.
      - destruct (rc ≫= strip_aux); [apply J|constructor].
    Qed.

    Lemma html_F_alike c : rsame (html_F similar broken h force str jump c) (html_F similar broken h' force str' jump' c).
    Proof.
      induction c as [s|l IH|l IH|l IH|sec t rc o l IH|c t IH|s|s|st b c ps IH IHps|t l ti x IH1 IH2|p d|l o IH|rows IH|defs IH|b t|c IH]
        using content_ind'; cbn [html_F]; try apply rsame_refl; try done.
      all: try (apply rsame_bind; [by first [apply rsame_mapM|done]|]; intros ?; by constructor).
      - apply reference_alike.
      - apply visit_section_alike.
      - apply toc_alike.
      - destruct (styled_wrap _ _) as [[pre post]|].
        + apply rsame_bind; [done|]. intros x. constructor.
        + repeat case_match; try constructor; apply text_of_alike; intros t; constructor.
      - apply rsame_bind; [|intros x; constructor]. apply rsame_mapM. eapply Forall_impl; [exact IH|]. intros row H. by apply rsame_mapM.
      - apply rsame_bind; [|intros x; constructor]. apply rsame_mapM. eapply Forall_impl; [exact IH|]. intros [a d] [H1 H2].
        apply rsame_bind; [done|]. intros x. apply rsame_bind; [done|]. intros y. constructor.
      - destruct (force t); [apply J|constructor].
    Qed.

    Lemma toc_text_alike i : rsame (toc_text_tmpl h jump i) (toc_text_tmpl h' jump' i).
    Proof.
      unfold toc_text_tmpl. destruct (lookup_alike i) as [|s s' (_ & Es & _)]; [constructor|]. rewrite Es. cbn [need s_children s_omit set_tags].
      destruct (s_children s) as [|c0 cs0]; [constructor|]. destruct (s_omit s); [constructor|]. generalize (c0 :: cs0). intros cs.
      apply rsame_bind; [|intros es; constructor]. apply rsame_mapM, Forall_forall. intros d _.
      destruct (lookup_alike d) as [|x x' (_ & Ex & _)]; [constructor|]. rewrite Ex. simpl.
      rewrite number_alike. destruct (number h d); [|constructor]. destruct (strip_aux (s_title x)); [|constructor].
      apply rsame_bind; [done|]. intros t. apply rsame_bind; [done|]. intros sub. constructor.
    Qed.
    Lemma section_text_alike i : rsame (section_text_tmpl h jump i) (section_text_tmpl h' jump' i).
    Proof.
      unfold section_text_tmpl. destruct (lookup_alike i) as [|s s' (_ & Es & _)]; [constructor|]. rewrite Es. simpl.
      rewrite number_alike.
      match goal with |- rsame (need ?o _) _ => destruct o end; [|constructor]. simpl.
      apply rsame_bind; [done|]. intros t. apply rsame_bind; [done|]. intros b. destruct (s_split s); [constructor|].
      apply rsame_bind; [|intros cs; constructor]. apply rsame_mapM, Forall_forall. intros c _. done.
    Qed.
    Lemma page_text_alike i : rsame (page_text_tmpl h str jump i) (page_text_tmpl h' str' jump' i).
    Proof.
      unfold page_text_tmpl. destruct (lookup_alike i) as [|s s' (_ & Es & _)]; [constructor|]. rewrite Es. simpl.
      apply text_of_alike. intros t. apply rsame_bind; [done|]. intros b. constructor.
    Qed.
    Lemma text_F_alike c : rsame (text_F h force str jump c) (text_F h' force str' jump' c).
    Proof.
      induction c as [s|l IH|l IH|l IH|sec t rc o l IH|c t IH|s|s|st b c ps IH IHps|t l ti x IH1 IH2|p d|l o IH|rows IH|defs IH|b t|c IH]
        using content_ind'; cbn [text_F]; try apply rsame_refl; try done.
      all: try (apply rsame_bind; [by first [apply rsame_mapM|done]|]; intros ?; by constructor).
      - unfold visit_section_text. destruct (lookup_alike s) as [|x x' (_ & Es & _)]; [constructor|]. rewrite Es. simpl.
        repeat case_match; auto using section_text_alike, page_text_alike, toc_text_alike, rsame_refl; try constructor.
        apply text_of_alike; intros t; constructor.
      - apply toc_text_alike.
      - repeat case_match; try constructor.
        + apply rsame_bind; [done|]. intros x. constructor.
        + apply text_of_alike; intros t; constructor.
      - destruct (force t); [apply J|constructor].
    Qed.
  End tmpl.

  Lemma html_alike n c : rsame (html similar broken h force str n c) (html similar broken h' force str' n c).
  Proof. revert c. induction n as [|n IH]; intros c; simpl; apply html_F_alike; [constructor|done]. Qed.
  Lemma html_page_alike n i : rsame (html_page similar broken h force str n i) (html_page similar broken h' force str' n i).
  Proof. apply page_tmpl_alike, html_alike. Qed.
  Lemma text_alike n c : rsame (text h force str n c) (text h' force str' n c).
  Proof. revert c. induction n as [|n IH]; intros c; simpl; apply text_F_alike; [constructor|done]. Qed.
  Lemma text_page_alike n i : rsame (text_page h force str n i) (text_page h' force str' n i).
  Proof.
    unfold text_page. destruct (lookup_alike i) as [|s s' (_ & Es & _)]; [constructor|]. rewrite Es. simpl.
    case_match; [|constructor]. apply page_text_alike, text_alike.
  Qed.

  (** Writing. *)
  Inductive wsame : files * option error → files * option error → Prop :=
  | wsame_ok fs : wsame (fs, None) (fs, None)
  | wsame_err fs e e' : same_error e e' → wsame (fs, Some e) (fs, Some e').

  Lemma write_alike open_ok ext eng eng' i fs :
    (∀ i, fst (eng i) = fst (eng' i) ∧ opt_rel same_error (snd (eng i)) (snd (eng' i))) →
    opt_rel wsame (write_section h open_ok ext eng i fs) (write_section h' open_ok ext eng' i fs).
  Proof.
    intros He. unfold write_section, fuel_of. rewrite (proj1 HA). apply gofix_rel. intros rec rec' [j gs] Hr. unfold write_section_F.
    destruct (lookup_alike j) as [|s s' (_ & Es & _)]; simpl; [constructor|]. rewrite Es. simpl.
    assert (∀ fs, opt_rel wsame ((fix loop (cs : list nat) (fs : files) : option (files * option error) :=
       match cs with
       | [] => Some (fs, None)
       | c :: r => res ← rec (c, fs); match res with (fs, Some e) => Some (fs, Some e) | (fs, None) => loop r fs end
       end) (s_children s) fs) ((fix loop (cs : list nat) (fs : files) : option (files * option error) :=
       match cs with
       | [] => Some (fs, None)
       | c :: r => res ← rec' (c, fs); match res with (fs, Some e) => Some (fs, Some e) | (fs, None) => loop r fs end
       end) (s_children s) fs)) as HL.
    { induction (s_children s) as [|c r IH]; intros gs'; [repeat constructor|].
      destruct (Hr (c, gs')) as [|a b [gs''|gs'' e e' Hee]]; simpl; [constructor|apply IH|by repeat constructor]. }
    assert (opt_rel eq (match s_parent s with None => Some true | Some p => ps ← h !! p; Some (s_split ps) end)
      (match s_parent s with None => Some true | Some p => ps ← h' !! p; Some (s_split ps) end)) as Ho.
    { destruct (s_parent s) as [p|]; [|by constructor]. destruct (lookup_alike p) as [|x x' (_ & -> & _)]; by constructor. }
    destruct Ho as [|own own' <-]; simpl; [constructor|]. destruct own; [|apply HL].
    unfold write_single, page_file. simpl. destruct (open_ok _); [|repeat constructor].
    destruct (He j) as [E1 E2]. destruct (eng j) as [bytes o], (eng' j) as [bytes' o']. simpl in E1, E2. subst bytes'.
    destruct E2 as [|e e' Hee]; [apply HL|by repeat constructor].
  Qed.
End alike.
