(** The sections of a book (Book.v) are rendered as the book says. *)
From Coq Require Import Ascii String.
From stdpp Require Import base tactics relations strings list.
From Verif Require Import GoBase Ast Grammar Content ContentSpec ContentProofs Section StrProofs TreeSpec TreeProofs TagProofs QueryProofs
  Render NavProofs RenderSpec WriterProofs Evaluate EvalProofs EvalFrame EvalInv EvalSpec EvalTheory BaseSpec BaseRuns Html
  Book BookEval BookStore BookCollect BookPlaces.
Local Open Scope string_scope. Local Open Scope list_scope.

Lemma omapM_all {E A B} (f : A → outcome E B) l ss : Forall2 (λ x y, f x = Ok y) l ss → omapM f l = Ok ss.
Proof.
  induction 1 as [|x y l ss H _ IH]; [done|].
  change (omapM f (x :: l)) with (obind (λ y, obind (λ ys, Ok (y :: ys)) (omapM f l)) (f x)). by rewrite H, IH.
Qed.
Lemma Forall2_to {A B C} (P : A → B → Prop) (f : A → C) (Q : B → C → Prop) l l' : Forall2 P l l' →
  (∀ a b, a ∈ l → P a b → Q b (f a)) → Forall2 Q l' (map f l).
Proof.
  intros F. induction F as [|a b l l' H F IH]; intros HQ; [constructor|]. simpl. constructor; [apply HQ; [left|done]|].
  apply IH. intros ? ? ?. apply HQ. by right.
Qed.

Lemma span_html_plain s s' f f' w : plain_span w = true → span_html s f w = span_html s' f' w.
Proof.
  assert (∀ l, Forall (λ w, plain_span w = true → span_html s f w = span_html s' f' w) l → forallb plain_span l = true →
    map (span_html s f) l = map (span_html s' f') l) as Hall.
  { intros l Hl. induction Hl as [|w' l' Hw _ IH]; [done|]. simpl. intros [? ?]%andb_true_iff. by rewrite Hw, IH. }
  induction w as [t|k l IH|l u IH|p d|t l IH|t l IH] using span_ind'; simpl; intros Hp; try done.
  - by rewrite (Hall l IH Hp).
  - by rewrite (Hall l IH Hp).
Qed.
Lemma spans_html_plain s s' f f' l : forallb plain_span l = true → spans_html s f l = spans_html s' f' l.
Proof.
  unfold spans_html. intros Hl. f_equal. induction l as [|w l IH]; [done|]. simpl in *. apply andb_true_iff in Hl as [? ?].
  by rewrite (span_html_plain s s' f f' w), IH.
Qed.
Lemma plain_refs w : plain_span w = true → span_refs w = [].
Proof.
  assert (∀ l, Forall (λ w, plain_span w = true → span_refs w = []) l → forallb plain_span l = true → flat_map span_refs l = []) as Hall.
  { intros l Hl. induction Hl as [|w' l' Hw _ IH]; [done|]. simpl. intros [? ?]%andb_true_iff. by rewrite Hw, IH. }
  induction w as [t|k l IH|l u IH|p d|t l IH|t l IH] using span_ind'; simpl; intros Hp; try done; by apply Hall.
Qed.
Lemma plains_refs l : forallb plain_span l = true → flat_map span_refs l = [].
Proof. induction l as [|w l IH]; [done|]. simpl. intros [? ?]%andb_true_iff. by rewrite plain_refs, IH. Qed.

Lemma flat_map_concat {A B} (f : A → list B) ls : flat_map f (concat ls) = flat_map (flat_map f) ls.
Proof. induction ls as [|l ls IH]; [done|]. simpl. by rewrite flat_map_app, IH. Qed.

(** ** Results that depend on references *)

Section gives.
  Context (S0 : list entry) (broken : bool).

  Definition bad (tags : list string) : list string := if broken then [] else missing S0 tags.
  (** [o] is [x] unless one of the references cannot be resolved; then it is the
      error of the first. *)
  Definition gives {A} (tags : list string) (o : outcome rerr A) (x : A) : Prop :=
    match bad tags with
    | [] => o = Ok x
    | tag :: _ => ∃ e, o = Err (RTag e) ∧ refused S0 tag e
    end.

  Lemma bad_app l1 l2 : bad (l1 ++ l2) = bad l1 ++ bad l2.
  Proof. unfold bad, missing. destruct broken; [done|]. apply List.filter_app. Qed.
  Lemma bad_nil : bad [] = [].
  Proof. unfold bad. by destruct broken. Qed.
  Lemma gives_ok {A} o (x : A) : o = Ok x → gives [] o x.
  Proof. unfold gives. by rewrite bad_nil. Qed.
  Lemma gives_nil {A} o (x : A) : gives [] o x → o = Ok x.
  Proof. unfold gives. by rewrite bad_nil. Qed.
  Lemma gives_bind {A B} l1 l2 o (x : A) (f : A → outcome rerr B) y : gives l1 o x → gives l2 (f x) y → gives (l1 ++ l2) (obind f o) y.
  Proof.
    unfold gives. rewrite bad_app. destruct (bad l1) as [|tag l]; simpl; [by intros -> ?|]. intros (e & -> & He) _. by exists e.
  Qed.
  Lemma gives_map {A B} l o (x : A) (f : A → B) : gives l o x → gives l (obind (λ x, Ok (f x)) o) (f x).
  Proof. intros H. rewrite <- (app_nil_r l). eapply gives_bind; [exact H|]. by apply gives_ok. Qed.
  Lemma gives_all {A B C} (R : A → list string) (g : A → C) (f : B → outcome rerr C) ws cs : Forall2 (λ w c, gives (R w) (f c) (g w)) ws cs →
    gives (flat_map R ws) (omapM f cs) (map g ws).
  Proof.
    induction 1 as [|w c ws cs H _ IH]; [by apply gives_ok|].
    change (gives (R w ++ flat_map R ws) (obind (λ y, obind (λ ys, Ok (y :: ys)) (omapM f cs)) (f c)) (g w :: map g ws)).
    eapply gives_bind; [exact H|]. by apply gives_map.
  Qed.
End gives.

(** Broken references are allowed, or there are none. *)
Definition refers (top : sec) (broken : bool) (tags : list string) : Prop :=
  ∀ tag, tag ∈ tags → broken = true ∨ ∃ e, refer (site top) tag = Some e.
Lemma refers_bad top broken tags : refers top broken tags → bad (site top) broken tags = [].
Proof.
  unfold bad, missing. destruct broken; [done|]. induction tags as [|tag tags IH]; intros Hr; [done|]. simpl.
  destruct (Hr tag) as [?|[e ->]]; [left|done|]. apply IH. intros t Ht. apply Hr. by right.
Qed.
Lemma gives_refers {A} top broken tags o (x : A) : refers top broken tags → gives (site top) broken tags o x → o = Ok x.
Proof. intros Hr. unfold gives. by rewrite refers_bad. Qed.
Lemma refers_app top broken l1 l2 : refers top broken (l1 ++ l2) ↔ refers top broken l1 ∧ refers top broken l2.
Proof.
  split; [intros H; split; intros t Ht; apply H, elem_of_app; auto|]. intros [H1 H2] t [Ht|Ht]%elem_of_app; auto.
Qed.

Section rendered.
  Context (similar : string → string → bool) (broken : bool) (h : heap) (W : wf h) (force : nat → option content).
  Context (str : content → outcome error string).
  (** References in the tree below [r] are to what is in [top]. *)
  Context (top : sec) (r : nat).
  Context (Hres : ∀ tag e i l, refer (site top) tag = Some e → descendant h r i → ∃ t, ref_tag similar broken h i tag false l = Ok (Some t) ∧ tag_is h e t).
  Context (Href : ∀ tag i l, refer (site top) tag = None → descendant h r i → ∃ e, resolve similar h i tag false l = Err e ∧ refused (site top) tag e).
  Notation hF := (html_F similar broken h force str).
  Notation go := (html similar broken h force str).
  Notation S0 := (site top).
  Notation gives := (gives S0 broken).

  Lemma hF_joined {A} (R : A → list string) g jump ws cs c : Forall (λ c, ∀ l, c ≠ CSeq l) cs → joined cs = Some c →
    Forall2 (λ w c, gives (R w) (hF jump c) (g w)) ws cs → gives (flat_map R ws) (hF jump c) (sconcat (map g ws)).
  Proof.
    intros Hs J F. assert (cs ≠ []) as Hn by (by intros ->). rewrite joined_not_seq in J by done. injection J as <-.
    destruct F as [|w1 c1 ws cs H1 F]; [done|]. destruct F as [|w2 c2 ws cs H2 F].
    - simpl. rewrite app_nil_r, sapp_nil_r. done.
    - change (gives (flat_map R (w1 :: w2 :: ws)) (obind (λ ss, Ok (sconcat ss)) (omapM (hF jump) (c1 :: c2 :: cs))) (sconcat (map g (w1 :: w2 :: ws)))).
      apply (gives_map S0 broken _ _ _ sconcat). apply gives_all. by repeat constructor.
  Qed.

  (** What is shown for a link is rendered by [jump]. *)
  Definition shows (jump : content → rendered) : Prop :=
    ∀ i here l c, forallb plain_span l = true → line_is i l c → jump c = Ok (spans_html S0 here l).
  (** Section [i] is on the page in file [here]. *)
  Definition on_page (here : string) (i : nat) : Prop :=
    descendant h r i ∧ section_url h "html" i "broken" = Some (here +:+ "#broken").

  Lemma spans_not_seq i l cs : Forall2 (span_is i) l cs → Forall (λ c, ∀ l, c ≠ CSeq l) cs.
  Proof. induction 1 as [|w c l cs Hw _ IH]; constructor; [|done]. by eapply span_seq. Qed.

  Lemma wrapped k c x ps jump tags s : is_flow c = true → c = CStyled (look_style k) false x ps → gives tags (hF jump x) s →
    gives tags (hF jump c) (fst (look_marks k) +:+ s +:+ snd (look_marks k)).
  Proof.
    intros Hfl -> Hx.
    assert (styled_wrap (look_style k) (is_flow (CStyled (look_style k) false x ps)) = Some (look_marks k)) as Hw by (rewrite Hfl; by destruct k).
    change (gives tags (match styled_wrap (look_style k) (is_flow (CStyled (look_style k) false x ps)) with
      | Some (pre, post) => obind (λ s, Ok (pre +:+ s +:+ post)) (hF jump x)
      | None => if String.eqb (look_style k) "string" then text_of str (CStyled (look_style k) false x ps) (λ t, Ok (escape t))
        else if String.eqb (look_style k) "raw-html" then text_of str (CStyled (look_style k) false x ps) Ok else Err (RTemplate (look_style k)) end)
      (fst (look_marks k) +:+ s +:+ snd (look_marks k))).
    rewrite Hw. destruct (look_marks k) as [pre post]. by apply (gives_map S0 broken tags _ s (λ s, pre +:+ s +:+ post)).
  Qed.

  (** Showing the words of a reference, or else its title. *)
  Lemma hF_link here i tag l cs lc jump t u title : shows jump → ref_tag similar broken h i tag false lc = Ok (Some t) → tag_url h "html" t = Some u →
    forallb plain_span l = true → Forall2 (span_is i) l cs →
    (∃ c i' l', t_title t = Some c ∧ line_is i' l' c ∧ forallb plain_span l' = true ∧ title = spans_html S0 here l') →
    hF jump (CRef i tag (joined cs) false lc) = Ok (anchor_to u (match l with [] => title | _ => spans_html S0 here l end)).
  Proof.
    intros Hj Ht Hu Hp F (c' & i' & l' & Htt & Hl' & Hp' & ->). simpl. unfold reference_tmpl. rewrite Ht, Hu. unfold ref_display. destruct F as [|w c l cs Hw F].
    - simpl. rewrite Ht, Htt. simpl.
      destruct (title_says similar broken h 0 i' l' c' Hp' Hl') as [-> _]. by rewrite (Hj i' here l' c' Hp' Hl').
    - assert (line_is i (w :: l) (match cs with [] => c | _ => CSeq (c :: cs) end)) as Hl.
      { exists (c :: cs). split; [by constructor|]. rewrite joined_not_seq; [by destruct cs| |done]. eapply (spans_not_seq i (w :: l)). by constructor. }
      assert (joined (c :: cs) = Some (match cs with [] => c | _ => CSeq (c :: cs) end)) as ->.
      { rewrite joined_not_seq; [by destruct cs| |done]. eapply (spans_not_seq i (w :: l)). by constructor. }
      simpl. destruct (title_says similar broken h 0 i (w :: l) _ Hp Hl) as [-> _]. by rewrite (Hj i here (w :: l) _ Hp Hl).
  Qed.

  Lemma hF_ref here i tag l cs lc jump : on_page here i → shows jump → forallb plain_span l = true → Forall2 (span_is i) l cs →
    gives [tag] (hF jump (CRef i tag (joined cs) false lc)) (span_html S0 here (Ref tag l)).
  Proof.
    intros [Hd Hh] Hj Hp F. unfold BookHtml.gives, bad, missing. simpl List.filter. simpl span_html. destruct (refer S0 tag) as [e|] eqn:He.
    - destruct (Hres tag e i lc He Hd) as (t & Ht & Hn & Hu & c' & i' & l' & Htt & Hl' & Hp' & Hsh).
      assert ((if broken then [] else []) = @nil string) as -> by by destruct broken.
      rewrite (hF_link here i tag l cs lc jump t (en_url e) (en_shown e) Hj Ht Hu Hp F); [done|]. exists c', i', l'. split_and!; try done.
      rewrite Hsh. by apply spans_html_plain.
    - destruct (Href tag i lc He Hd) as (e & Hr & Hrf). assert (broken = true ∨ broken = false) as [Hb|Hb] by (destruct broken; auto).
      + assert (ref_tag similar broken h i tag false lc = Ok (Some (broken_tag i tag lc))) as Ht by (unfold ref_tag; by rewrite Hr, Hb).
        assert ((if broken then [] else [tag]) = []) as -> by by rewrite Hb.
        rewrite (hF_link here i tag l cs lc jump (broken_tag i tag lc) (here +:+ "#broken") (escape ("{broken reference: " +:+ tag +:+ "}")) Hj Ht Hh Hp F); [done|].
        eexists _, i, [Txt ("{broken reference: " +:+ tag +:+ "}")]. split; [done|]. split; [|split; [done|]].
        * exists [CString ("{broken reference: " +:+ tag +:+ "}")]. split; [|done]. repeat constructor.
        * unfold spans_html. simpl. by rewrite sapp_nil_r.
      + assert ((if broken then [] else [tag]) = [tag]) as -> by by rewrite Hb.
        exists e. split; [|done]. simpl. unfold reference_tmpl, ref_tag. by rewrite Hr, Hb.
  Qed.

  Lemma hF_span here i jump w : (plain_span w = true ∨ (on_page here i ∧ shows jump)) → span_fine w = true ∨ plain_span w = true →
    ∀ c, span_is i w c → gives (span_refs w) (hF jump c) (span_html S0 here w).
  Proof.
    assert (∀ l, Forall (λ w, (plain_span w = true ∨ (on_page here i ∧ shows jump)) → span_fine w = true ∨ plain_span w = true →
        ∀ c, span_is i w c → gives (span_refs w) (hF jump c) (span_html S0 here w)) l →
      (forallb plain_span l = true ∨ (on_page here i ∧ shows jump)) → forallb span_fine l = true ∨ forallb plain_span l = true →
      ∀ cs, Forall2 (span_is i) l cs → Forall2 (λ w c, gives (span_refs w) (hF jump c) (span_html S0 here w)) l cs) as Hall.
    { intros l Hl. induction Hl as [|w' l' Hw _ IH]; intros Hs Hf cs F; inversion F as [|? c' ? cs' Hc' F']; subst; [constructor|].
      simpl in *. assert ((plain_span w' = true ∨ (on_page here i ∧ shows jump)) ∧ (forallb plain_span l' = true ∨ (on_page here i ∧ shows jump))) as [Hs1 Hs2].
      { destruct Hs as [[? ?]%andb_true_iff|?]; auto. }
      assert ((span_fine w' = true ∨ plain_span w' = true) ∧ (forallb span_fine l' = true ∨ forallb plain_span l' = true)) as [Hf1 Hf2].
      { destruct Hf as [[? ?]%andb_true_iff|[? ?]%andb_true_iff]; auto. }
      constructor; [by apply Hw|by apply IH]. }
    induction w as [t|k l IH|l u IH|p d|t l IH|t l IH] using span_ind'; intros Hs Hf c Hc;
      pose proof Hc as Hc0; inversion Hc as [|? ? cs ? F J|? ? cs ? F J| |? ? cs lc F|]; subst; try (by apply gives_ok).
    - assert (forallb span_fine l = true ∨ forallb plain_span l = true) as Hf'.
      { simpl in Hf. destruct Hf as [[_ ?]%andb_true_iff|?]; auto. }
      apply (wrapped k _ c0 []); [|done|].
      + by apply (line_flow i [Sty k l]); exists [CStyled (look_style k) false c0 []]; split; [constructor; [done|constructor]|].
      + eapply hF_joined; [by eapply spans_not_seq|done|]. apply Hall; done.
    - assert (forallb span_fine l = true ∨ forallb plain_span l = true) as Hf'.
      { simpl in Hf. destruct Hf as [[_ ?]%andb_true_iff|?]; auto. }
      change (gives (flat_map span_refs l) (obind (λ s, Ok ("<a href=""" +:+ url_attr u +:+ """>" +:+ s +:+ "</a>")) (hF jump c0)) (span_html S0 here (Lnk l u))).
      apply (gives_map S0 broken _ _ _ (λ s, "<a href=""" +:+ url_attr u +:+ """>" +:+ s +:+ "</a>")).
      eapply hF_joined; [by eapply spans_not_seq|done|]. apply Hall; done.
    - destruct Hs as [?|[Hd Hs]]; [done|]. destruct Hf as [[Hf _]%andb_true_iff|?]; [|done]. by eapply hF_ref.
  Qed.

  Lemma hF_spans here i jump l c : (forallb plain_span l = true ∨ (on_page here i ∧ shows jump)) → forallb span_fine l = true ∨ forallb plain_span l = true →
    line_is i l c → gives (flat_map span_refs l) (hF jump c) (spans_html S0 here l).
  Proof.
    intros Hs Hf (cs & F & J). eapply hF_joined; [by eapply spans_not_seq|done|]. clear J.
    induction F as [|w c' l cs' Hw F IH]; [constructor|]. simpl in *. constructor.
    - apply (hF_span here i); [| |done].
      + destruct Hs as [[? ?]%andb_true_iff|?]; auto.
      + destruct Hf as [[? ?]%andb_true_iff|[? ?]%andb_true_iff]; auto.
    - apply IH.
      + destruct Hs as [[? ?]%andb_true_iff|?]; auto.
      + destruct Hf as [[? ?]%andb_true_iff|[? ?]%andb_true_iff]; auto.
  Qed.

  (** ** Paragraphs *)

  Definition J (n : nat) : content → rendered := match n with 0 => λ _, NoFuel | S n => go n end.
  Lemma go_F n c : go n c = hF (J n) c.
  Proof. by destruct n. Qed.
  Lemma go_plain n i here l c : forallb plain_span l = true → line_is i l c → go n c = Ok (spans_html S0 here l).
  Proof.
    intros Hp Hl. rewrite go_F. apply (gives_nil S0 broken). rewrite <- (plains_refs l Hp). apply (hF_spans here i); auto.
  Qed.
  Lemma go_shows n : shows (go n).
  Proof. intros i here l c. apply go_plain. Qed.

  Lemma hF_lines here i jump ls cs : on_page here i → shows jump → forallb line_fine ls = true → Forall2 (line_is i) ls cs →
    Forall2 (λ l c, gives (flat_map span_refs l) (hF jump c) (spans_html S0 here l)) ls cs.
  Proof.
    intros Hd Hj Hf F. induction F as [|l c ls cs Hl F IH]; [constructor|]. simpl in *. apply andb_true_iff in Hf as [H1 H2].
    constructor; [|by apply IH]. apply (hF_spans here i); auto. unfold line_fine in H1. apply andb_true_iff in H1 as [_ H1]. auto.
  Qed.

  Lemma hF_piece here i jump contents p c : on_page here i → shows jump → hF jump (CToc i) = Ok contents → piece_fine p = true →
    piece_is i p c → gives (piece_refs p) (hF jump c) (piece_html S0 here contents p).
  Proof.
    intros Hd Hj Htoc Hf Hp. inversion Hp as [lines cs F|o items cs F|lines cs F|rows css F|defs cs F|]; subst; unfold piece_refs; simpl piece_spans.
    - apply andb_true_iff in Hf as [_ Hf]. rewrite flat_map_concat.
      change (gives (flat_map (flat_map span_refs) lines) (obind (λ ss, Ok ("<p>" +:+ sjoin " " ss +:+ "</p>")) (omapM (hF jump) cs)) (piece_html S0 here contents (Par lines))).
      apply (gives_map S0 broken _ _ _ (λ ss, "<p>" +:+ sjoin " " ss +:+ "</p>")). apply gives_all. by apply (hF_lines here i).
    - rewrite flat_map_concat.
      change (gives (flat_map (flat_map span_refs) items) (obind (λ ss, Ok (list_html o ss)) (omapM (hF jump) cs)) (piece_html S0 here contents (Lst o items))).
      apply (gives_map S0 broken _ _ _ (list_html o)). apply gives_all. by apply (hF_lines here i).
    - rewrite flat_map_concat.
      change (gives (flat_map (flat_map span_refs) lines) (obind (λ s, Ok ("<pre>" +:+ s +:+ "</pre>")) (obind (λ ss, Ok (sjoin nls ss)) (omapM (hF jump) cs)))
        (piece_html S0 here contents (Cod lines))).
      apply (gives_map S0 broken _ _ _ (λ s, "<pre>" +:+ s +:+ "</pre>")). apply (gives_map S0 broken _ _ _ (sjoin nls)). apply gives_all. by apply (hF_lines here i).
    - change (gives (flat_map span_refs (concat (map (@concat span) rows))) (obind (λ rs, Ok (table_html rs)) (omapM (λ row, omapM (hF jump) row) css))
        (piece_html S0 here contents (Tbl rows))).
      apply (gives_map S0 broken _ _ _ table_html). rewrite flat_map_concat.
      assert (flat_map (flat_map span_refs) (map (@concat span) rows) = flat_map (flat_map (flat_map span_refs)) rows) as ->.
      { clear. induction rows as [|row rows IH]; [done|]. simpl. by rewrite flat_map_concat, IH. }
      apply gives_all. clear Hp. simpl in Hf. induction F as [|row cs rows css H1 F IH]; [constructor|]. simpl in *. apply andb_true_iff in Hf as [Hf1 Hf2].
      constructor; [|by apply IH]. apply gives_all. by apply (hF_lines here i).
    - change (gives (flat_map span_refs (concat (map (λ d : list span * list span, fst d ++ snd d) defs))) (obind (λ ds, Ok (defs_html ds))
        (omapM (λ p : content * content, match p with (s, d) => obind (λ s, obind (λ d, Ok (s, d)) (hF jump d)) (hF jump s) end) cs))
        (piece_html S0 here contents (Dfs defs))).
      apply (gives_map S0 broken _ _ _ defs_html). rewrite flat_map_concat.
      assert (flat_map (flat_map span_refs) (map (λ d : list span * list span, fst d ++ snd d) defs) =
        flat_map (λ d, flat_map span_refs (fst d) ++ flat_map span_refs (snd d)) defs) as ->.
      { clear. induction defs as [|d defs IH]; [done|]. simpl. by rewrite flat_map_app, IH. }
      apply gives_all. clear Hp. simpl in Hf. induction F as [|d [c1 c2] defs cs [H1 H2] F IH]; [constructor|]. simpl in *. apply andb_true_iff in Hf as [Hf1 Hf2].
      apply andb_true_iff in Hf1 as [Hl1 Hl2]. unfold line_fine in Hl1, Hl2. apply andb_true_iff in Hl1 as [_ Hl1]. apply andb_true_iff in Hl2 as [_ Hl2].
      constructor; [|by apply IH]. eapply gives_bind; [apply (hF_spans here i); auto|]. apply (gives_map S0 broken _ _ _ (λ d', (spans_html S0 here (fst d), d'))).
      apply (hF_spans here i); auto.
    - by apply gives_ok.
  Qed.

  Lemma hF_body here i jump contents body c : on_page here i → shows jump → hF jump (CToc i) = Ok contents → forallb piece_fine body = true →
    body_is i body c → gives (flat_map piece_refs body) (hF jump c) (sconcat (map (piece_html S0 here contents) body)).
  Proof.
    intros Hd Hj Htoc Hf (cs & F & ->).
    assert (Forall2 (λ p c, gives (piece_refs p) (hF jump c) (piece_html S0 here contents p)) body cs) as HF.
    { revert Hf. induction F as [|p c body cs Hp F IH]; intros Hf; [constructor|]. simpl in *. apply andb_true_iff in Hf as [Hf1 Hf2].
      constructor; [by apply (hF_piece here i)|by apply IH]. }
    destruct cs as [|c cs]; [inversion HF; by apply gives_ok|].
    assert (Forall (λ c, ∀ l, c ≠ CSeq l) (c :: cs)) as Hs.
    { clear - F. induction F as [|p c' body cs' Hp F IH]; constructor; [|done]. by eapply piece_seq. }
    pose proof (joined_not_seq (c :: cs) Hs ltac:(done)) as Hjn. rewrite Hjn. eapply hF_joined; [exact Hs| |exact HF]. rewrite Hjn. done.
  Qed.

  (** ** Sections *)

  Lemma toc_eq pl b : toc S0 pl b = match subs_of b with
    | [] => ""
    | _ => if omits b then ""
      else toc_html (mapi (λ k c, (address (sub_place pl b k c) c, dotted (pl_number (sub_place pl b k c)), spans_html S0 (pl_file pl) (title_of c), toc S0 (sub_place pl b k c) c)) 1 (subs_of b))
    end.
  Proof. by destruct b as [? ? ? ? ? [|? ?]]. Qed.
  Lemma sec_html_eq pl b : sec_html S0 pl b = section_html (dec (Nat.min 6 (S (pl_depth pl)))) (main_tag b)
    (match pl_number pl with [] => None | l => Some (dotted l) end)
    (spans_html S0 (pl_file pl) (title_of b)) (sconcat (map (piece_html S0 (pl_file pl) (toc S0 pl b)) (body_of b)))
    (if is_split b then None else Some (mapi (λ k c, sec_html S0 (sub_place pl b k c) c) 1 (subs_of b))).
  Proof. by destruct b. Qed.

  (** Every subsection, one after the other. *)
  Lemma each_sub {B} (f : nat → outcome rerr B) (g : nat → sec → B) R par l : ∀ j k, stored_list (stored true h par) l j →
    (∀ m c q, l !! m = Some c → kids j l !! m = Some q → stored true h par c q → gives (R c) (f q) (g (k + m) c)) →
    gives (flat_map R l) (omapM f (kids j l)) (mapi g k l).
  Proof.
    induction l as [|c l IH]; intros j k Hs Hf; [by apply gives_ok|]. destruct Hs as [H1 H2].
    change (gives (R c ++ flat_map R l) (obind (λ y, obind (λ ys, Ok (y :: ys)) (omapM f (kids (j + size c) l))) (f j)) (g k c :: mapi g (S k) l)).
    pose proof (Hf 0 c j eq_refl eq_refl H1) as Hc. rewrite Nat.add_0_r in Hc. eapply gives_bind; [exact Hc|].
    apply gives_map. apply (IH (j + size c) (S k) H2).
    intros m c' q Hc' Hq Hst. replace (S k + m) with (k + S m) by lia. by apply Hf.
  Qed.
  Lemma each_sub_ok {B} (f : nat → outcome rerr B) (g : nat → sec → B) par l : ∀ j k, stored_list (stored true h par) l j →
    (∀ m c q, l !! m = Some c → kids j l !! m = Some q → stored true h par c q → f q = Ok (g (k + m) c)) →
    omapM f (kids j l) = Ok (mapi g k l).
  Proof.
    intros j k Hs Hf. apply (gives_nil S0 broken). assert (flat_map (λ _ : sec, @nil string) l = []) as <- by (clear; by induction l).
    apply (each_sub f g _ par); [done|]. intros. apply gives_ok. by eapply Hf.
  Qed.
  Lemma sizes_sub l m c : l !! m = Some c → size c ≤ sizes l.
  Proof. revert m. induction l as [|c' l IH]; intros [|m] Hm; simplify_eq/=; [lia|]. apply IH in Hm. lia. Qed.
  Lemma subs_fine b : sec_fine b = true → forallb sec_fine (subs_of b) = true ∧ forallb piece_fine (body_of b) = true ∧ forallb plain_span (title_of b) = true.
  Proof. destruct b. simpl. intros Hf. repeat (apply andb_true_iff in Hf as [Hf ?]). done. Qed.
  Lemma size_eq b : size b = S (sizes (subs_of b)).
  Proof. by destruct b. Qed.

  Lemma go_toc n : ∀ b pl i par, sec_fine b = true → stored true h par b i → spot_in h r pl b i → size b ≤ n → go n (CToc i) = Ok (toc S0 pl b).
  Proof.
    induction n as [|n IH]; intros b pl i par Hf Hs Hsp Hn; [pose proof (size_pos b); lia|].
    destruct (stored_at _ _ _ _ _ Hs) as (x & Hx & Ha & Hl). pose proof (at_children _ _ _ _ _ Ha) as Hch. destruct (subs_fine b Hf) as (Hfs & _ & _).
    rewrite size_eq in Hn. rewrite toc_eq.
    change (go (S n) (CToc i)) with (toc_tmpl h (go n) i). unfold toc_tmpl. rewrite Hx. unfold need. rewrite Hch, (at_omit _ _ _ _ _ Ha).
    destruct (subs_of b) as [|c0 l0] eqn:Hsub; [done|]. change (kids (S i) (c0 :: l0)) with (S i :: kids (S i + size c0) l0). cbv iota beta.
    change (S i :: kids (S i + size c0) l0) with (kids (S i) (c0 :: l0)). destruct (omits b); [done|].
    rewrite (each_sub_ok _ (λ k c, (address (sub_place pl b k c) c, dotted (pl_number (sub_place pl b k c)), spans_html S0 (pl_file pl) (title_of c), toc S0 (sub_place pl b k c) c))
      (Some i) (c0 :: l0) (S i) 1 Hl); [done|].
    intros m c q Hc Hq Hst. destruct (stored_at _ _ _ _ _ Hst) as (y & Hy & Hay & _).
    assert (sec_fine c = true) as Hfc.
    { apply forallb_forall with (x := c) in Hfs; [done|]. apply elem_of_list_In. by eapply elem_of_list_lookup_2. }
    assert (spot_in h r (sub_place pl b (S m) c) c q) as Hspc by (eapply spot_sub; [done|exact Hx|exact Ha|exact Hsp|exact Hst|by rewrite Hch]).
    pose proof (sizes_sub _ _ _ Hc). rewrite Hy.
    destruct (at_tags _ _ _ _ _ Hay) as (lc & ts & Hts & _). pose proof (at_primary _ _ _ _ _ Hay) as Hpr. rewrite Hts in Hpr.
    assert (tag_url h "html" (s_primary y) = Some (address (sub_place pl b (S m) c) c)) as Hurl.
    { assert (s_primary y = Tag (main_tag c) (Some (s_title y)) (Some q) "" None lc) as ->.
      { unfold main_tag. assert (tag_names c ≠ []) as Hne by (destruct c as [? [|? ?]]; done). destruct (tag_names c); [done|]. simpl in Hpr. by injection Hpr as <-. }
      unfold tag_url. simpl. rewrite (spot_url h W true _ c q (Some i) y "" Hspc Hy Hay (sec_fine_main c Hfc)). done. }
    destruct (subs_fine c Hfc) as (_ & _ & Hplc). rewrite Hurl, (sp_number _ _ _ _ _ Hspc).
    destruct (title_says similar broken h 0 q (title_of c) (s_title y) Hplc (at_title _ _ _ _ _ Hay)) as [-> _].
    rewrite (go_plain n q (pl_file pl) (title_of c) (s_title y) Hplc (at_title _ _ _ _ _ Hay)). simpl.
    rewrite (IH c (sub_place pl b (S m) c) q (Some i) Hfc Hst Hspc) by lia. done.
  Qed.

  Lemma spot_page pl b i par x : sec_fine b = true → spot_in h r pl b i → h !! i = Some x → sec_at true i par b x → on_page (pl_file pl) i.
  Proof.
    intros Hf Hsp Hx Ha. split; [by eapply sp_desc|]. by rewrite (spot_url h W true pl b i par x "broken" Hsp Hx Ha (sec_fine_main b Hf)).
  Qed.
  Lemma page_refs_eq b : page_refs b = flat_map piece_refs (body_of b) ++ if is_split b then [] else flat_map page_refs (subs_of b).
  Proof. by destruct b. Qed.

  Lemma go_section n : ∀ b pl i par, sec_fine b = true → stored true h par b i → spot_in h r pl b i → size b < n →
    gives (page_refs b) (go n (CSection i)) (sec_html S0 pl b).
  Proof.
    induction n as [|n IH]; intros b pl i par Hf Hs Hsp Hn; [lia|].
    destruct (stored_at _ _ _ _ _ Hs) as (x & Hx & Ha & Hl). pose proof (at_children _ _ _ _ _ Ha) as Hch. destruct (subs_fine b Hf) as (Hfs & Hfb & Hpl).
    rewrite sec_html_eq, page_refs_eq.
    change (go (S n) (CSection i)) with (visit_section h str (go n) i). unfold visit_section. rewrite Hx. simpl. rewrite (at_style _ _ _ _ _ Ha). simpl.
    unfold section_tmpl. rewrite Hx. simpl. unfold header_depth. rewrite (sp_depth _ _ _ _ _ Hsp). simpl. rewrite (sp_number _ _ _ _ _ Hsp).
    rewrite (go_plain n i (pl_file pl) (title_of b) (s_title x) Hpl (at_title _ _ _ _ _ Ha)). simpl.
    assert (∃ n', n = S n') as [n' ->] by (destruct n; [pose proof (size_pos b); lia|eauto]).
    eapply gives_bind.
    { rewrite go_F. apply (hF_body (pl_file pl) i (J (S n')) (toc S0 pl b) (body_of b) (s_body x)); [by eapply spot_page|apply go_shows| |done|by eapply at_body].
      rewrite <- go_F. eapply go_toc; [done|done|done|lia]. }
    rewrite (at_split _ _ _ _ _ Ha), (primary_name _ _ _ _ _ Ha), Hch.
    assert ((match s_parent x with Some _ => Some (dotted (pl_number pl)) | None => None end) =
      (match pl_number pl with [] => None | l => Some (dotted l) end)) as ->.
    { pose proof (spot_top_iff h pl b i x Hsp Hx) as Ht. destruct (pl_number pl); [by rewrite Ht|destruct Ht as [p ->]; done]. }
    assert ((if Nat.ltb 6 (pl_depth pl + 1) then 6 else pl_depth pl + 1) = Nat.min 6 (S (pl_depth pl))) as ->.
    { destruct (Nat.ltb_spec 6 (pl_depth pl + 1)); lia. }
    destruct (is_split b) eqn:Hb; [by apply gives_ok|]. rewrite size_eq in Hn.
    apply (gives_map S0 broken _ _ _ (λ cs, section_html _ _ _ _ _ (Some cs))).
    apply (each_sub _ (λ k c, sec_html S0 (sub_place pl b k c) c) page_refs (Some i) (subs_of b) (S i) 1 Hl).
    intros m c q Hc Hq Hst. pose proof (sizes_sub _ _ _ Hc). assert (c ∈ subs_of b) as Hin by by eapply elem_of_list_lookup_2.
    eapply IH; [|exact Hst| |lia].
    - apply forallb_forall with (x := c) in Hfs; [done|]. by apply elem_of_list_In.
    - eapply spot_sub; [done|exact Hx|exact Ha|exact Hsp|exact Hst|by rewrite Hch].
  Qed.

  Lemma page_renders_in n b pl i par : (∀ j l c, forallb plain_span l = true → line_is j l c → str c = Ok (text l)) →
    sec_fine b = true → stored true h par b i → spot_in h r pl b i → size b < n →
    gives (page_refs b) (html_page similar broken h force str n i) (page_of S0 pl b).
  Proof.
    intros Hstr Hf Hs Hsp Hn. destruct (stored_at _ _ _ _ _ Hs) as (x & Hx & Ha & _). destruct (subs_fine b Hf) as (_ & _ & Hpl).
    unfold html_page, page_tmpl. rewrite Hx. simpl. unfold text_of. rewrite (Hstr i (title_of b) (s_title x) Hpl (at_title _ _ _ _ _ Ha)).
    apply (gives_map S0 broken _ _ _ (page_html (text (title_of b)))). exact (go_section n b pl i par Hf Hs Hsp Hn).
  Qed.
End rendered.

Lemma page_renders similar broken h (W : wf h) (O : tags_owned h) force str top (Hfine : sec_fine top = true) (Htop : stored true h None top 0) n b pl i par :
  (∀ j l c, forallb plain_span l = true → line_is j l c → str c = Ok (text l)) →
  sec_fine b = true → stored true h par b i → spot h pl b i → size b < n →
  gives (site top) broken (page_refs b) (html_page similar broken h force str n i) (page_of (site top) pl b).
Proof.
  apply (page_renders_in similar broken h W force str top 0).
  - intros tag e j l Hr Hd. by apply (refer_resolve h W top).
  - intros tag j l Hr Hd. by apply (refer_refuse h W top).
Qed.
