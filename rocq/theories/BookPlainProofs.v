(** A book is written as plain text as BookPlain.v says. *)
From Coq Require Import Ascii String Lia.
From stdpp Require Import base tactics relations strings list.
From Verif Require Import GoBase Ast Grammar Content ContentSpec ContentProofs Section StrProofs TreeSpec TreeProofs TagProofs QueryProofs
  Render NavProofs RenderSpec WriterProofs Peg Evaluate EvalProofs EvalFrame EvalInv EvalSpec EvalTheory EvalMore BaseSpec BaseRuns Collect Html TextRender Json Command ParseSpec WrittenMore
  MembersProofs Book BookLaid BookEval BookStore BookSections BookCollect BookPlaces BookHtml BookBuild BookPlain.
Local Open Scope string_scope. Local Open Scope list_scope.

(** [o] is [x] unless a template is missing. *)
Definition lacking {A} (names : list string) (o : outcome rerr A) (x : A) : Prop :=
  match names with [] => o = Ok x | t :: _ => o = Err (RTemplate t) end.

Lemma lacking_bind {A B} l1 l2 o (x : A) (f : A → outcome rerr B) y : lacking l1 o x → lacking l2 (f x) y → lacking (l1 ++ l2) (obind f o) y.
Proof. destruct l1 as [|t l1]; simpl; intros ->; done. Qed.
Lemma lacking_map {A B} l o (x : A) (f : A → B) : lacking l o x → lacking l (obind (λ x, Ok (f x)) o) (f x).
Proof. destruct l; simpl; by intros ->. Qed.
Lemma lacking_all {A B C} (R : A → list string) (g : A → C) (f : B → outcome rerr C) ws cs : Forall2 (λ w c, lacking (R w) (f c) (g w)) ws cs →
  lacking (flat_map R ws) (omapM f cs) (map g ws).
Proof.
  induction 1 as [|w c ws cs H _ IH]; [done|].
  change (lacking (R w ++ flat_map R ws) (obind (λ y, obind (λ ys, Ok (y :: ys)) (omapM f cs)) (f c)) (g w :: map g ws)).
  eapply lacking_bind; [exact H|]. by apply (lacking_map _ _ _ (λ ys, g w :: ys)).
Qed.

Lemma indented_join s : "    " +:+ join_lines "    " s = indented s.
Proof.
  unfold indented. destruct (ssplit_lines s) as [L N]. rewrite <- (sjoin_ssplit "010" s) at 1. rewrite join_lines_join by done. clear L.
  destruct (ssplit "010" s) as [|x l]; [done|]. clear N. revert x. induction l as [|y l IH]; intros x; [done|].
  change (map (λ l, "    " +:+ l) (x :: y :: l)) with (("    " +:+ x) :: ("    " +:+ y) :: map (λ l, "    " +:+ l) l).
  rewrite !sjoin_cons. change (("    " +:+ y) :: map (λ l, "    " +:+ l) l) with (map (λ l, "    " +:+ l) (y :: l)). rewrite <- IH, !sapp_assoc. done.
Qed.

Section rendered.
  Context (similar : string → string → bool) (broken : bool) (jumps : nat).
  Context (h : heap) (W : wf h) (force : nat → option content).
  Notation str := (cstring similar broken h jumps).
  Notation tF := (text_F h force str).
  Notation go := (TextRender.text h force str).

  Lemma tF_joined {A} (R : A → list string) g jump ws cs c : Forall (λ c, ∀ l, c ≠ CSeq l) cs → joined cs = Some c →
    Forall2 (λ w c, lacking (R w) (tF jump c) (g w)) ws cs → lacking (flat_map R ws) (tF jump c) (sconcat (map g ws)).
  Proof.
    intros Hs J F. assert (cs ≠ []) as Hn by (by intros ->). rewrite joined_not_seq in J by done. injection J as <-.
    destruct F as [|w1 c1 ws cs H1 F]; [done|]. destruct F as [|w2 c2 ws cs H2 F].
    - simpl. rewrite app_nil_r, sapp_nil_r. done.
    - change (lacking (flat_map R (w1 :: w2 :: ws)) (obind (λ ss, Ok (sconcat ss)) (omapM (tF jump) (c1 :: c2 :: cs))) (sconcat (map g (w1 :: w2 :: ws)))).
      apply (lacking_map _ _ _ sconcat). apply lacking_all. by repeat constructor.
  Qed.

  Lemma tF_span i jump w : ∀ c, span_is i w c → lacking (span_lacks w) (tF jump c) (span_plain w).
  Proof.
    assert (∀ l, Forall (λ w, ∀ c, span_is i w c → lacking (span_lacks w) (tF jump c) (span_plain w)) l →
      ∀ cs, Forall2 (span_is i) l cs → Forall2 (λ w c, lacking (span_lacks w) (tF jump c) (span_plain w)) l cs) as Hall.
    { intros l Hl. induction Hl as [|w' l' Hw _ IH]; intros cs F; inversion F; subst; constructor; auto. }
    induction w as [t|k l IH|l u IH|p d|t l IH|t l IH] using span_ind'; intros c Hc; inversion Hc as [|? ? cs ? F J|? ? cs ? F J| |? ? cs lc F|]; subst; try done.
    destruct k; try done. cbn [span_lacks span_plain].
    change (lacking (flat_map span_lacks l) (obind (λ s, Ok ("    " +:+ join_lines "    " s)) (tF jump c0)) (indented (sconcat (map span_plain l)))).
    rewrite <- indented_join. apply (lacking_map _ _ _ (λ s, "    " +:+ join_lines "    " s)).
    eapply tF_joined; [by eapply spans_not_seq|done|]. by apply Hall.
  Qed.
  Lemma tF_line i jump l c : line_is i l c → lacking (flat_map span_lacks l) (tF jump c) (spans_plain l).
  Proof.
    intros (cs & F & J). eapply tF_joined; [by eapply spans_not_seq|done|]. eapply Forall2_impl; [exact F|]. intros. by eapply tF_span.
  Qed.
  Lemma tF_piece i jump contents lacks p c : lacking lacks (tF jump (CToc i)) contents → piece_is i p c →
    lacking (piece_lacks lacks p) (tF jump c) (piece_plain contents p).
  Proof.
    intros Ht Hp. inversion Hp as [lines cs F|o items cs F|lines cs F|rows css F|defs cs F|]; subst; try done.
    cbn [piece_lacks piece_plain].
    change (lacking (flat_map (flat_map span_lacks) lines) (obind (λ ss, Ok (sjoin " " ss +:+ nls +:+ nls)) (omapM (tF jump) cs)) (sjoin " " (map spans_plain lines) +:+ nls +:+ nls)).
    apply (lacking_map _ _ _ (λ ss, sjoin " " ss +:+ nls +:+ nls)). apply lacking_all. eapply Forall2_impl; [exact F|]. intros. by eapply tF_line.
  Qed.
  Lemma tF_body i jump contents lacks body c : lacking lacks (tF jump (CToc i)) contents → body_is i body c →
    lacking (flat_map (piece_lacks lacks) body) (tF jump c) (sconcat (map (piece_plain contents) body)).
  Proof.
    intros Ht (cs & F & ->).
    assert (Forall2 (λ p c, lacking (piece_lacks lacks p) (tF jump c) (piece_plain contents p)) body cs) as HF.
    { eapply Forall2_impl; [exact F|]. intros. by eapply tF_piece. }
    destruct cs as [|c cs]; [by inversion HF|].
    assert (Forall (λ c, ∀ l, c ≠ CSeq l) (c :: cs)) as Hs.
    { clear - F. induction F as [|p c' body cs' Hp F IH]; constructor; [|done]. by eapply piece_seq. }
    pose proof (joined_not_seq (c :: cs) Hs ltac:(done)) as Hjn. rewrite Hjn. eapply tF_joined; [exact Hs| |exact HF]. rewrite Hjn. done.
  Qed.

  Lemma tgo_F n c : go n c = tF (match n with 0 => λ _, NoFuel | S n => go n end) c.
  Proof. by destruct n. Qed.

  Lemma toc_plain_eq num b : toc_plain num b = match subs_of b with
    | [] => "" | _ => if omits b then "" else
      nls +:+ sconcat (mapi (λ k c, nls +:+ dotted (num ++ [k]) +:+ " " +:+ spans_plain (title_of c) +:+ nls +:+ nls +:+
                                        toc_plain (num ++ [k]) c +:+ nls) 1 (subs_of b)) +:+ nls end.
  Proof. by destruct b as [? ? ? ? ? [|? ?]]. Qed.
  Lemma toc_lacks_eq b : toc_lacks b = if omits b then [] else flat_map (λ c, flat_map span_lacks (title_of c) ++ toc_lacks c) (subs_of b).
  Proof. by destruct b. Qed.
  Lemma sec_plain_eq num b : sec_plain num b = match num with [] => "" | _ => dotted num +:+ " " end +:+ spans_plain (title_of b) +:+
      sconcat (map (piece_plain (toc_plain num b)) (body_of b)) +:+ nls +:+ nls +:+
      if is_split b then "" else nls +:+ sconcat (mapi (λ k c, nls +:+ sec_plain (num ++ [k]) c +:+ nls) 1 (subs_of b)) +:+ nls.
  Proof. by destruct b. Qed.
  Lemma sec_lacks_eq b : sec_lacks b = flat_map span_lacks (title_of b) ++ flat_map (piece_lacks (toc_lacks b)) (body_of b) ++
      if is_split b then [] else flat_map sec_lacks (subs_of b).
  Proof. by destruct b. Qed.

  Lemma each_plain {B} (f : nat → outcome rerr B) (g : nat → sec → B) R par l : ∀ j k, stored_list (stored true h par) l j →
    (∀ m c q, l !! m = Some c → kids j l !! m = Some q → stored true h par c q → lacking (R c) (f q) (g (k + m) c)) →
    lacking (flat_map R l) (omapM f (kids j l)) (mapi g k l).
  Proof.
    induction l as [|c l IH]; intros j k Hs Hf; [done|]. destruct Hs as [H1 H2].
    change (lacking (R c ++ flat_map R l) (obind (λ y, obind (λ ys, Ok (y :: ys)) (omapM f (kids (j + size c) l))) (f j)) (g k c :: mapi g (S k) l)).
    pose proof (Hf 0 c j eq_refl eq_refl H1) as Hc. rewrite Nat.add_0_r in Hc. eapply lacking_bind; [exact Hc|].
    apply (lacking_map _ _ _ (λ ys, g k c :: ys)). apply (IH (j + size c) (S k) H2).
    intros m c' q Hc' Hq Hst. replace (S k + m) with (k + S m) by lia. by apply Hf.
  Qed.
  Lemma map_mapi {A B C} (f : B → C) (g : nat → A → B) l : ∀ k, map f (mapi g k l) = mapi (λ k x, f (g k x)) k l.
  Proof. induction l as [|x l IH]; intros k; [done|]. simpl. by rewrite IH. Qed.
  Lemma sub_number pl b k c : pl_number (sub_place pl b k c) = pl_number pl ++ [k].
  Proof. unfold sub_place. by destruct (is_split b). Qed.

  Lemma sec_plain_text num b : sec_plain num b = section_text (match num with [] => None | _ => Some (dotted num) end) (spans_plain (title_of b))
    (sconcat (map (piece_plain (toc_plain num b)) (body_of b))) (if is_split b then None else Some (mapi (λ k c, sec_plain (num ++ [k]) c) 1 (subs_of b))).
  Proof. rewrite sec_plain_eq. unfold section_text. destruct (is_split b); [by destruct num|]. rewrite map_mapi. by destruct num. Qed.

  Lemma tgo_toc {r} n : ∀ b pl i par, sec_fine b = true → stored true h par b i → spot_in h r pl b i → size b ≤ n →
    lacking (toc_lacks b) (go n (CToc i)) (toc_plain (pl_number pl) b).
  Proof.
    induction n as [|n IH]; intros b pl i par Hf Hs Hsp Hn; [pose proof (size_pos b); lia|].
    destruct (stored_at _ _ _ _ _ Hs) as (x & Hx & Ha & Hl). pose proof (at_children _ _ _ _ _ Ha) as Hch. destruct (subs_fine b Hf) as (Hfs & _ & _).
    rewrite size_eq in Hn. rewrite toc_plain_eq, toc_lacks_eq.
    change (go (S n) (CToc i)) with (toc_text_tmpl h (go n) i). unfold toc_text_tmpl. rewrite Hx. unfold need. rewrite Hch, (at_omit _ _ _ _ _ Ha).
    destruct (subs_of b) as [|c0 l0] eqn:Hsub; [by destruct (omits b)|]. change (kids (S i) (c0 :: l0)) with (S i :: kids (S i + size c0) l0). cbv iota beta.
    change (S i :: kids (S i + size c0) l0) with (kids (S i) (c0 :: l0)). destruct (omits b); [done|].
    assert (nls +:+ sconcat (mapi (λ k c, nls +:+ dotted (pl_number pl ++ [k]) +:+ " " +:+ spans_plain (title_of c) +:+ nls +:+ nls +:+
                                        toc_plain (pl_number pl ++ [k]) c +:+ nls) 1 (c0 :: l0)) +:+ nls =
      toc_text (mapi (λ k c, (dotted (pl_number pl ++ [k]), spans_plain (title_of c), toc_plain (pl_number pl ++ [k]) c)) 1 (c0 :: l0))) as ->.
    { unfold toc_text. by rewrite map_mapi. }
    apply (lacking_map _ _ _ toc_text).
    apply (each_plain _ (λ k c, (dotted (pl_number pl ++ [k]), spans_plain (title_of c), toc_plain (pl_number pl ++ [k]) c)) _ (Some i) (c0 :: l0) (S i) 1 Hl).
    intros m c q Hc Hq Hst. destruct (stored_at _ _ _ _ _ Hst) as (y & Hy & Hay & _).
    assert (sec_fine c = true) as Hfc.
    { apply forallb_forall with (x := c) in Hfs; [done|]. apply elem_of_list_In. by eapply elem_of_list_lookup_2. }
    assert (spot_in h r (sub_place pl b (S m) c) c q) as Hspc by (eapply spot_sub; [done|exact Hx|exact Ha|exact Hsp|exact Hst|by rewrite Hch]).
    pose proof (sizes_sub _ _ _ Hc). rewrite Hy. destruct (subs_fine c Hfc) as (_ & _ & Hplc).
    rewrite (sp_number _ _ _ _ _ Hspc), sub_number.
    destruct (title_says similar broken h jumps q (title_of c) (s_title y) Hplc (at_title _ _ _ _ _ Hay)) as [-> _].
    eapply lacking_bind; [rewrite tgo_F; eapply tF_line; by eapply at_title|].
    change (1 + m) with (S m). apply (lacking_map _ _ _ (λ sub, (dotted (pl_number pl ++ [S m]), spans_plain (title_of c), sub))).
    rewrite <- (sub_number pl b (S m) c). apply (IH c (sub_place pl b (S m) c) q (Some i) Hfc Hst Hspc). lia.
  Qed.

  Lemma tgo_section {r} n : ∀ b pl i par, sec_fine b = true → stored true h par b i → spot_in h r pl b i → size b < n →
    lacking (sec_lacks b) (go n (CSection i)) (sec_plain (pl_number pl) b).
  Proof.
    induction n as [|n IH]; intros b pl i par Hf Hs Hsp Hn; [lia|].
    destruct (stored_at _ _ _ _ _ Hs) as (x & Hx & Ha & Hl). pose proof (at_children _ _ _ _ _ Ha) as Hch. destruct (subs_fine b Hf) as (Hfs & Hfb & Hpl).
    rewrite sec_plain_text, sec_lacks_eq.
    change (go (S n) (CSection i)) with (visit_section_text h str (go n) i). unfold visit_section_text. rewrite Hx. simpl. rewrite (at_style _ _ _ _ _ Ha). simpl.
    unfold section_text_tmpl. rewrite Hx. unfold need at 1. rewrite (sp_number _ _ _ _ _ Hsp). cbn [base.mbind option_bind].
    assert ((match s_parent x with Some _ => Some (Some (dotted (pl_number pl))) | None => Some None end) =
      Some (match pl_number pl with [] => None | _ => Some (dotted (pl_number pl)) end)) as ->.
    { pose proof (spot_top_iff h pl b i x Hsp Hx) as Ht. destruct (pl_number pl); [by rewrite Ht|destruct Ht as [p ->]; done]. }
    unfold need. assert (∃ n', n = S n') as [n' ->] by (destruct n; [pose proof (size_pos b); lia|eauto]).
    eapply lacking_bind; [rewrite tgo_F; eapply tF_line; by eapply at_title|]. eapply lacking_bind.
    { rewrite tgo_F. eapply (tF_body i _ (toc_plain (pl_number pl) b)); [|by eapply at_body]. exact (tgo_toc (S n') b pl i par Hf Hs Hsp ltac:(lia)). }
    rewrite (at_split _ _ _ _ _ Ha), Hch.
    destruct (is_split b) eqn:Hb; [done|]. rewrite size_eq in Hn.
    apply (lacking_map _ _ _ (λ cs, section_text (match pl_number pl with [] => None | _ => Some (dotted (pl_number pl)) end) (spans_plain (title_of b))
      (sconcat (map (piece_plain (toc_plain (pl_number pl) b)) (body_of b))) (Some cs))).
    apply (each_plain _ (λ k c, sec_plain (pl_number pl ++ [k]) c) sec_lacks (Some i) (subs_of b) (S i) 1 Hl).
    intros m c q Hc Hq Hst. pose proof (sizes_sub _ _ _ Hc). assert (c ∈ subs_of b) as Hin by by eapply elem_of_list_lookup_2.
    change (1 + m) with (S m). rewrite <- (sub_number pl b (S m) c).
    eapply IH; [|exact Hst| |lia].
    - apply forallb_forall with (x := c) in Hfs; [done|]. by apply elem_of_list_In.
    - eapply spot_sub; [done|exact Hx|exact Ha|exact Hsp|exact Hst|by rewrite Hch].
  Qed.

  Lemma tpage_renders {r} n b pl i par : sec_fine b = true → stored true h par b i → spot_in h r pl b i → size b < n →
    lacking (sec_lacks b) (text_page h force str n i) (page_plain (pl_number pl) b).
  Proof.
    intros Hf Hs Hsp Hn. destruct (stored_at _ _ _ _ _ Hs) as (x & Hx & Ha & _). destruct (subs_fine b Hf) as (_ & _ & Hpl).
    unfold text_page. rewrite Hx. unfold need at 1. rewrite (at_style _ _ _ _ _ Ha). cbn [String.eqb]. unfold page_text_tmpl. rewrite Hx. unfold need, text_of.
    destruct (title_says similar broken h jumps i (title_of b) (s_title x) Hpl (at_title _ _ _ _ _ Ha)) as [_ ->].
    apply (lacking_map _ _ _ (λ s, Book.text (title_of b) +:+ nls +:+ nls +:+ s)). exact (tgo_section n b pl i par Hf Hs Hsp Hn).
  Qed.
End rendered.

(** ** Pages *)

Fixpoint placed_below (pl : place) (b : sec) : list (place * sec) :=
  match b with
  | Sec _ _ split _ _ subs =>
      concat (mapi (λ k c, (if cut_pages split then [(sub_place pl b k c, c)] else []) ++ placed_below (sub_place pl b k c) c) 1 subs)
  end.
Lemma placed_eq pl b : placed_below pl b = concat (mapi (λ k c, (if is_split b then [(sub_place pl b k c, c)] else []) ++ placed_below (sub_place pl b k c) c) 1 (subs_of b)).
Proof. by destruct b. Qed.
Lemma plain_below_eq ext num b : plain_below ext num b = concat (mapi (λ k c, (if is_split b then [(plain_file ext c, page_plain (num ++ [k]) c, sec_lacks c)] else []) ++
                             plain_below ext (num ++ [k]) c) 1 (subs_of b)).
Proof. by destruct b. Qed.
Definition as_plain (ext : string) (q : place * sec) : string * string * list string := (plain_file ext (snd q), page_plain (pl_number (fst q)) (snd q), sec_lacks (snd q)).
Lemma plain_placed ext b : ∀ pl, plain_below ext (pl_number pl) b = map (as_plain ext) (placed_below pl b).
Proof.
  induction b as [title tags split omit body subs IH] using sec_ind'. intros pl. rewrite plain_below_eq, placed_eq. set (b := Sec title tags split omit body subs) in *.
  change (subs_of b) with subs. clearbody b. generalize 1. induction IH as [|c l Hc _ IHl]; intros k; [done|].
  cbn [mapi concat]. rewrite !map_app, <- IHl, <- (sub_number pl b k c), Hc. f_equal. f_equal. by destruct (is_split b).
Qed.

Section pages.
  Context (h : heap) (W : wf h) (top : sec) (Hfine : sec_fine top = true) (Htop : stored true h None top 0).
  (** Section [i] is that of a place of the book. *)
  Definition sits_in (r : nat) (i : nat) (q : place * sec) : Prop :=
    sec_fine (snd q) = true ∧ size (snd q) ≤ size top ∧ spot_in h r (fst q) (snd q) i ∧ ∃ par, stored true h par (snd q) i.
  Lemma placed_are {r} b : sec_fine b = true → size b ≤ size top → ∀ pl i par, stored true h par b i → spot_in h r pl b i →
    Forall2 (sits_in r) (List.filter (page_b h) (seq (S i) (sizes (subs_of b)))) (placed_below pl b).
  Proof.
    induction b as [title tags split omit body subs IH] using sec_ind'. intros Hf Hz pl i par Hs Hsp.
    set (b := Sec title tags split omit body subs) in *.
    destruct (stored_at _ _ _ _ _ Hs) as (x & Hx & Ha & Hl). pose proof (at_children _ _ _ _ _ Ha) as Hch. simpl in Hch, Hl.
    assert (forallb sec_fine subs = true) as Hsubs by (destruct (subs_fine b Hf) as [? _]; done).
    assert (size b = S (sizes subs)) as Hbz by done. rewrite placed_eq. change (subs_of b) with subs. clearbody b.
    assert (∀ k j, (∀ m q, kids j subs !! m = Some q → s_children x !! (k + m) = Some q) → stored_list (stored true h (Some i)) subs j → sizes subs ≤ size top →
      Forall2 (sits_in r) (List.filter (page_b h) (seq j (sizes subs)))
        (concat (mapi (λ k c, (if is_split b then [(sub_place pl b k c, c)] else []) ++ placed_below (sub_place pl b k c) c) (S k) subs))) as Hgo.
    { clear Hl Hch Hbz Hz. induction IH as [|c l Hc _ IHl]; intros k j Hk Hst Hn; [constructor|].
      destruct Hst as [Hs1 Hs2]. assert (sec_fine c = true ∧ forallb sec_fine l = true) as [Hf1 Hf2] by by apply andb_true_iff.
      assert (s_children x !! k = Some j) as Hj by (rewrite <- (Hk 0 j eq_refl); f_equal; lia).
      assert (spot_in h r (sub_place pl b (S k) c) c j) as Hspc by by eapply spot_sub. simpl in Hn.
      simpl sum_list_with. rewrite seq_app, List.filter_app. simpl. apply Forall2_app.
      - rewrite size_eq. rewrite <- cons_seq. simpl. destruct (stored_at _ _ _ _ _ Hs1) as (z & Hz & Haz & _).
        assert (page_b h j = is_split b) as ->.
        { unfold page_b. rewrite Hz, (at_parent _ _ _ _ _ Haz), Hx. by eapply at_split. }
        assert (Forall2 (sits_in r) (List.filter (page_b h) (seq (S j) (sizes (subs_of c)))) (placed_below (sub_place pl b (S k) c) c)) as Hb.
        { apply (Hc Hf1 ltac:(lia) _ j (Some i)); done. }
        destruct (is_split b); [|done]. simpl. constructor; [|done]. split_and!; [done|simpl; lia|done|eauto].
      - apply (IHl Hf2); [|done|lia].
        intros m q Hm. replace (S k + m) with (k + S m) by lia. by apply Hk. }
    apply (Hgo 0 (S i)); [|done|lia]. intros m q Hm. by rewrite Hch.
  Qed.
  Lemma all_placed : ∃ l, pages_of h 0 l ∧ Forall2 (sits_in 0) l ((top_place top, top) :: placed_below (top_place top) top).
  Proof.
    pose proof (spot_top h W top Htop) as Hsp.
    destruct (sec_entries h W top Hfine (top_place top) 0 None Hsp Htop) as (l & L & _ & ->).
    eexists. split; [eexists; split; [exact L|reflexivity]|]. rewrite size_eq, <- cons_seq. simpl.
    destruct (stored_at _ _ _ _ _ Htop) as (x & Hx & Ha & _). assert (page_b h 0 = true) as ->.
    { unfold page_b. by rewrite Hx, (at_parent _ _ _ _ _ Ha). }
    constructor; [|by eapply placed_are]. split_and!; [done|simpl; lia|done|eauto].
  Qed.

  Lemma writes_plain (pg : nat → rendered) WW ext l qs fs : Forall2 (λ i q, file_of h ext i = fst (fst q) ∧ lacking (snd q) (pg i) (snd (fst q))) l qs →
    Forall (λ q : string * string * list string, w_open WW (fst (fst q)) = true) qs →
    ∃ fs' r, write_pages h (w_open WW) ext (engine_with WW pg) l fs = (fs', r) ∧
      match snd (written qs) with
      | None => r = None ∧ ∀ f, assoc_get f fs' = put f (assoc_get f fs) (fst (written qs))
      | Some name => r = Some (EPlugin "rendering") ∧ ∃ part,
          ∀ f, assoc_get f fs' = put f (assoc_get f fs) (fst (written qs) ++ [(name, part)])
      end.
  Proof.
    intros F. revert fs. induction F as [|i [[f page] lacks] l qs [H1 H2] F IH]; intros fs Hok; [by exists fs, None|].
    apply Forall_cons in Hok as [Hp Hok]. cbn [written fst snd] in *. cbn [write_pages]. rewrite H1, Hp. unfold lacking in H2. unfold engine_with. destruct lacks as [|t lacks].
    - rewrite H2. cbn [fst snd]. destruct (IH (assoc_set f page fs) Hok) as (fs' & r & E1 & E2). exists fs', r. split; [exact E1|].
      destruct (written qs) as [ps [name|]]; cbn [fst snd] in *.
      + destruct E2 as (-> & part & E2). split; [done|]. exists part. intros g. rewrite E2. unfold put. simpl. by rewrite assoc_get_set.
      + destruct E2 as [-> E2]. split; [done|]. intros g. rewrite E2. unfold put. simpl. by rewrite assoc_get_set.
    - rewrite H2. cbn [fst snd]. eexists _, _. split; [done|]. split; [done|]. exists (w_partial WW i). intros g. unfold put. simpl. by rewrite assoc_get_set.
  Qed.
End pages.
Notation sits h top := (sits_in h top 0).

(** ** Building *)

Section build.
  Context (E : env) (HE : base_env E) (W : world) (D : disk) (o : options) (b : sec) (t : tree).
  Context (Hf : sec_fine b = true) (HD : on_disk D (o_in o) t) (HL : laid (on_disk D) (o_in o) b t).
  Context (Htag : o_tag o = "") (Hpath : o_path o = "") (Htext : o_text o ≠ "").

  Lemma plain_print : o_out o = "" → ∃ k, ∀ n m fs, k ≤ n → k ≤ m →
    build (reading D E) W o n m fs = (fs, match sec_lacks b with [] => Ok (page_plain [] b) | name :: _ => Err (FRender (RTemplate name)) end).
  Proof.
    intros Ho. destruct (choose_book E W o D b t HE Hf HD HL Htag Hpath) as (k & s & Hc & Hs & Hl).
    exists (Nat.max k (S (size b))). intros n m fs Hn Hm. unfold build, build_with. rewrite (Hc n) by lia. rewrite Ho. cbn [String.eqb].
    unfold page. destruct (String.eqb_spec (o_text o) ""); [done|]. simpl e_similar. simpl e_broken. simpl e_jumps.
    assert (wf (st_heap s)) as Hw by by eapply stored_wf.
    pose proof (tpage_renders (e_similar E) (e_broken E) (e_jumps E) (st_heap s) Hw (w_force W) m b (top_place b) 0 None Hf Hs (spot_top _ Hw b Hs) ltac:(lia)) as Hg.
    unfold lacking in Hg. cbn [pl_number top_place] in Hg. destruct (sec_lacks b); by rewrite Hg.
  Qed.

  Lemma plain_write : o_out o ≠ "" → w_mkdir W = true → Forall (λ q : string * string * list string, w_open W (fst (fst q)) = true) (plain_pages (o_text o) b) → o_index o = false →
    ∃ k, ∀ n m fs, k ≤ n → k ≤ m → ∃ fs',
      match snd (written (plain_pages (o_text o) b)) with
      | None => build (reading D E) W o n m fs = (fs', Ok "") ∧
          ∀ f, assoc_get f fs' = put f (assoc_get f fs) (fst (written (plain_pages (o_text o) b)))
      | Some name => build (reading D E) W o n m fs = (fs', Err (FWrite (EPlugin "rendering"))) ∧ ∃ part,
          ∀ f, assoc_get f fs' = put f (assoc_get f fs) (fst (written (plain_pages (o_text o) b)) ++ [(name, part)])
      end.
  Proof.
    intros Ho Hmk Hok Hix. destruct (choose_book E W o D b t HE Hf HD HL Htag Hpath) as (k & s & Hc & Hs & Hl).
    assert (wf (st_heap s)) as Hw by by eapply stored_wf.
    exists (Nat.max k (S (size b))). intros n m fs Hn Hm.
    destruct (all_placed (st_heap s) Hw b Hf Hs) as (l & Hp & F).
    assert (plain_pages (o_text o) b = map (as_plain (o_text o)) ((top_place b, b) :: placed_below (top_place b) b)) as Epages.
    { unfold plain_pages. rewrite (plain_placed _ b (top_place b)). done. }
    assert (Forall2 (λ i q, file_of (st_heap s) (o_text o) i = fst (fst q) ∧ lacking (snd q) (page (reading D E) W o m (st_heap s) i) (snd (fst q))) l (plain_pages (o_text o) b)) as F'.
    { rewrite Epages. clear Hp. apply Forall2_fmap_r. eapply Forall2_impl; [exact F|]. intros i [pl c] (Hfc & Hz & Hsp & par & Hst). cbn [fst snd as_plain] in *. split.
      - destruct (stored_at _ _ _ _ _ Hst) as (x & Hx & Ha & _). unfold file_of. rewrite Hx. unfold page_file, plain_file. by rewrite (primary_name _ _ _ _ _ Ha).
      - unfold page. destruct (String.eqb_spec (o_text o) ""); [done|]. simpl e_similar. simpl e_broken. simpl e_jumps.
        exact (tpage_renders (e_similar E) (e_broken E) (e_jumps E) (st_heap s) Hw (w_force W) m c pl i par Hfc Hst Hsp ltac:(lia)). }
    destruct (writes_plain (st_heap s) (page (reading D E) W o m (st_heap s)) W (o_text o) l _ fs F' Hok) as (fs' & r & E1 & E2).
    exists fs'. unfold build, build_with. rewrite (Hc n) by lia.
    destruct (String.eqb_spec (o_out o) ""); [done|]. rewrite Hmk, Hix.
    assert (extension o = o_text o) as -> by (unfold extension; by destruct (String.eqb_spec (o_text o) "")).
    rewrite (write_section_spec _ _ _ _ _ l) by done. rewrite E1.
    destruct (snd (written (plain_pages (o_text o) b))) as [name|].
    - destruct E2 as (-> & part & E2). eauto.
    - by destruct E2 as [-> E2].
  Qed.
End build.
