(** The search index of a book is the one expected (BookText.v). *)
From Coq Require Import Ascii String.
From stdpp Require Import base tactics relations strings list.
From Verif Require Import GoBase Ast Grammar Content ContentSpec ContentProofs Section StrProofs TreeSpec TreeProofs TagProofs QueryProofs
  Render NavProofs RenderSpec WriterProofs Evaluate EvalProofs EvalFrame EvalInv EvalSpec EvalTheory BaseSpec BaseRuns Html
  Book BookText BookEval BookStore BookCollect BookPlaces BookHtml JsonProofs.
Local Open Scope string_scope. Local Open Scope list_scope.

Lemma position_depth h i p : wf h → position h i p → depth h i = Some (length p).
Proof.
  intros W. induction 1 as [i (x & Hx & Hp)|q x i k l Hx Hk Pos IH].
  - rewrite depth_unfold by (done || by eapply lookup_lt_Some). unfold depth_F. rewrite Hx. simpl. by rewrite Hp.
  - destruct (wf_child _ W q x i Hx) as (y & Hy & Hp); [by eapply elem_of_list_lookup_2|].
    rewrite depth_unfold by (done || by eapply lookup_lt_Some). unfold depth_F. rewrite Hy. simpl. rewrite Hp. simpl. rewrite IH. simpl.
    rewrite app_length. done.
Qed.

Lemma span_reads_plain ns w : plain_span w = true → span_reads ns w = span_text w.
Proof.
  assert (∀ l, Forall (λ w, plain_span w = true → span_reads ns w = span_text w) l → forallb plain_span l = true →
    map (span_reads ns) l = map span_text l) as Hall.
  { intros l Hl. induction Hl as [|w' l' Hw _ IH]; [done|]. simpl. intros [? ?]%andb_true_iff. by rewrite Hw, IH. }
  induction w as [t|k l IH|l u IH|p d|t l IH|t l IH] using span_ind'; simpl; intros Hp; try done; by rewrite (Hall l IH Hp).
Qed.
Lemma line_reads_plain ns l : forallb plain_span l = true → line_reads ns l = text l.
Proof.
  unfold line_reads, text. intros Hl. f_equal. induction l as [|w l IH]; [done|]. simpl in *. apply andb_true_iff in Hl as [? ?].
  by rewrite span_reads_plain, IH.
Qed.

(** ** Going through the tags of a book *)

Section through.
  Context (h : heap) (W : wf h) {X : Type} (R : X → tag → Prop) (Q : sec → Prop).
  Context (g own : place → sec → list X).
  Context (Hg : ∀ pl b, g pl b = own pl b ++ concat (mapi (λ k c, g (sub_place pl b k c) c) 1 (subs_of b))).
  Context (HQ : ∀ b c, Q b → c ∈ subs_of b → Q c).
  Context (Hown : ∀ pl b i par x, sec_fine b = true → Q b → spot h pl b i → h !! i = Some x → sec_at true i par b x → Forall2 R (own pl b) (s_tags x)).

  Lemma tags_through b : sec_fine b = true → Q b → ∀ pl i par, spot h pl b i → stored true h par b i →
    Forall2 R (g pl b) (flat_map (all_tags h) (seq i (size b))).
  Proof.
    induction b as [title tags split omit body subs IH] using sec_ind'. intros Hf Hq pl i par Hsp Hs.
    set (b := Sec title tags split omit body subs) in *.
    destruct (stored_at _ _ _ _ _ Hs) as (x & Hx & Ha & Hl). pose proof (at_children _ _ _ _ _ Ha) as Hch. simpl in Hch, Hl.
    assert (forallb sec_fine subs = true) as Hsubs by (unfold b in Hf; simpl in Hf; by apply andb_true_iff in Hf as [_ Hf]).
    assert (∀ c, c ∈ subs → Q c) as Hqs by (intros c Hc; by apply (HQ b)).
    assert (subs_of b = subs ∧ size b = S (sizes subs)) as [Hbs Hbz] by done. clearbody b.
    assert (∀ k j, (∀ m q, kids j subs !! m = Some q → s_children x !! (k + m) = Some q) → stored_list (stored true h (Some i)) subs j →
      Forall2 R (concat (mapi (λ k c, g (sub_place pl b k c) c) (S k) subs)) (flat_map (all_tags h) (seq j (sizes subs)))) as Hgo.
    { clear Hl Hch Hbs Hbz. induction IH as [|c l Hc _ IHl]; intros k j Hk Hst; [constructor|].
      destruct Hst as [Hs1 Hs2]. assert (sec_fine c = true ∧ forallb sec_fine l = true) as [Hf1 Hf2] by by apply andb_true_iff.
      assert (s_children x !! k = Some j) as Hj by (rewrite <- (Hk 0 j eq_refl); f_equal; lia).
      simpl. rewrite seq_app, flat_map_app. apply Forall2_app.
      - apply (Hc Hf1 (Hqs c (elem_of_list_here _ _)) (sub_place pl b (S k) c) j (Some i)); [by eapply spot_sub|done].
      - apply (IHl Hf2 (λ c' Hc', Hqs c' (elem_of_list_further _ _ _ Hc'))); [|done].
        intros m q Hm. replace (S k + m) with (k + S m) by lia. by apply Hk. }
    rewrite Hg, Hbz, Hbs, <- cons_seq. simpl. apply Forall2_app.
    - unfold all_tags. rewrite Hx. by eapply Hown.
    - apply (Hgo 0 (S i)); [|done]. intros m q Hm. by rewrite Hch.
  Qed.
End through.

Definition named (n : string * string) (t : tag) : Prop :=
  fst n = t_name t ∧ ∃ c i l, t_title t = Some c ∧ line_is i l c ∧ forallb plain_span l = true ∧ snd n = text l.

Lemma names_eq b : names b = (map (λ t, (t, text (title_of b))) (tag_names b) ++
  map (λ a, (fst a, text (snd a))) (flat_map piece_anchors (body_of b))) ++ concat (mapi (λ _ c, names c) 1 (subs_of b)).
Proof.
  destruct b as [title tags split omit body subs]. rewrite <- (assoc_L (++)).
  change (names (Sec title tags split omit body subs)) with (map (λ t, (t, text title)) (tag_names (Sec title tags split omit body subs)) ++
      map (λ a, (fst a, text (snd a))) (flat_map piece_anchors body) ++ flat_map names subs).
  do 2 f_equal. simpl subs_of. generalize 1. induction subs as [|c subs IH]; intros k; [done|]. simpl. by rewrite <- IH.
Qed.
Lemma documents_eq ns pl b : documents ns pl b =
  (map (λ t, (t, SearchDoc (address pl b) (text (title_of b)) (body_reads ns (body_of b)) (length (pl_number pl)) (main_tag b))) (tag_names b) ++
   map (λ a, (fst a, SearchDoc (pl_file pl +:+ "#" +:+ fst a) (text (snd a)) (body_reads ns (body_of b)) (length (pl_number pl)) (main_tag b)))
     (flat_map piece_anchors (body_of b))) ++ concat (mapi (λ k c, documents ns (sub_place pl b k c) c) 1 (subs_of b)).
Proof. destruct b. by rewrite <- (assoc_L (++)). Qed.

Lemma fine_parts b : sec_fine b = true → forallb plain_span (title_of b) = true ∧ forallb piece_fine (body_of b) = true.
Proof. destruct b; simpl. intros Hf. repeat (apply andb_true_iff in Hf as [Hf ?]). done. Qed.

Section said.
  Context (similar : string → string → bool) (broken : bool) (h : heap) (W : wf h) (O : tags_owned h).
  Context (top : sec) (Hfine : sec_fine top = true) (Htop : stored true h None top 0).
  Notation N0 := (names top).

  Lemma named_tags : Forall2 named N0 (flat_map (all_tags h) (seq 0 (size top))).
  Proof.
    apply (tags_through h W named (λ _, True) (λ _, names) (λ _ b, map (λ t, (t, text (title_of b))) (tag_names b) ++
      map (λ a, (fst a, text (snd a))) (flat_map piece_anchors (body_of b)))) with (pl := top_place top) (par := None);
      [by intros _ b; apply names_eq|done| |done|done|by apply spot_top|done].
    intros pl b i par x Hf _ Hsp Hx Ha. destruct (at_tags _ _ _ _ _ Ha) as (l & ts & -> & F). destruct (fine_parts b Hf) as [Hp Hb].
    apply Forall2_app.
    - apply Forall2_fmap. apply Forall_Forall2_diag. apply Forall_forall. intros t _. split; [done|]. simpl.
      exists (s_title x), i, (title_of b). split; [done|]. split; [by eapply at_title|done].
    - apply Forall2_fmap_l. apply body_anchors_fine in Hb. clear - F Hb. revert Hb.
      induction F as [|a t l ts (c & lc & Hc & ->) F IH]; intros HF; inversion HF as [|? ? [H1 H2] HF']; subst; constructor; [|by apply IH].
      split; [done|]. simpl. by exists c, i, (snd a).
  Qed.

  Lemma filter_forall2 {X} (R : X → tag → Prop) (f : X → string) xs ts tag : (∀ x t, R x t → f x = t_name t) → Forall2 R xs ts →
    Forall2 R (List.filter (λ x, String.eqb (f x) tag) xs) (List.filter (λ t, String.eqb (t_name t) tag) ts).
  Proof.
    intros Hf. induction 1 as [|x t xs ts Hx _ IH]; [constructor|]. simpl. rewrite (Hf x t Hx). destruct (String.eqb (t_name t) tag); [|done]. by constructor.
  Qed.

  Lemma called_tag tag i l : broken = true ∨ (∃ e, refer (site top) tag = Some e) → descendant h 0 i →
    ∃ t c j ws, ref_tag similar broken h i tag false l = Ok (Some t) ∧ t_title t = Some c ∧ line_is j ws c ∧ forallb plain_span ws = true ∧
      called N0 tag = text ws.
  Proof.
    intros Hor Hd. destruct (stored_at _ _ _ _ _ Htop) as (x & Hx & Ha & _).
    destruct (sec_entries h W top Hfine (top_place top) 0 None (spot_top h W top Htop) Htop) as (ids & L & F & ->).
    destruct (filter_tags_tree h 0 i (λ n, String.eqb n tag) (seq 0 (size top)) W) as (ts & Hts & P); [exists x; split; [done|by eapply at_parent]|done|done|].
    rewrite tags_at_filter in P. pose proof (filter_tag_is h _ _ tag F) as F'.
    pose proof (filter_forall2 named fst _ _ tag (λ x t Hn, proj1 Hn) named_tags) as F2.
    destruct (refer (site top) tag) as [e|] eqn:Hr.
    - unfold refer, site in Hr. destruct (List.filter (λ e, String.eqb (en_tag e) tag) (entries (top_place top) top)) as [|e' [|? ?]]; try done.
      inversion F' as [|? t ? ts' Ht F3 E1 E2]; subst. inversion F3; subst. rewrite <- E2 in P, F2.
      apply Permutation_singleton_r in P; subst ts. unfold called. apply Forall2_cons_inv_r in F2 as (n & ns & Hn & Hns & En). inversion Hns; subst.
      rewrite En. destruct Hn as (_ & c & j & ws & H1 & H2 & H3 & H4). exists t, c, j, ws. split_and!; try done.
      unfold ref_tag, resolve, find_tag. by rewrite Hts.
    - destruct Hor as [Hb|[e He]]; [|done]. destruct (refer_refuse h W top similar tag i l Hfine Htop O Hr Hd) as (e & He & _).
      assert (called N0 tag = "{broken reference: " +:+ tag +:+ "}") as ->.
      { unfold called. apply Forall2_length in F'. apply Forall2_length in F2. unfold refer, site in Hr.
        destruct (List.filter (λ n, String.eqb (fst n) tag) N0) as [|n [|n' ns]]; [done| |done]. exfalso. simpl in F2.
        destruct (List.filter (λ e, String.eqb (en_tag e) tag) (entries (top_place top) top)) as [|e1 [|e2 es]]; simpl in F'; [lia|done|lia]. }
      exists (broken_tag i tag l), (CString ("{broken reference: " +:+ tag +:+ "}")), i, [Txt ("{broken reference: " +:+ tag +:+ "}")].
      split; [unfold ref_tag; by rewrite He, Hb|]. split; [done|]. split; [|split; [done|]].
      + exists [CString ("{broken reference: " +:+ tag +:+ "}")]. split; [|done]. repeat constructor.
      + unfold text. simpl. by rewrite sapp_nil_r.
  Qed.

  (** ** String() *)

  Section step.
    Context (jump : content → outcome error string).
    Context (Hjump : ∀ i l c, forallb plain_span l = true → line_is i l c → jump c = Ok (text l)).
    Context (i : nat) (Hd : descendant h 0 i).
    Notation cF := (cstring_F similar broken h jump).
    Notation reads := (line_reads N0).

    Lemma cF_joined cs c ss : Forall (λ c, ∀ l, c ≠ CSeq l) cs → joined cs = Some c → Forall2 (λ x y, cF x = Ok y) cs ss → cF c = Ok (sconcat ss).
    Proof.
      intros Hs J F. assert (cs ≠ []) as Hn by (by intros ->). rewrite joined_not_seq in J by done. injection J as <-.
      destruct F as [|c1 s1 cs ss H1 F]; [done|]. destruct F as [|c2 s2 cs ss H2 F].
      - rewrite H1. simpl. by rewrite sapp_nil_r.
      - change (obind (λ ss, Ok (sconcat ss)) (omapM cF (c1 :: c2 :: cs)) = Ok (sconcat (s1 :: s2 :: ss)) :> outcome error string).
        rewrite (omapM_all _ _ (s1 :: s2 :: ss)); [done|]. by repeat constructor.
    Qed.

    Lemma cF_span w : span_fine w = true → refers top broken (span_refs w) → ∀ c, span_is i w c → cF c = Ok (span_reads N0 w).
    Proof.
      assert (∀ l, Forall (λ w, span_fine w = true → refers top broken (span_refs w) → ∀ c, span_is i w c → cF c = Ok (span_reads N0 w)) l →
        forallb span_fine l = true → refers top broken (flat_map span_refs l) →
        ∀ cs, Forall2 (span_is i) l cs → Forall2 (λ x y, cF x = Ok y) cs (map (span_reads N0) l)) as Hall.
      { intros l Hl. induction Hl as [|w' l' Hw _ IH]; intros Hf Hr cs F; inversion F as [|? c' ? cs' Hc' F']; subst; [constructor|].
        simpl in *. apply andb_true_iff in Hf as [Hf1 Hf2].
        constructor; [apply Hw; [done| |done]|apply IH; [done| |done]]; intros tag Ht; apply Hr, elem_of_app; auto. }
      induction w as [t|k l IH|l u IH|p d|t l IH|t l IH] using span_ind'; intros Hf Hr c Hc;
        inversion Hc as [|? ? cs ? F J|? ? cs ? F J| |? ? cs lc F|]; subst; try done.
      - simpl in Hf. apply andb_true_iff in Hf as [_ Hf]. change (cF (CStyled (look_style k) false c0 [])) with (cF c0).
        eapply cF_joined; [by eapply spans_not_seq|done|]. by apply Hall.
      - simpl in Hf. apply andb_true_iff in Hf as [_ Hf]. change (cF (CLink c0 u)) with (cF c0).
        eapply cF_joined; [by eapply spans_not_seq|done|]. by apply Hall.
      - assert (broken = true ∨ ∃ e, refer (site top) t = Some e) as He by (apply Hr; left). simpl in Hf. apply andb_true_iff in Hf as [Hp Hf].
        destruct F as [|w c l cs Hw F].
        + destruct (called_tag t i lc He Hd) as (t' & c & j & ws & H1 & H2 & H3 & H4 & H5). simpl. rewrite H1, H2, (Hjump j ws c H4 H3). by rewrite H5.
        + assert (Forall2 (span_is i) (w :: l) (c :: cs)) as F' by by constructor.
          destruct (joined (c :: cs)) as [x|] eqn:J; [|by rewrite joined_not_seq in J by (done || by eapply spans_not_seq)].
          change (cF (CRef i t (Some x) false lc)) with (cF x). change (span_reads N0 (Ref t (w :: l))) with (sconcat (map (span_reads N0) (w :: l))).
          eapply cF_joined; [by eapply spans_not_seq|done|]. apply Hall; [done|done| |done].
          intros tag Ht. exfalso. clear - Hp Ht. revert Hp Ht. generalize (w :: l). clear. intros l. induction l as [|w l IH]; simpl; [by intros _ ?%elem_of_nil|].
          intros [Hw Hp]%andb_true_iff [Ht|Ht]%elem_of_app; [|by apply IH]. clear IH. revert Hw Ht.
          assert (∀ l, Forall (λ w, plain_span w = true → tag ∈ span_refs w → False) l → forallb plain_span l = true → tag ∈ flat_map span_refs l → False) as Hall.
          { intros l' Hl. induction Hl as [|w' l' Hw _ IH]; simpl; [by intros _ ?%elem_of_nil|]. intros [? ?]%andb_true_iff [?|?]%elem_of_app; auto. }
          induction w as [t|k l' IH|l' u IH|p d|t l' IH|t l' IH] using span_ind'; simpl; try done; try (by intros _ ?%elem_of_nil); by apply Hall.
    Qed.
    Lemma cF_spans l c : forallb span_fine l = true → refers top broken (flat_map span_refs l) → line_is i l c → cF c = Ok (reads l).
    Proof.
      intros Hf Hr (cs & F & J). eapply cF_joined; [by eapply spans_not_seq|done|]. clear J.
      induction F as [|w c' l cs' Hw F IH]; [constructor|]. simpl in *. apply andb_true_iff in Hf as [? ?].
      constructor; [apply cF_span; [done| |done]|apply IH; [done|]]; intros tag Ht; apply Hr, elem_of_app; auto.
    Qed.
    Lemma cF_lines ls cs : forallb line_fine ls = true → refers top broken (flat_map span_refs (concat ls)) → Forall2 (line_is i) ls cs →
      Forall2 (λ x y, cF x = Ok y) cs (map reads ls).
    Proof.
      intros Hf Hr F. induction F as [|l c ls cs Hl F IH]; [constructor|]. simpl in *. apply andb_true_iff in Hf as [H1 H2].
      rewrite flat_map_app in Hr. constructor.
      - apply cF_spans; [by apply andb_true_iff in H1 as [_ H1]| |done]. intros tag Ht. apply Hr, elem_of_app. auto.
      - apply IH; [done|]. intros tag Ht. apply Hr, elem_of_app. auto.
    Qed.

    Lemma cF_piece p c : piece_fine p = true → refers top broken (piece_refs p) → piece_is i p c → cF c = Ok (piece_reads N0 p).
    Proof.
      intros Hf Hr Hp. inversion Hp as [lines cs F|o items cs F|lines cs F|rows css F|defs cs F|]; subst.
      - apply andb_true_iff in Hf as [_ Hf].
        change (obind (λ ss, Ok (para_string ss)) (omapM cF cs) = Ok (piece_reads N0 (Par lines)) :> outcome error string).
        by rewrite (omapM_all _ _ _ (cF_lines lines cs Hf Hr F)).
      - change (obind (λ ss, Ok (list_string o 0 ss)) (omapM cF cs) = Ok (piece_reads N0 (Lst o items)) :> outcome error string).
        by rewrite (omapM_all _ _ _ (cF_lines items cs Hf Hr F)).
      - change (obind (λ ss, Ok (sconcat (map (λ s, s +:+ nls) ss))) (omapM cF cs) = Ok (piece_reads N0 (Cod lines)) :> outcome error string).
        rewrite (omapM_all _ _ _ (cF_lines lines cs Hf Hr F)). simpl. by rewrite map_map.
      - change (obind (λ rs, Ok (sconcat (map (λ cols, "|" +:+ sconcat (map (λ s, " " +:+ s +:+ " |") cols) +:+ nls) rs) +:+ nls))
          (omapM (λ row, omapM cF row) css) = Ok (piece_reads N0 (Tbl rows)) :> outcome error string).
        rewrite (omapM_all _ _ (map (map reads) rows)).
        + simpl. rewrite map_map. do 3 f_equal. apply map_ext. intros row. by rewrite map_map.
        + clear Hp. unfold piece_refs in Hr. simpl in Hf, Hr.
          induction F as [|row cs rows css H1 F IH]; [constructor|]. simpl in *. apply andb_true_iff in Hf as [Hf1 Hf2]. rewrite flat_map_app in Hr. constructor.
          * apply omapM_all. apply cF_lines; auto. intros tag Ht. apply Hr, elem_of_app. auto.
          * apply IH; try done. intros tag Ht. apply Hr, elem_of_app. auto.
      - change (obind (λ ds, Ok (sconcat ds +:+ nls))
          (omapM (λ sd : content * content, match sd with (s, d) => obind (λ a, obind (λ b, Ok (a +:+ ": " +:+ b +:+ nls)) (fmt_s (cF d))) (fmt_s (cF s)) end) cs) =
          Ok (piece_reads N0 (Dfs defs)) :> outcome error string).
        rewrite (omapM_all _ _ (map (λ d, reads (fst d) +:+ ": " +:+ reads (snd d) +:+ nls) defs)); [done|]. clear Hp. unfold piece_refs in Hr. simpl in Hf, Hr.
        induction F as [|d [c1 c2] defs cs [H1 H2] F IH]; [constructor|]. simpl in *. apply andb_true_iff in Hf as [Hf1 Hf2]. rewrite flat_map_app in Hr.
        apply andb_true_iff in Hf1 as [Hl1 Hl2]. unfold line_fine in Hl1, Hl2. apply andb_true_iff in Hl1 as [_ Hl1]. apply andb_true_iff in Hl2 as [_ Hl2].
        constructor.
        + rewrite (cF_spans (fst d) c1); auto; [simpl; rewrite (cF_spans (snd d) c2); auto|];
            intros tag Ht; apply Hr, elem_of_app; left; rewrite flat_map_app; apply elem_of_app; auto.
        + apply IH; try done. intros tag Ht. apply Hr, elem_of_app. auto.
      - done.
    Qed.
    Lemma cF_body body c : forallb piece_fine body = true → refers top broken (flat_map piece_refs body) → body_is i body c → cF c = Ok (body_reads N0 body).
    Proof.
      intros Hf Hr (cs & F & ->). assert (Forall2 (λ x y, cF x = Ok y) cs (map (piece_reads N0) body)) as HF.
      { revert Hf Hr. induction F as [|p c body cs Hp F IH]; intros Hf Hr; [constructor|]. simpl in *. apply andb_true_iff in Hf as [Hf1 Hf2]. constructor.
        - apply cF_piece; auto. intros tag Ht. apply Hr, elem_of_app. auto.
        - apply IH; [done|]. intros tag Ht. apply Hr, elem_of_app. auto. }
      destruct cs as [|c cs]; [unfold body_reads; by inversion HF|].
      assert (Forall (λ c, ∀ l, c ≠ CSeq l) (c :: cs)) as Hs.
      { clear - F. induction F as [|p c' body cs' Hp F IH]; constructor; [|done]. by eapply piece_seq. }
      destruct (joined (c :: cs)) as [x|] eqn:J; [|by rewrite joined_not_seq in J].
      simpl default. by eapply cF_joined.
    Qed.
  End step.

  (** ** The entries of the index *)

  Context (n : nat).
  Notation str := (cstring similar broken h (S n)).

  Definition doc_is (d : string * search_doc) (t : tag) : Prop := fst d = t_name t ∧ tag_doc str h "html" t = Ok (snd d).

  Lemma str_title i l c : forallb plain_span l = true → line_is i l c → str c = Ok (text l).
  Proof. intros Hp Hl. by destruct (title_says similar broken h (S n) i l c Hp Hl). Qed.
  Lemma str_body i body c : descendant h 0 i → forallb piece_fine body = true → refers top broken (flat_map piece_refs body) → body_is i body c →
    str c = Ok (body_reads N0 body).
  Proof.
    intros Hd Hf Hr Hb. apply (cF_body (cstring similar broken h n)) with (i := i); try done.
    intros j l x Hp Hl. by destruct (title_says similar broken h n j l x Hp Hl).
  Qed.

  Lemma own_documents pl b i par x : sec_fine b = true → refers top broken (sec_refs b) → spot h pl b i → h !! i = Some x → sec_at true i par b x →
    Forall2 doc_is (map (λ t, (t, SearchDoc (address pl b) (text (title_of b)) (body_reads N0 (body_of b)) (length (pl_number pl)) (main_tag b))) (tag_names b) ++
      map (λ a, (fst a, SearchDoc (pl_file pl +:+ "#" +:+ fst a) (text (snd a)) (body_reads N0 (body_of b)) (length (pl_number pl)) (main_tag b)))
        (flat_map piece_anchors (body_of b))) (s_tags x).
  Proof.
    intros Hf Hr Hsp Hx Ha. destruct (at_tags _ _ _ _ _ Ha) as (l & ts & -> & F). pose proof (sec_fine_main b Hf) as Hm. destruct (fine_parts b Hf) as [Hp Hb].
    assert (str (s_body x) = Ok (body_reads N0 (body_of b))) as Hbody.
    { apply (str_body i); [apply Hsp|done| |by eapply at_body]. intros tag Ht. apply Hr. destruct b. simpl in *. apply elem_of_app. auto. }
    assert (depth h i = Some (length (pl_number pl))) as Hdep by apply Hsp.
    apply Forall2_app.
    - apply Forall2_fmap. apply Forall_Forall2_diag. apply Forall_forall. intros t _. split; [done|]. apply tag_doc_spec. simpl.
      exists i, x, (s_title x). split_and!; try done.
      + unfold tag_url. simpl. by rewrite (spot_url h W true pl b i par x) by done.
      + eapply str_title; [done|by eapply at_title].
      + by erewrite primary_name.
    - apply Forall2_fmap_l. apply body_anchors_fine in Hb. clear Hr Hf Hp. revert Hb.
      induction F as [|a t l' ts (c & lc & Hc & ->) F IH]; intros HF; inversion HF as [|? ? [H1 H2] HF']; subst; constructor; [|by apply IH].
      split; [done|]. apply tag_doc_spec. simpl. exists i, x, c. split_and!; try done.
      + unfold tag_url. simpl. rewrite (spot_url h W true pl b i par x) by done. destruct (String.eqb_spec (fst a) ""); [done|done].
      + by eapply str_title.
      + by erewrite primary_name.
  Qed.

  Lemma documents_are : refers top broken (sec_refs top) → Forall2 doc_is (book_documents top) (flat_map (all_tags h) (seq 0 (size top))).
  Proof.
    intros Hr. unfold book_documents.
    apply (tags_through h W doc_is (λ b, refers top broken (sec_refs b)) (documents N0) (λ pl b,
      map (λ t, (t, SearchDoc (address pl b) (text (title_of b)) (body_reads N0 (body_of b)) (length (pl_number pl)) (main_tag b))) (tag_names b) ++
      map (λ a, (fst a, SearchDoc (pl_file pl +:+ "#" +:+ fst a) (text (snd a)) (body_reads N0 (body_of b)) (length (pl_number pl)) (main_tag b)))
        (flat_map piece_anchors (body_of b)))) with (par := None); [apply documents_eq| |apply own_documents|done|done|by apply spot_top|done].
    intros b c Hb Hc tag Ht. apply Hb. destruct b. simpl in *. apply elem_of_app. right. apply elem_of_list_In, in_flat_map. exists c. split; by apply elem_of_list_In.
  Qed.

  Lemma kept_cons d ds tag : kept (d :: ds) tag =
    match kept ds tag with Some e => Some e | None => if String.eqb (fst d) tag then Some (snd d) else None end.
  Proof.
    unfold kept. simpl. destruct (String.eqb (fst d) tag).
    - rewrite last_cons. by destruct (last (List.filter _ ds)).
    - by destruct (last (List.filter _ ds)).
  Qed.
  Lemma kept_last tag ds ts : Forall2 doc_is ds ts →
    match kept ds tag with
    | Some d => ∃ t, last_named tag ts t ∧ tag_doc str h "html" t = Ok d
    | None => ∀ t, t ∈ ts → t_name t ≠ tag
    end.
  Proof.
    induction 1 as [|d t ds ts [Hn Ht] F IH]; [by intros ? ?%elem_of_nil|]. rewrite kept_cons. destruct (kept ds tag) as [e|].
    - destruct IH as (t' & (Hn' & l1 & l2 & -> & Hl) & Ht'). exists t'. split; [|done]. split; [done|]. by exists (t :: l1), l2.
    - rewrite Hn. destruct (String.eqb_spec (t_name t) tag) as [<-|Hne].
      + exists t. split; [|done]. split; [done|]. by exists [], ts.
      + intros t' [->|Ht']%elem_of_cons; auto.
  Qed.

  Lemma own_all l : flat_map (own_tags h) l = flat_map (all_tags h) l.
  Proof. induction l as [|i l IH]; [done|]. simpl. by rewrite IH. Qed.

  Lemma index_of_book : refers top broken (sec_refs top) → ∃ idx, search_index str h "html" 0 = Ok idx ∧ NoDup (map fst idx) ∧
    ∀ tag, assoc_get tag idx = kept (book_documents top) tag.
  Proof.
    intros Hr. destruct (sec_entries h W top Hfine (top_place top) 0 None (spot_top h W top Htop) Htop) as (ids & L & _ & ->).
    pose proof (documents_are Hr) as F. destruct (proj2 (search_index_ok str h "html" 0 _ W L)) as [idx Hi].
    { intros t. rewrite own_all. intros Ht. apply elem_of_list_lookup in Ht as [k Hk]. destruct (Forall2_lookup_r _ _ _ _ _ F Hk) as (d & _ & Hd).
      exists (snd d). apply Hd. }
    exists idx. split; [done|]. split; [by apply (search_index_spec str h "html" 0 _ idx "" W L Hi)|]. intros tag.
    pose proof (kept_last tag _ _ F) as K. destruct (search_index_spec str h "html" 0 _ idx tag W L Hi) as [_ H]. rewrite own_all in H.
    destruct H as [(t & d & Ht & Hd & ->)|[Hno ->]].
    - destruct (kept (book_documents top) tag) as [e|].
      + destruct K as (t' & Ht' & He). rewrite (last_named_unique _ _ _ _ Ht' Ht) in He. congruence.
      + destruct (last_named_elem _ _ _ Ht) as [H1 H2]. by destruct (K t H1).
    - destruct (kept (book_documents top) tag) as [e|]; [|done]. destruct K as (t' & Ht' & _). destruct (last_named_elem _ _ _ Ht') as [H1 H2]. by destruct (Hno t' H1).
  Qed.
End said.
