(** Where the sections of a book (Book.v) are, and what its tags stand for. *)
From Coq Require Import Ascii String.
From stdpp Require Import base tactics relations strings list.
From Verif Require Import GoBase Ast Grammar Content ContentSpec ContentProofs Section StrProofs TreeSpec TreeProofs TagProofs QueryProofs
  Render NavProofs RenderSpec WriterProofs Evaluate EvalProofs EvalFrame EvalInv EvalSpec EvalTheory BaseSpec BaseRuns Html Book BookEval BookStore BookCollect.
Local Open Scope string_scope. Local Open Scope list_scope.

(** ** Positions *)

Lemma mapi_lookup {A B} (f : nat → A → B) k l m : mapi f k l !! m = f (k + m) <$> l !! m.
Proof.
  revert k m. induction l as [|x l IH]; intros k m; [done|]. destruct m as [|m]; simpl.
  - by rewrite Nat.add_0_r.
  - rewrite IH. by replace (k + S m) with (S k + m) by lia.
Qed.
Lemma mapi_length {A B} (f : nat → A → B) k l : length (mapi f k l) = length l.
Proof. revert k. induction l as [|x l IH]; intros k; simpl; [done|]. by rewrite IH. Qed.
Lemma kids_length j l : length (kids j l) = length l.
Proof. revert j. induction l as [|c l IH]; intros j; simpl; [done|]. by rewrite IH. Qed.
Lemma kids_range j l q : q ∈ kids j l → j ≤ q < j + sizes l.
Proof.
  revert j. induction l as [|c l IH]; intros j; simpl; [by intros ?%elem_of_nil|]. pose proof (size_pos c).
  intros [->|Hq]%elem_of_cons; [lia|]. apply IH in Hq. lia.
Qed.
Lemma kids_nodup j l : NoDup (kids j l).
Proof.
  revert j. induction l as [|c l IH]; intros j; simpl; constructor; [|done]. pose proof (size_pos c). intros Hq%kids_range. lia.
Qed.
Lemma stored_kid coll h par l j m c : stored_list (stored coll h par) l j → l !! m = Some c →
  ∃ q, kids j l !! m = Some q ∧ stored coll h par c q.
Proof.
  revert j m. induction l as [|c' l IH]; intros j m; [done|]. simpl. intros [H1 H2] Hm. destruct m as [|m]; simpl in Hm.
  - injection Hm as <-. by exists j.
  - by apply IH.
Qed.
Lemma stored_kid' coll h par l j m q : stored_list (stored coll h par) l j → kids j l !! m = Some q →
  ∃ c, l !! m = Some c ∧ stored coll h par c q.
Proof.
  revert j m. induction l as [|c' l IH]; intros j m; [done|]. simpl. intros [H1 H2] Hm. destruct m as [|m]; simpl in Hm.
  - injection Hm as <-. by exists c'.
  - destruct (IH _ m H2 Hm) as (c & Hc & Hs). by exists c.
Qed.

Lemma stored_at coll h par b i : stored coll h par b i → ∃ x, h !! i = Some x ∧ sec_at coll i par b x ∧ stored_list (stored coll h (Some i)) (subs_of b) (S i).
Proof. destruct b. intros [(x & Hx & Ha) Hl]. by exists x. Qed.

Lemma stored_each coll h b par i : stored coll h par b i → (∀ p, par = Some p → p < i) → ∀ q x, i ≤ q < i + size b → h !! q = Some x →
  (∀ p, s_parent x = Some p → p < q) ∧ NoDup (s_children x) ∧ (∀ c, c ∈ s_children x → ∃ y, h !! c = Some y ∧ s_parent y = Some q).
Proof.
  revert par i. induction b as [title tags split omit body subs IH] using sec_ind'. intros par i [(y & Hy & Ha) Hl] Hpar q x Hq Hx.
  simpl in Hq. destruct (decide (i = q)) as [<-|Hne].
  - rewrite Hy in Hx. injection Hx as <-. rewrite (at_parent _ _ _ _ _ Ha), (at_children _ _ _ _ _ Ha). split; [done|]. split; [apply kids_nodup|].
    intros c [m Hm]%elem_of_list_lookup. destruct (stored_kid' _ _ _ _ _ _ _ Hl Hm) as (b & _ & Hs).
    destruct (stored_at _ _ _ _ _ Hs) as (z & Hz & Haz & _). exists z. split; [done|]. by eapply at_parent.
  - assert (∀ k, i < k → k ≤ q < k + sizes subs → stored_list (stored coll h (Some i)) subs k →
      (∀ p, s_parent x = Some p → p < q) ∧ NoDup (s_children x) ∧ (∀ c, c ∈ s_children x → ∃ y, h !! c = Some y ∧ s_parent y = Some q)) as Hgo;
      [|by apply (Hgo (S i)); [lia|lia|]].
    clear Hl Hq Ha. induction IH as [|c l Hc _ IHl]; intros k Hk Hq; simpl in *; [lia|]. intros [H1 H2].
    destruct (decide (q < k + size c)); [eapply (Hc (Some i) k); [exact H1|intros p [= <-]; lia|lia|done]|]. pose proof (size_pos c). apply (IHl (k + size c)); [lia|lia|exact H2].
Qed.
Lemma stored_wf coll h b : stored coll h None b 0 → length h = size b → wf h.
Proof.
  intros Hs Hl. assert (∀ q x, h !! q = Some x → (∀ p, s_parent x = Some p → p < q) ∧ NoDup (s_children x) ∧
    (∀ c, c ∈ s_children x → ∃ y, h !! c = Some y ∧ s_parent y = Some q)) as Hall.
  { intros q x Hx. eapply stored_each; [exact Hs|done| |done]. apply lookup_lt_Some in Hx. lia. }
  constructor.
  - intros i x p Hx. by apply (Hall i x).
  - intros p x c Hx Hc. by apply (proj2 (proj2 (Hall p x Hx))).
  - intros p x Hx. by apply (proj2 (Hall p x Hx)).
Qed.

Lemma number_snoc l m : (if String.eqb (sjoin "." (map dec l)) "" then Some (dec m) else Some (sjoin "." (map dec l) +:+ "." +:+ dec m)) =
  Some (match map dec l with [] => dec m | _ => sjoin "." (map dec l) +:+ "." +:+ dec m end).
Proof.
  destruct l as [|x l]; [done|]. destruct (String.eqb_spec (sjoin "." (map dec (x :: l))) "") as [E|_]; [|done].
  exfalso. simpl in E. destruct (map dec l); [by apply dec_nonempty in E|]. apply sapp_eq_nil in E as [E _]. by apply dec_nonempty in E.
Qed.

Section places.
  Context (h : heap) (W : wf h).

  (** Section [i] is [b], at [pl], in the tree below [r]. *)
  Record spot_in (r : nat) (pl : place) (b : sec) (i : nat) : Prop := Spot {
    sp_root : match pl_number pl with [] => is_top h i | _ => ∃ p, parent_of h p i end;
    sp_number : number h i = Some (dotted (pl_number pl));
    sp_depth : page_depth h i = Some (pl_depth pl);
    sp_owner : ∃ o os, is_page h o ∧ rtc (inline_parent h) o i ∧ h !! o = Some os ∧ page_file "html" os = pl_file pl ∧
      o ≤ i ∧ Nat.eqb o i = pl_own pl;
    sp_desc : descendant h r i;
    sp_level : depth h i = Some (length (pl_number pl))
  }.

  Lemma primary_name coll i par b x : sec_at coll i par b x → t_name (s_primary x) = main_tag b.
  Proof.
    intros Ha. destruct (at_tags _ _ _ _ _ Ha) as (l & ts & Ht & _). pose proof (at_primary _ _ _ _ _ Ha) as Hp. rewrite Ht in Hp.
    unfold main_tag. assert (tag_names b ≠ []) as Hn by (destruct b as [? [|? ?]]; done). destruct (tag_names b); [done|]. simpl in Hp. by injection Hp as <-.
  Qed.
  Lemma file_named coll i par b x : sec_at coll i par b x → page_file "html" x = file_name b.
  Proof. intros Ha. unfold page_file, file_name. by rewrite (primary_name _ _ _ _ _ Ha). Qed.

  Lemma spot_top b : stored true h None b 0 → spot_in 0 (top_place b) b 0.
  Proof.
    intros Hs. destruct (stored_at _ _ _ _ _ Hs) as (x & Hx & Ha & _). pose proof (at_parent _ _ _ _ _ Ha) as Hp.
    assert (valid h 0) as V by by eapply lookup_lt_Some. constructor; simpl.
    - by exists x.
    - rewrite number_unfold by done. unfold number_F. rewrite Hx. simpl. by rewrite Hp.
    - rewrite page_depth_unfold by done. unfold page_depth_F. rewrite Hx. simpl. by rewrite Hp.
    - exists 0, x. split; [exists x; split; [done|by rewrite Hp]|]. split; [apply rtc_refl|]. split; [done|]. split; [by eapply file_named|done].
    - apply rtc_refl.
    - rewrite depth_unfold by done. unfold depth_F. rewrite Hx. simpl. by rewrite Hp.
  Qed.
  Lemma split_fresh b : is_split b = true → is_fresh b = true.
  Proof. by destruct b as [? ? []]. Qed.
  Lemma spot_sub {r} pl b i x m c q par : h !! i = Some x → sec_at true i par b x → spot_in r pl b i → stored true h (Some i) c q → s_children x !! m = Some q →
    spot_in r (sub_place pl b (S m) c) c q.
  Proof.
    intros Hx Ha [_ Num Dep (o & os & Ho & Ro & Hos & Hf & Hoi & Hown) Dsc Lev] Hs Hq.
    destruct (stored_at _ _ _ _ _ Hs) as (y & Hy & Hay & _). pose proof (at_parent _ _ _ _ _ Hay) as Hp.
    assert (valid h q) as V by by eapply lookup_lt_Some. assert (i < q) as Hlt by by eapply wf_parent.
    pose proof (at_split _ _ _ _ _ Ha) as Hsp. pose proof (at_reset _ _ _ _ _ Ha) as Hre.
    assert (parent_of h i q) as HP by by exists y. assert (child_of h i q) as HC by (exists x; split; [done|]; by eapply elem_of_list_lookup_2).
    assert (number h q = Some (dotted (pl_number pl ++ [S m]))) as Num'.
    { rewrite number_unfold by done. unfold number_F. rewrite Hy. simpl. rewrite Hp, Num. simpl. rewrite Hx. simpl.
      rewrite (self_index_spec _ _ m) by (done || by eapply wf_nodup). unfold dotted. rewrite map_app. simpl. rewrite sjoin_snoc. apply number_snoc. }
    assert (match pl_number pl ++ [S m] with [] => is_top h q | _ => ∃ p, parent_of h p q end) as Root' by (destruct (pl_number pl); simpl; by exists i).
    assert (descendant h r q) as Dsc' by by eapply rtc_r.
    assert (page_depth h q = Some (if is_fresh b then 0 else S (pl_depth pl))) as Dep'.
    { rewrite page_depth_unfold by done. unfold page_depth_F. rewrite Hy. simpl. rewrite Hp. simpl. rewrite Hx. simpl. rewrite Hre.
      destruct (is_fresh b); [done|]. rewrite Dep. simpl. by rewrite Nat.add_1_r. }
    assert (depth h q = Some (length (pl_number pl ++ [S m]))) as Lev'.
    { rewrite depth_unfold by done. unfold depth_F. rewrite Hy. simpl. rewrite Hp, Lev. simpl. by rewrite app_length. }
    unfold sub_place. destruct (is_split b) eqn:Hb; constructor; try done; simpl.
    - rewrite Dep'. by rewrite split_fresh.
    - exists q, y. split; [exists y; split; [done|]; rewrite Hp; by exists x|]. split; [apply rtc_refl|]. split; [done|]. split; [by eapply file_named|].
      split; [done|]. apply Nat.eqb_refl.
    - exists o, os. split; [done|]. split; [eapply rtc_r; [done|]; split; [done|]; by exists x|]. split; [done|]. split; [done|]. split; [lia|].
      apply Nat.eqb_neq. lia.
  Qed.

  Lemma spot_url {r} coll pl b i par x anchor : spot_in r pl b i → h !! i = Some x → sec_at coll i par b x → main_tag b ≠ "" →
    section_url h "html" i anchor = Some (if String.eqb anchor "" then address pl b else pl_file pl +:+ "#" +:+ anchor).
  Proof.
    intros [_ _ Dep (o & os & Ho & Ro & Hos & Hf & Hoi & Hown) Dsc _] Hx Ha Hm.
    destruct (section_url_spec h "html" i anchor o os W) as (s & Hs & ->); [by eapply lookup_lt_Some|done|done|done|].
    rewrite Hx in Hs. injection Hs as <-. rewrite Hf, Hown, (primary_name _ _ _ _ _ Ha). unfold address.
    destruct (String.eqb_spec anchor "") as [->|Hn]; simpl.
    - destruct (pl_own pl); simpl; [by rewrite sapp_nil_r|]. destruct (String.eqb_spec (main_tag b) ""); [done|done].
    - destruct (String.eqb_spec anchor ""); [done|done].
  Qed.
  Lemma spot_top_iff {r} pl b i x : spot_in r pl b i → h !! i = Some x → match pl_number pl with [] => s_parent x = None | _ => ∃ p, s_parent x = Some p end.
  Proof.
    intros [Root _ _ _ _ _] Hx. destruct (pl_number pl).
    - destruct Root as (s & Hs & Hp). rewrite Hx in Hs. by injection Hs as <-.
    - destruct Root as (p & s & Hs & Hp). rewrite Hx in Hs. injection Hs as <-. by exists p.
  Qed.

  (** ** What there is to refer to *)

  Definition tag_is (e : entry) (t : tag) : Prop :=
    en_tag e = t_name t ∧ tag_url h "html" t = Some (en_url e) ∧
    ∃ c i l, t_title t = Some c ∧ line_is i l c ∧ forallb plain_span l = true ∧ en_shown e = spans_html [] "" l.

  Definition all_tags (i : nat) : list tag := match h !! i with Some x => s_tags x | None => [] end.

  Lemma anchors_fine w : span_fine w = true → Forall (λ a, fst a ≠ "" ∧ forallb plain_span (snd a) = true) (anchors w).
  Proof.
    assert (∀ l, Forall (λ w, span_fine w = true → Forall (λ a, fst a ≠ "" ∧ forallb plain_span (snd a) = true) (anchors w)) l →
      forallb span_fine l = true → Forall (λ a, fst a ≠ "" ∧ forallb plain_span (snd a) = true) (flat_map anchors l)) as Hall.
    { intros l Hl. induction Hl as [|w' l' Hw _ IH]; intros Hf; [constructor|]. simpl in Hf. apply andb_true_iff in Hf as [? ?].
      simpl. apply Forall_app. split; auto. }
    induction w as [t|k l IH|l u IH|p d|t l IH|t l IH] using span_ind'; simpl; intros Hf; try constructor.
    - apply andb_true_iff in Hf as [_ Hf]. by apply Hall.
    - apply andb_true_iff in Hf as [_ Hf]. by apply Hall.
    - apply andb_true_iff in Hf as [Hf _]. apply andb_true_iff in Hf as [Ht Hf]. simpl. split; [|by destruct l].
      intros ->. done.
    - constructor.
  Qed.
  Lemma lines_spans ls : forallb line_fine ls = true → forallb span_fine (concat ls) = true.
  Proof.
    induction ls as [|l ls IH]; [done|]. simpl. unfold line_fine at 1. intros [[_ H1]%andb_true_iff H2]%andb_true_iff. rewrite forallb_app.
    by rewrite H1, IH.
  Qed.
  Lemma piece_spans_fine p : piece_fine p = true → forallb span_fine (piece_spans p) = true.
  Proof.
    destruct p as [lines|o items|lines|rows|defs|]; simpl; try apply lines_spans; try done.
    - intros [_ H]%andb_true_iff. by apply lines_spans.
    - induction rows as [|row rows IH]; [done|]. simpl. intros [H1 H2]%andb_true_iff. rewrite forallb_app. by rewrite lines_spans, IH.
    - induction defs as [|d defs IH]; [done|]. simpl. intros [[H0 H1]%andb_true_iff H2]%andb_true_iff. rewrite !forallb_app.
      unfold line_fine in H0, H1. apply andb_true_iff in H0 as [_ ->]. apply andb_true_iff in H1 as [_ ->]. by rewrite IH.
  Qed.
  Lemma spans_anchors_fine l : forallb span_fine l = true → Forall (λ a, fst a ≠ "" ∧ forallb plain_span (snd a) = true) (flat_map anchors l).
  Proof.
    induction l as [|w l IH]; [constructor|]. simpl. intros [H1 H2]%andb_true_iff. apply Forall_app. split; [by apply anchors_fine|by apply IH].
  Qed.
  Lemma body_anchors_fine body : forallb piece_fine body = true →
    Forall (λ a, fst a ≠ "" ∧ forallb plain_span (snd a) = true) (flat_map piece_anchors body).
  Proof.
    induction body as [|p body IH]; [constructor|]. simpl. intros [H1 H2]%andb_true_iff. apply Forall_app. split; [|by apply IH].
    apply spans_anchors_fine. by apply piece_spans_fine.
  Qed.

  Lemma sec_fine_main b : sec_fine b = true → main_tag b ≠ "".
  Proof.
    destruct b as [title tags split omit body subs]. intros Hf E0.
    change (sec_fine (Sec title tags split omit body subs)) with
      (some title && forallb plain_span title && forallb span_fine title && negb (String.eqb (main_tag (Sec title tags split omit body subs)) "") &&
      forallb piece_fine body && forallb sec_fine subs) in Hf. rewrite E0 in Hf.
    repeat (apply andb_true_iff in Hf as [Hf ?]). done.
  Qed.

  Lemma own_entries {r} pl b i par x : sec_fine b = true → spot_in r pl b i → h !! i = Some x → sec_at true i par b x →
    Forall2 tag_is (map (λ t, Entry t (address pl b) (spans_html [] "" (title_of b))) (tag_names b) ++
      map (λ a, Entry (fst a) (pl_file pl +:+ "#" +:+ fst a) (spans_html [] "" (snd a))) (flat_map piece_anchors (body_of b))) (s_tags x).
  Proof.
    intros Hf Hsp Hx Ha. destruct (at_tags _ _ _ _ _ Ha) as (l & ts & -> & F). pose proof (sec_fine_main b Hf) as Hm.
    assert (forallb plain_span (title_of b) = true) as Hplain by (destruct b; simpl in Hf; repeat (apply andb_true_iff in Hf as [Hf ?]); done).
    assert (forallb piece_fine (body_of b) = true) as Hbody by (destruct b; simpl in Hf; repeat (apply andb_true_iff in Hf as [Hf ?]); done).
    apply Forall2_app.
    - apply Forall2_fmap. apply Forall_Forall2_diag. apply Forall_forall. intros t _. split; [done|]. split.
      + simpl. unfold tag_url. simpl. by rewrite (spot_url true pl b i par x) by done.
      + simpl. exists (s_title x), i, (title_of b). split; [done|]. split; [by eapply at_title|done].
    - apply Forall2_fmap_l. apply body_anchors_fine in Hbody. clear - F Hbody Hx Ha Hsp Hm W. revert Hbody.
      induction F as [|a t l ts (c & lc & Hc & ->) F IH]; intros HF; inversion HF as [|? ? [H1 H2] HF']; subst; constructor; [|by apply IH].
      split; [done|]. simpl. split.
      + unfold tag_url. simpl. rewrite (spot_url true pl b i par x) by done. destruct (String.eqb_spec (fst a) ""); [done|done].
      + by exists c, i, (snd a).
  Qed.

  Lemma entries_eq pl b : entries pl b = map (λ t, Entry t (address pl b) (spans_html [] "" (title_of b))) (tag_names b) ++
      map (λ a, Entry (fst a) (pl_file pl +:+ "#" +:+ fst a) (spans_html [] "" (snd a))) (flat_map piece_anchors (body_of b)) ++
      concat (mapi (λ k c, entries (sub_place pl b k c) c) 1 (subs_of b)).
  Proof. by destruct b. Qed.

  Lemma sec_entries {r} b : sec_fine b = true → ∀ pl i par, spot_in r pl b i → stored true h par b i →
    ∃ l, listing h (λ _, true) i l ∧ Forall2 tag_is (entries pl b) (flat_map all_tags l) ∧ l = seq i (size b).
  Proof.
    induction b as [title tags split omit body subs IH] using sec_ind'. intros Hf pl i par Hsp Hs.
    set (b := Sec title tags split omit body subs) in *.
    destruct (stored_at _ _ _ _ _ Hs) as (x & Hx & Ha & Hl). pose proof (at_children _ _ _ _ _ Ha) as Hch. simpl in Hch, Hl.
    assert (forallb sec_fine subs = true) as Hsubs by (unfold b in Hf; simpl in Hf; by apply andb_true_iff in Hf as [_ Hf]).
    assert (subs_of b = subs ∧ size b = S (sizes subs)) as [Hbs Hbz] by done. clearbody b.
    assert (∀ k j, (∀ m q, kids j subs !! m = Some q → s_children x !! (k + m) = Some q) → stored_list (stored true h (Some i)) subs j →
      ∃ l, listings h (λ _, true) (kids j subs) l ∧
        Forall2 tag_is (concat (mapi (λ k c, entries (sub_place pl b k c) c) (S k) subs)) (flat_map all_tags l) ∧ l = seq j (sizes subs)) as Hgo.
    { clear Hl Hch Hbs Hbz. induction IH as [|c l Hc _ IHl]; intros k j Hk Hst.
      - exists []. split; [constructor|]. split; [constructor|done].
      - destruct Hst as [Hs1 Hs2]. assert (sec_fine c = true ∧ forallb sec_fine l = true) as [Hf1 Hf2] by by apply andb_true_iff.
        assert (s_children x !! k = Some j) as Hj by (rewrite <- (Hk 0 j eq_refl); f_equal; lia).
        destruct (Hc Hf1 (sub_place pl b (S k) c) j (Some i)) as (l1 & L1 & F1 & E1); [by eapply spot_sub|done|].
        destruct (IHl Hf2 (S k) (j + size c)) as (l2 & L2 & F2 & E2); [|done|].
        { intros m q Hm. replace (S k + m) with (k + S m) by lia. by apply Hk. }
        exists (l1 ++ l2). split; [by constructor|]. split.
        + rewrite flat_map_app. simpl. by apply Forall2_app.
        + rewrite E1, E2. simpl. by rewrite seq_app. }
    destruct (Hgo 0 (S i)) as (l & L & F & El); [|done|].
    { intros m q Hm. by rewrite Hch. }
    exists (i :: l). split; [|split].
    - econstructor; [exact Hx|]. by rewrite Hch.
    - rewrite entries_eq, Hbs. simpl. rewrite (assoc_L (++)). apply Forall2_app; [|exact F]. unfold all_tags. rewrite Hx. by eapply own_entries.
    - by rewrite El, Hbz.
  Qed.

  Lemma tags_at_filter m l : flat_map (tags_at h m) l = List.filter (λ t, m (t_name t)) (flat_map all_tags l).
  Proof.
    induction l as [|i l IH]; [done|]. simpl. rewrite List.filter_app, IH. f_equal. unfold tags_at, all_tags. by destruct (h !! i).
  Qed.
  Lemma filter_tag_is es ts tag : Forall2 tag_is es ts →
    Forall2 tag_is (List.filter (λ e, String.eqb (en_tag e) tag) es) (List.filter (λ t, String.eqb (t_name t) tag) ts).
  Proof.
    induction 1 as [|e t es ts He _ IH]; [constructor|]. simpl. destruct He as (Hn & Hr). rewrite Hn. destruct (String.eqb (t_name t) tag); [|done].
    constructor; [by split|done].
  Qed.

  (** A reference to something of which there is exactly one. *)
  Lemma refer_resolve b similar broken tag e i l : sec_fine b = true → stored true h None b 0 → refer (site b) tag = Some e → descendant h 0 i →
    ∃ t, ref_tag similar broken h i tag false l = Ok (Some t) ∧ tag_is e t.
  Proof.
    intros Hf Hs Hr Hd. destruct (stored_at _ _ _ _ _ Hs) as (x & Hx & Ha & _).
    destruct (sec_entries b Hf (top_place b) 0 None (spot_top b Hs) Hs) as (ids & L & F & _).
    destruct (filter_tags_tree h 0 i (λ n, String.eqb n tag) ids W) as (ts & Hts & P); [exists x; split; [done|by eapply at_parent]|done|done|].
    rewrite tags_at_filter in P. pose proof (filter_tag_is _ _ tag F) as F'.
    unfold refer, site in Hr. destruct (List.filter (λ e, String.eqb (en_tag e) tag) (entries (top_place b) b)) as [|e' [|? ?]]; try done.
    injection Hr as ->. inversion F' as [|? t ? ts' Ht F2 E1 E2]; subst. inversion F2; subst. rewrite <- E2 in P.
    apply Permutation_singleton_r in P; subst ts. exists t. split; [|done].
    unfold ref_tag, resolve, find_tag. by rewrite Hts.
  Qed.

  (** One to nothing or to several things. *)
  Lemma refer_refuse b similar tag i l : sec_fine b = true → stored true h None b 0 → tags_owned h → refer (site b) tag = None → descendant h 0 i →
    ∃ e, resolve similar h i tag false l = Err e ∧ refused (site b) tag e.
  Proof.
    intros Hf Hs O Hr Hd. destruct (stored_at _ _ _ _ _ Hs) as (x & Hx & Ha & _).
    assert (valid h i) as V by (eapply descendant_valid; [done| |done]; by eapply lookup_lt_Some).
    destruct (sec_entries b Hf (top_place b) 0 None (spot_top b Hs) Hs) as (ids & L & F & _).
    destruct (filter_tags_tree h 0 i (λ n, String.eqb n tag) ids W) as (ts & Hts & P); [exists x; split; [done|by eapply at_parent]|done|done|].
    destruct (filter_tags_all h (λ n, String.eqb n tag) i W V) as (ts' & Hts' & A). rewrite Hts in Hts'. injection Hts' as <-.
    rewrite tags_at_filter in P. pose proof (Forall2_length _ _ _ (filter_tag_is _ _ tag F)) as Hlen.
    pose proof (Permutation_length P) as Hlen2. destruct (resolve_spec similar h i tag false l ts W V O A) as (_ & H0 & H2).
    unfold refer, refused, site in *. destruct (List.filter (λ e, String.eqb (en_tag e) tag) (entries (top_place b) b)) as [|e1 [|e2 es]]; try done.
    - simpl in Hlen. destruct ts; [|simpl in Hlen2; lia]. destruct (H0 eq_refl) as (f & sim & -> & _). eexists. split; [done|]. by do 2 eexists.
    - destruct H2 as (f & ds & locs & -> & _ & Pd & Fd); [simpl in Hlen; lia|]. eexists. split; [done|]. do 2 eexists. split; [done|].
      rewrite <- (Forall2_length _ _ _ Fd). rewrite (Permutation_length Pd). lia.
  Qed.
End places.
Notation spot h := (spot_in h 0).

Lemma stored_owned h b : stored true h None b 0 → length h = size b → tags_owned h.
Proof.
  intros Hs Hl i x t Hx Ht. assert (i < 0 + size b) as Hi by (apply lookup_lt_Some in Hx; lia). assert (0 ≤ i) as Hi0 by lia. revert Hs Hi0 Hi.
  generalize 0 (None : option nat). clear Hl. induction b as [title tags split omit body subs IH] using sec_ind'. intros j par [(y & Hy & Ha) Hl] H0 Hi.
  simpl in Hi. destruct (decide (i = j)) as [->|Hne].
  - rewrite Hx in Hy. injection Hy as <-. destruct (at_tags _ _ _ _ _ Ha) as (l & ts & Hts & F). rewrite Hts in Ht. apply elem_of_app in Ht as [Ht|Ht].
    + apply elem_of_list_fmap in Ht as (n & -> & _). done.
    + apply elem_of_list_lookup in Ht as [k Hk]. destruct (Forall2_lookup_r _ _ _ _ _ F Hk) as (a & _ & c & lc & _ & ->). done.
  - assert (∀ k, k ≤ i < k + sizes subs → stored_list (stored true h (Some j)) subs k → t_section t = Some i) as Hgo; [|by apply (Hgo (S j)); [lia|]].
    clear Hl Hi Ha Hy H0. induction IH as [|c l Hc _ IHl]; intros k Hk; simpl in *; [lia|]. intros [H1 H2].
    destruct (decide (i < k + size c)); [by eapply Hc; [exact H1|lia|lia]|]. eapply IHl; [|exact H2]. lia.
Qed.
