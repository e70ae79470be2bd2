(** A section of a book is found, shown and written as BookChoose.v says. *)
From Coq Require Import Ascii String Lia.
From stdpp Require Import base tactics relations strings list.
From Verif Require Import GoBase Ast Grammar Content ContentSpec ContentProofs Section StrProofs TreeSpec TreeProofs TagProofs QueryProofs
  Render NavProofs RenderSpec WriterProofs Peg Evaluate EvalProofs EvalFrame EvalInv EvalSpec EvalTheory EvalMore BaseSpec BaseRuns Collect Html TextRender Json Command ParseSpec WrittenMore
  MembersProofs Book BookLaid BookEval BookStore BookSections BookCollect BookPlaces BookHtml BookBuild BookPlain BookPlainProofs BookChoose.
Local Open Scope string_scope. Local Open Scope list_scope.

(** ** Tags are found in order *)

Scheme listing_mut := Induction for listing Sort Prop
  with listings_mut := Induction for listings Sort Prop.

Lemma down_listing h m n i l : wf h → listing h (λ _, true) i l → length h - i < n →
  gofix (filter_tags_F h m) n (false, None, i) = Some (flat_map (tags_at h m) l).
Proof.
  intros W L. revert n. revert L.
  apply (listing_mut h (λ _, true)
    (λ i l _, ∀ n, length h - i < n → gofix (filter_tags_F h m) n (false, None, i) = Some (flat_map (tags_at h m) l))
    (λ cs l _, ∀ n, Forall (λ c, length h - c < n) cs → ft_loop (gofix (filter_tags_F h m) n) None cs = Some (flat_map (tags_at h m) l))).
  - clear i l. intros i s l Hs L IH n Hn. destruct n as [|n]; [lia|]. simpl. rewrite Hs. simpl.
    fold (ft_loop (gofix (filter_tags_F h m) n) None). rewrite IH.
    + simpl. by replace (tags_at h m i) with (List.filter (λ t, m (t_name t)) (s_tags s)) by (unfold tags_at; by rewrite Hs).
    + apply Forall_forall. intros c Hc. assert (child_of h i c) as Hch by (exists s; done).
      pose proof (wf_child_lt _ _ _ W Hch). pose proof (wf_child_valid _ _ _ W Hch). unfold valid in *. lia.
  - done.
  - intros c cs l1 l2 L1 IH1 L2 IH2 n Hn. apply Forall_cons in Hn as [H1 H2]. simpl. rewrite (IH1 n H1). simpl. rewrite (IH2 n H2). simpl. by rewrite flat_map_app.
Qed.

Lemma top_listing h m r l : wf h → is_top h r → listing h (λ _, true) r l → filter_tags h m r = Some (flat_map (tags_at h m) l).
Proof.
  intros W (x & Hx & Hp) L. inversion L as [? s l' Hs L']; subst. rewrite Hx in Hs. injection Hs as <-. unfold filter_tags.
  assert (2 * fuel_of h = S (2 * fuel_of h - 1)) as -> by (unfold fuel_of; lia). set (n := 2 * fuel_of h - 1).
  assert (length h < n) as Hn.
  { unfold n, fuel_of. apply lookup_lt_Some in Hx. lia. }
  clearbody n. simpl. rewrite Hx. simpl. fold (ft_loop (gofix (filter_tags_F h m) n) None).
  assert (ft_loop (gofix (filter_tags_F h m) n) None (s_children x) = Some (flat_map (tags_at h m) l')) as ->.
  { clear L. simpl in L'. induction L' as [|c cs l1 l2 L1 L2 IH]; [done|]. simpl. rewrite (down_listing h m n c l1) by (done || lia). simpl. rewrite IH. simpl. by rewrite flat_map_app. }
  simpl. rewrite Hp. by replace (tags_at h m r) with (List.filter (λ t, m (t_name t)) (s_tags x)) by (unfold tags_at; by rewrite Hx).
Qed.

Section found.
  Context (h : heap) (W : wf h) (top : sec) (Hfine : sec_fine top = true) (Htop : stored true h None top 0).

  Definition mark_is (m : string * (place * sec)) (t : tag) : Prop :=
    fst m = t_name t ∧ ∃ i, t_section t = Some i ∧ sits h top i (snd m) ∧ page_b h i = pl_own (fst (snd m)).

  Lemma marks_eq pl b : marks pl b = map (λ t, (t, (pl, b))) (tag_names b ++ map fst (flat_map piece_anchors (body_of b))) ++
      concat (mapi (λ k c, marks (sub_place pl b k c) c) 1 (subs_of b)).
  Proof. by destruct b. Qed.

  Lemma sec_marks b : sec_fine b = true → size b ≤ size top → ∀ pl i par, spot h pl b i → stored true h par b i → page_b h i = pl_own pl →
    Forall2 mark_is (marks pl b) (flat_map (all_tags h) (seq i (size b))).
  Proof.
    induction b as [title tags split omit body subs IH] using sec_ind'. intros Hf Hz pl i par Hsp Hs Hpg.
    set (b := Sec title tags split omit body subs) in *.
    destruct (stored_at _ _ _ _ _ Hs) as (x & Hx & Ha & Hl). pose proof (at_children _ _ _ _ _ Ha) as Hch. simpl in Hch, Hl.
    assert (forallb sec_fine subs = true) as Hsubs by (destruct (subs_fine b Hf) as [? _]; done).
    assert (subs_of b = subs ∧ size b = S (sizes subs)) as [Hbs Hbz] by done. rewrite marks_eq, Hbs, Hbz. rewrite <- cons_seq. simpl flat_map.
    apply Forall2_app.
    - destruct (at_tags _ _ _ _ _ Ha) as (l & ts & Ht & F). unfold all_tags at 1. rewrite Hx, Ht, map_app.
      assert (sits h top i (pl, b)) as Hsit by exact (conj Hf (conj Hz (conj Hsp (ex_intro _ par Hs)))). apply Forall2_app.
      + apply Forall2_fmap. apply Forall_Forall2_diag. apply Forall_forall. intros t _. split; [done|]. by exists i.
      + rewrite map_map. apply Forall2_fmap_l. eapply Forall2_impl; [exact F|]. intros a t (c & lc & Hc & ->). split; [done|]. by exists i.
    - clearbody b. rewrite Hbz in Hz. assert (sizes subs ≤ size top) as Hz' by lia. clear Hz Hbs Hbz.
      assert (∀ k j, (∀ m q, kids j subs !! m = Some q → s_children x !! (k + m) = Some q) → stored_list (stored true h (Some i)) subs j →
        Forall2 mark_is (concat (mapi (λ k c, marks (sub_place pl b k c) c) (S k) subs)) (flat_map (all_tags h) (seq j (sizes subs)))) as Hgo;
        [|apply (Hgo 0 (S i)); [intros m q Hm; by rewrite Hch|done]].
      clear Hl Hch. induction IH as [|c l Hc _ IHl]; intros k j Hk Hst; [constructor|].
      destruct Hst as [Hs1 Hs2]. assert (sec_fine c = true ∧ forallb sec_fine l = true) as [Hf1 Hf2] by by apply andb_true_iff.
      assert (s_children x !! k = Some j) as Hj by (rewrite <- (Hk 0 j eq_refl); f_equal; lia).
      simpl in Hz'. simpl sum_list_with. rewrite seq_app, flat_map_app. simpl. apply Forall2_app.
      + destruct (stored_at _ _ _ _ _ Hs1) as (z & Hzz & Haz & _).
        assert (spot h (sub_place pl b (S k) c) c j) as Hspc by exact (spot_sub h W pl b i x k c j _ Hx Ha Hsp Hs1 Hj).
        apply (Hc Hf1 ltac:(lia) _ j (Some i) Hspc Hs1).
        unfold page_b. rewrite Hzz, (at_parent _ _ _ _ _ Haz), Hx, (at_split _ _ _ _ _ Ha). unfold sub_place. by destruct (is_split b).
      + apply (IHl Hf2); [lia| |done]. intros m q Hm. replace (S k + m) with (k + S m) by lia. by apply Hk.
  Qed.

  (** What is found. *)
  Lemma book_find tag : ∃ ts, find_tag h 0 tag = Some ts ∧
    Forall2 (λ q t, ∃ i, t_section t = Some i ∧ sits h top i q ∧ page_b h i = pl_own (fst q)) (tagged top tag) ts.
  Proof.
    pose proof (spot_top h W top Htop) as Hsp. destruct (stored_at _ _ _ _ _ Htop) as (x & Hx & Ha & _).
    destruct (sec_entries h W top Hfine (top_place top) 0 None Hsp Htop) as (l & L & _ & ->).
    assert (is_top h 0) as T by (exists x; split; [done|by eapply at_parent]).
    unfold find_tag. rewrite (top_listing h _ 0 _ W T L). rewrite tags_at_filter. eexists. split; [done|].
    assert (page_b h 0 = pl_own (top_place top)) as Hp0 by (unfold page_b; by rewrite Hx, (at_parent _ _ _ _ _ Ha)).
    pose proof (sec_marks top Hfine (le_n _) (top_place top) 0 None Hsp Htop Hp0) as F. unfold tagged.
    induction F as [|m t ms ts (Hn & Hi) _ IH]; [constructor|]. simpl. rewrite Hn. destruct (String.eqb (t_name t) tag); [|done]. constructor; [done|done].
  Qed.

  (** The pages from there. *)
  Lemma pages_from_are {r} i q : sits_in h top r i q → page_b h i = pl_own (fst q) →
    ∃ l, pages_of h i l ∧ Forall2 (sits_in h top r) l ((if pl_own (fst q) then [q] else []) ++ placed_below (fst q) (snd q)).
  Proof.
    destruct q as [pl c]. cbn [fst snd]. intros (Hf & Hz & Hsp & par & Hs) Hp. cbn [fst snd] in *.
    destruct (sec_entries h W c Hf pl i par Hsp Hs) as (l & L & _ & ->).
    eexists. split; [eexists; split; [exact L|reflexivity]|]. rewrite size_eq, <- cons_seq. simpl. rewrite Hp.
    pose proof (placed_are h W top c Hf Hz pl i par Hs Hsp) as F.
    destruct (pl_own pl); [|done]. constructor; [|done]. exact (conj Hf (conj Hz (conj Hsp (ex_intro _ par Hs)))).
  Qed.
End found.

(** ** In HTML *)
Section html.
  Context (similar : string → string → bool) (broken : bool) (h : heap) (W : wf h) (force : nat → option content) (str : content → outcome error string).
  Context (top : sec) (r : nat).
  Context (Hres : ∀ tag e i l, refer (site top) tag = Some e → descendant h r i → ∃ t, ref_tag similar broken h i tag false l = Ok (Some t) ∧ tag_is h e t).
  Context (Href : ∀ tag i l, refer (site top) tag = None → descendant h r i → ∃ e, resolve similar h i tag false l = Err e ∧ refused (site top) tag e).
  Context (Hstr : ∀ j l c, forallb plain_span l = true → line_is j l c → str c = Ok (text l)).
  Context (n : nat) (Hn : size top < n).

  Lemma sits_page_in i q : sits_in h top r i q → gives (site top) broken (page_refs (snd q)) (html_page similar broken h force str n i) (page_of (site top) (fst q) (snd q)).
  Proof. intros (Hf & Hz & Hsp & par & Hs). eapply page_renders_in; try done; lia. Qed.

  Lemma zip_from q : zip (pages_from top q) (refs_from q) =
    map (λ q, ((file_name (snd q), page_of (site top) (fst q) (snd q)), page_refs (snd q))) ((if pl_own (fst q) then [q] else []) ++ placed_below (fst q) (snd q)).
  Proof.
    destruct q as [pl c]. unfold pages_from, refs_from. cbn [fst snd]. rewrite map_app.
    assert (∀ pl, zip (pages_below (site top) pl c) (refs_below c) =
      map (λ q, ((file_name (snd q), page_of (site top) (fst q) (snd q)), page_refs (snd q))) (placed_below pl c)) as Hb.
    { clear pl. induction c as [title tags split omit body subs IH] using sec_ind'. intros pl. change (zip (pages_below (site top) pl ?c) (refs_below ?c)) with (zips_below top pl c).
      rewrite zips_eq, placed_eq. set (b := Sec title tags split omit body subs) in *. change (subs_of b) with subs. clearbody b. generalize 1.
      induction IH as [|c l Hc _ IHl]; intros k; [done|]. cbn [mapi concat]. rewrite !map_app, <- IHl. f_equal. unfold zips_below. rewrite Hc. f_equal. by destruct (is_split b). }
    rewrite <- Hb. by destruct (pl_own pl).
  Qed.
  Lemma from_are_in i q : sits_in h top r i q → page_b h i = pl_own (fst q) →
    ∃ l, pages_of h i l ∧ Forall2 (page_is similar broken h force str top n) l (zip (pages_from top q) (refs_from q)).
  Proof.
    intros Hs Hp. destruct (pages_from_are h W top i q Hs Hp) as (l & P & F). exists l. split; [done|]. rewrite zip_from.
    apply Forall2_fmap_r. eapply Forall2_impl; [exact F|]. intros j [pl c] Hj. split; [|by apply (sits_page_in j (pl, c))].
    destruct Hj as (_ & _ & Hsp & par & Hst). by eapply file_of_sec.
  Qed.
End html.
Section html_top.
  Context (similar : string → string → bool) (broken : bool) (h : heap) (W : wf h) (O : tags_owned h) (force : nat → option content) (str : content → outcome error string).
  Context (top : sec) (Hfine : sec_fine top = true) (Htop : stored true h None top 0).
  Context (Hstr : ∀ j l c, forallb plain_span l = true → line_is j l c → str c = Ok (text l)).
  Context (n : nat) (Hn : size top < n).

  Lemma sits_page i q : sits h top i q → gives (site top) broken (page_refs (snd q)) (html_page similar broken h force str n i) (page_of (site top) (fst q) (snd q)).
  Proof.
    apply (sits_page_in similar broken h W force str top 0); [|by intros; apply (refer_refuse h W top)|done|done].
    intros. by apply (refer_resolve h W top).
  Qed.
  Lemma from_are i q : sits h top i q → page_b h i = pl_own (fst q) →
    ∃ l, pages_of h i l ∧ Forall2 (page_is similar broken h force str top n) l (zip (pages_from top q) (refs_from q)).
  Proof.
    apply (from_are_in similar broken h W force str top 0); [|by intros; apply (refer_refuse h W top)|done|done].
    intros. by apply (refer_resolve h W top).
  Qed.
End html_top.

(** ** Building *)

Section build.
  Context (E : env) (HE : base_env E) (W : world) (D : disk) (b : sec) (t : tree) (path : string).
  Context (Hf : sec_fine b = true) (HD : on_disk D path t) (HL : laid (on_disk D) path b t).

  Lemma book_loads : ∃ k s, (∀ n, k ≤ n → load (reading D E) (w_order W) n path [FBase] (St [] []) = (s, Ok 0)) ∧
    stored true (st_heap s) None b 0 ∧ wf (st_heap s) ∧ tags_owned (st_heap s).
  Proof.
    destruct (disk_reads D E _ _ HD) as (mt & nd & Hfs & He).
    destruct (load_book (reading D E) (w_order W) b t path mt nd) as (k & s & Hl & Hs & Hlen); [exact HE|done|done| |done|].
    { eapply laid_mono; [|exact HL]. apply disk_reads. }
    exists k, s. split; [done|]. split; [done|]. split; [by eapply stored_wf|by eapply stored_owned].
  Qed.

  Context (o : options) (Hin : o_in o = path) (Htag : o_tag o ≠ "").

  Lemma choose_tagged : ∃ k s, stored true (st_heap s) None b 0 ∧ wf (st_heap s) ∧ tags_owned (st_heap s) ∧
    match tagged b (o_tag o) with
    | [] => ∀ n, k ≤ n → choose (reading D E) W o n = (s, Err (FUnknownTag (o_tag o)))
    | q :: _ => ∃ i, sits (st_heap s) b i q ∧ page_b (st_heap s) i = pl_own (fst q) ∧ ∀ n, k ≤ n → choose (reading D E) W o n = (s, Ok (0, i))
    end.
  Proof.
    destruct book_loads as (k & s & Hl & Hs & Hw & Hto). exists k, s. do 3 (split; [done|]).
    destruct (book_find (st_heap s) Hw b Hf Hs (o_tag o)) as (ts & Hts & F).
    assert (∀ n, k ≤ n → choose (reading D E) W o n = match ts with [] => (s, Err (FUnknownTag (o_tag o))) | t :: _ => match t_section t with Some i => (s, Ok (0, i)) | None => (s, Panic) end end) as Hc.
    { intros n Hn. unfold choose. rewrite Hin, (Hl n Hn). destruct (String.eqb_spec (o_tag o) ""); [done|]. simpl. rewrite Hts. done. }
    destruct F as [|q tg qs ts (i & Hi & Hq & Hp) F]; [done|]. exists i. split; [done|]. split; [done|]. intros n Hn. rewrite (Hc n Hn), Hi. done.
  Qed.

  Lemma says_text s : ∀ j l c, forallb plain_span l = true → line_is j l c → cstring (e_similar E) (e_broken E) (st_heap s) (e_jumps E) c = Ok (text l).
  Proof. intros j l c Hp Hlc. by destruct (title_says (e_similar E) (e_broken E) (st_heap s) (e_jumps E) j l c Hp Hlc) as [_ ?]. Qed.

  Lemma tagged_print : o_text o = "" → o_out o = "" → ∃ k, ∀ n m fs, k ≤ n → k ≤ m →
    match tagged b (o_tag o) with
    | [] => build (reading D E) W o n m fs = (fs, Err (FUnknownTag (o_tag o)))
    | (pl, c) :: _ =>
      match bad (site b) (e_broken E) (page_refs c) with
      | [] => build (reading D E) W o n m fs = (fs, Ok (page_of (site b) pl c))
      | tag :: _ => ∃ e, build (reading D E) W o n m fs = (fs, Err (FRender (RTag e))) ∧ refused (site b) tag e
      end
    end.
  Proof.
    intros Htext Ho. destruct choose_tagged as (k & s & Hs & Hw & Hto & Hc). exists (Nat.max k (S (size b))). intros n m fs Hn Hm.
    unfold build, build_with. destruct (tagged b (o_tag o)) as [|[pl c] qs]; [by rewrite (Hc n) by lia|].
    destruct Hc as (i & Hi & _ & Hc). rewrite (Hc n) by lia. rewrite Ho. simpl String.eqb. cbv iota.
    unfold page. rewrite Htext. simpl String.eqb. cbv iota. simpl e_similar. simpl e_broken. simpl e_jumps.
    pose proof (sits_page (e_similar E) (e_broken E) (st_heap s) Hw Hto (w_force W) (cstring (e_similar E) (e_broken E) (st_heap s) (e_jumps E)) b Hf Hs (says_text s) m ltac:(lia) i (pl, c) Hi) as Hg.
    unfold gives in Hg. cbn [fst snd] in Hg. destruct (bad (site b) (e_broken E) (page_refs c)) as [|tag bads]; [by rewrite Hg|].
    destruct Hg as (e & Hg & Hr). rewrite Hg. by exists e.
  Qed.

  Lemma tagged_print_text : o_text o ≠ "" → o_out o = "" → ∃ k, ∀ n m fs, k ≤ n → k ≤ m →
    build (reading D E) W o n m fs = (fs, match tagged b (o_tag o) with
      | [] => Err (FUnknownTag (o_tag o))
      | (pl, c) :: _ => match sec_lacks c with [] => Ok (page_plain (pl_number pl) c) | name :: _ => Err (FRender (RTemplate name)) end
      end).
  Proof.
    intros Htext Ho. destruct choose_tagged as (k & s & Hs & Hw & Hto & Hc). exists (Nat.max k (S (size b))). intros n m fs Hn Hm.
    unfold build, build_with. destruct (tagged b (o_tag o)) as [|[pl c] qs]; [by rewrite (Hc n) by lia|].
    destruct Hc as (i & (Hfc & Hz & Hsp & par & Hst) & _ & Hc). cbn [fst snd] in *. rewrite (Hc n) by lia. rewrite Ho. cbn [String.eqb].
    unfold page. destruct (String.eqb_spec (o_text o) ""); [done|]. simpl e_similar. simpl e_broken. simpl e_jumps.
    pose proof (tpage_renders (e_similar E) (e_broken E) (e_jumps E) (st_heap s) Hw (w_force W) m c pl i par Hfc Hst Hsp ltac:(lia)) as Hg.
    unfold lacking in Hg. destruct (sec_lacks c); by rewrite Hg.
  Qed.

  (** With the pages written, the search index is what is left to do. *)
  Lemma tagged_write q qs : tagged b (o_tag o) = q :: qs → o_text o = "" → o_out o ≠ "" → w_mkdir W = true → Forall (λ p, w_open W (fst p) = true) (pages_from b q) →
    ∃ k s, stored true (st_heap s) None b 0 ∧ wf (st_heap s) ∧ tags_owned (st_heap s) ∧ ∀ n m fs, k ≤ n → k ≤ m → ∃ fs',
      match snd (upto (e_broken E) b (zip (pages_from b q) (refs_from q))) with
      | None =>
        build (reading D E) W o n m fs = (if o_index o then
          match write_search_index (w_short W) (cstring (e_similar E) (e_broken E) (st_heap s) (e_jumps E)) (st_heap s) (w_open W) "html" 0 "search_index.json" fs' with
          | Ok fs => (fs, Ok "") | Err e => (fs', Err (FIndex e)) | Panic => (fs', Panic) | NoFuel => (fs', NoFuel) end else (fs', Ok "")) ∧
        ∀ f, assoc_get f fs' = put f (assoc_get f fs) (fst (upto (e_broken E) b (zip (pages_from b q) (refs_from q))))
      | Some (name, tag) => ∃ e part, build (reading D E) W o n m fs = (fs', Err (FWrite e)) ∧ refused (site b) tag e ∧
        ∀ f, assoc_get f fs' = put f (assoc_get f fs) (fst (upto (e_broken E) b (zip (pages_from b q) (refs_from q))) ++ [(name, part)])
      end.
  Proof.
    intros Hq Htext Ho Hmk Hok. destruct choose_tagged as (k & s & Hs & Hw & Hto & Hc). rewrite Hq in Hc. destruct Hc as (i & Hi & Hpi & Hc).
    exists (Nat.max k (S (size b))), s. do 3 (split; [done|]). intros n m fs Hn Hm.
    destruct (from_are (e_similar E) (e_broken E) (st_heap s) Hw Hto (w_force W) (cstring (e_similar E) (e_broken E) (st_heap s) (e_jumps E)) b Hf Hs (says_text s) m ltac:(lia) i q Hi Hpi) as (l & Hp & F).
    destruct (BookBuild.written _ _ _ _ _ _ _ (w_open W) (engine_with W (page (reading D E) W o m (st_heap s))) l _ fs F) as (fs' & r & E1 & E2).
    { intros j bytes Hj. unfold engine_with, page. rewrite Htext. simpl String.eqb. cbv iota. simpl e_similar. simpl e_broken. simpl e_jumps. by rewrite Hj. }
    { intros j e Hj. unfold engine_with, page. rewrite Htext. simpl String.eqb. cbv iota. simpl e_similar. simpl e_broken. simpl e_jumps. by rewrite Hj. }
    { rewrite fst_zip; [done|]. destruct q as [pl c]. unfold pages_from, refs_from. cbn [fst snd]. rewrite !app_length, (below_length b c pl). by destruct (pl_own pl). }
    exists fs'. unfold build, build_with. rewrite (Hc n) by lia.
    destruct (String.eqb_spec (o_out o) ""); [done|]. rewrite Hmk.
    assert (extension o = "html") as -> by (unfold extension; by rewrite Htext).
    rewrite (write_section_spec _ _ _ _ _ l) by done. rewrite E1.
    destruct (snd (upto (e_broken E) b (zip (pages_from b q) (refs_from q)))) as [[name tag]|].
    - destruct E2 as (e & -> & Hr & part & E2). by exists e, part.
    - by destruct E2 as [-> E2].
  Qed.

  Lemma tagged_write_text q qs : tagged b (o_tag o) = q :: qs → o_text o ≠ "" → o_out o ≠ "" → w_mkdir W = true →
    Forall (λ q : string * string * list string, w_open W (fst (fst q)) = true) (plain_from (o_text o) q) → o_index o = false →
    ∃ k, ∀ n m fs, k ≤ n → k ≤ m → ∃ fs',
      match snd (BookPlain.written (plain_from (o_text o) q)) with
      | None => build (reading D E) W o n m fs = (fs', Ok "") ∧
          ∀ f, assoc_get f fs' = put f (assoc_get f fs) (fst (BookPlain.written (plain_from (o_text o) q)))
      | Some name => build (reading D E) W o n m fs = (fs', Err (FWrite (EPlugin "rendering"))) ∧ ∃ part,
          ∀ f, assoc_get f fs' = put f (assoc_get f fs) (fst (BookPlain.written (plain_from (o_text o) q)) ++ [(name, part)])
      end.
  Proof.
    intros Hq Htext Ho Hmk Hok Hix. destruct choose_tagged as (k & s & Hs & Hw & Hto & Hc). rewrite Hq in Hc. destruct Hc as (i & Hi & Hpi & Hc).
    exists (Nat.max k (S (size b))). intros n m fs Hn Hm.
    destruct (pages_from_are (st_heap s) Hw b i q Hi Hpi) as (l & Hp & F).
    assert (plain_from (o_text o) q = map (as_plain (o_text o)) ((if pl_own (fst q) then [q] else []) ++ placed_below (fst q) (snd q))) as Epages.
    { unfold plain_from. rewrite map_app, <- (plain_placed _ (snd q) (fst q)). by destruct (pl_own (fst q)). }
    assert (Forall2 (λ i q, file_of (st_heap s) (o_text o) i = fst (fst q) ∧ lacking (snd q) (page (reading D E) W o m (st_heap s) i) (snd (fst q))) l (plain_from (o_text o) q)) as F'.
    { rewrite Epages. clear Hp. apply Forall2_fmap_r. eapply Forall2_impl; [exact F|]. intros j [pl c] (Hfc & Hz & Hsp & par & Hst). cbn [fst snd as_plain] in *. split.
      - destruct (stored_at _ _ _ _ _ Hst) as (x & Hx & Ha & _). unfold file_of. rewrite Hx. unfold page_file, plain_file. by rewrite (primary_name _ _ _ _ _ Ha).
      - unfold page. destruct (String.eqb_spec (o_text o) ""); [done|]. simpl e_similar. simpl e_broken. simpl e_jumps.
        exact (tpage_renders (e_similar E) (e_broken E) (e_jumps E) (st_heap s) Hw (w_force W) m c pl j par Hfc Hst Hsp ltac:(lia)). }
    destruct (writes_plain (st_heap s) (page (reading D E) W o m (st_heap s)) W (o_text o) l _ fs F' Hok) as (fs' & r & E1 & E2).
    exists fs'. unfold build, build_with. rewrite (Hc n) by lia.
    destruct (String.eqb_spec (o_out o) ""); [done|]. rewrite Hmk, Hix.
    assert (extension o = o_text o) as -> by (unfold extension; by destruct (String.eqb_spec (o_text o) "")).
    rewrite (write_section_spec _ _ _ _ _ l) by done. rewrite E1.
    destruct (snd (BookPlain.written (plain_from (o_text o) q))) as [name|].
    - destruct E2 as (-> & part & E2). eauto.
    - by destruct E2 as [-> E2].
  Qed.
End build.
