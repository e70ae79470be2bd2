(** Building a book (Book.v): from the text of the document to the pages. *)
From Coq Require Import Ascii String.
From stdpp Require Import base tactics relations strings list.
From Verif Require Import GoBase Ast Grammar Content ContentSpec ContentProofs Section StrProofs TreeSpec TreeProofs TagProofs QueryProofs
  Render NavProofs RenderSpec WriterProofs Peg Evaluate EvalProofs EvalFrame EvalInv EvalSpec EvalTheory EvalMore BaseSpec BaseRuns Collect CollectProofs LoadProofs Html Json Command ParseSpec WrittenMore
  Book BookLaid BookEval BookStore BookSections BookCollect BookPlaces BookHtml.
Local Open Scope string_scope. Local Open Scope list_scope.

(** ** Loading *)

Lemma load_top E ord b t path mt nd sg : base_env E → sec_fine b = true → e_fs E path = Some (mt, inl nd) →
  Esec E sg false path b t → erase nd = NSeq (map NPara t) →
  ∃ k s x, (∀ n, k ≤ n → load E ord n path [FBase] (St [] []) = (s, Ok 0)) ∧ stored true (st_heap s) None b 0 ∧ length (st_heap s) = size b ∧
    st_heap s !! 0 = Some x ∧ s_prevent x = sg ∧ s_parent x = None.
Proof.
  intros HE Hf Hfs Hlaid He. set (y := mk path CEmpty loc0 tag0 [] None [] no_flags false loc0 loc0). set (s0 := St [y] []).
  assert (wf (st_heap s0)) as Hw0.
  { constructor; intros [|j] x; simpl; intros; simplify_eq/=; try done; try (by apply elem_of_nil in H0). constructor. }
  assert (above (st_heap s0) None false) as Hc0.
  { split; [done|]. by intros (q & ? & _). }
  assert (doing 0 None CEmpty [] [] no_flags false y) as Hd0.
  { by exists path, loc0, tag0, loc0, loc0, loc0. }
  assert (file_path (st_heap s0) 0 = Some path) as Hp0.
  { unfold file_path. simpl. unfold file_path_F at 1. simpl. destruct (String.eqb_spec path "") as [->|]; done. }
  destruct (Hlaid 0 None s0 y nd Hw0 Hc0 ltac:(by intros ? ? ?) Hp0 eq_refl Hd0 eq_refl He) as (s1 & cs & x1 & Y & Hl1 & Hx1 & Hpv & Hst).
  destruct (proj1 (yields_complete E 0) _ _ _ _ Y Hw0) as [k Hk]; [unfold valid; simpl; lia|].
  set (h2 := upd (st_heap s1) 0 (with_body cs)) in *.
  assert (length h2 = size b) as Hl2 by (unfold h2; by rewrite upd_length).
  destruct (collect_sec ord b Hf (fuel_of h2) h2 0 None 0) as (h3 & k3 & Hcol & Hst3 & Hl3 & _); [unfold fuel_of; lia|done|].
  assert (h2 !! 0 = Some (with_body cs x1)) as Hx2 by (unfold h2; by rewrite (upd_lookup_eq _ _ _ _ Hx1)).
  destruct (stored_at _ _ _ _ _ Hst3) as (x3 & Hx3 & Ha3 & _).
  destruct (proj2 (collect_shape _ _ _ _ _ _ Hcol) 0 _ Hx2) as (ts3 & Hx3'). simpl in Hx3'. rewrite Hx3 in Hx3'. injection Hx3' as Hx3'.
  exists k, (St h3 (assoc_set path (nd, mt) (st_cache s1))), x3. split; [|split; [done|split; [by rewrite <- Hl2|split; [done|split]]]]; [| |by eapply at_parent].
  2:{ rewrite Hx3'. unfold with_body. by destruct (joined cs). }
  intros n Hn. unfold load, load_file, evaluate_file. rewrite Hfs.
  assert (eval E n 0 None nd s0 = (s1, Ok (fold_append None cs))) as Hev by (eapply mle_ok; [by apply eval_mono|apply Hk]).
  unfold Evaluate.mbind at 1. unfold Evaluate.mbind at 1. unfold parse_step. simpl assoc_get. cbv iota.
  unfold Evaluate.mbind at 1. unfold alloc. unfold Evaluate.mbind at 1. unfold evaluate_section.
  assert (mfold (λ _ f, mupd 0 (use_plugin f)) tt [FBase] (St [new_section None path] []) = (s0, Ok tt)) as Hpl by done.
  simpl app. simpl length. unfold Evaluate.mbind at 1. change (st_cache (St [] [])) with (@nil (string * (node * nat))). rewrite Hpl.
  unfold Evaluate.mbind at 1. rewrite Hev. rewrite fold_append_joined.
  assert ((match joined cs with Some c => mupd 0 (λ s, set_body s c) | None => mret tt end) s1 = (St h2 (st_cache s1), Ok tt)) as ->.
  { unfold h2, with_body. destruct (joined cs); [done|].
    assert (upd (st_heap s1) 0 (λ x0, x0) = st_heap s1) as ->; [|by destruct s1].
    apply list_eq. intros j. rewrite upd_lookup. destruct (decide (0 = j)) as [<-|]; [|done]. by destruct (st_heap s1 !! 0). }
  unfold run_stages. simpl st_heap. rewrite Hcol. done.
Qed.
Lemma load_book E ord b t path mt nd : base_env E → sec_fine b = true → e_fs E path = Some (mt, inl nd) →
  laid (reads E) path b t → erase nd = NSeq (map NPara t) →
  ∃ k s, (∀ n, k ≤ n → load E ord n path [FBase] (St [] []) = (s, Ok 0)) ∧ stored true (st_heap s) None b 0 ∧ length (st_heap s) = size b.
Proof.
  intros HE Hf Hfs HL He. destruct (eval_sec E HE false path b t HL Hf) as [sg HEs].
  destruct (load_top E ord b t path mt nd sg HE Hf Hfs HEs He) as (k & s & x & H1 & H2 & H3 & _). eauto.
Qed.

(** ** Pages *)

Section pages.
  Context (similar : string → string → bool) (broken : bool) (h : heap) (W : wf h) (O : tags_owned h) (force : nat → option content).
  Context (str : content → outcome error string).
  Context (top : sec) (Hfine : sec_fine top = true) (Htop : stored true h None top 0).
  Context (Hstr : ∀ j l c, forallb plain_span l = true → line_is j l c → str c = Ok (text l)).
  Context (n : nat).

  (** The section [i] is the page [p], whose references are [tags]. *)
  Definition page_is (i : nat) (q : string * string * list string) : Prop :=
    let '(p, tags) := q in file_of h "html" i = fst p ∧ gives (site top) broken tags (html_page similar broken h force str n i) (snd p).

  Definition zips_below (pl : place) (b : sec) : list (string * string * list string) := zip (pages_below (site top) pl b) (refs_below b).
  Lemma pages_below_eq pl b : pages_below (site top) pl b = concat (mapi (λ k c, (if is_split b then [(file_name c, page_of (site top) (sub_place pl b k c) c)] else []) ++
    pages_below (site top) (sub_place pl b k c) c) 1 (subs_of b)).
  Proof. by destruct b. Qed.
  Lemma refs_below_eq b : refs_below b = flat_map (λ c, (if is_split b then [page_refs c] else []) ++ refs_below c) (subs_of b).
  Proof. by destruct b. Qed.
  Lemma below_length b : ∀ pl, length (pages_below (site top) pl b) = length (refs_below b).
  Proof.
    induction b as [title tags split omit body subs IH] using sec_ind'. intros pl. set (b := Sec title tags split omit body subs) in *.
    rewrite pages_below_eq, refs_below_eq. change (subs_of b) with subs. clearbody b. generalize 1.
    induction IH as [|c l Hc _ IHl]; intros k; [done|]. simpl. rewrite !app_length, Hc, IHl. by destruct (is_split b).
  Qed.
  Lemma zips_eq pl b : zips_below pl b = concat (mapi (λ k c, (if is_split b then [((file_name c, page_of (site top) (sub_place pl b k c) c), page_refs c)] else []) ++
    zips_below (sub_place pl b k c) c) 1 (subs_of b)).
  Proof.
    unfold zips_below. rewrite pages_below_eq, refs_below_eq. generalize 1. induction (subs_of b) as [|c l IH]; intros k; [done|]. simpl.
    rewrite zip_with_app; [|by rewrite !app_length, below_length; destruct (is_split b)]. rewrite IH. f_equal.
    rewrite zip_with_app; [|by destruct (is_split b)]. f_equal. by destruct (is_split b).
  Qed.

  Lemma file_of_sec {r} pl b i par : stored true h par b i → spot_in h r pl b i → file_of h "html" i = file_name b.
  Proof.
    intros Hs _. destruct (stored_at _ _ _ _ _ Hs) as (x & Hx & Ha & _). unfold file_of. rewrite Hx, (primary_name _ _ _ _ _ Ha). done.
  Qed.

  Lemma pages_are b : sec_fine b = true → ∀ pl i par, stored true h par b i → spot h pl b i → size b < n →
    Forall2 page_is (List.filter (page_b h) (seq (S i) (sizes (subs_of b)))) (zips_below pl b).
  Proof.
    induction b as [title tags split omit body subs IH] using sec_ind'. intros Hf pl i par Hs Hsp Hn.
    set (b := Sec title tags split omit body subs) in *.
    destruct (stored_at _ _ _ _ _ Hs) as (x & Hx & Ha & Hl). pose proof (at_children _ _ _ _ _ Ha) as Hch. simpl in Hch, Hl.
    assert (forallb sec_fine subs = true) as Hsubs by (destruct (subs_fine b Hf) as [? _]; done).
    assert (size b = S (sizes subs)) as Hbz by done. rewrite zips_eq. change (subs_of b) with subs. clearbody b.
    assert (∀ k j, (∀ m q, kids j subs !! m = Some q → s_children x !! (k + m) = Some q) → stored_list (stored true h (Some i)) subs j → sizes subs < n →
      Forall2 page_is (List.filter (page_b h) (seq j (sizes subs)))
        (concat (mapi (λ k c, (if is_split b then [((file_name c, page_of (site top) (sub_place pl b k c) c), page_refs c)] else []) ++
           zips_below (sub_place pl b k c) c) (S k) subs))) as Hgo.
    { clear Hl Hch Hbz Hn. induction IH as [|c l Hc _ IHl]; intros k j Hk Hst Hn; [constructor|].
      destruct Hst as [Hs1 Hs2]. assert (sec_fine c = true ∧ forallb sec_fine l = true) as [Hf1 Hf2] by by apply andb_true_iff.
      assert (s_children x !! k = Some j) as Hj by (rewrite <- (Hk 0 j eq_refl); f_equal; lia).
      assert (spot h (sub_place pl b (S k) c) c j) as Hspc by by eapply spot_sub. simpl in Hn.
      simpl sum_list_with. rewrite seq_app, List.filter_app. simpl. apply Forall2_app.
      - rewrite size_eq. rewrite <- cons_seq. simpl. destruct (stored_at _ _ _ _ _ Hs1) as (z & Hz & Haz & _).
        assert (page_b h j = is_split b) as ->.
        { unfold page_b. rewrite Hz, (at_parent _ _ _ _ _ Haz), Hx. by eapply at_split. }
        assert (Forall2 page_is (List.filter (page_b h) (seq (S j) (sizes (subs_of c)))) (zips_below (sub_place pl b (S k) c) c)) as Hb.
        { apply (Hc Hf1 _ j (Some i)); [done|done|lia]. }
        destruct (is_split b); [|done]. simpl. constructor; [|done]. split; [by eapply file_of_sec|]. simpl.
        eapply page_renders; try done; lia.
      - apply (IHl Hf2); [|done|lia].
        intros m q Hm. replace (S k + m) with (k + S m) by lia. by apply Hk. }
    apply (Hgo 0 (S i)); [|done|lia]. intros m q Hm. by rewrite Hch.
  Qed.

  Lemma all_pages_are : size top < n → ∃ l, pages_of h 0 l ∧ Forall2 page_is l (zip (pages top) (pages_refs top)).
  Proof.
    intros Hn. pose proof (spot_top h W top Htop) as Hsp.
    destruct (sec_entries h W top Hfine (top_place top) 0 None Hsp Htop) as (l & L & _ & ->).
    eexists. split; [eexists; split; [exact L|reflexivity]|]. rewrite size_eq, <- cons_seq. simpl.
    destruct (stored_at _ _ _ _ _ Htop) as (x & Hx & Ha & _). assert (page_b h 0 = true) as ->.
    { unfold page_b. by rewrite Hx, (at_parent _ _ _ _ _ Ha). }
    constructor; [|by eapply pages_are]. split; [by eapply file_of_sec|].
    exact (page_renders similar broken h W O force str top Hfine Htop n top (top_place top) 0 None Hstr Hfine Htop Hsp Hn).
  Qed.

  (** ** Writing *)

  (** The first page with a reference that cannot be resolved, and the pages before. *)
  Fixpoint upto (qs : list (string * string * list string)) : list (string * string) * option (string * string) :=
    match qs with
    | [] => ([], None)
    | (p, tags) :: qs =>
        match bad (site top) broken tags with
        | tag :: _ => ([], Some (fst p, tag))
        | [] => let '(l, r) := upto qs in (p :: l, r)
        end
    end.

  Lemma written ok eng l qs fs : Forall2 page_is l qs →
    (∀ i bytes, html_page similar broken h force str n i = Ok bytes → eng i = (bytes, None)) →
    (∀ i e, html_page similar broken h force str n i = Err (RTag e) → snd (eng i) = Some e) →
    Forall (λ p, ok (fst p) = true) (map fst qs) →
    ∃ fs' r, write_pages h ok "html" eng l fs = (fs', r) ∧
      match snd (upto qs) with
      | None => r = None ∧ ∀ f, assoc_get f fs' = put f (assoc_get f fs) (fst (upto qs))
      | Some (name, tag) => ∃ e, r = Some e ∧ refused (site top) tag e ∧ ∃ part,
          ∀ f, assoc_get f fs' = put f (assoc_get f fs) (fst (upto qs) ++ [(name, part)])
      end.
  Proof.
    intros F Heng Herr. revert fs. induction F as [|i [p tags] l qs [H1 H2] F IH]; intros fs Hok; [by exists fs, None|].
    inversion Hok as [|? ? Hp Hok']; subst. simpl in Hp. cbn [upto]. simpl. rewrite H1, Hp. unfold gives in H2.
    destruct (bad (site top) broken tags) as [|tag bads].
    - rewrite (Heng _ _ H2). destruct (IH (assoc_set (fst p) (snd p) fs) Hok') as (fs' & r & E1 & E2).
      exists fs', r. split; [exact E1|]. destruct (upto qs) as [ps [[name tag]|]]; simpl in *.
      + destruct E2 as (e & -> & Hr & part & E2). exists e. split; [done|]. split; [done|]. exists part. intros f. rewrite E2. unfold put. simpl. by rewrite assoc_get_set.
      + destruct E2 as [-> E2]. split; [done|]. intros f. rewrite E2. unfold put. simpl. by rewrite assoc_get_set.
    - destruct H2 as (e & H2 & Hr). specialize (Herr _ _ H2). destruct (eng i) as [bytes r] eqn:Ee. simpl in Herr. subst r.
      exists (assoc_set (fst p) bytes fs), (Some e). split; [done|]. exists e. split; [done|]. split; [done|]. exists bytes.
      intros f. unfold put. simpl. by rewrite assoc_get_set.
  Qed.
End pages.

(** ** Building *)

Lemma parsed_tree (t : tree) d : document t d → valid_utf8 d →
  ∃ nd, (∀ path, parse_file path d = inl nd) ∧ erase nd = NSeq (map NPara t).
Proof.
  intros Hd Hv. destruct (document_parses _ _ Hd Hv) as (ps & Hp & He). exists (NSeq (map NPara ps)). split.
  - intros path. unfold parse_file. by rewrite Hp.
  - rewrite <- He. simpl. f_equal. rewrite !map_map. done.
Qed.
Lemma disk_reads D E path t : on_disk D path t → reads (reading D E) path t.
Proof.
  intros (mt & d & HD & Hd & Hv). destruct (parsed_tree t d Hd Hv) as (nd & Hnd & He). exists mt, nd. split; [|done]. simpl. rewrite HD. simpl. by rewrite Hnd.
Qed.

Lemma choose_book E W o D b t : base_env E → sec_fine b = true → on_disk D (o_in o) t → laid (on_disk D) (o_in o) b t → o_tag o = "" → o_path o = "" →
  ∃ k s, (∀ n, k ≤ n → choose (reading D E) W o n = (s, Ok (0, 0))) ∧ stored true (st_heap s) None b 0 ∧ length (st_heap s) = size b.
Proof.
  intros HE Hf HD HL Ht Hp. destruct (disk_reads D E _ _ HD) as (mt & nd & Hfs & He).
  destruct (load_book (reading D E) (w_order W) b t (o_in o) mt nd) as (k & s & Hl & Hs & Hlen); [exact HE|done|done| |done|].
  { eapply laid_mono; [|exact HL]. apply disk_reads. }
  exists k, s. split; [|done]. intros n Hn. unfold choose. rewrite (Hl n Hn), Ht, Hp. done.
Qed.

(** ** References, page by page *)

Lemma page_refs_sec b : ∀ tag, tag ∈ page_refs b → tag ∈ sec_refs b.
Proof.
  induction b as [title tags split omit body subs IH] using sec_ind'. simpl. intros tag [Ht|Ht]%elem_of_app; apply elem_of_app; [by left|right].
  destruct (cut_pages split); [by apply elem_of_nil in Ht|]. revert Ht. induction IH as [|c l Hc _ IHl]; simpl; [done|]. intros [Ht|Ht]%elem_of_app; apply elem_of_app; auto.
Qed.
Lemma refs_below_sec b : ∀ tags tag, tags ∈ refs_below b → tag ∈ tags → tag ∈ sec_refs b.
Proof.
  induction b as [title tags split omit body subs IH] using sec_ind'. intros ts tag Ht Htag. simpl in *. apply elem_of_app. right.
  revert Ht. induction IH as [|c l Hc _ IHl]; simpl; [by intros ?%elem_of_nil|]. intros [[Ht|Ht]%elem_of_app|Ht]%elem_of_app; apply elem_of_app; auto.
  - left. destruct (cut_pages split); [|by apply elem_of_nil in Ht]. apply elem_of_list_singleton in Ht as ->. by apply page_refs_sec.
  - left. by eapply Hc.
Qed.
Lemma refers_pages b broken : refers b broken (sec_refs b) → Forall (refers b broken) (pages_refs b).
Proof.
  intros Hr. constructor; [intros tag Ht; by apply Hr, page_refs_sec|]. apply Forall_forall. intros ts Hts tag Ht. apply Hr. by eapply refs_below_sec.
Qed.
Lemma upto_all top broken qs : Forall (refers top broken) (map snd qs) → upto broken top qs = (map fst qs, None).
Proof.
  induction qs as [|[p tags] qs IH]; intros H; [done|]. inversion H; subst. simpl. rewrite refers_bad by done. by rewrite IH.
Qed.
Lemma pages_zip b : map fst (zip (pages b) (pages_refs b)) = pages b ∧ map snd (zip (pages b) (pages_refs b)) = pages_refs b.
Proof.
  assert (length (pages b) = length (pages_refs b)) as Hl by (simpl; by rewrite below_length).
  split; [apply fst_zip|apply snd_zip]; lia.
Qed.
Lemma fine_refers b broken : book_fine b → refers b broken (sec_refs b).
Proof. intros [_ Hr] tag Ht. right. by apply Hr. Qed.

Section build.
  Context (E : env) (HE : base_env E) (W : world) (D : disk) (o : options) (b : sec) (t : tree).
  Context (Hf : sec_fine b = true) (HD : on_disk D (o_in o) t) (HL : laid (on_disk D) (o_in o) b t).
  Context (Htag : o_tag o = "") (Hpath : o_path o = "") (Htext : o_text o = "").

  Lemma build_print : o_out o = "" → ∃ k, ∀ n m fs, k ≤ n → k ≤ m →
    match bad (site b) (e_broken E) (page_refs b) with
    | [] => build (reading D E) W o n m fs = (fs, Ok (first_page b))
    | tag :: _ => ∃ e, build (reading D E) W o n m fs = (fs, Err (FRender (RTag e))) ∧ refused (site b) tag e
    end.
  Proof.
    intros Ho. destruct (choose_book E W o D b t HE Hf HD HL Htag Hpath) as (k & s & Hc & Hs & Hl).
    exists (Nat.max k (S (size b))). intros n m fs Hn Hm. unfold build, build_with. rewrite (Hc n) by lia. rewrite Ho. simpl String.eqb. cbv iota.
    unfold page. rewrite Htext. simpl String.eqb. cbv iota. simpl e_similar. simpl e_broken. simpl e_jumps.
    assert (wf (st_heap s)) as Hw by by eapply stored_wf.
    assert (tags_owned (st_heap s)) as Hto by by eapply stored_owned.
    assert (gives (site b) (e_broken E) (page_refs b) (html_page (e_similar E) (e_broken E) (st_heap s) (w_force W)
      (cstring (e_similar E) (e_broken E) (st_heap s) (e_jumps E)) m 0) (page_of (site b) (top_place b) b)) as Hg.
    { eapply page_renders; [done|done|done|done| |done|done|by apply spot_top|lia].
      intros j l c Hp Hlc. by destruct (title_says (e_similar E) (e_broken E) (st_heap s) (e_jumps E) j l c Hp Hlc) as [_ ?]. }
    unfold gives in Hg. destruct (bad (site b) (e_broken E) (page_refs b)) as [|tag bads]; [by rewrite Hg|].
    destruct Hg as (e & Hg & Hr). rewrite Hg. by exists e.
  Qed.

  Lemma build_prints : refers b (e_broken E) (page_refs b) → o_out o = "" →
    ∃ k, ∀ n m fs, k ≤ n → k ≤ m → build (reading D E) W o n m fs = (fs, Ok (first_page b)).
  Proof. intros Hr Ho. destruct (build_print Ho) as [k Hk]. exists k. rewrite refers_bad in Hk by done. done. Qed.

  (** With the pages written, the search index is what is left to do. *)
  Lemma build_write : o_out o ≠ "" → w_mkdir W = true → Forall (λ p, w_open W (fst p) = true) (pages b) →
    ∃ k s, stored true (st_heap s) None b 0 ∧ length (st_heap s) = size b ∧ ∀ n m fs, k ≤ n → k ≤ m → ∃ fs',
      match snd (upto (e_broken E) b (zip (pages b) (pages_refs b))) with
      | None =>
        build (reading D E) W o n m fs = (if o_index o then
          match write_search_index (w_short W) (cstring (e_similar E) (e_broken E) (st_heap s) (e_jumps E)) (st_heap s) (w_open W) "html" 0 "search_index.json" fs' with
          | Ok fs => (fs, Ok "") | Err e => (fs', Err (FIndex e)) | Panic => (fs', Panic) | NoFuel => (fs', NoFuel) end else (fs', Ok "")) ∧
        ∀ f, assoc_get f fs' = put f (assoc_get f fs) (fst (upto (e_broken E) b (zip (pages b) (pages_refs b))))
      | Some (name, tag) => ∃ e part, build (reading D E) W o n m fs = (fs', Err (FWrite e)) ∧ refused (site b) tag e ∧
        ∀ f, assoc_get f fs' = put f (assoc_get f fs) (fst (upto (e_broken E) b (zip (pages b) (pages_refs b))) ++ [(name, part)])
      end.
  Proof.
    intros Ho Hmk Hok. destruct (choose_book E W o D b t HE Hf HD HL Htag Hpath) as (k & s & Hc & Hs & Hl).
    assert (wf (st_heap s)) as Hw by by eapply stored_wf.
    assert (tags_owned (st_heap s)) as Hto by by eapply stored_owned.
    exists (Nat.max k (S (size b))), s. split; [done|]. split; [done|]. intros n m fs Hn Hm.
    destruct (all_pages_are (e_similar E) (e_broken E) (st_heap s) Hw Hto (w_force W) (cstring (e_similar E) (e_broken E) (st_heap s) (e_jumps E)) b Hf Hs) with (n := m)
      as (l & Hp & F); [|lia|].
    { intros j l c Hp Hlc. by destruct (title_says (e_similar E) (e_broken E) (st_heap s) (e_jumps E) j l c Hp Hlc) as [_ ?]. }
    destruct (written _ _ _ _ _ _ _ (w_open W) (engine_with W (page (reading D E) W o m (st_heap s))) l _ fs F) as (fs' & r & E1 & E2).
    { intros i bytes Hi. unfold engine_with, page. rewrite Htext. simpl String.eqb. cbv iota. simpl e_similar. simpl e_broken. simpl e_jumps. by rewrite Hi. }
    { intros i e Hi. unfold engine_with, page. rewrite Htext. simpl String.eqb. cbv iota. simpl e_similar. simpl e_broken. simpl e_jumps. by rewrite Hi. }
    { by rewrite (proj1 (pages_zip b)). }
    exists fs'. unfold build, build_with. rewrite (Hc n) by lia.
    destruct (String.eqb_spec (o_out o) ""); [done|]. rewrite Hmk.
    assert (extension o = "html") as -> by (unfold extension; by rewrite Htext).
    rewrite (write_section_spec _ _ _ _ _ l) by done. rewrite E1.
    destruct (snd (upto (e_broken E) b (zip (pages b) (pages_refs b)))) as [[name tag]|].
    - destruct E2 as (e & -> & Hr & part & E2). by exists e, part.
    - by destruct E2 as [-> E2].
  Qed.

  Lemma build_writes : refers b (e_broken E) (sec_refs b) → o_out o ≠ "" → w_mkdir W = true → Forall (λ p, w_open W (fst p) = true) (pages b) →
    ∃ k s, stored true (st_heap s) None b 0 ∧ length (st_heap s) = size b ∧ ∀ n m fs, k ≤ n → k ≤ m → ∃ fs',
      build (reading D E) W o n m fs = (if o_index o then
        match write_search_index (w_short W) (cstring (e_similar E) (e_broken E) (st_heap s) (e_jumps E)) (st_heap s) (w_open W) "html" 0 "search_index.json" fs' with
        | Ok fs => (fs, Ok "") | Err e => (fs', Err (FIndex e)) | Panic => (fs', Panic) | NoFuel => (fs', NoFuel) end else (fs', Ok "")) ∧
      ∀ f, assoc_get f fs' = put f (assoc_get f fs) (pages b).
  Proof.
    intros Hr Ho Hmk Hok. destruct (build_write Ho Hmk Hok) as (k & s & Hs & Hl & Hk). exists k, s. do 2 (split; [done|]).
    rewrite upto_all in Hk by (rewrite (proj2 (pages_zip b)); by apply refers_pages). rewrite (proj1 (pages_zip b)) in Hk. done.
  Qed.

  Lemma build_files : refers b (e_broken E) (sec_refs b) → o_out o ≠ "" → w_mkdir W = true → o_index o = false → Forall (λ p, w_open W (fst p) = true) (pages b) →
    ∃ k, ∀ n m fs, k ≤ n → k ≤ m → ∃ fs', build (reading D E) W o n m fs = (fs', Ok "") ∧ ∀ f, assoc_get f fs' = put f (assoc_get f fs) (pages b).
  Proof.
    intros Hr Ho Hmk Hix Hok. destruct (build_writes Hr Ho Hmk Hok) as (k & s & _ & _ & Hk). exists k. intros n m fs Hn Hm.
    destruct (Hk n m fs Hn Hm) as (fs' & E1 & E2). exists fs'. rewrite Hix in E1. done.
  Qed.
End build.
