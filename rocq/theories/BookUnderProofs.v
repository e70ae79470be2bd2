(** A section loaded below a book is shown as BookUnder.v says. *)
From Coq Require Import Ascii String Lia.
From stdpp Require Import base tactics relations strings list.
From Verif Require Import GoBase Ast Grammar Content ContentSpec ContentProofs Section StrProofs TreeSpec TreeProofs TagProofs QueryProofs
  Render NavProofs RenderSpec WriterProofs Peg Evaluate EvalProofs EvalFrame EvalInv EvalSpec EvalTheory EvalMore BaseSpec BaseRuns CacheFree Collect LoadProofs Html TextRender Json Command ParseSpec WrittenMore
  MembersProofs Book BookLaid BookEval BookStore BookSections BookCollect BookPlaces BookHtml BookBuild BookPlain BookPlainProofs BookChoose BookChooseProofs BookUnder.
Local Open Scope string_scope. Local Open Scope list_scope.

(** ** The book with it *)

Lemma mapi_app {A B} (f : nat → A → B) k l l' : mapi f k (l ++ l') = mapi f k l ++ mapi f (k + length l) l'.
Proof.
  revert k. induction l as [|x l IH]; intros k; simpl; [by rewrite Nat.add_0_r|]. rewrite IH. by replace (k + S (length l)) with (S k + length l) by lia.
Qed.
Lemma mapi_ext {A B} (f g : nat → A → B) k l : (∀ k x, f k x = g k x) → mapi f k l = mapi g k l.
Proof. intros H. revert k. induction l as [|x l IH]; intros k; simpl; [done|]. by rewrite H, IH. Qed.

Lemma with_last_site b c : site (with_last b c) = site b ++ entries (last_place b c) c.
Proof.
  destruct b as [title tags split omit body subs]. unfold site. set (b := Sec title tags split omit body subs). rewrite (entries_eq _ (with_last b c)), (entries_eq _ b).
  change (with_last b c) with (Sec title tags split omit body (subs ++ [c])). change (subs_of (Sec title tags split omit body (subs ++ [c]))) with (subs ++ [c]).
  change (subs_of b) with subs. rewrite mapi_app, concat_app, <- !(assoc_L (++)). f_equal. f_equal.
  cbn [mapi concat]. rewrite app_nil_r. done.
Qed.
Lemma with_last_size b c : size (with_last b c) = size b + size c.
Proof. destruct b. simpl. rewrite sum_list_with_app. simpl. lia. Qed.

(** ** Loading *)

Lemma load_under E ord c t path s p : base_env E → sec_fine c = true → path ≠ "" → reads E path t → lays (reads E) p path c t →
  TreeSpec.wf (st_heap s) → above (st_heap s) (Some 0) p → all_good (λ p nd t, e_fs E p = Some (t, inl nd)) (st_cache s) → 0 < length (st_heap s) →
  ∃ k s', (∀ n, k ≤ n → load_in E ord n (Some 0) path [FBase] s = (s', Ok (length (st_heap s)))) ∧
    stored true (st_heap s') (Some 0) c (length (st_heap s)) ∧ (∀ j, j < length (st_heap s) → st_heap s' !! j = st_heap s !! j).
Proof.
  intros HE Hf Hp (mt & nd & Hfs & He) HL Hw Hc Hg H0.
  destruct (eval_sec E HE p path c t HL Hf) as [sg HEs].
  destruct (eval_child E 0 path sg p path c t s nd HEs Hw Hc Hg H0) as (n & s4 & Hev & Hl4 & Ho4 & Hst); [by destruct (String.eqb_spec path "")|done|].
  set (k := length (st_heap s)) in *.
  set (s5 := St (st_heap s4) (assoc_set path (nd, mt) (st_cache s4))).
  assert (evaluate_file E (eval E n) (Some 0) path [FBase] s = (s5, Ok k)) as Hevf.
  { unfold evaluate_file. rewrite Hfs. unfold Evaluate.mbind at 1.
    rewrite (parse_good E (λ p nd t, e_fs E p = Some (t, inl nd))) with (s := s); [|..|done|done].
    - rewrite Hev. done.
    - intros pa nd' t' mt' x' H1 H2 _. rewrite H1 in H2. by injection H2 as _ ->. }
  destruct (collect_sec ord c Hf (fuel_of (st_heap s4)) (st_heap s4) 0 (Some 0) k) as (h' & k' & Hcol & Hst' & Hl' & Ho'); [unfold fuel_of; lia|done|].
  exists n, (St h' (st_cache s5)). split; [|split; [done|]].
  - intros m Hm. unfold load_in. unfold Evaluate.mbind.
    rewrite (mle_ok _ (evaluate_file E (eval E m) (Some 0) path [FBase]) _ _ _ (mle_evaluate_file E (eval E n) (eval E m) ltac:(by apply eval_mono) _ _ _) Hevf).
    unfold run_stages. cbn [st_heap s5]. rewrite Hcol. done.
  - intros j Hj. simpl. rewrite Ho' by lia. by apply Ho4.
Qed.

(** ** Where it is *)

Section under.
  Context (h : heap) (W : TreeSpec.wf h) (O : tags_owned h) (b c : sec) (Hb : sec_fine b = true) (Hc : sec_fine c = true).
  Context (Htop : stored true h None b 0) (Hsec : stored true h (Some 0) c (size b)).
  Notation k := (size b).
  Notation top := (with_last b c).

  Lemma self_index_missing l i n : i ∉ l → self_index l i n = n + length l.
  Proof.
    revert n. induction l as [|x l IH]; intros n Hi; simpl; [lia|]. apply not_elem_of_cons in Hi as [Hne Hi].
    destruct (Nat.eqb_spec x i); [done|]. rewrite IH by done. lia.
  Qed.

  Lemma spot_last : spot_in h k (last_place b c) c k.
  Proof.
    destruct (spot_top h W b Htop) as [_ Num Dep (o & os & Ho & Ro & Hos & Hf & Hoi & Hown) _ Lev].
    destruct (stored_at _ _ _ _ _ Htop) as (x & Hx & Ha & _). destruct (stored_at _ _ _ _ _ Hsec) as (y & Hy & Hay & _).
    pose proof (at_parent _ _ _ _ _ Hay) as Hp. assert (valid h k) as V by by eapply lookup_lt_Some. pose proof (size_pos b) as Hk.
    pose proof (at_split _ _ _ _ _ Ha) as Hsp. pose proof (at_reset _ _ _ _ _ Ha) as Hre. pose proof (at_children _ _ _ _ _ Ha) as Hch.
    assert (parent_of h 0 k) as HP by by exists y.
    assert (number h k = Some (dotted [S (length (subs_of b))])) as Num'.
    { rewrite number_unfold by done. unfold number_F. rewrite Hy. simpl. rewrite Hp, Num. simpl. rewrite Hx. simpl. rewrite Hch.
      rewrite self_index_missing, kids_length; [done|]. intros Hi%kids_range. rewrite size_eq in Hi. lia. }
    assert (page_depth h k = Some (if is_fresh b then 0 else 1)) as Dep'.
    { rewrite page_depth_unfold by done. unfold page_depth_F. rewrite Hy. simpl. rewrite Hp. simpl. rewrite Hx. simpl. rewrite Hre.
      destruct (is_fresh b); [done|]. rewrite Dep. done. }
    assert (depth h k = Some 1) as Lev'.
    { rewrite depth_unfold by done. unfold depth_F. rewrite Hy. simpl. by rewrite Hp, Lev. }
    unfold last_place, sub_place. destruct (is_split b) eqn:Hs; constructor; try done; simpl.
    - by exists 0.
    - rewrite Dep'. by rewrite split_fresh.
    - exists k, y. split; [exists y; split; [done|]; rewrite Hp; by exists x|]. split; [apply rtc_refl|]. split; [done|]. split; [by eapply file_named|].
      split; [done|]. apply Nat.eqb_refl.
    - by exists 0.
    - exists o, os. split; [done|]. split; [eapply rtc_r; [done|]; split; [done|]; by exists x|]. split; [done|]. split; [done|]. split; [lia|].
      apply Nat.eqb_neq. lia.
  Qed.
  Lemma last_page : page_b h k = pl_own (last_place b c).
  Proof.
    destruct (stored_at _ _ _ _ _ Htop) as (x & Hx & Ha & _). destruct (stored_at _ _ _ _ _ Hsec) as (y & Hy & Hay & _).
    unfold page_b. rewrite Hy, (at_parent _ _ _ _ _ Hay), Hx, (at_split _ _ _ _ _ Ha). unfold last_place, sub_place. by destruct (is_split b).
  Qed.
  Lemma sits_last : sits_in h top k k (last_place b c, c).
  Proof. split; [done|]. split; [rewrite with_last_size; simpl; lia|]. split; [apply spot_last|by eexists]. Qed.

  (** Everything is in sight from there. *)
  Lemma below_ancestors i a : descendant h k i → ancestor h a i → descendant h k a ∨ a = 0.
  Proof.
    destruct (stored_at _ _ _ _ _ Htop) as (x & Hx & Ha & _). destruct (stored_at _ _ _ _ _ Hsec) as (y & Hy & Hay & _).
    intros D. revert i D. refine (rtc_ind_r (λ i, ancestor h a i → descendant h k a ∨ a = 0) k _ _); [intros A|intros i j D Hij IH A].
    - apply rtc_inv_r in A as [->|(p & A & z & Hz & Hp)]; [left; apply rtc_refl|]. right.
      rewrite Hy in Hz. injection Hz as <-. rewrite (at_parent _ _ _ _ _ Hay) in Hp. injection Hp as <-.
      apply rtc_inv_r in A as [->|(q & _ & z & Hz & Hq)]; [done|]. rewrite Hx in Hz. injection Hz as <-. by rewrite (at_parent _ _ _ _ _ Ha) in Hq.
    - apply rtc_inv_r in A as [->|(p & A & z & Hz & Hp)]; [left; by eapply rtc_r|]. apply IH.
      destruct (wf_child_parent _ _ _ W Hij) as (z' & Hz' & Hp'). rewrite Hz in Hz'. injection Hz' as <-. rewrite Hp in Hp'. by injection Hp' as <-.
  Qed.
  Lemma below_sees i m : descendant h k i → ∃ ts, filter_tags h m i = Some ts ∧ QueryProofs.all_tags h i m ts ∧ ts ≡ₚ flat_map (tags_at h m) (seq 0 k ++ seq k (size c)).
  Proof.
    intros D. destruct (stored_at _ _ _ _ _ Hsec) as (y & Hy & Hay & _).
    assert (valid h k) as Vk by by eapply lookup_lt_Some. assert (valid h i) as V by by eapply descendant_valid.
    destruct (filter_tags_all h m i W V) as (ts & E & A). exists ts. split; [done|]. split; [done|]. destruct A as (ids & N & I & P).
    destruct (sec_entries h W b Hb (top_place b) 0 None (spot_top h W b Htop) Htop) as (l0 & L0 & _ & E0).
    destruct (sec_entries h W c Hc (last_place b c) k (Some 0) spot_last Hsec) as (l1 & L1 & _ & E1).
    rewrite P. apply flat_map_perm, NoDup_perm_ids; [done|rewrite <- seq_app; apply NoDup_seq|].
    intros x. rewrite I, elem_of_app, <- E0, <- E1, (listing_elem _ _ _ _ _ L0), (listing_elem _ _ _ _ _ L1), !edge_all_descendant. split.
    - intros (a & A & Dx). destruct (below_ancestors i a D A) as [Da| ->]; [right; by etrans|by left].
    - intros [D0|D1].
      + exists 0. split; [|done]. eapply rtc_l; [|by apply descendant_ancestor]. exists y. split; [done|]. by eapply at_parent.
      + exists k. split; [by apply descendant_ancestor|done].
  Qed.
  Lemma last_entries : Forall2 (tag_is h) (site top) (flat_map (all_tags h) (seq 0 k ++ seq k (size c))).
  Proof.
    destruct (sec_entries h W b Hb (top_place b) 0 None (spot_top h W b Htop) Htop) as (l0 & _ & F0 & ->).
    destruct (sec_entries h W c Hc (last_place b c) k (Some 0) spot_last Hsec) as (l1 & _ & F1 & ->).
    rewrite with_last_site, flat_map_app. by apply Forall2_app.
  Qed.

  Lemma last_resolve similar broken tag e i l : refer (site top) tag = Some e → descendant h k i →
    ∃ t, ref_tag similar broken h i tag false l = Ok (Some t) ∧ tag_is h e t.
  Proof.
    intros Hr Hd. destruct (below_sees i (λ n, String.eqb n tag) Hd) as (ts & Hts & _ & P).
    rewrite tags_at_filter in P. pose proof (filter_tag_is h _ _ tag last_entries) as F'.
    unfold refer in Hr. destruct (List.filter (λ e, String.eqb (en_tag e) tag) (site top)) as [|e' [|? ?]]; try done.
    injection Hr as ->. inversion F' as [|? t ? ts' Ht F2 E1 E2]; subst. inversion F2; subst. rewrite <- E2 in P.
    apply Permutation_singleton_r in P; subst ts. exists t. split; [|done].
    unfold ref_tag, resolve, find_tag. by rewrite Hts.
  Qed.
  Lemma last_refuse similar tag i l : refer (site top) tag = None → descendant h k i →
    ∃ e, resolve similar h i tag false l = Err e ∧ refused (site top) tag e.
  Proof.
    intros Hr Hd. destruct (stored_at _ _ _ _ _ Hsec) as (y & Hy & _). assert (valid h i) as V by (eapply descendant_valid; [done| |done]; by eapply lookup_lt_Some).
    destruct (below_sees i (λ n, String.eqb n tag) Hd) as (ts & Hts & A & P).
    rewrite tags_at_filter in P. pose proof (Forall2_length _ _ _ (filter_tag_is h _ _ tag last_entries)) as Hlen.
    pose proof (Permutation_length P) as Hlen2. destruct (resolve_spec similar h i tag false l ts W V O A) as (_ & H0 & H2).
    unfold refer, refused in *. destruct (List.filter (λ e, String.eqb (en_tag e) tag) (site top)) as [|e1 [|e2 es]]; try done.
    - simpl in Hlen. destruct ts; [|simpl in Hlen2; lia]. destruct (H0 eq_refl) as (f & sim & -> & _). eexists. split; [done|]. by do 2 eexists.
    - destruct H2 as (f & ds & locs & -> & _ & Pd & Fd); [simpl in Hlen; lia|]. eexists. split; [done|]. do 2 eexists. split; [done|].
      rewrite <- (Forall2_length _ _ _ Fd). rewrite (Permutation_length Pd). lia.
  Qed.
End under.

(** ** Building *)

Section build.
  Context (E : env) (HE : base_env E) (W : world) (D : disk) (b c : sec) (sg : bool) (ts tc : tree) (o : options).
  Context (Hf : sec_fine b = true) (HD : on_disk D (o_in o) (sec_top sg b ts)) (Hcut : is_fresh b = true → is_split b = negb sg)
    (HL : lays_subs (on_disk D) sg (o_in o) (subs_of b) ts).
  Context (Hfc : sec_fine c = true) (HDc : on_disk D (o_path o) tc) (HLc : lays (on_disk D) sg (o_path o) c tc).
  Context (Htag : o_tag o = "") (Hpath : o_path o ≠ "").
  Notation top := (with_last b c).
  Notation q := (last_place b c, c).

  Lemma choose_under : ∃ k s, TreeSpec.wf (st_heap s) ∧ tags_owned (st_heap s) ∧ stored true (st_heap s) None b 0 ∧ stored true (st_heap s) (Some 0) c (size b) ∧
    ∀ n, k ≤ n → choose (reading D E) W o n = (s, Ok (0, size b)).
  Proof.
    destruct (disk_reads D E _ _ HD) as (mt & nd & Hfs & He).
    destruct (load_top (reading D E) (w_order W) b (sec_top sg b ts) (o_in o) mt nd sg) as (k & s & x0 & Hl & Hs & Hlen & Hx0 & Hpv & Hpar); [exact HE|done|done| |done|].
    { apply (eval_top (reading D E) HE); [done| |done]. eapply (lays_mono (on_disk D)); [|exact HL]. apply disk_reads. }
    assert (TreeSpec.wf (st_heap s)) as Hw by by eapply stored_wf. assert (tags_owned (st_heap s)) as Hto by by eapply stored_owned.
    assert (above (st_heap s) (Some 0) sg) as Hab.
    { unfold above. split.
      - intros Hsg. exists 0. split; [done|]. apply (held_step _ _ _ Hw Hx0). left. congruence.
      - intros (q & [= <-] & Hh). apply (held_step _ _ _ Hw Hx0) in Hh as [Hh|(q & Hq & _)]; congruence. }
    assert (all_good (λ p nd t, e_fs (reading D E) p = Some (t, inl nd)) (st_cache s)) as Hg.
    { destruct (resp_load (reading D E) (λ p nd t, e_fs (reading D E) p = Some (t, inl nd)) (λ p mt nd H, H)) with (ord := w_order W) (n := k) (path := o_in o) (fs := [FBase])
        (s := St [] []) (s' := St [] []) as [HB _]; [|by split; [|split; intros ? ? ?]|].
      - intros p nd' t' mt' x H1 H2 _. rewrite H1 in H2. by injection H2 as _ ->.
      - rewrite (Hl k (le_n _)) in HB. by destruct HB as (_ & ? & _). }
    pose proof (size_pos b) as Hpos.
    destruct (load_under (reading D E) (w_order W) c tc (o_path o) s sg) as (k2 & s2 & Hl2 & Hs2 & Ho2); [exact HE|done|done|by apply disk_reads| |done|done|done|lia|].
    { eapply (lays_mono (on_disk D)); [|exact HLc]. apply disk_reads. }
    rewrite Hlen in *. destruct (load_in_wf (reading D E) (w_order W) k2 0 (o_path o) [FBase] s Hw Hto ltac:(lia)) as [Hw2 Hto2].
    rewrite (Hl2 k2 (le_n _)) in Hw2, Hto2. cbn [fst] in Hw2, Hto2.
    exists (Nat.max k k2), s2. split; [done|]. split; [done|]. split; [|split; [done|]].
    - eapply stored_same; [|exact Hs]. intros j Hj. apply Ho2. lia.
    - intros n Hn. unfold choose. rewrite (Hl n) by lia. rewrite Htag. destruct (String.eqb_spec (o_path o) ""); [done|]. simpl. by rewrite (Hl2 n) by lia.
  Qed.

  Lemma under_print : o_text o = "" → o_out o = "" → ∃ k, ∀ n m fs, k ≤ n → k ≤ m →
    match bad (site top) (e_broken E) (page_refs c) with
    | [] => build (reading D E) W o n m fs = (fs, Ok (page_of (site top) (last_place b c) c))
    | tag :: _ => ∃ e, build (reading D E) W o n m fs = (fs, Err (FRender (RTag e))) ∧ refused (site top) tag e
    end.
  Proof.
    intros Htext Ho. destruct choose_under as (k & s & Hw & Hto & Hs & Hsc & Hc). exists (Nat.max k (S (size top))). intros n m fs Hn Hm.
    unfold build, build_with. rewrite (Hc n) by lia. rewrite Ho. simpl String.eqb. cbv iota.
    unfold page. rewrite Htext. simpl String.eqb. cbv iota. simpl e_similar. simpl e_broken. simpl e_jumps.
    pose proof (sits_page_in (e_similar E) (e_broken E) (st_heap s) Hw (w_force W) (cstring (e_similar E) (e_broken E) (st_heap s) (e_jumps E)) top (size b)
      (last_resolve (st_heap s) Hw b c Hf Hfc Hs Hsc (e_similar E) (e_broken E)) (last_refuse (st_heap s) Hw Hto b c Hf Hfc Hs Hsc (e_similar E))
      (says_text E s) m ltac:(lia) (size b) q (sits_last (st_heap s) Hw b c Hfc Hs Hsc)) as Hg.
    unfold gives in Hg. cbn [fst snd] in Hg. destruct (bad (site top) (e_broken E) (page_refs c)) as [|tag bads]; [by rewrite Hg|].
    destruct Hg as (e & Hg & Hr). rewrite Hg. by exists e.
  Qed.

  Lemma under_print_text : o_text o ≠ "" → o_out o = "" → ∃ k, ∀ n m fs, k ≤ n → k ≤ m →
    build (reading D E) W o n m fs = (fs, match sec_lacks c with [] => Ok (page_plain (pl_number (last_place b c)) c) | name :: _ => Err (FRender (RTemplate name)) end).
  Proof.
    intros Htext Ho. destruct choose_under as (k & s & Hw & Hto & Hs & Hsc & Hc). exists (Nat.max k (S (size top))). intros n m fs Hn Hm.
    unfold build, build_with. rewrite (Hc n) by lia. rewrite Ho. cbn [String.eqb].
    unfold page. destruct (String.eqb_spec (o_text o) ""); [done|]. simpl e_similar. simpl e_broken. simpl e_jumps. rewrite with_last_size in Hm.
    pose proof (tpage_renders (e_similar E) (e_broken E) (e_jumps E) (st_heap s) Hw (w_force W) m c (last_place b c) (size b) (Some 0) Hfc Hsc
      (spot_last (st_heap s) Hw b c Hs Hsc) ltac:(lia)) as Hg.
    unfold lacking in Hg. destruct (sec_lacks c); by rewrite Hg.
  Qed.

  Lemma under_write : o_text o = "" → o_out o ≠ "" → w_mkdir W = true → Forall (λ p, w_open W (fst p) = true) (pages_from top q) →
    ∃ k s, TreeSpec.wf (st_heap s) ∧ tags_owned (st_heap s) ∧ stored true (st_heap s) None b 0 ∧ ∀ n m fs, k ≤ n → k ≤ m → ∃ fs',
      match snd (upto (e_broken E) top (zip (pages_from top q) (refs_from q))) with
      | None =>
        build (reading D E) W o n m fs = (if o_index o then
          match write_search_index (w_short W) (cstring (e_similar E) (e_broken E) (st_heap s) (e_jumps E)) (st_heap s) (w_open W) "html" 0 "search_index.json" fs' with
          | Ok fs => (fs, Ok "") | Err e => (fs', Err (FIndex e)) | Panic => (fs', Panic) | NoFuel => (fs', NoFuel) end else (fs', Ok "")) ∧
        ∀ f, assoc_get f fs' = put f (assoc_get f fs) (fst (upto (e_broken E) top (zip (pages_from top q) (refs_from q))))
      | Some (name, tag) => ∃ e part, build (reading D E) W o n m fs = (fs', Err (FWrite e)) ∧ refused (site top) tag e ∧
        ∀ f, assoc_get f fs' = put f (assoc_get f fs) (fst (upto (e_broken E) top (zip (pages_from top q) (refs_from q))) ++ [(name, part)])
      end.
  Proof.
    intros Htext Ho Hmk Hok. destruct choose_under as (k & s & Hw & Hto & Hs & Hsc & Hc).
    exists (Nat.max k (S (size top))), s. do 3 (split; [done|]). intros n m fs Hn Hm.
    destruct (from_are_in (e_similar E) (e_broken E) (st_heap s) Hw (w_force W) (cstring (e_similar E) (e_broken E) (st_heap s) (e_jumps E)) top (size b)
      (last_resolve (st_heap s) Hw b c Hf Hfc Hs Hsc (e_similar E) (e_broken E)) (last_refuse (st_heap s) Hw Hto b c Hf Hfc Hs Hsc (e_similar E))
      (says_text E s) m ltac:(lia) (size b) q (sits_last (st_heap s) Hw b c Hfc Hs Hsc) (last_page (st_heap s) b c Hs Hsc)) as (l & Hp & F).
    destruct (BookBuild.written _ _ _ _ _ _ _ (w_open W) (engine_with W (page (reading D E) W o m (st_heap s))) l _ fs F) as (fs' & r & E1 & E2).
    { intros j bytes Hj. unfold engine_with, page. rewrite Htext. simpl String.eqb. cbv iota. simpl e_similar. simpl e_broken. simpl e_jumps. by rewrite Hj. }
    { intros j e Hj. unfold engine_with, page. rewrite Htext. simpl String.eqb. cbv iota. simpl e_similar. simpl e_broken. simpl e_jumps. by rewrite Hj. }
    { rewrite fst_zip; [done|]. unfold pages_from, refs_from. cbn [fst snd]. rewrite !app_length, (below_length top c). by destruct (pl_own (last_place b c)). }
    exists fs'. unfold build, build_with. rewrite (Hc n) by lia.
    destruct (String.eqb_spec (o_out o) ""); [done|]. rewrite Hmk.
    assert (extension o = "html") as -> by (unfold extension; by rewrite Htext).
    rewrite (write_section_spec _ _ _ _ _ l) by done. rewrite E1.
    destruct (snd (upto (e_broken E) top (zip (pages_from top q) (refs_from q)))) as [[name tag]|].
    - destruct E2 as (e & -> & Hr & part & E2). by exists e, part.
    - by destruct E2 as [-> E2].
  Qed.

  Lemma under_write_text : o_text o ≠ "" → o_out o ≠ "" → w_mkdir W = true →
    Forall (λ q : string * string * list string, w_open W (fst (fst q)) = true) (plain_from (o_text o) q) → o_index o = false →
    ∃ k, ∀ n m fs, k ≤ n → k ≤ m → ∃ fs',
      match snd (BookPlain.written (plain_from (o_text o) q)) with
      | None => build (reading D E) W o n m fs = (fs', Ok "") ∧
          ∀ f, assoc_get f fs' = put f (assoc_get f fs) (fst (BookPlain.written (plain_from (o_text o) q)))
      | Some name => build (reading D E) W o n m fs = (fs', Err (FWrite (EPlugin "rendering"))) ∧ ∃ part,
          ∀ f, assoc_get f fs' = put f (assoc_get f fs) (fst (BookPlain.written (plain_from (o_text o) q)) ++ [(name, part)])
      end.
  Proof.
    intros Htext Ho Hmk Hok Hix. destruct choose_under as (k & s & Hw & Hto & Hs & Hsc & Hc).
    exists (Nat.max k (S (size top))). intros n m fs Hn Hm.
    destruct (pages_from_are (st_heap s) Hw top (size b) q (sits_last (st_heap s) Hw b c Hfc Hs Hsc) (last_page (st_heap s) b c Hs Hsc)) as (l & Hp & F).
    assert (plain_from (o_text o) q = map (as_plain (o_text o)) ((if pl_own (fst q) then [q] else []) ++ placed_below (fst q) (snd q))) as Epages.
    { unfold plain_from. rewrite map_app, <- (plain_placed _ (snd q) (fst q)). by destruct (pl_own (fst q)). }
    assert (Forall2 (λ i q, file_of (st_heap s) (o_text o) i = fst (fst q) ∧ lacking (snd q) (page (reading D E) W o m (st_heap s) i) (snd (fst q))) l (plain_from (o_text o) q)) as F'.
    { rewrite Epages. clear Hp. apply Forall2_fmap_r. eapply Forall2_impl; [exact F|]. intros j [pl d] (Hfd & Hz & Hsp & par & Hst). cbn [fst snd as_plain] in *. split.
      - destruct (stored_at _ _ _ _ _ Hst) as (x & Hx & Ha & _). unfold file_of. rewrite Hx. unfold page_file, plain_file. by rewrite (primary_name _ _ _ _ _ Ha).
      - unfold page. destruct (String.eqb_spec (o_text o) ""); [done|]. simpl e_similar. simpl e_broken. simpl e_jumps.
        exact (tpage_renders (e_similar E) (e_broken E) (e_jumps E) (st_heap s) Hw (w_force W) m d pl j par Hfd Hst Hsp ltac:(lia)). }
    destruct (writes_plain (st_heap s) (page (reading D E) W o m (st_heap s)) W (o_text o) l _ fs F' Hok) as (fs' & r & E1 & E2).
    exists fs'. unfold build, build_with. rewrite (Hc n) by lia.
    destruct (String.eqb_spec (o_out o) ""); [done|]. rewrite Hmk, Hix.
    assert (extension o = o_text o) as -> by (unfold extension; by destruct (String.eqb_spec (o_text o) "")).
    rewrite (write_section_spec _ _ _ _ _ l) by done. rewrite E1.
    destruct (snd (BookPlain.written (plain_from (o_text o) q))) as [name|].
    - destruct E2 as (-> & part & E2). eauto.
    - by destruct E2 as [-> E2].
  Qed.
End build.
