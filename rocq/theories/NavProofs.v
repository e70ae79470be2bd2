(** Numbers, navigation, listings, page ownership, URLs and written files. *)
From Coq Require Import Ascii String Lia.
From stdpp Require Import base list strings relations tactics.
From Verif Require Import GoBase Ast Content Section Render StrProofs TreeSpec TreeProofs.

Lemma valid_lookup h i : valid h i → ∃ s, h !! i = Some s.
Proof. intros V. by apply lookup_lt_is_Some in V. Qed.

(** ** C12: numbers *)

Lemma self_index_spec cs i k n : NoDup cs → cs !! k = Some i → self_index cs i n = n + k.
Proof.
  revert k n. induction cs as [|c cs IH]; intros k n ND Hk; [done|].
  inversion ND as [|? ? Hni ND']; subst. simpl. destruct k as [|k]; simpl in Hk.
  - simplify_eq. rewrite Nat.eqb_refl. lia.
  - destruct (Nat.eqb_spec c i) as [->|Hne].
    + exfalso. apply Hni. by eapply elem_of_list_lookup_2.
    + rewrite (IH k) by done. lia.
Qed.

Lemma child_lookup h p ps k i : h !! p = Some ps → s_children ps !! k = Some i → child_of h p i.
Proof. intros Hp Hk. exists ps. split; [done|]. by eapply elem_of_list_lookup_2. Qed.

Lemma position_valid h i l : wf h → position h i l → valid h i.
Proof.
  intros W. destruct 1 as [i (s & Hs & _)|].
  - by eapply lookup_lt_Some.
  - eapply wf_child_valid; [done|]. by eapply child_lookup.
Qed.

Lemma number_position h i l : wf h → position h i l →
  number h i = Some (sjoin "." (map dec l)).
Proof.
  intros W. induction 1 as [i (s & Hs & Hp)|p ps i k l Hps Hk Hpos IH].
  - rewrite number_unfold; [|done|by eapply lookup_lt_Some].
    unfold number_F. rewrite Hs. simpl. by rewrite Hp.
  - assert (child_of h p i) as Hc by by eapply child_lookup.
    rewrite number_unfold; [|done|by eapply wf_child_valid].
    destruct (wf_child_parent _ _ _ W Hc) as (s & Hs & Hp).
    unfold number_F. rewrite Hs. simpl. rewrite Hp, IH. simpl. rewrite Hps. simpl.
    rewrite (self_index_spec _ _ k) by (done || by eapply wf_nodup).
    rewrite map_app. simpl. rewrite sjoin_snoc.
    destruct l as [|x l]; [done|].
    destruct (String.eqb_spec (sjoin "." (map dec (x :: l))) "") as [E|_]; [|done].
    exfalso. simpl in E. destruct (map dec l); [by apply dec_nonempty in E|].
    apply sapp_eq_nil in E as [E _]. by apply dec_nonempty in E.
Qed.

Lemma sjoin_dec_inj l l' : sjoin "." (map dec l) = sjoin "." (map dec l') → l = l'.
Proof.
  assert (∀ l, Forall (λ s, no_char "." s = true) (map dec l)) as Hall.
  { intros m. induction m; simpl; constructor; [apply dec_no_dot|done]. }
  assert (∀ x m, sjoin "." (map dec (x :: m)) ≠ ""%string) as Hne.
  { intros x m E. simpl in E. destruct (map dec m); [by apply dec_nonempty in E|].
    apply sapp_eq_nil in E as [E _]. by apply dec_nonempty in E. }
  intros E. destruct l as [|x l], l' as [|x' l']; [done| | |].
  - symmetry in E. by apply Hne in E.
  - by apply Hne in E.
  - apply (f_equal (ssplit ".")) in E. rewrite !(ssplit_sjoin ".") in E by done.
    assert (∀ a b, map dec a = map dec b → a = b) as Hinj; [|by apply Hinj].
    intros a. induction a as [|m a IH]; intros [|n b] [=]; [done|].
    f_equal; [by apply dec_inj|by apply IH].
Qed.

Lemma position_exists h r i : wf h → is_top h r → descendant h r i → ∃ l, position h i l.
Proof.
  intros W Hr D.
  refine (rtc_ind_r_weak (λ r i, is_top h r → ∃ l, position h i l) _ _ r i D Hr).
  - intros x Hx. exists []. by constructor.
  - intros x y z _ (s & Hs & Hz) IH Hx. destruct (IH Hx) as (l & Hl).
    apply elem_of_list_lookup in Hz as (k & Hk). exists (l ++ [S k]). by econstructor.
Qed.

Lemma descendant_parent h r p i : wf h → is_top h r → descendant h r i → child_of h p i → descendant h r p.
Proof.
  intros W (s & Hs & Hn) D Hc. apply descendant_inv in D as [->|(p' & _ & Hp' & D)]; [| |done].
  - destruct (wf_child_parent _ _ _ W Hc) as (s' & Hs' & Hp'). congruence.
  - by rewrite (parent_of_func _ _ _ _ (wf_child_parent _ _ _ W Hc) Hp').
Qed.

Lemma top_descendant_eq h r i : wf h → is_top h i → descendant h r i → r = i.
Proof.
  intros W (s & Hs & Hn) D. apply descendant_inv in D as [->|(p' & _ & (s' & Hs' & Hp') & D)]; [done| |done].
  congruence.
Qed.

Lemma position_nil_inv h i : position h i [] → is_top h i.
Proof.
  intros H. remember [] as l eqn:E. destruct H as [|p ps i k l]; [done|]. by destruct l.
Qed.

Lemma position_snoc_inv h i l n : position h i (l ++ [n]) →
  ∃ p ps k, n = S k ∧ h !! p = Some ps ∧ s_children ps !! k = Some i ∧ position h p l.
Proof.
  intros H. remember (l ++ [n]) as l' eqn:E. destruct H as [|p ps i k l1 Hp Hk Hl]; [by destruct l|].
  apply app_inj_2 in E as [-> [= <-]]; [|done]. eauto 10.
Qed.

Lemma position_inj h r i j l : wf h → is_top h r → descendant h r i → descendant h r j →
  position h i l → position h j l → i = j.
Proof.
  intros W Hr Di Dj Hi. revert j Di Dj.
  induction Hi as [i Ht|p ps i k l Hps Hk Hpos IH]; intros j Di Dj Hj.
  - apply position_nil_inv in Hj.
    transitivity r; [symmetry|]; by apply (top_descendant_eq h).
  - apply position_snoc_inv in Hj as (p' & ps' & k' & [= <-] & Hps' & Hk' & Hpos').
    assert (p = p') as <-.
    { apply IH; try done; (eapply descendant_parent; [done|done| |by eapply child_lookup]); done. }
    simplify_eq. done.
Qed.

Lemma number_top_empty h i : wf h → valid h i → number h i = Some ""%string → is_top h i.
Proof.
  intros W V. rewrite number_unfold by done. unfold number_F.
  destruct (valid_lookup _ _ V) as [s Hs]. rewrite Hs. simpl.
  destruct (s_parent s) as [p|] eqn:Hp; [|by exists s].
  destruct (number h p) as [pn|]; simpl; [|done].
  destruct (h !! p) as [ps|]; simpl; [|done].
  destruct (String.eqb _ _); intros [= E].
  - by apply dec_nonempty in E.
  - apply sapp_eq_nil in E as [_ E]. discriminate.
Qed.

(** ** Listings *)

Definition edge (h : heap) (follow : section → bool) (p c : nat) : Prop :=
  ∃ s, h !! p = Some s ∧ c ∈ s_children s ∧ follow s = true.

Lemma edge_child h f p c : edge h f p c → child_of h p c.
Proof. intros (s & ? & ? & _). by exists s. Qed.

Lemma edges_descendant h f p c : rtc (edge h f) p c → descendant h p c.
Proof. induction 1; [constructor|]. eapply rtc_l; [by eapply edge_child|done]. Qed.

Lemma edge_all_descendant h i x : rtc (edge h (λ _, true)) i x ↔ descendant h i x.
Proof.
  split; [apply edges_descendant|]. induction 1 as [|? ? ? (s & Hs & Hc) _ IH]; [constructor|].
  eapply rtc_l; [|exact IH]. exists s. done.
Qed.

Scheme listing_mut := Induction for listing Sort Prop
  with listings_mut := Induction for listings Sort Prop.

Lemma listing_exists h follow i : wf h → valid h i → ∃ l, listing h follow i l.
Proof.
  intros W. remember (length h - i) as k eqn:Hk. revert i Hk.
  induction (lt_wf k) as [k _ IH]. intros i -> V. destruct (valid_lookup _ _ V) as [s Hs].
  assert (∃ l, listings h follow (if follow s then s_children s else []) l) as [l Hl].
  { assert (∀ c, c ∈ (if follow s then s_children s else []) → ∃ l, listing h follow c l) as Hc.
    { intros c Hc. assert (child_of h i c) as Hch.
      { exists s. split; [done|]. destruct (follow s); [done|set_solver]. }
      pose proof (wf_child_lt _ _ _ W Hch). pose proof (wf_child_valid _ _ _ W Hch).
      unfold valid in *. eapply (IH (length h - c)); try done. lia. }
    induction (if follow s then s_children s else []) as [|c cs IHc]; [by exists []; constructor|].
    destruct (Hc c) as [l1 H1]; [by left|]. destruct IHc as [l2 H2]; [intros; apply Hc; by right|].
    exists (l1 ++ l2). by constructor. }
  exists (i :: l). by econstructor.
Qed.

Lemma listing_func h follow i l l' : listing h follow i l → listing h follow i l' → l = l'.
Proof.
  intros H. revert l'.
  refine (listing_mut h follow (λ i l _, ∀ l', listing h follow i l' → l = l')
    (λ cs l _, ∀ l', listings h follow cs l' → l = l') _ _ _ i l H).
  - intros j s l0 Hs _ IH l' H'. inversion H'; subst. simplify_eq. f_equal. by apply IH.
  - intros l' H'. by inversion H'.
  - intros c cs l1 l2 _ IH1 _ IH2 l' H'. inversion H'; subst. f_equal; auto.
Qed.

Lemma listing_elem h follow i l x : listing h follow i l → x ∈ l ↔ rtc (edge h follow) i x.
Proof.
  intros H.
  refine (listing_mut h follow (λ i l _, x ∈ l ↔ rtc (edge h follow) i x)
    (λ cs l _, x ∈ l ↔ ∃ c, c ∈ cs ∧ rtc (edge h follow) c x) _ _ _ i l H).
  - intros j s l0 Hs _ IH. rewrite elem_of_cons, IH. split.
    + intros [->|(c & Hc & R)]; [constructor|]. eapply rtc_l; [|done].
      exists s. destruct (follow s); [done|set_solver].
    + intros R. inversion R as [|? c ? (s' & Hs' & Hc & Hf) R']; subst; [by left|].
      simplify_eq. right. exists c. by rewrite Hf.
  - set_solver.
  - intros c cs l1 l2 _ IH1 _ IH2. rewrite elem_of_app, IH1, IH2. split.
    + intros [R|(c' & Hc' & R)]; [exists c|exists c']; (split; [|done]); [by left|by right].
    + intros (c' & Hc' & R). apply elem_of_cons in Hc' as [->|Hc']; [by left|right; eauto].
Qed.

Lemma listing_nodup h follow i l : wf h → listing h follow i l → NoDup l.
Proof.
  intros W H.
  refine (listing_mut h follow (λ i l _, NoDup l)
    (λ cs l _, ∀ p s, h !! p = Some s → NoDup cs → (∀ c, c ∈ cs → c ∈ s_children s) → NoDup l) _ _ _ i l H).
  - intros j s l0 Hs Hl IH. constructor.
    + intros Hin.
      assert (j ∈ l0 ↔ ∃ c, c ∈ (if follow s then s_children s else []) ∧ rtc (edge h follow) c j) as E.
      { clear -Hl. induction Hl as [|c cs l1 l2 H1 H2 IH]; [set_solver|].
        rewrite elem_of_app, IH, (listing_elem _ _ _ _ _ H1). split.
        + intros [R|(c' & Hc' & R)]; [exists c|exists c']; (split; [|done]); [by left|by right].
        + intros (c' & Hc' & R). apply elem_of_cons in Hc' as [->|Hc']; [by left|right; eauto]. }
      apply E in Hin as (c & Hc & R). apply edges_descendant in R.
      assert (child_of h j c) as Hch.
      { exists s. split; [done|]. destruct (follow s); [done|set_solver]. }
      by eapply child_not_desc_self.
    + eapply IH; [done| |].
      * destruct (follow s); [by eapply wf_nodup|constructor].
      * destruct (follow s); set_solver.
  - intros; constructor.
  - intros c cs l1 l2 H1 IH1 H2 IH2 p s Hp ND Hsub. inversion ND as [|? ? Hni ND']; subst.
    apply NoDup_app. split_and!; [done| |].
    + intros x Hx1 Hx2. apply (listing_elem _ _ _ _ _ H1), edges_descendant in Hx1.
      assert (∃ c', c' ∈ cs ∧ descendant h c' x) as (c' & Hc' & D).
      { clear -H2 Hx2. induction H2 as [|c0 cs l1 l2 H1 H2 IH]; [set_solver|].
        apply elem_of_app in Hx2 as [Hx|Hx].
        - exists c0. split; [by left|]. apply (listing_elem _ _ _ _ _ H1) in Hx. by eapply edges_descendant.
        - destruct (IH Hx) as (c' & ? & ?). exists c'. split; [by right|done]. }
      eapply (sibling_disjoint h p c c' x); try done.
      * exists s. split; [done|]. apply Hsub. by left.
      * exists s. split; [done|]. apply Hsub. by right.
      * intros ->. done.
    + eapply IH2; try done. intros c' Hc'. apply Hsub. by right.
Qed.

(** ** C17: Next / Prev *)

Lemma next_loop_spec cs i k : NoDup cs → cs !! k = Some i → next_loop cs i false = cs !! S k.
Proof.
  revert k. induction cs as [|c cs IH]; intros k ND Hk; [done|].
  inversion ND as [|? ? Hni ND']; subst. simpl. destruct k as [|k]; simpl in Hk.
  - simplify_eq. rewrite Nat.eqb_refl. by destruct cs.
  - destruct (Nat.eqb_spec c i) as [->|Hne].
    + exfalso. apply Hni. by eapply elem_of_list_lookup_2.
    + by apply IH.
Qed.

Lemma next_sibling_child h p ps k i : wf h → h !! p = Some ps → s_children ps !! k = Some i →
  next_sibling h i = match s_children ps !! S k with
                     | Some c => Some (Some c)
                     | None => next_sibling h p
                     end.
Proof.
  intros W Hp Hk. assert (child_of h p i) as Hc by by eapply child_lookup.
  rewrite next_sibling_unfold; [|done|by eapply wf_child_valid].
  destruct (wf_child_parent _ _ _ W Hc) as (s & Hs & Hsp).
  unfold next_sibling_F. rewrite Hs. simpl. rewrite Hsp, Hp. simpl.
  rewrite (next_loop_spec _ _ k) by (done || by eapply wf_nodup). done.
Qed.

Lemma next_listing h i l cont : wf h → listing h s_split i l → next_sibling h i = Some cont →
  ∀ k x, l !! k = Some x → next h x = Some (match l !! S k with Some y => Some y | None => cont end).
Proof.
  intros W H. revert cont.
  refine (listing_mut h s_split
    (λ i l _, ∀ cont, next_sibling h i = Some cont →
       ∀ k x, l !! k = Some x → next h x = Some (match l !! S k with Some y => Some y | None => cont end))
    (λ cs l _, ∀ p s pre cont, h !! p = Some s → s_children s = pre ++ cs → next_sibling h p = Some cont →
       ∀ k x, l !! k = Some x → next h x = Some (match l !! S k with Some y => Some y | None => cont end))
    _ _ _ i l H).
  - intros j s l0 Hs Hl IH cont Hn k x Hk. destruct k as [|k]; simpl in *.
    + simplify_eq. unfold next. rewrite Hs. simpl. destruct (s_split s) eqn:Hsp.
      * destruct (s_children s) as [|c cs] eqn:Hcs.
        { inversion Hl; subst. done. }
        inversion Hl as [|? ? l1 l2 H1 H2]; subst. inversion H1; subst. done.
      * inversion Hl; subst. done.
    + destruct (s_split s) eqn:Hsp.
      * by eapply (IH j s []).
      * inversion Hl; subst. done.
  - intros. done.
  - intros c cs l1 l2 H1 IH1 H2 IH2 p s pre cont Hp Hcs Hn k x Hk.
    assert (s_children s !! length pre = Some c) as Hc.
    { rewrite Hcs. by rewrite lookup_app_r, Nat.sub_diag by lia. }
    pose proof (next_sibling_child h p s (length pre) c W Hp Hc) as Hnc.
    rewrite Hcs, lookup_app_r in Hnc by lia.
    replace (S (length pre) - length pre) with 1 in Hnc by lia. simpl in Hnc.
    destruct (decide (k < length l1)) as [Hlt|Hge].
    + rewrite lookup_app_l in Hk by done.
      destruct cs as [|c' cs].
      * inversion H2; subst. rewrite app_nil_r. eapply IH1; [|done]. by rewrite Hnc.
      * simpl in Hnc. rewrite (IH1 _ Hnc _ _ Hk).
        destruct (l1 !! S k) as [y|] eqn:Hy.
        { by rewrite lookup_app_l, Hy by (by eapply lookup_lt_Some). }
        apply lookup_ge_None in Hy. rewrite lookup_app_r by done.
        replace (S k - length l1) with 0 by lia.
        inversion H2 as [|? ? l3 l4 H3 H4]; subst. inversion H3; subst. done.
    + rewrite lookup_app_r in Hk by lia.
      rewrite lookup_app_r by lia.
      replace (S k - length l1) with (S (k - length l1)) by lia.
      eapply (IH2 p s (pre ++ [c]) cont); try done. rewrite Hcs. by rewrite <- app_assoc.
Qed.

Lemma prev_loop_absent cs i last : i ∉ cs → prev_loop cs i last = None.
Proof.
  revert last. induction cs as [|c cs IH]; intros last Hni; simpl; [done|].
  assert (i ∉ cs) by set_solver.
  destruct last; [|by apply IH]. destruct (Nat.eqb_spec c i) as [->|]; [set_solver|by apply IH].
Qed.

Lemma prev_loop_spec cs i k last : NoDup cs → (∀ x, last = Some x → x ∉ cs) → cs !! k = Some i →
  prev_loop cs i last = match k with 0 => last | S k' => cs !! k' end.
Proof.
  revert k last. induction cs as [|c cs IH]; intros k last ND Hlast Hk; [done|].
  inversion ND as [|? ? Hni ND']; subst. simpl. destruct k as [|k]; simpl in Hk.
  - simplify_eq. rewrite Nat.eqb_refl. destruct last; [done|].
    by apply prev_loop_absent.
  - assert (c ≠ i) as Hne by (intros ->; apply Hni; by eapply elem_of_list_lookup_2).
    assert (prev_loop cs i (Some c) = match k with 0 => Some c | S k' => cs !! k' end) as E.
    { apply IH; try done. intros x [= <-]. done. }
    destruct last as [l|].
    + destruct (Nat.eqb_spec c i); [done|]. rewrite E. by destruct k.
    + rewrite E. by destruct k.
Qed.

Lemma prev_child h p ps k i : wf h → h !! p = Some ps → s_children ps !! k = Some i →
  prev h i = Some (match k with 0 => Some p | S k' => s_children ps !! k' end).
Proof.
  intros W Hp Hk. assert (child_of h p i) as Hc by by eapply child_lookup.
  destruct (wf_child_parent _ _ _ W Hc) as (s & Hs & Hsp).
  unfold prev. rewrite Hs. simpl. rewrite Hsp, Hp. simpl.
  rewrite (prev_loop_spec _ _ k) by (done || by eapply wf_nodup).
  destruct k as [|k]; [done|].
  destruct (s_children ps !! k) eqn:E; [done|].
  apply lookup_ge_None in E. apply lookup_lt_Some in Hk. lia.
Qed.

(** ** C18: page ownership *)

Lemma page_owner_unfold h i : wf h → valid h i → page_owner h i = page_owner_F h (page_owner h) i.
Proof.
  intros W. apply up_unfold; [done|]. intros x g1 g2 Hg. unfold page_owner_F.
  destruct (h !! x) as [s|] eqn:Hs; simpl; [|done].
  destruct (s_parent s) eqn:Hp; [|done].
  destruct (h !! n) as [ps|]; simpl; [|done]. destruct (s_split ps); [done|].
  apply Hg. exists s; done.
Qed.

(** [c]'s Parent is [p] and [p] does not split. *)
Definition inline_parent (h : heap) (p c : nat) : Prop :=
  parent_of h p c ∧ ∃ ps, h !! p = Some ps ∧ s_split ps = false.

Lemma page_owner_exists h i : wf h → valid h i →
  ∃ o, page_owner h i = Some o ∧ is_page h o ∧ rtc (inline_parent h) o i.
Proof.
  intros W. induction (lt_wf i) as [i _ IH]. intros V.
  rewrite page_owner_unfold by done. unfold page_owner_F.
  destruct (valid_lookup _ _ V) as [s Hs]. rewrite Hs. simpl.
  destruct (s_parent s) as [p|] eqn:Hp.
  - assert (parent_of h p i) as Hpi by (exists s; done).
    pose proof (parent_of_valid _ _ _ W Hpi) as Vp.
    destruct (valid_lookup _ _ Vp) as [ps Hps]. rewrite Hps. simpl.
    destruct (s_split ps) eqn:Hsp.
    + exists i. split_and!; [done| |constructor]. exists s. rewrite Hp. eauto.
    + destruct (IH p) as (o & E & Ho & R); [by eapply parent_of_lt|done|].
      exists o. split_and!; try done. eapply rtc_r; [exact R|]. split; [done|eauto].
  - exists i. split_and!; [done| |constructor]. exists s. by rewrite Hp.
Qed.

Lemma page_owner_unique h o o' i : is_page h o → is_page h o' →
  rtc (inline_parent h) o i → rtc (inline_parent h) o' i → o = o'.
Proof.
  intros Ho Ho' R R'.
  assert (∀ a b, is_page h b → rtc (inline_parent h) a b → a = b) as Hk.
  { intros a b (s & Hs & Hpg) Hab. apply rtc_inv_r in Hab as [->|(p & _ & (s' & Hs' & Hp') & ps & Hps & Hsp)]; [done|].
    simplify_eq. rewrite Hp' in Hpg. destruct Hpg as (ps' & Hps' & Hsp'). congruence. }
  revert o' Ho' R'.
  refine (rtc_ind_r_weak (λ o i, is_page h o → ∀ o', is_page h o' → rtc (inline_parent h) o' i → o = o') _ _ o i R Ho).
  - intros x Hx o' _ R'. symmetry. by apply Hk.
  - intros x y z Hxy Hyz IH Hx o' Ho' R'.
    apply rtc_inv_r in R' as [<-|(p & R' & Hp)].
    + symmetry. apply Hk; [|].
      all: exfalso.
      all: destruct Hyz as ((s & Hs & Hsp) & ps & Hps & Hf).
      all: destruct Ho' as (s' & Hs' & Hm); simplify_eq; rewrite Hsp in Hm;
        destruct Hm as (ps' & ? & ?); congruence.
    + assert (p = y) as -> by (eapply parent_of_func; [apply Hp|apply Hyz]).
      by apply IH.
Qed.

Lemma page_owner_spec h i o : wf h → valid h i →
  page_owner h i = Some o ↔ is_page h o ∧ rtc (inline_parent h) o i.
Proof.
  intros W V. destruct (page_owner_exists _ _ W V) as (o' & E & Ho & R). rewrite E. split.
  - by intros [= <-].
  - intros [Ho' R']. f_equal. by eapply page_owner_unique.
Qed.

Lemma inlined_inline_parent h p c : wf h → inlined h p c → inline_parent h p c.
Proof.
  intros W (s & Hs & Hc & Hsp). split; [|eauto]. apply wf_child_parent; [done|]. exists s; done.
Qed.

Lemma inlines_inline_parent h p c : wf h → rtc (inlined h) p c → rtc (inline_parent h) p c.
Proof.
  intros W. induction 1; [constructor|]. eapply rtc_l; [by apply inlined_inline_parent|done].
Qed.

(** For sections attached to the tree the owner chain consists of listed children. *)
Lemma inline_parent_inlined h r o i : wf h → is_top h r → descendant h r i →
  rtc (inline_parent h) o i → rtc (inlined h) o i.
Proof.
  intros W Hr D R. revert D.
  refine (rtc_ind_r_weak (λ o i, descendant h r i → rtc (inlined h) o i) _ _ o i R); [constructor|].
  intros x y z _ (Hyz & ps & Hps & Hsp) IH D.
  apply descendant_inv in D as [->|(p & Hc & Hp & D)]; [| |done].
  - destruct Hr as (s & Hs & Hn). destruct Hyz as (s' & Hs' & Hp'). congruence.
  - assert (p = y) as -> by by eapply parent_of_func.
    eapply rtc_r; [by apply IH|]. destruct Hc as (s & Hs & Hc). simplify_eq. exists ps. done.
Qed.

Lemma ancestor_descendant h r a i : wf h → is_top h r → descendant h r i → ancestor h a i →
  descendant h r a ∧ descendant h a i.
Proof.
  intros W Hr D A. revert D.
  refine (rtc_ind_r_weak (λ a i, descendant h r i → descendant h r a ∧ descendant h a i) _ _ a i A).
  - intros x D. split; [done|constructor].
  - intros x y z _ Hyz IH D.
    apply descendant_inv in D as [->|(p & Hc & Hp & D)]; [| |done].
    + destruct Hr as (s & Hs & Hn). destruct Hyz as (s' & Hs' & Hp'). congruence.
    + assert (p = y) as -> by by eapply parent_of_func.
      destruct (IH D) as [? ?]. split; [done|]. eapply rtc_r; done.
Qed.

Lemma inline_parent_ancestor h o i : rtc (inline_parent h) o i → ancestor h o i.
Proof. induction 1 as [|x y z [Hp _] _ IH]; [constructor|]. eapply rtc_l; done. Qed.

Lemma page_owner_self h o : wf h → valid h o → is_page h o → page_owner h o = Some o.
Proof. intros W V Ho. apply page_owner_spec; [done|done|]. split; [done|constructor]. Qed.

(** ** C19: URLs *)

Lemma section_url_spec h ext i anchor o os : wf h → valid h i →
  is_page h o → rtc (inline_parent h) o i → h !! o = Some os →
  ∃ s, h !! i = Some s ∧
  section_url h ext i anchor =
    Some (let a := if String.eqb anchor "" then (if Nat.eqb o i then "" else t_name (s_primary s)) else anchor in
          page_file ext os +:+ (if String.eqb a "" then "" else "#" +:+ a))%string.
Proof.
  intros W V Ho R Hos. destruct (valid_lookup _ _ V) as [s Hs]. exists s. split; [done|].
  assert (page_owner h i = Some o) as Eo by by apply page_owner_spec.
  assert (valid h o) as Vo by (by eapply lookup_lt_Some).
  assert (page_owner h o = Some o) as Eoo by by apply page_owner_self.
  assert (∀ n a, section_url_F h ext (gofix (section_url_F h ext) n) (o, a) =
    Some (page_file ext os +:+ (if String.eqb a "" then "" else "#" +:+ a))%string) as Hbase.
  { intros n a. unfold section_url_F. rewrite Eoo. simpl. rewrite Hos. simpl.
    rewrite Nat.eqb_refl. simpl. unfold page_file.
    destruct (String.eqb a ""); [by rewrite sapp_nil_r|done]. }
  unfold section_url, fuel_of. unfold valid in V.
  destruct (length h) as [|n]; [lia|].
  change (gofix (section_url_F h ext) (S (S n)) (i, anchor))
    with (section_url_F h ext (gofix (section_url_F h ext) (S n)) (i, anchor)).
  destruct (Nat.eqb_spec o i) as [->|Hne].
  - rewrite Hbase. cbv zeta. destruct (String.eqb anchor "") eqn:E; [done|]. by rewrite E.
  - assert (Hg := Hbase n).
    change (section_url_F h ext (gofix (section_url_F h ext) n))
      with (gofix (section_url_F h ext) (S n)) in Hg.
    generalize dependent (gofix (section_url_F h ext) (S n)). intros g Hg.
    unfold section_url_F. rewrite Eo. simpl. rewrite Hs. simpl.
    destruct (Nat.eqb_spec o i); [done|]. simpl.
    rewrite Hg. done.
Qed.
