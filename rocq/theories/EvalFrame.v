(** The frame of evaluation: evaluating a section changes only that section and
    sections created meanwhile, keeps the forest consistent, and only extends the
    section's children and plugins. *)
From Coq Require Import Ascii String.
From stdpp Require Import base tactics relations strings list.
From Verif Require Import GoBase Ast Content Section TreeSpec TreeProofs TagProofs QueryProofs Evaluate EvalProofs.

(** ** Heap updates *)

Lemma upd_lookup h i f j : upd h i f !! j = (if decide (i = j) then f <$> (h !! j) else h !! j).
Proof.
  unfold upd. destruct (h !! i) as [x|] eqn:Hx.
  - destruct (decide (i = j)) as [->|Hn].
    + rewrite Hx. simpl. apply list_lookup_insert. by eapply lookup_lt_Some.
    + by apply list_lookup_insert_ne.
  - destruct (decide (i = j)) as [->|Hn]; [|done]. by rewrite Hx.
Qed.
Lemma upd_lookup_eq h i f x : h !! i = Some x → upd h i f !! i = Some (f x).
Proof. intros Hx. rewrite upd_lookup, decide_True by done. by rewrite Hx. Qed.
Lemma upd_lookup_ne h i f j : i ≠ j → upd h i f !! j = h !! j.
Proof. intros Hn. by rewrite upd_lookup, decide_False by done. Qed.
Lemma upd_length h i f : length (upd h i f) = length h.
Proof. unfold upd. destruct (h !! i); [apply insert_length|done]. Qed.

Definition same_links (f : section → section) : Prop :=
  ∀ x, s_parent (f x) = s_parent x ∧ s_children (f x) = s_children x.

Lemma upd_wf h i f : same_links f → wf h → wf (upd h i f).
Proof.
  intros Hf [Hp Hc Hd].
  assert (∀ j x', upd h i f !! j = Some x' →
    ∃ x, h !! j = Some x ∧ s_parent x' = s_parent x ∧ s_children x' = s_children x) as Hinv.
  { intros j x'. rewrite upd_lookup. destruct (decide (i = j)); [|eauto].
    destruct (h !! j) as [x|]; simpl; [|done]. intros [= <-]. exists x. split; [done|apply Hf]. }
  constructor.
  - intros j x' p (x & Hx & -> & _)%Hinv ?. by eapply Hp.
  - intros p x' c (x & Hx & _ & ->)%Hinv Hin. destruct (Hc _ _ _ Hx Hin) as (cs & Hcs & Hpar).
    rewrite upd_lookup. destruct (decide (i = c)); [|eauto]. rewrite Hcs. simpl.
    eexists; split; [done|]. by rewrite (proj1 (Hf cs)).
  - intros p x' (x & Hx & _ & ->)%Hinv. by eapply Hd.
Qed.

Lemma upd_owned h i f : (∀ x t, t ∈ s_tags (f x) → t ∈ s_tags x ∨ t_section t = Some i) →
  tags_owned h → tags_owned (upd h i f).
Proof.
  intros Hf Ho j x' t. rewrite upd_lookup. destruct (decide (i = j)) as [->|]; [|by apply Ho].
  destruct (h !! j) as [x|] eqn:Hx; simpl; [|done]. intros [= <-] Ht.
  destruct (Hf _ _ Ht); [by eapply Ho|done].
Qed.

(** ** The frame relation *)

(** What may happen to the evaluated section itself; [n] is the number of
    sections that existed before. *)
Record grows (n : nat) (x x' : section) : Prop := Grows {
  g_parent : s_parent x' = s_parent x;
  g_path : s_path x' = s_path x;
  g_loc : s_loc x' = s_loc x;
  g_children : ∃ new, s_children x' = s_children x ++ new ∧ Forall (λ c, n ≤ c) new;
  g_factories : s_factories x `prefix_of` s_factories x';
  g_split : s_split x = true → s_split x' = true;
  g_prevent : s_prevent x = true → s_prevent x' = true;
  g_reset : s_reset x = true → s_reset x' = true;
  g_omit : s_omit x = true → s_omit x' = true
}.

Lemma grows_refl n x : grows n x x.
Proof. constructor; try done. exists []. by rewrite app_nil_r. Qed.

Lemma grows_trans n n' x y z : n ≤ n' → grows n x y → grows n' y z → grows n x z.
Proof.
  intros Hn [? ? ? (c1 & Hc1 & Hf1) ? ? ? ? ?] [? ? ? (c2 & Hc2 & Hf2) ? ? ? ? ?].
  constructor; try congruence; eauto.
  - exists (c1 ++ c2). rewrite Hc2, Hc1, app_assoc. split; [done|]. apply Forall_app. split; [done|].
    eapply Forall_impl; [done|]. simpl. lia.
  - by etrans.
Qed.

Record frame_facts (self : nat) (h h' : heap) : Prop := Frame {
  ff_wf : wf h';
  ff_length : length h ≤ length h';
  ff_others : ∀ j, j < length h → j ≠ self → h' !! j = h !! j;
  ff_self : ∀ x, h !! self = Some x → ∃ x', h' !! self = Some x' ∧ grows (length h) x x';
  ff_new : ∀ j x', length h ≤ j → h' !! j = Some x' →
    ∃ p, s_parent x' = Some p ∧ (p = self ∨ length h ≤ p);
  ff_owned : tags_owned h → tags_owned h'
}.

Definition frame (self : nat) (s s' : st) : Prop :=
  wf (st_heap s) → valid (st_heap s) self → frame_facts self (st_heap s) (st_heap s').

Lemma frame_refl self s : frame self s s.
Proof.
  intros Hw Hv. constructor; try done.
  - eauto using grows_refl.
  - intros j x' ? ?%lookup_lt_Some. lia.
Qed.

Lemma frame_trans self a b c : frame self a b → frame self b c → frame self a c.
Proof.
  intros Hab Hbc Hw Hv. destruct (Hab Hw Hv) as [Hw' Hl Ho Hs Hn Ht].
  assert (valid (st_heap b) self) as Hv' by (unfold valid in *; lia).
  destruct (Hbc Hw' Hv') as [Hw2 Hl2 Ho2 Hs2 Hn2 Ht2]. constructor; [done|lia| | | |by auto].
  - intros j Hj Hne. rewrite Ho2, Ho; [done|lia..].
  - intros x Hx. destruct (Hs _ Hx) as (x1 & Hx1 & G1). destruct (Hs2 _ Hx1) as (x2 & Hx2 & G2).
    exists x2. split; [done|]. by eapply grows_trans; [|done..].
  - intros j x' Hj Hx'. destruct (decide (j < length (st_heap b))) as [Hlt|].
    + rewrite Ho2 in Hx'; [|lia|unfold valid in *; lia]. by apply (Hn j).
    + destruct (Hn2 j x') as (p & Hp & Hor); [lia|done|]. exists p. split; [done|]. lia.
Qed.

Lemma frame_upd self f s :
  (∀ n x, grows n x (f x)) → same_links f →
  (∀ x t, t ∈ s_tags (f x) → t ∈ s_tags x ∨ t_section t = Some self) →
  frame self s (upd_st self f s).
Proof.
  intros Hg Hl Ht Hw Hv. simpl. constructor.
  - by apply upd_wf.
  - by rewrite upd_length.
  - intros j _ Hne. by apply upd_lookup_ne.
  - intros x Hx. exists (f x). split; [by apply upd_lookup_eq|apply Hg].
  - intros j x' Hj ?%lookup_lt_Some. rewrite upd_length in *. lia.
  - by apply upd_owned.
Qed.

Lemma set_tags_grows n x ts : grows n x (set_tags x ts).
Proof. constructor; try done. simpl. exists []. by rewrite app_nil_r. Qed.

(** ** Sections created below *)

(** The state after a section [length h] below [self] has been evaluated. *)
Record child_facts (self : nat) (h h' : heap) : Prop := Child {
  cf_wf : wf h';
  cf_length : length h < length h';
  cf_old : ∀ j, j < length h → h' !! j = h !! j;
  cf_child : ∃ x', h' !! length h = Some x' ∧ s_parent x' = Some self;
  cf_new : ∀ j x', length h ≤ j → h' !! j = Some x' →
    ∃ p, s_parent x' = Some p ∧ (p = self ∨ length h ≤ p);
  cf_owned : tags_owned h → tags_owned h'
}.

Lemma alloc_wf h parent path : wf h →
  match parent with Some p => valid h p | None => True end → wf (h ++ [new_section parent path]).
Proof.
  intros [Hp Hc Hd] Hv.
  assert (∀ j x, (h ++ [new_section parent path]) !! j = Some x →
    h !! j = Some x ∨ (j = length h ∧ x = new_section parent path)) as Hinv.
  { intros j x [?|[? Hx]]%lookup_app_Some; [by left|right].
    destruct (j - length h) as [|k] eqn:Hk; simpl in *; [|done]. split; [lia|congruence]. }
  constructor.
  - intros j x p [Hx|[-> ->]]%Hinv Hpar; [by eapply Hp|]. simpl in *. subst parent. exact Hv.
  - intros p x c [Hx|[-> ->]]%Hinv Hin; [|by apply elem_of_nil in Hin].
    destruct (Hc _ _ _ Hx Hin) as (cs & Hcs & ?). exists cs. split; [|done].
    apply lookup_app_Some. by left.
  - intros p x [Hx|[-> ->]]%Hinv; [by eapply Hd|constructor].
Qed.

Lemma alloc_owned h parent path : tags_owned h → tags_owned (h ++ [new_section parent path]).
Proof.
  intros Ho j x t [?|[? Hx]]%lookup_app_Some Ht; [by eapply Ho|].
  destruct (j - length h) as [|k]; simpl in *; [|done]. simplify_eq. simpl in Ht. by apply elem_of_nil in Ht.
Qed.

Lemma child_of_frame self path s s2 : wf (st_heap s) → valid (st_heap s) self →
  frame (length (st_heap s)) (alloc_st (Some self) path s) s2 →
  child_facts self (st_heap s) (st_heap s2).
Proof.
  intros Hw Hv HF. destruct s as [h c0]. unfold alloc_st in HF. simpl in *.
  assert (wf (h ++ [new_section (Some self) path])) as Hw1 by by apply alloc_wf.
  destruct HF as [Hw2 Hl Ho Hs Hn Ht]; [done|unfold valid; simpl; rewrite app_length; simpl; lia|].
  simpl in *. rewrite app_length in *. simpl in *.
  destruct (Hs (new_section (Some self) path)) as (x' & Hx' & G).
  { by apply list_lookup_middle. }
  assert (s_parent x' = Some self) as Hpx by apply G.
  constructor; [done|lia| |by eauto| |].
  - intros j Hj. rewrite Ho by lia. by apply lookup_app_l.
  - intros j y Hj Hy. destruct (decide (j = length h)) as [->|].
    + simplify_eq. eauto.
    + destruct (Hn j y) as (p & ? & ?); [lia|done|]. exists p. split; [done|]. lia.
  - intros Hown. by apply Ht, alloc_owned.
Qed.

Lemma child_facts_upd self h h' f : same_links f →
  (∀ x, s_tags (f x) = s_tags x) →
  child_facts self h h' → child_facts self h (upd h' (length h) f).
Proof.
  intros Hf Hts [Hw Hl Ho (x' & Hx' & Hp) Hn Ht]. constructor.
  - by apply upd_wf.
  - by rewrite upd_length.
  - intros j Hj. rewrite upd_lookup_ne by lia. by apply Ho.
  - exists (f x'). split; [by apply upd_lookup_eq|]. by rewrite (proj1 (Hf x')).
  - intros j y Hj. rewrite upd_lookup. destruct (decide (length h = j)) as [<-|]; [|by apply Hn].
    rewrite Hx'. simpl. intros [= <-]. rewrite (proj1 (Hf x')). eauto.
  - intros Hown. apply upd_owned; [|by apply Ht]. intros x t. rewrite Hts. by left.
Qed.

Lemma frame_of_child self s h' c : wf (st_heap s) → valid (st_heap s) self →
  child_facts self (st_heap s) h' → frame_facts self (st_heap s) (st_heap (St h' c)).
Proof.
  intros Hw Hv [Hw' Hl Ho _ Hn Ht]. simpl. constructor; [done|lia|by auto| |done|done].
  intros x Hx. exists x. split; [|apply grows_refl]. by rewrite Ho.
Qed.

Lemma frame_of_attach self h h' : wf h → valid h self → child_facts self h h' →
  frame_facts self h (upd h' self (λ x, set_children x (s_children x ++ [length h]))).
Proof.
  intros Hw Hv [[Hp Hc Hd] Hl Ho (x' & Hx' & Hpar) Hn Ht].
  assert (is_Some (h !! self)) as [x Hx] by by apply lookup_lt_is_Some_2.
  assert (h' !! self = Some x) as Hx2 by by rewrite Ho.
  assert (self ≠ length h) as Hne by (unfold valid in Hv; lia).
  set (f := λ x, set_children x (s_children x ++ [length h])).
  assert (∀ j y, upd h' self f !! j = Some y →
    ∃ z, h' !! j = Some z ∧ s_parent y = s_parent z ∧
      s_children y = if decide (self = j) then s_children z ++ [length h] else s_children z) as Hinv.
  { intros j y. rewrite upd_lookup. destruct (decide (self = j)); [|eauto].
    destruct (h' !! j) as [z|]; simpl; [|done]. intros [= <-]. by exists z. }
  constructor.
  - constructor.
    + intros j y p (z & Hz & -> & _)%Hinv ?. by eapply Hp.
    + intros p y c (z & Hz & _ & ->)%Hinv Hin.
      assert (∃ cs, h' !! c = Some cs ∧ s_parent cs = Some p) as (cs & Hcs & Hcp).
      { destruct (decide (self = p)) as [->|]; [|by eapply Hc].
        apply elem_of_app in Hin as [Hin| ->%elem_of_list_singleton]; [by eapply Hc|eauto]. }
      rewrite upd_lookup, Hcs. destruct (decide (self = c)); simpl; [|by eauto].
      by exists (f cs).
    + intros p y (z & Hz & _ & ->)%Hinv. destruct (decide (self = p)) as [<-|]; [|by eapply Hd].
      simplify_eq. apply NoDup_app. split; [by eapply Hd|]. split; [|apply NoDup_singleton].
      intros c Hin ->%elem_of_list_singleton.
      assert (wf_child' := wf_child h Hw self x (length h)). destruct wf_child' as (cs & Hcs & _); [done|done|].
      apply lookup_lt_Some in Hcs. lia.
  - rewrite upd_length. lia.
  - intros j Hj Hjn. rewrite upd_lookup_ne by done. by apply Ho.
  - intros y Hy. rewrite Hx in Hy. injection Hy as <-. exists (f x).
    split; [exact (upd_lookup_eq _ _ f _ Hx2)|].
    constructor; try done. simpl. exists [length h]. split; [done|]. by constructor.
  - intros j y Hj (z & Hz & -> & _)%Hinv. by eapply Hn.
  - intros Hown. apply upd_owned; [|by apply Ht]. intros y t. by left.
Qed.

Lemma set_title_tags i title l tags x t :
  t ∈ s_tags (set_title i title l tags x) → t_section t = Some i.
Proof.
  unfold set_title. simpl.
  assert (∀ y, (∀ t, t ∈ s_tags y → t_section t = Some i) →
    t ∈ s_tags (fold_left (λ s name, set_tag i name (Some title) l [] s) tags y) → t_section t = Some i) as Hgo.
  { induction tags as [|n tags IH]; intros y Hy; simpl; [apply Hy|]. apply IH.
    intros u. simpl. intros [?| ->%elem_of_list_singleton]%elem_of_app; [by apply Hy|done]. }
  apply Hgo. simpl. intros u Hu. by apply elem_of_nil in Hu.
Qed.

Lemma set_title_rest i title l tags x : let y := set_title i title l tags x in
  s_path y = s_path x ∧ s_body y = s_body x ∧ s_parent y = s_parent x ∧ s_children y = s_children x ∧
  s_style y = s_style x ∧ s_partials y = s_partials x ∧ s_split y = s_split x ∧ s_prevent y = s_prevent x ∧
  s_reset y = s_reset x ∧ s_omit y = s_omit x ∧ s_factories y = s_factories x ∧ s_loc y = s_loc x ∧
  s_invloc y = s_invloc x ∧ s_title y = title ∧ s_titleloc y = l.
Proof.
  unfold set_title. simpl.
  assert (∀ y, let z := fold_left (λ s name, set_tag i name (Some title) l [] s) tags y in
    s_path z = s_path y ∧ s_body z = s_body y ∧ s_parent z = s_parent y ∧ s_children z = s_children y ∧
    s_style z = s_style y ∧ s_partials z = s_partials y ∧ s_split z = s_split y ∧ s_prevent z = s_prevent y ∧
    s_reset z = s_reset y ∧ s_omit z = s_omit y ∧ s_factories z = s_factories y ∧ s_loc z = s_loc y ∧
    s_invloc z = s_invloc y) as Hgo.
  { induction tags as [|n tags IH]; intros y; simpl; [repeat split|]. apply (IH (set_tag i n (Some title) l [] y)). }
  specialize (Hgo (set_tags x [])). simpl in Hgo. naive_solver.
Qed.

Lemma run_op_frame E self o : resp (frame self) (run_op E self o).
Proof.
  assert (∀ f, (∀ n x, grows n x (f x)) → same_links f →
    (∀ x t, t ∈ s_tags (f x) → t ∈ s_tags x ∨ t_section t = Some self) →
    resp (frame self) (mupd self f)) as Hupd.
  { intros f ? ? ? s. by apply frame_upd. }
  assert (∀ x : section, ∃ new : list nat, s_children x = s_children x ++ new ∧ Forall (λ c, 0 ≤ c) new) as Hnil.
  { intros x. exists []. by rewrite app_nil_r. }
  destruct o; simpl.
  - apply resp_bind; [by apply frame_trans|apply resp_heap, frame_refl|]. intros h.
    apply resp_bind; [by apply frame_trans|apply resp_lift, frame_refl|]. intros ts.
    apply Hupd.
    + intros n x. destruct (set_title_rest self title l ts x) as (? & ? & ? & Hc & ? & ? & ? & ? & ? & ? & Hf & ? & _).
      constructor; try congruence; [|by rewrite Hf]. exists []. rewrite app_nil_r. split; [done|constructor].
    + intros x. destruct (set_title_rest self title l ts x) as (? & ? & ? & ? & _). done.
    + intros x t Ht%set_title_tags. by right.
  - apply Hupd; [intros; apply set_tags_grows|done|].
    intros x t. simpl. intros [?| ->%elem_of_list_singleton]%elem_of_app; [by left|by right].
  - apply Hupd; [intros; apply set_tags_grows|done|].
    intros x t. simpl. intros [?| ->%elem_of_list_singleton]%elem_of_app; [by left|by right].
  - apply Hupd; [|done|by left]. intros n x. constructor; try done. exists []. by rewrite app_nil_r.
  - apply Hupd; [|done|by left]. intros n x. constructor; try done. exists []. by rewrite app_nil_r.
  - apply Hupd; [|done|by left]. intros n x. constructor; try done. exists []. by rewrite app_nil_r.
  - apply Hupd; [|done|by left]. intros n x. constructor; try done. exists []. by rewrite app_nil_r.
  - apply Hupd; [|done|by left]. intros n x. constructor; try done. exists []. by rewrite app_nil_r.
  - apply Hupd; [|done|by left]. intros n x. constructor; try done. exists []. by rewrite app_nil_r.
  - apply Hupd; [|done|by left]. intros n x. constructor; try done; simpl; [exists []; by rewrite app_nil_r|].
    by apply prefix_app_r.
Qed.

Lemma prog_ops_all {A} (P : op → Prop) (p : prog A) : (∀ o, P o) → prog_ops P p.
Proof. intros HP. induction p; simpl; auto. Qed.

Lemma frame_eval_rel E : eval_rel E frame.
Proof.
  assert (∀ self path s s2, frame (length (st_heap s)) (alloc_st (Some self) path s) s2 → frame self s s2) as H1.
  { intros self path s s2 HF Hw Hv. destruct s2 as [h2 c2]. apply frame_of_child; [done..|].
    apply (child_of_frame self path s (St h2 c2)); done. }
  assert (∀ self path s s2 l, frame (length (st_heap s)) (alloc_st (Some self) path s) s2 →
    frame self s (upd_st (length (st_heap s)) (λ x, set_loc x l) s2)) as H2.
  { intros self path s s2 l HF Hw Hv. apply frame_of_child; [done..|]. apply child_facts_upd; [done..|].
    by eapply child_of_frame. }
  assert (∀ self path s s2, frame (length (st_heap s)) (alloc_st (Some self) path s) s2 →
    frame self s (attach_st self (length (st_heap s)) s2)) as H3.
  { intros self path s s2 HF Hw Hv. apply frame_of_attach; [done..|]. by eapply child_of_frame. }
  assert (∀ self path s s2 l, frame (length (st_heap s)) (alloc_st (Some self) path s) s2 →
    frame self s (attach_st self (length (st_heap s)) (upd_st (length (st_heap s)) (λ x, set_loc x l) s2))) as H4.
  { intros self path s s2 l HF Hw Hv. apply frame_of_attach; [done..|]. apply child_facts_upd; [done..|].
    by eapply child_of_frame. }
  assert (∀ self f s, (∀ n x, grows n x (f x)) → same_links f → (∀ x, s_tags (f x) = s_tags x) →
    frame self s (upd_st self f s)) as H5.
  { intros self f s ? ? Hts. apply frame_upd; [done..|]. intros x t. rewrite Hts. by left. }
  assert (∀ self f s, frame self s (upd_st self (use_plugin f) s)) as Huse.
  { intros. apply H5; [|done|done]. intros n x. constructor; try done; simpl; [exists []; by rewrite app_nil_r|].
    by apply prefix_app_r. }
  assert (∀ self c s, frame self s (upd_st self (λ x, set_body x c) s)) as Hbody.
  { intros. apply H5; [|done|done]. intros n x. constructor; try done. exists []. by rewrite app_nil_r. }
  assert (∀ self s c, frame self s (St (st_heap s) c)) as Hcache.
  { intros self s c Hw Hv. exact (frame_refl self s Hw Hv). }
  constructor; try done.
  - apply frame_refl.
  - apply frame_trans.
  - intros. apply H5; [|done|done]. intros n x. constructor; try done. exists []. by rewrite app_nil_r.
  - intros rec Hrec f name m self argv _. apply resp_prog; try done.
    + apply frame_refl.
    + apply frame_trans.
    + apply prog_ops_all. intros o. apply run_op_frame.
Qed.

Lemma eval_frame E n self acc nd s : frame self s (fst (eval E n self acc nd s)).
Proof. apply (eval_resp E frame (frame_eval_rel E)). Qed.

(** ** Loading *)

Lemma empty_wf : wf [].
Proof. constructor; intros; done. Qed.

(** A load from any consistent state keeps it consistent, and the new section is
    a root. *)
Lemma load_file_facts E n path fs s : wf (st_heap s) →
  let r := load_file E n path fs s in
  wf (st_heap (fst r)) ∧
  (∀ j x, st_heap s !! j = Some x → st_heap (fst r) !! j = Some x) ∧
  (tags_owned (st_heap s) → tags_owned (st_heap (fst r))) ∧
  (∀ j x, length (st_heap s) < j → st_heap (fst r) !! j = Some x →
     ∃ p, s_parent x = Some p ∧ length (st_heap s) ≤ p) ∧
  (∀ i, snd r = Ok i → i = length (st_heap s) ∧ is_top (st_heap (fst r)) i).
Proof.
  intros Hw. unfold load_file.
  destruct (frame_eval_rel E) as [Hrefl Htrans Hinv Hbody Huse Hcache Hchild Hloc Hatt Hla Hm].
  pose proof (evaluate_file_child E frame (eval E n) Hrefl Htrans Hbody Huse Hcache
    (λ self acc nd s, eval_frame E n self acc nd s) None path fs s) as Hf. cbv zeta in *.
  destruct Hf as [[-> Hno]|[HF Hi]].
  { split; [done|]. split; [done|]. split; [done|]. split.
    - intros j x ? ?%lookup_lt_Some. lia.
    - intros i Hi. by apply Hno in Hi. }
  generalize dependent (evaluate_file E (eval E n) None path fs s). intros [s2 o] HF Hi. simpl in *.
  destruct HF as [Hw2 Hl Ho Hs Hn Ht]; simpl.
  { by apply alloc_wf. }
  { unfold valid. rewrite app_length. simpl. lia. }
  simpl in *. rewrite app_length in *. simpl in *.
  split; [done|]. split; [|split; [|split]].
  - intros j x Hx. pose proof (lookup_lt_Some _ _ _ Hx). rewrite Ho by lia. by apply lookup_app_l_Some.
  - intros Hown. by apply Ht, alloc_owned.
  - intros j x Hj Hx. destruct (Hn j x) as (p & ? & ?); [lia|done|]. exists p. split; [done|lia].
  - intros i Heq. apply Hi in Heq as ->. split; [done|].
    destruct (Hs (new_section None path)) as (x' & Hx' & G).
    { by apply list_lookup_middle. }
    exists x'. split; [done|]. by rewrite (g_parent _ _ _ G).
Qed.
