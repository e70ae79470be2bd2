(** The sections of a book (Book.v) in memory: one after the other, each followed by
    its subsections. *)
From Coq Require Import Ascii String.
From stdpp Require Import base tactics relations strings list.
From Verif Require Import GoBase Ast Grammar Content ContentSpec ContentProofs Section StrProofs TreeSpec TreeProofs TagProofs QueryProofs
  Evaluate EvalProofs EvalFrame EvalInv EvalSpec EvalTheory BaseSpec BaseRuns Book BookEval.
Local Open Scope string_scope. Local Open Scope list_scope.

Definition omits (b : sec) : bool := match b with Sec _ _ _ o _ _ => o end.
Definition body_of (b : sec) : list piece := match b with Sec _ _ _ _ l _ => l end.

Fixpoint size (b : sec) : nat := match b with Sec _ _ _ _ _ subs => S (sum_list_with size subs) end.
Notation sizes := (sum_list_with size).
Fixpoint kids (j : nat) (l : list sec) : list nat :=
  match l with [] => [] | c :: l => j :: kids (j + size c) l end.

Definition body_is (i : nat) (body : list piece) (c : content) : Prop :=
  ∃ cs, Forall2 (piece_is i) body cs ∧ c = default CEmpty (joined cs).

(** The tag of an anchor. *)
Definition anchor_is (i : nat) (a : string * list span) (t : tag) : Prop :=
  ∃ c l, line_is i (snd a) c ∧ t = Tag (fst a) (Some c) (Some i) (fst a) None l.

(** Section [x], at [i], is [b]; [coll]: its anchors have been collected. *)
Record sec_at (coll : bool) (i : nat) (par : option nat) (b : sec) (x : section) : Prop := SecAt {
  at_parent : s_parent x = par;
  at_split : s_split x = is_split b;
  at_reset : s_reset x = is_fresh b;
  at_omit : s_omit x = omits b;
  at_style : s_style x = "";
  at_partials : s_partials x = [];
  at_title : line_is i (title_of b) (s_title x);
  at_body : body_is i (body_of b) (s_body x);
  at_tags : ∃ l ts, s_tags x = map (λ n, Tag n (Some (s_title x)) (Some i) "" None l) (tag_names b) ++ ts ∧
    (if coll then Forall2 (anchor_is i) (flat_map piece_anchors (body_of b)) ts else ts = []);
  at_primary : head (s_tags x) = Some (s_primary x);
  at_children : s_children x = kids (S i) (subs_of b)
}.

Section all.
  Context (stored : sec → nat → Prop).
  Fixpoint stored_list (l : list sec) (j : nat) : Prop :=
    match l with [] => True | c :: l => stored c j ∧ stored_list l (j + size c) end.
End all.
Fixpoint stored (coll : bool) (h : heap) (par : option nat) (b : sec) (i : nat) : Prop :=
  match b with
  | Sec _ _ _ _ _ subs =>
      (∃ x, h !! i = Some x ∧ sec_at coll i par b x) ∧ stored_list (stored coll h (Some i)) subs (S i)
  end.

Lemma size_pos b : 0 < size b.
Proof. destruct b. simpl. lia. Qed.

Lemma stored_same coll h h' par b i : (∀ j, i ≤ j < i + size b → h' !! j = h !! j) →
  stored coll h par b i → stored coll h' par b i.
Proof.
  revert par i. induction b as [title tags split omit body subs IH] using sec_ind'. intros par i Hs [(x & Hx & Ha) Hl].
  simpl in Hs. split; [exists x; split; [|done]; rewrite Hs; [done|lia]|].
  assert (∀ j, S i ≤ j → j + sizes subs ≤ i + S (sizes subs) → stored_list (stored coll h (Some i)) subs j → stored_list (stored coll h' (Some i)) subs j) as Hgo;
    [|by apply Hgo; [lia|lia|]].
  clear Hl Ha. set (n := S (sizes subs)) in *. clearbody n. induction IH as [|c l Hc _ IHl]; intros j H1 H2; [done|].
  simpl in *. intros [Hs1 Hs2]. split; [|apply IHl; [lia|lia|done]]. apply Hc; [|done]. intros k Hk. apply Hs. lia.
Qed.
Lemma stored_list_same coll h h' par l j : (∀ k, j ≤ k < j + sizes l → h' !! k = h !! k) →
  stored_list (stored coll h par) l j → stored_list (stored coll h' par) l j.
Proof.
  revert j. induction l as [|c l IH]; intros j Hs; [done|]. simpl in *. intros [H1 H2]. split.
  - eapply stored_same; [|done]. intros k Hk. apply Hs. lia.
  - apply IH; [|done]. intros k Hk. apply Hs. lia.
Qed.
Lemma stored_upd coll h par b i f : (∀ x, sec_at coll i par b x → sec_at coll i par b (f x)) →
  stored coll h par b i → stored coll (upd h i f) par b i.
Proof.
  destruct b as [title tags split omit body subs]. intros Hf [(x & Hx & Ha) Hl]. split.
  - exists (f x). split; [by apply upd_lookup_eq|by apply Hf].
  - eapply stored_list_same; [|done]. intros k Hk. apply upd_lookup_ne. lia.
Qed.
(** ** Evaluating sections *)

(** Whether subsections may have pages of their own. *)
Definition held (h : heap) (i : nat) : Prop := ∃ a x, ancestor h a i ∧ h !! a = Some x ∧ s_prevent x = true.
Definition above (h : heap) (par : option nat) (p : bool) : Prop := p = true ↔ ∃ q, par = Some q ∧ held h q.
Lemma held_same h h' i : wf h → (∀ j, j ≤ i → h' !! j = h !! j) → held h i ↔ held h' i.
Proof.
  intros W Hs. assert (∀ a, ancestor h a i → a ≤ i ∧ ancestor h' a i) as H1.
  { intros a A. revert i A Hs. refine (rtc_ind_r (λ i, (∀ j, j ≤ i → h' !! j = h !! j) → a ≤ i ∧ ancestor h' a i) a _ _).
    - intros _. split; [done|apply rtc_refl].
    - intros j i A (x & Hx & Hp) IH Hs. assert (j < i) as Hlt by by eapply wf_parent. destruct IH as [Hle A']; [intros k Hk; apply Hs; lia|].
      split; [lia|]. eapply rtc_r; [exact A'|]. exists x. by rewrite Hs. }
  assert (∀ a, ancestor h' a i → a ≤ i ∧ ancestor h a i) as H2.
  { intros a A. clear H1. revert i A Hs. refine (rtc_ind_r (λ i, (∀ j, j ≤ i → h' !! j = h !! j) → a ≤ i ∧ ancestor h a i) a _ _).
    - intros _. split; [done|apply rtc_refl].
    - intros j i A (x & Hx & Hp) IH Hs. rewrite Hs in Hx by done. assert (j < i) as Hlt by by eapply wf_parent. destruct IH as [Hle A']; [intros k Hk; apply Hs; lia|].
      split; [lia|]. eapply rtc_r; [exact A'|]. by exists x. }
  split; intros (a & x & A & Hx & Hp).
  - destruct (H1 a A) as [Hle A']. exists a, x. split; [done|]. by rewrite Hs.
  - destruct (H2 a A) as [Hle A']. exists a, x. split; [done|]. by rewrite <- Hs.
Qed.
Lemma held_step h i x : wf h → h !! i = Some x → held h i ↔ s_prevent x = true ∨ ∃ q, s_parent x = Some q ∧ held h q.
Proof.
  intros W Hx. split.
  - intros (a & y & A & Hy & Hp). apply rtc_inv_r in A as [->|(q & A & z & Hz & Hq)].
    + rewrite Hx in Hy. injection Hy as ->. by left.
    + rewrite Hx in Hz. injection Hz as <-. right. exists q. split; [done|]. by exists a, y.
  - intros [Hp|(q & Hq & a & y & A & Hy & Hp)].
    + exists i, x. split; [apply rtc_refl|done].
    + exists a, y. split; [|done]. eapply rtc_r; [exact A|]. by exists x.
Qed.
Lemma above_held h i x p : wf h → h !! i = Some x → above h (s_parent x) p → (s_prevent x || p = true ↔ held h i).
Proof. intros W Hx Ha. rewrite (held_step h i x W Hx), orb_true_iff. unfold above in Ha. by rewrite Ha. Qed.
Lemma above_same h h' i x p : wf h → h !! i = Some x → (∀ j, j < i → h' !! j = h !! j) → above h (s_parent x) p → above h' (s_parent x) p.
Proof.
  intros W Hx Hs Ha. unfold above in *. rewrite Ha. split; intros (q & Hq & H); exists q; (split; [done|]);
    (assert (q < i) as Hlt by by eapply wf_parent); (apply (held_same h h' q W); [intros j Hj; apply Hs; lia|done]).
Qed.

(** What a section says of its subsections. *)
Record flags := Flags { fl_split : bool; fl_prevent : bool; fl_reset : bool }.
Definition no_flags := Flags false false false.

(** Section [i] while it is being evaluated. *)
Definition mk (p : string) (title : content) (tl : loc) (prim : tag) (tags : list tag) (par : option nat) (ks : list nat)
    (fl : flags) (om : bool) (lc il : loc) : section :=
  Section p title CEmpty tl prim tags par ks "" [] (fl_split fl) (fl_prevent fl) (fl_reset fl) om [FBase] lc il.

Lemma near_heap i s s' x : near i s s' → st_heap s !! i = Some x → ∃ l, st_heap s' !! i = Some (set_invloc x l).
Proof. intros [l ->] Hx. exists l. simpl. by rewrite (upd_lookup_eq _ _ _ _ Hx). Qed.
Lemma near_other i s s' j : near i s s' → j ≠ i → st_heap s' !! j = st_heap s !! j.
Proof. intros [l ->] Hj. simpl. by apply upd_lookup_ne. Qed.
Lemma near_length i s s' : near i s s' → length (st_heap s') = length (st_heap s).
Proof. intros [l ->]. simpl. apply upd_length. Qed.

Lemma set_title_eq i c l names x : set_title i c l names x =
  set_title_fields x c l (hd tag0 (map (λ n, Tag n (Some c) (Some i) "" None l) names)) (map (λ n, Tag n (Some c) (Some i) "" None l) names).
Proof.
  unfold set_title.
  assert (∀ ts, fold_left (λ s name, set_tag i name (Some c) l [] s) names (set_tags x ts) =
    set_tags x (ts ++ map (λ n, Tag n (Some c) (Some i) "" None l) names)) as Hgo.
  { induction names as [|n names IH]; intros ts; simpl; [by rewrite (right_id_L [] (++))|].
    change (set_tag i n (Some c) l [] (set_tags x ts)) with (set_tags x (ts ++ [Tag n (Some c) (Some i) "" None l])).
    rewrite IH. by rewrite <- (assoc_L (++)). }
  rewrite Hgo. done.
Qed.

Section titles.
  Context (similar : string → string → bool) (broken : bool) (h : heap) (n i : nat).
  Notation str := (cstring similar broken h n).

  Lemma str_seq l : str (CSeq l) = obind (λ ss, Ok (sconcat ss)) (omapM str l).
  Proof. by destruct n. Qed.

  (** Contents without references, targets and so on. *)
  Definition says (t : string) (c : content) : Prop :=
    strip_aux c = Some c ∧ str c = Ok t ∧ is_aux c = false ∧ (∀ l, c ≠ CSeq l).

  Lemma says_all cs ts : Forall2 says ts cs → strip_aux (CSeq cs) = Some (CSeq cs) ∧ omapM str cs = Ok ts.
  Proof.
    induction 1 as [|t c ts cs (H1 & H2 & H3 & _) F [IH1 IH2]]; [done|]. split.
    - rewrite strip_aux_seq in *. simpl. destruct (strip_list cs) as [l|] eqn:Hl; [|done]. injection IH1 as ->.
      unfold strip_list. simpl. rewrite H3. simpl. rewrite H1. simpl. unfold strip_list in Hl. by rewrite Hl.
    - simpl. by rewrite H2, IH2.
  Qed.

  Lemma says_joined ts cs c : Forall2 says ts cs → joined cs = Some c → strip_aux c = Some c ∧ str c = Ok (sconcat ts).
  Proof.
    intros F J. destruct F as [|t1 c1 ts cs H1 F]; [done|]. destruct F as [|t2 c2 ts cs H2 F].
    - injection J as <-. destruct H1 as (H1 & H2 & _). split; [done|]. rewrite H2. simpl. by rewrite sapp_nil_r.
    - assert (joined (c1 :: c2 :: cs) = Some (CSeq (c1 :: c2 :: cs))) as J'.
      { destruct H1 as (_ & _ & _ & H1). destruct c1; try done. by destruct (H1 l). }
      rewrite J' in J. injection J as <-.
      destruct (says_all (c1 :: c2 :: cs) (t1 :: t2 :: ts)) as [HA HB]; [constructor; [done|by constructor]|].
      split; [exact HA|]. rewrite str_seq, HB. done.
  Qed.

  Lemma span_says w : plain_span w = true → ∀ c, span_is i w c → says (span_text w) c.
  Proof.
    assert (∀ l, Forall (λ w, plain_span w = true → ∀ c, span_is i w c → says (span_text w) c) l → forallb plain_span l = true →
      ∀ cs, Forall2 (span_is i) l cs → Forall2 says (map span_text l) cs) as Hall.
    { intros l Hl. induction Hl as [|w' l' Hw Hl IH]; intros Hf cs F; inversion F; subst; [constructor|].
      simpl in Hf. apply andb_true_iff in Hf as [? ?]. constructor; auto. }
    induction w as [t|k l IH|l u IH|p d|t l IH|t l IH] using span_ind'; intros Hp c Hc; simpl in Hp; try done; inversion Hc as [|? ? cs ? F J|? ? cs ? F J| | |]; subst.
    - split; [done|]. split; [by destruct n|]. split; [done|]. intros ? ?. congruence.
    - destruct (says_joined _ _ _ (Hall l IH Hp _ F) J) as [H4 H5]. split; [rewrite strip_aux_styled; simpl; by rewrite H4|].
      split; [by destruct n|]. split; [done|]. intros ? ?. congruence.
    - destruct (says_joined _ _ _ (Hall l IH Hp _ F) J) as [H4 H5]. split; [rewrite strip_aux_link; by rewrite H4|].
      split; [by destruct n|]. split; [done|]. intros ? ?. congruence.
    - split; [done|]. split; [by destruct n|]. split; [done|]. intros ? ?. congruence.
  Qed.

  Lemma title_says l c : forallb plain_span l = true → line_is i l c → strip_aux c = Some c ∧ str c = Ok (text l).
  Proof.
    intros Hp (cs & F & J). eapply (says_joined (map span_text l) cs); [|done]. clear J. revert Hp. induction F as [|w c' l' cs' Hw F IH]; intros Hp; [constructor|].
    simpl in Hp. apply andb_true_iff in Hp as [? ?]. constructor; [by apply span_says|auto].
  Qed.
End titles.

Lemma tags_of_title E h b i c : sec_fine b = true → line_is i (title_of b) c →
  title_tags (e_similar E) (e_broken E) h (e_jumps E) c (match b with Sec _ tags _ _ _ _ => tags end) = Ok (tag_names b).
Proof.
  destruct b as [title tags split omit body subs]. intros Hf Hc. simpl in Hf. repeat (apply andb_true_iff in Hf as [Hf ?]).
  destruct tags; [|done]. simpl. unfold default_tag. destruct (title_says (e_similar E) (e_broken E) h (e_jumps E) i title c) as [H1' H2']; [done|done|].
  rewrite H1', H2'. done.
Qed.
