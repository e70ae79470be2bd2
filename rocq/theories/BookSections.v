(** Evaluating the sections of a book (Book.v). *)
From Coq Require Import Ascii String.
From stdpp Require Import base tactics relations strings list.
From Verif Require Import GoBase Ast Grammar Content ContentSpec ContentProofs Section StrProofs TreeSpec TreeProofs TagProofs QueryProofs
  Evaluate EvalProofs EvalFrame EvalInv CacheFree EvalEnds EvalSpec EvalTheory EvalFail EvalMore BaseSpec BaseRuns Book BookLaid BookEval BookStore.
Local Open Scope string_scope. Local Open Scope list_scope.

Definition named (i : nat) (c : content) (l : loc) (names : list string) : list tag :=
  map (λ n, Tag n (Some c) (Some i) "" None l) names.

(** Section [i] during its evaluation: what is known of it so far. *)
Definition doing (i : nat) (par : option nat) (c : content) (names : list string) (ks : list nat) (sp : flags) (om : bool) (x : section) : Prop :=
  ∃ p tl prim l lc il, x = mk p c tl prim (named i c l names) par ks sp om lc il ∧ (names ≠ [] → prim = hd tag0 (named i c l names)).

(** Nothing else changes. *)
Definition apart (i : nat) (s s' : st) : Prop :=
  length (st_heap s') = length (st_heap s) ∧ ∀ j, j ≠ i → st_heap s' !! j = st_heap s !! j.
Lemma apart_refl i s : apart i s s.
Proof. done. Qed.
Lemma apart_trans i s1 s2 s3 : apart i s1 s2 → apart i s2 s3 → apart i s1 s3.
Proof. intros [L1 O1] [L2 O2]. split; [congruence|]. intros j Hj. rewrite O2, O1; done. Qed.
Lemma apart_near i s s' : near i s s' → apart i s s'.
Proof. intros N. split; [by eapply near_length|]. intros j Hj. by eapply near_other. Qed.
Lemma apart_upd i s f : apart i s (St (upd (st_heap s) i f) (st_cache s)).
Proof. split; simpl; [apply upd_length|]. intros j Hj. by apply upd_lookup_ne. Qed.
Lemma doing_near i par c names ks sp om s s' x : near i s s' → st_heap s !! i = Some x → doing i par c names ks sp om x →
  ∃ x', st_heap s' !! i = Some x' ∧ doing i par c names ks sp om x'.
Proof.
  intros N Hx (p & tl & prim & l & lc & il & -> & Hp). destruct (near_heap _ _ _ _ N Hx) as [l' Hx']. eexists. split; [exact Hx'|].
  by exists p, tl, prim, l, lc, l'.
Qed.
Lemma doing_based i par c names ks sp om s x : st_heap s !! i = Some x → doing i par c names ks sp om x → based i s.
Proof. intros Hx (p & tl & prim & l & lc & il & -> & Hp). by eexists. Qed.
Lemma doing_flags i par c names ks sp om x : doing i par c names ks sp om x → s_prevent x = fl_prevent sp ∧ s_parent x = par.
Proof. by intros (p & tl & prim & l & lc & il & -> & Hp). Qed.

Lemma apart_above i s s' x par p : wf (st_heap s) → st_heap s !! i = Some x → s_parent x = par → apart i s s' → above (st_heap s) par p → above (st_heap s') par p.
Proof. intros W Hx <- [_ Ho]. apply (above_same _ _ i x); [done|done|]. intros j Hj. apply Ho. lia. Qed.
Lemma frame_above i s s' x par p : wf (st_heap s) → st_heap s !! i = Some x → s_parent x = par → frame_facts i (st_heap s) (st_heap s') →
  above (st_heap s) par p → above (st_heap s') par p.
Proof.
  intros W Hx <- [_ _ Ho _ _ _]. apply (above_same _ _ i x); [done|done|]. intros j Hj. apply lookup_lt_Some in Hx. apply Ho; lia.
Qed.
Lemma above_child h i x par p sp : wf h → h !! i = Some x → s_parent x = par → s_prevent x = fl_prevent sp → above h par p → above h (Some i) (fl_prevent sp || p).
Proof.
  intros W Hx <- <- Ha. unfold above. rewrite (above_held h i x p W Hx Ha). split; [intros H; by exists i|]. by intros (q & [= ->] & H).
Qed.

Section sections.
  Context (E : env) (HE : base_env E).

  Lemma yields_all_app i s1 s2 s3 a b cs ds : yields_all E i (runs E i) s1 a s2 cs → yields_all E i (runs E i) s2 b s3 ds →
    yields_all E i (runs E i) s1 (a ++ b) s3 (cs ++ ds).
  Proof.
    revert s1 cs. induction a as [|nd a IH]; intros s1 cs Y1 Y2; inversion Y1; subst; [done|].
    simpl. rewrite <- (assoc_L (++)). econstructor; [done|]. by eapply IH.
  Qed.
  Lemma yields_all_one i s1 s2 nd cs : yields E i (runs E i) s1 nd s2 cs → yields_all E i (runs E i) s1 [nd] s2 cs.
  Proof. intros Y. rewrite <- (right_id_L [] (++) cs). econstructor; [done|constructor]. Qed.
  Lemma yields_all_frame i s l s' cs : yields_all E i (runs E i) s l s' cs → wf (st_heap s) → valid (st_heap s) i →
    frame_facts i (st_heap s) (st_heap s').
  Proof. intros Y. apply (yields_valid E i s (NSeq l) s' cs). by constructor. Qed.

  (** A paragraph with a call that has no contents. *)
  Lemma quiet i s s' nd : yields E i (runs E i) s nd s' [] → yields E i (runs E i) s (NPara [[nd]]) s' [].
  Proof.
    intros Y. change (@nil content) with (block (omap joined [[] : list content])). constructor. econstructor; [|constructor].
    by apply yields_all_one.
  Qed.
  Lemma quiet_call i s s1 s' fn m args l argv rets : base_method (method_name fn) = Some m → based i s → accepts m (length args) →
    yields_args E i (runs E i) (touch i l s) m 0 args s1 argv → ACon None ∉ argv →
    runs E i s1 m argv s' rets → returns rets [] → yields E i (runs E i) s (NInvoke fn args l) s' [].
  Proof.
    intros Hm (y & Hy & Hf) Ha HY Hz Hr Hret.
    eapply (yields_invoke E i (runs E i)); [exact Hy| |exact Ha|exact HY|exact Hz|exact Hr|exact Hret].
    rewrite Hf. by apply base_dispatch.
  Qed.

  Lemma tag_args i m k ts : (∀ j, k ≤ j → param m j TStr) → ∀ s nds, based i s → map erase nds = map (λ t, NSeq [NString t]) ts →
    yields_args E i (runs E i) s m k nds s (map AStr ts).
  Proof.
    revert k. induction ts as [|t ts IH]; intros k Hp s nds Hb He.
    - destruct nds; [|done]. constructor.
    - destruct nds as [|nd nds]; [done|]. simpl in He. injection He as He1 He2. simpl.
      eapply (args_cons E i (runs E i)); [by apply Hp|by apply eval_str_arg|]. apply IH; [|done|done]. intros j Hj. apply Hp. lia.
  Qed.
  Lemma str_args_str ts : str_args (map AStr ts) = Some ts.
  Proof. induction ts as [|t ts IH]; [done|]. simpl. by rewrite IH. Qed.
  Lemma no_zero_str ts : ACon None ∉ map AStr ts.
  Proof. induction ts; simpl; [by apply not_elem_of_nil|]. by apply not_elem_of_cons. Qed.

  Lemma eval_title i par b s x lines : sec_fine b = true → st_heap s !! i = Some x → doing i par CEmpty [] [] no_flags false x →
    map (map erase) lines = title_tree (title_of b) (match b with Sec _ tags _ _ _ _ => tags end) →
    ∃ s' x' c, yields E i (runs E i) s (NPara lines) s' [] ∧ line_is i (title_of b) c ∧
      st_heap s' !! i = Some x' ∧ doing i par c (tag_names b) [] no_flags false x' ∧ apart i s s'.
  Proof.
    intros Hf Hx Hd He. assert (tag_names b ≠ []) as Hn by (destruct b as [? [|? ?]]; done).
    pose proof Hf as Hf'. destruct b as [title tags split omit body subs]. simpl in Hf'. repeat (apply andb_true_iff in Hf' as [Hf' ?]).
    simpl in He. apply one_call in He as (nd & -> & He). destruct nd as [| | | |fn args lc]; try done. simpl in He. injection He as -> He.
    destruct args as [|a args]; [done|]. simpl in He. injection He as He1 He2.
    pose proof (doing_based _ _ _ _ _ _ _ _ _ Hx Hd) as Hb.
    assert (based i (touch i lc s)) as Hb1 by (by eapply near_based; [apply near_touch|]).
    destruct (line_arg E HE i title) with (s := touch i lc s) (nd := a) as (s1 & c & Y1 & L1 & N1); [by apply andb_true_iff|done|done|].
    assert (near i s s1) as N by (eapply near_trans; [apply near_touch|exact N1]).
    destruct (doing_near _ _ _ _ _ _ _ _ _ _ N Hx Hd) as (x1 & Hx1 & Hd1). clear Hd.
    destruct Hd1 as (p & tl & prim & l & lc1 & il & -> & _).
    exists (St (upd (st_heap s1) i (set_title i c il (tag_names (Sec title tags split omit body subs)))) (st_cache s1)).
    eexists _, c. split; [|split; [done|]].
    - apply quiet. eapply (quiet_call i s s1 _ "title" m_title); [done|done| | | | |].
      + simpl. unfold accepts. simpl. lia.
      + eapply (args_cons E i (runs E i)); [by left|exact Y1|]. apply (tag_args i m_title 1 tags); [|by eapply near_based|done].
        intros j Hj. right. simpl. split; [lia|done].
      + apply not_elem_of_cons. split; [done|]. apply no_zero_str.
      + exists 0. simpl. rewrite str_args_str. simpl. unfold getself. simpl. unfold Evaluate.mbind, mheap. rewrite Hx1. simpl.
        unfold Evaluate.mbind, mheap, mlift. rewrite (tags_of_title E _ (Sec title tags split omit body subs) i c Hf L1). done.
      + constructor.
    - simpl. split; [by rewrite (upd_lookup_eq _ _ _ _ Hx1)|]. split.
      + rewrite set_title_eq. by exists p, il, (hd tag0 (named i c il (tag_names (Sec title tags split omit body subs)))), il, lc1, il.
      + eapply apart_trans; [by apply apart_near|]. apply apart_upd.
  Qed.

  Lemma eval_single i par c names ks s x lines om : st_heap s !! i = Some x → doing i par c names ks no_flags om x →
    map (map erase) lines = [[call "single-page" []]] →
    ∃ s' x', yields E i (runs E i) s (NPara lines) s' [] ∧
      st_heap s' !! i = Some x' ∧ doing i par c names ks (Flags false true false) om x' ∧ apart i s s'.
  Proof.
    intros Hx Hd He. apply one_call in He as (nd & -> & He). destruct nd as [| | | |fn args lc]; try done. simpl in He. injection He as -> He.
    destruct args; [|done]. pose proof (doing_based _ _ _ _ _ _ _ _ _ Hx Hd) as Hb. pose proof (near_touch i lc s) as N.
    destruct (doing_near _ _ _ _ _ _ _ _ _ _ N Hx Hd) as (x1 & Hx1 & Hd1).
    eexists (St (upd (st_heap (touch i lc s)) i _) (st_cache s)), _. split; [|split; [|split]].
    - apply quiet. eapply (quiet_call i s (touch i lc s) _ "single-page" m_single_page); [done|done|done|constructor|by apply not_elem_of_nil| |].
      + exists 0. simpl. unfold Evaluate.mbind, mheap. simpl. done.
      + constructor.
    - simpl in *. by rewrite (upd_lookup_eq _ _ _ _ Hx1).
    - destruct Hd1 as (p & tl & prim & l & lc1 & il & -> & Hp). by exists p, tl, prim, l, lc1, il.
    - eapply apart_trans; [by apply apart_near|]. apply (apart_upd i (touch i lc s)).
  Qed.

  Lemma eval_split i par c names ks s x lines om pv p : wf (st_heap s) → above (st_heap s) par p → st_heap s !! i = Some x → doing i par c names ks (Flags false pv false) om x →
    map (map erase) lines = [[call "split-sections" []]] →
    ∃ s' x', yields E i (runs E i) s (NPara lines) s' [] ∧
      st_heap s' !! i = Some x' ∧ doing i par c names ks (Flags (negb (pv || p)) pv true) om x' ∧ apart i s s'.
  Proof.
    intros Hw Hab Hx Hd He. apply one_call in He as (nd & -> & He). destruct nd as [| | | |fn args lc]; try done. simpl in He. injection He as -> He.
    destruct args; [|done]. pose proof (doing_based _ _ _ _ _ _ _ _ _ Hx Hd) as Hb. pose proof (near_touch i lc s) as N.
    destruct (doing_near _ _ _ _ _ _ _ _ _ _ N Hx Hd) as (x1 & Hx1 & Hd1).
    destruct (doing_flags _ _ _ _ _ _ _ _ Hd) as [Hpv Hpar]. destruct (doing_flags _ _ _ _ _ _ _ _ Hd1) as [Hpv1 Hpar1].
    set (s1 := touch i lc s) in *.
    set (s2 := St (upd (st_heap s1) i (λ s, set_flags s (s_split s) (s_prevent s) true (s_omit s))) (st_cache s1)).
    set (s3 := St (upd (st_heap s2) i (λ s, set_flags s true (s_prevent s) (s_reset s) (s_omit s))) (st_cache s1)).
    assert (st_heap s2 !! i = Some (set_flags x1 (s_split x1) (s_prevent x1) true (s_omit x1))) as Hx2 by (simpl; by rewrite (upd_lookup_eq _ _ _ _ Hx1)).
    assert (apart i s s2) as A2 by (eapply apart_trans; [by apply apart_near|]; apply apart_upd).
    assert (wf (st_heap s2)) as Hw2.
    { simpl. apply upd_wf; [by intros ?|]. by apply upd_wf; [intros ?|]. }
    assert (pv || p = true ↔ held (st_heap s2) i) as Hheld.
    { rewrite <- (above_held (st_heap s2) i _ p Hw2 Hx2); [simpl; by rewrite Hpv1|].
      simpl s_parent. rewrite Hpar1. exact (apart_above i s s2 x par p Hw Hx Hpar A2 Hab). }
    destruct (split_prevented_spec (st_heap s2) i Hw2) as (b & Hsp & Hbt); [by eapply lookup_lt_Some|].
    assert (b = pv || p) as ->.
    { unfold held in Hheld. rewrite <- Hbt in Hheld. clear - Hheld. destruct b, (pv || p); intuition congruence. }
    exists (if pv || p then s2 else s3).
    exists (set_flags x1 (if pv || p then s_split x1 else true) (s_prevent x1) true (s_omit x1)). split; [|split; [|split]].
    - apply quiet. eapply (quiet_call i s s1 _ "split-sections" m_split); [done|done|done|constructor|by apply not_elem_of_nil| |].
      + exists 0. simpl. unfold Evaluate.mbind, mheap. simpl. fold s1. change (upd (st_heap s1) i _) with (st_heap s2).
        simpl in Hsp. simpl. rewrite Hsp. destruct (pv || p); simpl; done.
      + constructor.
    - destruct (pv || p); [done|]. simpl. simpl in Hx2. by rewrite (upd_lookup_eq _ _ _ _ Hx2).
    - destruct Hd1 as (q & tl & prim & l & lc1 & il & -> & Hp). exists q, tl, prim, l, lc1, il. split; [|done]. by destruct (pv || p).
    - destruct (pv || p); [done|]. eapply apart_trans; [exact A2|]. apply (apart_upd i s2).
  Qed.

  Lemma eval_omit i par c names ks s x lines sp : st_heap s !! i = Some x → doing i par c names ks sp false x →
    map (map erase) lines = [[call "omit-children-from-table-of-contents" []]] →
    ∃ s' x', yields E i (runs E i) s (NPara lines) s' [] ∧
      st_heap s' !! i = Some x' ∧ doing i par c names ks sp true x' ∧ apart i s s'.
  Proof.
    intros Hx Hd He. apply one_call in He as (nd & -> & He). destruct nd as [| | | |fn args lc]; try done. simpl in He. injection He as -> He.
    destruct args; [|done]. pose proof (doing_based _ _ _ _ _ _ _ _ _ Hx Hd) as Hb. pose proof (near_touch i lc s) as N.
    destruct (doing_near _ _ _ _ _ _ _ _ _ _ N Hx Hd) as (x1 & Hx1 & Hd1).
    eexists (St (upd (st_heap (touch i lc s)) i _) (st_cache s)), _. split; [|split; [|split]].
    - apply quiet. eapply (quiet_call i s (touch i lc s) _ "omit-children-from-table-of-contents" m_omit); [done|done|done|constructor|by apply not_elem_of_nil| |].
      + exists 0. simpl. unfold Evaluate.mbind, mheap. simpl. done.
      + constructor.
    - simpl in *. by rewrite (upd_lookup_eq _ _ _ _ Hx1).
    - destruct Hd1 as (p & tl & prim & l & lc1 & il & -> & Hp). by exists p, tl, prim, l, lc1, il.
    - eapply apart_trans; [by apply apart_near|]. apply (apart_upd i (touch i lc s)).
  Qed.

  Lemma eval_body i par c names ks sp om body : forallb piece_fine body = true → ∀ s x paras, st_heap s !! i = Some x → doing i par c names ks sp om x →
    map (map (map erase)) paras = map piece_tree body →
    ∃ s' x' cs, yields_all E i (runs E i) s (map NPara paras) s' cs ∧ Forall2 (piece_is i) body cs ∧
      st_heap s' !! i = Some x' ∧ doing i par c names ks sp om x' ∧ apart i s s'.
  Proof.
    induction body as [|p body IH]; intros Hf s x paras Hx Hd He.
    - destruct paras; [|done]. exists s, x, []. split; [constructor|]. split; [constructor|]. split; [done|]. split; [done|apply apart_refl].
    - destruct paras as [|lines paras]; [done|]. simpl in He, Hf. injection He as He1 He2. apply andb_true_iff in Hf as [Hf1 Hf2].
      destruct (eval_piece E HE i p Hf1 s lines) as (s1 & c1 & Y1 & P1 & N1); [by eapply doing_based|done|].
      destruct (doing_near _ _ _ _ _ _ _ _ _ _ N1 Hx Hd) as (x1 & Hx1 & Hd1).
      destruct (IH Hf2 s1 x1 paras Hx1 Hd1 He2) as (s2 & x2 & cs & Y2 & F2 & Hx2 & Hd2 & A2).
      exists s2, x2, (c1 :: cs). split; [by apply (yields_cons _ _ _ s _ _ s1 s2 [c1] cs)|]. split; [by constructor|].
      split; [done|]. split; [done|]. eapply apart_trans; [by apply apart_near|done].
  Qed.

  (** With the body that its paragraphs make. *)
  Definition with_body (cs : list content) (x : section) : section :=
    match joined cs with Some c => set_body x c | None => x end.

  (** What is in the cache is what the files hold. *)
  Notation good := (all_good (λ p nd t, e_fs E p = Some (t, inl nd))).

  Lemma yields_good i s nd s' cs : yields E i (runs E i) s nd s' cs → wf (st_heap s) → valid (st_heap s) i → good (st_cache s) → good (st_cache s').
  Proof.
    intros Y Hw Hv G. destruct (proj1 (yields_complete E i) _ _ _ _ Y Hw Hv) as [n Hn].
    assert (alike (λ p nd t, e_fs E p = Some (t, inl nd)) s s) as HA by done.
    destruct (resp_eval E (λ p nd t, e_fs E p = Some (t, inl nd)) (λ p mt nd H, H)) with (n := n) (self := i) (acc := None (A := content)) (nd := nd) (s := s) (s' := s) as [HB _]; [|done|].
    - intros p nd' t mt x H1 H2 _. rewrite H1 in H2. by injection H2 as _ ->.
    - rewrite (Hn None) in HB. by destruct HB as (_ & ? & _).
  Qed.
  Lemma yields_all_good i s l s' cs : yields_all E i (runs E i) s l s' cs → wf (st_heap s) → valid (st_heap s) i → good (st_cache s) → good (st_cache s').
  Proof. intros Y. apply (yields_good i s (NSeq l) s' cs). by constructor. Qed.

  Definition Esec (sg p : bool) (path : string) (b : sec) (t : tree) : Prop := ∀ i par s x nd, wf (st_heap s) → above (st_heap s) par p → good (st_cache s) →
    file_path (st_heap s) i = Some path →
    st_heap s !! i = Some x → doing i par CEmpty [] [] no_flags false x → length (st_heap s) = S i →
    erase nd = NSeq (map NPara t) →
    ∃ s' cs x', yields E i (runs E i) s nd s' cs ∧ length (st_heap s') = i + size b ∧
      st_heap s' !! i = Some x' ∧ s_prevent x' = sg ∧ stored false (upd (st_heap s') i (with_body cs)) par b i.

  (** A new section below [i], at [q] if that is a file of its own. *)
  Lemma eval_child i q sg p path b t s1 a : Esec sg p path b t → wf (st_heap s1) → above (st_heap s1) (Some i) p → good (st_cache s1) → valid (st_heap s1) i →
    (if String.eqb q "" then file_path (st_heap s1) i = Some path else q = path) →
    erase a = NSeq (map NPara t) →
    ∃ n s4, (∀ A (K : nat → M A), Evaluate.mbind (alloc (Some i) q) (λ j, Evaluate.mbind (evaluate_section (eval E n) j a [FBase]) (λ _, K j)) s1 = K (length (st_heap s1)) s4) ∧
      length (st_heap s4) = length (st_heap s1) + size b ∧
      (∀ j, j < length (st_heap s1) → st_heap s4 !! j = st_heap s1 !! j) ∧
      stored false (st_heap s4) (Some i) b (length (st_heap s1)).
  Proof.
    intros HB Hw1 Hc1 Hg1 Hv Hq He. set (k := length (st_heap s1)).
    set (s2 := St (upd (st_heap s1 ++ [new_section (Some i) q]) k (use_plugin FBase)) (st_cache s1)).
    set (y := mk q CEmpty loc0 tag0 [] (Some i) [] no_flags false loc0 loc0).
    assert ((st_heap s1 ++ [new_section (Some i) q]) !! k = Some (new_section (Some i) q)) as Hnew.
    { rewrite lookup_app_r by (unfold k; lia). unfold k. by rewrite Nat.sub_diag. }
    assert (st_heap s2 !! k = Some y) as Hy by (simpl; by rewrite (upd_lookup_eq _ _ _ _ Hnew)).
    assert (∀ j, j ≠ k → st_heap s2 !! j = st_heap s1 !! j) as Ho2.
    { intros j Hj. simpl. rewrite upd_lookup_ne by done. unfold k in *. destruct (decide (j < length (st_heap s1))).
      - rewrite lookup_app_l by lia. done.
      - rewrite !lookup_ge_None_2; [done|lia|rewrite app_length; simpl; lia]. }
    assert (length (st_heap s2) = S k) as Hl2 by (simpl; rewrite upd_length, app_length; simpl; fold k; lia).
    assert (wf (st_heap s1 ++ [new_section (Some i) q])) as Hwa by by apply alloc_wf.
    assert (wf (st_heap s2)) as Hw2 by (by apply upd_wf; [intros ?|]).
    assert (above (st_heap s2) (Some i) p) as Hc2.
    { unfold above in *. rewrite Hc1. split; intros (z & [= <-] & Hz); exists i; (split; [done|]); revert Hz; apply (held_same _ _ i Hw1); intros j Hj;
        apply Ho2; unfold valid in Hv; unfold k; lia. }
    assert (doing k (Some i) CEmpty [] [] no_flags false y) as Hdy by (by exists q, loc0, tag0, loc0, loc0, loc0).
    assert (file_path (st_heap s2) k = Some path) as Hp2.
    { simpl. rewrite file_path_upd by done. destruct (alloc_file_path (st_heap s1) i (new_section (Some i) q) Hwa Hw1 Hv eq_refl) as (_ & H1 & H2).
      fold k in H1, H2. destruct (String.eqb_spec q "") as [->|Hne]; [by rewrite H1|]. rewrite H2; [by simpl; rewrite Hq|done]. }
    destruct (HB k (Some i) s2 y a Hw2 Hc2 Hg1 Hp2 Hy Hdy Hl2 He) as (s3 & cs & x3 & Y & Hl3 & _ & _ & Hst).
    assert (valid (st_heap s2) k) as Hv2 by (unfold valid; lia).
    destruct (proj1 (yields_complete E k) _ _ _ _ Y Hw2 Hv2) as [n Hn].
    destruct (yields_valid E k s2 a s3 cs Y Hw2 Hv2) as [Hw3 _ Ho3 _ _ _].
    exists n, (St (upd (st_heap s3) k (with_body cs)) (st_cache s3)). split; [|split; [|split]].
    - intros A K. unfold Evaluate.mbind at 1. unfold alloc. fold k. unfold Evaluate.mbind at 1. unfold evaluate_section.
      assert (mfold (λ _ f, mupd k (use_plugin f)) tt [FBase] (St (st_heap s1 ++ [new_section (Some i) q]) (st_cache s1)) = (s2, Ok tt)) as Hpl by done.
      unfold Evaluate.mbind at 1. rewrite Hpl. unfold Evaluate.mbind at 1. rewrite Hn. rewrite fold_append_joined.
      unfold with_body. destruct (joined cs); [done|]. simpl.
      assert (upd (st_heap s3) k (λ x0, x0) = st_heap s3) as ->; [|by destruct s3].
      apply list_eq. intros j. rewrite upd_lookup. destruct (decide (k = j)) as [<-|]; [|done]. by destruct (st_heap s3 !! k).
    - simpl. by rewrite upd_length.
    - intros j Hj. simpl. fold k in Hj. rewrite upd_lookup_ne by lia. rewrite Ho3 by lia. apply Ho2. lia.
    - done.
  Qed.

  Lemma eval_section i par c names ks sp om sg p path b t s x lines : Esec sg (fl_prevent sp || p) path b t → wf (st_heap s) → above (st_heap s) par p → good (st_cache s) →
    file_path (st_heap s) i = Some path →
    st_heap s !! i = Some x → doing i par c names ks sp om x →
    map (map erase) lines = [[call "section" [NSeq (map NPara t)]]] →
    ∃ s' x', yields E i (runs E i) s (NPara lines) s' [] ∧ length (st_heap s') = length (st_heap s) + size b ∧
      st_heap s' !! i = Some x' ∧ doing i par c names (ks ++ [length (st_heap s)]) sp om x' ∧
      stored false (st_heap s') (Some i) b (length (st_heap s)).
  Proof.
    intros HB Hw Hcalm Hg Hpath Hx Hd He. apply one_call in He as (nd & -> & He). destruct nd as [| | | |fn args lc]; try done. simpl in He. injection He as -> He.
    destruct args as [|a [|? ?]]; try done. simpl in He. injection He as He.
    pose proof (doing_based _ _ _ _ _ _ _ _ _ Hx Hd) as Hb. pose proof (near_touch i lc s) as N.
    destruct (doing_near _ _ _ _ _ _ _ _ _ _ N Hx Hd) as (x1 & Hx1 & Hd1).
    assert (valid (st_heap s) i) as Hv by by eapply lookup_lt_Some.
    set (k := length (st_heap s)). assert (i < k) as Hik by done.
    assert (file_path (st_heap (touch i lc s)) i = Some path) as Hp1 by (simpl; by rewrite file_path_upd).
    set (s1 := touch i lc s) in *. assert (length (st_heap s1) = k) as Hk by apply (near_length _ _ _ N).
    assert (wf (st_heap s1)) as Hw1 by (by apply upd_wf; [intros ?|]).
    assert (above (st_heap s1) (Some i) (fl_prevent sp || p)) as Hc1.
    { destruct (doing_flags _ _ _ _ _ _ _ _ Hd) as [_ Hpar]. destruct (doing_flags _ _ _ _ _ _ _ _ Hd1) as [Hpv1 Hpar1].
      eapply above_child; [exact Hw1|exact Hx1|exact Hpar1|exact Hpv1|]. exact (apart_above i s s1 x par p Hw Hx Hpar (apart_near _ _ _ N) Hcalm). }
    assert (touch i lc s = s1) as Hs1 by done. assert (good (st_cache s1)) as Hg1 by done. clearbody s1.
    destruct (eval_child i "" sg (fl_prevent sp || p) path b t s1 a HB Hw1 Hc1 Hg1) as (n & s4 & Hev & Hl4 & Ho4 & Hst); [unfold valid; lia|done|done|].
    rewrite Hk in *. set (h4 := st_heap s4) in *.
    assert (h4 !! i = Some x1) as Hx4 by (by rewrite Ho4).
    set (h5 := upd h4 k (λ c, set_loc c (s_invloc x1))).
    assert (h5 !! i = Some x1) as Hx5 by (unfold h5; by rewrite upd_lookup_ne by lia).
    set (h6 := upd h5 i (λ s, set_children s (s_children s ++ [k]))).
    exists (St h6 (st_cache s4)). eexists. split; [|split; [|split; [|split]]].
    - apply quiet. eapply (quiet_call i s s1 _ "section" m_section); [done|done|done| | | |].
      + rewrite Hs1. eapply (args_cons E i (runs E i)); [by left|apply arg_node|constructor].
      + apply not_elem_of_cons. split; [done|]. by apply not_elem_of_nil.
      + exists n. simpl. unfold getself. simpl. unfold Evaluate.mbind at 1. unfold mheap. rewrite Hx1.
        assert (s_factories x1 = [FBase]) as Hfac by by destruct Hd1 as (pa & tl & prim & l & lc1 & il & -> & Hp). rewrite Hfac. simpl.
        assert (evaluate_node (eval E n) i a [FBase] s1 = (s4, Ok k)) as Hevn by apply (Hev nat (λ j, mret j)).
        unfold Evaluate.mbind, mcatch. rewrite Hevn. simpl. unfold Evaluate.mbind, mheap. fold h4. rewrite Hx4. simpl. done.
      + constructor.
    - simpl. unfold h6, h5. by rewrite !upd_length.
    - simpl. unfold h6. by rewrite (upd_lookup_eq _ _ _ _ Hx5).
    - destruct Hd1 as (pa & tl & prim & l & lc1 & il & -> & Hp). by exists pa, tl, prim, l, lc1, il.
    - simpl. eapply (stored_same false h5); [|].
      + intros j Hj. unfold h6. apply upd_lookup_ne. lia.
      + unfold h5. apply stored_upd; [|exact Hst]. intros z [? ? ? ? ? ? ? ? ? ? ?]. by constructor.
  Qed.

  Lemma eval_include i par c names ks sp om sg p path name b t s x lines mt nd : Esec sg (fl_prevent sp || p) (beside path name) b t → wf (st_heap s) → above (st_heap s) par p → good (st_cache s) →
    file_path (st_heap s) i = Some path → e_fs E (beside path name) = Some (mt, inl nd) → erase nd = NSeq (map NPara t) →
    st_heap s !! i = Some x → doing i par c names ks sp om x →
    map (map erase) lines = [[call "include-section" [NSeq [NString name]]]] →
    ∃ s' x', yields E i (runs E i) s (NPara lines) s' [] ∧ length (st_heap s') = length (st_heap s) + size b ∧
      st_heap s' !! i = Some x' ∧ doing i par c names (ks ++ [length (st_heap s)]) sp om x' ∧
      stored false (st_heap s') (Some i) b (length (st_heap s)).
  Proof.
    intros HB Hw Hcalm Hg Hpath Hfs Hnd Hx Hd He. apply one_call in He as (nd' & -> & He). destruct nd' as [| | | |fn args lc]; try done. simpl in He. injection He as -> He.
    destruct args as [|a [|? ?]]; try done. simpl in He. injection He as He.
    pose proof (doing_based _ _ _ _ _ _ _ _ _ Hx Hd) as Hb. pose proof (near_touch i lc s) as N.
    destruct (doing_near _ _ _ _ _ _ _ _ _ _ N Hx Hd) as (x1 & Hx1 & Hd1).
    assert (valid (st_heap s) i) as Hv by by eapply lookup_lt_Some.
    set (k := length (st_heap s)). assert (i < k) as Hik by done.
    assert (file_path (st_heap (touch i lc s)) i = Some path) as Hp1 by (simpl; by rewrite file_path_upd).
    assert (based i (touch i lc s)) as Hb1 by (by eapply near_based).
    set (s1 := touch i lc s) in *. assert (length (st_heap s1) = k) as Hk by apply (near_length _ _ _ N).
    assert (wf (st_heap s1)) as Hw1 by (by apply upd_wf; [intros ?|]).
    assert (above (st_heap s1) (Some i) (fl_prevent sp || p)) as Hc1.
    { destruct (doing_flags _ _ _ _ _ _ _ _ Hd) as [_ Hpar]. destruct (doing_flags _ _ _ _ _ _ _ _ Hd1) as [Hpv1 Hpar1].
      eapply above_child; [exact Hw1|exact Hx1|exact Hpar1|exact Hpv1|]. exact (apart_above i s s1 x par p Hw Hx Hpar (apart_near _ _ _ N) Hcalm). }
    assert (touch i lc s = s1) as Hs1 by done. assert (good (st_cache s1)) as Hg1 by done. clearbody s1.
    destruct (eval_child i (beside path name) sg (fl_prevent sp || p) (beside path name) b t s1 nd HB Hw1 Hc1 Hg1) as (n & s4 & Hev & Hl4 & Ho4 & Hst); [unfold valid; lia| |done|].
    { unfold beside. destruct (String.eqb_spec (path_join (path_dir path) name) "") as [Hz|]; [|done]. by apply path_join_nonempty in Hz. }
    rewrite Hk in *. set (h4 := st_heap s4) in *.
    assert (h4 !! i = Some x1) as Hx4 by (by rewrite Ho4).
    set (h6 := upd h4 i (λ s, set_children s (s_children s ++ [k]))).
    exists (St h6 (assoc_set (beside path name) (nd, mt) (st_cache s4))). eexists. split; [|split; [|split; [|split]]].
    - apply quiet. eapply (quiet_call i s s1 _ "include-section" m_include); [done|done|done| | | |].
      + rewrite Hs1. eapply (args_cons E i (runs E i)); [by left|by apply (eval_str_arg E i name)|constructor].
      + apply not_elem_of_cons. split; [done|]. by apply not_elem_of_nil.
      + exists n. simpl. unfold Evaluate.mbind at 1. unfold mheap. rewrite Hp1. simpl. fold (beside path name).
        assert (evaluate_file E (eval E n) (Some i) (beside path name) [FBase] s1 =
          (St h4 (assoc_set (beside path name) (nd, mt) (st_cache s4)), Ok k)) as Hevf.
        { unfold evaluate_file. rewrite Hfs. unfold Evaluate.mbind at 1.
          rewrite (parse_good E (λ p nd t, e_fs E p = Some (t, inl nd))) with (s := s1); [|..|done|done].
          - rewrite Hev. done.
          - intros pa nd' t' mt' x' H1 H2 _. rewrite H1 in H2. by injection H2 as _ ->. }
        unfold Evaluate.mbind, mcatch. rewrite Hevf. done.
      + constructor.
    - simpl. unfold h6. by rewrite !upd_length.
    - simpl. unfold h6. by rewrite (upd_lookup_eq _ _ _ _ Hx4).
    - destruct Hd1 as (pa & tl & prim & l & lc1 & il & -> & Hp). by exists pa, tl, prim, l, lc1, il.
    - simpl. eapply (stored_same false h4); [|exact Hst]. intros j Hj. unfold h6. apply upd_lookup_ne. lia.
  Qed.

  (** Files as they are read. *)
  Definition reads (path : string) (t : tree) : Prop :=
    ∃ mt nd, e_fs E path = Some (mt, inl nd) ∧ erase nd = NSeq (map NPara t).

  Definition Esubs (q : bool) (path : string) (subs : list sec) (ts : tree) : Prop :=
    ∀ i par c names sp om ks p s x paras, wf (st_heap s) → above (st_heap s) par p → q = fl_prevent sp || p → good (st_cache s) →
    file_path (st_heap s) i = Some path →
    st_heap s !! i = Some x → doing i par c names ks sp om x →
    map (map (map erase)) paras = ts →
    ∃ s' x', yields_all E i (runs E i) s (map NPara paras) s' [] ∧
      length (st_heap s') = length (st_heap s) + sizes subs ∧
      st_heap s' !! i = Some x' ∧ doing i par c names (ks ++ kids (length (st_heap s)) subs) sp om x' ∧
      stored_list (stored false (st_heap s') (Some i)) subs (length (st_heap s)).

  Lemma eval_none q path : Esubs q path [] [].
  Proof.
    intros i par c names sp om ks p s x paras Hw Hcalm Hq Hg Hpath Hx Hd He.
    destruct paras; [|done]. exists s, x. split; [constructor|]. simpl. split; [lia|]. split; [done|].
    by rewrite (right_id_L [] (++)).
  Qed.
  Lemma eval_more q path b subs pp ts :
    (∀ i par c names sp om ks p s x lines, wf (st_heap s) → above (st_heap s) par p → q = fl_prevent sp || p → good (st_cache s) → file_path (st_heap s) i = Some path →
      st_heap s !! i = Some x → doing i par c names ks sp om x → map (map erase) lines = pp →
      ∃ s' x', yields E i (runs E i) s (NPara lines) s' [] ∧ length (st_heap s') = length (st_heap s) + size b ∧
        st_heap s' !! i = Some x' ∧ doing i par c names (ks ++ [length (st_heap s)]) sp om x' ∧
        stored false (st_heap s') (Some i) b (length (st_heap s))) →
    Esubs q path subs ts → Esubs q path (b :: subs) (pp :: ts).
  Proof.
    intros HB IH i par c names sp om ks p s x paras Hw Hcalm Hq Hg Hpath Hx Hd He.
    destruct paras as [|lines paras]; [done|]. simpl in He. injection He as He1 He2.
    destruct (HB i par c names sp om ks p s x lines Hw Hcalm Hq Hg Hpath Hx Hd He1) as (s1 & x1 & Y1 & Hl1 & Hx1 & Hd1 & Hs1).
    assert (valid (st_heap s) i) as Hv by by eapply lookup_lt_Some.
    pose proof (yields_valid E i s _ s1 _ Y1 Hw Hv) as HF. 
    assert (above (st_heap s1) par p) as Hc1 by exact (frame_above i s s1 x par p Hw Hx (proj2 (doing_flags _ _ _ _ _ _ _ _ Hd)) HF Hcalm).
    destruct HF as [Hw1 _ Ho1 _ _ _].
    assert (file_path (st_heap s1) i = Some path) as Hp1.
    { by rewrite (frame_file_path i _ _ Hw (yields_valid E i s _ s1 _ Y1 Hw Hv) i Hv). }
    pose proof (yields_good _ _ _ _ _ Y1 Hw Hv Hg) as Hg1.
    destruct (IH i par c names sp om _ p s1 x1 paras Hw1 Hc1 Hq Hg1 Hp1 Hx1 Hd1 He2) as (s2 & x2 & Y2 & Hl2 & Hx2 & Hd2 & Hs2).
    assert (valid (st_heap s1) i) as Hv1 by by eapply lookup_lt_Some.
    destruct (yields_all_frame i s1 _ s2 _ Y2 Hw1 Hv1) as [_ _ Ho2 _ _ _].
    exists s2, x2. split; [by apply (yields_cons _ _ _ s _ _ s1 s2 [] [])|]. split; [simpl; lia|]. split; [done|].
    simpl. rewrite Hl1 in Hd2, Hs2. rewrite <- (assoc_L (++)) in Hd2. split; [done|]. split; [|done].
    eapply stored_same; [|exact Hs1]. intros j Hj. apply Ho2; [lia|]. unfold valid in Hv. lia.
  Qed.

  Lemma paras_of nd (t : list (list (list node))) : erase nd = NSeq (map NPara t) → ∃ paras, nd = NSeq (map NPara paras) ∧ map (map (map erase)) paras = t.
  Proof.
    destruct nd as [|nds| | |]; try done. simpl. intros [= He]. revert t He. induction nds as [|nd nds IH]; intros t He.
    - destruct t; [|done]. by exists [].
    - destruct t as [|p t]; [done|]. simpl in He. injection He as He1 He2. destruct (IH t He2) as (paras & [= ->] & Hp).
      destruct nd as [| |lines| |]; try done. simpl in He1. injection He1 as He1. exists (lines :: paras). split; [done|]. simpl. by rewrite He1, Hp.
  Qed.

  Lemma map_app_split {A B} (f : A → B) l a b : map f l = a ++ b → ∃ l1 l2, l = l1 ++ l2 ∧ map f l1 = a ∧ map f l2 = b.
  Proof.
    revert l. induction a as [|x a IH]; intros l He; [by exists [], l|]. destruct l as [|y l]; [done|]. simpl in He. injection He as <- He.
    destruct (IH l He) as (l1 & l2 & -> & <- & <-). by exists (y :: l1), l2.
  Qed.

  Lemma eval_whole sg p path b ts : sec_fine b = true → (is_fresh b = true → is_split b = negb (p || sg)) → Esubs (p || sg) path (subs_of b) ts → Esec sg p path b (sec_top sg b ts).
  Proof.
    destruct b as [title tags split omit body subs]. intros Hf Hsp Hsubs i par s x nd Hw Hab Hg Hpath Hx Hd Hl He. simpl in Hsubs, Hsp.
    assert (forallb piece_fine body = true) as Hbody by (simpl in Hf; apply andb_true_iff in Hf as [Hf _]; by apply andb_true_iff in Hf as [_ Hf]).
    apply paras_of in He as (paras & -> & He).
    unfold sec_top in He.
    apply map_app_split in He as (p1 & p' & -> & He1 & He). apply map_app_split in He as (p0 & p'' & -> & He0 & He).
    apply map_app_split in He as (p2 & p6 & -> & He2 & He).
    apply map_app_split in He as (p3 & q5 & -> & He3 & He). apply map_app_split in He as (p4 & p5 & -> & He4 & He5).
    assert (valid (st_heap s) i) as Hv by by eapply lookup_lt_Some.
    destruct p1 as [|lines1 [|? ?]]; try done. simpl in He1. injection He1 as He1.
    set (b := Sec title tags split omit body subs) in *.
    destruct (eval_title i par b s x lines1 Hf Hx Hd He1) as (s1 & x1 & c & Y1 & Ht & Hx1 & Hd1 & A1).
    pose proof (ff_wf _ _ _ (yields_valid E i s _ s1 _ Y1 Hw Hv)) as Hw1.
    assert (valid (st_heap s1) i) as Hv1 by by eapply lookup_lt_Some.
    assert (above (st_heap s1) par p) as Hc1 by exact (apart_above i s s1 x par p Hw Hx (proj2 (doing_flags _ _ _ _ _ _ _ _ Hd)) A1 Hab).
    assert (∃ s0 x0, yields_all E i (runs E i) s1 (map NPara p0) s0 [] ∧ st_heap s0 !! i = Some x0 ∧
      doing i par c (tag_names b) [] (Flags false sg false) false x0 ∧ apart i s1 s0) as (s0 & x0 & Y0 & Hx0 & Hd0 & A0).
    { destruct sg.
      - destruct p0 as [|lines [|? ?]]; try done. simpl in He0. injection He0 as He0.
        destruct (eval_single i par c (tag_names b) [] s1 x1 lines false Hx1 Hd1 He0) as (s0 & x0 & Y0 & H0). exists s0, x0.
        split; [by apply yields_all_one|done].
      - destruct p0; [|done]. exists s1, x1. split; [constructor|done]. }
    pose proof (ff_wf _ _ _ (yields_all_frame i s1 _ s0 _ Y0 Hw1 Hv1)) as Hw0.
    assert (above (st_heap s0) par p) as Hc0 by exact (apart_above i s1 s0 x1 par p Hw1 Hx1 (proj2 (doing_flags _ _ _ _ _ _ _ _ Hd1)) A0 Hc1).
    set (fl := Flags (cut_pages split) sg (cut_fresh split)).
    assert (∃ s2 x2, yields_all E i (runs E i) s0 (map NPara p2) s2 [] ∧ st_heap s2 !! i = Some x2 ∧
      doing i par c (tag_names b) [] fl false x2 ∧ apart i s0 s2) as (s2 & x2 & Y2 & Hx2 & Hd2 & A2).
    { unfold fl. destruct (cut_fresh split) eqn:Hfr.
      - destruct p2 as [|lines [|? ?]]; try done. simpl in He2. injection He2 as He2.
        destruct (eval_split i par c (tag_names b) [] s0 x0 lines false sg p Hw0 Hc0 Hx0 Hd0 He2) as (s2 & x2 & Y2 & H2). exists s2, x2.
        rewrite (orb_comm sg p), <- Hsp in H2 by done. split; [by apply yields_all_one|done].
      - destruct p2; [|done]. exists s0, x0. split; [constructor|]. by destruct split. }
    assert (∃ s3 x3, yields_all E i (runs E i) s2 (map NPara p3) s3 [] ∧ st_heap s3 !! i = Some x3 ∧
      doing i par c (tag_names b) [] fl omit x3 ∧ apart i s2 s3) as (s3 & x3 & Y3 & Hx3 & Hd3 & A3).
    { destruct omit.
      - destruct p3 as [|lines [|? ?]]; try done. simpl in He3. injection He3 as He3.
        destruct (eval_omit i par c (tag_names b) [] s2 x2 lines fl Hx2 Hd2 He3) as (s3 & x3 & Y3 & H3). exists s3, x3.
        split; [by apply yields_all_one|done].
      - destruct p3; [|done]. exists s2, x2. split; [constructor|done]. }
    destruct (eval_body i par c (tag_names b) [] fl omit body Hbody s3 x3 p4 Hx3 Hd3 He4) as (s4 & x4 & cs & Y4 & F4 & Hx4 & Hd4 & A4).
    assert (yields_all E i (runs E i) s (NPara lines1 :: map NPara (p0 ++ p2 ++ p3 ++ p4)) s4 cs) as Y14.
    { apply (yields_cons _ _ _ s _ _ s1 s4 [] cs); [done|]. rewrite !map_app. apply (yields_all_app i s1 s0 s4 _ _ [] cs); [done|].
      apply (yields_all_app i s0 s2 s4 _ _ [] cs); [done|]. apply (yields_all_app i s2 s3 s4 _ _ [] cs); done. }
    pose proof (yields_all_frame i s _ s4 _ Y14 Hw Hv) as HF. pose proof (ff_wf _ _ _ HF) as Hw4.
    assert (file_path (st_heap s4) i = Some path) as Hp4 by (by rewrite (frame_file_path i _ _ Hw HF i Hv)).
    assert (above (st_heap s4) par p) as Hc4 by exact (frame_above i s s4 x par p Hw Hx (proj2 (doing_flags _ _ _ _ _ _ _ _ Hd)) HF Hab).
    pose proof (yields_all_good i s _ s4 _ Y14 Hw Hv Hg) as Hg4.
    assert (length (st_heap s4) = S i) as Hl4.
    { destruct A1 as [L1 _], A0 as [L0 _], A2 as [L2 _], A3 as [L3 _], A4 as [L4 _]. congruence. }
    destruct (Hsubs i par c (tag_names b) fl omit [] p s4 x4 p5 Hw4 Hc4 (orb_comm p sg) Hg4 Hp4 Hx4 Hd4 He5) as (s5 & x5 & Y5 & Hl5 & Hx5 & Hd5 & Hs5).
    exists s5, cs, x5. split; [|split; [unfold b; simpl; lia|split; [done|split; [by apply (doing_flags _ _ _ _ _ _ _ _ Hd5)|]]]].
    { constructor. simpl. rewrite <- (right_id_L [] (++) cs).
      replace (NPara lines1 :: map NPara (p0 ++ p2 ++ p3 ++ p4 ++ p5))
        with ((NPara lines1 :: map NPara (p0 ++ p2 ++ p3 ++ p4)) ++ map NPara p5) by (rewrite !map_app; simpl; by rewrite <- !(assoc_L (++))).
      eapply yields_all_app; [exact Y14|exact Y5]. }
    split.
    - exists (with_body cs x5). split; [by rewrite (upd_lookup_eq _ _ _ _ Hx5)|].
      destruct Hd5 as (q & tl & prim & l & lc & il & -> & Hp). rewrite Hl4 in *.
      assert (∃ bd, with_body cs (mk q c tl prim (named i c l (tag_names b)) par ([] ++ kids (S i) subs) fl omit lc il) =
        set_body (mk q c tl prim (named i c l (tag_names b)) par ([] ++ kids (S i) subs) fl omit lc il) bd ∧ bd = default CEmpty (joined cs)) as (bd & -> & Hbd).
      { eexists. split; [|done]. unfold with_body. by destruct (joined cs). }
      constructor; try done.
      + simpl. exists cs. done.
      + simpl. exists l, []. split; [|done]. by rewrite (right_id_L [] (++)).
      + change (head (named i c l (tag_names b)) = Some prim). assert (tag_names b ≠ []) as Hn by (unfold b; simpl; by destruct tags).
        rewrite Hp by done. unfold named. clear - Hn. destruct (tag_names b); [by destruct Hn|done].
    - rewrite Hl4 in Hs5. eapply stored_list_same; [|exact Hs5]. intros j Hj. apply upd_lookup_ne. lia.
  Qed.

  Lemma eval_lays :
    (∀ p path b t, lays reads p path b t → sec_fine b = true → ∃ sg, Esec sg p path b t) ∧
    (∀ p path l ts, lays_subs reads p path l ts → forallb sec_fine l = true → Esubs p path l ts).
  Proof.
    apply (lays_both reads (λ p path b t, sec_fine b = true → ∃ sg, Esec sg p path b t) (λ p path l ts, forallb sec_fine l = true → Esubs p path l ts)).
    - intros p sg path b ts Hsp _ IH Hf. exists sg. apply eval_whole; [done..|]. apply IH. destruct b. simpl in Hf. by apply andb_true_iff in Hf as [_ ?].
    - intros p path _. apply eval_none.
    - intros p path c l t ts _ IH1 _ IH2 Hf. simpl in Hf. apply andb_true_iff in Hf as [Hf1 Hf2]. destruct (IH1 Hf1) as [sg HE1]. apply eval_more; [|by apply IH2].
      intros i par c' names sp om ks p' s x lines Hw Hab ->. intros. by eapply eval_section.
    - intros p path name c l t ts (mt & nd & Hfs & He) _ IH1 _ IH2 Hf. simpl in Hf. apply andb_true_iff in Hf as [Hf1 Hf2].
      destruct (IH1 Hf1) as [sg HE1]. apply eval_more; [|by apply IH2].
      intros i par c' names sp om ks p' s x lines Hw Hab ->. intros. by eapply eval_include.
  Qed.
  Lemma eval_sec p path b t : lays reads p path b t → sec_fine b = true → ∃ sg, Esec sg p path b t.
  Proof. apply eval_lays. Qed.
  Lemma eval_top sg path b ts : (is_fresh b = true → is_split b = negb sg) → lays_subs reads sg path (subs_of b) ts → sec_fine b = true →
    Esec sg false path b (sec_top sg b ts).
  Proof.
    intros Hsp HL Hf. apply eval_whole; [done..|]. apply (proj2 eval_lays); [done|]. destruct b. simpl in Hf. by apply andb_true_iff in Hf as [_ ?].
  Qed.

  (** All in one file. *)
  Lemma sec_tree_top b : sec_tree b = sec_top (cut_single (match b with Sec _ _ split _ _ _ => split end)) b (map (λ c, [[call "section" [NSeq (map NPara (sec_tree c))]]]) (subs_of b)).
  Proof. by destruct b. Qed.
  Lemma lays_one holds path b : coherent b = true → ∀ p, (p = true → one_page b = true) → lays holds p path b (sec_tree b).
  Proof.
    induction b as [title tags split omit body subs IH] using sec_ind'. intros Hc p Hp. rewrite sec_tree_top.
    simpl in Hc, Hp. apply andb_true_iff in Hc as [Hc1 Hc2]. constructor.
    - simpl. intros Hfr. destruct split; [done| |]; simpl; [|by rewrite orb_true_r]. destruct p; [by specialize (Hp eq_refl)|done].
    - simpl. assert (p || cut_single split = true → forallb one_page subs = true) as Hq.
      { destruct p; [intros _; specialize (Hp eq_refl); by apply andb_true_iff in Hp as [_ ?]|]. simpl. intros Hs. by rewrite Hs in Hc1. }
      clear Hp Hc1. revert Hq. generalize (p || cut_single split). intros q Hq.
      induction IH as [|c l Hcl _ IHl]; simpl; [constructor|]. simpl in Hc2. apply andb_true_iff in Hc2 as [H1 H2]. constructor.
      + apply Hcl; [done|]. intros Hq1. specialize (Hq Hq1). simpl in Hq. by apply andb_true_iff in Hq as [? _].
      + apply IHl; [done|]. intros Hq1. specialize (Hq Hq1). simpl in Hq. by apply andb_true_iff in Hq as [_ ?].
  Qed.
  Lemma laid_one holds path b : coherent b = true → laid holds path b (sec_tree b).
  Proof. intros Hc. by apply lays_one. Qed.
  Lemma lays_mono (H1 H2 : string → tree → Prop) : (∀ p t, H1 p t → H2 p t) →
    (∀ p path b t, lays H1 p path b t → lays H2 p path b t) ∧ (∀ p path l ts, lays_subs H1 p path l ts → lays_subs H2 p path l ts).
  Proof.
    intros Hi. apply (lays_both H1 (lays H2) (lays_subs H2)); intros; try (by constructor). eapply lays_there; eauto.
  Qed.
  Lemma laid_mono (H1 H2 : string → tree → Prop) : (∀ p t, H1 p t → H2 p t) → ∀ path b t, laid H1 path b t → laid H2 path b t.
  Proof. intros Hi path. apply (proj1 (lays_mono H1 H2 Hi)). Qed.
End sections.
