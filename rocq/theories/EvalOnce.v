(** Relations between the sections before and after evaluation: titles are set
    once, single-page overrules split-sections. *)
From Coq Require Import Ascii String.
From stdpp Require Import base tactics relations strings list.
From Verif Require Import GoBase Ast Content Section TreeSpec TreeProofs TagProofs QueryProofs
  Evaluate EvalProofs EvalFrame EvalInv BaseInv.

(** Programs of plugins other than the base plugin. *)
Definition other_ops (E : env) (P : op → Prop) : Prop :=
  ∀ f name m self argv, f ≠ FBase → e_methods E f name = Some m → prog_ops P (m_body m self argv).

Lemma prog_ops_impl {A} (P P' : op → Prop) (p : prog A) : (∀ o, P o → P' o) → prog_ops P p → prog_ops P' p.
Proof. intros HP. induction p; simpl; intros Hp; try done; eauto. split; [apply HP, Hp|apply IHp, Hp]. Qed.

(** ** Every section evolves according to [K] *)

Definition evolves (K : section → section → Prop) (s s' : st) : Prop :=
  ∀ j x, st_heap s !! j = Some x → ∃ x', st_heap s' !! j = Some x' ∧ K x x'.

Record order_ok (K : section → section → Prop) : Prop := OrderOk {
  k_refl : ∀ x, K x x;
  k_trans : ∀ x y z, K x y → K y z → K x z;
  k_invloc : ∀ x l, K x (set_invloc x l);
  k_body : ∀ x c, K x (set_body x c);
  k_use : ∀ x f, K x (use_plugin f x);
  k_loc : ∀ x l, K x (set_loc x l);
  k_children : ∀ x cs, K x (set_children x cs)
}.

Section evolves.
  Context (K : section → section → Prop) (HK : order_ok K).

  Lemma evolves_refl s : evolves K s s.
  Proof. intros j x Hx. exists x. split; [done|apply HK]. Qed.
  Lemma evolves_trans a b c : evolves K a b → evolves K b c → evolves K a c.
  Proof.
    intros H1 H2 j x Hx. destruct (H1 _ _ Hx) as (y & Hy & K1). destruct (H2 _ _ Hy) as (z & Hz & K2).
    exists z. split; [done|]. by eapply HK.
  Qed.
  Lemma evolves_upd i f s : (∀ x, st_heap s !! i = Some x → K x (f x)) → evolves K s (upd_st i f s).
  Proof.
    intros Hf j x Hx. simpl. rewrite upd_lookup. destruct (decide (i = j)) as [->|].
    - rewrite Hx. simpl. eauto.
    - exists x. split; [done|apply HK].
  Qed.
  Lemma evolves_alloc parent path s s' : evolves K (alloc_st parent path s) s' → evolves K s s'.
  Proof. intros H j x Hx. apply H. simpl. by apply lookup_app_l_Some. Qed.

  Lemma evolves_rel E :
    (∀ rec, (∀ self acc nd, resp (evolves K) (rec self acc nd)) →
      ∀ f name m self argv, e_methods E f name = Some m → resp (evolves K) (run_prog E rec self (m_body m self argv))) →
    eval_rel E (λ _, evolves K).
  Proof.
    intros Hm. constructor.
    - intros _. apply evolves_refl.
    - intros _. apply evolves_trans.
    - intros. apply evolves_upd. intros; apply HK.
    - intros. apply evolves_upd. intros; apply HK.
    - intros. apply evolves_upd. intros; apply HK.
    - intros self s c. apply (evolves_refl s).
    - intros. by eapply evolves_alloc.
    - intros. eapply evolves_trans; [by eapply evolves_alloc|]. apply evolves_upd. intros; apply HK.
    - intros. eapply evolves_trans; [by eapply evolves_alloc|]. apply evolves_upd. intros; apply HK.
    - intros. eapply evolves_trans; [by eapply evolves_alloc|]. eapply evolves_trans; [apply (evolves_upd (length (st_heap s)) (λ x, set_loc x l))|].
      + intros; apply HK.
      + apply evolves_upd. intros; apply HK.
    - done.
  Qed.

  (** Programs whose operations keep [K]. *)
  Lemma evolves_prog E rec self {A} (p : prog A) :
    (∀ self acc nd, resp (evolves K) (rec self acc nd)) →
    prog_ops (λ o, resp (evolves K) (run_op E self o)) p → resp (evolves K) (run_prog E rec self p).
  Proof.
    intros Hrec Hp. apply (resp_prog_rel (Env (e_fs E) (e_registry E) (λ _ _, None) (e_similar E) (e_broken E) (e_jumps E)) (λ _, evolves K) rec self p);
      [|done|done]. by apply evolves_rel.
  Qed.
End evolves.

(** Operations allowed by a predicate on operations, for the base plugin: which
    operations its methods use. *)
Definition base_op (o : op) : Prop :=
  match o with OSetTag _ _ _ _ | OSetTagAnchored _ _ _ _ _ => False | _ => True end.

Lemma base_ops (P : op → Prop) name m self argv : base_method name = Some m →
  (∀ n c, P (OSetPartial n c)) → (∀ n, P (OStyle n)) → P OPreventSplit → P OOmit → (∀ f, P (OUsePlugin f)) →
  m = m_title ∨ m = m_split ∨ prog_ops P (m_body m self argv).
Proof.
  intros Hm H1 H2 H3 H4 H5. unfold base_method in Hm. apply assoc_get_In in Hm. unfold base_table in Hm.
  repeat (apply elem_of_cons in Hm as [Hm|Hm]; [injection Hm as -> ->|]); try by inversion Hm; auto.
  all: try (right; right; simpl; repeat match goal with
    | |- context [match ?x with _ => _ end] => destruct x; simpl
    | |- _ ∧ _ => split
    | |- ∀ _, _ => intros
    end; by auto).
  - by left.
  - by right; left.
  - right; right. simpl. destruct (con_args argv); simpl; [|done]. by destruct (table_rows _ _).
  - right; right. simpl. destruct (con_args argv); simpl; [|done]. by destruct (def_items _ _).
Qed.

(** ** C31: titles *)

Definition same_title (x x' : section) : Prop :=
  is_empty (s_title x) = false →
  s_title x' = s_title x ∧ s_titleloc x' = s_titleloc x ∧ s_primary x' = s_primary x.

Lemma same_title_ok : order_ok same_title.
Proof.
  constructor; try done. unfold same_title. intros x y z H1 H2 H. destruct (H1 H) as (E1 & E2 & E3).
  rewrite E1 in H2. destruct (H2 H) as (? & ? & ?). repeat split; congruence.
Qed.

Definition no_set_title (o : op) : Prop := match o with OSetTitle _ _ _ => False | _ => True end.

Lemma title_op E self o : no_set_title o → resp (evolves same_title) (run_op E self o).
Proof. intros Ho s. destruct o; try done; apply (evolves_upd _ same_title_ok); done. Qed.

Lemma title_rel E : base_env E → other_ops E no_set_title → eval_rel E (λ _, evolves same_title).
Proof.
  intros Hb Ho. apply (evolves_rel _ same_title_ok). intros rec Hrec f name m self argv Hm.
  assert (∀ o, no_set_title o → resp (evolves same_title) (run_op E self o)) as Hop by apply title_op.
  destruct f as [|k].
  2: { apply (evolves_prog _ same_title_ok); [done|]. eapply prog_ops_impl; [exact Hop|]. by eapply (Ho (FExt k)). }
  rewrite Hb in Hm.
  destruct (base_ops (λ o, resp (evolves same_title) (run_op E self o)) name m self argv Hm) as [->|[->|Hp]];
    try (intros; by apply Hop); [..|by apply (evolves_prog _ same_title_ok)].
  - intros s. destruct argv as [|[|[title|]|] tags]; try apply (evolves_refl _ same_title_ok). simpl.
    destruct (str_args tags) as [ss|]; [|apply (evolves_refl _ same_title_ok)]. unfold getself. simpl. unfold mbind at 1. simpl.
    destruct (st_heap s !! self) as [x|] eqn:Hx; [|apply (evolves_refl _ same_title_ok)].
    destruct (is_empty (s_title x)) eqn:Hem.
    + simpl. unfold mbind, mlift. simpl. destruct (title_tags _ _ _ _ _ _) as [ts|e| |]; simpl; try apply (evolves_refl _ same_title_ok).
      apply (evolves_upd _ same_title_ok). intros y Hy. assert (y = x) as -> by congruence. intros ?. congruence.
    + simpl. unfold mbind. simpl. destruct (file_path _ _); simpl; apply (evolves_refl _ same_title_ok).
  - apply (evolves_prog _ same_title_ok); [done|]. split; [by apply (Hop OResetDepth)|].
    intros h. destruct (split_prevented h self) as [[]|]; simpl; try done. split; [by apply (Hop OSplit)|done].
Qed.

Lemma title_set_once E n self acc nd s j x : base_env E → other_ops E no_set_title →
  st_heap s !! j = Some x → is_empty (s_title x) = false →
  ∃ x', st_heap (fst (eval E n self acc nd s)) !! j = Some x' ∧
    s_title x' = s_title x ∧ s_titleloc x' = s_titleloc x ∧ s_primary x' = s_primary x.
Proof.
  intros Hb Ho Hx He. destruct (eval_resp _ _ (title_rel E Hb Ho) n self acc nd s _ _ Hx) as (x' & ? & Hs).
  exists x'. split; [done|]. by apply Hs.
Qed.

(** ** C32: single-page *)

Definition split_reset (x : section) : Prop := s_split x = true → s_reset x = true.
Definition all_reset (h : heap) : Prop := ∀ j x, h !! j = Some x → split_reset x.
Definition keeps_all_reset (s s' : st) : Prop := all_reset (st_heap s) → all_reset (st_heap s').

Lemma all_reset_upd h i f : (∀ x, split_reset x → split_reset (f x)) → all_reset h → all_reset (upd h i f).
Proof.
  intros Hf Ha j x. rewrite upd_lookup. destruct (decide (i = j)); [|apply Ha].
  destruct (h !! j) as [y|] eqn:Hy; simpl; [|done]. intros [= <-]. apply Hf. by eapply Ha.
Qed.
Lemma all_reset_alloc h parent path : all_reset h → all_reset (h ++ [new_section parent path]).
Proof.
  intros Ha j x [Hj|[Hj Hx]]%lookup_app_Some; [by eapply Ha|]. apply list_lookup_singleton_Some in Hx as [_ <-].
  intros ?. done.
Qed.

Definition no_split (o : op) : Prop := match o with OSplit => False | _ => True end.

Lemma reset_op E self o : no_split o → resp keeps_all_reset (run_op E self o).
Proof.
  intros Ho s Ha. destruct o; simpl; try done; try (by apply all_reset_upd; [|done]).
  unfold mbind, mlift. simpl. destruct (title_tags _ _ _ _ _ _) as [ts|e| |]; simpl; try done.
  apply all_reset_upd; [|done]. intros x. unfold split_reset.
  destruct (set_title_rest self title l ts x) as (? & ? & ? & ? & ? & ? & -> & ? & -> & _). done.
Qed.

Lemma split_prevented_upd h i f : (∀ x, s_prevent (f x) = s_prevent x ∧ s_parent (f x) = s_parent x) →
  ∀ j, split_prevented (upd h i f) j = split_prevented h j.
Proof.
  intros Hf. unfold split_prevented, fuel_of. rewrite upd_length. induction (S (length h)) as [|n IH]; intros j; [done|].
  simpl. unfold split_prevented_F at 1 3. rewrite upd_lookup.
  destruct (decide (i = j)); destruct (h !! j) as [x|]; simpl; try done.
  - destruct (Hf x) as [-> ->]. destruct (s_prevent x); [done|]. destruct (s_parent x); [by rewrite IH|done].
  - destruct (s_prevent x); [done|]. destruct (s_parent x); [by rewrite IH|done].
Qed.

Lemma m_split_state E rec self s argv :
  let h := upd (st_heap s) self (λ s, set_flags s (s_split s) (s_prevent s) true (s_omit s)) in
  let s' := fst (run_prog E rec self (m_body m_split self argv) s) in
  s' = St h (st_cache s) ∨
  (split_prevented (st_heap s) self = Some false ∧
   s' = St (upd h self (λ s, set_flags s true (s_prevent s) (s_reset s) (s_omit s))) (st_cache s)).
Proof.
  simpl. unfold mbind. simpl. rewrite split_prevented_upd by done.
  destruct (split_prevented _ _) as [[]|]; simpl; auto.
Qed.

Lemma reset_rel E : base_env E → other_ops E no_split → eval_rel E (λ _, keeps_all_reset).
Proof.
  intros Hb Ho.
  assert (∀ self path s s2, keeps_all_reset (alloc_st (Some self) path s) s2 → keeps_all_reset s s2) as Hc.
  { intros self path s s2 H Ha. apply H. by apply all_reset_alloc. }
  constructor; try (intros; intros Ha; simpl in *; repeat (apply all_reset_upd; [done|]); solve [done | by eapply Hc]).
  - intros _ a b c H1 H2 Ha. auto.
  - intros rec Hrec f name m self argv Hm.
    assert (∀ o, no_split o → resp keeps_all_reset (run_op E self o)) as Hop by apply reset_op.
    assert (∀ p : prog (list retval), prog_ops no_split p → resp keeps_all_reset (run_prog E rec self p)) as Hpr.
    { intros p Hp. apply (resp_prog E (λ _, keeps_all_reset) rec); try done.
      - intros i0 s Ha. done.
      - intros i0 a b c H1 H2 Ha. auto.
      - intros i0 c s Ha. by apply all_reset_upd.
      - intros i0 c s Ha. by apply all_reset_upd.
      - intros i0 s c Ha. done.
      - intros i path s s2 l H Ha. simpl. apply all_reset_upd; [done|]. by apply (Hc _ _ _ _ H).
      - intros i path s s2 H Ha. simpl. apply all_reset_upd; [done|]. by apply (Hc _ _ _ _ H).
      - intros i path s s2 l H Ha. simpl. do 2 (apply all_reset_upd; [done|]). by apply (Hc _ _ _ _ H).
      - by eapply prog_ops_impl. }
    destruct f as [|k]; [|apply Hpr; by eapply (Ho (FExt k))]. rewrite Hb in Hm.
    destruct (base_ops no_split name m self argv Hm) as [->|[->|Hp]]; try done; [..|by apply Hpr].
    + apply Hpr. destruct argv as [|[|[title|]|] tags]; try done. simpl. destruct (str_args tags) as [ss|]; [|done]. simpl.
      intros h. destruct (h !! self) as [x|]; [|done]. destruct (is_empty (s_title x)); [done|]. simpl.
      intros h'. by destruct (file_path h' self).
    + intros s Ha. destruct (m_split_state E rec self s argv) as [->|[_ ->]]; simpl.
      * apply all_reset_upd; [done|done].
      * intros j x Hx. rewrite !upd_lookup in Hx. destruct (decide (self = j)) as [->|]; [|by eapply Ha].
        destruct (st_heap s !! j); simpl in Hx; [|done]. injection Hx as <-. done.
Qed.

(** A section is evaluated below a single-page one. *)
Definition single_page (h : heap) (i : nat) : Prop :=
  ∃ a x, ancestor h a i ∧ h !! a = Some x ∧ s_prevent x = true.

Definition never_split (self : nat) (h h' : heap) : Prop :=
  (∀ x x', h !! self = Some x → h' !! self = Some x' → s_split x' = s_split x) ∧
  (∀ j x', length h ≤ j → h' !! j = Some x' → s_split x' = false).

Definition single_rel (self : nat) (s s' : st) : Prop :=
  frame self s s' ∧ (wf (st_heap s) → valid (st_heap s) self → single_page (st_heap s) self →
    never_split self (st_heap s) (st_heap s')).

(** Ancestors are not affected by evaluation below. *)
Lemma frame_ancestor self h h' : frame_facts self h h' → ∀ a i, valid h i → wf h → ancestor h a i → ancestor h' a i.
Proof.
  intros HF a i Hi Hw Ha. induction Ha as [|a b c (y & Hy & Hp) Hbc IH]; [apply rtc_refl|].
  eapply rtc_l; [|by apply IH].
  assert (valid h b) as Hb by (by apply lookup_lt_Some in Hy).
  destruct (decide (b = self)) as [->|Hne].
  - destruct (ff_self _ _ _ HF y Hy) as (y' & Hy' & G). exists y'. split; [done|]. by rewrite (g_parent _ _ _ G).
  - exists y. split; [|done]. by rewrite (ff_others _ _ _ HF).
Qed.

Lemma frame_single self h h' i : frame_facts self h h' → valid h i → wf h → single_page h i → single_page h' i.
Proof.
  intros HF Hv Hw (a & x & Ha & Hx & Hp). destruct (decide (a = self)) as [->|Hne].
  - destruct (ff_self _ _ _ HF x Hx) as (x' & Hx' & G). exists self, x'.
    split; [by eapply frame_ancestor|]. split; [done|]. by apply (g_prevent _ _ _ G).
  - exists a, x. split; [by eapply frame_ancestor|]. split; [|done]. rewrite (ff_others _ _ _ HF); [done| |done].
    by apply lookup_lt_Some in Hx.
Qed.

Lemma alloc_single h self path : valid h self → single_page h self →
  single_page (h ++ [new_section (Some self) path]) (length h).
Proof.
  intros Hv (a & x & Ha & Hx & Hp). exists a, x. split_and!; [|by apply lookup_app_l_Some|done].
  apply (rtc_r _ self).
  - clear -Ha. generalize (new_section (Some self) path). intros z. induction Ha as [|a b c (y & Hy & Hpy) _ IH]; [apply rtc_refl|].
    eapply rtc_l; [|exact IH]. exists y. split; [by apply lookup_app_l_Some|done].
  - exists (new_section (Some self) path). split; [by rewrite lookup_app_r, Nat.sub_diag|done].
Qed.

Lemma never_split_upd self h i f : (∀ x, s_split (f x) = s_split x) → never_split self h (upd h i f).
Proof.
  intros Hf. split.
  - intros x x' Hx. rewrite upd_lookup. destruct (decide (i = self)); rewrite Hx; simpl; [|congruence].
    intros [= <-]. apply Hf.
  - intros j x' Hj Hx'. apply lookup_lt_Some in Hx'. rewrite upd_length in Hx'. lia.
Qed.

Lemma never_split_refl self h : never_split self h h.
Proof. split; [congruence|]. intros j x' Hj ?%lookup_lt_Some. lia. Qed.

(** Evaluating a child leaves no split flags behind. *)
Lemma never_split_child self path s s2 : wf (st_heap s) → valid (st_heap s) self → single_page (st_heap s) self →
  single_rel (length (st_heap s)) (alloc_st (Some self) path s) s2 →
  never_split self (st_heap s) (st_heap s2).
Proof.
  intros Hw Hv Hs [HF HN].
  assert (wf (st_heap (alloc_st (Some self) path s))) as Hw1 by (simpl; apply alloc_wf; [done|done]).
  assert (valid (st_heap (alloc_st (Some self) path s)) (length (st_heap s))) as Hv1.
  { unfold valid. simpl. rewrite app_length. simpl. lia. }
  specialize (HF Hw1 Hv1). destruct (HN Hw1 Hv1) as [N1 N2]; [by apply alloc_single|].
  split.
  - intros x x' Hx Hx'. rewrite (ff_others _ _ _ HF) in Hx'; simpl.
    + simpl in Hx'. rewrite (lookup_app_l_Some _ _ _ _ Hx) in Hx'. congruence.
    + rewrite app_length. unfold valid in Hv. lia.
    + unfold valid in Hv. lia.
  - intros j x' Hj Hx'. destruct (decide (j = length (st_heap s))) as [->|Hne].
    + rewrite (N1 (new_section (Some self) path) x'); [done| |done]. simpl. by rewrite lookup_app_r, Nat.sub_diag.
    + apply (N2 j); [|done]. simpl. rewrite app_length. simpl. lia.
Qed.

Lemma never_split_trans self h h1 h2 : length h ≤ length h1 → valid h self →
  never_split self h h1 → never_split self h1 h2 → (∀ j x, j < length h1 → j ≠ self → h2 !! j = Some x → h1 !! j = Some x) →
  is_Some (h1 !! self) → never_split self h h2.
Proof.
  intros Hl Hv [A1 A2] [B1 B2] Ho [y Hy]. split.
  - intros x x' Hx Hx'. rewrite (B1 y x' Hy Hx'). by apply A1.
  - intros j x' Hj Hx'. destruct (decide (j < length h1)) as [Hlt|]; [|apply (B2 j); [lia|done]].
    unfold valid in Hv. apply (A2 j); [done|]. apply Ho; [done|lia|done].
Qed.

Lemma single_trans self a b c : single_rel self a b → single_rel self b c → single_rel self a c.
Proof.
  intros [F1 N1] [F2 N2]. split; [by eapply frame_trans|]. intros Hw Hv Hs.
  pose proof (F1 Hw Hv) as FF1. assert (wf (st_heap b)) as Hw1 by apply FF1.
  assert (valid (st_heap b) self) as Hv1 by (pose proof (ff_length _ _ _ FF1); unfold valid in *; lia).
  pose proof (F2 Hw1 Hv1) as FF2.
  eapply never_split_trans; [apply FF1|done|by apply N1|apply N2; [done|done|]| |by apply lookup_lt_is_Some_2].
  - by eapply frame_single.
  - intros j x Hj Hne Hx. by rewrite (ff_others _ _ _ FF2) in Hx.
Qed.

Lemma single_upd self f s : frame self s (upd_st self f s) → (∀ x, s_split (f x) = s_split x) →
  single_rel self s (upd_st self f s).
Proof. intros HF Hf. split; [done|]. intros _ _ _. by apply never_split_upd. Qed.

Lemma single_op E self o : no_split o → resp (single_rel self) (run_op E self o).
Proof.
  intros Ho s. split; [apply run_op_frame|]. intros Hw Hv Hs. destruct o; simpl; try done; try by apply never_split_upd.
  unfold mbind, mlift. simpl. destruct (title_tags _ _ _ _ _ _) as [ts|e| |]; simpl;
    try (apply never_split_refl).
  apply never_split_upd. intros x. by destruct (set_title_rest self title l ts x) as (? & ? & ? & ? & ? & ? & -> & _).
Qed.

Lemma single_rel_ok E : base_env E → other_ops E no_split → eval_rel E single_rel.
Proof.
  intros Hb Ho. pose proof (frame_eval_rel E) as FE.
  assert (∀ self s, single_rel self s s) as Hrefl.
  { intros self s. split; [apply FE|]. intros _ _ _. apply never_split_refl. }
  assert (∀ self c s, single_rel self s (upd_st self (λ x, set_body x c) s)) as Hbody.
  { intros. apply single_upd; [by apply (er_body _ _ FE)|done]. }
  assert (∀ self f s, single_rel self s (upd_st self (use_plugin f) s)) as Huse.
  { intros. apply single_upd; [by apply (er_use _ _ FE)|done]. }
  assert (∀ self s c, single_rel self s (St (st_heap s) c)) as Hcache.
  { intros self s c. split; [by apply (er_cache _ _ FE)|]. intros _ _ _. apply never_split_refl. }
  assert (∀ self path s s2, single_rel (length (st_heap s)) (alloc_st (Some self) path s) s2 → single_rel self s s2) as Hchild.
  { intros self path s s2 H. split; [by eapply (er_child _ _ FE), H|]. intros. by eapply never_split_child. }
  assert (∀ self h h2 i (f : section → section), (∀ x, s_split (f x) = s_split x) → never_split self h h2 → never_split self h (upd h2 i f)) as Hupd.
  { intros self h h2 i f Hf [N1 N2]. split.
    - intros x x' Hx. rewrite upd_lookup. destruct (decide (i = self)); [|by eauto].
      destruct (h2 !! self) as [y|] eqn:Hy; simpl; [|done]. intros [= <-]. rewrite Hf. by eapply N1.
    - intros j x' Hj. rewrite upd_lookup. destruct (decide (i = j)); [|by eauto].
      destruct (h2 !! j) as [y|] eqn:Hy; simpl; [|done]. intros [= <-]. rewrite Hf. by eapply N2. }
  assert (∀ self path s s2 l, single_rel (length (st_heap s)) (alloc_st (Some self) path s) s2 →
    single_rel self s (upd_st (length (st_heap s)) (λ x, set_loc x l) s2)) as Hloc.
  { intros self path s s2 l H. split; [by eapply (er_loc _ _ FE), H|]. intros. simpl. apply Hupd; [done|].
    by eapply never_split_child. }
  assert (∀ self path s s2, single_rel (length (st_heap s)) (alloc_st (Some self) path s) s2 →
    single_rel self s (attach_st self (length (st_heap s)) s2)) as Hatt.
  { intros self path s s2 H. split; [by eapply (er_attach _ _ FE), H|]. intros. simpl. apply Hupd; [done|].
    by eapply never_split_child. }
  assert (∀ self path s s2 l, single_rel (length (st_heap s)) (alloc_st (Some self) path s) s2 →
    single_rel self s (attach_st self (length (st_heap s)) (upd_st (length (st_heap s)) (λ x, set_loc x l) s2))) as Hla.
  { intros self path s s2 l H. split; [by eapply (er_loc_attach _ _ FE), H|]. intros. simpl. do 2 (apply Hupd; [done|]).
    by eapply never_split_child. }
  constructor; try done.
  - apply single_trans.
  - intros. apply single_upd; [by apply (er_invloc _ _ FE)|done].
  - intros rec Hrec f name m self argv Hm.
    assert (∀ p : prog (list retval), prog_ops no_split p → resp (single_rel self) (run_prog E rec self p)) as Hpr.
    { intros p Hp. apply (resp_prog E single_rel rec); try done; [apply single_trans|].
      eapply prog_ops_impl; [|done]. intros o Hno. by apply single_op. }
    destruct f as [|k]; [|apply Hpr; by eapply (Ho (FExt k))]. rewrite Hb in Hm.
    destruct (base_ops no_split name m self argv Hm) as [->|[->|Hp]]; try done; [..|by apply Hpr].
    + apply Hpr. destruct argv as [|[|[title|]|] tags]; try done. simpl. destruct (str_args tags) as [ss|]; [|done]. simpl.
      intros h. destruct (h !! self) as [x|]; [|done]. destruct (is_empty (s_title x)); [done|]. simpl.
      intros h'. by destruct (file_path h' self).
    + intros s. split.
      { apply (er_methods _ _ FE rec) with FBase name; [intros i0 a0 n0 s0; exact (proj1 (Hrec i0 a0 n0 s0))|by rewrite Hb]. }
      intros Hw Hv Hs. destruct (m_split_state E rec self s argv) as [->|[Hsp ->]]; simpl.
      * by apply never_split_upd.
      * destruct (split_prevented_spec (st_heap s) self) as (b & Hb' & Hiff); [done..|].
        rewrite Hsp in Hb'. injection Hb' as <-. destruct Hiff as [_ Hiff].
        assert (false = true) by (apply Hiff, Hs). done.
Qed.

Lemma eval_single E n self acc nd s : base_env E → other_ops E no_split →
  single_rel self s (fst (eval E n self acc nd s)).
Proof. intros Hb Ho. by apply (eval_resp E single_rel), single_rel_ok. Qed.
