(** With the base plugin, every section a successful load creates is listed by its
    parent, so all of them are part of the loaded tree. *)
From Coq Require Import Ascii String.
From stdpp Require Import base tactics relations strings list.
From Verif Require Import GoBase Ast Content ContentProofs Section TreeSpec TreeProofs TagProofs QueryProofs
  Evaluate EvalProofs EvalFrame EvalInv EvalSpec EvalTheory BaseInv Collect CollectSpec CollectProofs BaseFacts LoadProofs.
Local Open Scope string_scope.
Local Open Scope list_scope.

Definition lists (h : heap) (p j : nat) : Prop := ∃ x, h !! p = Some x ∧ j ∈ s_children x.

(** Sections are added, listings kept, and what was added is listed. *)
Record adds (h h' : heap) : Prop := Adds {
  ad_length : length h ≤ length h';
  ad_keeps : ∀ p j, lists h p j → lists h' p j;
  ad_listed : ∀ j, length h ≤ j → j < length h' → ∃ p, lists h' p j
}.

Lemma adds_refl h : adds h h.
Proof. constructor; [done|done|]. intros. lia. Qed.
Lemma adds_trans a b c : adds a b → adds b c → adds a c.
Proof.
  intros [L1 K1 A1] [L2 K2 A2]. constructor; [lia|auto|]. intros j H1 H2.
  destruct (decide (j < length b)) as [Hj|Hj].
  - destruct (A1 j H1 Hj) as (p & Hp). eauto.
  - apply A2; lia.
Qed.
Lemma adds_upd h i f : (∀ x j, j ∈ s_children x → j ∈ s_children (f x)) → adds h (upd h i f).
Proof.
  intros Hf. constructor; rewrite ?upd_length; [done| |intros; lia].
  intros p j (x & Hx & Hj). unfold lists. rewrite upd_lookup. destruct (decide (i = p)); [|eauto].
  rewrite Hx. simpl. eauto.
Qed.

Definition grow {A} (m : M A) : Prop := ∀ s s' a, m s = (s', Ok a) → adds (st_heap s) (st_heap s').

Lemma grow_ret {A} (a : A) : grow (mret a).
Proof. intros s s' b [= <- _]. apply adds_refl. Qed.
Lemma grow_fail {A} (o : outcome error A) : grow (mfail o).
Proof. intros s s' b [= <- _]. apply adds_refl. Qed.
Lemma grow_lift {A} (o : outcome error A) : grow (mlift o).
Proof. intros s s' b [= <- _]. apply adds_refl. Qed.
Lemma grow_heap : grow mheap.
Proof. intros s s' b [= <- _]. apply adds_refl. Qed.
Lemma grow_opt {A} (o : option A) : grow (mopt o).
Proof. destruct o; [apply grow_ret|apply grow_fail]. Qed.
Lemma grow_bind {A B} (m : M A) (f : A → M B) : grow m → (∀ a, grow (f a)) → grow (mbind m f).
Proof. intros Hm Hf s s' b (s1 & a & H1 & H2)%mbind_ok. eapply adds_trans; [by eapply Hm|by eapply Hf]. Qed.
Lemma grow_upd i f : (∀ x j, j ∈ s_children x → j ∈ s_children (f x)) → grow (mupd i f).
Proof. intros Hf s s' b [= <- _]. by apply adds_upd. Qed.
Lemma grow_map {A B} (f : A → M B) l : (∀ x, grow (f x)) → grow (mmap f l).
Proof.
  intros Hf. induction l as [|x l IH]; simpl; [apply grow_ret|]. apply grow_bind; [done|]. intros y.
  apply grow_bind; [done|]. intros. apply grow_ret.
Qed.
Lemma grow_fold {A B} (f : B → A → M B) acc l : (∀ acc x, grow (f acc x)) → grow (mfold f acc l).
Proof.
  intros Hf. revert acc. induction l as [|x l IH]; intros acc; simpl; [apply grow_ret|]. apply grow_bind; auto.
Qed.

Lemma set_title_children self title l ts x : s_children (set_title self title l ts x) = s_children x.
Proof. by destruct (set_title_rest self title l ts x) as (_ & _ & _ & ? & _). Qed.

Lemma grow_op E self o : grow (run_op E self o).
Proof.
  destruct o; simpl; try (by apply grow_upd).
  - apply grow_bind; [apply grow_heap|]. intros h. apply grow_bind; [apply grow_lift|]. intros ts.
    apply grow_upd. intros x j. by rewrite set_title_children.
Qed.

(** Programs that evaluate nothing. *)
Fixpoint plain {A} (p : prog A) : Prop :=
  match p with
  | PRet _ | PPanic => True
  | PHeap k => ∀ h, plain (k h)
  | PReg _ k => ∀ f, plain (k f)
  | POp _ k => plain k
  | PEvalNode _ _ _ _ _ | PEvalFile _ _ _ _ => False
  end.

Section eval.
  Context (E : env).

  Section step.
    Context (rec : nat → option content → node → M (option content)) (Hrec : ∀ self acc nd, grow (rec self acc nd)).

    Lemma grow_plain {A} self (p : prog A) : plain p → grow (run_prog E rec self p).
    Proof.
      induction p as [a| |k IH|name k IH|o k IH|nd fs a l k IH|path fs a k IH]; simpl; intros Hp; try done.
      - apply grow_ret.
      - apply grow_bind; [apply grow_heap|]. intros h. by apply IH.
      - by apply IH.
      - apply grow_bind; [apply grow_op|]. intros _. by apply IH.
    Qed.

    Lemma grow_section self nd fs : grow (evaluate_section rec self nd fs).
    Proof.
      unfold evaluate_section. apply grow_bind; [apply grow_fold; intros; by apply grow_upd|]. intros _.
      apply grow_bind; [apply Hrec|]. intros [c|]; [by apply grow_upd|apply grow_ret].
    Qed.

    Lemma evaluate_node_adds parent nd fs s s' i : evaluate_node rec parent nd fs s = (s', Ok i) →
      i = length (st_heap s) ∧ adds (st_heap s ++ [new_section (Some parent) ""]) (st_heap s').
    Proof.
      unfold evaluate_node. intros (s1 & j & Ha & H)%mbind_ok. injection Ha as <- <-.
      apply mbind_ok in H as (s2 & u & He & H). injection H as <- <-. split; [done|].
      by apply grow_section in He.
    Qed.
    Lemma evaluate_file_adds parent path fs s s' i : evaluate_file E rec parent path fs s = (s', Ok i) →
      i = length (st_heap s) ∧ adds (st_heap s ++ [new_section parent path]) (st_heap s').
    Proof.
      unfold evaluate_file. destruct (e_fs E path) as [[mt parsed]|]; [|done].
      intros (s0 & nd & Hp & H)%mbind_ok. injection Hp as <- _.
      apply mbind_ok in H as (s1 & j & Ha & H). injection Ha as <- <-.
      apply mbind_ok in H as (s2 & u & He & H). injection H as <- <-. split; [done|].
      by apply grow_section in He.
    Qed.

    (** A new section, once its parent has listed it. *)
    Lemma adds_attach h self p path h' f : self < length h → adds (h ++ [new_section p path]) h' →
      (∀ x j, j ∈ s_children x → j ∈ s_children (f x)) →
      (∀ x, length h ∈ s_children (f x)) → adds h (upd h' self f).
    Proof.
      intros Hs [L K A] Hf Hin. pose proof (adds_upd h' self f Hf) as [L2 K2 _]. rewrite app_length in *. simpl in *.
      constructor; [lia| |].
      - intros q j (x & Hx & Hj). apply K2, K. exists x. split; [by apply lookup_app_l_Some|done].
      - intros j H1 H2. rewrite upd_length in H2. destruct (decide (j = length h)) as [->|Hne].
        + exists self. destruct (lookup_lt_is_Some_2 h' self) as [x Hx]; [lia|]. exists (f x).
          split; [by apply upd_lookup_eq|apply Hin].
        + destruct (A j) as (q & Hq); [lia|done|]. eauto.
    Qed.

    Lemma self_in_heap h self f : file_path h self = Some f → self < length h.
    Proof.
      unfold file_path. intros H. destruct (h !! self) as [x|] eqn:Hx; [by eapply lookup_lt_Some|].
      revert H. generalize (fuel_of h). intros [|n]; simpl; [done|]. unfold file_path_F at 1. by rewrite Hx.
    Qed.

    Lemma section_grow self argv s s' rets fn l acc s2 r :
      run_prog E rec self (m_body m_section self argv) s = (s', Ok rets) →
      handle_results fn l acc rets s' = (s2, Ok r) → adds (st_heap s) (st_heap s').
    Proof.
      destruct argv as [|[| |nd] [|]]; try done. simpl. unfold getself. simpl. intros H Hr.
      apply mbind_ok in H as (s1 & h & [= <- <-] & H). destruct (st_heap s !! self) as [x|] eqn:Hx; [|done]. simpl in H.
      apply mbind_ok in H as (s1 & o & Hc & H). apply mbind_ok in H as (s3 & u & Ha & H).
      unfold mcatch in Hc. destruct (evaluate_node rec self nd (s_factories x) s) as [s4 [i|e| |]] eqn:He; try done;
        injection Hc as <- <-; simpl in H; injection H as <- <-; [|done].
      apply evaluate_node_adds in He as [-> HA]. pose proof (lookup_lt_Some _ _ _ Hx) as Hlt.
      simpl in Ha. apply mbind_ok in Ha as (s5 & u1 & Hloc & Ha). apply mbind_ok in Hloc as (s6 & h6 & [= <- <-] & Hloc).
      destruct (st_heap s4 !! self) as [x4|]; [|done]. injection Hloc as <- _. injection Ha as <- _.
      simpl. eapply adds_attach; [done| | |].
      - eapply adds_trans; [exact HA|]. by apply adds_upd.
      - intros y j Hj. simpl. apply elem_of_app. by left.
      - intros y. simpl. apply elem_of_app. right. by apply elem_of_list_singleton.
    Qed.
    Lemma include_grow self argv s s' rets fn l acc s2 r :
      run_prog E rec self (m_body m_include self argv) s = (s', Ok rets) →
      handle_results fn l acc rets s' = (s2, Ok r) → adds (st_heap s) (st_heap s').
    Proof.
      destruct argv as [|[p| |] [|]]; try done. simpl. unfold getpath. simpl. intros H Hr.
      apply mbind_ok in H as (s1 & h & [= <- <-] & H). destruct (file_path (st_heap s) self) as [f|] eqn:Hx; [|done]. simpl in H.
      apply mbind_ok in H as (s1 & o & Hc & H). apply mbind_ok in H as (s3 & u & Ha & H).
      unfold mcatch in Hc. destruct (evaluate_file E rec (Some self) (path_join (path_dir f) p) [FBase] s) as [s4 [i|e| |]] eqn:He; try done;
        injection Hc as <- <-; simpl in H; injection H as <- <-; [|done].
      apply evaluate_file_adds in He as [-> HA]. apply self_in_heap in Hx.
      simpl in Ha. apply mbind_ok in Ha as (s5 & u1 & [= <- _] & [= <- _]).
      simpl. eapply adds_attach; [done|exact HA| |].
      - intros y j Hj. simpl. apply elem_of_app. by left.
      - intros y. simpl. apply elem_of_app. right. by apply elem_of_list_singleton.
    Qed.

    Lemma base_plain name m : base_method name = Some m → m = m_section ∨ m = m_include ∨ ∀ self argv, plain (m_body m self argv).
    Proof.
      unfold base_method. intros Hm%assoc_get_In. unfold base_table in Hm.
      repeat (apply elem_of_cons in Hm as [Hm|Hm]; [injection Hm as -> ->; try (by left); try (by right; left); right; right|]);
        try (by inversion Hm); intros self argv; simpl;
        repeat first [done|progress cbn [plain getself getpath ill_typed]|progress unfold ret_con_err|intro|match goal with |- context [match ?x with _ => _ end] => destruct x end].
    Qed.
  End step.

  Context (Hb : base_only E).

  Lemma grow_handle fn l acc rets : grow (handle_results fn l acc rets).
  Proof.
    intros s s' a. assert (handle_results fn l acc rets s = (s', Ok a) → s' = s) as H.
    { intros H. destruct rets as [|r1 [|r2 [|r3 rets]]]; simpl in H;
        repeat match type of H with context [match ?x with _ => _ end] => destruct x end; try done; by injection H as <- _. }
    intros ->%H. apply adds_refl.
  Qed.

  Lemma eval_grow n self acc nd : grow (eval E n self acc nd).
  Proof.
    revert self acc nd. induction n as [|n IH]; intros self acc nd; simpl; [apply grow_fail|].
    assert (∀ acc l, grow (visit_seq (eval E n) self acc l)) as Hseq.
    { intros acc' l. by apply grow_fold. }
    assert (∀ l, grow (visit_lines (eval E n) self l)) as Hlines.
    { intros l. apply grow_bind; [by apply grow_map|]. intros. apply grow_ret. }
    destruct nd as [str|l|l|l|fn args l]; simpl.
    - apply grow_ret.
    - apply Hseq.
    - apply grow_bind; [apply Hlines|]. intros [|c [|]]; try apply grow_ret. destruct (is_flow c); apply grow_ret.
    - apply grow_bind; [apply Hlines|]. intros. apply grow_ret.
    - unfold visit_invoke. apply grow_bind; [by apply grow_upd|]. intros _. apply grow_bind; [apply grow_heap|]. intros h.
      destruct (h !! self) as [x|]; [|apply grow_fail]. apply grow_bind; [apply grow_opt|]. intros f.
      destruct (find_method E (s_factories x) (method_name fn)) as [m|] eqn:Hm; [|apply grow_fail].
      destruct (arity_ok m (length args)); [|apply grow_fail].
      apply grow_bind.
      { apply grow_map. intros [ty nd]. simpl. destruct ty; simpl; [| |apply grow_ret|apply grow_fail].
        - apply grow_bind; [apply IH|]. intros [c|]; [|apply grow_fail]. apply grow_bind; [apply grow_heap|]. intros h'.
          apply grow_bind; [apply grow_lift|]. intros. apply grow_ret.
        - apply grow_bind; [apply IH|]. intros. apply grow_ret. }
      intros argv. destruct (existsb is_zero argv); [apply grow_fail|].
      apply find_method_some in Hm as (g & _ & Hg). destruct Hb as [HB Ho].
      destruct g as [|k]; [rewrite HB in Hg|by rewrite Ho in Hg].
      intros s s' r (s1 & rets & H1 & H2)%mbind_ok. pose proof (grow_handle _ _ _ _ _ _ _ H2) as G2.
      eapply adds_trans; [|exact G2].
      destruct (base_plain _ _ Hg) as [-> |[-> |Hp]].
      + by eapply section_grow.
      + by eapply include_grow.
      + by eapply grow_plain.
  Qed.

  Lemma load_file_listed n path fs s s' r : load_file E n path fs s = (s', Ok r) →
    r = length (st_heap s) ∧ ∀ j, r < j → j < length (st_heap s') → ∃ p, lists (st_heap s') p j.
  Proof.
    intros H. apply evaluate_file_adds in H as [-> [L _ A]]; [|apply eval_grow]. split; [done|].
    rewrite app_length in *. simpl in *. intros j H1 H2. apply A; [lia|done].
  Qed.

  Lemma load_all_descend ord n path fs s s' r : wf (st_heap s) → load E ord n path fs s = (s', Ok r) →
    ∀ j, length (st_heap s) ≤ j → j < length (st_heap s') → descendant (st_heap s') r j.
  Proof.
    intros W H. pose proof (load_keeps E ord n path fs s W) as Hold. rewrite H in Hold. simpl in Hold.
    destruct (load_file_facts E n path fs s W) as (W1 & _ & _ & _ & _).
    unfold load in H. apply mbind_ok in H as (s1 & r' & Hl & H). rewrite Hl in W1. simpl in W1.
    pose proof (run_stages_shape ord r' s1) as HS. rewrite H in HS. simpl in HS.
    assert (r = r') as ->.
    { unfold run_stages in H. destruct (collect _ _ _ _ _) as [[h k]|e| |]; congruence. }
    destruct (load_file_listed _ _ _ _ _ _ Hl) as [-> HL].
    assert (wf (st_heap s')) as W' by by eapply shape_wf.
    assert (∀ p j, lists (st_heap s1) p j → lists (st_heap s') p j) as HK.
    { intros p j (x & Hx & Hj). destruct (proj2 HS _ _ Hx) as (ts & Hts). eexists. split; [exact Hts|]. done. }
    intros j. induction (lt_wf j) as [j _ IH]. intros H1 H2.
    destruct (decide (j = length (st_heap s))) as [->|Hne]; [constructor|].
    destruct (HL j) as (p & Hp); [lia| |].
    { destruct HS as [HS _]. congruence. }
    apply HK in Hp. destruct Hp as (x & Hx & Hj).
    destruct (wf_child _ W' _ _ _ Hx Hj) as (y & Hy & Hpy). pose proof (wf_parent _ W' _ _ _ Hy Hpy) as Hlt.
    assert (length (st_heap s) ≤ p) as Hge.
    { destruct (decide (p < length (st_heap s))) as [Hlt2|]; [|lia]. exfalso.
      destruct (lookup_lt_is_Some_2 _ _ Hlt2) as [x0 Hx0]. destruct (Hold _ _ Hx0) as (x' & Hx' & ts & Ets).
      assert (x' = x) as -> by congruence. subst x. simpl in Hj.
      destruct (wf_child _ W _ _ _ Hx0 Hj) as (z & Hz%lookup_lt_Some & _). lia. }
    eapply rtc_r; [apply IH; [done|done|lia]|]. by exists x.
  Qed.
End eval.
