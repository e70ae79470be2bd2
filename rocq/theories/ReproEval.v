(** Evaluating in heaps that differ in the order of tags. *)
From Coq Require Import Ascii String Lia.
From stdpp Require Import base tactics relations strings list.
From Verif Require Import GoBase Ast Content ContentProofs Section Render EvalFrame Evaluate EvalInv BaseInv Collect CollectSpec CollectAt Html TextRender
  ReproSpec Repro ReproRead.

(** Sections that differ so. *)
Definition near (i : nat) (x x' : section) : Prop :=
  ∃ A B B', s_tags x = A ++ B ∧ x' = set_tags x (A ++ B') ∧ B ≡ₚ B' ∧ Forall (λ t, t_section t = Some i) B.

Lemma near_alike h h' : length h' = length h →
  (∀ i x x', h !! i = Some x → h' !! i = Some x' → near i x x') → alike h h'.
Proof.
  intros HL H. split; [done|]. intros i x Hx.
  assert (is_Some (h' !! i)) as [x' Hx'] by (apply lookup_lt_is_Some; rewrite HL; by eapply lookup_lt_Some).
  destruct (H _ _ _ Hx Hx') as (A & B & B' & H1 & -> & H2 & H3). by exists A, B, B'.
Qed.
Lemma alike_near h h' i x x' : alike h h' → h !! i = Some x → h' !! i = Some x' → near i x x'.
Proof. intros [_ H] Hx Hx'. destruct (H _ _ Hx) as (A & B & B' & H1 & H2 & H3 & H4). exists A, B, B'. split_and!; congruence || done. Qed.
Lemma near_refl i x : near i x x.
Proof. exists (s_tags x), [], []. rewrite !app_nil_r. by rewrite set_tags_id. Qed.
Lemma alike_refl h : alike h h.
Proof. apply near_alike; [done|]. intros i x x' Hx Hx'. rewrite Hx in Hx'. injection Hx' as <-. apply near_refl. Qed.
Lemma alike_none h h' i : alike h h' → h !! i = None → h' !! i = None.
Proof. intros [HL _]. rewrite !lookup_ge_None. by rewrite HL. Qed.

Lemma alike_sym h h' : alike h h' → alike h' h.
Proof.
  intros HA. apply near_alike; [by destruct HA|]. intros i x x' Hx Hx'.
  destruct (alike_near _ _ _ _ _ HA Hx' Hx) as (A & B & B' & E & -> & P & F). exists A, B', B. simpl.
  split; [done|]. split; [by rewrite set_tags_set, <- E, set_tags_id|]. split; [done|]. by rewrite <- P.
Qed.

(** Changing a section. *)
Definition steady (i : nat) (f : section → section) : Prop := ∀ x x', near i x x' → near i (f x) (f x').

Lemma steady_other i f : (∀ x ts, f (set_tags x ts) = set_tags (f x) ts) → (∀ x, s_tags (f x) = s_tags x) → steady i f.
Proof. intros H1 H2 x x' (A & B & B' & E & -> & P & F). exists A, B, B'. by rewrite H1, H2. Qed.
Lemma steady_tag i t : t_section t = Some i → steady i (λ x, set_tags x (s_tags x ++ [t])).
Proof.
  intros Ht x x' (A & B & B' & E & -> & P & F). exists A, (B ++ [t]), (B' ++ [t]). simpl. rewrite E.
  rewrite <- !(assoc_L (++)). split; [done|]. split; [by rewrite !set_tags_set|]. split; [by rewrite P|].
  apply Forall_app. split; [done|]. by apply Forall_singleton.
Qed.
Lemma steady_title i title l tags : steady i (set_title i title l tags).
Proof.
  intros x x' (A & B & B' & E & -> & P & F). unfold set_title. rewrite set_tags_set. apply near_refl.
Qed.
Lemma steady_upd h h' i f : steady i f → alike h h' → alike (upd h i f) (upd h' i f).
Proof.
  intros Hf HA. apply near_alike; [rewrite !upd_length; by destruct HA|]. intros j x x'. rewrite !upd_lookup.
  destruct (decide (i = j)) as [<-|]; [|by apply alike_near].
  destruct (h !! i) as [y|] eqn:Hy; [|done]. destruct (h' !! i) as [y'|] eqn:Hy'; [|done].
  intros [= <-] [= <-]. by eapply Hf, alike_near.
Qed.

Definition srel (s s' : st) : Prop := alike (st_heap s) (st_heap s') ∧ st_cache s = st_cache s'.
Lemma srel_sym s s' : srel s s' → srel s' s.
Proof. intros [H1 H2]. split; [by apply alike_sym|done]. Qed.
Definition agrees {A} (m m' : M A) : Prop := ∀ s s', srel s s' → srel (m s).1 (m' s').1 ∧ (m s).2 = (m' s').2.

(** Plugins that do not look at the order of tags. *)
Inductive palike {A} : prog A → prog A → Prop :=
| pa_ret a : palike (PRet a) (PRet a)
| pa_panic : palike PPanic PPanic
| pa_heap k k' : (∀ h h', alike h h' → palike (k h) (k' h')) → palike (PHeap k) (PHeap k')
| pa_reg name k k' : (∀ f, palike (k f) (k' f)) → palike (PReg name k) (PReg name k')
| pa_op o k k' : palike k k' → palike (POp o k) (POp o k')
| pa_node nd fs a l k k' : (∀ r, palike (k r) (k' r)) → palike (PEvalNode nd fs a l k) (PEvalNode nd fs a l k')
| pa_file p fs a k k' : (∀ r, palike (k r) (k' r)) → palike (PEvalFile p fs a k) (PEvalFile p fs a k').

Definition indifferent (E : env) : Prop :=
  ∀ f name m, e_methods E f name = Some m → ∀ self args, palike (m_body m self args) (m_body m self args).

Section agrees.
  Context (E : env).

  Lemma ag_ret {A} (a : A) : agrees (mret a) (mret a). Proof. by intros s s' H. Qed.
  Lemma ag_fail {A} (o : outcome error A) : agrees (mfail o) (mfail o). Proof. by intros s s' H. Qed.
  Lemma ag_lift {A} (o : outcome error A) : agrees (mlift o) (mlift o). Proof. by intros s s' H. Qed.
  Lemma ag_opt {A} (o : option A) : agrees (mopt o) (mopt o). Proof. destruct o; [apply ag_ret|apply ag_fail]. Qed.
  Lemma ag_upd i f : steady i f → agrees (mupd i f) (mupd i f).
  Proof. intros Hf s s' [H1 H2]. split; [|done]. split; [|done]. by apply steady_upd. Qed.
  Lemma ag_bind {A B} (m m' : M A) (f f' : A → M B) : agrees m m' → (∀ a, agrees (f a) (f' a)) → agrees (mbind m f) (mbind m' f').
  Proof.
    intros Hm Hf s s' H. destruct (Hm s s' H) as [H1 H2]. unfold mbind.
    destruct (m s) as [t o], (m' s') as [t' o']. simpl in *. subst o'. destruct o; [by apply Hf|done..].
  Qed.
  (** Reading the heap. *)
  Lemma ag_heap {B} (f f' : heap → M B) : (∀ h h', alike h h' → agrees (f h) (f' h')) → agrees (mbind mheap f) (mbind mheap f').
  Proof. intros Hf s s' H. unfold mbind, mheap. apply Hf; [by destruct H|done]. Qed.
  Lemma ag_catch {A} (m m' : M A) : agrees m m' → agrees (mcatch m) (mcatch m').
  Proof.
    intros Hm s s' H. destruct (Hm s s' H) as [H1 H2]. unfold mcatch.
    destruct (m s) as [t o], (m' s') as [t' o']. simpl in *. subst o'. by destruct o.
  Qed.
  Lemma ag_map {A B} (f : A → M B) l : (∀ a, agrees (f a) (f a)) → agrees (mmap f l) (mmap f l).
  Proof. intros Hf. induction l as [|x l IH]; [apply ag_ret|]. apply ag_bind; [apply Hf|]. intros y. apply ag_bind; [apply IH|]. intros. apply ag_ret. Qed.
  Lemma ag_fold {A B} (f : B → A → M B) acc l : (∀ b a, agrees (f b a) (f b a)) → agrees (mfold f acc l) (mfold f acc l).
  Proof. intros Hf. revert acc. induction l as [|x l IH]; intros acc; [apply ag_ret|]. apply ag_bind; [apply Hf|]. auto. Qed.

  Hint Resolve ag_ret ag_fail ag_lift ag_opt ag_bind ag_catch ag_map ag_fold : ag.

  Ltac other := apply ag_upd, steady_other; by intros.

  Lemma title_tags_alike h h' title tags : alike h h' →
    title_tags (e_similar E) (e_broken E) h (e_jumps E) title tags = title_tags (e_similar E) (e_broken E) h' (e_jumps E) title tags.
  Proof.
    intros HA. unfold title_tags, default_tag. destruct tags; [|done]. destruct (strip_aux title); [|done].
    by rewrite (cstring_alike (e_similar E) (e_broken E) h h' HA).
  Qed.

  Lemma ag_op self o : agrees (run_op E self o) (run_op E self o).
  Proof.
    destruct o; cbn [run_op]; try other.
    - apply ag_heap. intros h h' HA. rewrite (title_tags_alike _ _ _ _ HA). apply ag_bind; [apply ag_lift|]. intros ts. apply ag_upd, steady_title.
    - by apply ag_upd, steady_tag.
    - by apply ag_upd, steady_tag.
  Qed.

  Lemma ag_alloc p path : agrees (alloc p path) (alloc p path).
  Proof.
    intros s s' [H1 H2]. unfold alloc. simpl. pose proof H1 as [HL _]. rewrite HL. split; [|done]. split; [|done]. simpl.
    apply near_alike; [rewrite !app_length; simpl; lia|]. intros i x x' Hx Hx'.
    apply lookup_app_Some in Hx as [Hx|[Hi Hx]].
    - rewrite lookup_app_l in Hx'; [by eapply alike_near|]. rewrite HL. by eapply lookup_lt_Some.
    - rewrite lookup_app_r in Hx' by lia. rewrite HL in Hx'. rewrite Hx in Hx'. injection Hx' as <-. apply near_refl.
  Qed.

  Lemma ag_parse path mt x : agrees (parse_step path mt x) (parse_step path mt x).
  Proof. intros s s' H. split; [done|]. unfold parse_step. simpl. by rewrite (proj2 H). Qed.

  Lemma file_path_alike h h' i : alike h h' → file_path h i = file_path h' i.
  Proof. intros HA. rewrite (file_path_skel h), (file_path_skel h'). by rewrite (alike_skel _ _ HA). Qed.

  Section rec.
    Context (HE : indifferent E).
    Context (rec : nat → option content → node → M (option content)).
    Context (Hrec : ∀ self acc nd, agrees (rec self acc nd) (rec self acc nd)).

    Lemma ag_section self nd fs : agrees (evaluate_section rec self nd fs) (evaluate_section rec self nd fs).
    Proof.
      unfold evaluate_section. apply ag_bind; [apply ag_fold; intros; other|]. intros _. apply ag_bind; [apply Hrec|].
      intros [c|]; [other|auto with ag].
    Qed.
    Lemma ag_node p nd fs : agrees (evaluate_node rec p nd fs) (evaluate_node rec p nd fs).
    Proof. unfold evaluate_node. apply ag_bind; [apply ag_alloc|]. intros i. apply ag_bind; [apply ag_section|]. auto with ag. Qed.
    Lemma ag_file p path fs : agrees (evaluate_file E rec p path fs) (evaluate_file E rec p path fs).
    Proof.
      unfold evaluate_file. destruct (e_fs E path) as [[mt x]|]; [|apply ag_fail].
      apply ag_bind; [apply ag_parse|]. intros nd. apply ag_bind; [apply ag_alloc|]. intros i. apply ag_bind; [apply ag_section|].
      intros _ s s' [H1 H2]. split; [|done]. split; [done|]. simpl. by rewrite H2.
    Qed.
    Lemma ag_attach self a l r : agrees (attach_result self a l r) (attach_result self a l r).
    Proof.
      unfold attach_result, attach_child. destruct r as [i|e]; [|auto with ag]. apply ag_bind.
      - destruct l; [|auto with ag]. apply ag_heap. intros h h' HA. destruct (h !! self) as [x|] eqn:Hx.
        + destruct HA as [HL HA]. destruct (HA _ _ Hx) as (A & B & B' & _ & -> & _). simpl. other.
        + rewrite (alike_none _ _ _ HA Hx). apply ag_fail.
      - intros _. destruct a; [other|auto with ag].
    Qed.
    Lemma ag_prog {A} self (p p' : prog A) : palike p p' → agrees (run_prog E rec self p) (run_prog E rec self p').
    Proof.
      induction 1; cbn [run_prog]; auto with ag.
      - by apply ag_heap.
      - apply ag_bind; [apply ag_op|auto].
      - apply ag_bind; [apply ag_catch, ag_node|]. intros r. apply ag_bind; [apply ag_attach|auto].
      - apply ag_bind; [apply ag_catch, ag_file|]. intros r. apply ag_bind; [apply ag_attach|auto].
    Qed.
    Lemma ag_convert self ty nd : agrees (convert E rec self ty nd) (convert E rec self ty nd).
    Proof.
      destruct ty; cbn [convert]; auto with ag. apply ag_bind; [apply Hrec|]. intros [c|]; [|auto with ag].
      apply ag_heap. intros h h' HA. unfold str. rewrite (cstring_alike (e_similar E) (e_broken E) h h' HA). auto with ag.
    Qed.
    Lemma ag_results fn l acc rets : agrees (handle_results fn l acc rets) (handle_results fn l acc rets).
    Proof. unfold handle_results. repeat case_match; auto with ag. Qed.
    Lemma find_method_in fs name m : find_method E fs name = Some m → ∃ f, e_methods E f name = Some m.
    Proof. induction fs as [|f fs IH]; simpl; [done|]. destruct (e_methods E f name) eqn:Em; [|done]. intros [= <-]. by exists f. Qed.
    Lemma ag_invoke self acc fn args l : agrees (visit_invoke E rec self acc fn args l) (visit_invoke E rec self acc fn args l).
    Proof.
      unfold visit_invoke. apply ag_bind; [other|]. intros _. apply ag_heap. intros h h' HA.
      destruct (h !! self) as [x|] eqn:Hx; [|rewrite (alike_none _ _ _ HA Hx); apply ag_fail].
      rewrite <- (file_path_alike _ _ self HA).
      destruct HA as [HL HA]. destruct (HA _ _ Hx) as (A & B & B' & _ & -> & _). simpl s_factories.
      apply ag_bind; [auto with ag|]. intros f.
      destruct (find_method E _ _) as [m|] eqn:Em; [|auto with ag]. destruct (arity_ok m _); [|auto with ag].
      apply ag_bind; [apply ag_map; intros [ty nd]; apply ag_convert|]. intros argv.
      destruct (existsb is_zero argv); [auto with ag|]. apply ag_bind; [|intros rets; apply ag_results].
      apply ag_prog. apply find_method_in in Em as [g Em]. by eapply HE.
    Qed.
    Lemma ag_seq self acc l : agrees (visit_seq rec self acc l) (visit_seq rec self acc l).
    Proof. unfold visit_seq. apply ag_fold. auto. Qed.
    Lemma ag_lines self ls : agrees (visit_lines rec self ls) (visit_lines rec self ls).
    Proof. unfold visit_lines. apply ag_bind; [apply ag_map; intros; apply ag_seq|]. auto with ag. Qed.
    Lemma ag_eval_F self acc nd : agrees (eval_F E rec self acc nd) (eval_F E rec self acc nd).
    Proof.
      destruct nd; cbn [eval_F]; auto using ag_seq, ag_invoke with ag.
      - apply ag_bind; [apply ag_lines|]. intros [|c [|]]; auto with ag. destruct (is_flow c); auto with ag.
      - apply ag_bind; [apply ag_lines|]. auto with ag.
    Qed.
  End rec.

  Context (HE : indifferent E).

  Lemma ag_eval n self acc nd : agrees (eval E n self acc nd) (eval E n self acc nd).
  Proof. revert self acc nd. induction n as [|n IH]; intros self acc nd; cbn [eval]; [apply ag_fail|]. by apply ag_eval_F. Qed.

  (** Collecting in another order too. *)
  Lemma grown_alike2 h h' L h1 h2 : alike h h' → grown h L h1 → grown h' L h2 → alike h1 h2.
  Proof.
    intros HA [H1 A1] [H2 A2]. apply near_alike; [destruct HA; congruence|]. intros i s1 s2 Hs1 Hs2.
    assert (is_Some (h !! i)) as [s Hs] by (apply lookup_lt_is_Some; rewrite <- H1; by eapply lookup_lt_Some).
    assert (is_Some (h' !! i)) as [s' Hs'] by (apply lookup_lt_is_Some; rewrite <- H2; by eapply lookup_lt_Some).
    destruct (alike_near _ _ _ _ _ HA Hs Hs') as (A & B & B' & E1 & -> & P & F).
    destruct (A1 _ _ Hs) as (C & C1 & P1). destruct (A2 _ _ Hs') as (C' & C2 & P2).
    rewrite C1 in Hs1. injection Hs1 as <-. rewrite C2 in Hs2. injection Hs2 as <-. simpl. rewrite E1.
    exists A, (B ++ C), (B' ++ C'). rewrite <- !(assoc_L (++)). split; [done|]. split; [by rewrite !set_tags_set|].
    split; [by rewrite P, P1, P2|]. apply Forall_app. split; [done|]. rewrite P1. unfold tags_for.
    apply Forall_map, Forall_forall. by intros [a b] _.
  Qed.

  Lemma stages_alike ord ord' i s s' s1 r : orders ord → orders ord' → srel s s' →
    run_stages ord i s = (s1, Ok r) → ∃ s2, run_stages ord' i s' = (s2, Ok r) ∧ srel s1 s2.
  Proof.
    intros O O' [HA Hc]. unfold run_stages.
    destruct (collect ord _ i i _) as [[h1 k1]|e| |] eqn:Ec; try done. intros [= <- <-].
    destruct (agree_collect (skel (st_heap s)) ord ord' (fuel_of (st_heap s)) i i O O') as (L & D & D');
      [by exists (st_heap s), 0, h1, k1|].
    destruct (D (st_heap s) 0 eq_refl) as (h1' & k1' & E1 & G1). rewrite Ec in E1. injection E1 as <- <-.
    destruct (D' (st_heap s') 0 (alike_skel _ _ HA)) as (h2 & k2 & E2 & G2).
    replace (fuel_of (st_heap s')) with (fuel_of (st_heap s)) by (unfold fuel_of; by destruct HA as [-> _]).
    rewrite E2. eexists. split; [done|]. split; [|done]. simpl. by eapply grown_alike2.
  Qed.
End agrees.

(** The base plugin does not look at the order of tags. *)
Lemma palike_self {A} self (k : section → prog A) : (∀ x x', near self x x' → palike (k x) (k x')) → palike (getself self k) (getself self k).
Proof.
  intros Hk. apply pa_heap. intros h h' HA. destruct (h !! self) as [x|] eqn:Hx.
  - destruct (h' !! self) as [x'|] eqn:Hx'; [by eapply Hk, alike_near|].
    destruct HA as [_ HA]. destruct (HA _ _ Hx) as (? & ? & ? & _ & ? & _). congruence.
  - rewrite (alike_none _ _ _ HA Hx). constructor.
Qed.
Lemma palike_path {A} self (k : string → prog A) : (∀ f, palike (k f) (k f)) → palike (getpath self k) (getpath self k).
Proof.
  intros Hk. apply pa_heap. intros h h' HA. rewrite <- (file_path_alike _ _ self HA).
  destruct (file_path h self); [apply Hk|constructor].
Qed.
Lemma split_prevented_alike h h' i : alike h h' → split_prevented h i = split_prevented h' i.
Proof.
  intros HA. pose proof (alike_skel _ _ HA) as Hs. pose proof HA as [HL _]. unfold split_prevented, fuel_of. rewrite HL.
  apply gofix_ext. intros rec rec' j Hr. unfold split_prevented_F.
  assert (bare <$> h !! j = bare <$> h' !! j) as Hb by (by rewrite <- !skel_lookup, Hs).
  destruct (h !! j) as [x|], (h' !! j) as [x'|]; try done. simpl in Hb. injection Hb. intros. simpl.
  repeat match goal with H : ?f x = ?f x' |- _ => rewrite ?H; clear H end.
  repeat case_match; done || (by rewrite Hr).
Qed.

Lemma base_indifferent E : base_only E → indifferent E.
Proof.
  intros [HB HO] f name m Hm self args. assert (f = FBase) as -> by (destruct f; [done|]; by rewrite HO in Hm).
  rewrite HB in Hm. assert (∃ k, (k, m) ∈ base_table) as (k & Hk).
  { unfold base_method in Hm. clear -Hm. exists name. revert Hm. generalize base_table. induction l as [|[k v] l IH]; simpl; [done|].
    destruct (String.eqb_spec k name) as [->|]; [intros [= ->]; left|]. intros H. right. auto. }
  clear Hm name. unfold base_table in Hk. rewrite !elem_of_cons, elem_of_nil in Hk.
  assert (∀ style, palike (m_body (styled_method style) self args) (m_body (styled_method style) self args)) as Hst.
  { intros style. simpl. repeat case_match; constructor. }
  assert (∀ b, palike (m_body (list_method b) self args) (m_body (list_method b) self args)) as Hli.
  { intros style. simpl. repeat case_match; constructor. }
  repeat (destruct Hk as [[= _ ->]|Hk]); try done.
  all: first [apply Hst|apply Hli|idtac].
  - simpl. repeat case_match; try (by constructor). constructor. intros [g|]; repeat constructor.
  - simpl. repeat case_match; repeat constructor.
  - simpl. destruct args as [|[|[c|]|] args]; try (by constructor). destruct (str_args args); [|constructor].
    apply palike_self. intros x x' (A & B & B' & _ & -> & _). simpl. destruct (is_empty (s_title x)); [repeat constructor|].
    apply palike_path. intros. constructor.
  - simpl. repeat case_match; repeat constructor.
  - simpl. destruct args as [|[| |nd] [|]]; try (by constructor). constructor. intros h h' HA.
    destruct (h !! self) as [x|] eqn:Hx; [|rewrite (alike_none _ _ _ HA Hx); constructor].
    destruct HA as [_ HA]. destruct (HA _ _ Hx) as (A & B & B' & _ & -> & _). simpl. constructor. intros [|]; constructor.
  - simpl. destruct args as [|[p| |] [|]]; try (by constructor). apply palike_path. intros f. constructor. intros [|]; constructor.
  - repeat constructor.
  - simpl. constructor. constructor. intros h h' HA. rewrite <- (split_prevented_alike _ _ self HA).
    destruct (split_prevented h self) as [[]|]; repeat constructor.
  - repeat constructor.
  - repeat constructor.
  - simpl. repeat case_match; repeat constructor.
  - simpl. destruct args as [|[s| |] args]; try (by constructor). destruct (con_args args); [|constructor].
    apply palike_self. intros x x' (A & B & B' & _ & -> & _). constructor.
  - simpl. destruct args as [|[s| |] args]; try (by constructor). destruct (con_args args); [|constructor].
    apply palike_self. intros x x' (A & B & B' & _ & -> & _). simpl. repeat case_match; constructor.
  - simpl. repeat case_match; repeat constructor.
  - simpl. repeat case_match; repeat constructor.
  - simpl. unfold ret_con_err. repeat case_match; repeat constructor.
  - simpl. unfold ret_con_err. repeat case_match; repeat constructor.
Qed.
