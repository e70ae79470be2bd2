(** Evaluation leaves locations of the evaluated files, in the book and in errors. *)
From Coq Require Import Ascii String.
From stdpp Require Import base tactics relations strings list.
From Verif Require Import GoBase StrProofs Ast Content Section ContentSpec ContentProofs TreeSpec TreeProofs TagProofs QueryProofs
  Evaluate EvalProofs EvalFrame EvalInv BaseInv BaseFacts HtmlLoad HtmlProofs Sound EndSpec Paths EvalEnds LoadEnds
  EvalSpec EvalTheory EvalFail EvalMore EvalLoc CrashSpec EvalCrash LocSpec.
Local Open Scope string_scope.
Local Open Scope list_scope.

Lemma Forall_flat_map {A B} (P : B → Prop) (f : A → list B) l : Forall P (flat_map f l) ↔ Forall (λ x, Forall P (f x)) l.
Proof.
  induction l as [|x l IH]; simpl; [by split; constructor|]. rewrite Forall_app, Forall_cons. by rewrite IH.
Qed.

Section at_.
  Context (occurs : string → node → Prop).
  Notation mark_ok := (mark_ok occurs).
  Notation marked := (marked occurs).
  Notation marked_option := (marked_option occurs).
  Notation section_ok := (section_ok occurs).
  Notation heap_ok := (heap_ok occurs).
  Notation tag_ok := (tag_ok occurs).

  Definition keeps (h h' : heap) : Prop := ∀ i f, in_file h i f → in_file h' i f.

  Lemma marked_mono h h' f c : keeps h h' → marked h f c → marked h' f c.
  Proof. intros K H. eapply Forall_impl; [exact H|]. intros [i l|l|]; simpl; [|done..]. intros [? ?]. split; [by apply K|done]. Qed.
  Lemma marked_option_mono h h' f o : keeps h h' → marked_option h f o → marked_option h' f o.
  Proof. destruct o; simpl; [|done]. apply marked_mono. Qed.
  Lemma tag_ok_mono h h' f i t : keeps h h' → tag_ok h f i t → tag_ok h' f i t.
  Proof. intros K (? & ? & ? & ?). split_and!; try done; by eapply marked_option_mono. Qed.
  Lemma section_ok_mono h h' f i x : keeps h h' → section_ok h f i x → section_ok h' f i x.
  Proof.
    intros K (? & ? & Hp & Ht & ? & ?). split_and!; try done; try by eapply marked_mono.
    - eapply Forall_impl; [exact Hp|]. intros p. by apply marked_option_mono.
    - eapply Forall_impl; [exact Ht|]. intros p. by apply tag_ok_mono.
  Qed.

  Lemma heap_ok_upd h i g : heap_ok h → (∀ x, s_path (g x) = s_path x ∧ s_parent (g x) = s_parent x) →
    (∀ x f, h !! i = Some x → in_file h i f → section_ok h f i x → section_ok h f i (g x)) → heap_ok (upd h i g).
  Proof.
    intros HO Hg Hs j x Hj. destruct (pres_upd i g (St h []) [] Hg) as [_ K]. simpl in K.
    rewrite upd_lookup in Hj. destruct (decide (i = j)) as [->|].
    - destruct (h !! j) as [y|] eqn:Hy; [|done]. injection Hj as <-. destruct (HO _ _ Hy) as (f & Hf & Ho).
      exists f. split; [by apply K|]. eapply section_ok_mono; [exact K|]. by apply Hs.
    - destruct (HO _ _ Hj) as (f & Hf & Ho). exists f. split; [by apply K|]. by eapply section_ok_mono.
  Qed.
  Lemma heap_ok_same h i g : heap_ok h →
    (∀ x, s_path (g x) = s_path x ∧ s_parent (g x) = s_parent x ∧ s_title (g x) = s_title x ∧ s_body (g x) = s_body x ∧
      s_partials (g x) = s_partials x ∧ s_tags (g x) = s_tags x ∧ s_titleloc (g x) = s_titleloc x ∧ (FBase ∈ s_factories x → FBase ∈ s_factories (g x))) → heap_ok (upd h i g).
  Proof.
    intros HO Hg. apply heap_ok_upd; [done| |].
    - intros x. destruct (Hg x) as (? & ? & _). done.
    - intros x f _ _ (H1 & H2 & H3 & H4 & H5 & H6). destruct (Hg x) as (_ & _ & E1 & E2 & E3 & E4 & E5 & E6).
      unfold section_ok. rewrite E1, E2, E3, E4, E5. by split_and!; auto.
  Qed.

  Lemma marked_append h f acc c : marked_option h f acc → marked h f c → marked_option h f (go_append acc [Some c]).
  Proof.
    intros Ha Hc. destruct acc as [a|]; simpl; [|done].
    assert (∀ a, marked h f a → marked h f (CSeq [a; c])) as Hp.
    { intros a' H. unfold marked. simpl. rewrite app_nil_r. by apply Forall_app. }
    destruct a; simpl; try by apply Hp. simpl in Ha. unfold marked in *. cbn [marks] in *. rewrite flat_map_app. simpl. rewrite app_nil_r.
    by apply Forall_app.
  Qed.
  Lemma marked_all h f l : Forall (marked h f) l ↔ Forall (mark_ok h f) (flat_map marks l).
  Proof. symmetry. apply Forall_flat_map. Qed.

  (** ** Steps *)

  Definition res (X : error → Prop) {A} (s : st) (r : st * outcome error A) (Q : st → A → Prop) : Prop :=
    heap_ok (st_heap (fst r)) ∧ pres s (fst r) ∧
    match snd r with Ok a => Q (fst r) a | Err e => X e | _ => True end.

  Lemma res_ret X {A} s (a : A) (Q : st → A → Prop) : heap_ok (st_heap s) → Q s a → res X s (mret a s) Q.
  Proof. intros H HQ. split; [done|]. split; [apply pres_refl|done]. Qed.
  Lemma res_err (X : error → Prop) {A} s e (Q : st → A → Prop) : heap_ok (st_heap s) → X e → res X s (mfail (Err e) s) Q.
  Proof. intros H HQ. split; [done|]. split; [apply pres_refl|done]. Qed.
  Lemma res_stop X {A} s (o : outcome error A) (Q : st → A → Prop) : heap_ok (st_heap s) → o = Panic ∨ o = NoFuel → res X s (mfail o s) Q.
  Proof. intros H HQ. split; [done|]. split; [apply pres_refl|]. by destruct HQ as [->| ->]. Qed.
  Lemma res_bind (X : error → Prop) {A B} s (m : M A) (f : A → M B) (P : st → A → Prop) Q :
    res X s (m s) P →
    (∀ s1 a, m s = (s1, Ok a) → heap_ok (st_heap s1) → pres s s1 → P s1 a → res X s1 (f a s1) Q) →
    res X s (mbind m f s) Q.
  Proof.
    intros (H1 & H2 & H3) Hf. unfold mbind. destruct (m s) as [s1 [a|e| |]] eqn:E; simpl in *; try done.
    destruct (Hf s1 a eq_refl H1 H2 H3) as (H4 & H5 & H6). split; [done|]. split; [by eapply pres_trans|done].
  Qed.
  Lemma res_impl (X Y : error → Prop) {A} s r (P Q : st → A → Prop) :
    res X s r P → (∀ e, X e → Y e) → (∀ a, snd r = Ok a → P (fst r) a → Q (fst r) a) → res Y s r Q.
  Proof. intros (H1 & H2 & H3) HX HQ. split; [done|]. split; [done|]. destruct (snd r); auto. Qed.
  Lemma res_catch (X : error → Prop) {A} s (m : M A) (P : st → A → Prop) :
    res X s (m s) P → res (λ _, False) s (mcatch m s) (λ s' r, match r with inl a => P s' a | inr e => X e end).
  Proof. intros (H1 & H2 & H3). unfold mcatch. destruct (m s) as [s1 [a|e| |]]; simpl in *; done. Qed.
  Lemma res_upd X s i g : heap_ok (upd (st_heap s) i g) → (∀ x, s_path (g x) = s_path x ∧ s_parent (g x) = s_parent x) →
    res X s (mupd i g s) (λ _ _, True).
  Proof. intros H Hg. split; [done|]. split; [by apply pres_upd|done]. Qed.
  Lemma res_same X s i g : heap_ok (st_heap s) →
    (∀ x, s_path (g x) = s_path x ∧ s_parent (g x) = s_parent x ∧ s_title (g x) = s_title x ∧ s_body (g x) = s_body x ∧
      s_partials (g x) = s_partials x ∧ s_tags (g x) = s_tags x ∧ s_titleloc (g x) = s_titleloc x ∧ (FBase ∈ s_factories x → FBase ∈ s_factories (g x))) →
    res X s (mupd i g s) (λ _ _, True).
  Proof. intros H Hg. apply res_upd; [by apply heap_ok_same|]. intros x. destruct (Hg x) as (? & ? & _). done. Qed.

  (** ** Assignments *)

  Definition op_at (h : heap) (f : string) (o : op) : Prop :=
    match o with
    | OSetTitle title l _ => marked h f title ∧ placed occurs f "Title" l
    | OSetTag _ _ _ _ | OSetTagAnchored _ _ _ _ _ | OSetPartial _ None => False
    | OSetPartial _ (Some c) => marked h f c
    | _ => True
    end.

  Context (E : env) (HE : base_only E).

  Lemma in_file_fun h i f g : sturdy h → in_file h i f → in_file h i g → f = g.
  Proof. intros HS Hf Hg. apply (in_file_path h i) in Hf, Hg; [congruence|done..]. Qed.

  Lemma op_res X s self f o : sturdy (st_heap s) → heap_ok (st_heap s) → in_file (st_heap s) self f → op_at (st_heap s) f o →
    res X s (run_op E self o s) (λ _ _, True).
  Proof.
    intros HS HO Hf Ho. destruct o as [title l tags|name title l anchor|name title l c anchor|name [c|]|name| | | | |fa]; simpl in Ho;
      try done; try (by apply res_same).
    3: { apply res_same; [done|]. intros x. split_and!; try done. intros H. apply elem_of_app. by left. }
    - destruct Ho as [Hm Hl]. simpl. unfold mbind, mheap, mlift.
      destruct (title_tags (e_similar E) (e_broken E) (st_heap s) (e_jumps E) title tags) as [tags'|e| |] eqn:Ht.
      + apply (res_upd X s self (set_title self title l tags')).
        * apply heap_ok_upd; [done| |].
          { intros x. destruct (set_title_rest self title l tags' x) as (? & _ & ? & _). done. }
          intros x f' Hx Hf' (H1 & H2 & H3 & H4 & H5 & H6). assert (f' = f) as -> by by eapply in_file_fun.
          destruct (set_title_rest self title l tags' x) as (_ & Hb & _ & _ & _ & Hp & _ & _ & _ & _ & Hfa & _ & _ & Hti & Htl).
          destruct (set_title_tags_eq self title l tags' x) as [Hts _].
          unfold section_ok. rewrite Hb, Hp, Hti, Htl, Hts, Hfa. split_and!; try done. apply Forall_fmap. apply Forall_forall. intros n _.
          unfold tag_ok. simpl. split_and!; try done. by left.
        * intros x. destruct (set_title_rest self title l tags' x) as (? & _ & ? & _). done.
      + exfalso. by apply title_tags_no_err in Ht.
      + by apply (res_stop X s); [|left].
      + by apply (res_stop X s); [|right].
    - apply (res_upd X s self (set_partial name (Some c))); [|done]. apply heap_ok_upd; [done|done|].
      intros x f' Hx Hf' (H1 & H2 & H3 & H4 & H5 & H6). assert (f' = f) as -> by by eapply in_file_fun. split_and!; try done. simpl.
      clear -H3 Ho. induction (s_partials x) as [|[k v] ps IH]; simpl; [by repeat constructor|]. inversion H3; subst.
      destruct (String.eqb k name); constructor; try done. by apply IH.
  Qed.

  (** ** Evaluation *)

  Context (missing : string → Prop) (unread : error → Prop) (registered : string → Prop).
  Context (Hparts : ∀ f nd, occurs f nd →
    match nd with
    | NString _ => True
    | NSeq l => Forall (occurs f) l
    | NPara ls | NPre ls => Forall (Forall (occurs f)) ls
    | NInvoke _ args _ => Forall (occurs f) args
    end).
  Context (Hfile : ∀ path mt nd, e_fs E path = Some (mt, inl nd) → occurs path nd).
  Context (Hmissing : ∀ path, e_fs E path = None → missing path).
  Context (Hunread : ∀ path mt e, e_fs E path = Some (mt, inr e) → unread e ∧ is_pretty e = true).
  Context (Hregistered : ∀ name, registered name → is_Some (e_registry E name)).

  Notation placed_error := (placed_error occurs missing unread registered).
  Notation reports := (reports occurs missing registered).
  Notation miscounted := (miscounted occurs).
  Notation load_error := (load_error occurs missing unread registered).
  Definition eval_error (f : string) (e : error) : Prop := (placed_error e ∧ is_pretty e = true) ∨ miscounted f e.

  Definition arg_at (h : heap) (f : string) (v : argval) : Prop :=
    match v with AStr _ => True | ACon o => marked_option h f o | ANode nd => occurs f nd end.
  Lemma arg_at_mono h h' f v : keeps h h' → arg_at h f v → arg_at h' f v.
  Proof. intros K. destruct v; simpl; [done| |done]. by apply marked_option_mono. Qed.

  Definition ret_at (h : heap) (f name : string) (r : retval) : Prop :=
    match r with
    | RCon (Some c) => marked h f c
    | RErr (Some e) => (placed_error e ∧ is_pretty e = true) ∨ (reports f name e ∧ is_pretty e = false)
    | _ => True
    end.

  Lemma con_args_at h f argv cs : Forall (arg_at h f) argv → con_args argv = Some cs → Forall (marked h f) cs.
  Proof.
    revert cs. induction argv as [|a argv IH]; intros cs HF Hc; simpl in Hc; [by injection Hc as <-|].
    inversion HF; subst. destruct a as [|[c|]|]; try done. destruct (con_args argv); [|done]. injection Hc as <-. constructor; [done|]. by apply IH.
  Qed.

  Lemma table_at h f rows : ∀ acc, Forall (marked h f) rows → Forall (Forall (marked h f)) acc →
    match table_rows rows acc with
    | inl c => marked h f c
    | inr e => reports f "Table" e ∧ is_pretty e = false
    end.
  Proof.
    induction rows as [|r rows IH]; intros acc Hr Ha; cbn [table_rows].
    - unfold LocSpec.marked. cbn [marks]. apply Forall_flat_map. eapply Forall_impl; [exact Ha|]. intros row. apply marked_all.
    - inversion Hr; subst. destruct (as_list r) as [items|] eqn:Hl.
      + apply IH; [done|]. apply Forall_app. split; [done|]. constructor; [|done]. destruct r; try done. injection Hl as ->.
        by apply marked_all.
      + split; [|done]. constructor. by intros items o ->.
  Qed.
  Lemma defs_at h f items : ∀ acc, Forall (marked h f) items → Forall (λ p, marked h f (fst p) ∧ marked h f (snd p)) acc →
    match def_items items acc with
    | inl c => marked h f c
    | inr e => reports f "Definitions" e ∧ is_pretty e = false
    end.
  Proof.
    induction items as [|r items IH]; intros acc Hr Ha; cbn [def_items].
    - unfold LocSpec.marked. cbn [marks]. apply Forall_flat_map. eapply Forall_impl; [exact Ha|]. intros [a b] [? ?]. by apply Forall_app.
    - inversion Hr; subst. destruct (as_list r) as [its|] eqn:Hl.
      + destruct r as [| | | | | | | | | | |its' o| | | |]; try done. injection Hl as ->.
        destruct its as [|a [|b [|]]]; try (split; [by constructor|done]).
        apply IH; [done|]. apply Forall_app. split; [done|]. constructor; [|done].
        assert (Forall (marked h f) [a; b]) as HF by by apply marked_all. inversion HF as [|? ? ? HF']; subst. by inversion HF'.
      + split; [|done]. constructor. by intros its o ->.
  Qed.

  Section step.
    Context (n : nat).
    Context (IHn : ∀ self f acc nd s, fine E self s → heap_ok (st_heap s) → in_file (st_heap s) self f → occurs f nd →
      qs s acc → marked_option (st_heap s) f acc →
      res (eval_error f) s (eval E n self acc nd s) (λ s' o, marked_option (st_heap s') f o)).

    (** A new section. *)
    Lemma heap_ok_opened parent path fs s f : heap_ok (st_heap s) → FBase ∈ fs →
      in_file (st_heap (opened parent path fs s)) (length (st_heap s)) f → heap_ok (st_heap (opened parent path fs s)).
    Proof.
      intros HO Hfs Hf i x Hx. assert (keeps (st_heap s) (st_heap (opened parent path fs s))) as K.
      { intros j g. apply (pres_alloc s (set_factories (new_section parent path) fs) (st_cache s)). }
      simpl in Hx. apply lookup_app_Some in Hx as [Hx|[Hi Hx]].
      - destruct (HO _ _ Hx) as (g & Hg & Ho). exists g. split; [by apply K|]. by eapply section_ok_mono.
      - apply list_lookup_singleton_Some in Hx as [Hi' <-]. assert (i = length (st_heap s)) as -> by lia.
        exists f. split; [done|]. split_and!; try done; simpl; constructor.
    Qed.
    Lemma section_res parent path nd fs s f (k : nat → unit → M nat) : FBase ∈ fs → heap_ok (st_heap s) →
      fine E (length (st_heap s)) (opened parent path fs s) →
      in_file (st_heap (opened parent path fs s)) (length (st_heap s)) f → occurs f nd →
      (∀ i u s', heap_ok (st_heap s') → res (eval_error f) s' (k i u s') (λ _ _, True)) →
      res (eval_error f) s (mbind (alloc parent path) (λ i, mbind (evaluate_section (eval E n) i nd fs) (k i)) s) (λ _ _, True).
    Proof.
      intros Hfs HO HF Hf Hnd Hk. rewrite section_opened.
      assert (heap_ok (st_heap (opened parent path fs s))) as HO1 by by eapply heap_ok_opened.
      enough (res (eval_error f) (opened parent path fs s) (mbind (eval E n (length (st_heap s)) None nd)
        (λ r, mbind (match r with Some c => mupd (length (st_heap s)) (λ s, set_body s c) | None => mret tt end) (k (length (st_heap s))))
        (opened parent path fs s)) (λ _ _, True)) as (H1 & H2 & H3).
      { split; [done|]. split; [|done]. eapply pres_trans; [|exact H2]. apply pres_alloc. }
      eapply res_bind; [apply IHn with (f := f); done|]. intros s1 r Her HO2 Hp Hr.
      destruct (fine_eval E HE _ _ None _ _ _ _ HF I Her) as [HF1 _].
      eapply (res_bind _ _ _ _ (λ _ _, True)).
      - destruct r as [c|]; [|by apply res_ret]. apply res_upd; [|done]. apply heap_ok_upd; [done|done|].
        intros x g Hx Hg (? & ? & ? & ? & ? & ?). destruct HF1 as ((HS & _) & _).
        assert (g = f) as -> by (eapply in_file_fun; [exact HS|exact Hg|by apply Hp]). by split_and!.
      - intros s2 u _ HO3 _ _. by apply Hk.
    Qed.
    Lemma node_res parent nd fs s f : FBase ∈ fs → fine E parent s → heap_ok (st_heap s) → in_file (st_heap s) parent f → occurs f nd →
      res (eval_error f) s (evaluate_node (eval E n) parent nd fs s) (λ _ _, True).
    Proof.
      intros Hfs HF HO Hf Hnd. pose proof HF as (HG & HW & _).
      apply (section_res (Some parent) "" nd fs s f (λ i _, mret i)); try done.
      - by apply fine_opened.
      - assert (st_heap (opened (Some parent) "" fs s) !! length (st_heap s) = Some (set_factories (new_section (Some parent) "") fs)) as Hx
          by by apply list_lookup_middle.
        eapply in_parent; [exact Hx|done|done|]. by apply (pres_alloc s (set_factories (new_section (Some parent) "") fs) (st_cache s)).
    Qed.
    Lemma file_res parent path fs s : FBase ∈ fs → path ≠ "" → good E False s → wf (st_heap s) →
      match parent with Some p => fine E p s | None => True end → heap_ok (st_heap s) →
      res (λ e, eval_error path e ∨ e = EStat path ∧ missing path) s (evaluate_file E (eval E n) parent path fs s) (λ _ _, True).
    Proof.
      intros Hfs Hne HG HW Hp HO.
      unfold evaluate_file. destruct (e_fs E path) as [[mt parsed]|] eqn:Hfs'; [|apply res_err; [done|right; auto]].
      eapply (res_bind _ _ _ _ (λ _ nd, parsed = inl nd)).
      { unfold parse_step. split; [done|]. split; [apply pres_refl|]. simpl.
        assert (∀ e, parsed = inr e → eval_error path e ∨ e = EStat path ∧ missing path) as He.
        { intros e ->. apply Hunread in Hfs' as [? ?]. left. left. split; [by apply placed_parse|done]. }
        destruct (assoc_get path (st_cache s)) as [[nd t]|] eqn:Hc; [|by destruct parsed; auto].
        destruct (Nat.ltb t mt); [by destruct parsed; auto|]. destruct HG as (_ & HC & _). destruct (HC _ _ _ Hc) as [mt' Hmt]. congruence. }
      intros s1 nd Hps _ _ ->. apply parse_step_state in Hps as ->.
      assert (in_file (st_heap (opened parent path fs s)) (length (st_heap s)) path) as Hin.
      { assert (st_heap (opened parent path fs s) !! length (st_heap s) = Some (set_factories (new_section parent path) fs)) as Hx
          by by apply list_lookup_middle.
        apply (in_own _ _ _ Hx). done. }
      eapply res_impl; [|intros e He; by left|done].
      eapply (section_res parent path nd fs s path (λ i _ s, (St (st_heap s) (assoc_set path (nd, mt) (st_cache s)), Ok i))); try done.
      - apply fine_opened; [done|done|]. by destruct parent.
      - by eapply Hfile.
    Qed.

    Lemma attach_res X s self attach setloc r : heap_ok (st_heap s) → res X s (attach_result self attach setloc r s) (λ _ _, True).
    Proof.
      intros HO. destruct r as [i|e]; [|by apply res_ret]. simpl. eapply (res_bind _ _ _ _ (λ _ _, True)).
      - destruct setloc; [|by apply res_ret]. unfold mbind, mheap. destruct (st_heap s !! self); [|by apply res_stop; [|left]].
        by apply res_same.
      - intros s1 u _ HO1 _ _. destruct attach; [|by apply res_ret]. by apply res_same.
    Qed.

    Lemma rets_res X s f name rets : heap_ok (st_heap s) → Forall (ret_at (st_heap s) f name) rets →
      res X s (mret rets s) (λ s', Forall (ret_at (st_heap s') f name)).
    Proof. intros. by apply res_ret. Qed.
    Lemma op_rets X s self f name o rets : sturdy (st_heap s) → heap_ok (st_heap s) → in_file (st_heap s) self f → op_at (st_heap s) f o →
      (∀ h, Forall (ret_at h f name) rets) →
      res X s (run_prog E (eval E n) self (POp o (PRet rets)) s) (λ s', Forall (ret_at (st_heap s') f name)).
    Proof.
      intros HS HO Hf Ho Hr. cbn [run_prog]. eapply res_bind; [by apply op_res with (f := f)|]. intros s1 u _ HO1 _ _. by apply rets_res.
    Qed.

    Ltac args := repeat match goal with
      | H : Forall2 _ (_ :: _) _ |- _ => inversion H; clear H; subst
      | H : Forall2 _ [] _ |- _ => inversion H; clear H; subst
      | H : Forall _ (_ :: _) |- _ => inversion H; clear H; subst
      | H : argrel _ (TStr, _) ?v |- _ => destruct v as [?t| |]; [|done|done]; unfold argrel in H; simpl in H
      | H : argrel _ (TCon, _) ?v |- _ => destruct v as [|[?c|]|]; [done| |done|done]; clear H
      | H : argrel _ (TNode, _) ?v |- _ => destruct v as [| |]; [done|done|]; unfold argrel in H; simpl in H; subst
      end.

    Lemma method_res s self f fn args m argv : base_method (method_name fn) = Some m → fine E self s →
      heap_ok (st_heap s) → in_file (st_heap s) self f →
      (∀ x, st_heap s !! self = Some x → method_name fn ≠ "Section" → placed occurs f (method_name fn) (s_invloc x)) →
      arity_ok m (length args) = true → Forall2 (argrel s) (arg_types m args) argv → existsb is_zero argv = false →
      Forall (arg_at (st_heap s) f) argv →
      res (λ _, False) s (run_prog E (eval E n) self (m_body m self argv) s) (λ s', Forall (ret_at (st_heap s') f (method_name fn))).
    Proof.
      intros Hm HF HO Hf Hpl Ha HR Hz HA. pose proof HF as ((HS & HC & _) & HW & _).
      destruct (fine_section E _ _ HF) as [x Hx]. specialize (Hpl x Hx).
      unfold base_method in Hm. apply assoc_get_In in Hm.
      assert (∀ style, arity_ok (styled_method style) (length args) = true → Forall2 (argrel s) (arg_types (styled_method style) args) argv →
        res (λ _, False) s (run_prog E (eval E n) self (m_body (styled_method style) self argv) s) (λ s', Forall (ret_at (st_heap s') f (method_name fn)))) as Hst.
      { clear -HA Hz HO. intros style Ha HR. destruct args as [|a [|]]; try done. cbn in HR. args; simpl in *; try done.
        apply rets_res; [done|]. apply Forall_singleton. simpl. unfold LocSpec.marked. simpl. by rewrite app_nil_r. }
      assert (∀ o, Forall2 (argrel s) (arg_types (list_method o) args) argv →
        res (λ _, False) s (run_prog E (eval E n) self (m_body (list_method o) self argv) s) (λ s', Forall (ret_at (st_heap s') f (method_name fn)))) as Hli.
      { clear -HA Hz HO. intros o HR. cbn in HR. simpl. destruct (con_args_ok _ _ _ HR Hz) as (cs & Hcs & _ & _). rewrite Hcs.
        apply rets_res; [done|]. apply Forall_singleton. simpl. unfold LocSpec.marked. simpl. apply marked_all. by eapply con_args_at. }
      unfold base_table in Hm.
      repeat (apply elem_of_cons in Hm as [Hm|Hm]; [injection Hm as Hname ->|]); try (by apply Hst); try (by apply Hli); try by inversion Hm.
      all: rewrite Hname in *; specialize (Hpl); try specialize (Hpl ltac:(done)).
      - (* UsePlugin *)
        destruct args as [|a [|]]; try done. cbn in HR. args. simpl. destruct (e_registry E t) as [fa|] eqn:Hreg.
        + apply (op_rets _ s self f); try done; intros h; by repeat constructor.
        + apply rets_res; [done|]. apply Forall_singleton. right. split; [|done]. constructor.
          intros [? ?]%Hregistered. congruence.
      - (* Styled *)
        destruct args as [|a [|]]; try done. cbn in HR. args. apply (op_rets _ s self f); try done; intros h; by repeat constructor.
      - (* Title *)
        destruct args as [|a args]; try done. cbn in HR. rewrite drop_0 in HR. args.
        match goal with H : Forall2 _ _ ?tl |- _ => destruct (str_args_ok _ _ _ H) as (ss & Hss & Hlen) end.
        simpl. rewrite Hss. cbn [getself run_prog]. unfold mheap. unfold mbind at 1. rewrite Hx.
        destruct (is_empty (s_title x)) eqn:Hemp.
        + apply (op_rets _ s self f); try done; intros h; by repeat constructor.
        + cbn [getpath run_prog]. unfold mbind, mheap. rewrite (in_file_path _ _ _ HS Hf). apply rets_res; [done|].
          apply Forall_singleton. left. split; [|done]. apply placed_titles; [|done].
          destruct (HO _ _ Hx) as (g & Hg & _ & _ & _ & _ & Ht & _). assert (g = f) as -> by by eapply in_file_fun.
          apply Ht. intros Hc. by apply empty_iff in Hc; rewrite Hc in Hemp.
      - (* Aux *)
        destruct args as [|a [|]]; try done. cbn in HR. args. apply rets_res; [done|]. by repeat constructor.
      - (* Section *)
        destruct args as [|a [|]]; try done. cbn in HR. args. cbn [m_body m_section getself run_prog]. unfold mheap. unfold mbind at 1. rewrite Hx.
        cbn [run_prog]. simpl in *. eapply res_bind.
        { apply res_catch. apply node_res with (f := f); try done. by destruct (HO _ _ Hx) as (g & _ & _ & _ & _ & _ & _ & ?). }
        intros s1 r _ HO1 _ Hr. eapply res_bind; [by apply attach_res|]. intros s2 u _ HO2 _ _.
        destruct r as [i|e]; apply rets_res; try done; [by repeat constructor|]. apply Forall_singleton.
        destruct Hr as [He|He]; [by left|right]. split; [by constructor|]. by destruct He.
      - (* IncludeSection *)
        destruct args as [|a [|]]; try done. cbn in HR. args. cbn [m_body m_include getpath run_prog]. unfold mheap. unfold mbind at 1.
        rewrite (in_file_path _ _ _ HS Hf). cbn [run_prog]. eapply res_bind.
        { apply res_catch. apply file_res; try done; [by left|apply path_join_nonempty]. }
        intros s1 r _ HO1 _ Hr. eapply res_bind; [by apply attach_res|]. intros s2 u _ HO2 _ _.
        destruct r as [i|e]; apply rets_res; try done; [by repeat constructor|]. apply Forall_singleton.
        destruct Hr as [[He|He]|[-> He]]; [by left|right|right].
        + split; [by econstructor|]. by destruct He.
        + split; [by econstructor|done].
      - (* SinglePage *)
        apply (op_rets _ s self f); try done; intros h; by repeat constructor.
      - (* SplitSections *)
        cbn [m_body m_split run_prog]. eapply res_bind; [by apply op_res with (f := f)|]. intros s1 u _ HO1 _ _.
        unfold mbind at 1, mheap. destruct (split_prevented (st_heap s1) self) as [[]|]; [by apply rets_res| |by apply res_stop; [|left]].
        cbn [run_prog]. eapply (res_bind _ _ _ _ (λ _ _, True)); [by apply res_same|]. intros s2 u2 _ HO2 _ _. by apply rets_res.
      - (* OmitChildrenFromTableOfContents *)
        apply (op_rets _ s self f); try done; intros h; by repeat constructor.
      - (* TableOfContents *)
        apply rets_res; [done|]. by repeat constructor.
      - (* Link *)
        destruct args as [|a [|b [|]]]; try done. cbn in HR. args. apply rets_res; [done|]. by repeat constructor.
      - (* Reference *)
        destruct args as [|a args]; try done. cbn in HR. rewrite drop_0 in HR. args.
        match goal with H : Forall2 _ _ _ |- _ => destruct (con_args_ok _ _ _ H Hz) as (cs & Hcs & Hlen & _) end.
        simpl. rewrite Hcs. cbn [getself run_prog]. unfold mbind, mheap. rewrite Hx. apply rets_res; [done|]. apply Forall_singleton. simpl. unfold LocSpec.marked. simpl. constructor; [done|].
        match goal with H : Forall (arg_at _ _) _ |- _ => pose proof (con_args_at _ _ _ _ H Hcs) as HM end.
        destruct cs as [|c cs]; simpl; [done|]. by inversion HM.
      - (* Target *)
        destruct args as [|a args]; try done. cbn in HR. rewrite drop_0 in HR. args.
        match goal with H : Forall2 _ _ _ |- _ => destruct (con_args_ok _ _ _ H Hz) as (cs & Hcs & Hlen & _) end.
        simpl. rewrite Hcs. cbn [getself run_prog]. unfold mbind, mheap. rewrite Hx.
        match goal with H : Forall (arg_at _ _) _ |- _ => pose proof (con_args_at _ _ _ _ H Hcs) as HM end.
        destruct cs as [|c1 [|c2 [|? ?]]]; (apply rets_res; [done|]); apply Forall_singleton; simpl; unfold LocSpec.marked; simpl; (constructor; [done|]); try done.
        + inversion HM; subst. by rewrite app_nil_r.
        + inversion HM as [|? ? ? HM']; subst. inversion HM'; subst. by apply Forall_app.
      - (* Image *)
        destruct args as [|a args]; try done. cbn in HR. rewrite drop_0 in HR.
        destruct (str_args_ok s (a :: args) argv HR) as (ss & Hss & Hlen). simpl. rewrite Hss. destruct ss; [done|].
        apply rets_res; [done|]. by repeat constructor.
      - (* SetPartial *)
        destruct args as [|a [|b [|]]]; try done. cbn in HR. args. apply (op_rets _ s self f); try done; intros h; by repeat constructor.
      - (* Table *)
        cbn in HR. rewrite drop_0 in HR. destruct (con_args_ok _ _ _ HR Hz) as (cs & Hcs & _ & _). simpl. rewrite Hcs.
        pose proof (table_at (st_heap s) f cs [] (con_args_at _ _ _ _ HA Hcs) (Forall_nil_2 _)) as Ht.
        destruct (table_rows cs []) as [c|e]; apply rets_res; try done; [by repeat constructor|]. constructor; [done|]. apply Forall_singleton. by right.
      - (* Definitions *)
        cbn in HR. rewrite drop_0 in HR. destruct (con_args_ok _ _ _ HR Hz) as (cs & Hcs & _ & _). simpl. rewrite Hcs.
        pose proof (defs_at (st_heap s) f cs [] (con_args_at _ _ _ _ HA Hcs) (Forall_nil_2 _)) as Ht.
        destruct (def_items cs []) as [c|e]; apply rets_res; try done; [by repeat constructor|]. constructor; [done|]. apply Forall_singleton. by right.
      - (* Definition *)
        destruct args as [|a [|b [|]]]; try done.
        destruct (con_args_ok s [a; b] argv HR Hz) as (cs & Hcs & _ & _). simpl. rewrite Hcs. apply rets_res; [done|].
        apply Forall_singleton. simpl. apply marked_all. by eapply con_args_at.
    Qed.

    Lemma convert_res s self f p : fine E self s → heap_ok (st_heap s) → in_file (st_heap s) self f → occurs f (snd p) →
      (∀ t, fst p ≠ TOther t) →
      res (eval_error f) s (convert E (eval E n) self (fst p) (snd p) s) (λ s' v, arg_at (st_heap s') f v).
    Proof.
      intros HF HO Hf Ho Ht. destruct p as [[| | |t] nd]; cbn [fst snd convert] in *.
      - eapply res_bind; [by apply IHn with (f := f)|]. intros s1 o _ HO1 _ Hm. destruct o as [c|]; [|by apply res_stop; [|left]].
        unfold mbind, mheap, mlift. destruct (str E (st_heap s1) c) as [t|e| |] eqn:Hs.
        + by apply res_ret.
        + by apply cstring_no_err in Hs.
        + by apply (res_stop _ s1); [|left].
        + by apply (res_stop _ s1); [|right].
      - eapply res_bind; [by apply IHn with (f := f)|]. intros s1 o _ HO1 _ Hm. by apply res_ret.
      - by apply res_ret.
      - by destruct (Ht t).
    Qed.
    Lemma args_res self f ps : ∀ s, fine E self s → heap_ok (st_heap s) → in_file (st_heap s) self f →
      Forall (λ p, occurs f (snd p) ∧ ∀ t, fst p ≠ TOther t) ps →
      res (eval_error f) s (mmap (λ p, convert E (eval E n) self (fst p) (snd p)) ps s) (λ s', Forall (arg_at (st_heap s') f)).
    Proof.
      induction ps as [|p ps IH]; intros s HF HO Hf HP; cbn [mmap]; [by apply res_ret|]. inversion HP as [|? ? [Hp1 Hp2] HP']; subst.
      eapply res_bind; [by apply convert_res with (f := f)|]. intros s1 v Hc HO1 Hpr Hv.
      destruct (fine_convert E HE _ _ _ _ _ _ HF Hc) as (HF1 & _ & _).
      eapply res_bind; [apply IH; try done; by apply Hpr|]. intros s2 vs _ HO2 Hpr2 Hvs. apply res_ret; [done|]. constructor; [|done].
      eapply arg_at_mono; [|exact Hv]. intros i g. apply Hpr2.
    Qed.

    Lemma results_res s f fn el acc y w rets : heap_ok (st_heap s) → marked_option (st_heap s) f acc →
      okret s y w rets → Forall (ret_at (st_heap s) f (method_name fn)) rets → call_at occurs fn el → el_file el = f →
      res (eval_error f) s (handle_results fn el acc rets s) (λ s' o, marked_option (st_heap s') f o).
    Proof.
      intros HO Ha Hok HF Hel Hfi.
      assert (∀ e, ret_at (st_heap s) f (method_name fn) (RErr (Some e)) → eval_error f (wrap_error fn el e)) as He.
      { intros e [[He Hp]|[He Hp]]; unfold wrap_error; rewrite Hp; left; (split; [|done]); [done|].
        apply placed_failed; [done|]. by rewrite Hfi. }
      destruct Hok as [(c & [-> | ->] & _)|[(e & [-> | ->])|(_ & [-> | ->])]]; cbn [handle_results];
        try (inversion HF as [|? ? H1 H2]; subst); try (inversion H2 as [|? ? H3 H4]; subst).
      - apply res_ret; [done|]. by apply marked_append.
      - apply res_ret; [done|]. by apply marked_append.
      - apply res_err; [done|]. by apply He.
      - apply res_err; [done|]. by apply He.
      - by apply res_ret.
      - by apply res_ret.
    Qed.

    Lemma base_params name m p args : base_method name = Some m → p ∈ arg_types m args → ∀ t, fst p ≠ TOther t.
    Proof.
      intros Hm Hp t Ht.
      assert (∀ tb, forallb (λ q : string * method, forallb (λ a, match a with TOther _ => false | _ => true end)
        (m_in (snd q) ++ match m_variadic (snd q) with Some a => [a] | None => [] end)) tb = true → assoc_get name tb = Some m →
        forallb (λ a, match a with TOther _ => false | _ => true end) (m_in m ++ match m_variadic m with Some a => [a] | None => [] end) = true) as Hall.
      { induction tb as [|[k v] tb IH]; [done|]. cbn [forallb assoc_get fst snd]. intros [H1 H2]%andb_true_iff.
        destruct (String.eqb k name); [|auto]. by intros [= <-]. }
      specialize (Hall base_table eq_refl Hm). rewrite forallb_app, andb_true_iff in Hall. destruct Hall as [H1 H2].
      unfold arg_types in Hp. apply elem_of_app in Hp as [Hp|Hp].
      - destruct p as [ty a]. simpl in Ht. subst ty. apply elem_of_zip_l in Hp. apply forallb_Forall in H1.
        rewrite Forall_forall in H1. by specialize (H1 _ Hp).
      - destruct (m_variadic m) as [ty|]; [|by inversion Hp]. apply elem_of_list_fmap in Hp as (a & -> & _). simpl in Ht. by subst ty.
    Qed.

    Lemma invoke_res s self f acc fn args l : fine E self s → heap_ok (st_heap s) → in_file (st_heap s) self f →
      occurs f (NInvoke fn args l) → qs s acc → marked_option (st_heap s) f acc →
      res (eval_error f) s (visit_invoke E (eval E n) self acc fn args l s) (λ s' o, marked_option (st_heap s') f o).
    Proof.
      intros HF HO Hf Hocc Hq Ha. destruct (fine_section E _ _ HF) as [x Hx]. pose proof HF as ((HS & _) & HW & _).
      pose proof (fine_touch E self l s HF) as HF1. pose proof (in_file_path _ _ _ HS Hf) as Hfp.
      assert (heap_ok (st_heap (touch self l s))) as HO1 by by apply heap_ok_same.
      assert (pres s (touch self l s)) as Hp1 by by apply pres_upd.
      assert (∀ r : st * outcome error (option content), res (eval_error f) (touch self l s) r (λ s' o, marked_option (st_heap s') f o) →
        res (eval_error f) s r (λ s' o, marked_option (st_heap s') f o)) as Hup.
      { intros r (H1 & H2 & H3). split; [done|]. split; [by eapply pres_trans|done]. }
      destruct (find_method E (s_factories x) (method_name fn)) as [m|] eqn:Hm.
      2: { unfold visit_invoke. rewrite (mbind_eq _ _ _ _ _ (touch_eq self l s)).
           rewrite (mbind_eq mheap _ _ (touch self l s) _ eq_refl).
           assert (st_heap (touch self l s) !! self = Some (set_invloc x l)) as -> by (simpl; by rewrite (upd_lookup_eq _ _ _ x)).
           assert (file_path (st_heap (touch self l s)) self = Some f) as -> by (rewrite <- Hfp; by apply file_path_upd).
           rewrite (mbind_eq (mopt (Some f)) _ _ (touch self l s) f eq_refl). simpl. rewrite Hm. apply Hup, res_err; [done|]. left. split; [|done].
           apply placed_undefined; [split; [done|by exists args]|].
           destruct (HO _ _ Hx) as (_ & _ & _ & _ & _ & _ & _ & Hb).
           destruct (base_method (method_name fn)) as [m|] eqn:Hbm; [|done].
           assert (find_method E (s_factories x) (method_name fn) = Some m) as Hm' by by apply base_find. congruence. }
      pose proof Hm as Hd. apply dispatches_find in Hd. apply (base_find E HE) in Hm as [Hfa Hbm].
      destruct (invoke_start E self n acc fn args l s x m HW (fine_valid E _ _ HF) Hx Hd) as (f' & Hf' & Hinv). rewrite Hinv. clear Hinv.
      assert (f' = f) as -> by congruence.
      destruct (arity_ok m (length args)) eqn:Har.
      2: { apply Hup, res_err; [done|]. right. unfold is_variadic.
           replace (match m_variadic m with Some _ => true | None => false end) with (if m_variadic m then true else false) by by destruct (m_variadic m).
           eapply miscounted_arity; [done|done|]. rewrite accepts_ok. by rewrite Har. }
      apply Hup. eapply res_bind.
      { apply args_res with (f := f); [done|done|by apply Hp1|]. rewrite types_from_0. apply Forall_forall. intros p Hp.
        split; [|by eapply base_params]. apply Hparts in Hocc. rewrite Forall_forall in Hocc. by eapply Hocc, arg_types_in. }
      intros s2 argv Hargs HO2 Hp2 HA. pose proof Hargs as Hargs'. rewrite types_from_0 in Hargs'.
      destruct (fine_args E HE n self _ _ _ _ HF1 Hargs') as (HF2 & HR & _).
      apply (args_sound E self n m (eval_sound E self n)) in Hargs; [|by apply accepts_ok].
      destruct (existsb is_zero argv) eqn:Hz; [by apply res_stop; [|left]|].
      assert (in_file (st_heap s2) self f) as Hf2 by by apply Hp2, Hp1.
      eapply res_bind.
      { eapply (res_impl (λ _, False)); [|done|intros rets _ H; exact H]. apply method_res with (args := args); try done.
        intros x2 Hx2 _. destruct (invoke_loc E self s x l m args s2 argv HW Hx Hargs) as (x3 & Hx3 & Hl).
        assert (x3 = x2) as -> by congruence. exists fn, args, l. split; [done|]. split; [done|]. by destruct Hl; auto. }
      intros s3 rets Hb HO3 Hp3 HRet.
      eapply results_res; [done| | |exact HRet| |done].
      - destruct acc as [a|]; [|done]. eapply marked_mono; [|exact Ha]. intros i g Hg. by apply Hp3, Hp2, Hp1.
      - destruct HF2 as (HG2 & _).
        destruct (te_method E anything True False (λ _ _ _ _ _ _, I) (λ _ _, True) (eval E n)) with (s0 := s2) (s := s2) (self := self) (f := f) (fn := fn) (args := args)
          (l := l) (m := m) (argv := argv) as (_ & _ & HP); try done.
        { intros. by apply te_any with (f := f0). }
        { by left. }
        rewrite Hb in HP. exact HP.
      - split; [done|]. by exists args.
    Qed.

    Lemma seq_res self f l : ∀ acc s, fine E self s → heap_ok (st_heap s) → in_file (st_heap s) self f → Forall (occurs f) l → qs s acc →
      marked_option (st_heap s) f acc →
      res (eval_error f) s (visit_seq (eval E n) self acc l s) (λ s' o, marked_option (st_heap s') f o).
    Proof.
      induction l as [|nd l IH]; intros acc s HF HO Hf Ho Hq Ha; unfold visit_seq in *; cbn [mfold]; [by apply res_ret|].
      inversion Ho; subst. eapply res_bind; [by apply IHn with (f := f)|]. intros s1 o He HO1 Hp Hm.
      destruct (fine_eval E HE _ _ _ _ _ _ _ HF Hq He) as [HF1 Hq1]. apply IH; try done; [by apply Hp|by apply Hq1].
    Qed.
    Lemma lines_res self f ls : ∀ s, fine E self s → heap_ok (st_heap s) → in_file (st_heap s) self f → Forall (Forall (occurs f)) ls →
      res (eval_error f) s (visit_lines (eval E n) self ls s) (λ s', Forall (marked (st_heap s') f)).
    Proof.
      intros s HF HO Hf Ho. unfold visit_lines.
      assert (res (eval_error f) s (mmap (visit_seq (eval E n) self None) ls s) (λ s', Forall (marked_option (st_heap s') f))) as H.
      { revert s HF HO Hf Ho. induction ls as [|l ls IH]; intros s HF HO Hf Ho; cbn [mmap]; [by apply res_ret|]. inversion Ho; subst.
        eapply res_bind; [by apply seq_res with (f := f)|]. intros s1 o He HO1 Hp Hm.
        destruct (fine_eval E HE (S n) self None (NSeq l) s s1 (Ok o) HF I He) as [HF1 _].
        eapply res_bind; [apply IH; try done; by apply Hp|]. intros s2 os _ HO2 Hp2 Hms. apply res_ret; [done|]. constructor; [|done].
        eapply marked_option_mono; [|exact Hm]. intros i g. apply Hp2. }
      eapply res_bind; [exact H|]. intros s1 os _ HO1 Hp Hm. apply res_ret; [done|]. clear -Hm.
      induction Hm as [|[c|] os Hc _ IH]; simpl; [done|by constructor|done].
    Qed.

    Lemma step_res self f acc nd s : fine E self s → heap_ok (st_heap s) → in_file (st_heap s) self f → occurs f nd →
      qs s acc → marked_option (st_heap s) f acc →
      res (eval_error f) s (eval_F E (eval E n) self acc nd s) (λ s' o, marked_option (st_heap s') f o).
    Proof.
      intros HF HO Hf Ho Hq Ha.
      assert (∀ s', pres s s' → marked_option (st_heap s') f acc) as Ha'.
      { intros s' [_ K]. by eapply marked_option_mono. }
      destruct nd as [t|l|ls|ls|fn args l]; cbn [eval_F].
      - apply res_ret; [done|]. apply marked_append; [done|constructor].
      - apply seq_res; try done. by apply (Hparts f (NSeq l)).
      - eapply res_bind; [apply lines_res with (f := f); try done; by apply (Hparts f (NPara ls))|]. intros s1 cs _ HO1 Hp Hcs.
        assert (marked (st_heap s1) f (CPara cs)) as Hpara by by apply marked_all.
        destruct cs as [|c [|c2 cs]]; [apply res_ret; [done|by apply Ha']| |apply res_ret; [done|]; apply marked_append; [by apply Ha'|done]].
        inversion Hcs; subst. destruct (is_flow c); (apply res_ret; [done|]); (apply marked_append; [by apply Ha'|done]).
      - eapply res_bind; [apply lines_res with (f := f); try done; by apply (Hparts f (NPre ls))|]. intros s1 cs _ HO1 Hp Hcs.
        apply res_ret; [done|]. apply marked_append; [auto|]. by apply marked_all.
      - by apply invoke_res.
    Qed.
  End step.

  Lemma eval_res n : ∀ self f acc nd s, fine E self s → heap_ok (st_heap s) → in_file (st_heap s) self f → occurs f nd →
    qs s acc → marked_option (st_heap s) f acc →
    res (eval_error f) s (eval E n self acc nd s) (λ s' o, marked_option (st_heap s') f o).
  Proof.
    induction n as [|n IH]; intros self f acc nd s HF HO Hf Ho Hq Ha; cbn [eval]; [by apply res_stop; [|right]|]. by apply step_res.
  Qed.

  Lemma load_res n parent path fs s : FBase ∈ fs → path ≠ "" → good E False s → wf (st_heap s) →
    match parent with Some p => fine E p s | None => True end → heap_ok (st_heap s) →
    res (load_error path) s (evaluate_file E (eval E n) parent path fs s) (λ _ _, True).
  Proof.
    intros. eapply res_impl; [apply file_res; try done; by apply eval_res| |done].
    intros e [[[He _]|He]|[-> He]]; [by left|by right; left|by right; right].
  Qed.
End at_.
