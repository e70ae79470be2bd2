(** The base plugin's methods keep invariants of the state and of the contents. *)
From Coq Require Import Ascii String.
From stdpp Require Import base tactics relations strings list.
From Verif Require Import GoBase Ast Content Section ContentProofs TreeSpec TreeProofs TagProofs QueryProofs
  Evaluate EvalProofs EvalFrame EvalInv.

(** The styles the base plugin gives to contents. *)
Definition base_styles : list string :=
  ["aside"; "bold"; "inset"; "italic"; "larger"; "smaller"; "strike"; "subscript"; "superscript"; "verbatim"]%string.

(** Conditions on the invariants; [I], [Q], [X] as in EvalInv.v. *)
Record base_inv (E : env) (I : heap → Prop) (Q : nat → content → Prop) (X : error → Prop) : Prop := BaseInv {
  bi_closed : closed Q;
  bi_alloc : ∀ h parent path, I h → match parent with Some p => p < length h | None => True end →
    I (h ++ [new_section parent path]);
  bi_invloc : ∀ h i l, I h → I (upd h i (λ x, set_invloc x l));
  bi_loc : ∀ h i l, I h → I (upd h i (λ x, set_loc x l));
  bi_use : ∀ h i f, I h → I (upd h i (use_plugin f));
  bi_body : ∀ h i c, I h → Q (length h) c → I (upd h i (λ x, set_body x c));
  bi_title : ∀ h i title l tags, I h → i < length h → Q (length h) title → I (upd h i (set_title i title l tags));
  bi_partial : ∀ h i name c, I h → Q (length h) c → I (upd h i (set_partial name (Some c)));
  bi_style : ∀ h i name, I h → I (upd h i (λ s, set_style s name));
  bi_flags : ∀ h i a b c d, I h → I (upd h i (λ s, set_flags s (a s) (b s) (c s) (d s)));
  bi_attach : ∀ h i j, I h → i < length h → j < length h → I (upd h i (λ s, set_children s (s_children s ++ [j])));
  bi_styled : ∀ n st c, st ∈ base_styles → Q n c → Q n (CStyled st false c []);
  bi_list : ∀ n l o, Forall (Q n) l ↔ Q n (CList l o);
  bi_table : ∀ n rows, Forall (Forall (Q n)) rows → Q n (CTable rows);
  bi_defs : ∀ n defs, Forall (λ p, Q n (fst p) ∧ Q n (snd p)) defs → Q n (CDefs defs);
  bi_ref : ∀ n i t rc l, i < n → qopt Q n rc → Q n (CRef i t rc false l);
  bi_target : ∀ n t l ti x, Q n ti → qopt Q n x → Q n (CTarget t l (Some ti) x);
  bi_image : ∀ n p d, Q n (CImage p d);
  bi_toc : ∀ n i, i < n → Q n (CToc i);
  bi_aux : ∀ n c, Q n c → Q n (CAux c);
  bi_link : ∀ n c t, Q n c → Q n (CLink c t);
  bi_undefined : ∀ fn l, X (EUndefined fn l);
  bi_arity : ∀ fn a b v, X (EArity fn a b v);
  bi_argtype : ∀ t, X (EArgType t);
  bi_rettype : ∀ n t, X (ERetType n t);
  bi_retcount : ∀ fn n, X (ERetCount fn n);
  bi_wrap : ∀ fn l e, X e → X (wrap_error fn l e);
  bi_unknown : ∀ name, X (EUnknownPlugin name);
  bi_twice : ∀ l l', X (ETitleTwice l l');
  bi_row : ∀ c, X (ETableRow c);
  bi_notlist : ∀ c, X (EDefNotList c);
  bi_nottwo : ∀ c, X (EDefNotTwo c);
  bi_stat : ∀ p, X (EStat p);
  bi_parse : ∀ path mt e, e_fs E path = Some (mt, inr e) → X e
}.

Lemma tr_catch {A} I (X : error → Prop) PP n (m : M A) (P : nat → A → Prop) : tr I X PP n m P →
  tr I X PP n (mcatch m) (λ k r, match r with inl a => P k a | inr e => X e end).
Proof.
  intros Hm s HI Hs. unfold mcatch. destruct (Hm s HI Hs) as (H1 & H2 & H3).
  destruct (m s) as [s1 [a|e| |]]; simpl in *; repeat split; done.
Qed.

Lemma table_rows_inv (Q : nat → content → Prop) n rows : ∀ acc, (∀ n l o, Forall (Q n) l ↔ Q n (CList l o)) →
  (∀ n rows, Forall (Forall (Q n)) rows → Q n (CTable rows)) →
  Forall (Q n) rows → Forall (Forall (Q n)) acc →
  match table_rows rows acc with inl c => Q n c | inr e => ∃ c, e = ETableRow c end.
Proof.
  intros acc Hl Ht. revert acc. induction rows as [|r rows IH]; intros acc HF Ha; simpl; [by apply Ht|].
  inversion HF; subst. destruct (as_list r) as [items|] eqn:Hr; [|by eexists].
  apply IH; [done|]. apply Forall_app. split; [done|]. constructor; [|constructor].
  destruct r; try done. simpl in Hr. injection Hr as ->. by eapply Hl.
Qed.

Lemma def_items_inv (Q : nat → content → Prop) n items : ∀ acc, (∀ n l o, Forall (Q n) l ↔ Q n (CList l o)) →
  (∀ n defs, Forall (λ p, Q n (fst p) ∧ Q n (snd p)) defs → Q n (CDefs defs)) →
  Forall (Q n) items → Forall (λ p, Q n (fst p) ∧ Q n (snd p)) acc →
  match def_items items acc with inl c => Q n c | inr e => ∃ c, e = EDefNotList c ∨ e = EDefNotTwo c end.
Proof.
  intros acc Hl Ht. revert acc. induction items as [|r items IH]; intros acc HF Ha; simpl; [by apply Ht|].
  inversion HF; subst. destruct (as_list r) as [[|s [|d [|? ?]]]|] eqn:Hr; try by eexists; auto.
  apply IH; [done|]. apply Forall_app. split; [done|]. constructor; [|constructor].
  destruct r as [| | | | | | | | | | |its o| | | |]; try done. simpl in Hr. injection Hr as ->.
  assert (Forall (Q n) [s; d]) as Hsd by by eapply Hl. inversion Hsd as [|? ? ? Hd]; subst. inversion Hd; subst. done.
Qed.

Lemma assoc_get_In {V} k (v : V) m : assoc_get k m = Some v → (k, v) ∈ m.
Proof.
  induction m as [|[k' v'] m IH]; simpl; [done|]. destruct (String.eqb k' k) eqn:Ek.
  - intros [= ->]. apply String.eqb_eq in Ek as ->. left.
  - intros H. right. by apply IH.
Qed.

Section base.
  Context (E : env) (I : heap → Prop) (Q : nat → content → Prop) (X : error → Prop).
  Context (HB : base_inv E I Q X).
  Let PP := True.

  Lemma con_args_inv n args cs : Forall (qarg Q n) args → con_args args = Some cs → Forall (Q n) cs.
  Proof.
    revert cs. induction args as [|a args IH]; intros cs HF Hc; simpl in Hc; [by injection Hc as <-|].
    inversion HF; subst. destruct a as [|[c|]|]; try done. destruct (con_args args); [|done].
    injection Hc as <-. constructor; [done|]. by apply IH.
  Qed.

  Lemma qret_mono : mono Q → mono (λ k, Forall (qret Q X k)).
  Proof.
    intros HQ n n' rs Hn HF. eapply Forall_impl; [exact HF|]. intros [[c|]|[e|]|t]; simpl; try done. by apply HQ.
  Qed.

  Section step.
    Context (rec : nat → option content → node → M (option content)).
    Context (Hrec : ∀ n self acc nd, self < n → qopt Q n acc → tr I X PP n (rec self acc nd) (qopt Q)).

    (** The evaluator's part of the invariant, without methods. *)
    Definition no_env : env := Env (e_fs E) (e_registry E) (λ _ _, None) (e_similar E) (e_broken E) (e_jumps E).
    Lemma no_env_inv : eval_inv no_env I Q X PP.
    Proof. destruct HB. split; try done. Qed.

    Lemma tr_ret_rets n rs : Forall (qret Q X n) rs → tr I X PP n (mret rs) (λ k, Forall (qret Q X k)).
    Proof. intros HF. apply tr_ret; [|done]. apply qret_mono, HB. Qed.

    Lemma tr_prog_ret n self rs : Forall (qret Q X n) rs →
      tr I X PP n (run_prog E rec self (PRet rs)) (λ k, Forall (qret Q X k)).
    Proof. apply tr_ret_rets. Qed.

    Lemma tr_getself {A} n self (k : section → prog A) P :
      (∀ s n', n ≤ n' → tr I X PP n' (run_prog E rec self (k s)) P) →
      tr I X PP n (run_prog E rec self (getself self k)) P.
    Proof.
      intros Hk. simpl. eapply tr_bind; [by apply (tr_heap I X PP n (λ _ _, True))|]. intros h n1 Hn1 _.
      destruct (h !! self); [by apply Hk|by apply tr_fail].
    Qed.
    Lemma tr_getpath {A} n self (k : string → prog A) P :
      (∀ s n', n ≤ n' → tr I X PP n' (run_prog E rec self (k s)) P) →
      tr I X PP n (run_prog E rec self (getpath self k)) P.
    Proof.
      intros Hk. simpl. eapply tr_bind; [by apply (tr_heap I X PP n (λ _ _, True))|]. intros h n1 Hn1 _.
      destruct (file_path h self); [by apply Hk|by apply tr_fail].
    Qed.

    (** Operations of the base plugin. *)
    Definition op_inv (n : nat) (o : op) : Prop :=
      match o with
      | OSetTitle title _ _ => Q n title
      | OSetTag _ _ _ _ | OSetTagAnchored _ _ _ _ _ => False
      | OSetPartial _ (Some c) => Q n c
      | OSetPartial _ None => False
      | _ => True
      end.
    Lemma tr_op n self o : self < n → op_inv n o → tr I X PP n (run_op E self o) (λ _ _, True).
    Proof.
      intros Hs Ho.
      assert (∀ (h : heap) c, n ≤ length h → Q n c → Q (length h) c) as HQ by (intros; by eapply (q_mono _ (bi_closed _ _ _ _ HB))).
      destruct o as [title l tags|name title l anchor|name title l c anchor|name [c|]|name| | | | |f]; simpl in *;
        try done;
        try (apply tr_upd; [done|]; intros h HI Hl; (by apply HB; eauto) || by apply (bi_flags _ _ _ _ HB); eauto).
      - eapply tr_bind; [by apply (tr_heap I X PP n (λ _ _, True))|]. intros h n1 Hn1 _.
        eapply (tr_bind I X PP n1 _ _ (λ _ _, True)).
        { apply tr_lift_true; [done|done|]. intros e He. by apply title_tags_no_err in He. }
        intros tags' n2 Hn2 _. apply tr_upd; [done|]. intros h' HI Hl. apply HB; [done|lia|].
        apply HQ; [lia|done].
    Qed.

    Lemma tr_prog_op {A} n self o (k : prog A) P : self < n → op_inv n o →
      (∀ n', n ≤ n' → tr I X PP n' (run_prog E rec self k) P) →
      tr I X PP n (run_prog E rec self (POp o k)) P.
    Proof. intros Hs Ho Hk. simpl. eapply tr_bind; [by apply tr_op|]. intros _ n1 Hn1 _. by apply Hk. Qed.

    Lemma tr_attach n self attach setloc r :
      self < n → match r with inl i => i < n | inr _ => True end →
      tr I X PP n (attach_result self attach setloc r) (λ _ _, True).
    Proof.
      intros Hs Hr. destruct r as [i|e]; simpl; [|by apply tr_ret].
      eapply (tr_bind I X PP n _ _ (λ _ _, True)).
      - destruct setloc; [|by apply tr_ret].
        eapply tr_bind; [by apply (tr_heap I X PP n (λ _ _, True))|]. intros h n1 Hn1 _.
        destruct (h !! self) as [x|]; [|by apply tr_fail]. apply tr_upd; [done|]. intros. by apply HB.
      - intros _ n1 Hn1 _. destruct attach; [|by apply tr_ret]. apply tr_upd; [done|].
        intros h HI Hl. apply HB; [done|lia..].
    Qed.

    Definition res_ret (r : nat + error) : prog (list retval) :=
      match r with inl _ => PRet [RErr None] | inr e => PRet [RErr (Some e)] end.

    Lemma tr_prog_node n self nd fs attach setloc : self < n →
      tr I X PP n (run_prog E rec self (PEvalNode nd fs attach setloc res_ret)) (λ k, Forall (qret Q X k)).
    Proof.
      intros Hs. simpl. eapply tr_bind; [apply tr_catch, (tr_evaluate_node no_env I Q X no_env_inv); done|].
      intros r n1 Hn1 Hr. eapply tr_bind; [apply tr_attach; [lia|destruct r; [apply Hr|done]]|].
      intros _ n2 Hn2 _. destruct r; simpl in *; apply tr_ret_rets; repeat constructor. done.
    Qed.

    Lemma tr_prog_file n self path fs attach : self < n →
      tr I X PP n (run_prog E rec self (PEvalFile path fs attach res_ret)) (λ k, Forall (qret Q X k)).
    Proof.
      intros Hs. simpl. eapply tr_bind.
      { apply tr_catch, (tr_evaluate_file no_env I Q X no_env_inv); [done|done|apply HB|apply HB]. }
      intros r n1 Hn1 Hr. eapply tr_bind; [apply tr_attach; [lia|destruct r; [apply Hr|done]]|].
      intros _ n2 Hn2 _. destruct r; simpl in *; apply tr_ret_rets; repeat constructor. done.
    Qed.

    Lemma base_methods_inv name m self argv n : base_method name = Some m → self < n → Forall (qarg Q n) argv →
      existsb is_zero argv = false →
      tr I X PP n (run_prog E rec self (m_body m self argv)) (λ k, Forall (qret Q X k)).
    Proof.
      intros Hm Hs HF Hz. unfold base_method in Hm. apply assoc_get_In in Hm.
      assert (tr I X PP n (run_prog E rec self ill_typed) (λ k, Forall (qret Q X k))) as Hill by by apply tr_fail.
      assert (∀ style, style ∈ base_styles → tr I X PP n (run_prog E rec self (m_body (styled_method style) self argv)) (λ k, Forall (qret Q X k))) as Hst.
      { intros style Hst. destruct argv as [|[|[c|]|] [|]]; try exact Hill. apply tr_prog_ret. constructor; [|constructor].
        inversion HF; subst. by apply HB. }
      assert (∀ o, tr I X PP n (run_prog E rec self (m_body (list_method o) self argv)) (λ k, Forall (qret Q X k))) as Hli.
      { intros o. simpl. destruct (con_args argv) as [cs|] eqn:Hc; [|exact Hill]. apply tr_prog_ret. constructor; [|constructor].
        apply HB. by eapply con_args_inv. }
      unfold base_table in Hm.
      repeat (apply elem_of_cons in Hm as [Hm|Hm]; [injection Hm as -> ->|]); try (apply Hst; unfold base_styles; rewrite !elem_of_cons; tauto); try apply Hli; try by inversion Hm.
      - (* UsePlugin *)
        destruct argv as [|[nm| |] [|]]; try exact Hill. simpl. destruct (e_registry E nm) as [f|].
        + apply tr_prog_op; [done|done|]. intros n' Hn'. apply tr_prog_ret. repeat constructor.
        + apply tr_prog_ret. constructor; [apply HB|constructor].
      - (* Styled *)
        destruct argv as [|[nm| |] [|]]; try exact Hill. apply tr_prog_op; [done|done|]. intros n' Hn'.
        apply tr_prog_ret. constructor.
      - (* Title *)
        destruct argv as [|[|[title|]|] tags]; try exact Hill. simpl. destruct (str_args tags) as [ss|]; [|exact Hill].
        apply tr_getself. intros x n1 Hn1. inversion HF; subst.
        destruct (is_empty (s_title x)).
        + apply tr_prog_op; [lia| |].
          * simpl. by eapply (q_mono _ (bi_closed _ _ _ _ HB)).
          * intros n' Hn'. apply tr_prog_ret. repeat constructor.
        + apply tr_getpath. intros f n2 Hn2. apply tr_prog_ret. constructor; [apply HB|constructor].
      - (* Aux *)
        destruct argv as [|[|[c|]|] [|]]; try exact Hill. apply tr_prog_ret. constructor; [|constructor].
        inversion HF; subst. by apply HB.
      - (* Section *)
        destruct argv as [|[| |nd] [|]]; try exact Hill. apply tr_getself. intros x n1 Hn1.
        apply (tr_prog_node n1 self nd (s_factories x) true true). lia.
      - (* IncludeSection *)
        destruct argv as [|[path| |] [|]]; try exact Hill. apply tr_getpath. intros f n1 Hn1.
        apply (tr_prog_file n1 self _ [FBase] true). lia.
      - (* SinglePage *)
        apply tr_prog_op; [done|done|]. intros n' Hn'. apply tr_prog_ret. constructor.
      - (* SplitSections *)
        apply tr_prog_op; [done|done|]. intros n1 Hn1. simpl.
        eapply tr_bind; [by apply (tr_heap I X PP n1 (λ _ _, True))|]. intros h n2 Hn2 _.
        destruct (split_prevented h self) as [[]|]; [apply tr_prog_ret; constructor| |by apply tr_fail].
        apply tr_prog_op; [lia|done|]. intros n' Hn'. apply tr_prog_ret. constructor.
      - (* OmitChildrenFromTableOfContents *)
        apply tr_prog_op; [done|done|]. intros n' Hn'. apply tr_prog_ret. constructor.
      - (* TableOfContents *)
        apply tr_prog_ret. constructor; [|constructor]. by apply HB.
      - (* Link *)
        destruct argv as [|[|[c|]|] [|[t| |] [|]]]; try exact Hill. apply tr_prog_ret. constructor; [|constructor].
        inversion HF; subst. by apply HB.
      - (* Reference *)
        destruct argv as [|[t| |] rest]; try exact Hill. simpl. destruct (con_args rest) as [cs|] eqn:Hc; [|exact Hill].
        apply tr_getself. intros x n1 Hn1. apply tr_prog_ret. constructor; [|constructor]. apply HB; [lia|].
        inversion HF; subst. apply con_args_inv with (n := n) in Hc; [|done]. destruct cs; simpl; [done|].
        inversion Hc; subst. by eapply (q_mono _ (bi_closed _ _ _ _ HB)).
      - (* Target *)
        destruct argv as [|[t| |] rest]; try exact Hill. simpl. destruct (con_args rest) as [cs|] eqn:Hc; [|exact Hill].
        apply tr_getself. intros x n1 Hn1. inversion HF; subst. apply con_args_inv with (n := n) in Hc; [|done].
        assert (Forall (Q n1) cs) as Hcs.
        { eapply Forall_impl; [done|]. intros c. by apply (q_mono _ (bi_closed _ _ _ _ HB)). }
        assert (Q n1 (CString t)) as Ht by apply (q_string _ (bi_closed _ _ _ _ HB)).
        destruct cs as [|c1 [|c2 [|]]]; apply tr_prog_ret; (constructor; [|constructor]); apply HB; try done;
          repeat match goal with H : Forall _ (_ :: _) |- _ => inversion H; clear H; subst end; done.
      - (* Image *)
        simpl. destruct (str_args argv) as [[|p d]|]; try exact Hill. apply tr_prog_ret. constructor; [|constructor]. apply HB.
      - (* SetPartial *)
        destruct argv as [|[nm| |] [|[|c|] [|]]]; try exact Hill.
        destruct c as [c|].
        + inversion HF as [|? ? _ HF2]; subst. inversion HF2; subst.
          apply tr_prog_op; [done|done|]. intros n' Hn'. apply tr_prog_ret. constructor.
        + done.
      - (* Table *)
        simpl. destruct (con_args argv) as [rows|] eqn:Hc; [|exact Hill].
        pose proof (table_rows_inv Q n rows [] (bi_list _ _ _ _ HB) (bi_table _ _ _ _ HB) (con_args_inv _ _ _ HF Hc) (Forall_nil_2 _)) as Ht.
        destruct (table_rows rows []) as [c|e]; apply tr_prog_ret; repeat constructor; [done|].
        destruct Ht as [? ->]. apply HB.
      - (* Definitions *)
        simpl. destruct (con_args argv) as [rows|] eqn:Hc; [|exact Hill].
        pose proof (def_items_inv Q n rows [] (bi_list _ _ _ _ HB) (bi_defs _ _ _ _ HB) (con_args_inv _ _ _ HF Hc) (Forall_nil_2 _)) as Ht.
        destruct (def_items rows []) as [c|e]; apply tr_prog_ret; repeat constructor; [done|].
        destruct Ht as [? [->| ->]]; apply HB.
    Qed.
  End step.
End base.

(** With base plugins only. *)
Definition base_only (E : env) : Prop := base_env E ∧ ∀ f, f ≠ FBase → ∀ name, e_methods E f name = None.

Lemma base_eval_inv E I Q X : base_only E → base_inv E I Q X → eval_inv E I Q X True.
Proof.
  intros [Hb Ho] HB. pose proof HB as HB'. destruct HB'. split; try done.
  intros rec Hrec f name m self argv n Hm Hs HF Hz.
  destruct f as [|i]; [|by rewrite Ho in Hm].
  rewrite Hb in Hm. by eapply base_methods_inv.
Qed.
