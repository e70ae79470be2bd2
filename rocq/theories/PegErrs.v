(** What the interpreter records: positions of errors and of the furthest failure. *)
From Coq Require Import Ascii String NArith Lia.
From stdpp Require Import base tactics relations strings numbers list.
From Verif Require Import GoBase Ast Utf8 Peg StrProofs PegBase PegTotal.
Local Open Scope string_scope.
Local Open Scope list_scope.

Section Good.
  Variable c0 : cursor.

  Record good (st : pstate) : Prop := Good {
    g_pt : reach c0 (p_pt st);
    g_mf : p_mf st = Loc 1 1 0 ∨ ∃ c, reach c0 c ∧ p_mf st = cur_loc c;
    g_errs : ∀ e l, (e, l) ∈ p_errs st →
      e = InvalidEncoding ∧ ∃ c, reach c0 c ∧ bad_rune c = true ∧ l = cur_loc c;
    g_seen : ∀ c, reach c0 c → reach c (p_pt st) → bad_rune c = true →
      (InvalidEncoding, cur_loc c) ∈ p_errs st
  }.

  Lemma good_flip st : good st → good (flip_inv st).
  Proof. intros []. by constructor. Qed.
  Lemma good_store st s : good st → good (set_store st s).
  Proof. intros []. by constructor. Qed.
  Lemma good_fail b c st : good st → reach c0 c → good (fail_at b (cur_loc c) st).
  Proof.
    intros [] Hc. unfold fail_at. repeat case_match; try by constructor.
    constructor; simpl; eauto.
  Qed.
  Lemma good_restore c st : good st → reach c0 c → reach c (p_pt st) → good (restore st c).
  Proof.
    intros [] Hc Hr. unfold restore. case_match; [by constructor|].
    constructor; simpl; auto. intros c1 H1 H2. apply g_seen0; [done|]. by eapply reach_trans.
  Qed.
  Lemma bad_more c : bad_rune c = true → c_rest c ≠ "".
  Proof.
    unfold bad_rune. intros H E. unfold cur_rn, cur_w in H. rewrite E in H. done.
  Qed.
  Lemma reach_last (c c' c2 : cursor) : reach c0 c → reach c (next c2) → reach c0 c2 → c_rest c2 ≠ "" →
    c = next c2 ∨ reach c c2.
  Proof.
    intros H1 H2 H3 Hm. destruct (decide (left c2 ≤ left c)) as [Hle|Hlt].
    - right. by eapply reach_linear.
    - left. assert (reach c2 c) as Hr by (eapply reach_linear; [done|done|lia]).
      inversion Hr as [|? c3 ? Hs Hr2]; subst; [lia|]. destruct Hs as [_ ->].
      apply reach_left in H2 as [_ [E|E]]; [done|]. apply reach_le in Hr2. lia.
  Qed.
  Lemma good_read st : good st → c_rest (p_pt st) ≠ "" → good (read st).
  Proof.
    intros Hg Hm. destruct Hg as [Hp Hmf He Hs].
    assert (reach c0 (next (p_pt st))) as Hn by (eapply reach_trans; [done|by apply reach_next]).
    unfold read, note_rune. simpl. destruct (bad_rune (next (p_pt st))) eqn:E.
    - constructor; simpl; [done|done| |].
      + intros e l [H|H]%elem_of_app; [by apply He|].
        apply elem_of_list_singleton in H as [= -> ->]. split; [done|]. eauto.
      + intros c H1 H2 H3. apply elem_of_app.
        destruct (reach_last c c (p_pt st) H1 H2 Hp Hm) as [->|H4]; [right; left|].
        left. by apply Hs.
    - constructor; simpl; [done|done|done|].
      intros c H1 H2 H3. destruct (reach_last c c (p_pt st) H1 H2 Hp Hm) as [->|H4]; [congruence|].
      by apply Hs.
  Qed.

  Definition gooding (P : expr → env → pstate → res) (e : expr) : Prop :=
    ∀ m st r m' st', P e m st = RDone r m' st' → good st → good st'.

  Lemma lit_loop_good s start st o st' : ascii_only s = true → reach c0 start → reach start (p_pt st) →
    good st → lit_loop s start st = (o, st') → good st'.
  Proof.
    revert st. induction s as [|a s IH]; intros st Ha H0 Hr Hg; simpl; [by intros [= <- <-]|].
    unfold ascii_only in Ha. simpl in Ha. apply andb_true_iff in Ha as [Ha Hs]. apply N.ltb_lt in Ha.
    destruct (N.eqb_spec (cur_rn (p_pt st)) (byte a)) as [E|E].
    - apply cur_ascii in E as (b & r & Er & Hb & Hw); [|done].
      assert (c_rest (p_pt st) ≠ "") as Hm by by rewrite Er.
      apply IH; [done|done| |by apply good_read]. rewrite pt_read. eapply reach_trans; [done|].
      by apply reach_next.
    - intros [= <- <-]. apply good_restore; [by apply good_fail|done|by rewrite pt_fail].
  Qed.

  Lemma seq_loop_good P pt l : (∀ e, e ∈ l → gooding P e ∧ moving P e) → reach c0 pt → ∀ acc m st r m' st',
    reach pt (p_pt st) → seq_loop P pt l acc m st = RDone r m' st' → good st → good st'.
  Proof.
    induction l as [|e l IH]; intros HP H0 acc m st r m' st' Hr; simpl; [by intros [= <- <- <-]|].
    destruct (P e m st) as [| |[v|] m1 st1] eqn:E; try done.
    - destruct (HP e ltac:(left)) as [Hg Hm]. pose proof (Hm _ _ _ _ _ E) as [E1 _]. intros H Hgd.
      eapply (IH ltac:(intros; apply HP; by right) H0); [|exact H|by eapply Hg]. by eapply reach_trans.
    - intros [= <- <- <-] Hgd. destruct (HP e ltac:(left)) as [Hg Hm].
      pose proof (Hm _ _ _ _ _ E) as [E1 _]. apply good_restore; [by eapply Hg|done|by eapply reach_trans].
  Qed.
  Lemma choice_loop_good P l : (∀ e, e ∈ l → gooding P e) → ∀ m st r m' st',
    choice_loop P l m st = RDone r m' st' → good st → good st'.
  Proof.
    induction l as [|e l IH]; intros HP m st r m' st'; simpl; [by intros [= <- <- <-]|].
    destruct (P e [] st) as [| |[v|] m1 st1] eqn:E; try done.
    - intros [= <- <- <-]. eapply HP, E. left.
    - intros H Hgd. eapply (IH ltac:(intros; apply HP; by right)), (HP e); eauto. left.
  Qed.
  Lemma many_loop_good P e k : gooding P e → ∀ acc st r m' st',
    many_loop P k e acc st = RDone r m' st' → good st → good st'.
  Proof.
    intros HP. induction k as [|k IH]; intros acc st r m' st'; simpl; [done|].
    destruct (P e [] st) as [| |[v|] m1 st1] eqn:E; try done.
    - intros H Hgd. eapply IH, HP; eauto.
    - intros [= <- <- <-]. by eapply HP.
  Qed.

  Lemma parse_good n e : lits_ascii e = true → gooding (parse_expr n) e.
  Proof.
    revert e. induction n as [|n IH]; intros e Hl m st r m' st'; [done|].
    change (parse_expr (S n) e m st) with (parse_body (parse_expr n) e m st). unfold parse_body.
    destruct e as [a e|l|l|x e|e|e|e|e|q|s|k|]; simpl in Hl.
    - destruct (parse_expr n e m st) as [| |[v|] m1 st1] eqn:E; try done.
      + destruct (run_action _ _ _ _ _) as [[w|] s]; [|done]. intros [= <- <- <-] Hg.
        apply good_store. by eapply IH.
      + intros [= <- <- <-]. by eapply IH.
    - intros H Hg. eapply seq_loop_good; [|apply Hg|apply reach_refl|done|done].
      intros e He. rewrite forallb_forall in Hl. split; [apply IH|apply parse_moves]; apply Hl; by apply elem_of_list_In.
    - intros H. eapply choice_loop_good, H.
      intros e He. rewrite forallb_forall in Hl. apply IH, Hl. by apply elem_of_list_In.
    - destruct (parse_expr n e [] st) as [| |[v|] m1 st1] eqn:E; try done;
        intros [= <- <- <-]; by eapply IH.
    - destruct (parse_expr n e [] _) as [| |o m1 st1] eqn:E; try done.
      intros [= <- <- <-] Hg. pose proof (parse_moves n e Hl _ _ _ _ _ E) as [Hm _].
      apply good_restore; [|apply Hg|done]. apply good_flip. eapply IH; [done|done|by apply good_flip].
    - destruct (parse_expr n e [] st) as [| |o m1 st1] eqn:E; try done.
      intros [= <- <- <-]. by eapply IH.
    - destruct (many_loop _ _ _ _ _) as [| |o m1 st1] eqn:E; try done. intros [= <- <- <-].
      eapply many_loop_good, E. by apply IH.
    - destruct (many_loop _ _ _ _ _) as [| |o m1 st1] eqn:E; try done.
      intros H. assert (st1 = st') as <- by (repeat case_match; congruence).
      eapply many_loop_good, E. by apply IH.
    - destruct (parse_expr n _ [] st) as [| |o m1 st1] eqn:E; try done.
      intros [= <- <- <-]. eapply IH, E. apply rule_lits_ascii.
    - destruct (lit_loop _ _ _) as [o st1] eqn:E. intros H Hg.
      pose proof (lit_loop_pos _ _ _ _ _ Hl (reach_refl _) E) as Hp.
      pose proof (lit_loop_good _ _ _ _ _ Hl (g_pt _ Hg) (reach_refl _) Hg E) as Hg1.
      destruct o as [st2|]; [|by simplify_eq]. destruct Hp as [-> _]. simplify_eq.
      apply good_fail; [done|apply Hg].
    - intros H Hg. destruct (at_end _) eqn:E; [|case_match]; simplify_eq.
      + apply good_fail; [done|apply Hg].
      + apply good_fail; [|apply Hg]. apply good_read; [done|]. by apply class_end.
      + apply good_fail; [done|apply Hg].
    - intros H Hg. destruct (at_end _) eqn:E; simplify_eq.
      + apply good_fail; [done|apply Hg].
      + apply good_fail; [|apply Hg]. apply good_read; [done|]. by apply class_end.
  Qed.
End Good.

Lemma start_good d : good (arrive 1 0 0 d) (start_state d).
Proof.
  unfold start_state, note_rune. simpl. destruct (bad_rune _) eqn:E.
  - constructor; simpl; [apply reach_refl|by left| |].
    + intros e l H. apply elem_of_list_singleton in H as [= -> ->]. split; [done|].
      eexists. split_and!; [apply reach_refl|done|done].
    + intros c H1 H2 H3. assert (c = arrive 1 0 0 d) as ->; [|left].
      apply reach_left in H1 as [_ [H1|H1]]; [done|]. apply reach_le in H2. lia.
  - constructor; simpl; [apply reach_refl|by left|by intros ?? ?%elem_of_nil|].
    intros c H1 H2 H3. assert (c = arrive 1 0 0 d) as ->; [|congruence].
    apply reach_left in H1 as [_ [H1|H1]]; [done|]. apply reach_le in H2. lia.
Qed.
