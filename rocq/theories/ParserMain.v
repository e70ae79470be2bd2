(** Parsing a whole document: the interpreter against recursive descent. *)
From Coq Require Import Ascii String NArith Lia.
From stdpp Require Import base tactics relations strings numbers list.
From Verif Require Import GoBase Ast Utf8 Peg StrProofs PegBase PegTotal PegErrs Descent DescentProofs DescentRules.
Local Open Scope string_scope.
Local Open Scope list_scope.

Definition origin (d : string) : cursor := arrive 1 0 0 d.

Lemma pt_start d : p_pt (start_state d) = origin d.
Proof. unfold start_state. by rewrite pt_note. Qed.
Lemma store_start d : p_store (start_state d) = None.
Proof. unfold start_state. by rewrite store_note. Qed.
Lemma left_origin d : left (origin d) = String.length d.
Proof. unfold left, origin. by rewrite arrive_rest. Qed.

(** Termination. *)
Lemma parse_enough n d : depth_for d ≤ n → parse_expr n (ERule RBooklit) [] (start_state d) ≠ RDeep.
Proof.
  intros Hn. apply parse_returns; [done|]. unfold enough. rewrite pt_start, left_origin.
  pose proof (rule_depth_small RBooklit). unfold depth_for in *. rewrite Nat.mul_succ_r in Hn. simpl depth.
  pose proof (sound_small (ERule RBooklit) eq_refl) as [Hs _]. simpl in Hs. lia.
Qed.

Lemma parse_with_more n d : depth_for d ≤ n → parse_with n d = go_parse d.
Proof.
  intros Hn. unfold go_parse, parse_with. rewrite (parse_deeper (depth_for d) n); [done|done|].
  by apply parse_enough.
Qed.

Lemma go_parse_not_deep d : go_parse d ≠ PDeep.
Proof.
  unfold go_parse, parse_with. pose proof (parse_enough (depth_for d) d ltac:(lia)).
  destruct (parse_expr _ _ _ _) as [| |[v|] m st]; [done|done| |done]. by destruct (p_errs st).
Qed.

(** One result. *)
Lemma ev_fun {A} (p : nat → parser A) c s r1 r2 : ev p c s r1 → ev p c s r2 → r1 = r2.
Proof.
  intros [n1 H1] [n2 H2]. rewrite <- (H1 (Nat.max n1 n2)), <- (H2 (Nat.max n1 n2)); [done|lia|lia].
Qed.

Definition clean (d : string) : Prop := ∀ c, reach (origin d) c → bad_rune c = false.

Definition matches (d : string) (ps : list (list (list node))) : Prop :=
  ∃ c s, ev p_document (origin d) None (Match ps c s).

Lemma pany_end c s : at_end c = true → pany c s = Fail s.
Proof. unfold pany. by intros ->. Qed.

Lemma doc_end n c s ps c' s' : p_document n c s = Match ps c' s' → c_rest c' = "".
Proof.
  unfold p_document, p_doc, pbind, pnot, pany, pret. repeat case_match; try done; simplify_eq.
  intros [= -> -> ->]. by apply at_end_spec.
Qed.
Lemma ev_doc_end c s ps c' s' : ev p_document c s (Match ps c' s') → c_rest c' = "".
Proof. intros [n Hn]. eapply (doc_end n), Hn. lia. Qed.

Lemma go_parse_cases d :
  (∃ ps, matches d ps ∧ clean d ∧ go_parse d = PVal (VNode (NSeq (map NPara ps)))) ∨
  (∃ errs, go_parse d = PErr errs ∧ errs ≠ [] ∧
     Forall (λ x, ∃ c, reach (origin d) c ∧ bad_rune c = true ∧ x = (InvalidEncoding, cur_loc c)) errs) ∨
  (∃ l s, go_parse d = PErr [(NoMatch, l)] ∧ ev p_document (origin d) None (Fail s) ∧
     (l = Loc 1 1 0 ∨ ∃ c, reach (origin d) c ∧ l = cur_loc c)).
Proof.
  unfold go_parse, parse_with.
  pose proof (parse_enough (depth_for d) d ltac:(lia)) as Hd.
  pose proof (ag_document (S (depth_for d)) [] (depth_for d) (start_state d) ltac:(lia)) as Ha.
  unfold agree1 in Ha.
  destruct (parse_expr _ _ _ _) as [|st|r m st] eqn:E; [done|done|].
  pose proof (parse_good (origin d) _ (ERule RBooklit) eq_refl _ _ _ _ _ E (start_good d)) as Hg.
  pose proof (parse_moves _ (ERule RBooklit) eq_refl _ _ _ _ _ E) as [Hm _].
  rewrite pt_start, store_start in *.
  assert (Forall (λ x, ∃ c, reach (origin d) c ∧ bad_rune c = true ∧ x = (InvalidEncoding, cur_loc c)) (p_errs st)) as Herr.
  { apply Forall_forall. intros [e l] Hx. destruct (g_errs _ _ Hg e l Hx) as (-> & c & H1 & H2 & ->). eauto. }
  destruct r as [v|].
  - destruct Ha as (ps & [_ Hv] & Hev). unfold VDoc in Hv. subst v.
    destruct (p_errs st) as [|[e l] xs] eqn:Ee.
    + left. exists ps. split_and!; [by eexists _, _| |done]. intros c Hc.
      destruct (bad_rune c) eqn:Eb; [|done]. exfalso.
      assert (reach c (p_pt st)) as Hr.
      { eapply reach_linear; [done|done|]. unfold left at 1. erewrite (ev_doc_end _ _ _ (p_pt st)) by done. simpl. lia. }
      pose proof (g_seen _ _ Hg c Hc Hr Eb) as Hin. rewrite Ee in Hin. by apply elem_of_nil in Hin.
    + right; left. eexists. by split_and!.
  - destruct Ha as [_ Hev]. destruct (p_errs st) as [|[e l] xs] eqn:Ee.
    + right; right. eexists _, _. split_and!; [simpl; rewrite Ee; done|done|].
      destruct (g_mf _ _ Hg) as [->|(c & H1 & ->)]; eauto.
    + right; left. exists ((e, l) :: xs). by rewrite Ee.
Qed.

Lemma go_parse_val d v : go_parse d = PVal v ↔
  ∃ ps, v = VNode (NSeq (map NPara ps)) ∧ matches d ps ∧ clean d.
Proof.
  split.
  - intros E. destruct (go_parse_cases d) as [(ps & H1 & H2 & H3)|[(errs & H1 & _)|(l & s & H1 & _)]];
      rewrite E in *; simplify_eq. eauto.
  - intros (ps & -> & (c & s & Hev) & Hc).
    destruct (go_parse_cases d) as [(ps' & (c' & s' & H1) & H2 & H3)|[(errs & H1 & Hn & H2)|(l & s' & H1 & H2 & _)]].
    + pose proof (ev_fun _ _ _ _ _ Hev H1). simplify_eq. done.
    + destruct H2 as [|x errs (c' & H3 & H4 & _)]; [done|]. rewrite (Hc c') in H4; done.
    + pose proof (ev_fun _ _ _ _ _ Hev H2). done.
Qed.

Lemma go_parse_unclean d c : reach (origin d) c → bad_rune c = true → ∃ errs, go_parse d = PErr errs.
Proof.
  intros H1 H2. destruct (go_parse d) as [|errs|v] eqn:E; [by destruct (go_parse_not_deep d)|by exists errs|].
  apply go_parse_val in E as (_ & _ & _ & Hc). rewrite Hc in H2; done.
Qed.
