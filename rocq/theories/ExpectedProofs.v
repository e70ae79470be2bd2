(** Proofs about Expected.v. *)
From Coq Require Import Ascii String NArith Sorted Lia.
From stdpp Require Import base tactics relations strings numbers list.
From Verif Require Import GoBase Ast Utf8 Peg StrProofs PegBase PegTotal PegErrs Json Descent DescentProofs DescentRules ParserMain JsonSpec JsonProofs Expected ExpectedSpec.
Local Open Scope string_scope. Local Open Scope list_scope.

(** ** It runs as the interpreter of Peg.v *)

Definition erase (r : xres) : res :=
  match r with XDeep => RDeep | XPanic xs => RPanic (x_st xs) | XDone r m xs => RDone r m (x_st xs) end.
Definition same (PX : expr → env → xstate → xres) (P : expr → env → pstate → res) : Prop :=
  ∀ e m xs, erase (PX e m xs) = P e m (x_st xs).

Lemma x_lit_same w s start xs : lit_loop s start (x_st xs) = (x_st <$> (x_lit_loop w s start xs).1, x_st (x_lit_loop w s start xs).2).
Proof.
  revert xs. induction s as [|a s IH]; intros xs; [done|]. cbn [lit_loop x_lit_loop].
  destruct (N.eqb _ _); [apply (IH (x_on read xs))|done].
Qed.
Ltac use_same H :=
  match goal with |- context [erase (match ?PX ?e ?m ?xs with _ => _ end)] =>
    rewrite <- (H e m xs); destruct (PX e m xs) as [| |[?|] ? ?]; cbn [erase]; try done end.
Lemma x_seq_same PX P pt l : same PX P → ∀ acc m xs, erase (x_seq_loop PX pt l acc m xs) = seq_loop P pt l acc m (x_st xs).
Proof.
  intros H. induction l as [|e l IH]; intros acc m xs; [done|]. cbn [seq_loop x_seq_loop]. use_same H.
Qed.
Lemma x_choice_same PX P l : same PX P → ∀ m xs, erase (x_choice_loop PX l m xs) = choice_loop P l m (x_st xs).
Proof.
  intros H. induction l as [|e l IH]; intros m xs; [done|]. cbn [choice_loop x_choice_loop]. use_same H.
Qed.
Lemma x_many_same PX P k e : same PX P → ∀ acc xs, erase (x_many_loop PX k e acc xs) = many_loop P k e acc (x_st xs).
Proof.
  intros H. induction k as [|k IH]; intros acc xs; [done|]. cbn [many_loop x_many_loop]. use_same H.
Qed.
Lemma x_same n : same (x_parse_expr n) (parse_expr n).
Proof.
  induction n as [|n IH]; intros e m xs; [done|]. cbn [x_parse_expr parse_expr].
  unfold x_parse_body, parse_body. destruct e as [a e|l|l|x e|e|e|e|e|q|s|k|].
  - use_same IH. destruct (run_action _ _ _ _ _) as [[?|] ?]; done.
  - by apply x_seq_same.
  - by apply x_choice_same.
  - use_same IH.
  - change (flip_inv (x_st xs)) with (x_st (x_on flip_inv xs)). use_same IH.
  - use_same IH.
  - rewrite <- (x_many_same _ _ _ _ IH). destruct (x_many_loop _ _ _ _ _); done.
  - rewrite <- (x_many_same _ _ _ _ IH). destruct (x_many_loop _ _ _ _ _) as [| |[[| |[|] | |]|] ? ?]; done.
  - use_same IH.
  - rewrite (x_lit_same s). destruct (x_lit_loop _ _ _ _) as [[xs'|] xs2]; done.
  - destruct (at_end _); [done|]. by destruct (class_match _ _).
  - by destruct (at_end _).
Qed.
Lemma x_run n e m xs r m' xs' : x_parse_expr n e m xs = XDone r m' xs' → parse_expr n e m (x_st xs) = RDone r m' (x_st xs').
Proof. intros E. by rewrite <- (x_same n), E. Qed.

(** ** What the grammar needs *)

Definition terminal (e : expr) : bool := match e with ELit _ | EClass _ | EAny => true | _ => false end.
Definition class_ascii (k : class) : bool :=
  forallb (λ c, (byte c <? 128)%N) (k_chars k) && forallb (λ r : ascii * ascii, (byte r.2 <? 128)%N) (k_ranges k).
Fixpoint fit (e : expr) : bool :=
  match e with
  | EAct _ e | ELab _ e | EOpt e | EStar e | EPlus e => fit e
  | ENot e => terminal e && fit e
  | ESeq l => forallb fit l
  | EChoice l => negb (match l with [] => true | _ => false end) && forallb fit l
  | ELit s => ascii_only s
  | EClass k => class_ascii k
  | ERule _ | EAny => true
  end.
Lemma rule_fit r : fit (rule_expr r) = true.
Proof. by destruct r. Qed.
Lemma fit_lits : ∀ e, fit e = true → lits_ascii e = true.
Proof.
  fix IH 1. intros [a e|l|l|x e|e|e|e|e|q|s|k|]; cbn [fit lits_ascii]; try done; try apply IH.
  - induction l as [|e l IHl]; [done|]. cbn [forallb]. rewrite !andb_true_iff. intros [H1 H2]. split; [by apply IH|by apply IHl].
  - intros [_ H]%andb_true_iff. revert H. induction l as [|e l IHl]; [done|]. cbn [forallb]. rewrite !andb_true_iff. intros [H1 H2]. split; [by apply IH|by apply IHl].
  - intros [_ H]%andb_true_iff. by apply IH.
Qed.
Lemma fit_in l e : forallb fit l = true → e ∈ l → fit e = true.
Proof. intros H He. rewrite forallb_forall in H. apply H. by apply elem_of_list_In. Qed.

(** ** What matchers find *)

Lemma class_meets k c : class_ascii k = true → (class_match k (cur_rn c) = true ∧ at_end c = false ↔ meets (WClass k) (c_rest c)).
Proof.
  unfold class_ascii. intros [Hc Hr]%andb_true_iff. rewrite forallb_forall in Hc, Hr. cbn [meets].
  destruct (c_rest c) as [|a r] eqn:E.
  { pose proof (proj2 (at_end_spec c) E) as ->. split; [by intros [_ ?]|]. by intros (? & ? & ? & _). }
  assert (at_end c = false) as -> by (apply not_true_iff_false; rewrite at_end_spec, E; done).
  assert (existsb (λ a, N.eqb (byte a) (cur_rn c)) (k_chars k) || existsb (λ p, (byte (fst p) <=? cur_rn c)%N && (cur_rn c <=? byte (snd p))%N) (k_ranges k) = true
    ↔ in_class k a) as K.
  { unfold in_class. rewrite orb_true_iff, !existsb_exists. destruct (high a) eqn:Eh.
    - pose proof (cur_rn_high c a r E Eh) as Hn. unfold high in Eh. apply N.leb_le in Eh. split.
      + intros [(x & Hx & Hx')|(x & Hx & Hx')].
        * apply Hc in Hx. apply N.eqb_eq in Hx'. apply N.ltb_lt in Hx. lia.
        * apply Hr in Hx. apply andb_true_iff in Hx' as [_ Hx']. apply N.leb_le in Hx'. apply N.ltb_lt in Hx. lia.
      + intros [Ha|(x & Hx & _ & Hx')].
        * apply elem_of_list_In, Hc, N.ltb_lt in Ha. lia.
        * apply elem_of_list_In, Hr, N.ltb_lt in Hx. unfold byte in *. lia.
    - assert ((byte a < 128)%N) as Ha by (unfold high in Eh; by apply N.leb_gt in Eh). rewrite (cur_rn_ascii c a r E Ha). split.
      + intros [(x & Hx & Hx')|(x & Hx & Hx')].
        * apply N.eqb_eq, byte_inj in Hx' as ->. left. by apply elem_of_list_In.
        * right. exists x. split; [by apply elem_of_list_In|]. apply andb_true_iff in Hx' as [H1 H2]. apply N.leb_le in H1, H2. done.
      + intros [Hx|(x & Hx & H1 & H2)].
        * left. exists a. split; [by apply elem_of_list_In|apply N.eqb_refl].
        * right. exists x. split; [by apply elem_of_list_In|]. apply andb_true_iff. split; by apply N.leb_le. }
  unfold class_match. destruct (k_inv k).
  - rewrite negb_true_iff, <- not_true_iff_false, K. split; [intros [H _]; by exists a, r|]. intros (a' & z & [= <- <-] & H). done.
  - rewrite K. split; [intros [H _]; by exists a, r|]. intros (a' & z & [= <- <-] & H). done.
Qed.
Lemma any_meets c : at_end c = false ↔ meets WAny (c_rest c).
Proof. cbn [meets]. rewrite <- not_true_iff_false, at_end_spec. done. Qed.

(** ** The list and the log *)

Lemma stops_dec y : {stops y} + {¬ stops y}.
Proof. apply bool_dec. Qed.
Record kept (xs : xstate) : Prop := Kept {
  k_far : ∀ y, y ∈ x_log xs → stops y → y_off y ≤ l_off (p_mf (x_st xs));
  k_exp : ∀ t, t ∈ x_exp xs ↔ ∃ y, y ∈ x_log xs ∧ stops y ∧ y_off y = l_off (p_mf (x_st xs)) ∧ t = called (y_inv y) (y_want y);
  k_some : x_exp xs = [] → l_off (p_mf (x_st xs)) = 0
}.
(** What was tried is as it is said to be. *)
Definition honest (c0 : cursor) (xs : xstate) : Prop :=
  ∀ y, y ∈ x_log xs → ∃ c, reach c0 c ∧ y_off y = c_off c ∧ (y_met y = true ↔ meets (y_want y) (c_rest c)).

Lemma kept_on f xs : (∀ st, p_mf (f st) = p_mf st) → kept xs → kept (x_on f xs).
Proof. intros Hf [H1 H2 H3]. constructor; cbn [x_on x_st x_exp x_log]; rewrite Hf; done. Qed.
Lemma mf_read st : p_mf (read st) = p_mf st.
Proof. unfold read, note_rune. by case_match. Qed.
Lemma mf_restore c st : p_mf (restore st c) = p_mf st.
Proof. unfold restore. by case_match. Qed.
Lemma kept_fail b l w xs : kept xs → kept (x_fail_at b l w xs).
Proof.
  intros [H1 H2 H3]. unfold x_fail_at, fail_at. set (st := x_st xs) in *. destruct (Bool.eqb b (p_inv st)) eqn:Eb.
  - apply Bool.eqb_prop in Eb. destruct (Nat.ltb_spec (l_off (p_mf st)) (l_off l)) as [L|L].
    + destruct (Nat.ltb_spec (l_off l) (l_off (p_mf st))) as [L'|L']; [lia|]. constructor; cbn [x_st x_exp x_log p_mf].
      * intros y [Hy|Hy]%elem_of_app Hs; [specialize (H1 y Hy Hs); lia|]. apply elem_of_list_singleton in Hy as ->. done.
      * intros t. cbn [app]. rewrite elem_of_list_singleton. split.
        -- intros ->. eexists. split; [apply elem_of_app; right; left|]. done.
        -- intros (y & [Hy|Hy]%elem_of_app & Hs & Ho & ->); [specialize (H1 y Hy Hs); lia|]. by apply elem_of_list_singleton in Hy as ->.
      * done.
    + destruct (Nat.ltb_spec (l_off l) (l_off (p_mf st))) as [L'|L']; constructor; cbn [x_st x_exp x_log]; fold st.
      * intros y [Hy|Hy]%elem_of_app Hs; [by apply H1|]. apply elem_of_list_singleton in Hy as ->. simpl. lia.
      * intros t. rewrite H2. split; intros (y & Hy & Hs & Ho & Ht).
        -- exists y. split; [apply elem_of_app; by left|done].
        -- apply elem_of_app in Hy as [Hy|Hy]; [by exists y|]. apply elem_of_list_singleton in Hy as ->. simpl in Ho. lia.
      * exact H3.
      * intros y [Hy|Hy]%elem_of_app Hs; [by apply H1|]. apply elem_of_list_singleton in Hy as ->. simpl. lia.
      * intros t. rewrite elem_of_app, elem_of_list_singleton, H2. split.
        -- intros [(y & Hy & Hs & Ho & Ht)| ->].
           ++ exists y. split; [apply elem_of_app; by left|done].
           ++ eexists. split; [apply elem_of_app; right; left|]. split_and!; [done|simpl; lia|done].
        -- intros (y & [Hy|Hy]%elem_of_app & Hs & Ho & Ht); [left; by exists y|]. apply elem_of_list_singleton in Hy as ->. right. done.
      * intros E. by destruct (x_exp xs).
  - constructor; cbn [x_st x_exp x_log]; fold st.
    + intros y [Hy|Hy]%elem_of_app Hs; [by apply H1|]. apply elem_of_list_singleton in Hy as ->. unfold stops in Hs. simpl in Hs. rewrite Hs, Bool.eqb_reflx in Eb. done.
    + intros t. rewrite H2. split; intros (y & Hy & Hs & Ho & Ht).
      * exists y. split; [apply elem_of_app; by left|done].
      * apply elem_of_app in Hy as [Hy|Hy]; [by exists y|]. apply elem_of_list_singleton in Hy as ->. unfold stops in Hs. simpl in Hs. rewrite Hs, Bool.eqb_reflx in Eb. done.
    + exact H3.
Qed.
Lemma honest_fail c0 b c w xs : honest c0 xs → reach c0 c → (b = true ↔ meets w (c_rest c)) → honest c0 (x_fail_at b (cur_loc c) w xs).
Proof.
  intros H Hc Hb y. cbn [x_fail_at x_log]. intros [Hy|Hy]%elem_of_app; [by apply H|]. apply elem_of_list_singleton in Hy as ->. by exists c.
Qed.
Lemma honest_on c0 f xs : honest c0 xs → honest c0 (x_on f xs).
Proof. done. Qed.

Section Runs.
  Variable c0 : cursor.
  Definition fine (xs : xstate) : Prop := kept xs ∧ honest c0 xs.
  Definition keeps (PX : expr → env → xstate → xres) (e : expr) : Prop :=
    ∀ m xs r m' xs', PX e m xs = XDone r m' xs' → reach c0 (p_pt (x_st xs)) → fine xs → fine xs' ∧ reach (p_pt (x_st xs)) (p_pt (x_st xs')).
  Lemma fine_on f xs : (∀ st, p_mf (f st) = p_mf st) → fine xs → fine (x_on f xs).
  Proof. intros Hf [H1 H2]. split; [by apply kept_on|by apply honest_on]. Qed.
  Lemma fine_fail b c w xs : fine xs → reach c0 c → (b = true ↔ meets w (c_rest c)) → fine (x_fail_at b (cur_loc c) w xs).
  Proof. intros [H1 H2] Hc Hb. split; [by apply kept_fail|by apply honest_fail]. Qed.

  Lemma lit_keeps w s start xs o xs' : reach c0 start → fine xs →
    (has_prefix s (c_rest (p_pt (x_st xs))) = true ↔ meets (WLit w) (c_rest start)) → ascii_only s = true →
    x_lit_loop w s start xs = (o, xs') → fine xs' ∧ (o = None ∨ o = Some xs' ∧ meets (WLit w) (c_rest start)).
  Proof.
    intros Hs. revert xs. induction s as [|a s IH]; intros xs Hf Hm Ha; cbn [x_lit_loop].
    - intros [= <- <-]. split; [done|]. right. split; [done|]. by apply Hm.
    - unfold ascii_only in Ha. cbn [sforall] in Ha. apply andb_true_iff in Ha as [Ha Has]. apply N.ltb_lt in Ha.
      destruct (N.eqb_spec (cur_rn (p_pt (x_st xs))) (byte a)) as [E|E].
      + apply cur_ascii in E as (b & r & Er & Hb & Hw); [|done]. apply byte_inj in Hb as ->.
        apply IH; [apply fine_on; [apply mf_read|done]| |done].
        cbn [x_on x_st]. rewrite pt_read, next_rest, Hw, Er. rewrite Er in Hm. cbn [has_prefix] in Hm. rewrite Ascii.eqb_refl in Hm. exact Hm.
      + intros [= <- <-]. split; [|by left]. apply fine_on; [apply mf_restore|]. apply fine_fail; [done|done|]. rewrite <- Hm. split; [done|].
        destruct (c_rest (p_pt (x_st xs))) as [|b r] eqn:Er; [done|]. cbn [has_prefix]. destruct (Ascii.eqb_spec a b) as [<-|]; [|done].
        exfalso. apply E. by eapply cur_rn_ascii.
  Qed.
  Lemma seq_keeps PX pt l : (∀ e, e ∈ l → keeps PX e) → ∀ acc m xs r m' xs',
    reach c0 (p_pt (x_st xs)) → fine xs → x_seq_loop PX pt l acc m xs = XDone r m' xs' → fine xs'.
  Proof.
    intros HP. induction l as [|e l IH]; intros acc m xs r m' xs' Hr Hf; cbn [x_seq_loop]; [by intros [= <- <- <-]|].
    destruct (PX e m xs) as [| |[v|] m1 xs1] eqn:E; try done; apply HP in E as [E1 E2]; try done; try left.
    - apply IH; [intros; apply HP; by right|by eapply reach_trans|done].
    - intros [= <- <- <-]. apply fine_on; [apply mf_restore|done].
  Qed.
  Lemma choice_keeps PX l : (∀ e, e ∈ l → keeps PX e) → ∀ m xs r m' xs',
    reach c0 (p_pt (x_st xs)) → fine xs → x_choice_loop PX l m xs = XDone r m' xs' → fine xs'.
  Proof.
    intros HP. induction l as [|e l IH]; intros m xs r m' xs' Hr Hf; cbn [x_choice_loop]; [by intros [= <- <- <-]|].
    destruct (PX e [] xs) as [| |[v|] m1 xs1] eqn:E; try done; apply HP in E as [E1 E2]; try done; try left.
    - by intros [= <- <- <-].
    - apply IH; [intros; apply HP; by right|by eapply reach_trans|done].
  Qed.
  Lemma many_keeps PX e k : keeps PX e → ∀ acc xs r m' xs',
    reach c0 (p_pt (x_st xs)) → fine xs → x_many_loop PX k e acc xs = XDone r m' xs' → fine xs'.
  Proof.
    intros HP. induction k as [|k IH]; intros acc xs r m' xs' Hr Hf; cbn [x_many_loop]; [done|].
    destruct (PX e [] xs) as [| |[v|] m1 xs1] eqn:E; try done; apply HP in E as [E1 E2]; try done.
    - apply IH; [by eapply reach_trans|done].
    - by intros [= <- <- <-].
  Qed.
  Lemma x_keeps n e : fit e = true → keeps (x_parse_expr n) e.
  Proof.
    intros He m xs r m' xs' E Hr Hf. split.
    2: { apply x_run in E. apply parse_moves in E as [E _]; [done|by apply fit_lits]. }
    revert e He m xs r m' xs' E Hr Hf. induction n as [|n IH']; intros e He m xs r m' xs'; [done|].
    assert (∀ e, fit e = true → keeps (x_parse_expr n) e) as IH.
    { clear -IH'. intros e He m xs r m' xs' E Hr Hf. split; [by eapply IH'|]. apply x_run in E. apply parse_moves in E as [E _]; [done|by apply fit_lits]. }
    clear IH'. cbn [x_parse_expr]. unfold x_parse_body. destruct e as [a e|l|l|x e|e|e|e|e|q|s|k|]; cbn [fit] in He; intros E Hr Hf.
    - destruct (x_parse_expr n e m xs) as [| |[v|] m1 xs1] eqn:E1; try done; apply IH in E1 as [E1 _]; try done.
      + destruct (run_action _ _ _ _ _) as [[w|] s]; [|done]. injection E as <- <- <-. by apply fine_on.
      + by injection E as <- <- <-.
    - eapply seq_keeps, E; [|done..]. intros e' He'. apply IH. by eapply fit_in.
    - apply andb_true_iff in He as [_ He]. eapply choice_keeps, E; [|done..]. intros e' He'. apply IH. by eapply fit_in.
    - destruct (x_parse_expr n e [] xs) as [| |[v|] m1 xs1] eqn:E1; try done; apply IH in E1 as [E1 _]; try done; by injection E as <- <- <-.
    - apply andb_true_iff in He as [_ He]. destruct (x_parse_expr n e [] _) as [| |o m1 xs1] eqn:E1; try done. destruct (IH e He _ _ _ _ _ E1) as [E2 _]; [done|by apply fine_on|]. clear E1.
      injection E as <- <- <-. apply fine_on; [apply mf_restore|]. by apply fine_on.
    - destruct (x_parse_expr n e [] xs) as [| |o m1 xs1] eqn:E1; try done; apply IH in E1 as [E1 _]; try done; by injection E as <- <- <-.
    - destruct (x_many_loop _ _ _ _ _) as [| |o m1 xs1] eqn:E1; try done. injection E as <- <- <-. eapply many_keeps, E1; [by apply IH|done..].
    - destruct (x_many_loop _ _ _ _ _) as [| |o m1 xs1] eqn:E1; try done. assert (xs1 = xs') as <- by (repeat case_match; congruence).
      eapply many_keeps, E1; [by apply IH|done..].
    - destruct (x_parse_expr n _ [] xs) as [| |o m1 xs1] eqn:E1; try done; apply IH in E1 as [E1 _]; try done; [by injection E as <- <- <-|apply rule_fit].
    - destruct (x_lit_loop _ _ _ _) as [o xs1] eqn:E1. apply lit_keeps in E1 as [E1 E2]; [|done|done| |done].
      + destruct E2 as [->|[-> Hm]]; injection E as <- <- <-; [done|]. apply fine_fail; [done|done|]. done.
      + cbn [meets]. apply has_prefix_spec.
    - pose proof (class_meets k (p_pt (x_st xs)) He) as K. destruct (at_end _) eqn:Ea; [|destruct (class_match _ _) eqn:Ec]; injection E as <- <- <-.
      + apply fine_fail; [done|done|]. split; [done|]. intros M. by apply K in M as [_ ?].
      + apply fine_fail; [|done|]. { apply fine_on; [apply mf_read|done]. } split; [|done]. intros _. by apply K.
      + apply fine_fail; [done|done|]. split; [done|]. intros M. by apply K in M as [? _].
    - pose proof (any_meets (p_pt (x_st xs))) as K. destruct (at_end _) eqn:Ea; injection E as <- <- <-.
      + apply fine_fail; [done|done|]. split; [done|]. intros M. by apply K in M.
      + apply fine_fail; [|done|]. { apply fine_on; [apply mf_read|done]. } split; [|done]. intros _. by apply K.
  Qed.
End Runs.

(** ** A parse that fails was stopped *)

Lemma inv_read st : p_inv (read st) = p_inv st.
Proof. unfold read, note_rune. by case_match. Qed.
Lemma inv_restore st c : p_inv (restore st c) = p_inv st.
Proof. unfold restore. by case_match. Qed.
Lemma inv_fail b l st : p_inv (fail_at b l st) = p_inv st.
Proof. unfold fail_at. by repeat case_match. Qed.
Lemma inv_lit s start st : p_inv (lit_loop s start st).2 = p_inv st ∧ (∀ st', (lit_loop s start st).1 = Some st' → st' = (lit_loop s start st).2).
Proof.
  revert st. induction s as [|a s IH]; intros st; cbn [lit_loop].
  - split; [done|]. by intros ? [= <-].
  - destruct (N.eqb _ _).
    + destruct (IH (read st)) as [H1 H2]. rewrite inv_read in H1. done.
    + cbn [fst snd]. rewrite inv_restore, inv_fail. done.
Qed.
Definition same_inv (P : expr → env → pstate → res) : Prop := ∀ e m st r m' st', P e m st = RDone r m' st' → p_inv st' = p_inv st.
Lemma inv_seq P pt l : same_inv P → ∀ acc m st r m' st', seq_loop P pt l acc m st = RDone r m' st' → p_inv st' = p_inv st.
Proof.
  intros IH. induction l as [|e l IHl]; intros acc m st r m' st'; cbn [seq_loop]; [by intros [= <- <- <-]|].
  destruct (P e m st) as [| |[v|] m1 st1] eqn:E; try done; apply IH in E.
  - intros H. apply IHl in H. congruence.
  - intros [= <- <- <-]. by rewrite inv_restore.
Qed.
Lemma inv_choice P l : same_inv P → ∀ m st r m' st', choice_loop P l m st = RDone r m' st' → p_inv st' = p_inv st.
Proof.
  intros IH. induction l as [|e l IHl]; intros m st r m' st'; cbn [choice_loop]; [by intros [= <- <- <-]|].
  destruct (P e [] st) as [| |[v|] m1 st1] eqn:E; try done; apply IH in E.
  - by intros [= <- <- <-].
  - intros H. apply IHl in H. congruence.
Qed.
Lemma inv_many P k e : same_inv P → ∀ acc st r m' st', many_loop P k e acc st = RDone r m' st' → p_inv st' = p_inv st.
Proof.
  intros IH. induction k as [|k IHk]; intros acc st r m' st'; cbn [many_loop]; [done|].
  destruct (P e [] st) as [| |[v|] m1 st1] eqn:E; try done; apply IH in E.
  - intros H. apply IHk in H. congruence.
  - by intros [= <- <- <-].
Qed.
Lemma inv_same n : same_inv (parse_expr n).
Proof.
  induction n as [|n IH]; intros e m st r m' st'; [done|]. cbn [parse_expr]. unfold parse_body. destruct e as [a e|l|l|x e|e|e|e|e|q|s|k|].
  - destruct (parse_expr n e m st) as [| |[v|] m1 st1] eqn:E; try done; apply IH in E.
    + destruct (run_action _ _ _ _ _) as [[w|] s]; [|done]. by intros [= <- <- <-].
    + by intros [= <- <- <-].
  - by apply inv_seq.
  - by apply inv_choice.
  - destruct (parse_expr n e [] st) as [| |[v|] m1 st1] eqn:E; try done; apply IH in E; by intros [= <- <- <-].
  - destruct (parse_expr n e [] _) as [| |o m1 st1] eqn:E; try done; apply IH in E. intros [= <- <- <-]. rewrite inv_restore. unfold flip_inv in *. simpl in *. rewrite E. apply negb_involutive.
  - destruct (parse_expr n e [] st) as [| |o m1 st1] eqn:E; try done; apply IH in E; by intros [= <- <- <-].
  - destruct (many_loop _ _ _ _ _) as [| |o m1 st1] eqn:E; try done; apply inv_many in E; [|done]. by intros [= <- <- <-].
  - destruct (many_loop _ _ _ _ _) as [| |o m1 st1] eqn:E; try done; apply inv_many in E; [|done]. intros H. assert (st1 = st') as <- by (repeat case_match; congruence). done.
  - destruct (parse_expr n _ [] st) as [| |o m1 st1] eqn:E; try done; apply IH in E; by intros [= <- <- <-].
  - pose proof (inv_lit s (p_pt st) st) as [H1 H2]. destruct (lit_loop _ _ _) as [[st1|] st2]; cbn [fst snd] in *; intros [= <- <- <-]; [|done].
    rewrite inv_fail, (H2 _ eq_refl). done.
  - destruct (at_end _); [|destruct (class_match _ _)]; intros [= <- <- <-]; by rewrite inv_fail, ?inv_read.
  - destruct (at_end _); intros [= <- <- <-]; by rewrite inv_fail, ?inv_read.
Qed.

Definition stopped (xs : xstate) : Prop := ∃ y, y ∈ x_log xs ∧ stops y.
Lemma stopped_fail b l w xs : p_inv (x_st xs) = b → stopped (x_fail_at b l w xs).
Proof. intros H. eexists. split; [apply elem_of_app; right; left|]. by unfold stops. Qed.
Lemma stopped_on f xs : stopped xs → stopped (x_on f xs).
Proof. done. Qed.
Lemma lit_stopped w s start xs xs' : p_inv (x_st xs) = false → x_lit_loop w s start xs = (None, xs') → stopped xs'.
Proof.
  revert xs. induction s as [|a s IH]; intros xs Hi; cbn [x_lit_loop]; [done|]. destruct (N.eqb _ _).
  - apply IH. cbn [x_on x_st]. by rewrite inv_read.
  - intros [= <-]. apply stopped_on. by apply stopped_fail.
Qed.
Lemma lit_inv w s start xs o xs' : x_lit_loop w s start xs = (o, xs') → p_inv (x_st xs') = p_inv (x_st xs) ∧ (o = None ∨ o = Some xs').
Proof.
  revert xs. induction s as [|a s IH]; intros xs; cbn [x_lit_loop].
  - intros [= <- <-]. auto.
  - destruct (N.eqb _ _).
    + intros H. apply IH in H as [H1 H2]. cbn [x_on x_st] in H1. rewrite inv_read in H1. done.
    + intros [= <- <-]. cbn [x_on x_st x_fail_at]. rewrite inv_restore, inv_fail. auto.
Qed.
(** Only for negations of matchers, which are all there are. *)
Lemma terminal_stopped n e m xs r m' xs' : terminal e = true → x_parse_expr n e m xs = XDone r m' xs' →
  p_inv (x_st xs) = (if r then true else false) → stopped xs'.
Proof.
  destruct n as [|n]; [done|]. cbn [x_parse_expr]. unfold x_parse_body. destruct e; try done; intros _.
  - destruct (x_lit_loop _ _ _ _) as [o xs1] eqn:E. pose proof (lit_inv _ _ _ _ _ _ E) as [Hi Ho]. destruct Ho as [->| ->]; intros [= <- <- <-] Hr.
    + by eapply lit_stopped.
    + apply stopped_fail. congruence.
  - destruct (at_end _); [|destruct (class_match _ _)]; intros [= <- <- <-] Hr; apply stopped_fail; cbn [x_on x_st]; rewrite ?inv_read; done.
  - destruct (at_end _); intros [= <- <- <-] Hr; apply stopped_fail; cbn [x_on x_st]; rewrite ?inv_read; done.
Qed.
Definition halts (PX : expr → env → xstate → xres) (e : expr) : Prop :=
  ∀ m xs m' xs', PX e m xs = XDone None m' xs' → p_inv (x_st xs) = false → stopped xs'.
Lemma x_inv n e m xs r m' xs' : x_parse_expr n e m xs = XDone r m' xs' → p_inv (x_st xs') = p_inv (x_st xs).
Proof. intros E. apply x_run in E. by apply inv_same in E. Qed.
Lemma x_halts n e : fit e = true → halts (x_parse_expr n) e.
Proof.
  revert e. induction n as [|n IH]; intros e He m xs m' xs'; [done|]. cbn [x_parse_expr]. unfold x_parse_body.
  destruct e as [a e|l|l|x e|e|e|e|e|q|s|k|]; cbn [fit] in He.
  - destruct (x_parse_expr n e m xs) as [| |[v|] m1 xs1] eqn:E; try done.
    + by destruct (run_action _ _ _ _ _) as [[w|] s].
    + intros [= <- <-]. by eapply IH.
  - generalize (p_pt (x_st xs)) at 1. intros pt. generalize (@nil val). intros acc. revert acc m xs m' xs'. induction l as [|e l IHl]; intros acc m xs m' xs'; cbn [x_seq_loop]; [done|].
    cbn [forallb] in He. apply andb_true_iff in He as [He Hl]. destruct (x_parse_expr n e m xs) as [| |[v|] m1 xs1] eqn:E; try done.
    + intros H Hi. eapply IHl; [done|exact H|]. by rewrite (x_inv _ _ _ _ _ _ _ E).
    + intros [= <- <-] Hi. apply stopped_on. by eapply IH.
  - apply andb_true_iff in He as [Hn He]. destruct l as [|e l]; [done|]. clear Hn. revert e He xs. induction l as [|e2 l IHl]; intros e He xs; cbn [x_choice_loop]; cbn [forallb] in He; apply andb_true_iff in He as [He Hl].
    + destruct (x_parse_expr n e [] xs) as [| |[v|] m1 xs1] eqn:E; try done. intros [= <- <-]. by eapply IH.
    + destruct (x_parse_expr n e [] xs) as [| |[v|] m1 xs1] eqn:E; try done. intros H Hi. eapply (IHl e2 Hl); [exact H|]. by rewrite (x_inv _ _ _ _ _ _ _ E).
  - destruct (x_parse_expr n e [] xs) as [| |[v|] m1 xs1] eqn:E; try done. intros [= <- <-]. by eapply IH.
  - apply andb_true_iff in He as [Ht He]. destruct (x_parse_expr n e [] _) as [| |[v|] m1 xs1] eqn:E; try done. intros [= <- <-] Hi. do 2 apply stopped_on.
    eapply terminal_stopped; [done|exact E|]. cbn [x_on x_st flip_inv p_inv]. by rewrite Hi.
  - by destruct (x_parse_expr n e [] xs) as [| |[v|] m1 xs1] eqn:E.
  - destruct (x_many_loop _ _ _ _ _) as [| |o m1 xs1] eqn:E; try done. intros [= -> <- <-]. exfalso. clear -E. revert E. generalize (rounds (x_st xs)), (@nil val). intros k. revert xs.
    induction k as [|k IHk]; intros xs acc; cbn [x_many_loop]; [done|]. destruct (x_parse_expr n e [] xs) as [| |[v|] m2 xs2]; try done. apply IHk.
  - unfold rounds. cbn [x_many_loop]. destruct (x_parse_expr n e [] xs) as [| |[v|] m1 xs1] eqn:E; try done.
    + destruct (x_many_loop _ _ _ _ _) as [| |o m2 xs2] eqn:E2; try done.
      assert (∃ w ws, o = Some (VList (w :: ws))) as (w & ws & ->); [|done].
      revert E2. generalize (String.length (c_rest (p_pt (x_st xs)))). intros k. cbn [app]. assert (∃ w ws, [v] = w :: ws) as Hv by eauto. revert Hv. generalize [v]. clear -n. intros acc Hv E2.
      revert xs1 acc Hv E2. induction k as [|k IHk]; intros xs1 acc Hv; cbn [x_many_loop]; [done|]. destruct (x_parse_expr n e [] xs1) as [| |[u|] m3 xs3]; try done.
      * apply IHk. destruct Hv as (w & ws & ->). by exists w, (ws ++ [u]).
      * intros [= <- <- <-]. destruct Hv as (w & ws & ->). eauto.
    + intros [= <- <-]. by eapply IH.
  - destruct (x_parse_expr n _ [] xs) as [| |[v|] m1 xs1] eqn:E; try done. intros [= <- <-]. eapply IH, E. apply rule_fit.
  - intros E Hi. eapply (terminal_stopped (S n) (ELit s)); [done|exact E|done].
  - intros E Hi. eapply (terminal_stopped (S n) (EClass k)); [done|exact E|done].
  - intros E Hi. eapply (terminal_stopped (S n) EAny); [done|exact E|done].
Qed.

(** ** The text *)

Lemma str_insert_perm x l : str_insert x l ≡ₚ x :: l.
Proof. induction l as [|y l IH]; [done|]. cbn [str_insert]. destruct (string_ltb x y); [done|]. rewrite IH. apply Permutation_swap. Qed.
Lemma str_sort_perm l : str_sort l ≡ₚ l.
Proof. induction l as [|x l IH]; [done|]. cbn [str_sort]. by rewrite str_insert_perm, IH. Qed.
Lemma str_insert_sorted x l : StronglySorted before l → x ∉ l → StronglySorted before (str_insert x l).
Proof.
  induction 1 as [|y l Hl IH Hy]; intros Hx; cbn [str_insert]; [by repeat constructor|]. apply not_elem_of_cons in Hx as [Hxy Hx].
  destruct (string_ltb x y) eqn:E.
  - constructor; [by constructor|]. constructor; [by apply string_ltb_before|]. eapply Forall_impl; [exact Hy|]. intros z Hz.
    apply string_ltb_before. apply string_ltb_before in Hz. by eapply string_ltb_trans.
  - constructor; [by apply IH|]. rewrite str_insert_perm. constructor; [|done]. apply string_ltb_before. by destruct (string_ltb_total _ _ E).
Qed.
Lemma str_sort_sorted l : NoDup l → StronglySorted before (str_sort l).
Proof. induction 1 as [|x l Hx Hl IH]; [constructor|]. cbn [str_sort]. apply str_insert_sorted; [done|]. by rewrite str_sort_perm. Qed.
Lemma listed_names exp : names (listed exp) (λ t, t ∈ exp).
Proof.
  unfold listed. eexists _, _. split; [reflexivity|]. split; [|split].
  - apply str_sort_sorted. apply NoDup_ListNoDup, List.NoDup_filter, NoDup_ListNoDup, NoDup_remove_dups.
  - intros t. rewrite str_sort_perm, elem_of_list_In, filter_In, <- elem_of_list_In, elem_of_remove_dups, negb_true_iff, String.eqb_neq. done.
  - destruct (existsb (String.eqb "!.") (remove_dups exp)) eqn:E.
    + left. split; [done|]. apply existsb_exists in E as (x & Hx & Ex). apply String.eqb_eq in Ex. subst x. apply elem_of_list_In in Hx. by apply (proj1 (elem_of_remove_dups _ _)) in Hx.
    + right. split; [done|]. intros H. apply (proj2 (elem_of_remove_dups _ _)), elem_of_list_In in H. apply not_true_iff_false in E. apply E, existsb_exists.
      exists "!.". split; [done|]. apply String.eqb_refl.
Qed.
Lemma list_join_snoc r x : list_join (r ++ [x]) ", " "or" = match r with [] => x | _ => String.concat ", " r +:+ " or " +:+ x end.
Proof.
  unfold list_join. rewrite reverse_app. change (reverse [x]) with [x]. cbn [app].
  destruct r as [|y r] using rev_ind; [done|]. rewrite reverse_app. change (reverse [y]) with [y]. cbn [app].
  rewrite reverse_cons, reverse_involutive.
  destruct (r ++ [y]) eqn:E; [by destruct r|]. done.
Qed.
Lemma list_join_listing l : l ≠ [] → listing l (list_join l ", " "or").
Proof.
  destruct l as [|x r _] using rev_ind; [done|]. intros _. rewrite list_join_snoc.
  induction r as [|a r IH]; [constructor|]. destruct r as [|b r]; [apply list_two|].
  change (String.concat ", " (a :: b :: r)) with (a +:+ ", " +:+ String.concat ", " (b :: r)). rewrite !sapp_assoc.
  destruct r as [|c r]; cbn [app] in *; by apply list_more.
Qed.
Lemma names_nonempty l there t : names l there → there t → l ≠ [].
Proof.
  intros (a & z & -> & _ & Ha & Hz) Ht E. apply app_eq_nil in E as [-> ->]. destruct Hz as [[? _]|[_ Hn]]; [done|].
  destruct (decide (t = "!.")) as [->|N]; [done|]. by eapply elem_of_nil, Ha.
Qed.
Lemma names_iff l there there' : (∀ t, there t ↔ there' t) → names l there → names l there'.
Proof.
  intros H (a & z & -> & Hs & Ha & Hz). exists a, z. split; [done|]. split; [done|]. split; [intros t; by rewrite <- H|]. by rewrite <- H.
Qed.

(** ** Documents *)

Lemma start_fine d : fine (arrive 1 0 0 d) (X (start_state d) [] []).
Proof. split; [constructor|]; cbn [x_log x_exp x_st]; [by intros ? ?%elem_of_nil|intros t; split; [by intros ?%elem_of_nil|by intros (? & ?%elem_of_nil & _)]|intros _; unfold start_state, note_rune; by destruct (bad_rune _)|by intros ? ?%elem_of_nil]. Qed.
Lemma x_parse_erase d : erase (x_parse d) = parse_expr (depth_for d) (ERule RBooklit) [] (start_state d).
Proof. exact (x_same (depth_for d) (ERule RBooklit) [] (X (start_state d) [] [])). Qed.
Lemma x_parse_done d r m xs : x_parse d = XDone r m xs →
  parse_expr (depth_for d) (ERule RBooklit) [] (start_state d) = RDone r m (x_st xs).
Proof. intros E. by rewrite <- x_parse_erase, E. Qed.
Lemma x_parse_fine d r m xs : x_parse d = XDone r m xs → fine (origin d) xs.
Proof.
  intros E. unfold x_parse in E. destruct (x_keeps (origin d) _ (ERule RBooklit) eq_refl _ _ _ _ _ E) as [H _]; [|apply start_fine|done].
  cbn [x_st]. rewrite pt_start. apply reach_refl.
Qed.
Lemma x_parse_errs d r m xs x : x_parse d = XDone r m xs → x ∈ p_errs (x_st xs) → x.1 = InvalidEncoding.
Proof.
  intros E%x_parse_done Hx. pose proof (parse_good (origin d) _ (ERule RBooklit) eq_refl _ _ _ _ _ E (start_good d)) as Hg.
  destruct x as [e l]. by destruct (g_errs _ _ Hg e l Hx) as (-> & _).
Qed.
Lemma x_parse_all d : ∃ r m xs, x_parse d = XDone r m xs.
Proof.
  destruct (x_parse d) as [|xs|r m xs] eqn:E; [| |eauto].
  - exfalso. apply (go_parse_not_deep d). unfold go_parse, parse_with. by rewrite <- x_parse_erase, E.
  - exfalso. apply (f_equal erase) in E. rewrite x_parse_erase in E. cbn [erase] in E.
    pose proof (go_parse_cases d) as H. unfold go_parse, parse_with in H. rewrite E in H.
    destruct H as [(ps & _ & _ & H)|[(errs & H1 & _ & H2)|(l' & s & H1 & _)]]; [done| |].
    + cbn [add_err p_errs] in H1. injection H1 as <-. rewrite Forall_app, Forall_singleton in H2. destruct H2 as [_ (c & _ & _ & [=])].
    + cbn [add_err p_errs] in H1. injection H1 as H1. change [(NoMatch, l')] with ([] ++ [(NoMatch, l')]) in H1. apply app_inj_tail in H1 as [_ [=]].
Qed.

(** The text and the list of what was tried, for a document that does not parse. *)
Lemma said_no_match d l : go_parse d = PErr [(NoMatch, l)] →
  ∃ m xs, x_parse d = XDone None m xs ∧ p_errs (x_st xs) = [] ∧ p_mf (x_st xs) = l ∧ fine (origin d) xs ∧ stopped xs.
Proof.
  intros Hd. destruct (x_parse_all d) as (r & m & xs & E). pose proof (λ x, x_parse_errs _ _ _ _ x E) as He.
  unfold go_parse, parse_with in Hd. rewrite (x_parse_done _ _ _ _ E) in Hd.
  destruct r as [v|].
  - destruct (p_errs (x_st xs)) as [|x errs] eqn:Ee; [done|]. injection Hd as -> ->. specialize (He _ (elem_of_list_here _ _)). done.
  - destruct (p_errs (x_st xs)) as [|x errs] eqn:Ee.
    + cbn [add_err p_errs] in Hd. rewrite Ee in Hd. injection Hd as Hl. exists m, xs. split; [done|]. split; [done|]. split; [done|].
      split; [by eapply x_parse_fine|]. eapply (x_halts _ (ERule RBooklit) eq_refl); [exact E|]. cbn [x_st]. unfold start_state, note_rune. by destruct (bad_rune _).
    + rewrite Ee in Hd. injection Hd as -> ->. specialize (He _ (elem_of_list_here _ _)). done.
Qed.
Lemma stop_listed xs : kept xs → stopped xs → ∃ t, t ∈ x_exp xs.
Proof.
  intros [H1 H2 H3] (y & Hy & Hs). destruct (x_exp xs) as [|t l] eqn:E; [|exists t; left].
  specialize (H3 eq_refl). specialize (H1 y Hy Hs). exists (called (y_inv y) (y_want y)). apply H2. exists y.
  split; [done|]. split; [done|]. split; [lia|done].
Qed.
Lemma origin_rest d c : reach (origin d) c → c_rest c = sdrop (c_off c) d.
Proof.
  intros H. apply reach_rest in H as [H _]. unfold origin in H. rewrite H, arrive_off, arrive_rest. f_equal. lia.
Qed.
Lemma said_texts d l : go_parse d = PErr [(NoMatch, l)] →
  ∃ texts s, error_said d = Some ("no match found, expected: " +:+ s) ∧ listing texts s ∧
    names texts (λ t, ∃ y, y ∈ tried d ∧ stops y ∧ y_off y = l_off l ∧ t = called (y_inv y) (y_want y)) ∧
    (∀ y, y ∈ tried d → stops y → y_off y ≤ l_off l).
Proof.
  intros Hd. destruct (said_no_match _ _ Hd) as (m & xs & E & Ee & El & [Hk Hh] & Hs). unfold error_said, tried. rewrite E, Ee.
  pose proof (listed_names (x_exp xs)) as Hn. destruct (stop_listed _ Hk Hs) as [t Ht].
  exists (listed (x_exp xs)), (list_join (listed (x_exp xs)) ", " "or"). split; [done|]. split; [|split].
  - apply list_join_listing. exact (names_nonempty _ _ _ Hn Ht).
  - eapply names_iff; [|exact Hn]. cbn beta. intros t'. rewrite (k_exp _ Hk), El. done.
  - intros y Hy Hst. rewrite <- El. by apply (k_far _ Hk).
Qed.
Lemma tried_honest d y : y ∈ tried d → y_off y ≤ String.length d ∧ (y_met y = true ↔ meets (y_want y) (sdrop (y_off y) d)).
Proof.
  unfold tried. destruct (x_parse_all d) as (r & m & xs & E). rewrite E. intros Hy. destruct (x_parse_fine _ _ _ _ E) as [_ Hh].
  destruct (Hh y Hy) as (c & Hc & -> & Hm). rewrite <- (origin_rest d c Hc). split; [|done].
  apply reach_left in Hc as [Hc _]. unfold left, origin in Hc. rewrite arrive_off, arrive_rest in Hc. lia.
Qed.
Lemma said_none d : error_said d = None ↔ ∃ v, go_parse d = PVal v.
Proof.
  destruct (x_parse_all d) as (r & m & xs & E). unfold error_said, go_parse, parse_with. rewrite E, (x_parse_done _ _ _ _ E).
  destruct r as [v|], (p_errs (x_st xs)) eqn:Ee; split; try done; try (by intros [? ?]); eauto.
Qed.
Lemma said_encoding d e l errs : go_parse d = PErr ((e, l) :: errs) → e ≠ NoMatch → error_said d = Some "invalid encoding".
Proof.
  destruct (x_parse_all d) as (r & m & xs & E). unfold error_said, go_parse, parse_with. rewrite E, (x_parse_done _ _ _ _ E).
  destruct r as [v|], (p_errs (x_st xs)) eqn:Ee; try done. cbn [add_err p_errs]. rewrite Ee. by intros [= <- <- <-].
Qed.

(** ** All that is tried is kept *)

Lemma goes_det e m st r m1 st1 r' m1' st1' : goes e m st r m1 st1 → goes e m st r' m1' st1' → r' = r ∧ m1' = m1 ∧ st1' = st1.
Proof.
  intros [n E] [n' E']. destruct (Nat.le_ge_cases n n') as [L|L]; pose proof (parse_deeper _ _ e m st L) as D.
  - rewrite E, E' in D. specialize (D ltac:(done)). by injection D as -> -> ->.
  - rewrite E, E' in D. specialize (D ltac:(done)). by injection D as -> -> ->.
Qed.
Lemma goes_x n e m xs r m' xs' : x_parse_expr n e m xs = XDone r m' xs' → goes e m (x_st xs) r m' (x_st xs').
Proof. intros E. exists n. by apply x_run. Qed.

Lemma look_seq_inv e l m st y : looks (ESeq (e :: l)) m st y →
  looks e m st y ∨ ∃ v m1 st1, goes e m st (Some v) m1 st1 ∧ looks (ESeq l) m1 st1 y.
Proof. inversion 1; subst; [by left|]. right. eauto. Qed.
Lemma look_choice_inv e l m st y : looks (EChoice (e :: l)) m st y →
  looks e [] st y ∨ ∃ m1 st1, goes e [] st None m1 st1 ∧ looks (EChoice l) m st1 y.
Proof. inversion 1; subst; [by left|]. right. eauto. Qed.
Lemma look_star_inv e m st y : looks (EStar e) m st y →
  looks e [] st y ∨ ∃ v m1 st1, goes e [] st (Some v) m1 st1 ∧ looks (EStar e) m st1 y.
Proof. inversion 1; subst; [by left|]. right. eauto. Qed.

Definition adds (Q : try → Prop) (xs xs' : xstate) : Prop :=
  ∃ new, x_log xs' = x_log xs ++ new ∧ ∀ y, y ∈ new ↔ Q y.
Definition logs (PX : expr → env → xstate → xres) (e : expr) : Prop :=
  ∀ m xs r m' xs', PX e m xs = XDone r m' xs' → adds (looks e m (x_st xs)) xs xs'.
Lemma adds_none (Q : try → Prop) xs : (∀ y, ¬ Q y) → adds Q xs xs.
Proof. intros H. exists []. split; [by rewrite app_nil_r|]. intros y. split; [by intros ?%elem_of_nil|by intros ?%H]. Qed.
Lemma adds_iff (Q Q' : try → Prop) xs xs' : (∀ y, Q y ↔ Q' y) → adds Q xs xs' → adds Q' xs xs'.
Proof. intros H (new & E & Hn). exists new. split; [done|]. intros y. by rewrite <- H. Qed.
Lemma adds_trans (Q1 Q2 Q : try → Prop) xs xs1 xs2 : (∀ y, Q y ↔ Q1 y ∨ Q2 y) → adds Q1 xs xs1 → adds Q2 xs1 xs2 → adds Q xs xs2.
Proof.
  intros H (n1 & E1 & H1) (n2 & E2 & H2). exists (n1 ++ n2). split; [by rewrite E2, E1, app_assoc|]. intros y. by rewrite elem_of_app, H, H1, H2.
Qed.
Lemma adds_log Q xs xs1 ys ys1 : x_log ys = x_log xs → x_log ys1 = x_log xs1 → adds Q xs xs1 → adds Q ys ys1.
Proof. intros E E1 (n & H & Hn). exists n. by rewrite E, E1. Qed.
Lemma adds_here b w xs xs1 : x_log xs1 = x_log xs → p_inv (x_st xs1) = p_inv (x_st xs) → (b = true ↔ meets w (c_rest (p_pt (x_st xs)))) →
  adds (here (x_st xs) w) xs (x_fail_at b (cur_loc (p_pt (x_st xs))) w xs1).
Proof.
  intros El Ei Hb. eexists. split; [cbn [x_fail_at x_log]; by rewrite El|]. intros y. rewrite elem_of_list_singleton, Ei. unfold here.
  split; [by intros ->|]. intros (H1 & H2 & H3 & H4). destruct y as [o i w' b']; cbn [y_off y_inv y_want y_met] in *. subst. f_equal; try done.
  destruct b, b'; try done; exfalso; [assert (false = true) by (apply H4, Hb; done)|assert (false = true) by (apply Hb, H4; done)]; done.
Qed.
Lemma lit_logs w s start xs o xs' :
  (has_prefix s (c_rest (p_pt (x_st xs))) = true ↔ meets (WLit w) (c_rest start)) → ascii_only s = true →
  x_lit_loop w s start xs = (o, xs') →
  (o = Some xs' ∧ x_log xs' = x_log xs ∧ p_inv (x_st xs') = p_inv (x_st xs) ∧ meets (WLit w) (c_rest start)) ∨
  (o = None ∧ ¬ meets (WLit w) (c_rest start) ∧ ∃ xs1, x_log xs1 = x_log xs ∧ p_inv (x_st xs1) = p_inv (x_st xs) ∧
     x_log xs' = x_log (x_fail_at false (cur_loc start) (WLit w) xs1)).
Proof.
  revert xs. induction s as [|a s IH]; intros xs Hm Ha; cbn [x_lit_loop].
  - intros [= <- <-]. left. split; [done|]. split; [done|]. split; [done|]. by apply Hm.
  - unfold ascii_only in Ha. cbn [sforall] in Ha. apply andb_true_iff in Ha as [Ha Has]. apply N.ltb_lt in Ha.
    destruct (N.eqb_spec (cur_rn (p_pt (x_st xs))) (byte a)) as [E|E].
    + apply cur_ascii in E as (b & r & Er & Hb & Hw); [|done]. apply byte_inj in Hb as ->. intros H.
      apply IH in H; [|cbn [x_on x_st]; rewrite pt_read, next_rest, Hw, Er; rewrite Er in Hm; cbn [has_prefix] in Hm; rewrite Ascii.eqb_refl in Hm; exact Hm|done].
      cbn [x_on x_st x_log] in H. by rewrite inv_read in H.
    + intros [= <- <-]. right. split; [done|]. split; [|by exists xs]. rewrite <- Hm.
      destruct (c_rest (p_pt (x_st xs))) as [|b r] eqn:Er; [done|]. cbn [has_prefix]. destruct (Ascii.eqb_spec a b) as [<-|]; [|done].
      exfalso. apply E. by eapply cur_rn_ascii.
Qed.
Lemma seq_logs n l : (∀ e, e ∈ l → logs (x_parse_expr n) e) → ∀ pt acc m xs r m' xs',
  x_seq_loop (x_parse_expr n) pt l acc m xs = XDone r m' xs' → adds (looks (ESeq l) m (x_st xs)) xs xs'.
Proof.
  intros HP. induction l as [|e l IH]; intros pt acc m xs r m' xs'; cbn [x_seq_loop].
  { intros [= <- <- <-]. apply adds_none. intros y H. inversion H. }
  destruct (x_parse_expr n e m xs) as [| |[v|] m1 xs1] eqn:E; try done; pose proof (goes_x _ _ _ _ _ _ _ E) as G;
    apply HP in E; try (by left).
  - intros H. apply IH in H; [|intros; apply HP; by right]. eapply adds_trans, H; [|exact E]. intros y. split.
    + intros [?|(? & ? & ? & G' & ?)]%look_seq_inv; [by left|]. destruct (goes_det _ _ _ _ _ _ _ _ _ G G') as (_ & -> & ->). by right.
    + intros [?|?]; [by apply look_seq|by eapply look_seq_on].
  - intros [= <- <- <-]. eapply adds_log, adds_iff, E; [done|done|]. intros y. split; [by apply look_seq|].
    intros [?|(? & ? & ? & G' & ?)]%look_seq_inv; [done|]. by destruct (goes_det _ _ _ _ _ _ _ _ _ G G') as ([=] & _).
Qed.
Lemma choice_logs n l : (∀ e, e ∈ l → logs (x_parse_expr n) e) → ∀ m xs r m' xs',
  x_choice_loop (x_parse_expr n) l m xs = XDone r m' xs' → adds (looks (EChoice l) m (x_st xs)) xs xs'.
Proof.
  intros HP. induction l as [|e l IH]; intros m xs r m' xs'; cbn [x_choice_loop].
  { intros [= <- <- <-]. apply adds_none. intros y H. inversion H. }
  destruct (x_parse_expr n e [] xs) as [| |[v|] m1 xs1] eqn:E; try done; pose proof (goes_x _ _ _ _ _ _ _ E) as G;
    apply HP in E; try (by left).
  - intros [= <- <- <-]. eapply adds_iff, E. intros y. split; [by apply look_choice|].
    intros [?|(? & ? & G' & ?)]%look_choice_inv; [done|]. by destruct (goes_det _ _ _ _ _ _ _ _ _ G G') as ([=] & _).
  - intros H. apply IH in H; [|intros; apply HP; by right]. eapply adds_trans, H; [|exact E]. intros y. split.
    + intros [?|(? & ? & G' & ?)]%look_choice_inv; [by left|]. destruct (goes_det _ _ _ _ _ _ _ _ _ G G') as (_ & -> & ->). by right.
    + intros [?|?]; [by apply look_choice|by eapply look_choice_on].
Qed.
Lemma many_logs n e k : logs (x_parse_expr n) e → ∀ acc m xs r m' xs',
  x_many_loop (x_parse_expr n) k e acc xs = XDone r m' xs' → adds (looks (EStar e) m (x_st xs)) xs xs'.
Proof.
  intros HP. induction k as [|k IH]; intros acc m xs r m' xs'; cbn [x_many_loop]; [done|].
  destruct (x_parse_expr n e [] xs) as [| |[v|] m1 xs1] eqn:E; try done; pose proof (goes_x _ _ _ _ _ _ _ E) as G; apply HP in E.
  - intros H. apply (IH _ m) in H. eapply adds_trans, H; [|exact E]. intros y. split.
    + intros [?|(? & ? & ? & G' & ?)]%look_star_inv; [by left|]. destruct (goes_det _ _ _ _ _ _ _ _ _ G G') as (_ & -> & ->). by right.
    + intros [?|?]; [by apply look_star|by eapply look_star_on].
  - intros [= <- <- <-]. eapply adds_iff, E. intros y. split; [by apply look_star|].
    intros [?|(? & ? & ? & G' & ?)]%look_star_inv; [done|]. by destruct (goes_det _ _ _ _ _ _ _ _ _ G G') as ([=] & _).
Qed.
Ltac by_one IH C := eapply adds_log, adds_iff, IH; [done|done|]; intros y; split; [by apply C|by inversion 1].
Lemma x_logs n e : fit e = true → logs (x_parse_expr n) e.
Proof.
  revert e. induction n as [|n IH]; intros e He m xs r m' xs'; [done|].
  cbn [x_parse_expr]. unfold x_parse_body. destruct e as [a e|l|l|x e|e|e|e|e|q|s|k|]; cbn [fit] in He; intros E.
  - destruct (x_parse_expr n e m xs) as [| |[v|] m1 xs1] eqn:E1; try done; apply IH in E1; try done.
    + destruct (run_action _ _ _ _ _) as [[w|] s]; [|done]. injection E as <- <- <-. by_one E1 look_act.
    + injection E as <- <- <-. by_one E1 look_act.
  - eapply seq_logs, E. intros e' He'. apply IH. by eapply fit_in.
  - apply andb_true_iff in He as [_ He]. eapply choice_logs, E. intros e' He'. apply IH. by eapply fit_in.
  - destruct (x_parse_expr n e [] xs) as [| |[v|] m1 xs1] eqn:E1; try done; apply IH in E1; try done; injection E as <- <- <-; by_one E1 look_lab.
  - apply andb_true_iff in He as [_ He]. destruct (x_parse_expr n e [] _) as [| |o m1 xs1] eqn:E1; try done. apply IH in E1; [|done].
    injection E as <- <- <-. by_one E1 look_not.
  - destruct (x_parse_expr n e [] xs) as [| |o m1 xs1] eqn:E1; try done; apply IH in E1; try done; injection E as <- <- <-; by_one E1 look_opt.
  - destruct (x_many_loop _ _ _ _ _) as [| |o m1 xs1] eqn:E1; try done. injection E as <- <- <-. eapply many_logs, E1. by apply IH.
  - destruct (x_many_loop _ _ _ _ _) as [| |o m1 xs1] eqn:E1; try done. assert (xs1 = xs') as <- by (repeat case_match; congruence).
    apply (many_logs n e _ (IH e He) _ m) in E1. by_one E1 look_plus.
  - destruct (x_parse_expr n _ [] xs) as [| |o m1 xs1] eqn:E1; try done; apply IH in E1; [|apply rule_fit]. injection E as <- <- <-. by_one E1 look_rule.
  - destruct (x_lit_loop _ _ _ _) as [o xs1] eqn:E1. apply lit_logs in E1; [|cbn [meets]; apply has_prefix_spec|done].
    destruct E1 as [(-> & El & Ei & Hm)|(-> & Hm & xs2 & El & Ei & Ex)]; injection E as <- <- <-.
    + eapply adds_iff; [|apply adds_here; [exact El|exact Ei|by split]]. intros y. split; [by apply look_lit|by inversion 1].
    + eapply adds_log; [reflexivity|exact Ex|]. eapply adds_iff; [|apply adds_here; [exact El|exact Ei|by split]]. intros y. split; [by apply look_lit|by inversion 1].
  - pose proof (class_meets k (p_pt (x_st xs)) He) as K.
    assert (∀ y, here (x_st xs) (WClass k) y ↔ looks (EClass k) m (x_st xs) y) as Hl by (intros y; split; [by apply look_class|by inversion 1]).
    destruct (at_end _) eqn:Ea; [|destruct (class_match _ _) eqn:Ec]; injection E as <- <- <-; (eapply adds_iff; [exact Hl|]).
    + apply adds_here; [done|done|]. split; [done|]. intros M. by apply K in M as [_ ?].
    + apply adds_here; [done|cbn [x_on x_st]; apply inv_read|]. split; [|done]. intros _. by apply K.
    + apply adds_here; [done|done|]. split; [done|]. intros M. by apply K in M as [? _].
  - pose proof (any_meets (p_pt (x_st xs))) as K.
    assert (∀ y, here (x_st xs) WAny y ↔ looks EAny m (x_st xs) y) as Hl by (intros y; split; [by apply look_any|by inversion 1]).
    destruct (at_end _) eqn:Ea; injection E as <- <- <-; (eapply adds_iff; [exact Hl|]).
    + apply adds_here; [done|done|]. split; [done|]. intros M. by apply K in M.
    + apply adds_here; [done|cbn [x_on x_st]; apply inv_read|]. split; [|done]. intros _. by apply K.
Qed.
Lemma tried_looks d y : y ∈ tried d ↔ looks (ERule RBooklit) [] (start_state d) y.
Proof.
  unfold tried. destruct (x_parse_all d) as (r & m & xs & E). rewrite E. destruct (x_logs _ (ERule RBooklit) eq_refl _ _ _ _ _ E) as (new & En & Hn).
  cbn [x_log x_st app] in *. rewrite En. apply Hn.
Qed.
