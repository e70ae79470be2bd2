(** The parser terminates: no loop runs over a body that matches without
    consuming, no rule calls itself without consuming, and the recursion depth is
    linear in the length of the input. *)
From Coq Require Import Ascii String NArith Lia.
From stdpp Require Import base tactics relations strings numbers list.
From Verif Require Import GoBase Ast Utf8 Peg StrProofs PegBase.
Local Open Scope string_scope.
Local Open Scope list_scope.

(** ** Expressions that consume when they match *)

Section Eats.
  Variable R : rule → bool.
  Fixpoint eats_in (e : expr) : bool :=
    match e with
    | EAct _ e | ELab _ e | EPlus e => eats_in e
    | ESeq l => existsb eats_in l
    | EChoice l => forallb eats_in l
    | ENot _ | EOpt _ | EStar _ => false
    | ERule r => R r
    | ELit s => negb (String.eqb s "")
    | EClass _ | EAny => true
    end.
End Eats.

Definition rule_eats (r : rule) : bool :=
  match r with
  | RVerbatimLine | REmptyArg | RIndent => false
  | _ => true
  end.
Definition eats : expr → bool := eats_in rule_eats.

Lemma rule_eats_ok r : rule_eats r = true → eats (rule_expr r) = true.
Proof. by destruct r. Qed.

Definition eating (P : expr → env → pstate → res) (e : expr) : Prop :=
  ∀ m st v m' st', eats e = true → P e m st = RDone (Some v) m' st' → left (p_pt st') < left (p_pt st).

Lemma seq_loop_eats P pt l : Forall (eating P) l → Forall (moving P) l → ∀ acc m st v m' st',
  existsb eats l = true → seq_loop P pt l acc m st = RDone (Some v) m' st' →
  left (p_pt st') < left (p_pt st).
Proof.
  induction l as [|e l IH]; intros He Hm acc m st v m' st'; simpl; [done|].
  inversion He as [|? ? He1 He2]; subst. inversion Hm as [|? ? Hm1 Hm2]; subst.
  destruct (P e m st) as [| |[w|] m1 st1] eqn:E; try done.
  intros Hx H. pose proof (Hm1 _ _ _ _ _ E) as [Hr _]. apply reach_le in Hr.
  destruct (eats e) eqn:Ee.
  - specialize (He1 _ _ _ _ _ Ee E).
    assert (left (p_pt st') ≤ left (p_pt st1)); [|lia].
    clear -H Hm2. revert H. generalize (acc ++ [w]). clear acc w. revert m1 st1.
    induction Hm2 as [|e l Hm _ IH]; intros m1 st1 acc; simpl; [by intros [= <- <- <-]|].
    destruct (P e m1 st1) as [| |[w|] m2 st2] eqn:E; try done. intros H.
    apply IH in H. apply Hm in E as [E _]. apply reach_le in E. lia.
  - simpl in Hx. apply IH in H; [lia|done|done|done].
Qed.

Lemma choice_loop_eats P l : Forall (eating P) l → Forall (moving P) l → ∀ m st v m' st',
  forallb eats l = true → choice_loop P l m st = RDone (Some v) m' st' →
  left (p_pt st') < left (p_pt st).
Proof.
  induction l as [|e l IH]; intros He Hm m st v m' st'; simpl; [done|].
  inversion He as [|? ? He1 He2]; subst. inversion Hm as [|? ? Hm1 Hm2]; subst.
  rewrite andb_true_iff. intros [Hx Hxs].
  destruct (P e [] st) as [| |[w|] m1 st1] eqn:E; try done.
  - intros [= <- <- <-]. by eapply He1.
  - intros H. apply IH in H; [|done|done|done]. apply Hm1 in E as [_ E]. rewrite E in H; done.
Qed.

Lemma many_loop_eats P e k : eating P e → moving P e → ∀ acc st r m' st', eats e = true →
  many_loop P k e acc st = RDone r m' st' → ∃ l, r = Some (VList (acc ++ l)) ∧
  (l ≠ [] → left (p_pt st') < left (p_pt st)).
Proof.
  intros He Hm. induction k as [|k IH]; intros acc st r m' st' Ee; simpl; [done|].
  destruct (P e [] st) as [| |[v|] m1 st1] eqn:E; try done.
  - intros H. pose proof (He _ _ _ _ _ Ee E) as Hlt.
    pose proof (many_loop_moves _ _ _ Hm _ _ _ _ _ H) as [Hr _]. apply reach_le in Hr.
    apply IH in H as (l & -> & _); [|done].
    exists (v :: l). split; [by rewrite <- (assoc_L (++))|]. intros _. lia.
  - intros [= <- <- <-]. exists []. rewrite app_nil_r. done.
Qed.

Lemma Forall_forallb {A} (f : A → bool) (P : A → Prop) l :
  (∀ x, f x = true → P x) → forallb f l = true → Forall P l.
Proof.
  intros H. induction l as [|x l IH]; simpl; [done|]. rewrite andb_true_iff. intros [H1 H2]. auto.
Qed.

Lemma parse_eats n e : lits_ascii e = true → eating (parse_expr n) e.
Proof.
  revert e. induction n as [|n IH]; intros e Hl m st v m' st' He; [done|].
  change (parse_expr (S n) e m st) with (parse_body (parse_expr n) e m st). unfold parse_body.
  destruct e as [a e|l|l|x e|e|e|e|e|q|s|k|]; simpl in Hl.
  - destruct (parse_expr n e m st) as [| |[w|] m1 st1] eqn:E; try done.
    destruct (run_action _ _ _ _ _) as [[u|] s]; [|done]. intros [= <- <- <-].
    by apply (IH _ Hl) in E.
  - intros H. eapply seq_loop_eats, H; [| |exact He];
      (eapply Forall_forallb, Hl; intros; [by apply IH || by apply parse_moves]).
  - intros H. eapply choice_loop_eats, H; [| |exact He];
      (eapply Forall_forallb, Hl; intros; [by apply IH || by apply parse_moves]).
  - destruct (parse_expr n e [] st) as [| |[w|] m1 st1] eqn:E; try done.
    intros [= <- <- <-]; by apply (IH _ Hl) in E.
  - done.
  - done.
  - done.
  - destruct (many_loop _ _ _ _ _) as [| |o m1 st1] eqn:E; try done.
    eapply many_loop_eats in E as (l & -> & E2); [|by apply IH|by apply parse_moves|done].
    simpl. destruct l; [done|]. intros [= <- <- <-]. by apply E2.
  - destruct (parse_expr n _ [] st) as [| |o m1 st1] eqn:E; try done.
    intros [= -> <- <-]. apply IH in E; [done|apply rule_lits_ascii|by apply rule_eats_ok].
  - destruct (lit_loop _ _ _) as [o st1] eqn:E. apply lit_loop_pos in E; [|done|apply reach_refl].
    destruct o as [st2|]; [|done]. destruct E as (-> & E1 & E2 & _).
    intros [= <- <- <-]. rewrite pt_fail. unfold left. rewrite E2.
    destruct s as [|a s]; [done|]. simpl. rewrite slength_app. lia.
  - destruct (at_end (p_pt st)) eqn:Ee; [done|]. destruct (class_match _ _); [|done].
    intros [= <- <- <-]. rewrite pt_fail, pt_read. apply step_left. split; [|done].
    by apply class_end.
  - destruct (at_end (p_pt st)) eqn:Ee; [done|].
    intros [= <- <- <-]. rewrite pt_fail, pt_read. apply step_left. split; [|done].
    by apply class_end.
Qed.

(** ** Depth of the recursion between two characters *)

Section Depth.
  Variable R : rule → nat.
  Fixpoint depth_in (e : expr) : nat :=
    match e with
    | EAct _ e | ELab _ e | EPlus e | ENot e | EOpt e | EStar e => S (depth_in e)
    | ESeq l =>
      S ((fix go l := match l with
                      | [] => 0
                      | e :: l => Nat.max (depth_in e) (if eats e then 0 else go l)
                      end) l)
    | EChoice l =>
      S ((fix go l := match l with [] => 0 | e :: l => Nat.max (depth_in e) (go l) end) l)
    | ERule r => S (R r)
    | ELit _ | EClass _ | EAny => 1
    end.
End Depth.

Definition rule_depth : rule → nat :=
  Nat.iter 14 (λ f r, depth_in f (rule_expr r)) (λ _, 0).
Definition depth : expr → nat := depth_in rule_depth.
Definition seq_depth : list expr → nat :=
  fix go l := match l with [] => 0 | e :: l => Nat.max (depth e) (if eats e then 0 else go l) end.
Definition choice_depth : list expr → nat :=
  fix go l := match l with [] => 0 | e :: l => Nat.max (depth e) (go l) end.

(** Loops consume, and no expression is deeper than [depth_per_byte]. *)
Fixpoint sound (e : expr) : bool :=
  (depth e <=? depth_per_byte)%nat && lits_ascii e &&
  match e with
  | EAct _ e | ELab _ e | ENot e | EOpt e => sound e
  | EStar e | EPlus e => eats e && sound e
  | ESeq l | EChoice l => forallb sound l
  | ERule _ | ELit _ | EClass _ | EAny => true
  end.

Definition all_rules : list rule :=
  [RBooklit; RParagraphs; RLineBreak; RCommentSpacing; RParagraph; RLine; RWord;
   RComment; RInterpolated; RWrappedLine; RSplit; RString; RVerbatimString;
   RPreformattedBlockLine; RPreformattedBlock; RVerbatimLine; RVerbatimBlockLine;
   RVerbatimBlock; RInvoke; RVerbatimArg; RPreformattedArg; REmptyArg; RArg;
   RParaArg; RArgument; RIndent].
Lemma all_rules_in r : In r all_rules.
Proof. destruct r; simpl; tauto. Qed.

Lemma rules_checked :
  forallb (λ r, sound (rule_expr r) && (depth (rule_expr r) <=? rule_depth r)%nat) all_rules = true.
Proof. vm_compute. reflexivity. Qed.

Lemma rule_checked r : sound (rule_expr r) = true ∧ depth (rule_expr r) ≤ rule_depth r.
Proof.
  pose proof rules_checked as H. rewrite forallb_forall in H. specialize (H r (all_rules_in r)).
  apply andb_true_iff in H as [H1 H2]. by apply Nat.leb_le in H2.
Qed.

Lemma rule_depth_small : ∀ r, rule_depth r < 63.
Proof.
  assert (forallb (λ r, rule_depth r <? 63)%nat all_rules = true) as H by (vm_compute; reflexivity).
  intros r. rewrite forallb_forall in H. specialize (H r (all_rules_in r)). by apply Nat.ltb_lt in H.
Qed.
Global Opaque rule_depth.
Global Opaque depth_per_byte.

(** [n] is enough to parse [e] with [k] bytes left. *)
Definition enough (n k : nat) (e : expr) : Prop := depth_per_byte * k + depth e ≤ n.

Definition returns (P : expr → env → pstate → res) (n : nat) (e : expr) : Prop :=
  ∀ m st, enough n (left (p_pt st)) e → P e m st ≠ RDeep.

Lemma sound_small e : sound e = true → depth e ≤ depth_per_byte ∧ lits_ascii e = true.
Proof.
  intros H. assert ((depth e <=? depth_per_byte)%nat && lits_ascii e = true) as H'.
  { destruct e; cbn [sound] in H; apply andb_true_iff in H; apply H. }
  apply andb_true_iff in H' as [H1 H2]. by apply Nat.leb_le in H1.
Qed.

Lemma enough_less n k k' e : sound e = true → k' < k → depth_per_byte * k ≤ n → enough n k' e.
Proof. intros H%sound_small ? ?. unfold enough. nia. Qed.

Lemma seq_loop_returns P n pt l :
  Forall (λ e, sound e = true) l → Forall (returns P n) l → Forall (eating P) l → Forall (moving P) l →
  ∀ acc m st k, left (p_pt st) ≤ k → depth_per_byte * k ≤ n →
  (left (p_pt st) = k → depth_per_byte * k + seq_depth l ≤ n) →
  seq_loop P pt l acc m st ≠ RDeep.
Proof.
  induction l as [|e l IH]; intros Hs Hr He Hm acc m st k Hle Hn Hk; simpl; [done|].
  inversion Hs; inversion Hr as [|? ? Hr1 Hr2]; inversion He as [|? ? He1 He2]; inversion Hm as [|? ? Hm1 Hm2]; subst.
  assert (enough n (left (p_pt st)) e) as Hen.
  { destruct (decide (left (p_pt st) = k)) as [<-|].
    - specialize (Hk eq_refl). cbn [seq_depth] in Hk. unfold enough. lia.
    - eapply enough_less with k; [done|lia|done]. }
  specialize (Hr1 m st Hen).
  destruct (P e m st) as [| |[v|] m1 st1] eqn:E; try done.
  pose proof (Hm1 _ _ _ _ _ E) as [Hmv _]. apply reach_le in Hmv.
  apply (IH ltac:(done) Hr2 He2 Hm2 _ _ _ k); [lia|done|].
  intros Hk'. assert (left (p_pt st) = k) as Hst by lia. specialize (Hk Hst).
  cbn [seq_depth] in Hk. destruct (eats e) eqn:Ee.
  - specialize (He1 _ _ _ _ _ Ee E). lia.
  - fold seq_depth in Hk. lia.
Qed.

Lemma choice_loop_returns P n l : Forall (returns P n) l → Forall (moving P) l →
  ∀ m st, depth_per_byte * left (p_pt st) + choice_depth l ≤ n → choice_loop P l m st ≠ RDeep.
Proof.
  induction l as [|e l IH]; intros Hr Hm m st Hn; simpl; [done|].
  inversion Hr as [|? ? Hr1 Hr2]; inversion Hm as [|? ? Hm1 Hm2]; subst. cbn [choice_depth] in Hn.
  fold choice_depth in Hn.
  assert (enough n (left (p_pt st)) e) as Hen by (unfold enough; lia).
  specialize (Hr1 [] st Hen).
  destruct (P e [] st) as [| |[v|] m1 st1] eqn:E; try done.
  apply Hm1 in E as [_ E]. apply IH; [done|done|]. rewrite E by done. lia.
Qed.

Lemma many_loop_returns P n e : sound e = true → eats e = true → returns P n e → eating P e → moving P e →
  ∀ k acc st, enough n (left (p_pt st)) e → left (p_pt st) < k → many_loop P k e acc st ≠ RDeep.
Proof.
  intros Hs Ee Hr He Hm k. induction k as [|k IH]; intros acc st Hen Hk; simpl; [lia|].
  specialize (Hr [] st Hen). destruct (P e [] st) as [| |[v|] m1 st1] eqn:E; try done.
  pose proof (He _ _ _ _ _ Ee E) as Hlt. apply IH; [|lia]. unfold enough in *. nia.
Qed.

Lemma parse_returns n e : sound e = true → returns (parse_expr n) n e.
Proof.
  revert e. induction n as [|n IH]; intros e Hs m st Hen.
  { exfalso. unfold enough in Hen. assert (0 < depth e); [|lia]. destruct e; simpl; lia. }
  change (parse_expr (S n) e m st) with (parse_body (parse_expr n) e m st). unfold parse_body.
  pose proof (sound_small _ Hs) as [_ Hla].
  assert (∀ l, forallb sound l = true → Forall (λ e, sound e = true) l ∧ Forall (returns (parse_expr n) n) l ∧
    Forall (eating (parse_expr n)) l ∧ Forall (moving (parse_expr n)) l) as Hall.
  { intros l Hl. split_and!; eapply Forall_forallb, Hl; intros x Hx; [done|by apply IH| |];
      apply sound_small in Hx as [_ ?]; [by apply parse_eats|by apply parse_moves]. }
  unfold enough in Hen.
  destruct e as [a e|l|l|x e|e|e|e|e|q|s|k|]; cbn [sound] in Hs; apply andb_true_iff in Hs as [_ Hs].
  - specialize (IH _ Hs m st). destruct (parse_expr n e m st) as [| |[v|] m1 st1] eqn:E; try done.
    + exfalso. apply IH; [|done]. unfold enough. cbn in Hen. fold depth in Hen. lia.
    + destruct (run_action _ _ _ _ _) as [[w|] s]; done.
  - apply Hall in Hs as (H1 & H2 & H3 & H4).
    change (depth (ESeq l)) with (S (seq_depth l)) in Hen.
    apply (seq_loop_returns _ n _ _ H1 H2 H3 H4 _ _ _ (left (p_pt st))); [done|lia|lia].
  - apply Hall in Hs as (H1 & H2 & H3 & H4).
    change (depth (EChoice l)) with (S (choice_depth l)) in Hen.
    apply (choice_loop_returns _ n); [done|done|lia].
  - specialize (IH _ Hs [] st). destruct (parse_expr n e [] st) as [| |[v|] m1 st1] eqn:E; try done.
    exfalso. apply IH; [|done]. unfold enough. cbn in Hen. fold depth in Hen. lia.
  - specialize (IH _ Hs [] (flip_inv st)). destruct (parse_expr n e [] _) as [| |o m1 st1] eqn:E; try done.
    exfalso. apply IH; [|done]. unfold enough. cbn in Hen. fold depth in Hen. rewrite pt_flip. lia.
  - specialize (IH _ Hs [] st). destruct (parse_expr n e [] st) as [| |[v|] m1 st1] eqn:E; try done.
    exfalso. apply IH; [|done]. unfold enough. cbn in Hen. fold depth in Hen. lia.
  - apply andb_true_iff in Hs as [Ee Hs]. pose proof (sound_small _ Hs) as [_ Hla'].
    pose proof (many_loop_returns (parse_expr n) n e Hs Ee (IH _ Hs) (parse_eats _ _ Hla') (parse_moves _ _ Hla')
      (rounds st) [] st) as H.
    destruct (many_loop _ _ _ _ _) as [| |o m1 st1] eqn:E; try done.
    exfalso. apply H; [|unfold rounds, left; lia|done]. unfold enough. cbn in Hen. fold depth in Hen. lia.
  - apply andb_true_iff in Hs as [Ee Hs]. pose proof (sound_small _ Hs) as [_ Hla'].
    pose proof (many_loop_returns (parse_expr n) n e Hs Ee (IH _ Hs) (parse_eats _ _ Hla') (parse_moves _ _ Hla')
      (rounds st) [] st) as H.
    destruct (many_loop _ _ _ _ _) as [| |o m1 st1] eqn:E; try done.
    + exfalso. apply H; [|unfold rounds, left; lia|done]. unfold enough. cbn in Hen. fold depth in Hen. lia.
    + destruct o as [[| |[|]| |]|]; done.
  - pose proof (rule_checked q) as [Hq1 Hq2].
    specialize (IH _ Hq1 [] st). destruct (parse_expr n _ [] st) as [| |[v|] m1 st1] eqn:E; try done.
    exfalso. apply IH; [|done]. unfold enough. cbn in Hen. lia.
  - destruct (lit_loop _ _ _) as [[?|] ?]; done.
  - repeat case_match; done.
  - repeat case_match; done.
Qed.

(** ** Enough depth changes nothing *)

Definition le_res (r r' : res) : Prop := r = RDeep ∨ r = r'.

Lemma parse_deeper n n' e m st : n ≤ n' → parse_expr n e m st ≠ RDeep →
  parse_expr n' e m st = parse_expr n e m st.
Proof.
  revert n' e m st. induction n as [|n IH]; intros n' e m st Hn; [done|].
  destruct n' as [|n']; [lia|].
  change (parse_expr (S n) e m st) with (parse_body (parse_expr n) e m st).
  change (parse_expr (S n') e m st) with (parse_body (parse_expr n') e m st).
  assert (∀ e m st, parse_expr n e m st ≠ RDeep → parse_expr n' e m st = parse_expr n e m st) as H
    by (intros; apply IH; [lia|done]).
  clear IH. revert H. generalize (parse_expr n) (parse_expr n'). clear n n' Hn.
  intros P P' H. unfold parse_body.
  assert (∀ k e acc st, many_loop P k e acc st ≠ RDeep → many_loop P' k e acc st = many_loop P k e acc st) as Hmany.
  { clear -H. intros k e. induction k as [|k IH]; intros acc st; simpl; [done|].
    specialize (H e [] st). destruct (P e [] st) as [| |[v|] m1 st1]; intros Hd; [done| | |];
      rewrite H by done; [done|by apply IH|done]. }
  destruct e as [a e|l|l|x e|e|e|e|e|q|s|k|].
  - specialize (H e m st). destruct (P e m st); [done|intros _; by rewrite H..].
  - generalize (p_pt st). intros pt. generalize (@nil val). revert m st.
    induction l as [|e l IH]; intros m st acc; simpl; [done|].
    specialize (H e m st). destruct (P e m st) as [| |[v|] m1 st1]; intros Hd; [done| | |];
      rewrite H by done; [done|by apply IH|done].
  - revert st. induction l as [|e l IH]; intros st; simpl; [done|].
    specialize (H e [] st). destruct (P e [] st) as [| |[v|] m1 st1]; intros Hd; [done| | |];
      rewrite H by done; [done|done|by apply IH].
  - specialize (H e [] st). destruct (P e [] st); [done|intros _; by rewrite H..].
  - specialize (H e [] (flip_inv st)). destruct (P e [] _); [done|intros _; by rewrite H..].
  - specialize (H e [] st). destruct (P e [] st); [done|intros _; by rewrite H..].
  - specialize (Hmany (rounds st) e [] st). destruct (many_loop P _ _ _ _); [done|intros _; by rewrite Hmany..].
  - specialize (Hmany (rounds st) e [] st). destruct (many_loop P _ _ _ _); [done|intros _; by rewrite Hmany..].
  - specialize (H (rule_expr q) [] st). destruct (P _ [] st); [done|intros _; by rewrite H..].
  - done.
  - done.
  - done.
Qed.
