(** Documents that agree up to where parsing fails: the parser does the same on
    both. *)
From Coq Require Import Ascii String NArith.
From stdpp Require Import base tactics relations strings list numbers.
From Verif Require Import GoBase StrProofs Ast Utf8 Peg PegBase PegErrs PegTotal ParserMain.
Local Open Scope string_scope.
Local Open Scope list_scope.

(** ** Failures are recorded *)

(** What is negated in the grammar is a terminal. *)
Definition is_terminal (e : expr) : bool :=
  match e with ELit _ | EAny => true | _ => false end.
Fixpoint tame (e : expr) : bool :=
  match e with
  | EAct _ e | ELab _ e | EOpt e | EStar e | EPlus e => tame e
  | ENot e => is_terminal e && tame e
  | ESeq l => forallb tame l
  | EChoice l => match l with [] => false | _ => forallb tame l end
  | ELit s => ascii_only s && Nat.leb (String.length s) 3
  | ERule _ | EClass _ | EAny => true
  end.
Lemma rule_tame r : tame (rule_expr r) = true.
Proof. by destruct r. Qed.
Lemma tame_ascii e : tame e = true → lits_ascii e = true.
Proof.
  revert e. fix IH 1. intros e. destruct e as [a e|l|l|x e|e|e|e|e|q|s|k|]; simpl; try apply IH; try done.
  - induction l as [|e l IHl]; simpl; [done|]. intros [H1 H2]%andb_true_iff. rewrite (IH _ H1). by apply IHl.
  - assert (forallb tame l = true → forallb lits_ascii l = true) as H.
    { induction l as [|e l IHl]; simpl; [done|]. intros [H1 H2]%andb_true_iff. rewrite (IH _ H1). by apply IHl. }
    destruct l; [done|exact H].
  - intros [_ H]%andb_true_iff. by apply IH.
  - by intros [H _]%andb_true_iff.
Qed.

Notation mfo st := (l_off (p_mf st)).
Notation off st := (c_off (p_pt st)).

Lemma mf_fail b l st : mfo st ≤ mfo (fail_at b l st) ∧ p_inv (fail_at b l st) = p_inv st ∧
  (b = p_inv st → l_off l ≤ mfo (fail_at b l st)).
Proof.
  unfold fail_at. destruct (Bool.eqb b (p_inv st)) eqn:E.
  - destruct (Nat.ltb_spec (mfo st) (l_off l)); simpl; split_and!; auto; lia.
  - split_and!; [done|done|]. intros ->. by rewrite eqb_reflx in E.
Qed.
Lemma mf_read st : p_mf (read st) = p_mf st ∧ p_inv (read st) = p_inv st.
Proof. unfold read, note_rune. by destruct (bad_rune _). Qed.
Lemma mf_restore st c : p_mf (restore st c) = p_mf st ∧ p_inv (restore st c) = p_inv st.
Proof. unfold restore. by destruct (Nat.eqb _ _). Qed.

(** Never forgets, and a mismatch leaves a mark at or after where it began. *)
Definition marks (P : expr → env → pstate → res) (e : expr) : Prop :=
  ∀ m st r m' st', P e m st = RDone r m' st' →
    mfo st ≤ mfo st' ∧ p_inv st' = p_inv st ∧ (r = None → p_inv st = false → off st ≤ mfo st').

Lemma reach_off c c' : reach c c' → c_off c ≤ c_off c'.
Proof. intros H. pose proof (reach_left _ _ H) as [H1 _]. pose proof (reach_le _ _ H). lia. Qed.

Lemma lit_marks s start st o st' : lit_loop s start st = (o, st') →
  mfo st ≤ mfo st' ∧ p_inv st' = p_inv st ∧ (o = None → p_inv st = false → c_off start ≤ mfo st') ∧
  (∀ x, o = Some x → x = st').
Proof.
  revert st. induction s as [|a s IH]; intros st; simpl.
  - intros [= <- <-]. split_and!; [done|done|done|congruence].
  - destruct (N.eqb _ _).
    + intros H. apply IH in H. by rewrite (proj1 (mf_read st)), (proj2 (mf_read st)) in H.
    + intros [= <- <-]. destruct (mf_restore (fail_at false (cur_loc start) st) start) as [-> ->].
      destruct (mf_fail false (cur_loc start) st) as (H1 & H2 & H3). split_and!; [done|done| |done].
      intros _ Hi. by apply H3.
Qed.

Lemma terminal_marks P e m st v m' st' : is_terminal e = true → parse_body P e m st = RDone (Some v) m' st' → p_inv st = true →
  off st ≤ mfo st'.
Proof.
  intros He H Hi. destruct e; try done; simpl in H.
  - destruct (lit_loop s (p_pt st) st) as [[x|] st1] eqn:E; [|done]. apply lit_marks in E as (_ & Hinv & _ & Hx).
    specialize (Hx _ eq_refl) as ->. injection H as <- <- <-.
    apply (proj2 (proj2 (mf_fail true (cur_loc (p_pt st)) st1))). congruence.
  - destruct (at_end _); [done|]. injection H as <- <- <-.
    apply (proj2 (proj2 (mf_fail true (cur_loc (p_pt st)) (read st)))). by rewrite (proj2 (mf_read st)).
Qed.

Lemma seq_marks P pt l : (∀ e, e ∈ l → marks P e ∧ moving P e) → ∀ acc m st r m' st',
  seq_loop P pt l acc m st = RDone r m' st' →
  mfo st ≤ mfo st' ∧ p_inv st' = p_inv st ∧ (r = None → p_inv st = false → off st ≤ mfo st') ∧
  (r ≠ None → off st ≤ off st').
Proof.
  induction l as [|e l IH]; intros HP acc m st r m' st'; simpl.
  - intros [= <- <- <-]. split_and!; done.
  - destruct (HP e) as [HM HV]; [left|]. destruct (P e m st) as [| |[v|] m1 st1] eqn:E; try done.
    + pose proof (HV _ _ _ _ _ E) as [Hr%reach_off _]. apply HM in E as (E1 & E2 & _).
      intros H. apply IH in H as (H1 & H2 & H3 & H4); [|intros; apply HP; by right].
      rewrite E2 in H2, H3. split_and!; [lia|done| |].
      * intros Hn Hi. specialize (H3 Hn Hi). lia.
      * intros Hn. specialize (H4 Hn). lia.
    + intros [= <- <- <-]. apply HM in E as (E1 & E2 & E3). rewrite (proj1 (mf_restore _ _)), (proj2 (mf_restore _ _)).
      split_and!; auto. done.
Qed.

Lemma choice_marks P l : l ≠ [] → (∀ e, e ∈ l → marks P e ∧ moving P e) → ∀ m st r m' st',
  choice_loop P l m st = RDone r m' st' →
  mfo st ≤ mfo st' ∧ p_inv st' = p_inv st ∧ (r = None → p_inv st = false → off st ≤ mfo st').
Proof.
  induction l as [|e l IH]; [done|]. intros _ HP m st r m' st'; simpl.
  destruct (HP e) as [HM HV]; [left|]. destruct (P e [] st) as [| |[v|] m1 st1] eqn:E; try done.
  - intros [= <- <- <-]. apply HM in E as (E1 & E2 & _). split_and!; done.
  - pose proof (HV _ _ _ _ _ E) as [_ Hp]. specialize (Hp eq_refl). apply HM in E as (E1 & E2 & E3).
    destruct l as [|e' l].
    + intros [= <- <- <-]. split_and!; auto.
    + intros H. apply IH in H as (H1 & H2 & H3); [|done|intros; apply HP; by right].
      rewrite E2 in H2, H3. rewrite Hp in H3. split_and!; [lia|done|done].
Qed.

Lemma many_marks P e k : marks P e → moving P e → ∀ acc st r m' st',
  many_loop P k e acc st = RDone r m' st' →
  mfo st ≤ mfo st' ∧ p_inv st' = p_inv st ∧ (p_inv st = false → off st ≤ mfo st').
Proof.
  intros HM HV. induction k as [|k IH]; intros acc st r m' st'; simpl; [done|].
  destruct (P e [] st) as [| |[v|] m1 st1] eqn:E; try done.
  - pose proof (HV _ _ _ _ _ E) as [Hr%reach_off _]. apply HM in E as (E1 & E2 & _).
    intros H. apply IH in H as (H1 & H2 & H3). rewrite E2 in H2, H3. split_and!; [lia|done|].
    intros Hi. specialize (H3 Hi). lia.
  - intros [= <- <- <-]. apply HM in E as (E1 & E2 & E3). split_and!; auto.
Qed.

Lemma parse_marks n e : tame e = true → marks (parse_expr n) e.
Proof.
  revert e. induction n as [|n IH]; intros e Ht m st r m' st'; [done|].
  assert (∀ e, tame e = true → moving (parse_expr n) e) as HV by (intros; by apply parse_moves, tame_ascii).
  change (parse_expr (S n) e m st) with (parse_body (parse_expr n) e m st). unfold parse_body.
  destruct e as [a e|l|l|x e|e|e|e|e|q|s|k|]; simpl in Ht.
  - destruct (parse_expr n e m st) as [| |[v|] m1 st1] eqn:E; try done.
    + apply (IH _ Ht) in E as (E1 & E2 & _). destruct (run_action _ _ _ _ _) as [[w|] s]; [|done].
      intros [= <- <- <-]. split_and!; done.
    + intros [= <- <- <-]. by apply (IH _ Ht) in E.
  - intros H. eapply seq_marks in H as (H1 & H2 & H3 & _); [done|].
    intros e He. assert (tame e = true) by (rewrite forallb_forall in Ht; by apply Ht, elem_of_list_In). auto.
  - assert (forallb tame l = true) as Hl by by destruct l.
    intros H. eapply choice_marks in H; [done|by intros ->|].
    intros e He. assert (tame e = true) by (rewrite forallb_forall in Hl; by apply Hl, elem_of_list_In). auto.
  - destruct (parse_expr n e [] st) as [| |[v|] m1 st1] eqn:E; try done;
      intros [= <- <- <-]; apply (IH _ Ht) in E as (E1 & E2 & E3); split_and!; auto; done.
  - apply andb_true_iff in Ht as [Hte Ht].
    destruct (parse_expr n e [] _) as [| |o m1 st1] eqn:E; try done. intros [= <- <- <-].
    pose proof (IH _ Ht _ _ _ _ _ E) as (E1 & E2 & _). simpl in E1, E2.
    rewrite (proj1 (mf_restore _ _)), (proj2 (mf_restore _ _)). simpl. split_and!; [done|by rewrite E2, negb_involutive|].
    destruct o as [v|]; [|done]. intros _ Hi. destruct n as [|n]; [done|].
    apply (terminal_marks _ _ _ _ _ _ _ Hte) in E; [done|]. simpl. by rewrite Hi.
  - destruct (parse_expr n e [] st) as [| |o m1 st1] eqn:E; try done.
    intros [= <- <- <-]. apply (IH _ Ht) in E as (E1 & E2 & _). split_and!; done.
  - destruct (many_loop _ _ _ _ _) as [| |o m1 st1] eqn:E; try done.
    apply many_marks in E as (E1 & E2 & E3); [|by apply IH|by apply HV]. intros [= <- <- <-]. split_and!; auto.
  - destruct (many_loop _ _ _ _ _) as [| |o m1 st1] eqn:E; try done.
    apply many_marks in E as (E1 & E2 & E3); [|by apply IH|by apply HV].
    destruct o as [[| |[|]| |]|]; intros [= <- <- <-]; split_and!; auto.
  - destruct (parse_expr n _ [] st) as [| |o m1 st1] eqn:E; try done.
    intros [= <- <- <-]. apply IH in E; [|apply rule_tame]. done.
  - destruct (lit_loop _ _ _) as [o st1] eqn:E. apply lit_marks in E as (E1 & E2 & E3 & E4). destruct o as [st2|].
    + specialize (E4 _ eq_refl) as ->. intros [= <- <- <-]. destruct (mf_fail true (cur_loc (p_pt st)) st1) as (H1 & H2 & _).
      split_and!; [lia|congruence|done].
    + intros [= <- <- <-]. split_and!; auto.
  - destruct (mf_fail false (cur_loc (p_pt st)) st) as (H1 & H2 & H3). destruct (mf_read st) as [R1 R2].
    destruct (mf_fail true (cur_loc (p_pt st)) (read st)) as (H1' & H2' & _). rewrite R1 in H1'. rewrite R2 in H2'.
    destruct (at_end (p_pt st)); [intros [= <- <- <-]; split_and!; auto|].
    destruct (class_match _ _); intros [= <- <- <-]; split_and!; auto. done.
  - destruct (mf_fail false (cur_loc (p_pt st)) st) as (H1 & H2 & H3). destruct (mf_read st) as [R1 R2].
    destruct (mf_fail true (cur_loc (p_pt st)) (read st)) as (H1' & H2' & _). rewrite R1 in H1'. rewrite R2 in H2'.
    destruct (at_end (p_pt st)); intros [= <- <- <-]; split_and!; auto. done.
Qed.

(** ** Twins *)

Lemma decode_prefix s s' : stake 4 s = stake 4 s' → decode_rune s = decode_rune s'.
Proof.
  intros H.
  destruct s as [|a [|b [|c [|d s]]]], s' as [|a' [|b' [|c' [|d' s']]]]; simpl in H; try discriminate H; try reflexivity;
    injection H; intros; subst; simpl; repeat case_match; try reflexivity; congruence.
Qed.
Lemma stake_stake a b s : a ≤ b → stake a (stake b s) = stake a s.
Proof.
  revert b s. induction a as [|a IH]; intros b s Hl; [done|]. destruct b as [|b]; [lia|].
  destruct s as [|x s]; simpl; [done|]. rewrite IH by lia. done.
Qed.
Lemma stake_less a b s s' : a ≤ b → stake b s = stake b s' → stake a s = stake a s'.
Proof. intros Hl H. rewrite <- (stake_stake a b s), <- (stake_stake a b s') by done. by rewrite H. Qed.
Lemma sdrop_stake a b s s' : stake (a + b) s = stake (a + b) s' → stake b (sdrop a s) = stake b (sdrop a s').
Proof.
  revert s s'. induction a as [|a IH]; intros s s'; [done|].
  destruct s as [|x s], s' as [|x' s']; simpl; [done|done|done|]. intros [= _ H]. by apply IH.
Qed.
Lemma decode_small s : snd (decode_rune s) ≤ 4.
Proof. unfold decode_rune. repeat case_match; simpl; lia. Qed.

Section Twin.
  (** Where the whole parse fails at the latest. *)
  Variable M : nat.

  (** The same place in two texts with the same continuation up to [M + 8]. *)
  Record twin_c (c c' : cursor) : Prop := TwinC {
    tc_line : c_line c = c_line c';
    tc_col : c_col c = c_col c';
    tc_off : c_off c = c_off c';
    tc_rest : stake (M + 8 - c_off c) (c_rest c) = stake (M + 8 - c_off c) (c_rest c') }.
  Record twin (st st' : pstate) : Prop := Twin {
    tw_pt : twin_c (p_pt st) (p_pt st');
    tw_errs : p_errs st = p_errs st';
    tw_mf : p_mf st = p_mf st';
    tw_inv : p_inv st = p_inv st';
    tw_store : p_store st = p_store st' }.

  Lemma twin_decode c c' : twin_c c c' → c_off c ≤ M + 4 → decode_rune (c_rest c) = decode_rune (c_rest c').
  Proof. intros T Ho. apply decode_prefix. eapply stake_less, tc_rest; [|exact T]. lia. Qed.
  Lemma twin_loc c c' : twin_c c c' → cur_loc c = cur_loc c'.
  Proof. intros [H1 H2 H3 _]. unfold cur_loc. by rewrite H1, H2, H3. Qed.
  Lemma twin_next c c' : twin_c c c' → c_off c ≤ M + 4 → c_off (next c) ≤ M + 4 → twin_c (next c) (next c').
  Proof.
    intros T Ho Hn. pose proof (twin_decode _ _ T Ho) as Hd. pose proof T as [H1 H2 H3 H4].
    rewrite next_off in Hn. unfold next, cur_w in *. rewrite <- Hd. rewrite <- H1, <- H2, <- H3.
    set (w := snd (decode_rune (c_rest c))) in *.
    assert (stake (M + 8 - (c_off c + w)) (sdrop w (c_rest c)) = stake (M + 8 - (c_off c + w)) (sdrop w (c_rest c'))) as Hs.
    { apply sdrop_stake. replace (w + (M + 8 - (c_off c + w))) with (M + 8 - c_off c) by lia. done. }
    assert (decode_rune (sdrop w (c_rest c)) = decode_rune (sdrop w (c_rest c'))) as Hd'.
    { apply decode_prefix. eapply stake_less, Hs. lia. }
    unfold arrive. rewrite <- Hd'. by destruct (_ =? _)%N.
  Qed.
  Lemma twin_end c c' : twin_c c c' → c_off c ≤ M + 4 → at_end c = at_end c'.
  Proof. intros T Ho. unfold at_end, cur_rn, cur_w. by rewrite (twin_decode _ _ T Ho). Qed.
  Lemma twin_slice c c' c1 c1' : twin_c c c' → twin_c c1 c1' → c_off c1 ≤ M + 8 → slice c c1 = slice c' c1'.
  Proof.
    intros T T1 Ho. unfold slice. rewrite <- (tc_off _ _ T), <- (tc_off _ _ T1). eapply stake_less, tc_rest; [|done]. lia.
  Qed.

  Lemma twin_fail b l st st' : twin st st' → twin (fail_at b l st) (fail_at b l st').
  Proof.
    intros [H1 H2 H3 H4 H5]. unfold fail_at. rewrite H3, H4. destruct (Bool.eqb _ _); [|by constructor].
    destruct (Nat.ltb _ _); by constructor.
  Qed.
  Lemma twin_read st st' : twin st st' → off st ≤ M + 4 → c_off (next (p_pt st)) ≤ M + 4 → twin (read st) (read st').
  Proof.
    intros T Ho Hn. pose proof (twin_next _ _ (tw_pt _ _ T) Ho Hn) as Tn. destruct T as [H1 H2 H3 H4 H5].
    unfold read, note_rune, bad_rune, cur_rn, cur_w. simpl. rewrite (twin_decode _ _ Tn Hn).
    destruct (_ && _); constructor; simpl; try done. by rewrite H2, (twin_loc _ _ Tn).
  Qed.
  Lemma twin_restore st st' c c' : twin st st' → twin_c c c' → twin (restore st c) (restore st' c').
  Proof.
    intros T Tc. unfold restore. rewrite <- (tc_off _ _ Tc), <- (tc_off _ _ (tw_pt _ _ T)).
    destruct (Nat.eqb _ _); [done|]. destruct T. by constructor.
  Qed.
  Lemma twin_flip st st' : twin st st' → twin (flip_inv st) (flip_inv st').
  Proof. intros []. constructor; simpl; congruence. Qed.
  Lemma twin_set st st' s : twin st st' → twin (set_store st s) (set_store st' s).
  Proof. intros []. by constructor. Qed.

  Lemma twin_lit s start start' st st' : ascii_only s = true → twin_c start start' → twin st st' →
    off st + String.length s ≤ M + 4 →
    match lit_loop s start st, lit_loop s start' st' with
    | (Some _, x), (Some _, x') | (None, x), (None, x') => twin x x'
    | _, _ => False
    end.
  Proof.
    revert st st'. induction s as [|a s IH]; intros st st' Ha Ts T Hl; simpl in *; [done|].
    unfold ascii_only in Ha. simpl in Ha. apply andb_true_iff in Ha as [Ha Hs]. apply N.ltb_lt in Ha.
    unfold cur_rn. rewrite <- (twin_decode _ _ (tw_pt _ _ T)) by lia.
    destruct (N.eqb_spec (fst (decode_rune (c_rest (p_pt st)))) (byte a)) as [E|E].
    - change (cur_rn (p_pt st) = byte a) in E. apply cur_ascii in E as (b & r & Er & Hb & Hw); [|done].
      apply IH; [done|done| |].
      + apply twin_read; [done|lia|]. rewrite next_off, Hw. lia.
      + rewrite pt_read, next_off, Hw. lia.
    - rewrite (twin_loc _ _ Ts). apply twin_restore; [|done]. by apply twin_fail.
  Qed.

  (** One is given up for depth, or both come to the same. *)
  Definition alike (r : option val) (m' : env) (s1 : pstate) (x : res) : Prop :=
    x = RDeep ∨ ∃ s1', x = RDone r m' s1' ∧ twin s1 s1'.

  Definition follows (P : expr → env → pstate → res) (e : expr) : Prop :=
    ∀ m st st' r m' s1, twin st st' → off st ≤ M → p_inv st = false → P e m st = RDone r m' s1 → mfo s1 ≤ M →
      alike r m' s1 (P e m st') ∨ (r ≠ None ∧ M < off s1).

  Lemma seq_follows P pt pt' l : (∀ e, e ∈ l → follows P e ∧ marks P e ∧ moving P e) → twin_c pt pt' →
    ∀ acc m st st' r m' s1, twin st st' → off st ≤ M → p_inv st = false →
      seq_loop P pt l acc m st = RDone r m' s1 → mfo s1 ≤ M →
      alike r m' s1 (seq_loop P pt' l acc m st') ∨ (r ≠ None ∧ M < off s1).
  Proof.
    intros HP Tp. induction l as [|e l IH]; intros acc m st st' r m' s1 T Ho Hi; simpl.
    - intros [= <- <- <-] _. left. right. by eexists.
    - destruct (HP e) as (HF & HM & HV); [left|].
      assert (∀ e, e ∈ l → marks P e ∧ moving P e) as HP' by (intros; split; apply HP; by right).
      destruct (P e m st) as [| |[v|] m1 st1] eqn:E; try done.
      + intros H Hm. pose proof (HM _ _ _ _ _ E) as (E1 & E2 & _). rewrite Hi in E2.
        pose proof (seq_marks P pt l HP' _ _ _ _ _ _ H) as (F1 & F2 & F3 & F4).
        destruct (HF _ _ _ _ _ _ T Ho Hi E) as [A|[_ Hfar]]; [lia| |].
        * destruct (decide (off st1 ≤ M)) as [Ho1|Hfar].
          -- destruct A as [->|(s1' & -> & T1)]; [by left; left|]. eapply IH; try done. intros; apply HP; by right.
          -- right. assert (r ≠ None) as Hr by (intros Hr; specialize (F3 Hr E2); lia). split; [done|].
             specialize (F4 Hr). lia.
        * right. assert (r ≠ None) as Hr by (intros Hr; specialize (F3 Hr E2); lia). split; [done|].
          specialize (F4 Hr). lia.
      + intros [= <- <- <-] Hm. rewrite (proj1 (mf_restore _ _)) in Hm.
        destruct (HF _ _ _ _ _ _ T Ho Hi E Hm) as [[->|(s1' & -> & T1)]|[? _]]; [by left; left| |done].
        left. right. eexists. split; [done|]. by apply twin_restore.
  Qed.

  Lemma choice_follows P l : (∀ e, e ∈ l → follows P e ∧ marks P e ∧ moving P e) →
    ∀ m st st' r m' s1, twin st st' → off st ≤ M → p_inv st = false →
      choice_loop P l m st = RDone r m' s1 → mfo s1 ≤ M →
      alike r m' s1 (choice_loop P l m st') ∨ (r ≠ None ∧ M < off s1).
  Proof.
    intros HP. induction l as [|e l IH]; intros m st st' r m' s1 T Ho Hi; simpl.
    - intros [= <- <- <-] _. left. right. by eexists.
    - destruct (HP e) as (HF & HM & HV); [left|].
      assert (∀ e, e ∈ l → marks P e ∧ moving P e) as HP' by (intros; split; apply HP; by right).
      destruct (P e [] st) as [| |[v|] m1 st1] eqn:E; try done.
      + intros [= <- <- <-] Hm. destruct (HF _ _ _ _ _ _ T Ho Hi E Hm) as [[->|(s1' & -> & T1)]|[_ ?]]; [by left; left| |by right].
        left. right. by eexists.
      + intros H Hm. pose proof (HM _ _ _ _ _ E) as (E1 & E2 & _). rewrite Hi in E2.
        pose proof (HV _ _ _ _ _ E) as [_ Hp]. specialize (Hp eq_refl).
        assert (mfo st1 ≤ M) as Hm1.
        { destruct l as [|e' l]; [by injection H as <- <- <-|].
          apply choice_marks in H as [? _]; [lia|done|done]. }
        destruct (HF _ _ _ _ _ _ T Ho Hi E Hm1) as [[->|(s1' & -> & T1)]|[? _]]; [by left; left| |done].
        eapply IH; try done; [intros; apply HP; by right|by rewrite Hp].
  Qed.

  Lemma many_follows P e k : follows P e → marks P e → moving P e →
    ∀ acc st st' r m' s1, twin st st' → off st ≤ M → p_inv st = false →
      many_loop P k e acc st = RDone r m' s1 → mfo s1 ≤ M →
      ∀ k', alike r m' s1 (many_loop P k' e acc st').
  Proof.
    intros HF HM HV. induction k as [|k IH]; intros acc st st' r m' s1 T Ho Hi; simpl; [done|].
    intros H Hm k'. destruct k' as [|k']; [by left|]. simpl.
    destruct (P e [] st) as [| |[v|] m1 st1] eqn:E; try done.
    - pose proof (HM _ _ _ _ _ E) as (E1 & E2 & _). rewrite Hi in E2.
      pose proof (many_marks P e k HM HV _ _ _ _ _ H) as (F1 & F2 & F3). specialize (F3 E2).
      destruct (HF _ _ _ _ _ _ T Ho Hi E) as [[->|(s1' & -> & T1)]|[_ ?]]; [lia|by left| |lia].
      eapply IH; try done. lia.
    - injection H as <- <- <-.
      destruct (HF _ _ _ _ _ _ T Ho Hi E Hm) as [[->|(s1' & -> & T1)]|[? _]]; [by left| |done].
      right. by eexists.
  Qed.

  (** Terminals look at the same characters, whether failures count or matches. *)
  Definition one_step (e : expr) : bool := match e with ELit _ | EClass _ | EAny => true | _ => false end.
  Lemma terminal_one e : is_terminal e = true → one_step e = true.
  Proof. by destruct e. Qed.
  Lemma terminal_follows P P' e m st st' r m' s1 : one_step e = true → tame e = true → twin st st' → off st ≤ M →
    parse_body P e m st = RDone r m' s1 → ∃ s1', parse_body P' e m st' = RDone r m' s1' ∧ twin s1 s1'.
  Proof.
    intros He Ht T Ho H. pose proof (tw_pt _ _ T) as Tp. destruct e; try done; simpl in *.
    - apply andb_true_iff in Ht as [Hs Hl]. apply Nat.leb_le in Hl.
      pose proof (twin_lit s _ _ st st' Hs Tp T ltac:(lia)) as HL. rewrite <- (twin_loc _ _ Tp).
      destruct (lit_loop s (p_pt st) st) as [o x] eqn:E1, (lit_loop s (p_pt st') st') as [o' x'] eqn:E2.
      apply lit_loop_pos in E1; [|done|apply reach_refl]. apply lit_loop_pos in E2; [|done|apply reach_refl].
      destruct o as [y|], o' as [y'|]; try done.
      + destruct E1 as (-> & Hr & Hrest & _). destruct E2 as (-> & _). injection H as <- <- <-.
        eexists. split; [|by apply twin_fail]. do 3 f_equal. symmetry. eapply twin_slice; [done|apply HL|].
        pose proof (reach_left _ _ Hr) as [H1 _]. unfold left in H1. rewrite Hrest, slength_app in H1. lia.
      + injection H as <- <- <-. by eexists.
    - assert (c_off (next (p_pt st)) ≤ M + 4) as Hn.
      { rewrite next_off. pose proof (decode_small (c_rest (p_pt st))). unfold cur_w. lia. }
      pose proof (twin_read _ _ T ltac:(lia) Hn) as Tr.
      rewrite <- (twin_end _ _ Tp) by lia. rewrite <- (twin_loc _ _ Tp). destruct (at_end (p_pt st)).
      { injection H as <- <- <-. eexists. split; [done|]. by apply twin_fail. }
      unfold cur_rn in *. rewrite <- (twin_decode _ _ Tp) by lia. destruct (class_match _ _).
      + injection H as <- <- <-.
        eexists. split; [|by apply twin_fail]. do 3 f_equal. symmetry. eapply twin_slice; [done|apply Tr|].
        rewrite pt_read. lia.
      + injection H as <- <- <-. eexists. split; [done|]. by apply twin_fail.
    - rewrite <- (twin_end _ _ Tp) by lia. rewrite <- (twin_loc _ _ Tp). destruct (at_end (p_pt st)).
      + injection H as <- <- <-. eexists. split; [done|]. by apply twin_fail.
      + injection H as <- <- <-. assert (c_off (next (p_pt st)) ≤ M + 4) as Hn.
        { rewrite next_off. pose proof (decode_small (c_rest (p_pt st))). unfold cur_w. lia. }
        pose proof (twin_read _ _ T ltac:(lia) Hn) as Tr.
        eexists. split; [|by apply twin_fail]. do 3 f_equal. symmetry. eapply twin_slice; [done|apply Tr|].
        rewrite pt_read. lia.
  Qed.

  Lemma parse_follows n e : tame e = true → follows (parse_expr n) e.
  Proof.
    revert e. induction n as [|n IH]; intros e Ht m st st' r m' s1 T Ho Hi; [done|].
    assert (∀ e, tame e = true → moving (parse_expr n) e) as HV by (intros; by apply parse_moves, tame_ascii).
    assert (∀ e, tame e = true → marks (parse_expr n) e) as HM by (intros; by apply parse_marks).
    pose proof (tw_pt _ _ T) as Tp.
    change (parse_expr (S n) e m st) with (parse_body (parse_expr n) e m st).
    change (parse_expr (S n) e m st') with (parse_body (parse_expr n) e m st').
    destruct (one_step e) eqn:Hte.
    { intros H Hm. left. right. eapply terminal_follows in H; done. }
    unfold parse_body.
    destruct e as [a e|l|l|x e|e|e|e|e|q|s|k|]; simpl in Ht; try done.
    - destruct (parse_expr n e m st) as [| |[v|] m1 st1] eqn:E; try done.
      + destruct (run_action _ _ _ _ _) as [[w|] s] eqn:Ea; [|done]. intros [= <- <- <-] Hm. simpl in Hm.
        destruct (IH _ Ht _ _ _ _ _ _ T Ho Hi E Hm) as [A|[_ ?]]; [|by right].
        destruct (decide (off st1 ≤ M)); [|right; split; [done|simpl; lia]].
        left. destruct A as [->|(s1' & -> & T1)]; [by left|]. right.
        rewrite <- (twin_loc _ _ Tp), <- (tw_store _ _ T1).
        rewrite <- (twin_slice _ _ _ _ Tp (tw_pt _ _ T1)) by lia. rewrite Ea.
        eexists. split; [done|]. by apply twin_set.
      + intros [= <- <- <-] Hm. destruct (IH _ Ht _ _ _ _ _ _ T Ho Hi E Hm) as [A|[? _]]; [|done].
        left. destruct A as [->|(s1' & -> & T1)]; [by left|]. right. by eexists.
    - intros H Hm. eapply seq_follows; try done.
      intros e He. assert (tame e = true) by (rewrite forallb_forall in Ht; by apply Ht, elem_of_list_In). auto.
    - assert (forallb tame l = true) as Hl by by destruct l. intros H Hm. eapply choice_follows; try done.
      intros e He. assert (tame e = true) by (rewrite forallb_forall in Hl; by apply Hl, elem_of_list_In). auto.
    - destruct (parse_expr n e [] st) as [| |[v|] m1 st1] eqn:E; try done; intros [= <- <- <-] Hm.
      + destruct (IH _ Ht _ _ _ _ _ _ T Ho Hi E Hm) as [[->|(s1' & -> & T1)]|[_ ?]]; [by left; left| |by right].
        left; right. by eexists.
      + destruct (IH _ Ht _ _ _ _ _ _ T Ho Hi E Hm) as [[->|(s1' & -> & T1)]|[? _]]; [by left; left| |done].
        left; right. by eexists.
    - apply andb_true_iff in Ht as [Hte' Ht]. destruct n as [|n]; [done|].
      destruct (parse_expr (S n) e [] (flip_inv st)) as [| |o m1 st1] eqn:E; try done. intros [= <- <- <-] Hm.
      change (parse_body (parse_expr n) e [] (flip_inv st) = RDone o m1 st1) in E.
      eapply (terminal_follows _ (parse_expr n)) in E as (s1' & E' & T1); [|by apply terminal_one|done|by apply twin_flip|done].
      change (parse_expr (S n) e [] (flip_inv st')) with (parse_body (parse_expr n) e [] (flip_inv st')). rewrite E'.
      left. right. eexists. split; [done|]. apply twin_restore; [by apply twin_flip|done].
    - destruct (parse_expr n e [] st) as [| |o m1 st1] eqn:E; try done; intros [= <- <- <-] Hm.
      destruct (IH _ Ht _ _ _ _ _ _ T Ho Hi E Hm) as [[->|(s1' & -> & T1)]|[_ ?]]; [by left; left| |by right].
      left; right. by eexists.
    - destruct (many_loop _ _ _ _ _) as [| |o m1 st1] eqn:E; try done. intros [= <- <- <-] Hm.
      destruct (many_follows _ e _ (IH _ Ht) (HM _ Ht) (HV _ Ht) _ _ _ _ _ _ T Ho Hi E Hm (rounds st')) as [->|(s1' & -> & T1)];
        [by left; left|]. left; right. by eexists.
    - destruct (many_loop _ _ _ _ _) as [| |o m1 st1] eqn:E; try done. intros H Hm.
      assert (st1 = s1) as -> by (by destruct o as [[| |[|]| |]|]; injection H).
      destruct (many_follows _ e _ (IH _ Ht) (HM _ Ht) (HV _ Ht) _ _ _ _ _ _ T Ho Hi E Hm (rounds st')) as [->|(s1' & -> & T1)];
        [by left; left|]. left; right.
      destruct o as [[| |[|]| |]|]; injection H as <- <-; by eexists.
    - destruct (parse_expr n _ [] st) as [| |o m1 st1] eqn:E; try done; intros [= <- <- <-] Hm.
      destruct (IH _ (rule_tame q) _ _ _ _ _ _ T Ho Hi E Hm) as [[->|(s1' & -> & T1)]|[? ?]]; [by left; left| |].
      + left; right. by eexists.
      + by right.
  Qed.
End Twin.

Lemma twin_start M d d' : stake (M + 8) d = stake (M + 8) d' → twin M (start_state d) (start_state d').
Proof.
  intros H. assert (decode_rune d = decode_rune d') as Hd by (apply decode_prefix; eapply stake_less, H; lia).
  assert (twin_c M (arrive 1 0 0 d) (arrive 1 0 0 d')) as T.
  { unfold arrive. rewrite Hd. destruct (_ =? _)%N; constructor; simpl; rewrite ?Nat.sub_0_r; done. }
  unfold start_state, note_rune, bad_rune, cur_rn, cur_w. simpl. rewrite !arrive_rest, Hd.
  destruct (_ && _); constructor; simpl; try done. by rewrite (twin_loc _ _ _ T).
Qed.

Lemma no_match_agrees d d' l : go_parse d = PErr [(NoMatch, l)] →
  stake (l_off l + 8) d = stake (l_off l + 8) d' → go_parse d' = PErr [(NoMatch, l)].
Proof.
  set (n := depth_for d + depth_for d'). intros H Hs.
  rewrite <- (parse_with_more n) in H by lia. rewrite <- (parse_with_more n) by lia.
  pose proof (parse_enough n d' ltac:(lia)) as Hd'. unfold parse_with in *.
  destruct (parse_expr n (ERule RBooklit) [] (start_state d)) as [|s1|r m' s1] eqn:E; [done| |].
  { exfalso. injection H as H. unfold add_err in H. simpl in H. destruct (p_errs s1) as [|? [|? ?]]; simplify_eq. }
  pose proof (parse_marks n (ERule RBooklit) eq_refl _ _ _ _ _ E) as (_ & _ & Hmk).
  assert (p_inv (start_state d) = false) as Hi by by (unfold start_state, note_rune; destruct (bad_rune _)).
  assert (r = None ∧ p_errs s1 = [] ∧ p_mf s1 = l) as (-> & He & Hl).
  { pose proof (parse_good (origin d) _ (ERule RBooklit) eq_refl _ _ _ _ _ E (start_good d)) as Hg.
    assert ((NoMatch, l) ∉ p_errs s1) as Hno.
    { intros Hin. destruct (g_errs _ _ Hg _ _ Hin) as (? & _). done. }
    destruct r as [v|].
    - destruct (p_errs s1) as [|x xs]; [done|]. exfalso. apply Hno. injection H as -> ->. left.
    - destruct (p_errs s1) as [|x xs] eqn:Ex.
      + simpl in H. rewrite Ex in H. simpl in H. by injection H as ->.
      + exfalso. apply Hno. rewrite Ex in H. injection H as -> ->. left. }
  assert (off (start_state d) ≤ l_off l) as Ho by (rewrite <- Hl; by apply Hmk).
  destruct (parse_follows (l_off l) n (ERule RBooklit) eq_refl [] _ _ None m' s1 (twin_start _ _ _ Hs) Ho Hi E) as [A|[? _]];
    [by rewrite Hl| |done].
  destruct A as [?|(s1' & -> & T)]; [done|].
  rewrite <- (tw_errs _ _ _ T), He. simpl. rewrite <- (tw_errs _ _ _ T), He, <- (tw_mf _ _ _ T), Hl. done.
Qed.
