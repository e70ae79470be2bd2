(** Positions of the parser: they only move forward, rune by rune, and a mismatch
    leaves the position where it was. *)
From Coq Require Import Ascii String NArith Lia.
From stdpp Require Import base tactics relations strings numbers list.
From Verif Require Import GoBase Ast Utf8 Peg StrProofs.
Local Open Scope string_scope.
Local Open Scope list_scope.

Global Arguments rounds : simpl never.

(** ** Runes *)

Lemma byte_lt c : (byte c < 256)%N.
Proof. apply N_ascii_bounded. Qed.

Lemma byte_inj a b : byte a = byte b → a = b.
Proof. intros H. rewrite <- (ascii_N_embedding a), <- (ascii_N_embedding b). unfold byte in H. by rewrite H. Qed.

Lemma lead_ascii a x : lead_of a = LAscii x → (x = byte a ∧ byte a < 128)%N.
Proof.
  unfold lead_of. destruct (N.ltb_spec (byte a) 128); [intros [= <-]; done|].
  repeat case_match; done.
Qed.

Lemma decode_ascii a r : (byte a < 128)%N → decode_rune (String a r) = (byte a, 1).
Proof.
  intros H. unfold decode_rune, lead_of. by apply N.ltb_lt in H as ->.
Qed.

(** A rune spans at least one byte and does not pass the end; the bytes of a rune
    wider than one byte, and the byte of an invalid rune, are not ASCII. *)
Definition high (c : ascii) : bool := (128 <=? byte c)%N.

Inductive decoded (a : ascii) (r : string) : N * nat → Prop :=
| dec_ascii : (byte a < 128)%N → decoded a r (byte a, 1)
| dec_bad : high a = true → decoded a r (rune_error, 1)
| dec_2 v b r' : high a = true → high b = true → r = String b r' → (128 <= v)%N → decoded a r (v, 2)
| dec_3 v b c r' : high a = true → high b = true → high c = true → r = String b (String c r') →
    (128 <= v)%N → decoded a r (v, 3)
| dec_4 v b c d r' : high a = true → high b = true → high c = true → high d = true →
    r = String b (String c (String d r')) → (128 <= v)%N → decoded a r (v, 4).

Lemma within_high lo hi c : (128 <= lo)%N → within lo hi c = true → high c = true.
Proof.
  unfold within, high. rewrite andb_true_iff, N.leb_le. intros Hlo [H _]. apply N.leb_le. lia.
Qed.
Lemma within_le lo hi c : within lo hi c = true → (lo <= byte c <= hi)%N.
Proof. unfold within. rewrite andb_true_iff, !N.leb_le. done. Qed.

Lemma decode_cases a r : decoded a r (decode_rune (String a r)).
Proof.
  unfold decode_rune, lead_of.
  destruct (N.ltb_spec (byte a) 128) as [H|H]; [by constructor|].
  assert (high a = true) as Ha by (apply N.leb_le; lia).
  destruct (N.ltb_spec (byte a) 194) as [H1|H1]; [by constructor|].
  destruct (N.ltb_spec (byte a) 224) as [H2|H2].
  { destruct r as [|b r]; [by constructor|]. destruct (within _ _ b) eqn:Hb; [|by constructor].
    eapply dec_2; [done|eapply within_high, Hb; done|done|]. lia. }
  destruct (N.eqb_spec (byte a) 224) as [H3|H3].
  { destruct r as [|b [|c r]]; [by constructor|by constructor|].
    destruct (_ && _) eqn:Hb; [|by constructor]. apply andb_true_iff in Hb as [Hb Hc].
    eapply dec_3; [done|eapply within_high, Hb; done|eapply within_high, Hc; done|done|].
    apply within_le in Hb. unfold low6. lia. }
  destruct (N.eqb_spec (byte a) 237) as [H4|H4].
  { destruct r as [|b [|c r]]; [by constructor|by constructor|].
    destruct (_ && _) eqn:Hb; [|by constructor]. apply andb_true_iff in Hb as [Hb Hc].
    eapply dec_3; [done|eapply within_high, Hb; done|eapply within_high, Hc; done|done|]. lia. }
  destruct (N.ltb_spec (byte a) 240) as [H5|H5].
  { destruct r as [|b [|c r]]; [by constructor|by constructor|].
    destruct (_ && _) eqn:Hb; [|by constructor]. apply andb_true_iff in Hb as [Hb Hc].
    eapply dec_3; [done|eapply within_high, Hb; done|eapply within_high, Hc; done|done|]. lia. }
  destruct (N.eqb_spec (byte a) 240) as [H6|H6].
  { destruct r as [|b [|c [|d r]]]; [by constructor|by constructor|by constructor|].
    destruct (_ && _) eqn:Hb; [|by constructor]. apply andb_true_iff in Hb as [Hb Hd].
    apply andb_true_iff in Hb as [Hb Hc].
    eapply dec_4; [done|eapply within_high, Hb; done|eapply within_high, Hc; done|eapply within_high, Hd; done|done|].
    apply within_le in Hb. unfold low6. lia. }
  destruct (N.ltb_spec (byte a) 244) as [H7|H7].
  { destruct r as [|b [|c [|d r]]]; [by constructor|by constructor|by constructor|].
    destruct (_ && _) eqn:Hb; [|by constructor]. apply andb_true_iff in Hb as [Hb Hd].
    apply andb_true_iff in Hb as [Hb Hc].
    eapply dec_4; [done|eapply within_high, Hb; done|eapply within_high, Hc; done|eapply within_high, Hd; done|done|]. lia. }
  destruct (N.eqb_spec (byte a) 244) as [H8|H8]; [|by constructor].
  destruct r as [|b [|c [|d r]]]; [by constructor|by constructor|by constructor|].
  destruct (_ && _) eqn:Hb; [|by constructor]. apply andb_true_iff in Hb as [Hb Hd].
  apply andb_true_iff in Hb as [Hb Hc].
  eapply dec_4; [done|eapply within_high, Hb; done|eapply within_high, Hc; done|eapply within_high, Hd; done|done|]. lia.
Qed.

Global Arguments decode_rune : simpl never.

Lemma decode_width a r : 1 ≤ snd (decode_rune (String a r)) ≤ S (String.length r).
Proof. destruct (decode_cases a r); subst; simpl; lia. Qed.

Lemma at_end_spec c : at_end c = true ↔ c_rest c = "".
Proof.
  unfold at_end, cur_rn, cur_w. destruct (c_rest c) as [|a r] eqn:E; [done|].
  pose proof (decode_width a r). split; [|done].
  rewrite andb_true_iff, Nat.eqb_eq. intros [_ H0]. lia.
Qed.

(** An ASCII rune is its byte. *)
Lemma cur_ascii c x : (x < 128)%N → cur_rn c = x →
  ∃ a r, c_rest c = String a r ∧ byte a = x ∧ cur_w c = 1.
Proof.
  unfold cur_rn, cur_w. intros Hx. destruct (c_rest c) as [|a r].
  - simpl. intros <-. done.
  - destruct (decode_cases a r); simpl; intros <-; try (unfold rune_error in Hx; lia). eauto.
Qed.

Lemma cur_rn_ascii c a r : c_rest c = String a r → (byte a < 128)%N → cur_rn c = byte a.
Proof. unfold cur_rn. intros -> H. by rewrite decode_ascii. Qed.
Lemma cur_w_ascii c a r : c_rest c = String a r → (byte a < 128)%N → cur_w c = 1.
Proof. unfold cur_w. intros -> H. by rewrite decode_ascii. Qed.
Lemma cur_rn_high c a r : c_rest c = String a r → high a = true → (128 <= cur_rn c)%N.
Proof.
  unfold cur_rn. intros -> H. unfold high in H. apply N.leb_le in H.
  destruct (decode_cases a r); simpl; try done; lia.
Qed.

(** ** Reading *)

Definition step (c c' : cursor) : Prop := c_rest c ≠ "" ∧ c' = next c.
Definition reach : cursor → cursor → Prop := rtc step.

Definition left (c : cursor) : nat := String.length (c_rest c).

Lemma sdrop_length n s : String.length (sdrop n s) = String.length s - n.
Proof. revert s. induction n as [|n IH]; intros [|a s]; simpl; [done|done|done|apply IH]. Qed.

Lemma arrive_rest l c o r : c_rest (arrive l c o r) = r.
Proof. unfold arrive. by case_match. Qed.
Lemma arrive_off l c o r : c_off (arrive l c o r) = o.
Proof. unfold arrive. by case_match. Qed.

Lemma next_rest c : c_rest (next c) = sdrop (cur_w c) (c_rest c).
Proof. apply arrive_rest. Qed.
Lemma next_off c : c_off (next c) = c_off c + cur_w c.
Proof. apply arrive_off. Qed.

Lemma cur_w_bounds c : c_rest c ≠ "" → 1 ≤ cur_w c ≤ left c.
Proof.
  unfold cur_w, left. destruct (c_rest c) as [|a r]; [done|]. intros _.
  pose proof (decode_width a r). simpl in *. lia.
Qed.

Lemma step_left c c' : step c c' → left c' < left c ∧ c_off c' + left c' = c_off c + left c.
Proof.
  intros [Hc ->]. pose proof (cur_w_bounds c Hc) as H. unfold left in *.
  rewrite next_rest, next_off, sdrop_length. lia.
Qed.

Lemma reach_left c c' : reach c c' → c_off c' + left c' = c_off c + left c ∧ (c' = c ∨ left c' < left c).
Proof.
  induction 1 as [|c c1 c' Hs _ [IH1 IH2]]; [auto|].
  apply step_left in Hs as [H1 H2]. split; [lia|]. right. destruct IH2 as [->|]; lia.
Qed.

Lemma reach_same c c' : reach c c' → c_off c' = c_off c → c' = c.
Proof. intros H E. apply reach_left in H as [H1 [->|H2]]; [done|]. lia. Qed.

Lemma reach_refl c : reach c c. Proof. apply rtc_refl. Qed.
Lemma reach_trans c1 c2 c3 : reach c1 c2 → reach c2 c3 → reach c1 c3. Proof. apply rtc_transitive. Qed.
Lemma reach_next c : c_rest c ≠ "" → reach c (next c).
Proof. intros H. by apply rtc_once. Qed.
Lemma reach_le c c' : reach c c' → left c' ≤ left c.
Proof. intros H. apply reach_left in H as [H1 [->|H2]]; lia. Qed.

Lemma step_fun c c1 c2 : step c c1 → step c c2 → c1 = c2.
Proof. intros [_ ->] [_ ->]. done. Qed.

(** Reachable positions are linearly ordered. *)
Lemma reach_linear c c1 c2 : reach c c1 → reach c c2 → left c2 ≤ left c1 → reach c1 c2.
Proof.
  intros H1. revert c2. induction H1 as [|c c' c1 Hs H IH]; intros c2 H2 Hl; [done|].
  inversion H2 as [|? c'' ? Hs2 H2']; subst.
  - exfalso. apply reach_le in H. apply step_left in Hs as [Hs _]. lia.
  - rewrite (step_fun _ _ _ Hs Hs2) in IH, H. by apply IH.
Qed.

(** ** The parts of the state *)

Lemma pt_note st : p_pt (note_rune st) = p_pt st.
Proof. unfold note_rune. by case_match. Qed.
Lemma pt_read st : p_pt (read st) = next (p_pt st).
Proof. unfold read. by rewrite pt_note. Qed.
Lemma pt_fail b l st : p_pt (fail_at b l st) = p_pt st.
Proof. unfold fail_at. by repeat case_match. Qed.
Lemma pt_flip st : p_pt (flip_inv st) = p_pt st. Proof. done. Qed.
Lemma pt_store st s : p_pt (set_store st s) = p_pt st. Proof. done. Qed.
Lemma pt_restore st c : reach c (p_pt st) → p_pt (restore st c) = c.
Proof.
  intros H. unfold restore. destruct (Nat.eqb_spec (c_off c) (c_off (p_pt st))) as [E|E]; [|done].
  by apply reach_same.
Qed.

Lemma store_note st : p_store (note_rune st) = p_store st.
Proof. unfold note_rune. by case_match. Qed.
Lemma store_read st : p_store (read st) = p_store st.
Proof. unfold read. by rewrite store_note. Qed.
Lemma store_fail b l st : p_store (fail_at b l st) = p_store st.
Proof. unfold fail_at. by repeat case_match. Qed.
Lemma store_restore st c : p_store (restore st c) = p_store st.
Proof. unfold restore. by case_match. Qed.

Lemma class_end c : at_end c = false → c_rest c ≠ "".
Proof. intros H E. apply at_end_spec in E. congruence. Qed.

(** ** Literals *)

Definition ascii_only (s : string) : bool := sforall (λ a, (byte a <? 128)%N) s.

Lemma lit_loop_pos s start st o st' : ascii_only s = true → reach start (p_pt st) →
  lit_loop s start st = (o, st') →
  match o with
  | Some st1 => st1 = st' ∧ reach (p_pt st) (p_pt st') ∧
      c_rest (p_pt st) = s +:+ c_rest (p_pt st') ∧ p_store st' = p_store st
  | None => p_pt st' = start ∧ p_store st' = p_store st ∧ has_prefix s (c_rest (p_pt st)) = false
  end.
Proof.
  revert st. induction s as [|a s IH]; intros st Ha Hr; simpl.
  - intros [= <- <-]. split_and!; auto using reach_refl.
  - unfold ascii_only in Ha. simpl in Ha. apply andb_true_iff in Ha as [Ha Hs]. apply N.ltb_lt in Ha.
    destruct (N.eqb_spec (cur_rn (p_pt st)) (byte a)) as [E|E].
    + apply cur_ascii in E as (b & r & Er & Hb & Hw); [|done]. apply byte_inj in Hb as ->.
      assert (reach (p_pt st) (next (p_pt st))) as Hn by (apply reach_next; rewrite Er; done).
      intros H. apply IH in H; [|done|rewrite pt_read; by eapply reach_trans].
      rewrite pt_read, store_read, next_rest, Hw, Er in H. simpl in H. rewrite Er. simpl.
      rewrite Ascii.eqb_refl. simpl.
      destruct o as [st1|]; [|done]. destruct H as (-> & H1 & H2 & H3). split_and!; [done| |by rewrite H2|done].
      by eapply reach_trans.
    + intros [= <- <-]. split_and!; [apply pt_restore; by rewrite pt_fail| |].
      { by rewrite store_restore, store_fail. }
      destruct (c_rest (p_pt st)) as [|b r] eqn:Er; [done|]. simpl.
      destruct (Ascii.eqb_spec a b) as [<-|]; [|done].
      exfalso. apply E. by eapply cur_rn_ascii.
Qed.

(** ** Expressions of the grammar only mention ASCII characters *)

Fixpoint lits_ascii (e : expr) : bool :=
  match e with
  | EAct _ e | ELab _ e | ENot e | EOpt e | EStar e | EPlus e => lits_ascii e
  | ESeq l | EChoice l => forallb lits_ascii l
  | ELit s => ascii_only s
  | ERule _ | EClass _ | EAny => true
  end.

Lemma rule_lits_ascii r : lits_ascii (rule_expr r) = true.
Proof. by destruct r. Qed.

(** ** Movement *)

Definition moves (st : pstate) (r : option val) (st' : pstate) : Prop :=
  reach (p_pt st) (p_pt st') ∧ (r = None → p_pt st' = p_pt st).

Definition moving (P : expr → env → pstate → res) (e : expr) : Prop :=
  ∀ m st r m' st', P e m st = RDone r m' st' → moves st r st'.

Lemma moves_refl st r : moves st r st. Proof. split; [apply reach_refl|done]. Qed.

Lemma seq_loop_moves P pt l : (∀ e, e ∈ l → moving P e) → ∀ acc m st r m' st',
  reach pt (p_pt st) → seq_loop P pt l acc m st = RDone r m' st' →
  (r = None → p_pt st' = pt) ∧ (r ≠ None → reach (p_pt st) (p_pt st')).
Proof.
  induction l as [|e l IH]; intros HP acc m st r m' st' Hr; simpl.
  - intros [= <- <- <-]. split; [done|]. intros _. apply reach_refl.
  - destruct (P e m st) as [| |[v|] m1 st1] eqn:E; try done.
    + apply HP in E as [E1 _]; [|left]. intros H. apply IH in H as [H1 H2];
        [|intros; apply HP; by right|by eapply reach_trans].
      split; [done|]. intros Hn. by eapply reach_trans, H2.
    + intros [= <- <- <-]. apply HP in E as [E1 E2]; [|left]. split; [|done]. intros _.
      apply pt_restore. by eapply reach_trans.
Qed.

Lemma choice_loop_moves P l : (∀ e, e ∈ l → moving P e) → ∀ m st r m' st',
  choice_loop P l m st = RDone r m' st' → moves st r st'.
Proof.
  induction l as [|e l IH]; intros HP m st r m' st'; simpl.
  - intros [= <- <- <-]. apply moves_refl.
  - destruct (P e [] st) as [| |[v|] m1 st1] eqn:E; try done.
    + intros [= <- <- <-]. apply HP in E; [done|left].
    + apply HP in E as [E1 E2]; [|left]. specialize (E2 eq_refl). intros H.
      apply IH in H as [H1 H2]; [|intros; apply HP; by right]. rewrite E2 in *. done.
Qed.

Lemma many_loop_moves P e k : moving P e → ∀ acc st r m' st',
  many_loop P k e acc st = RDone r m' st' →
  reach (p_pt st) (p_pt st') ∧ ∃ l, r = Some (VList (acc ++ l)) ∧ (l = [] → p_pt st' = p_pt st).
Proof.
  intros HP. induction k as [|k IH]; intros acc st r m' st'; simpl; [done|].
  destruct (P e [] st) as [| |[v|] m1 st1] eqn:E; try done.
  - apply HP in E as [E1 _]. intros H. apply IH in H as (H1 & l & -> & H2).
    split; [by eapply reach_trans|]. exists (v :: l). split; [|done].
    by rewrite <- (assoc_L (++)).
  - intros [= <- <- <-]. apply HP in E as [E1 E2]. split; [done|]. exists [].
    rewrite app_nil_r. auto.
Qed.

Lemma parse_moves n e : lits_ascii e = true → moving (parse_expr n) e.
Proof.
  revert e. induction n as [|n IH]; intros e Hl m st r m' st'; [done|].
  change (parse_expr (S n) e m st) with (parse_body (parse_expr n) e m st). unfold parse_body.
  destruct e as [a e|l|l|x e|e|e|e|e|q|s|k|]; simpl in Hl.
  - destruct (parse_expr n e m st) as [| |[v|] m1 st1] eqn:E; try done.
    + destruct (run_action _ _ _ _ _) as [[w|] s]; [|done]. intros [= <- <- <-].
      apply (IH _ Hl) in E as [E1 E2]. by split.
    + intros [= <- <- <-]. by apply (IH _ Hl) in E.
  - intros H. eapply seq_loop_moves in H as [H1 H2]; [|intros e He|apply reach_refl].
    + destruct r; split; [by apply H2|done|rewrite H1 by done; apply reach_refl|done].
    + apply IH. rewrite forallb_forall in Hl. apply Hl. by apply elem_of_list_In.
  - intros H. eapply choice_loop_moves, H. intros e He.
    apply IH. rewrite forallb_forall in Hl. apply Hl. by apply elem_of_list_In.
  - destruct (parse_expr n e [] st) as [| |[v|] m1 st1] eqn:E; try done;
      intros [= <- <- <-]; by apply (IH _ Hl) in E.
  - destruct (parse_expr n e [] _) as [| |o m1 st1] eqn:E; try done.
    intros [= <- <- <-]. apply (IH _ Hl) in E as [E1 _].
    unfold moves. rewrite pt_restore by done. split; [apply reach_refl|done].
  - destruct (parse_expr n e [] st) as [| |o m1 st1] eqn:E; try done.
    intros [= <- <- <-]. apply (IH _ Hl) in E as [E1 _]. by split.
  - destruct (many_loop _ _ _ _ _) as [| |o m1 st1] eqn:E; try done.
    apply many_loop_moves in E as (E1 & l & -> & E2); [|by apply IH]. intros [= <- <- <-]. by split.
  - destruct (many_loop _ _ _ _ _) as [| |o m1 st1] eqn:E; try done.
    apply many_loop_moves in E as (E1 & l & -> & E2); [|by apply IH]. simpl.
    destruct l; intros [= <- <- <-]; split; auto. done.
  - destruct (parse_expr n _ [] st) as [| |o m1 st1] eqn:E; try done.
    intros [= <- <- <-]. apply IH in E; [|apply rule_lits_ascii]. done.
  - destruct (lit_loop _ _ _) as [o st1] eqn:E. apply lit_loop_pos in E; [|done|apply reach_refl].
    destruct o as [st2|].
    + destruct E as (-> & E1 & _). intros [= <- <- <-]. split; [by rewrite pt_fail|done].
    + destruct E as (E1 & _). intros [= <- <- <-]. split; [rewrite E1; apply reach_refl|done].
  - destruct (at_end (p_pt st)) eqn:Ee.
    { intros [= <- <- <-]. unfold moves. rewrite pt_fail. split; [apply reach_refl|done]. }
    destruct (class_match _ _).
    + intros [= <- <- <-]. unfold moves. rewrite pt_fail, pt_read. split; [|done].
      apply reach_next. by apply class_end.
    + intros [= <- <- <-]. unfold moves. rewrite pt_fail. split; [apply reach_refl|done].
  - destruct (at_end (p_pt st)) eqn:Ee.
    { intros [= <- <- <-]. unfold moves. rewrite pt_fail. split; [apply reach_refl|done]. }
    intros [= <- <- <-]. unfold moves. rewrite pt_fail, pt_read. split; [|done].
      apply reach_next. by apply class_end.
Qed.
