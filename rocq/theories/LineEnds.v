(** LF against CRLF line ends: the descent parser of Descent.v runs in step on a
    document and on its conversion. *)
From Coq Require Import Ascii String NArith Lia.
From stdpp Require Import base tactics relations strings numbers list.
From Verif Require Import GoBase Ast Utf8 Peg StrProofs PegBase PegTotal PegErrs Descent DescentProofs
  ParseSpec ParserMain Encoding Positions Runs LineEndSpec.
Local Open Scope string_scope.
Local Open Scope list_scope.

Lemma crlf_cons a r : crlf (String a r) = if Ascii.eqb a nl then String cr (String nl (crlf r)) else String a (crlf r).
Proof. done. Qed.

Lemma high_ne_nl a : high a = true → Ascii.eqb a nl = false.
Proof. apply high_not_nl. Qed.

Lemma within_ctl lo hi a : (128 <= lo)%N → (byte a < 128)%N → within lo hi a = false.
Proof. intros H1 H2. unfold within. apply andb_false_iff. left. apply N.leb_gt. lia. Qed.
Lemma within_nl_lo lo hi : (128 <= lo)%N → within lo hi nl = false.
Proof. intros. by apply within_ctl. Qed.
Lemma within_cr_lo lo hi : (128 <= lo)%N → within lo hi cr = false.
Proof. intros. by apply within_ctl. Qed.

Lemma lead_lo a : match lead_of a with L3 _ lo _ | L4 _ lo _ => (128 <= lo)%N | _ => True end.
Proof. unfold lead_of. repeat case_match; simplify_eq; done. Qed.

(** A character keeps its code and width. *)
Lemma decode_crlf a r : Ascii.eqb a nl = false → decode_rune (String a (crlf r)) = decode_rune (String a r).
Proof.
  intros Ha. unfold decode_rune. pose proof (lead_lo a) as Hlo.
  destruct (lead_of a) as [x| |v|v lo hi|v lo hi]; [done|done|..].
  - destruct r as [|b r]; [done|]. rewrite crlf_cons.
    destruct (Ascii.eqb_spec b nl) as [->|Hb]; [|done]. done.
  - destruct r as [|b r]; [done|]. rewrite crlf_cons.
    destruct (Ascii.eqb_spec b nl) as [->|Hb].
    { rewrite within_cr_lo by done. destruct r; rewrite ?within_nl_lo by done; reflexivity. }
    destruct r as [|c r]; [done|]. rewrite crlf_cons.
    destruct (Ascii.eqb_spec c nl) as [->|Hc]; [|done].
    rewrite (within_cr_lo 128 191), (within_nl_lo 128 191) by done. done.
  - destruct r as [|b r]; [done|]. rewrite crlf_cons.
    destruct (Ascii.eqb_spec b nl) as [->|Hb].
    { rewrite within_cr_lo by done. destruct r as [|? [|? ?]]; [done| |]; rewrite ?within_nl_lo by done; simpl;
      repeat case_match; done. }
    destruct r as [|c r]; [done|]. rewrite crlf_cons.
    destruct (Ascii.eqb_spec c nl) as [->|Hc].
    { rewrite (within_cr_lo 128 191), (within_nl_lo 128 191) by done. rewrite !andb_false_r. simpl.
      by destruct r as [|? ?]; [|simpl; repeat case_match]. }
    destruct r as [|e r]; [done|]. rewrite crlf_cons.
    destruct (Ascii.eqb_spec e nl) as [->|He]; [|done].
    rewrite (within_cr_lo 128 191), (within_nl_lo 128 191) by done. by rewrite !andb_false_r.
Qed.

Lemma crlf_drop a r : Ascii.eqb a nl = false →
  sdrop (snd (decode_rune (String a r))) (String a (crlf r)) = crlf (sdrop (snd (decode_rune (String a r))) (String a r)) ∧
  stake (snd (decode_rune (String a r))) (String a (crlf r)) = stake (snd (decode_rune (String a r))) (String a r).
Proof.
  intros Ha. destruct (decode_cases a r); subst; simpl; rewrite ?high_ne_nl by done; done.
Qed.

(** ** Positions in the two documents *)

Definition rel (c c' : cursor) : Prop :=
  ∃ l k o o' r, c = arrive l k o r ∧ c' = arrive l k o' (crlf r) ∧ no_cr r.

Lemma no_cr_drop n s : no_cr s → no_cr (sdrop n s).
Proof.
  unfold no_cr. revert s. induction n as [|n IH]; intros [|a s]; simpl; try done.
  intros [_ H]%andb_true_iff. by apply IH.
Qed.
Lemma no_cr_head a r : no_cr (String a r) → a ≠ cr ∧ no_cr r.
Proof. unfold no_cr. simpl. intros [H1 H2]%andb_true_iff. split; [|done]. intros ->. done. Qed.

Lemma rel_rest c c' : rel c c' → c_rest c' = crlf (c_rest c).
Proof. intros (l & k & o & o' & r & -> & -> & Hn). by rewrite !arrive_rest. Qed.

Lemma rel_intro l k o o' r : no_cr r → rel (arrive l k o r) (arrive l k o' (crlf r)).
Proof. intros. by exists l, k, o, o', r. Qed.

Lemma at_nl_arrive l k o r : arrive l k o r = if at_nl r then Cur (S l) 0 o r else Cur l (S k) o r.
Proof.
  unfold arrive. pose proof (nl_rune (Cur 0 0 0 r)) as H. unfold cur_rn in H. simpl in H.
  rewrite H. done.
Qed.

(** Away from line ends the two cursors agree. *)
Lemma rel_same c c' a r : rel c c' → c_rest c = String a r → Ascii.eqb a nl = false →
  c_rest c' = String a (crlf r) ∧ cur_rn c' = cur_rn c ∧ cur_w c' = cur_w c ∧
  c_line c' = c_line c ∧ c_col c' = c_col c ∧ rel (next c) (next c') ∧
  slice c' (next c') = slice c (next c).
Proof.
  intros (l & k & o & o' & r0 & -> & -> & Hn) E Ha. rewrite arrive_rest in E. subst r0.
  assert (crlf (String a r) = String a (crlf r)) as Er by (rewrite crlf_cons; by rewrite Ha).
  rewrite Er, !at_nl_arrive. simpl. rewrite Ha. simpl.
  assert (cur_rn (Cur l (S k) o' (String a (crlf r))) = cur_rn (Cur l (S k) o (String a r)) ∧
    cur_w (Cur l (S k) o' (String a (crlf r))) = cur_w (Cur l (S k) o (String a r))) as [E1 E2].
  { unfold cur_rn, cur_w. simpl. by rewrite decode_crlf. }
  destruct (crlf_drop a r Ha) as [D1 D2].
  split_and!; try done.
  - unfold next. simpl. rewrite E2. unfold cur_w at 2 4. simpl. rewrite D1. apply rel_intro. by apply no_cr_drop.
  - unfold slice. rewrite !next_off. simpl. rewrite E2.
    replace (o' + _ - o') with (cur_w (Cur l (S k) o (String a r))) by lia.
    replace (o + _ - o) with (cur_w (Cur l (S k) o (String a r))) by lia. apply D2.
Qed.

Lemma rel_end c c' : rel c c' → c_rest c = "" → c_rest c' = "".
Proof. intros H E. apply rel_rest in H. by rewrite H, E. Qed.

(** At a line feed the other cursor is at a carriage return. *)
Lemma rel_break c c' r : rel c c' → c_rest c = String nl r →
  c_rest c' = String cr (String nl (crlf r)) ∧ c_rest (next c') = String nl (crlf r) ∧
  cur_rn c = 10%N ∧ cur_w c = 1 ∧ cur_rn c' = 13%N ∧ cur_w c' = 1 ∧ cur_rn (next c') = 10%N ∧ cur_w (next c') = 1 ∧
  rel (next c) (next (next c')).
Proof.
  intros (l & k & o & o' & r0 & -> & -> & Hn) E. rewrite arrive_rest in E. subst r0.
  rewrite crlf_cons. rewrite !at_nl_arrive. simpl. split_and!; try done.
  assert (next (Cur (S l) 0 o (String nl r)) = arrive (S l) 0 (o + 1) r) as -> by done.
  assert (next (next (Cur l (S k) o' (String cr (String nl (crlf r))))) = arrive (S l) 0 (o' + 1 + 1) (crlf r)) as -> by done.
  apply rel_intro. by apply no_cr_head in Hn as [_ Hn].
Qed.

(** ** Parsers in step *)

Definition sim {A B} (R : A → B → Prop) (p : parser A) (p' : parser B) : Prop := ∀ c c' s, rel c c' →
  match p c s with
  | Deep => True
  | Fail s1 => p' c' s = Fail s1
  | Match a c1 s1 => ∃ a' c1', p' c' s = Match a' c1' s1 ∧ R a a' ∧ rel c1 c1' ∧ reach c c1 ∧ reach c' c1'
  end.

(** As [sim], and the same bytes are consumed. *)
Definition tsim {A B} (R : A → B → Prop) (p : parser A) (p' : parser B) : Prop := ∀ c c' s, rel c c' →
  match p c s with
  | Deep => True
  | Fail s1 => p' c' s = Fail s1
  | Match a c1 s1 => ∃ a' c1', p' c' s = Match a' c1' s1 ∧ R a a' ∧ rel c1 c1' ∧ reach c c1 ∧ reach c' c1' ∧
      slice c' c1' = slice c c1
  end.

Definition any {A B} : A → B → Prop := λ _ _, True.

Lemma tsim_sim {A B} (R : A → B → Prop) p p' : tsim R p p' → sim R p p'.
Proof.
  intros H c c' s Hr. specialize (H c c' s Hr). destruct (p c s) as [|s1|a c1 s1]; [done|done|].
  destruct H as (a' & c1' & H1 & H2 & H3 & H4 & H5 & _). by exists a', c1'.
Qed.

Lemma sim_impl {A B} (R Q : A → B → Prop) p p' : (∀ a b, R a b → Q a b) → sim R p p' → sim Q p p'.
Proof.
  intros HQ H c c' s Hr. specialize (H c c' s Hr). destruct (p c s) as [|s1|a c1 s1]; [done|done|].
  destruct H as (a' & c1' & H1 & H2 & H3 & H4 & H5). exists a', c1'. auto.
Qed.

Lemma sim_ret {A B} (R : A → B → Prop) a a' : R a a' → sim R (pret a) (pret a').
Proof. intros H c c' s Hr. exists a', c'. split_and!; try done; apply reach_refl. Qed.

Lemma sim_bind {A A' B B'} (R : A → A' → Prop) (Q : B → B' → Prop) p p' f f' :
  sim R p p' → (∀ a a', R a a' → sim Q (f a) (f' a')) → sim Q (pbind p f) (pbind p' f').
Proof.
  intros Hp Hf c c' s Hr. unfold pbind. specialize (Hp c c' s Hr).
  destruct (p c s) as [|s1|a c1 s1]; [done|by rewrite Hp|].
  destruct Hp as (a' & c1' & -> & H2 & H3 & H4 & H5). specialize (Hf a a' H2 c1 c1' s1 H3).
  destruct (f a c1 s1) as [|s2|b c2 s2]; [done|done|].
  destruct Hf as (b' & c2' & -> & F2 & F3 & F4 & F5). exists b', c2'. split_and!; try done; by eapply reach_trans.
Qed.
Lemma tsim_bind {A A' B B'} (R : A → A' → Prop) (Q : B → B' → Prop) p p' f f' :
  tsim R p p' → (∀ a a', R a a' → tsim Q (f a) (f' a')) → tsim Q (pbind p f) (pbind p' f').
Proof.
  intros Hp Hf c c' s Hr. unfold pbind. specialize (Hp c c' s Hr).
  destruct (p c s) as [|s1|a c1 s1]; [done|by rewrite Hp|].
  destruct Hp as (a' & c1' & -> & H2 & H3 & H4 & H5 & H6). specialize (Hf a a' H2 c1 c1' s1 H3).
  destruct (f a c1 s1) as [|s2|b c2 s2]; [done|done|].
  destruct Hf as (b' & c2' & -> & F2 & F3 & F4 & F5 & F6). exists b', c2'.
  split_and!; try done; try by eapply reach_trans.
  rewrite (slice_app c c1 c2), (slice_app c' c1' c2') by done. by rewrite H6, F6.
Qed.

Lemma sim_alt {A B} (R : A → B → Prop) p p' q q' : sim R p p' → sim R q q' → sim R (palt p q) (palt p' q').
Proof.
  intros Hp Hq c c' s Hr. unfold palt. specialize (Hp c c' s Hr).
  destruct (p c s) as [|s1|a c1 s1]; [done| |].
  - rewrite Hp. by apply Hq.
  - destruct Hp as (a' & c1' & -> & Hp). eauto.
Qed.
Lemma sim_opt {A B} (R : A → B → Prop) p p' : sim R p p' → sim (option_Forall2 R) (popt p) (popt p').
Proof.
  intros Hp c c' s Hr. unfold popt. specialize (Hp c c' s Hr).
  destruct (p c s) as [|s1|a c1 s1]; [done| |].
  - rewrite Hp. exists None, c'. split_and!; try done; [constructor|apply reach_refl..].
  - destruct Hp as (a' & c1' & -> & H & Hp). exists (Some a'), c1'. split_and!; try done; [by constructor|apply Hp..].
Qed.
Lemma tsim_not {A B} (R : A → B → Prop) p p' : sim R p p' → tsim any (pnot p) (pnot p').
Proof.
  intros Hp c c' s Hr. unfold pnot. specialize (Hp c c' s Hr).
  destruct (p c s) as [|s1|a c1 s1]; [done| |].
  - rewrite Hp. exists tt, c'. split_and!; try done; try apply reach_refl. by rewrite !slice_refl.
  - by destruct Hp as (a' & c1' & -> & Hp).
Qed.

(** Repetition. *)
Lemma many_go_more {A} (p : parser A) k k' acc c s : k ≤ k' → pmany_go p k acc c s ≠ Deep →
  pmany_go p k' acc c s = pmany_go p k acc c s.
Proof.
  revert k' acc c s. induction k as [|k IH]; intros [|k'] acc c s Hk; simpl; try done; [lia|].
  destruct (p c s); [done|done|]. apply IH. lia.
Qed.
Lemma many_go_sim {A B} (R : A → B → Prop) p p' k acc acc' : sim R p p' → Forall2 R acc acc' →
  sim (Forall2 R) (pmany_go p k acc) (pmany_go p' k acc').
Proof.
  intros Hp. revert acc acc'. induction k as [|k IH]; intros acc acc' Ha c c' s Hr; [done|]. simpl.
  pose proof (Hp c c' s Hr) as H. destruct (p c s) as [|s1|a c1 s1]; [done| |].
  - rewrite H. exists acc', c'. split_and!; try done; apply reach_refl.
  - destruct H as (a' & c1' & -> & H2 & H3 & H4 & H5).
    specialize (IH (acc ++ [a]) (acc' ++ [a']) ltac:(apply Forall2_app; [done|by constructor]) c1 c1' s1 H3).
    destruct (pmany_go p k (acc ++ [a]) c1 s1) as [|s2|b c2 s2]; [done|done|].
    destruct IH as (b' & c2' & -> & F2 & F3 & F4 & F5). exists b', c2'. split_and!; try done; by eapply reach_trans.
Qed.
Lemma many_go_tsim {A B} (R : A → B → Prop) p p' k acc acc' : tsim R p p' → Forall2 R acc acc' →
  tsim (Forall2 R) (pmany_go p k acc) (pmany_go p' k acc').
Proof.
  intros Hp. revert acc acc'. induction k as [|k IH]; intros acc acc' Ha c c' s Hr; [done|]. simpl.
  pose proof (Hp c c' s Hr) as H. destruct (p c s) as [|s1|a c1 s1]; [done| |].
  - rewrite H. exists acc', c'. split_and!; try done; try apply reach_refl. by rewrite !slice_refl.
  - destruct H as (a' & c1' & -> & H2 & H3 & H4 & H5 & H6).
    specialize (IH (acc ++ [a]) (acc' ++ [a']) ltac:(apply Forall2_app; [done|by constructor]) c1 c1' s1 H3).
    destruct (pmany_go p k (acc ++ [a]) c1 s1) as [|s2|b c2 s2]; [done|done|].
    destruct IH as (b' & c2' & -> & F2 & F3 & F4 & F5 & F6). exists b', c2'.
    split_and!; try done; try by eapply reach_trans.
    rewrite (slice_app c c1 c2), (slice_app c' c1' c2') by done. by rewrite H6, F6.
Qed.

Lemma crlf_length s : String.length (crlf s) = String.length s + lf_count s.
Proof. induction s as [|a s IH]; [done|]. rewrite crlf_cons. simpl. destruct (Ascii.eqb a nl); simpl; lia. Qed.

Lemma sim_many {A B} (R : A → B → Prop) p p' : sim R p p' → sim (Forall2 R) (pmany p) (pmany p').
Proof.
  intros Hp c c' s Hr. unfold pmany. rewrite (rel_rest _ _ Hr), crlf_length.
  pose proof (many_go_sim R p p' (S (String.length (c_rest c))) [] [] Hp ltac:(constructor) c c' s Hr) as H.
  destruct (pmany_go p _ _ c s) as [|s1|a c1 s1]; [done| |].
  - rewrite <- H. apply many_go_more; [lia|]. by rewrite H.
  - destruct H as (a' & c1' & E & H). exists a', c1'. split; [|done]. rewrite <- E. apply many_go_more; [lia|].
    by rewrite E.
Qed.
Lemma tsim_many {A B} (R : A → B → Prop) p p' : tsim R p p' → tsim (Forall2 R) (pmany p) (pmany p').
Proof.
  intros Hp c c' s Hr. unfold pmany. rewrite (rel_rest _ _ Hr), crlf_length.
  pose proof (many_go_tsim R p p' (S (String.length (c_rest c))) [] [] Hp ltac:(constructor) c c' s Hr) as H.
  destruct (pmany_go p _ _ c s) as [|s1|a c1 s1]; [done| |].
  - rewrite <- H. apply many_go_more; [lia|]. by rewrite H.
  - destruct H as (a' & c1' & E & H). exists a', c1'. split; [|done]. rewrite <- E. apply many_go_more; [lia|].
    by rewrite E.
Qed.
Lemma sim_many1 {A B} (R : A → B → Prop) p p' : sim R p p' → sim (Forall2 R) (pmany1 p) (pmany1 p').
Proof.
  intros Hp c c' s Hr. unfold pmany1. pose proof (sim_many R p p' Hp c c' s Hr) as H.
  destruct (pmany p c s) as [|s1|a c1 s1]; [done|by rewrite H|].
  destruct H as (a' & c1' & -> & H & H'). destruct H; [done|]. eexists _, c1'. split; [done|]. split; [by constructor|done].
Qed.
Lemma tsim_many1 {A B} (R : A → B → Prop) p p' : tsim R p p' → tsim (Forall2 R) (pmany1 p) (pmany1 p').
Proof.
  intros Hp c c' s Hr. unfold pmany1. pose proof (tsim_many R p p' Hp c c' s Hr) as H.
  destruct (pmany p c s) as [|s1|a c1 s1]; [done|by rewrite H|].
  destruct H as (a' & c1' & -> & H & H'). destruct H; [done|]. eexists _, c1'. split; [done|]. split; [by constructor|done].
Qed.

Lemma sim_text {A B} (R : A → B → Prop) p p' : tsim R p p' → sim eq (ptext p) (ptext p').
Proof.
  intros Hp c c' s Hr. unfold ptext. specialize (Hp c c' s Hr).
  destruct (p c s) as [|s1|a c1 s1]; [done|by rewrite Hp|].
  destruct Hp as (a' & c1' & -> & H2 & H3 & H4 & H5 & H6). eexists _, c1'. split; [done|]. done.
Qed.

(** Characters. *)
Lemma tsim_lit w : sforall (λ a, (byte a <? 128)%N && negb (Ascii.eqb a nl) && negb (Ascii.eqb a cr)) w = true →
  tsim eq (plit w) (plit w).
Proof.
  intros Hw c c' s Hr. unfold plit.
  assert (match plit_go w c with
    | Some c1 => ∃ c1', plit_go w c' = Some c1' ∧ rel c1 c1' ∧ reach c c1 ∧ reach c' c1' ∧ slice c' c1' = slice c c1
    | None => plit_go w c' = None end) as H.
  { revert c c' Hr. induction w as [|a w IH]; intros c c' Hr; simpl.
    { exists c'. split_and!; try done; try apply reach_refl. by rewrite !slice_refl. }
    simpl in Hw. apply andb_true_iff in Hw as [Ha Hw]. apply andb_true_iff in Ha as [Ha H3].
    apply andb_true_iff in Ha as [H1 H2]. apply N.ltb_lt in H1. apply negb_true_iff in H2, H3.
    destruct (c_rest c) as [|b r] eqn:E.
    { pose proof (rel_end _ _ Hr E) as E'. unfold cur_rn. rewrite E, E'.
      change (fst (decode_rune "")) with rune_error.
      destruct (N.eqb_spec rune_error (byte a)) as [Ee|]; [|done]. unfold rune_error in Ee. lia. }
    destruct (Ascii.eqb_spec b nl) as [->|Hb].
    { destruct (rel_break _ _ _ Hr E) as (_ & _ & -> & _ & -> & _).
      destruct (N.eqb_spec 10 (byte a)) as [Ea|_]. { exfalso. change 10%N with (byte nl) in Ea.
        apply byte_inj in Ea as <-. done. }
      destruct (N.eqb_spec 13 (byte a)) as [Ea|_]; [|done]. exfalso. change 13%N with (byte cr) in Ea.
      apply byte_inj in Ea as <-. done. }
    destruct (rel_same _ _ b r Hr E ltac:(by apply Ascii.eqb_neq)) as (E' & -> & Ew & _ & _ & Hr' & Hs).
    destruct (N.eqb _ _); [|done]. specialize (IH Hw _ _ Hr').
    assert (reach c (next c)) as R1 by (apply reach_next; by rewrite E).
    assert (reach c' (next c')) as R2 by (apply reach_next; by rewrite E').
    destruct (plit_go w (next c)) as [c1|]; [|done]. destruct IH as (c1' & -> & I1 & I2 & I3 & I4).
    exists c1'. split_and!; try done; try by eapply reach_trans.
    rewrite (slice_app c (next c) c1), (slice_app c' (next c') c1') by done. by rewrite I4, Hs. }
  destruct (plit_go w c) as [c1|]; [|by rewrite H]. destruct H as (c1' & -> & H). by exists tt, c1'.
Qed.

Lemma tsim_class q : flat q → fits q nl = false → fits q cr = false → tsim eq (pclass q) (pclass q).
Proof.
  intros Hq H1 H2 c c' s Hr. pose proof (pclass_spec q c s Hq) as P. pose proof (pclass_spec q c' s Hq) as P'.
  destruct (c_rest c) as [|a r] eqn:E.
  { rewrite P. rewrite (rel_end _ _ Hr E) in P'. done. }
  destruct (Ascii.eqb_spec a nl) as [->|Ha].
  { rewrite H1 in P. rewrite P. destruct (rel_break _ _ _ Hr E) as (Eb & _). by rewrite Eb, H2 in P'. }
  destruct (rel_same _ _ a r Hr E ltac:(by apply Ascii.eqb_neq)) as (E' & _ & _ & _ & _ & Hr' & Hs).
  rewrite E' in P'. destruct (fits q a); rewrite P, P'; [|done].
  exists tt, (next c'). split_and!; try done; apply reach_next; by rewrite ?E, ?E'.
Qed.

Lemma sim_break : sim eq p_break p_break.
Proof.
  intros c c' s Hr. unfold p_break, palt, plit. simpl.
  destruct (c_rest c) as [|a r] eqn:E.
  { pose proof (rel_end _ _ Hr E) as E'. unfold cur_rn. rewrite E, E'. reflexivity. }
  destruct (Ascii.eqb_spec a nl) as [->|Ha].
  { destruct (rel_break _ _ _ Hr E) as (E1 & E2 & -> & _ & -> & _ & -> & _ & Hn). simpl.
    exists tt, (next (next c')). split_and!; try done; [apply reach_next; by rewrite E|].
    eapply reach_trans; apply reach_next; [by rewrite E1|by rewrite E2]. }
  destruct (rel_same _ _ a r Hr E ltac:(by apply Ascii.eqb_neq)) as (E' & -> & _).
  assert (a ≠ cr) as Hcr. { destruct Hr as (l & k & o & o' & r0 & -> & _ & Hn). rewrite arrive_rest in E. subst r0.
    by apply no_cr_head in Hn as [Hn _]. }
  assert (∀ b, (byte b < 128)%N → a ≠ b → N.eqb (cur_rn c) (byte b) = false) as Hne.
  { intros b Hb Hab. apply N.eqb_neq. intros Ec. apply cur_ascii in Ec as (a' & r' & E2 & Eb & _); [|done].
    rewrite E in E2. apply byte_inj in Eb. congruence. }
  pose proof (Hne nl eq_refl Ha) as N1. pose proof (Hne cr eq_refl Hcr) as N2. simpl in N1, N2.
  unfold nl in N1. unfold cr in N2. rewrite N1, N2. done.
Qed.

Lemma sim_blanks : sim any p_blanks p_blanks.
Proof.
  apply (sim_impl (Forall2 eq)); [done|]. apply sim_many, tsim_sim, tsim_class; done.
Qed.

(** ** Comments *)

Lemma lf_reach c c1 : reach c c1 → lf_count (c_rest c1) ≤ lf_count (c_rest c).
Proof.
  induction 1 as [|c c1 c2 [_ ->] _ IH]; [done|]. rewrite next_rest in IH. etrans; [exact IH|].
  rewrite (stake_sdrop (cur_w c) (c_rest c)) at 2. rewrite lf_count_app. lia.
Qed.

Definition comment_body (n : nat) : parser unit := palt (p_comment n) (pnot (plit "-}");~ pany).

Lemma comment_at n c s a r : c_rest c = String a r → a = nl ∨ a = cr → p_comment (S n) c s = Fail s.
Proof.
  intros E Ha. simpl. unfold pbind.
  destruct (pmany_class blanks c s flat_blanks) as (l & c' & H1 & H2 & H3 & H4 & _).
  unfold p_blanks. rewrite H1. rewrite plit_no; [done|done|]. rewrite H4, E. simpl.
  by destruct Ha as [-> | ->].
Qed.
Lemma body_at n c s a r : c_rest c = String a r → a = nl ∨ a = cr →
  comment_body (S n) c s = Match tt (next c) s.
Proof.
  intros E Ha. unfold comment_body, palt. rewrite (comment_at n c s a r E Ha). unfold pbind, pnot.
  rewrite plit_no; [|done|rewrite E; by destruct Ha as [-> | ->]].
  unfold pany. destruct (at_end c) eqn:Ee; [|done]. apply at_end_spec in Ee. by rewrite Ee in E.
Qed.

Lemma sim_any_char c c' s a r : rel c c' → c_rest c = String a r → a ≠ nl →
  ∃ c1', pany c s = Match tt (next c) s ∧ pany c' s = Match tt c1' s ∧ rel (next c) c1' ∧ reach c (next c) ∧ reach c' c1'.
Proof.
  intros Hr E Ha. destruct (rel_same _ _ a r Hr E ltac:(by apply Ascii.eqb_neq)) as (E' & _ & _ & _ & _ & Hr' & _).
  exists (next c'). unfold pany.
  assert (at_end c = false) as ->. { destruct (at_end c) eqn:Ee; [|done]. apply at_end_spec in Ee. by rewrite Ee in E. }
  assert (at_end c' = false) as ->. { destruct (at_end c') eqn:Ee; [|done]. apply at_end_spec in Ee. by rewrite Ee in E'. }
  split_and!; try done; apply reach_next; by rewrite ?E, ?E'.
Qed.

Lemma sim_comment_loop n : sim any (p_comment n) (p_comment n) → ∀ k k' acc acc' c c' s, rel c c' →
  k + lf_count (c_rest c) ≤ k' →
  match pmany_go (comment_body n) k acc c s with
  | Deep => True
  | Fail s1 => False
  | Match _ c1 s1 => ∃ a' c1', pmany_go (comment_body n) k' acc' c' s = Match a' c1' s1 ∧ rel c1 c1' ∧ reach c c1 ∧ reach c' c1'
  end.
Proof.
  intros Hc. destruct n as [|n].
  { intros [|k] k' acc acc' c c' s Hr Hk; [done|]. simpl. done. }
  induction k as [|k IH]; intros k' acc acc' c c' s Hr Hk; [done|].
  assert (∀ a r, c_rest c = String a r → a ≠ nl ∨ a = nl) as _ by (intros a r _; destruct (decide (a = nl)); auto).
  destruct (c_rest c) as [|a r] eqn:E.
  - (* at the end *)
    assert (sim any (comment_body (S n)) (comment_body (S n)) ∨ True) as _ by auto.
    destruct k' as [|k']; [lia|]. cbn [pmany_go]. unfold comment_body at 1 3. unfold palt.
    pose proof (Hc c c' s Hr) as H. destruct (p_comment (S n) c s) as [|s1|x c1 s1] eqn:Ec; [done| |].
    + rewrite H. pose proof (rel_end _ _ Hr E) as E'. unfold pbind, pnot.
      rewrite !plit_no by (done || by rewrite ?E, ?E'). unfold pany.
      apply at_end_spec in E as ->. apply at_end_spec in E' as ->. exists acc', c'. split_and!; try done; apply reach_refl.
    + destruct H as (x' & c1' & -> & _ & H3 & H4 & H5).
      specialize (IH k' (acc ++ [x]) (acc' ++ [x']) c1 c1' s1 H3).
      pose proof (lf_reach _ _ H4) as Hl. rewrite E in Hl. simpl in Hk, Hl.
      specialize (IH ltac:(lia)).
      destruct (pmany_go (comment_body (S n)) k (acc ++ [x]) c1 s1) as [|s2|b c2 s2]; [done|done|].
      destruct IH as (b' & c2' & -> & F3 & F4 & F5). exists b', c2'. split_and!; try done; by eapply reach_trans.
  - destruct (Ascii.eqb_spec a nl) as [->|Ha].
    + destruct (rel_break _ _ _ Hr E) as (E1 & E2 & _ & Ew & _ & _ & _ & _ & Hn).
      simpl in Hk. destruct k' as [|[|k']]; [lia|lia|]. cbn [pmany_go].
      rewrite (body_at n c s _ _ E) by auto. rewrite (body_at n c' s _ _ E1) by auto.
      rewrite (body_at n (next c') s _ _ E2) by auto.
      specialize (IH k' (acc ++ [tt]) ((acc' ++ [tt]) ++ [tt]) (next c) (next (next c')) s Hn).
      assert (c_rest (next c) = r) as En by (rewrite next_rest, Ew, E; done).
      rewrite En in IH. specialize (IH ltac:(lia)).
      destruct (pmany_go (comment_body (S n)) k (acc ++ [tt]) (next c) s) as [|s2|b c2 s2]; [done|done|].
      destruct IH as (b' & c2' & -> & F3 & F4 & F5). exists b', c2'. split_and!; try done.
      * eapply reach_trans; [apply reach_next; by rewrite E|done].
      * eapply reach_trans; [apply reach_next; by rewrite E1|].
        eapply reach_trans; [apply reach_next; by rewrite E2|done].
    + destruct k' as [|k']; [lia|]. cbn [pmany_go].
      assert (match comment_body (S n) c s with
        | Deep => True | Fail s1 => comment_body (S n) c' s = Fail s1
        | Match x c1 s1 => ∃ x' c1', comment_body (S n) c' s = Match x' c1' s1 ∧ rel c1 c1' ∧ reach c c1 ∧ reach c' c1' end) as H.
      { unfold comment_body, palt. pose proof (Hc c c' s Hr) as H.
        destruct (p_comment (S n) c s) as [|s1|x c1 s1] eqn:Ec; [done| |].
        - rewrite H. unfold pbind.
          pose proof (tsim_not eq _ _ (tsim_sim _ _ _ (tsim_lit "-}" eq_refl)) c c' s1 Hr) as Hl.
          destruct (pnot (plit "-}") c s1) as [|s2|[] c2 s2] eqn:E2; [done|by rewrite Hl|].
          destruct Hl as ([] & c2' & -> & _ & L1 & L2 & L3 & _).
          assert (c2 = c) as ->. { unfold pnot in E2. destruct (plit "-}" c s1); by simplify_eq. }
          destruct (sim_any_char c c2' s2 a r L1 E Ha) as (c1' & -> & -> & G1 & G2 & G3).
          exists tt, c1'. split_and!; try done. by eapply reach_trans.
        - destruct H as (x' & c1' & -> & _ & H3). by exists x', c1'. }
      destruct (comment_body (S n) c s) as [|s1|x c1 s1]; [done| |].
      * rewrite H. exists acc', c'. split_and!; try done; apply reach_refl.
      * destruct H as (x' & c1' & -> & H3 & H4 & H5).
        specialize (IH k' (acc ++ [x]) (acc' ++ [x']) c1 c1' s1 H3).
        pose proof (lf_reach _ _ H4) as Hl. rewrite E in Hl. specialize (IH ltac:(lia)).
        destruct (pmany_go (comment_body (S n)) k (acc ++ [x]) c1 s1) as [|s2|b c2 s2]; [done|done|].
        destruct IH as (b' & c2' & -> & F3 & F4 & F5). exists b', c2'. split_and!; try done; by eapply reach_trans.
Qed.

Lemma sim_comment n : sim any (p_comment n) (p_comment n).
Proof.
  induction n as [|n IH]; [done|]. simpl.
  eapply sim_bind; [apply sim_blanks|intros _ _ _].
  eapply sim_bind; [by apply tsim_sim, tsim_lit|intros _ _ _].
  eapply (sim_bind any).
  - intros c c' s Hr. fold (comment_body n). unfold pmany.
    pose proof (sim_comment_loop n IH (S (String.length (c_rest c))) (S (String.length (c_rest c'))) [] [] c c' s Hr) as H.
    rewrite (rel_rest _ _ Hr), crlf_length in *. specialize (H ltac:(lia)).
    destruct (pmany_go _ _ _ c s) as [|s1|b c2 s2]; [done|done|].
    destruct H as (b' & c2' & -> & H). by exists b', c2'.
  - intros _ _ _. apply (sim_impl eq); [done|]. by apply tsim_sim, tsim_lit.
Qed.

(** ** Words and arguments *)

Ltac lit := by apply tsim_sim, tsim_lit.

Lemma sim_string : sim alike p_string p_string.
Proof.
  unfold p_string. apply sim_alt.
  - eapply sim_bind; [eapply sim_text, tsim_many1, tsim_class; done|]. intros t t' <-. apply sim_ret. constructor.
  - eapply sim_bind.
    { eapply sim_text, tsim_bind; [by apply tsim_lit|]. intros _ _ _. by apply tsim_class. }
    intros t t' <-. apply sim_ret. constructor.
Qed.
Lemma sim_vstring : sim alike p_vstring p_vstring.
Proof.
  unfold p_vstring. apply sim_alt.
  - eapply sim_bind; [eapply sim_text, tsim_many1, tsim_class; done|]. intros t t' <-. apply sim_ret. constructor.
  - eapply sim_bind.
    { eapply sim_text, tsim_bind; [by apply tsim_lit|]. intros _ _ _. eapply tsim_not. lit. }
    intros t t' <-. apply sim_ret. constructor.
Qed.

Lemma sim_indent : sim eq p_indent p_indent.
Proof.
  intros c c' s Hr. unfold p_indent.
  assert (sim eq (ptext p_blanks) (ptext p_blanks)) as H.
  { eapply sim_text. unfold p_blanks. eapply tsim_many. by apply tsim_class. }
  specialize (H c c' s Hr). destruct (ptext p_blanks c s) as [|s1|t c1 s1]; [done|by rewrite H|].
  destruct H as (t' & c1' & -> & <- & H). eexists _, c1'. split; [done|]. done.
Qed.
Lemma sim_clear : sim any p_clear p_clear.
Proof. intros c c' s Hr. exists tt, c'. split_and!; try done; apply reach_refl. Qed.

Lemma sim_block_line w : sim alike w w → sim (Forall2 alike) (p_block_line w) (p_block_line w).
Proof.
  intros Hw. eapply sim_bind; [apply sim_indent|]. intros i i' <-.
  eapply sim_bind; [by apply sim_many|]. intros ws ws' Hws.
  eapply sim_bind; [apply sim_break|]. intros _ _ _. apply sim_ret. constructor; [constructor|done].
Qed.
Lemma sim_block w : sim alike w w → sim (Forall2 (Forall2 alike)) (p_block w) (p_block w).
Proof.
  intros Hw. eapply sim_bind; [apply sim_break|]. intros _ _ _.
  eapply sim_bind; [by apply sim_many, sim_block_line|]. intros ls ls' Hls.
  eapply sim_bind; [apply sim_blanks|]. intros _ _ _.
  eapply sim_bind; [apply sim_clear|]. intros _ _ _. by apply sim_ret.
Qed.

Lemma sim_verb_arg : sim alike p_verb_arg p_verb_arg.
Proof.
  eapply sim_bind; [lit|]. intros _ _ _. eapply (sim_bind alike).
  - apply sim_alt.
    + eapply sim_bind; [apply sim_block, sim_vstring|]. intros. apply sim_ret. by constructor.
    + eapply sim_bind; [apply sim_many, sim_vstring|]. intros. apply sim_ret. by constructor.
  - intros nd nd' H. eapply sim_bind; [lit|]. intros _ _ _. by apply sim_ret.
Qed.

Section Words.
  Context (comment : parser unit) (word : parser node).
  Context (Hc : sim any comment comment) (Hw : sim alike word word).

  Lemma sim_spacing : sim any (p_spacing comment) (p_spacing comment).
  Proof. apply sim_alt; [|done]. apply (sim_impl eq); [done|apply sim_break]. Qed.
  Lemma sim_line : sim (Forall2 alike) (p_line word) (p_line word).
  Proof. eapply sim_bind; [apply sim_blanks|]. intros _ _ _. by apply sim_many1. Qed.
  Lemma sim_para : sim (Forall2 (Forall2 alike)) (p_para word) (p_para word).
  Proof.
    apply sim_many1. eapply sim_bind; [apply sim_line|]. intros l l' Hl.
    eapply sim_bind; [apply sim_opt, sim_break|]. intros _ _ _. by apply sim_ret.
  Qed.
  Lemma sim_paras : sim (Forall2 (Forall2 (Forall2 alike))) (p_paras comment word) (p_paras comment word).
  Proof.
    eapply sim_bind; [apply sim_many, sim_spacing|]. intros _ _ _.
    apply sim_many1. eapply sim_bind; [apply sim_para|]. intros p p' Hp.
    eapply sim_bind; [apply sim_many, sim_spacing|]. intros _ _ _. by apply sim_ret.
  Qed.
  Lemma sim_split : sim alike p_split p_split.
  Proof.
    eapply sim_bind; [apply sim_break|]. intros _ _ _. eapply sim_bind; [apply sim_blanks|]. intros _ _ _.
    apply sim_ret. constructor.
  Qed.
  Lemma sim_wrapped : sim (Forall2 alike) (p_wrapped word) (p_wrapped word).
  Proof.
    eapply sim_bind; [apply Hw|]. intros w w' H. eapply sim_bind; [apply sim_many, sim_alt; [apply Hw|apply sim_split]|].
    intros ws ws' H'. apply sim_ret. by constructor.
  Qed.
  Lemma sim_pre_arg : sim alike (p_pre_arg word) (p_pre_arg word).
  Proof.
    eapply sim_bind; [lit|]. intros _ _ _. eapply sim_bind; [by apply sim_block|]. intros ls ls' H.
    eapply sim_bind; [lit|]. intros _ _ _. apply sim_ret. by constructor.
  Qed.
  Lemma paras_alike ps ps' : Forall2 (Forall2 (Forall2 alike)) ps ps' → Forall2 alike (map NPara ps) (map NPara ps').
  Proof. induction 1; simpl; constructor; [by constructor|done]. Qed.
  Lemma sim_arg_body : sim (option_Forall2 alike) (p_arg_body comment word) (p_arg_body comment word).
  Proof.
    apply sim_alt; [|apply sim_alt].
    - eapply sim_bind; [apply sim_wrapped|]. intros ws ws' H. apply sim_ret. by constructor; constructor.
    - eapply sim_bind; [apply sim_paras|]. intros ps ps' H. eapply sim_bind; [apply sim_blanks|]. intros _ _ _.
      apply sim_ret. constructor. constructor. by apply paras_alike.
    - eapply sim_bind; [apply sim_many, sim_spacing|]. intros _ _ _. apply sim_ret. constructor.
  Qed.
  Lemma sim_arg : sim alike (p_arg comment word) (p_arg comment word).
  Proof.
    eapply sim_bind; [lit|]. intros _ _ _. eapply sim_bind; [apply sim_opt, sim_arg_body|]. intros o o' H.
    eapply sim_bind; [lit|]. intros _ _ _. apply sim_ret.
    destruct H as [? ? H|]; [|constructor]. simpl. destruct H; [done|constructor].
  Qed.
  Lemma sim_argument : sim alike (p_argument comment word) (p_argument comment word).
  Proof. apply sim_alt; [apply sim_verb_arg|]. apply sim_alt; [apply sim_pre_arg|apply sim_arg]. Qed.

  Lemma sim_invoke : sim alike (p_invoke comment word) (p_invoke comment word).
  Proof.
    intros c c' s Hr. unfold p_invoke.
    assert (∀ x y, l_line x = l_line y → l_col x = l_col y →
      sim alike (fn <~ ptext (pmany1 (pclass namec)); args <~ pmany (p_argument comment word); pret (NInvoke fn args x))
                (fn <~ ptext (pmany1 (pclass namec)); args <~ pmany (p_argument comment word); pret (NInvoke fn args y))) as H.
    { intros x y H1 H2. eapply sim_bind; [eapply sim_text, tsim_many1, tsim_class; done|]. intros f f' <-.
      eapply sim_bind; [apply sim_many, sim_argument|]. intros l l' Hl. apply sim_ret. by constructor. }
    assert (plit "\" c s = Fail s ∧ plit "\" c' s = Fail s ∨ c_line c' = c_line c ∧ c_col c' = c_col c) as [[F1 F2]|[E1 E2]].
    { destruct (c_rest c) as [|a r] eqn:E.
      { left. pose proof (rel_end _ _ Hr E) as E'. rewrite !plit_no by (done || by rewrite ?E, ?E'). done. }
      destruct (Ascii.eqb_spec a nl) as [->|Ha].
      - left. destruct (rel_break _ _ _ Hr E) as (E' & _). rewrite !plit_no by (done || by rewrite ?E, ?E'). done.
      - right. destruct (rel_same _ _ a r Hr E ltac:(by apply Ascii.eqb_neq)) as (_ & _ & _ & E1 & E2 & _). done. }
    { unfold pbind. by rewrite F1, F2. }
    apply (sim_bind eq alike); [lit| |done]. intros _ _ _. by apply H.
  Qed.

  Lemma sim_interp : sim alike (p_interp word) (p_interp word).
  Proof.
    eapply sim_bind; [lit|]. intros _ _ _. eapply sim_bind; [by apply sim_opt|]. intros o o' H.
    eapply sim_bind; [lit|]. intros _ _ _. apply sim_ret. destruct H; [done|]. by constructor.
  Qed.
  Lemma sim_word_body : sim alike (p_word_body comment word) (p_word_body comment word).
  Proof.
    eapply sim_bind; [by apply sim_opt|]. intros _ _ _. eapply sim_bind.
    { apply sim_alt; [apply sim_string|]. apply sim_alt; [apply sim_invoke|apply sim_interp]. }
    intros v v' H. eapply sim_bind; [by apply sim_opt|]. intros _ _ _. by apply sim_ret.
  Qed.

  Lemma sim_end : sim any (pnot pany) (pnot pany).
  Proof.
    intros c c' s Hr. unfold pnot, pany.
    assert (at_end c' = at_end c) as ->.
    { pose proof (rel_rest _ _ Hr) as E. pose proof (at_end_spec c) as H1. pose proof (at_end_spec c') as H2.
      destruct (c_rest c) as [|a r] eqn:Ec.
      - simpl in E. destruct (at_end c), (at_end c'); intuition congruence.
      - assert (c_rest c' ≠ "") by (rewrite E, crlf_cons; by destruct (Ascii.eqb a nl)).
        destruct (at_end c), (at_end c'); intuition congruence. }
    destruct (at_end c); [|done]. exists tt, c'. split_and!; try done; apply reach_refl.
  Qed.
  Lemma sim_doc : sim (Forall2 (Forall2 (Forall2 alike))) (p_doc comment word) (p_doc comment word).
  Proof.
    eapply sim_bind; [apply sim_paras|]. intros ps ps' H. eapply sim_bind; [apply sim_end|]. intros _ _ _.
    by apply sim_ret.
  Qed.
End Words.

Lemma sim_word n : sim alike (p_word n) (p_word n).
Proof. induction n as [|n IH]; [done|]. simpl. apply sim_word_body; [apply sim_comment|done]. Qed.
Lemma sim_document n : sim (Forall2 (Forall2 (Forall2 alike))) (p_document n) (p_document n).
Proof. apply sim_doc; [apply sim_comment|apply sim_word]. Qed.

(** ** Whole documents *)

Lemma rel_origin d : no_cr d → rel (origin d) (origin (crlf d)).
Proof. intros H. apply rel_intro, H. Qed.

Lemma doc_sim d n : no_cr d →
  match p_document n (origin d) None with
  | Deep => True
  | Fail s1 => p_document n (origin (crlf d)) None = Fail s1
  | Match ps c1 s1 => ∃ ps' c1', p_document n (origin (crlf d)) None = Match ps' c1' s1 ∧
      Forall2 (Forall2 (Forall2 alike)) ps ps'
  end.
Proof.
  intros Hd. pose proof (sim_document n _ _ None (rel_origin d Hd)) as H.
  destruct (p_document n (origin d) None) as [|s1|ps c1 s1]; [done|done|].
  destruct H as (ps' & c1' & H1 & H2 & _). eauto.
Qed.

(** Every position of one document has a partner in the other. *)
Lemma bad_ascii c a r : c_rest c = String a r → (byte a < 128)%N → bad_rune c = false.
Proof.
  intros E H. unfold bad_rune. rewrite (cur_rn_ascii _ _ _ E H). apply andb_false_iff. left. apply N.eqb_neq.
  unfold rune_error. lia.
Qed.
Lemma rel_bad c c' : rel c c' → bad_rune c' = bad_rune c.
Proof.
  intros Hr. destruct (c_rest c) as [|a r] eqn:E.
  - pose proof (rel_end _ _ Hr E) as E'. unfold bad_rune, cur_rn, cur_w. by rewrite E, E'.
  - destruct (Ascii.eqb_spec a nl) as [->|Ha].
    + destruct (rel_break _ _ _ Hr E) as (E' & _). rewrite (bad_ascii _ _ _ E), (bad_ascii _ _ _ E'); done.
    + destruct (rel_same _ _ a r Hr E ltac:(by apply Ascii.eqb_neq)) as (_ & E1 & E2 & _).
      unfold bad_rune. by rewrite E1, E2.
Qed.
Lemma reach_forth c0 c0' c : rel c0 c0' → reach c0 c → ∃ c', reach c0' c' ∧ rel c c'.
Proof.
  intros H0. revert c. apply reach_ind; [exists c0'; split; [apply reach_refl|done]|].
  intros c _ (c' & Hc & Hr) Hm. destruct (c_rest c) as [|a r] eqn:E; [done|].
  destruct (Ascii.eqb_spec a nl) as [->|Ha].
  - destruct (rel_break _ _ _ Hr E) as (E1 & E2 & _ & _ & _ & _ & _ & _ & Hn). exists (next (next c')).
    split; [|done]. eapply reach_trans; [done|].
    eapply reach_trans; apply reach_next; [by rewrite E1|by rewrite E2].
  - destruct (rel_same _ _ a r Hr E ltac:(by apply Ascii.eqb_neq)) as (E1 & _ & _ & _ & _ & Hn & _).
    exists (next c'). split; [|done]. eapply reach_trans; [done|]. apply reach_next. by rewrite E1.
Qed.
Lemma reach_back c0 c0' c' : rel c0 c0' → reach c0' c' →
  ∃ c, reach c0 c ∧ (rel c c' ∨ ∃ c1' r, rel c c1' ∧ c_rest c = String nl r ∧ c' = next c1').
Proof.
  intros H0. revert c'. apply reach_ind; [exists c0; split; [apply reach_refl|by left]|].
  intros c' _ (c & Hc & [Hr|(c1' & r & Hr & E & ->)]) Hm.
  - destruct (c_rest c) as [|a r] eqn:E; [by rewrite (rel_end _ _ Hr E) in Hm|].
    destruct (Ascii.eqb_spec a nl) as [->|Ha].
    + exists c. split; [done|]. right. by exists c', r.
    + destruct (rel_same _ _ a r Hr E ltac:(by apply Ascii.eqb_neq)) as (E1 & _ & _ & _ & _ & Hn & _).
      exists (next c). split; [|by left]. eapply reach_trans; [done|]. apply reach_next. by rewrite E.
  - destruct (rel_break _ _ _ Hr E) as (E1 & E2 & _ & _ & _ & _ & _ & _ & Hn). exists (next c).
    split; [|by left]. eapply reach_trans; [done|]. apply reach_next. by rewrite E.
Qed.

Lemma clean_crlf d : no_cr d → clean (crlf d) ↔ clean d.
Proof.
  intros Hd. pose proof (rel_origin d Hd) as H0. split; intros H c Hc.
  - destruct (reach_forth _ _ c H0 Hc) as (c' & H1 & H2). rewrite <- (rel_bad _ _ H2). by apply H.
  - destruct (reach_back _ _ c H0 Hc) as (c1 & H1 & [H2|(c1' & r & H2 & E & ->)]).
    + rewrite (rel_bad _ _ H2). by apply H.
    + destruct (rel_break _ _ _ H2 E) as (_ & E2 & _). by eapply bad_ascii.
Qed.

Lemma matches_crlf d ps ps' : no_cr d → matches d ps → matches (crlf d) ps' → Forall2 (Forall2 (Forall2 alike)) ps ps'.
Proof.
  intros Hd (c & s & [n H]) (c' & s' & [n' H']). pose proof (doc_sim d (Nat.max n n') Hd) as Hs.
  rewrite H, H' in Hs by lia. destruct Hs as (ps1 & c1 & E & Hs). by simplify_eq.
Qed.

Lemma parse_crlf_case d : no_cr d →
  (∃ ps ps', matches d ps ∧ matches (crlf d) ps' ∧ Forall2 (Forall2 (Forall2 alike)) ps ps' ∧
     go_parse d = PVal (VNode (NSeq (map NPara ps))) ∧ go_parse (crlf d) = PVal (VNode (NSeq (map NPara ps')))) ∨
  (∃ errs errs', go_parse d = PErr errs ∧ go_parse (crlf d) = PErr errs').
Proof.
  intros Hd. pose proof (clean_crlf d Hd) as Hcl.
  assert (∀ (x : string) errs, errs ≠ [] → Forall (λ e, ∃ c, reach (origin x) c ∧ bad_rune c = true ∧ e = (InvalidEncoding, cur_loc c)) errs →
    ¬ clean x) as Hbad.
  { intros x errs Hne HF. destruct HF as [|e errs (c & H1 & H2 & ->) _]; [done|].
    intros Hx. specialize (Hx c H1). congruence. }
  destruct (go_parse_cases d) as [(ps & M & C & E)|[(errs & E & Ne & F)|(l & s & E & [n Hf] & _)]];
  destruct (go_parse_cases (crlf d)) as [(ps' & M' & C' & E')|[(errs' & E' & Ne' & F')|(l' & s' & E' & [n' Hf'] & _)]].
  - left. exists ps, ps'. split_and!; try done. by eapply matches_crlf.
  - pose proof (Hbad _ _ Ne' F'). tauto.
  - exfalso. destruct M as (c & s & [n H]). pose proof (doc_sim d (Nat.max n n') Hd) as Hs.
    rewrite H, Hf' in Hs by lia. by destruct Hs as (? & ? & ? & _).
  - pose proof (Hbad _ _ Ne F). tauto.
  - right. eauto.
  - right. eauto.
  - exfalso. destruct M' as (c & s' & [n' H]). pose proof (doc_sim d (Nat.max n n') Hd) as Hs.
    rewrite Hf, H in Hs by lia. done.
  - right. eauto.
  - right. eauto.
Qed.
