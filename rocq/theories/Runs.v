(** Runs of characters: a repeated class consumes the longest run of bytes. *)
From Coq Require Import Ascii String NArith Lia.
From stdpp Require Import base tactics relations strings numbers list.
From Verif Require Import GoBase Ast Utf8 Peg StrProofs PegBase Descent DescentProofs ParserMain Encoding Positions.
Local Open Scope string_scope.
Local Open Scope list_scope.

(** Byte-wise view of a class. *)
Definition fits (q : class) (a : ascii) : bool :=
  if (byte a <? 128)%N then class_match q (byte a) else k_inv q.

Fixpoint run (q : class) (s : string) : string :=
  match s with
  | String a r => if fits q a then String a (run q r) else ""
  | "" => ""
  end.
Fixpoint after (q : class) (s : string) : string :=
  match s with
  | String a r => if fits q a then after q r else s
  | "" => ""
  end.

Definition flat (q : class) : Prop := ∀ r, (128 <= r)%N → class_match q r = k_inv q.

Lemma flat_ascii q : forallb (λ a, byte a <? 128)%N (k_chars q) = true →
  forallb (λ p, byte (snd p) <? 128)%N (k_ranges q) = true → flat q.
Proof.
  intros H1 H2 r Hr. unfold class_match.
  assert (existsb (λ a, N.eqb (byte a) r) (k_chars q) = false) as ->.
  { apply not_true_iff_false. rewrite existsb_exists. intros (a & Ha & E). apply N.eqb_eq in E.
    rewrite forallb_forall in H1. apply H1 in Ha. apply N.ltb_lt in Ha. lia. }
  assert (existsb (λ p, (byte (fst p) <=? r)%N && (r <=? byte (snd p))%N) (k_ranges q) = false) as ->.
  { apply not_true_iff_false. rewrite existsb_exists. intros (a & Ha & E). apply andb_true_iff in E as [_ E].
    apply N.leb_le in E. rewrite forallb_forall in H2. apply H2 in Ha. apply N.ltb_lt in Ha. lia. }
  by destruct (k_inv q).
Qed.
Lemma flat_blanks : flat blanks. Proof. by apply flat_ascii. Qed.
Lemma flat_textc : flat textc. Proof. by apply flat_ascii. Qed.
Lemma flat_verbc : flat verbc. Proof. by apply flat_ascii. Qed.
Lemma flat_escc : flat escc. Proof. by apply flat_ascii. Qed.
Lemma flat_namec : flat namec. Proof. by apply flat_ascii. Qed.
Global Hint Resolve flat_blanks flat_textc flat_verbc flat_escc flat_namec : core.

Lemma high_lt a : high a = true → (byte a <? 128)%N = false.
Proof. unfold high. rewrite N.leb_le. intros. apply N.ltb_ge. lia. Qed.

Lemma run_after q s : s = run q s +:+ after q s.
Proof. induction s as [|a s IH]; simpl; [done|]. destruct (fits q a); simpl; [by rewrite <- IH|done]. Qed.
Lemma run_fits q s : sforall (fits q) (run q s) = true.
Proof. induction s as [|a s IH]; simpl; [done|]. destruct (fits q a) eqn:E; simpl; [by rewrite E|done]. Qed.
Lemma after_head q s : match after q s with String a _ => fits q a = false | "" => True end.
Proof. induction s as [|a s IH]; simpl; [done|]. destruct (fits q a) eqn:E; [done|]. done. Qed.

Lemma run_app q t u : sforall (fits q) t = true → (match u with String a _ => fits q a = false | "" => True end) →
  run q (t +:+ u) = t ∧ after q (t +:+ u) = u.
Proof.
  intros Ht Hu. induction t as [|a t IH]; simpl in *.
  - destruct u; simpl; [done|]. by rewrite Hu.
  - apply andb_true_iff in Ht as [-> Ht]. destruct (IH Ht) as [-> ->]. done.
Qed.

(** One character. *)
Lemma pclass_spec q c s : flat q →
  match c_rest c with
  | "" => pclass q c s = Fail s
  | String a r => pclass q c s = if fits q a then Match tt (next c) s else Fail s
  end.
Proof.
  intros Hq. unfold pclass. destruct (c_rest c) as [|a r] eqn:E.
  { apply at_end_spec in E. by rewrite E. }
  destruct (at_end c) eqn:Ee; [by apply at_end_spec in Ee; rewrite Ee in E|].
  unfold fits. destruct (N.ltb_spec (byte a) 128) as [H|H].
  - by rewrite (cur_rn_ascii _ _ _ E).
  - rewrite Hq; [done|]. eapply cur_rn_high; [done|]. by apply N.leb_le.
Qed.

(** The bytes of a character fit together. *)
Lemma rune_fits q c a r : c_rest c = String a r → fits q a = true →
  run q (c_rest c) = rune_bytes c +:+ run q (c_rest (next c)) ∧
  after q (c_rest c) = after q (c_rest (next c)).
Proof.
  intros E Ha. rewrite next_rest. unfold rune_bytes, cur_w. rewrite E. 
  assert (∀ b, high a = true → high b = true → fits q b = true) as Hb.
  { intros b Hh Hb. unfold fits in *. rewrite high_lt in * by done. done. }
  destruct (decode_cases a r); subst; simpl; rewrite Ha; simpl; [done|done|..];
    rewrite ?Hb by done; done.
Qed.

Lemma many_class q R c s acc : flat q → left c < R →
  ∃ l c', pmany_go (pclass q) R acc c s = Match (acc ++ l) c' s ∧ reach c c' ∧
    slice c c' = run q (c_rest c) ∧ c_rest c' = after q (c_rest c) ∧ (l = [] ↔ run q (c_rest c) = "").
Proof.
  intros Hq. revert c acc. induction R as [|R IH]; intros c acc HR; [lia|]. simpl.
  pose proof (pclass_spec q c s Hq) as Hc.
  destruct (c_rest c) as [|a r] eqn:E; rewrite Hc; clear Hc.
  - exists [], c. rewrite app_nil_r. split_and!; [done|apply reach_refl|apply slice_refl|by rewrite E|done].
  - destruct (fits q a) eqn:Ef.
    + assert (c_rest c ≠ "") as Hm by by rewrite E.
      pose proof (step_left c (next c) ltac:(done)) as [Hl _].
      destruct (IH (next c) (acc ++ [tt]) ltac:(lia)) as (l & c' & H1 & H2 & H3 & H4 & H5).
      destruct (rune_fits q c a r E Ef) as [E1 E2]. rewrite E in E1, E2.
      exists (tt :: l), c'. rewrite H1, <- (assoc_L (++)). rewrite E1, E2. split_and!; [done| | |done|].
      * eapply reach_trans; [by apply reach_next|done].
      * rewrite <- H3. rewrite (slice_app _ (next c)); [|by apply reach_next|done]. f_equal.
        unfold slice, rune_bytes. rewrite next_off. f_equal. lia.
      * split; [done|]. intros Ex. exfalso. apply (f_equal String.length) in Ex.
        rewrite app_length', rune_bytes_length in Ex. simpl in Ex.
        pose proof (cur_w_bounds c Hm). lia.
    + exists [], c. rewrite app_nil_r. simpl. rewrite Ef.
      split_and!; [done|apply reach_refl|apply slice_refl|done|done].
Qed.

Lemma pmany_class q c s : flat q →
  ∃ l c', pmany (pclass q) c s = Match l c' s ∧ reach c c' ∧
    slice c c' = run q (c_rest c) ∧ c_rest c' = after q (c_rest c) ∧ (l = [] ↔ run q (c_rest c) = "").
Proof. intros Hq. apply (many_class q _ c s [] Hq). unfold left. lia. Qed.

(** The text of a run. *)
Lemma ptext_many_class q c s : flat q →
  ∃ c', ptext (pmany (pclass q)) c s = Match (run q (c_rest c)) c' s ∧ reach c c' ∧ c_rest c' = after q (c_rest c).
Proof.
  intros Hq. destruct (pmany_class q c s Hq) as (l & c' & H1 & H2 & H3 & H4 & _).
  exists c'. unfold ptext. rewrite H1, H3. done.
Qed.
Lemma ptext_many1_class q c s : flat q →
  (run q (c_rest c) = "" ∧ ptext (pmany1 (pclass q)) c s = Fail s) ∨
  (run q (c_rest c) ≠ "" ∧ ∃ c', ptext (pmany1 (pclass q)) c s = Match (run q (c_rest c)) c' s ∧
     reach c c' ∧ c_rest c' = after q (c_rest c)).
Proof.
  intros Hq. destruct (pmany_class q c s Hq) as (l & c' & H1 & H2 & H3 & H4 & H5).
  unfold ptext, pmany1. rewrite H1. destruct l as [|x l].
  - left. split; [by apply H5|done].
  - right. split; [intros E; by apply H5 in E|]. exists c'. by rewrite H3.
Qed.

(** Literals. *)
Lemma plit_go_spec w c : ascii_only w = true →
  match plit_go w c with
  | Some c' => reach c c' ∧ c_rest c = w +:+ c_rest c' ∧ slice c c' = w
  | None => has_prefix w (c_rest c) = false
  end.
Proof.
  revert c. induction w as [|a w IH]; intros c Hw; simpl.
  - split_and!; [apply reach_refl|done|apply slice_refl].
  - unfold ascii_only in Hw. simpl in Hw. apply andb_true_iff in Hw as [Ha Hw]. apply N.ltb_lt in Ha.
    destruct (N.eqb_spec (cur_rn c) (byte a)) as [E|E].
    + apply cur_ascii in E as (b & r & Er & Hb & Hcw); [|done]. apply byte_inj in Hb as ->.
      assert (reach c (next c)) as Hn by (apply reach_next; by rewrite Er).
      specialize (IH (next c) Hw). rewrite next_rest, Hcw, Er in IH. simpl in IH. rewrite Er. simpl.
      rewrite Ascii.eqb_refl. simpl.
      destruct (plit_go w (next c)) as [c'|]; [|done]. destruct IH as (H1 & H2 & H3). split_and!.
      * by eapply reach_trans.
      * by rewrite H2.
      * rewrite (slice_app _ (next c)) by done. rewrite H3.
        assert (slice c (next c) = String a "") as ->; [|done].
        unfold slice. rewrite next_off, Hcw, Er. replace (c_off c + 1 - c_off c) with 1 by lia. done.
    + destruct (c_rest c) as [|b r] eqn:Er; [done|]. simpl.
      destruct (Ascii.eqb_spec a b) as [<-|]; [|done]. exfalso. apply E. by eapply cur_rn_ascii.
Qed.

Lemma has_prefix_app w u : has_prefix w (w +:+ u) = true.
Proof. induction w as [|a w IH]; simpl; [done|]. by rewrite Ascii.eqb_refl. Qed.

Lemma plit_yes w u c s : ascii_only w = true → c_rest c = w +:+ u →
  ∃ c', plit w c s = Match tt c' s ∧ reach c c' ∧ c_rest c' = u ∧ slice c c' = w.
Proof.
  intros Hw E. unfold plit. pose proof (plit_go_spec w c Hw) as H. destruct (plit_go w c) as [c'|].
  - destruct H as (H1 & H2 & H3). exists c'. split_and!; [done|done| |done].
    rewrite E in H2. clear -H2. induction w as [|a w IH]; simpl in H2; [done|]. simplify_eq. auto.
  - rewrite E, has_prefix_app in H. done.
Qed.
Lemma plit_no w c s : ascii_only w = true → has_prefix w (c_rest c) = false → plit w c s = Fail s.
Proof.
  intros Hw E. unfold plit. pose proof (plit_go_spec w c Hw) as H. destruct (plit_go w c) as [c'|]; [|done].
  destruct H as (_ & H2 & _). rewrite H2, has_prefix_app in E. done.
Qed.
Lemma plit_inv w c s a c' s' : ascii_only w = true → plit w c s = Match a c' s' →
  reach c c' ∧ s' = s ∧ c_rest c = w +:+ c_rest c' ∧ slice c c' = w.
Proof.
  intros Hw. unfold plit. pose proof (plit_go_spec w c Hw) as H. destruct (plit_go w c) as [c1|]; [|done].
  intros [= <- <- <-]. destruct H as (H1 & H2 & H3). done.
Qed.
