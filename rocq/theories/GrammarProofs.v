(** Every text the grammar derives is parsed back to its tree. *)
From Coq Require Import Ascii String NArith Lia.
From stdpp Require Import base tactics relations strings numbers list.
From Verif Require Import GoBase Ast Utf8 Peg StrProofs PegBase Descent DescentProofs ParseSpec ParserMain
  Encoding Positions Runs Shape Grammar.
Local Open Scope string_scope.
Local Open Scope list_scope.

(** ** Parsing as text in front of text *)

Definition parses {A} (p : nat → parser A) (w u : string) (s : store) (R : A → Prop) (s' : store) : Prop :=
  ∀ c, c_rest c = w +:+ u → ∃ a c', ev p c s (Match a c' s') ∧ c_rest c' = u ∧ R a.
Definition refuses {A} (p : nat → parser A) (u : string) (s s' : store) : Prop :=
  ∀ c, c_rest c = u → ev p c s (Fail s').

Lemma pa_ret {A} (a : A) u s (R : A → Prop) : R a → parses (λ _, pret a) "" u s R s.
Proof. intros H c Hc. exists a, c. split_and!; [by apply ev_const|done|done]. Qed.

Lemma pa_bind {A B} (p : nat → parser A) (f : nat → A → parser B) w1 w2 u s s1 s2 R1 R2 :
  parses p w1 (w2 +:+ u) s R1 s1 → (∀ a, R1 a → parses (λ n, f n a) w2 u s1 R2 s2) →
  parses (λ n, pbind (p n) (f n)) (w1 +:+ w2) u s R2 s2.
Proof.
  intros Hp Hf c Hc. rewrite sapp_assoc in Hc. destruct (Hp c Hc) as (a & c1 & H1 & H2 & H3).
  destruct (Hf a H3 c1 H2) as (b & c2 & H4 & H5 & H6). exists b, c2. split_and!; [by eapply ev_bind|done|done].
Qed.
(** The continuation consumes nothing. *)
Lemma pa_bind0 {A B} (p : nat → parser A) (f : nat → A → parser B) w u s s1 s2 R1 R2 :
  parses p w u s R1 s1 → (∀ a, R1 a → parses (λ n, f n a) "" u s1 R2 s2) →
  parses (λ n, pbind (p n) (f n)) w u s R2 s2.
Proof. intros Hp Hf. rewrite <- (sapp_nil_r w). by eapply pa_bind. Qed.

Lemma re_bind {A B} (p : nat → parser A) (f : nat → A → parser B) u s s' :
  refuses p u s s' → refuses (λ n, pbind (p n) (f n)) u s s'.
Proof. intros Hp c Hc. apply ev_bind_fail. by apply Hp. Qed.
Lemma re_bind2 {A B} (p : nat → parser A) (f : nat → A → parser B) w u s s1 s2 R :
  parses p w u s R s1 → (∀ a, R a → refuses (λ n, f n a) u s1 s2) →
  refuses (λ n, pbind (p n) (f n)) (w +:+ u) s s2.
Proof.
  intros Hp Hf c Hc. destruct (Hp c Hc) as (a & c1 & H1 & H2 & H3). eapply ev_bind; [done|]. by apply Hf.
Qed.

Lemma pa_alt_l {A} (p q : nat → parser A) w u s R s' : parses p w u s R s' → parses (λ n, palt (p n) (q n)) w u s R s'.
Proof. intros H c Hc. destruct (H c Hc) as (a & c' & H1 & H2 & H3). exists a, c'. split_and!; [by apply ev_alt_l|done|done]. Qed.
Lemma pa_alt_r {A} (p q : nat → parser A) w u s s1 R s' : refuses p (w +:+ u) s s1 → parses q w u s1 R s' →
  parses (λ n, palt (p n) (q n)) w u s R s'.
Proof.
  intros Hp H c Hc. destruct (H c Hc) as (a & c' & H1 & H2 & H3). exists a, c'.
  split_and!; [|done|done]. eapply ev_alt_r; [by apply Hp|done].
Qed.
Lemma re_alt {A} (p q : nat → parser A) u s s1 s' : refuses p u s s1 → refuses q u s1 s' →
  refuses (λ n, palt (p n) (q n)) u s s'.
Proof. intros Hp Hq c Hc. eapply ev_alt_r; [by apply Hp|by apply Hq]. Qed.

Lemma pa_opt_some {A} (p : nat → parser A) w u s (R : A → Prop) (R' : option A → Prop) s' : parses p w u s R s' → (∀ a, R a → R' (Some a)) →
  parses (λ n, popt (p n)) w u s R' s'.
Proof.
  intros H HR c Hc. destruct (H c Hc) as (a & c' & H1 & H2 & H3). exists (Some a), c'.
  split_and!; [by apply ev_opt_some|done|auto].
Qed.
Lemma pa_opt_none {A} (p : nat → parser A) u s (R : option A → Prop) s' : refuses p u s s' → R None →
  parses (λ n, popt (p n)) "" u s R s'.
Proof. intros H HR c Hc. exists None, c. split_and!; [apply ev_opt_none; by apply H|done|done]. Qed.

Lemma pa_weaken {A} (p : nat → parser A) w u s (R R' : A → Prop) s' : (∀ a, R a → R' a) →
  parses p w u s R s' → parses p w u s R' s'.
Proof. intros HR H c Hc. destruct (H c Hc) as (a & c' & H1 & H2 & H3). eauto 8. Qed.

Lemma pa_shift {A} (p : nat → parser A) w u s (R : A → Prop) s' :
  parses (λ n, p (S n)) w u s R s' → parses p w u s R s'.
Proof.
  intros H c Hc. destruct (H c Hc) as (a & c' & [n0 H1] & H2 & H3). exists a, c'. split_and!; [|done|done].
  exists (S n0). intros [|n] Hn; [lia|]. apply H1. lia.
Qed.
Lemma re_shift {A} (p : nat → parser A) u s s' : refuses (λ n, p (S n)) u s s' → refuses p u s s'.
Proof. intros H c Hc. destruct (H c Hc) as [n0 H1]. exists (S n0). intros [|n] Hn; [lia|]. apply H1. lia. Qed.

(** Repetition. *)
Lemma go_more {A} (p : parser A) R R' acc c s l c' s' : R ≤ R' →
  pmany_go p R acc c s = Match l c' s' → pmany_go p R' acc c s = Match l c' s'.
Proof.
  revert R' acc c s. induction R as [|R IH]; intros R' acc c s Hle; simpl; [done|].
  destruct R' as [|R']; [lia|]. simpl. destruct (p c s) as [| |a c1 s1]; [done|done|]. apply IH. lia.
Qed.
Lemma go_acc {A} (p : parser A) R acc c s : pmany_go p R acc c s =
  match pmany_go p R [] c s with Match l c' s' => Match (acc ++ l) c' s' | r => r end.
Proof.
  revert acc c s. induction R as [|R IH]; intros acc c s; simpl; [done|].
  destruct (p c s) as [| |a c1 s1]; [done|by rewrite app_nil_r|].
  rewrite (IH (acc ++ [a])), (IH [a]). destruct (pmany_go p R [] c1 s1); [done|done|]. by rewrite <- (assoc_L (++)).
Qed.

Lemma pa_many_nil {A} (p : nat → parser A) u s s' (R : list A → Prop) : refuses p u s s' → R [] →
  parses (λ n, pmany (p n)) "" u s R s'.
Proof.
  intros Hp HR c Hc. destruct (Hp c Hc) as [n0 H]. exists [], c. split_and!; [|done|done].
  exists n0. intros n Hn. unfold pmany. simpl. by rewrite H.
Qed.
Lemma pa_many_cons {A} (p : nat → parser A) w1 w2 u s s1 s2 R1 R2 (R : list A → Prop) : w1 ≠ "" →
  parses p w1 (w2 +:+ u) s R1 s1 → parses (λ n, pmany (p n)) w2 u s1 R2 s2 →
  (∀ a l, R1 a → R2 l → R (a :: l)) →
  parses (λ n, pmany (p n)) (w1 +:+ w2) u s R s2.
Proof.
  intros Hw Hp Hm HR c Hc. rewrite sapp_assoc in Hc. destruct (Hp c Hc) as (a & c1 & [n1 H1] & H2 & H3).
  destruct (Hm c1 H2) as (l & c2 & [n2 H4] & H5 & H6). exists (a :: l), c2.
  split_and!; [|done|auto]. exists (Nat.max n1 n2). intros n Hn. unfold pmany. simpl. rewrite H1 by lia.
  specialize (H4 n ltac:(lia)). unfold pmany in H4.
  rewrite go_acc. erewrite (go_more _ (S (String.length (c_rest c1)))); [done| |exact H4].
  rewrite Hc, H2, !app_length'. destruct w1; [done|]. simpl. lia.
Qed.
Lemma pa_many1 {A} (p : nat → parser A) w u s s' (R : list A → Prop) : (∀ l, R l → l ≠ []) →
  parses (λ n, pmany (p n)) w u s R s' → parses (λ n, pmany1 (p n)) w u s R s'.
Proof.
  intros Hn Hp c Hc. destruct (Hp c Hc) as (l & c1 & [n1 H1] & H2 & H3). exists l, c1.
  split_and!; [|done|done]. exists n1. intros n Hle. unfold pmany1. rewrite H1 by done.
  destruct l; [by destruct (Hn [])|done].
Qed.
Lemma re_many1 {A} (p : nat → parser A) u s s' : refuses p u s s' → refuses (λ n, pmany1 (p n)) u s s'.
Proof.
  intros Hp c Hc. destruct (Hp c Hc) as [n0 H]. exists n0. intros n Hn. unfold pmany1, pmany. simpl. by rewrite H.
Qed.

Lemma pa_lit w u s : ascii_only w = true → parses (λ _, plit w) w u s (λ _, True) s.
Proof.
  intros Hw c Hc. destruct (plit_yes w u c s Hw Hc) as (c' & H1 & H2 & H3 & H4). exists tt, c'.
  split_and!; [by apply ev_const|done|done].
Qed.
Lemma re_lit w u s : ascii_only w = true → starts w u = false → refuses (λ _, plit w) u s s.
Proof. intros Hw H c Hc. apply ev_const. apply plit_no; [done|by rewrite Hc]. Qed.

(** ** Characters *)

Lemma eqb_byte a b : (byte a =? byte b)%N = Ascii.eqb b a.
Proof.
  destruct (Ascii.eqb_spec b a) as [->|Hn]; [apply N.eqb_refl|]. apply N.eqb_neq. intros E. apply Hn.
  symmetry. by apply byte_inj.
Qed.

Ltac classes :=
  unfold fits, class_match; cbn [k_chars k_ranges k_inv existsb fst snd];
  rewrite !eqb_byte, ?orb_false_r.

Lemma high_no a b : (byte a <? 128)%N = false → (byte b <? 128)%N = true → Ascii.eqb a b = false.
Proof. intros H1 H2. destruct (Ascii.eqb_spec a b) as [->|]; [congruence|done]. Qed.

Lemma fits_blank a : fits blanks a = blank a.
Proof.
  unfold blanks, blank. classes. destruct (byte a <? 128)%N eqn:E; [done|].
  by rewrite !(high_no a) by done.
Qed.
Lemma fits_textc a : fits textc a = text_char a.
Proof.
  unfold textc, text_char, special, brk. classes. destruct (byte a <? 128)%N eqn:E.
  - rewrite <- negb_orb. f_equal. destruct (Ascii.eqb a "\"), (Ascii.eqb a "{"), (Ascii.eqb a "}"), (Ascii.eqb a cr), (Ascii.eqb a nl); done.
  - by rewrite !(high_no a) by done.
Qed.
Lemma fits_verbc a : fits verbc a = verb_char a.
Proof.
  unfold verbc, verb_char, brk. classes. destruct (byte a <? 128)%N eqn:E.
  - rewrite <- negb_orb. f_equal. destruct (Ascii.eqb a "}"), (Ascii.eqb a cr), (Ascii.eqb a nl); done.
  - by rewrite !(high_no a) by done.
Qed.
Lemma fits_escc a : fits escc a = special a.
Proof.
  unfold escc, special. classes. destruct (byte a <? 128)%N eqn:E.
  - destruct (Ascii.eqb a "\"), (Ascii.eqb a "{"), (Ascii.eqb a "}"); done.
  - by rewrite !(high_no a) by done.
Qed.

(** A run of a class. *)
Lemma pa_run q (P : ascii → bool) t u s : flat q → (∀ a, fits q a = P a) → sforall P t = true → ends P u →
  parses (λ _, ptext (pmany (pclass q))) t u s (λ x, x = t) s.
Proof.
  intros Hq HP Ht Hu c Hc. destruct (ptext_many_class q c s Hq) as (c' & H1 & H2 & H3).
  destruct (run_app q t u) as [E1 E2].
  { eapply sforall_impl; [|exact Ht]. intros a. by rewrite HP. }
  { destruct u; simpl in *; [done|by rewrite HP]. }
  rewrite Hc, E1 in H1. rewrite Hc, E2 in H3.
  exists t, c'. split_and!; [by apply ev_const|done|done].
Qed.
Lemma pa_run1 q (P : ascii → bool) t u s : flat q → (∀ a, fits q a = P a) → t ≠ "" → sforall P t = true → ends P u →
  parses (λ _, ptext (pmany1 (pclass q))) t u s (λ x, x = t) s.
Proof.
  intros Hq HP Hn Ht Hu c Hc.
  destruct (run_app q t u) as [E1 E2].
  { eapply sforall_impl; [|exact Ht]. intros a. by rewrite HP. }
  { destruct u; simpl in *; [done|by rewrite HP]. }
  destruct (ptext_many1_class q c s Hq) as [[E _]|(_ & c' & H1 & H2 & H3)]; [by rewrite Hc, E1 in E|].
  rewrite Hc, E1 in H1. rewrite Hc, E2 in H3.
  exists t, c'. split_and!; [by apply ev_const|done|done].
Qed.
Lemma re_run1 q (P : ascii → bool) u s : flat q → (∀ a, fits q a = P a) → ends P u →
  refuses (λ _, ptext (pmany1 (pclass q))) u s s.
Proof.
  intros Hq HP Hu c Hc. apply ev_const.
  destruct (ptext_many1_class q c s Hq) as [[_ E]|(E & _)]; [done|]. exfalso. apply E. rewrite Hc.
  destruct u as [|a u]; simpl in *; [done|]. by rewrite HP, Hu.
Qed.
Lemma pa_class q (P : ascii → bool) a u s : flat q → (∀ a, fits q a = P a) → k_inv q = false → P a = true →
  parses (λ _, pclass q) (String a "") u s (λ _, True) s.
Proof.
  intros Hq HP Hi Ha c Hc. pose proof (pclass_spec q c s Hq) as H. rewrite Hc in H. simpl in H.
  rewrite HP, Ha in H. exists tt, (next c). split_and!; [by apply ev_const| |done].
  assert (byte a < 128)%N as Hb.
  { rewrite <- HP in Ha. unfold fits in Ha. destruct (N.ltb_spec (byte a) 128); [done|congruence]. }
  rewrite next_rest, (cur_w_ascii c a u) by done. by rewrite Hc.
Qed.
Lemma re_class q (P : ascii → bool) u s : flat q → (∀ a, fits q a = P a) → ends P u →
  refuses (λ _, pclass q) u s s.
Proof.
  intros Hq HP Hu c Hc. apply ev_const. pose proof (pclass_spec q c s Hq) as H. rewrite Hc in H.
  destruct u as [|a u]; [done|]. simpl in Hu. by rewrite HP, Hu in H.
Qed.

Lemma pa_blanks t u s : sforall blank t = true → ends blank u →
  parses (λ _, p_blanks) t u s (λ _, True) s.
Proof.
  intros Ht Hu c Hc. destruct (pa_run blanks blank t u s flat_blanks fits_blank Ht Hu c Hc) as (a & c' & [n H1] & H2 & H3).
  specialize (H1 n ltac:(lia)). unfold ptext in H1. destruct (pmany (pclass blanks) c s) as [| |l c1 s1] eqn:E; try done.
  simplify_eq. exists l, c'. split_and!; [by apply ev_const|done|done].
Qed.

Lemma pa_break w u s : is_break w → parses (λ _, p_break) w u s (λ _, True) s.
Proof.
  intros [->| ->].
  - by apply pa_alt_l, pa_lit.
  - eapply pa_alt_r; [by apply re_lit|by apply pa_lit].
Qed.
Lemma re_break u s : no_break u → refuses (λ _, p_break) u s s.
Proof. intros [H1 H2]. eapply re_alt; by apply re_lit. Qed.

(** ** Comments *)

Lemma has_prefix_long w x y : String.length w ≤ String.length x → has_prefix w (x +:+ y) = has_prefix w x.
Proof.
  revert x. induction w as [|a w IH]; intros [|b x] H; simpl in *; [done|by destruct y|lia|].
  destruct (Ascii.eqb a b); simpl; [|done]. apply IH. lia.
Qed.

Lemma re_comment u s : no_comment u → refuses p_comment u s s.
Proof.
  intros [t v Ht Hv Hs]. apply re_shift. cbn [p_comment].
  eapply re_bind2; [by apply pa_blanks|]. intros _ _. apply re_bind. by apply re_lit.
Qed.

Lemma cbody_tail a r : a ≠ "{"%char → cbody (String a r) → cbody r.
Proof. intros Ha H. inversion H; subst; done. Qed.
Lemma cbody_blanks t b : sforall blank t = true → cbody (t +:+ b) → cbody b.
Proof.
  induction t as [|a t IH]; simpl; [done|]. intros [Ha Ht]%andb_true_iff H. apply IH; [done|].
  eapply cbody_tail; [|exact H]. by intros ->.
Qed.
Lemma cbody_high t b : sforall high t = true → cbody (t +:+ b) → cbody b.
Proof.
  induction t as [|a t IH]; simpl; [done|]. intros [Ha Ht]%andb_true_iff H. apply IH; [done|].
  eapply cbody_tail; [|exact H]. by intros ->.
Qed.

(** Reading one character in front of ASCII text. *)
Lemma read_one c a r u : c_rest c = String a (r +:+ u) → ends high u →
  ∃ r1 r2, r = r1 +:+ r2 ∧ sforall high r1 = true ∧ (byte a < 128 → r1 = "")%N ∧ c_rest (next c) = r2 +:+ u.
Proof.
  intros Hc Hu. rewrite next_rest. unfold cur_w. rewrite Hc.
  assert (∀ b x, r +:+ u = String b x → high b = true → ∃ r', r = String b r' ∧ x = r' +:+ u) as Hr.
  { intros b x E Hb. destruct r as [|b' r]; simpl in E; [|simplify_eq; by exists r].
    destruct u as [|b' u]; [done|]. simplify_eq. simpl in Hu. congruence. }
  destruct (decode_cases a (r +:+ u)) as [Ha|Ha|v b r' Ha Hb E _|v b b2 r' Ha Hb Hb2 E _|v b b2 b3 r' Ha Hb Hb2 Hb3 E _]; simpl.
  - exists "", r. done.
  - exists "", r. done.
  - apply Hr in E as (r1 & -> & _); [|done]. exists (String b ""), r1. simpl. rewrite Hb. split_and!; [done|done| |done].
    apply N.leb_le in Ha. lia.
  - apply Hr in E as (r1 & -> & E1); [|done]. symmetry in E1.
    assert (∃ r'', r1 = String b2 r'' ∧ r' = r'' +:+ u) as (r2 & -> & _).
    { destruct r1 as [|b' r1]; simpl in E1; [|simplify_eq; by eexists].
      destruct u as [|b' u]; [done|]. simplify_eq. simpl in Hu. congruence. }
    exists (String b (String b2 "")), r2. simpl. rewrite Hb, Hb2. split_and!; [done|done| |done].
    apply N.leb_le in Ha. lia.
  - apply Hr in E as (r1 & -> & E1); [|done]. symmetry in E1.
    assert (∃ r'', r1 = String b2 r'' ∧ String b3 r' = r'' +:+ u) as (r2 & -> & E2).
    { destruct r1 as [|b' r1]; simpl in E1; [|simplify_eq; by eexists].
      destruct u as [|b' u]; [done|]. simplify_eq. simpl in Hu. congruence. }
    assert (∃ r'', r2 = String b3 r'' ∧ r' = r'' +:+ u) as (r3 & -> & _).
    { symmetry in E2. destruct r2 as [|b' r2]; simpl in E2; [|simplify_eq; by eexists].
      destruct u as [|b' u]; [done|]. simplify_eq. simpl in Hu. congruence. }
    exists (String b (String b2 (String b3 ""))), r3. simpl. rewrite Hb, Hb2, Hb3. split_and!; [done|done| |done].
    apply N.leb_le in Ha. lia.
Qed.

Definition cbit (n : nat) : parser unit := palt (p_comment n) (pnot (plit "-}");~ pany).

(** Splitting of the text does not depend on the cursor. *)
Lemma read_one_text a r u : ends high u → ∃ r1 r2, r = r1 +:+ r2 ∧ sforall high r1 = true ∧ (byte a < 128 → r1 = "")%N ∧
  ∀ c, c_rest c = String a (r +:+ u) → c_rest (next c) = r2 +:+ u.
Proof.
  intros Hu. destruct (read_one (Cur 0 0 0 (String a (r +:+ u))) a r u eq_refl Hu) as (r1 & r2 & H1 & H2 & H3 & H4).
  exists r1, r2. split_and!; [done|done|done|]. intros c Hc. rewrite <- H4, !next_rest. unfold cur_w. by rewrite Hc.
Qed.

Lemma pa_cbit_char a r u s : ends high u → no_comment (String a (r +:+ u)) → starts "-}" (String a (r +:+ u)) = false →
  ∃ r1 r2, r = r1 +:+ r2 ∧ sforall high r1 = true ∧
    parses cbit (String a r1) (r2 +:+ u) s (λ _, True) s.
Proof.
  intros Hu Hc Hs. destruct (read_one_text a r u Hu) as (r1 & r2 & H1 & H2 & H3 & H4).
  exists r1, r2. split_and!; [done|done|]. unfold cbit.
  assert (String a r1 +:+ r2 +:+ u = String a (r +:+ u)) as E by (rewrite H1, <- (sapp_assoc _ r2 u); done).
  eapply pa_alt_r; [apply re_comment; by rewrite E|].
  intros c Ec. rewrite E in Ec. exists tt, (next c). split_and!; [|by apply H4|done].
  apply ev_const. unfold pbind, pnot. rewrite plit_no; [|done|by rewrite Ec]. unfold pany.
  destruct (at_end c) eqn:Ee; [|done]. apply at_end_spec in Ee. by rewrite Ec in Ee.
Qed.

Lemma split_blanks b : ∃ t b', b = t +:+ b' ∧ sforall blank t = true ∧ ends blank b'.
Proof.
  exists (run blanks b), (after blanks b). split_and!; [apply run_after| |].
  - eapply sforall_impl; [|apply run_fits]. intros x. by rewrite fits_blank.
  - pose proof (after_head blanks b) as H. destruct (after blanks b); simpl; [done|]. by rewrite <- fits_blank.
Qed.

Lemma pa_cbody k : ∀ b, String.length b < k → cbody b → ∀ u s,
  parses (λ n, pmany (cbit n)) b ("-}" +:+ u) s (λ _, True) s.
Proof.
  induction k as [|k IH]; [lia|]. intros b Hlt Hb u s.
  destruct (decide (b = "")) as [->|Hne].
  { apply pa_many_nil; [|done]. eapply re_alt.
    - apply re_comment. by apply (no_comment_intro "").
    - apply re_bind. intros c Hc.
      destruct (pa_lit "-}" u s eq_refl c Hc) as (x & c' & H & _). by eapply (ev_not_fail (λ _, plit "-}")). }
  destruct (split_blanks b) as (t & b' & Eb & Ht & Hb').
  assert (cbody b') as Hcb by (apply (cbody_blanks t); [done|by rewrite <- Eb]).
  assert (starts "{-" (b' +:+ "-}" +:+ u) = false ∨ ∃ b1 b2, b' = "{-" +:+ b1 +:+ "-}" +:+ b2 ∧ cbody b1 ∧ cbody b2) as [Hs|(b1 & b2 & E & H1 & H2)].
  { inversion Hcb as [|b1 b2 H1 H2 E|x r H1 H2 H3 E]; subst.
    - by left.
    - right. eauto.
    - left. rewrite <- (sapp_assoc _ "-}" u). unfold starts. rewrite has_prefix_long; [done|].
      change (String.length "{-") with 2. rewrite app_length'. simpl. lia. }
  - (* a character *)
    assert (no_comment (b +:+ "-}" +:+ u)) as Hnc.
    { rewrite Eb, sapp_assoc. constructor; [done| |done]. destruct b'; simpl in *; done. }
    assert (starts "-}" (b +:+ "-}" +:+ u) = false) as Hns.
    { rewrite Eb. destruct t as [|x t'] eqn:Et.
      - simpl in *. inversion Hcb as [|b1 b2 H1 H2 E|x r H1 H2 H3 E]; subst.
        + done.
        + done.
        + change (starts "-}" (String x r +:+ "-}" +:+ u) = false).
          rewrite <- (sapp_assoc _ "-}" u). unfold starts. rewrite has_prefix_long; [done|].
          rewrite app_length'. simpl. lia.
      - apply andb_true_iff in Ht as [Hx _]. unfold starts. cbn [has_prefix append].
        destruct (Ascii.eqb_spec "-" x) as [<-|]; done. }
    assert (∃ x r, b = String x r ∧ (high x = false → cbody r) ∧ (high x = true → cbody r)) as (x & r & -> & Hr1 & Hr2).
    { destruct b as [|x r]; [done|]. exists x, r. split; [done|].
      assert (cbody r) as Hr; [|done]. clear Hnc Hns. destruct t as [|y t']; cbn [append] in Eb.
      - rewrite <- Eb in Hcb, Hs. inversion Hcb as [|b1 b2 H1 H2 E|? ? H1 H2 H3]; subst; done.
      - injection Eb as -> ->. apply (cbody_tail y); [|done]. simpl in Ht. apply andb_true_iff in Ht as [Hy _]. by intros ->. }
    destruct (pa_cbit_char x r ("-}" +:+ u) s) as (r1 & r2 & E & Hh & Hp); [done|done|done|].
    assert (cbody r2) as Hr3.
    { apply (cbody_high r1); [done|]. rewrite <- E. destruct (high x); auto. }
    subst r. change (String x (r1 +:+ r2)) with (String x r1 +:+ r2).
    eapply pa_many_cons; [done|exact Hp| |done].
    apply IH; [|done]. simpl in Hlt. rewrite app_length' in Hlt. lia.
  - (* a nested comment *)
    rewrite Eb, E.
    assert (t +:+ "{-" +:+ b1 +:+ "-}" +:+ b2 = (t +:+ "{-" +:+ b1 +:+ "-}") +:+ b2) as ->.
    { by rewrite !sapp_assoc. }
    assert (String.length b1 < k ∧ String.length b2 < k) as [L1 L2].
    { rewrite Eb, E in Hlt. rewrite !app_length' in Hlt. simpl in Hlt. lia. }
    eapply pa_many_cons; [by destruct t| |by apply IH|done].
    unfold cbit. apply pa_alt_l. apply pa_shift. cbn [p_comment].
    eapply pa_bind; [apply pa_blanks; [done|done]|intros _ _].
    eapply pa_bind; [by apply pa_lit|intros _ _].
    eapply pa_bind; [by apply IH|intros _ _]. by apply pa_lit.
Qed.

Lemma pa_comment w u s : comment w → parses p_comment w u s (λ _, True) s.
Proof.
  intros [t b Ht Hb]. apply pa_shift. cbn [p_comment].
  eapply pa_bind; [apply pa_blanks; [done|done]|intros _ _].
  eapply pa_bind; [by apply pa_lit|intros _ _].
  eapply pa_bind; [apply (pa_cbody (S (String.length b))); [lia|done]|intros _ _]. by apply pa_lit.
Qed.
