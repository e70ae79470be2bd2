(** Positions of the parser are positions in the file. *)
From Coq Require Import Ascii String NArith ZArith Lia.
From stdpp Require Import base tactics relations strings numbers list.
From Verif Require Import GoBase Ast Utf8 Peg StrProofs PegBase PegErrs DescentProofs ParseSpec ParserMain Encoding.
Local Open Scope string_scope.
Local Open Scope list_scope.

Lemma encode_ne x : encode x ≠ "".
Proof. unfold encode. by repeat case_match. Qed.

Lemma sdrop_app n a b : n = String.length a → sdrop n (a +:+ b) = b.
Proof. intros ->. induction a; simpl; [by destruct b|done]. Qed.
Lemma stake_app n a b : n = String.length a → stake n (a +:+ b) = a.
Proof. intros ->. induction a as [|x a IH]; simpl; [done|by rewrite IH]. Qed.
Lemma stake_sdrop n s : s = stake n s +:+ sdrop n s.
Proof. revert s. induction n as [|n IH]; intros [|a s]; simpl; [done..|]. by rewrite <- IH. Qed.

Lemma utf8_app a b : utf8 (a ++ b) = utf8 a +:+ utf8 b.
Proof. unfold utf8. rewrite map_app. apply sconcat_app. Qed.

(** ** Valid encodings *)

Lemma clean_from_valid c : (∀ c', reach c c' → bad_rune c' = false) → valid_utf8 (c_rest c).
Proof.
  remember (left c) as n eqn:En. revert c En.
  induction n as [n IH] using (well_founded_induction lt_wf). intros c -> Hc.
  destruct (c_rest c) as [|a r] eqn:Er; [by exists []|].
  destruct (decode_rune (String a r)) as [x w] eqn:Ed.
  pose proof (Hc c (reach_refl c)) as Hb. unfold bad_rune, cur_rn, cur_w in Hb. rewrite Er, Ed in Hb. simpl in Hb.
  destruct (encode_decode a r x w Ed) as (Hs & Hw & u & Hu).
  { intros -> ->. done. }
  assert (c_rest c ≠ "") as Hm by by rewrite Er.
  assert (c_rest (next c) = u) as Hn.
  { rewrite next_rest. unfold cur_w. rewrite Er, Ed. simpl. rewrite Hu. by apply sdrop_app. }
  destruct (IH (left (next c))) with (c := next c) as (xs & Hxs & E); [|done| |].
  - by apply (step_left c (next c)).
  - intros c' Hr. apply Hc. eapply reach_trans; [by apply reach_next|done].
  - exists (x :: xs). split; [by constructor|]. rewrite Hu. change (utf8 (x :: xs)) with (encode x +:+ utf8 xs).
    by rewrite <- E, Hn.
Qed.

Lemma valid_from_clean xs : Forall scalar xs → ∀ c, c_rest c = utf8 xs →
  ∀ c', reach c c' → bad_rune c' = false ∧ ∃ ys, Forall scalar ys ∧ c_rest c' = utf8 ys.
Proof.
  induction 1 as [|x xs Hx Hxs IH]; intros c Ec c' Hr.
  - inversion Hr as [|? ? ? [Hn _]]; subst; [|by destruct Hn].
    unfold bad_rune, cur_rn, cur_w. rewrite Ec. split; [done|]. by exists [].
  - change (utf8 (x :: xs)) with (encode x +:+ utf8 xs) in Ec.
    inversion Hr as [|? c1 ? [Hn ->] Hr2]; subst.
    + unfold bad_rune, cur_rn, cur_w. rewrite Ec, decode_encode by done. simpl. split; [|exists (x :: xs); auto].
      destruct (N.eqb_spec x rune_error) as [->|]; done.
    + apply (IH (next c)); [|done]. rewrite next_rest. unfold cur_w. rewrite Ec, decode_encode by done.
      by apply sdrop_app.
Qed.

Lemma clean_valid d : clean d ↔ valid_utf8 d.
Proof.
  unfold clean. split.
  - intros H. apply clean_from_valid in H. unfold origin in H. by rewrite arrive_rest in H.
  - intros (xs & Hxs & ->) c Hc. eapply valid_from_clean; [exact Hxs| |done]. apply arrive_rest.
Qed.

(** ** Lines and columns *)

Lemma lf_count_app a b : lf_count (a +:+ b) = lf_count a + lf_count b.
Proof. induction a as [|x a IH]; simpl; [done|]. rewrite IH. lia. Qed.
Lemma col_from_app k a b : col_from k (a +:+ b) = col_from (col_from k a) b.
Proof. revert k. induction a as [|x a IH]; intros k; simpl; [done|apply IH]. Qed.

Lemma high_not_nl a : high a = true → Ascii.eqb a nl = false.
Proof. intros H. destruct (Ascii.eqb_spec a nl) as [->|]; done. Qed.

Lemma nl_rune c : (cur_rn c =? 10)%N = match c_rest c with String a _ => Ascii.eqb a nl | "" => false end.
Proof.
  unfold cur_rn. destruct (c_rest c) as [|a r]; [done|].
  destruct (decode_cases a r) as [H|H| | |]; simpl.
  - destruct (Ascii.eqb_spec a nl) as [->|Hn]; [done|]. apply N.eqb_neq. intros E. apply Hn. by apply byte_inj.
  - by rewrite high_not_nl.
  - rewrite high_not_nl by done. apply N.eqb_neq. lia.
  - rewrite high_not_nl by done. apply N.eqb_neq. lia.
  - rewrite high_not_nl by done. apply N.eqb_neq. lia.
Qed.

Definition at_nl (s : string) : bool := match s with String a _ => Ascii.eqb a nl | "" => false end.

Lemma arrive_line l k o r : c_line (arrive l k o r) = (if at_nl r then S l else l) ∧
  c_col (arrive l k o r) = (if at_nl r then 0 else S k).
Proof.
  unfold arrive. pose proof (nl_rune (Cur 0 0 0 r)) as H. unfold cur_rn in H. simpl in H.
  fold (at_nl r) in H. rewrite H. by destruct (at_nl r).
Qed.

(** The bytes of the current rune. *)
Definition rune_bytes (c : cursor) : string := stake (cur_w c) (c_rest c).

Lemma rune_lf c : c_rest c ≠ "" → lf_count (rune_bytes c) = (if at_nl (c_rest c) then 1 else 0) ∧
  (at_nl (c_rest c) = true → rune_bytes c = nls).
Proof.
  unfold rune_bytes, cur_w. destruct (c_rest c) as [|a r]; [done|]. intros _.
  destruct (decode_cases a r); subst; simpl.
  - destruct (Ascii.eqb_spec a nl) as [->|]; done.
  - by rewrite high_not_nl.
  - by rewrite !high_not_nl.
  - by rewrite !high_not_nl.
  - by rewrite !high_not_nl.
Qed.

Record placed (d : string) (c : cursor) : Prop := Placed {
  pl_pre : d = stake (c_off c) d +:+ c_rest c;
  pl_off : String.length (stake (c_off c) d) = c_off c;
  pl_line : c_line c = (if at_nl (c_rest c) then 1 else 0) + line_after (stake (c_off c) d)
}.

Lemma placed_intro d pre c : d = pre +:+ c_rest c → c_off c = String.length pre →
  c_line c = (if at_nl (c_rest c) then 1 else 0) + line_after pre → placed d c.
Proof.
  intros H1 H2 H3. assert (stake (c_off c) d = pre) as E by (rewrite H1; by apply stake_app).
  constructor; by rewrite E.
Qed.

Lemma reach_ind (P : cursor → Prop) c0 : P c0 → (∀ c, reach c0 c → P c → c_rest c ≠ "" → P (next c)) →
  ∀ c, reach c0 c → P c.
Proof.
  intros H0 HS c H. unfold reach in H. revert c H. apply (rtc_ind_r P c0); [done|].
  intros c1 c2 H [Hm ->] IH. by apply HS.
Qed.

Lemma next_pre d c : placed d c → d = (stake (c_off c) d +:+ rune_bytes c) +:+ c_rest (next c).
Proof.
  intros [H _ _]. rewrite sapp_assoc, next_rest. unfold rune_bytes. by rewrite <- stake_sdrop.
Qed.
Lemma rune_bytes_length c : String.length (rune_bytes c) = cur_w c.
Proof.
  unfold rune_bytes, cur_w. destruct (c_rest c) as [|a r]; [done|].
  pose proof (decode_width a r) as H. remember (snd _) as w. clear Heqw.
  assert (w ≤ String.length (String a r)) as Hw by (simpl; lia). clear H. revert Hw. generalize (String a r).
  clear. induction w as [|w IH]; intros [|a s]; simpl; [done|done|lia|]. intros H. f_equal. apply IH. lia.
Qed.
Lemma app_length' a b : String.length (a +:+ b) = String.length a + String.length b.
Proof. induction a as [|x a IH]; simpl; [done|by rewrite IH]. Qed.

Lemma next_stake d c : placed d c → stake (c_off (next c)) d = stake (c_off c) d +:+ rune_bytes c.
Proof.
  intros H. pose proof (next_pre d c H) as E. rewrite E at 1. apply stake_app.
  rewrite next_off, app_length', rune_bytes_length. by rewrite (pl_off _ _ H).
Qed.

Lemma reach_placed d c : reach (origin d) c → placed d c.
Proof.
  revert c. apply reach_ind.
  - apply (placed_intro d ""); unfold origin.
    + by rewrite arrive_rest.
    + by rewrite arrive_off.
    + destruct (arrive_line 1 0 0 d) as [-> _]. rewrite arrive_rest. by case_match.
  - intros c Hr Hp Hm. pose proof (next_pre d c Hp) as E.
    eapply placed_intro; [exact E| |].
    + rewrite next_off, app_length', rune_bytes_length. by rewrite (pl_off _ _ Hp).
    + unfold next at 1. destruct (arrive_line (c_line c) (c_col c) (c_off c + cur_w c) (sdrop (cur_w c) (c_rest c))) as [-> _].
      rewrite next_rest. unfold line_after. rewrite lf_count_app.
      destruct (rune_lf c Hm) as [-> _]. rewrite (pl_line _ _ Hp). unfold line_after. repeat case_match; lia.
Qed.

(** Columns need a valid encoding. *)
Lemma encode_cols x k : scalar x → x ≠ 10%N → col_from k (encode x) = S k.
Proof.
  intros Hs Hn. unfold encode.
  assert (∀ y, (y < 256)%N → y ≠ 10%N → Ascii.eqb (chr y) nl = false) as Hnl.
  { intros y Hy Hyn. destruct (Ascii.eqb_spec (chr y) nl) as [E|]; [|done].
    apply (f_equal byte) in E. rewrite byte_chr in E by done. done. }
  assert (∀ y, (y < 256)%N → continues (chr y) = ((128 <=? y) && (y <? 192))%N) as Hct.
  { intros y Hy. unfold continues. fold (byte (chr y)). by rewrite byte_chr. }
  assert (∀ y, (y < 64)%N → continues (chr (128 + y)) = true) as Hc1.
  { intros y Hy. rewrite Hct by num. apply andb_true_iff. split; [apply N.leb_le|apply N.ltb_lt]; num. }
  assert (∀ y, (192 <= y < 256)%N → continues (chr y) = false) as Hc2.
  { intros y Hy. rewrite Hct by num. apply andb_false_iff. right. apply N.ltb_ge. num. }
  destruct (N.ltb_spec x 128) as [H1|H1].
  { simpl. rewrite Hnl by num. rewrite Hct by num. destruct (N.leb_spec 128 x); [num|done]. }
  destruct (N.ltb_spec x 2048) as [H2|H2].
  { cbn [col_from]. rewrite !Hnl by num. rewrite (Hc2 (192 + x / 64)%N), Hc1 by num. done. }
  destruct (N.ltb_spec x 65536) as [H3|H3].
  { cbn [col_from]. rewrite !Hnl by num. rewrite (Hc2 (224 + x / 4096)%N), !Hc1 by num. done. }
  cbn [col_from]. rewrite !Hnl by num. rewrite (Hc2 (240 + x / 262144)%N), !Hc1 by num. done.
Qed.

Lemma reach_col d c : valid_utf8 d → reach (origin d) c →
  c_col c = if at_nl (c_rest c) then 0 else col_after (stake (c_off c) d).
Proof.
  intros (xs & Hxs & Hd) Hr. revert c Hr. apply reach_ind.
  - unfold origin. destruct (arrive_line 1 0 0 d) as [_ ->]. rewrite arrive_rest, arrive_off. done.
  - intros c Hr IH Hm. rewrite (next_stake d c (reach_placed d c Hr)).
    unfold next at 1. destruct (arrive_line (c_line c) (c_col c) (c_off c + cur_w c) (sdrop (cur_w c) (c_rest c))) as [_ ->].
    rewrite next_rest. destruct (at_nl (sdrop _ _)); [done|]. rewrite IH.
    unfold col_after. rewrite col_from_app. destruct (at_nl (c_rest c)) eqn:E.
    + destruct (rune_lf c Hm) as [_ ->]; done.
    + assert (c_rest (origin d) = utf8 xs) as Hc0 by (unfold origin; by rewrite arrive_rest).
      destruct (valid_from_clean xs Hxs (origin d) Hc0 c Hr) as (_ & [|y ys] & Hys & Ey); [by rewrite Ey in Hm|].
      apply Forall_cons in Hys as [Hy Hys]. change (utf8 (y :: ys)) with (encode y +:+ utf8 ys) in Ey.
      unfold rune_bytes, cur_w. rewrite Ey, decode_encode by done. simpl. rewrite stake_app by done.
      rewrite encode_cols; [done|done|]. intros ->. by rewrite Ey in E.
Qed.
