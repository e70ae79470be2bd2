(** The bound of [esc_text] suffices. *)
From Coq Require Import Ascii String Lia.
From stdpp Require Import base tactics strings list.
From Verif Require Import GoBase StrProofs Html Tmpl TmplEsc.
Local Open Scope string_scope. Local Open Scope list_scope.

Notation len := String.length.

Lemma skip_sp_len s a b : skip_sp s = (a, b) → len b ≤ len s.
Proof.
  revert a b. induction s as [|c s IH]; intros a b; cbn [skip_sp].
  - by intros [= <- <-].
  - destruct (is_html_sp c).
    + destruct (skip_sp s) as [x y] eqn:E. intros [= <- <-]. specialize (IH _ _ eq_refl). simpl. lia.
    + by intros [= <- <-].
Qed.
Lemma tag_name_len s a b : tag_name s = (a, b) → len a + len b = len s.
Proof.
  revert a b. induction s as [|c s IH]; intros a b; cbn [tag_name].
  - by intros [= <- <-].
  - destruct (is_lower c || is_upper c || is_digit c).
    { destruct (tag_name s) as [x y]. intros [= <- <-]. specialize (IH _ _ eq_refl). simpl. lia. }
    destruct (Ascii.eqb c ":" || Ascii.eqb c "-"); [|by intros [= <- <-]].
    destruct s as [|d s']; [by intros [= <- <-]|].
    destruct (is_lower d || is_upper d || is_digit d); [|by intros [= <- <-]].
    destruct (tag_name (String d s')) as [x y]. intros [= <- <-]. specialize (IH _ _ eq_refl). simpl in *. lia.
Qed.
Lemma eat_tag_name_len s a b : eat_tag_name s = (a, b) → len a + len b = len s.
Proof.
  unfold eat_tag_name. destruct s as [|c s]; [by intros [= <- <-]|].
  destruct (is_lower c || is_upper c); [apply tag_name_len|by intros [= <- <-]].
Qed.
Lemma attr_name_len s a b : attr_name s = Some (a, b) → len a + len b = len s.
Proof.
  revert a b. induction s as [|c s IH]; intros a b; cbn [attr_name].
  - by intros [= <- <-].
  - destruct (is_html_sp c || Ascii.eqb c "=" || Ascii.eqb c ">"); [by intros [= <- <-]|].
    destruct (Ascii.eqb c "'" || Ascii.eqb c """" || Ascii.eqb c "<"); [done|].
    destruct (attr_name s) as [[x y]|]; [|done]. cbn [base.mbind option_bind]. intros [= <- <-].
    specialize (IH _ _ eq_refl). simpl. lia.
Qed.
Lemma split_end_len e s a b : split_end e s = (a, Some b) → len a + len b = len s ∧ ends_element e b = true.
Proof.
  revert a b. induction s as [|c s IH]; intros a b; cbn [split_end].
  - destruct (ends_element e "") eqn:E; [by intros [= <- <-]|done].
  - destruct (ends_element e (String c s)) eqn:E; [by intros [= <- <-]|].
    destruct (split_end e s) as [x o]. intros [= <- ->]. destruct (IH _ _ eq_refl) as [? ?]. split; [simpl; lia|done].
Qed.
Lemma split_char_len q s a b : split_char q s = (a, Some b) → len a + S (len b) = len s.
Proof.
  revert a b. induction s as [|c s IH]; intros a b; cbn [split_char]; [done|].
  destruct (Ascii.eqb c q); [by intros [= <- <-]|].
  destruct (split_char q s) as [x o]. intros [= <- ->]. specialize (IH _ _ eq_refl). simpl. lia.
Qed.

Definition rank (c : hctx) : nat :=
  match c with HAttrName _ _ => 3 | HAfterName _ _ => 2 | HRcdata _ | HRaw _ => 1 | _ => 0 end.

Lemma esc_text_fuel n : ∀ m c s, 4 * len s + rank c < n → 4 * len s + rank c < m → esc_text n c s = esc_text m c s.
Proof.
  induction n as [|n IH]; intros m c s Hn Hm; [lia|]. destruct m as [|m]; [lia|].
  destruct s as [|x r]; [done|]. cbn [esc_text]. cbn [len] in *.
  destruct c as [|e|e|e|e a|e a|e a|e a q u]; cbn [rank] in *.
  - destruct (Ascii.eqb x "<"); [|f_equal; apply IH; cbn [rank]; lia].
    destruct (has_prefix "!--" r); [done|].
    destruct (match r with String d r' => if Ascii.eqb d "/" then ("/", r') else ("", r) | "" => ("", r) end) as [slash r'] eqn:Er.
    assert (len r' ≤ len r) as L.
    { destruct r as [|d r0]; [by injection Er as <- <-|]. destruct (Ascii.eqb d "/"); injection Er as <- <-; simpl; lia. }
    destruct (eat_tag_name r') as [name r''] eqn:Et. apply eat_tag_name_len in Et.
    destruct name; f_equal; apply IH; cbn [rank]; simpl in *; lia.
  - destruct (split_end e (String x r)) as [a [b|]] eqn:E; [|done]. apply split_end_len in E as [E _]. cbn [len] in E.
    f_equal. apply IH; cbn [rank]; lia.
  - destruct (split_end e (String x r)) as [a [b|]] eqn:E; [|done]. apply split_end_len in E as [E _]. cbn [len] in E.
    destruct (sforall is_html_sp a); [|done]. f_equal. apply IH; cbn [rank]; lia.
  - destruct (skip_sp (String x r)) as [sp y] eqn:E. apply skip_sp_len in E. cbn [len] in E.
    destruct y as [|y r']; [done|]. destruct (Ascii.eqb y ">").
    { f_equal. apply IH; cbn [len] in *; destruct e; cbn [content_of rank]; lia. }
    destruct (attr_name (String y r')) as [[name r'']|] eqn:Ea; [|done]. cbn [base.mbind option_bind].
    apply attr_name_len in Ea. destruct name as [|n0 name]; [done|]. destruct r'' as [|z r'']; [done|].
    f_equal. apply IH; cbn [rank len] in *; lia.
  - destruct (attr_name (String x r)) as [[name r'']|] eqn:Ea; [|done]. cbn [base.mbind option_bind].
    apply attr_name_len in Ea. destruct r'' as [|z r'']; [done|].
    f_equal. apply IH; cbn [rank len] in *; lia.
  - destruct (skip_sp (String x r)) as [sp y] eqn:E. apply skip_sp_len in E. cbn [len] in E.
    destruct y as [|y r']; [done|]. destruct (Ascii.eqb y "="); f_equal; apply IH; cbn [rank len] in *; lia.
  - destruct (skip_sp (String x r)) as [sp y] eqn:E. apply skip_sp_len in E. cbn [len] in E.
    destruct y as [|y r']; [done|]. destruct (Ascii.eqb y """" || Ascii.eqb y "'"); [|done].
    f_equal. apply IH; cbn [rank len] in *; lia.
  - destruct (split_char q (String x r)) as [v [b|]] eqn:E; [|done]. apply split_char_len in E. cbn [len] in E.
    f_equal. apply IH; cbn [rank len] in *; lia.
Qed.

(** No bound gives another result than the one that is used. *)
Lemma esc_text_bound n c s : 4 + 4 * len s ≤ n → esc_text n c s = esc_text (4 + 4 * len s) c s.
Proof. intros H. apply esc_text_fuel; destruct c; cbn [rank]; lia. Qed.
