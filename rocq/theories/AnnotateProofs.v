(** Reading a line of a file. *)
From Coq Require Import Ascii String ZArith Lia.
From stdpp Require Import base tactics strings list.
From Verif Require Import GoBase StrProofs Ast Section ParseSpec Annotate.
Local Open Scope string_scope.

Lemma index_nl_none s : no_char nl s = true → index_nl s = None.
Proof.
  unfold no_char. induction s as [|c s IH]; [done|]. cbn [sforall index_nl].
  intros [H1 H2]%andb_true_iff. apply negb_true_iff in H1 as ->. by rewrite IH.
Qed.
Lemma index_nl_some a b n : no_char nl a = true → String.length a < n →
  index_nl (stake n (a +:+ String nl b)) = Some (String.length a).
Proof.
  unfold no_char. revert n. induction a as [|c a IH]; intros [|n] H Hn; simpl in Hn; try lia.
  - reflexivity.
  - cbn [sforall] in H. apply andb_true_iff in H as [H1 H2]. apply negb_true_iff in H1.
    cbn [append stake index_nl String.length]. rewrite H1, IH by (done || lia). done.
Qed.
Lemma stake_no_char c n s : no_char c s = true → no_char c (stake n s) = true.
Proof.
  unfold no_char. revert n. induction s as [|a s IH]; intros [|n] H; try done. cbn [sforall stake] in *.
  apply andb_true_iff in H as [H1 H2]. rewrite H1. by apply IH.
Qed.

Lemma read_line_mid size a b : no_char nl a = true → String.length a < size →
  read_line size (a +:+ String nl b) = Some (drop_cr a, b).
Proof.
  intros Ha Hl. unfold read_line. destruct (a +:+ String nl b) eqn:E; [by destruct a|]. rewrite <- E.
  rewrite index_nl_some by done. rewrite stake_app. f_equal. f_equal.
  replace (S (String.length a)) with (String.length (a +:+ String nl "")) by (rewrite slength_app; simpl; lia).
  change (String nl b) with (String nl "" +:+ b). rewrite <- sapp_assoc. apply sdrop_app.
Qed.
Lemma read_line_last size a : no_char nl a = true → a ≠ "" → String.length a < size →
  read_line size a = Some (a, "").
Proof.
  intros Ha Hn Hl. unfold read_line. destruct a as [|c a]; [done|].
  rewrite index_nl_none by (by apply stake_no_char). apply Nat.ltb_lt in Hl as ->. done.
Qed.

(** What a line [k] of the file looks like: without line break and, unless it is
    the last line, without a carriage return before that. *)
Definition shown_line (lines : list string) (k : nat) : option string :=
  l ← lines !! k; Some (if Nat.eqb (S k) (length lines) then l else drop_cr l).

Lemma skip_lines_split size k s : k < length (ssplit nl s) →
  Forall (λ l, String.length l < size) (take k (ssplit nl s)) →
  skip_lines size k s = Some (sjoin (String nl "") (drop k (ssplit nl s))).
Proof.
  revert s. induction k as [|k IH]; intros s Hk Hf.
  - cbn [skip_lines]. by rewrite drop_0, sjoin_ssplit.
  - pose proof (sjoin_ssplit nl s) as E. pose proof (ssplit_forall_no_char nl s) as Hn.
    destruct (ssplit nl s) as [|w [|w' ws]] eqn:Es; simpl in Hk; [lia..|].
    inversion_clear Hn as [|? ? Hw Hws]. simpl in Hf. inversion_clear Hf as [|? ? Hlw Hf'].
    rewrite sjoin_cons in E. change (String nl "" +:+ ?x) with (String nl x) in E. rewrite <- E. cbn [skip_lines].
    rewrite read_line_mid by done. cbn [mbind option_bind snd].
    rewrite IH; rewrite ssplit_sjoin by done; [done|simpl; lia|done].
Qed.

Lemma line_read size s k l : Forall (λ l, String.length l < size) (take (S k) (ssplit nl s)) →
  shown_line (ssplit nl s) k = Some l → line_in_question size s (S k) = Some l.
Proof.
  unfold shown_line. intros Hf H. destruct (ssplit nl s !! k) as [x|] eqn:Ex; [|done]. cbn [mbind option_bind] in H.
  pose proof (lookup_lt_Some _ _ _ Ex) as Hk. unfold line_in_question.
  replace (S k - 1) with k by lia. rewrite skip_lines_split; [|done|].
  2:{ rewrite (take_S_r _ _ _ Ex) in Hf. by apply Forall_app in Hf as [? _]. }
  cbn [mbind option_bind]. rewrite (drop_S _ _ _ Ex).
  pose proof (ssplit_forall_no_char nl s) as Hn.
  assert (no_char nl x = true) as Hx. { rewrite Forall_forall in Hn. apply Hn. by eapply elem_of_list_lookup_2. }
  assert (String.length x < size) as Hlx.
  { rewrite (take_S_r _ _ _ Ex) in Hf. apply Forall_app in Hf as [_ Hf]. by inversion Hf. }
  destruct (drop (S k) (ssplit nl s)) as [|y ys] eqn:Ed.
  - assert (S k = length (ssplit nl s)) as E.
    { apply (f_equal length) in Ed. rewrite drop_length in Ed. simpl in Ed. lia. }
    rewrite E, Nat.eqb_refl in H. injection H as <-. cbn [sjoin]. destruct x as [|c x]; [done|].
    by rewrite read_line_last.
  - assert (Nat.eqb (S k) (length (ssplit nl s)) = false) as E.
    { apply Nat.eqb_neq. apply (f_equal length) in Ed. rewrite drop_length in Ed. simpl in Ed. lia. }
    rewrite E in H. injection H as <-. rewrite sjoin_cons. cbn [append]. by rewrite read_line_mid.
Qed.

(** Lines around a position. *)
Definition since_lf (pre : string) : string := default "" (last (ssplit nl pre)).
Definition until_lf (post : string) : string := default "" (head (ssplit nl post)).

Lemma ssplit_around pre post : ssplit nl (pre +:+ post) !! lf_count pre = Some (since_lf pre +:+ until_lf post).
Proof.
  induction pre as [|c pre IH].
  - unfold since_lf, until_lf. simpl. destruct (ssplit nl post) eqn:E; [by apply ssplit_not_nil in E|done].
  - cbn [append ssplit lf_count]. unfold since_lf in *. cbn [ssplit].
    destruct (Ascii.eqb_spec c nl) as [->|Hc].
    + change (ssplit nl (pre +:+ post) !! lf_count pre =
        Some (default "" (last ("" :: ssplit nl pre)) +:+ until_lf post)). rewrite IH.
      destruct (ssplit nl pre) as [|w ws] eqn:E; [by apply ssplit_not_nil in E|]. done.
    + destruct (ssplit nl (pre +:+ post)) as [|w ws] eqn:E; [by apply ssplit_not_nil in E|].
      destruct (ssplit nl pre) as [|v vs] eqn:E'; [by apply ssplit_not_nil in E'|].
      simpl (0 + _). assert (lf_count pre = length vs) as Hl.
      { clear -E'. revert v vs E'. induction pre as [|a pre IH]; intros v vs E; simpl in E; [by simplify_eq|].
        cbn [lf_count]. destruct (ssplit nl pre) as [|x xs] eqn:Ex; [by apply ssplit_not_nil in Ex|].
        destruct (Ascii.eqb a nl); simplify_eq; rewrite (IH _ _ eq_refl); done. }
      rewrite Hl in *. destruct vs as [|v' vs].
      * simpl in IH |- *. injection IH as ->. done.
      * simpl in IH |- *. exact IH.
Qed.

(** The number of characters: bytes that do not continue one. *)
Definition char_count (s : string) : nat := String.length (sfilter (λ a, negb (continues a)) s).

Lemma col_chars pre k : col_from k pre = (if Nat.eqb (lf_count pre) 0 then k else 1) + char_count (since_lf pre).
Proof.
  unfold since_lf, char_count. revert k. induction pre as [|c pre IH]; intros k.
  - simpl. lia.
  - cbn [col_from lf_count ssplit].
    destruct (ssplit nl pre) as [|v vs] eqn:E; [by apply ssplit_not_nil in E|].
    destruct (Ascii.eqb_spec c nl) as [->|Hc].
    + simpl (1 + _). rewrite IH by (by simpl in *). simpl. by destruct (Nat.eqb (lf_count pre) 0).
    + simpl (0 + _). destruct vs as [|v' vs].
      * simpl. rewrite IH. simpl.
        assert (lf_count pre = 0) as ->.
        { clear -E. revert v E. induction pre as [|a pre IH]; intros v E; simpl in *; [done|].
          destruct (ssplit nl pre) as [|x xs] eqn:Ex; [by apply ssplit_not_nil in Ex|].
          destruct (Ascii.eqb a nl); [by simplify_eq|]. simplify_eq. by eapply IH. }
        simpl. destruct (continues c); simpl; lia.
      * rewrite IH by done. simpl.
        assert (lf_count pre ≠ 0) as Hne.
        { intros E0. pose proof (ssplit_around pre "") as X. clear -E0 E. revert v v' vs E.
          induction pre as [|a pre IH]; intros v v' vs E; simpl in *; [done|].
          destruct (Ascii.eqb a nl); [done|]. destruct (ssplit nl pre) as [|x [|x' xs]] eqn:Ex; simplify_eq.
          eapply IH; [done|reflexivity]. }
        apply Nat.eqb_neq in Hne as ->. done.
Qed.
Lemma col_since pre k : sforall (λ a, negb (continues a)) (since_lf pre) = true →
  col_from k pre = (if Nat.eqb (lf_count pre) 0 then k else 1) + String.length (since_lf pre).
Proof. intros H. rewrite col_chars. unfold char_count. by rewrite sforall_sfilter_id. Qed.
