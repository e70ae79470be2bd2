(** C40: the source line shown with an error. *)
From Coq Require Import Ascii String ZArith Lia.
From stdpp Require Import base tactics strings list.
From Verif Require Import GoBase StrProofs Ast Section ParseSpec Peg ParserMain Shape Props_Parser Annotate AnnotateProofs.
Local Open Scope string_scope. Local Open Scope list_scope.

Lemma slice_nat s (i j : nat) : i ≤ j → j ≤ String.length s →
  slice s (Z.of_nat i) (Z.of_nat j) = Some (stake (j - i) (sdrop i s)).
Proof.
  intros Hij Hj. unfold slice.
  assert ((0 <=? Z.of_nat i)%Z && (Z.of_nat i <=? Z.of_nat j)%Z && (Z.of_nat j <=? Z.of_nat (String.length s))%Z = true) as ->.
  { rewrite !andb_true_iff, !Z.leb_le. lia. }
  by rewrite <- Nat2Z.inj_sub, !Nat2Z.id by done.
Qed.

(** Columns count from one. Then nothing panics, and there are these cases: no
    location, no such file or line, a line too short for what is to be marked,
    and otherwise the line in three parts, the second beginning at the column and
    of the length to be marked. *)
Theorem annotated_parts : ∀ size file l, 1 ≤ l_col (el_loc l) →
  match annotated size file l with
  | APanic => False
  | ANone => l_line (el_loc l) = 0
  | AFail => file = None ∨ ∃ f, file = Some f ∧ line_in_question size f (l_line (el_loc l)) = None
  | AShow s => ∃ f line, file = Some f ∧ line_in_question size f (l_line (el_loc l)) = Some line ∧
      (String.length line < l_col (el_loc l) - 1 + el_len l ∧
         sn_prefix s = "" ∧ sn_annotated s = "" ∧ sn_suffix s = "" ∨
       line = sn_prefix s +:+ sn_annotated s +:+ sn_suffix s ∧
         String.length (sn_prefix s) = l_col (el_loc l) - 1 ∧ String.length (sn_annotated s) = el_len l)
  end.
Proof.
  intros size file [path [ln col off] n] Hc. simpl in Hc. unfold annotated. cbn [el_loc l_line l_col el_len].
  destruct (Nat.eqb ln 0) eqn:E0; [by apply Nat.eqb_eq in E0|].
  destruct file as [f|]; cbn [mbind option_bind]; [|by left].
  destruct (line_in_question size f ln) as [line|] eqn:El; [|right; by exists f].
  replace (Z.of_nat col - 1)%Z with (Z.of_nat (col - 1)) by lia. rewrite <- Nat2Z.inj_add.
  destruct (Z.leb_spec (Z.of_nat (col - 1 + n)) (Z.of_nat (String.length line))) as [Hle|Hlt].
  - assert (col - 1 + n ≤ String.length line) as Hl by lia.
    change 0%Z with (Z.of_nat 0). rewrite !slice_nat by lia. exists f, line. cbn [sn_prefix sn_annotated sn_suffix].
    split_and!; [done|done|]. right. rewrite Nat.sub_0_r. cbn [sdrop].
    replace (col - 1 + n - (col - 1)) with n by lia.
    assert (∀ a s, a ≤ String.length s → String.length (stake a s) = a) as Ht.
    { clear. intros a s. revert a. induction s as [|c s IH]; intros [|a] H; simpl in *; try lia. rewrite IH; lia. }
    assert (∀ a s, String.length (sdrop a s) = String.length s - a) as Hd.
    { clear. intros a s. revert a. induction s as [|c s IH]; intros [|a]; simpl; try lia; rewrite ?IH; lia. }
    assert (∀ a b s, sdrop (a + b) s = sdrop b (sdrop a s)) as Hdd.
    { clear. intros a b s. revert a. induction s as [|c s IH]; intros [|a]; simpl; try done. by destruct b. }
    assert (stake (String.length line - (col - 1 + n)) (sdrop (col - 1 + n) line) = sdrop (col - 1 + n) line) as ->.
    { rewrite <- (Hd (col - 1 + n) line). clear. generalize (sdrop (col - 1 + n) line). intros s.
      induction s as [|c s IH]; simpl; [done|]. by rewrite IH. }
    split_and!; [|apply Ht; lia|apply Ht; rewrite Hd; lia].
    rewrite Hdd, stake_sdrop, stake_sdrop. done.
  - exists f, line. cbn. split_and!; [done|done|]. left. split; [lia|done].
Qed.
Print Assumptions annotated_parts.

(** The line read is the one meant, if no line up to it fills the buffer. Line
    breaks are LF or CRLF. *)
Theorem annotated_right_line : ∀ size file k l,
  Forall (λ l, String.length l < size) (take (S k) (ssplit nl file)) →
  shown_line (ssplit nl file) k = Some l → line_in_question size file (S k) = Some l.
Proof. exact line_read. Qed.
Print Assumptions annotated_right_line.

(** The line of an invocation, as it is read back. *)
Lemma function_line size d top f args l : go_parse d = PVal (VNode top) →
  inside top (NInvoke f args l) → Forall (λ l, String.length l < size) (ssplit nl d) →
  ∃ pre post suffix, d = pre +:+ String "\" f +:+ post ∧ l_off l = String.length pre ∧
    l_line l = line_after pre ∧ l_col l = col_after pre ∧
    line_in_question size d (l_line l) = Some (since_lf pre +:+ String "\" f +:+ suffix) ∧
    (suffix = until_lf post ∨ suffix = drop_cr (until_lf post)).
Proof.
  intros Hp Hin Hs.
  destruct (invoke_located d top f args l Hp Hin) as [(pre & post & Hd & Hpost & Ho & Hl & Hc) [Hne Hok]].
  assert (∀ w x, sforall name_char w = true → until_lf (w +:+ x) = w +:+ until_lf x) as Hw.
  { clear. intros w x. induction w as [|c w IH]; [done|]. cbn [sforall append]. intros [H1 H2]%andb_true_iff.
    unfold until_lf in *. cbn [ssplit]. destruct (Ascii.eqb_spec c nl) as [->|]; [done|].
    destruct (ssplit nl (w +:+ x)) eqn:E; [by apply ssplit_not_nil in E|].
    simpl (default _ _). simpl in IH. by rewrite IH. }
  assert (until_lf (String "\" f +:+ post) = String "\" f +:+ until_lf post) as Hu.
  { change (String "\" f +:+ post) with (String "\" (f +:+ post)). unfold until_lf at 1. cbn [ssplit].
    pose proof (Hw f post Hok) as X. unfold until_lf at 1 in X.
    destruct (ssplit nl (f +:+ post)) eqn:E; [by apply ssplit_not_nil in E|]. simpl. simpl in X. by rewrite X. }
  pose proof (ssplit_around pre (String "\" f +:+ post)) as Hline.
  change (String "\" (f +:+ post)) with (String "\" f +:+ post) in Hd. rewrite <- Hd, Hu in Hline.
  set (raw := since_lf pre +:+ String "\" f +:+ until_lf post) in *.
  assert (∃ suffix, shown_line (ssplit nl d) (lf_count pre) = Some (since_lf pre +:+ String "\" f +:+ suffix) ∧
    (suffix = until_lf post ∨ suffix = drop_cr (until_lf post))) as (suffix & Hsh & Hsuf).
  { unfold shown_line. rewrite Hline. cbn [mbind option_bind]. destruct (Nat.eqb _ _); [by eexists; split; [reflexivity|left]|].
    exists (drop_cr (until_lf post)). split; [|by right]. f_equal. unfold raw.
    assert (∀ a b, (b = "" → drop_cr a = a) → drop_cr (a +:+ b) = a +:+ drop_cr b) as X.
    { clear. induction a as [|c a IH]; intros b H; [done|]. destruct b as [|c' b].
      - rewrite !sapp_nil_r, H by done. cbn [drop_cr]. done.
      - cbn [append]. rewrite <- IH by done. destruct a; done. }
    rewrite <- !sapp_assoc. apply X. intros _.
    assert (∀ a f, f ≠ "" → sforall name_char f = true → drop_cr (a +:+ String "\" f) = a +:+ String "\" f) as Y.
    { clear. intros a f Hn Hf. induction a as [|c a IH].
      - cbn [append]. destruct f as [|x f]; [done|]. change (drop_cr (String "\" (String x f))) with (String "\" (drop_cr (String x f))).
        f_equal. clear Hn. revert x Hf. induction f as [|y f IH]; intros x Hf.
        + simpl. destruct (Ascii.eqb_spec x cr) as [->|]; [done|done].
        + change (drop_cr (String x (String y f))) with (String x (drop_cr (String y f))). f_equal. apply IH.
          cbn [sforall] in Hf. by apply andb_true_iff in Hf as [_ Hf].
      - cbn [append]. rewrite <- IH at 2. destruct a; done. }
    by apply Y. }
  assert (line_in_question size d (l_line l) = Some (since_lf pre +:+ String "\" f +:+ suffix)) as Hq.
  { rewrite Hl. unfold line_after. simpl (1 + _). apply line_read; [by apply Forall_take|done]. }
  by exists pre, post, suffix.
Qed.

(** End to end: an error of a function called in a parsed document marks the
    backslash and the name of the function, where only ASCII comes before it on
    its line. *)
Theorem annotated_function : ∀ size d top f args l path, go_parse d = PVal (VNode top) →
  inside top (NInvoke f args l) → Forall (λ l, String.length l < size) (ssplit nl d) →
  ∃ pre post, d = pre +:+ String "\" f +:+ post ∧ l_off l = String.length pre ∧
   (sforall (λ a, negb (continues a)) (since_lf pre) = true →
    ∃ s suffix, annotated size (Some d) (ErrLoc path l (S (String.length f))) = AShow s ∧
      sn_prefix s = since_lf pre ∧ sn_annotated s = String "\" f ∧ sn_suffix s = suffix ∧
      (suffix = until_lf post ∨ suffix = drop_cr (until_lf post))).
Proof.
  intros size d top f args l path Hp Hin Hs.
  destruct (function_line size d top f args l Hp Hin Hs) as (pre & post & suffix & Hd & Ho & Hl & Hc & Hq & Hsuf).
  exists pre, post. split_and!; [done|done|]. intros Ha.
  assert (l_col l = S (String.length (since_lf pre))) as Hcol.
  { rewrite Hc. unfold col_after. rewrite col_since by done. by destruct (Nat.eqb _ _). }
  pose proof (annotated_parts size (Some d) (ErrLoc path l (S (String.length f)))) as P.
  cbn [el_loc el_len] in P. rewrite Hcol in P. specialize (P ltac:(lia)).
  destruct (annotated size (Some d) (ErrLoc path l (S (String.length f)))) as [| | |s].
  - rewrite Hl in P. unfold line_after in P. done.
  - destruct P as [P|(f' & [= <-] & P)]; [done|congruence].
  - done.
  - destruct P as (f' & line & [= <-] & Hline' & P). rewrite Hq in Hline'. injection Hline' as <-.
    exists s, suffix. split; [done|]. destruct P as [(P & _)|(P & Q1 & Q2)].
    + rewrite slength_app in P. cbn [append String.length] in P. rewrite slength_app in P. lia.
    + assert (∀ a a' b b', a +:+ b = a' +:+ b' → String.length a = String.length a' → a = a' ∧ b = b') as Inj.
      { clear. induction a as [|c a IH]; intros [|c' a'] b b' E H; simpl in *; try lia; [done|].
        injection E as -> E. injection H as H. destruct (IH _ _ _ E H) as [-> ->]. done. }
      destruct (Inj _ _ _ _ P) as [E1 P']; [lia|]. destruct (Inj (String "\" f) (sn_annotated s) suffix (sn_suffix s) P') as [E2 E3]; [simpl; lia|].
      split_and!; done.
Qed.
Print Assumptions annotated_function.

Example ex_annotated : ∃ top l, go_parse ("A" +:+ nls +:+ "b \foo{x}." +:+ nls) = PVal (VNode top) ∧
  inside top (NInvoke "foo" [NSeq [NString "x"]] l) ∧
  annotated 16 (Some ("A" +:+ nls +:+ "b \foo{x}." +:+ nls)) (ErrLoc "f" l 4) = AShow (Snippet false 2 "b " "\foo" "{x}.").
Proof.
  eexists _, (Loc 2 3 4). split; [vm_compute; reflexivity|]. split; [|vm_compute; reflexivity].
  eapply inside_seq; [left|]. eapply inside_para; [right; left|right; left|]. apply inside_refl.
Qed.

(** The snippet of a parse error at a line feed panics: its column is 0. *)
Theorem annotated_column_refuted : ∃ d l, go_parse d = PErr [(NoMatch, l)] ∧
  annotated 16 (Some d) (ErrLoc "f.lit" l 1) = APanic.
Proof. exists ("\" +:+ nls). eexists. split; vm_compute; reflexivity. Qed.
Print Assumptions annotated_column_refuted.

(** A parse error at the end of a line that is not empty shows nothing of it. *)
Theorem annotated_end_refuted : ∃ d l s, go_parse d = PErr [(NoMatch, l)] ∧
  annotated 16 (Some d) (ErrLoc "f.lit" l 1) = AShow s ∧
  line_in_question 16 d (l_line l) = Some "foo\" ∧
  sn_eof s = false ∧ sn_prefix s +:+ sn_annotated s +:+ sn_suffix s = "".
Proof. exists "foo\". eexists _, _. split; [|split; [|split]]; vm_compute; reflexivity || done. Qed.
Print Assumptions annotated_end_refuted.

(** Columns count characters and the line is cut at bytes: after a character that
    is not ASCII something else is marked, here cutting the character in two. *)
Theorem annotated_utf8_refuted : ∃ d top l s, go_parse d = PVal (VNode top) ∧
  inside top (NInvoke "foo" [] l) ∧
  annotated 16 (Some d) (ErrLoc "f.lit" l 4) = AShow s ∧
  sn_prefix s = String "195" "" ∧ sn_annotated s = String "169" "\fo" ∧ sn_suffix s = "o".
Proof.
  exists (String "195" (String "169" "\foo")). eexists _, (Loc 1 2 2), _. split; [vm_compute; reflexivity|]. split.
  - eapply inside_seq; [left|]. eapply inside_para; [left|right; left|]. apply inside_refl.
  - split; [vm_compute; reflexivity|]. done.
Qed.
Print Assumptions annotated_utf8_refuted.

(** In a line longer than the buffer, and in all lines after it, other text is
    shown: the pieces are counted as lines. *)
Theorem annotated_buffer_refuted : ∃ d k l l', shown_line (ssplit nl d) k = Some l ∧
  line_in_question 16 d (S k) = Some l' ∧ l = "short" ∧ l' = "01".
Proof. exists ("0123456789abcdef01" +:+ nls +:+ "short"), 1. eexists _, _. by vm_compute. Qed.
Print Assumptions annotated_buffer_refuted.
