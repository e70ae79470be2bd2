(** C52: transforming highlighted code. *)
From Coq Require Import Ascii String Lia.
From stdpp Require Import base tactics strings list.
From Verif Require Import GoBase StrProofs Section Content Chroma.
Local Open Scope string_scope. Local Open Scope list_scope.

(** ** What is to be shown *)

(** A string in pieces, matched or not. *)
Inductive piece := PText (s : string) | PMatch (s : string).
Definition ptext (p : piece) : string := match p with PText s | PMatch s => s end.

(** Where the matched pieces are. *)
Fixpoint matched (at_ : nat) (ps : list piece) : list (nat * nat) :=
  match ps with
  | [] => []
  | PText s :: ps => matched (at_ + String.length s) ps
  | PMatch s :: ps => (at_, at_ + String.length s) :: matched (at_ + String.length s) ps
  end.

(** Unmatched pieces are not empty and not beside each other. *)
Fixpoint maximal (ps : list piece) : Prop :=
  match ps with
  | [] => True
  | PMatch _ :: ps => maximal ps
  | PText s :: ps => s ≠ "" ∧ match ps with PText _ :: _ => False | _ => True end ∧ maximal ps
  end.

Definition splits (str : string) (ms : list (nat * nat)) (ps : list piece) : Prop :=
  sconcat (map ptext ps) = str ∧ matched 0 ps = ms ∧ maximal ps.

(** What [FindAllStringIndex] promises: matches in order, not overlapping, within
    the string. *)
Fixpoint ordered (last len : nat) (ms : list (nat * nat)) : Prop :=
  match ms with
  | [] => last ≤ len
  | (b, e) :: ms => last ≤ b ∧ b ≤ e ∧ ordered e len ms
  end.

Definition transformed (f : string → content) (p : piece) : content :=
  match p with PText s => CString s | PMatch s => f s end.

Lemma ordered_le ms : ∀ last len, ordered last len ms → last ≤ len.
Proof. induction ms as [|[b e] ms IH]; intros last len; simpl; [done|]. intros (H1 & H2 & H3%IH). lia. Qed.

Lemma sdrop_le n : ∀ s, String.length (sdrop n s) = String.length s - n.
Proof. induction n as [|n IH]; intros [|c s]; simpl; try done; try lia; apply IH. Qed.
Lemma stake_le n : ∀ s, n ≤ String.length s → String.length (stake n s) = n.
Proof. induction n as [|n IH]; intros [|c s] H; simpl in *; try done; try lia. rewrite IH; lia. Qed.
Lemma sdrop_plus a b : ∀ s, sdrop (a + b) s = sdrop b (sdrop a s).
Proof. induction a as [|a IH]; intros [|c s]; simpl; try done; try (by destruct b); apply IH. Qed.
Lemma stake_whole : ∀ s, stake (String.length s) s = s.
Proof. induction s as [|c s IH]; simpl; [done|by rewrite IH]. Qed.

Lemma cut_at s i j : i ≤ j → j ≤ String.length s →
  ∃ m, cut s i j = Some m ∧ String.length m = j - i ∧ sdrop i s = m +:+ sdrop j s.
Proof.
  intros Hij Hj. exists (stake (j - i) (sdrop i s)). unfold cut.
  assert (Nat.leb i j && Nat.leb j (String.length s) = true) as -> by (rewrite andb_true_iff, !Nat.leb_le; lia).
  split_and!; [done|apply stake_le; rewrite sdrop_le; lia|].
  assert (sdrop j s = sdrop (j - i) (sdrop i s)) as -> by (rewrite <- sdrop_plus; f_equal; lia). by rewrite stake_sdrop.
Qed.

Lemma transform_go_spec f str ms : ∀ last, ordered last (String.length str) ms →
  ∃ ps, transform_go f str last ms = Some (map (transformed f) ps) ∧
    sconcat (map ptext ps) = sdrop last str ∧ matched last ps = ms ∧ maximal ps.
Proof.
  induction ms as [|[b e] ms IH]; intros last Ho; cbn [transform_go ordered] in *.
  - destruct (Nat.ltb_spec last (String.length str)).
    + destruct (cut_at str last (String.length str)) as (m & -> & Hl & Hm); [lia|lia|]. cbn [mbind option_bind].
      exists [PText m]. simpl. split_and!; try done.
      * rewrite Hm. pose proof (sdrop_le (String.length str) str) as X. rewrite Nat.sub_diag in X.
        by destruct (sdrop (String.length str) str).
      * destruct m; [simpl in Hl; lia|done].
    + exists []. simpl. split_and!; try done.
      pose proof (sdrop_le last str) as X. destruct (sdrop _ _); [done|simpl in X; lia].
  - destruct Ho as (H1 & H2 & H3). pose proof (ordered_le _ _ _ H3) as H4.
    destruct (IH e H3) as (ps & -> & Hc & Hm & Hx).
    destruct (cut_at str b e) as (m & -> & Hlm & Hdm); [lia|lia|].
    destruct (Nat.ltb_spec last b) as [Hlt|].
    + destruct (cut_at str last b) as (u & -> & Hlu & Hdu); [lia|lia|]. cbn [mbind option_bind].
      exists (PText u :: PMatch m :: ps). split_and!.
      * done.
      * cbn [map sconcat ptext]. by rewrite Hc, <- Hdm, <- Hdu.
      * cbn [matched]. rewrite Hlu, Hlm. replace (last + (b - last)) with b by lia. replace (b + (e - b)) with e by lia.
        by rewrite Hm.
      * simpl. split_and!; [|done|done]. destruct u; [simpl in Hlu; lia|done].
    + assert (last = b) as -> by lia. cbn [mbind option_bind]. exists (PMatch m :: ps). split_and!.
      * done.
      * cbn [map sconcat ptext]. by rewrite Hc, <- Hdm.
      * cbn [matched]. rewrite Hlm. replace (b + (e - b)) with e by lia. by rewrite Hm.
      * done.
Qed.

(** [TransformAll] cuts the string at exactly the matches, in order, and loses and
    repeats nothing: the pieces concatenate to the string, matched pieces are
    transformed and the others left alone. *)
Theorem transform_all_pieces : ∀ t str, ordered 0 (String.length str) (tr_find t str) →
  ∃ ps, splits str (tr_find t str) ps ∧ transform_all t str = Some (map (transformed (tr_apply t)) ps).
Proof.
  intros t str H. destruct (transform_go_spec (tr_apply t) str _ 0 H) as (ps & H1 & H2 & H3 & H4).
  exists ps. split; [|done]. by split_and!.
Qed.
Print Assumptions transform_all_pieces.

(** There is only one such way to split a string. *)
Theorem splits_unique : ∀ str ms ps ps', splits str ms ps → splits str ms ps' → ps = ps'.
Proof.
  assert (∀ a b c d, a +:+ c = b +:+ d → String.length a = String.length b → a = b ∧ c = d) as Inj.
  { induction a as [|x a IH]; intros [|y b] c d E H; simpl in *; try lia; [done|]. injection E as -> E. injection H as H.
    by destruct (IH _ _ _ E H) as [-> ->]. }
  assert (∀ ps ms k, matched k ps = ms → maximal ps → match ps with PText s :: _ => s ≠ "" | _ => True end ∧
     ∀ b e r, ms = (b, e) :: r → k ≤ b) as Hk.
  { intros ps. induction ps as [|[s|s] ps IH]; intros ms k; simpl.
    - intros <- _. by split.
    - intros H (H1 & _ & H2). split; [done|]. intros b e r E. apply (IH _ _ H H2) in E. lia.
    - intros H _. split; [done|]. intros b e r E. rewrite E in H. by injection H as -> _ _. }
  intros str ms ps ps' (H1 & H2 & H3) (H1' & H2' & H3').
  assert (∀ ps ps' k, sconcat (map ptext ps) = sconcat (map ptext ps') → matched k ps = matched k ps' →
    maximal ps → maximal ps' → ps = ps') as X; [|eapply (X ps ps' 0); congruence].
  clear -Inj Hk. induction ps as [|p ps IH]; intros ps' k Hc Hm Hx Hx'.
  - destruct ps' as [|[s|s] ps']; [done| |done]. destruct s; [by destruct Hx'|done].
  - destruct p as [s|s]; simpl in Hc, Hm, Hx.
    + destruct Hx as (Hs & Hn & Hx). destruct ps' as [|[s'|s'] ps']; simpl in Hc, Hm, Hx'.
      * destruct s; done.
      * destruct Hx' as (Hs' & Hn' & Hx').
        assert (String.length s = String.length s') as Hl.
        { destruct (matched k (PText s :: ps)) as [|[b e] r] eqn:E; simpl in E.
          - rewrite E in Hm. destruct ps as [|[]]; [|done|done]. destruct ps' as [|[]]; [|done|done].
            simpl in Hc. rewrite !sapp_nil_r in Hc. by subst.
          - destruct ps as [|[]]; [done|done|]. destruct ps' as [|[]]; [by simpl in Hm|done|].
            simpl in Hm. injection Hm as Hm1 _ _. lia. }
        destruct (Inj _ _ _ _ Hc Hl) as [-> Hc2]. f_equal. by apply (IH ps' (k + String.length s')).
      * assert (∃ b e r, matched (k + String.length s) ps = (b, e) :: r ∧ b = k) as (b & e & r & E & ->) by eauto.
        pose proof (proj2 (Hk _ _ _ E Hx) _ _ _ eq_refl). destruct s; [done|simpl in *; lia].
    + destruct ps' as [|[s'|s'] ps']; simpl in Hc, Hm, Hx'.
      * done.
      * destruct Hx' as (Hs' & Hn' & Hx'). symmetry in Hm.
        pose proof (proj2 (Hk _ _ _ Hm Hx') _ _ _ eq_refl). destruct s'; [done|simpl in *; lia].
      * injection Hm as Hl Hm. assert (String.length s = String.length s') as Hl' by lia.
        destruct (Inj _ _ _ _ Hc Hl') as [-> Hc2]. f_equal. by apply (IH ps' (k + String.length s')).
Qed.
Print Assumptions splits_unique.

(** ** Several transformers *)

(** Text is given to the transformers one after another, and so is text made by a
    transformer, to the ones after it. Other content is final. *)
Inductive rewritten : list transformer → string → list content → Prop :=
| rw_done s : rewritten [] s [CString s]
| rw_step t ts s ps outs : splits s (tr_find t s) ps → rewritten_pieces t ts ps outs → rewritten (t :: ts) s outs
with rewritten_pieces : transformer → list transformer → list piece → list content → Prop :=
| rwp_nil t ts : rewritten_pieces t ts [] []
| rwp_string t ts p ps s o o' : transformed (tr_apply t) p = CString s → rewritten ts s o → rewritten_pieces t ts ps o' →
    rewritten_pieces t ts (p :: ps) (o ++ o')
| rwp_other t ts p ps o' : (∀ s, transformed (tr_apply t) p ≠ CString s) → rewritten_pieces t ts ps o' →
    rewritten_pieces t ts (p :: ps) (transformed (tr_apply t) p :: o').

Lemma transform_each_app t l l' : transform_each t (l ++ l') =
  (o ← transform_each t l; o' ← transform_each t l'; Some (o ++ o')).
Proof.
  induction l as [|c l IH]; cbn [app transform_each].
  - cbn [mbind option_bind]. by destruct (transform_each t l').
  - destruct (match c with CString s => _ | _ => _ end); cbn [mbind option_bind]; [|done].
    rewrite IH. destruct (transform_each t l); cbn [mbind option_bind]; [|done].
    destruct (transform_each t l'); cbn [mbind option_bind]; [|done]. by rewrite (assoc_L (++)).
Qed.
Lemma transform_seq_app ts : ∀ l l', transform_seq ts (l ++ l') =
  (o ← transform_seq ts l; o' ← transform_seq ts l'; Some (o ++ o')).
Proof.
  induction ts as [|t ts IH]; intros l l'; cbn [transform_seq]; [done|].
  rewrite transform_each_app. destruct (transform_each t l); cbn [mbind option_bind]; [|done].
  destruct (transform_each t l') as [o'|]; cbn [mbind option_bind]; [apply IH|].
  by destruct (transform_seq ts l0).
Qed.
Lemma transform_seq_other ts c : (∀ s, c ≠ CString s) → transform_seq ts [c] = Some [c].
Proof.
  intros H. induction ts as [|t ts IH]; cbn [transform_seq transform_each]; [done|].
  destruct c; try done. by edestruct H.
Qed.

(** The output of the transformers, for transformers whose matches are in order. *)
Theorem transform_seq_rewritten : ∀ ts html, Forall (λ t, ∀ s, ordered 0 (String.length s) (tr_find t s)) ts →
  ∃ l, transform_seq ts [CString html] = Some l ∧ rewritten ts html l.
Proof.
  induction ts as [|t ts IH]; intros html Ho.
  { eexists. split; [done|constructor]. }
  apply Forall_cons in Ho as [Ht Hts]. destruct (transform_all_pieces t html (Ht html)) as (ps & Hs & Ha).
  cbn [transform_seq transform_each]. rewrite Ha. cbn [mbind option_bind]. rewrite app_nil_r.
  assert (∃ o, transform_seq ts (map (transformed (tr_apply t)) ps) = Some o ∧ rewritten_pieces t ts ps o) as (o & E & Hr).
  { clear -IH Hts. induction ps as [|p ps IHp].
    - exists []. split; [|constructor]. clear. induction ts as [|t' ts IH]; [done|]. done.
    - destruct IHp as (o' & E' & Hr'). cbn [map].
      change (?x :: ?l) with ([x] ++ l). rewrite transform_seq_app, E'.
      destruct (transformed (tr_apply t) p) eqn:Ec.
      1: { destruct (IH s Hts) as (o & -> & Hr). cbn [mbind option_bind]. eexists. split; [done|]. by eapply rwp_string. }
      all: rewrite transform_seq_other by done; cbn [mbind option_bind]; eexists; split; [done|]; rewrite <- Ec; cbn [app];
           apply rwp_other; [by rewrite Ec|done]. }
  eexists. split; [done|]. by econstructor.
Qed.
Print Assumptions transform_seq_rewritten.

(** If no transformer changes what text a match stands for, whichever way text is
    read off content, the whole text is kept. *)
Scheme rewritten_mind := Induction for rewritten Sort Prop
  with rewritten_pieces_mind := Induction for rewritten_pieces Sort Prop.

(** Text goes out as it is, as raw HTML; what a transformer made of a match stays. *)
Definition goes_out (a b : content) : Prop :=
  (∃ s, a = CString s ∧ b = CStyled "raw-html" false (CString s) []) ∨ ((∀ s, a ≠ CString s) ∧ b = a).

Theorem syntax_text : ∀ (text : content → string) ts language code html c,
  (∀ s, text (CString s) = s) →
  Forall (λ t, (∀ s, ordered 0 (String.length s) (tr_find t s)) ∧ ∀ m, text (tr_apply t m) = m) ts →
  syntax_transform language code html ts = Some c →
  ∃ l out, c = CStyled (if is_flow code then "code-flow" else "code-block") (negb (is_flow code))
             (CSeq out) [("Language", Some (CString language))] ∧
    rewritten ts html l ∧ Forall2 goes_out l out ∧ sconcat (map text l) = html.
Proof.
  intros text ts language code html c Ht Hts. unfold syntax_transform.
  destruct (transform_seq_rewritten ts html) as (l & -> & Hr); [by eapply Forall_impl; [exact Hts|]; intros t []|].
  cbn [mbind option_bind]. intros [= <-]. exists l, (raw_strings l). split; [done|]. split; [done|]. split.
  { apply Forall2_fmap_r, Forall_Forall2_diag, Forall_true. intros con. destruct con; (by left; eexists) || by right. }
  assert (∀ a b, sconcat (a ++ b) = sconcat a +:+ sconcat b) as Happ.
  { clear. induction a as [|x a IH]; intros b; simpl; [done|]. by rewrite IH, sapp_assoc. }
  revert Hts. induction Hr as [s|t ts s ps outs (Hs1 & Hs2 & Hs3) Hp IH|t ts|t ts p ps s o o' E Hr IH Hp IHp|t ts p ps o' E Hp IH]
    using rewritten_mind with
    (P0 := λ t ts ps o _, (∀ m, text (tr_apply t m) = m) →
      Forall (λ t, (∀ s, ordered 0 (String.length s) (tr_find t s)) ∧ ∀ m, text (tr_apply t m) = m) ts →
      sconcat (map text o) = sconcat (map ptext ps)).
  - intros _. simpl. by rewrite Ht, sapp_nil_r.
  - intros [[_ H] Hts]%Forall_cons. by rewrite IH.
  - done.
  - intros H Hts. rewrite map_app, Happ, IH, IHp by done. cbn [map sconcat]. f_equal.
    destruct p as [s'|s']; simpl in *; [congruence|]. by rewrite <- (H s'), E, Ht.
  - intros H Hts. cbn [map sconcat]. rewrite IH by done. f_equal. destruct p as [s'|s']; simpl; [done|apply H].
Qed.
Print Assumptions syntax_text.

(** A transformer without matches that are in order is the empty one. For others
    see here: links for the letter b. *)
Definition b_find (s : string) : list (nat * nat) :=
  if String.eqb s "abcb" then [(1, 2); (3, 4)] else [].
Definition b_link := Transformer b_find (λ m, CLink (CString m) "t").
Example ex_transform : ordered 0 4 (tr_find b_link "abcb") ∧
  transform_all b_link "abcb" = Some [CString "a"; CLink (CString "b") "t"; CString "c"; CLink (CString "b") "t"].
Proof. split; [simpl; lia|reflexivity]. Qed.
Example ex_syntax : syntax_transform "go" (CString "x") "abcb" [b_link] =
  Some (CStyled "code-flow" false (CSeq [CStyled "raw-html" false (CString "a") []; CLink (CString "b") "t";
    CStyled "raw-html" false (CString "c") []; CLink (CString "b") "t"]) [("Language", Some (CString "go"))]).
Proof. reflexivity. Qed.
Example ex_ordered s : ordered 0 (String.length s) (b_find s).
Proof. unfold b_find. destruct (String.eqb_spec s "abcb") as [->|]; simpl; lia. Qed.

(** What a transformer makes as plain text goes out as HTML, not escaped. *)
Theorem transform_raw_refuted : ∃ t html m c, (∀ s, ordered 0 (String.length s) (tr_find t s)) ∧
  tr_apply t m = CString "<b>" ∧ syntax_transform "go" (CString m) html [t] = Some c ∧
  c = CStyled "code-flow" false (CSeq [CStyled "raw-html" false (CString "<b>") []]) [("Language", Some (CString "go"))].
Proof.
  exists (Transformer (λ s, if String.eqb s "x" then [(0, 1)] else []) (λ _, CString "<b>")), "x", "x". eexists.
  split_and!; try reflexivity. intros s. simpl. destruct (String.eqb_spec s "x") as [->|]; simpl; lia.
Qed.
Print Assumptions transform_raw_refuted.
