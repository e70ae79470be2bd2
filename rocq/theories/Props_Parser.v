(** Properties of the parser (C01, C02, C07, C09). *)
From Coq Require Import Ascii String NArith Lia.
From stdpp Require Import base tactics relations strings numbers list.
From Verif Require Import GoBase Ast Utf8 Peg StrProofs PegBase PegTotal PegErrs Descent DescentProofs
  ParseSpec ParserMain Encoding Positions Runs Shape PegTwin.
Local Open Scope string_scope.
Local Open Scope list_scope.

(** ** C01: parsing always terminates *)

(** With a recursion depth linear in the input the interpreter returns a tree or
    errors, and more depth gives the same answer. *)
Theorem parse_terminates d :
  go_parse d ≠ PDeep ∧ ∀ n, depth_per_byte * S (String.length d) ≤ n → parse_with n d = go_parse d.
Proof. split; [apply go_parse_not_deep|]. intros n. apply parse_with_more. Qed.
Print Assumptions parse_terminates.

(** The same for every rule of the grammar, from every state: the depth is bounded
    by the bytes left. *)
Theorem rule_terminates r m st n :
  depth_per_byte * S (String.length (c_rest (p_pt st))) ≤ n → parse_expr n (ERule r) m st ≠ RDeep.
Proof.
  intros Hn. apply parse_returns; [destruct r; vm_compute; reflexivity|].
  rewrite Nat.mul_succ_r in Hn. unfold enough, left.
  destruct (sound_small (ERule r)) as [H _]; [destruct r; vm_compute; reflexivity|]. lia.
Qed.
Print Assumptions rule_terminates.

(** Unclosed nested comments make the parser try every nesting again; it still
    returns. *)
Example ex_terminates : go_parse "a {-{-{-" = PErr [(NoMatch, Loc 1 9 8)].
Proof. vm_compute. reflexivity. Qed.

(** ** C02: parsed documents are well shaped *)

Theorem parse_shaped d v : go_parse d = PVal v →
  ∃ ps, v = VNode (NSeq (map NPara ps)) ∧ ps ≠ [] ∧
    Forall (λ p, p ≠ [] ∧ Forall (λ l, l ≠ [] ∧ Forall (shaped d) l) p) ps.
Proof.
  intros (ps & -> & Hm & Hc)%go_parse_val. apply clean_valid in Hc.
  apply (matches_shaped d Hc) in Hm as [H1 H2]. exists ps. done.
Qed.
Print Assumptions parse_shaped.

(** The type assertions in the actions never fail. *)
Theorem actions_never_panic d errs l : go_parse d = PErr errs → (ActionPanic, l) ∉ errs.
Proof.
  intros E Hin. destruct (go_parse_cases d) as [(ps & _ & _ & H)|[(errs' & H1 & _ & H2)|(l' & s & H1 & _)]];
    rewrite E in *; simplify_eq.
  - rewrite Forall_forall in H2. destruct (H2 _ Hin) as (c & _ & _ & [=]).
  - apply elem_of_list_singleton in Hin. done.
Qed.
Print Assumptions actions_never_panic.

Example ex_shaped : ∃ v, go_parse ("Hi \foo{bar}{{{x}}}!" +:+ nls +:+ nls +:+ "Bye \{") = PVal v.
Proof. eexists. vm_compute. reflexivity. Qed.

(** ** C07: source locations of invocations are exact *)

(** Nodes inside a node. *)
Inductive inside : node → node → Prop :=
| inside_refl nd : inside nd nd
| inside_seq x l nd : x ∈ l → inside x nd → inside (NSeq l) nd
| inside_para x l ls nd : l ∈ ls → x ∈ l → inside x nd → inside (NPara ls) nd
| inside_pre x l ls nd : l ∈ ls → x ∈ l → inside x nd → inside (NPre ls) nd
| inside_arg f args l x nd : x ∈ args → inside x nd → inside (NInvoke f args l) nd.

Lemma shaped_inside d x nd : inside x nd → shaped d x → shaped d nd.
Proof.
  induction 1 as [nd|x l nd Hin H IH|x l ls nd Hl Hin H IH|x l ls nd Hl Hin H IH|f args l x nd Hin H IH];
    intros Hs; [done|..]; apply IH; inversion Hs as [|? ? ? ? ? Ha|? Ha|? ? Ha|? Ha]; subst; rewrite Forall_forall in Ha.
  - auto.
  - destruct (Ha _ Hl) as [_ Hx]. rewrite Forall_forall in Hx. auto.
  - destruct (Ha _ Hl) as [_ Hx]. rewrite Forall_forall in Hx. auto.
  - auto.
Qed.

Theorem invoke_located d top f args l : go_parse d = PVal (VNode top) → inside top (NInvoke f args l) →
  located d f l ∧ name_ok f.
Proof.
  intros E Hin. apply parse_shaped in E as (ps & [= ->] & _ & H).
  assert (shaped d (NSeq (map NPara ps))) as Hs.
  { constructor. apply Forall_map. eapply Forall_impl; [exact H|]. intros p [? ?]. by constructor. }
  apply (shaped_inside _ _ _ Hin) in Hs. inversion Hs; subst. done.
Qed.
Print Assumptions invoke_located.

(** Strings hold no line breaks. *)
Theorem string_one_line d top t : go_parse d = PVal (VNode top) → inside top (NString t) → line_free t = true.
Proof.
  intros E Hin. apply parse_shaped in E as (ps & [= ->] & _ & H).
  assert (shaped d (NSeq (map NPara ps))) as Hs.
  { constructor. apply Forall_map. eapply Forall_impl; [exact H|]. intros p [? ?]. by constructor. }
  apply (shaped_inside _ _ _ Hin) in Hs. inversion Hs; subst. done.
Qed.
Print Assumptions string_one_line.

(** An invocation inside an argument, after a multi-byte character on line 2. *)
Definition located_doc : string := "x" +:+ nls +:+ utf8 [233%N] +:+ " \a{b \c}".
Example ex_located : ∃ a b, go_parse located_doc =
    PVal (VNode (NSeq [NPara [[NString "x"]; [NString a; NInvoke "a" [NSeq [NString b; NInvoke "c" [] (Loc 2 8 10)]] (Loc 2 3 5)]]])).
Proof. eexists _, _. vm_compute. reflexivity. Qed.

(** ** C09: rejected input is reported inside the file *)

Lemma loc_in_file d c : reach (origin d) c →
  l_off (cur_loc c) ≤ String.length d ∧ 1 ≤ l_line (cur_loc c) ≤ 1 + lf_count d.
Proof.
  intros Hc. apply reach_placed in Hc as [H1 H2 H3]. simpl.
  split.
  - rewrite H1, app_length', H2. lia.
  - rewrite H3. assert (lf_count d = lf_count (stake (c_off c) d) + lf_count (c_rest c)) as ->
      by (rewrite H1 at 1; apply lf_count_app).
    unfold line_after. destruct (c_rest c) as [|a r]; simpl; [lia|]. destruct (Ascii.eqb a nl); lia.
Qed.

Theorem error_in_file d errs : go_parse d = PErr errs →
  (∃ e l, unpack_error errs = Some (e, l)) ∧
  ∀ e l, (e, l) ∈ errs → l_off l ≤ String.length d ∧ 1 ≤ l_line l ≤ 1 + lf_count d.
Proof.
  intros E. destruct (go_parse_cases d) as [(ps & _ & _ & H)|[(errs' & H1 & Hn & H2)|(l' & s & H1 & _ & H2)]];
    rewrite E in *; simplify_eq.
  - split; [destruct errs' as [|[e l] ?]; [done|by exists e, l]|]. intros e l Hin.
    rewrite Forall_forall in H2. destruct (H2 _ Hin) as (c & Hc & _ & [= -> ->]). by apply loc_in_file.
  - split; [by eexists _, _|]. intros e l [= -> ->]%elem_of_list_singleton.
    destruct H2 as [->|(c & Hc & ->)]; [simpl; lia|by apply loc_in_file].
Qed.
Print Assumptions error_in_file.

Theorem invalid_utf8_rejected d : ¬ valid_utf8 d → ∃ errs, go_parse d = PErr errs.
Proof.
  intros Hd. destruct (go_parse d) as [|errs|v] eqn:E; [by destruct (go_parse_not_deep d)|by exists errs|].
  apply go_parse_val in E as (_ & _ & _ & Hc%clean_valid). done.
Qed.
Print Assumptions invalid_utf8_rejected.

(** The location of an encoding error is that of a byte that no valid text
    continues with. *)
Theorem encoding_error_exact d errs l : go_parse d = PErr errs → (InvalidEncoding, l) ∈ errs →
  ∃ pre post, d = pre +:+ post ∧ l_off l = String.length pre ∧ post ≠ "" ∧
    l_line l = line_after pre ∧ ∀ x u, scalar x → post ≠ encode x +:+ u.
Proof.
  intros E Hin. destruct (go_parse_cases d) as [(ps & _ & _ & H)|[(errs' & H1 & Hn & H2)|(l' & s & H1 & _ & H2)]];
    rewrite E in *; simplify_eq.
  2:{ by apply elem_of_list_singleton in Hin. }
  rewrite Forall_forall in H2. destruct (H2 _ Hin) as (c & Hc & Hb & [= ->]).
  pose proof (reach_placed d c Hc) as Hp. exists (stake (c_off c) d), (c_rest c).
  split_and!; [apply Hp|simpl; by rewrite (pl_off _ _ Hp)|by apply bad_more| |].
  - simpl. rewrite (pl_line _ _ Hp). assert (at_nl (c_rest c) = false) as ->; [|done].
    pose proof (nl_rune c) as Hr. unfold bad_rune in Hb. apply andb_true_iff in Hb as [Hb _].
    apply N.eqb_eq in Hb. rewrite Hb in Hr. unfold at_nl. by rewrite <- Hr.
  - intros x u Hx Ex. unfold bad_rune, cur_rn, cur_w in Hb. rewrite Ex, decode_encode in Hb by done.
    simpl in Hb. apply andb_true_iff in Hb as [Hb1 Hb2]. apply N.eqb_eq in Hb1 as ->. done.
Qed.
Print Assumptions encoding_error_exact.

Example ex_invalid : go_parse ("a" +:+ nls +:+ "b" +:+ String "255" "") = PErr [(InvalidEncoding, Loc 2 2 3)].
Proof. vm_compute. reflexivity. Qed.
Example ex_not_valid : ¬ valid_utf8 (String "255" "").
Proof.
  intros H. apply clean_valid in H. specialize (H _ (reach_refl _)). vm_compute in H. done.
Qed.

(** What comes more than eight bytes after the place reported does not matter: up
    to there the document is beyond repair, and all documents that begin like it
    are reported at that place. *)
Theorem error_place_decides d l : go_parse d = PErr [(NoMatch, l)] →
  ∀ d', stake (l_off l + 8) d' = stake (l_off l + 8) d → go_parse d' = PErr [(NoMatch, l)].
Proof. intros H d' Hs. eapply no_match_agrees; [exact H|done]. Qed.
Print Assumptions error_place_decides.

Example ex_decides : go_parse ("a \b{c} } some words" +:+ nls) = PErr [(NoMatch, Loc 1 9 8)] ∧
  stake 16 ("a \b{c} } some words" +:+ nls) = stake 16 "a \b{c} } some w\bold{other} words".
Proof. split; vm_compute; reflexivity. Qed.

(** A reader might expect the column to count from one. It does not where the
    parse fails at a line feed: the position is then one line too far, column 0
    (booklit.peg.go:1896-1899 bumps the line on reaching the line feed). *)
Theorem error_column_refuted : ∃ d l, go_parse d = PErr [(NoMatch, l)] ∧
  l_col l = 0 ∧ l_line l = S (line_after (stake (l_off l) d)).
Proof. exists ("\" +:+ nls), (Loc 2 0 1). vm_compute. done. Qed.
Print Assumptions error_column_refuted.

(** Documents without any text are errors, and so is a last line of blanks. *)
Theorem blank_document_refuted :
  (∃ l, go_parse "" = PErr [(NoMatch, l)]) ∧ (∃ l, go_parse ("a" +:+ nls +:+ nls +:+ "{-c-} " +:+ nls) = PErr [(NoMatch, l)]) .
Proof. split; eexists; vm_compute; reflexivity. Qed.
Print Assumptions blank_document_refuted.
