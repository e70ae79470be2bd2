(** Rule by rule: the interpreter agrees with the recursive-descent parser. *)
From Coq Require Import Ascii String NArith Lia.
From stdpp Require Import base tactics relations strings numbers list.
From Verif Require Import GoBase Ast Utf8 Peg StrProofs PegBase PegTotal Descent DescentProofs.
Local Open Scope string_scope.
Local Open Scope list_scope.

Definition VNd (v : val) (nd : node) : Prop := v = VNode nd.
Definition VSq (v : val) (l : list node) : Prop := v = VNode (NSeq l).
Definition VPa (v : val) (l : list (list node)) : Prop := v = VNode (NPara l).
Definition VPr (v : val) (l : list (list node)) : Prop := v = VNode (NPre l).
Definition VDoc (v : val) (l : list (list (list node))) : Prop := v = VNode (NSeq (map NPara l)).

Lemma agree_shift {A} K e (p : nat → parser A) V : agree K e (λ n, p (S n)) V → agree K e p V.
Proof.
  intros H m k st Hk. specialize (H m k st Hk). unfold agree1 in *.
  destruct (parse_expr _ _ _ _) as [| |[v|] m' st']; try done.
  - destruct H as (a & Hv & n0 & Hn). exists a. split; [done|]. exists (S n0).
    intros [|n] Hle; [lia|]. apply Hn. lia.
  - destruct H as (Hp & n0 & Hn). split; [done|]. exists (S n0). intros [|n] Hle; [lia|]. apply Hn. lia.
Qed.

Lemma agree_rule' {A} K r (p : nat → parser A) V : agree0 K (rule_expr r) p V → agree K (ERule r) p V.
Proof. intros H. eapply agree_mono; [|by apply agree_rule]. lia. Qed.

Lemma agree0_weaken {A} K e (p : nat → parser A) (V V' : val → A → Prop) :
  (∀ v a, V v a → V' v a) → agree0 K e p V → agree0 K e p V'.
Proof.
  intros H Ha k st Hk. specialize (Ha k st Hk). unfold agree1 in *.
  destruct (parse_expr _ _ _ _) as [| |[v|] m' st']; try done.
  destruct Ha as (a & Hv & Hev). eauto 6.
Qed.

Lemma agree_ext {A} K e (p q : nat → parser A) V : (∀ n c s, p n c s = q n c s) → agree K e p V → agree K e q V.
Proof.
  intros H Ha m k st Hk. specialize (Ha m k st Hk). unfold agree1 in *.
  destruct (parse_expr _ _ _ _) as [| |[v|] m' st']; try done.
  - destruct Ha as (a & Hv & n0 & Hn). exists a. split; [done|]. exists n0. intros. rewrite <- H. auto.
  - destruct Ha as (Hp & n0 & Hn). split; [done|]. exists n0. intros. rewrite <- H. auto.
Qed.

(** Mapping the result. *)
Definition pmap {A B} (f : A → B) (p : parser A) : parser B := a <~ p; pret (f a).
Lemma agree0_map {A B} K e (p : nat → parser A) (f : A → B) (V : val → A → Prop) (V' : val → B → Prop) : (∀ v a, V v a → V' v (f a)) →
  agree0 K e p V → agree0 K e (λ n, a <~ p n; pret (f a)) V'.
Proof.
  intros H Ha k st Hk. specialize (Ha k st Hk). unfold agree1 in *.
  destruct (parse_expr _ _ _ _) as [| |[v|] m' st']; try done.
  - destruct Ha as (a & Hv & n0 & Hn). exists (f a). split; [auto|]. exists n0. intros n Hle.
    unfold pbind. by rewrite Hn.
  - destruct Ha as (Hp & n0 & Hn). split; [done|]. exists n0. intros n Hle. unfold pbind. by rewrite Hn.
Qed.

Lemma agree_seq_plain {A} K l (p : nat → parser A) : (∀ m, agreeS K l m p (λ m' _, m' = m)) →
  agree K (ESeq l) p junk.
Proof.
  intros H m k st Hk. specialize (H m). apply agree_seq in H. specialize (H k st Hk).
  unfold agree1 in *. destruct (parse_expr _ _ _ _) as [| |[v|] m' st']; try done.
  destruct H as (a & -> & Hev). exists a. done.
Qed.

(** Text of a run of characters. *)
Lemma agree0_text {A} K a e (p : nat → parser A) F (g : string → node) :
  agreeE K e [] p F → (∀ m l t s, run_action a m l t s = (Some (VNode (g t)), s)) →
  agree0 K (EAct a e) (λ n, t <~ ptext (p n); pret (g t)) VNd.
Proof.
  intros H Ha. eapply agree_act; [exact H| |].
  - intros v m' x c c' s _. exists (VNode (g (slice c c'))), s, (g (slice c c')). split_and!; [apply Ha|done|].
    intros n s0 E. unfold pbind, ptext. by rewrite E.
  - intros n c s s' E. unfold pbind, ptext. by rewrite E.
Qed.

(** Values of lists. *)
Lemma VL_nodes v l : VL VNd v l → iface_nodes v = Some l.
Proof.
  intros (vs & -> & H). unfold iface_nodes. simpl. induction H as [|w x vs l Hw _ IH]; simpl; [done|].
  rewrite Hw. simpl. by rewrite IH.
Qed.
Lemma VL_seqs v l : VL VSq v l → iface_sequences v = Some l.
Proof.
  intros (vs & -> & H). unfold iface_sequences. simpl. induction H as [|w x vs l Hw _ IH]; simpl; [done|].
  rewrite Hw. simpl. by rewrite IH.
Qed.
Lemma VL_paras v l : VL VPa v l → iface_nodes v = Some (map NPara l).
Proof.
  intros (vs & -> & H). unfold iface_nodes. simpl. induction H as [|w x vs l Hw _ IH]; simpl; [done|].
  rewrite Hw. simpl. by rewrite IH.
Qed.

(** ** Rules without recursion *)

Ltac plain V := eapply (agreeS_plain _ _ _ _ _ _ V); [done| |intros ? ? ?].
Ltac lab V := eapply (agreeS_lab _ _ _ _ _ _ _ V); [done| |intros ? ? ?].

Lemma ag_break K : agree K (ERule RLineBreak) (λ _, p_break) junk.
Proof.
  apply agree_rule', agree_0. eapply agree_choice with (ps := [(λ _, plit nls); (λ _, plit (String cr nls))]).
  - repeat constructor; by apply agree_0, agree_lit.
  - intros n c s. unfold p_break, palt. simpl. unfold palt.
    destruct (plit nls c s); try done. by destruct (plit _ c _).
Qed.

Lemma ag_blanks K : agree K star_blanks (λ _, p_blanks) junk.
Proof.
  eapply agree_weaken; [|apply agree_star, agree_0, agree_class]. done.
Qed.

Lemma ag_comment K : agree K (ERule RComment) p_comment junk.
Proof.
  induction K as [|K IH]; [intros m k st Hk; lia|].
  apply agree_shift, agree_rule, agree_0.
  cbn [rule_expr p_comment]. apply agree_seq_plain. intros m.
  plain (@junk (list unit)); [apply ag_blanks|].
  plain (@junk unit); [by apply agree_lit|].
  plain (VL (@junk unit)).
  { apply agree_star, agree_0.
    eapply agree_choice with (ps := [p_comment; (λ _, pnot (plit "-}");~ pany)]).
    - constructor; [by apply agree_0|]. constructor; [|constructor]. apply agree_0, agree_seq_plain. intros m'.
      plain (@junk unit); [by eapply agree_not, agree_0, agree_lit|].
      eapply agreeS_last; [done|apply agree_any|done].
    - intros n c s. unfold palt. simpl. unfold palt. destruct (p_comment n c s); try done.
      by destruct (pbind _ _ c _). }
  eapply agreeS_last; [done|by apply agree_lit|done].
Qed.

Lemma ag_string K : agree K (ERule RString) (λ _, p_string) VNd.
Proof.
  apply agree_rule', agree_0. eapply agree_choice with (ps := [(λ _, _); (λ _, _)]).
  - constructor; [|constructor; [|constructor]].
    + eapply (agree0_text _ _ _ (λ _, pmany1 (pclass textc)) _ NString); [|done].
      apply agreeE_lab, agree_0. eapply agree_plus; [done|]. apply agree_0, agree_class.
    + eapply (agree0_text _ _ _ (λ _, plit "\";~ pclass escc) _ (λ t, NString (sdrop 1 t))); [|done].
      eapply agree_seq with (F := λ _ _, True). plain (@junk unit); [by apply agree_lit|].
      eapply agreeS_last; [done|apply agree_class|done].
  - intros n c s. unfold p_string, palt. simpl. unfold palt.
    destruct (pbind _ _ c s); try done. by destruct (pbind _ _ c _).
Qed.

Lemma ag_vstring K : agree K (ERule RVerbatimString) (λ _, p_vstring) VNd.
Proof.
  apply agree_rule', agree_0. eapply agree_choice with (ps := [(λ _, _); (λ _, _)]).
  - constructor; [|constructor; [|constructor]].
    + eapply (agree0_text _ _ _ (λ _, pmany1 (pclass verbc)) _ NString); [|done].
      apply agreeE_lab, agree_0. eapply agree_plus; [done|]. apply agree_0, agree_class.
    + eapply (agree0_text _ _ _ (λ _, plit "}";~ pnot (plit "}}")) _ NString); [|done].
      eapply agree_seq with (F := λ _ _, True). plain (@junk unit); [by apply agree_lit|].
      eapply agreeS_last; [done|by eapply agree_not, agree_0, agree_lit|done].
  - intros n c s. unfold p_vstring, palt. simpl. unfold palt.
    destruct (pbind _ _ c s); try done. by destruct (pbind _ _ c _).
Qed.

Lemma ag_indent K : agree K (ERule RIndent) (λ _, p_indent) (λ v t, v = VStr t).
Proof.
  apply agree_rule'. cbn [rule_expr]. eapply agree_act; [apply agree_0, ag_blanks| |].
  - intros v m' x c c' s _. eexists _, _, _. split_and!; [done|done|].
    intros n s0 E. unfold p_indent, ptext. by rewrite E.
  - intros n c s s' E. unfold p_indent, ptext. by rewrite E.
Qed.

(** Blocks, of plain and of verbatim lines. *)
Lemma ag_block_line K a e (wd : nat → parser node) : lits_ascii e = true → agree K e wd VNd →
  (∀ m l t s, run_action a m l t s = (block_line m, s)) →
  agree0 K (EAct a (ESeq [ELab "indent" (ERule RIndent); ELab "words" (EStar e); ERule RLineBreak]))
    (λ n, p_block_line (wd n)) VSq.
Proof.
  intros Hl He Ha. eapply agree_act_env.
  - apply (agree_seq _ _ _ _ (λ m' x, block_line m' = Some (VNode (NSeq x)))).
    unfold p_block_line.
    lab (λ v t, v = VStr t); [apply agree_0, ag_indent|]. subst.
    lab (VL VNd); [by apply agree_0, agree_star, agree_0|].
    plain (@junk unit); [apply ag_break|].
    apply agreeS_nil. unfold block_line. simpl. by erewrite VL_nodes.
  - intros v m' x l t s E. simpl in E. rewrite Ha, E. by eexists.
Qed.

Lemma ag_block K a e (wd : nat → parser node) : lits_ascii e = true → 
  agree K e (λ n, p_block_line (wd n)) VSq →
  (∀ m l t s, run_action a m l t s =
    (ls ← iface_sequences (env_get "lines" m); Some (VNode (NPre ls)), None)) →
  agree0 K (EAct a (ESeq [ERule RLineBreak; ELab "lines" (EStar e); star_blanks]))
    (λ n, p_block (wd n)) VPr.
Proof.
  intros Hl He Ha.
  eapply (agree_act _ _ _ _ (λ n, p_break;~ ls <~ pmany (p_block_line (wd n)); p_blanks;~ pret ls)).
  - apply (agree_seq _ _ _ _ (λ m' x, iface_sequences (env_get "lines" m') = Some x)).
    plain (@junk unit); [apply ag_break|].
    lab (VL VSq); [by apply agree_0, agree_star, agree_0|].
    plain (@junk (list unit)); [apply ag_blanks|].
    apply agreeS_nil. simpl. by apply VL_seqs.
  - intros v m' x c c' s E. simpl in E. rewrite Ha, E. exists (VNode (NPre x)), None, x. split_and!; [done|done|].
    intros n s0. unfold p_block, pbind, pret, p_clear. repeat case_match; try done; by intros [= -> -> ->].
  - intros n c s s'. unfold p_block, pbind, pret, p_clear. repeat case_match; done.
Qed.

Lemma ag_vblock K : agree K (ERule RVerbatimBlock) (λ _, p_block p_vstring) VPr.
Proof.
  apply agree_rule'. eapply (ag_block _ _ _ (λ _, p_vstring)); [done| |done].
  apply agree_rule'. eapply (ag_block_line _ _ _ (λ _, p_vstring)); [done|apply ag_vstring|done].
Qed.

Lemma ag_vline K : agree K (ERule RVerbatimLine) (λ _, pmany p_vstring) VSq.
Proof.
  apply agree_rule'. eapply agree_act_env.
  - apply agreeE_lab, agree_0, agree_star, agree_0, ag_vstring.
  - intros ?v m' x l t s [-> H]. simpl. erewrite VL_nodes by done. by eexists.
Qed.

Lemma ag_verb_arg K : agree K (ERule RVerbatimArg) (λ _, p_verb_arg) VNd.
Proof.
  apply agree_rule'. eapply agree_act_env.
  - apply (agree_seq _ _ _ _ (λ m' x, env_get "node" m' = VNode x)). unfold p_verb_arg.
    plain (@junk unit); [by apply agree_lit|].
    lab VNd.
    { apply agree_0. eapply agree_choice with (ps := [(λ _, _); (λ _, _)]).
      - constructor; [|constructor; [|constructor]].
        + eapply (agree0_map _ _ _ NPre); [|apply agree_0, ag_vblock]. by intros ? ? ->.
        + eapply (agree0_map _ _ _ NSeq); [|apply agree_0, ag_vline]. by intros ? ? ->.
      - intros n c s. unfold palt. simpl. unfold palt.
        destruct (pbind _ _ c s); try done. by destruct (pbind _ _ c _). }
    plain (@junk unit); [by apply agree_lit|]. apply agreeS_nil. done.
  - intros ?v m' x l t s E. simpl in E |- *. rewrite E. by eexists.
Qed.

(** ** Rules that depend on comments and words *)

Section Rules.
  Variable K : nat.
  Variable cm : nat → parser unit.
  Variable wd : nat → parser node.
  Hypothesis Hcm : agree K (ERule RComment) cm junk.
  Hypothesis Hwd : agree K (ERule RWord) wd VNd.

  Lemma ag_spacing : agree K (ERule RCommentSpacing) (λ n, p_spacing (cm n)) junk.
  Proof.
    apply agree_rule', agree_0. eapply agree_choice with (ps := [(λ _, p_break); cm]).
    - constructor; [apply agree_0, ag_break|]. constructor; [by apply agree_0|constructor].
    - intros n c s. unfold p_spacing, palt. simpl. unfold palt. destruct (p_break c s); try done.
      by destruct (cm n c _).
  Qed.

  Lemma ag_line : agree K (ERule RLine) (λ n, p_line (wd n)) VSq.
  Proof.
    apply agree_rule'. eapply agree_act_env.
    - apply (agree_seq _ _ _ _ (λ m' x, iface_nodes (env_get "words" m') = Some x)). unfold p_line.
      plain (@junk (list unit)); [apply ag_blanks|].
      eapply agreeS_last_lab; [done|apply agree_0, agree_plus; [done|by apply agree_0]|].
      intros ? ? [? _]. simpl. by apply VL_nodes.
    - intros ?v m' x l t s E. simpl in E |- *. rewrite E. by eexists.
  Qed.

  Lemma ag_para : agree K (ERule RParagraph) (λ n, p_para (wd n)) VPa.
  Proof.
    apply agree_rule'. eapply agree_act_env.
    - apply (agreeE_lab _ _ _ _ _ (λ v l, VL VSq v l ∧ l ≠ [])), agree_0. eapply agree_plus; [done|].
      eapply agree_act_env.
      + apply (agree_seq _ _ _ _ (λ m' x, env_get "l" m' = VNode (NSeq x))).
        lab VSq; [apply agree_0, ag_line|].
        eapply agreeS_plain; [done|apply agree_opt, agree_0, ag_break|intros ? ? ?].
        apply agreeS_nil. done.
      + intros ?v m' x l t s E. simpl in E |- *. rewrite E. by eexists.
    - intros ?v m' x l t s [-> [H _]]. simpl. erewrite VL_seqs by done. by eexists.
  Qed.

  Lemma ag_paras : agree K (ERule RParagraphs) (λ n, p_paras (cm n) (wd n)) VDoc.
  Proof.
    apply agree_rule'. eapply agree_act_env.
    - apply (agree_seq _ _ _ _ (λ m' x, iface_nodes (env_get "paragraphs" m') = Some (map NPara x))). unfold p_paras.
      eapply agreeS_plain; [done|apply agree_star, agree_0, ag_spacing|intros ? ? ?].
      eapply agreeS_last_lab; [done| |].
      { apply agree_0. eapply (agree_plus _ _ _ VPa); [done|]. eapply agree_act_env.
        + apply (agree_seq _ _ _ _ (λ m' x, env_get "p" m' = VNode (NPara x))).
          lab VPa; [apply agree_0, ag_para|].
          eapply agreeS_plain; [done|apply agree_star, agree_0, ag_spacing|intros ? ? ?].
          apply agreeS_nil. done.
        + intros ?v m' x l t s E. simpl in E |- *. rewrite E. by eexists. }
      intros v' a' [H' _]. simpl. by apply VL_paras.
    - intros ?v m' x l t s E. simpl in E |- *. rewrite E. by eexists.
  Qed.

  Lemma ag_split : agree K (ERule RSplit) (λ _, p_split) VNd.
  Proof.
    apply agree_rule'.
    eapply (agree_act_env _ _ _ _ _ (λ _ _ x, x = NString " ")).
    - apply (agree_seq _ _ _ _ (λ _ x, x = NString " ")). unfold p_split.
      plain (@junk unit); [apply ag_break|].
      plain (@junk (list unit)); [apply ag_blanks|]. by apply agreeS_nil.
    - intros ?v m' x l t s ->. by eexists.
  Qed.

  Lemma ag_wrapped : agree K (ERule RWrappedLine) (λ n, p_wrapped (wd n)) VSq.
  Proof.
    apply agree_rule'. eapply agree_act_env.
    - apply (agree_seq _ _ _ _ (λ m' x, (ws ← as_list (env_get "words" m');
         iface_nodes (VList (env_get "firstWord" m' :: ws))) = Some x)). unfold p_wrapped.
      lab VNd; [by apply agree_0|].
      lab (VL VNd).
      { apply agree_0, agree_star, agree_0. eapply agree_choice with (ps := [wd; (λ _, p_split)]).
        - constructor; [by apply agree_0|]. constructor; [apply agree_0, ag_split|constructor].
        - intros n c s. unfold palt. simpl. unfold palt. destruct (wd n c s); try done.
          by destruct (p_split c _). }
      apply agreeS_nil. simpl. destruct H0 as (vs & -> & Hvs). simpl.
      unfold VNd in H. subst. apply VL_nodes. eexists. split; [done|]. by constructor.
    - intros ?v m' x l t s E. simpl in E |- *.
      destruct (as_list (env_get "words" m')) as [ws|]; simpl in *; [|done]. rewrite E. by eexists.
  Qed.

  Lemma ag_pre_arg : agree K (ERule RPreformattedArg) (λ n, p_pre_arg (wd n)) VNd.
  Proof.
    apply agree_rule'. eapply agree_act_env.
    - apply (agree_seq _ _ _ _ (λ m' x, env_get "node" m' = VNode x)). unfold p_pre_arg.
      plain (@junk unit); [by apply agree_lit|].
      lab VPr.
      { apply agree_0, agree_rule'. eapply ag_block; [done| |done].
        apply agree_rule'. eapply ag_block_line; [done|done|done]. }
      plain (@junk unit); [by apply agree_lit|]. apply agreeS_nil. done.
    - intros ?v m' x l t s E. simpl in E |- *. rewrite E. by eexists.
  Qed.

  Definition VOp (v : val) (o : option node) : Prop :=
    match o with Some nd => v = VNode nd | None => v = VNil end.

  Lemma ag_arg : agree K (ERule RArg) (λ n, p_arg (cm n) (wd n)) VNd.
  Proof.
    apply agree_rule'. eapply agree_act_env.
    - apply (agree_seq _ _ _ _ (λ m' x, match env_get "node" m' with VNil => VNode (NString "") | w => w end = VNode x)).
      unfold p_arg.
      plain (@junk unit); [by apply agree_lit|].
      eapply agreeS_lab; [done| |].
      { apply agree_0, (agree_opt _ _ _ VOp), agree_0. unfold p_arg_body.
        eapply agree_choice with (ps := [(λ n, _); (λ n, _); (λ n, _)]).
        - constructor; [|constructor; [|constructor; [|constructor]]].
          + eapply (agree0_map _ _ _ (λ ws, Some (NSeq ws))); [|apply agree_0, ag_wrapped]. by intros ? ? ->.
          + apply agree_0, agree_rule'. eapply (agree_act_env _ _ _ _ _ (λ _ m' o, VOp (env_get "paras" m') o)).
            * eapply (agree_seq _ _ _ (λ n, ps <~ p_paras (cm n) (wd n); p_blanks;~ pret (Some (NSeq (map NPara ps))))
                (λ m' o, VOp (env_get "paras" m') o)).
              lab VDoc; [apply agree_0, ag_paras|].
              plain (@junk (list unit)); [apply ag_blanks|]. apply agreeS_nil. done.
            * intros ?v m' x l t s E. simpl in E |- *. by eexists.
          + apply agree_0, agree_rule'. eapply (agree_act_env _ _ _ _ _ (λ _ _ o, o = None)).
            * eapply (agree0_map _ _ (λ n, pmany (p_spacing (cm n))) (λ _, None) (VL junk) (λ _ o, o = None)); [done|]. apply agree_0, agree_star, agree_0, ag_spacing.
            * intros ?v m' x l t s ->. by eexists.
        - intros n c s. unfold palt. simpl. unfold palt.
          destruct (pbind _ _ c s); try done. destruct (pbind _ _ c _); try done. by destruct (pbind _ _ c _). }
      intros ? o Hv. simpl in Hv.
      plain (@junk unit); [by apply agree_lit|]. apply agreeS_nil. simpl.
      destruct o as [[nd|]|]; simpl in Hv; subst; done.
    - intros ?v m' x l t s E. simpl in E |- *. rewrite E. by eexists.
  Qed.

  Lemma ag_argument : agree K (ERule RArgument) (λ n, p_argument (cm n) (wd n)) VNd.
  Proof.
    apply agree_rule', agree_0. eapply agree_choice with (ps := [(λ _, p_verb_arg); _; _]).
    - constructor; [apply agree_0, ag_verb_arg|]. constructor; [apply agree_0, ag_pre_arg|].
      constructor; [apply agree_0, ag_arg|constructor].
    - intros n c s. unfold p_argument, palt. simpl. unfold palt.
      destruct (p_verb_arg c s); try done. destruct (p_pre_arg _ c _); try done. by destruct (p_arg _ _ c _).
  Qed.

  Lemma ag_invoke : agree K (ERule RInvoke) (λ n, p_invoke (cm n) (wd n)) VNd.
  Proof.
    apply agree_rule'.
    eapply (agree_act _ _ _ _ (λ n, plit "\";~ fn <~ ptext (pmany1 (pclass namec));
      args <~ pmany (p_argument (cm n) (wd n)); pret (fn, args))).
    - apply (agree_seq _ _ _ _ (λ m' x, iface_str (env_get "name" m') = Some (fst x) ∧
        iface_nodes (env_get "args" m') = Some (snd x))).
      plain (@junk unit); [by apply agree_lit|].
      lab (λ v t, iface_str v = Some t); [apply agree_0, agree_name|].
      lab (VL VNd); [apply agree_0, agree_star, agree_0, ag_argument|].
      apply agreeS_nil. simpl. split; [done|]. by apply VL_nodes.
    - intros v m' [fn args] c c' s [E1 E2]. simpl in E1, E2.
      eexists _, s, (NInvoke fn args (cur_loc c)). split_and!; [cbn [run_action]; rewrite E1, E2; reflexivity|reflexivity|].
      intros n s0. unfold p_invoke, pbind, pret. repeat case_match; try done; intros [= -> -> -> ->]; done.
    - intros n c s s'. unfold p_invoke, pbind, pret. repeat case_match; intros [= ->]; done.
  Qed.

  Lemma ag_interp : agree K (ERule RInterpolated) (λ n, p_interp (wd n)) VNd.
  Proof.
    apply agree_rule'. eapply agree_act_env.
    - apply (agree_seq _ _ _ _ (λ m' x, match env_get "word" m' with VNil => VNode (NSeq []) | w => w end = VNode x)).
      unfold p_interp.
      plain (@junk unit); [by apply agree_lit|].
      eapply agreeS_lab; [done|by apply agree_0, agree_opt, agree_0|].
      intros ? o Hv. simpl in Hv.
      plain (@junk unit); [by apply agree_lit|]. apply agreeS_nil. simpl.
      destruct o as [nd|]; simpl in Hv; [unfold VNd in Hv|]; subst; done.
    - intros ?v m' x l t s E. simpl in E |- *. rewrite E. by eexists.
  Qed.

  Lemma ag_word_body : agree (S K) (ERule RWord) (λ n, p_word_body (cm n) (wd n)) VNd.
  Proof.
    apply agree_rule. eapply agree_act_env.
    - apply (agree_seq _ _ _ _ (λ m' x, env_get "val" m' = VNode x)). unfold p_word_body.
      eapply agreeS_plain; [done|by apply agree_opt, agree_0|intros ? ? ?].
      lab VNd.
      { apply agree_0. eapply agree_choice with (ps := [(λ _, p_string); _; _]).
        - constructor; [apply agree_0, ag_string|]. constructor; [apply agree_0, ag_invoke|].
          constructor; [apply agree_0, ag_interp|constructor].
        - intros n c s. unfold palt. simpl. unfold palt.
          destruct (p_string c s); try done. destruct (p_invoke _ _ c _); try done. by destruct (p_interp _ c _). }
      eapply agreeS_plain; [done|by apply agree_opt, agree_0|intros ? ? ?].
      apply agreeS_nil. done.
    - intros ?v m' x l t s E. simpl in E |- *. rewrite E. by eexists.
  Qed.

  Lemma ag_doc : agree K (ERule RBooklit) (λ n, p_doc (cm n) (wd n)) VDoc.
  Proof.
    apply agree_rule'. eapply agree_act_env.
    - apply (agree_seq _ _ _ _ (λ m' x, VDoc (env_get "node" m') x)). unfold p_doc.
      lab VDoc; [apply agree_0, ag_paras|].
      plain (@junk unit); [by eapply agree_not, agree_0, agree_any|]. apply agreeS_nil. done.
    - intros ?v m' x l t s E. simpl in E |- *. by eexists.
  Qed.
End Rules.

Lemma ag_word K : agree K (ERule RWord) p_word VNd.
Proof.
  induction K as [|K IH]; [intros m k st Hk; lia|].
  apply agree_shift. apply (ag_word_body K p_comment p_word); [apply ag_comment|done].
Qed.

Lemma ag_document K : agree K (ERule RBooklit) p_document VDoc.
Proof. apply (ag_doc K p_comment p_word); [apply ag_comment|apply ag_word]. Qed.
